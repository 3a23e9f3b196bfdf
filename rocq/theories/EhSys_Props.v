(** Property theorems C74-C76 and the error handler's part of C68. *)
From Verif Require Import GoBase ErrHandler_Model ErrHandler_Spec ErrHandler_Proofs ErrHandler_Props EhSys_Model EhSys_Spec EhSys_Proofs.

(** A session used as example: the handler is wired and started, a report about host1 is charged, two gate calls and a
    score call are made, one of the callers gives up before it is served. *)
Definition demo_sched : list elabel :=
  [XSetProvider; XCall (KCanAddr host1); XSend 0; XStart; XReport "p" (ESent ErrChainIDMismatch); XCall (KCanPeer "p"); XAddress 1 (Some host1b);
   XTakeReport 0; XCall (KScore "q"); XAddress 2 (Some host2); XSend 2; XErrAddress 0 (Some host1); XSend 1; XExpire 1; XTimeout 1;
   XServeCan 1; XServeScore 2; XReceive 0; XServeCan 3; XReceive 2; XCall (KScore "r"); XAddress 3 None; XDisconnected 0]%Z.
Notation demo_state := (es_run demo_decay eh_defaults es_init demo_sched).
Example demo_session : match demo_state with
  | Some s => call_returned s 0 (OutCan false) /\ call_returned s 1 (OutCan false) /\ call_returned s 2 (OutScore 0) /\ call_returned s 3 (OutScore 0) /\
              length (es_log s) = 4%nat /\ es_loop s = EServing
  | None => False end.
Proof. vm_compute. repeat split; repeat eexists; reflexivity. Qed.

(** C74.  Whatever calls and reports run concurrently, the handler deals with them one after the other: scores and answers are
    those of one sequential history (to which C07-C13 apply). *)
Theorem C74_sequential : forall decay o s, es_reach decay o s ->
  eh_run decay o ∅ (served_events s) = (es_scores s, served_answers s).
Proof. intros decay o s H. by apply J1_reach. Qed.
Print Assumptions C74_sequential.
(** A call that returns with its context alive returns the right answer for its own address at some moment of that history; the
    other outcomes are those of a peer without address, and of an expired context. *)
Theorem C74_right_answers : forall decay o s i k r b x, es_reach decay o s ->
  es_calls s !! i = Some (ECall k (PDone r) b x) ->
  right_answer decay o s i k r \/
  (answer_without_address k r /\ forall a, (i, a) ∉ es_found s) \/
  (x = true /\ answer_when_expired k r).
Proof.
  intros decay o s i k r b x Hr Hi. destruct (J2_reach decay o s Hr) as (_ & _ & HL & HC & _).
  destruct (HC _ _ _ _ _ Hi) as [Hb [Hp|[Hp|Hp]]]; [right; left|right; right; destruct Hp as [-> ->]; by destruct k|left].
  { destruct Hp as (-> & Hk & Hf). split; [|done]. split; [|by destruct k; [destruct (Hk a)|..]]. destruct k as [a|p|p]; [by destruct (Hk a)|exists p; by left|exists p; by right]. }
  destruct (Hb r Hp) as [ev Hev]. destruct HL as [_ HL]. destruct (HL _ _ _ Hev) as (k1 & ph1 & x1 & H1 & Hreq).
  rewrite Hi in H1. injection H1 as <- _ _ _. by eapply log_right_answer.
Qed.
Print Assumptions C74_right_answers.
(** Every request is served at most once. *)
Theorem C74_served_once : forall decay o s n m i ev1 ev2 r1 r2, es_reach decay o s ->
  es_log s !! n = Some (Some i, ev1, r1) -> es_log s !! m = Some (Some i, ev2, r2) -> n = m.
Proof.
  intros decay o s n m i ev1 ev2 r1 r2 Hr. destruct (J2_reach decay o s Hr) as (_ & _ & [Hn _] & _). revert n m Hn.
  induction (es_log s) as [|[[y ev] r] lg IH]; intros n m Hn H1 H2; [done|].
  assert (Hin : forall j ev' r', lg !! j = Some (Some i, ev', r') -> y = Some i -> False).
  { intros j ev' r' Hj ->. cbn in Hn. apply NoDup_cons in Hn as [Hn _]. apply Hn. apply logged_in. exists ev', r'. by eapply elem_of_list_lookup_2. }
  destruct n as [|n], m as [|m]; [done| | |].
  - injection H1 as -> -> ->. exfalso. by eapply Hin.
  - injection H2 as -> -> ->. exfalso. by eapply Hin.
  - f_equal. eapply IH; [|exact H1|exact H2]. cbn in Hn. destruct y; [by apply NoDup_cons in Hn as [_ Hn]|done].
Qed.
Print Assumptions C74_served_once.
(** Every report made is charged exactly once, is being charged, or still waits at the channel: none is lost or charged twice. *)
Theorem C74_reports_once : forall decay o sched s, es_run decay o es_init sched = Some s ->
  reports_made sched ≡ₚ reports_served (served_events s) ++ report_in_hand s ++ es_reports s.
Proof. intros decay o sched s H. by eapply reports_accounted. Qed.
Print Assumptions C74_reports_once.
Example C74_nonvacuous : exists s, es_reach demo_decay eh_defaults s /\ length (served_events s) = 4%nat /\
  right_answer demo_decay eh_defaults s 0 (KCanAddr host1) (OutCan false) /\ reports_served (served_events s) = [("p", ESent ErrChainIDMismatch)].
Proof.
  assert (Hsome : is_Some demo_state) by (vm_compute; eexists; reflexivity). destruct Hsome as [s Hs]. exists s.
  assert (Hl : es_log s = default [] (es_log <$> demo_state)) by (rewrite Hs; reflexivity).
  split; [exists demo_sched; exact Hs|].
  clear Hs. assert (He : served_events s = [EvError 0 "p" (Some host1) (ESent ErrChainIDMismatch); EvCanConnect 1 host1; EvGetScore 2 host2; EvCanConnect 3 host1b]).
  { unfold served_events. rewrite Hl. vm_compute. reflexivity. }
  unfold right_answer. rewrite He. split; [reflexivity|]. split; [|reflexivity].
  exists [EvError 0 "p" (Some host1) (ESent ErrChainIDMismatch)], 1%Z, host1, [EvGetScore 2 host2; EvCanConnect 3 host1b].
  split; [reflexivity|]. split; [reflexivity|]. vm_compute. reflexivity.
Qed.

(** C75.  Callers that give up do not stop the handler: as long as its loop serves, every request that was handed over gets its
    answer after at most ten services, whatever happened to its caller or to the callers before it. *)
Theorem C75_handed_over_is_answered : forall decay o s i k a x now, es_reach decay o s -> es_loop s = EServing ->
  es_calls s !! i = Some (ECall k (PWait a) None x) ->
  exists n s1 s2 r, (n <= 10)%nat /\ es_run decay o s (replicate n (match k with KScore _ => XServeScore now | _ => XServeCan now end)) = Some s1 /\
    es_step decay o s1 (XReceive i) = Some s2 /\ call_returned s2 i r /\ es_loop s1 = EServing.
Proof.
  intros decay o s i k a x now Hr Hl Hi. destruct (waiting_answered decay o now s i k a x Hr Hl Hi) as (n & s1 & r & Hn & H1 & H2 & H3).
  assert (Hr1 : es_reach decay o s1) by by eapply reach_run.
  destruct (receive_step decay o s1 i k a r x Hr1) as (s2 & H4 & H5); [eapply no_panic; [exact Hr1|by rewrite H3]|done|].
  exists n, s1, s2, r. split; [done|]. split; [|done]. unfold serve_label in H1. by destruct k.
Qed.
Print Assumptions C75_handed_over_is_answered.
(** The loop itself is never blocked by a caller: any waiting request or report can be taken at once. *)
Theorem C75_loop_never_blocked : forall decay o s now, es_reach decay o s -> es_loop s = EServing ->
  (es_canq s <> [] -> exists s', es_step decay o s (XServeCan now) = Some s' /\ es_loop s' = EServing /\ es_canq s' = tail (es_canq s)) /\
  (es_scoreq s <> [] -> exists s', es_step decay o s (XServeScore now) = Some s' /\ es_loop s' = EServing /\ es_scoreq s' = tail (es_scoreq s)) /\
  (forall n rep, es_reports s !! n = Some rep -> exists s', es_step decay o s (XTakeReport n) = Some s' /\
     forall a, exists s'', es_step decay o s' (XErrAddress now a) = Some s'' /\ es_loop s'' = EServing).
Proof.
  intros decay o s now Hr Hl. assert (Hp : es_panic s = false) by (eapply no_panic; [exact Hr|by rewrite Hl]). split; [|split].
  - intros Hne. destruct (es_canq s) as [|[i a] q] eqn:Hq; [done|].
    destruct (serve_enabled decay o s (KCanPeer "") now i a q Hr Hl Hq) as (out & s' & k & ph & x & H1 & H2 & H3 & _).
    exists s'. split; [exact H1|]. by split.
  - intros Hne. destruct (es_scoreq s) as [|[i a] q] eqn:Hq; [done|].
    destruct (serve_enabled decay o s (KScore "") now i a q Hr Hl Hq) as (out & s' & k & ph & x & H1 & H2 & H3 & _).
    exists s'. split; [exact H1|]. by split.
  - intros n [id e] Hn. unfold es_step at 1. rewrite Hp, Hl, Hn. eexists. split; [done|]. intros a.
    unfold es_step. cbn [es_panic es_loop]. rewrite ?Hp. destruct (eh_step decay o _ _) as [st out]. eexists. split; done.
Qed.
Print Assumptions C75_loop_never_blocked.
(** A call still trying to hand over its request can also be brought to its end. *)
Theorem C75_call_can_return : forall decay o s i k a x, es_reach decay o s -> es_loop s = EServing ->
  es_calls s !! i = Some (ECall k (PSend a) None x) ->
  exists sched s' r, es_run decay o s sched = Some s' /\ call_returned s' i r /\
    Forall (fun l => l = XSend i \/ l = XReceive i \/ l = XServeCan 0 \/ l = XServeScore 0) sched.
Proof.
  intros decay o s i k a x Hr Hl Hi.
  assert (Hsend : forall s, es_reach decay o s -> es_loop s = EServing -> es_calls s !! i = Some (ECall k (PSend a) None x) -> (length (queue_for k s) < queue_cap)%nat ->
    exists sched s' r, es_run decay o s sched = Some s' /\ call_returned s' i r /\
      Forall (fun l => l = XSend i \/ l = XReceive i \/ l = XServeCan 0 \/ l = XServeScore 0) sched).
  { clear s Hr Hl Hi. intros s Hr Hl Hi Hlen.
    assert (Hp : es_panic s = false) by (eapply no_panic; [exact Hr|by rewrite Hl]).
    destruct (send_possible decay o s i k a None x Hp Hi Hlen) as (s1 & Hs1 & Hi1 & Hl1). rewrite Hl in Hl1.
    destruct (C75_handed_over_is_answered decay o s1 i k a x 0 (reach_step _ _ _ _ _ Hr Hs1) Hl1 Hi1) as (n & s2 & s3 & r & _ & H2 & H3 & H4 & _).
    exists (XSend i :: (replicate n (match k with KScore _ => XServeScore 0 | _ => XServeCan 0 end) ++ [XReceive i])), s3, r.
    split; [cbn [es_run]; rewrite Hs1, es_run_app, H2; cbn [es_run]; by rewrite H3|]. split; [done|].
    constructor; [by left|]. apply Forall_app. split; [|constructor; [by right; left|constructor]].
    apply Forall_replicate. destruct k; auto. }
  destruct (decide (length (queue_for k s) < queue_cap)%nat) as [Hlt|Hge]; [by apply Hsend|].
  destruct (queue_for k s) as [|[j b] q] eqn:Hq; [cbn in Hge; unfold queue_cap in Hge; lia|].
  destruct (serve_enabled decay o s k 0 j b q Hr Hl Hq) as (out & s1 & k1 & ph & x1 & Hst & Hl1 & Hq1 & _ & H1 & Hc & _).
  assert (Hi1 : es_calls s1 !! i = Some (ECall k (PSend a) None x)).
  { rewrite Hc. destruct (decide (j = i)) as [->|Hne]; [|by rewrite list_lookup_insert_ne].
    exfalso. destruct (J2_reach decay o s Hr) as ([_ HQ1] & [_ HQ2] & _). unfold queue_for in Hq.
    destruct (is_score k); [destruct (HQ2 i b) as (? & ? & ? & E & _ & E' & _)|destruct (HQ1 i b) as (? & ? & ? & E & _ & E' & _)];
      try (rewrite Hq; left); rewrite Hi in E; injection E as <- <- <-; destruct E' as [E'|[? E']]; discriminate E'. }
  destruct (Hsend s1) as (sched & s' & r & H2 & H3 & H4); [by eapply reach_step|done|done| |].
  { rewrite Hq1. destruct (J3_reach decay o s Hr) as (_ & Hb1 & Hb2 & _).
    assert (length (queue_for k s) <= queue_cap)%nat as Hb by (unfold queue_for; by destruct (is_score k)). rewrite Hq in Hb. cbn [length] in Hb. lia. }
  exists (serve_label k 0 :: sched), s', r. split; [cbn [es_run]; by rewrite Hst|]. split; [done|].
  constructor; [|done]. unfold serve_label. destruct (is_score k); auto.
Qed.
Print Assumptions C75_call_can_return.
Ltac es_cases Hst lab :=
  destruct lab; unfold es_step, serve, set_calls, set_loop, set_disc in Hst;
  repeat (case_match; try discriminate Hst); injection Hst as <-;
  cbn [es_provider es_loop es_scores es_canq es_scoreq es_calls es_reports es_disc es_cancelled es_panic es_log es_found] in *.
(** The handler serves from Start (its address provider being set) until its context ends. *)
Theorem C75_serves_until_cancelled : forall decay o sched1 sched2 s, XSetProvider ∈ sched1 -> XCancel ∉ sched1 ++ sched2 ->
  es_run decay o es_init (sched1 ++ XStart :: sched2) = Some s -> es_loop s = EServing \/ exists id e, es_loop s = EAddress id e.
Proof.
  intros decay o sched1 sched2 s Hp Hc Hr. rewrite es_run_app in Hr. destruct (es_run decay o es_init sched1) as [s1|] eqn:H1; [|done].
  assert (Hset : forall sched t t', es_run decay o t sched = Some t' -> XCancel ∉ sched ->
    (es_provider t = true \/ XSetProvider ∈ sched -> es_provider t' = true) /\ es_cancelled t' = es_cancelled t).
  { induction sched as [|lab sched IH]; intros t t' H Hnc; [injection H as <-; split; [|done]; intros [?|Hin]; [done|by apply elem_of_nil in Hin]|].
    cbn [es_run] in H. destruct (es_step decay o t lab) as [t1|] eqn:Hst; [|done]. apply not_elem_of_cons in Hnc as [Hne Hnc].
    destruct (IH t1 t' H Hnc) as [IH1 ->]. split.
    - intros Hor. apply IH1. destruct (decide (es_provider t1 = true)) as [?|Hno]; [by left|right].
      assert (Hpt : es_provider t = true -> es_provider t1 = true).
      { intros Ht. es_cases Hst lab; done. }
      destruct Hor as [Hor|Hor]; [by destruct Hno; apply Hpt|]. apply elem_of_cons in Hor as [<-|Hor]; [|done].
      exfalso. apply Hno. unfold es_step in Hst. destruct (es_panic t); [done|]. by injection Hst as <-.
    - es_cases Hst lab; done. }
  apply not_elem_of_app in Hc as [Hc1 Hc2]. destruct (Hset _ _ _ H1 Hc1) as [Hpr Hcan]. cbn [es_run] in Hr.
  destruct (es_step decay o s1 XStart) as [s2|] eqn:H2; [|done].
  assert (Hs2 : es_loop s2 = EServing /\ es_cancelled s2 = false).
  { unfold es_step in H2. destruct (es_panic s1); [done|]. destruct (es_loop s1); try done. rewrite Hpr in H2 by by right. injection H2 as <-. done. }
  destruct Hs2 as [Hl2 Hc3]. clear H1 H2 Hcan Hpr Hp. revert s2 Hl2 Hc3 Hr.
  assert (HG : forall sched t, XCancel ∉ sched -> (es_loop t = EServing \/ exists id e, es_loop t = EAddress id e) -> es_cancelled t = false ->
    es_run decay o t sched = Some s -> es_loop s = EServing \/ exists id e, es_loop s = EAddress id e).
  { induction sched as [|lab sched IH]; intros t Hnc Hl Ht H; [by injection H as <-|]. cbn [es_run] in H.
    destruct (es_step decay o t lab) as [t1|] eqn:Hst; [|done]. apply not_elem_of_cons in Hnc as [Hne Hnc].
    apply (IH t1 Hnc); [|es_cases Hst lab; done|done].
    es_cases Hst lab; try done; try (by left); try (by right; repeat eexists);
      try (by destruct Hl as [Hl|(? & ? & Hl)]; rewrite ?Hl in *; [left|right; repeat eexists]); congruence. }
  intros s2 Hl2 Hc3 Hr. eapply (HG sched2 s2); [done|by left|done|done].
Qed.
Print Assumptions C75_serves_until_cancelled.
(** In the example the caller of call 1 gave up before it was served, and the loop went on. *)
Example C75_nonvacuous : exists s, es_run demo_decay eh_defaults es_init (take 15 demo_sched) = Some s /\ es_loop s = EServing /\
  es_calls s !! 0%nat = Some (ECall (KCanAddr host1) (PWait host1) None false) /\ call_returned s 1 (OutCan false) /\ length (es_canq s) = 2%nat.
Proof. eexists. split; [vm_compute; reflexivity|]. vm_compute. repeat split; repeat eexists. Qed.

(** C76.  The handler is a connection gater as soon as it is passed to the host, before its address provider is set and before it is
    started.  REFUTED: a peer gate then panics, and an address gate does not answer. *)
Definition C76_statement : Prop := forall decay o sched s, es_run decay o es_init sched = Some s -> es_panic s = false.
Theorem C76_gater_usable_at_once_refuted : ~ C76_statement.
Proof. intros H. assert (Hf := H (fun s _ => s) eh_defaults [XCall (KCanPeer "p")] _ eq_refl). discriminate Hf. Qed.
Print Assumptions C76_gater_usable_at_once_refuted.
Theorem C76_no_answer_before_start : forall decay o sched s i a x r b,
  XStart ∉ sched \/ XSetProvider ∉ sched -> es_run decay o es_init sched = Some s ->
  es_calls s !! i = Some (ECall (KCanAddr a) (PDone r) b x) -> x = true.
Proof.
  intros decay o sched s i a x r b Hno Hr Hi. destruct (not_serving decay o sched s Hno Hr) as (_ & Hlog & _).
  destruct (J2_reach decay o s) as (_ & _ & _ & HC & _); [by exists sched|]. destruct (HC _ _ _ _ _ Hi) as [Hb [(_ & Hp & _)|[[Hp _]|Hp]]].
  - by destruct (Hp a).
  - done.
  - destruct (Hb r Hp) as [ev Hev]. rewrite Hlog in Hev. by apply elem_of_nil in Hev.
Qed.
Print Assumptions C76_no_answer_before_start.
(** What holds: once the provider is set no call panics, and a gate call made before Start is answered after it. *)
Theorem C76_usable_once_wired_partial : forall decay o sched1 sched2 s,
  es_run decay o es_init (XSetProvider :: sched1) = Some s -> es_panic s = false /\
  (es_loop s = ENotStarted -> forall s', es_step decay o s XStart = Some s' -> es_loop s' = EServing /\
     forall s'', es_run decay o s' sched2 = Some s'' -> es_panic s'' = false).
Proof.
  intros decay o sched1 sched2 s Hr.
  assert (Hpv : forall sched s s', es_run decay o s sched = Some s' -> es_provider s = true -> es_provider s' = true).
  { induction sched as [|lab sched IH]; intros s1 s2 H1 H2; [by injection H1 as <-|].
    cbn [es_run] in H1. destruct (es_step decay o s1 lab) as [s3|] eqn:H3; [|done]. apply (IH s3); [done|].
    destruct lab; try (etransitivity; [eapply (provider_step decay o s1 _ s3); [|exact H3]; discriminate|exact H2]).
    unfold es_step in H3. destruct (es_panic s1); [done|]. by injection H3 as <-. }
  assert (Hreach : es_reach decay o s) by by eexists.
  assert (Hp : es_provider s = true) by (eapply (Hpv sched1); [exact Hr|done]).
  destruct (J3_reach decay o s Hreach) as (_ & _ & _ & _ & Hpn). split; [auto|]. intros Hl s' Hst.
  assert (Hst' := Hst). unfold es_step in Hst. rewrite (Hpn Hp), Hl, Hp in Hst. injection Hst as <-. split; [done|]. intros s'' Hr2.
  assert (Hreach2 : es_reach decay o s'') by (eapply reach_run; [eapply reach_step; [exact Hreach|exact Hst']|exact Hr2]).
  destruct (J3_reach decay o s'' Hreach2) as (_ & _ & _ & _ & Hpn2). apply Hpn2. by eapply Hpv.
Qed.
Print Assumptions C76_usable_once_wired_partial.

(** C68 for the error handler.  REFUTED: the hand-over of a request does not watch the caller's context.  When the loop has ended and
    ten requests wait, the eleventh call never returns, although its context is done. *)
Definition many_calls (n : nat) : list elabel :=
  flat_map (fun i => [XCall (KCanAddr (Maddr "/ip4/1.1.1.1" [])); XSend i]) (seq 0 n).
Definition late_call : list elabel := [XSetProvider; XStart; XCancel; XExit] ++ many_calls 10 ++ [XCall (KCanAddr (Maddr "/ip4/1.1.1.1" [])); XExpire 10].
Theorem C68_gate_returns_refuted : forall decay o, exists s,
  es_run decay o es_init late_call = Some s /\ es_calls s !! 10%nat = Some (ECall (KCanAddr (Maddr "/ip4/1.1.1.1" [])) (PSend (Maddr "/ip4/1.1.1.1" [])) None true) /\
  forall sched s' r, es_run decay o s sched = Some s' -> ~ call_returned s' 10 r.
Proof.
  intros decay o. eexists. split; [vm_compute; reflexivity|]. split; [done|]. intros sched s' r Hr.
  apply stuck_never_returns. eapply stuck_run; [|exact Hr]. split; [done|]. split; [by repeat eexists|vm_compute; lia].
Qed.
Print Assumptions C68_gate_returns_refuted.
(** What holds: a call whose request was handed over returns as soon as its context is done, in every state. *)
Theorem C68_handed_over_gate_returns_partial : forall decay o s i k a b, es_panic s = false ->
  es_calls s !! i = Some (ECall k (PWait a) b true) ->
  exists s' r, es_step decay o s (XTimeout i) = Some s' /\ call_returned s' i r /\ answer_when_expired k r.
Proof.
  intros decay o s i k a b Hp Hi. unfold es_step. rewrite Hp, Hi. eexists _, (gave_up k). split; [done|]. split; [|by destruct k].
  exists k, b, true. cbn. apply list_lookup_insert. by eapply lookup_lt_Some.
Qed.
Print Assumptions C68_handed_over_gate_returns_partial.
