(** Property theorems C82-C85: the error handler and the connection manager wired together as in the node. *)
From Verif Require Import GoBase ErrHandler_Model ErrHandler_Spec ErrHandler_Proofs ErrHandler_Props EhSys_Model EhSys_Spec EhSys_Proofs EhSys_Props
  ConnMgr_Model ConnMgr_Spec ConnMgr_Proofs Asm_Model Asm_Spec Asm_Proofs.

(** An example: a peer connects, misbehaves and asks for the gate. *)
Definition demo_conn : conn := Conn "p" host1 0.
Definition as_demo : list alabel :=
  [AEh XStart; ACm LStarted; ACm (LNotify (NConnected demo_conn)); ACm (LTakeEvent 0); AEh (XReport "p" (ESent ErrChainIDMismatch)); AEh (XCall (KCanPeer "p")); AEh (XReport "q" (ESent ErrForkBomb))].
Definition as_demo_rest : list alabel :=
  [AEh (XTakeReport 0); ACm (LTakeQuery 1); ACm LReply; ACm (LTakeQuery 0); ACm LReply; AErrAnswer 5; AAnswer 0; AEh (XSend 0); AEh (XServeCan 6); AEh (XReceive 0);
   AEh (XTakeReport 0); ACm (LTakeQuery 2); ACm LReply; AErrAnswer 7]%Z.
Notation demo_run l := (as_run demo_decay eh_defaults (as_init ["s"] []) l).

(** ** C82 *)
(** The node is wired and started without connections.  As long as no context ends, whatever has happened (notifications, reports, calls,
    in any order): the steps the two components take by themselves come to an end, and they can only stop when every notification is
    handled, every call of both components has returned and every report has been dealt with.  So there is no deadlock and no endless
    internal work, whichever way the scheduler chooses. *)
Theorem C82_every_maximal_run_settles : forall decay o initial sched s,
  as_run decay o (as_init initial []) sched = Some s -> AEh XStart ∈ sched -> Forall (fun lab => context_ends lab = false) sched ->
  (exists n, forall rest s', Forall (fun lab => internal lab = true) rest -> as_run decay o s rest = Some s' -> (length rest <= n)%nat) /\
  (forall rest s', Forall (fun lab => internal lab = true) rest -> as_run decay o s rest = Some s' ->
     settled s' \/ exists lab s'', internal lab = true /\ as_step decay o s' lab = Some s'').
Proof.
  intros decay o initial sched s Hr Hst HF.
  assert (Hre : as_reach decay o initial [] s) by by eexists.
  assert (Ha : alive s) by (eapply alive_run; [exact Hr|done|split; [done|constructor]]).
  assert (Hl : running_loop (as_eh s)) by by eapply started_running.
  assert (Hint : forall rest, Forall (fun lab => internal lab = true) rest -> Forall (fun lab => context_ends lab = false) rest).
  { intros rest H. eapply Forall_impl; [exact H|]. intros lab. apply internal_alive. }
  split.
  - exists (weight s). intros rest. clear Hr Hre Hl HF Hst. revert s Ha. induction rest as [|lab rest IH]; intros s Ha s' HF Hr; [cbn; lia|].
    cbn [as_run] in Hr. destruct (as_step decay o s lab) as [s1|] eqn:H1; [|done]. apply Forall_cons in HF as [HF1 HF].
    assert (Ha1 : alive s1) by (eapply alive_step; [exact H1|by apply internal_alive|done]).
    pose proof (weight_step decay o s lab s1 (proj1 Ha) H1 HF1). pose proof (IH s1 Ha1 s' HF Hr). cbn [length]. lia.
  - intros rest s' HF' Hr'. eapply progress; [eapply as_reach_run; [exact Hre|exact Hr']|eapply alive_run; [exact Hr'|by apply Hint|done]|].
    eapply running_as_run; [exact Hre|exact Hr'|by apply Hint|done|done].
Qed.
Print Assumptions C82_every_maximal_run_settles.
(** In particular such an end can be reached. *)
Theorem C82_can_settle : forall decay o initial sched s,
  as_run decay o (as_init initial []) sched = Some s -> AEh XStart ∈ sched -> Forall (fun lab => context_ends lab = false) sched ->
  exists rest s', Forall (fun lab => internal lab = true) rest /\ as_run decay o s rest = Some s' /\ settled s'.
Proof.
  intros decay o initial sched s Hr Hst HF. destruct (C82_every_maximal_run_settles _ _ _ _ _ Hr Hst HF) as [[n Hn] Hp].
  assert (Hgo : forall m rest s', (n - length rest <= m)%nat -> Forall (fun lab => internal lab = true) rest -> as_run decay o s rest = Some s' ->
    exists rest s', Forall (fun lab => internal lab = true) rest /\ as_run decay o s rest = Some s' /\ settled s').
  { induction m as [|m IH]; intros rest s' Hm HF' Hr'; (destruct (Hp rest s' HF' Hr') as [Hs|(lab & s'' & Hl & Hst')]; [by exists rest, s'|]).
    all: assert (Hr'' : as_run decay o s (rest ++ [lab]) = Some s'') by (rewrite as_run_app, Hr'; cbn [as_run]; by rewrite Hst').
    all: assert (HF'' : Forall (fun lab => internal lab = true) (rest ++ [lab])) by (apply Forall_app; split; [done|by constructor]).
    all: pose proof (Hn _ _ HF'' Hr'') as Hlen; rewrite app_length in Hlen; cbn in Hlen.
    - lia.
    - apply (IH (rest ++ [lab]) s''); [rewrite app_length; cbn; lia|done|done]. }
  apply (Hgo n [] s); [cbn; lia|constructor|done].
Qed.
Print Assumptions C82_can_settle.
(** What a settled state means for the reports and the callers: each report was charged or dropped. *)
Theorem C82_settled_reports : forall decay o initial existing s, as_reach decay o initial existing s -> settled s ->
  (forall i c, es_calls (as_eh s) !! i = Some c -> exists r, call_returned (as_eh s) i r) /\
  (forall j c, cm_callers (as_cm s) !! j = Some c -> exists a, returned (as_cm s) j a) /\
  forall sched, es_run decay o es_init sched = Some (as_eh s) -> reports_made sched ≡ₚ reports_served (served_events (as_eh s)).
Proof.
  intros decay o initial existing s Hr (_ & Hc & He & Hrep & Hin & _). split; [|split].
  - intros i [k ph b x] Hi. destruct (Forall_lookup_1 _ _ _ _ He Hi) as [r Hx]. cbn in Hx. subst ph. exists r. by exists k, b, x.
  - intros j [q st x] Hj. destruct (Forall_lookup_1 _ _ _ _ Hc Hj) as [a Hx]. cbn in Hx. subst st. exists a. by exists q, x.
  - intros sched Hs. pose proof (C74_reports_once _ _ _ _ Hs) as H. by rewrite Hrep, Hin, !app_nil_r in H.
Qed.
Print Assumptions C82_settled_reports.
Example C82_nonvacuous : exists s s', demo_run as_demo = Some s /\ AEh XStart ∈ as_demo /\ Forall (fun lab => context_ends lab = false) as_demo /\ ~ settled s /\
  as_run demo_decay eh_defaults s as_demo_rest = Some s' /\ Forall (fun lab => internal lab = true) as_demo_rest /\ settled s' /\
  call_returned (as_eh s') 0 (OutCan false) /\ length (served_events (as_eh s')) = 3%nat.
Proof.
  eexists _, _. split; [vm_compute; reflexivity|]. split; [left|]. split; [by repeat constructor|]. split; [intros (_ & H & _); apply Forall_cons in H as [[a H] _]; discriminate H|].
  split; [vm_compute; reflexivity|]. split; [by repeat constructor|]. split; [|split; [by repeat eexists|reflexivity]].
  split; [done|]. split; [repeat constructor; by eexists|]. split; [repeat constructor; by eexists|]. done.
Qed.

(** ** C83 *)
(** A report taken from the channel is charged to the address of the connection that began the peer's session, as of a moment between the
    taking and the charging; it is dropped only if the peer was not connected at such a moment, or the node is being stopped. *)
Theorem C83_charged_to_the_peer : forall decay o initial existing sched0 s1 k id e s1' sched s2 now s3,
  as_run decay o (as_init initial existing) sched0 = Some s1 -> es_reports (as_eh s1) !! k = Some (id, e) ->
  as_step decay o s1 (AEh (XTakeReport k)) = Some s1' -> as_run decay o s1' sched = Some s2 -> (forall t, AErrAnswer t ∉ sched) ->
  as_step decay o s2 (AErrAnswer now) = Some s3 ->
  exists a, served_events (as_eh s3) = served_events (as_eh s2) ++ [EvError now id a e] /\
    ((a = None /\ node_stopped s2 = true) \/ exists h, between s1 s2 h /\ found_peer h id a).
Proof.
  intros decay o initial existing sched0 s1 k id e s1' sched s2 now s3 H0 Hrep Htake Hrun Hno Hans.
  assert (Hre1 : as_reach decay o initial existing s1) by by eexists.
  assert (Hre1' : as_reach decay o initial existing s1') by by eapply as_reach_step.
  assert (Hre2 : as_reach decay o initial existing s2) by by eapply as_reach_run.
  assert (Hj : as_err s1' = Some (length (cm_callers (as_cm s1))) /\ es_loop (as_eh s1') = EAddress id e).
  { cbn [as_step] in Htake. apply bind_Some in Htake as (e' & He & Hst). pose proof (es_loop_step decay o _ _ _ He) as (id' & er' & Hr' & Hl1 & _).
    rewrite Hrep in Hr', Hst. injection Hr' as <- <-. cbn [mbind option_bind] in Hst. apply bind_Some in Hst as (c & Hc & Hst). apply bind_Some in Hst as (c' & Hc' & Hs). injection Hs as <-. done. }
  destruct Hj as [Hj Hl]. destruct (err_kept_run decay o initial existing sched s1' s2 _ id e Hre1' Hrun Hno Hj Hl) as [Hj2 Hl2].
  cbn [as_step] in Hans. rewrite Hj2 in Hans. cbn [mbind option_bind] in Hans.
  destruct (cm_callers (as_cm s2) !! length (cm_callers (as_cm s1))) as [[q [| |[a| |]] x]|] eqn:Hc; try discriminate Hans.
  apply bind_Some in Hans as (e' & He & Hs). injection Hs as <-. exists a. cbn [as_eh]. split.
  - unfold es_step in He. destruct (es_panic _); [done|]. rewrite Hl2 in He. destruct (eh_step decay o _ _) as [st out]. injection He as <-.
    unfold served_events. cbn [es_log rev]. by rewrite map_app.
  - destruct (KInv_reach decay o _ _ _ Hre2) as (_ & _ & _ & _ & HE & HC & _). rewrite Hj2 in HE. destruct HE as (id' & e1 & st & x' & G1 & G2 & G3 & _).
    rewrite Hl2 in G1. injection G1 as <- <-. rewrite Hc in G2. injection G2 as -> <- <-.
    destruct (answered_between decay o initial existing s1 (AEh (XTakeReport k) :: sched) s2 (length (cm_callers (as_cm s1))) id a x Hre1) as [[Hx Ha]|Hh]; [|done|done|left|by right].
    + cbn [as_run]. by rewrite Htake.
    + split; [done|]. unfold node_stopped. rewrite HC. auto.
Qed.
Print Assumptions C83_charged_to_the_peer.
(** Nothing else is charged: requests served in a step that is not the return of GetPeerAddress to handleError are not reports. *)
Theorem C83_nothing_else_charged : forall decay o s lab s', as_step decay o s lab = Some s' -> (forall t, lab <> AErrAnswer t) ->
  reports_served (served_events (as_eh s')) = reports_served (served_events (as_eh s)).
Proof.
  intros decay o s lab s' Hst Hl.
  assert (Hes : forall l e', es_step decay o (as_eh s) l = Some e' -> (forall t a, l <> XErrAddress t a) -> reports_served (served_events e') = reports_served (served_events (as_eh s))).
  { clear. intros l e' Hst Hl. destruct (as_eh s) as [pv lp sc cq sq ca rp dc cc pn lg fd]. es_cases Hst l; subst; try done; try (by edestruct Hl);
      unfold served_events; cbn [es_log rev]; rewrite map_app; unfold reports_served; rewrite omap_app; cbn; by rewrite app_nil_r. }
  destruct lab as [l|l| |i|now]; cbn [as_step] in Hst; [..|by destruct (Hl now)].
  - destruct l; try (destruct (decide _) in Hst); try discriminate Hst; apply bind_Some in Hst as (c & Hc & Hs); by injection Hs as <-.
  - apply bind_Some in Hst as (e & He & Hst). assert (as_eh s' = e /\ forall t a, l <> XErrAddress t a) as [-> Hn]; [|by eapply Hes].
    destruct l as [| | |k|i|i a|i|now|now|i|i|id er|k|now a|k|k|]; try discriminate Hst; try (by injection Hst as <-).
    + destruct k as [a|p|p]; [by injection Hst as <-|apply bind_Some in Hst as (c & Hc & Hs); by injection Hs as <-..].
    + apply bind_Some in Hst as (c & Hc & Hs); by injection Hs as <-.
    + apply bind_Some in Hst as ([id er] & _ & Hst). apply bind_Some in Hst as (c & Hc & Hst). apply bind_Some in Hst as (c' & Hc' & Hs). by injection Hs as <-.
  - apply bind_Some in Hst as (e & He & Hst). apply bind_Some in Hst as (c & Hc & Hst). apply bind_Some in Hst as (c' & Hc' & Hs). injection Hs as <-. by eapply Hes.
  - apply bind_Some in Hst as (j & Hj & Hst). destruct (cm_callers (as_cm s) !! j) as [[q [| |[a| |]] x]|]; try discriminate Hst.
    apply bind_Some in Hst as (e & He & Hs). injection Hs as <-. by eapply Hes.
Qed.
Print Assumptions C83_nothing_else_charged.
(** In the example the report about the connected peer is charged to its host, the one about the unknown peer is dropped. *)
Example C83_nonvacuous : exists s1 s1' s2 s3, demo_run as_demo = Some s1 /\ es_reports (as_eh s1) !! 0%nat = Some ("p", ESent ErrChainIDMismatch) /\
  as_step demo_decay eh_defaults s1 (AEh (XTakeReport 0)) = Some s1' /\ as_run demo_decay eh_defaults s1' [ACm (LTakeQuery 1); ACm LReply] = Some s2 /\
  as_step demo_decay eh_defaults s2 (AErrAnswer 5) = Some s3 /\ served_events (as_eh s3) = [EvError 5 "p" (Some host1) (ESent ErrChainIDMismatch)] /\
  handled s1 = [NConnected demo_conn].
Proof. eexists _, _, _, _. repeat (split; [vm_compute; reflexivity|]). vm_compute. reflexivity. Qed.

(** ** C84 *)
(** A gate or score call about a peer, made in state [s1] and returned in state [s2]: if its context is alive, it was answered for the
    address the peer was connected from at a moment of the call, or the peer was not connected at such a moment and the answer is that of
    a peer without errors. *)
Theorem C84_peer_gates : forall decay o initial existing sched0 s1 k p s1' sched s2 r b x,
  as_run decay o (as_init initial existing) sched0 = Some s1 -> k = KCanPeer p \/ k = KScore p ->
  as_step decay o s1 (AEh (XCall k)) = Some s1' -> as_run decay o s1' sched = Some s2 ->
  es_calls (as_eh s2) !! length (es_calls (as_eh s1)) = Some (ECall k (PDone r) b x) ->
  (exists h a, between s1 s2 h /\ connected_from h p a /\ answered_about decay o s2 k a r) \/
  (exists h, between s1 s2 h /\ ~ last_connected h p /\ answer_without_address k r) \/
  (x = true /\ (answer_without_address k r \/ answer_when_expired k r)).
Proof.
  intros decay o initial existing sched0 s1 k p s1' sched s2 r b x H0 Hk Hcall Hrun Hret.
  assert (Hre1 : as_reach decay o initial existing s1) by by eexists.
  assert (Hre2 : as_reach decay o initial existing s2) by (eapply as_reach_run; [by eapply as_reach_step|exact Hrun]).
  set (i := length (es_calls (as_eh s1))) in *. set (j := length (cm_callers (as_cm s1))).
  assert (Hin1 : (i, j) ∈ as_calls s1').
  { cbn [as_step] in Hcall. apply bind_Some in Hcall as (e & He & Hst).
    destruct Hk as [->| ->]; apply bind_Some in Hst as (c & Hc & Hs); injection Hs as <-; cbn; apply elem_of_app; right; left. }
  assert (Hin2 : (i, j) ∈ as_calls s2) by by eapply calls_grow_run.
  destruct (KInv_reach decay o _ _ _ Hre2) as (_ & _ & HL & _). destruct (HL _ _ Hin2) as (k1 & ph & b1 & x1 & p1 & st & x2 & G1 & G2 & G3 & G4 & G5).
  rewrite Hret in G1. injection G1 as <- <- <- <-.
  assert (p1 = p) as -> by (destruct Hk as [->| ->]; cbn in G2; congruence).
  destruct G5 as [G5|(a & -> & G5)]; [discriminate G5|].
  pose proof (answered_between decay o initial existing s1 (AEh (XCall k) :: sched) s2 j p a x2 Hre1) as Hb.
  destruct Hb as [[Hx Ha]|(h & Hh & Hf)]; [cbn [as_run]; by rewrite Hcall|unfold j; lia|exact G3|..].
  - subst a. right; right. split; [auto|]. left. destruct G5 as [G5 _]. injection G5 as ->. split; [exists p; done|]. by destruct Hk as [-> | ->].
  - destruct a as [a|].
    + destruct G5 as [Hfd Huniq]. destruct (proj_reach decay o _ _ _ Hre2) as [_ Her2].
      destruct (C74_right_answers decay o (as_eh s2) i k r b x Her2 Hret) as [Hra|[[_ Hno]|[Hx Hw]]]; [left|by destruct (Hno a)|right; right; by auto].
      exists h, a. split; [done|]. split; [exact Hf|]. destruct Hra as (hist & now & a' & later' & Ha' & Hra).
      assert (a' = a) as -> by (destruct Hk as [-> | ->]; by apply Huniq). exists hist, now, later'. exact Hra.
    + right; left. exists h. split; [done|]. split; [exact Hf|]. destruct G5 as [G5 _]. injection G5 as ->. split; [exists p; done|]. by destruct Hk as [-> | ->].
Qed.
Print Assumptions C84_peer_gates.
Example C84_nonvacuous : exists s1 s1' s2, demo_run (take 5 as_demo) = Some s1 /\ as_step demo_decay eh_defaults s1 (AEh (XCall (KCanPeer "p"))) = Some s1' /\
  as_run demo_decay eh_defaults s1' (drop 6 as_demo ++ as_demo_rest) = Some s2 /\
  es_calls (as_eh s2) !! length (es_calls (as_eh s1)) = Some (ECall (KCanPeer "p") (PDone (OutCan false)) (Some (OutCan false)) false).
Proof. eexists _, _, _. repeat (split; [vm_compute; reflexivity|]). vm_compute. reflexivity. Qed.

(** ** C85 *)
(** Full statement: what C82 says, whatever connections the host has when the manager is started.  REFUTED. *)
Definition C85_statement : Prop := forall decay o initial existing sched s,
  as_run decay o (as_init initial existing) sched = Some s -> AEh XStart ∈ sched -> Forall (fun lab => context_ends lab = false) sched ->
  exists rest s', as_run decay o s rest = Some s' /\ es_reports (as_eh s') = [] /\ report_in_hand (as_eh s') = [].
(** With a connection at start-up the manager never answers: the first report taken stops the handler for ever, whatever happens
    (also when the node's context ends), and no gate, score or report is served from then on. *)
Theorem C85_first_report_stops_the_handler : forall decay o initial existing sched s id e, existing <> [] ->
  as_run decay o (as_init initial existing) sched = Some s -> es_loop (as_eh s) = EAddress id e ->
  forall rest s', as_run decay o s rest = Some s' ->
    es_loop (as_eh s') = EAddress id e /\ served_events (as_eh s') = served_events (as_eh s) /\
    forall i k ph b x r b' x', es_calls (as_eh s) !! i = Some (ECall k ph b x) -> es_calls (as_eh s') !! i = Some (ECall k (PDone r) b' x') ->
      ph = PDone r \/ b = Some r \/ x' = true.
Proof.
  intros decay o initial existing sched s id e Hne Hr Hl rest s' Hr'.
  destruct (frozen_run decay o initial existing rest s s' id e Hne) as [[F1 F2] Hl']; [by eexists|done|done|].
  split; [done|]. split; [unfold served_events; by rewrite F1|]. intros i k ph b x r b' x' Hi Hi'.
  destruct (F2 _ _ _ _ _ Hi) as (ph1 & x1 & Hi1 & _ & Hd). rewrite Hi' in Hi1. injection Hi1 as <- <- <-. by apply Hd.
Qed.
Print Assumptions C85_first_report_stops_the_handler.
(** ... and no gate or score call about a peer ever returns, whenever it was made and although its context ends. *)
Theorem C85_peer_gates_hang : forall decay o initial existing sched s i k r b x, existing <> [] ->
  as_run decay o (as_init initial existing) sched = Some s -> about_peer k -> es_calls (as_eh s) !! i <> Some (ECall k (PDone r) b x).
Proof.
  intros decay o initial existing sched s i k r b x Hne Hr [p Hk] Hi.
  assert (H : PDone r = PAddress); [|discriminate H]. eapply (peers_wait decay o initial existing s Hne); [by eexists|exact Hi|].
  intros a ->. destruct Hk as [Hk|Hk]; discriminate Hk.
Qed.
Print Assumptions C85_peer_gates_hang.
Definition stopped_sched : list alabel := [AEh XStart; AEh (XReport "p" (ESent ErrChainIDMismatch)); AEh (XCall (KCanPeer "p")); AEh (XTakeReport 0)].
Example C85_nonvacuous : exists s, as_run demo_decay eh_defaults (as_init [] [demo_conn]) stopped_sched = Some s /\
  es_loop (as_eh s) = EAddress "p" (ESent ErrChainIDMismatch) /\ length (es_calls (as_eh s)) = 1%nat.
Proof. eexists. split; [vm_compute; reflexivity|]. split; reflexivity. Qed.
Theorem C85_settles_refuted : ~ C85_statement.
Proof.
  intros H. destruct C85_nonvacuous as (s & Hs & Hl & _).
  destruct (H demo_decay eh_defaults [] [demo_conn] stopped_sched s Hs) as (rest & s' & Hr & _ & Hh); [left|by repeat constructor|].
  destruct (C85_first_report_stops_the_handler demo_decay eh_defaults [] [demo_conn] stopped_sched s _ _ ltac:(done) Hs Hl rest s' Hr) as [Hl' _].
  unfold report_in_hand in Hh. by rewrite Hl' in Hh.
Qed.
Print Assumptions C85_settles_refuted.
