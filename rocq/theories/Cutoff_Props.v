(** Property theorems C94-C96: what banning a peer does to its connections. *)
From Verif Require Import GoBase ErrHandler_Model ErrHandler_Spec ErrHandler_Proofs ErrHandler_Props EhSys_Model EhSys_Spec EhSys_Proofs EhSys_Props
  ConnMgr_Model ConnMgr_Spec ConnMgr_Proofs Asm_Model Asm_Spec Asm_Proofs Asm_Props Cutoff_Model Cutoff_Spec Cutoff_Proofs.

Notation nt_demo l := (nt_run demo_decay eh_defaults (nt_init ["s"]) l).
Definition nstart : list nlabel := [NAs (ACm LStarted); NAs (AEh XStart); NStartCloser].
(** Gate call [i] asks about [a], is allowed, and peer [p] connects. *)
Definition nask (i : nat) (a : maddr) : list nlabel := [NAs (AEh (XCall (KCanAddr a))); NAs (AEh (XSend i)); NAs (AEh (XServeCan 0)); NAs (AEh (XReceive i))].
Definition nconnect (i : nat) (p : string) (a : maddr) : list nlabel := nask i a ++ [NOpen i p a; NAs (ACm (LTakeEvent 0))].
(** A report about [p] is made and the manager (its caller [j]) asked. *)
Definition nreport (p : string) (j : nat) : list nlabel :=
  [NAs (AEh (XReport p (ESent ErrChainIDMismatch))); NAs (AEh (XTakeReport 0)); NAs (ACm (LTakeQuery j)); NAs (ACm LReply)].
Definition ncut : list nlabel := [NTake 0; NClosePeer; NNotify 0; NAs (ACm (LTakeEvent 0))].
Ltac demo_quiet := split; [split; [done|]; split; [repeat constructor; by eexists|]; split; [repeat constructor; by eexists|done]|done].

(** ** C94 *)
(** A charge brings peer [p] to the threshold in the step from [s1] to [s2].  Whatever happens then, when there is nothing left to do (and
    the node is not being stopped) every connection the peer had is closed and every session it had is ended. *)
Theorem C94_cut_off : forall decay o initial s1 lab s2 sched s3 p,
  nt_reach decay o initial s1 -> bans decay o s1 lab s2 p -> nt_run decay o s2 sched = Some s3 -> quiet s3 -> node_stopped (nt_as s3) = false ->
  (forall c, c ∈ nt_open s1 -> cn_peer c = p -> c ∉ nt_open s3) /\
  (forall sid c, session s1 sid c -> cn_peer c = p -> session_ended s3 sid).
Proof.
  intros decay o initial s1 lab s2 sched s3 p Hre Hb Hr Hq Hns. pose proof (NI_reach _ _ _ _ Hre) as HN.
  assert (Hd : forall c, cn_peer c = p -> NConnected c ∈ events s1 -> c ∉ nt_open s3).
  { intros c Hp Hin. eapply doomed_quiet; [|exact Hq]. eapply doomed_run; [exact Hr|exact Hns|]. by eapply bans_dooms. }
  split.
  - intros c Hc Hp. apply Hd; [done|]. destruct (ni_alive _ HN c) as [H _]; [by left|exact H].
  - intros sid c Hs Hp. destruct (session_alive _ _ _ (real_told _ _ _ _ Hre) (session_tracks _ _ _ _ _ _ Hre Hs)) as [Hc _].
    assert (Hin : NConnected c ∈ events s1) by (unfold events; apply elem_of_app; by right). specialize (Hd c Hp Hin).
    assert (Hre2 : nt_reach decay o initial s2) by (eapply nt_reach_step; [exact Hre|apply Hb]). assert (Hre3 : nt_reach decay o initial s3) by by eapply nt_reach_run.
    assert (Hlog : exists l, cm_log (nt_mgr s3) = l ++ cm_log (nt_mgr s1)).
    { destruct Hb as [Hb _]. destruct (nt_later decay o (lab :: sched) s1 s3) as [H _]; [cbn [nt_run]; by rewrite Hb|exact H]. }
    unfold session_ended. destruct (decide (sid ∈ cancelled_sessions (cm_log (nt_mgr s3)))) as [E|E]; [by apply elem_csess|]. exfalso. apply Hd.
    eapply quiet_session_open; [exact Hre3|done|]. split.
    + destruct Hlog as [l ->]. destruct Hs as [Hs _]. apply elem_of_list_In in Hs. rewrite <- in_rev in Hs. apply elem_of_list_In. rewrite <- in_rev. apply in_or_app. by right.
    + intros H. apply E, elem_csess. apply elem_of_list_In in H. rewrite <- in_rev in H. by apply elem_of_list_In.
Qed.
Print Assumptions C94_cut_off.
(** And there is nothing left to do soon: if the handler and the closing loop were started and no context has ended, the steps the node and
    the network's notifications take by themselves come to an end, and can only end when all is done. *)
Theorem C94_comes_to_rest : forall decay o initial sched s, nt_run decay o (nt_init initial) sched = Some s -> going sched ->
  (exists n, forall rest s', Forall (fun lab => nt_internal lab = true) rest -> nt_run decay o s rest = Some s' -> (length rest <= n)%nat) /\
  (forall rest s', Forall (fun lab => nt_internal lab = true) rest -> nt_run decay o s rest = Some s' ->
     node_stopped (nt_as s') = false /\ (quiet s' \/ exists lab s'', nt_internal lab = true /\ nt_step decay o s' lab = Some s'')).
Proof.
  intros decay o initial sched s Hr Hg. assert (Hre : nt_reach decay o initial s) by by eexists. pose proof (going_fit _ _ _ _ _ Hr Hg) as Hf. clear Hr Hg.
  split.
  - exists (nt_weight s). intros rest. revert s Hre Hf. induction rest as [|lab rest IH]; intros s Hre Hf s' HF Hr; [cbn; lia|].
    cbn [nt_run] in Hr. destruct (nt_step decay o s lab) as [s1|] eqn:H1; [|done]. apply Forall_cons in HF as [HF1 HF].
    assert (Hf1 : fit s1) by (eapply fit_step; [exact Hre|exact H1|by apply nt_internal_alive|done]).
    pose proof (nt_weight_step decay o s lab s1 (proj1 (proj1 Hf)) H1 HF1). pose proof (IH s1 (nt_reach_step _ _ _ _ _ _ Hre H1) Hf1 s' HF Hr). cbn [length]. lia.
  - intros rest. revert s Hre Hf. induction rest as [|lab rest IH]; intros s Hre Hf s' HF Hr; cbn [nt_run] in Hr.
    + injection Hr as <-. split; [eapply not_cancelled; [exact Hre|apply Hf]|by eapply nt_progress].
    + destruct (nt_step decay o s lab) as [s1|] eqn:H1; [|done]. apply Forall_cons in HF as [HF1 HF].
      apply (IH s1); [by eapply nt_reach_step| |done|done]. eapply fit_step; [exact Hre|exact H1|by apply nt_internal_alive|done].
Qed.
Print Assumptions C94_comes_to_rest.
(** In particular: after the ban the node can, by itself, get to a state in which the peer's connections are closed and its sessions ended. *)
Theorem C94_peer_is_cut_off : forall decay o initial sched s1 lab s2 p,
  nt_run decay o (nt_init initial) sched = Some s1 -> going sched -> bans decay o s1 lab s2 p ->
  exists rest s3, Forall (fun lab => nt_internal lab = true) rest /\ nt_run decay o s2 rest = Some s3 /\ quiet s3 /\
    (forall c, c ∈ nt_open s1 -> cn_peer c = p -> c ∉ nt_open s3) /\ (forall sid c, session s1 sid c -> cn_peer c = p -> session_ended s3 sid).
Proof.
  intros decay o initial sched s1 lab s2 p Hr Hg Hb. assert (Hre : nt_reach decay o initial s1) by by eexists.
  assert (Hr2 : nt_run decay o (nt_init initial) (sched ++ [lab]) = Some s2) by (rewrite nt_run_app, Hr; destruct Hb as [Hb _]; cbn [nt_run]; by rewrite Hb).
  assert (Hg2 : going (sched ++ [lab])).
  { destruct Hg as (G1 & G2 & G3). split; [apply elem_of_app; by left|]. split; [apply elem_of_app; by left|]. apply Forall_app. split; [done|]. constructor; [|constructor].
    destruct Hb as [Hst Ha]. destruct (nt_context_ends lab) eqn:E; [|done]. exfalso. destruct lab as [l| | | | | | |]; try discriminate E. apply nas_step in Hst.
    assert (Hno : forall (xs : list eh_out) y, xs <> xs ++ [y]) by (intros xs y H; apply (f_equal length) in H; rewrite app_length in H; cbn in H; lia).
    assert (Hs : served_answers (nt_eh s2) = served_answers (nt_eh s1)).
    { destruct (eh_part _ _ _ _ _ Hst) as [[E2 _]|(le & He & Hlab)]; [unfold nt_eh; by rewrite E2|]. unfold nt_eh in *.
      assert (le = XCancel \/ exists i, le = XExpire i) as [->|[i ->]].
      { destruct l as [[]|[]| | |]; try discriminate E; cbn in Hlab; try done; [right; by eexists|by left]. }
      - unfold es_step in He. destruct (es_panic _); [done|]. by injection He as <-.
      - unfold es_step in He. destruct (es_panic _); [done|]. destruct (es_calls _ !! i) as [[k ph b x]|]; [|done]. by injection He as <-. }
    rewrite Hs in Ha. by apply Hno in Ha. }
  destruct (C94_comes_to_rest _ _ _ _ _ Hr2 Hg2) as [[n Hn] Hp].
  assert (Hgo : forall m rest s', (n - length rest <= m)%nat -> Forall (fun lab => nt_internal lab = true) rest -> nt_run decay o s2 rest = Some s' ->
    exists rest s', Forall (fun lab => nt_internal lab = true) rest /\ nt_run decay o s2 rest = Some s' /\ quiet s').
  { induction m as [|m IH]; intros rest s' Hm HF' Hr'; (destruct (Hp rest s' HF' Hr') as [_ [Hs|(lab' & s'' & Hl & Hst')]]; [by exists rest, s'|]).
    all: assert (Hr'' : nt_run decay o s2 (rest ++ [lab']) = Some s'') by (rewrite nt_run_app, Hr'; cbn [nt_run]; by rewrite Hst').
    all: assert (HF'' : Forall (fun lab => nt_internal lab = true) (rest ++ [lab'])) by (apply Forall_app; split; [done|by constructor]).
    all: pose proof (Hn _ _ HF'' Hr'') as Hlen; rewrite app_length in Hlen; cbn in Hlen.
    - lia.
    - apply (IH (rest ++ [lab']) s''); [rewrite app_length; cbn; lia|done|done]. }
  destruct (Hgo n [] s2) as (rest & s3 & HF & Hr3 & Hq); [cbn; lia|constructor|done|]. exists rest, s3. split; [done|]. split; [done|]. split; [done|].
  eapply C94_cut_off; [exact Hre|exact Hb|exact Hr3|exact Hq|]. by destruct (Hp rest s3 HF Hr3).
Qed.
Print Assumptions C94_peer_is_cut_off.
(** The closing loop closes connections of no other peer: one it closes belongs to a peer that was at the threshold. *)
Theorem C94_nobody_else : forall decay o initial s s' c, nt_reach decay o initial s -> nt_step decay o s NClosePeer = Some s' ->
  c ∈ nt_open s -> c ∉ nt_open s' -> OutDisconnect (Some (cn_peer c)) ∈ served_answers (nt_eh s).
Proof.
  intros decay o initial s s' c Hr Hst Hc Hn.
  assert (HI : forall p, p ∈ es_disc (nt_eh s) \/ nt_closer s = CClosing p -> OutDisconnect (Some p) ∈ served_answers (nt_eh s)).
  { clear s' c Hst Hc Hn. revert s Hr. apply (nt_reach_ind decay o initial (fun s => forall p, p ∈ es_disc (nt_eh s) \/ nt_closer s = CClosing p -> OutDisconnect (Some p) ∈ served_answers (nt_eh s))).
    { intros p [H|H]; [by apply elem_of_nil in H|done]. }
    intros s lab s' _ IH Hst p Hp. apply nt_cases in Hst as [l Hl].
    assert (Hmono : OutDisconnect (Some p) ∈ served_answers (nt_eh s) -> OutDisconnect (Some p) ∈ served_answers (nt_eh s')).
    { destruct (nt_eh_part _ _ _ _ _ _ Hl) as [->|(l' & le & _ & He & _)]; [done|]. apply es_log_step in He as [t Ht]. unfold served_answers. rewrite Ht, rev_app_distr, map_app. intros H. apply elem_of_app. by left. }
    assert (Hdisc : p ∈ es_disc (nt_eh s') -> OutDisconnect (Some p) ∈ served_answers (nt_eh s')).
    { intros H. destruct (nt_eh_part _ _ _ _ _ _ Hl) as [E|(l' & le & _ & He & _)]; [rewrite E in *; apply IH; by left|].
      assert (H' : p ∈ es_disc (nt_eh s) \/ served_answers (nt_eh s') = served_answers (nt_eh s) ++ [OutDisconnect (Some p)]).
      { clear -He H. revert He H. generalize (nt_eh s'). intros e' He H. destruct (nt_eh s) as [pv lp sc cq sq ca rp dc cc pn lg fd]. es_cases He le; subst; try (by left).
        all: cbn [es_disc] in *; try (match goal with Hk : ?d !! _ = Some _, Hx : _ ∈ delete _ ?d |- _ => left; pose proof (delete_Permutation _ _ _ Hk) as Hd; cbn [es_disc]; rewrite Hd; by right end).
        all: apply elem_of_app in H as [H|H]; [by left|]; try (by apply elem_of_nil in H).
        apply elem_of_list_singleton in H as <-. right. unfold served_answers. cbn [es_log rev]. by rewrite map_app. }
      destruct H' as [H'| ->]; [apply Hmono, IH; by left|apply elem_of_app; right; left]. }
    destruct Hp as [Hp|Hp]; [by apply Hdisc|].
    destruct Hl; cbn [nt_closer set_as set_closer] in Hp; try (apply Hmono, IH; by right); try discriminate Hp.
    injection Hp as ->. apply Hmono, IH. left. by eapply elem_of_list_lookup_2. }
  apply HI. right. cbn [nt_step] in Hst. destruct (nt_closer s) as [| |q|]; try done. injection Hst as <-. cbn [nt_open] in Hn. f_equal.
  destruct (decide (cn_peer c = q)) as [<-|E]; [done|]. destruct Hn. by apply elem_of_list_filter.
Qed.
Print Assumptions C94_nobody_else.
Definition cut_sched : list nlabel := nstart ++ nconnect 0 "p" host1 ++ nconnect 1 "q" host2 ++ nreport "p" 0.
Example C94_nonvacuous : exists s1 s2 s3, nt_demo cut_sched = Some s1 /\ going cut_sched /\ bans demo_decay eh_defaults s1 (NAs (AErrAnswer 5)) s2 "p" /\
  nt_run demo_decay eh_defaults s2 ncut = Some s3 /\ Forall (fun lab => nt_internal lab = true) ncut /\ quiet s3 /\ node_stopped (nt_as s3) = false /\
  nt_open s1 = [Conn "p" host1 0; Conn "q" host2 1] /\ nt_open s3 = [Conn "q" host2 1] /\ session s1 0 (Conn "p" host1 0).
Proof.
  eexists _, _, _. split; [vm_compute; reflexivity|]. split.
  { split; [apply elem_of_list_In; cbn; tauto|]. split; [apply elem_of_list_In; cbn; tauto|]. by repeat constructor. }
  split; [split; vm_compute; reflexivity|]. split; [vm_compute; reflexivity|]. split; [by repeat constructor|]. split; [demo_quiet|]. repeat (split; [vm_compute; reflexivity|]).
  split; [apply elem_of_list_In; vm_compute; tauto|]. intros H. apply elem_of_list_In in H. vm_compute in H. repeat destruct H as [H|H]; try discriminate H. done.
Qed.

(** ** C95 *)
(** A report about a connected peer is waiting; later there is nothing left to do.  One expects that, if the connection is still there,
    the report was charged to the host and left it below the threshold. *)
Definition C95_statement : Prop := forall decay o initial s1 sched s3 c e,
  nt_reach decay o initial s1 -> c ∈ nt_open s1 -> NConnected c ∈ told s1 -> (cn_peer c, e) ∈ es_reports (nt_eh s1) ->
  nt_run decay o s1 sched = Some s3 -> quiet s3 -> node_stopped (nt_as s3) = false -> c ∈ nt_open s3 ->
  exists hist now rest, served_events (nt_eh s3) = hist ++ EvError now (cn_peer c) (Some (cn_addr c)) e :: rest /\
    served_events (nt_eh s1) `prefix_of` hist /\ (charged_score decay o hist now (cn_addr c) e < o_threshold o)%N.
(** It is so if the network never gave the peer two connections at a time. *)
Theorem C95_reports_count_partial : forall decay o initial s1 sched s3 c e,
  nt_reach decay o initial s1 -> NConnected c ∈ told s1 -> (cn_peer c, e) ∈ es_reports (nt_eh s1) ->
  nt_run decay o s1 sched = Some s3 -> quiet s3 -> node_stopped (nt_as s3) = false -> c ∈ nt_open s3 -> one_at_a_time (told s3) ->
  exists hist now rest, served_events (nt_eh s3) = hist ++ EvError now (cn_peer c) (Some (cn_addr c)) e :: rest /\
    served_events (nt_eh s1) `prefix_of` hist /\ (charged_score decay o hist now (cn_addr c) e < o_threshold o)%N.
Proof.
  intros decay o initial s1 sched s3 c e Hre Htold Hrep Hr Hq Hns Hopen Hone. set (p := cn_peer c) in *.
  assert (Hre3 : nt_reach decay o initial s3) by by eapply nt_reach_run. pose proof (NI_reach _ _ _ _ Hre3) as HN3.
  destruct Hq as ((Hb & Hset) & Hq2). destruct (report_served decay o initial p e sched s1 s3 Hre Hr Hrep) as (l1 & sa & k & sa' & l2 & ls & sb & now & sc & l3 & G1 & G2 & G3 & G4 & G5 & G6 & G7 & G8); [apply Hset..|].
  pose proof (nt_reach_run _ _ _ _ _ _ Hre G1) as Hrea. pose proof (nt_reach_step _ _ _ _ _ _ Hrea G3) as Hrea'.
  pose proof (nt_reach_run _ _ _ _ _ _ Hrea' G4) as Hreb. pose proof (nt_reach_step _ _ _ _ _ _ Hreb G7) as Hrec.
  destruct (as_reach_nt _ _ _ _ Hrea) as [sched0 H0].
  destruct (C83_charged_to_the_peer _ _ _ _ _ _ _ _ _ _ _ _ _ _ H0 G2 (nas_step _ _ _ _ _ G3) G5 G6 (nas_step _ _ _ _ _ G7)) as (a & Hev & Hwhy).
  assert (Hrbs : nt_run decay o sb (NAs (AErrAnswer now) :: l3) = Some s3) by (cbn [nt_run]; by rewrite G7).
  assert (Hra' : nt_run decay o sa (NAs (AEh (XTakeReport k)) :: l2) = Some sb) by (cbn [nt_run]; by rewrite G3).
  assert (Hstop : node_stopped (nt_as sb) = false) by exact (nt_cancelled_run decay o _ _ _ Hrbs Hns).
  destruct Hwhy as [[_ Hx]|(h & [Hh1 Hh2] & Hf)]; [congruence|].
  assert (Hth : told s1 `prefix_of` h) by (etrans; [exact (told_prefix _ _ _ _ _ G1)|exact Hh1]).
  assert (Hht : h `prefix_of` told s3) by (etrans; [exact Hh2|exact (told_prefix _ _ _ _ _ Hrbs)]).
  assert (Hnd : NDisconnected c ∉ told s3). { intros H. destruct (ni_alive _ HN3 c) as [_ Hn]; [by left|]. apply Hn. unfold events. apply elem_of_app. by right. }
  assert (Ho : session_conn h p c).
  { apply open_session_conn; [exact (real_prefix _ _ Hht (real_told _ _ _ _ Hre3))|exact (one_prefix _ _ Hht Hone)|]. apply open_in; [exact (prefix_elem _ _ _ Hth Htold)|]. intros H. apply Hnd. exact (prefix_elem _ _ _ Hht H). }
  destruct Ho as (h1 & h2 & Hhe & Hp & Hnl & HF).
  assert (Ha : a = Some (cn_addr c)).
  { destruct a as [a|]; cbn [found_peer] in Hf.
    - destruct Hf as [_ (c' & Hc' & <-)]. f_equal. f_equal. eapply session_unique; [exact Hc'|]. by exists h1, h2.
    - destruct Hf. rewrite Hhe. by apply stays_connected. }
  subst a. destruct (nt_served_prefix decay o _ _ _ G8) as [rest Hrest]. unfold nt_eh in Hrest at 2. rewrite Hev in Hrest.
  exists (served_events (nt_eh sb)), now, rest. split; [by rewrite Hrest, <- (assoc_L (++))|].
  split; [etrans; [exact (nt_served_prefix _ _ _ _ _ G1)|exact (nt_served_prefix _ _ _ _ _ Hra')]|].
  destruct (decide (charged_score decay o (served_events (nt_eh sb)) now (cn_addr c) e < o_threshold o)%N) as [Hlt|Hge]; [done|]. exfalso.
  destruct (proj_reach _ _ _ _ _ (as_reach_nt _ _ _ _ Hreb)) as [_ Heb]. destruct (proj_reach _ _ _ _ _ (as_reach_nt _ _ _ _ Hrec)) as [_ Hec].
  assert (Hban : bans decay o sb (NAs (AErrAnswer now)) sc p).
  { split; [done|]. destruct (nt_log_run decay o [NAs (AErrAnswer now)] sb sc) as [t Ht]; [cbn [nt_run]; by rewrite G7|].
    assert (Hlen : length t = 1%nat). { apply (f_equal length) in Hev. unfold served_events, nt_eh in *. rewrite Ht, app_length, !map_length, !rev_length, app_length in Hev. cbn in Hev. lia. }
    destruct t as [|y [|? ?]]; try discriminate Hlen. assert (Hans : served_answers (nt_eh sc) = served_answers (nt_eh sb) ++ [y.2]) by (unfold served_answers; rewrite Ht; cbn [app rev]; by rewrite map_app).
    rewrite Hans. f_equal. f_equal. pose proof (C74_sequential _ _ _ Hec) as HJ. pose proof (C07_disconnect_exactly_at_threshold decay o (served_events (nt_eh sb)) now p (cn_addr c) e []) as H07. cbv zeta in H07.
    assert (Hev' : served_events (as_eh (nt_as sc)) = served_events (nt_eh sb) ++ [EvError now p (Some (cn_addr c)) e]) by exact Hev.
    rewrite Hev' in HJ. rewrite HJ in H07. cbn [snd] in H07. unfold nt_eh in Hans at 1. rewrite Hans in H07. rewrite lookup_app_r in H07 by (unfold served_answers, served_events; by rewrite !map_length).
    assert (Hle : length (served_events (nt_eh sb)) = length (served_answers (nt_eh sb))) by (unfold served_answers, served_events; by rewrite !map_length). rewrite Hle, Nat.sub_diag in H07. cbn [lookup list_lookup] in H07. injection H07 as ->.
    rewrite bool_decide_eq_true_2; [done|]. unfold charged_score in Hge. destruct (look decay now _) as [[? ?]|]; lia. }
  destruct (C94_cut_off decay o initial sb _ sc l3 s3 p Hreb Hban G8) as [Hcut _]; [split; [by split|done]|exact Hns|].
  destruct (decide (c ∈ nt_open sb)) as [Hin|Hin]; [by apply (Hcut c)|].
  eapply (closed_run decay o c); [exact Hrbs| |exact Hin|exact Hopen].
  apply (ni_fresh _ (NI_reach _ _ _ _ Hreb)). unfold events. apply elem_of_app. right. eapply prefix_elem; [|exact Htold]. etrans; [exact (told_prefix _ _ _ _ _ G1)|exact (told_prefix _ _ _ _ _ Hra')].
Qed.
Print Assumptions C95_reports_count_partial.
(** Not in general: a peer has two connections and one is closed.  The manager takes the peer for disconnected (C54) and the handler drops
    what is reported about it. *)
Definition immune_sched : list nlabel := nstart ++ nconnect 0 "p" host1 ++ nconnect 1 "p" host1b ++ [NHangUp 1; NNotify 0; NAs (ACm (LTakeEvent 0)); NAs (AEh (XReport "p" (ESent ErrChainIDMismatch)))].
Definition immune_rest : list nlabel := [NAs (AEh (XTakeReport 0)); NAs (ACm (LTakeQuery 0)); NAs (ACm LReply); NAs (AErrAnswer 5)].
Lemma immune_demo : exists s1 s3, nt_demo immune_sched = Some s1 /\ nt_run demo_decay eh_defaults s1 immune_rest = Some s3 /\
  nt_open s1 = [Conn "p" host1 0] /\ told s1 = [NConnected (Conn "p" host1 0); NConnected (Conn "p" host1b 1); NDisconnected (Conn "p" host1b 1)] /\
  es_reports (nt_eh s1) = [("p", ESent ErrChainIDMismatch)] /\ cm_blocked (nt_mgr s1) = [] /\ report_in_hand (nt_eh s1) = [] /\
  quiet s3 /\ node_stopped (nt_as s3) = false /\ nt_open s3 = [Conn "p" host1 0] /\
  served_events (nt_eh s3) = [EvCanConnect 0 host1; EvCanConnect 0 host1b; EvError 5 "p" None (ESent ErrChainIDMismatch)].
Proof. eexists _, _. repeat (split; [vm_compute; reflexivity|]). split; [demo_quiet|]. repeat (split; [vm_compute; reflexivity|]). vm_compute. reflexivity. Qed.
Theorem C95_reports_count_refuted : ~ C95_statement.
Proof.
  intros H. destruct immune_demo as (s1 & s3 & H1 & H3 & Ho1 & Ht & Hrep & _ & _ & Hq & Hns & Ho3 & Hsv).
  destruct (H demo_decay eh_defaults ["s"] s1 immune_rest s3 (Conn "p" host1 0) (ESent ErrChainIDMismatch)) as (hist & now & rest & Hev & _ & _).
  - by exists immune_sched.
  - rewrite Ho1. left.
  - rewrite Ht. left.
  - rewrite Hrep. left.
  - exact H3.
  - exact Hq.
  - exact Hns.
  - rewrite Ho3. left.
  - rewrite Hsv in Hev. destruct hist as [|? [|? [|? [|? ?]]]]; discriminate Hev.
Qed.
Print Assumptions C95_reports_count_refuted.
(** Generally: once the manager takes a peer for disconnected, nothing it does is charged until a connection of it is newly opened, however
    many connections it still has. *)
Theorem C95_never_charged : forall decay o initial s1 sched s3 p,
  nt_reach decay o initial s1 -> ~ last_connected (told s1) p -> (forall c, NConnected c ∈ cm_blocked (nt_mgr s1) -> cn_peer c <> p) ->
  (forall e, report_in_hand (nt_eh s1) <> [(p, e)]) ->
  nt_run decay o s1 sched = Some s3 -> (forall i a, NOpen i p a ∉ sched) ->
  forall now a e, EvError now p (Some a) e ∈ served_events (nt_eh s3) -> EvError now p (Some a) e ∈ served_events (nt_eh s1).
Proof.
  intros decay o initial s1 sched s3 p Hre Hn Hb Hh Hr Hno. eapply unknown_run; [exact Hre|done| |done|exact Hr|done].
  apply Forall_forall. intros x Hx c ->. by apply Hb.
Qed.
Print Assumptions C95_never_charged.
Example C95_immune_nonvacuous : exists s1 s3, nt_demo immune_sched = Some s1 /\ ~ last_connected (told s1) "p" /\ (forall c, NConnected c ∈ cm_blocked (nt_mgr s1) -> cn_peer c <> "p") /\
  (forall e, report_in_hand (nt_eh s1) <> [("p", e)]) /\ nt_run demo_decay eh_defaults s1 immune_rest = Some s3 /\ (forall i a, NOpen i "p" a ∉ immune_rest) /\
  ("p", ESent ErrChainIDMismatch) ∈ es_reports (nt_eh s1) /\ Conn "p" host1 0 ∈ nt_open s3.
Proof.
  destruct immune_demo as (s1 & s3 & H1 & H3 & Ho1 & Ht & Hrep & Hb & Hh & Hq & Hns & Ho3 & Hsv). exists s1, s3. split; [exact H1|]. split.
  { clear H1 H3. rewrite Ht. intros Hl. apply (last_snoc [_; _] _ "p") in Hl as [[_ [c Hc]]|[Hp _]]; [done|]. by apply Hp. }
  split; [clear H1 H3; rewrite Hb; intros c Hc; by apply elem_of_nil in Hc|]. split; [intros e; rewrite Hh; discriminate|]. split; [exact H3|].
  split; [clear H1 H3; intros i a Hin; apply elem_of_list_In in Hin; cbn in Hin; repeat destruct Hin as [Hin|Hin]; first [discriminate Hin|destruct Hin]|]. rewrite Hrep, Ho3. split; left.
Qed.
(** And with one connection: the report is charged below the threshold and the connection stays. *)
Definition mild_sched : list nlabel := nstart ++ nconnect 0 "p" host1 ++ [NAs (AEh (XReport "p" (ESent ErrPeerRPC)))].
Example C95_partial_nonvacuous : exists s1 s3, nt_demo mild_sched = Some s1 /\ NConnected (Conn "p" host1 0) ∈ told s1 /\ ("p", ESent ErrPeerRPC) ∈ es_reports (nt_eh s1) /\
  nt_run demo_decay eh_defaults s1 immune_rest = Some s3 /\ quiet s3 /\ node_stopped (nt_as s3) = false /\ Conn "p" host1 0 ∈ nt_open s3 /\ one_at_a_time (told s3).
Proof.
  eexists _, _. split; [vm_compute; reflexivity|]. split; [apply elem_of_list_In; vm_compute; tauto|]. split; [apply elem_of_list_In; vm_compute; tauto|].
  split; [vm_compute; reflexivity|]. split; [demo_quiet|]. split; [reflexivity|]. split; [left|].
  intros h1 c h2 E c' _ (g1 & g2 & Eg & _). vm_compute in E. destruct h1 as [|x h1]; [destruct g1; discriminate Eg|]. injection E as _ E. destruct h1; discriminate E.
Qed.

(** ** C96 *)
(** A host is banned.  One expects that a connection from it that is open once all is done was let in after the ban, with a score below the
    reconnect threshold. *)
Definition let_in decay o (s2 s3 : net) (a : maddr) : Prop := exists hist now rest,
  served_events (nt_eh s3) = hist ++ EvCanConnect now a :: rest /\ served_events (nt_eh s2) `prefix_of` hist /\ (host_score decay o hist now a < o_reconnect o)%N.
Definition C96_statement : Prop := forall decay o initial s1 lab s2 sched s3 p now a e c,
  nt_reach decay o initial s1 -> bans decay o s1 lab s2 p -> served_events (nt_eh s2) = served_events (nt_eh s1) ++ [EvError now p (Some a) e] ->
  nt_run decay o s2 sched = Some s3 -> quiet s3 -> node_stopped (nt_as s3) = false -> c ∈ nt_open s3 -> ma_first (cn_addr c) = ma_first a ->
  let_in decay o s2 s3 (cn_addr c).
(** Not so: (1) another peer of the same host stays connected; (2) a connection whose gate was passed before the ban is opened after it. *)
Definition other_peer : list nlabel := nstart ++ nconnect 0 "p" host1 ++ nconnect 1 "q" host1b ++ nreport "p" 0.
Definition late_open : list nlabel := nstart ++ nconnect 0 "p" host1 ++ nask 1 host1b ++ nreport "p" 0.
Lemma C96_refuted_by sched rest : (exists s1 s2 s3 now a e c, nt_demo sched = Some s1 /\ bans demo_decay eh_defaults s1 (NAs (AErrAnswer 5)) s2 "p" /\
  served_events (nt_eh s2) = served_events (nt_eh s1) ++ [EvError now "p" (Some a) e] /\ nt_run demo_decay eh_defaults s2 rest = Some s3 /\
  quiet s3 /\ node_stopped (nt_as s3) = false /\ c ∈ nt_open s3 /\ ma_first (cn_addr c) = ma_first a /\ served_events (nt_eh s3) = served_events (nt_eh s2)) -> ~ C96_statement.
Proof.
  intros (s1 & s2 & s3 & now & a & e & c & H1 & Hb & Hev & Hr & Hq & Hns & Hc & Ha & Hsv) H.
  destruct (H demo_decay eh_defaults ["s"] s1 (NAs (AErrAnswer 5)) s2 rest s3 "p" now a e c) as (hist & now' & rest' & E & [t Ht] & _); [exists sched; exact H1|exact Hb|exact Hev|exact Hr|exact Hq|exact Hns|exact Hc|exact Ha|].
  rewrite Hsv, Ht, <- (assoc_L (++)) in E. apply (f_equal length) in E. rewrite !app_length in E. cbn in E. lia.
Qed.
Theorem C96_other_peer_refuted : ~ C96_statement.
Proof.
  apply (C96_refuted_by other_peer ncut). eexists _, _, _, 5%Z, host1, (ESent ErrChainIDMismatch), (Conn "q" host1b 1). split; [vm_compute; reflexivity|]. split; [split; vm_compute; reflexivity|].
  split; [vm_compute; reflexivity|]. split; [vm_compute; reflexivity|]. split; [demo_quiet|]. split; [reflexivity|]. split; [left|]. split; [reflexivity|]. vm_compute. reflexivity.
Qed.
Print Assumptions C96_other_peer_refuted.
Theorem C96_late_open_refuted : ~ C96_statement.
Proof.
  apply (C96_refuted_by late_open (ncut ++ [NOpen 1 "r" host1b; NAs (ACm (LTakeEvent 0))])). eexists _, _, _, 5%Z, host1, (ESent ErrChainIDMismatch), (Conn "r" host1b 1). split; [vm_compute; reflexivity|]. split; [split; vm_compute; reflexivity|].
  split; [vm_compute; reflexivity|]. split; [vm_compute; reflexivity|]. split; [demo_quiet|]. split; [reflexivity|]. split; [left|]. split; [reflexivity|]. vm_compute. reflexivity.
Qed.
Print Assumptions C96_late_open_refuted.
(** It is so for a connection whose gate is asked after the charge. *)
Theorem C96_gate_after_ban_partial : forall decay o initial s2 sched s3 i q a' s4 now p a e,
  nt_reach decay o initial s2 -> EvError now p (Some a) e ∈ served_events (nt_eh s2) -> nt_run decay o s2 sched = Some s3 ->
  (length (es_calls (nt_eh s2)) <= i)%nat -> nt_step decay o s3 (NOpen i q a') = Some s4 -> ma_first a' = ma_first a ->
  let_in decay o s2 s3 a'.
Proof.
  intros decay o initial s2 sched s3 i q a' s4 now p a e Hre Hin Hr Hi Hop Ha. pose proof (nt_reach_run _ _ _ _ _ _ Hre Hr) as Hre3.
  destruct (proj_reach _ _ _ _ _ (as_reach_nt _ _ _ _ Hre)) as [_ He2]. destruct (proj_reach _ _ _ _ _ (as_reach_nt _ _ _ _ Hre3)) as [_ He3]. fold (nt_eh s2) in He2. fold (nt_eh s3) in He3.
  apply nt_cases in Hop as [l Hop]. inversion Hop as [|i' p' a'' x b er c Hc Hg Hx| | | | | |]; subst.
  destruct (J2_reach decay o _ He3) as (_ & _ & [_ HL] & HC & _). destruct (HC _ _ _ _ _ Hc) as [Hb Hph]. cbn [phase_ok] in Hph.
  destruct Hph as [(_ & Hk & _)|[[_ Hx']| ->]]; [by destruct (Hk a')|discriminate Hx'|]. destruct (Hb _ eq_refl) as [ev Hev].
  destruct (HL _ _ _ Hev) as (k1 & ph1 & x1 & Hc' & Hreq). unfold nt_eh in Hc'; rewrite Hc in Hc'. injection Hc' as <- _ _. destruct ev as [|now' b'|]; cbn [request_of] in Hreq; try done. subst b'.
  destruct (nt_log_run decay o _ _ _ Hr) as [t Ht].
  assert (Hev' : (Some i, EvCanConnect now' a', OutCan true) ∈ t).
  { fold (nt_eh s3) in Hev. rewrite Ht in Hev. apply elem_of_app in Hev as [H|H]; [done|]. exfalso. destruct (J2_reach decay o _ He2) as (_ & _ & [_ HL2] & _).
    destruct (HL2 _ _ _ H) as (? & ? & ? & H' & _). apply lookup_lt_Some in H'. lia. }
  assert (Hin' : (Some i, EvCanConnect now' a', OutCan true) ∈ rev t) by (apply elem_of_list_In, in_rev; rewrite rev_involutive; by apply elem_of_list_In).
  apply elem_of_list_split in Hin' as (l1 & l2 & Hl).
  set (hist := served_events (nt_eh s2) ++ map (fun x => x.1.2) l1).
  assert (Hse : served_events (nt_eh s3) = hist ++ EvCanConnect now' a' :: map (fun x => x.1.2) l2).
  { unfold served_events at 1. rewrite Ht, rev_app_distr, Hl, !map_app. unfold hist, served_events. cbn [map fst snd]. by rewrite <- (assoc_L (++)). }
  assert (Hsa : served_answers (nt_eh s3) !! length hist = Some (OutCan true)).
  { assert (Hlen : length hist = length (map snd (rev (es_log (nt_eh s2)) ++ l1))) by (unfold hist, served_events; by rewrite app_length, !map_length, app_length).
    unfold served_answers. rewrite Ht, rev_app_distr, Hl, (assoc_L (++)), map_app, Hlen. cbn [map snd]. by apply list_lookup_middle. }
  exists hist, now', (map (fun x => x.1.2) l2). split; [done|]. split; [by eexists|].
  pose proof (run_answer decay o hist (EvCanConnect now' a') (map (fun x => x.1.2) l2)) as Hra. rewrite <- Hse, (C74_sequential _ _ _ He3) in Hra. cbn [snd] in Hra. rewrite Hsa in Hra. cbn [event_host ErrHandler_Proofs.answer] in Hra.
  assert (Hled : ledger_of decay (touches o (ma_first a') hist) <> None).
  { apply elem_of_list_split in Hin as (g1 & g2 & Hg12). unfold hist. rewrite Hg12, <- (assoc_L (++)). cbn [app]. unfold touches. rewrite omap_app. cbn [omap list_omap touch_of].
    rewrite bool_decide_eq_true_2 by done. apply ledger_hit. }
  unfold host_score. destruct (ledger_of decay (touches o (ma_first a') hist)) as [[t0 s0]|]; [|done]. cbn [look ledger_score] in *. injection Hra as Hra. symmetry in Hra. by apply bool_decide_eq_true in Hra.
Qed.
Print Assumptions C96_gate_after_ban_partial.
(** In the example the host is let in again when its score has decayed. *)
Definition back_again : list nlabel :=
  ncut ++ [NAs (AEh (XCall (KCanAddr host1b))); NAs (AEh (XSend 1)); NAs (AEh (XServeCan (100 * second))); NAs (AEh (XReceive 1))].
Example C96_partial_nonvacuous : exists s2 s3 s4, nt_demo (nstart ++ nconnect 0 "p" host1 ++ nreport "p" 0 ++ [NAs (AErrAnswer 5)]) = Some s2 /\
  EvError 5 "p" (Some host1) (ESent ErrChainIDMismatch) ∈ served_events (nt_eh s2) /\ nt_run demo_decay eh_defaults s2 back_again = Some s3 /\
  (length (es_calls (nt_eh s2)) <= 1)%nat /\ nt_step demo_decay eh_defaults s3 (NOpen 1 "p" host1b) = Some s4.
Proof.
  eexists _, _, _. split; [vm_compute; reflexivity|]. split; [apply elem_of_list_In; vm_compute; tauto|]. split; [vm_compute; reflexivity|]. split; [vm_compute; lia|]. vm_compute. reflexivity.
Qed.
