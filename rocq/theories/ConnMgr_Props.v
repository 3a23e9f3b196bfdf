(** Properties C53-C57, C73 and the part of C68 about the connection manager. *)
From Verif Require Import GoBase ErrHandler_Model ConnMgr_Model ConnMgr_Spec ConnMgr_Proofs.

(** ** C53 *)
(** Every answer the manager gives is the right one for the events handled before it; a call that returns
    something else than the zero answer of an expired context returns such an answer. *)
Theorem C53_answers initial existing s : cm_reach initial existing s ->
  (forall l1 w q a l2, rev (cm_log s) = l1 ++ GAnswer w q a :: l2 -> right_answer (net_history l1) q a) /\
  (forall i q a x, cm_callers s !! i = Some (Caller q (ClReturned a) x) ->
     (x = true /\ gave_up q a) \/
     (exists l1 l2, rev (cm_log s) = l1 ++ GReturn i a :: l2 /\ right_answer (net_history l1) q a)).
Proof.
  intros Hr. split; [apply (Inv1_reach _ _ _ Hr)|]. intros i q a x Hi.
  pose proof (Inv3_reach _ _ _ Hr) as [H3 _]. destruct (H3 i q a x Hi) as [[-> ->]|H]; [left|by right]. split; [done|by destruct q].
Qed.
(** The specification leaves no freedom: there is at most one right answer. *)
Theorem C53_answer_unique h q a1 a2 : right_answer h q a1 -> right_answer h q a2 -> a1 = a2.
Proof.
  destruct q as [p| |p], a1 as [[m1|]|n1|b1], a2 as [[m2|]|n2|b2]; cbn [right_answer]; try done.
  - intros (Hl & c1 & Hc1 & <-) (_ & c2 & Hc2 & <-).
    assert (Hc : c1 = c2) by (by eapply session_unique). by subst.
  - by intros [H _] H'.
  - by intros H' [H _].
  - intros (l1 & Hn1 & Hp1 & <-) (l2 & Hn2 & Hp2 & <-). f_equal.
    apply Permutation_length, NoDup_Permutation; [done|done|]. intros p. by rewrite Hp1, Hp2.
  - intros H1 H2. f_equal. destruct b1, b2; [done|..|done]; exfalso.
    + assert (H : false = true) by (by apply H2, H1). discriminate H.
    + assert (H : false = true) by (by apply H1, H2). discriminate H.
Qed.

(** Two connections of a peer: its address is that of the first; one call is answered, another gives up. *)
Definition ad1 : maddr := Maddr "/ip4/1.1.1.1" ["/tcp/1"].
Definition ad2 : maddr := Maddr "/ip4/2.2.2.2" ["/tcp/1"].
Definition c1 : conn := Conn "p" ad1 1.
Definition c2 : conn := Conn "p" ad2 2.
Definition c3 : conn := Conn "q" ad2 3.
Definition two_connections : list cm_label :=
  [LStarted; LNotify (NConnected c1); LTakeEvent 0; LNotify (NConnected c2); LTakeEvent 0; LCall (QAddr "p"); LCall QNum;
   LTakeQuery 0; LReply; LTakeQuery 1; LExpire 1; LTimeout 1].
Example C53_nonvacuous : exists s, cm_run (cm_init [] []) two_connections = Some s /\
  returned s 0 (AAddr (Some ad1)) /\ returned s 1 (ANum 0) /\
  right_answer (net_history (rev (cm_log s))) (QAddr "p") (AAddr (Some ad1)) /\
  ~ right_answer (net_history (rev (cm_log s))) (QAddr "p") (AAddr (Some ad2)).
Proof.
  eexists. split; [vm_compute; reflexivity|]. split; [by eexists _, _|]. split; [by eexists _, _|].
  assert (H : right_answer [NConnected c1; NConnected c2] (QAddr "p") (AAddr (Some ad1))).
  { split.
    - by exists [NConnected c1], c2, [].
    - exists c1. split; [|done]. exists [], [NConnected c2]. split; [done|]. split; [done|]. split.
      + intros (h1 & c & h2 & Heq & _). by destruct h1.
      + apply Forall_cons_2; [intros c' Hc; discriminate Hc|apply Forall_nil_2]. }
  split; [exact H|]. intros H'. pose proof (C53_answer_unique _ _ _ _ H H') as Heq. discriminate Heq.
Qed.

(** ** C54 *)
(** The claim: while a connection to a peer is open and the manager has not shut down, the peer is counted
    and has a running session. *)
Definition C54_claim : Prop := forall initial existing s, cm_reach initial existing s ->
  let h := net_history (rev (cm_log s)) in
  real_history h -> GShutdown ∉ cm_log s -> forall c, is_open h c ->
  exists sid c', running (rev (cm_log s)) sid c' /\ cn_peer c' = cn_peer c.
(** It is false: of two connections of a peer the second is closed. *)
Definition close_second : list cm_label :=
  [LStarted; LNotify (NConnected c1); LTakeEvent 0; LNotify (NConnected c2); LTakeEvent 0; LNotify (NDisconnected c2); LTakeEvent 0;
   LCall (QIs "p"); LTakeQuery 0; LReply].
Theorem C54_live_connection_refuted : ~ C54_claim.
Proof.
  intros HC. destruct (cm_run (cm_init [] []) close_second) as [s|] eqn:Hr; [|vm_compute in Hr; discriminate Hr].
  assert (Hreach : cm_reach [] [] s) by (by exists close_second).
  vm_compute in Hr. injection Hr as <-. specialize (HC _ _ _ Hreach). cbn in HC.
  destruct HC with (c := c1) as (sid & c & [Hin Hno] & _).
  - split.
    + apply NoDup_cons; split; [set_solver|]. apply NoDup_cons; split; [set_solver|]. apply NoDup_cons; split; [set_solver|constructor].
    + intros h1 c h2 Heq. destruct h1 as [|x1 [|x2 [|x3 [|x4 h1]]]]; try discriminate Heq. injection Heq as <- <- <- _. set_solver.
  - set_solver.
  - exists [], [NConnected c2; NDisconnected c2]. split; [done|]. unfold c1, c2. set_solver.
  - repeat (apply elem_of_cons in Hin as [Hin|Hin]; [try discriminate Hin; injection Hin as -> ->; apply Hno; set_solver|]). by apply elem_of_nil in Hin.
Qed.
(** ... and it is then reported as not connected *)
Example C54_reported : exists s, cm_run (cm_init [] []) close_second = Some s /\ returned s 0 (AIs false).
Proof. eexists. split; [vm_compute; reflexivity|]. by eexists _, _. Qed.
(** It holds when a peer never has two connections at a time; and a peer that is counted always has an open
    connection. *)
Theorem C54_live_connection_partial initial existing s : cm_reach initial existing s ->
  let h := net_history (rev (cm_log s)) in
  GShutdown ∉ cm_log s ->
  (real_history h -> one_at_a_time h -> forall c, is_open h c ->
     exists sid c', running (rev (cm_log s)) sid c' /\ cn_peer c' = cn_peer c) /\
  (forall sid c, running (rev (cm_log s)) sid c -> exists c', cn_peer c' = cn_peer c /\ is_open h c').
Proof.
  intros Hr h Hns. destruct (Inv1_reach _ _ _ Hr) as (Ht & _). destruct (Inv2_reach _ _ _ Hr) as ((HS1 & HS2 & _) & He).
  assert (Ht' : tracks h (cm_peers s)).
  { destruct (cm_manager s); [exact Ht|exact Ht|exact Ht|]. exfalso. by apply Hns, He. }
  split.
  - intros Hh H1 c Ho. pose proof (open_stays _ _ Hh H1 Ho) as Hl. specialize (Ht' (cn_peer c)).
    destruct (cm_peers s !! cn_peer c) as [[sid c']|] eqn:E; [|done]. pose proof (HS2 _ _ _ E) as Hp. exists sid, c'.
    split; [|done]. apply HS1. by rewrite Hp.
  - intros sid c Hrun. apply HS1 in Hrun. specialize (Ht' (cn_peer c)). rewrite Hrun in Ht'. by apply last_open, Ht'.
Qed.
Example C54_partial_nonvacuous : exists s, cm_run (cm_init [] [])
    [LStarted; LNotify (NConnected c1); LTakeEvent 0; LNotify (NDisconnected c1); LTakeEvent 0; LNotify (NConnected c2); LTakeEvent 0] = Some s /\
  let h := net_history (rev (cm_log s)) in real_history h /\ one_at_a_time h /\ is_open h c2 /\ ~ is_open h c1.
Proof.
  eexists. split; [vm_compute; reflexivity|]. cbn. split; [|split; [|split]].
  - split.
    + apply NoDup_cons; split; [set_solver|]. apply NoDup_cons; split; [set_solver|]. apply NoDup_cons; split; [set_solver|constructor].
    + intros h1 c h2 Heq. destruct h1 as [|x1 [|x2 [|x3 [|x4 h1]]]]; try discriminate Heq. injection Heq as <- <- _. set_solver.
  - intros h1 c h2 Heq c' Hc (g1 & g2 & -> & Hno).
    destruct g1 as [|y1 [|y2 [|y3 g1]]]; cbn [app] in Heq; injection Heq as Heq.
    + subst. destruct g2 as [|z1 [|z2 [|z3 g2]]]; cbn [app] in *; simplify_eq. set_solver.
    + simplify_eq.
    + simplify_eq. destruct g2; discriminate.
    + destruct g1; discriminate.
  - exists [NConnected c1; NDisconnected c1], []. split; [done|apply not_elem_of_nil].
  - intros (g1 & g2 & Heq & Hno). destruct g1 as [|y1 [|y2 [|y3 g1]]]; cbn [app] in Heq; simplify_eq; [set_solver|].
    destruct g1; discriminate.
Qed.

(** ** C55 *)
Theorem C55_sessions initial existing s : cm_reach initial existing s ->
  let L := rev (cm_log s) in
  (* at most one running session per peer *)
  (forall sid c sid' c', running L sid c -> running L sid' c' -> cn_peer c = cn_peer c' -> sid = sid' /\ c = c') /\
  (* no two sessions have the same number; a session is cancelled at most once, and only if it was started *)
  NoDup (started L) /\ NoDup (cancelled_sessions L) /\ (forall sid, GCancel sid ∈ L -> exists c, GStart sid c ∈ L) /\
  (* a session is cancelled right after its peer disconnects, or after shutdown *)
  (forall l1 sid l2, L = l1 ++ GCancel sid :: l2 ->
     GShutdown ∈ l1 \/ exists l1' c0 c, l1 = l1' ++ [GNet (NDisconnected c0)] /\ GStart sid c ∈ l1' /\ cn_peer c = cn_peer c0) /\
  (* until shutdown exactly the connected peers have one *)
  (GShutdown ∉ L -> forall p, last_connected (net_history L) p <-> exists sid c, running L sid c /\ cn_peer c = p) /\
  (* none survives shutdown *)
  (GShutdown ∈ L -> forall sid c, ~ running L sid c).
Proof.
  intros Hr L. destruct (Inv1_reach _ _ _ Hr) as (Ht & _). destruct (Inv2_reach _ _ _ Hr) as ((H1 & H2 & H3 & (H4 & H4') & H5 & H6) & He).
  assert (HinL : GShutdown ∈ L <-> GShutdown ∈ cm_log s) by (unfold L; by rewrite !elem_of_list_In, <- in_rev).
  split; [|split; [|split; [|split; [|split; [|split]]]]].
  - intros sid c sid' c' Hc Hc' Hp. apply H1 in Hc. apply H1 in Hc'. rewrite Hp in Hc. rewrite Hc in Hc'. by injection Hc'.
  - unfold L. rewrite H3. apply NoDup_seq.
  - exact H4.
  - intros sid Hin. apply elem_csess in Hin. apply H4' in Hin.
    assert (Hs : sid ∈ started L) by (unfold L; rewrite H3; apply elem_of_seq; lia).
    apply elem_of_list_omap in Hs as (x & Hx & Hsx). destruct x; try discriminate Hsx. injection Hsx as ->. by exists c.
  - exact H6.
  - intros Hns p.
    assert (Ht' : tracks (net_history L) (cm_peers s)).
    { destruct (cm_manager s); [exact Ht|exact Ht|exact Ht|]. exfalso. by apply Hns, HinL, He. }
    specialize (Ht' p). split.
    + intros Hl. destruct (cm_peers s !! p) as [[sid c]|] eqn:E; [|done]. pose proof (H2 _ _ _ E) as Hp.
      exists sid, c. split; [|done]. apply H1. by rewrite Hp.
    + intros (sid & c & Hrun & <-). apply H1 in Hrun. rewrite Hrun in Ht'. apply Ht'.
  - intros Hs sid c Hrun. apply H1 in Hrun. apply HinL, He in Hs. rewrite Hs in Ht. rewrite Ht, lookup_empty in Hrun. discriminate Hrun.
Qed.
Example C55_nonvacuous : exists s, cm_run (cm_init [] [])
    [LStarted; LNotify (NConnected c1); LTakeEvent 0; LNotify (NConnected c3); LTakeEvent 0; LNotify (NDisconnected c1); LTakeEvent 0; LCancel; LShutdown] = Some s /\
  rev (cm_log s) = [GNet (NConnected c1); GStart 0 c1; GNet (NConnected c3); GStart 1 c3; GNet (NDisconnected c1); GCancel 0; GShutdown; GCancel 1].
Proof. eexists. split; vm_compute; reflexivity. Qed.

(** ** C56 *)
(** The claim: in every execution Start can be completed: whatever happened so far, the loop gets to serve. *)
Definition C56_claim : Prop := forall initial existing s, cm_reach initial existing s ->
  exists sched s', cm_run s sched = Some s' /\ cm_manager s' <> MNotStarted.
(** It is false for every non-empty set of connections: nothing is ever served, no session is ever started,
    no call is ever answered, in any schedule. *)
Theorem C56_start_refuted : ~ C56_claim /\
  (forall initial existing s, existing <> [] -> cm_reach initial existing s ->
     cm_manager s = MNotStarted /\ cm_log s = [] /\ cm_seed s = SdNotStarted /\
     forall i c, cm_callers s !! i = Some c -> cl_state_of c = ClSending).
Proof.
  assert (HA : forall initial existing s, existing <> [] -> cm_reach initial existing s ->
     cm_manager s = MNotStarted /\ cm_log s = [] /\ cm_seed s = SdNotStarted /\
     forall i c, cm_callers s !! i = Some c -> cl_state_of c = ClSending).
  { intros initial existing s Hne Hr. pose proof (Inv0_reach _ _ _ Hr) as H0. unfold Inv0 in H0. destruct (cm_starter s); [|by destruct H0].
    destruct H0 as (_ & H1 & H2 & H3 & _ & _ & H4). repeat (split; [done|]). intros i c Hc. by eapply Forall_lookup_1 in H4. }
  split; [|exact HA]. intros HC.
  assert (Hr : cm_reach [] [c1] (cm_init [] [c1])) by (by exists []).
  destruct (HC _ _ _ Hr) as (sched & s' & Hrun & Hm). apply Hm. by apply (HA [] [c1] s'); [|exists sched].
Qed.
(** Without connections at the time of Start the loops start and serve at once. *)
Theorem C56_start_partial initial s : cm_reach initial [] s ->
  (cm_manager s = MNotStarted -> exists s', cm_step s LStarted = Some s' /\ cm_manager s' = MServing /\ cm_seed s' = SdPausing) /\
  (cm_manager s = MServing -> forall i e, cm_blocked s !! i = Some e -> exists s', cm_step s (LTakeEvent i) = Some s' /\ GNet e ∈ cm_log s').
Proof.
  intros Hr. pose proof (Inv0_reach _ _ _ Hr) as H0. unfold Inv0 in H0. split.
  - intros Hm. destruct (cm_starter s) as [l|] eqn:E; [|by destruct H0 as (_ & H & _)]. destruct H0 as (-> & _).
    eexists. cbn [cm_step]. rewrite E. split; [done|done].
  - intros Hm i e Hi. cbn [cm_step]. rewrite Hm, Hi. eexists. split; [done|].
    destruct e as [c|c]; cbn [handle]; unfold handle_connected, handle_disconnected, set_blocked; cbn; repeat case_match; cbn; set_solver.
Qed.
Example C56_nonvacuous : cm_reach [] [] (cm_init [] []) /\ cm_reach [] [c1] (cm_init [] [c1]).
Proof. split; by exists []. Qed.

(** ** C57 *)
(** The seed loop goes in rounds that visit every seed once, each seed found not connected is dialled, and
    what the loop finds is the truth unless its context is done. *)
Theorem C57_rounds initial existing s : cm_reach initial existing s ->
  (exists rs r, seed_trace (rev (cm_log s)) = concat rs ++ r /\ Forall (complete_round initial) rs /\ (r = [] \/ partial_round initial r)) /\
  (cm_cancelled s = false -> forall l1 p b l2, rev (cm_log s) = l1 ++ GSeed p b :: l2 -> (b = true <-> last_connected (net_history l1) p)).
Proof.
  intros Hr. split.
  - destruct (Inv4_reach _ _ _ Hr) as (_ & Hs).
    assert (Hpart : forall rest r, in_round initial rest r -> partial_round initial r).
    { intros rest r (vs & Hn & Hp & ->). exists vs. apply NoDup_app in Hn as (Hn & _). split; [done|]. split; [|done].
      intros p Hin. apply Hp, elem_of_app. by left. }
    destruct (cm_seed s) as [|todo|p todo|p todo|p todo|]; cbn [round_state] in Hs.
    + exists [], []. rewrite Hs. split; [done|]. split; [constructor|by left].
    + destruct Hs as (rs & r & H1 & H2 & ->). exists rs, r. split; [done|]. split; [done|right; by eapply Hpart].
    + destruct Hs as (rs & r & H1 & H2 & ->). exists rs, r. split; [done|]. split; [done|right; by eapply Hpart].
    + destruct Hs as (rs & r & H1 & H2 & ->). exists rs, r. split; [done|]. split; [done|right; by eapply Hpart].
    + destruct Hs as (rs & r & H1 & H2 & ->). exists rs, r. split; [done|]. split; [done|right; by eapply Hpart].
    + destruct Hs as (rs & H1 & ->). exists rs, []. rewrite app_nil_r. split; [done|]. split; [done|by left].
  - intros Hc l1 p b l2 Heq. destruct (Inv6_reach _ _ _ Hr) as [Ht _].
    destruct (Ht _ _ _ _ Heq) as [[Hc' _]|[l0 ->]]; [congruence|].
    destruct (Inv1_reach _ _ _ Hr) as (_ & _ & Ha). rewrite <- app_assoc in Heq. cbn [app] in Heq.
    specialize (Ha _ _ _ _ _ Heq). cbn [right_answer] in Ha. rewrite net_app. cbn [net_history omap]. by rewrite app_nil_r.
Qed.
Definition one_round : list cm_label :=
  [LStarted; LNotify (NConnected c3); LTakeEvent 0; LRound ["p"; "q"]; LSeedAsk; LTakeSeed; LReply; LDialed; LSeedAsk; LTakeSeed; LReply; LSeedAsk].
Example C57_nonvacuous : exists s, cm_run (cm_init ["q"; "p"; "q"] []) one_round = Some s /\
  seed_trace (rev (cm_log s)) = [GRound; GSeed "p" false; GDial "p"; GSeed "q" true] /\ cm_seed s = SdPausing.
Proof. eexists. split; [vm_compute; reflexivity|]. split; vm_compute; reflexivity. Qed.

(** The second half of the claim: after the manager shut down the seed loop does only finitely much more. *)
Definition C57_claim : Prop := forall initial existing s, cm_reach initial existing s -> GShutdown ∈ cm_log s ->
  exists bound, forall sched s', cm_run s sched = Some s' -> (seed_rounds (rev (cm_log s')) <= bound)%nat.
Lemma spin n s : cm_seeds s = [] -> cm_seed s = SdPausing ->
  exists sched s', cm_run s sched = Some s' /\ cm_seeds s' = [] /\ cm_seed s' = SdPausing /\ seed_rounds (rev (cm_log s')) = (n + seed_rounds (rev (cm_log s)))%nat.
Proof.
  revert s. induction n as [|n IH]; intros s H1 H2.
  - exists [], s. done.
  - destruct s as [sd st m pe nx bl ca se cc lg]. cbn [cm_seeds cm_seed] in *. subst sd se.
    destruct (IH (Cm [] st m pe nx bl ca SdPausing cc (GRound :: lg)) eq_refl eq_refl) as (sched & s' & Hr & H3 & H4 & H5).
    exists (LRound [] :: LSeedAsk :: sched), s'. split; [|split; [done|split; [done|]]].
    + cbn [cm_run cm_step cm_seed cm_seeds]. exact Hr.
    + rewrite H5. cbn [cm_log rev]. unfold seed_rounds. rewrite List.filter_app, app_length. cbn. lia.
Qed.
(** It is false: without seeds the loop runs freely after the shutdown. *)
Theorem C57_stops_refuted : ~ C57_claim.
Proof.
  intros HC. destruct (cm_run (cm_init [] []) [LStarted; LCancel; LShutdown]) as [s|] eqn:Hr; [|vm_compute in Hr; discriminate Hr].
  assert (Hreach : cm_reach [] [] s) by (by eexists). vm_compute in Hr. injection Hr as <-.
  destruct (HC _ _ _ Hreach) as [bound Hb]; [set_solver|].
  match type of Hreach with cm_reach _ _ ?s0 => destruct (spin (S bound) s0 eq_refl eq_refl) as (sched & s' & Hrun & _ & _ & Hn) end.
  specialize (Hb _ _ Hrun). rewrite Hn in Hb. lia.
Qed.
(** With seeds the loop stays for ever in its next question. *)
Theorem C57_blocked_forever initial existing s p todo : cm_reach initial existing s -> GShutdown ∈ cm_log s -> cm_seed s = SdSending p todo ->
  forall sched s', cm_run s sched = Some s' -> cm_seed s' = SdSending p todo.
Proof.
  intros Hr Hs Hd sched s' Hrun. destruct (Inv2_reach _ _ _ Hr) as (_ & He). apply He in Hs.
  pose proof (Inv0_reach _ _ _ Hr) as H0. unfold Inv0 in H0.
  destruct (cm_starter s) eqn:E; [by destruct H0 as (_ & H0 & _); rewrite Hs in H0|].
  destruct (ended_run _ _ _ Hs E Hrun) as (_ & _ & _ & H4). by apply H4.
Qed.
Example C57_blocked_nonvacuous : exists s, cm_run (cm_init ["p"] []) [LStarted; LRound ["p"]; LSeedAsk; LCancel; LShutdown] = Some s /\
  GShutdown ∈ cm_log s /\ cm_seed s = SdSending "p" [].
Proof. eexists. split; [vm_compute; reflexivity|]. split; [set_solver|done]. Qed.
(** What does hold: after the shutdown at most one more seed is dialled. *)
Theorem C57_stops_partial initial existing s l1 l2 : cm_reach initial existing s ->
  rev (cm_log s) = l1 ++ GShutdown :: l2 -> (dials l2 <= 1)%nat.
Proof. intros Hr Heq. destruct (Inv5_reach _ _ _ Hr _ _ Heq) as [_ H]. lia. Qed.
Example C57_one_more : exists s l1 l2, cm_run (cm_init ["p"] [])
    [LStarted; LRound ["p"]; LSeedAsk; LTakeSeed; LCancel; LGiveUp; LShutdown; LSeedTimeout] = Some s /\
  rev (cm_log s) = l1 ++ GShutdown :: l2 /\ dials l2 = 1%nat.
Proof. eexists _, [GRound], _. split; [vm_compute; reflexivity|]. split; [reflexivity|reflexivity]. Qed.

(** ** C68, the queries of the connection manager *)
Definition C68_query_claim : Prop := forall initial existing s i q st, cm_reach initial existing s ->
  cm_callers s !! i = Some (Caller q st true) -> exists sched s' a, cm_run s sched = Some s' /\ returned s' i a.
Theorem C68_query_returns_refuted : ~ C68_query_claim.
Proof.
  intros HC. destruct (cm_run (cm_init [] []) [LStarted; LCancel; LShutdown; LCall QNum; LExpire 0]) as [s|] eqn:Hr; [|vm_compute in Hr; discriminate Hr].
  assert (Hreach : cm_reach [] [] s) by (by eexists). vm_compute in Hr. injection Hr as <-.
  destruct (HC _ _ _ 0 QNum ClSending Hreach) as (sched & s' & a & Hrun & (q & x & Hret)); [done|].
  apply ended_run in Hrun as (_ & _ & H3 & _); [|done|done]. destruct (H3 0 QNum true eq_refl) as [x' Hx'].
  rewrite Hx' in Hret. discriminate Hret.
Qed.
(** A call whose message was taken by the loop can return as soon as its context is done. *)
Theorem C68_taken_query_returns_partial s i q : cm_callers s !! i = Some (Caller q ClWaiting true) ->
  exists s' a, cm_step s (LTimeout i) = Some s' /\ returned s' i a /\ gave_up q a.
Proof.
  intros H. cbn [cm_step]. rewrite H. eexists _, (no_answer q). split; [done|]. split; [|by destruct q]. exists q, true. cbn. apply list_lookup_insert. by eapply lookup_lt_Some.
Qed.
Example C68_query_nonvacuous : exists s, cm_run (cm_init [] []) [LStarted; LCall QNum; LTakeQuery 0; LExpire 0] = Some s /\
  cm_callers s !! 0 = Some (Caller QNum ClWaiting true).
Proof. eexists. split; vm_compute; reflexivity. Qed.

(** ** C73 *)
(** The claim: as long as the manager is not told to stop, a notification that waits can be handled. *)
Definition C73_claim : Prop := forall initial existing s i e, cm_reach initial existing s ->
  cm_starter s = None -> cm_cancelled s = false -> cm_blocked s !! i = Some e ->
  exists sched s', LCancel ∉ sched /\ cm_run s sched = Some s' /\ exists l, cm_log s' = l ++ cm_log s /\ GNet e ∈ l.
(** It is false: after a caller gave up at the wrong moment nothing is served any more. *)
Definition impatient : list cm_label :=
  [LStarted; LCall QNum; LTakeQuery 0; LExpire 0; LTimeout 0; LNotify (NConnected c1)].
Theorem C73_impatient_caller_refuted : ~ C73_claim /\
  exists s, cm_run (cm_init [] []) impatient = Some s /\
    forall sched s', LCancel ∉ sched -> cm_run s sched = Some s' ->
      List.filter serves (cm_log s') = List.filter serves (cm_log s).
Proof.
  destruct (cm_run (cm_init [] []) impatient) as [s|] eqn:Hr; [|vm_compute in Hr; discriminate Hr].
  assert (Hreach : cm_reach [] [] s) by (by eexists).
  assert (Hst : stuck 0 s).
  { vm_compute in Hr. injection Hr as <-. split; [done|]. split; [done|]. by eexists _, _, _, _. }
  split.
  - intros HC. assert (Hb : cm_blocked s !! 0 = Some (NConnected c1)) by (vm_compute in Hr; by injection Hr as <-).
    destruct Hst as (Hst1 & Hst2 & Hst3).
    destruct (HC _ _ _ _ _ Hreach Hst1 Hst2 Hb) as (sched & s' & Hn & Hrun & l & Hl & Hin).
    destruct (stuck_run 0 _ _ _ Hn (conj Hst1 (conj Hst2 Hst3)) Hrun) as [_ Hsv]. unfold served in Hsv. rewrite Hl, List.filter_app in Hsv.
    assert (Hnil : List.filter serves l = []).
    { apply (f_equal length) in Hsv. rewrite app_length in Hsv. destruct (List.filter serves l); [done|]. cbn in Hsv. lia. }
    assert (Hx : GNet (NConnected c1) ∈ List.filter serves l) by (apply elem_of_list_In, filter_In; split; [by apply elem_of_list_In|done]).
    rewrite Hnil in Hx. by apply elem_of_nil in Hx.
  - exists s. split; [done|]. intros sched s' Hn Hrun. by destruct (stuck_run _ _ _ _ Hn Hst Hrun).
Qed.
(** It holds when no caller's context has ended. *)
Theorem C73_served_partial initial existing s i e : cm_reach initial existing s ->
  cm_starter s = None -> cm_cancelled s = false -> (forall j c, cm_callers s !! j = Some c -> cl_expired c = false) ->
  GShutdown ∉ cm_log s -> cm_blocked s !! i = Some e ->
  exists sched s', LCancel ∉ sched /\ cm_run s sched = Some s' /\ exists l, cm_log s' = l ++ cm_log s /\ GNet e ∈ l.
Proof.
  intros Hr Hs0 Hc Hx Hns Hb. destruct (Inv2_reach _ _ _ Hr) as (_ & He). pose proof (Inv7_reach _ _ _ Hr) as H7. unfold Inv7 in H7.
  pose proof (Inv0_reach _ _ _ Hr) as H0. unfold Inv0 in H0. rewrite Hs0 in H0. destruct H0 as (_ & Hm0 & _).
  assert (HS : forall s1, cm_manager s1 = MServing -> cm_blocked s1 !! i = Some e ->
     exists s', cm_step s1 (LTakeEvent i) = Some s' /\ exists l, cm_log s' = l ++ cm_log s1 /\ GNet e ∈ l).
  { intros s1 Hm1 Hb1. cbn [cm_step]. rewrite Hm1, Hb1. eexists. split; [done|].
    destruct e as [c|c]; cbn [handle]; unfold handle_connected, handle_disconnected, set_blocked; cbn; repeat case_match; cbn;
      first [by exists [GNet (NConnected c)]; split; [done|set_solver]
            |by exists [GNet (NDisconnected c)]; split; [done|set_solver]
            |by eexists [_; GNet (NConnected c)]; split; [done|set_solver]
            |by eexists [_; GNet (NDisconnected c)]; split; [done|set_solver]]. }
  destruct (cm_manager s) as [| |w q a|] eqn:Hm; [done| | |].
  - destruct (HS s Hm Hb) as (s' & Hst & Hl). exists [LTakeEvent i], s'. split; [set_solver|]. split; [|done]. cbn [cm_run]. by rewrite Hst.
  - assert (HR : exists s1 l1, cm_step s LReply = Some s1 /\ cm_manager s1 = MServing /\ cm_blocked s1 = cm_blocked s /\ cm_log s1 = l1 ++ cm_log s).
    { cbn [can_answer] in H7. destruct w as [j|].
      - destruct H7 as (st & x & Hj & Hw). assert (x = false) as -> by (apply (Hx _ _ Hj)). destruct Hw as [->|Hw]; [|discriminate Hw].
        cbn [cm_step]. rewrite Hm, Hj. eexists _, [_; _]. split; [done|]. done.
      - destruct H7 as ((b & ->) & [(p & todo & Hd)|Hd]); [|congruence].
        cbn [cm_step]. rewrite Hm, Hd. destruct b; [eexists _, [_; _]|eexists _, [_; _; _]]; split; done. }
    destruct HR as (s1 & l1 & Hst1 & Hm1 & Hb1 & Hl1). rewrite <- Hb1 in Hb.
    destruct (HS s1 Hm1 Hb) as (s' & Hst & l & Hl & Hin). exists [LReply; LTakeEvent i], s'.
    split; [set_solver|]. split; [cbn [cm_run]; by rewrite Hst1, Hst|]. exists (l ++ l1). rewrite Hl, Hl1, app_assoc. split; [done|]. apply elem_of_app. by left.
  - exfalso. by apply Hns, He.
Qed.
Example C73_nonvacuous : exists s, cm_run (cm_init [] []) [LStarted; LCall QNum; LTakeQuery 0; LNotify (NConnected c1)] = Some s /\
  cm_manager s <> MServing /\ cm_blocked s !! 0 = Some (NConnected c1) /\ (forall j c, cm_callers s !! j = Some c -> cl_expired c = false).
Proof.
  eexists. split; [vm_compute; reflexivity|]. split; [done|]. split; [done|]. intros [|j] c H; [by injection H as <-|discriminate H].
Qed.

Print Assumptions C53_answers.
Print Assumptions C53_answer_unique.
Print Assumptions C54_live_connection_refuted.
Print Assumptions C54_live_connection_partial.
Print Assumptions C55_sessions.
Print Assumptions C56_start_refuted.
Print Assumptions C56_start_partial.
Print Assumptions C57_rounds.
Print Assumptions C57_stops_refuted.
Print Assumptions C57_blocked_forever.
Print Assumptions C57_stops_partial.
Print Assumptions C68_query_returns_refuted.
Print Assumptions C68_taken_query_returns_partial.
Print Assumptions C73_impatient_caller_refuted.
Print Assumptions C73_served_partial.
