(** C121, continued: the rate of errors of a host and the connections of its peers. *)
From Coq Require Import Reals Lra.
From Verif Require Import GoBase Util ErrHandler_Model ErrHandler_Spec ErrHandler_Proofs ErrHandler_Props ErrDecay_Model ErrDecay_Proofs EhSys_Model EhSys_Spec EhSys_Proofs EhSys_Props
  ConnMgr_Model ConnMgr_Spec Asm_Model Asm_Spec Asm_Proofs Cutoff_Model Cutoff_Spec Cutoff_Proofs Cutoff_Props Rate_Spec Rate_Proofs Rate_Props.
Local Open Scope R_scope.

Lemma es_log_one decay o e l e' : es_step decay o e l = Some e' -> es_log e' = es_log e \/ exists x, es_log e' = x :: es_log e.
Proof. intros Hst. destruct e as [pv lp sc cq sq ca rp dc cc pn lg fd]. es_cases Hst l; subst; cbn [es_log]; first [by left|right; by eexists]. Qed.
Lemma nt_log_one decay o s lab s' : nt_step decay o s lab = Some s' -> es_log (nt_eh s') = es_log (nt_eh s) \/ exists x, es_log (nt_eh s') = x :: es_log (nt_eh s).
Proof. intros Hst. apply nt_cases in Hst as [l Hl]. destruct (nt_eh_part _ _ _ _ _ _ Hl) as [E|(l' & le & _ & He & _)]; [left; by rewrite E|by eapply es_log_one]. Qed.
(** Every request the handler served was served in one step of the run. *)
Lemma served_when decay o initial sched : forall s n ev out, nt_run decay o (nt_init initial) sched = Some s ->
  served_events (nt_eh s) !! n = Some ev -> served_answers (nt_eh s) !! n = Some out ->
  exists sched1 s1 lab s2 sched2, nt_run decay o (nt_init initial) sched1 = Some s1 /\ nt_step decay o s1 lab = Some s2 /\ nt_run decay o s2 sched2 = Some s /\
    served_events (nt_eh s2) = served_events (nt_eh s1) ++ [ev] /\ served_answers (nt_eh s2) = served_answers (nt_eh s1) ++ [out].
Proof.
  induction sched as [|lab sched IH] using rev_ind; intros s n ev out Hr He Ha.
  { cbn [nt_run] in Hr. injection Hr as <-. cbn in He. discriminate He. }
  rewrite nt_run_app in Hr. destruct (nt_run decay o (nt_init initial) sched) as [s1|] eqn:H1; [|discriminate Hr]. cbn [nt_run] in Hr.
  destruct (nt_step decay o s1 lab) as [s2|] eqn:H2; [|discriminate Hr]. injection Hr as <-.
  assert (Hold : served_events (nt_eh s1) !! n = Some ev -> served_answers (nt_eh s1) !! n = Some out -> exists sched1 s3 lab0 s4 sched2,
    nt_run decay o (nt_init initial) sched1 = Some s3 /\ nt_step decay o s3 lab0 = Some s4 /\ nt_run decay o s4 sched2 = Some s2 /\
    served_events (nt_eh s4) = served_events (nt_eh s3) ++ [ev] /\ served_answers (nt_eh s4) = served_answers (nt_eh s3) ++ [out]).
  { intros Hx Hy. destruct (IH s1 n ev out eq_refl Hx Hy) as (c1 & s3 & lb & s4 & c2 & G1 & G2 & G3 & G4 & G5).
    exists c1, s3, lb, s4, (c2 ++ [lab]). split; [done|]. split; [done|]. split; [|done]. rewrite nt_run_app, G3. cbn [nt_run]. by rewrite H2. }
  destruct (nt_log_one _ _ _ _ _ H2) as [E|[x E]].
  { apply Hold; unfold served_events, served_answers in *; by rewrite <- E. }
  assert (E1 : served_events (nt_eh s2) = served_events (nt_eh s1) ++ [x.1.2]) by (unfold served_events; rewrite E; cbn [rev]; by rewrite map_app).
  assert (E2 : served_answers (nt_eh s2) = served_answers (nt_eh s1) ++ [x.2]) by (unfold served_answers; rewrite E; cbn [rev]; by rewrite map_app).
  assert (El : length (served_events (nt_eh s1)) = length (served_answers (nt_eh s1))) by (unfold served_events, served_answers; by rewrite !map_length).
  rewrite E1 in He. rewrite E2 in Ha. destruct (decide (n < length (served_events (nt_eh s1)))%nat) as [Hlt|Hge].
  - rewrite lookup_app_l in He by done. rewrite lookup_app_l in Ha by lia. by apply Hold.
  - assert (n = length (served_events (nt_eh s1))) as ->. { apply lookup_lt_Some in He. rewrite app_length in He. cbn in He. lia. }
    rewrite list_lookup_middle in He by done. rewrite El, list_lookup_middle in Ha by done. injection He as He. injection Ha as Ha.
    exists sched, s1, lab, s2, []. by rewrite <- He, <- Ha.
Qed.

(** C121, frequent errors close the connections.  In a network that has come to rest: if the host's last errors came at a rate as in
    [C121_frequent_errors], then there was a moment in the run at which an error of a peer on this host was charged and the peer was
    to be cut off, and no connection this peer had then is open now; the sync sessions it had then have ended. *)
Theorem C121_connections_closed : forall H D o initial s host (m : N) (k : nat) pre errors, (0 < H)%Z -> (0 < D)%Z ->
  nt_reach (decay_real H) o initial s -> quiet s -> node_stopped (nt_as s) = false ->
  history o (nt_eh s) host = pre ++ touches_of_series errors -> in_order 0 (history o (nt_eh s) host) -> (total_charge (history o (nt_eh s) host) < two64)%N ->
  errors <> [] -> close D None errors -> Forall (fun x => (m <= x.2.2)%N /\ (length x.1 <= k)%nat) errors ->
  NR (o_threshold o) * (1 - left H D) <= (NR m - INR k - 1) * (1 - left H D ^ length errors) ->
  exists sched1 s1 lab s2 sched2 now id a e,
    nt_run (decay_real H) o (nt_init initial) sched1 = Some s1 /\ bans (decay_real H) o s1 lab s2 id /\ nt_run (decay_real H) o s2 sched2 = Some s /\
    served_events (nt_eh s2) = served_events (nt_eh s1) ++ [EvError now id (Some a) e] /\ ma_first a = host /\
    (forall c, c ∈ nt_open s1 -> cn_peer c = id -> c ∉ nt_open s) /\ (forall sid c, session s1 sid c -> cn_peer c = id -> session_ended s sid).
Proof.
  intros H D o initial s host m k pre errors HH HD Hre Hq Hns Eh Ho Ht Hne Hc Hf Hthr.
  destruct (proj_reach _ _ _ _ _ (as_reach_nt _ _ _ _ Hre)) as [_ He]. fold (nt_eh s) in He.
  destruct (C121_frequent_errors H D o (nt_eh s) host m k pre errors HH HD He Eh Ho Ht Hne Hc Hf Hthr) as (n & now & id & a & e & Hn & Hh & Ha).
  destruct Hre as [sched Hr]. destruct (served_when _ _ _ _ _ _ _ _ Hr Hn Ha) as (c1 & s1 & lab & s2 & c2 & G1 & G2 & G3 & G4 & G5).
  exists c1, s1, lab, s2, c2, now, id, a, e. assert (Hb : bans (decay_real H) o s1 lab s2 id) by by split.
  destruct (C94_cut_off _ _ initial _ _ _ _ _ _ (ex_intro _ c1 G1) Hb G3 Hq Hns) as [Hcut Hses]. done.
Qed.
Print Assumptions C121_connections_closed.

(** C121, rare errors close nothing.  A peer whose errors were all charged to hosts that err rarely, as in [C121_rare_errors], loses
    no connection to the node's closing loop. *)
Theorem C121_connections_stay : forall H D o initial s s' c (m : N), (0 < H)%Z -> (0 < D)%Z -> NR m < NR (o_threshold o) * (1 - left H D) ->
  nt_reach (decay_real H) o initial s ->
  (forall now a e, EvError now (cn_peer c) (Some a) e ∈ served_events (nt_eh s) -> in_order 0 (history o (nt_eh s) (ma_first a)) /\
     spaced D None (history o (nt_eh s) (ma_first a)) /\ Forall (fun x => (x <= m)%N) (charges (history o (nt_eh s) (ma_first a)))) ->
  nt_step (decay_real H) o s NClosePeer = Some s' -> c ∈ nt_open s -> c ∈ nt_open s'.
Proof.
  intros H D o initial s s' c m HH HD Hlt Hre Hrare Hst Hc. destruct (decide (c ∈ nt_open s')) as [Hin|Hn]; [done|exfalso].
  pose proof (C94_nobody_else _ _ _ _ _ _ Hre Hst Hc Hn) as Hin. apply elem_of_list_lookup in Hin as [n Hn2].
  destruct (proj_reach _ _ _ _ _ (as_reach_nt _ _ _ _ Hre)) as [_ He]. fold (nt_eh s) in He.
  assert (El : length (served_events (nt_eh s)) = length (served_answers (nt_eh s))) by (unfold served_events, served_answers; by rewrite !map_length).
  destruct (lookup_lt_is_Some_2 (served_events (nt_eh s)) n) as [ev Hev]; [rewrite El; by eapply lookup_lt_Some|].
  pose proof (take_drop_middle _ _ _ Hev) as E. symmetry in E. pose proof (served_answer _ o _ _ _ _ He E) as Hans.
  rewrite take_length_le in Hans by (apply lookup_lt_Some in Hev; lia). rewrite Hn2 in Hans.
  destruct ev as [now id [a|] e|now a|now a]; cbn [event_host fmap option_fmap option_map ErrHandler_Proofs.answer] in Hans; try discriminate Hans.
  assert (id = cn_peer c) as -> by (case_bool_decide; [by injection Hans|discriminate Hans]).
  destruct (Hrare now a e) as (R1 & R2 & R3); [by eapply elem_of_list_lookup_2|].
  destruct (C121_rare_errors H D o (nt_eh s) (ma_first a) m HH HD He R1 R2 R3) as [Hno _]. apply (Hno Hlt). by exists n, now, (cn_peer c), a, e.
Qed.
Print Assumptions C121_connections_stay.

(** A peer errs mildly and one on another host gravely: the first keeps its connection, the second loses it. *)
Definition two_peers : list nlabel := nstart ++ nconnect 0 "p" host1 ++ nconnect 1 "q" host2 ++
  [NAs (AEh (XReport "p" (ESent ErrPeerRPC))); NAs (AEh (XTakeReport 0)); NAs (ACm (LTakeQuery 0)); NAs (ACm LReply); NAs (AErrAnswer 5)] ++
  nreport "q" 1 ++ [NAs (AErrAnswer 7); NTake 0].
Definition two_after : list nlabel := [NNotify 0; NAs (ACm (LTakeEvent 0))].
Lemma two_peers_quiet : forall decay, exists s s' s3, nt_run decay eh_defaults (nt_init ["s"]) two_peers = Some s /\ nt_step decay eh_defaults s NClosePeer = Some s' /\
  nt_run decay eh_defaults s' two_after = Some s3 /\ quiet s3.
Proof. intros decay. eexists _, _, _. split; [vm_compute; reflexivity|]. split; [vm_compute; reflexivity|]. split; [vm_compute; reflexivity|]. demo_quiet. Qed.
Lemma two_peers_seen decay : (fun s => (nt_open s, served_events (nt_eh s))) <$> nt_run decay eh_defaults (nt_init ["s"]) two_peers =
  Some ([Conn "p" host1 0; Conn "q" host2 1], [EvCanConnect 0 host1; EvCanConnect 0 host2; EvError 5 "p" (Some host1) (ESent ErrPeerRPC); EvError 7 "q" (Some host2) (ESent ErrChainIDMismatch)]).
Proof. vm_compute. reflexivity. Qed.
Lemma two_peers_end decay : (fun s => (node_stopped (nt_as s), nt_open s, served_events (nt_eh s))) <$> nt_run decay eh_defaults (nt_init ["s"]) (two_peers ++ NClosePeer :: two_after) =
  Some (false, [Conn "p" host1 0], [EvCanConnect 0 host1; EvCanConnect 0 host2; EvError 5 "p" (Some host1) (ESent ErrPeerRPC); EvError 7 "q" (Some host2) (ESent ErrChainIDMismatch)]).
Proof. vm_compute. reflexivity. Qed.
Lemma two_peers_run : forall decay, exists s s' s3, nt_run decay eh_defaults (nt_init ["s"]) two_peers = Some s /\ nt_step decay eh_defaults s NClosePeer = Some s' /\
  nt_run decay eh_defaults s' two_after = Some s3 /\ quiet s3 /\ node_stopped (nt_as s3) = false /\
  nt_open s = [Conn "p" host1 0; Conn "q" host2 1] /\ nt_open s3 = [Conn "p" host1 0] /\
  served_events (nt_eh s) = [EvCanConnect 0 host1; EvCanConnect 0 host2; EvError 5 "p" (Some host1) (ESent ErrPeerRPC); EvError 7 "q" (Some host2) (ESent ErrChainIDMismatch)] /\
  served_events (nt_eh s3) = served_events (nt_eh s).
Proof.
  intros decay. destruct (two_peers_quiet decay) as (s & s' & s3 & H1 & H2 & H3 & Hq). pose proof (two_peers_seen decay) as E1. rewrite H1 in E1. cbn [fmap option_fmap option_map] in E1.
  pose proof (two_peers_end decay) as E3. rewrite nt_run_app, H1 in E3. cbn [nt_run] in E3. rewrite H2, H3 in E3. cbn [fmap option_fmap option_map] in E3.
  injection E1 as E1 E2. injection E3 as E3 E4 E5. exists s, s', s3. rewrite E1, E2, E3, E4, E5. auto 10.
Qed.
Example C121_net_nonvacuous : let H := o_halflife eh_defaults in
  exists s s' s3, nt_reach (decay_real H) eh_defaults ["s"] s /\ nt_step (decay_real H) eh_defaults s NClosePeer = Some s' /\ nt_run (decay_real H) eh_defaults s' two_after = Some s3 /\
  (* of q: the hypotheses of [C121_connections_closed] in the last state *)
  quiet s3 /\ node_stopped (nt_as s3) = false /\ history eh_defaults (nt_eh s3) (ma_first host2) = [TLook 0] ++ touches_of_series [([], (7%Z, 200000%N))] /\
  in_order 0 (history eh_defaults (nt_eh s3) (ma_first host2)) /\ (total_charge (history eh_defaults (nt_eh s3) (ma_first host2)) < two64)%N /\
  NR (o_threshold eh_defaults) * (1 - left H minute) <= (NR 200000 - INR 0 - 1) * (1 - left H minute ^ 1) /\
  Conn "q" host2 1 ∈ nt_open s /\ Conn "q" host2 1 ∉ nt_open s3 /\
  (* of p: those of [C121_connections_stay] when the other one's connections are closed *)
  NR 5000 < NR (o_threshold eh_defaults) * (1 - left H (3 * minute)) /\
  (forall now a e, EvError now "p" (Some a) e ∈ served_events (nt_eh s) -> in_order 0 (history eh_defaults (nt_eh s) (ma_first a)) /\
     spaced (3 * minute) None (history eh_defaults (nt_eh s) (ma_first a)) /\ Forall (fun x => (x <= 5000)%N) (charges (history eh_defaults (nt_eh s) (ma_first a)))) /\
  EvError 5 "p" (Some host1) (ESent ErrPeerRPC) ∈ served_events (nt_eh s) /\ Conn "p" host1 0 ∈ nt_open s /\ Conn "p" host1 0 ∈ nt_open s'.
Proof.
  intros H. assert (HH : (0 < H)%Z) by (vm_compute; done). destruct (two_peers_run (decay_real H)) as (s & s' & s3 & H1 & H2 & H3 & Hq & Hns & Ho & Ho3 & Hsv & Hsv3).
  exists s, s', s3. split; [by eexists|]. split; [exact H2|]. split; [exact H3|]. split; [exact Hq|]. split; [exact Hns|]. unfold history. rewrite Hsv3, Hsv, Ho, Ho3.
  split; [reflexivity|]. split; [vm_compute; intuition discriminate|]. split; [vm_compute; done|].
  assert (Hf : forall d, (0 < d)%Z -> 0 < left H d < 1).
  { intros d Hd. rewrite left_factor by done. split; [apply factor_pos|]. apply factor_lt1; done. }
  split; [pose proof (Hf minute ltac:(vm_compute; done)); change (NR (o_threshold eh_defaults)) with 100000; change (NR 200000) with 200000; cbn [INR]; rewrite pow_1; nra|].
  split; [right; left|]. split; [intros X; apply elem_of_list_singleton in X; discriminate X|].
  assert (Hlt : NR 5000 < NR (o_threshold eh_defaults) * (1 - left H (3 * minute))).
  { rewrite left_factor by done. set (q := factor H (3 * minute)).
    assert (Hqq : q ^ 10 = / 2). { unfold q. rewrite factor_pow. change (Z.of_nat 10 * (3 * minute))%Z with (Z.of_nat 1 * H)%Z. rewrite factor_halflives by done. by rewrite pow_1. }
    assert (Hqp : 0 < q) by apply factor_pos. assert (Hq2 : q <= 94 / 100) by (apply (root_bound _ _ 10); [lra| |lra|done]; rewrite Hqq; cbn; lra).
    change (NR (o_threshold eh_defaults)) with 100000. change (NR 5000) with 5000. lra. }
  split; [exact Hlt|].
  assert (Hrare : forall now a e, EvError now "p" (Some a) e ∈ served_events (nt_eh s) -> in_order 0 (history eh_defaults (nt_eh s) (ma_first a)) /\
     spaced (3 * minute) None (history eh_defaults (nt_eh s) (ma_first a)) /\ Forall (fun x => (x <= 5000)%N) (charges (history eh_defaults (nt_eh s) (ma_first a)))).
  { intros now a e Hin. unfold history. rewrite Hsv in *. apply elem_of_list_In in Hin. cbn [In] in Hin. destruct Hin as [X|[X|[X|[X|[]]]]]; try discriminate X. injection X as <- <- <-.
    clear. split; [vm_compute; intuition discriminate|]. split; [vm_compute; done|]. vm_compute. repeat constructor; discriminate. }
  split; [unfold history in Hrare; rewrite Hsv in Hrare; exact Hrare|]. split; [right; right; left|]. split; [left|].
  eapply (C121_connections_stay H (3 * minute) eh_defaults ["s"] s s' (Conn "p" host1 0) 5000%N HH ltac:(vm_compute; done) Hlt); [by eexists|exact Hrare|exact H2|rewrite Ho; left].
Qed.
