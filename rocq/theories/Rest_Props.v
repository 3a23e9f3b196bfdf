(** Property theorems: C98. *)
From Verif Require Import GoBase Util TxCache_Model TxCache_Spec TxCache_Proofs Watchdog_Model
  Applicator_Model Applicator_Spec Applicator_Core Applicator_Sys Applicator_Inv Applicator_Inv2 Applicator_Inv3 Applicator_Inv4
  Applicator_Inv5 Applicator_Inv6 Applicator_Inv7 Applicator_Props Applicator_Props2 Deliver_Spec Deliver_Props Rest_Spec Rest_Proofs.

(** C98, first part.  Whatever happened before: while the applicator runs, either nothing is left to do, or something
    other than waiting can be done, possibly after some time.  This holds for every answer the chain may give. *)
Theorem C98_never_stuck : forall o head lib dur now sched s ans,
  good_dur dur -> Forall complete_label sched -> reaches o head lib dur now sched s -> running s -> no_final_lib s -> 0 < ao_jobs o ->
  (forall i, is_err_opt (ans i) ErrBlockState = false) ->
  at_rest s \/ exists d lab s', run o s [LTick d; lab] = Some s' /\ own lab /\ answered_by ans lab /\ ~ waits s lab.
Proof.
  intros o head lib dur now sched s ans Hd HC Hr Hrun Hf Hj Ha. destruct (progress o head lib dur now sched s ans) as [?|(d & lab & s' & H1 & H2 & H3 & H4 & _)]; try done; [by left|].
  right. by exists d, lab, s'.
Qed.
Print Assumptions C98_never_stuck.

(** C98, second part.  Left alone, in whatever order things happen and whatever the chain answers, the applicator does
    only finitely many things other than waiting. *)
Theorem C98_no_circles : forall o head lib dur now sched (states : nat -> sys) (labels : nat -> label),
  good_dur dur -> Forall complete_label sched -> reaches o head lib dur now sched (states 0) -> running (states 0) -> no_final_lib (states 0) ->
  (forall n, own (labels n) /\ step o (states n) (labels n) = Some (states (S n))) ->
  ~ (forall n, exists m, n <= m /\ ~ waits (states m) (labels m)).
Proof.
  intros o head lib dur now sched f labs Hd HC Hr (Hc & _ & Hh) Hf Hst Hinf.
  assert (HL : forall n, exists sc, Left o head lib dur now sc (f n)).
  { induction n as [|n [sc IH]]; [by exists sched|]. exists (sc ++ [labs n]). destruct (Hst n). by eapply Left_step. }
  assert (Hstep : forall n, rank (f (S n)) = rank (f n) \/ rlt (rank (f (S n))) (rank (f n))).
  { intros n. destruct (HL n) as [sc Hn], (Hst n) as [Ho Hs]. destruct (left_rank _ _ _ _ _ _ _ _ _ Hd Hn Ho Hs) as [[_ ?]|?]; auto. }
  assert (Htrans : forall x y z, rlt x y -> rlt y z -> rlt x z) by (apply rlt_trans).
  assert (Hle : forall n m, n <= m -> rank (f m) = rank (f n) \/ rlt (rank (f m)) (rank (f n))).
  { intros n m Hnm. induction Hnm as [|m Hnm IH]; [by left|]. destruct (Hstep m) as [E|Hl], IH as [E'|Hl'].
    - left. congruence. - right. by rewrite E. - right. by rewrite <- E'. - right. by eapply Htrans. }
  assert (Hacc : forall r n, rank (f n) = r -> False).
  { intros r. induction (rlt_wf r) as [r _ IH]. intros n En. destruct (Hinf n) as (m & Hm & Hw). destruct (HL m) as [sc HLm], (Hst m) as [Ho Hs].
    destruct (left_rank _ _ _ _ _ _ _ _ _ Hd HLm Ho Hs) as [[? _]|Hlt]; [done|].
    eapply (IH (rank (f (S m)))); [|reflexivity]. destruct (Hle n m Hm) as [E|Hl]; [by rewrite <- En, <- E|]. rewrite <- En. by eapply Htrans. }
  by apply (Hacc _ 0 eq_refl).
Qed.
Print Assumptions C98_no_circles.

(** C98, both together: whatever the chain answers, the applicator can come to rest by itself. *)
Theorem C98_comes_to_rest : forall o head lib dur now sched s ans,
  good_dur dur -> Forall complete_label sched -> reaches o head lib dur now sched s -> running s -> no_final_lib s -> 0 < ao_jobs o ->
  (forall i, is_err_opt (ans i) ErrBlockState = false) ->
  exists more s', Forall own more /\ Forall (answered_by ans) more /\ run o s more = Some s' /\ running s' /\ at_rest s'.
Proof.
  intros o head lib dur now sched s ans Hd HC Hr (Hc & _ & Hh) Hf Hj Ha.
  destruct (rests o head lib dur now ans Hd Hj Ha _ sched s eq_refl) as (more & s' & H1 & H2 & H3 & H4 & H5); [by split|].
  exists more, s'. split_and!; try done; try apply H4. by eapply left_running.
Qed.
Print Assumptions C98_comes_to_rest.

(** A concrete state that meets the hypotheses: a block waits for its parent, the parent is with the chain, an orphan waits
    for a worker, a fourth block is about to enter, a transaction is being submitted, and a fork heads message waits. *)
Definition busy_sched : list label :=
  submit_call 0 b2 ++ submit_call 1 b1 ++ submit_call 2 orphan ++ [LTry 0; LTry 0; LAttStart 0; LAttStart 1; LTake 0; LSubmit 0; LCall b3; LTxCall demo_tx; LTxSend 0;
    LAnnounce (ForkHeads (Some 6%N) [])].
Example C98_nonvacuous : exists s, good_dur five_min /\ Forall complete_label busy_sched /\ reaches roomy 10 5 five_min five busy_sched s /\ running s /\
  no_final_lib s /\ 0 < ao_jobs roomy /\ ~ at_rest s /\ (forall id, id ∈ ["b1"; "b2"; "orphan"]%string -> id ∈ held_ids s) /\ map at_phase (s_att s) = [PRpc; PQueued] /\ map cl_phase (s_calls s) = [CWait; CWait; CWait; CSend].
Proof.
  destruct (final_run (fun s => ((s_cancelled s, s_panic s, s_hang s), s_fh s, map (fun id => bool_decide (id ∈ held_ids s)) ["b1"; "b2"; "orphan"]%string, map at_phase (s_att s), map cl_phase (s_calls s)))
    roomy (sys_init 10 5 five_min five) busy_sched
    ((false, false, false), [ForkHeads (Some 6%N) []], [true; true; true], [PRpc; PQueued], [CWait; CWait; CWait; CSend])) as (s & Hr & E); [vm_compute; reflexivity|].
  assert (Hreach : reaches roomy 10 5 five_min five busy_sched s) by (split; [vm_compute; reflexivity|]; split; [u64s|exact Hr]). clear Hr.
  injection E as E1 E2 E3 E4 E5 E6 E7 E8 E9. exists s. rewrite E8, E9. split_and!.
  - done. - by repeat constructor. - exact Hreach. - split; [exact E1|]. split; [exact E2|exact E3].
  - intros fh Hfh. rewrite E4 in Hfh. apply elem_of_list_singleton in Hfh. by subst fh.
  - cbn. lia.
  - intros (_ & Hfh & _). by rewrite E4 in Hfh.
  - apply bool_decide_eq_true in E5, E6, E7. intros id Hid. rewrite !elem_of_cons, elem_of_nil in Hid. destruct Hid as [->|[->|[->|[]]]]; done.
  - done. - done.
Qed.

(** There are infinite runs as in [C98_no_circles]: every run the applicator makes by itself goes on, at least with the
    clock. *)
Lemma goes_on o s more s' : Forall own more -> run o s more = Some s' -> s_panic s' = false ->
  exists (states : nat -> sys) (labels : nat -> label), states 0 = s /\ states (length more) = s' /\ (forall n lab, more !! n = Some lab -> labels n = lab) /\
    forall n, own (labels n) /\ step o (states n) (labels n) = Some (states (S n)).
Proof.
  revert s. induction more as [|lab more IH]; intros s Ho Hr Hp.
  - injection Hr as ->. exists (fun n => Nat.iter n (fun s => set_now (s_now s + 1)%Z s) s'), (fun _ => LTick 1). split_and!; [done|done|done|].
    intros n. split; [exact I|]. assert (Hpn : s_panic (Nat.iter n (fun s => set_now (s_now s + 1)%Z s) s') = false) by (induction n as [|n IHn]; [exact Hp|exact IHn]).
    unfold step. rewrite Hpn. reflexivity.
  - apply Forall_cons in Ho as [H1 H2]. cbn [run] in Hr. destruct (step o s lab) as [s1|] eqn:E1; [|done].
    destruct (IH s1 H2 Hr Hp) as (f & g & F0 & Fn & Hg & Hs).
    exists (fun n => match n with O => s | S n => f n end), (fun n => match n with O => lab | S n => g n end). split_and!; [done|done| |].
    + intros [|n] x Hx; [by injection Hx|by apply Hg].
    + intros [|n]; [|apply Hs]. split; [done|]. by rewrite F0.
Qed.
Example C98_no_circles_nonvacuous : exists sched (states : nat -> sys) (labels : nat -> label),
  good_dur five_min /\ Forall complete_label sched /\ reaches roomy 10 5 five_min five sched (states 0) /\ running (states 0) /\ no_final_lib (states 0) /\
  (forall n, own (labels n) /\ step roomy (states n) (labels n) = Some (states (S n))) /\ ~ at_rest (states 0) /\ exists n, at_rest (states n).
Proof.
  destruct C98_nonvacuous as (s & H1 & H2 & H3 & H4 & H5 & H6 & H7 & _).
  destruct (C98_comes_to_rest roomy 10 5 five_min five busy_sched s (fun _ => None) H1 H2 H3 H4 H5 H6) as (more & s' & M1 & _ & M3 & M4 & M5); [done|].
  destruct (goes_on roomy s more s' M1 M3 (proj1 (proj2 M4))) as (f & g & F0 & Fn & _ & Hs).
  exists busy_sched, f, g. rewrite F0. split_and!; try done. exists (length more). by rewrite Fn.
Qed.

(** C98, REFUTED without the proviso on the chain's answers.  If the chain keeps answering "block state error", one single
    call of ApplyBlock makes the applicator submit its block any number of times at one and the same instant. *)
Definition first_try : list label := submit_call 0 b1 ++ attempt_at 0 0.
Definition alone (lab : label) : Prop := (own lab \/ exists i, lab = LRpcDone i (Some (ESent ErrBlockState))) /\ forall d, lab <> LTick d.
Theorem C98_block_state_refuted : exists o head lib dur now b k, good_dur dur /\ 0 < ao_jobs o /\ k_src k = b /\ forall n, exists more s,
  Forall alone more /\ Forall complete_label (LCall b :: more) /\ reaches o head lib dur now (LCall b :: more) s /\ running s /\ s_now s = now /\
  forall i, i <= n -> OSubmit i k now ∈ s_log s.
Proof.
  exists roomy, 10%N, 5%N, five_min, five, b1, k1. split_and!; [done|cbn; lia|done|]. intros n.
  destruct (final_run (fun s => ((s_att s, s_try s, s_txs s), (elements (c_pending (s_core s)), c_lib (s_core s)), (serving s, s_panic s, s_cancelled s, s_hang s), s_now s, s_log s))
    roomy (sys_init 10 5 five_min five) first_try
    (([Attempt k1 PRpc], [], []), (["b1"%string], 5%N), (true, false, false, false), five, [OSubmit 0 k1 five; OTake 0 k1 5])) as (s & Hr & E); [vm_compute; reflexivity|].
  injection E as E1 E2 E3 E4 E5 E6 E7 E8 E9 E10 E11.
  assert (Hp : c_pending (s_core s) = {["b1"%string]}) by (apply set_eq; intros x; rewrite <- elem_of_elements, E4, elem_of_list_singleton, elem_of_singleton; done).
  destruct (spins roomy k1 five n 0 s) as (s2 & R2 & N2 & C2 & H2 & P2 & _ & S2).
  { cbn. lia. }
  { split; try done; [exists []; by split_and!|by rewrite E5]. }
  { rewrite E11. by apply elem_of_list_here. }
  exists (tail first_try ++ spinning 0 n), s2.
  assert (Hround : forall (P : label -> Prop), Forall P (tail first_try) -> (forall a, Forall P (spin_round a)) -> Forall P (tail first_try ++ spinning 0 n)).
  { intros P Ha Hb. apply Forall_app. split; [done|by apply spinning_labels]. }
  split_and!.
  - apply Hround; [|intros a]; repeat (apply Forall_cons; split); try (split; [first [left; exact I|right; by eexists]|done]); constructor.
  - apply Forall_cons. split; [done|]. apply Hround; [|intros a]; by repeat constructor.
  - split; [vm_compute; reflexivity|]. split.
    + assert (Hu : Forall u64_label first_try) by u64s. apply Forall_cons in Hu as [Hu1 Hu2]. apply Forall_cons. split; [exact Hu1|]. apply Hround; [exact Hu2|intros a]. by repeat constructor.
    + change (LCall b1 :: tail first_try ++ spinning 0 n) with (first_try ++ spinning 0 n). by rewrite (run_app _ _ _ _ _ Hr).
  - split; [congruence|]. split; [done|congruence].
  - done.
  - intros i Hi. apply S2. lia.
Qed.
Print Assumptions C98_block_state_refuted.
