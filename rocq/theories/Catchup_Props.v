(** Property theorems C92: a session with an honest peer makes the node catch up with it. *)
From Verif Require Import GoBase PeerConn_Model Catchup_Spec Catchup_Proofs.

(** ** Examples: a chain whose block at height [h] is called "aa...a" *)
Fixpoint marks (n : nat) : string := match n with O => EmptyString | S n => ("a" +:+ marks n)%string end.
Definition ex_chain : onechain := OneChain (Some "chain"%string) (fun h => Some (marks (N.to_nat h))).
Definition ex_block (h : N) : block := Block (id_at ex_chain h) (Some (Header h (id_at ex_chain (h - 1)) 0 None)) [] "".
Definition ex_height (id : bytes) : N := match id with Some s => N.of_nat (String.length s) | None => 0%N end.
Lemma marks_length n : String.length (marks n) = n.
Proof. induction n as [|n IH]; [done|]. cbn [marks]. change (String.length ("a" +:+ marks n)) with (S (String.length (marks n))). by rewrite IH. Qed.
Lemma ex_height_at h : ex_height (id_at ex_chain h) = h.
Proof. cbn. rewrite marks_length. lia. Qed.
Lemma ex_is_block h : is_block ex_chain h (ex_block h).
Proof. split; [done|]. by eexists. Qed.
(** Honest answers about it *)
Definition ex_answers (w : place) (q : req) : resp q :=
  match q with
  | QVersion => (""%string, Some (ESent ErrProtocolMissing))
  | QLocalChainID _ => (Some (oc_id ex_chain), None)
  | QPeerChainID _ => (oc_id ex_chain, None)
  | QPeerHead _ => (id_at ex_chain (pl_peer w), pl_peer w, None)
  | QPeerAncestor _ _ h => if bool_decide (h <= pl_peer w)%N then (id_at ex_chain h, None) else (None, Some (ESent ErrPeerRPC))
  | QLib => Some (Topology (id_at ex_chain (pl_lib w)) (pl_lib w) (id_at ex_chain (pl_lib w - 1)))
  | QLocalBlocks _ ids => (Some (map (fun id => Some (if bool_decide (ex_height id <= pl_head w)%N then ex_height id else 0%N)) ids), None)
  | QPeerBlocks _ _ start n =>
    if bool_decide (start + n <= pl_peer w + 1)%N then (map (fun i => ex_block (start + N.of_nat i)) (seq 0 (N.to_nat n)), None) else ([], Some (ESent ErrPeerRPC))
  | QApply _ b =>
    if bool_decide (block_height b <= N.min (pl_lib w) (pl_head w))%N then Some (ESent ErrBlockIrreversibility)
    else if bool_decide (block_height b <= pl_head w + 1)%N then None
    else Some (ESent ErrUnknownPreviousBlock)
  end.
Lemma ex_answered w q : answered ex_chain w q (ex_answers w q).
Proof.
  destruct q as [|t|t|t|t head h| |t ids|t head start n|t b]; cbn [answered ex_answers].
  - right. by eexists.
  - by eexists.
  - by eexists.
  - done.
  - intros k _ H1 H2. rewrite bool_decide_eq_true_2 by lia. by eexists.
  - by eexists.
  - intros k -> _. cbn [map]. by rewrite ex_height_at.
  - intros k _ H1 H2 _. rewrite bool_decide_eq_true_2 by lia. eexists. split; [done|]. unfold blocks_at. apply Forall2_fmap_r, Forall_Forall2_diag, Forall_forall. intros i _. apply ex_is_block.
  - intros h Hb Hh. rewrite (block_height_at _ _ _ Hb). case_bool_decide; [right; split; [lia|]; by eexists|]. rewrite bool_decide_eq_true_2 by done. by left.
Qed.
Lemma ex_answered_eq w q r : r = ex_answers w q -> answered ex_chain w q r.
Proof. intros ->. apply ex_answered. Qed.
(** Batches of two blocks, one checkpoint *)
Definition ex_opts : pc_opts := PcOpts [Checkpoint 1 (Some "a"%string)] 1 1 1 2 1 1 5 1.
(** The log replayed: the state after it, and whether every answer is the honest one *)
Section replay.
Context (c : onechain) (policy : N -> N) (w0 : place).
Fixpoint state_after (log : list act) : place :=
  match log with [] => w0 | ACall (Ev q _) :: l => effect c policy (state_after l) q | _ :: l => state_after l end.
Fixpoint replays (log : list act) : Prop :=
  match log with [] => True | ACall (Ev q r) :: l => answered c (state_after l) q r /\ replays l | _ :: l => replays l end.
Lemma replays_honest M log : replays log -> honest c policy M w0 log (state_after log).
Proof.
  induction log as [|a log IH]; [constructor|]. destruct a as [[q r]| | | | | |]; cbn; intros H; try (by apply HonestOther; [apply IH|]).
  destruct H as [Hr H]. by apply HonestCall; [apply IH|].
Qed.
End replay.

Ltac replay_all := repeat (split; [apply ex_answered_eq; vm_compute; reflexivity|]); exact I.
(** ** C92 *)
(** The full claim: whatever is the chain and however irreversibility follows the head, the node has the block that was the honest peer's
    head when the session began as soon as the session's goroutine has run often enough. *)
Definition C92_statement : Prop := forall c policy o w0, sound_policy policy -> consistent policy w0 -> checkpoints_met c o w0 ->
  (0 < po_batch o < two32)%N ->
  exists T, forall id env sched s w, sruns o id env (session_init o) sched = Some s -> honest c policy (moves_on policy) w0 (ss_log s) w ->
    T <= main_steps sched -> (pl_peer w0 <= pl_head w)%N.
(** If the chain becomes irreversible too late, by a whole batch of blocks or more, the node stays behind forever. *)
Theorem C92_stalls : forall c policy o id env sched s w0 w, consistent policy w0 ->
  (forall h, (h <= pl_lib w0 + po_batch o)%N -> (policy h <= pl_lib w0)%N) -> (pl_head w0 <= pl_lib w0 + po_batch o)%N ->
  sruns o id env (session_init o) sched = Some s -> honest c policy (peer_moves_on policy) w0 (ss_log s) w -> (pl_head w <= pl_lib w0 + po_batch o)%N.
Proof.
  intros c policy o id env sched s w0 w (_ & _ & Hp) Hpol Hle Hr Hh.
  by destruct (stall_run c policy o (pl_lib w0) Hpol id env sched s w0 w (conj eq_refl (conj Hle Hp)) Hr Hh) as [(_ & ? & _) _].
Qed.
Print Assumptions C92_stalls.
(** A stalled node: the peer has 10 blocks, we have 2, nothing is irreversible yet. *)
Definition late : N -> N := fun _ => 0%N.
Definition stuck : place := Place 10 2 0.
Definition stuck_env : environment := fun _ q => ex_answers stuck q.
Definition paused (n : nat) (log : list act) : session := Session (SyPause second) false n [] false log.
Definition again : list slabel := repeat (MStep true) 8.
Lemma stuck_round n log : exists new, sruns ex_opts "p" stuck_env (paused n log) again = Some (paused (6 + n) (new ++ log)) /\
  (replays ex_chain late stuck log -> state_after ex_chain late stuck log = stuck -> replays ex_chain late stuck (new ++ log) /\ state_after ex_chain late stuck (new ++ log) = stuck).
Proof.
  eexists [_; _; _; _; _; _; _; _]. split; [vm_compute; reflexivity|]. intros H1 H2. cbn [app replays state_after]. rewrite H2.
  split; [|vm_compute; reflexivity]. repeat (split; [apply (ex_answered stuck)|]). exact H1.
Qed.
Lemma stuck_rounds k : exists sched s, sruns ex_opts "p" stuck_env (session_init ex_opts) sched = Some s /\ k <= main_steps sched /\
  honest ex_chain late (moves_on late) stuck (ss_log s) stuck.
Proof.
  assert (H : exists sched n log, sruns ex_opts "p" stuck_env (session_init ex_opts) sched = Some (paused n log) /\ k <= main_steps sched /\
    replays ex_chain late stuck log /\ state_after ex_chain late stuck log = stuck).
  { induction k as [|k (sched & n & log & Hr & Hk & H1 & H2)].
    - eexists (repeat (MStep true) 13), _, _. split; [vm_compute; reflexivity|]. split; [lia|]. split; [|vm_compute; reflexivity]. cbn [replays]. replay_all.
    - destruct (stuck_round n log) as (new & Hs & Hn). destruct (Hn H1 H2) as [N1 N2]. exists (sched ++ again), (6 + n), (new ++ log).
      rewrite sruns_app, Hr. split; [done|]. rewrite main_steps_app. split; [cbn; lia|done]. }
  destruct H as (sched & n & log & Hr & Hk & H1 & H2). exists sched, (paused n log). split; [done|]. split; [done|]. rewrite <- H2 at 2. by apply replays_honest.
Qed.
Theorem C92_catches_up_refuted : ~ C92_statement.
Proof.
  intros H. destruct (H ex_chain late ex_opts stuck) as [T HT].
  - split; intros; unfold late; lia.
  - vm_compute. repeat split; discriminate.
  - apply Forall_singleton. split; [done|vm_compute; discriminate].
  - vm_compute. by split.
  - destruct (stuck_rounds T) as (sched & s & Hr & Hk & Hh). specialize (HT _ _ _ _ _ Hr Hh Hk). by vm_compute in HT.
Qed.
Print Assumptions C92_catches_up_refuted.

Section caught_up.
Context (c : onechain) (policy : N -> N) (o : pc_opts).
(** What is assumed: irreversibility is never a whole batch behind the head. *)
Definition suited : Prop := sound_policy policy /\ (0 < po_batch o < two32)%N /\ forall h, (h < policy h + po_batch o)%N.
Context (Hs : suited) (id : string) (env : environment) (w0 : place) (Hw0 : consistent policy w0) (Hcp : checkpoints_met c o w0).

(** Nothing fails and nobody is charged.  From any moment on (the state [s1], when the peer had [pl_peer w1] and we had [pl_head w1]), after
    [k] more completed rounds, the first of which may have begun before, we have at least [k-1] more blocks or what the peer had. *)
Theorem C92_follows_partial : forall sched1 s1 w1 sched2 s2 later w2,
  sruns o id env (session_init o) sched1 = Some s1 -> honest c policy (moves_on policy) w0 (ss_log s1) w1 ->
  sruns o id env s1 sched2 = Some s2 -> ss_log s2 = later ++ ss_log s1 -> honest c policy (moves_on policy) w1 later w2 ->
  Forall (fun a => ~ failure a) (ss_log s2) /\ ss_ctl s2 <> Crashed /\ ss_pend s2 = [] /\ (pl_head w1 <= pl_head w2)%N /\
  (N.min (pl_peer w1) (pl_head w1 + N.of_nat (rounds later - 1)) <= pl_head w2)%N.
Proof.
  intros sched1 s1 w1 sched2 s2 later w2 Hr1 Hh1 Hr2 Hl Hh2. destruct Hs as (Hpol & [Hb0 Hb32] & Hlag). assert (Hlag' : forall h, (h + 1 <= policy h + po_batch o)%N) by (intros h; specialize (Hlag h); lia).
  pose proof (good_run c policy Hpol o Hb0 Hb32 id env 1%N Hlag' _ _ _ _ _ _ _ _ (ss_log s1) w1 (good_init c policy o Hb0 Hb32 1%N w0 Hw0 Hcp) Hr1 ltac:(by rewrite app_nil_r) Hh1) as G1.
  apply good_rebase in G1; [|done..]. pose proof (good_run c policy Hpol o Hb0 Hb32 id env 1%N Hlag' _ _ _ _ _ _ _ _ _ _ G1 Hr2 Hl Hh2) as (G2 & G3 & G4 & G5 & G6 & G7 & G8 & G9 & G10).
  split; [done|]. split; [intros E; unfold good_ctl in G10; by rewrite E in G10|]. split; [done|]. split; [done|].
  rewrite Hl, rounds_app in G8. destruct (rounds later) as [|r]; [cbn; lia|]. specialize (G8 ltac:(lia)). unfold due in G8. rewrite N.mul_1_l in G8.
  replace (S r + rounds (ss_log s1) - rounds (ss_log s1) - 1) with (S r - 1) in G8 by lia. done.
Qed.
(** Each round takes a bounded number of steps, ... *)
Theorem C92_rounds_partial : forall sched s w, sruns o id env (session_init o) sched = Some s -> honest c policy (moves_on policy) w0 (ss_log s) w ->
  main_steps sched <= 5 + length (po_checkpoints o) + (rounds (ss_log s) + 1) * (N.to_nat (po_batch o) + 7).
Proof.
  intros sched s w Hr Hh. destruct Hs as (Hpol & [Hb0 Hb32] & Hlag). assert (Hlag' : forall h, (h + 1 <= policy h + po_batch o)%N) by (intros h; specialize (Hlag h); lia).
  pose proof (good_run c policy Hpol o Hb0 Hb32 id env 1%N Hlag' _ _ _ _ _ _ _ _ (ss_log s) w (good_init c policy o Hb0 Hb32 1%N w0 Hw0 Hcp) Hr ltac:(by rewrite app_nil_r) Hh) as (_ & _ & _ & _ & _ & _ & _ & _ & G).
  assert (Hb : 0 + main_steps sched <= budget o (rounds (ss_log s))).
  { unfold good_ctl in G. destruct (ss_ctl s); try done; [destruct G as (n & _ & ?)|destruct G as (wr & n & _ & _ & _ & ?)|]; lia. }
  unfold budget, round_cost in Hb. lia.
Qed.
(** ... and the session can always go on until it is cancelled. *)
Theorem C92_goes_on_partial : forall sched s w, sruns o id env (session_init o) sched = Some s -> honest c policy (moves_on policy) w0 (ss_log s) w ->
  ss_cancelled s = false -> ss_ctl s <> Stopped -> exists s', sstep o id env s (MStep true) = Some s'.
Proof.
  intros sched s w Hr Hh Hx Hc'. destruct Hs as (Hpol & [Hb0 Hb32] & Hlag). assert (Hlag' : forall h, (h + 1 <= policy h + po_batch o)%N) by (intros h; specialize (Hlag h); lia).
  pose proof (good_run c policy Hpol o Hb0 Hb32 id env 1%N Hlag' _ _ _ _ _ _ _ _ (ss_log s) w (good_init c policy o Hb0 Hb32 1%N w0 Hw0 Hcp) Hr ltac:(by rewrite app_nil_r) Hh) as (_ & _ & _ & _ & _ & _ & _ & _ & G).
  destruct s as [ctl syn n pend x log]. cbn in Hx, Hc', G |- *. subst x. unfold good_ctl in G. cbn in G.
  destruct ctl as [[[e|]| |q k]| |[[[e|] syn']| |q k]|e|d| |]; cbn; eauto; done.
Qed.
(** So the node catches up. *)
Lemma catches_up_by : forall sched s w, sruns o id env (session_init o) sched = Some s -> honest c policy (moves_on policy) w0 (ss_log s) w ->
  6 + length (po_checkpoints o) + (N.to_nat (pl_peer w0 - pl_head w0) + 2) * (N.to_nat (po_batch o) + 7) <= main_steps sched -> (pl_peer w0 <= pl_head w)%N.
Proof.
  intros sched s w Hr Hh HT. pose proof (C92_rounds_partial sched s w Hr Hh) as Hn.
  destruct (C92_follows_partial [] (session_init o) w0 sched s (ss_log s) w eq_refl (HonestStart _ _ _ _) Hr ltac:(by rewrite app_nil_r) Hh) as (_ & _ & _ & Hm & Hf).
  assert (N.to_nat (pl_peer w0 - pl_head w0) + 1 < rounds (ss_log s) + 1).
  { destruct (decide (N.to_nat (pl_peer w0 - pl_head w0) + 1 < rounds (ss_log s) + 1)) as [|Hge]; [done|exfalso].
    assert ((rounds (ss_log s) + 1) * (N.to_nat (po_batch o) + 7) <= (N.to_nat (pl_peer w0 - pl_head w0) + 1) * (N.to_nat (po_batch o) + 7)) by (apply Nat.mul_le_mono_r; lia). lia. }
  lia.
Qed.
Theorem C92_catches_up_partial : exists T, forall sched s w, sruns o id env (session_init o) sched = Some s -> honest c policy (moves_on policy) w0 (ss_log s) w ->
  T <= main_steps sched -> (pl_peer w0 <= pl_head w)%N.
Proof. eexists. apply catches_up_by. Qed.
End caught_up.
Print Assumptions C92_follows_partial.
Print Assumptions C92_rounds_partial.
Print Assumptions C92_goes_on_partial.
Print Assumptions C92_catches_up_partial.
(** Three blocks to fetch, in batches of two; one block behind the head is irreversible. *)
Definition lag1 : N -> N := fun h => (h - 1)%N.
Definition ex_env : environment := fun n q =>
  ex_answers (if bool_decide (n <= 9) then Place 3 0 0 else if bool_decide (n <= 10) then Place 3 1 0 else if bool_decide (n <= 17) then Place 3 2 1 else Place 3 3 2) q.
Example C92_nonvacuous : suited lag1 ex_opts /\ consistent lag1 (Place 3 0 0) /\ checkpoints_met ex_chain ex_opts (Place 3 0 0) /\
  exists s, sruns ex_opts "p" ex_env (session_init ex_opts) (repeat (MStep true) 30) = Some s /\
    honest ex_chain lag1 (moves_on lag1) (Place 3 0 0) (ss_log s) (Place 3 3 2) /\ rounds (ss_log s) = 3 /\ ss_synced s = true.
Proof.
  split; [split; [split; intros; unfold lag1; lia|]; split; [by vm_compute|]; intros h; unfold lag1; cbn; lia|].
  split; [vm_compute; repeat split; discriminate|]. split; [apply Forall_singleton; split; [done|vm_compute; discriminate]|].
  eexists. split; [vm_compute; reflexivity|]. split; [|vm_compute; by split].
  match goal with |- honest _ _ _ _ ?l _ => assert (He : state_after ex_chain lag1 (Place 3 0 0) l = Place 3 3 2) by (vm_compute; reflexivity); rewrite <- He; apply replays_honest end.
  cbn [replays]. replay_all.
Qed.
