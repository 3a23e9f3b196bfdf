(** Lemmas about a session with an honest peer (C92). *)
From Verif Require Import GoBase PeerConn_Model Catchup_Spec.

(** ** Runs *)
Lemma sruns_app o id env s l1 l2 : sruns o id env s (l1 ++ l2) = match sruns o id env s l1 with Some s' => sruns o id env s' l2 | None => None end.
Proof. revert s. induction l1 as [|lab l1 IH]; intros s; cbn; [done|]. destruct (sstep o id env s lab); [apply IH|done]. Qed.
Lemma main_steps_app l1 l2 : main_steps (l1 ++ l2) = main_steps l1 + main_steps l2.
Proof. induction l1 as [|[]]; cbn; lia. Qed.
Lemma rounds_app l1 l2 : rounds (l1 ++ l2) = rounds l1 + rounds l2.
Proof. induction l1 as [|[]]; cbn; lia. Qed.

Lemma sub64_le a b : (b <= a)%N -> (a < two64)%N -> sub64 a b = (a - b)%N.
Proof. intros H1 H2. unfold sub64. replace (a + two64 - b)%N with (a - b + 1 * two64)%N by lia. rewrite N.mod_add by done. apply N.mod_small. lia. Qed.
(** ** States of the world *)
Section world.
Context (c : onechain) (policy : N -> N) (Hpol : sound_policy policy).
Notation moves_on := (moves_on policy).
Notation effect := (effect c policy).
Notation answered := (answered c).

Lemma moves_refl w : consistent policy w -> moves_on w w.
Proof. intros H. repeat split; try lia; apply H. Qed.
Lemma moves_trans w1 w2 w3 : moves_on w1 w2 -> moves_on w2 w3 -> moves_on w1 w3.
Proof. intros (A1 & A2 & A3 & A4) (B1 & B2 & B3 & B4). split; [lia|]. split; [lia|]. split; [lia|]. done. Qed.
Lemma moves_consistent w w' : moves_on w w' -> consistent policy w'.
Proof. intros H; apply H. Qed.
Lemma effect_moves w q : consistent policy w -> moves_on w (effect w q).
Proof.
  intros Hw. destruct q; try by apply moves_refl. cbn [Catchup_Spec.effect]. case_bool_decide as Hb; [|by apply moves_refl]. cbn [andb]. destruct (bool_decide _); [|by apply moves_refl].
  destruct Hw as (H1 & H2 & H3), Hpol as [P1 P2]. pose proof (P1 (block_height b)). repeat split; cbn; try lia. done.
Qed.
Lemma peer_moves_trans w1 w2 w3 : peer_moves_on policy w1 w2 -> peer_moves_on policy w2 w3 -> peer_moves_on policy w1 w3.
Proof. intros (A1 & A2 & A3) (B1 & B2 & B3). split; [by eapply moves_trans|]. by rewrite B2, B3. Qed.
Lemma block_height_at h b : is_block c h b -> block_height b = h.
Proof. intros [_ (hd & Hd & Hh)]. unfold block_height. by rewrite Hd. Qed.
Lemma blocks_at_S start n bs : blocks_at c start (S n) bs -> exists b bs', bs = b :: bs' /\ is_block c start b /\ blocks_at c (start + 1) n bs'.
Proof.
  unfold blocks_at. cbn [seq]. intros H. inversion H as [|? b ? bs' H1 H2]; subst. exists b, bs'. split; [done|]. rewrite N.add_0_r in H1. split; [done|].
  rewrite <- seq_shift, Forall2_fmap_l in H2. eapply Forall2_impl; [exact H2|]. intros i b' Hb'. cbn in Hb'. replace (start + 1 + N.of_nat i)%N with (start + N.of_nat (S i))%N by lia. done.
Qed.
Lemma blocks_at_nonempty start n bs : n <> 0 -> blocks_at c start n bs -> exists b h, last bs = Some b /\ b_header b = Some h.
Proof.
  destruct n as [|n]; [done|]. intros _ H. unfold blocks_at in H. rewrite seq_S in H. apply Forall2_app_inv_l in H as (bs1 & bs2 & H1 & H2 & ->).
  inversion H2 as [|? b ? ? [_ (hd & Hd & _)] H4]; subst. inversion H4; subst. exists b, hd. split; [|done]. by rewrite stdpp.list.last_snoc.
Qed.

(** ** Programs whose requests are answered honestly, with at most [n] requests.  [M]: what may happen meanwhile *)
Section wp.
Context (M : place -> place -> Prop).
Fixpoint wp {A} (w : place) (p : prog A) (n : nat) (Q : place -> A -> Prop) : Prop :=
  match p with
  | Ret a => Q w a
  | Crash => False
  | Call q k => match n with O => False | S n => forall w' r, w' = w \/ M w w' -> answered w' q r -> wp (effect w' q) (k r) n Q end
  end.
Lemma wp_mono {A} w (p : prog A) n m (Q Q' : place -> A -> Prop) : wp w p n Q -> (forall w a, Q w a -> Q' w a) -> n <= m -> wp w p m Q'.
Proof.
  intros H HQ. revert w n m H. induction p as [a| |q k IH]; intros w n m H Hnm; [by apply HQ|done|].
  destruct n as [|n]; [done|]. destruct m as [|m]; [lia|]. cbn. intros w' r Hw' Hr. apply (IH _ _ n); [by apply H|lia].
Qed.
Lemma wp_bind {A B} w (p : prog A) (f : A -> prog B) n m (Q : place -> B -> Prop) :
  wp w p n (fun w' a => wp w' (f a) m Q) -> wp w (bind p f) (n + m) Q.
Proof.
  revert w n. induction p as [a| |q k IH]; intros w n H; [|done|].
  - cbn in *. apply (wp_mono _ _ m _ Q); [done|done|lia].
  - destruct n as [|n]; [done|]. cbn. intros w' r Hw' Hr. apply IH. by apply H.
Qed.
Lemma wp_meanwhile {A} w w' (p : prog A) n (Q : place -> A -> Prop) : (forall w1 w2 w3, M w1 w2 -> M w2 w3 -> M w1 w3) ->
  (forall w w' a, Q w a -> M w w' -> Q w' a) -> wp w p n Q -> M w w' -> wp w' p n Q.
Proof.
  intros HM HQ H Hm. destruct p as [a| |q k]; [by eapply HQ|done|]. destruct n as [|n]; [done|]. cbn. intros w'' r [->|Hw''] Hr; apply H; try done; right; [done|by eapply HM].
Qed.
End wp.

(** ** Honest logs *)
Section honest.
Context (M : place -> place -> Prop) (w0 : place) (HM : forall w1 w2 w3, M w1 w2 -> M w2 w3 -> M w1 w3).
Notation honest := (honest c policy M w0).
Lemma honest_inv log w : honest log w ->
  match log with
  | [] => w = w0 \/ M w0 w
  | ACall (Ev q r) :: log => exists w1, honest log w1 /\ answered w1 q r /\ (w = effect w1 q \/ M (effect w1 q) w)
  | _ :: log => exists w1, honest log w1 /\ (w = w1 \/ M w1 w)
  end.
Proof.
  induction 1 as [|log w q r H IH Hr|log w a H IH Ha|log w w' H IH Hm].
  - by left.
  - exists w. split; [done|]. split; [done|]. by left.
  - destruct a as [e| | | | | |]; try (exists w; split; [done|by left]). by destruct (Ha e).
  - destruct log as [|[[q r]| | | | | |] log].
    2:{ destruct IH as (w1 & H1 & H2 & [->|H3]); exists w1; (split; [done|]); (split; [done|]); right; [done|by eapply HM]. }
    2-7: destruct IH as (w1 & H1 & [->|H3]); exists w1; (split; [done|]); right; [done|by eapply HM].
    right. destruct IH as [->|IH]; [done|by eapply HM].
Qed.
End honest.

(** ** The handshake and a round *)
Lemma irr_only e : is_err e ErrBlockIrreversibility = true -> is_err e ErrLocalRPCTimeout = false /\ is_err e ErrForkBomb = false.
Proof. intros H. induction e as [x|e IH|]; [|by apply IH|done]. cbn in *. apply bool_decide_eq_true in H. subst x. done. Qed.
Section programs.
Context (o : pc_opts).
Lemma moves_either w w' : consistent policy w -> w' = w \/ moves_on w w' -> moves_on w w'.
Proof. intros Hw [->|H]; [by apply moves_refl|done]. Qed.
Ltac next w' r Hr Hw' := cbn [wp]; intros w' r Hw' Hr; apply moves_either in Hw'; [|done]; pose proof (moves_consistent _ _ Hw'); cbn [Catchup_Spec.answered Catchup_Spec.effect] in Hr |- *.

Lemma check_points_wp w k cps : consistent policy w -> (k <= pl_peer w)%N -> Forall (fun cp => cp_id cp = id_at c (cp_height cp) /\ (cp_height cp <= k)%N) cps ->
  wp moves_on w (check_points o (id_at c k) cps) (length cps) (fun w' res => moves_on w w' /\ res = None).
Proof.
  revert w. induction cps as [|cp cps IH]; intros w Hw Hk Hcp; [split; [by apply moves_refl|done]|].
  apply Forall_cons in Hcp as [[Hid Hle] Hcps]. cbn [check_points length]. next w1 r Hr Hw1.
  destruct (Hr k eq_refl) as (i & -> & Hi); [destruct Hw1; lia|done|]. rewrite Hid. replace (bytes_equal _ _) with true by (symmetry; by apply bool_decide_eq_true).
  eapply wp_mono; [apply IH; [done|destruct Hw1; lia|done]| |done]. intros w' res [H1 H2]. split; [by eapply moves_trans|done].
Qed.
Lemma handshake_wp w : consistent policy w -> checkpoints_met c o w ->
  wp moves_on w (handshake o) (4 + length (po_checkpoints o)) (fun w' res => moves_on w w' /\ res = None).
Proof.
  intros Hw Hcp. unfold handshake, handshake_chain. next w1 r1 Hr1 Hw1. destruct r1 as [v err].
  replace (match err with Some e => if is_err e ErrProtocolMissing then _ else _ | None => _ end) with (handshake_chain o)
    by (destruct Hr1 as [Hr1|(e & Hr1 & He)]; cbn in Hr1; subst err; [done|by rewrite He]). clear v err Hr1.
  unfold handshake_chain. next w2 r2 Hr2 Hw2. destruct Hr2 as (i2 & -> & Hi2). next w3 r3 Hr3 Hw3. destruct Hr3 as (i3 & -> & Hi3).
  replace (bytes_equal _ _) with true by (symmetry; apply bool_decide_eq_true; congruence). next w4 r4 Hr4 Hw4. subst r4.
  assert (Hm : moves_on w w4) by (eapply moves_trans, moves_trans, moves_trans; eassumption).
  eapply wp_mono; [apply check_points_wp; [done|done|]| |done].
  - eapply Forall_impl; [exact Hcp|]. intros cp' [H1' H2']. split; [done|]. cbn. destruct Hm; lia.
  - intros w' res [H1' H2']. split; [by eapply moves_trans|done].
Qed.

(** Blocks [start+1], ..., [start+n] when we have [start] *)
Lemma apply_wp w start n bs : consistent policy w -> (start <= pl_head w)%N -> blocks_at c (start + 1) n bs ->
  wp moves_on w (apply_blocks o bs) n (fun w' res => moves_on w w' /\ res = None /\ (start + N.of_nat n <= pl_head w')%N).
Proof.
  revert w start bs. induction n as [|n IH]; intros w start bs Hw Hs Hbs.
  { inversion Hbs; subst. split; [by apply moves_refl|]. split; [done|lia]. }
  apply blocks_at_S in Hbs as (b & bs' & -> & Hb & Hbs). pose proof Hb as [Hid (hd & Hd & _)]. cbn [apply_blocks]. rewrite Hd.
  cbn [wp]. intros w1 r Hw1 Hr. apply moves_either in Hw1; [|done]. pose proof (moves_consistent _ _ Hw1) as H. cbn [Catchup_Spec.answered] in Hr.
  pose proof (effect_moves w1 (QApply (po_app_timeout o) b) H) as He. destruct H as (C1 & C2 & C3).
  assert (Hdone : (start + 1 <= pl_head (effect w1 (QApply (po_app_timeout o) b)))%N).
  { cbn [Catchup_Spec.effect]. rewrite (block_height_at _ _ Hb), (bool_decide_eq_true_2 _ Hid), andb_true_r. case_bool_decide as Hx; cbn; [lia|]. destruct Hw1 as (? & ? & _). lia. }
  pose proof (IH _ (start + 1)%N _ (moves_consistent _ _ He) Hdone Hbs) as IH'.
  replace (match r with None => _ | Some e => _ end) with (apply_blocks o bs').
  { eapply wp_mono; [exact IH'| |done]. intros w' res (H1 & H2 & H3). split; [eapply moves_trans; [exact Hw1|]; by eapply moves_trans|]. split; [done|lia]. }
  destruct (Hr _ Hb) as [->|(_ & e & -> & He')]; [destruct Hw1 as (? & ? & _); lia|done|]. destruct (irr_only e He') as [-> ->]. by rewrite He'.
Qed.

Context (Hb0 : (0 < po_batch o)%N) (Hb32 : (po_batch o < two32)%N).
(** What a round asks for: up to [po_batch] blocks after [lib] *)
Definition amount (lib height : N) : N := N.min (po_batch o) (height - lib).

(** A whole round: [w] is the state at its beginning. *)
Lemma round_wp w syn : consistent policy w ->
  wp moves_on w (request_sync o syn) (5 + N.to_nat (po_batch o)) (fun w' res => moves_on w w' /\ res.1 = None /\
    (N.min (pl_peer w) (pl_lib w + po_batch o) <= pl_head w')%N).
Proof.
  intros Hw. unfold request_sync. next w1 r1 Hr1 Hw1. destruct Hr1 as (lib & -> & Hlh & Hli). next w2 r2 Hr2 Hw2. subst r2. rewrite Hlh.
  assert (Hm2 : moves_on w w2) by by eapply moves_trans.
  case_bool_decide as Hle.
  { split; [done|]. split; [done|]. destruct Hw1 as (? & ? & ? & A1 & A2 & _), Hw2 as (? & ? & ? & _). lia. }
  next w3 r3 Hr3 Hw3. rewrite (Hr3 _ eq_refl) by (destruct Hw3; lia). clear Hr3 r3. assert (Hm3 : moves_on w w3) by by eapply moves_trans.
  case_bool_decide as Hk.
  { split; [done|]. split; [done|]. destruct (bool_decide (pl_peer w2 <= pl_head w3)%N) eqn:Hd; [|done]. apply bool_decide_eq_true in Hd. destruct Hm2. cbn. lia. }
  assert (Hfetch : forall w4, moves_on w3 w4 -> wp moves_on w4 (fetch o (pl_lib w1) (id_at c (pl_peer w2)) (pl_peer w2) syn) (1 + N.to_nat (po_batch o))
    (fun w' res => moves_on w w' /\ res.1 = None /\ (N.min (pl_peer w) (pl_lib w + po_batch o) <= pl_head w')%N)).
  { intros w4 Hw4. unfold fetch. pose proof (moves_consistent _ _ Hw4) as Hc4. next w5 r5 Hr5 Hw5. rewrite sub64_le in * by (try lia; destruct Hw2 as (_ & _ & _ & _ & _ & ?); lia).
    assert (Hn : (if bool_decide (po_batch o < pl_peer w2 - pl_lib w1)%N then po_batch o else pl_peer w2 - pl_lib w1)%N = amount (pl_lib w1) (pl_peer w2)).
    { clear. unfold amount. case_bool_decide; lia. }
    rewrite Hn in *. set (n := amount _ _) in *. assert (Hn0 : (0 < n)%N) by (unfold n, amount; lia).
    assert (Hnb : (n <= po_batch o)%N /\ (n <= pl_peer w2 - pl_lib w1)%N) by (unfold n, amount; lia).
    unfold to_u32 in Hr5. rewrite N.mod_small in Hr5 by lia.
    assert (Hst : add64 (pl_lib w1) 1 = (pl_lib w1 + 1)%N).
    { unfold add64. apply N.mod_small. destruct Hw2 as (_ & _ & _ & _ & _ & ?). lia. }
    rewrite Hst in Hr5.
    assert (Hm25 : moves_on w2 w5) by (exact (moves_trans _ _ _ Hw3 (moves_trans _ _ _ Hw4 Hw5))).
    destruct (Hr5 _ eq_refl) as (bs & -> & Hbs); [destruct Hm25; lia|lia|lia|].
    replace (0 + N.to_nat (po_batch o)) with (N.to_nat (po_batch o) + 0) by lia. apply wp_bind.
    assert (Hl5 : (pl_lib w1 <= pl_head w5)%N).
    { destruct Hm25 as (_ & _ & ? & ? & ? & _), Hw2 as (_ & _ & ? & _). lia. }
    eapply wp_mono; [apply (apply_wp _ _ _ _ (moves_consistent _ _ Hw5) Hl5 Hbs)| |lia]. cbn beta. intros w' res (H1' & -> & H3'). destruct (blocks_at_nonempty (pl_lib w1 + 1) (N.to_nat n) bs ltac:(lia) Hbs) as (b & h & Hlast & Hhd).
    rewrite Hlast, Hhd. assert (Hm' : moves_on w w') by (exact (moves_trans _ _ _ (moves_trans _ _ _ Hm3 Hw4) (moves_trans _ _ _ Hw5 H1'))).
    split; [done|]. split; [done|]. destruct Hw1 as (? & _ & ? & _), Hw2 as (? & _). unfold n, amount in H3'. lia. }
  destruct (bool_decide (0 < pl_lib w1)%N).
  - next w4 r4 Hr4 Hw4.
    assert (Hm24 : moves_on w2 w4) by by eapply moves_trans.
    destruct (Hr4 _ eq_refl) as (i & -> & Hi); [destruct Hm24; lia|lia|]. replace (bytes_equal _ _) with true by (symmetry; apply bool_decide_eq_true; congruence). by apply Hfetch.
  - eapply wp_mono; [apply (Hfetch w3); by apply moves_refl|done|lia].
Qed.

(** ** The session *)
(** [g]: what a round brings at least *)
Context (id : string) (env : environment) (g : N) (Hlag : forall h, (h + g <= policy h + po_batch o)%N).
Definition round_cost : nat := 5 + N.to_nat (po_batch o).
(** [budget r]: how often the main goroutine may have run when [r] rounds have ended *)
Definition budget (r : nat) : nat := 5 + length (po_checkpoints o) + (r + 1) * (round_cost + 2).
Lemma budget_S r : budget (S r) = budget r + (round_cost + 2).
Proof. unfold budget. lia. Qed.
(** We had [h0] when [r0] rounds had ended and the peer had [H0]; now [r] have ended: we must have this. *)
Definition due (r0 : nat) (H0 h0 : N) (r : nat) : N := N.min H0 (h0 + g * N.of_nat (r - r0 - 1)).
Definition good_ctl (r0 : nat) (H0 h0 : N) (s : session) (w : place) (t : nat) : Prop :=
  let r := rounds (ss_log s) in
  match ss_ctl s with
  | HsRun p => exists n, wp moves_on w p n (fun w' res => res = None) /\ t + n + 1 + (round_cost + 1) <= budget r
  | SyRun p => exists wr n, moves_on wr w /\ (r0 < r -> (H0 <= pl_peer wr)%N /\ (due r0 H0 h0 r <= pl_head wr)%N) /\
      wp moves_on w p n (fun w' res => res.1 = None /\ (N.min (pl_peer wr) (pl_head wr + g) <= pl_head w')%N) /\ t + n + 1 <= budget r
  | SyPause _ => t + (round_cost + 2) <= budget r
  | Stopped => t <= budget r
  | HsPause | SyReport _ | Crashed => False
  end.
Definition good (r0 : nat) (H0 h0 : N) (s : session) (t : nat) (w : place) : Prop :=
  consistent policy w /\ (H0 <= pl_peer w)%N /\ (h0 <= pl_head w)%N /\ checkpoints_met c o w /\ ss_pend s = [] /\ Forall (fun a => ~ failure a) (ss_log s) /\
  (r0 < rounds (ss_log s) -> (due r0 H0 h0 (rounds (ss_log s)) <= pl_head w)%N) /\ r0 <= rounds (ss_log s) /\ good_ctl r0 H0 h0 s w t.
Lemma checkpoints_mono w w' : checkpoints_met c o w -> moves_on w w' -> checkpoints_met c o w'.
Proof. intros H [Hp _]. eapply Forall_impl; [exact H|]. intros cp [H1 H2]. split; [done|lia]. Qed.
Lemma good_moves r0 H0 h0 s t w w' : good r0 H0 h0 s t w -> moves_on w w' -> good r0 H0 h0 s t w'.
Proof.
  intros (G1 & G2 & G3 & G4 & G5 & G6 & G7 & G8 & G9) Hm. pose proof Hm as (M1 & M2 & M3 & M4). split; [done|]. split; [lia|]. split; [lia|]. split; [by eapply checkpoints_mono|].
  split; [done|]. split; [done|]. split; [intros ?; specialize (G7 H); lia|]. split; [done|]. unfold good_ctl in *. destruct (ss_ctl s); try done.
  - destruct G9 as (n & Hwp & Hn). exists n. split; [|done]. eapply wp_meanwhile; [exact moves_trans| |exact Hwp|done]. done.
  - destruct G9 as (wr & n & A1 & A2 & Hwp & Hn). exists wr, n. split; [by eapply moves_trans|]. split; [done|]. split; [|done].
    eapply wp_meanwhile; [exact moves_trans| |exact Hwp|done]. intros w1 w2 a [B1 B2] (_ & B3 & _). split; [done|lia].
Qed.
(** Requests to come after the handshake, or a pause *)
Lemma good_start r0 H0 h0 syn n pend x log t w : good r0 H0 h0 (Session (SyPause 0) syn n pend x log) t w ->
  good r0 H0 h0 (Session (SyRun (request_sync o syn)) syn n pend x log) (t + 1) w.
Proof.
  intros (G1 & G2 & G3 & G4 & G5 & G6 & G7 & G8 & G9). repeat (split; [done|]). unfold good_ctl in *. cbn [ss_ctl ss_log] in *. exists w, round_cost. split; [by apply moves_refl|].
  split; [intros Hr; split; [done|by apply G7]|]. split; [|lia]. eapply wp_mono; [by apply round_wp| |done]. intros w' res (A1 & A2 & A3). split; [done|].
  specialize (Hlag (pl_head w)). destruct G1 as (? & _). lia.
Qed.
Lemma good_init w : consistent policy w -> checkpoints_met c o w -> good 0 (pl_peer w) (pl_head w) (session_init o) 0 w.
Proof.
  intros Hw Hcp. split; [done|]. split; [lia|]. split; [lia|]. split; [done|]. split; [done|]. split; [by apply Forall_nil|]. split; [cbn; lia|]. split; [cbn; lia|]. unfold good_ctl. cbn [session_init ss_ctl ss_log rounds].
  exists (4 + length (po_checkpoints o)). split; [eapply wp_mono; [by apply handshake_wp| |done]; by intros ? ? [_ ?]|]. unfold budget. lia.
Qed.
Lemma good_rebase r0 H0 h0 s t w : good r0 H0 h0 s t w -> good (rounds (ss_log s)) (pl_peer w) (pl_head w) s t w.
Proof.
  intros (G1 & G2 & G3 & G4 & G5 & G6 & G7 & G8 & G9). split; [done|]. split; [lia|]. split; [lia|]. split; [done|]. split; [done|]. split; [done|]. split; [lia|]. split; [lia|].
  unfold good_ctl in *. destruct (ss_ctl s); try done. destruct G9 as (wr & n & A1 & A2 & Hwp & Hn). exists wr, n. repeat (split; [done|]). split; [lia|]. done.
Qed.

Lemma honest_skip w0 a log w : honest c policy moves_on w0 (a :: log) w -> (forall e, a <> ACall e) -> honest c policy moves_on w0 log w.
Proof.
  intros H Ha. apply (honest_inv _ _ moves_trans) in H. destruct a as [e| | | | | |]; [by destruct (Ha e)|..]; destruct H as (w1 & H1 & [->|H2]); try done; by eapply HonestElse.
Qed.
Lemma honest_call w0 q r log w : honest c policy moves_on w0 (ACall (Ev q r) :: log) w -> exists w1, honest c policy moves_on w0 log w1 /\ answered w1 q r /\ (w = effect w1 q \/ moves_on (effect w1 q) w).
Proof. intros H. exact (honest_inv _ _ moves_trans _ _ H). Qed.

Lemma fine_cons a (log : list act) : Forall (fun a => ~ failure a) log -> ~ failure a -> Forall (fun a => ~ failure a) (a :: log).
Proof. intros H1 H2. by apply Forall_cons. Qed.
Lemma good_step r0 H0 h0 s lab s' t w0 l1 add : sstep o id env s lab = Some s' -> ss_log s' = add ++ ss_log s ->
  (forall w, honest c policy moves_on w0 l1 w -> good r0 H0 h0 s t w) ->
  forall w', honest c policy moves_on w0 (add ++ l1) w' -> good r0 H0 h0 s' (t + main_steps [lab]) w'.
Proof.
  intros Hst Hadd HG w' Hw'. destruct s as [ctl syn n pend x log]. cbn [sstep] in Hst.
  assert (Hadd' : forall add', ss_log s' = add' ++ log -> add = add').
  { intros add' H. rewrite Hadd in H. by apply app_inv_tail in H. }
  assert (Hp : (exists w, honest c policy moves_on w0 l1 w) -> pend = []). { intros [w Hw]. by destruct (HG _ Hw) as (_ & _ & _ & _ & ? & _). }
  destruct lab as [first|i|i|].
  - destruct ctl as [[[e|]| |q k]| |[[[e|] syn']| |q k]|e|d| |]; cbn in Hst.
    + (* handshake failed *) injection Hst as <-. rewrite (Hadd' [APause (po_retry o); AHandshake (Some e)] eq_refl) in Hw'.
      apply honest_skip, honest_skip in Hw'; [|done..]. destruct (HG _ Hw') as (_ & _ & _ & _ & _ & _ & _ & _ & m & Hwp & _). done.
    + injection Hst as <-. rewrite (Hadd' [AHandshake None] eq_refl) in Hw'. apply honest_skip in Hw'; [|done].
      pose proof (HG _ Hw') as (G1 & G2 & G3 & G4 & G5 & G6 & G7 & G8 & m & Hwp & Hb). cbn [main_steps].
      replace (t + 1) with (t + 0 + 1) by lia. apply good_start. repeat (split; [done|]). split; [apply fine_cons; [exact G6|by intros []]|]. repeat (split; [done|]). unfold good_ctl in *; cbn [ss_ctl ss_log rounds] in *; lia.
    + destruct (HG w') as (_ & _ & _ & _ & _ & _ & _ & _ & m & Hwp & _); [|done]. injection Hst as <-. by rewrite (Hadd' [] eq_refl) in Hw'.
    + injection Hst as <-. rewrite (Hadd' [ACall (Ev q (env n q))] eq_refl) in Hw'. apply honest_call in Hw' as (w1 & Hw1 & Hr & He).
      pose proof (HG _ Hw1) as (G1 & G2 & G3 & G4 & G5 & G6 & G7 & G8 & m & Hwp & Hb). destruct m as [|m]; [done|]. specialize (Hwp w1 _ (or_introl eq_refl) Hr).
      pose proof (effect_moves w1 q G1) as Hm. assert (Hgood : good r0 H0 h0 (Session (HsRun (k (env n q))) syn (S n) pend x (ACall (Ev q (env n q)) :: log)) (t + 1) (effect w1 q)).
      { pose proof Hm as (M1 & M2 & M3 & M4). split; [done|]. split; [lia|]. split; [lia|]. split; [by eapply checkpoints_mono|]. split; [done|]. split; [apply fine_cons; [exact G6|by intros []]|]. split; [intros ?; specialize (G7 H); cbn [ss_ctl ss_log rounds] in *; lia|]. split; [done|]. exists m. split; [done|]. unfold good_ctl in *; cbn [ss_ctl ss_log rounds] in *; lia. }
      destruct He as [->|He]; [done|by eapply good_moves].
    + (* pause after a failed handshake *) assert (HF : exists w, honest c policy moves_on w0 l1 w -> False) by (exists w'; intros Hh; by destruct (HG _ Hh) as (_ & _ & _ & _ & _ & _ & _ & _ & [])).
      exfalso. destruct first; [destruct (wakes _ _) in Hst|destruct x]; try discriminate Hst; injection Hst as <-; rewrite (Hadd' [] eq_refl) in Hw'; by destruct (HG _ Hw') as (_ & _ & _ & _ & _ & _ & _ & _ & []).
    + (* round failed *) injection Hst as <-. rewrite (Hadd' [ASync (Some e)] eq_refl) in Hw'.
      apply honest_skip in Hw'; [|done..]. destruct (HG _ Hw') as (_ & _ & _ & _ & _ & _ & _ & _ & wr & m & _ & _ & [Hwp _] & _). done.
    + injection Hst as <-. rewrite (Hadd' [APause (pause_of o syn'); ASync None] eq_refl) in Hw'. apply honest_skip, honest_skip in Hw'; [|done..].
      pose proof (HG _ Hw') as (G1 & G2 & G3 & G4 & G5 & G6 & G7 & G8 & wr & m & A1 & A2 & [_ Hwp] & Hb). cbn [main_steps ss_log] in *.
      repeat (split; [done|]). split; [apply fine_cons; [apply fine_cons; [exact G6|by intros []]|by intros []]|]. cbn [rounds ss_log]. split; [|split; [lia|]].
      * intros _. unfold due in *. destruct (decide (r0 < rounds log)) as [Hl|Hl]; [|replace (S (rounds log) - r0 - 1) with 0 by lia; lia]. destruct (A2 Hl) as [B1 B2].
        replace (N.of_nat (S (rounds log) - r0 - 1)) with (N.of_nat (rounds log - r0 - 1) + 1)%N by lia. rewrite N.mul_add_distr_l, N.mul_1_r. lia.
      * unfold good_ctl. cbn [ss_ctl ss_log rounds]. rewrite budget_S. lia.
    + destruct (HG w') as (_ & _ & _ & _ & _ & _ & _ & _ & wr & m & _ & _ & Hwp & _); [|done]. injection Hst as <-. by rewrite (Hadd' [] eq_refl) in Hw'.
    + injection Hst as <-. rewrite (Hadd' [ACall (Ev q (env n q))] eq_refl) in Hw'. apply honest_call in Hw' as (w1 & Hw1 & Hr & He).
      pose proof (HG _ Hw1) as (G1 & G2 & G3 & G4 & G5 & G6 & G7 & G8 & wr & m & A1 & A2 & Hwp & Hb). destruct m as [|m]; [done|]. specialize (Hwp w1 _ (or_introl eq_refl) Hr).
      pose proof (effect_moves w1 q G1) as Hm. assert (Hgood : good r0 H0 h0 (Session (SyRun (k (env n q))) syn (S n) pend x (ACall (Ev q (env n q)) :: log)) (t + 1) (effect w1 q)).
      { pose proof Hm as (M1 & M2 & M3 & M4). split; [done|]. split; [lia|]. split; [lia|]. split; [by eapply checkpoints_mono|]. split; [done|]. split; [apply fine_cons; [exact G6|by intros []]|]. split; [intros ?; specialize (G7 H); cbn [ss_ctl ss_log rounds] in *; lia|]. split; [done|]. exists wr, m. split; [by eapply moves_trans|]. split; [done|]. split; [done|]. unfold good_ctl in *; cbn [ss_ctl ss_log rounds] in *; lia. }
      destruct He as [->|He]; [done|by eapply good_moves].
    + exfalso. destruct first; [|destruct x]; try discriminate Hst; injection Hst as <-; [rewrite (Hadd' [_; _] eq_refl) in Hw'; apply honest_skip, honest_skip in Hw'|rewrite (Hadd' [_] eq_refl) in Hw'; apply honest_skip in Hw'];
        try done; by destruct (HG _ Hw') as (_ & _ & _ & _ & _ & _ & _ & _ & []).
    + destruct first; [destruct (wakes _ _) in Hst|destruct x]; try discriminate Hst; injection Hst as <-; rewrite (Hadd' [] eq_refl) in Hw'; [by apply good_start, HG|].
      pose proof (HG _ Hw') as (G1 & G2 & G3 & G4 & G5 & G6 & G7 & G8 & G9). repeat (split; [done|]). unfold good_ctl in *; cbn [ss_ctl ss_log rounds main_steps] in *; lia.
    + done.
    + done.
  - destruct (pend !! i) as [e|] eqn:Hi; [|done]. rewrite Hp in Hi; [by destruct i|]. injection Hst as <-. rewrite (Hadd' [_] eq_refl) in Hw'. apply honest_skip in Hw'; [by eexists|done].
  - destruct (pend !! i) as [e|] eqn:Hi; [|done]. destruct x; [|done]. rewrite Hp in Hi; [by destruct i|]. injection Hst as <-. rewrite (Hadd' [_] eq_refl) in Hw'. apply honest_skip in Hw'; [by eexists|done].
  - injection Hst as <-. rewrite (Hadd' [_] eq_refl) in Hw'. apply honest_skip in Hw'; [|done]. pose proof (HG _ Hw') as (G1 & G2 & G3 & G4 & G5 & G6 & G7 & G8 & G9).
    cbn [main_steps]. rewrite Nat.add_0_r. repeat (split; [done|]). split; [apply fine_cons; [exact G6|by intros []]|]. done.
Qed.
Lemma sstep_log s lab s' : sstep o id env s lab = Some s' -> exists add, ss_log s' = add ++ ss_log s.
Proof.
  intros Hst. destruct s as [ctl syn n pend x log]. cbn [sstep] in Hst. cbn [ss_log].
  destruct lab; cbn in Hst; repeat case_match; try discriminate Hst; injection Hst as <-; cbn [ss_log];
    first [by exists []|by eexists [_]|by eexists [_; _]].
Qed.
Lemma sruns_log s sched s' : sruns o id env s sched = Some s' -> exists add, ss_log s' = add ++ ss_log s.
Proof.
  revert s. induction sched as [|lab sched IH]; intros s H; cbn in H; [injection H as <-; by exists []|]. destruct (sstep o id env s lab) as [s1|] eqn:H1; [|done].
  apply sstep_log in H1 as [a Ha]. apply IH in H as [b Hb]. exists (b ++ a). by rewrite Hb, Ha, app_assoc.
Qed.
Lemma good_run r0 H0 h0 s t w0 sched s' later w' : good r0 H0 h0 s t w0 -> sruns o id env s sched = Some s' -> ss_log s' = later ++ ss_log s ->
  honest c policy moves_on w0 later w' -> good r0 H0 h0 s' (t + main_steps sched) w'.
Proof.
  intros HG. revert s' later w'. induction sched as [|lab sched IH] using rev_ind; intros s' later w' Hr Hl Hh.
  - cbn in *. injection Hr as <-. rewrite Nat.add_0_r. assert (later = []) as -> by (destruct later; [done|apply (f_equal length) in Hl; cbn in Hl; rewrite app_length in Hl; lia]).
    apply (honest_inv _ _ moves_trans) in Hh. destruct Hh as [->|Hh]; [done|by eapply good_moves].
  - rewrite sruns_app in Hr. destruct (sruns o id env s sched) as [s1|] eqn:H1; [|done]. cbn [sruns] in Hr. destruct (sstep o id env s1 lab) as [s2|] eqn:H2; [|done]. injection Hr as <-.
    destruct (sruns_log _ _ _ H1) as [l1 Hl1]. destruct (sstep_log _ _ _ H2) as [add Hadd].
    assert (later = add ++ l1) as ->. { rewrite Hadd, Hl1, app_assoc in Hl. by apply app_inv_tail in Hl. }
    rewrite main_steps_app, Nat.add_assoc. eapply good_step; [exact H2|exact Hadd| |exact Hh]. intros w Hw. by apply (IH s1 l1).
Qed.
End programs.
End world.

(** ** A node that cannot catch up: its LIB stays behind by a whole batch *)
Section stall.
Context (c : onechain) (policy : N -> N) (o : pc_opts) (lib : N).
Notation limit := (lib + po_batch o)%N.
Context (Hpol : forall h, (h <= limit)%N -> (policy h <= lib)%N).
Definition stalled (w : place) : Prop := pl_lib w = lib /\ (pl_head w <= limit)%N /\ (pl_peer w < two64)%N.
(** [p] is the peer's height so far. *)
Fixpoint safe {A} (p : N) (x : prog A) : Prop :=
  match x with
  | Ret _ | Crash => True
  | Call q k => (forall t b, q = QApply t b -> (block_height b <= limit)%N) /\
                forall w r, stalled w -> (p <= pl_peer w)%N -> answered c w q r -> safe (pl_peer w) (k r)
  end.
Lemma safe_mono {A} p p' (x : prog A) : safe p x -> (p <= p')%N -> safe p' x.
Proof. destruct x as [a| |q k]; [done|done|]. intros [H1 H2] Hp. split; [done|]. intros w r Hw Hle Hr. apply H2; [done|lia|done]. Qed.
Lemma safe_bind {A B} p (x : prog A) (f : A -> prog B) : safe p x -> (forall p a, safe p (f a)) -> safe p (bind x f).
Proof. intros Hp Hf. revert p Hp. induction x as [a| |q k IH]; intros p Hp; cbn in *; [apply Hf|done|]. destruct Hp as [H1 H2]. split; [done|]. intros w r Hw Hle Hr. by apply IH, H2. Qed.
Lemma stalled_effect w q : stalled w -> (forall t b, q = QApply t b -> (block_height b <= limit)%N) -> stalled (effect c policy w q).
Proof.
  intros Hw Hq. destruct q; try done. cbn [effect]. destruct (_ && _); [|done]. specialize (Hq _ _ eq_refl). destruct Hw as (H1 & H2 & H3).
  specialize (Hpol _ Hq). split; [cbn; lia|]. split; [done|]. done.
Qed.
Lemma effect_peer w q : pl_peer (effect c policy w q) = pl_peer w.
Proof. destruct q; try done. cbn [effect]. by destruct (_ && _). Qed.
Lemma stalled_moves w w' : stalled w -> peer_moves_on policy w w' -> stalled w'.
Proof. intros (H1 & H2 & H3) ((_ & _ & _ & _ & _ & H4) & H5 & H6). split; [congruence|]. split; [lia|done]. Qed.
Lemma check_points_safe p head cps : safe p (check_points o head cps).
Proof. revert p. induction cps as [|cp cps IH]; intros p; cbn; [done|]. split; [done|]. intros w [id' [e|]] Hw _ _; [done|]. destruct (bytes_equal _ _); [apply IH|done]. Qed.
Lemma handshake_safe p : safe p (handshake o).
Proof.
  assert (Hch : forall p, safe p (handshake_chain o)).
  { intros p'. cbn. split; [done|]. intros w2 [i2 [e|]] _ _ _; [done|]. split; [done|]. intros w3 [i3 [e|]] _ _ _; [done|]. destruct i2; [|done]. destruct (bytes_equal _ _); cbn; [|done].
    split; [done|]. intros w4 [[i4 h4] [e|]] _ _ _; [done|]. apply check_points_safe. }
  cbn. split; [done|]. intros w1 [v [e|]] _ _ _; [|apply Hch]. destruct (is_err _ _); [apply Hch|done].
Qed.
Lemma apply_safe p start n bs : blocks_at c start n bs -> (start + N.of_nat n <= limit + 1)%N -> safe p (apply_blocks o bs).
Proof.
  revert p start bs. induction n as [|n IH]; intros p start bs Hbs Hn; [by inversion Hbs|]. apply blocks_at_S in Hbs as (b & bs' & -> & Hb & Hbs). cbn [apply_blocks]. destruct (b_header _); [|done]. cbn [safe]. split.
  - intros t b' [= _ <-]. rewrite (block_height_at _ _ _ Hb). lia.
  - intros w r _ _ _. assert (Hrest : safe (pl_peer w) (apply_blocks o bs')) by (apply (IH _ _ _ Hbs); lia).
    destruct r as [e|]; [|done]. destruct (is_err e _); [done|]. destruct (is_err e _); [done|]. by destruct (is_err e _).
Qed.
Lemma fetch_safe p height syn : (lib < height)%N -> (height <= p)%N -> (height < two64)%N -> safe p (fetch o lib (id_at c height) height syn).
Proof.
  intros H1 Hp H2. unfold fetch. rewrite sub64_le by lia. cbn [safe]. split; [done|]. intros w r _ Hle Hr. cbn [answered] in Hr.
  assert (Ha : add64 lib 1 = (lib + 1)%N) by (unfold add64; apply N.mod_small; lia). rewrite Ha in Hr.
  set (n := if bool_decide _ then _ else _) in *. assert (Hn : (n <= po_batch o)%N /\ (n <= height - lib)%N) by (unfold n; case_bool_decide; lia).
  pose proof (N.mod_le n two32 ltac:(done)) as Hm. change (n mod two32)%N with (to_u32 n) in Hm.
  destruct (Hr _ eq_refl) as (bs & -> & Hbs); [lia|lia|by apply N.mod_lt|].
  apply safe_bind; [|intros p' [e|]; [done|]; destruct (last _) as [b|]; [|done]; by destruct (b_header b)].
  eapply apply_safe; [exact Hbs|]. lia.
Qed.
Lemma request_sync_safe p syn : safe p (request_sync o syn).
Proof.
  unfold request_sync. cbn [safe]. split; [done|]. intros w1 r1 (L1 & _ & _) _ (t & -> & Ht & _). split; [done|]. intros w2 r2 (_ & _ & L2) _ ->. rewrite Ht, L1.
  case_bool_decide as Hle; [done|]. cbn [safe]. split; [done|]. intros w3 r3 _ Hp3 Hr3. rewrite (Hr3 _ eq_refl) by lia. destruct (bool_decide (_ <> 0%N)); [done|].
  assert (Hf : forall p, (pl_peer w2 <= p)%N -> safe p (fetch o lib (id_at c (pl_peer w2)) (pl_peer w2) syn)) by (intros p' Hp'; apply fetch_safe; lia).
  destruct (bool_decide (0 < lib)%N); [|by apply Hf]. cbn [safe]. split; [done|]. intros w4 [i4 [e|]] _ Hp4 _; [done|]. destruct (bytes_equal _ _); [|done]. apply Hf. lia.
Qed.
Definition safe_ctl (p : N) (x : control) : Prop := match x with HsRun x => safe p x | SyRun x => safe p x | _ => True end.
Lemma stall_step id env s lab s' w0 l1 add : sstep o id env s lab = Some s' -> ss_log s' = add ++ ss_log s ->
  (forall w, honest c policy (peer_moves_on policy) w0 l1 w -> stalled w /\ safe_ctl (pl_peer w) (ss_ctl s)) ->
  forall w', honest c policy (peer_moves_on policy) w0 (add ++ l1) w' -> stalled w' /\ safe_ctl (pl_peer w') (ss_ctl s').
Proof.
  intros Hst Hadd HG w' Hw'. destruct s as [ctl syn n pend x log]. cbn [ss_ctl] in HG.
  assert (Hskip : forall a l w, honest c policy (peer_moves_on policy) w0 (a :: l) w -> (forall e, a <> ACall e) -> honest c policy (peer_moves_on policy) w0 l w).
  { intros a l w H Ha. apply (honest_inv _ _ _ _ (peer_moves_trans policy)) in H. destruct a as [e| | | | | |]; [by destruct (Ha e)|..]; destruct H as (w1 & H1 & [->|H2]); try done; by eapply HonestElse. }
  assert (Hcall : forall q (k : resp q -> control) (r : resp q), add = [ACall (Ev q r)] ->
    (forall w, stalled w -> safe_ctl (pl_peer w) ctl -> answered c w q r -> (forall t b, q = QApply t b -> (block_height b <= limit)%N) /\ safe_ctl (pl_peer w) (k r)) -> stalled w' /\ safe_ctl (pl_peer w') (k r)).
  { intros q k r -> Hk. apply (honest_inv _ _ _ _ (peer_moves_trans policy)) in Hw' as (w1 & Hw1 & Hans & He). destruct (HG _ Hw1) as [S1 S2]. destruct (Hk _ S1 S2 Hans) as [K1 K2].
    pose proof (stalled_effect _ _ S1 K1) as S3. destruct He as [->|He]; [split; [done|by rewrite effect_peer]|]. split; [by eapply stalled_moves|].
    assert (Hp : (pl_peer w1 <= pl_peer w')%N) by (destruct He as [[He _] _]; by rewrite effect_peer in He). destruct (k r); try done; by eapply safe_mono. }
  assert (Hquiet : Forall (fun a => forall e, a <> ACall e) add -> stalled w' /\ safe_ctl (pl_peer w') ctl).
  { intros HF. apply HG. clear -HF Hw' Hskip. induction add as [|a add IH]; [done|]. apply Forall_cons in HF as [H1 H2]. apply IH; [by eapply Hskip|done]. }
  assert (Hadd' : forall add', ss_log s' = add' ++ log -> add = add').
  { intros add' H. rewrite Hadd in H. by apply app_inv_tail in H. }
  assert (Hq : forall add', ss_log s' = add' ++ log -> Forall (fun a => forall e, a <> ACall e) add' -> stalled w' /\ safe_ctl (pl_peer w') ctl).
  { intros add' H HF. rewrite <- (Hadd' _ H) in HF. auto. }
  cbn [sstep] in Hst. destruct lab as [first|i|i|].
  - destruct ctl as [[[e|]| |q k]| |[[[e|] syn']| |q k]|e|d| |]; cbn in Hst.
    + injection Hst as <-. split; [|done]. eapply (Hq [_; _] eq_refl). repeat constructor; done.
    + injection Hst as <-. split; [|apply request_sync_safe]. eapply (Hq [_] eq_refl). repeat constructor; done.
    + injection Hst as <-. split; [|done]. eapply (Hq [] eq_refl). repeat constructor; done.
    + injection Hst as <-. apply (Hcall q (fun r => HsRun (k r)) (env n q)); [by apply Hadd'|]. intros w Hw [S1 S2] Ha. split; [done|]. by apply S2.
    + destruct first; [destruct (wakes _ _) in Hst|destruct x]; try discriminate Hst; injection Hst as <-; (split; [|try done; apply handshake_safe]); apply (Hq [] eq_refl); repeat constructor; done.
    + injection Hst as <-. split; [|done]. eapply (Hq [_] eq_refl). repeat constructor; done.
    + injection Hst as <-. split; [|done]. eapply (Hq [_; _] eq_refl). repeat constructor; done.
    + injection Hst as <-. split; [|done]. eapply (Hq [] eq_refl). repeat constructor; done.
    + injection Hst as <-. apply (Hcall q (fun r => SyRun (k r)) (env n q)); [by apply Hadd'|]. intros w Hw [S1 S2] Ha. split; [done|]. by apply S2.
    + destruct first; [|destruct x]; try discriminate Hst; injection Hst as <-; (split; [|done]); [apply (Hq [_; _] eq_refl)|apply (Hq [_] eq_refl)]; repeat constructor; done.
    + destruct first; [destruct (wakes _ _) in Hst|destruct x]; try discriminate Hst; injection Hst as <-; (split; [|try done; apply request_sync_safe]); apply (Hq [] eq_refl); repeat constructor; done.
    + done.
    + done.
  - destruct (pend !! i); [|done]. injection Hst as <-. apply (Hq [_] eq_refl). repeat constructor; done.
  - destruct (pend !! i); [|done]. destruct x; [|done]. injection Hst as <-. apply (Hq [_] eq_refl). repeat constructor; done.
  - injection Hst as <-. apply (Hq [_] eq_refl). repeat constructor; done.
Qed.
Lemma stall_run id env sched s w0 w : stalled w0 -> sruns o id env (session_init o) sched = Some s -> honest c policy (peer_moves_on policy) w0 (ss_log s) w ->
  stalled w /\ safe_ctl (pl_peer w) (ss_ctl s).
Proof.
  intros H0. revert s w. induction sched as [|lab sched IH] using rev_ind; intros s w Hr Hh.
  - injection Hr as <-. split; [|apply handshake_safe]. apply (honest_inv _ _ _ _ (peer_moves_trans policy)) in Hh. destruct Hh as [->|Hh]; [done|by eapply stalled_moves].
  - rewrite sruns_app in Hr. destruct (sruns o id env _ sched) as [s1|] eqn:H1; [|done]. cbn [sruns] in Hr. destruct (sstep o id env s1 lab) as [s2|] eqn:H2; [|done]. injection Hr as <-.
    destruct (sstep_log _ _ _ _ _ _ H2) as [add Hadd]. rewrite Hadd in Hh. eapply stall_step; [exact H2|exact Hadd| |exact Hh]. intros w1 Hw1. by apply IH.
Qed.
End stall.
