(** Property theorems C124: how much a session asks of its peer in a time. *)
From Verif Require Import GoBase PeerConn_Model Pace_Model Pace_Spec.

(** ** Programs within a budget *)
Section budget.
Context (weight : req -> N).
(** [p] asks for at most [n], whatever the answers *)
Fixpoint within {A} (p : prog A) (n : N) : Prop :=
  match p with
  | Call q k => (weight q <= n)%N /\ forall r, within (k r) (n - weight q)
  | _ => True
  end.
Lemma within_mono {A} (p : prog A) n m : (n <= m)%N -> within p n -> within p m.
Proof.
  revert n m. induction p as [a| |q k IH]; intros n m Hle; cbn [within]; [done|done|].
  intros [Hw Hk]. split; [lia|]. intros r. apply (IH r (n - weight q)%N); [lia|apply Hk].
Qed.
Lemma within_bind {A B} (p : prog A) (f : A -> prog B) n m : within p n -> (forall a, within (f a) m) -> within (bind p f) (n + m).
Proof.
  revert n. induction p as [a| |q k IH]; intros n; cbn [within bind].
  - intros _ Hf. apply (within_mono _ m); [lia|apply Hf].
  - done.
  - intros [Hw Hk] Hf. split; [lia|]. intros r. apply (within_mono _ (n - weight q + m)); [lia|]. by apply IH.
Qed.
End budget.

Local Lemma apply_free (weight : req -> N) o bs : (forall t b, weight (QApply t b) = 0%N) -> within weight (apply_blocks o bs) 0.
Proof.
  intros Hw. induction bs as [|b bs IH]; cbn [apply_blocks]; [done|]. destruct (b_header b); [|done].
  cbn [within]. rewrite Hw. split; [lia|]. intros [e|]; [|done].
  destruct (is_err e ErrLocalRPCTimeout); [done|]. destruct (is_err e ErrForkBomb); [done|]. destruct (is_err e ErrBlockIrreversibility); done.
Qed.

(** The handshake: the chain id, the head and one ancestor per checkpoint; no blocks *)
Local Lemma handshake_requests o : within to_peer (handshake o) (2 + N.of_nat (length (po_checkpoints o))).
Proof.
  assert (Hc : forall head cps, within to_peer (check_points o head cps) (N.of_nat (length cps))).
  { intros head cps. induction cps as [|cp cps IH]; cbn [check_points length]; [done|]. cbn [within to_peer]. split; [lia|].
    intros [id [e|]]; [done|]. destruct (bytes_equal id (cp_id cp)); [|done]. apply (within_mono _ _ (N.of_nat (length cps))); [lia|done]. }
  assert (Hh : within to_peer (handshake_chain o) (2 + N.of_nat (length (po_checkpoints o)))).
  { unfold handshake_chain. cbn [within to_peer]. split; [lia|]. intros [mine [e|]]; [done|]. cbn [within to_peer]. split; [lia|].
    intros [theirs [e|]]; [done|]. destruct mine as [id|]; [|done]. destruct (bytes_equal id theirs); [|done]. cbn [within to_peer]. split; [lia|].
    intros [[head h] [e|]]; [done|]. eapply within_mono; [|apply Hc]. lia. }
  unfold handshake. cbn [within to_peer]. split; [lia|]. intros [v [e|]]; [destruct (is_err e ErrProtocolMissing); [|done]|];
  (eapply within_mono; [|apply Hh]; lia).
Qed.
Local Lemma handshake_blocks o n : within blocks_of (handshake o) n.
Proof.
  assert (Hc : forall head cps m, within blocks_of (check_points o head cps) m).
  { intros head cps. induction cps as [|cp cps IH]; intros m; cbn [check_points]; [done|]. cbn [within blocks_of]. split; [lia|].
    intros [id [e|]]; [done|]. by destruct (bytes_equal id (cp_id cp)). }
  assert (Hh : forall m, within blocks_of (handshake_chain o) m).
  { intros m. unfold handshake_chain. cbn [within blocks_of]. split; [lia|]. intros [mine [e|]]; [done|]. cbn [within blocks_of]. split; [lia|].
    intros [theirs [e|]]; [done|]. destruct mine as [id|]; [|done]. destruct (bytes_equal id theirs); [|done]. cbn [within blocks_of]. split; [lia|].
    intros [[head h] [e|]]; [done|]. apply Hc. }
  unfold handshake. cbn [within blocks_of]. split; [lia|]. intros [v [e|]]; [destruct (is_err e ErrProtocolMissing); [|done]|]; apply Hh.
Qed.
(** A round: the head, an ancestor and the blocks; at most a batch of blocks *)
Local Lemma fetch_within (weight : req -> N) o lh head hh synced n : (forall t b, weight (QApply t b) = 0%N) ->
  (forall num, (num <= po_batch o)%N -> (weight (QPeerBlocks (po_block_timeout o) head (add64 lh 1) num) <= n)%N) ->
  within weight (fetch o lh head hh synced) n.
Proof.
  intros Ha Hb. unfold fetch. cbn [within]. split.
  - apply Hb. unfold to_u32. etransitivity; [apply N.mod_le; done|]. case_bool_decide; lia.
  - intros [bs [e|]]; [done|]. eapply within_mono; [|apply (within_bind weight _ _ 0 0); [by apply apply_free|]]; [lia|].
    intros [e|]; [done|]. destruct (last bs) as [b|]; [|done]. by destruct (b_header b).
Qed.
Local Lemma round_requests o synced : within to_peer (request_sync o synced) 3.
Proof.
  unfold request_sync. cbn [within to_peer]. split; [lia|]. intros lib. cbn [within to_peer]. split; [lia|].
  intros [[head hh] [e|]]; [done|]. destruct lib as [lib|]; [|done]. case_bool_decide; [done|]. cbn [within to_peer]. split; [lia|].
  intros [items [e|]]; [done|]. destruct items as [[|item [|]]|]; try done. destruct item as [h|]; [|done]. case_bool_decide; [done|].
  case_bool_decide.
  - cbn [within to_peer]. split; [lia|]. intros [id [e|]]; [done|]. destruct (bytes_equal id (tp_id lib)); [|done].
    apply fetch_within; [done|]. intros num _. cbn [to_peer]. lia.
  - apply fetch_within; [done|]. intros num _. cbn [to_peer]. lia.
Qed.
Local Lemma round_blocks o synced : within blocks_of (request_sync o synced) (po_batch o).
Proof.
  unfold request_sync. cbn [within blocks_of]. split; [lia|]. intros lib. cbn [within blocks_of]. split; [lia|].
  intros [[head hh] [e|]]; [done|]. destruct lib as [lib|]; [|done]. case_bool_decide; [done|]. cbn [within blocks_of]. split; [lia|].
  intros [items [e|]]; [done|]. destruct items as [[|item [|]]|]; try done. destruct item as [h|]; [|done]. case_bool_decide; [done|].
  case_bool_decide.
  - cbn [within blocks_of]. split; [lia|]. intros [id [e|]]; [done|]. destruct (bytes_equal id (tp_id lib)); [|done].
    apply fetch_within; [done|]. intros num Hn. cbn [blocks_of]. lia.
  - apply fetch_within; [done|]. intros num Hn. cbn [blocks_of]. lia.
Qed.

(** ** The invariant: [a] per handshake, [b] per round, [p] between two of a kind *)
Section pace.
Context (o : pc_opts) (id : string) (env : environment) (weight : req -> N) (a b : N).
Context (Hhand : within weight (handshake o) a) (Hround : forall synced, within weight (request_sync o synced) b).

Definition pace_ok (t0 : Z) (t : timed) : Prop :=
  let s := td_session t in
  exists hs rounds : N, (1 <= hs)%N /\
    (Z.of_N (hs - 1) * po_retry o + Z.of_N (rounds - 1) * Z.min second (po_sleep o) <= td_now t - t0)%Z /\
    (rounds = 0%N \/ greeted (ss_log s)) /\
    let spent left := (total weight (ss_log s) + left <= a * hs + b * rounds)%N in
    match ss_ctl s with
    | HsRun p => rounds = 0%N /\ exists n, within weight p n /\ spent n
    | HsPause => rounds = 0%N /\ spent 0%N /\ (Z.of_N hs * po_retry o <= td_due t - t0)%Z
    | SyRun p => (1 <= rounds)%N /\ exists n, within weight p n /\ spent n
    | SyReport _ => (1 <= rounds)%N /\ spent 0%N
    | SyPause _ => (1 <= rounds)%N /\ spent 0%N /\
        (Z.of_N (hs - 1) * po_retry o + Z.of_N rounds * Z.min second (po_sleep o) <= td_due t - t0)%Z
    | Stopped | Crashed => spent 0%N
    end.
Lemma pause_ge synced : (Z.min second (po_sleep o) <= pause_of o synced)%Z.
Proof. unfold pause_of. destruct synced; lia. Qed.
Lemma pace_init t0 : pace_ok t0 (timed_init o t0).
Proof.
  exists 1%N, 0%N. cbn [timed_init td_session td_now session_init ss_log ss_ctl]. split; [lia|]. split; [lia|]. split; [by left|].
  split; [done|]. exists a. split; [done|]. cbn. lia.
Qed.
Lemma greeted_cons x log : greeted log -> greeted (x :: log).
Proof. intros H. by right. Qed.
Lemma pace_step t0 t lab t' : pace_ok t0 t -> tstep o id env t lab = Some t' -> pace_ok t0 t'.
Proof.
  destruct t as [[ctl synced n pend cancelled log] now due]. intros (hs & rounds & Hhs & Ht & Hg & Hctl) Hs.
  cbn [td_session td_now td_due ss_log ss_ctl] in *.
  assert (Hx : forall x log', (forall q r, x <> ACall (Ev q r)) -> total weight (x :: log') = total weight log').
  { intros x log' Hx. cbn [total foldr]. destruct x as [[q r]| | | | | |]; try done. by destruct (Hx q r). }
  pose proof (pause_ge true) as Hpt. pose proof (pause_ge false) as Hpf.
  destruct lab as [dt|lab]; cbn [tstep] in Hs.
  { case_decide as Hdt; [|done]. injection Hs as <-. exists hs, rounds. cbn [td_session td_now td_due ss_log ss_ctl]. split; [done|]. split; [lia|]. split; [done|]. done. }
  destruct (pausing (ss_ctl _) && _ && _) eqn:Hdue; [done|].
  destruct lab as [first|i|i|]; cbn [sstep ss_ctl] in Hs, Hdue.
  2: { destruct (pend !! i) as [e|]; [|done]. cbn [ss_ctl] in Hs.
       assert (Et : t' = Timed (Session ctl synced n (delete i pend) cancelled (AReport id e FromHandshake :: log)) now due) by (destruct ctl; cbn [timer_of pausing] in Hs; congruence).
       rewrite Et. exists hs, rounds. cbn [td_session td_now td_due ss_log ss_ctl]. split; [done|]. split; [done|].
       split; [destruct Hg as [?|?]; [by left|right; by apply greeted_cons]|]. by rewrite Hx. }
  2: { destruct (pend !! i) as [e|]; [|done]. destruct cancelled; [|done]. cbn [ss_ctl] in Hs.
       assert (Et : t' = Timed (Session ctl synced n (delete i pend) true (ADrop e FromHandshake :: log)) now due) by (destruct ctl; cbn [timer_of pausing] in Hs; congruence).
       rewrite Et. exists hs, rounds. cbn [td_session td_now td_due ss_log ss_ctl]. split; [done|]. split; [done|].
       split; [destruct Hg as [?|?]; [by left|right; by apply greeted_cons]|]. by rewrite Hx. }
  2: { cbn [ss_ctl] in Hs.
       assert (Et : t' = Timed (Session ctl synced n pend true (ACancel :: log)) now due) by (destruct ctl; cbn [timer_of pausing] in Hs; congruence).
       rewrite Et. exists hs, rounds. cbn [td_session td_now td_due ss_log ss_ctl]. split; [done|]. split; [done|].
       split; [destruct Hg as [?|?]; [by left|right; by apply greeted_cons]|]. by rewrite Hx. }
  destruct ctl as [pr| |pr|e|d| |]; cbn [pausing] in Hdue.
  - (* HsRun *) destruct Hctl as (Hr & left & Hw & Hsp). destruct pr as [[e|]| |q k]; cbn [ss_ctl timer_of pausing] in Hs; injection Hs as <-.
    + exists hs, rounds. cbn [td_session td_now td_due ss_log ss_ctl]. split; [done|]. split; [done|]. split; [by left|]. split; [done|].
      rewrite !Hx by done. split; [lia|]. subst rounds. change (0 - 1)%N with 0%N in Ht. replace (Z.of_N hs) with (Z.of_N (hs - 1) + 1)%Z by lia. lia.
    + exists hs, 1%N. cbn [td_session td_now td_due ss_log ss_ctl]. split; [done|]. split; [subst rounds; lia|]. split; [right; left|]. split; [lia|].
      exists b. split; [apply Hround|]. rewrite Hx by done. subst rounds. lia.
    + exists hs, rounds. cbn [td_session td_now td_due ss_log ss_ctl]. split; [done|]. split; [done|]. split; [done|]. lia.
    + exists hs, rounds. cbn [td_session td_now td_due ss_log ss_ctl]. split; [done|]. split; [done|]. split; [by left|]. split; [done|].
      cbn [within] in Hw. destruct Hw as [Hw Hk]. exists (left - weight q)%N. split; [apply Hk|]. cbn [total foldr]. fold (total weight log). lia.
  - (* HsPause *) destruct Hctl as (Hr & Hsp & Hd). destruct first.
    + destruct (wakes cancelled (po_retry o)); [|done]. cbn [andb on_timer] in Hdue.
      apply bool_decide_eq_false in Hdue. cbn [ss_ctl timer_of] in Hs. injection Hs as <-.
      exists (hs + 1)%N, rounds. cbn [td_session td_now td_due ss_log ss_ctl]. split; [lia|]. split; [subst rounds; replace (hs + 1 - 1)%N with hs by lia; lia|].
      split; [by left|]. split; [done|]. exists a. split; [done|]. lia.
    + destruct cancelled; [|done]. cbn [ss_ctl timer_of] in Hs. injection Hs as <-. exists hs, rounds. cbn [td_session td_now td_due ss_log ss_ctl]. done.
  - (* SyRun *) destruct Hctl as (Hr & left & Hw & Hsp). assert (Hgr : greeted log) by (destruct Hg; [lia|done]).
    destruct pr as [[[e|] sy]| |q k]; cbn [ss_ctl timer_of pausing] in Hs; injection Hs as <-.
    + exists hs, rounds. cbn [td_session td_now td_due ss_log ss_ctl]. split; [done|]. split; [done|]. split; [right; by apply greeted_cons|]. split; [done|].
      rewrite Hx by done. lia.
    + exists hs, rounds. cbn [td_session td_now td_due ss_log ss_ctl]. split; [done|]. split; [done|]. split; [right; by do 2 apply greeted_cons|]. split; [done|].
      rewrite !Hx by done. split; [lia|]. pose proof (pause_ge sy). replace (Z.of_N rounds) with (Z.of_N (rounds - 1) + 1)%Z by lia. lia.
    + exists hs, rounds. cbn [td_session td_now td_due ss_log ss_ctl]. split; [done|]. split; [done|]. split; [done|]. lia.
    + exists hs, rounds. cbn [td_session td_now td_due ss_log ss_ctl]. split; [done|]. split; [done|]. split; [right; by apply greeted_cons|]. split; [done|].
      cbn [within] in Hw. destruct Hw as [Hw Hk]. exists (left - weight q)%N. split; [apply Hk|]. cbn [total foldr]. fold (total weight log). lia.
  - (* SyReport *) destruct Hctl as (Hr & Hsp). assert (Hgr : greeted log) by (destruct Hg; [lia|done]). destruct first.
    + cbn [ss_ctl timer_of pausing] in Hs. injection Hs as <-.
      exists hs, rounds. cbn [td_session td_now td_due ss_log ss_ctl]. split; [done|]. split; [done|]. split; [right; by do 2 apply greeted_cons|]. split; [done|].
      rewrite !Hx by done. split; [lia|]. pose proof (pause_ge synced). replace (Z.of_N rounds) with (Z.of_N (rounds - 1) + 1)%Z by lia. lia.
    + destruct cancelled; [|done]. cbn [ss_ctl timer_of] in Hs. injection Hs as <-.
      exists hs, rounds. cbn [td_session td_now td_due ss_log ss_ctl]. split; [done|]. split; [done|]. split; [right; by apply greeted_cons|]. by rewrite Hx.
  - (* SyPause *) destruct Hctl as (Hr & Hsp & Hd). destruct first.
    + destruct (wakes cancelled d); [|done]. cbn [andb on_timer] in Hdue.
      apply bool_decide_eq_false in Hdue. cbn [ss_ctl timer_of] in Hs. injection Hs as <-.
      exists hs, (rounds + 1)%N. cbn [td_session td_now td_due ss_log ss_ctl]. split; [done|].
      split; [replace (rounds + 1 - 1)%N with rounds by lia; lia|]. split; [right; destruct Hg; [lia|done]|]. split; [lia|].
      exists b. split; [apply Hround|]. lia.
    + destruct cancelled; [|done]. cbn [ss_ctl timer_of] in Hs. injection Hs as <-. exists hs, rounds. cbn [td_session td_now td_due ss_log ss_ctl]. done.
  - done.
  - done.
Qed.
Lemma pace_runs t0 sched t t' : pace_ok t0 t -> truns o id env t sched = Some t' -> pace_ok t0 t'.
Proof.
  revert t. induction sched as [|lab sched IH]; intros t Hp; cbn [truns]; [by intros [= <-]|].
  destruct (tstep o id env t lab) as [t1|] eqn:Hs; [|done]. apply IH. by eapply pace_step.
Qed.
(** What it says about a state, whatever it is doing *)
Lemma pace_bound t0 sched t : truns o id env (timed_init o t0) sched = Some t ->
  exists hs rounds : N, (1 <= hs)%N /\
    (Z.of_N (hs - 1) * po_retry o + Z.of_N (rounds - 1) * Z.min second (po_sleep o) <= td_now t - t0)%Z /\
    (rounds = 0%N \/ greeted (ss_log (td_session t))) /\
    (total weight (ss_log (td_session t)) <= a * hs + b * rounds)%N.
Proof.
  intros H. destruct (pace_runs _ _ _ _ (pace_init t0) H) as (hs & rounds & Hhs & Ht & Hg & Hctl).
  exists hs, rounds. split; [done|]. split; [done|]. split; [done|].
  destruct (ss_ctl (td_session t)).
  - destruct Hctl as (_ & n & _ & Hsp). lia.
  - destruct Hctl as (_ & Hsp & _). lia.
  - destruct Hctl as (_ & n & _ & Hsp). lia.
  - destruct Hctl as (_ & Hsp). lia.
  - destruct Hctl as (_ & Hsp & _). lia.
  - cbv beta zeta in Hctl. lia.
  - cbv beta zeta in Hctl. lia.
Qed.
End pace.

(** ** C124: a bound on the requests to the peer, and on the blocks asked for, that grows only with the time the session has lasted. *)
Theorem C124_pace : forall o id env t0 sched t p, (0 < p)%Z -> (p <= po_retry o)%Z -> (p <= po_sleep o)%Z -> (p <= second)%Z ->
  truns o id env (timed_init o t0) sched = Some t ->
  let log := ss_log (td_session t) in
  let times := Z.to_N ((td_now t - t0) / p) in
  (requests log <= N.max 3 (2 + N.of_nat (length (po_checkpoints o))) * (2 + times))%N /\
  (blocks_requested log <= po_batch o * (1 + times))%N.
Proof.
  intros o id env t0 sched t p Hp H1 H2 H3 Hr log times.
  assert (D : forall hs rounds : N, (1 <= hs)%N ->
    (Z.of_N (hs - 1) * po_retry o + Z.of_N (rounds - 1) * Z.min second (po_sleep o) <= td_now t - t0)%Z -> (hs - 1 + (rounds - 1) <= times)%N).
  { intros hs rounds Hhs Ht. unfold times.
    assert (Hle : (Z.of_N (hs - 1 + (rounds - 1)) <= (td_now t - t0) / p)%Z); [|lia].
    apply Z.div_le_lower_bound; [done|]. etransitivity; [|exact Ht]. rewrite N2Z.inj_add, Z.mul_add_distr_l.
    apply Z.add_le_mono; rewrite Z.mul_comm; apply Z.mul_le_mono_nonneg_l; lia. }
  split.
  - destruct (pace_bound o id env to_peer _ 3 (handshake_requests o) (round_requests o) t0 sched t Hr) as (hs & rounds & Hhs & Ht & _ & Hb).
    fold log in Hb. unfold requests. pose proof (D hs rounds Hhs Ht) as Hd. etransitivity; [exact Hb|].
    transitivity (N.max 3 (2 + N.of_nat (length (po_checkpoints o))) * (hs + rounds))%N.
    + rewrite N.mul_add_distr_l. apply N.add_le_mono; apply N.mul_le_mono_r; lia.
    + apply N.mul_le_mono_l. lia.
  - destruct (pace_bound o id env blocks_of 0 (po_batch o) (handshake_blocks o 0) (round_blocks o) t0 sched t Hr) as (hs & rounds & Hhs & Ht & _ & Hb).
    fold log in Hb. unfold blocks_requested. pose proof (D hs rounds Hhs Ht) as Hd. etransitivity; [exact Hb|].
    rewrite N.mul_0_l, N.add_0_l. apply N.mul_le_mono_l. lia.
Qed.
Print Assumptions C124_pace.

(** A peer with which no handshake succeeds is asked for nothing but handshakes, one per HandshakeRetryTime, and for no blocks. *)
Theorem C124_strangers : forall o id env t0 sched t, (0 < po_retry o)%Z ->
  truns o id env (timed_init o t0) sched = Some t -> ~ greeted (ss_log (td_session t)) ->
  (requests (ss_log (td_session t)) <= (2 + N.of_nat (length (po_checkpoints o))) * (1 + Z.to_N ((td_now t - t0) / po_retry o)))%N /\
  blocks_requested (ss_log (td_session t)) = 0%N.
Proof.
  intros o id env t0 sched t Hp Hr Hn. split.
  - destruct (pace_bound o id env to_peer _ 3 (handshake_requests o) (round_requests o) t0 sched t Hr) as (hs & rounds & Hhs & Ht & [->|?] & Hb); [|done].
    unfold requests. etransitivity; [exact Hb|]. rewrite N.mul_0_r, N.add_0_r. apply N.mul_le_mono_l.
    assert (Hle : (Z.of_N (hs - 1) <= (td_now t - t0) / po_retry o)%Z); [|lia]. apply Z.div_le_lower_bound; [done|]. lia.
  - destruct (pace_bound o id env blocks_of 0 (po_batch o) (handshake_blocks o 0) (round_blocks o) t0 sched t Hr) as (hs & rounds & _ & _ & [->|?] & Hb); [|done].
    unfold blocks_requested. lia.
Qed.
Print Assumptions C124_strangers.
(** With the default options: no more than three requests and five hundred blocks a second, and two requests per six seconds to a
    peer that does not pass the handshake. *)
Theorem C124_defaults : forall id env t0 sched t, truns pc_defaults id env (timed_init pc_defaults t0) sched = Some t ->
  let log := ss_log (td_session t) in
  let seconds := Z.to_N ((td_now t - t0) / second) in
  (requests log <= 3 * (2 + seconds))%N /\ (blocks_requested log <= 500 * (1 + seconds))%N /\
  (~ greeted log -> (requests log <= 2 * (1 + Z.to_N ((td_now t - t0) / (6 * second))))%N).
Proof.
  intros id env t0 sched t Hr log seconds.
  destruct (C124_pace pc_defaults id env t0 sched t second) as [H1 H2]; [done..|].
  split; [exact H1|]. split; [exact H2|]. intros Hg. exact (proj1 (C124_strangers pc_defaults id env t0 sched t eq_refl Hr Hg)).
Qed.
Print Assumptions C124_defaults.

(** The bounds are met: with a peer that never tells its head, every HandshakeRetryTime brings two more requests. *)
Local Definition mute : environment := fun _ q =>
  match q with
  | QVersion => ("1.0.0", None)
  | QLocalChainID _ => (Some (Some "koinos"), None)
  | QPeerChainID _ => (Some "koinos", None)
  | QPeerHead _ => (None, 0%N, Some (ESent ErrPeerRPC))
  | QPeerAncestor _ _ _ => (None, None)
  | QLib => None
  | QLocalBlocks _ _ => (None, None)
  | QPeerBlocks _ _ _ _ => ([], None)
  | QApply _ _ => None
  end.
Local Definition attempt (o : pc_opts) : list tlabel :=
  [TDo (MStep true); TDo (MStep true); TDo (MStep true); TDo (MStep true)].
Local Definition retry (o : pc_opts) : list tlabel := TDo (MStep true) :: TPass (po_retry o) :: TDo (MStep true) :: attempt o.
Local Lemma truns_app o id env l1 l2 t : truns o id env t (l1 ++ l2) = (t' ← truns o id env t l1; truns o id env t' l2).
Proof. revert t. induction l1 as [|x l1 IH]; intros t; cbn [app truns]; [done|]. destruct (tstep o id env t x); [apply IH|done]. Qed.
Local Definition asked (t : timed) (n : nat) (now : Z) : Prop :=
  exists k pend due log, t = Timed (Session (HsRun (Ret (Some (ESent ErrPeerRPC)))) false k pend false log) now due /\
    requests log = (2 * N.of_nat n)%N /\ ~ greeted log.
Theorem C124_bound_met : forall o id n t0, (0 < po_retry o)%Z -> po_checkpoints o = [] ->
  exists sched t, truns o id mute (timed_init o t0) sched = Some t /\ ~ greeted (ss_log (td_session t)) /\
    td_now t = (t0 + Z.of_nat n * po_retry o)%Z /\
    requests (ss_log (td_session t)) = ((2 + N.of_nat (length (po_checkpoints o))) * (1 + Z.to_N ((td_now t - t0) / po_retry o)))%N.
Proof.
  intros o id n t0 Hp Hc.
  enough (H : exists sched t, truns o id mute (timed_init o t0) sched = Some t /\ asked t (S n) (t0 + Z.of_nat n * po_retry o)).
  { destruct H as (sched & t & Hr & k & pend & due & log & -> & Hq & Hg). exists sched, (Timed (Session (HsRun (Ret (Some (ESent ErrPeerRPC)))) false k pend false log) (t0 + Z.of_nat n * po_retry o) due).
    split; [exact Hr|]. cbn [td_session td_now ss_log]. split; [done|]. split; [done|]. rewrite Hq, Hc. cbn [length].
    replace (t0 + Z.of_nat n * po_retry o - t0)%Z with (Z.of_nat n * po_retry o)%Z by lia. rewrite Z.div_mul by lia. lia. }
  induction n as [|n (sched & t & Hr & k & pend & due & log & -> & Hq & Hg)].
  - exists (attempt o). eexists. split; [reflexivity|]. unfold asked. do 4 eexists. split; [f_equal; lia|]. split; [reflexivity|].
    unfold greeted. rewrite !elem_of_cons. intros [?|[?|[?|[?|?%elem_of_nil]]]]; done.
  - exists (sched ++ retry o). rewrite truns_app, Hr. cbn [mbind option_bind retry truns tstep ss_ctl pausing andb sstep timer_of].
    rewrite decide_True by lia. cbn [tstep pausing andb on_timer ss_ctl]. rewrite bool_decide_eq_false_2 by lia. cbn [sstep wakes negb orb ss_ctl timer_of].
    eexists. split; [reflexivity|]. unfold asked. do 4 eexists. split; [f_equal; lia|].
    split; [cbn [requests total foldr to_peer]; fold (total to_peer log); fold (requests log); rewrite Hq; lia|].
    unfold greeted in *. rewrite !elem_of_cons. intros [?|[?|[?|[?|[?|[?|?]]]]]]; done.
Qed.
Print Assumptions C124_bound_met.

(** A session with the default options: a handshake and two rounds, ten seconds apart, of three requests and a batch each; the second
    round does not begin before. *)
Local Definition talker : environment := fun _ q =>
  match q with
  | QVersion => ("1.0.0", None)
  | QLocalChainID _ => (Some (Some "koinos"), None)
  | QPeerChainID _ => (Some "koinos", None)
  | QPeerHead _ => (Some "head", 700%N, None)
  | QPeerAncestor _ _ _ => (Some "lib", None)
  | QLib => Some (Topology (Some "lib") 100 None)
  | QLocalBlocks _ _ => (Some [Some 0%N], None)
  | QPeerBlocks _ _ _ _ => ([Block (Some "b") (Some (Header 699 None 0 None)) [] ""], None)
  | QApply _ _ => None
  end.
Local Definition round1 : list tlabel := replicate 12 (TDo (MStep true)).
Example C124_nonvacuous :
  (fun t => (requests (ss_log (td_session t)), blocks_requested (ss_log (td_session t)))) <$>
    truns pc_defaults "peer" talker (timed_init pc_defaults 0) (round1 ++ [TPass (10 * second)] ++ replicate 6 (TDo (MStep true))) = Some (8%N, 1000%N) /\
  truns pc_defaults "peer" talker (timed_init pc_defaults 0) (round1 ++ [TPass (9 * second)] ++ [TDo (MStep true)]) = None.
Proof. split; vm_compute; reflexivity. Qed.
