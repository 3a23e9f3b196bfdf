(** Property theorems C125: how often a session polls its peer, and how fast a node catches up. *)
From Verif Require Import GoBase PeerConn_Model Pace_Model Catchup_Spec Catchup_Proofs Catchup_Props Speed_Spec.

(** ** Programs within a time, whatever fitting answers they get *)
Section time.
Context (weight : req -> N).
Fixpoint lasts {A} (p : prog A) (n : N) : Prop :=
  match p with
  | Call q k => (weight q <= n)%N /\ forall r, fits q r -> lasts (k r) (n - weight q)
  | _ => True
  end.
Lemma lasts_mono {A} (p : prog A) n m : (n <= m)%N -> lasts p n -> lasts p m.
Proof.
  revert n m. induction p as [a| |q k IH]; intros n m Hle; cbn [lasts]; [done|done|].
  intros [Hw Hk]. split; [lia|]. intros r Hr. apply (IH r (n - weight q)%N); [lia|by apply Hk].
Qed.
Lemma lasts_bind {A B} (p : prog A) (f : A -> prog B) n m : lasts p n -> (forall a, lasts (f a) m) -> lasts (bind p f) (n + m).
Proof.
  revert n. induction p as [a| |q k IH]; intros n; cbn [lasts bind].
  - intros _ Hf. apply (lasts_mono _ m); [lia|apply Hf].
  - done.
  - intros [Hw Hk] Hf. split; [lia|]. intros r Hr. apply (lasts_mono _ (n - weight q + m)); [lia|]. apply IH; [by apply Hk|done].
Qed.
End time.

Section programs.
Context (o : pc_opts) (l : latency).
Local Lemma apply_lasts bs : lasts (lat l) (apply_blocks o bs) (N.of_nat (length bs) * l_apply l).
Proof.
  induction bs as [|b bs IH]; cbn [apply_blocks length]; [done|]. destruct (b_header b); [|done].
  cbn [lasts lat]. split; [lia|]. intros r _. assert (IH' : lasts (lat l) (apply_blocks o bs) (N.of_nat (S (length bs)) * l_apply l - l_apply l)).
  { eapply lasts_mono; [|exact IH]. lia. }
  destruct r as [e|]; [|done].
  destruct (is_err e ErrLocalRPCTimeout); [done|]. destruct (is_err e ErrForkBomb); [done|]. by destruct (is_err e ErrBlockIrreversibility).
Qed.
Local Lemma handshake_lasts : lasts (lat l) (handshake o) (handshake_time o l).
Proof.
  unfold handshake_time. set (cps := po_checkpoints o).
  assert (Hc : forall head cps, lasts (lat l) (check_points o head cps) (N.of_nat (length cps) * l_remote l)).
  { intros head cps'. induction cps' as [|cp cps' IH]; cbn [check_points length]; [done|]. cbn [lasts lat]. split; [lia|].
    intros [id [e|]] _; [done|]. destruct (bytes_equal id (cp_id cp)); [|done]. eapply lasts_mono; [|exact IH]. lia. }
  assert (Hh : lasts (lat l) (handshake_chain o) (l_local l + (2 + N.of_nat (length cps)) * l_remote l)).
  { unfold handshake_chain. cbn [lasts lat]. split; [lia|]. intros [mine [e|]] _; [done|]. cbn [lasts lat]. split; [lia|].
    intros [theirs [e|]] _; [done|]. destruct mine as [id|]; [|done]. destruct (bytes_equal id theirs); [|done]. cbn [lasts lat]. split; [lia|].
    intros [[head h] [e|]] _; [done|]. eapply lasts_mono; [|apply Hc]. fold cps. lia. }
  unfold handshake. cbn [lasts lat]. split; [lia|]. intros [v [e|]] _; [destruct (is_err e ErrProtocolMissing); [|done]|];
  (eapply lasts_mono; [|apply Hh]; lia).
Qed.
Local Lemma fetch_lasts lh head hh synced : lasts (lat l) (fetch o lh head hh synced) (l_blocks l + po_batch o * l_apply l).
Proof.
  unfold fetch. set (num := to_u32 _).
  assert (Hn : (num <= po_batch o)%N) by (unfold num, to_u32; etransitivity; [apply N.mod_le; done|]; case_bool_decide; lia).
  cbn [lasts lat]. split; [lia|]. intros [bs [e|]] Hf; [done|]. cbn [fits fst] in Hf.
  eapply lasts_mono; [|apply (lasts_bind (lat l) _ _ (N.of_nat (length bs) * l_apply l) 0); [apply apply_lasts|]].
  - assert (N.of_nat (length bs) * l_apply l <= po_batch o * l_apply l)%N by (apply N.mul_le_mono_r; lia). lia.
  - intros [e|]; [done|]. destruct (last bs) as [b|]; [|done]. by destruct (b_header b).
Qed.
Local Lemma round_lasts synced : lasts (lat l) (request_sync o synced) (round_time o l).
Proof.
  unfold round_time, request_sync. set (f := (l_blocks l + po_batch o * l_apply l)%N).
  replace (l_local l + 2 * l_remote l + l_blocks l + po_batch o * l_apply l)%N with (l_local l + 2 * l_remote l + f)%N by (unfold f; lia).
  cbn [lasts lat]. split; [lia|]. intros lib _. cbn [lasts lat]. split; [lia|].
  intros [[head hh] [e|]] _; [done|]. destruct lib as [lib|]; [|done]. case_bool_decide; [done|]. cbn [lasts lat]. split; [lia|].
  intros [items [e|]] _; [done|]. destruct items as [[|item [|]]|]; try done. destruct item as [h|]; [|done]. case_bool_decide; [done|].
  case_bool_decide.
  - cbn [lasts lat]. split; [lia|]. intros [id [e|]] _; [done|]. destruct (bytes_equal id (tp_id lib)); [|done].
    eapply lasts_mono; [|apply fetch_lasts]. fold f. lia.
  - eapply lasts_mono; [|apply fetch_lasts]. fold f. lia.
Qed.

(** ** The invariant *)
Context (id : string) (env : environment) (Hfit : forall n q, fits q (env n q)) (t0 : Z).
Local Notation A := (Z.of_N (handshake_time o l)).
Local Notation R := (Z.of_N (round_time o l)).
Local Notation rho := (Z.of_N (l_report l)).
Local Notation P := (Z.of_N (longest_pause o)).
Local Notation ret := (Z.max 0 (po_retry o)).
(** What handshakes that failed and rounds that ended account for *)
Local Definition used (log : list act) : Z := (Z.of_N (failed_handshakes log) * (A + ret) + Z.of_nat (rounds log) * (R + rho + P))%Z.
Local Definition on_time (t : timed) (since : Z) : Prop :=
  let s := td_session t in let u := used (ss_log s) in
  may_stay o l (ss_ctl s) (td_now t - since) /\
  match ss_ctl s with
  | HsRun p => exists n, lasts (lat l) p n /\ (since - t0 + Z.of_N n <= u + A)%Z
  | HsPause => (since - t0 + ret <= u)%Z
  | SyRun p => exists n, lasts (lat l) p n /\ (since - t0 + Z.of_N n <= u + A + R)%Z
  | SyReport _ => (since - t0 + rho + P <= u + A)%Z
  | SyPause d => (Z.max 0 d <= P)%Z /\ (since - t0 + P <= u + A)%Z
  | Stopped | Crashed => True
  end.
Local Lemma used_same x log : (forall e, x <> AHandshake (Some e)) -> (forall r, x <> ASync r) -> used (x :: log) = used log.
Proof. intros H1 H2. unfold used. destruct x as [?|[e|]|?|?| | |]; try done; [by destruct (H1 e)|by destruct (H2 res)]. Qed.
Local Lemma used_failed e log : used (AHandshake (Some e) :: log) = (used log + A + ret)%Z.
Proof. unfold used. cbn [failed_handshakes rounds]. lia. Qed.
Local Lemma used_round r log : used (ASync r :: log) = (used log + R + rho + P)%Z.
Proof. unfold used. cbn [failed_handshakes rounds]. lia. Qed.
Local Lemma pause_le synced : (Z.max 0 (pause_of o synced) <= P)%Z.
Proof. unfold pause_of, longest_pause. assert (0 < second)%Z by done. destruct synced; lia. Qed.
Local Lemma patience_lasts {X} (p : prog X) n : lasts (lat l) p n -> (patience l p <= n)%N.
Proof. destruct p; cbn [patience lasts]; [lia|lia|]. by intros [? _]. Qed.

Local Lemma on_time_step t since lab t' : on_time t since -> tstep o id env t lab = Some t' ->
  match lab with
  | TPass _ => may_stay o l (ss_ctl (td_session t)) (td_now t' - since) -> on_time t' since
  | TDo (MStep _) => on_time t' (td_now t)
  | TDo _ => on_time t' since
  end.
Proof.
  destruct t as [[ctl synced n pend cancelled log] now due]. intros [Hm Hc] Hs. unfold on_time.
  cbn [td_session td_now ss_log ss_ctl] in *.
  destruct lab as [dt|lab]; cbn [tstep] in Hs.
  { case_decide as Hdt; [|done]. injection Hs as <-. cbn [td_session td_now ss_log ss_ctl]. done. }
  destruct (pausing (ss_ctl _) && _ && _); [done|].
  assert (Hstay : forall c, may_stay o l c 0).
  { intros c. destruct c; cbn [may_stay]; lia || done. }
  destruct lab as [first|i|i|]; cbn [sstep ss_ctl] in Hs.
  2: { destruct (pend !! i) as [e|]; [|done]. cbn [ss_ctl] in Hs.
       assert (Et : exists due', t' = Timed (Session ctl synced n (delete i pend) cancelled (AReport id e FromHandshake :: log)) now due') by (destruct ctl; cbn [timer_of pausing] in Hs; injection Hs as <-; by eexists).
       destruct Et as [due' ->]. cbn [td_session td_now ss_log ss_ctl]. by rewrite used_same. }
  2: { destruct (pend !! i) as [e|]; [|done]. destruct cancelled; [|done]. cbn [ss_ctl] in Hs.
       assert (Et : exists due', t' = Timed (Session ctl synced n (delete i pend) true (ADrop e FromHandshake :: log)) now due') by (destruct ctl; cbn [timer_of pausing] in Hs; injection Hs as <-; by eexists).
       destruct Et as [due' ->]. cbn [td_session td_now ss_log ss_ctl]. by rewrite used_same. }
  2: { cbn [ss_ctl] in Hs.
       assert (Et : exists due', t' = Timed (Session ctl synced n pend true (ACancel :: log)) now due') by (destruct ctl; cbn [timer_of pausing] in Hs; injection Hs as <-; by eexists).
       destruct Et as [due' ->]. cbn [td_session td_now ss_log ss_ctl]. by rewrite used_same. }
  enough (G : forall s' due', t' = Timed s' now due' -> may_stay o l (ss_ctl s') (now - now) /\
    match ss_ctl s' with
    | HsRun p => exists n, lasts (lat l) p n /\ (now - t0 + Z.of_N n <= used (ss_log s') + A)%Z
    | HsPause => (now - t0 + ret <= used (ss_log s'))%Z
    | SyRun p => exists n, lasts (lat l) p n /\ (now - t0 + Z.of_N n <= used (ss_log s') + A + R)%Z
    | SyReport _ => (now - t0 + rho + P <= used (ss_log s') + A)%Z
    | SyPause d => (Z.max 0 d <= P)%Z /\ (now - t0 + P <= used (ss_log s') + A)%Z
    | Stopped | Crashed => True
    end).
  { assert (Et : exists s' due', t' = Timed s' now due') by (repeat case_match; simplify_eq; eauto). destruct Et as (s' & due' & ->). by eapply G. }
  intros s' due' ->. rewrite Z.sub_diag. split; [apply Hstay|].
  destruct ctl as [pr| |pr|e|d| |].
  - (* HsRun *) destruct Hc as (left & Hl & Hu). pose proof (patience_lasts _ _ Hl) as Hpat. cbn [may_stay] in Hm.
    destruct pr as [[e|]| |q k]; cbn [ss_ctl timer_of pausing] in Hs; injection Hs as <- _; cbn [ss_ctl ss_log].
    + rewrite used_same by done. rewrite used_failed. cbn [patience] in Hm. lia.
    + exists (round_time o l). split; [apply round_lasts|]. rewrite used_same by done. cbn [patience] in Hm. lia.
    + done.
    + cbn [lasts] in Hl. destruct Hl as [Hw Hk]. exists (left - lat l q)%N. split; [by apply Hk|]. rewrite used_same by done. cbn [patience] in Hm. lia.
  - (* HsPause *) cbn [may_stay] in Hm. destruct first.
    + destruct (wakes cancelled (po_retry o)); [|done]. cbn [ss_ctl timer_of] in Hs. injection Hs as <- _. cbn [ss_ctl ss_log].
      exists (handshake_time o l). split; [apply handshake_lasts|]. lia.
    + destruct cancelled; [|done]. cbn [ss_ctl timer_of] in Hs. injection Hs as <- _. done.
  - (* SyRun *) destruct Hc as (left & Hl & Hu). pose proof (patience_lasts _ _ Hl) as Hpat. cbn [may_stay] in Hm.
    destruct pr as [[[e|] sy]| |q k]; cbn [ss_ctl timer_of pausing] in Hs; injection Hs as <- _; cbn [ss_ctl ss_log].
    + rewrite used_round. cbn [patience] in Hm. lia.
    + split; [apply pause_le|]. rewrite used_same by done. rewrite used_round. cbn [patience] in Hm. lia.
    + done.
    + cbn [lasts] in Hl. destruct Hl as [Hw Hk]. exists (left - lat l q)%N. split; [by apply Hk|]. rewrite used_same by done. cbn [patience] in Hm. lia.
  - (* SyReport *) cbn [may_stay] in Hm. destruct first.
    + cbn [ss_ctl timer_of pausing] in Hs. injection Hs as <- _. cbn [ss_ctl ss_log]. split; [apply pause_le|]. rewrite !used_same by done. lia.
    + destruct cancelled; [|done]. cbn [ss_ctl timer_of] in Hs. injection Hs as <- _. done.
  - (* SyPause *) destruct Hc as [Hd Hu]. cbn [may_stay] in Hm. destruct first.
    + destruct (wakes cancelled d); [|done]. cbn [ss_ctl timer_of] in Hs. injection Hs as <- _. cbn [ss_ctl ss_log].
      exists (round_time o l). split; [apply round_lasts|]. lia.
    + destruct cancelled; [|done]. cbn [ss_ctl timer_of] in Hs. injection Hs as <- _. done.
  - done.
  - done.
Qed.
Local Lemma on_time_runs sched t since t' : on_time t since -> prompt o id env l t since sched -> truns o id env t sched = Some t' ->
  exists since', on_time t' since'.
Proof.
  revert t since. induction sched as [|lab sched IH]; intros t since Ht Hp; cbn [truns prompt] in *; [intros [= <-]; eauto|].
  destruct (tstep o id env t lab) as [t1|] eqn:Hs; [|done]. pose proof (on_time_step _ _ _ _ Ht Hs) as Hn.
  destruct lab as [dt|[f|i|i|]]; [destruct Hp as [Hm Hp]; specialize (Hn Hm)|..]; by eapply IH.
Qed.
Local Lemma elapsed sched t : prompt o id env l (timed_init o t0) t0 sched -> truns o id env (timed_init o t0) sched = Some t ->
  ss_ctl (td_session t) <> Stopped -> ss_ctl (td_session t) <> Crashed ->
  (td_now t - t0 <= Z.of_N (failed_handshakes (ss_log (td_session t))) * (A + ret) + A +
    Z.of_nat (rounds (ss_log (td_session t))) * (R + rho + P) + R)%Z.
Proof.
  intros Hp Hr Hs Hc.
  assert (H0 : on_time (timed_init o t0) t0).
  { unfold on_time, timed_init, session_init. cbn [td_session td_now ss_ctl ss_log may_stay]. split; [lia|]. exists (handshake_time o l). split; [apply handshake_lasts|]. unfold used. cbn [failed_handshakes rounds]. lia. }
  destruct (on_time_runs _ _ _ _ H0 Hp Hr) as (since & Hm & Ht). unfold used in Ht.
  destruct (ss_ctl (td_session t)) as [p| |p|e|d| |]; cbn [may_stay] in Hm.
  - destruct Ht as (n & Hl & Hu). pose proof (patience_lasts _ _ Hl). lia.
  - lia.
  - destruct Ht as (n & Hl & Hu). pose proof (patience_lasts _ _ Hl). lia.
  - lia.
  - lia.
  - done.
  - done.
Qed.
End programs.

(** ** C125: a session that is not held up polls its peer regularly: the time is accounted for by the handshakes that failed and the
    rounds that ended, each with its pause, and what is under way. *)
Theorem C125_polls : forall o l id env t0 sched t, (forall n q, fits q (env n q)) ->
  truns o id env (timed_init o t0) sched = Some t -> prompt o id env l (timed_init o t0) t0 sched ->
  ss_ctl (td_session t) <> Stopped -> ss_ctl (td_session t) <> Crashed ->
  (td_now t - t0 <=
    Z.of_N (failed_handshakes (ss_log (td_session t))) * (Z.of_N (handshake_time o l) + Z.max 0 (po_retry o)) + Z.of_N (handshake_time o l) +
    Z.of_nat (rounds (ss_log (td_session t))) * (Z.of_N (round_time o l) + Z.of_N (l_report l) + Z.of_N (longest_pause o)) + Z.of_N (round_time o l))%Z.
Proof. intros o l id env t0 sched t Hf Hr Hp Hs Hc. by eapply elapsed. Qed.
Print Assumptions C125_polls.

(** The session of a timed run *)
Local Fixpoint steps_of (sched : list tlabel) : list slabel :=
  match sched with [] => [] | TPass _ :: r => steps_of r | TDo lab :: r => lab :: steps_of r end.
Local Lemma untimed o id env t sched t' : truns o id env t sched = Some t' -> sruns o id env (td_session t) (steps_of sched) = Some (td_session t').
Proof.
  revert t. induction sched as [|lab sched IH]; intros t; cbn [truns steps_of]; [by intros [= <-]|].
  destruct (tstep o id env t lab) as [t1|] eqn:Hs; [|done]. intros Hr. apply IH in Hr. destruct t as [s now due]. destruct lab as [dt|lab]; cbn [tstep] in Hs.
  - case_decide; [|done]. injection Hs as <-. done.
  - cbn [sruns td_session]. destruct (_ && _); [done|]. destruct (sstep o id env s lab) as [s'|] eqn:E; [|done].
    assert (td_session t1 = s') as <- by (destruct (timer_of o (ss_ctl s')); [destruct (pausing (ss_ctl s))|]; by injection Hs as <-). done.
Qed.

(** ** C125: with an honest peer, every round but the first brings [g] blocks if irreversibility never lags behind by more than a batch
    less [g] (C92 with the amount). *)
Theorem C125_blocks_per_round : forall c policy o id env g w0 sched s w, sound_policy policy -> (0 < po_batch o < two32)%N ->
  (forall h, (h + g <= policy h + po_batch o)%N) -> consistent policy w0 -> checkpoints_met c o w0 ->
  sruns o id env (session_init o) sched = Some s -> honest c policy (moves_on policy) w0 (ss_log s) w ->
  (N.min (pl_peer w0) (pl_head w0 + g * N.of_nat (rounds (ss_log s) - 1)) <= pl_head w)%N.
Proof.
  intros c policy o id env g w0 sched s w Hpol [Hb0 Hb32] Hlag Hw0 Hcp Hr Hh.
  pose proof (good_run c policy Hpol o Hb0 Hb32 id env g Hlag _ _ _ _ _ _ _ _ (ss_log s) w (good_init c policy o Hb0 Hb32 g w0 Hw0 Hcp) Hr ltac:(by rewrite app_nil_r) Hh)
    as (_ & _ & G3 & _ & _ & _ & G7 & _). unfold due in G7.
  destruct (rounds (ss_log s)) as [|r]; [cbn; lia|]. specialize (G7 ltac:(lia)). by rewrite Nat.sub_0_r in G7.
Qed.
Print Assumptions C125_blocks_per_round.

(** ** C125: so it catches up in time. *)
Theorem C125_catches_up_in_time : forall c policy o l id env g w0 w t0 sched t, sound_policy policy -> (0 < po_batch o < two32)%N ->
  (0 < g)%N -> (forall h, (h + g <= policy h + po_batch o)%N) -> consistent policy w0 -> checkpoints_met c o w0 ->
  (forall n q, fits q (env n q)) -> truns o id env (timed_init o t0) sched = Some t -> prompt o id env l (timed_init o t0) t0 sched ->
  honest c policy (moves_on policy) w0 (ss_log (td_session t)) w -> ss_ctl (td_session t) <> Stopped ->
  let round := (round_time o l + l_report l + longest_pause o)%N in
  let missing := (pl_peer w0 - pl_head w0)%N in
  (Z.of_N (handshake_time o l + (missing / g + 3) * round) <= td_now t - t0)%Z ->
  (pl_peer w0 <= pl_head w)%N.
Proof.
  intros c policy o l id env g w0 w t0 sched t Hpol Hb Hg Hlag Hw0 Hcp Hf Hr Hp Hh Hs round missing Ht.
  pose proof (untimed _ _ _ _ _ _ Hr) as Hr'. cbn [timed_init td_session] in Hr'.
  assert (Hsuit : suited policy o) by (split; [done|]; split; [done|]; intros h; specialize (Hlag h); lia).
  destruct (C92_follows_partial c policy o Hsuit id env w0 Hw0 Hcp [] (session_init o) w0 _ _ (ss_log (td_session t)) w eq_refl (HonestStart _ _ _ _) Hr' ltac:(by rewrite app_nil_r) Hh) as (Hfail & Hcr & _).
  pose proof (C125_blocks_per_round c policy o id env g w0 _ _ w Hpol Hb Hlag Hw0 Hcp Hr' Hh) as Hblocks.
  assert (Hfh : failed_handshakes (ss_log (td_session t)) = 0%N).
  { clear -Hfail. induction (ss_log (td_session t)) as [|a log IH]; [done|]. apply Forall_cons in Hfail as [Ha Hl]. destruct a as [?|[e|]|?|?| | |]; cbn [failed_handshakes]; try by apply IH. by destruct Ha. }
  pose proof (C125_polls o l id env t0 sched t Hf Hr Hp Hs Hcr) as He. rewrite Hfh in He.
  set (r := rounds (ss_log (td_session t))) in *.
  assert (Hn : (missing / g + 2 <= N.of_nat r)%N).
  { destruct (N.le_gt_cases (missing / g + 2) (N.of_nat r)) as [?|Hlt]; [done|exfalso].
    assert (H1 : (Z.of_nat r * Z.of_N round <= Z.of_N (missing / g + 1) * Z.of_N round)%Z) by (apply Z.mul_le_mono_nonneg_r; lia).
    assert (H2 : Z.of_N (handshake_time o l + (missing / g + 3) * round) = (Z.of_N (handshake_time o l) + Z.of_N (missing / g + 1) * Z.of_N round + 2 * Z.of_N round)%Z) by lia.
    assert (H3 : (0 < longest_pause o)%N) by (unfold longest_pause; assert (0 < second)%Z by done; lia).
    unfold round in H1, H2. lia. }
  assert (Hm : (missing <= g * N.of_nat (r - 1))%N).
  { pose proof (N.div_mod missing g ltac:(lia)). pose proof (N.mod_lt missing g ltac:(lia)).
    assert (g * (missing / g + 1) <= g * N.of_nat (r - 1))%N by (apply N.mul_le_mono_l; lia). lia. }
  unfold missing in Hm. lia.
Qed.
Print Assumptions C125_catches_up_in_time.

(** ** C125 in numbers: the default options with up to ten checkpoints, irreversibility at most 60 blocks behind the head, a tenth of a
    second for a question, 10 seconds for a batch and 20 ms for a block: 30.4 seconds for every 440 blocks, so a million blocks take at
    most 20 hours. *)
Definition usual (cps : list checkpoint) : pc_opts :=
  PcOpts cps (po_local_timeout pc_defaults) (po_app_timeout pc_defaults) (po_remote_timeout pc_defaults) (po_batch pc_defaults) (po_block_timeout pc_defaults)
    (po_retry pc_defaults) (po_delta pc_defaults) (po_sleep pc_defaults).
Definition usual_latency : latency := Latency 100000000 100000000 10000000000 20000000 0 100000000.
Theorem C125_defaults : forall c policy cps id env w0 w t0 sched t, sound_policy policy -> (length cps <= 10)%nat ->
  (forall h, (h <= policy h + 60)%N) -> consistent policy w0 -> checkpoints_met c (usual cps) w0 ->
  (forall n q, fits q (env n q)) -> truns (usual cps) id env (timed_init (usual cps) t0) sched = Some t -> prompt (usual cps) id env usual_latency (timed_init (usual cps) t0) t0 sched ->
  honest c policy (moves_on policy) w0 (ss_log (td_session t)) w -> ss_ctl (td_session t) <> Stopped ->
  let missing := (pl_peer w0 - pl_head w0)%N in
  ((1300000000 + Z.of_N (missing / 440 + 3) * 30400000000 <= td_now t - t0)%Z \/ ((missing <= 1000000)%N /\ (20 * 60 * minute <= td_now t - t0)%Z)) ->
  (pl_peer w0 <= pl_head w)%N.
Proof.
  intros c policy cps id env w0 w t0 sched t Hpol Hl Hlag Hw0 Hcp Hf Hr Hp Hh Hs missing Ht.
  eapply (C125_catches_up_in_time c policy (usual cps) usual_latency id env 440 w0 w t0 sched t); try eassumption; [done|done| |].
  - intros h. specialize (Hlag h). cbn. lia.
  - cbn zeta. assert (Hhs : (handshake_time (usual cps) usual_latency <= 1300000000)%N) by (unfold handshake_time; cbn; lia).
    change (round_time (usual cps) usual_latency + l_report usual_latency + longest_pause (usual cps))%N with 30400000000%N.
    revert Hhs. generalize (handshake_time (usual cps) usual_latency). intros hs Hhs. fold missing. destruct Ht as [Ht|[Hm Ht]]; [lia|].
    assert (Hq : (missing / 440 <= 2272)%N) by (transitivity (1000000 / 440)%N; [by apply N.div_le_mono|by vm_compute]).
    revert Hq Ht. generalize (missing / 440)%N. intros q Hq. unfold minute, second. lia.
Qed.
Print Assumptions C125_defaults.

(** Three blocks to fetch from an honest peer, in batches of two, one block behind the head irreversible, a pause of ten seconds between
    rounds: after a minute the node has caught up (in fact after twenty seconds). *)
Local Definition ten : pc_opts := PcOpts [Checkpoint 1 (Some "a")] 1 1 1 2 1 1 5 (10 * second).
Local Definition at_once : latency := Latency 0 0 0 0 0 0.
(** Goes on as soon as possible *)
Local Fixpoint drive (k : nat) (t : timed) : list tlabel :=
  match k with
  | O => []
  | S k =>
    let lab := if pausing (ss_ctl (td_session t)) && bool_decide (td_now t < td_due t)%Z then TPass (td_due t - td_now t) else TDo (MStep true) in
    match tstep ten "p" ex_env t lab with Some t' => lab :: drive k t' | None => [] end
  end.
Local Definition minute_run : list tlabel := drive 53 (timed_init ten 0).
Local Lemma ex_env_fits n q : fits q (ex_env n q).
Proof.
  unfold ex_env. generalize (if bool_decide (n <= 9) then Place 3 0 0 else if bool_decide (n <= 10) then Place 3 1 0 else if bool_decide (n <= 17) then Place 3 2 1 else Place 3 3 2). intros w.
  destruct q; cbn [fits ex_answers]; try done. case_bool_decide; cbn [fst]; [|cbn; lia]. rewrite map_length, seq_length. lia.
Qed.
Example C125_nonvacuous : (forall n q, fits q (ex_env n q)) /\ (forall h, (h + 1 <= lag1 h + po_batch ten)%N) /\
  prompt ten "p" ex_env at_once (timed_init ten 0) 0 minute_run /\
  exists t, truns ten "p" ex_env (timed_init ten 0) minute_run = Some t /\ ss_ctl (td_session t) <> Stopped /\
    honest ex_chain lag1 (moves_on lag1) (Place 3 0 0) (ss_log (td_session t)) (Place 3 3 2) /\
    (Z.of_N (handshake_time ten at_once + (3 / 1 + 3) * (round_time ten at_once + 0 + longest_pause ten)) <= td_now t - 0)%Z.
Proof.
  split; [apply ex_env_fits|]. split; [intros h; unfold lag1; cbn; lia|]. split; [vm_compute; repeat split; discriminate|].
  eexists. split; [vm_compute; reflexivity|]. split; [done|]. split; [|vm_compute; discriminate].
  match goal with |- honest _ _ _ _ ?l _ => assert (He : state_after ex_chain lag1 (Place 3 0 0) l = Place 3 3 2) by (vm_compute; reflexivity); rewrite <- He; apply replays_honest end.
  cbn [replays]. replay_all.
Qed.
(** Three blocks with the default options: after two minutes. *)
Local Definition u_opts : pc_opts := usual [Checkpoint 1 (Some "a")].
Local Definition u_env : environment := fun n q =>
  ex_answers (if bool_decide (n <= 9) then Place 3 0 0 else if bool_decide (n <= 10) then Place 3 1 0 else if bool_decide (n <= 11) then Place 3 2 1 else Place 3 3 2) q.
Local Fixpoint u_drive (k : nat) (t : timed) : list tlabel :=
  match k with
  | O => []
  | S k =>
    let lab := if pausing (ss_ctl (td_session t)) && bool_decide (td_now t < td_due t)%Z then TPass (td_due t - td_now t) else TDo (MStep true) in
    match tstep u_opts "p" u_env t lab with Some t' => lab :: u_drive k t' | None => [] end
  end.
Local Definition u_run : list tlabel := u_drive 120 (timed_init u_opts 0).
Example C125_defaults_nonvacuous : (forall n q, fits q (u_env n q)) /\ (forall h, (h <= lag1 h + 60)%N) /\ checkpoints_met ex_chain u_opts (Place 3 0 0) /\
  prompt u_opts "p" u_env usual_latency (timed_init u_opts 0) 0 u_run /\
  exists t, truns u_opts "p" u_env (timed_init u_opts 0) u_run = Some t /\ ss_ctl (td_session t) <> Stopped /\
    honest ex_chain lag1 (moves_on lag1) (Place 3 0 0) (ss_log (td_session t)) (Place 3 3 2) /\
    (1300000000 + Z.of_N ((3 - 0) / 440 + 3) * 30400000000 <= td_now t - 0)%Z.
Proof.
  split.
  { intros n q. unfold u_env. generalize (if bool_decide (n <= 9) then Place 3 0 0 else if bool_decide (n <= 10) then Place 3 1 0 else if bool_decide (n <= 11) then Place 3 2 1 else Place 3 3 2). intros w.
    destruct q; cbn [fits ex_answers]; try done. case_bool_decide; cbn [fst]; [|cbn; lia]. rewrite map_length, seq_length. lia. }
  split; [intros h; unfold lag1; lia|]. split; [apply Forall_singleton; split; [done|vm_compute; discriminate]|]. split; [vm_compute; repeat split; discriminate|].
  eexists. split; [vm_compute; reflexivity|]. split; [discriminate|]. split; [|vm_compute; discriminate].
  match goal with |- honest _ _ _ _ ?l _ => assert (He : state_after ex_chain lag1 (Place 3 0 0) l = Place 3 3 2) by (vm_compute; reflexivity); rewrite <- He; apply replays_honest end.
  cbn [replays]. replay_all.
Qed.
