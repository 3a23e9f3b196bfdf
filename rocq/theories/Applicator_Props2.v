(** Property theorems C37-C44 and the applicator's part of C68. *)
From Verif Require Import GoBase Util TxCache_Model TxCache_Spec TxCache_Proofs Watchdog_Model
  Applicator_Model Applicator_Spec Applicator_Core Applicator_Sys Applicator_Inv Applicator_Inv2 Applicator_Inv3 Applicator_Inv4
  Applicator_Inv5 Applicator_Inv6 Applicator_Inv7 Applicator_Props.

Definition hdr (h : N) (prev : string) (ts : N) : header := Header h (Some prev) ts (Some "signer"%string).
(** The state after a schedule of the examples, and what is read off it. *)
Ltac demo o head lib now sched f v :=
  destruct (final_run f o (sys_init head lib five_min now) sched v) as (s & Hr & E); [vm_compute; reflexivity|];
  assert (Hreach : reaches o head lib five_min now sched s) by (split; [vm_compute; reflexivity|]; split; [u64s|exact Hr]); clear Hr.

(** C37, REFUTED as stated: the parent is reported accepted while an attempt at an old child is at the
    chain.  The new attempt is dropped because one is in flight; the one in flight comes back with
    "unknown previous block", and the child is left with nothing scheduled.  (The clock is at one day,
    the child's timestamp at 1 ms, so it is older than ForceChildRequestThreshold.) *)
Definition stranded : list label :=
  submit_call 0 (mk "child" 11 "parent" 1 "") ++ attempt_at 0 0 ++
  [LAccept (mk "parent" 10 "p" 1 ""); LBroadcast 0; LTry 0; LRpcDone 0 (Some (ESent ErrUnknownPreviousBlock)); LStatus 0 none_lost].
Definition day : Z := 86400 * second.
Theorem C37_no_lost_wakeup_refuted : exists o head lib dur now sched s k b t,
  reaches o head lib dur now sched s /\ s_cancelled s = false /\ s_hang s = false /\ s_panic s = false /\
  OAccepted b t ∈ s_log s /\ k_prev k = str (b_id b) /\ held s "child"%string k [0] /\ answers_to 0 (s_log s) = [] /\
  s_try s = [] /\ (forall i a, s_att s !! i = Some a -> at_live a = false) /\ s_new s = [] /\ s_bc s = [] /\ s_fh s = [].
Proof.
  pose (k := Blk (mk "child" 11 "parent" 1 "") (hdr 11 "parent" 1)).
  demo demo_opts 10%N 5%N day stranded
    (fun s => ((s_cancelled s, s_hang s, s_panic s), s_log s, c_byid (s_core s) !! "child"%string, (s_try s, s_att s, s_new s, s_bc s, s_fh s)))
    ((false, false, false),
     [OStatus 0 k (Some (ESent ErrUnknownPreviousBlock)); OResult 0 k (Some (ESent ErrUnknownPreviousBlock));
      OAccepted (mk "parent" 10 "p" 1 "") day; OSubmit 0 k day; OTake 0 k 5],
     Some (Entry k [0]), (@nil (blk * bool * Z), [Attempt k PDone], @nil nat, @nil block, @nil fork_heads)).
  injection E as E1 E2 E3 E4 E5 E6 E7 E8 E9 E10.
  exists demo_opts, 10%N, 5%N, five_min, day, stranded, s, k, (mk "parent" 10 "p" 1 ""), day.
  rewrite E4, E6, E7, E8, E9, E10. split_and!; try done.
  - do 2 right. left.
  - intros [|i] a Ha; [by injection Ha as <-|done].
Qed.
Print Assumptions C37_no_lost_wakeup_refuted.
(** What holds: a child younger than ForceChildRequestThreshold cannot be stranded.  After the report,
    and until shutdown, its request is pending or an attempt was started after the report. *)
Theorem C37_recent_child_not_lost_partial : forall o head lib dur now sched s lab s' id cid k cs sched' s'',
  reaches o head lib dur now sched s -> step o s lab = Some s' -> s_panic s' = false -> s_hang s' = false ->
  reports s lab id -> held s' cid k cs -> k_prev k = id ->
  (k_time k < 2 ^ 63)%N -> (min_i64 < ao_force_threshold o)%Z -> (s_now s - timestamp_instant k < ao_force_threshold o)%Z -> (s_now s - timestamp_instant k <= max_i64)%Z ->
  run o s' sched' = Some s'' -> s_cancelled s'' = false ->
  (exists t, (k, true, t) ∈ s_try s'') \/ started_since (length (s_att s')) k s''.
Proof.
  intros o head lib dur now sched s lab s' id cid k cs sched' s'' Hr Hst Hp Hg Hrep Hh Hpr Hk Hf Hage Hsat Hr' Hc.
  assert (Hin : (k, force_child o (s_now s) k, s_now s) ∈ s_try s') by (eapply reported_children; eauto; by eapply reaches_inv).
  assert (Hft : force_child o (s_now s) k = true).
  { unfold force_child. apply bool_decide_eq_true. rewrite wrap_small by lia. unfold timestamp_instant in *. unfold time_sub. lia. }
  rewrite Hft in Hin. by eapply forced_persists.
Qed.
Print Assumptions C37_recent_child_not_lost_partial.
(** The schedule of the refutation with a clock at 5 s: the request is kept. *)
Example C37_nonvacuous : final (fun s => map (fun x => (k_id (x.1.1), x.1.2)) (s_try s)) demo_opts (sys_init 10 5 five_min (5 * second)) stranded =
  Some [("child"%string, true)].
Proof. vm_compute. reflexivity. Qed.

(** C38.  The height used for the window is the maximum of the start-up head and the accepted heights
    (the admission theorem computes the window from it), and it never decreases. *)
Theorem C38_highest_is_maximum : forall o head lib dur now sched s, reaches o head lib dur now sched s ->
  c_highest (s_core s) = max_accepted head (s_log s).
Proof. intros o head lib dur now sched s Hr. apply reaches_inv in Hr. apply Hr. Qed.
Print Assumptions C38_highest_is_maximum.
Lemma max_accepted_app head new log : (max_accepted head log <= max_accepted head (new ++ log))%N.
Proof. induction new as [|e new IH]; [done|]. simpl. destruct e; try done. destruct (b_header b); [lia|done]. Qed.
Theorem C38_never_decreases : forall o head lib dur now sched s sched' s', reaches o head lib dur now sched s ->
  Forall u64_label sched' -> run o s sched' = Some s' -> (c_highest (s_core s) <= c_highest (s_core s'))%N.
Proof.
  intros o head lib dur now sched s sched' s' Hr Hu Hr'.
  rewrite (C38_highest_is_maximum _ _ _ _ _ _ _ Hr), (C38_highest_is_maximum _ _ _ _ _ _ _ (reaches_split _ _ _ _ _ _ _ _ _ Hr Hu Hr')).
  destruct (run_log _ _ _ _ Hr') as (new & ->). apply max_accepted_app.
Qed.
Print Assumptions C38_never_decreases.
(** [max_accepted] is the maximum: an upper bound that is attained. *)
Theorem C38_maximum : forall head log,
  (head <= max_accepted head log)%N /\
  (forall b t h, OAccepted b t ∈ log -> b_header b = Some h -> (h_height h <= max_accepted head log)%N) /\
  (max_accepted head log = head \/ exists b t h, OAccepted b t ∈ log /\ b_header b = Some h /\ max_accepted head log = h_height h).
Proof.
  intros head log. induction log as [|e log (I1 & I2 & I3)]; simpl.
  - split_and!; [lia|intros b t h Hx; by apply elem_of_nil in Hx|by left].
  - assert (Hkeep : max_accepted head log = head \/ exists b t h, OAccepted b t ∈ e :: log /\ b_header b = Some h /\ max_accepted head log = h_height h).
    { destruct I3 as [?|(b & t & h & ? & ? & ?)]; [by left|right]. exists b, t, h. split_and!; [by right|done|done]. }
    destruct e; try (split_and!; [done|intros b0 t0 h0 [?|?]%elem_of_cons; [done|eauto]|done]).
    destruct (b_header b) as [h|] eqn:Hb.
    + split_and!; [lia| |].
      * intros b0 t0 h0 [[= -> ->]|Hin]%elem_of_cons Hb0; [rewrite Hb in Hb0; injection Hb0 as ->; lia|]. specialize (I2 _ _ _ Hin Hb0). lia.
      * destruct (decide (max_accepted head log <= h_height h)%N).
        -- right. exists b, now, h. split_and!; [left|done|lia].
        -- destruct Hkeep as [?|(b0 & t0 & h0 & ? & ? & ?)]; [left; lia|right]. exists b0, t0, h0. split_and!; [done|done|lia].
    + split_and!; [done| |done]. intros b0 t0 h0 [[= -> ->]|?]%elem_of_cons Hb0; [congruence|eauto].
Qed.
Print Assumptions C38_maximum.
Example C38_nonvacuous :
  final (fun s => c_highest (s_core s)) demo_opts (sys_init 10 5 five_min 0)
    [LAccept (mk "a" 30 "p" 1 ""); LAccept (mk "b" 20 "p" 1 ""); LBroadcast 0; LBroadcast 0] = Some 30%N.
Proof. vm_compute. reflexivity. Qed.

(** C39, REFUTED as stated: each fork-head update is handed over by a goroutine of its own, so an older
    one can be processed last; the LIB then moves back, and a block below the highest LIB is submitted. *)
Theorem C39_lib_monotone_refuted : exists o head lib dur now sched s i k t rest,
  reaches o head lib dur now sched s /\ s_cancelled s = false /\
  s_log s = OSubmit i k t :: rest /\ OLib 20 ∈ rest /\ last_lib lib rest = 10%N /\ (k_height k <= 20)%N.
Proof.
  set (sched := [LAnnounce (ForkHeads (Some 10%N) []); LAnnounce (ForkHeads (Some 20%N) []); LForkHeads 1 none_lost; LForkHeads 0 none_lost] ++
    submit_call 0 (mk "a" 15 "p" 1 "") ++ attempt_at 0 0).
  pose (k := Blk (mk "a" 15 "p" 1 "") (hdr 15 "p" 1)).
  demo demo_opts 20%N 5%N 0%Z sched (fun s => (s_log s, s_cancelled s)) ([OSubmit 0 k 0; OTake 0 k 10; OLib 10; OLib 20], false).
  injection E as Elog Ec. exists demo_opts, 20%N, 5%N, five_min, 0%Z, sched, s. eexists _, _, _, _.
  split; [exact Hreach|]. split; [exact Ec|]. split; [exact Elog|]. split; [do 2 right; left|]. split; [vm_compute; reflexivity|vm_compute; discriminate].
Qed.
Print Assumptions C39_lib_monotone_refuted.
(** What holds: every check uses the LIB processed last; if the updates are processed in order, that is
    the highest LIB processed, and it never decreases. *)
Theorem C39_last_lib_partial : forall o head lib dur now sched s, reaches o head lib dur now sched s ->
  c_lib (s_core s) = last_lib lib (s_log s) /\
  (libs_in_order lib (s_log s) -> c_lib (s_core s) = max_lib lib (s_log s)) /\
  forall l1 i k l l2, s_log s = l1 ++ OTake i k l :: l2 -> l = last_lib lib l2 /\ (libs_in_order lib (s_log s) -> l = max_lib lib l2).
Proof.
  intros o head lib dur now sched s Hr. apply reaches_inv in Hr as HI. pose proof (v_just _ _ _ _ HI) as HJ. split_and!.
  - apply (j_lib _ _ HJ).
  - intros Ho. rewrite (j_lib _ _ HJ). by apply in_order_max.
  - intros l1 i k l l2 Hlog. pose proof (Hist_split _ _ _ _ _ (j_hist _ _ HJ) Hlog) as Hl. simpl in Hl. split; [done|].
    intros Ho. rewrite Hl. apply in_order_max. intros l3 b l4 ->. apply (Ho (l1 ++ OTake i k l :: l3) b l4). rewrite Hlog. repeat (rewrite <- app_assoc; simpl). done.
Qed.
Print Assumptions C39_last_lib_partial.
Example C39_nonvacuous : exists log, demo_log [LAnnounce (ForkHeads (Some 10%N) []); LAnnounce (ForkHeads (Some 20%N) []); LForkHeads 0 none_lost; LForkHeads 0 none_lost] = Some log /\
  log = [OLib 20; OLib 10] /\ libs_in_order 5 log.
Proof.
  eexists. split; [vm_compute; reflexivity|]. split; [done|].
  intros [|x [|y l1]] b l2 H; simpl in H.
  - injection H as <- <-. split; [lia|]. intros a Hx. apply elem_of_cons in Hx as [[= ->]|Hx]; [lia|by apply elem_of_nil in Hx].
  - injection H as <- <- <-. split; [lia|]. intros a Hx. by apply elem_of_nil in Hx.
  - destruct l1; simpl in H; discriminate H.
Qed.

(** C40.  Processing a fork-head update with a LIB below 2^64-1 ends, takes out exactly the held blocks
    at or below the LIB, and answers their callers with the irreversibility error. *)
Theorem C40_lib_releases : forall o head lib0 dur now sched s i lose fh lib s',
  reaches o head lib0 dur now sched s -> step o s (LForkHeads i lose) = Some s' ->
  s_fh s !! i = Some fh -> fh_lib fh = Some lib -> (lib < max_u64)%N ->
  s_hang s' = false /\ s_panic s' = false /\ c_lib (s_core s') = lib /\
  (forall id k cs, held s id k cs -> (k_height k <= lib)%N ->
     id ∉ held_ids s' /\ forall c, c ∈ cs -> s_cancelled s = true \/ OAnswer c (Some (ESent ErrBlockIrreversibility)) ∈ s_log s') /\
  (forall id k cs, held s id k cs -> (lib < k_height k)%N -> held s' id k cs) /\
  (forall id, id ∈ held_ids s' -> id ∈ held_ids s).
Proof. exact lib_step. Qed.
Print Assumptions C40_lib_releases.
Example C40_nonvacuous : final (fun s => (elements (held_ids s), s_log s)) demo_opts (sys_init 10 5 five_min 0)
    (full_pool ++ [LAnnounce (ForkHeads (Some 11%N) []); LForkHeads 0 none_lost]) =
  Some (["b"]%string, [OAnswer 0 (Some (ESent ErrBlockIrreversibility)); OLib 11]).
Proof. vm_compute. reflexivity. Qed.
(** REFUTED for a LIB of 2^64-1: the loop "h <= lib; h++" never ends.  From then on the dispatcher does
    nothing, in every continuation: the pool stays as it is and no waiting call is ever answered. *)
Theorem C40_max_lib_refuted : exists o head lib dur now sched s,
  reaches o head lib dur now sched s /\ last_lib lib (s_log s) = max_u64 /\ s_panic s = false /\
  forall sched' s', run o s sched' = Some s' ->
    "a"%string ∈ held_ids s' /\ (forall r, OAnswer 0 r ∉ s_log s') /\ (forall lose, step o s' (LNew lose) = None).
Proof.
  set (sched := submit_call 0 (mk "a" 11 "p" 1 "") ++ [LAnnounce (ForkHeads (Some max_u64) []); LForkHeads 0 none_lost]).
  pose (k := Blk (mk "a" 11 "p" 1 "") (hdr 11 "p" 1)).
  demo demo_opts 10%N 5%N 0%Z sched (fun s => (serving s, s_panic s, s_log s, c_byid (s_core s) !! "a"%string))
    (false, false, [OLib max_u64], Some (Entry k [0])).
  injection E as E1 E2 E3 E4.
  exists demo_opts, 10%N, 5%N, five_min, 0%Z, sched, s. split; [exact Hreach|]. split; [by rewrite E3|]. split; [done|].
  intros sched' s' Hr'. destruct (stuck_run _ _ _ _ E1 Hr') as (S1 & S2 & _ & S4). split_and!.
  - unfold held_ids. rewrite S2. apply elem_of_dom. rewrite E4. eauto.
  - intros r Hin. apply S4 in Hin. rewrite E3 in Hin. apply elem_of_cons in Hin as [?|Hin]; [done|by apply elem_of_nil in Hin].
  - intros lose. unfold step. rewrite S1. by destruct (s_panic s').
Qed.
Print Assumptions C40_max_lib_refuted.

(** C41, REFUTED as stated: the milliseconds of the timestamp are passed to time.Unix as nanoseconds, so
    a block whose timestamp ends in .999 s is submitted up to 999 ms too early. *)
Theorem C41_not_before_timestamp_refuted : exists o head lib dur now sched s i k t,
  reaches o head lib dur now sched s /\ s_cancelled s = false /\ OSubmit i k t ∈ s_log s /\ (t + ao_delay_threshold o + 998 * millisecond < timestamp_instant k)%Z.
Proof.
  set (sched := [LTick 1000] ++ submit_call 0 (mk "a" 11 "p" 4999 "") ++ attempt_at 0 0).
  pose (k := Blk (mk "a" 11 "p" 4999 "") (hdr 11 "p" 4999)).
  demo demo_opts 10%N 5%N 0%Z sched (fun s => (s_log s, s_cancelled s)) ([OSubmit 0 k 1000; OTake 0 k 5], false).
  injection E as Elog Ec. exists demo_opts, 10%N, 5%N, five_min, 0%Z, sched, s, 0, k, 1000%Z. rewrite Elog.
  split; [exact Hreach|]. split; [exact Ec|]. split; [left|vm_compute; reflexivity].
Qed.
Print Assumptions C41_not_before_timestamp_refuted.
(** What holds: less than one second early, until shutdown, for timestamps that time.Sub can represent. *)
Theorem C41_less_than_a_second_early_partial : forall o head lib dur now sched s, reaches o head lib dur now sched s ->
  (0 <= ao_delay_threshold o)%Z -> Forall (stamped_by (now + max_i64)) sched -> s_cancelled s = false ->
  forall i k t, OSubmit i k t ∈ s_log s -> (timestamp_instant k - second < t + ao_delay_threshold o)%Z.
Proof.
  intros o head lib dur now sched s Hr Hth Hst Hc i k t Hin.
  assert (HT : Tm o now s) by (eapply reaches_tm; [done| |exact Hr]; eapply Forall_impl; [exact Hst|]; intros ?; apply stamped_near).
  pose proof (tm_log _ _ _ HT Hc i k t Hin) as Ht. unfold in_time in Ht. unfold timestamp_instant. pose proof (instant_lower (k_time k)). lia.
Qed.
Print Assumptions C41_less_than_a_second_early_partial.
(** A block from 10 s in the future waits until 6 s, and not less. *)
Definition later_block : list label := submit_call 0 (mk "a" 11 "p" 10000 "") ++ [LTry 0; LAttStart 0].
Example C41_nonvacuous :
  Forall (stamped_by (0 + max_i64)) (later_block ++ [LTick 6000000000; LAttWake 0; LTake 0; LSubmit 0]) /\
  option_map (@length event) (demo_log (later_block ++ [LTick 6000000000; LAttWake 0; LTake 0; LSubmit 0])) = Some 2 /\
  demo_log (later_block ++ [LTick 5999999999; LAttWake 0]) = None /\ demo_log (later_block ++ [LTick 5999999999; LTake 0]) = None.
Proof. split; [apply stamped_checks; vm_compute; reflexivity|]. repeat split; vm_compute; reflexivity. Qed.

(** C42, first half.  Two submissions of one transaction id are more than the cache duration apart. *)
Theorem C42_submissions_apart : forall o head lib dur now sched s, (0 <= dur < max_i64)%Z -> reaches o head lib dur now sched s ->
  forall l1 i t u l2, s_log s = l1 ++ OTxSubmit i t u :: l2 ->
  forall j t' v, OTxSubmit j t' v ∈ l2 -> tid t' = tid t -> (u - v > dur)%Z.
Proof.
  intros o head lib dur now sched s Hd Hr l1 i t u l2 Hlog. apply (reaches_txi _ _ _ _ _ _ _ Hd) in Hr.
  destruct (Hist_split _ _ _ _ _ (tx_hist _ _ Hr) Hlog) as [H _]. exact H.
Qed.
Print Assumptions C42_submissions_apart.
Definition demo_tx : transaction := Transaction (Some "tx"%string) "body".
Definition tx_call (i : nat) : list label := [LTxCall demo_tx; LTxSend i; LTxTake i].
Example C42_nonvacuous :
  demo_log (tx_call 0 ++ [LTick 300000000000] ++ tx_call 1 ++ [LTick 1] ++ tx_call 2) =
    Some [OTxSubmit 2 demo_tx 300000000001; OTxDuplicate 1 demo_tx 300000000000; OTxSubmit 0 demo_tx 0].
Proof. vm_compute. reflexivity. Qed.
(** Second half, REFUTED: submitted at 0:00, the transaction is part of a block accepted at 4:59, and is
    submitted again at 5:01, two seconds after that block, with a cache duration of five minutes. *)
Definition tx_block : block := Block (Some "b"%string) (Some (hdr 11 "p" 1)) [demo_tx] "".
Theorem C42_recently_accepted_refuted : exists o head lib dur now sched s i t u b v,
  reaches o head lib dur now sched s /\ dur = (300 * second)%Z /\ s_cancelled s = false /\
  OTxSubmit i t u ∈ s_log s /\ OAccepted b v ∈ s_log s /\ t ∈ b_txs b /\ (v < u)%Z /\ (u - v = 2 * second)%Z.
Proof.
  set (sched := tx_call 0 ++ [LTxDone 0 None; LAccept tx_block; LTick 299000000000; LBroadcast 0; LTick 2000000000] ++ tx_call 1).
  demo demo_opts 10%N 5%N 0%Z sched (fun s => (s_log s, s_cancelled s))
    ([OTxSubmit 1 demo_tx 301000000000; OAccepted tx_block 299000000000; OTxResult 0 demo_tx None; OTxSubmit 0 demo_tx 0], false).
  injection E as Elog Ec. exists demo_opts, 10%N, 5%N, five_min, 0%Z, sched, s, 1, demo_tx, 301000000000%Z, tx_block, 299000000000%Z. rewrite Elog.
  split; [exact Hreach|]. split; [done|]. split; [exact Ec|]. split; [left|]. split; [right; left|]. split; [left|]. split; vm_compute; reflexivity.
Qed.
Print Assumptions C42_recently_accepted_refuted.
(** What holds: a transaction of a block accepted within the last [dur] is not submitted, unless it had
    been seen (submitted, or in a block) before that block, within [dur] of it and more than [dur] ago. *)
Theorem C42_recently_accepted_partial : forall o head lib dur now sched s, (0 <= dur < max_i64)%Z -> reaches o head lib dur now sched s ->
  forall l1 i t u l2, s_log s = l1 ++ OTxSubmit i t u :: l2 ->
  forall b v, OAccepted b v ∈ l2 -> tid t ∈ map tid (b_txs b) -> (u - v <= dur)%Z ->
  exists w, seen_at l2 (tid t) w /\ (v - dur <= w < v)%Z /\ (u - w > dur)%Z.
Proof.
  intros o head lib dur now sched s Hd Hr l1 i t u l2 Hlog b v Hin Hid Hle. apply (reaches_txi _ _ _ _ _ _ _ Hd) in Hr.
  destruct (Hist_split _ _ _ _ _ (tx_hist _ _ Hr) Hlog) as [_ H]. destruct (H b v Hin Hid) as [?|?]; [lia|done].
Qed.
Print Assumptions C42_recently_accepted_partial.
Example C42_accepted_nonvacuous : demo_log ([LAccept tx_block; LBroadcast 0; LTick 2000000000] ++ tx_call 0) =
  Some [OTxDuplicate 0 demo_tx 2000000000; OAccepted tx_block 0].
Proof. vm_compute. reflexivity. Qed.

(** C43, REFUTED as stated: the chain rejects the transaction; a second call within the cache duration
    returns nil. *)
Theorem C43_success_means_accepted_refuted : exists o head lib dur now sched s i t,
  reaches o head lib dur now sched s /\ s_cancelled s = false /\ OTxReturn i t None ∈ s_log s /\
  (forall j t', OTxResult j t' None ∉ s_log s) /\ (forall b v, OAccepted b v ∉ s_log s).
Proof.
  set (sched := tx_call 0 ++ [LTxDone 0 (Some (EOther "insufficient mana")); LTxRet 0] ++ tx_call 1 ++ [LTxRet 1]).
  demo demo_opts 10%N 5%N 0%Z sched (fun s => (s_log s, s_cancelled s))
    ([OTxReturn 1 demo_tx None; OTxDuplicate 1 demo_tx 0; OTxReturn 0 demo_tx (Some (EOther "insufficient mana"));
      OTxResult 0 demo_tx (Some (EOther "insufficient mana")); OTxSubmit 0 demo_tx 0], false).
  injection E as Elog Ec. exists demo_opts, 10%N, 5%N, five_min, 0%Z, sched, s, 1, demo_tx. rewrite Elog.
  split; [exact Hreach|]. split; [exact Ec|]. split; [left|]. split; [intros j t' Hx|intros b v Hx]; in_log Hx.
Qed.
Print Assumptions C43_success_means_accepted_refuted.
(** What holds: nil means that the chain accepted the transaction of this call, or that its id was
    submitted or accepted with a block within the cache duration; every other result is the chain's for
    this very call, or the end of the caller's context. *)
Theorem C43_result_partial : forall o head lib dur now sched s, (0 <= dur < max_i64)%Z -> reaches o head lib dur now sched s ->
  forall l1 i t r l2, s_log s = l1 ++ OTxReturn i t r :: l2 ->
  (OTxResult i t r ∈ l2 /\ exists u, OTxSubmit i t u ∈ s_log s) \/
  (r = None /\ exists u a, OTxDuplicate i t u ∈ l2 /\ seen_at (s_log s) (tid t) a /\ (u - a <= dur)%Z) \/
  r = Some (ESent CtxDeadlineExceeded) \/ r = Some (ESent CtxCanceled).
Proof.
  intros o head lib dur now sched s Hd Hr l1 i t r l2 Hlog. apply (reaches_txi _ _ _ _ _ _ _ Hd) in Hr as HT. pose proof (tx_hist _ _ HT) as Hh.
  destruct (Hist_split _ _ _ _ _ Hh Hlog) as [?|[?|[Hin|(-> & u & Hin)]]]; [by do 2 right; left|by do 3 right|left|right; left].
  - split; [done|]. apply elem_of_list_split in Hin as (l3 & l4 & ->).
    destruct (Hist_split _ _ (l1 ++ OTxReturn i t r :: l3) (OTxResult i t r) l4 Hh) as (u & Hu); [rewrite Hlog; repeat (rewrite <- app_assoc; simpl); done|].
    exists u. rewrite Hlog. apply elem_of_app. right. right. apply elem_of_app. right. by right.
  - split; [done|]. exists u. apply elem_of_list_split in Hin as (l3 & l4 & ->).
    destruct (Hist_split _ _ (l1 ++ OTxReturn i t None :: l3) (OTxDuplicate i t u) l4 Hh) as (a & Ha & Hle); [rewrite Hlog; repeat (rewrite <- app_assoc; simpl); done|].
    exists a. split_and!; [apply elem_of_app; right; left| |done]. eapply seen_mono; [|exact Ha]. intros e He. rewrite Hlog. apply elem_of_app. right. right. apply elem_of_app. right. by right.
Qed.
Print Assumptions C43_result_partial.
Example C43_nonvacuous : exists l2, demo_log (tx_call 0 ++ [LTxDone 0 None; LTxRet 0]) = Some (OTxReturn 0 demo_tx None :: l2) /\ OTxResult 0 demo_tx None ∈ l2.
Proof. eexists. split; [vm_compute; reflexivity|]. left. Qed.

(** C44, REFUTED as stated: a single call; the parent's acceptance schedules a second attempt while the
    first is running, and it is started after the chain accepted the block. *)
Theorem C44_not_submitted_again_refuted : exists o head lib dur now sched s l1 l2 i j k t t',
  reaches o head lib dur now sched s /\ s_cancelled s = false /\ length (List.filter (fun l => match l with LCall _ => true | _ => false end) sched) = 1 /\
  s_log s = l1 ++ OSubmit j k t' :: l2 /\ OResult i k None ∈ l2 /\ OSubmit i k t ∈ l2.
Proof.
  set (sched := submit_call 0 (mk "child" 11 "parent" 1 "") ++ attempt_at 0 0 ++
    [LAccept (mk "parent" 10 "p" 1 ""); LBroadcast 0; LRpcDone 0 None; LStatus 0 none_lost] ++ attempt_at 0 1).
  pose (k := Blk (mk "child" 11 "parent" 1 "") (hdr 11 "parent" 1)).
  demo demo_opts 10%N 5%N 0%Z sched (fun s => (s_log s, s_cancelled s))
    ([OSubmit 1 k 0; OTake 1 k 5; OAnswer 0 None; OStatus 0 k None; OResult 0 k None; OAccepted (mk "parent" 10 "p" 1 "") 0; OSubmit 0 k 0; OTake 0 k 5], false).
  injection E as Elog Ec. exists demo_opts, 10%N, 5%N, five_min, 0%Z, sched, s, []. eexists _, 0, 1, k, _, _.
  split; [exact Hreach|]. split; [exact Ec|]. split; [vm_compute; reflexivity|]. split; [exact Elog|].
  split; [do 3 right; left|do 5 right; left].
Qed.
Print Assumptions C44_not_submitted_again_refuted.
(** What holds: once nothing of a block id is under way (it is not held, no attempt is scheduled or
    running, no call with it is being processed) and nobody passes it in again, it is never submitted. *)
Theorem C44_not_submitted_again_partial : forall o head lib dur now sched s sched' s' id,
  reaches o head lib dur now sched s -> idle id s -> Forall u64_label sched' -> Forall (not_again id) sched' -> run o s sched' = Some s' ->
  exists new, s_log s' = new ++ s_log s /\ forall i k t, OSubmit i k t ∈ new -> k_id k <> id.
Proof. intros o head lib dur now sched s sched' s' id Hr. eapply idle_run. by eapply reaches_inv. Qed.
Print Assumptions C44_not_submitted_again_partial.
(** The ordinary life of a block ends in such a state. *)
Example C44_nonvacuous : exists s, run demo_opts (sys_init 10 5 five_min 0) happy_path = Some s /\ idle "a"%string s /\ exists i k t, OSubmit i k t ∈ s_log s /\ k_id k = "a"%string.
Proof.
  pose (k := Blk (mk "a" 11 "p" 4000 "") (hdr 11 "p" 4000)).
  demo demo_opts 10%N 5%N 0%Z happy_path (fun s => (elements (held_ids s), s_try s, s_att s, s_calls s, s_new s, nth 4 (s_log s) (OLib 0)))
    (@nil string, @nil (blk * bool * Z), [Attempt k PDone], [Call k (CRet None) (Some None)], @nil nat, OSubmit 0 k 0).
  injection E as E1 E2 E3 E4 E5 E6.
  exists s. split; [apply Hreach|]. clear Hreach. split.
  - split; [|split; [|split]].
    + rewrite <- elem_of_elements, E1. apply not_elem_of_nil.
    + intros k0 f t Hx. rewrite E2 in Hx. by apply elem_of_nil in Hx.
    + intros [|i] a Ha Hl; rewrite E3 in Ha; [injection Ha as <-; done|done].
    + intros [|c] cl Hc [Hp|Hn]; rewrite E4 in Hc; try done; [injection Hc as <-; done|]. rewrite E5 in Hn. by apply elem_of_nil in Hn.
  - exists 0, k, 0%Z. split; [|done]. rewrite <- E6. apply elem_of_list_In, nth_In.
    destruct (decide (4 < length (s_log s))) as [?|Hn]; [lia|]. rewrite nth_overflow in E6 by lia. discriminate E6.
Qed.

(** C68, the applicator's part.  REFUTED: a call of ApplyBlock that finds the channel full while the
    dispatcher is gone (after shutdown) has not reached the select that watches its context; it never
    returns, whatever happens afterwards. *)
Definition shut_down : list label := [LCancel; LLoopExit].
Definition ten_calls : list label := flat_map (fun c => [LCall (mk "a" 11 "p" 1 ""); LSend c]) (seq 0 10).
Theorem C68_apply_block_returns_refuted : exists o head lib dur now sched s,
  reaches o head lib dur now sched s /\ forall sched' s', run o s sched' = Some s' -> block_call_open 10 s' /\
    step o s' (LTimeout 10) = None /\ step o s' (LRet 10) = None.
Proof.
  set (sched := shut_down ++ ten_calls ++ [LCall (mk "a" 11 "p" 1 "")]).
  pose (k := Blk (mk "a" 11 "p" 1 "") (hdr 11 "p" 1)).
  demo demo_opts 10%N 5%N 0%Z sched (fun s => (serving s, length (s_new s), s_calls s !! 10)) (false, 10, Some (Call k CSend None)).
  injection E as E1 E2 E3. exists demo_opts, 10%N, 5%N, five_min, 0%Z, sched, s. split; [exact Hreach|].
  intros sched' s' Hr'. assert (Hcap : chan_cap <= length (s_new s)) by (rewrite E2; done).
  pose proof (blocked_run _ _ _ _ _ _ _ E1 Hcap E3 Hr') as Hb. split_and!.
  - eexists. split; [exact Hb|]. done.
  - unfold step. rewrite Hb. by destruct (s_panic s').
  - unfold step. rewrite Hb. by destruct (s_panic s').
Qed.
Print Assumptions C68_apply_block_returns_refuted.
(** The same for ApplyTransaction: with ten requests waiting for a worker, the eleventh call is in the
    send, and the end of its context does not make it return. *)
Definition ten_tx_calls : list label := flat_map (fun i => [LTxCall demo_tx; LTxSend i]) (seq 0 10).
Theorem C68_apply_transaction_returns_refuted : exists o head lib dur now sched s,
  reaches o head lib dur now sched s /\ tx_call_open 10 s /\ (forall deadline, step o s (LTxTimeout 10 deadline) = None) /\
  step o s (LTxSend 10) = None /\ step o s (LTxRet 10) = None.
Proof.
  set (sched := ten_tx_calls ++ [LTxCall demo_tx]).
  destruct (final_run (fun s => (s_txs s !! 10, length (filter (fun t => tp_phase t = TQueued) (s_txs s)))) demo_opts (sys_init 10 5 five_min 0) sched
    (Some (TxProc demo_tx TSend None None), 10)) as (s & Hr & E); [vm_compute; reflexivity|].
  injection E as E1 E2. exists demo_opts, 10%N, 5%N, five_min, 0%Z, sched, s.
  split; [split; [vm_compute; reflexivity|]; split; [u64s|exact Hr]|]. split_and!.
  - eexists. split; [exact E1|]. done.
  - intros d. unfold step. rewrite E1. by destruct (s_panic s).
  - unfold step. rewrite E1. destruct (s_panic s); [done|]. rewrite bool_decide_false; [done|]. rewrite E2. unfold chan_cap. lia.
  - unfold step. rewrite E1. by destruct (s_panic s).
Qed.
Print Assumptions C68_apply_transaction_returns_refuted.
(** What holds: a call past its send returns as soon as its context ends, in any state that has not
    crashed, also when the dispatcher is gone or stuck. *)
Theorem C68_sent_calls_return_partial : forall o s, s_panic s = false ->
  (forall c cl, s_calls s !! c = Some cl -> cl_phase cl = CWait ->
     exists s', step o s (LTimeout c) = Some s' /\ OReturn (Some c) (k_src (cl_blk cl)) (Some (ESent ErrBlockApplicationTimeout)) ∈ s_log s' /\ ~ block_call_open c s') /\
  (forall i t d, s_txs s !! i = Some t -> tp_phase t <> TSend -> tp_ret t = None ->
     exists s', step o s (LTxTimeout i d) = Some s' /\ ~ tx_call_open i s').
Proof.
  intros o s Hp. split.
  - intros c [k ph buf] Hc Hw. simpl in Hw. subst ph. unfold step. rewrite Hp, Hc. eexists. split; [reflexivity|]. unfold call_return. rewrite Hc. split; [left|].
    intros (cl & Hcl & Hn). simpl in Hcl. rewrite list_lookup_insert in Hcl by (by eapply lookup_lt_Some). injection Hcl as <-. by eapply Hn.
  - intros i [t ph buf ret] d Hi Hph Hret. simpl in *. subst ret. unfold step. rewrite Hp, Hi.
    destruct ph; [done|..]; (eexists; split; [reflexivity|]; intros (t1 & Ht1 & Hr1); simpl in Ht1; rewrite list_lookup_alter, Hi in Ht1; injection Ht1 as <-; done).
Qed.
Print Assumptions C68_sent_calls_return_partial.
Example C68_nonvacuous : exists l2, demo_log (shut_down ++ [LCall (mk "a" 11 "p" 1 ""); LSend 0; LTimeout 0]) =
  Some (OReturn (Some 0) (mk "a" 11 "p" 1 "") (Some (ESent ErrBlockApplicationTimeout)) :: l2).
Proof. eexists. vm_compute. reflexivity. Qed.
