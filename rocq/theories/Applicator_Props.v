(** Property theorems C27-C36 about the block applicator. *)
From Verif Require Import GoBase Util TxCache_Model TxCache_Spec TxCache_Proofs Watchdog_Model
  Applicator_Model Applicator_Spec Applicator_Core Applicator_Sys Applicator_Inv Applicator_Inv2 Applicator_Inv3 Applicator_Inv4
  Applicator_Inv5 Applicator_Inv6 Applicator_Inv7.

(** ** Material for examples: block number [h] of a chain, [id] its id, [prev] its parent, [ts] its time in ms *)
Definition mk (id : string) (h : N) (prev : string) (ts : N) (body : string) : block :=
  Block (Some id) (Some (Header h (Some prev) ts (Some "signer"%string))) [] body.
Definition demo_opts : ap_opts := ApOpts 2 60 (4 * second) (60 * second) 2 minute (50 * millisecond).
Definition none_lost : nat -> bool := fun _ => false.
Definition five_min : Z := 300 * second.
(** Call number [c] with block [b] reaches the dispatcher. *)
Definition submit_call (c : nat) (b : block) : list label := [LCall b; LSend c; LNew none_lost].
(** Attempt [a] is started from request [i] and taken to the chain. *)
Definition attempt_at (i a : nat) : list label := [LTry i; LAttStart a; LTake a; LSubmit a].
Definition demo_log (sched : list label) : option (list event) := final s_log demo_opts (sys_init 10 5 five_min 0) sched.
(** [Hx : e ∈ log] for a concrete log: the events of another kind are excluded. *)
Ltac in_log Hx := repeat (apply elem_of_cons in Hx as [Hx|Hx]; [try discriminate Hx|]); [..|by apply elem_of_nil in Hx].
Ltac u64s := apply u64_checks; vm_compute; reflexivity.

(** C27.  In every reachable state, the blocks being submitted have pairwise different ids, and at most
    ApplicationJobs submissions are in progress. *)
Theorem C27_one_submission_per_id : forall o head lib dur now sched s, reaches o head lib dur now sched s ->
  NoDup (map (fun x => k_id (snd x)) (open_blocks (s_log s))) /\
  length (open_blocks (s_log s)) + length (open_txs (s_log s)) <= ao_jobs o.
Proof.
  intros o head lib dur now sched s Hr. apply reaches_inv in Hr as HI. destruct HI. split; [|by apply open_bound].
  pose proof (op_nodup s v_opn) as Hnd. pose proof (op_blk s v_opn) as Hb.
  assert (Hsub : forall x, x ∈ open_blocks (s_log s) -> s_att s !! fst x = Some (Attempt (snd x) PRpc)) by (intros [i k] Hx; by apply Hb).
  clear Hb. induction (open_blocks (s_log s)) as [|[i k] l IH]; [constructor|].
  simpl in *. apply NoDup_cons in Hnd as [Hn Hnd]. apply NoDup_cons. split; [|apply IH; [done|]; intros x Hx; apply Hsub; by right].
  intros ([j k'] & Heq & Hin)%elem_of_map. simpl in Heq. apply Hn. apply elem_of_map. exists (j, k'). split; [|done]. simpl.
  eapply (at_uniq o s v_atts i j); [apply (Hsub (i, k)); left|apply (Hsub (j, k')); by right|done|done|done].
Qed.
Print Assumptions C27_one_submission_per_id.
Example C27_nonvacuous : exists log, demo_log (submit_call 0 (mk "a" 11 "p" 1 "") ++ submit_call 1 (mk "a" 11 "p" 1 "") ++
    submit_call 2 (mk "b" 11 "p" 1 "") ++ attempt_at 0 0 ++ [LTry 0] ++ attempt_at 0 1) = Some log /\
  map (fun x => k_id (snd x)) (open_blocks log) = ["b"; "a"]%string.
Proof. eexists. split; vm_compute; reflexivity. Qed.

(** The admission of blocks: a block that reaches the dispatcher is answered at once with the error the
    specification [refusal] names, or taken into the pool. *)
Theorem C28_C29_C38_admission : forall o head lib dur now sched s lose s',
  reaches o head lib dur now sched s -> s_cancelled s = false ->
  (max_accepted head (s_log s) + ao_max_delta o < two64)%N -> (ao_max_pending o < 2 ^ 63)%N ->
  step o s (LNew lose) = Some s' ->
  exists c rest cl, s_new s = c :: rest /\ s_calls s !! c = Some cl /\ s_new s' = rest /\
    match refusal o head lib (s_log s) (size (held_ids s)) (cl_blk cl) with
    | Some e => s_log s' = OAnswer c (Some (ESent e)) :: s_log s /\ s_core s' = s_core s /\ s_try s' = s_try s
    | None => s_log s' = s_log s /\ exists k cs, held s' (k_id (cl_blk cl)) k cs /\ c ∈ cs
    end.
Proof. exact admission_step. Qed.
Print Assumptions C28_C29_C38_admission.

(** C28.  Never more than MaxPendingBlocks blocks are held; a further one is refused (the admission
    theorem).  No condition on the option but being a uint64. *)
Theorem C28_pool_bounded : forall o head lib dur now sched s, (ao_max_pending o < two64)%N ->
  reaches o head lib dur now sched s -> (N.of_nat (size (held_ids s)) <= ao_max_pending o)%N.
Proof.
  intros o head lib dur now sched s Hm Hr. apply reaches_inv in Hr as HI. pose proof (pl_size _ _ (v_pool _ _ _ _ HI)) as Hs.
  unfold held_ids. rewrite size_dom. unfold two64 in Hm.
  assert (Z.max 0 (wrap_i64 (Z.of_N (ao_max_pending o))) <= Z.of_N (ao_max_pending o))%Z; [|lia].
  destruct (decide (ao_max_pending o < 2 ^ 63)%N); [rewrite wrap_small; lia|].
  assert (wrap_i64 (Z.of_N (ao_max_pending o)) < 0)%Z; [|lia]. unfold wrap_i64.
  replace (Z.of_N (ao_max_pending o) + 2 ^ 63)%Z with (Z.of_N (ao_max_pending o) - 2 ^ 63 + 1 * 2 ^ 64)%Z by lia.
  rewrite Z.mod_add by lia. rewrite Z.mod_small by lia. lia.
Qed.
Print Assumptions C28_pool_bounded.
Theorem C28_full_pool_refuses : forall o head lib dur now sched s lose s' c rest cl,
  reaches o head lib dur now sched s -> s_cancelled s = false ->
  (max_accepted head (s_log s) + ao_max_delta o < two64)%N -> (ao_max_pending o < 2 ^ 63)%N ->
  N.of_nat (size (held_ids s)) = ao_max_pending o -> s_new s = c :: rest -> s_calls s !! c = Some cl ->
  (k_height (cl_blk cl) <= max_accepted head (s_log s) + ao_max_delta o)%N ->
  step o s (LNew lose) = Some s' ->
  s_log s' = OAnswer c (Some (ESent ErrMaxPendingBlocks)) :: s_log s /\ held_ids s' = held_ids s.
Proof.
  intros o head lib dur now sched s lose s' c rest cl Hr Hc Ho Hm Hfull Hn Hcl Hh Hst.
  destruct (admission_step _ _ _ _ _ _ _ _ _ Hr Hc Ho Hm Hst) as (c' & rest' & cl' & E1 & E2 & _ & Hx).
  rewrite Hn in E1. injection E1 as <- <-. rewrite Hcl in E2. injection E2 as <-. unfold refusal in Hx.
  rewrite bool_decide_false in Hx by lia. rewrite bool_decide_true in Hx by lia. destruct Hx as (E3 & E4 & _).
  split; [done|]. unfold held_ids. by rewrite E4.
Qed.
Print Assumptions C28_full_pool_refuses.
Definition full_pool : list label := submit_call 0 (mk "a" 11 "p" 1 "") ++ submit_call 1 (mk "b" 12 "a" 1 "").
Example C28_nonvacuous :
  final (fun s => size (held_ids s)) demo_opts (sys_init 10 5 five_min 0) full_pool = Some 2 /\
  demo_log (full_pool ++ submit_call 2 (mk "c" 13 "b" 1 "")) = Some [OAnswer 2 (Some (ESent ErrMaxPendingBlocks))] /\
  demo_log (submit_call 0 (mk "a" 71 "p" 1 "")) = Some [OAnswer 0 (Some (ESent ErrMaxHeight))] /\
  demo_log (submit_call 0 (mk "a" 5 "p" 1 "")) = Some [OAnswer 0 (Some (ESent ErrBlockIrreversibility))] /\
  demo_log (submit_call 0 (mk "a" 70 "p" 1 "")) = Some [].
Proof. repeat split; vm_compute; reflexivity. Qed.

(** C29.  Every held block is above the LIB (unless a LIB of 2^64-1 was processed, see C40) and within
    the height window.  Blocks outside are refused: the admission theorem above. *)
Theorem C29_held_in_window : forall o head lib dur now sched s id k cs,
  reaches o head lib dur now sched s -> held s id k cs ->
  (OLib max_u64 ∉ s_log s -> (last_lib lib (s_log s) < k_height k)%N) /\
  (k_height k <= max_accepted head (s_log s) + ao_max_delta o)%N.
Proof.
  intros o head lib dur now sched s id k cs Hr Hh. apply reaches_inv in Hr as HI. split.
  - intros Hn. rewrite <- (j_lib _ _ (v_just _ _ _ _ HI)). apply (pl_lib _ _ (v_pool _ _ _ _ HI)) with (id := id) (e := Entry k cs); [|done].
    destruct (s_hang s) eqn:E; [|done]. exfalso. eapply Hn, hang_lib; eauto.
  - rewrite <- (v_high _ _ _ _ HI). apply (pl_win _ _ (v_pool _ _ _ _ HI) id (Entry k cs) Hh).
Qed.
Print Assumptions C29_held_in_window.
Example C29_nonvacuous : final (fun s => (elements (held_ids s), c_lib (s_core s), s_log s)) demo_opts (sys_init 10 5 five_min 0)
   (submit_call 0 (mk "a" 6 "p" 1 "") ++ submit_call 1 (mk "b" 70 "x" 1 "")) = Some (["b"; "a"]%string, 5%N, []).
Proof. vm_compute. reflexivity. Qed.

(** C30.  The by-parent and by-height indexes list exactly the held blocks, with no empty entry. *)
Theorem C30_indexes_agree : forall o head lib dur now sched s, reaches o head lib dur now sched s ->
  (forall parent id, (exists ids, c_byprev (s_core s) !! parent = Some ids /\ id ∈ ids) <-> exists k cs, held s id k cs /\ k_prev k = parent) /\
  (forall height id, (exists ids, c_byheight (s_core s) !! height = Some ids /\ id ∈ ids) <-> exists k cs, held s id k cs /\ k_height k = height) /\
  (forall parent ids, c_byprev (s_core s) !! parent = Some ids -> ids <> ∅) /\
  (forall height ids, c_byheight (s_core s) !! height = Some ids -> ids <> ∅) /\
  (forall id k cs, held s id k cs -> k_id k = id).
Proof.
  intros o head lib dur now sched s Hr. apply reaches_inv in Hr as HI. destruct (a_ok s (v_acc _ _ _ _ HI)) as [O1 O2 O3 O4 O5].
  assert (Hx : forall (Q : blk -> Prop) id, (exists e, c_byid (s_core s) !! id = Some e /\ Q (e_blk e)) <-> exists k cs, held s id k cs /\ Q k).
  { intros Q id. unfold held. split; [intros ([k cs] & ? & ?)|intros (k & cs & ? & ?)]; eauto. }
  split_and!.
  - intros parent id. rewrite (O1 parent id). apply (Hx (fun k => k_prev k = parent)).
  - intros height id. rewrite (O2 height id). apply (Hx (fun k => k_height k = height)).
  - exact O3.
  - exact O4.
  - intros id k cs Hh. apply (O5 id (Entry k cs) Hh).
Qed.
Print Assumptions C30_indexes_agree.
Example C30_nonvacuous : final (fun s => (map_to_list (elements <$> c_byprev (s_core s)), map_to_list (elements <$> c_byheight (s_core s))))
    (ApOpts 5 60 (4 * second) (60 * second) 2 minute (50 * millisecond)) (sys_init 10 5 five_min 0)
    (full_pool ++ submit_call 2 (mk "c" 12 "a" 1 "") ++ [LAnnounce (ForkHeads (Some 11%N) []); LForkHeads 0 none_lost]) =
  Some ([("a", ["b"; "c"])]%string, [(12%N, ["b"; "c"]%string)]).
Proof. vm_compute. reflexivity. Qed.

(** C31.  Each call is answered at most once, nothing panics on complete inputs, and until shutdown a
    call that was sent and is not answered is in the queue or attached to exactly one held block, the
    one with the id of its own. *)
Theorem C31_answers : forall o head lib dur now sched s, reaches o head lib dur now sched s ->
  (forall c, length (answers_to c (s_log s)) <= 1) /\
  ((0 <= dur < max_i64)%Z -> Forall complete_label sched -> s_panic s = false) /\
  (s_cancelled s = false -> forall c cl, s_calls s !! c = Some cl -> cl_phase cl <> CSend -> answers_to c (s_log s) = [] ->
     (c ∈ s_new s /\ forall id k cs, held s id k cs -> c ∉ cs) \/
     (c ∉ s_new s /\ (exists k cs, held s (k_id (cl_blk cl)) k cs /\ c ∈ cs) /\
        forall id k cs, held s id k cs -> c ∈ cs -> id = k_id (cl_blk cl))).
Proof.
  intros o head lib dur now sched s Hr. apply reaches_inv in Hr as HI. pose proof (v_acc _ _ _ _ HI) as HA. split_and!.
  - intros c. apply answers_nodup, HA.
  - intros Hd Hc. by eapply reaches_no_panic.
  - intros Hcan c cl Hcl Hph Han.
    assert (Hb : cl_buf cl = None).
    { destruct (cl_buf cl) as [r|] eqn:E; [|done]. exfalso. eapply answers_none; [exact Han|]. apply (a_log s HA). eauto. }
    pose proof (a_held s HA Hcan c cl Hcl Hph Hb) as Hw. pose proof (a_nodup s HA) as Hnd.
    unfold waiting in *. apply NoDup_app in Hnd as (_ & Hd & _). apply elem_of_app in Hw as [Hw|Hw].
    + left. split; [done|]. intros id k cs Hh Hin. apply (Hd c Hw), elem_all_chans. exists id, (Entry k cs). done.
    + assert (Hid : forall id k cs, held s id k cs -> c ∈ cs -> id = k_id (cl_blk cl)).
      { intros id k cs Hh Hin. destruct (a_ids s HA id _ c Hh Hin) as (cl' & Hcl' & <-). congruence. }
      right. split_and!; [intros Hn; by apply (Hd c Hn)| |done].
      apply elem_all_chans in Hw as (id & [k cs] & Hh & Hin). rewrite (Hid id k cs Hh Hin) in Hh. eauto.
Qed.
Print Assumptions C31_answers.
Definition two_callers : list label := submit_call 0 (mk "a" 11 "p" 1 "") ++ submit_call 1 (mk "a" 11 "p" 1 "") ++ [LCall (mk "b" 12 "a" 1 ""); LSend 2].
Example C31_nonvacuous :
  final (fun s => (s_new s, (fun e => e_chans e) <$> c_byid (s_core s) !! "a"%string, s_log s)) demo_opts (sys_init 10 5 five_min 0) two_callers = Some ([2], Some [0; 1], []) /\
  option_map (fun l => (answers_to 0 l, answers_to 1 l)) (demo_log (two_callers ++ attempt_at 0 0 ++ [LRpcDone 0 None; LStatus 0 none_lost])) = Some ([None], [None]).
Proof. split; vm_compute; reflexivity. Qed.
(** Without a header the node crashes (a nil dereference in the caller's goroutine). *)
Example C31_missing_header_panics : final s_panic demo_opts (sys_init 10 5 five_min 0) [LCall (Block (Some "a"%string) None [] "")] = Some true.
Proof. vm_compute. reflexivity. Qed.

(** C32, REFUTED as stated: the LIB can advance between the check and the submission, so a block at or
    below the LIB known at that moment is submitted. *)
Theorem C32_submits_only_above_lib_refuted : exists o head lib dur now sched s i k t rest,
  reaches o head lib dur now sched s /\ s_cancelled s = false /\ s_log s = OSubmit i k t :: rest /\ (k_height k <= last_lib lib rest)%N.
Proof.
  set (sched := submit_call 0 (mk "a" 11 "p" 1 "") ++ [LTry 0; LAttStart 0; LTake 0; LAnnounce (ForkHeads (Some 20%N) []); LForkHeads 0 none_lost; LSubmit 0]).
  destruct (final_run (fun s => (s_log s, s_cancelled s)) demo_opts (sys_init 10 5 five_min 0) sched
    (let k := Blk (mk "a" 11 "p" 1 "") (Header 11 (Some "p"%string) 1 (Some "signer"%string)) in
     [OSubmit 0 k 0; OAnswer 0 (Some (ESent ErrBlockIrreversibility)); OLib 20; OTake 0 k 5], false)) as (s & Hr & E); [vm_compute; reflexivity|].
  injection E as Elog Ec. exists demo_opts, 10%N, 5%N, five_min, 0%Z, sched, s. eexists _, _, _, _.
  split; [|split; [exact Ec|split; [exact Elog|vm_compute; discriminate]]].
  split; [done|]. split; [|exact Hr]. u64s.
Qed.
Print Assumptions C32_submits_only_above_lib_refuted.
(** What holds: every submission is preceded by a check of that very attempt against the LIB that was
    the latest processed one at the check. *)
Theorem C32_checked_before_submission_partial : forall o head lib dur now sched s, reaches o head lib dur now sched s ->
  forall l1 i k t l2, s_log s = l1 ++ OSubmit i k t :: l2 ->
  exists l3 l4, l2 = l3 ++ OTake i k (last_lib lib l4) :: l4 /\ (last_lib lib l4 < k_height k)%N.
Proof.
  intros o head lib dur now sched s Hr l1 i k t l2 Hlog. apply reaches_inv in Hr as HI.
  pose proof (j_hist _ _ (v_just _ _ _ _ HI)) as Hh.
  destruct (Hist_split _ _ _ _ _ Hh Hlog) as (l & Hin & Hlt). apply elem_of_list_split in Hin as (l3 & l4 & ->).
  assert (l = last_lib lib l4) as ->; [|eauto].
  eapply (Hist_split _ _ (l1 ++ OSubmit i k t :: l3) (OTake i k l) l4 Hh). rewrite Hlog. repeat (rewrite <- app_assoc; simpl). reflexivity.
Qed.
Print Assumptions C32_checked_before_submission_partial.
(** In particular the claim holds whenever no new LIB was processed between check and submission. *)
Theorem C32_no_lib_in_between_partial : forall o head lib dur now sched s, reaches o head lib dur now sched s ->
  forall l1 i k t l2, s_log s = l1 ++ OSubmit i k t :: l2 ->
  (forall l3 l l4, l2 = l3 ++ OTake i k l :: l4 -> forall x, OLib x ∉ l3) -> (last_lib lib l2 < k_height k)%N.
Proof.
  intros o head lib dur now sched s Hr l1 i k t l2 Hlog Hno.
  destruct (C32_checked_before_submission_partial _ _ _ _ _ _ _ Hr _ _ _ _ _ Hlog) as (l3 & l4 & E & Hlt).
  specialize (Hno _ _ _ E). subst l2. clear Hlog. induction l3 as [|e l3 IH]; [done|]. simpl.
  assert (Hx : forall x, OLib x ∉ l3) by (intros x Hx; apply (Hno x); by right).
  destruct e; try (by apply IH). exfalso. apply (Hno lib0). left.
Qed.
Print Assumptions C32_no_lib_in_between_partial.

(** C33, REFUTED as stated: an attempt at a block with a timestamp far in the future gives up after
    DelayTimeout and reports nil, so ApplyBlock returns success for a block never submitted. *)
Definition future_block : block := mk "a" 11 "p" 1000000000 "".
Theorem C33_success_means_accepted_refuted : exists o head lib dur now sched s c,
  reaches o head lib dur now sched s /\ s_cancelled s = false /\ OReturn (Some c) future_block None ∈ s_log s /\
  (forall i k t, OSubmit i k t ∉ s_log s) /\ (forall b t, OAccepted b t ∉ s_log s).
Proof.
  set (sched := submit_call 0 future_block ++ [LTry 0; LAttStart 0; LTick 61000000000; LAttDelayTimeout 0; LStatus 0 none_lost; LRet 0]).
  destruct (final_run (fun s => (s_log s, s_cancelled s)) demo_opts (sys_init 10 5 five_min 0) sched
    (let k := Blk future_block (Header 11 (Some "p"%string) 1000000000 (Some "signer"%string)) in
     [OReturn (Some 0) future_block None; OAnswer 0 None; OStatus 0 k None; ODelayTimeout 0 k None], false)) as (s & Hr & E); [vm_compute; reflexivity|].
  injection E as Elog Ec. exists demo_opts, 10%N, 5%N, five_min, 0%Z, sched, s, 0. rewrite Elog.
  split; [split; [done|]; split; [u64s|exact Hr]|]. clear Hr Elog.
  split; [exact Ec|]. split; [left|]. split; [intros i k t Hx|intros b t Hx]; in_log Hx.
Qed.
Print Assumptions C33_success_means_accepted_refuted.
(** What holds: a nil result means that before, the chain accepted a submitted block with that id, or an
    attempt at a block with that id hit the delay timeout. *)
Theorem C33_success_partial : forall o head lib dur now sched s, reaches o head lib dur now sched s ->
  forall l1 c b l2, s_log s = l1 ++ OReturn c b None :: l2 ->
  exists i k, k_id k = str (b_id b) /\ (OResult i k None ∈ l2 /\ (exists t, OSubmit i k t ∈ s_log s) \/ ODelayTimeout i k None ∈ l2).
Proof.
  intros o head lib dur now sched s Hr l1 c b l2 Hlog. apply reaches_inv in Hr as HI. pose proof (v_just _ _ _ _ HI) as HJ.
  destruct c as [c|]; [|by specialize (Hist_split _ _ _ _ _ (j_hist _ _ HJ) Hlog)].
  destruct (j_hist2 _ _ HJ _ _ _ _ _ Hlog) as (_ & [?|(_ & Hre)]); [done|].
  destruct Hre as [?|[?|[(? & _)|(i & k & Hst & Hid & _)]]]; [done|done|done|]. exists i, k. split; [done|].
  apply elem_of_list_split in Hst as (l3 & l4 & ->).
  assert (Hwhy : why l4 i k None).
  { eapply (Hist_split _ _ (l1 ++ OReturn (Some c) b None :: l3) (OStatus i k None) l4 (j_hist _ _ HJ)). rewrite Hlog. repeat (rewrite <- app_assoc; simpl). reflexivity. }
  destruct Hwhy as [Hres|[?|(? & _)]]; [left|right; set_solver|done]. split; [set_solver|].
  apply elem_of_list_split in Hres as (l5 & l6 & ->).
  destruct (Hist_split _ _ (l1 ++ OReturn (Some c) b None :: l3 ++ OStatus i k None :: l5) (OResult i k None) l6 (j_hist _ _ HJ)) as (t & Ht).
  { rewrite Hlog. repeat (rewrite <- app_assoc; simpl). reflexivity. }
  exists t. rewrite Hlog. set_solver.
Qed.
Print Assumptions C33_success_partial.
(** Hence the claim itself for callers that pass only blocks whose timestamp is at most DelayThreshold
    after the start of the applicator. *)
Theorem C33_success_for_past_blocks_partial : forall o head lib dur now sched s, reaches o head lib dur now sched s ->
  Forall (stamped_by (now + ao_delay_threshold o)) sched ->
  forall l1 c b l2, s_log s = l1 ++ OReturn c b None :: l2 ->
  exists i k, k_id k = str (b_id b) /\ OResult i k None ∈ l2 /\ exists t, OSubmit i k t ∈ s_log s.
Proof.
  intros o head lib dur now sched s Hr Hst l1 c b l2 Hlog.
  assert (HP : Past o now s) by (eapply reaches_past; [|exact Hr]; eapply Forall_impl; [exact Hst|]; intros ?; apply stamped_past).
  destruct (C33_success_partial _ _ _ _ _ _ _ Hr _ _ _ _ Hlog) as (i & k & Hid & [(? & ?)|Hx]); [eauto 10|].
  exfalso. eapply (ps_log _ _ _ HP). rewrite Hlog. apply elem_of_app. right. right. exact Hx.
Qed.
Print Assumptions C33_success_for_past_blocks_partial.
Definition happy_path : list label := submit_call 0 (mk "a" 11 "p" 4000 "") ++ attempt_at 0 0 ++ [LRpcDone 0 None; LStatus 0 none_lost; LRet 0].
Example C33_nonvacuous : (exists k l2, demo_log happy_path = Some (OReturn (Some 0) (mk "a" 11 "p" 4000 "") None :: l2) /\ OResult 0 k None ∈ l2) /\
  Forall (stamped_by (0 + ao_delay_threshold demo_opts)) happy_path.
Proof.
  split; [|apply stamped_checks; vm_compute; reflexivity]. eexists _, _. split; [vm_compute; reflexivity|]. right. right. left.
Qed.

(** C34.  Every error ApplyBlock returns: the caller's timeout, the fork watchdog, one of the three
    refusals (irreversibility with a LIB that was really known), the shutdown, or an error the chain
    returned for a block with that id; never a transient chain error. *)
Theorem C34_errors_accounted : forall o head lib dur now sched s, reaches o head lib dur now sched s ->
  forall l1 c b e l2, s_log s = l1 ++ OReturn c b (Some e) :: l2 ->
  ~ transient (Some e) /\
  (c = None /\ e = ESent ErrForkBomb \/
   e = ESent ErrBlockApplicationTimeout \/ e = ESent ErrMaxHeight \/ e = ESent ErrMaxPendingBlocks \/
   (e = ESent ErrBlockIrreversibility /\ exists k l, k_id k = str (b_id b) /\ (k_height k <= l)%N /\ (l = lib \/ OLib l ∈ l2)) \/
   (e = ESent CtxCanceled /\ s_cancelled s = true) \/
   (exists i k, k_id k = str (b_id b) /\ OResult i k (Some e) ∈ l2)).
Proof.
  intros o head lib dur now sched s Hr l1 c b e l2 Hlog. apply reaches_inv in Hr as HI. pose proof (v_just _ _ _ _ HI) as HJ.
  assert (Hnt : forall x, x <> ErrBlockState -> x <> ErrUnknownPreviousBlock -> ~ transient (Some (ESent x))).
  { intros x H1 H2 [H|H]; simpl in H; apply bool_decide_eq_true in H; done. }
  destruct c as [c|].
  2: { specialize (Hist_split _ _ _ _ _ (j_hist _ _ HJ) Hlog) as [= ->]. split; [by apply Hnt|by left]. }
  destruct (j_hist2 _ _ HJ _ _ _ _ _ Hlog) as (_ & [[= ->]|(_ & Hre)]); [split; [by apply Hnt|tauto]|].
  destruct Hre as [[= ->]|[[= ->]|[([= ->] & k & l & Hid & Hle & Hs)|(i & k & Hst & Hid & Hn)]]]; [split; [by apply Hnt|tauto]..| |].
  - split; [by apply Hnt|]. right; right; right; right; left. split; [done|]. exists k, l. done.
  - split; [done|]. apply elem_of_list_split in Hst as (l3 & l4 & ->).
    assert (Hlog' : s_log s = (l1 ++ OReturn (Some c) b (Some e) :: l3) ++ OStatus i k (Some e) :: l4) by (rewrite Hlog; repeat (rewrite <- app_assoc; simpl); reflexivity).
    destruct (Hist_split _ _ _ _ _ (j_hist _ _ HJ) Hlog') as [Hres|[Hd|([= ->] & l & Htk & Hle)]].
    + do 6 right. exists i, k. split; [done|]. set_solver.
    + do 5 right; left. split.
      * apply elem_of_list_split in Hd as (l5 & l6 & ->).
        assert (Hlog2 : s_log s = (l1 ++ OReturn (Some c) b (Some e) :: l3 ++ OStatus i k (Some e) :: l5) ++ ODelayTimeout i k (Some e) :: l6).
        { rewrite Hlog. repeat (rewrite <- app_assoc; simpl). reflexivity. }
        destruct (Hist_split _ _ _ _ _ (j_hist _ _ HJ) Hlog2) as [?|Hx]; [done|congruence].
      * eapply (delay_cancelled _ _ _ _ _ _ _ i k e); [exact Hr|]. rewrite Hlog'. apply elem_of_app. right. right. exact Hd.
    + do 4 right; left. split; [done|]. exists k, l. split_and!; [done|done|].
      apply elem_of_list_split in Htk as (l5 & l6 & ->).
      assert (Hlog2 : s_log s = (l1 ++ OReturn (Some c) b irr :: l3 ++ OStatus i k irr :: l5) ++ OTake i k l :: l6).
      { rewrite Hlog. repeat (rewrite <- app_assoc; simpl). reflexivity. }
      rewrite (Hist_split _ _ _ _ _ (j_hist _ _ HJ) Hlog2).
      destruct (last_lib_seen lib l6) as [->|?]; [by left|right]. set_solver.
Qed.
Print Assumptions C34_errors_accounted.
(** A transient error keeps the caller waiting; the error of a later attempt is returned. *)
Example C34_nonvacuous : exists l2, demo_log (submit_call 0 (mk "a" 11 "p" 1 "") ++ attempt_at 0 0 ++
    [LRpcDone 0 (Some (ESent ErrBlockState)); LStatus 0 none_lost] ++ attempt_at 0 1 ++
    [LRpcDone 1 (Some (EOther "bad merkle root")); LStatus 1 none_lost; LRet 0]) =
  Some (OReturn (Some 0) (mk "a" 11 "p" 1 "") (Some (EOther "bad merkle root")) :: l2).
Proof. eexists. vm_compute. reflexivity. Qed.

(** C35, REFUTED as stated: of two different blocks with one id only the first is submitted, and both
    callers get its result. *)
Definition good_block : block := mk "a" 11 "p" 1 "good".
Definition evil_block : block := mk "a" 11 "p" 1 "evil".
Theorem C35_fate_of_own_block_refuted : exists o head lib dur now sched s,
  reaches o head lib dur now sched s /\ s_cancelled s = false /\ OReturn (Some 1) evil_block None ∈ s_log s /\
  (forall i k t, OSubmit i k t ∈ s_log s -> k_src k = good_block) /\ good_block <> evil_block.
Proof.
  set (sched := submit_call 0 good_block ++ submit_call 1 evil_block ++ attempt_at 0 0 ++ [LRpcDone 0 None; LStatus 0 none_lost; LRet 1]).
  destruct (final_run (fun s => (s_log s, s_cancelled s)) demo_opts (sys_init 10 5 five_min 0) sched
    (let k := Blk good_block (Header 11 (Some "p"%string) 1 (Some "signer"%string)) in
     [OReturn (Some 1) evil_block None; OAnswer 1 None; OAnswer 0 None; OStatus 0 k None; OResult 0 k None; OSubmit 0 k 0; OTake 0 k 5], false))
    as (s & Hr & E); [vm_compute; reflexivity|].
  injection E as Elog Ec. exists demo_opts, 10%N, 5%N, five_min, 0%Z, sched, s. rewrite Elog.
  split; [split; [done|]; split; [u64s|exact Hr]|]. clear Hr Elog.
  split; [exact Ec|]. split; [left|]. split; [|discriminate].
  intros i k t Hx. in_log Hx. injection Hx as -> -> ->. reflexivity.
Qed.
Print Assumptions C35_fate_of_own_block_refuted.
(** What holds: when all blocks passed in under one id are equal, a nil result is about that block. *)
Theorem C35_fate_of_own_block_partial : forall o head lib dur now sched s, reaches o head lib dur now sched s ->
  (forall b b', LCall b ∈ sched -> LCall b' ∈ sched -> str (b_id b) = str (b_id b') -> b = b') ->
  forall c b r, OReturn (Some c) b r ∈ s_log s -> forall i k r', OResult i k r' ∈ s_log s -> k_id k = str (b_id b) -> k_src k = b.
Proof.
  intros o head lib dur now sched s Hr Huniq c b r Hret i k r' Hres Hid. pose proof (reaches_from _ _ _ _ _ _ _ Hr) as HF.
  destruct (j_ret _ _ (v_just _ _ _ _ (reaches_inv _ _ _ _ _ _ _ Hr)) c b r Hret) as (cl & Hcl & _ & ->).
  apply Huniq; [by eapply (fr_res _ _ HF)|by eapply (fr_calls _ _ HF)|done].
Qed.
Print Assumptions C35_fate_of_own_block_partial.
Example C35_nonvacuous : exists l2 k, demo_log (submit_call 0 good_block ++ submit_call 1 good_block ++ attempt_at 0 0 ++ [LRpcDone 0 None; LStatus 0 none_lost; LRet 1]) =
  Some (OReturn (Some 1) good_block None :: l2) /\ OResult 0 k None ∈ l2.
Proof. eexists _, _. split; [vm_compute; reflexivity|]. do 3 right. left. Qed.

(** C36.  When the applicator learns that block [id] was accepted, each held block naming it as its
    parent has an attempt scheduled at once. *)
Theorem C36_children_scheduled : forall o head lib dur now sched s lab s' id cid k cs,
  reaches o head lib dur now sched s -> step o s lab = Some s' -> s_panic s' = false -> s_hang s' = false ->
  reports s lab id -> held s' cid k cs -> k_prev k = id -> exists force, (k, force, s_now s) ∈ s_try s'.
Proof.
  intros o head lib dur now sched s lab s' id cid k cs Hr Hst Hp Hg Hrep Hh Hpr. eexists.
  eapply reported_children; eauto. by eapply reaches_inv.
Qed.
Print Assumptions C36_children_scheduled.
(** A held block leaves only by the final status of an attempt at it, or when the LIB passes it: a block
    whose parent is unknown stays. *)
Theorem C36_blocks_stay : forall o head lib dur now sched s lab s' id k cs,
  reaches o head lib dur now sched s -> step o s lab = Some s' -> held s id k cs -> id ∉ held_ids s' ->
  (exists i lose k' res, lab = LStatus i lose /\ s_att s !! i = Some (Attempt k' (PStatus res)) /\ k_id k' = id /\ ~ transient res) \/
  (exists i lose fh l, lab = LForkHeads i lose /\ s_fh s !! i = Some fh /\ fh_lib fh = Some l /\ (k_height k <= l)%N).
Proof. intros o head lib dur now sched s lab s' id k cs Hr. eapply leaves_step. by eapply reaches_inv. Qed.
Print Assumptions C36_blocks_stay.
(** A scheduled attempt can be started by the dispatcher as soon as no other attempt at the id is in
    flight. *)
Theorem C36_scheduled_attempt_starts : forall o s i k force t,
  serving s = true -> s_panic s = false -> s_try s !! i = Some (k, force, t) -> (t <= s_now s)%Z -> k_id k ∉ c_pending (s_core s) ->
  exists s', step o s (LTry i) = Some s' /\ s_att s' = s_att s ++ [Attempt k PStart].
Proof.
  intros o s i k force t Hs Hp Hi Ht Hn. unfold step. rewrite Hp, Hs, Hi. simpl. rewrite bool_decide_true by done.
  unfold handle_try. rewrite bool_decide_false by done. eexists. split; [reflexivity|]. done.
Qed.
Print Assumptions C36_scheduled_attempt_starts.
Definition waiting_child : list label := submit_call 0 (mk "child" 12 "parent" 1 "") ++ [LAccept (mk "parent" 11 "p" 1 "")].
Example C36_nonvacuous :
  final (fun s => (elements (held_ids s), s_try s)) demo_opts (sys_init 10 5 five_min 0) waiting_child = Some (["child"]%string, []) /\
  final (fun s => map (fun x => (k_id (x.1.1), x.2)) (s_try s)) demo_opts (sys_init 10 5 five_min 0) (waiting_child ++ [LBroadcast 0]) = Some [("child"%string, 0%Z)].
Proof. split; vm_compute; reflexivity. Qed.
