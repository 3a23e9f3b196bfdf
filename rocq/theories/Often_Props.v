(** C120: a block is submitted to the chain no more often than there is occasion for it. *)
From Verif Require Import GoBase Util TxCache_Model Watchdog_Model Applicator_Model Applicator_Spec Applicator_Core Applicator_Sys Applicator_Inv Applicator_Inv6
  Applicator_Props Applicator_Props2 Often_Spec Often_Proofs.

(** C120.  In every reachable state, the submissions of a block made so far, together with the goroutines under way to make one,
    are no more than the occasions there were: calls of ApplyBlock with it, messages of the chain that name its parent (accepted,
    or a head), answers of the chain that its state does not allow the block now, and applications of the parent that ended
    without an error. *)
Theorem C120_submissions_bounded : forall o head lib dur now sched s c p, reaches o head lib dur now sched s -> parent_of c p sched ->
  submissions c (s_log s) + under_way c s <= occasions c p sched (s_log s).
Proof.
  intros o head lib dur now sched s c p (Hl & HW & Hr) HP. pose proof (under_weight c p s) as E.
  assert (E2 := weight_run c p o head lib sched _ _ (Inv_init o head lib dur now Hl) ltac:(intros i cl Hi; discriminate Hi) HW HP Hr).
  unfold occasions. unfold weight in E2 at 2. cbn in E2. lia.
Qed.
Print Assumptions C120_submissions_bounded.
(** In particular: while the chain does not mention the parent, no application of the parent ended well, and the chain did not
    put the block off, the block is submitted at most once for each time it was handed over. *)
Theorem C120_once : forall o head lib dur now sched s c p, reaches o head lib dur now sched s -> parent_of c p sched ->
  (forall b, LAccept b ∈ sched -> str (b_id b) <> p) -> (forall fh, LAnnounce fh ∈ sched -> p ∉ fh_heads fh) ->
  (forall i k res, OResult i k res ∈ s_log s \/ ODelayTimeout i k res ∈ s_log s ->
     (k_id k = c -> is_err_opt res ErrBlockState = false) /\ (k_id k = p -> res <> None)) ->
  submissions c (s_log s) + under_way c s <= calls_with c sched.
Proof.
  intros o head lib dur now sched s c p Hr HP Ha Hf Hres. pose proof (C120_submissions_bounded _ _ _ _ _ _ _ _ _ Hr HP) as E. unfold occasions in E.
  assert (E1 : sum_list_with (answer_event c p) (s_log s) = 0).
  { assert (Ho : forall k res, (k_id k = c -> is_err_opt res ErrBlockState = false) /\ (k_id k = p -> res <> None) -> outcome_of c p k res = 0).
    { intros k res [H1 H2]. unfold outcome_of. destruct (decide (k_id k = c)) as [Hk|Hk].
      - rewrite (H1 Hk), andb_false_r. destruct (decide (k_id k = p)) as [Hq|Hq]; [rewrite (bool_decide_false (res = None)) by auto; by rewrite andb_false_r|by rewrite (bool_decide_false (k_id k = p))].
      - rewrite (bool_decide_false (k_id k = c)) by done. destruct (decide (k_id k = p)) as [Hq|Hq]; [rewrite (bool_decide_false (res = None)) by auto; by rewrite andb_false_r|by rewrite (bool_decide_false (k_id k = p))]. }
    apply sum_zero. intros e He. destruct e; cbn; try done; apply Ho; eapply Hres; [left|right]; exact He. }
  assert (E2 : sum_list_with (outside c p) sched = calls_with c sched); [|lia].
  clear -Ha Hf. unfold calls_with. induction sched as [|lab r IH]; [done|]. cbn [sum_list_with List.filter].
  rewrite IH by (intros ? ?; first [apply Ha|apply Hf]; by right).
  destruct lab; try done; cbn [outside].
  - by destruct (bool_decide _).
  - rewrite sum_zero; [done|]. intros h Hh. rewrite bool_decide_false; [done|]. intros ->. by apply (Hf fh); [left|].
  - rewrite bool_decide_false; [done|]. apply Ha. left.
Qed.
Print Assumptions C120_once.

(** The bound is met: one call, and the chain names the parent as its head again and again while the block is with it.  Each
    message adds one goroutine. *)
Definition kid : block := mk "child" 11 "parent" 1 "".
Definition named : fork_heads := ForkHeads (Some 10%N) ["parent"%string].
Fixpoint again (n : nat) : list label := match n with 0 => [] | S n => LAnnounce named :: LForkHeads 0 none_lost :: again n end.
Definition opening : list label := submit_call 0 kid ++ attempt_at 0 0 ++ [LAnnounce (ForkHeads (Some 10%N) []); LForkHeads 0 none_lost].
Definition request : blk * bool * Z := (Blk kid (hdr 11 "parent" 1), true, 0%Z).
Record ready (s : sys) : Prop := {
  r_on : serving s = true; r_panic : s_panic s = false; r_fh : s_fh s = []; r_lib : c_lib (s_core s) = 10%N;
  r_kids : check_children demo_opts (s_now s) "parent" (s_core s) = [SpawnTry (Blk kid (hdr 11 "parent" 1)) true 0] }.
Lemma again_step s : ready s -> exists s', run demo_opts s [LAnnounce named; LForkHeads 0 none_lost] = Some s' /\ ready s' /\
  s_try s' = s_try s ++ [request] /\ s_att s' = s_att s /\ s_log s' = OLib 10 :: s_log s.
Proof.
  intros [Hon Hp Hf Hl Hk].
  assert (E : handle_fork_heads demo_opts (s_now s) named (s_core s) = Done (Some (s_core s, [SpawnTry (Blk kid (hdr 11 "parent" 1)) true 0%Z]))).
  { unfold handle_fork_heads. cbn [named fh_lib fh_heads map]. rewrite Hl. rewrite (bool_decide_false (10%N = max_u64)) by (vm_compute; discriminate).
    rewrite (bool_decide_false (add64 10 1 <= 10)%N) by (vm_compute; intros H; by apply H). unfold remove_heights. cbn [N.iter].
    assert (Ec : Core (c_highest (s_core s)) 10 (c_byid (s_core s)) (c_byprev (s_core s)) (c_byheight (s_core s)) (c_pending (s_core s)) = s_core s) by (destruct (s_core s); cbn in *; by subst). rewrite Ec, Hk. reflexivity. }
  unfold serving in Hon. unfold run, step. rewrite Hp. cbn [set_fh s_panic s_fh s_loop s_hang]. rewrite Hp. unfold serving. cbn [set_fh s_loop s_hang s_fh]. rewrite Hon, Hf. cbn [app lookup list_lookup negb delete list_delete set_fh s_now s_core]. rewrite E.
  eexists. split; [reflexivity|]. rewrite Hl. split; [|done]. split; cbn; try done.
Qed.
Lemma again_run n : forall s, ready s -> exists s' L, run demo_opts s (again n) = Some s' /\
  s_try s' = s_try s ++ repeat request n /\ s_att s' = s_att s /\ s_log s' = L ++ s_log s /\ forall e, e ∈ L -> e = OLib 10.
Proof.
  induction n as [|n IH]; intros s Hs; cbn [again repeat].
  - exists s, []. rewrite app_nil_r. split_and!; try done. intros e He. by apply elem_of_nil in He.
  - change (LAnnounce named :: LForkHeads 0 none_lost :: again n) with ([LAnnounce named; LForkHeads 0 none_lost] ++ again n). rewrite run_app.
    destruct (again_step s Hs) as (s1 & -> & H1 & T1 & A1 & L1). destruct (IH s1 H1) as (s2 & L & R2 & T2 & A2 & L2 & HL). exists s2, (L ++ [OLib 10]). split; [exact R2|].
    rewrite T2, A2, L2, T1, A1, L1, <- !app_assoc. split_and!; try done. intros e [He|He]%elem_of_app; [by apply HL|]. by apply elem_of_list_singleton in He.
Qed.
Theorem C120_bound_met : forall n, exists sched s, reaches demo_opts 10 5 five_min 0 sched s /\ parent_of "child" "parent" sched /\ calls_with "child" sched = 1 /\
  submissions "child" (s_log s) = 1 /\ under_way "child" s = n /\ occasions "child" "parent" sched (s_log s) = n + 1.
Proof.
  intros n.
  destruct (final_run (fun s => (serving s, s_panic s, s_fh s, c_lib (s_core s), check_children demo_opts (s_now s) "parent" (s_core s), s_try s,
    (sum_list_with (attempt_for "child") (s_att s), submissions "child" (s_log s), sum_list_with (answer_event "child" "parent") (s_log s)))) demo_opts (sys_init 10 5 five_min 0) opening
    (true, false, [], 10%N, [SpawnTry (Blk kid (hdr 11 "parent" 1)) true 0], [], (0, 1, 0))) as (s0 & H0 & E); [vm_compute; reflexivity|].
  injection E as E1 E2 E3 E4 E5 E6 E7 E8 E9. destruct (again_run n s0) as (s & L & Hrun & HT & HA & Hlog & HL); [by split|].
  exists (opening ++ again n), s.
  assert (Hl : forall lab, lab ∈ again n -> lab = LAnnounce named \/ lab = LForkHeads 0 none_lost).
  { clear. induction n as [|n IH]; intros lab Hlab; cbn [again] in Hlab; [by apply elem_of_nil in Hlab|]. apply elem_of_cons in Hlab as [->|Hlab]; [by left|]. apply elem_of_cons in Hlab as [->|Hlab]; [by right|by apply IH]. }
  split_and!.
  - split; [vm_compute; reflexivity|]. split.
    + apply Forall_app_2; [u64s|]. apply Forall_forall. intros lab Hlab. destruct (Hl lab Hlab) as [->| ->]; [intros m Hm; injection Hm as <-; vm_compute; reflexivity|exact I].
    + rewrite run_app, H0. exact Hrun.
  - intros b h [Hb|Hb]%elem_of_app; [|destruct (Hl _ Hb) as [Hx|Hx]; discriminate Hx].
    assert (b = kid) as ->. { unfold opening, submit_call, attempt_at in Hb. cbn [app] in Hb. repeat (apply elem_of_cons in Hb as [Hb|Hb]; [try discriminate Hb; by injection Hb|]). by apply elem_of_nil in Hb. }
    intros [= <-] _. reflexivity.
  - unfold calls_with. rewrite List.filter_app, app_length. assert (E : List.filter (fun lab => match lab with LCall b => bool_decide (str (b_id b) = "child"%string) | _ => false end) (again n) = []).
    { clear. induction n as [|n IH]; [done|]. cbn [again List.filter named]. exact IH. } rewrite E. vm_compute. reflexivity.
  - rewrite Hlog. unfold submissions. rewrite sum_list_with_app, (sum_zero _ L) by (intros e He; by rewrite (HL e He)). exact E8.
  - unfold under_way. rewrite HT, HA, E6, E7, Nat.add_0_r. cbn [app].
    clear. induction n as [|n IH]; [done|]. cbn [repeat sum_list_with]. rewrite IH. reflexivity.
  - rewrite Hlog. unfold occasions. rewrite !sum_list_with_app, (sum_zero (answer_event _ _) L) by (intros e He; by rewrite (HL e He)). rewrite E9.
    assert (E : sum_list_with (outside "child" "parent") opening = 1) by (vm_compute; reflexivity). rewrite E.
    assert (E' : sum_list_with (outside "child" "parent") (again n) = n). { clear. induction n as [|n IH]; [done|]. cbn [again sum_list_with]. rewrite IH. reflexivity. } rewrite E'. lia.
Qed.
Print Assumptions C120_bound_met.
(** Each kind of occasion leads to a submission: the call, the chain's "not now", the parent announced, the parent applied. *)
Example C120_nonvacuous : exists sched s, reaches demo_opts 10 5 five_min 0 sched s /\ calls_with "child" sched = 1 /\
  submissions "child" (s_log s) = 4 /\ occasions "child" "parent" sched (s_log s) = 4.
Proof.
  set (sched := submit_call 0 kid ++ attempt_at 0 0 ++ [LRpcDone 0 (Some (ESent ErrBlockState)); LStatus 0 none_lost] ++ attempt_at 0 1 ++
    [LRpcDone 1 (Some (ESent ErrUnknownPreviousBlock)); LStatus 1 none_lost; LAnnounce (ForkHeads (Some 9%N) ["parent"%string]); LForkHeads 0 none_lost] ++ attempt_at 0 2 ++
    [LRpcDone 2 (Some (ESent ErrUnknownPreviousBlock)); LStatus 2 none_lost] ++ submit_call 1 (mk "parent" 10 "p" 1 "") ++ attempt_at 0 3 ++
    [LRpcDone 3 None; LStatus 3 none_lost] ++ attempt_at 0 4).
  demo demo_opts 10%N 5%N 0%Z sched (fun s => (submissions "child" (s_log s), sum_list_with (answer_event "child" "parent") (s_log s))) (4, 2).
  injection E as E1 E2. exists sched, s. split; [exact Hreach|]. split; [vm_compute; reflexivity|]. split; [exact E1|]. unfold occasions. rewrite E2. vm_compute. reflexivity.
Qed.
