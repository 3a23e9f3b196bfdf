(** Property theorems: C100, C101, C102, C103. *)
From Verif Require Import GoBase Util TxCache_Model TxCache_Spec TxCache_Proofs Watchdog_Model
  Applicator_Model Applicator_Spec Applicator_Core Applicator_Sys Applicator_Inv Applicator_Inv2 Applicator_Inv3 Applicator_Inv4
  Applicator_Inv5 Applicator_Inv6 Applicator_Inv7 Applicator_Props Deliver_Spec Deliver_Proofs Deliver_Props Rest_Spec Rest_Proofs
  Honest_Spec Honest_Proofs Honest_Proofs2 Honest_Props Boot_Model Boot_Spec Boot_Proofs.

(** ** C100 *)
(** C100, first part.  If the chain got no block between the making of the applicator and the subscription to its broadcasts,
    then everything is as if the applicator had watched the chain all along: however the rest of the start went, a chain of
    valid blocks on a block that the chain has (also one that it got during the start) is delivered. *)
Theorem C100_no_gap_partial : forall judge o dur now root head lib ls x w parent h ks,
  good_dur dur -> (forall l, lib = Some l -> (l < two64)%N) -> Forall bu64 ls -> Forall bcomplete ls ->
  boot_run judge o dur now (boot_init root head lib) ls = Some x -> bo_world x = Some w -> bo_missed x = [] ->
  running (w_s w) -> wrest w -> (bo_head x + ao_max_delta o + 1 < two64)%N -> (ao_max_pending o < 2 ^ 63)%N ->
  successors parent h ks -> parent ∈ w_chain w -> (parent ∈ bo_chain x -> (h <= bo_head x)%N) ->
  along judge o (welcome o (bo_head x) parent h ks) (world_init (bo_chain x) (bo_head x) (bo_lib0 x) dur now) (heard judge o dur now (boot_init root head lib) ls) ->
  (forall k, k ∈ ks -> passed (w_s w) k /\ judge k = None /\ ((k_height k <= bo_lib0 x)%N -> k_id k ∈ bo_chain x) /\ (k_id k ∈ bo_chain x -> (k_height k <= bo_head x)%N) /\ recent o (s_now (w_s w)) k) ->
  forall k, k ∈ ks -> k_id k ∈ w_chain w /\ k_id k ∉ held_ids (w_s w) /\
    forall c cl, s_calls (w_s w) !! c = Some cl -> cl_blk cl = k -> cl_phase cl = CRet None \/ cl_phase cl = CRet (Some (ESent ErrBlockApplicationTimeout)) \/
      (cl_phase cl = CRet (Some (ESent ErrBlockIrreversibility)) /\ irreversible (bo_lib0 x) (s_log (w_s w)) (k_height k)).
Proof.
  intros judge o dur now root head lib ls x w parent h ks Hd Hlib Hu Hc Hr Hw Hm Hrun Hrest Hlow Hpend Hsucc Hpar Hh Hwel Hks.
  pose proof (boot_world judge o dur now root head lib ls x w Hlib Hu Hc Hr Hw Hm) as Hre.
  apply (C99_chain_delivered_partial judge o (bo_chain x) (bo_head x) (bo_lib0 x) dur now _ w parent h ks Hd Hre Hrun Hrest Hlow Hpend Hsucc Hpar Hh Hwel).
  intros k Hk. destruct (Hks k Hk) as (H1 & H2 & H3 & H4 & H5). split_and!; auto.
Qed.
Print Assumptions C100_no_gap_partial.

(** C100, second part.  In any run (so also if broadcasts were missed): a block that waits in the pool is applied once its
    parent is reported, be it by a broadcast or because the parent was handed over again and found to be in the chain. *)
Theorem C100_parent_again_partial : forall D o root head lib dur now sched s more s' k cs,
  reaches o head lib dur now sched s -> s_panic s = false -> held s (k_id k) k cs ->
  Forall u64_label more -> run o s more = Some s' -> running s' -> settled s' -> truthful D root (s_log s') -> no_refusal D s' -> ids_distinct D s' ->
  (max_accepted head (s_log s') + 1 < two64)%N -> D (k_id k) -> D (k_prev k) ->
  recent o (s_now s') k \/ in_order root (s_log s') k -> reported k (s_log s) (s_log s') ->
  applied (s_log s') (k_id k).
Proof.
  intros D o root head lib dur now sched s more s' k cs Hr Hp Hheld Hu Hrun Hrunning Hset Ht Hn Hids Hmax H1 H2 Hrec Hrep.
  assert (Hr' : reaches o head lib dur now (sched ++ more) s').
  { destruct Hr as (R1 & R2 & R3). split_and!; [done|by apply Forall_app|]. by rewrite Applicator_Sys.run_app, R3. }
  eapply (again_reach D o root head lib dur now sched s more s' k cs); try done; [by eapply no_refusal_kept|]. split; try done. by destruct Hn.
Qed.
Print Assumptions C100_parent_again_partial.

(** The start, with a block that the chain gets after the subscription. *)
Definition worlds (l : list wlabel) : list blabel := map BWorld l.
Definition heard_in_time : list blabel :=
  [BMain; BMain; BBlock b1; BFail] ++ [BMain; BMain; BMain; BMain; BMain; BMain; BReadLib] ++
  worlds ([WAnnounce 0; WApp (LBroadcast 0)] ++ apps (submit_call 0 b2 ++ attempt_at 0 0) ++ [WAnswer 0; WApp (LStatus 0 none_lost); WApp (LRet 0); WAnnounce 0; WApp (LBroadcast 0)]).
Definition bfinal {A} (f : boot -> A) judge o dur now x ls : option A := match boot_run judge o dur now x ls with Some y => Some (f y) | None => None end.
Lemma bfinal_run {A} (f : boot -> A) judge o dur now x ls a : bfinal f judge o dur now x ls = Some a -> exists y, boot_run judge o dur now x ls = Some y /\ f y = a.
Proof. unfold bfinal. destruct (boot_run judge o dur now x ls) as [y|]; [|done]. intros [= <-]. eauto. Qed.
Lemma bu64_checks ls : forallb (fun l => match l with BBlock b => u64_check (LAccept b) | BForks fh => u64_check (LAnnounce fh) | BWorld (WApp l) => u64_check l | BWorld (WElse b) => u64_check (LAccept b) | _ => true end) ls = true -> Forall bu64 ls.
Proof.
  intros H. rewrite forallb_forall in H. apply Forall_forall. intros l Hin. specialize (H l ltac:(by apply elem_of_list_In)).
  assert (Hu : forall y, u64_check y = true -> u64_label y) by (intros y Hy; assert (Hx : Forall u64_label [y]) by (apply u64_checks; cbn [forallb]; by rewrite Hy); by apply Forall_cons in Hx as [? _]).
  destruct l as [| |b|fh| |lab]; try done; [by apply (Hu (LAccept b))|by apply (Hu (LAnnounce fh))|]. destruct lab as [l| | |b]; try done; [by apply Hu|by apply (Hu (LAccept b))].
Qed.
Definition bobs (x : boot) := (bo_todo x, bo_missed x, (elements (bo_chain x), bo_head x, bo_lib0 x), bo_crash x, bo_value x,
  match bo_world x with Some w => Some ((s_cancelled (w_s w), s_panic (w_s w), s_hang (w_s w)), map cl_blk (s_calls (w_s w)), s_now (w_s w), rest_b w,
    bool_decide ("b2"%string ∈ w_chain w), bool_decide ("b2"%string ∈ held_ids (w_s w)), bool_decide ("b1"%string ∈ w_chain w)) | None => None end).
Example C100_nonvacuous : exists x w, good_dur five_min /\ Forall bu64 heard_in_time /\ Forall bcomplete heard_in_time /\
  boot_run has_bad roomy five_min five (boot_init {["root"%string]} 10 (Some 5%N)) heard_in_time = Some x /\ bo_todo x = [] /\ bo_world x = Some w /\ bo_missed x = [] /\
  running (w_s w) /\ wrest w /\ (bo_head x + ao_max_delta roomy + 1 < two64)%N /\ (ao_max_pending roomy < 2 ^ 63)%N /\
  successors "b1" 11 [k2] /\ "b1"%string ∈ w_chain w /\ "b1"%string ∉ bo_chain x /\
  along has_bad roomy (welcome roomy (bo_head x) "b1" 11 [k2]) (world_init (bo_chain x) (bo_head x) (bo_lib0 x) five_min five)
    (heard has_bad roomy five_min five (boot_init {["root"%string]} 10 (Some 5%N)) heard_in_time) /\
  passed (w_s w) k2 /\ has_bad k2 = None /\ (bo_lib0 x < k_height k2)%N /\ k_id k2 ∉ bo_chain x /\ recent roomy (s_now (w_s w)) k2.
Proof.
  destruct (bfinal_run bobs has_bad roomy five_min five (boot_init {["root"%string]} 10 (Some 5%N)) heard_in_time
    ([], [], (["root"%string], 10%N, 5%N), false, Some (Some 5%N), Some ((false, false, false), [k2], five, true, true, false, true))) as (x & Hx & E); [vm_compute; reflexivity|].
  unfold bobs in E. destruct (bo_world x) as [w|] eqn:Ew; [|discriminate E]. injection E as E1 E2 E3 E4 E5 E6 E7 E8 E9 E10 E11 E12 E13 E14 E15 E16.
  assert (Ech : bo_chain x = {["root"%string]}). { clear - E3. apply set_eq. intros id. rewrite <- elem_of_elements, E3. set_solver. }
  exists x, w. rewrite Ech, E4, E5. split_and!.
  - clear. done.
  - apply bu64_checks. vm_compute. reflexivity.
  - repeat (apply Forall_cons; split; [first [exact I|discriminate]|]). apply Forall_nil. exact I.
  - exact Hx.
  - exact E1.
  - exact Ew.
  - exact E2.
  - split; [exact E8|]. split; [exact E9|exact E10].
  - clear Hx. by apply rest_check.
  - vm_compute; reflexivity.
  - vm_compute; reflexivity.
  - clear. by split_and!.
  - clear Hx. by apply bool_decide_eq_true in E16.
  - clear. set_solver.
  - apply (along_check _ _ _ _ _ (welcome_check _ _ _ _ _)). vm_compute. reflexivity.
  - assert (Hin : k2 ∈ map cl_blk (s_calls (w_s w))) by (rewrite E11; left). apply elem_of_list_fmap in Hin as (cl & -> & Hin). apply elem_of_list_lookup in Hin as (c & Hc). clear Hx; by exists c, cl.
  - reflexivity.
  - reflexivity.
  - clear. cbn. set_solver.
  - rewrite E12. clear. by split_and!.
Qed.

(** C100, REFUTED as stated: [b1] reaches the chain when the applicator has been made but broadcasts are not yet received.  The
    applicator takes the head to be at height 10; [b2], the child of [b1], is held back as too high, and nothing ever wakes it. *)
Definition missed_block : list blabel :=
  [BMain; BBlock b1] ++ [BMain; BMain; BMain; BMain; BMain; BMain; BMain] ++ worlds (apps (submit_call 0 b2)).
Theorem C100_gap_refuted : exists judge o dur now root head lib ls x w parent h ks k,
  good_dur dur /\ 0 < ao_jobs o /\ (forall l, lib = Some l -> (l < two64)%N) /\ Forall bu64 ls /\ Forall bcomplete ls /\
  boot_run judge o dur now (boot_init root head lib) ls = Some x /\ bo_todo x = [] /\ bo_world x = Some w /\
  running (w_s w) /\ wrest w /\ (bo_head x + ao_max_delta o + 1 < two64)%N /\ (ao_max_pending o < 2 ^ 63)%N /\
  successors parent h ks /\ parent ∈ w_chain w /\ (parent ∈ bo_chain x -> (h <= bo_head x)%N) /\
  along judge o (welcome o (bo_head x) parent h ks) (world_init (bo_chain x) (bo_head x) (bo_lib0 x) dur now) (heard judge o dur now (boot_init root head lib) ls) /\
  (forall k, k ∈ ks -> passed (w_s w) k /\ judge k = None /\ (bo_lib0 x < k_height k)%N /\ (k_id k ∈ bo_chain x -> (k_height k <= bo_head x)%N) /\ recent o (s_now (w_s w)) k) /\
  k ∈ ks /\ forall more w', Forall wown more -> wrun judge o w more = Some w' -> k_id k ∉ w_chain w' /\ k_id k ∈ held_ids (w_s w').
Proof.
  destruct (bfinal_run bobs has_bad roomy five_min five (boot_init {["root"%string]} 10 (Some 5%N)) missed_block
    ([], [b1], (["root"%string], 10%N, 5%N), false, Some (Some 5%N), Some ((false, false, false), [k2], five, true, false, true, true))) as (x & Hx & E); [vm_compute; reflexivity|].
  unfold bobs in E. destruct (bo_world x) as [w|] eqn:Ew; [|discriminate E]. injection E as E1 E2 E3 E4 E5 E6 E7 E8 E9 E10 E11 E12 E13 E14 E15 E16.
  assert (Ech : bo_chain x = {["root"%string]}). { clear - E3. apply set_eq. intros id. rewrite <- elem_of_elements, E3. set_solver. }
  exists has_bad, roomy, five_min, five, {["root"%string]}, 10%N, (Some 5%N), missed_block, x, w, "b1"%string, 11%N, [k2], k2. rewrite Ech, E4, E5. split_and!.
  - clear. done.
  - cbn. lia.
  - intros l [= <-]. vm_compute; reflexivity.
  - apply bu64_checks. vm_compute. reflexivity.
  - repeat (apply Forall_cons; split; [first [exact I|discriminate]|]). apply Forall_nil. exact I.
  - exact Hx.
  - exact E1.
  - exact Ew.
  - split; [exact E8|]. split; [exact E9|exact E10].
  - clear Hx. by apply rest_check.
  - vm_compute; reflexivity.
  - vm_compute; reflexivity.
  - clear. by split_and!.
  - clear Hx. by apply bool_decide_eq_true in E16.
  - clear. intros Hb. set_solver.
  - apply (along_check _ _ _ _ _ (welcome_check _ _ _ _ _)). vm_compute. reflexivity.
  - intros k ->%elem_of_list_singleton. split_and!; [|reflexivity|reflexivity|clear; cbn; set_solver|rewrite E12; clear; by split_and!].
    assert (Hin : k2 ∈ map cl_blk (s_calls (w_s w))) by (rewrite E11; left). apply elem_of_list_fmap in Hin as (cl & -> & Hin). apply elem_of_list_lookup in Hin as (c & Hc). clear Hx; by exists c, cl.
  - left.
  - apply bool_decide_eq_false in E14. apply bool_decide_eq_true in E15. apply rest_check in E13. clear Hx. intros more w' Hown Hrun.
    destruct (rest_stays _ _ _ _ _ E13 Hown Hrun) as (-> & Hcore). split; [done|]. unfold held_ids in *. by rewrite Hcore.
Qed.
Print Assumptions C100_gap_refuted.
(** The same node when [b1] is handed over after all: [b2] is applied. *)
Definition waiting : list label := submit_call 0 b2.
Definition handed_again : list label := submit_call 1 b1 ++ attempt_at 0 0 ++ [LRpcDone 0 None; LStatus 0 none_lost] ++ attempt_at 0 1 ++ [LRpcDone 1 None; LStatus 1 none_lost].
Definition again_log : list event := OAnswer 0 None :: attempt_log 1 k2 five None ++ OAnswer 1 None :: attempt_log 0 k1 five None.
Example C100_nonvacuous_again : exists s s', reaches roomy 10 5 five_min five waiting s /\ s_panic s = false /\ held s (k_id k2) k2 [0] /\
  Forall u64_label handed_again /\ run roomy s handed_again = Some s' /\ running s' /\ settled s' /\ truthful any {["root"; "b1"]}%string (s_log s') /\ no_refusal any s' /\ ids_distinct any s' /\
  (max_accepted 10 (s_log s') + 1 < two64)%N /\ recent roomy (s_now s') k2 /\ reported k2 (s_log s) (s_log s').
Proof.
  destruct (final_run obs roomy (sys_init 10 5 five_min five) waiting
    ((false, false, false), ([Call k2 CWait None], [], [], [], []), (five, []), [("b2"%string, Entry k2 [0])])) as (s & Hr & E); [vm_compute; reflexivity|].
  destruct (final_run obs roomy (sys_init 10 5 five_min five) (waiting ++ handed_again)
    ((false, false, false), ([Call k2 CWait (Some None); Call k1 CWait (Some None)], [], [], [PDone; PDone], []),
     (five, again_log), [])) as (s' & Hr' & E'); [vm_compute; reflexivity|].
  assert (Hreach : reaches roomy 10 5 five_min five waiting s) by (split; [vm_compute; reflexivity|]; split; [u64s|exact Hr]).
  rewrite (Rest_Proofs.run_app _ _ _ _ _ Hr) in Hr'. clear Hr. injection E as E1 E2 E3 E4 E5 E6 E7 E8 E9 E10 E11. injection E' as F1 F2 F3 F4 F5 F6 F7 F8 F9 F10 F11.
  exists s, s'. rewrite F10, E10, F9. split_and!.
  - exact Hreach.
  - exact E2.
  - clear Hr'. unfold held. rewrite <- (list_to_map_to_list (M := gmap string) (c_byid (s_core s))), E11. reflexivity.
  - u64s.
  - exact Hr'.
  - split; [exact F1|]. split; [exact F2|exact F3].
  - clear Hr' Hreach. split_and!; [|exact F5|exact F6| |exact F8].
    + rewrite F4. intros [|[|c]] cl Hc; [injection Hc as <-; discriminate|injection Hc as <-; discriminate|discriminate Hc].
    + intros i a Hi. assert (Hm : map at_phase (s_att s') !! i = Some (at_phase a)) by (by rewrite list_lookup_fmap, Hi).
      rewrite F7 in Hm. do 2 (destruct i as [|i]; [by injection Hm|]). done.
  - apply truthful_check. clear. unfold again_log, attempt_log. cbn [app Hist]. repeat (split; [exact I|]). exact I.
  - apply no_refusal_check. rewrite F10. clear. unfold again_log, attempt_log. cbn [app]. repeat (apply Forall_cons; split); try done.
  - apply distinct_check. rewrite F4. clear. intros [|[|i]] [|[|j]] x y Hx Hy; try done; injection Hx as <-; injection Hy as <-; done.
  - vm_compute. reflexivity.
  - clear. by split_and!.
  - exists again_log. split; [by rewrite app_nil_r|]. left. exists 0, k1. split; [|done]. clear. unfold again_log, attempt_log. cbn [app]. do 6 right. left.
Qed.

(** ** C101 *)
(** C101, first part: whoever reads the LIB finds one stored, whatever the chain does and however long GetForkHeads fails. *)
Theorem C101_stored_before_read : forall judge o dur now root head lib ls x,
  boot_run judge o dur now (boot_init root head lib) ls = Some x -> users (bo_todo x) = true -> bo_value x <> None.
Proof. intros. by eapply value_stored. Qed.
Print Assumptions C101_stored_before_read.
(** C101, second part: if the chain's messages name the LIB, the program does not crash over it, and what is read is a LIB that the chain
    has named. *)
Theorem C101_no_crash_partial : forall judge o dur now root head l0 ls x,
  boot_run judge o dur now (boot_init root head (Some l0)) ls = Some x -> Forall names_lib ls ->
  bo_crash x = false /\ (users (bo_todo x) = true -> exists l, bo_value x = Some (Some l) /\ (l = l0 \/ exists fh, BForks fh ∈ ls /\ fh_lib fh = Some l)).
Proof. intros judge o dur now root head l0 ls x Hr Hn. by eapply no_crash. Qed.
Print Assumptions C101_no_crash_partial.
(** C101, REFUTED for other messages: one announcement without a LIB crashes the program at the next reading of it. *)
Definition no_lib_named : list blabel := [BMain; BMain; BFail; BMain; BMain; BMain; BMain; BMain; BMain; BReadLib; BForks (ForkHeads None []); BReadLib].
Theorem C101_nil_lib_refuted : forall judge o dur now, exists root head lib ls x,
  lib <> None /\ boot_run judge o dur now (boot_init root head lib) ls = Some x /\ bo_crash x = true.
Proof. intros judge o dur now. exists ∅, 10%N, (Some 5%N), no_lib_named. eexists. split; [done|]. split; [cbn; reflexivity|reflexivity]. Qed.
Print Assumptions C101_nil_lib_refuted.
Example C101_nonvacuous : exists x, boot_run has_bad roomy five_min five (boot_init {["root"%string]} 10 (Some 5%N)) heard_in_time = Some x /\
  Forall names_lib heard_in_time /\ users (bo_todo x) = true /\ bo_value x = Some (Some 5%N).
Proof.
  destruct (bfinal_run (fun x => (bo_todo x, bo_value x)) has_bad roomy five_min five (boot_init {["root"%string]} 10 (Some 5%N)) heard_in_time ([], Some (Some 5%N))) as (x & Hx & E); [vm_compute; reflexivity|].
  injection E as E1 E2. exists x. split_and!; [exact Hx| |rewrite E1; reflexivity|exact E2].
  clear. repeat (apply Forall_cons; split; [exact I|]). apply Forall_nil. exact I.
Qed.

(** ** C103 *)
(** C103, first part: once the LIB was stored by Start, the next announcement and every later one is what is read from then on. *)
Theorem C103_latest_partial : forall judge o dur now root head lib before x fh after y,
  boot_run judge o dur now (boot_init root head lib) before = Some x -> AStore ∉ bo_todo x ->
  boot_run judge o dur now x (BForks fh :: after) = Some y ->
  bo_value y = Some (latest (fh_lib fh) after).
Proof. intros judge o dur now root head lib before x fh after y H1 H2 H3. by eapply latest_after. Qed.
Print Assumptions C103_latest_partial.
(** C103, second part: if no announcement comes between the answer of GetForkHeads and the storing of it, then whoever reads the LIB
    gets the one that the chain named last. *)
Theorem C103_no_race_partial : forall judge o dur now root head lib ls x,
  boot_run judge o dur now (boot_init root head lib) ls = Some x ->
  (forall a fh b z r, ls = a ++ BForks fh :: b -> boot_run judge o dur now (boot_init root head lib) a = Some z -> bo_todo z <> AStore :: r) ->
  AStore ∉ bo_todo x -> bo_value x = Some (latest lib ls).
Proof. intros judge o dur now root head lib ls x H1 H2 H3. by eapply latest_no_race. Qed.
Print Assumptions C103_no_race_partial.
(** C103, REFUTED as stated: an announcement that comes between the two is overwritten by the older answer; the LIB of the peers'
    sessions and of the validators is then behind the one that the applicator has. *)
Definition raced : list blabel := [BMain; BMain; BMain; BForks (ForkHeads (Some 9%N) []); BMain; BMain; BMain; BMain; BMain; BWorld (WApp (LForkHeads 0 none_lost))].
Theorem C103_race_refuted : forall judge, exists o dur now root head lib ls x w,
  boot_run judge o dur now (boot_init root head lib) ls = Some x /\ bo_todo x = [] /\ bo_value x = Some (Some 5%N) /\ latest lib ls = Some 9%N /\
  bo_world x = Some w /\ c_lib (s_core (w_s w)) = 9%N.
Proof. intros judge. exists roomy, five_min, five, ∅, 10%N, (Some 5%N), raced. do 2 eexists. split_and!; [vm_compute; reflexivity|reflexivity|reflexivity|reflexivity|reflexivity|vm_compute; reflexivity]. Qed.
Print Assumptions C103_race_refuted.
Definition in_turn : list blabel := [BForks (ForkHeads (Some 6%N) []); BMain; BForks (ForkHeads (Some 7%N) []); BMain; BForks (ForkHeads (Some 8%N) []); BMain; BMain; BForks (ForkHeads (Some 9%N) []); BMain; BMain; BReadLib].
Example C103_nonvacuous : exists x, boot_run has_bad roomy five_min five (boot_init {["root"%string]} 10 (Some 5%N)) in_turn = Some x /\
  (forall a fh b z r, in_turn = a ++ BForks fh :: b -> boot_run has_bad roomy five_min five (boot_init {["root"%string]} 10 (Some 5%N)) a = Some z -> bo_todo z <> AStore :: r) /\
  AStore ∉ bo_todo x /\ latest (Some 5%N) in_turn = Some 9%N.
Proof.
  destruct (bfinal_run (fun x => (bo_todo x, bo_value x)) has_bad roomy five_min five (boot_init {["root"%string]} 10 (Some 5%N)) in_turn ([AManager; AApplicator], Some (Some 9%N))) as (x & Hx & E); [vm_compute; reflexivity|].
  injection E as E1 E2. exists x. split_and!; [exact Hx| |rewrite E1; clear; set_solver|reflexivity].
  clear. intros a fh b z r Ea Hz. assert (Hf : bfinal bo_todo has_bad roomy five_min five (boot_init {["root"%string]} 10 (Some 5%N)) a = Some (bo_todo z)) by (unfold bfinal; by rewrite Hz). clear Hz. revert Hf. generalize (bo_todo z) as q. intros q Hf.
  assert (Hn : exists n, a = take n in_turn /\ in_turn !! n = Some (BForks fh)) by (exists (length a); rewrite Ea; split; [by rewrite take_app|by rewrite list_lookup_middle]). destruct Hn as (n & -> & Hn). clear Ea.
  do 11 (destruct n as [|n]; [try discriminate Hn; (vm_compute in Hf; injection Hf as <-; discriminate)|]). discriminate Hn.
Qed.

(** ** C102 *)
(** C102, REFUTED as stated: of twelve connections all are listed, and one is said to be left out. *)
Theorem C102_one_too_many_refuted : exists conns : list nat, NoDup conns /\ length conns = 12 /\ listed (log_connections conns 12) = conns /\ left_out (log_connections conns 12) = 1%Z.
Proof. exists (seq 0 12). split; [apply NoDup_seq|]. split_and!; vm_compute; reflexivity. Qed.
Print Assumptions C102_one_too_many_refuted.
(** C102, what holds: up to eleven connections are all listed, once each and in order, and nothing is said to be left out; of more, the
    first twelve are listed, and if their number does not change meanwhile, one more than are left out are said to be. *)
Theorem C102_listed_partial : forall (C : Type) (conns : list C) (later : nat),
  listed (log_connections conns later) = take 12 conns /\
  (length conns <= 11 -> left_out (log_connections conns later) = 0%Z) /\
  (12 <= length conns -> left_out (log_connections conns later) = (Z.of_nat later - 11)%Z) /\
  (12 <= length conns -> later = length conns -> left_out (log_connections conns later) = (Z.of_nat (length (drop 12 conns)) + 1)%Z).
Proof.
  intros C conns later. unfold log_connections. destruct (log_lines conns later) as (H1 & H2 & H3). split_and!; [exact H1|exact H2|exact H3|].
  intros H ->. rewrite (H3 H), drop_length. lia.
Qed.
Print Assumptions C102_listed_partial.
Example C102_nonvacuous : listed (log_connections [1; 2; 3] 3) = [1; 2; 3] /\ left_out (log_connections [1; 2; 3] 3) = 0%Z /\
  length (listed (log_connections (seq 0 40) 40)) = 12 /\ left_out (log_connections (seq 0 40) 40) = 29%Z.
Proof. split_and!; vm_compute; reflexivity. Qed.

(** ** C106 *)
(** C106.  As long as the applicator is not started, although blocks and transactions may arrive already: nothing is submitted to the
    chain, no call is answered, and all that has happened is that calls returned with an error; no announcement is processed. *)
Theorem C106_idle_before_start : forall judge o dur now root head lib ls x w,
  boot_run judge o dur now (boot_init root head lib) ls = Some x -> AApplicator ∈ bo_todo x -> bo_world x = Some w -> Forall error_return (s_log (w_s w)).
Proof. intros. by eapply id_log, idle_run. Qed.
Print Assumptions C106_idle_before_start.
(** Gossip is on, a block arrives, its deadline passes, and only the last action of the start is left. *)
Definition early : list blabel := replicate 7 BMain ++ map (fun l => BWorld (WApp l)) [LCall (k_src k1); LSend 0; LTick 10; LTimeout 0].
Example C106_nonvacuous : exists x w, boot_run has_bad roomy five_min five (boot_init {["root"%string]} 10 (Some 5%N)) early = Some x /\
  AApplicator ∈ bo_todo x /\ bo_world x = Some w /\ s_log (w_s w) = [OReturn (Some 0) (k_src k1) (Some (ESent ErrBlockApplicationTimeout))] /\ s_new (w_s w) = [0].
Proof.
  destruct (bfinal_run (fun x => (bo_todo x, (fun w => (s_log (w_s w), s_new (w_s w))) <$> bo_world x)) has_bad roomy five_min five (boot_init {["root"%string]} 10 (Some 5%N)) early
    ([AApplicator], Some ([OReturn (Some 0) (k_src k1) (Some (ESent ErrBlockApplicationTimeout))], [0]))) as (x & Hr & E); [vm_compute; reflexivity|].
  injection E as E1 E2. destruct (bo_world x) as [w|] eqn:Ew; [|discriminate E2]. injection E2 as E2 E3. exists x, w. split; [exact Hr|]. clear Hr. rewrite E1. split; [by left|]. by split_and!.
Qed.
