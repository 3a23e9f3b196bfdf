(** Property theorems: C114, C115. *)
From Coq Require Import Reals.
From Verif Require Import GoBase Util TxCache_Model TxCache_Spec TxCache_Proofs Watchdog_Model Watchdog_Spec Watchdog_Proofs
  Applicator_Model Applicator_Spec Applicator_Core Applicator_Sys Applicator_Inv Applicator_Inv2 Applicator_Inv3 Applicator_Inv4
  Applicator_Inv5 Applicator_Inv6 Applicator_Inv7 Applicator_Props Applicator_Props2 Applicator_Props3 Deliver_Spec Deliver_Props Rest_Spec
  ErrHandler_Model ErrDecay_Model ErrDecay_Proofs Memory_Spec.

Lemma remembers_ids s r : remembers s r <-> sb_id r ∈ ids_of (s_wd s) (sb_height r) (sb_signer r) (sb_parent r).
Proof.
  unfold remembers, ids_of. split.
  - intros (pairs & ids & -> & Hp & Hi). simpl. by rewrite Hp.
  - destruct (s_wd s !! sb_height r) as [pairs|]; simpl.
    + destruct (pairs !! (sb_signer r, sb_parent r)) as [ids|] eqn:E; simpl; [|by intros ?%elem_of_empty]. intros Hi. by exists pairs, ids.
    + rewrite lookup_empty. by intros ?%elem_of_empty.
Qed.

Lemma hist_called o s sched b : WAdd b ∈ watch_hist o s sched -> b ∈ called sched.
Proof.
  revert s. induction sched as [|lab r IH]; intros s; cbn [watch_hist]; [by intros ?%elem_of_nil|].
  destruct (step o s lab) as [s1|]; [|by intros ?%elem_of_nil]. intros [Hw|Hw]%elem_of_app.
  - destruct lab; cbn [watched] in Hw; try (by apply elem_of_nil in Hw).
    + apply elem_of_list_singleton in Hw as [= ->]. cbn. by left.
    + destruct (s_fh s !! i) as [fh|]; [|by apply elem_of_nil in Hw]. destruct (fh_lib fh); [|by apply elem_of_nil in Hw].
      by apply elem_of_list_singleton in Hw.
  - apply IH in Hw. unfold called in *. cbn. destruct lab; try done. by right.
Qed.

(** C114, what holds.  After every run: the node remembers exactly the blocks that were passed to ApplyBlock and whose
    height no last irreversible block processed since has reached. *)
Theorem C114_memory_of_blocks_partial : forall o head lib dur now sched s,
  reaches o head lib dur now sched s -> s_panic s = false ->
  (forall r, remembers s r <-> counted (watch_hist o (sys_init head lib dur now) sched) (sb_height r) (sb_signer r) (sb_parent r) (sb_id r)) /\
  (forall r, remembers s r -> exists b, b ∈ called sched /\ record_of b r) /\
  (forall rs, NoDup rs -> (forall r, r ∈ rs -> remembers s r) -> length rs <= length (called sched)).
Proof.
  intros o head lib dur now sched s (Hl & HU & Hr) Hp.
  destruct (watched_run _ _ _ _ _ _ (Inv_init o head lib dur now Hl) HU Hr Hp) as (es & Hw).
  assert (H1 : forall r, remembers s r <-> counted (watch_hist o (sys_init head lib dur now) sched) (sb_height r) (sb_signer r) (sb_parent r) (sb_id r)).
  { intros r. rewrite remembers_ids. apply (ids_counted _ _ _ Hw). }
  assert (H2 : forall r, remembers s r -> exists b, b ∈ called sched /\ record_of b r).
  { intros r (i & b & Hi & (hd & Hb & E1 & E2 & E3) & Hid & _)%H1.
    exists b. split; [eapply hist_called, elem_of_list_lookup_2, Hi|]. exists hd. split; [done|].
    destruct r; cbn in *. congruence. }
  split_and!; [done|done|].
  intros rs Hnd Hrs.
  set (rec := fun b : block => match b_header b with Some hd => SeenBlock (h_height hd) (str (h_signer hd)) (str (h_previous hd)) (str (b_id b)) | None => SeenBlock 0 "" "" "" end).
  rewrite <- (map_length rec (called sched)). apply NoDup_incl_length; [by apply NoDup_ListNoDup|].
  intros r Hr0%elem_of_list_In. destruct (H2 r (Hrs r Hr0)) as (b & Hb & hd & Hh & ->).
  apply elem_of_list_In, elem_of_list_fmap. exists b. split; [|done]. unfold rec. by rewrite Hh.
Qed.
Print Assumptions C114_memory_of_blocks_partial.

(** C114, what holds, continued.  Processing a fork heads message clears everything at or below its last irreversible
    block.  So if all blocks passed so far lie at or below it, nothing is left. *)
Theorem C114_lib_clears_partial : forall o head lib dur now sched s i fh irr lose s',
  reaches o head lib dur now sched s -> s_fh s !! i = Some fh -> fh_lib fh = Some irr -> step o s (LForkHeads i lose) = Some s' -> s_panic s' = false ->
  (forall r, remembers s' r <-> remembers s r /\ (irr < sb_height r)%N) /\
  ((forall b hd, b ∈ called sched -> b_header b = Some hd -> (h_height hd <= irr)%N) -> forall r, ~ remembers s' r).
Proof.
  intros o head lib dur now sched s i fh irr lose s' Hre Hf Hirr Hst Hp.
  pose proof Hst as Hst0. apply step_Step in Hst0 as [Hp0 Hst0].
  destruct (watched_step _ _ _ _ _ _ (reaches_inv _ _ _ _ _ _ _ Hre) Hst0 Hp) as (es & Hw).
  cbn [watched] in Hw. rewrite Hf, Hirr in Hw. cbn [wd_run] in Hw. injection Hw as Hw _.
  assert (H1 : forall r, remembers s' r <-> remembers s r /\ (irr < sb_height r)%N).
  { intros r. rewrite !remembers_ids, <- Hw, ids_purge. case_bool_decide as Hd.
    - split; [by intros ?%elem_of_empty|]. intros [_ ?]. lia.
    - split; [intros ?; split; [done|lia]|by intros [? _]]. }
  split; [done|]. intros Hall r [Hr0 Hlt]%H1.
  destruct (C114_memory_of_blocks_partial _ _ _ _ _ _ _ Hre Hp0) as (_ & H2 & _).
  destruct (H2 r Hr0) as (b & Hb & hd & Hh & ->). specialize (Hall b hd Hb Hh). cbn in Hlt. lia.
Qed.
Print Assumptions C114_lib_clears_partial.

(** A record goes only when a last irreversible block reaches its height. *)
Lemma step_keeps o head lib0 s lab s' r : Inv o head lib0 s -> Step o s lab s' -> s_panic s' = false -> remembers s r ->
  remembers s' r \/ exists lib, (sb_height r <= lib)%N /\ (exists new, s_log s' = new ++ s_log s /\ OLib lib ∈ new).
Proof.
  intros HI H Hp Hr.
  destruct (watched_step _ _ _ _ _ _ HI H Hp) as (es & Hw). rewrite remembers_ids in Hr.
  assert (Hnil : watched s lab = [] -> remembers s' r).
  { intros E. rewrite E in Hw. cbn in Hw. injection Hw as Hw _. rewrite remembers_ids. by rewrite <- Hw. }
  destruct lab; try (left; by apply Hnil).
  - left. cbn [watched wd_run] in Hw. destruct (wd_add (s_wd s) b) as [[t' e]|] eqn:Ha; cbn in Hw; [|done]. injection Hw as -> _.
    destruct (b_header b) as [hd|] eqn:Hb; [|unfold wd_add in Ha; by rewrite Hb in Ha].
    rewrite remembers_ids, (ids_add _ _ _ _ _ _ _ _ Hb Ha). case_bool_decide; [apply elem_of_union; by right|done].
  - destruct (s_fh s !! i) as [fh|] eqn:Hf; [|left; apply Hnil; cbn; by rewrite Hf].
    destruct (fh_lib fh) as [irr|] eqn:Hirr; [|left; apply Hnil; cbn; by rewrite Hf, Hirr].
    cbn [watched] in Hw. rewrite Hf, Hirr in Hw. cbn [wd_run] in Hw. injection Hw as Hw _.
    destruct (decide (sb_height r <= irr)%N) as [Hle|Hgt]; [right|left].
    + exists irr. split; [done|]. inversion H; subst; try discriminate Hp.
      * match goal with Hx : s_fh s !! i = Some _ |- _ => rewrite Hf in Hx; injection Hx as <- end.
        match goal with Hx : fh_lib fh = Some _ |- _ => rewrite Hirr in Hx; injection Hx as -> end.
        eexists [_]. split; [reflexivity|]. by apply elem_of_list_singleton.
      * match goal with Hx : s_fh s !! i = Some _ |- _ => rewrite Hf in Hx; injection Hx as <- end.
        match goal with Hx : handle_fork_heads _ _ _ _ = _ |- _ => destruct (handle_lib_fork_heads _ _ _ _ _ _ _ ltac:(eassumption) Hx) as (Hc & _) end.
        match goal with |- context [do_effs ?l ?e ?x] => destruct (se_log _ _ _ (do_effs_same l e x)) as (new & Hn & _) end.
        exists (new ++ [OLib irr]). split; [|apply elem_of_app; right; by apply elem_of_list_singleton].
        rewrite Hn. cbn. rewrite <- app_assoc. cbn. congruence.
    + rewrite remembers_ids, <- Hw, ids_purge. by rewrite bool_decide_eq_false_2.
Qed.
Lemma run_keeps o head lib0 more s s' r : Inv o head lib0 s -> Forall u64_label more -> run o s more = Some s' -> s_panic s' = false ->
  remembers s r -> libs_below (sb_height r) (s_log s) (s_log s') -> remembers s' r.
Proof.
  revert s. induction more as [|lab more IH]; intros s HI HU Hr Hp Hk Hb; cbn in Hr; [by injection Hr as ->|].
  apply Forall_cons in HU as [HU1 HU]. destruct (step o s lab) as [s1|] eqn:Hst; [|done].
  apply step_Step in Hst as [Hp0 Hst].
  assert (Hp1 : s_panic s1 = false).
  { destruct more as [|lab2 more]; cbn in Hr; [congruence|]. unfold step in Hr. by destruct (s_panic s1). }
  destruct (run_log _ _ _ _ Hr) as [new2 Hn2]. destruct Hb as (new & Hn & Hlib).
  destruct (step_log_grows _ _ _ _ Hst) as [new1 Hn1].
  assert (Enew : new = new2 ++ new1).
  { apply (app_inv_tail (s_log s)). rewrite <- Hn, Hn2, Hn1. by rewrite app_assoc. }
  destruct (step_keeps _ _ _ _ _ _ _ HI Hst Hp1 Hk) as [Hk1|(lib & Hle & new1' & Hn1' & Hin)].
  - eapply (IH s1); try done; [by eapply Inv_step|]. exists new2. split; [done|]. intros l Hl. apply Hlib. rewrite Enew. apply elem_of_app. by left.
  - assert (new1' = new1) as -> by (apply (app_inv_tail (s_log s)); congruence).
    exfalso. assert (lib < sb_height r)%N by (apply Hlib; rewrite Enew; apply elem_of_app; by right). lia.
Qed.

(** Blocks with one parent and signer at a height that the chain never reaches. *)
Fixpoint nid (n : nat) : string := match n with O => EmptyString | S n => String (Ascii.ascii_of_nat 97) (nid n) end.
Definition far : N := 2 ^ 63.
Definition far_block (n : nat) : block := mk (nid n) far "p" 1 "".
Definition far_record (n : nat) : seen_block := SeenBlock far "signer" "p" (nid n).
(** The first three are passed on to the dispatcher, which turns them away (too far above the head); the others do not get
    past the door (fork bomb). *)
Definition door : list label := concat (map (fun c => submit_call c (far_block c) ++ [LRet c]) [0; 1; 2]).
Definition flood (n : nat) : list label := door ++ map (fun i => LCall (far_block i)) (seq 3 n).
Lemma nid_inj a b : nid a = nid b -> a = b.
Proof. revert b. induction a as [|a IH]; intros [|b] E; try done. injection E as E. f_equal. auto. Qed.

Definition door_view (s : sys) :=
  (s_panic s, s_cancelled s, s_hang s, s_loop s, (map (fun c => cl_phase c) (s_calls s), s_new s, s_try s, s_att s, s_txs s, s_fh s, s_bc s),
   map_to_list (c_byid (s_core s)), elements (ids_of (s_wd s) far "signer" "p"), s_log s).
Definition turned_away (i : nat) : list event := [OReturn (Some i) (far_block i) (Some (ESent ErrMaxHeight)); OAnswer i (Some (ESent ErrMaxHeight))].
Lemma door_run : final door_view (ap_defaults 4) (sys_init 10 5 five_min 0) door =
  Some (false, false, false, true, (replicate 3 (CRet (Some (ESent ErrMaxHeight))), [], [], [], [], [], []), [], map nid [0; 1; 2],
        turned_away 2 ++ turned_away 1 ++ turned_away 0).
Proof. vm_compute. reflexivity. Qed.

(** A call of ApplyBlock with [b] failed. *)
Definition refused (log : list event) (b : block) : Prop := exists c e, OReturn c b (Some e) ∈ log.
Definition flooded (n : nat) (s : sys) : Prop :=
  running s /\ at_rest s /\ held_ids s = ∅ /\ (forall id, id ∈ ids_of (s_wd s) far "signer" "p" <-> exists i, i < 3 + n /\ id = nid i) /\
  (forall a k t, OSubmit a k t ∉ s_log s) /\ (forall i, i < 3 + n -> refused (s_log s) (far_block i)).

Lemma flooded_start : exists s, run (ap_defaults 4) (sys_init 10 5 five_min 0) door = Some s /\ flooded 0 s.
Proof.
  pose proof door_run as H. unfold final in H. destruct (run (ap_defaults 4) (sys_init 10 5 five_min 0) door) as [s|]; [|discriminate H].
  exists s. split; [reflexivity|]. cbn [fmap option_fmap option_map] in H. injection H as H1 H2 H3 H4 H5 H6 H7 H8 H9 H10 H11 H12 H13 H14.
  assert (Hc : forall c cl, s_calls s !! c = Some cl -> exists r, cl_phase cl = CRet r).
  { intros c cl Hc. assert (E : map (fun c => cl_phase c) (s_calls s) !! c = Some (cl_phase cl)) by (by rewrite list_lookup_fmap, Hc).
    rewrite H5 in E. apply (elem_of_list_lookup_2 _ c) in E. rewrite !elem_of_cons, elem_of_nil in E. exists (Some (ESent ErrMaxHeight)). tauto. }
  unfold flooded. split_and!.
  - done.
  - split_and!; try done.
    + split_and!; try done; [|intros i a Ha; rewrite H8 in Ha; by rewrite lookup_nil in Ha].
      intros c cl E. destruct (Hc c cl E) as [r ->]. done.
    + intros i q Hq. rewrite H9 in Hq. by rewrite lookup_nil in Hq.
    + intros c cl E. left. eauto.
  - unfold held_ids. apply map_to_list_empty_iff in H12 as ->. apply dom_empty_L.
  - intros id. rewrite <- elem_of_elements, H13. rewrite !elem_of_cons, elem_of_nil. split.
    + intros [->|[->|[->|[]]]]; [exists 0|exists 1|exists 2]; split; try reflexivity; lia.
    + intros (i & Hi & ->). destruct i as [|[|[|i]]]; [tauto..|lia].
  - intros a k t Hin. rewrite H14 in Hin. in_log Hin.
  - intros i Hi. exists (Some i), (ESent ErrMaxHeight). rewrite H14. destruct i as [|[|[|i]]]; [..|lia]; unfold turned_away; cbn [app]; rewrite !elem_of_cons; tauto.
Qed.

Lemma flooded_next n s : flooded n s -> exists s', step (ap_defaults 4) s (LCall (far_block (3 + n))) = Some s' /\ flooded (S n) s'.
Proof.
  intros ((Hc & Hp & Hh) & Hrest & Hheld & Hids & Hsub & Href). unfold step. rewrite Hp. eexists. split; [reflexivity|].
  unfold step_call. destruct (wd_add (s_wd s) (far_block (3 + n))) as [[t' e]|] eqn:Ha; [|discriminate Ha].
  assert (Hb : b_header (far_block (3 + n)) = Some (Header far (Some "p"%string) 1 (Some "signer"%string))) by reflexivity.
  assert (Hid : forall id, id ∈ ids_of t' far "signer" "p" <-> exists i, i < 3 + S n /\ id = nid i).
  { intros id. rewrite (ids_add _ _ _ _ _ far "signer" "p" Hb Ha). rewrite bool_decide_eq_true_2 by done.
    rewrite elem_of_union, elem_of_singleton, Hids. split.
    - intros [->|(i & Hi & ->)]; [exists (3 + n)|exists i]; split; try done; lia.
    - intros (i & Hi & ->). destruct (decide (i = 3 + n)) as [->|]; [by left|right]. exists i. split; [lia|done]. }
  assert (e = Some (ESent ErrForkBomb)) as ->.
  { rewrite (add_result _ _ _ _ _ Hb Ha). rewrite bool_decide_eq_true_2; [reflexivity|].
    apply (more_than_three_size _ (fun id => exists i, i < 3 + S n /\ id = nid i) Hid).
    exists (map nid [0; 1; 2; 3]). split; [|split; [cbn; lia|]].
    - vm_compute. repeat constructor; rewrite ?elem_of_cons, ?elem_of_nil; naive_solver.
    - intros id (i & -> & Hi)%elem_of_list_fmap. exists i. split; [|done]. rewrite !elem_of_cons, elem_of_nil in Hi. lia. }
  cbn [b_header far_block mk]. unfold flooded. split_and!.
  - done.
  - exact Hrest.
  - exact Hheld.
  - exact Hid.
  - intros a k t [Hx|Hx]%elem_of_cons; [done|]. by apply Hsub in Hx.
  - intros i Hi. destruct (decide (i = 3 + n)) as [->|].
    + exists None, (ESent ErrForkBomb). by left.
    + destruct (Href i) as (c & e & Hin); [lia|]. exists c, e. by right.
Qed.

Lemma flooded_all n m s : flooded m s -> exists s', run (ap_defaults 4) s (map (fun i => LCall (far_block i)) (seq (3 + m) n)) = Some s' /\ flooded (m + n) s'.
Proof.
  revert m s. induction n as [|n IH]; intros m s Hf; [exists s; split; [done|]; by rewrite Nat.add_0_r|].
  destruct (flooded_next m s Hf) as (s1 & Hst & Hf1). destruct (IH (S m) s1 Hf1) as (s' & Hr & Hf').
  exists s'. split; [|by rewrite Nat.add_succ_r]. cbn [seq map run]. rewrite Hst. exact Hr.
Qed.

(** C114 does not hold as a bound: for every number [n] there is a run in which blocks are passed to ApplyBlock, every call
    fails at once, none is submitted to the chain, nothing is held in the pool and nothing is left to do, no time passes,
    and the node keeps at least [n] different records; and it keeps all of them in whatever happens later, until a last
    irreversible block at height 2^63 or above is processed. *)
Theorem C114_memory_of_blocks_refuted : forall n, exists sched s rs,
  reaches (ap_defaults 4) 10 5 five_min 0 sched s /\ running s /\ at_rest s /\ held_ids s = ∅ /\
  (forall a k t, OSubmit a k t ∉ s_log s) /\ (forall b, b ∈ called sched -> refused (s_log s) b) /\
  NoDup rs /\ length rs = n /\ (forall r, r ∈ rs -> remembers s r) /\
  forall more s', Forall u64_label more -> run (ap_defaults 4) s more = Some s' -> s_panic s' = false -> libs_below far (s_log s) (s_log s') ->
    forall r, r ∈ rs -> remembers s' r.
Proof.
  intros n. destruct flooded_start as (s0 & Hr0 & Hf0). destruct (flooded_all n 0 s0 Hf0) as (s & Hr & Hf).
  cbn [Nat.add] in *.
  assert (Hrun : run (ap_defaults 4) (sys_init 10 5 five_min 0) (flood n) = Some s).
  { unfold flood. rewrite run_app, Hr0. exact Hr. }
  assert (Hre : reaches (ap_defaults 4) 10 5 five_min 0 (flood n) s).
  { split; [vm_compute; reflexivity|]. split; [|done]. unfold flood. apply Forall_app. split; [u64s|].
    apply Forall_map, Forall_true. intros i. intros hd [= <-]. vm_compute. split; reflexivity. }
  pose proof Hf as (Hrunning & Hrest & Hheld & Hids & Hsub & Href).
  assert (Hrem : forall r, r ∈ map far_record (seq 0 n) -> remembers s r).
  { intros r (i & -> & Hi%elem_of_seq)%elem_of_list_fmap. apply remembers_ids. apply Hids. exists i. split; [lia|done]. }
  exists (flood n), s, (map far_record (seq 0 n)).
  split; [exact Hre|]. split; [exact Hrunning|]. split; [exact Hrest|]. split; [exact Hheld|]. split; [exact Hsub|].
  split; [|split; [|split; [|split; [exact Hrem|]]]].
  - intros b Hb. assert (exists i, i < 3 + n /\ b = far_block i) as (i & Hi & ->); [|by apply Href].
    unfold called, flood in Hb. rewrite omap_app in Hb. apply elem_of_app in Hb as [Hb|Hb].
    + unfold door in Hb. cbn in Hb. rewrite !elem_of_cons, elem_of_nil in Hb. destruct Hb as [->|[->|[->|[]]]]; [exists 0|exists 1|exists 2]; split; try reflexivity; lia.
    + apply elem_of_list_omap in Hb as (lab & (i & -> & Hi%elem_of_seq)%elem_of_list_fmap & [= <-]). exists i. split; [lia|done].
  - apply NoDup_fmap_2; [|apply NoDup_seq]. intros a b [= E]. by apply nid_inj.
  - by rewrite map_length, seq_length.
  - intros more s' HU Hm Hp Hb r Hr1. eapply run_keeps; [exact (reaches_inv _ _ _ _ _ _ _ Hre)|exact HU|exact Hm|exact Hp|exact (Hrem r Hr1)|].
    apply elem_of_list_fmap in Hr1 as (i & -> & _). exact Hb.
Qed.
Print Assumptions C114_memory_of_blocks_refuted.

(** A concrete case for the two positive theorems: four blocks are shown, one is held; after the last irreversible block 11 is
    processed only the block at height 13 and the far one are remembered. *)
Definition shown_sched : list label :=
  submit_call 0 b1 ++ submit_call 1 b3 ++ submit_call 2 (far_block 0) ++ [LCall orphan; LAnnounce (ForkHeads (Some 11%N) [])].
Definition kept_of (sched : list label) (s : sys) : list bool :=
  map (fun b => match b_header b with Some hd => bool_decide (str (b_id b) ∈ ids_of (s_wd s) (h_height hd) (str (h_signer hd)) (str (h_previous hd))) | None => false end) (called sched).
Lemma shown_run : final (fun s => (s_panic s, s_fh s, kept_of shown_sched s, (fun s' => (s_panic s', kept_of shown_sched s')) <$> step roomy s (LForkHeads 0 none_lost)))
  roomy (sys_init 10 5 five_min five) shown_sched = Some (false, [ForkHeads (Some 11%N) []], [true; true; true; true], Some (false, [false; true; true; false])).
Proof. vm_compute. reflexivity. Qed.
Example C114_nonvacuous : exists s s' fh,
  reaches roomy 10 5 five_min five shown_sched s /\ s_panic s = false /\ s_fh s !! 0 = Some fh /\ fh_lib fh = Some 11%N /\
  step roomy s (LForkHeads 0 none_lost) = Some s' /\ s_panic s' = false /\
  length (called shown_sched) = 4 /\ kept_of shown_sched s = [true; true; true; true] /\ kept_of shown_sched s' = [false; true; true; false].
Proof.
  pose proof shown_run as H. unfold final in H. set (K := kept_of shown_sched) in *. clearbody K. destruct (run roomy (sys_init 10 5 five_min five) shown_sched) as [s|] eqn:Hr; [|discriminate H].
  cbn [fmap option_fmap option_map] in H. injection H as Hp Hf Hk Hst. destruct (step roomy s (LForkHeads 0 none_lost)) as [s'|] eqn:Hs; cbn in Hst; [|discriminate Hst].
  injection Hst as Hp' Hk'.
  exists s, s', (ForkHeads (Some 11%N) []).
  split; [split; [vm_compute; reflexivity|split; [u64s|exact Hr]]|]. split; [exact Hp|]. split; [rewrite Hf; reflexivity|].
  split; [reflexivity|]. split; [exact Hs|]. split; [exact Hp'|]. split; [reflexivity|]. split; [exact Hk|exact Hk'].
Qed.

(** C115.  The error handler has a record of a host exactly if the host was once reported while its address was known. *)
Theorem C115_hosts_on_record_partial : forall decay o evs host,
  on_record (fst (eh_run decay o ∅ evs)) host <-> was_charged evs host.
Proof.
  intros decay o evs host.
  assert (H : forall st, on_record (fst (eh_run decay o st evs)) host <-> on_record st host \/ was_charged evs host).
  { induction evs as [|ev evs IH]; intros st.
    - split; [by left|]. intros [?|(n & i & a & e & ?%elem_of_nil & _)]; done.
    - cbn [eh_run]. destruct (eh_step decay o st ev) as [st' x] eqn:Hst. specialize (IH st'). destruct (eh_run decay o st' evs) as [st'' xs]. cbn [fst] in *.
      rewrite IH. assert (Hone : on_record st' host <-> on_record st host \/ exists n i a e, ev = EvError n i (Some a) e /\ ma_first a = host).
      { assert (Hins : forall k r0 (st0 : eh_state), on_record (<[k := r0]> st0) host <-> on_record st0 host \/ k = host).
        { intros k r0 st0. unfold on_record. destruct (decide (k = host)) as [->|]; [rewrite lookup_insert; split; eauto|rewrite lookup_insert_ne by done].
          split; [by left|]. by intros [?|?]. }
        destruct ev as [n i [a|] e|n a|n a]; cbn [eh_step] in Hst.
        - unfold eh_error in Hst. injection Hst as <- <-. rewrite Hins. split.
          + intros [?|?]; [by left|]. right. by exists n, i, a, e.
          + intros [?|(n' & i' & a' & e' & [= <- <- <- <-] & ?)]; [by left|by right].
        - cbn in Hst. injection Hst as <- <-. split; [by left|]. intros [?|(n' & i' & a' & e' & ? & ?)]; done.
        - unfold eh_can_connect in Hst. destruct (st !! host_of a) as [r0|] eqn:Hl; injection Hst as <- <-.
          + rewrite Hins. split; [intros [?|<-]; left; [done|by exists r0]|]. intros [?|(n' & i' & a' & e' & ? & ?)]; [by left|done].
          + split; [by left|]. intros [?|(n' & i' & a' & e' & ? & ?)]; done.
        - unfold eh_get_score in Hst. destruct (st !! host_of a) as [r0|] eqn:Hl; injection Hst as <- <-.
          + rewrite Hins. split; [intros [?|<-]; left; [done|by exists r0]|]. intros [?|(n' & i' & a' & e' & ? & ?)]; [by left|done].
          + split; [by left|]. intros [?|(n' & i' & a' & e' & ? & ?)]; done. }
      rewrite Hone. unfold was_charged. split.
      + intros [[?|(n & i & a & e & -> & ?)]|(n & i & a & e & ? & ?)]; [by left|right; exists n, i, a, e; split; [by left|done]|right; exists n, i, a, e; split; [by right|done]].
      + intros [?|(n & i & a & e & [E|?]%elem_of_cons & ?)]; [by left; left|left; right; by exists n, i, a, e|right; by exists n, i, a, e]. }
  rewrite H. unfold on_record. split; [|by right]. intros [(r & Hr)|?]; [by rewrite lookup_empty in Hr|done].
Qed.
Print Assumptions C115_hosts_on_record_partial.

(** C115 does not hold: forgiven hosts are never forgotten.  For every number [n]: [n] hosts make one error each at time 0; if
    the penalty has decayed to zero at time [t], every one of them then has a score of zero (and may connect), yet all [n] are
    on record, and stay on record whatever happens before or after that. *)
Definition one_each (e : goerr) (l : list nat) : list eh_event := map (fun i => EvError 0 "peer" (Some (Maddr (nid i) [])) e) l.
Lemma one_each_run decay o e l : NoDup l -> forall st, (forall i, i ∈ l -> st !! nid i = None) ->
  forall i, fst (eh_run decay o st (one_each e l)) !! nid i = if decide (i ∈ l) then Some (EhRec 0 (eh_score o e)) else st !! nid i.
Proof.
  induction 1 as [|j l Hj Hnd IH]; intros st Hst i; cbn [one_each map eh_run eh_step eh_error host_of ma_first].
  - cbn [fst]. by rewrite decide_False by (by intros ?%elem_of_nil).
  - assert (Hjn : st !! nid j = None) by (apply Hst; by left). rewrite Hjn.
    specialize (IH (<[nid j := EhRec 0 (eh_score o e)]> st)).
    fold (one_each e l). destruct (eh_run decay o (<[nid j := EhRec 0 (eh_score o e)]> st) (one_each e l)) as [st' x] eqn:E. cbn [fst] in *.
    rewrite IH.
    + destruct (decide (i = j)) as [->|Hne].
      * rewrite lookup_insert. rewrite decide_False by done. by rewrite decide_True by (by left).
      * rewrite lookup_insert_ne by (intros E2; by apply nid_inj in E2). destruct (decide (i ∈ l)); [by rewrite decide_True by (by right)|].
        rewrite decide_False; [done|]. by intros [?|?]%elem_of_cons.
    + intros k Hk. rewrite lookup_insert_ne; [apply Hst; by right|]. intros E2. apply nid_inj in E2. congruence.
Qed.
Theorem C115_forgiven_hosts_forgotten_refuted : forall decay o e t n, (0 <= t <= max_i64)%Z -> decay (eh_score o e) t = 0%N -> exists evs hosts,
  NoDup hosts /\ length hosts = n /\
  (forall a, ma_first a ∈ hosts -> snd (eh_get_score decay t a (fst (eh_run decay o ∅ evs))) = 0%N /\
     ((0 < o_reconnect o)%N -> snd (eh_can_connect decay o t a (fst (eh_run decay o ∅ evs))) = true)) /\
  forall later host, host ∈ hosts -> on_record (fst (eh_run decay o ∅ (evs ++ later))) host.
Proof.
  intros decay o e t n Ht Hz. exists (one_each e (seq 0 n)), (map nid (seq 0 n)). split; [|split; [|split]].
  - apply NoDup_fmap_2; [|apply NoDup_seq]. intros a b E. by apply nid_inj.
  - by rewrite map_length, seq_length.
  - intros a (i & Ha & Hi)%elem_of_list_fmap.
    assert (Hl : fst (eh_run decay o ∅ (one_each e (seq 0 n))) !! host_of a = Some (EhRec 0 (eh_score o e))).
    { unfold host_of. rewrite Ha, one_each_run; [by rewrite decide_True|apply NoDup_seq|]. intros j _. apply lookup_empty. }
    assert (Hs : time_sub t 0 = t) by (unfold time_sub, min_i64, max_i64 in *; lia).
    unfold eh_get_score, eh_can_connect. rewrite Hl. unfold eh_decay. cbn [fst snd er_score er_last]. rewrite Hs, Hz. split; [done|].
    intros Hr. by apply bool_decide_eq_true_2.
  - intros later host (i & -> & Hi)%elem_of_list_fmap. apply C115_hosts_on_record_partial.
    exists 0%Z, "peer"%string, (Maddr (nid i) []), e. split; [|done]. apply elem_of_app. left. apply elem_of_list_fmap. by exists i.
Qed.
Print Assumptions C115_forgiven_hosts_forgotten_refuted.
(** With the default options a failed block application costs 5000 points and the half-life is 30 minutes: after 13 half-lives,
    six and a half hours, the score is zero. *)
Example C115_nonvacuous : (0 <= 13 * (30 * minute) <= max_i64)%Z /\ decay_real (o_halflife eh_defaults) (eh_score eh_defaults (ESent ErrBlockApplication)) (13 * (30 * minute)) = 0%N /\
  was_charged (one_each (ESent ErrBlockApplication) [0; 1]) (nid 1) /\ ~ was_charged (one_each (ESent ErrBlockApplication) [0; 1]) (nid 2).
Proof.
  split; [vm_compute; split; discriminate|]. split; [|split].
  - rewrite (decay_real_halflives (o_halflife eh_defaults) _ 13); [vm_compute; reflexivity|]. vm_compute. reflexivity.
  - exists 0%Z, "peer"%string, (Maddr (nid 1) []), (ESent ErrBlockApplication). split; [right; by left|done].
  - intros (n & i & a & e & Hin & Ha). apply elem_of_list_fmap in Hin as (j & [= -> -> -> ->] & Hj). cbn in Ha. apply (nid_inj j 2) in Ha as ->.
    rewrite !elem_of_cons, elem_of_nil in Hj. lia.
Qed.
