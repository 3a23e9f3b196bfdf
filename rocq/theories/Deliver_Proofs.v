(** Proofs for C93: nothing recent is left waiting for a block that the chain has. *)
From Verif Require Import GoBase Util TxCache_Model TxCache_Spec TxCache_Proofs Watchdog_Model
  Applicator_Model Applicator_Spec Applicator_Core Applicator_Sys Applicator_Inv Applicator_Inv2 Applicator_Inv3 Applicator_Inv4
  Applicator_Inv5 Applicator_Inv6 Applicator_Inv7 Deliver_Spec.

(** ** Facts that only grow with the history *)
Lemma announced_mono root new log id : announced root log id -> announced root (new ++ log) id.
Proof. intros [?|(b & t & Hin & E)]; [by left|right]. exists b, t. split; [|done]. apply elem_of_app. by right. Qed.
Lemma applied_mono new log id : applied log id -> applied (new ++ log) id.
Proof. intros (i & k & Hin & E). exists i, k. split; [|done]. apply elem_of_app. by right. Qed.
Lemma has_mono root new log id : has_block root log id -> has_block root (new ++ log) id.
Proof. intros [?|?]; [left; by apply announced_mono|right; by apply applied_mono]. Qed.
Lemma truthful_back D root new log : truthful D root (new ++ log) -> truthful D root log.
Proof. intros H l i k r b t p HD ->. apply (H (new ++ l) i k r b t p HD). by rewrite <- (assoc_L (++)). Qed.
Lemma in_order_back root new log k : in_order root (new ++ log) k -> in_order root log k.
Proof. intros H l i t p ->. apply (H (new ++ l) i t p). by rewrite <- (assoc_L (++)). Qed.
Lemma call_step o s lab s' c cl : Step o s lab s' -> s_calls s !! c = Some cl -> exists cl', s_calls s' !! c = Some cl' /\ cl_blk cl' = cl_blk cl.
Proof.
  intros H Hc. assert (Hins : forall c0 cl0 cl', s_calls s !! c0 = Some cl0 -> cl_blk cl' = cl_blk cl0 -> exists cl1, <[c0 := cl']> (s_calls s) !! c = Some cl1 /\ cl_blk cl1 = cl_blk cl).
  { intros c0 cl0 cl' Hc0 Hb. destruct (decide (c0 = c)) as [->|].
    - exists cl'. rewrite list_lookup_insert by (by eapply lookup_lt_Some). split; [done|]. congruence.
    - exists cl. rewrite list_lookup_insert_ne by done. done. }
  assert (Heffs : forall l e x, s_calls x = s_calls s -> exists cl1, s_calls (do_effs l e x) !! c = Some cl1 /\ cl_blk cl1 = cl_blk cl).
  { intros l e x Ex. pose proof (do_effs_same l e x) as HS. destruct (s_calls (do_effs l e x) !! c) as [cl1|] eqn:E1.
    - destruct (se_blk _ _ _ HS _ _ E1) as (cl2 & E2 & Eb & _). rewrite Ex, Hc in E2. injection E2 as <-. by exists cl1.
    - apply lookup_ge_None in E1. rewrite (se_len _ _ _ HS), Ex in E1. apply lookup_lt_Some in Hc. lia. }
  destruct H; try (by exists cl); try (by apply Heffs).
  - exists cl. simpl. rewrite lookup_app_l by (by eapply lookup_lt_Some). done.
  - by eapply Hins.
  - by eapply Hins.
  - by eapply Hins.
Qed.
Lemma no_refusal_back D o s lab s' : Step o s lab s' -> no_refusal D s' -> no_refusal D s.
Proof.
  intros H (H1 & H2 & H3). destruct (step_log_grows _ _ _ _ H) as (new & El). rewrite El in H1, H2, H3. split_and!.
  - intros c cl e Hc HD Hin. destruct (call_step _ _ _ _ _ _ H Hc) as (cl' & Hc' & Eb). apply (H1 c cl' e Hc'); [by rewrite Eb|]. apply elem_of_app. by right.
  - intros i k e HD Hin. apply (H2 i k e HD). apply elem_of_app. by right.
  - intros i k r HD Hin. apply (H3 i k r HD). apply elem_of_app. by right.
Qed.
Lemma follows_back root head new log k : follows_parent root head (new ++ log) k -> follows_parent root head log k.
Proof. intros (H1 & H2). split; [done|]. intros b t Hin. apply (H2 b t). apply elem_of_app. by right. Qed.
Lemma hang_step o s lab s' : Step o s lab s' -> s_hang s = true -> s_hang s' = true.
Proof.
  intros H Hc. destruct H; simpl; try done; match goal with |- context [do_effs ?l ?e ?x] => rewrite (se_hang _ _ _ (do_effs_same l e x)); done end.
Qed.
Lemma now_step o s lab s' : Step o s lab s' -> (s_now s <= s_now s')%Z.
Proof.
  intros H. destruct H; simpl; try lia; match goal with |- context [do_effs ?l ?e ?x] => rewrite (se_now _ _ _ (do_effs_same l e x)); simpl; lia end.
Qed.
Lemma running_back o s lab s' : s_panic s = false -> Step o s lab s' -> running s' -> running s.
Proof.
  intros Hp H (H1 & H2 & H3). split_and!; [|done|].
  - destruct (s_cancelled s) eqn:E; [|done]. by rewrite (cancelled_step _ _ _ _ H E) in H1.
  - destruct (s_hang s) eqn:E; [|done]. by rewrite (hang_step _ _ _ _ H E) in H3.
Qed.
Lemma distinct_back D o s lab s' : Step o s lab s' -> ids_distinct D s' -> ids_distinct D s.
Proof. intros H HD k k' Hd Hk Hk'. apply HD; [done|by eapply known_step..]. Qed.
Lemma recent_back o t t' k : (t <= t')%Z -> recent o t' k -> recent o t k.
Proof. intros Ht (H1 & H2 & H3 & H4). unfold recent. split_and!; [done|done|lia|lia]. Qed.
Lemma recent_force o now k : recent o now k -> force_child o now k = true.
Proof.
  intros (H1 & H2 & H3 & H4). unfold force_child. apply bool_decide_eq_true. rewrite wrap_small by lia. unfold timestamp_instant in *. unfold time_sub. lia.
Qed.

Section family.
Context (D : string -> Prop).
(** No attempt failed for good, and none was given up waiting for the block's timestamp. *)
Definition untroubled (s : sys) : Prop :=
  (forall i k e, D (k_id k) -> OStatus i k (Some e) ∈ s_log s -> transient (Some e)) /\
  (forall i k r, D (k_id k) -> ODelayTimeout i k r ∉ s_log s).
Lemma untroubled_back o s lab s' : Step o s lab s' -> untroubled s' -> untroubled s.
Proof.
  intros H (H2 & H3). destruct (step_log_grows _ _ _ _ H) as (new & El). rewrite El in H2, H3. split.
  - intros i k e HD Hin. apply (H2 i k e HD). apply elem_of_app. by right.
  - intros i k r HD Hin. apply (H3 i k r HD). apply elem_of_app. by right.
Qed.
(** A change of the last irreversible block takes away none of the blocks held. *)
Definition keeps (s : sys) (lab : label) (s' : sys) : Prop := (exists i lose, lab = LForkHeads i lose) -> forall id, D id -> id ∈ held_ids s -> id ∈ held_ids s'.
Fixpoint kept (o : ap_opts) (s : sys) (sched : list label) : Prop :=
  match sched with [] => True | lab :: r => match step o s lab with Some s1 => keeps s lab s1 /\ kept o s1 r | None => True end end.
Record Env (root : gset string) (head : N) (s : sys) : Prop := {
  e_run : running s; e_truth : truthful D root (s_log s); e_ref : untroubled s;
  e_ids : ids_distinct D s; e_high : (max_accepted head (s_log s) + 1 < two64)%N }.
Lemma max_accepted_back head new log : (max_accepted head log <= max_accepted head (new ++ log))%N.
Proof. induction new as [|e new IH]; [done|]. simpl. destruct e; try done. destruct (b_header b); [lia|done]. Qed.
Lemma Env_back o root head s lab s' : s_panic s = false -> Step o s lab s' -> Env root head s' -> Env root head s.
Proof.
  intros Hp H [E1 E2 E3 E4 E5]. destruct (step_log_grows _ _ _ _ H) as (new & El). rewrite El in E2, E5. split.
  - by eapply running_back. - by eapply truthful_back. - by eapply untroubled_back. - by eapply distinct_back.
  - pose proof (max_accepted_back head new (s_log s)). lia.
Qed.

(** ** Attempts that will not come back with "unknown previous block" *)
Definition ready (root : gset string) (log : list event) (k : blk) : Prop := has_block root log (k_prev k) \/ applied log (k_id k).
Definition good (root : gset string) (log : list event) (i : nat) (k : blk) (p : phase) : Prop :=
  match p with
  | PDone => False
  | PRpc => exists later t past, log = later ++ OSubmit i k t :: past /\ ready root past k
  | PStatus r => is_err_opt r ErrUnknownPreviousBlock = false
  | _ => True
  end.
Lemma good_mono root new log i k p : good root log i k p -> good root (new ++ log) i k p.
Proof.
  destruct p; simpl; try done. intros (l & t & p & -> & Hr). exists (new ++ l), t, p. by rewrite <- (assoc_L (++)).
Qed.
Lemma ready_mono root new log k : ready root log k -> ready root (new ++ log) k.
Proof. intros [?|?]; [left; by apply has_mono|right; by apply applied_mono]. Qed.
(** A scheduled or running attempt that will count ([I]: the block is submitted in order only). *)
Definition tried (I : Prop) (root : gset string) (s : sys) (k : blk) : Prop :=
  (exists f t, (k, f, t) ∈ s_try s /\ (f = true \/ I)) \/
  (exists f t, (k, f, t) ∈ s_try s /\ k_id k ∉ c_pending (s_core s)) \/
  (exists i p, s_att s !! i = Some (Attempt k p) /\ good root (s_log s) i k p).

Lemma good_att_step o root head lib0 s lab s' i k p : Inv o head lib0 s -> s_panic s = false -> Step o s lab s' -> Env root head s' ->
  s_att s !! i = Some (Attempt k p) -> D (k_id k) -> good root (s_log s) i k p -> ready root (s_log s) k ->
  (exists p', s_att s' !! i = Some (Attempt k p') /\ good root (s_log s') i k p') \/
  (exists lose r, lab = LStatus i lose /\ p = PStatus r).
Proof.
  intros HI Hp H HE Hi HD Hg Hre. destruct (step_log_grows _ _ _ _ H) as (new & El).
  pose proof (Env_back _ _ _ _ _ _ Hp H HE) as HE0. destruct (e_run _ _ _ HE0) as (Hc & _ & _).
  pose proof (e_ref _ _ _ HE) as (_ & Hnd). pose proof (e_truth _ _ _ HE) as Htr.
  assert (Hkeep : s_att s' !! i = Some (Attempt k p) -> exists p', s_att s' !! i = Some (Attempt k p') /\ good root (s_log s') i k p').
  { intros E. exists p. split; [done|]. rewrite El. by apply good_mono. }
  assert (Halt : forall j q, j <> i -> s_att s' = alter (fun a => Attempt (at_blk a) q) j (s_att s) ->
    exists p', s_att s' !! i = Some (Attempt k p') /\ good root (s_log s') i k p').
  { intros j q Hne E. apply Hkeep. rewrite E. by rewrite list_lookup_alter_ne. }
  assert (Hown : forall q, s_att s' = alter (fun a => Attempt (at_blk a) q) i (s_att s) -> good root (s_log s') i k q ->
    exists p', s_att s' !! i = Some (Attempt k p') /\ good root (s_log s') i k p').
  { intros q E Hq. exists q. split; [|done]. rewrite E, list_lookup_alter, Hi. done. }
  destruct H; try (left; by apply Hkeep);
    try (match goal with |- context [s_att (do_effs ?l ?e ?x)] => left; apply Hkeep; rewrite (se_att _ _ _ (do_effs_same l e x)); done end).
  - left. apply Hkeep. simpl. rewrite lookup_app_l by (by eapply lookup_lt_Some). done.
  - left. destruct (decide (i0 = i)) as [->|Hne]; [|by eapply Halt]. rewrite Hi in H. injection H as -> ->.
    eapply Hown; [done|]. unfold start_phase. by case_bool_decide.
  - left. destruct (decide (i0 = i)) as [->|Hne]; [|by eapply Halt]. by eapply Hown.
  - left. destruct (decide (i0 = i)) as [->|Hne]; [|by eapply Halt]. rewrite Hi in H. injection H as -> ->. exfalso. eapply (Hnd i k0 res HD). simpl. left.
  - congruence.
  - left. destruct (decide (i0 = i)) as [->|Hne]; [|by eapply Halt]. by eapply Hown.
  - left. destruct (decide (i0 = i)) as [->|Hne]; [|by eapply Halt]. by eapply Hown.
  - left. destruct (decide (i0 = i)) as [->|Hne]; [|by eapply Halt]. rewrite Hi in H. injection H as -> ->.
    eapply Hown; [done|]. simpl. exists [], (s_now s), (s_log s). done.
  - left. destruct (decide (i0 = i)) as [->|Hne]; [|by eapply Halt]. rewrite Hi in H. injection H as -> ->.
    eapply Hown; [done|]. simpl in Hg |- *. destruct Hg as (l & t & past & E & Hr).
    eapply (Htr [] i k0 res l t past HD); [|done]. simpl. by rewrite E.
  - destruct (decide (i0 = i)) as [->|Hne]; [|left; eapply Halt; [done|]; match goal with |- context [s_att (do_effs ?l ?e ?x)] => rewrite (se_att _ _ _ (do_effs_same l e x)); done end].
    right. rewrite Hi in H0. injection H0 as -> ->. eauto.
Qed.

(** The end of an attempt that succeeded. *)
Definition completes (s : sys) (lab : label) (k : blk) : Prop :=
  exists i lose, lab = LStatus i lose /\ s_att s !! i = Some (Attempt k (PStatus None)).
Lemma pending_step o s lab s' id : Step o s lab s' -> id ∉ c_pending (s_core s) -> id ∈ c_pending (s_core s') ->
  exists k, k_id k = id /\ s_att s' = s_att s ++ [Attempt k PStart] /\ exists f t, (k, f, t) ∈ s_try s.
Proof.
  intros H Hn Hin.
  destruct H; try done; try (match goal with _ : context [do_effs ?l ?e ?x] |- _ => pose proof (do_effs_same l e x) as HS; rewrite (se_core _ _ _ HS) in Hin; simpl in Hin end).
  - apply handle_lib_new in H2 as (_ & _ & E). rewrite E in Hin. done.
  - simpl in Hin. exists k. split; [set_solver|]. split; [done|]. exists f, t. by eapply elem_of_list_lookup_2.
  - apply handle_lib_status in H1 as (_ & _ & E). rewrite E in Hin. set_solver.
  - destruct (handle_lib_fork_heads _ _ _ _ _ _ _ H1 H3) as (_ & _ & E). rewrite E in Hin. done.
  - apply handle_lib_broadcast in H3 as (_ & _ & E). rewrite E in Hin. done.
Qed.
Lemma request_step o s lab s' k f t : Step o s lab s' -> s_cancelled s = false -> (k, f, t) ∈ s_try s ->
  (k, f, t) ∈ s_try s' \/ (exists t', (k, true, t') ∈ s_try s' /\ f = true) \/
  s_att s' !! length (s_att s) = Some (Attempt k PStart) \/ (f = false /\ k_id k ∈ c_pending (s_core s)).
Proof.
  intros H Hc Hin.
  destruct H; try (by left); try (match goal with |- context [do_effs ?l ?e ?x] => left; rewrite (se_try _ _ _ (do_effs_same l e x)); set_solver end).
  - destruct (elem_delete_or _ _ _ _ Hin H0) as [Heq|Hne]; [|by left].
    injection Heq as -> -> ->. right; right; left. simpl. rewrite lookup_app_r, Nat.sub_diag by lia. done.
  - destruct (elem_delete_or _ _ _ _ Hin H0) as [Heq|Hne]; [|left; simpl; apply elem_of_app; by left].
    injection Heq as -> -> ->. right; left. eexists. split; [|done]. simpl. apply elem_of_app. right. left.
  - destruct (elem_delete_or _ _ _ _ Hin H0) as [Heq|Hne]; [|by left].
    injection Heq as -> -> ->. right; right; right. done.
  - congruence.
Qed.
(** An attempt at a block that is submitted in order only. *)
Lemma in_order_good o root head lib0 s i k p : Inv o head lib0 s -> Env root head s -> D (k_id k) -> in_order root (s_log s) k ->
  s_att s !! i = Some (Attempt k p) -> p <> PDone -> good root (s_log s) i k p.
Proof.
  intros HI HE HD Ho Hi Hp. pose proof (j_phase _ _ (v_just _ _ _ _ HI) _ _ _ Hi) as Hj. destruct p as [| | | | |r|]; try done; cbn [good].
  - destruct Hj as (t & Hin). apply elem_of_list_split in Hin as (l1 & l2 & El). exists l1, t, l2. split; [done|]. left. by eapply Ho.
  - destruct Hj as [Hin|[Hin|(-> & _)]]; [| |done].
    + apply elem_of_list_split in Hin as (l1 & l2 & El). destruct (Hist_split _ _ _ _ _ (j_hist _ _ (v_just _ _ _ _ HI)) El) as (t & Hin2).
      apply elem_of_list_split in Hin2 as (l3 & l4 & El2). rewrite El2 in El. eapply (e_truth _ _ _ HE l1 i k r l3 t l4 HD El).
      left. eapply (Ho (l1 ++ OResult i k r :: l3) i t l4). by rewrite <- (assoc_L (++)).
    + exfalso. destruct (e_ref _ _ _ HE) as (_ & Hnd). by eapply Hnd.
Qed.
Lemma pending_live o head lib0 s k : Inv o head lib0 s -> s_cancelled s = false -> ids_distinct D s -> D (k_id k) -> passed s k -> k_id k ∈ c_pending (s_core s) ->
  exists i p, s_att s !! i = Some (Attempt k p) /\ p <> PDone.
Proof.
  intros HI Hc Hids HD Hk Hin. destruct (at_conv _ _ (v_atts _ _ _ _ HI)) with (k_id k) as (i & [k' p] & Hi & Hl & E); [done|done|].
  cbn [at_blk] in E. assert (k = k') as <- by (apply Hids; [done|done|by apply (pv_att s (v_prov _ _ _ _ HI) i _ Hi)|done]).
  exists i, p. split; [done|]. by intros ->.
Qed.
Lemma tried_step (I : Prop) o root head lib0 s lab s' k : Inv o head lib0 s -> s_panic s = false -> Step o s lab s' -> Env root head s' ->
  D (k_id k) -> (I -> in_order root (s_log s') k) ->
  passed s k -> ready root (s_log s) k -> tried I root s k -> tried I root s' k \/ completes s lab k.
Proof.
  intros HI Hp H HE HD HO Hk Hre Htr.
  pose proof (Env_back _ _ _ _ _ _ Hp H HE) as HE0. destruct (e_run _ _ _ HE0) as (Hc & _ & _). destruct (step_log_grows _ _ _ _ H) as (new & El).
  assert (Hcases : (exists t, (k, true, t) ∈ s_try s) \/ (exists f t, (k, f, t) ∈ s_try s /\ k_id k ∉ c_pending (s_core s)) \/
    (exists i p, s_att s !! i = Some (Attempt k p) /\ good root (s_log s) i k p)).
  { destruct Htr as [(f & t & Hin & [->|HI'])|[?|?]]; [left; eauto| |by right; left|by right; right].
    right. destruct (decide (k_id k ∈ c_pending (s_core s))) as [Hpd|Hpd]; [right|left; eauto].
    destruct (pending_live _ _ _ _ _ HI Hc (e_ids _ _ _ HE0) HD Hk Hpd) as (i & p & Hi & Hnp). exists i, p. split; [done|].
    eapply in_order_good; [exact HI|exact HE0|done| |exact Hi|done]. specialize (HO HI'). rewrite El in HO. by eapply in_order_back. }
  clear Htr. destruct Hcases as [(t & Hin)|[(f & t & Hin & Hnp)|(i & p & Hi & Hg)]].
  - destruct (request_step _ _ _ _ _ _ _ H Hc Hin) as [?|[(t' & ? & _)|[Ha|(? & _)]]]; [left; left; exists true; eauto|left; left; exists true; eauto| |done].
    left. right. right. eexists _, _. split; [exact Ha|done].
  - destruct (request_step _ _ _ _ _ _ _ H Hc Hin) as [Hin'|[(t' & ? & _)|[Ha|(_ & ?)]]]; [|left; left; exists true; eauto| |done].
    + left. destruct (decide (k_id k ∈ c_pending (s_core s'))) as [Hp'|Hnp'].
      * destruct (pending_step _ _ _ _ _ H Hnp Hp') as (k' & Eid & Ea & f' & t' & Hin2).
        assert (k = k') as <-. { apply (e_ids _ _ _ HE0); [done|done| |done]. by eapply (pv_try s (v_prov _ _ _ _ HI)). }
        right. right. exists (length (s_att s)), PStart. rewrite Ea, lookup_app_r, Nat.sub_diag by lia. done.
      * right. left. eauto.
    + left. right. right. eexists _, _. split; [exact Ha|done].
  - destruct (good_att_step _ _ _ _ _ _ _ _ _ _ HI Hp H HE Hi HD Hg Hre) as [?|(lose & r & -> & ->)]; [left; right; right; eauto|].
    destruct r as [e|]; [|right; by exists i, lose]. left.
    pose proof (e_ref _ _ _ HE) as (Hst & _).
    inversion H as [| | | | | | | | | | | | | | | | | | |? ? k0 res core' effs Hs Hi' Hh| | | | | | | | | | | | | | | | | |]; subst.
    rewrite Hi in Hi'. injection Hi' as <- <-.
    match goal with |- context [do_effs ?l ?e ?x] => pose proof (do_effs_same l e x) as HS end.
    assert (Htrans : transient (Some e)).
    { apply (Hst i k e HD). destruct (se_log _ _ _ HS) as (new2 & -> & _). apply elem_of_app. right. left. }
    cbn [good] in Hg. destruct Htrans as [Hbs|?]; [|congruence].
    apply handle_status_cases in Hh as [(_ & -> & ->)|[(? & _)|(? & _)]]; [|congruence|congruence].
    right. left. exists false, (s_now s). rewrite (se_try _ _ _ HS), (se_core _ _ _ HS). simpl. split; [|set_solver].
    apply elem_of_app. right. left.
Qed.

(** ** What is under way belongs to a held or an applied block *)
Record Work (root : gset string) (s : sys) : Prop := {
  w_chans : forall id e, c_byid (s_core s) !! id = Some e -> e_chans e <> [];
  w_try : forall k f t, D (k_id k) -> (k, f, t) ∈ s_try s -> k_id k ∈ held_ids s \/ applied (s_log s) (k_id k);
  w_att : forall i k p, D (k_id k) -> s_att s !! i = Some (Attempt k p) -> p <> PDone ->
    k_id k ∈ held_ids s \/ (applied (s_log s) (k_id k) /\ good root (s_log s) i k p) }.

Lemma status_logged o s i lose s' k r : Step o s (LStatus i lose) s' -> s_att s !! i = Some (Attempt k (PStatus r)) -> OStatus i k r ∈ s_log s'.
Proof.
  intros H Hi. inversion H as [| | | | | | | | | | | | | | | | | | |? ? k0 res core' effs Hs Hi' Hh| | | | | | | | | | | | | | | | | |]; subst.
  rewrite Hi in Hi'. injection Hi' as <- <-.
  match goal with |- context [do_effs ?l ?e ?x] => destruct (se_log _ _ _ (do_effs_same l e x)) as (new & -> & _) end.
  apply elem_of_app. right. left.
Qed.
(** A held block leaves only when an attempt at it succeeded. *)
Lemma stays o root head lib0 s lab s' id : u64_label lab -> Inv o head lib0 s -> step o s lab = Some s' -> Env root head s' -> keeps s lab s' ->
  D id -> id ∈ held_ids s -> id ∈ held_ids s' \/ exists k, completes s lab k /\ k_id k = id.
Proof.
  intros Hu HI Hstep HE HK HD Hin. destruct (decide (id ∈ held_ids s')) as [?|Hgone]; [by left|right]. pose proof Hin as Hin0.
  unfold held_ids in Hin. apply elem_of_dom in Hin as ([k cs] & He).
  pose proof Hstep as Hst. apply step_Step in Hst as [Hp Hst].
  destruct (leaves_step _ _ _ _ _ _ _ _ _ HI Hstep He Hgone) as [(i & lose & k' & res & -> & Hi & Eid & Hnt)|(i & lose & fh & lib & -> & Hf & Hl & Hle)].
  - destruct res as [e|]; [|exists k'; split; [by exists i, lose|done]]. exfalso. apply Hnt.
    pose proof (e_ref _ _ _ HE) as (Hs & _). eapply Hs; [by rewrite Eid|]. by eapply status_logged.
  - exfalso. apply Hgone. apply HK; eauto.
Qed.

Lemma att_back o s lab s' i k p' : Step o s lab s' -> s_att s' !! i = Some (Attempt k p') -> p' <> PDone ->
  (exists p, s_att s !! i = Some (Attempt k p) /\ p <> PDone) \/
  (p' = PStart /\ exists f t, (k, f, t) ∈ s_try s).
Proof.
  intros H Hi Hp'.
  assert (Halt : forall j q q0 k0, s_att s !! j = Some (Attempt k0 q0) -> q0 <> PDone -> alter (fun a => Attempt (at_blk a) q) j (s_att s) !! i = Some (Attempt k p') ->
    exists p, s_att s !! i = Some (Attempt k p) /\ p <> PDone).
  { intros j q q0 k0 Hj Hq E. apply alter_lookup_phase in E as [(-> & a0 & Ha & Heq)|(_ & ?)]; [|eauto].
    rewrite Hj in Ha. injection Ha as <-. injection Heq as -> ->. eauto. }
  destruct H; try (left; by eauto); try (left; eapply Halt; [eassumption| |exact Hi]; done);
    try (match goal with _ : context [s_att (do_effs ?l ?e ?x)] |- _ => rewrite (se_att _ _ _ (do_effs_same l e x)) in Hi; simpl in Hi; left; by eauto end).
  - simpl in Hi. apply lookup_app_Some in Hi as [?|(_ & Hi)]; [left; eauto|]. apply list_lookup_singleton_Some in Hi as [_ Heq]. injection Heq as <- <-.
    right. split; [done|]. exists f, t. by eapply elem_of_list_lookup_2.
  - left. eapply Halt; [eassumption| |exact Hi]. by destruct H1 as [(? & ? & ->)|(? & ->)].
Qed.
Lemma status_done o s i lose s' k p : Step o s (LStatus i lose) s' -> s_att s' !! i = Some (Attempt k p) -> p = PDone.
Proof.
  intros H Hi. inversion H as [| | | | | | | | | | | | | | | | | | |? ? k0 res core' effs Hs Hi' Hh| | | | | | | | | | | | | | | | | |]; subst.
  rewrite (se_att _ _ _ (do_effs_same _ _ _)) in Hi. simpl in Hi. rewrite list_lookup_alter, Hi' in Hi. by injection Hi.
Qed.
Lemma completes_applied o root head lib0 s lab s' k : Inv o head lib0 s -> s_panic s = false -> Step o s lab s' -> Env root head s' ->
  D (k_id k) -> completes s lab k -> applied (s_log s) (k_id k).
Proof.
  intros HI Hp Hst HE HD (i & lose & -> & Hi). pose proof (Env_back _ _ _ _ _ _ Hp Hst HE) as HE0. destruct (e_ref _ _ _ HE0) as (_ & Hnd).
  destruct (j_phase _ _ (v_just _ _ _ _ HI) _ _ _ Hi) as [?|[Hd|(? & _)]]; [by exists i, k|by apply (Hnd _ _ _ HD) in Hd|done].
Qed.
Lemma held_or_applied o root head lib0 s lab s' id : u64_label lab -> Inv o head lib0 s -> step o s lab = Some s' -> Env root head s' -> keeps s lab s' -> Work root s ->
  D id -> id ∈ held_ids s \/ applied (s_log s) id -> id ∈ held_ids s' \/ applied (s_log s') id.
Proof.
  intros Hu HI Hstep HE HK HW HD Hor. pose proof Hstep as Hst. apply step_Step in Hst as [Hp Hst].
  destruct (step_log_grows _ _ _ _ Hst) as (new & El).
  assert (Hap : applied (s_log s) id -> applied (s_log s') id) by (intros; rewrite El; by apply applied_mono).
  destruct Hor as [Hin|?]; [|auto].
  destruct (stays _ _ _ _ _ _ _ _ Hu HI Hstep HE HK HD Hin) as [?|(k & Hc & <-)]; [auto|]. right. apply Hap. by eapply completes_applied.
Qed.
(** Where new requests come from. *)
Lemma spawned o head lib0 s lab s' k f t : Inv o head lib0 s -> s_panic s = false -> Step o s lab s' -> (k, f, t) ∈ s_try s' ->
  (exists f' t', (k, f', t') ∈ s_try s) \/
  (exists id cs, c_byid (s_core s) !! id = Some (Entry k cs)) \/
  (exists i p, s_att s !! i = Some (Attempt k p) /\ p <> PDone) \/
  k_id k ∈ held_ids s'.
Proof.
  intros HI Hp H Hin. assert (Hdel : forall i, (k, f, t) ∈ delete i (s_try s) -> exists f' t', (k, f', t') ∈ s_try s) by (intros i Hd; exists f, t; by eapply elem_of_delete).
  destruct H; try (left; by eauto); try (left; eapply Hdel; exact Hin);
    try (match goal with _ : context [s_try (do_effs ?l ?e ?x)] |- _ => pose proof (do_effs_same l e x) as HS; rewrite (se_try _ _ _ HS) in Hin; simpl in Hin;
      apply elem_of_app in Hin as [Hin|Hin%elem_spawns]; [left; by eauto|] end).
  - right. right. right. unfold held_ids. rewrite (se_core _ _ _ HS). cbn [s_core set_core].
    destruct (handle_new_spawn _ _ _ _ _ _ _ _ _ _ H2 Hin) as (-> & -> & ->). apply handle_new_cases in H2 as [(e & _ & _ & ->)|[_ Hadd]].
    + apply elem_of_map in Hin as (? & ? & _). done.
    + unfold add_entry in Hadd. injection Hadd as <- _. apply elem_of_dom. destruct (c_byid (s_core s) !! k_id (cl_blk cl)); simpl; rewrite lookup_insert; eauto.
  - simpl in Hin. apply elem_of_app in Hin as [Hin|Hin]; [eauto|]. apply elem_of_list_singleton in Hin. injection Hin as -> -> ->.
    left. exists true, t0. by eapply elem_of_list_lookup_2.
  - destruct (handle_status_spawn _ _ _ _ _ _ _ _ _ _ H1 Hin) as (_ & [(-> & _)|(_ & cid & e & He & ->)]).
    + right. right. left. eexists _, _. split; [exact H0|done].
    + right. left. destruct e as [ke cs]. eauto.
  - destruct (handle_fork_heads_spawn _ _ _ _ _ _ _ _ _ H3 Hin) as (_ & _ & cid & e & He & ->). right. left. destruct e as [ke cs]. eauto.
  - right. left. injection H3 as <- <-. apply children_spawn in Hin as (_ & _ & cid & e & He & ->). destruct e as [ke cs]. eauto.
Qed.
Lemma chans_step o head lib0 s lab s' : Inv o head lib0 s -> Step o s lab s' ->
  (forall id e, c_byid (s_core s) !! id = Some e -> e_chans e <> []) -> forall id e, c_byid (s_core s') !! id = Some e -> e_chans e <> [].
Proof.
  intros HI H HC id e He.
  destruct H; try (by eapply HC); match goal with _ : context [do_effs ?l ?e ?x] |- _ => pose proof (do_effs_same l e x) as HS; rewrite (se_core _ _ _ HS) in He; cbn [s_core set_core add_log] in He end.
  - apply handle_new_cases in H2 as [(? & _ & -> & _)|[_ Hadd]]; [by eapply HC|]. unfold add_entry in Hadd. injection Hadd as <- _.
    destruct (c_byid (s_core s) !! k_id (cl_blk cl)) as [old|] eqn:Eo; simpl in He; apply lookup_insert_Some in He as [(_ & <-)|(_ & He)]; try (by eapply HC); simpl; [|done].
    by destruct (e_chans old).
  - apply handle_status_cases in H1 as [(_ & -> & _)|[(_ & _ & -> & _)|(_ & _ & ans & Hs & _)]]; [by eapply HC|by eapply HC|].
    destruct (decide (id = k_id k)) as [->|Hne]; [by rewrite (sh_gone _ _ _ _ _ Hs) in He|]. rewrite (sh_stay _ _ _ _ _ Hs) in He by done. by eapply HC.
  - assert (Hlt : (lib < two64)%N) by (eapply (lb_fh s (v_libs _ _ _ _ HI) fh); [by eapply elem_of_list_lookup_2|done]).
    assert (Hlt' : (lib < max_u64)%N) by (unfold max_u64 in *; lia).
    destruct (handle_fork_heads_cases _ _ _ _ _ _ _ (a_ok s (v_acc _ _ _ _ HI)) H1 Hlt' (lb_lib s (v_libs _ _ _ _ HI)) H3) as (ans & _ & Hsh).
    destruct (handled_none_sub _ _ _ _ _ (handle_fork_heads_handled _ _ _ _ _ _ _ (a_ok s (v_acc _ _ _ _ HI)) H1 Hlt' (lb_lib s (v_libs _ _ _ _ HI)) H3) He) as (e3 & He3 & Ek).
    destruct (decide (add64 (c_lib (s_core s)) 1 <= k_height (e_blk e3) <= lib)%N) as [Hx|Hx].
    + rewrite (sh_gone _ _ _ _ _ Hsh) in He; [done|]. exists e3. done.
    + rewrite (sh_stay _ _ _ _ _ Hsh) in He; [by eapply HC|]. intros (e4 & He4 & Hx4). simpl in He4. rewrite He3 in He4. injection He4 as <-. done.
  - injection H3 as <- _. by eapply HC.
Qed.
(** When no call is answered with an error, blocks are kept. *)
Lemma refused_keeps o head lib0 s lab s' : u64_label lab -> Inv o head lib0 s -> step o s lab = Some s' -> running s' -> no_refusal D s' ->
  (forall id e, c_byid (s_core s) !! id = Some e -> e_chans e <> []) -> keeps s lab s'.
Proof.
  intros Hu HI Hstep Hrun (Hna & _ & _) HW (i & lose & ->) id HD Hin. destruct (decide (id ∈ held_ids s')) as [?|Hgone]; [done|exfalso].
  unfold held_ids in Hin. apply elem_of_dom in Hin as ([k cs] & He).
  pose proof Hstep as Hst. apply step_Step in Hst as [Hp Hst].
  destruct (leaves_step _ _ _ _ _ _ _ _ _ HI Hstep He Hgone) as [(i' & lose' & k' & res & ? & _)|(i' & lose' & fh & lib & E & Hf & Hl & Hle)]; [done|].
  injection E as <- <-. pose proof (Inv_step _ _ _ _ _ _ Hu HI Hp Hst) as HI'.
  destruct cs as [|c cs]; [by apply (HW _ _ He)|].
  (* the first caller was answered in this step *)
  assert (Hwait : c ∈ waiting s). { apply elem_of_app. right. apply elem_all_chans. exists id, (Entry k (c :: cs)). split; [done|]. left. }
  destruct (a_open s (v_acc _ _ _ _ HI) c Hwait) as (cl & Hcl & Hbuf & Hph).
  inversion Hst as [| | | | | | | | | | | | | | | | | | | | |? ? fh0 Hs Hf' Hl'|? ? fh0 Hs Hf' Hl'|? ? fh0 lib' core' effs Hs Hf' Hl' Hne Hh| | | | | | | | | | | | | |]; subst.
  + destruct Hrun as (_ & ? & _). done.
  + destruct Hrun as (_ & _ & ?). done.
  + rewrite Hf in Hf'. injection Hf' as <-. rewrite Hl in Hl'. injection Hl' as <-.
    assert (Hlt : (lib < two64)%N) by (eapply (lb_fh s (v_libs _ _ _ _ HI) fh); [by eapply elem_of_list_lookup_2|done]).
    assert (Hlt' : (lib < max_u64)%N) by (unfold max_u64 in *; lia).
    destruct (handle_fork_heads_cases _ _ _ _ _ _ _ (a_ok s (v_acc _ _ _ _ HI)) Hl Hlt' (lb_lib s (v_libs _ _ _ _ HI)) Hh) as (ans & -> & Hsh).
    match type of HI' with Inv _ _ _ (do_effs ?l ?e ?x) => pose proof (do_effs_same l e x) as HS end.
    match type of HI' with Inv _ _ _ ?x => set (s1 := x) in * end.
    assert (Hnw : c ∉ waiting s1).
    { unfold waiting. rewrite (se_new _ _ _ HS), (se_core _ _ _ HS). simpl. intros [Hn|Hn]%elem_of_app.
      - pose proof (a_nodup s (v_acc _ _ _ _ HI)) as Hnd. unfold waiting in Hnd. apply NoDup_app in Hnd as (_ & Hnd & _).
        apply (Hnd c Hn). apply elem_all_chans. exists id, (Entry k (c :: cs)). split; [done|]. left.
      - apply elem_all_chans in Hn as (id2 & e2 & He2 & Hc2).
        assert (He2s : c_byid (s_core s) !! id2 = Some e2).
        { destruct (handled_none_sub _ _ _ _ _ (handle_fork_heads_handled _ _ _ _ _ _ _ (a_ok s (v_acc _ _ _ _ HI)) Hl Hlt' (lb_lib s (v_libs _ _ _ _ HI)) Hh) He2) as (e3 & He3 & Ek).
          destruct (decide (add64 (c_lib (s_core s)) 1 <= k_height (e_blk e3) <= lib)%N) as [Hx|Hx].
          - rewrite (sh_gone _ _ _ _ _ Hsh) in He2; [done|]. exists e3. done.
          - rewrite (sh_stay _ _ _ _ _ Hsh) in He2; [done|]. intros (e4 & He4 & Hx4). simpl in He4. rewrite He3 in He4. injection He4 as <-. done. }
        assert (id2 = id) as ->.
        { eapply (chans_one_entry (c_byid (s_core s))); [|exact He2s|exact He|exact Hc2|left].
          pose proof (a_nodup s (v_acc _ _ _ _ HI)) as Hnd. unfold waiting in Hnd. by apply NoDup_app in Hnd as (_ & _ & Hnd). }
        apply Hgone. unfold held_ids. apply elem_of_dom. rewrite (se_core _ _ _ HS). simpl. eauto. }
    destruct (s_calls s1 !! c) as [cl'|] eqn:Hcl'.
    2:{ apply lookup_ge_None in Hcl'. rewrite (se_len _ _ _ HS) in Hcl'. apply lookup_lt_Some in Hcl. simpl in Hcl'. lia. }
    destruct (se_blk _ _ _ HS c cl' Hcl') as (cl2 & Hcl2 & Eb & Ep). simpl in Hcl2. rewrite Hcl in Hcl2. injection Hcl2 as <-.
    destruct (cl_buf cl') as [r|] eqn:Hb'.
    2:{ apply Hnw. eapply (a_held s1 (v_acc _ _ _ _ HI')); [|exact Hcl'|congruence|done]. by destruct Hrun. }
    assert (Hlog : OAnswer c r ∈ s_log s1) by (apply (a_log s1 (v_acc _ _ _ _ HI')); eauto).
    destruct (se_log _ _ _ HS) as (new & El & Hnew). rewrite El in Hlog. apply elem_of_app in Hlog as [Hx|Hx].
    * destruct (Hnew _ Hx) as (ch & res & Eq & Hans). injection Eq as <- <-.
      apply elem_of_app in Hans as [Hans|Hans].
      -- apply elem_of_list_join in Hans as (l & Hl2 & Hl3). apply elem_of_map in Hl3 as (x & -> & _).
         destruct (children_only_spawn _ _ _ _ _ Hl2) as (? & ? & ? & ?). done.
      -- destruct (sh_effs _ _ _ _ _ Hsh _ Hans) as (ch & id2 & e2 & Eq & _). injection Eq as <- ->.
         apply (Hna c cl' (ESent ErrBlockIrreversibility) Hcl'); [|].
         { destruct (a_ids s (v_acc _ _ _ _ HI) _ _ _ He (elem_of_list_here _ _)) as (cl9 & Hc9 & E9). rewrite Hcl in Hc9. injection Hc9 as <-. rewrite Eb. by rewrite E9. }
         fold s1. rewrite El. apply elem_of_app. by left.
    * simpl in Hx. apply elem_of_cons in Hx as [?|Hx]; [done|].
      apply (a_log s (v_acc _ _ _ _ HI)) in Hx as (cl3 & Hc3 & Hb3). congruence.
Qed.
Lemma run_back o sched : forall s s', run o s sched = Some s' -> running s' -> no_refusal D s' -> running s /\ no_refusal D s.
Proof.
  induction sched as [|lab r IH]; intros s s' Hr H1 H2; cbn in Hr; [by injection Hr as <-|]. destruct (step o s lab) as [s1|] eqn:Hst; [|done].
  apply step_Step in Hst as [Hp Hst]. destruct (IH _ _ Hr H1 H2). split; [by eapply running_back|by eapply no_refusal_back].
Qed.
Lemma refused_kept o head lib0 sched : forall s s', Forall u64_label sched -> Inv o head lib0 s -> (forall id e, c_byid (s_core s) !! id = Some e -> e_chans e <> []) ->
  run o s sched = Some s' -> running s' -> no_refusal D s' -> kept o s sched.
Proof.
  induction sched as [|lab r IH]; intros s s' Hu HI HC Hr H1 H2; [done|]. cbn in Hr |- *. apply Forall_cons in Hu as [Hu1 Hu2].
  destruct (step o s lab) as [s1|] eqn:Hstep; [|done]. pose proof Hstep as Hst. apply step_Step in Hst as [Hp Hst].
  destruct (run_back _ _ _ _ Hr H1 H2) as [R1 R2]. split; [by eapply refused_keeps|]. eapply IH; [done|by eapply Inv_step|by eapply chans_step|exact Hr|done|done].
Qed.
Lemma Work_step o root head lib0 s lab s' : u64_label lab -> Inv o head lib0 s -> step o s lab = Some s' -> Env root head s' -> keeps s lab s' -> Work root s -> Work root s'.
Proof.
  intros Hu HI Hstep HE HK HW. pose proof Hstep as Hst. apply step_Step in Hst as [Hp Hst].
  destruct (step_log_grows _ _ _ _ Hst) as (new & El).
  assert (Hor : forall id, D id -> id ∈ held_ids s \/ applied (s_log s) id -> id ∈ held_ids s' \/ applied (s_log s') id)
    by (intros id; by eapply held_or_applied).
  split.
  - eapply chans_step; [exact HI|exact Hst|apply HW].
  - intros k f t HD Hin. destruct (spawned _ _ _ _ _ _ _ _ _ HI Hp Hst Hin) as [(f' & t' & Hin')|[(id & cs & He)|[(i & p & Hi & Hnp)|?]]]; [| | |by left].
    + apply Hor; [done|]. by eapply (w_try _ _ HW).
    + apply Hor; [done|]. left. unfold held_ids. apply elem_of_dom. pose proof (ok_id _ (a_ok s (v_acc _ _ _ _ HI)) id _ He) as E. cbn [e_blk] in E. rewrite E. eauto.
    + apply Hor; [done|]. destruct (w_att _ _ HW _ _ _ HD Hi Hnp) as [?|(? & _)]; auto.
  - intros i k p' HD Hi' Hp'. destruct (att_back _ _ _ _ _ _ _ Hst Hi' Hp') as [(p & Hi & Hnp)|(-> & f & t & Hin)].
    + destruct (w_att _ _ HW _ _ _ HD Hi Hnp) as [Hheld|(Hap & Hg)].
      * destruct (stays _ _ _ _ _ _ _ _ Hu HI Hstep HE HK HD Hheld) as [?|(k2 & (j & lose & -> & Hj) & Eid)]; [by left|exfalso].
        assert (j = i) as ->.
        { eapply (at_uniq _ _ (v_atts _ _ _ _ HI)); [exact Hj|exact Hi|done|by destruct p|done]. }
        apply Hp'. by eapply status_done.
      * right. destruct (good_att_step _ _ _ _ _ _ _ _ _ _ HI Hp Hst HE Hi HD Hg (or_intror Hap)) as [(p2 & Hi2 & Hg2)|(lose & r & -> & ->)].
        -- rewrite Hi' in Hi2. injection Hi2 as <-. split; [rewrite El; by apply applied_mono|done].
        -- exfalso. apply Hp'. by eapply status_done.
    + destruct (Hor (k_id k) HD (w_try _ _ HW _ _ _ HD Hin)) as [?|?]; [by left|right]. done.
Qed.

(** ** The invariant: a recent held block whose parent the chain has is being tried, or waits for its parent *)
Definition served (I : Prop) (root : gset string) (s : sys) (C : blk) : Prop :=
  tried I root s C \/ k_prev C ∈ held_ids s \/
  exists P, k_id P = k_prev C /\ passed s P /\ applied (s_log s) (k_id P) /\ tried False root s P.
Definition Served (o : ap_opts) (root : gset string) (head : N) (C : blk) (s : sys) : Prop :=
  forall I : Prop, (I -> in_order root (s_log s) C) -> recent o (s_now s) C \/ I -> follows_parent root head (s_log s) C -> announced root (s_log s) (k_prev C) ->
  forall id cs, held s id C cs -> served I root s C.
Lemma max_accepted_has head log b h t : OAccepted b t ∈ log -> b_header b = Some h -> (h_height h <= max_accepted head log)%N.
Proof.
  intros Hin Hh. induction log as [|e log IH]; [set_solver|]. apply elem_of_cons in Hin as [<-|Hin].
  - simpl. rewrite Hh. lia.
  - specialize (IH Hin). simpl. destruct e; try done. destruct (b_header b0); [lia|done].
Qed.
Lemma max_accepted_head head log : (head <= max_accepted head log)%N.
Proof. induction log as [|e log IH]; [done|]. simpl. destruct e; try done. destruct (b_header b); [lia|done]. Qed.
Lemma accepted_step o s lab s' root id : Step o s lab s' -> announced root (s_log s') id -> announced root (s_log s) id \/ reports s lab id.
Proof.
  intros H [?|(b & t & Hin & E)]; [left; by left|].
  assert (Hold : OAccepted b t ∈ s_log s -> announced root (s_log s) id \/ reports s lab id) by (intros; left; right; eauto).
  destruct H; try (by apply Hold); try (simpl in Hin; apply elem_of_cons in Hin as [?|Hin]; [done|by apply Hold]);
    match goal with _ : context [do_effs ?l ?e ?x] |- _ => destruct (se_only_answers _ _ _ (do_effs_same l e x)) as (new & El & Ho); rewrite El in Hin;
      apply elem_of_app in Hin as [Hin|Hin]; [by destruct (Ho _ Hin) as (? & ? & ?)|] end.
  - by apply Hold.
  - simpl in Hin. apply elem_of_cons in Hin as [?|Hin]; [done|by apply Hold].
  - simpl in Hin. apply elem_of_cons in Hin as [?|Hin]; [done|by apply Hold].
  - simpl in Hin. apply elem_of_cons in Hin as [Heq|Hin]; [|by apply Hold]. injection Heq as -> ->. right. simpl. eauto.
Qed.
(** A block becomes held only when its call is taken. *)
Lemma held_new o head lib0 s lab s' id k cs : Inv o head lib0 s -> s_panic s = false -> Step o s lab s' -> held s' id k cs ->
  (exists cs0, held s id k cs0) \/
  (id ∉ held_ids s /\ id = k_id k /\ exists lose c rest cl core' effs, lab = LNew lose /\ s_new s = c :: rest /\ s_calls s !! c = Some cl /\ cl_blk cl = k /\
     add_entry (s_now s) k [c] (s_core s) = (core', effs) /\ s_core s' = core' /\ s_try s' = s_try s ++ spawns effs /\ s_att s' = s_att s /\
     (exists new, s_log s' = new ++ s_log s)).
Proof.
  intros HI Hp H He. unfold held in *.
  destruct H; try (left; by eauto);
    match goal with _ : context [do_effs ?l ?e ?x] |- _ => pose proof (do_effs_same l e x) as HS; rewrite (se_core _ _ _ HS) in He; cbn [s_core set_core add_log] in He end.
  - apply handle_new_cases in H2 as [(? & _ & -> & _)|[_ Hadd]]; [left; by eauto|]. pose proof Hadd as Hadd'. unfold add_entry in Hadd'. injection Hadd' as <- _.
    destruct (c_byid (s_core s) !! k_id (cl_blk cl)) as [old|] eqn:Eo; simpl in He; apply lookup_insert_Some in He as [(<- & He)|(_ & He)]; try (left; by eauto).
    + injection He as <- <-. left. destruct old as [k0 cs0]. eauto.
    + injection He as <- <-. right. split; [unfold held_ids; rewrite elem_of_dom, Eo; by intros [? ?]|]. split; [done|].
      exists lose, c, rest, cl. eexists _, _. split_and!; [done|done|done|done|exact Hadd|by rewrite (se_core _ _ _ HS)|by rewrite (se_try _ _ _ HS)|by rewrite (se_att _ _ _ HS)|].
      destruct (se_log _ _ _ HS) as (new & -> & _). eauto.
  - apply handle_status_cases in H1 as [(_ & -> & _)|[(_ & _ & -> & _)|(_ & _ & ans & Hs & _)]]; [left; by eauto|left; by eauto|].
    destruct (decide (id = k_id k0)) as [->|Hne]; [by rewrite (sh_gone _ _ _ _ _ Hs) in He|]. rewrite (sh_stay _ _ _ _ _ Hs) in He by done. left; by eauto.
  - assert (Hlt : (lib < two64)%N) by (eapply (lb_fh s (v_libs _ _ _ _ HI) fh); [by eapply elem_of_list_lookup_2|done]).
    assert (Hlt' : (lib < max_u64)%N) by (unfold max_u64 in *; lia).
    destruct (handled_none_sub _ _ _ _ _ (handle_fork_heads_handled _ _ _ _ _ _ _ (a_ok s (v_acc _ _ _ _ HI)) H1 Hlt' (lb_lib s (v_libs _ _ _ _ HI)) H3) He) as ([k3 cs3] & He3 & Ek).
    simpl in Ek. subst k3. left. eauto.
  - injection H3 as <- _. left; by eauto.
Qed.
Lemma Served_step o root head lib0 s lab s' C : u64_label lab -> Inv o head lib0 s -> step o s lab = Some s' -> Env root head s' -> keeps s lab s' -> Work root s ->
  D (k_id C) -> D (k_prev C) -> Served o root head C s -> Served o root head C s'.
Proof.
  intros Hu HI Hstep HE HK HW HDC HDP HS I HO Hrec Hfol Hann id cs Hheld. pose proof Hstep as Hst. apply step_Step in Hst as [Hp Hst].
  pose proof (Env_back _ _ _ _ _ _ Hp Hst HE) as HE0. pose proof (now_step _ _ _ _ Hst) as Hnow.
  destruct (step_log_grows _ _ _ _ Hst) as (new & El). rewrite El in Hfol. apply follows_back in Hfol as Hfol0.
  assert (Hrec0 : recent o (s_now s) C \/ I) by (destruct Hrec; [left; by eapply recent_back|by right]).
  assert (HO0 : I -> in_order root (s_log s) C) by (intros HI'; specialize (HO HI'); rewrite El in HO; by eapply in_order_back).
  destruct (e_run _ _ _ HE) as (Hc' & Hp' & Hh').
  (* a report of the parent schedules the block *)
  assert (Hreport : reports s lab (k_prev C) -> served I root s' C).
  { intros Hrep. left. left. exists (force_child o (s_now s) C), (s_now s). split; [by eapply reported_children|]. destruct Hrec0 as [Hr0|?]; [left; by apply recent_force|by right]. }
  assert (Hcomp : forall P, completes s lab P -> k_id P = k_prev C -> served I root s' C).
  { intros P (i & lose & -> & Hi) E. apply Hreport. simpl. eauto. }
  destruct (accepted_step _ _ _ _ _ _ Hst Hann) as [Hann0|?]; [|by apply Hreport].
  destruct (held_new _ _ _ _ _ _ _ _ _ HI Hp Hst Hheld) as [(cs0 & Hheld0)|(Hnh & -> & lose & c & rest & cl & core' & effs & -> & Hnew & Hcl & Eblk & Hadd & Ecore & Etry & Eatt & _)].
  - pose proof (ok_id _ (a_ok s (v_acc _ _ _ _ HI)) id _ Hheld0) as Eid. cbn [e_blk] in Eid.
    assert (HpC : passed s C) by (apply (pv_byid s (v_prov _ _ _ _ HI) id _ Hheld0)).
    destruct (HS I HO0 Hrec0 Hfol0 Hann0 id cs0 Hheld0) as [Ht|[Hph|(P & EP & HpP & Hap & Ht)]].
    + destruct (tried_step I _ _ _ _ _ _ _ _ HI Hp Hst HE HDC HO HpC (or_introl (or_introl Hann0)) Ht) as [?|(i & lose & -> & Hi)]; [by left|exfalso].
      (* the attempt succeeded: the block is no longer held *)
      inversion Hst as [| | | | | | | | | | | | | | | | | | |? ? k0 res core' effs Hs Hi' Hh| | | | | | | | | | | | | | | | | |]; subst.
      rewrite Hi in Hi'. injection Hi' as <- <-. unfold held in Hheld. rewrite (se_core _ _ _ (do_effs_same _ _ _)) in Hheld. cbn [s_core set_core add_log] in Hheld.
      apply handle_status_cases in Hh as [(? & _)|[(_ & ? & _)|(_ & _ & ans & Hsh & _)]]; [done|done|].
      rewrite (sh_gone _ _ _ _ _ Hsh) in Hheld; done.
    + destruct (stays _ _ _ _ _ _ _ _ Hu HI Hstep HE HK HDP Hph) as [?|(P & Hcp & EP)]; [right; by left|by eapply Hcomp].
    + destruct (tried_step False _ _ _ _ _ _ _ _ HI Hp Hst HE ltac:(by rewrite EP) ltac:(done) HpP (or_intror Hap) Ht) as [?|Hcp]; [|by eapply Hcomp].
      right. right. exists P. split_and!; [done|by eapply known_step|rewrite El; by apply applied_mono|done].
  - (* the block has just been taken in *)
    unfold add_entry in Hadd. injection Hadd as Ec Ee.
    assert (Hhigh : (k_height C <= c_highest (s_core s) + 1)%N).
    { rewrite (v_high _ _ _ _ HI). destruct Hfol0 as [Hf1 Hf2]. destruct Hann0 as [Hr|(b & t & Hin & Eb)].
      - specialize (Hf1 Hr). pose proof (max_accepted_head head (s_log s)). lia.
      - destruct (Hf2 b t Hin Eb) as (h & Hh & Hle). pose proof (max_accepted_has head _ _ _ _ Hin Hh). lia. }
    assert (Hadd64 : add64 (c_highest (s_core s)) 1 = (c_highest (s_core s) + 1)%N).
    { unfold add64. apply N.mod_small. rewrite (v_high _ _ _ _ HI). apply (e_high _ _ _ HE0). }
    rewrite Hadd64 in Ee. rewrite bool_decide_false in Ee by lia.
    assert (Hpend : c_pending core' = c_pending (s_core s)) by (subst core'; by destruct (c_byid (s_core s) !! k_id C)).
    assert (Hlive : forall pid, pid ∈ c_pending (s_core s) -> exists i k p, s_att s !! i = Some (Attempt k p) /\ p <> PDone /\ k_id k = pid).
    { intros pid Hin. destruct (at_conv _ _ (v_atts _ _ _ _ HI)) with pid as (i & [k p] & Hi & Hl & E); [by destruct (e_run _ _ _ HE0)|done|].
      exists i, k, p. split_and!; [done| |done]. intros ->. done. }
    assert (Hgood : forall i k p, s_att s !! i = Some (Attempt k p) -> good root (s_log s) i k p -> forall J, tried J root s' k).
    { intros i k p Hi Hg J. right. right. exists i, p. rewrite Eatt, El. split; [done|]. by apply good_mono. }
    destruct (bool_decide (k_prev C ∈ c_pending (s_core s))) eqn:Epar.
    + apply bool_decide_eq_true in Epar. destruct (Hlive _ Epar) as (i & P & p & Hi & Hnd & EP).
      assert (HDP' : D (k_id P)) by (by rewrite EP).
      destruct (w_att _ _ HW _ _ _ HDP' Hi Hnd) as [Hph|(Hap & Hg)].
      * destruct (stays _ _ _ _ _ _ _ _ Hu HI Hstep HE HK HDP' Hph) as [?|(P' & (? & ? & ? & _) & _)]; [|done]. right. left. by rewrite <- EP.
      * right. right. exists P. split_and!; [done|eapply known_step; [exact Hst|]; by apply (pv_att s (v_prov _ _ _ _ HI) i _ Hi)|rewrite El; by apply applied_mono|by eapply Hgood].
    + left. destruct (decide (k_id C ∈ c_pending (s_core s))) as [HpC|HnC].
      * destruct (Hlive _ HpC) as (i & P & p & Hi & Hnd & EP).
        assert (P = C) as ->.
        { apply (e_ids _ _ _ HE0); [by rewrite EP|by apply (pv_att s (v_prov _ _ _ _ HI) i _ Hi)|exists c, cl; done|done]. }
        destruct (w_att _ _ HW _ _ _ HDC Hi Hnd) as [?|(_ & Hg)]; [done|]. by eapply Hgood.
      * right. left. exists false, (s_now s). rewrite Etry, <- Ee, Ecore, Hpend. split; [|done]. apply elem_of_app. right. left.
Qed.
Lemma served_run o root head lib0 sched : forall s s', Forall u64_label sched -> Inv o head lib0 s ->
  (Env root head s -> Work root s /\ forall C, D (k_id C) -> D (k_prev C) -> Served o root head C s) -> run o s sched = Some s' -> kept o s sched ->
  Env root head s' -> Work root s' /\ forall C, D (k_id C) -> D (k_prev C) -> Served o root head C s'.
Proof.
  induction sched as [|lab r IH]; intros s s' Hu HI HJ Hr HK HE; simpl in Hr, HK; [injection Hr as <-; auto|].
  apply Forall_cons in Hu as [Hu1 Hu2]. destruct (step o s lab) as [s1|] eqn:H1; [|done].
  pose proof H1 as Hst. apply step_Step in Hst as [Hp Hst].
  destruct HK as [HK1 HK2]. apply (IH s1); [done|by eapply Inv_step| |done|done|done]. intros HE1. pose proof (Env_back _ _ _ _ _ _ Hp Hst HE1) as HE0.
  destruct (HJ HE0) as [HW HS]. split; [by eapply Work_step|]. intros C H1' H2'. eapply Served_step; [exact Hu1|exact HI|exact H1|exact HE1|exact HK1|exact HW|done|done|]. by apply HS.
Qed.
Lemma served_reach o root head lib dur now sched s C : reaches o head lib dur now sched s -> kept o (sys_init head lib dur now) sched -> Env root head s -> D (k_id C) -> D (k_prev C) -> Served o root head C s.
Proof.
  intros (Hl & Hu & Hr) HK HE H1 H2.
  refine (proj2 (served_run o root head lib sched _ _ Hu (Inv_init o head lib dur now Hl) _ Hr HK HE) C H1 H2).
  intros _. split.
  - split; simpl; try done. set_solver.
  - intros D' _ _ I _ _ _ _ id cs Hh. done.
Qed.
(** A settled applicator has nothing scheduled. *)
Lemma settled_not_tried I root s k : settled s -> ~ tried I root s k.
Proof.
  intros (_ & _ & Ht & Ha & _) [(f & t & Hin & _)|[(f & t & Hin & _)|(i & p & Hi & Hg)]].
  - rewrite Ht in Hin. by apply elem_of_nil in Hin.
  - rewrite Ht in Hin. by apply elem_of_nil in Hin.
  - specialize (Ha _ _ Hi). simpl in Ha. by subst p.
Qed.
Lemma settled_served o root head lib dur now sched s id C cs : reaches o head lib dur now sched s -> kept o (sys_init head lib dur now) sched -> Env root head s -> settled s ->
  D (k_id C) -> D (k_prev C) -> held s id C cs -> recent o (s_now s) C \/ in_order root (s_log s) C -> follows_parent root head (s_log s) C ->
  announced root (s_log s) (k_prev C) -> k_prev C ∈ held_ids s.
Proof.
  intros Hr HK HE Hset H1 H2 Hh Hrec Hf Ha. destruct (served_reach _ _ _ _ _ _ _ _ C Hr HK HE H1 H2 (in_order root (s_log s) C) (fun x => x) Hrec Hf Ha _ cs Hh) as [Ht|[?|(P & _ & _ & _ & Ht)]]; [|done|];
    by apply (settled_not_tried _ _ _ _ Hset) in Ht.
Qed.
(** A call that was taken and whose block is not held was answered; if with success, the chain accepted the block. *)
Lemma settled_answered o root head lib dur now sched s c cl : reaches o head lib dur now sched s -> Env root head s -> settled s ->
  s_calls s !! c = Some cl -> D (k_id (cl_blk cl)) -> k_id (cl_blk cl) ∉ held_ids s ->
  (OAnswer c None ∈ s_log s /\ applied (s_log s) (k_id (cl_blk cl))) \/ exists e, OAnswer c (Some e) ∈ s_log s.
Proof.
  intros Hr HE (Hsend & Hnew & _) Hc HD Hn. apply reaches_inv in Hr as HI. destruct (e_run _ _ _ HE) as (Hca & _ & _).
  destruct (e_ref _ _ _ HE) as (_ & Hnd).
  destruct (cl_buf cl) as [r|] eqn:Hb.
  - assert (Hlog : OAnswer c r ∈ s_log s) by (apply (a_log s (v_acc _ _ _ _ HI)); eauto).
    destruct r as [e|]; [right; by exists e|left]. split; [done|].
    destruct (j_buf _ _ (v_just _ _ _ _ HI) c cl None Hc Hb) as [?|[?|[(? & _)|(i & k & Hst & Eid & _)]]]; [done|done|done|].
    apply elem_of_list_split in Hst as (l1 & l2 & El).
    destruct (Hist_split _ _ _ _ _ (j_hist _ _ (v_just _ _ _ _ HI)) El) as [Hres|[Hd|(? & _)]]; [| |done].
    + exists i, k. split; [|done]. rewrite El. set_solver.
    + exfalso. apply (Hnd i k None); [by rewrite Eid|]. rewrite El. set_solver.
  - exfalso. pose proof (a_held s (v_acc _ _ _ _ HI) Hca c cl Hc (Hsend _ _ Hc) Hb) as Hw. unfold waiting in Hw. rewrite Hnew in Hw. simpl in Hw.
    apply elem_all_chans in Hw as (id & e & He & Hin). destruct (a_ids s (v_acc _ _ _ _ HI) _ _ _ He Hin) as (cl' & Hc' & Eid).
    rewrite Hc in Hc'. injection Hc' as <-. apply Hn. unfold held_ids. rewrite Eid. apply elem_of_dom. eauto.
Qed.
(** A chain of blocks on a block that the chain has, when the applicator has settled. *)
Lemma chain_settled o root head lib dur now sched s ks : reaches o head lib dur now sched s -> kept o (sys_init head lib dur now) sched -> Env root head s -> settled s ->
  (forall id, D id -> applied (s_log s) id -> announced root (s_log s) id) ->
  (forall c cl e, s_calls s !! c = Some cl -> D (k_id (cl_blk cl)) -> OAnswer c (Some e) ∈ s_log s -> announced root (s_log s) (k_id (cl_blk cl))) ->
  forall parent, linked parent ks -> D parent -> announced root (s_log s) parent -> parent ∉ held_ids s ->
  (forall k, k ∈ ks -> D (k_id k) /\ passed s k /\ (recent o (s_now s) k \/ in_order root (s_log s) k) /\ follows_parent root head (s_log s) k) ->
  forall k, k ∈ ks -> announced root (s_log s) (k_id k) /\ k_id k ∉ held_ids s /\
    forall c cl, s_calls s !! c = Some cl -> cl_blk cl = k -> (OAnswer c None ∈ s_log s /\ applied (s_log s) (k_id k)) \/ exists e, OAnswer c (Some e) ∈ s_log s.
Proof.
  intros Hr HK HE Hset Hall Herr.
  induction ks as [|k0 ks IH]; intros parent Hlink HDp Hann Hnot Hks k Hin; [by apply elem_of_nil in Hin|].
  destruct Hlink as [Hprev Hlink]. destruct (Hks k0) as (HD0 & (c0 & cl0 & Hc0 & Eb0) & Hrec & Hfol); [left|].
  assert (Hn0 : k_id k0 ∉ held_ids s).
  { intros Hh. unfold held_ids in Hh. apply elem_of_dom in Hh as ([k1 cs] & He). apply reaches_inv in Hr as HI.
    pose proof (ok_id _ (a_ok s (v_acc _ _ _ _ HI)) _ _ He) as Eid. cbn [e_blk] in Eid.
    assert (k1 = k0) as ->. { apply (e_ids _ _ _ HE); [by rewrite Eid|apply (pv_byid s (v_prov _ _ _ _ HI) _ _ He)|by exists c0, cl0|done]. }
    apply Hnot. rewrite <- Hprev. eapply settled_served; [exact Hr|exact HK|exact HE|done|done|by rewrite Hprev|exact He|done|done|by rewrite Hprev]. }
  assert (Hans : forall c cl, s_calls s !! c = Some cl -> cl_blk cl = k0 -> (OAnswer c None ∈ s_log s /\ applied (s_log s) (k_id k0)) \/ exists e, OAnswer c (Some e) ∈ s_log s).
  { intros c cl Hc <-. eapply settled_answered; [exact Hr|exact HE|done|exact Hc|done|done]. }
  assert (Hann0 : announced root (s_log s) (k_id k0)).
  { destruct (Hans c0 cl0 Hc0 Eb0) as [(_ & Hap)|(e & He)]; [by apply Hall|]. rewrite <- Eb0. eapply Herr; [exact Hc0|by rewrite Eb0|exact He]. }
  apply elem_of_cons in Hin as [->|Hin]; [by split_and!|].
  eapply (IH (k_id k0)); [done|done|done|done| |done]. intros k1 Hk1. apply Hks. by right.
Qed.
End family.
