(** C120: each submission of a block has its own occasion. *)
From Verif Require Import GoBase Util TxCache_Model Watchdog_Model Applicator_Model Applicator_Spec Applicator_Core Applicator_Sys Applicator_Inv Applicator_Inv2
  Applicator_Inv3 Applicator_Inv4 Applicator_Inv5 Applicator_Inv6 Often_Spec.

Notation sum := sum_list_with.
Lemma sum_delete {A} (f : A -> nat) l i x : l !! i = Some x -> sum f l = f x + sum f (delete i l).
Proof. revert i. induction l as [|y l IH]; intros [|i] H; try discriminate H; [by injection H as ->|]. specialize (IH _ H). change (delete (S i) (y :: l)) with (y :: delete i l). cbn [sum_list_with]. lia. Qed.
Lemma sum_alter {A} (f : A -> nat) g l i x : l !! i = Some x -> sum f (alter g i l) + f x = sum f l + f (g x).
Proof. revert i. induction l as [|y l IH]; intros [|i] H; try discriminate H; [injection H as ->; cbn; lia|]. specialize (IH _ H). change (alter g (S i) (y :: l)) with (y :: alter g i l). cbn [sum_list_with]. lia. Qed.
Lemma sum_insert {A} (f : A -> nat) l i x y : l !! i = Some x -> sum f (<[i := y]> l) + f x = sum f l + f y.
Proof. revert i. induction l as [|z l IH]; intros [|i] H; try discriminate H; [injection H as ->; cbn; lia|]. specialize (IH _ H). change (<[S i := y]> (z :: l)) with (z :: <[i := y]> l). cbn [sum_list_with]. lia. Qed.
Lemma sum_ext {A} (f g : A -> nat) l : (forall x, x ∈ l -> f x = g x) -> sum f l = sum g l.
Proof. induction l as [|y l IH]; intros H; cbn; [done|]. rewrite (H y) by left. rewrite IH; [done|]. intros x Hx. apply H. by right. Qed.
Lemma sum_zero {A} (f : A -> nat) l : (forall x, x ∈ l -> f x = 0) -> sum f l = 0.
Proof. induction l as [|y l IH]; intros H; cbn; [done|]. rewrite (H y) by left. rewrite IH; [done|]. intros x Hx. apply H. by right. Qed.
Lemma sum_pointwise {A} (f : A -> nat) l l' : length l' = length l -> (forall i x', l' !! i = Some x' -> exists x, l !! i = Some x /\ f x' = f x) -> sum f l' = sum f l.
Proof.
  revert l'. induction l as [|y l IH]; intros [|y' l'] Hl H; try done. cbn [sum_list_with]. destruct (H 0 y' eq_refl) as (x & [= <-] & ->). rewrite (IH l'); [done|by injection Hl|].
  intros i x' Hi. by apply (H (S i)).
Qed.
Lemma one_le b : one b <= 1.
Proof. destruct b; cbn; lia. Qed.

Section block.
Context (c p : string).
(** The weights of what is under way *)
Definition w_try (x : blk * bool * Z) : nat := one (bool_decide (k_id x.1.1 = c)).
Definition w_att (a : attempt) : nat :=
  match at_phase a with
  | PStart | PDelay _ _ | PQueued | PChecked _ => one (bool_decide (k_id (at_blk a) = c))
  | PStatus r => outcome_of c p (at_blk a) r
  | _ => 0
  end.
Definition w_call (cl : call) : nat := match cl_phase cl with CSend => one (bool_decide (k_id (cl_blk cl) = c)) | _ => 0 end.
Definition w_new (calls : list call) (n : nat) : nat := match calls !! n with Some cl => one (bool_decide (k_id (cl_blk cl) = c)) | None => 0 end.
Definition w_fh (fh : fork_heads) : nat := sum (fun h => one (bool_decide (h = p))) (fh_heads fh).
Definition w_bc (b : block) : nat := one (bool_decide (str (b_id b) = p)).
Definition weight (s : sys) : nat :=
  submissions c (s_log s) + sum w_try (s_try s) + sum w_att (s_att s) + sum w_call (s_calls s) + sum (w_new (s_calls s)) (s_new s) + sum w_fh (s_fh s) + sum w_bc (s_bc s).
Definition one_parent (s : sys) : Prop := forall i cl, s_calls s !! i = Some cl -> k_id (cl_blk cl) = c -> k_prev (cl_blk cl) = p.
Definition held_parent (x : core) : Prop := forall e, c_byid x !! c = Some e -> k_prev (e_blk e) = p.
Notation sp effs := (sum w_try (spawns effs)).

Lemma one_parent_held s : Prov s -> Acc s -> one_parent s -> held_parent (s_core s).
Proof. intros HP HA H1 e He. destruct (pv_byid _ HP _ _ He) as (i & cl & Hc & Hb). rewrite <- Hb. eapply H1; [exact Hc|]. rewrite Hb. by apply (ok_id _ (a_ok _ HA)). Qed.
Lemma sp_answers effs : (forall x, x ∈ effs -> exists ch r, x = Answer ch r) -> sp effs = 0.
Proof.
  induction effs as [|x effs IH]; intros H; [done|]. destruct (H x) as (ch & r & ->); [left|]. change (Answer ch r :: effs) with ([Answer ch r] ++ effs).
  rewrite spawns_app. cbn. apply IH. intros y Hy. apply H. by right.
Qed.
Lemma sp_children o now id x : core_ok x -> held_parent x -> sp (check_children o now id x) <= one (bool_decide (id = p)).
Proof.
  intros Hok Hh. unfold check_children. destruct (c_byprev x !! id) as [ids|] eqn:Hi; [|cbn; lia].
  assert (Hgen : forall l : list string, NoDup l ->
    sp (omap (fun cid => match c_byid x !! cid with Some e => Some (SpawnTry (e_blk e) (force_child o now (e_blk e)) now) | None => None end) l) <= one (bool_decide (c ∈ l))).
  { induction l as [|y l IH]; intros Hnd; [cbn; lia|]. apply NoDup_cons in Hnd as [Hy Hnd]. specialize (IH Hnd). cbn [omap list_omap]. destruct (c_byid x !! y) as [e|] eqn:Ey.
    - set (r := omap (M := list) _ l) in *. change (sp (SpawnTry (e_blk e) (force_child o now (e_blk e)) now :: r)) with (one (bool_decide (k_id (e_blk e) = c)) + sp r).
      rewrite (ok_id _ Hok _ _ Ey). destruct (decide (y = c)) as [->|E1].
      + rewrite (bool_decide_false (c ∈ l)) in IH by done. rewrite (bool_decide_true (c = c)) by done. rewrite bool_decide_true by left. cbn [one] in *. lia.
      + rewrite (bool_decide_false (y = c)) by done. cbn [one Nat.add]. etransitivity; [exact IH|]. destruct (decide (c ∈ l)) as [E2|E2]; [rewrite !bool_decide_true; [done|by right|done]|rewrite (bool_decide_false (c ∈ l)) by done; cbn; lia].
    - etransitivity; [exact IH|]. destruct (decide (c ∈ l)) as [E2|E2]; [rewrite !bool_decide_true; [done|by right|done]|rewrite (bool_decide_false (c ∈ l)) by done; cbn; lia]. }
  specialize (Hgen (elements ids) (NoDup_elements _)). etransitivity; [exact Hgen|]. case_bool_decide as E1; [|cbn; lia]. apply elem_of_elements in E1.
  destruct (proj1 (ok_prev _ Hok id c)) as (e & He & Hk); [eauto|]. rewrite bool_decide_true; [done|]. rewrite <- Hk. by apply Hh.
Qed.
Lemma sp_new o now k inc x x' effs : handle_new o now k inc x = (x', effs) -> sp effs <= one (bool_decide (k_id k = c)).
Proof.
  intros [(e & _ & _ & ->)|[_ H]]%handle_new_cases; [rewrite spawns_map; cbn; lia|]. unfold add_entry in H. injection H as _ <-.
  destruct (bool_decide _); [cbn; lia|]. destruct (bool_decide _); [cbn; lia|]. cbn. unfold w_try. cbn. lia.
Qed.
Lemma sp_status o now k res x x' effs : core_ok x -> held_parent x -> handle_status o now k res x = (x', effs) -> sp effs <= outcome_of c p k res.
Proof.
  intros Hok Hh [(E & _ & ->)|[(_ & _ & _ & ->)|(_ & _ & a & Hs & ->)]]%handle_status_cases; [|cbn; lia|].
  - unfold outcome_of. rewrite E, andb_true_r. cbn. unfold w_try. cbn. lia.
  - rewrite spawns_app, sum_list_with_app, (sp_answers a), Nat.add_0_r by (intros y Hy; destruct (sh_effs _ _ _ _ _ Hs y Hy) as (ch & ? & ? & -> & _); eauto).
    destruct res as [e|]; [cbn; lia|]. unfold outcome_of. rewrite (bool_decide_true (None = None)), andb_true_r by done.
    etransitivity; [eapply (sp_children o now (k_id k)); [by eapply core_ok_same; [..|exact Hok]|exact Hh]|]. lia.
Qed.
Lemma sp_heads o now fh x x' effs : core_ok x -> held_parent x -> handle_fork_heads o now fh x = Done (Some (x', effs)) -> (c_lib x < two64)%N -> (forall n, fh_lib fh = Some n -> (n < two64)%N) -> sp effs <= w_fh fh.
Proof.
  intros Hok Hh H Hl Hu. destruct (fh_lib fh) as [lib|] eqn:El; [|unfold handle_fork_heads in H; by rewrite El in H].
  assert (Hm : (lib < max_u64)%N). { specialize (Hu lib eq_refl). destruct (decide (lib = max_u64)) as [->|Hn]; [unfold handle_fork_heads in H; rewrite El, bool_decide_true in H by done; done|unfold max_u64 in *; lia]. }
  destruct (handle_fork_heads_cases _ _ _ _ _ _ _ Hok El Hm Hl H) as (a & -> & Hs).
  rewrite spawns_app, sum_list_with_app, (sp_answers a), Nat.add_0_r by (intros y Hy; destruct (sh_effs _ _ _ _ _ Hs y Hy) as (ch & ? & ? & -> & _); eauto).
  unfold w_fh. clear H Hs. induction (fh_heads fh) as [|h l IH]; [cbn; lia|]. cbn [map mjoin list_join sum_list_with]. rewrite spawns_app, sum_list_with_app.
  apply Nat.add_le_mono; [|exact IH]. apply sp_children; [by eapply core_ok_same; [..|exact Hok]|exact Hh].
Qed.
Notation ans log := (sum (answer_event c p) log).
Lemma effs_weight lose effs s : weight (do_effs lose effs s) = weight s + sp effs /\ ans (s_log (do_effs lose effs s)) = ans (s_log s) /\ (one_parent s -> one_parent (do_effs lose effs s)).
Proof.
  pose proof (do_effs_same lose effs s) as HS. destruct (se_log _ _ _ HS) as (new & Hlog & Hn).
  assert (Hz : submissions c new = 0 /\ ans new = 0) by (split; apply sum_zero; intros e He; by destruct (Hn e He) as (? & ? & -> & _)).
  assert (Hc : sum w_call (s_calls (do_effs lose effs s)) = sum w_call (s_calls s)).
  { apply sum_pointwise; [apply HS|]. intros i x' Hx. destruct (se_blk _ _ _ HS _ _ Hx) as (cl & Hcl & E1 & E2). exists cl. split; [done|]. unfold w_call. by rewrite E1, E2. }
  assert (Hw : sum (w_new (s_calls (do_effs lose effs s))) (s_new s) = sum (w_new (s_calls s)) (s_new s)).
  { apply sum_ext. intros n _. unfold w_new. destruct (s_calls (do_effs lose effs s) !! n) as [cl'|] eqn:E.
    - destruct (se_blk _ _ _ HS _ _ E) as (cl & -> & -> & _). done.
    - apply lookup_ge_None in E. rewrite (se_len _ _ _ HS) in E. by rewrite (proj2 (lookup_ge_None _ _) E). }
  split; [|split].
  - unfold weight. rewrite Hlog, (se_try _ _ _ HS), (se_att _ _ _ HS), (se_new _ _ _ HS), (se_fh _ _ _ HS), (se_bc _ _ _ HS), Hc, Hw. unfold submissions in *. rewrite !sum_list_with_app. lia.
  - rewrite Hlog, sum_list_with_app. lia.
  - intros H1 i cl' Hi Hk. destruct (se_blk _ _ _ HS _ _ Hi) as (cl & Hcl & E1 & _). rewrite E1 in *. by eapply H1.
Qed.
Definition parent_label (lab : label) : Prop := match lab with LCall b => forall h, b_header b = Some h -> str (b_id b) = c -> str (h_previous h) = p | _ => True end.
Lemma phase_weight i k ph ph' s : s_att s !! i = Some (Attempt k ph) -> sum w_att (s_att (set_phase i ph' s)) + w_att (Attempt k ph) = sum w_att (s_att s) + w_att (Attempt k ph').
Proof. intros H. unfold set_phase. cbn [set_att s_att]. apply (sum_alter w_att (fun a => Attempt (at_blk a) ph') _ _ _ H). Qed.
Ltac wcbn := unfold weight, submissions; cbn [set_core set_wd set_cache set_calls set_new set_try set_att set_txs set_fh set_bc set_now set_cancelled set_loop set_hang set_panic add_log set_phase tx_set
  s_core s_wd s_cache s_calls s_new s_try s_att s_txs s_fh s_bc s_now s_cancelled s_loop s_hang s_panic s_log sum_list_with submission answer_event outside].
Lemma new_same calls c0 cl cl' l : calls !! c0 = Some cl -> cl_blk cl' = cl_blk cl -> sum (w_new (<[c0 := cl']> calls)) l = sum (w_new calls) l.
Proof.
  intros Hc Hb. apply sum_ext. intros n _. unfold w_new. destruct (decide (n = c0)) as [->|Hn]; [|by rewrite list_lookup_insert_ne].
  rewrite list_lookup_insert by (by eapply lookup_lt_Some). by rewrite Hc, Hb.
Qed.
Lemma parent_same s calls' c0 cl cl' : one_parent s -> s_calls s !! c0 = Some cl -> cl_blk cl' = cl_blk cl -> calls' = <[c0 := cl']> (s_calls s) -> forall i x, calls' !! i = Some x -> k_id (cl_blk x) = c -> k_prev (cl_blk x) = p.
Proof.
  intros H1 Hc Hb -> i x Hi. destruct (decide (i = c0)) as [->|Hn]; [|rewrite list_lookup_insert_ne in Hi by done; by apply (H1 i)].
  rewrite list_lookup_insert in Hi by (by eapply lookup_lt_Some). injection Hi as <-. rewrite Hb. by apply (H1 c0).
Qed.
Lemma weight_step o head lib s lab s' : Inv o head lib s -> one_parent s -> parent_label lab -> Step o s lab s' ->
  one_parent s' /\ weight s' + ans (s_log s) <= weight s + outside c p lab + ans (s_log s').
Proof.
  intros HI Hp HL H. pose proof (a_ok _ (v_acc _ _ _ _ HI)) as Hok. pose proof (one_parent_held s (v_prov _ _ _ _ HI) (v_acc _ _ _ _ HI) Hp) as Hh.
  destruct H; try (split; [exact Hp|]; wcbn; lia).
  - (* call *) split.
    + intros i cl Hi Hk. cbn [set_calls set_wd s_calls] in Hi. apply lookup_app_Some in Hi as [Hi|[_ Hi]]; [by apply (Hp i)|]. apply list_lookup_singleton_Some in Hi as [_ <-]. cbn in *. by apply HL.
    + wcbn. rewrite sum_list_with_app. assert (Hn : sum (w_new (s_calls s ++ [Call (Blk b h) CSend None])) (s_new s) = sum (w_new (s_calls s)) (s_new s)).
      { apply sum_ext. intros n Hin. unfold w_new. destruct (a_open _ (v_acc _ _ _ _ HI) n) as (cl & Hcl & _); [apply elem_of_app; by left|]. rewrite lookup_app_l by (by eapply lookup_lt_Some). done. }
      rewrite Hn. cbn [sum_list_with]. unfold w_call at 2. cbn [cl_phase cl_blk]. change (k_id (Blk b h)) with (str (b_id b)). lia.
  - (* send *) split; [refine (parent_same s _ _ _ _ Hp H _ eq_refl); done|]. wcbn. rewrite (new_same _ _ _ _ _ H) by done. rewrite sum_list_with_app. cbn [sum_list_with].
    pose proof (sum_insert w_call _ _ _ (Call k CWait buf) H) as E. unfold w_new at 2. rewrite H. unfold w_call in E at 2 4. cbn [cl_phase cl_blk] in *. lia.
  - (* ret *) split; [refine (parent_same s _ _ _ _ Hp H _ eq_refl); done|]. wcbn. rewrite (new_same _ _ _ _ _ H) by done.
    pose proof (sum_insert w_call _ _ _ (Call k (CRet r) (Some r)) H) as E. unfold w_call in E at 2 4. cbn [cl_phase cl_blk] in *. lia.
  - (* timeout *) split; [refine (parent_same s _ _ _ _ Hp H _ eq_refl); done|]. wcbn. rewrite (new_same _ _ _ _ _ H) by done.
    pose proof (sum_insert w_call _ _ _ (Call k (CRet (Some (ESent ErrBlockApplicationTimeout))) buf) H) as E. unfold w_call in E at 2 4. cbn [cl_phase cl_blk] in *. lia.
  - (* new *) match goal with |- context [do_effs lose effs ?x] => destruct (effs_weight lose effs x) as (E1 & E2 & E3) end. split; [by apply E3|]. rewrite E1, E2. wcbn. rewrite H0. cbn [sum_list_with].
    assert (Ew : w_new (s_calls s) c0 = one (bool_decide (k_id (cl_blk cl) = c))) by (unfold w_new; by rewrite H1). apply sp_new in H2. lia.
  - (* try_start *) split; [exact Hp|]. wcbn. rewrite sum_list_with_app, (sum_delete w_try _ _ _ H0). cbn [sum_list_with]. unfold w_att at 2, w_try at 2. cbn [at_phase at_blk fst]. lia.
  - split; [exact Hp|]. wcbn. rewrite sum_list_with_app, (sum_delete w_try _ _ _ H0). cbn [sum_list_with]. unfold w_try at 2 3. cbn [fst]. lia.
  - split; [exact Hp|]. wcbn. rewrite (sum_delete w_try _ _ _ H0). lia.
  - split; [exact Hp|]. wcbn. rewrite (sum_delete w_try _ _ _ H0). lia.
  - (* att_start *) split; [exact Hp|]. pose proof (phase_weight _ _ _ (start_phase o (s_now s) k) _ H) as E.
    assert (Ew : w_att (Attempt k (start_phase o (s_now s) k)) = w_att (Attempt k PStart)) by (unfold start_phase; by case_bool_decide). rewrite Ew in E. revert E. wcbn. lia.
  - split; [exact Hp|]. pose proof (phase_weight _ _ _ PQueued _ H) as E. change (w_att (Attempt k PQueued)) with (w_att (Attempt k (PDelay w t))) in E. revert E. wcbn. lia.
  - split; [exact Hp|]. pose proof (phase_weight _ _ _ (PStatus res) _ H) as E. change (w_att (Attempt k (PStatus res))) with (outcome_of c p k res) in E. revert E. wcbn. lia.
  - split; [exact Hp|]. pose proof (phase_weight _ _ _ PDone _ H0) as E. change (w_att (Attempt k PDone)) with 0 in E. revert E. wcbn. lia.
  - split; [exact Hp|]. pose proof (phase_weight _ _ _ (PStatus (Some (ESent ErrBlockIrreversibility))) _ H) as E. change (w_att (Attempt k (PStatus (Some (ESent ErrBlockIrreversibility))))) with (outcome_of c p k (Some (ESent ErrBlockIrreversibility))) in E.
    assert (Ez : outcome_of c p k (Some (ESent ErrBlockIrreversibility)) = 0). { unfold outcome_of. rewrite (bool_decide_false (Some _ = None)) by done. rewrite andb_false_r. cbn. by rewrite andb_false_r. } rewrite Ez in E. revert E. wcbn. lia.
  - split; [exact Hp|]. pose proof (phase_weight _ _ _ (PChecked (c_lib (s_core s))) _ H) as E. change (w_att (Attempt k (PChecked (c_lib (s_core s))))) with (w_att (Attempt k PQueued)) in E. revert E. wcbn. lia.
  - split; [exact Hp|]. pose proof (phase_weight _ _ _ PRpc _ H) as E. change (w_att (Attempt k PRpc)) with 0 in E. unfold w_att in E at 2. cbn [at_phase at_blk] in E. revert E. wcbn. lia.
  - split; [exact Hp|]. pose proof (phase_weight _ _ _ (PStatus res) _ H) as E. change (w_att (Attempt k (PStatus res))) with (outcome_of c p k res) in E. revert E. wcbn. lia.
  - (* status *) match goal with |- context [do_effs lose effs ?x] => destruct (effs_weight lose effs x) as (E1 & E2 & E3) end. split; [by apply E3|]. rewrite E1, E2.
    pose proof (phase_weight _ _ _ PDone _ H0) as E. change (w_att (Attempt k PDone)) with 0 in E. change (w_att (Attempt k (PStatus res))) with (outcome_of c p k res) in E.
    pose proof (sp_status _ _ _ _ _ _ _ Hok Hh H1) as E4. revert E. wcbn. lia.
  - (* announce *) split; [exact Hp|]. wcbn. rewrite sum_list_with_app. cbn [sum_list_with]. unfold w_fh at 2. lia.
  - split; [exact Hp|]. wcbn. rewrite (sum_delete w_fh _ _ _ H0). lia.
  - split; [exact Hp|]. wcbn. rewrite (sum_delete w_fh _ _ _ H0). lia.
  - match goal with |- context [do_effs lose effs ?x] => destruct (effs_weight lose effs x) as (E1 & E2 & E3) end. split; [by apply E3|]. rewrite E1, E2.
    pose proof (sp_heads _ _ _ _ _ _ Hok Hh H3 (lb_lib _ (v_libs _ _ _ _ HI)) (fun n => lb_fh _ (v_libs _ _ _ _ HI) fh n ltac:(by eapply elem_of_list_lookup_2))) as E4. wcbn. rewrite (sum_delete w_fh _ _ _ H0). lia.
  - split; [exact Hp|]. wcbn. rewrite sum_list_with_app. cbn [sum_list_with]. unfold w_bc at 2. lia.
  - match goal with |- context [do_effs ?lose effs ?x] => destruct (effs_weight lose effs x) as (E1 & E2 & E3) end. split; [by apply E3|]. rewrite E1, E2. unfold handle_broadcast in H3. injection H3 as <- <-.
    match goal with |- context [check_children ?o ?n ?id ?x] => assert (E4 : sp (check_children o n id x) <= one (bool_decide (id = p))) by (apply sp_children; [by eapply core_ok_same; [..|exact Hok]|exact Hh]) end.
    wcbn. rewrite (sum_delete w_bc _ _ _ H0). unfold w_bc at 2. change (str (b_id b)) with (k_id (Blk b h)). lia.
  - split; [exact Hp|]. wcbn. rewrite (sum_delete w_bc _ _ _ H0). lia.
Qed.
End block.

Lemma under_weight c p s : submissions c (s_log s) + under_way c s <= weight c p s.
Proof.
  unfold weight, under_way. assert (E : sum (attempt_for c) (s_att s) <= sum (w_att c p) (s_att s)).
  { induction (s_att s) as [|a l IH]; cbn [sum_list_with]; [lia|]. assert (attempt_for c a <= w_att c p a); [|lia]. unfold attempt_for, w_att. destruct (at_phase a); lia. }
  change (sum (request_for c) (s_try s)) with (sum (w_try c) (s_try s)). lia.
Qed.
Lemma weight_run c p o head lib sched : forall s s', Inv o head lib s -> one_parent c p s -> Forall u64_label sched -> parent_of c p sched -> run o s sched = Some s' ->
  weight c p s' + sum (answer_event c p) (s_log s) <= weight c p s + sum (outside c p) sched + sum (answer_event c p) (s_log s').
Proof.
  induction sched as [|lab r IH]; intros s s' HI Hp HW HL Hr; cbn [run sum_list_with] in *; [injection Hr as <-; lia|].
  destruct (step o s lab) as [s1|] eqn:H1; [|done]. apply step_Step in H1 as [Hn H1]. apply Forall_cons in HW as [HW1 HW2].
  assert (HL1 : parent_label c p lab). { destruct lab; try exact I. intros h Hh Hc. by apply (HL b h); [left|..]. }
  destruct (weight_step c p _ _ _ _ _ _ HI Hp HL1 H1) as [Hp1 E1]. pose proof (Inv_step _ _ _ _ _ _ HW1 HI Hn H1) as HI1.
  assert (HL2 : parent_of c p r) by (intros b h Hb; apply (HL b h); by right). specialize (IH s1 s' HI1 Hp1 HW2 HL2 Hr). lia.
Qed.
