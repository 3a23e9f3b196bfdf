(** Proofs: a block that waits in the pool is applied once its parent is reported; the start of the program. *)
From Verif Require Import GoBase Util TxCache_Model TxCache_Spec TxCache_Proofs Watchdog_Model
  Applicator_Model Applicator_Spec Applicator_Core Applicator_Sys Applicator_Inv Applicator_Inv2 Applicator_Inv3 Applicator_Inv4
  Applicator_Inv5 Applicator_Inv6 Applicator_Inv7 Applicator_Props Deliver_Spec Deliver_Proofs Deliver_Props Rest_Spec Honest_Spec Boot_Model Boot_Spec.

(** ** Reported again *)
Lemma report_step o s lab s' new : Step o s lab s' -> s_log s' = new ++ s_log s ->
  (forall i P, OStatus i P None ∈ new -> exists lose, lab = LStatus i lose /\ s_att s !! i = Some (Attempt P (PStatus None))) /\
  (forall b t, OAccepted b t ∈ new -> exists i, lab = LBroadcast i /\ s_bc s !! i = Some b).
Proof.
  intros H El.
  assert (Hgen : forall pre : list event, s_log s' = pre ++ s_log s -> (forall i P, OStatus i P None ∈ pre -> exists lose, lab = LStatus i lose /\ s_att s !! i = Some (Attempt P (PStatus None))) ->
    (forall b t, OAccepted b t ∈ pre -> exists i, lab = LBroadcast i /\ s_bc s !! i = Some b) ->
    (forall i P, OStatus i P None ∈ new -> exists lose, lab = LStatus i lose /\ s_att s !! i = Some (Attempt P (PStatus None))) /\
    (forall b t, OAccepted b t ∈ new -> exists i, lab = LBroadcast i /\ s_bc s !! i = Some b)).
  { intros pre E H1 H2. rewrite El in E. apply app_inv_tail in E as ->. done. }
  clear El. destruct H; try (apply (Hgen []); [reflexivity|intros ? ? Hx; by apply elem_of_nil in Hx..]);
    try (eapply (Hgen [_]); [reflexivity|intros ? ? Hx; apply elem_of_list_singleton in Hx; discriminate Hx..]);
    match goal with _ : context [s_log (do_effs ?l ?e ?x)] |- _ => destruct (se_only_answers _ _ _ (do_effs_same l e x)) as (ans & Ea & Ho);
      assert (Hno1 : forall i P, OStatus i P None ∉ ans) by (intros ? ? Hx; by destruct (Ho _ Hx) as (? & ? & ?));
      assert (Hno2 : forall b t, OAccepted b t ∉ ans) by (intros ? ? Hx; by destruct (Ho _ Hx) as (? & ? & ?)) end.
  - apply (Hgen ans); [exact Ea|intros ? ? Hx; by destruct (Hno1 _ _ Hx)|intros ? ? Hx; by destruct (Hno2 _ _ Hx)].
  - apply (Hgen (ans ++ [OStatus i k res])); [rewrite Ea, <- (assoc_L (++)); reflexivity| |].
    + intros i' P [Hx|Hx]%elem_of_app; [by destruct (Hno1 _ _ Hx)|]. apply elem_of_list_singleton in Hx. injection Hx as -> -> <-. eauto.
    + intros ? ? [Hx|Hx]%elem_of_app; [by destruct (Hno2 _ _ Hx)|]. apply elem_of_list_singleton in Hx. discriminate Hx.
  - apply (Hgen (ans ++ [OLib (c_lib core')])); [rewrite Ea, <- (assoc_L (++)); reflexivity| |].
    + intros i' P [Hx|Hx]%elem_of_app; [by destruct (Hno1 _ _ Hx)|]. apply elem_of_list_singleton in Hx. discriminate Hx.
    + intros ? ? [Hx|Hx]%elem_of_app; [by destruct (Hno2 _ _ Hx)|]. apply elem_of_list_singleton in Hx. discriminate Hx.
  - match type of Ea with _ = _ ++ s_log (add_log ?e _) => apply (Hgen (ans ++ [e])); [rewrite Ea, <- (assoc_L (++)); reflexivity| |] end.
    + intros i' P [Hx|Hx]%elem_of_app; [by destruct (Hno1 _ _ Hx)|]. apply elem_of_list_singleton in Hx. discriminate Hx.
    + intros ? ? [Hx|Hx]%elem_of_app; [by destruct (Hno2 _ _ Hx)|]. apply elem_of_list_singleton in Hx. injection Hx as -> ->. eauto.
Qed.
Section again.
Context (D : string -> Prop) (I : Prop) (o : ap_opts) (root : gset string) (head lib0 : N) (C : blk) (base : list event).
Record Again (s : sys) : Prop := {
  ag_base : exists new, s_log s = new ++ base;
  ag_passed : passed s C;
  ag_or : applied (s_log s) (k_id C) \/ (ready root (s_log s) C /\ tried I root s C) \/ (k_id C ∈ held_ids s /\ ~ reported C base (s_log s)) }.
Lemma Again_step s lab s' : u64_label lab -> Inv o head lib0 s -> step o s lab = Some s' -> Env D root head s' -> keeps D s lab s' -> Work D root s -> D (k_id C) -> D (k_prev C) ->
  recent o (s_now s') C \/ I -> (I -> in_order root (s_log s') C) -> Again s -> Again s'.
Proof.
  intros Hu HI Hstep HE HK HW HDC HDP Hrec HO [(old & Eb) Hpass Hor]. pose proof Hstep as Hst. apply step_Step in Hst as [Hp Hst].
  pose proof (now_step _ _ _ _ Hst) as Hnow. destruct (e_run _ _ _ _ HE) as (Hc' & Hp' & Hh'). destruct (step_log_grows _ _ _ _ Hst) as (new & El).
  split; [exists (new ++ old); by rewrite El, Eb, (assoc_L (++))|by eapply known_step|]. destruct Hor as [Hap|[(Hre & Ht)|(Hin & Hnot)]].
  - left. rewrite El. by apply applied_mono.
  - destruct (tried_step D I _ _ _ _ _ _ _ _ HI Hp Hst HE HDC HO Hpass Hre Ht) as [Ht'|Hcp].
    + right. left. split; [rewrite El; by apply ready_mono|done].
    + left. rewrite El. apply applied_mono. by eapply completes_applied.
  - destruct (stays D _ _ _ _ _ _ _ _ Hu HI Hstep HE HK HDC Hin) as [Hin'|(k & Hcp & Ek)].
    2:{ left. rewrite El. apply applied_mono. rewrite <- Ek. eapply completes_applied; try done. by rewrite Ek. }
    destruct (report_step _ _ _ _ _ Hst El) as [R1 R2].
    assert (Hheld : exists cs, held s' (k_id C) C cs).
    { unfold held_ids in Hin'. apply elem_of_dom in Hin' as ([k cs] & He). exists cs. unfold held. rewrite He. do 2 f_equal.
      assert (HI' : Inv o head lib0 s') by (by eapply Inv_step). apply (e_ids _ _ _ _ HE); [|by apply (pv_byid s' (v_prov _ _ _ _ HI') _ _ He)|by eapply known_step|].
      - pose proof (ok_id _ (a_ok s' (v_acc _ _ _ _ HI')) _ _ He) as E. cbn in E. by rewrite E.
      - by apply (ok_id _ (a_ok s' (v_acc _ _ _ _ HI')) _ _ He). }
    destruct Hheld as (cs & Hheld).
    assert (Hrep : reports s lab (k_prev C) -> ready root (s_log s') C -> applied (s_log s') (k_id C) \/ (ready root (s_log s') C /\ tried I root s' C) \/ (k_id C ∈ held_ids s' /\ ~ reported C base (s_log s'))).
    { intros Hr Hre. right. left. split; [done|]. left. exists (force_child o (s_now s) C), (s_now s). split; [by eapply reported_children|].
      destruct Hrec as [Hr0|?]; [left; apply recent_force; by eapply recent_back|by right]. }
    (* is the parent reported by this step? *)
    assert (Hdec : (exists i P, OStatus i P None ∈ new /\ k_id P = k_prev C) \/ (exists b t, OAccepted b t ∈ new /\ str (b_id b) = k_prev C) \/
      ~ ((exists i P, OStatus i P None ∈ new /\ k_id P = k_prev C) \/ (exists b t, OAccepted b t ∈ new /\ str (b_id b) = k_prev C))).
    { clear. induction new as [|e new IH]; [right; right; intros [(? & ? & Hx & _)|(? & ? & Hx & _)]; by apply elem_of_nil in Hx|].
      destruct IH as [(i & P & H1 & H2)|[(b & t & H1 & H2)|Hn]]; [left; exists i, P; split; [by right|done]|right; left; exists b, t; split; [by right|done]|].
      destruct e as [| | | | | |i P r|b t| | | | |]; try (right; right; intros [(? & ? & Hx & E)|(? & ? & Hx & E)]; apply elem_of_cons in Hx as [Hx|Hx]; [done|apply Hn; eauto 6|done|apply Hn; eauto 6]).
      - destruct r as [?|]; [right; right; intros [(? & ? & Hx & E)|(? & ? & Hx & E)]; apply elem_of_cons in Hx as [Hx|Hx]; [done|apply Hn; eauto 6|done|apply Hn; eauto 6]|].
        destruct (decide (k_id P = k_prev C)) as [E|E]; [left; exists i, P; split; [left|done]|].
        right; right; intros [(? & ? & Hx & E')|(? & ? & Hx & E')]; apply elem_of_cons in Hx as [Hx|Hx]; [by injection Hx as -> ->|apply Hn; eauto 6|done|apply Hn; eauto 6].
      - destruct (decide (str (b_id b) = k_prev C)) as [E|E]; [right; left; exists b, t; split; [left|done]|].
        right; right; intros [(? & ? & Hx & E')|(? & ? & Hx & E')]; apply elem_of_cons in Hx as [Hx|Hx]; [done|apply Hn; eauto 6|by injection Hx as -> ->|apply Hn; eauto 6]. }
    destruct Hdec as [(i & P & H1 & H2)|[(b & t & H1 & H2)|Hn]].
    + destruct (R1 _ _ H1) as (lose & -> & Hi). apply Hrep; [by exists P|]. left. right. rewrite El. apply applied_mono. rewrite <- H2. eapply completes_applied; try done; [by rewrite H2|]. by exists i, lose.
    + destruct (R2 _ _ H1) as (i & -> & Hi). apply Hrep; [by exists b|]. left. left. right. exists b, t. split; [|done]. rewrite El. apply elem_of_app. by left.
    + right. right. split; [done|]. intros (all & Ea & Hall). apply Hnot. exists old. split; [done|].
      assert (all = new ++ old) as -> by (rewrite El, Eb, (assoc_L (++)) in Ea; by apply app_inv_tail in Ea).
      destruct Hall as [(i & P & [Hx|Hx]%elem_of_app & E)|(b & t & [Hx|Hx]%elem_of_app & E)]; [exfalso; apply Hn; left; eauto|left; eauto|exfalso; apply Hn; right; eauto|right; eauto].
Qed.
Lemma Again_run sched : forall s s', Forall u64_label sched -> Inv o head lib0 s -> s_panic s = false -> (Env D root head s -> Work D root s) -> run o s sched = Some s' -> kept D o s sched -> Env D root head s' ->
  D (k_id C) -> D (k_prev C) -> recent o (s_now s') C \/ I -> (I -> in_order root (s_log s') C) -> Again s -> Again s'.
Proof.
  induction sched as [|lab r IH]; intros s s' Hu HI Hp HW Hr HK HE HDC HDP Hrec HO HA; simpl in Hr; [by injection Hr as <-|].
  apply Forall_cons in Hu as [Hu1 Hu2]. cbn in HK. destruct (step o s lab) as [s1|] eqn:H1; [|done]. destruct HK as [HK1 HK2]. pose proof H1 as Hst. apply step_Step in Hst as [_ Hst].
  assert (HI1 : Inv o head lib0 s1) by (by eapply Inv_step).
  assert (Hb : s_panic s1 = false /\ Env D root head s1 /\ (s_now s1 <= s_now s')%Z /\ exists new, s_log s' = new ++ s_log s1).
  { clear IH HA HW Hrec HO H1 Hst HI Hp Hu1 HK1 HK2. revert s1 Hu2 HI1 Hr. induction r as [|l r IH]; intros s1 Hu2 HI1 Hr; simpl in Hr.
    - injection Hr as ->. split_and!; [apply (e_run _ _ _ _ HE)|done|done|by exists []].
    - apply Forall_cons in Hu2 as [Hu1 Hu2]. destruct (step o s1 l) as [s2|] eqn:H2; [|done]. pose proof H2 as Hst2. apply step_Step in Hst2 as [Hp1 Hst2].
      destruct (IH s2 Hu2) as (I1 & I2 & I3 & (new & I4)); [by eapply Inv_step|done|]. split_and!; [done|by eapply Env_back|pose proof (now_step _ _ _ _ Hst2); lia|].
      destruct (step_log_grows _ _ _ _ Hst2) as (new2 & E2). exists (new ++ new2). by rewrite I4, E2, (assoc_L (++)). }
  destruct Hb as (Hp1 & HE1 & Hn1 & new & El). assert (HE0 : Env D root head s) by (by eapply Env_back).
  pose proof (Work_step D o root head lib0 s lab s1 Hu1 HI H1 HE1 HK1 (HW HE0)) as HW1.
  apply (IH s1); try done. apply (Again_step s lab s1 Hu1 HI H1 HE1 HK1 (HW HE0) HDC HDP); [| |exact HA].
  - destruct Hrec; [left; by eapply recent_back|by right].
  - intros HI'. specialize (HO HI'). rewrite El in HO. by eapply in_order_back.
Qed.
End again.
Lemma Work_reach D o root head lib dur now sched s : reaches o head lib dur now sched s -> kept D o (sys_init head lib dur now) sched -> Env D root head s -> Work D root s.
Proof.
  intros (Hl & Hu & Hr) HK HE. refine (proj1 (served_run D o root head lib sched _ _ Hu (Inv_init o head lib dur now Hl) _ Hr HK HE)).
  intros _. split.
  - split; simpl; try done. set_solver.
  - intros D' _ _ I _ _ _ _ id cs Hh. done.
Qed.
Lemma kept_split D o s sched more s1 : run o s sched = Some s1 -> kept D o s (sched ++ more) -> kept D o s sched /\ kept D o s1 more.
Proof.
  revert s. induction sched as [|lab r IH]; intros s Hr HK; cbn in *; [by injection Hr as ->|]. destruct (step o s lab) as [s2|]; [|done].
  destruct HK as [H1 H2]. destruct (IH s2 Hr H2). done.
Qed.
Lemma again_reach D o root head lib dur now sched s more s' C cs : reaches o head lib dur now sched s -> s_panic s = false -> Forall u64_label more -> run o s more = Some s' -> kept D o (sys_init head lib dur now) (sched ++ more) -> Env D root head s' -> settled s' ->
  D (k_id C) -> D (k_prev C) -> held s (k_id C) C cs -> recent o (s_now s') C \/ in_order root (s_log s') C -> reported C (s_log s) (s_log s') -> applied (s_log s') (k_id C).
Proof.
  intros Hr Hp Hu Hrun HK HE Hset HDC HDP Hheld Hrec Hrep. destruct (kept_split _ _ _ _ _ _ (proj2 (proj2 Hr)) HK) as [HK1 HK2]. pose proof (reaches_inv _ _ _ _ _ _ _ Hr) as HI.
  assert (HA : Again (in_order root (s_log s') C) root C (s_log s) s').
  { eapply (Again_run D _ o root head lib C (s_log s) more s s'); try done.
    - intros HE0. by eapply Work_reach.
    - split; [by exists []|by apply (pv_byid s (v_prov _ _ _ _ HI) _ _ Hheld)|]. right. right. split.
      + unfold held_ids. apply elem_of_dom. by eexists.
      + intros (new & E & Hx). assert (new = []) as -> by (by rewrite <- (app_nil_l (s_log s)) in E at 1; apply app_inv_tail in E).
        destruct Hx as [(? & ? & Hx & _)|(? & ? & Hx & _)]; by apply elem_of_nil in Hx. }
  destruct (ag_or _ _ _ _ _ HA) as [?|[(_ & Ht)|(_ & Hn)]]; [done| |done]. by apply settled_not_tried in Ht.
Qed.

(** ** The start *)
Section start.
Context (judge : blk -> option goerr) (o : ap_opts) (dur now : Z).
Notation bstep := (boot_step judge o dur now).
Notation brun := (boot_run judge o dur now).
(** How far the main goroutine has come. *)
Definition pc (x : boot) : Prop := exists n, bo_todo x = drop n program /\ (n = 0 <-> bo_world x = None).
Lemma todo_step x l y : bstep x l = Some y -> bo_todo y = bo_todo x \/ (l = BMain /\ exists a, bo_todo x = a :: bo_todo y).
Proof.
  unfold boot_step. destruct (bo_crash x); [done|]. destruct l as [| |b|fh| |lab].
  - destruct (bo_todo x) as [|[] r] eqn:E; try done; intros [= <-]; right; eauto.
  - destruct (bo_todo x) as [|[] r] eqn:E; try done; intros [= <-]; left; done.
  - destruct (bo_world x) as [w|]; [|intros [= <-]; by left]. case_bool_decide; [|intros [= <-]; by left]. intros [= <-]. by left.
  - destruct (bo_world x) as [w|]; [|intros [= <-]; by left]. case_bool_decide; [|intros [= <-]; by left]. destruct (wstep _ _ _ _); [|done]. intros [= <-]. by left.
  - destruct (users _); [|done]. destruct (bo_value x) as [[]|]; intros [= <-]; by left.
  - destruct (bo_world x) as [w|]; [|done]. destruct (may _ _); [|done]. destruct (wstep _ _ _ _); [|done]. intros [= <-]. by left.
Qed.
Lemma world_step x l y : bstep x l = Some y ->
  match bo_world x with
  | None => (bo_world y = None /\ forall r, l = BMain -> bo_todo x <> ANew :: r) \/ (l = BMain /\ exists r, bo_todo x = ANew :: r)
  | Some w => (forall r, l = BMain -> bo_todo x <> ANew :: r) -> exists w', bo_world y = Some w' /\ bo_chain y = bo_chain x /\ bo_head y = bo_head x /\ bo_lib0 y = bo_lib0 x /\
      (bo_missed y = bo_missed x /\ match as_world x l with Some lab => wstep judge o w lab = Some w' | None => w' = w end \/ exists b, bo_missed y = bo_missed x ++ [b])
  end.
Proof.
  unfold boot_step, as_world. destruct (bo_crash x); [done|]. destruct l as [| |b|fh| |lab].
  - destruct (bo_todo x) as [|[] r] eqn:E; try done; intros [= <-]; cbn; destruct (bo_world x) as [w|] eqn:Ew; cbn; try rewrite Ew; eauto 10.
    intros H. by destruct (H r eq_refl eq_refl).
  - destruct (bo_todo x) as [|[] r] eqn:E; try done; intros [= <-]; destruct (bo_world x) as [w|]; eauto 10.
  - destruct (bo_world x) as [w|] eqn:Ew; [|intros [= <-]; left; by split]. case_bool_decide as Hs.
    + intros [= <-] _. cbn. eexists. split_and!; [done..|]. left. by split.
    + intros [= <-] _. cbn. eexists. split_and!; [done..|]. right. eauto.
  - destruct (bo_world x) as [w|] eqn:Ew; [|intros [= <-]; left; by split]. case_bool_decide as Hs.
    + destruct (wstep judge o w (WApp (LAnnounce fh))) as [w'|] eqn:E; [|done]. intros [= <-] _. cbn. eexists. split_and!; [done..|]. left. by split.
    + intros [= <-] _. cbn. eexists. split_and!; [done..|]. left. by split.
  - destruct (users _); [|done]. destruct (bo_value x) as [[]|]; intros [= <-]; cbn; destruct (bo_world x) as [w|]; eauto 10; left; (split; [done|]); by intros ? ?.
  - destruct (bo_world x) as [w|] eqn:Ew; [|done]. destruct (may _ _); [|done]. destruct (wstep judge o w lab) as [w'|] eqn:E; [|done]. intros [= <-] _. cbn. eexists. split_and!; [done..|]. left. by split.
Qed.
Lemma missed_step x l y : bstep x l = Some y -> exists m, bo_missed y = bo_missed x ++ m.
Proof.
  unfold boot_step. destruct (bo_crash x); [done|]. destruct l as [| |b|fh| |lab].
  - destruct (bo_todo x) as [|[] r] eqn:E; try done; intros [= <-]; exists []; by rewrite app_nil_r.
  - destruct (bo_todo x) as [|[] r] eqn:E; try done; intros [= <-]; exists []; by rewrite app_nil_r.
  - destruct (bo_world x) as [w|]; [|intros [= <-]; exists []; by rewrite app_nil_r]. case_bool_decide; [|intros [= <-]; eauto]. intros [= <-]. exists []; by rewrite app_nil_r.
  - destruct (bo_world x) as [w|]; [|intros [= <-]; exists []; by rewrite app_nil_r]. case_bool_decide; [|intros [= <-]; exists []; by rewrite app_nil_r]. destruct (wstep _ _ _ _); [|done]. intros [= <-]. exists []; by rewrite app_nil_r.
  - destruct (users _); [|done]. destruct (bo_value x) as [[]|]; intros [= <-]; exists []; by rewrite app_nil_r.
  - destruct (bo_world x) as [w|]; [|done]. destruct (may _ _); [|done]. destruct (wstep _ _ _ _); [|done]. intros [= <-]. exists []; by rewrite app_nil_r.
Qed.
Lemma missed_run ls : forall x y, brun x ls = Some y -> exists m, bo_missed y = bo_missed x ++ m.
Proof.
  induction ls as [|l r IH]; intros x y H; cbn in H; [injection H as <-; exists []; by rewrite app_nil_r|]. destruct (bstep x l) as [z|] eqn:E; [|done].
  destruct (missed_step _ _ _ E) as (m & Em). destruct (IH _ _ H) as (m' & Em'). exists (m ++ m'). by rewrite Em', Em, (assoc_L (++)).
Qed.
Lemma pc_step x l y : pc x -> bstep x l = Some y -> pc y.
Proof.
  intros (n & En & Hw) H. destruct (todo_step _ _ _ H) as [E|(-> & a & E)].
  - exists n. split; [congruence|]. rewrite Hw. pose proof (world_step _ _ _ H) as Hs. destruct (bo_world x) as [w|] eqn:Ew.
    + destruct Hs as (w' & -> & _); [|done]. intros r -> Ex. destruct n as [|n]; [by destruct Hw as [Hw _]; specialize (Hw eq_refl)|].
      do 8 (destruct n as [|n]; [by rewrite En in Ex|]). by rewrite En in Ex.
    + destruct Hs as [[-> _]|(-> & r & Ex)]; [done|]. exfalso. unfold boot_step in H. rewrite Ex in H, E. destruct (bo_crash x); [done|]. injection H as <-. cbn in E. by apply (f_equal length) in E; cbn in E; lia.
  - exists (S n). split; [replace (S n) with (n + 1) by lia; rewrite <- drop_drop, <- En, E; done|]. split; [done|]. intros Hy. pose proof (world_step _ _ _ H) as Hs. destruct (bo_world x) as [w|] eqn:Ew.
    + destruct Hs as (w' & Hs & _); [|congruence]. intros r _ Ex. destruct n as [|n]; [by destruct Hw as [Hw _]; specialize (Hw eq_refl)|].
      do 8 (destruct n as [|n]; [by rewrite En in Ex|]). by rewrite En in Ex.
    + assert (n = 0) as -> by (by apply Hw). unfold boot_step in H. rewrite En in H. cbn in H. destruct (bo_crash x); [done|]. injection H as <-. done.
Qed.
Lemma pc_not_new x r w : pc x -> bo_world x = Some w -> bo_todo x <> ANew :: r.
Proof.
  intros (n & En & Hw) Ew Ex. destruct n as [|n]; [destruct Hw as [Hw _]; specialize (Hw eq_refl); congruence|]. do 8 (destruct n as [|n]; [by rewrite En in Ex|]). by rewrite En in Ex.
Qed.
Lemma heard_run ls : forall x y w, pc x -> bo_world x = Some w -> brun x ls = Some y -> bo_missed y = [] ->
  bo_chain y = bo_chain x /\ bo_head y = bo_head x /\ bo_lib0 y = bo_lib0 x /\ exists w', bo_world y = Some w' /\ wrun judge o w (heard judge o dur now x ls) = Some w'.
Proof.
  induction ls as [|l r IH]; intros x y w Hpc Hw H Hm; cbn in H; [injection H as <-; split_and!; eauto|]. destruct (bstep x l) as [z|] eqn:E; [|done].
  pose proof (world_step _ _ _ E) as Hs. rewrite Hw in Hs. destruct Hs as (w' & Hz & E1 & E2 & E3 & Hor); [intros r' _; by eapply pc_not_new|].
  destruct (IH z y w') as (I1 & I2 & I3 & w'' & I4 & I5); [by eapply pc_step|done|done|done|]. split_and!; [congruence..|]. exists w''. split; [done|]. cbn [heard]. rewrite E.
  destruct Hor as [(_ & Hl)|(b & Eb)].
  - destruct (as_world x l) as [lab|]; [cbn; by rewrite Hl|by subst w'].
  - exfalso. destruct (missed_run _ _ _ H) as (m & Em). rewrite Eb, Hm in Em. destruct (bo_missed x); done.
Qed.
Lemma heard_all x ls lab : lab ∈ heard judge o dur now x ls -> exists l x', l ∈ ls /\ as_world x' l = Some lab.
Proof.
  revert x. induction ls as [|l r IH]; intros x Hin; cbn in Hin; [by apply elem_of_nil in Hin|]. destruct (bstep x l) as [y|]; [|by apply elem_of_nil in Hin].
  destruct (as_world x l) as [lab'|] eqn:E; [apply elem_of_cons in Hin as [->|Hin]|].
  - exists l, x. split; [left|done].
  - destruct (IH y Hin) as (l' & x' & ? & ?). exists l', x'. split; [by right|done].
  - destruct (IH y Hin) as (l' & x' & ? & ?). exists l', x'. split; [by right|done].
Qed.
Definition lib_ok (x : boot) : Prop := forall l, bo_lib x = Some l -> (l < two64)%N.
(** A start without a gap is a run of the applicator with its chain service from the state in which the applicator was made. *)
Lemma boot_world root head lib ls x w : (forall l, lib = Some l -> (l < two64)%N) -> Forall bu64 ls -> Forall bcomplete ls ->
  brun (boot_init root head lib) ls = Some x -> bo_world x = Some w -> bo_missed x = [] ->
  wreaches judge o (bo_chain x) (bo_head x) (bo_lib0 x) dur now (heard judge o dur now (boot_init root head lib) ls) w.
Proof.
  intros Hlib Hu Hc Hr Hw Hm.
  assert (Hgen : forall y, bo_todo y = program -> bo_world y = None -> lib_ok y -> brun y ls = Some x ->
    (bo_lib0 x < two64)%N /\ wrun judge o (world_init (bo_chain x) (bo_head x) (bo_lib0 x) dur now) (heard judge o dur now y ls) = Some w).
  { clear Hr Hlib Hc. induction ls as [|l r IH]; intros y Hy1 Hy2 Hy3 Hr; cbn in Hr; [injection Hr as <-; congruence|]. apply Forall_cons in Hu as [Hu1 Hu2].
    destruct (bstep y l) as [z|] eqn:E; [|done]. assert (Hpc : pc y) by (exists 0; by split). cbn [heard]. rewrite E.
    pose proof (world_step _ _ _ E) as Hs. rewrite Hy2 in Hs. destruct Hs as [[Hz Hn]|(-> & _)].
    - assert (Hno : as_world y l = None).
      { destruct l as [| |b|fh| |lab]; try done; cbn; rewrite ?Hy1; try done. unfold boot_step in E. rewrite Hy2 in E. by destruct (bo_crash y). }
      rewrite Hno. apply (IH Hu2 z); [|done| |done].
      + destruct (todo_step _ _ _ E) as [?|(-> & a & Ea)]; [congruence|]. exfalso. rewrite Hy1 in Ea. injection Ea as _ Ea. by eapply (Hn _ eq_refl Hy1).
      + unfold boot_step in E. rewrite Hy1, Hy2 in E. destruct (bo_crash y); [done|]. destruct l as [| |b|fh| |lab]; try done.
        * by injection E as <-.
        * by injection E as <-.
        * injection E as <-. intros l Hl. cbn in Hl. by apply Hu1.
    - cbn. unfold boot_step in E. rewrite Hy1 in E. cbn in E. destruct (bo_crash y); [done|]. injection E as <-. match type of Hr with brun ?z _ = _ => set (z0 := z) in * end.
      destruct (heard_run r z0 x _ ltac:(exists 1; by split) eq_refl Hr Hm) as (E1 & E2 & E3 & w' & E4 & E5). rewrite E1, E2, E3. cbn. split.
      + destruct (bo_lib y) as [l|] eqn:El; cbn; [by apply Hy3|done].
      + rewrite E4 in Hw. injection Hw as ->. exact E5. }
  destruct (Hgen (boot_init root head lib) eq_refl eq_refl Hlib Hr) as (H1 & H2). split_and!; [done| | |done].
  - apply Forall_forall. intros lab Hin. apply heard_all in Hin as (l & x' & Hin & E). rewrite Forall_forall in Hu. specialize (Hu _ Hin). destruct l; cbn in E; try case_bool_decide; try done; by injection E as <-.
  - apply Forall_forall. intros lab Hin. apply heard_all in Hin as (l & x' & Hin & E). rewrite Forall_forall in Hc. specialize (Hc _ Hin). destruct l; cbn in E; try case_bool_decide; try done; by injection E as <-.
Qed.
End start.

(** ** The LIB *)
Section lib.
Context (judge : blk -> option goerr) (o : ap_opts) (dur now : Z).
Notation bstep := (boot_step judge o dur now).
Notation brun := (boot_run judge o dur now).
Lemma brun_app a : forall b x y, brun x (a ++ b) = Some y <-> exists z, brun x a = Some z /\ brun z b = Some y.
Proof.
  induction a as [|l a IH]; intros b x y; cbn [boot_run app]; [split; [by exists x|by intros (z & [= <-] & ?)]|].
  destruct (bstep x l) as [z|]; [apply IH|split; [done|by intros (? & ? & ?)]].
Qed.
(** How the main goroutine's place and the stored LIB hang together. *)
Record Lib (lib : option N) (ls : list blabel) (x : boot) : Prop := {
  lb_pc : exists n, bo_todo x = drop n program /\ (4 <= n -> bo_value x <> None);
  lb_lib : bo_lib x = latest lib ls }.
Lemma latest_app lib a b : latest lib (a ++ b) = latest (latest lib a) b.
Proof. unfold latest. by rewrite fold_left_app. Qed.
Lemma lib_step_latest x l y : bstep x l = Some y -> bo_lib y = latest (bo_lib x) [l].
Proof.
  unfold boot_step. destruct (bo_crash x); [done|]. destruct l as [| |b|fh| |lab]; cbn [latest fold_left].
  - destruct (bo_todo x) as [|[] r] eqn:E; try done; by intros [= <-].
  - destruct (bo_todo x) as [|[] r] eqn:E; try done; by intros [= <-].
  - destruct (bo_world x) as [w|]; [|by intros [= <-]]. case_bool_decide; [|by intros [= <-]]. by intros [= <-].
  - destruct (bo_world x) as [w|]; [|by intros [= <-]]. case_bool_decide; [|by intros [= <-]]. destruct (wstep _ _ _ _); [|done]. by intros [= <-].
  - destruct (users _); [|done]. destruct (bo_value x) as [[]|]; by intros [= <-].
  - destruct (bo_world x) as [w|]; [|done]. destruct (may _ _); [|done]. destruct (wstep _ _ _ _); [|done]. by intros [= <-].
Qed.
(** The stored LIB: changed by the main goroutine's storing and by announcements after the subscription only. *)
Lemma value_step x l y : bstep x l = Some y ->
  bo_value y = bo_value x \/ (l = BMain /\ (exists r, bo_todo x = AStore :: r) /\ bo_value y = Some (bo_answer x)) \/
  exists fh, l = BForks fh /\ bo_value y = Some (fh_lib fh).
Proof.
  unfold boot_step. destruct (bo_crash x); [done|]. destruct l as [| |b|fh| |lab].
  - destruct (bo_todo x) as [|[] r] eqn:E; try done; intros [= <-]; eauto 10.
  - destruct (bo_todo x) as [|[] r] eqn:E; try done; intros [= <-]; eauto.
  - destruct (bo_world x) as [w|]; [|intros [= <-]; eauto]. case_bool_decide; intros [= <-]; eauto.
  - destruct (bo_world x) as [w|]; [|intros [= <-]; eauto]. case_bool_decide; [|intros [= <-]; eauto]. destruct (wstep _ _ _ _); [|done]. intros [= <-]. eauto 10.
  - destruct (users _); [|done]. destruct (bo_value x) as [[]|] eqn:E; intros [= <-]; cbn; eauto.
  - destruct (bo_world x) as [w|]; [|done]. destruct (may _ _); [|done]. destruct (wstep _ _ _ _); [|done]. intros [= <-]. eauto.
Qed.
Lemma value_forks x fh y : bstep x (BForks fh) = Some y -> ASubscribe ∉ bo_todo x -> bo_world x <> None -> bo_value y = Some (fh_lib fh).
Proof.
  unfold boot_step. destruct (bo_crash x); [done|]. intros H Hs Hw. destruct (bo_world x) as [w|]; [|done]. rewrite bool_decide_eq_true_2 in H by done.
  destruct (wstep _ _ _ _); [|done]. by injection H as <-.
Qed.
Lemma answer_step x l y : bstep x l = Some y -> bo_answer y = bo_answer x \/ (l = BMain /\ (exists r, bo_todo x = AAsk :: r) /\ bo_answer y = bo_lib x).
Proof.
  unfold boot_step. destruct (bo_crash x); [done|]. destruct l as [| |b|fh| |lab].
  - destruct (bo_todo x) as [|[] r] eqn:E; try done; intros [= <-]; eauto 10.
  - destruct (bo_todo x) as [|[] r] eqn:E; try done; intros [= <-]; eauto.
  - destruct (bo_world x) as [w|]; [|intros [= <-]; eauto]. case_bool_decide; intros [= <-]; eauto.
  - destruct (bo_world x) as [w|]; [|intros [= <-]; eauto]. case_bool_decide; [|intros [= <-]; eauto]. destruct (wstep _ _ _ _); [|done]. intros [= <-]. eauto 10.
  - destruct (users _); [|done]. destruct (bo_value x) as [[]|] eqn:E; intros [= <-]; cbn; eauto.
  - destruct (bo_world x) as [w|]; [|done]. destruct (may _ _); [|done]. destruct (wstep _ _ _ _); [|done]. intros [= <-]. eauto.
Qed.
(** What the main goroutine does at each place, when it acts. *)
Lemma main_step x y n a : bstep x BMain = Some y -> bo_todo x = drop n program -> program !! n = Some a ->
  bo_todo y = drop (S n) program /\ (a = AAsk -> bo_answer y = bo_lib x) /\ (a = AStore -> bo_value y = Some (bo_answer x)).
Proof.
  intros H E Ha. rewrite (drop_S program a n Ha) in E. unfold boot_step in H. destruct (bo_crash x); [done|]. rewrite E in H.
  destruct a; injection H as <-; cbn; split_and!; done.
Qed.
(** The invariant behind all of this: where the main goroutine is, and what is known of answer and value there.  [quiet]: no announcement
    came between answer and storing. *)
Lemma place_init root head lib : pc (boot_init root head lib).
Proof. exists 0. by split. Qed.
Lemma place_run ls : forall x y, pc x -> brun x ls = Some y -> pc y.
Proof.
  induction ls as [|l r IH]; intros x y Hpc H; cbn in H; [by injection H as <-|]. destruct (bstep x l) as [z|] eqn:E; [|done]. eapply IH; [|done]. by eapply pc_step.
Qed.
Definition at_least (n : nat) (x : boot) : Prop := exists m, n <= m /\ bo_todo x = drop m program.
Lemma at_least_step n x l y : at_least n x -> bstep x l = Some y -> at_least n y.
Proof.
  intros (m & Hm & E) H. destruct (todo_step _ _ _ _ _ _ _ H) as [Et|(-> & a & Ea)]; [exists m; by rewrite Et|].
  exists (S m). split; [lia|]. replace (S m) with (m + 1) by lia. by rewrite <- drop_drop, <- E, Ea.
Qed.
Lemma program_once n k a : program !! n = Some a -> program !! k = Some a -> n = k.
Proof. apply NoDup_lookup. unfold program. repeat (apply NoDup_cons; split; [set_solver|]). apply NoDup_nil. exact I. Qed.
Lemma todo_head n a r k : drop n program = a :: r -> program !! k = Some a -> n = k.
Proof. intros H. apply program_once. by rewrite <- (Nat.add_0_r n), <- lookup_drop, H. Qed.
Lemma todo_in n a k : a ∈ drop n program -> program !! k = Some a -> n <= k.
Proof. intros Hin Hk. apply elem_of_list_lookup in Hin as (i & Hi). rewrite lookup_drop in Hi. pose proof (program_once _ _ _ Hi Hk). lia. Qed.
Lemma drop_in n a k : program !! k = Some a -> a ∉ drop n program -> k < n.
Proof. intros Hk Hn. destruct (decide (k < n)) as [|Hge]; [done|]. exfalso. apply Hn. apply elem_of_list_lookup. exists (k - n). rewrite lookup_drop. replace (n + (k - n)) with k by lia. done. Qed.
Lemma users_stored todo n : todo = drop n program -> users todo = true -> 4 <= n.
Proof.
  intros -> Hu. unfold users in Hu. apply orb_true_iff in Hu as [Hu|Hu]; apply bool_decide_eq_true in Hu; [pose proof (drop_in n AToggle 5 eq_refl Hu)|pose proof (drop_in n AManager 6 eq_refl Hu)]; lia.
Qed.
Lemma stored_step x l y : (exists n, bo_todo x = drop n program /\ (4 <= n -> bo_value x <> None)) -> bstep x l = Some y ->
  exists n, bo_todo y = drop n program /\ (4 <= n -> bo_value y <> None).
Proof.
  intros (n & E & Hv) H. assert (Hkeep : bo_value x <> None -> bo_value y <> None).
  { intros Hx. destruct (value_step _ _ _ H) as [->|[(_ & _ & ->)|(fh & _ & ->)]]; done. }
  destruct (todo_step _ _ _ _ _ _ _ H) as [Et|(-> & a & Ea)]; [exists n; rewrite Et; split; [done|]; auto|].
  exists (S n). split; [replace (S n) with (n + 1) by lia; by rewrite <- drop_drop, <- E, Ea|]. intros Hn. destruct (decide (4 <= n)) as [|Hlt]; [auto|].
  assert (n = 3) as -> by lia. destruct (main_step x y 3 AStore H E eq_refl) as (_ & _ & ->); done.
Qed.
Lemma value_stored root head lib ls x : brun (boot_init root head lib) ls = Some x -> users (bo_todo x) = true -> bo_value x <> None.
Proof.
  intros Hr Hu. assert (Hi : exists n, bo_todo x = drop n program /\ (4 <= n -> bo_value x <> None)).
  { assert (H0 : exists n, bo_todo (boot_init root head lib) = drop n program /\ (4 <= n -> bo_value (boot_init root head lib) <> None)) by (exists 0; split; [done|lia]).
    revert H0 Hr. generalize (boot_init root head lib). clear Hu. induction ls as [|l r IH]; intros x0 H0 H; cbn in H; [by injection H as <-|].
    destruct (bstep x0 l) as [z|] eqn:E; [|done]. eapply IH; [|done]. by eapply stored_step. }
  destruct Hi as (n & E & Hv). apply Hv. by eapply users_stored.
Qed.
Lemma crash_step x l y : bstep x l = Some y -> bo_crash y = true -> bo_crash x = true \/ (l = BReadLib /\ users (bo_todo x) = true /\ forall v, bo_value x <> Some (Some v)).
Proof.
  unfold boot_step. destruct (bo_crash x) eqn:Ec; [done|]. destruct l as [| |b|fh| |lab].
  - destruct (bo_todo x) as [|[] r] eqn:E; try done; intros [= <-]; cbn; left; congruence.
  - destruct (bo_todo x) as [|[] r] eqn:E; try done; intros [= <-]; cbn; left; congruence.
  - destruct (bo_world x) as [w|]; [|intros [= <-]; cbn; left; congruence]. case_bool_decide; intros [= <-]; cbn; left; congruence.
  - destruct (bo_world x) as [w|]; [|intros [= <-]; cbn; left; congruence]. case_bool_decide; [|intros [= <-]; cbn; left; congruence]. destruct (wstep _ _ _ _); [|done]. intros [= <-]; cbn; left; congruence.
  - destruct (users _); [|done]. destruct (bo_value x) as [[v|]|] eqn:E; intros [= <-]; cbn; intros Hc; [left; congruence|right; done|right; done].
  - destruct (bo_world x) as [w|]; [|done]. destruct (may _ _); [|done]. destruct (wstep _ _ _ _); [|done]. intros [= <-]; cbn; left; congruence.
Qed.
(** With announcements that name the LIB everything stored is one that the chain named. *)
Lemma no_crash root head l0 ls x : brun (boot_init root head (Some l0)) ls = Some x -> Forall names_lib ls ->
  bo_crash x = false /\ (users (bo_todo x) = true -> exists l, bo_value x = Some (Some l) /\ (l = l0 \/ exists fh, BForks fh ∈ ls /\ fh_lib fh = Some l)).
Proof.
  intros Hr Hn. set (named := fun (v : option N) => exists l, v = Some l /\ (l = l0 \/ exists fh, BForks fh ∈ ls /\ fh_lib fh = Some l)).
  set (J := fun x => named (bo_lib x) /\ (forall v, bo_value x = Some v -> named v) /\ bo_crash x = false /\
    exists n, bo_todo x = drop n program /\ (3 <= n -> named (bo_answer x)) /\ (4 <= n -> bo_value x <> None)).
  assert (Hstep : forall x l y, l ∈ ls -> J x -> bstep x l = Some y -> J y).
  { intros z l y Hin (J1 & J2 & J3 & n & E & J4 & J5) H. destruct (stored_step _ _ _ (ex_intro _ n (conj E J5)) H) as (n' & E' & J5').
    assert (Hf : forall fh, l = BForks fh -> named (fh_lib fh)).
    { intros fh ->. rewrite Forall_forall in Hn. specialize (Hn _ Hin). cbn in Hn. destruct (fh_lib fh) as [v|] eqn:Ef; [|done]. exists v. split; [done|]. right. by exists fh. }
    split_and!.
    - rewrite (lib_step_latest _ _ _ H). destruct l as [| |b|fh| |lab]; cbn; try done. by apply Hf.
    - intros v Hv. destruct (value_step _ _ _ H) as [Ev|[(-> & (r & Er) & Ev)|(fh & -> & Ev)]]; [apply J2; congruence| |rewrite Ev in Hv; injection Hv as <-; by apply Hf].
      rewrite Ev in Hv. injection Hv as <-. apply J4. destruct (decide (3 <= n)) as [|Hlt]; [done|]. exfalso. rewrite E in Er.
      destruct n as [|[|[|n]]]; [discriminate Er..|lia].
    - destruct (bo_crash y) eqn:Ec; [|done]. exfalso. destruct (crash_step _ _ _ H Ec) as [?|(-> & Hu & Hv)]; [congruence|].
      pose proof (J5 (users_stored _ _ E Hu)) as Hs. destruct (bo_value z) as [v|] eqn:Ev; [|done]. destruct (J2 v eq_refl) as (l & -> & _). by apply (Hv l).
    - destruct (todo_step _ _ _ _ _ _ _ H) as [Et|(-> & a & Ea)].
      + exists n. split; [congruence|]. split; [|intros Hn4; apply J5'; assert (length (bo_todo y) = length (drop n program)) as HL by congruence; rewrite E', !drop_length in HL; cbn [length program] in HL; lia].
        intros H3. destruct (answer_step _ _ _ H) as [->|(-> & (r & Er) & Eans)]; [auto|]. by rewrite Eans.
      + assert (Ey : bo_todo y = drop (S n) program) by (replace (S n) with (n + 1) by lia; by rewrite <- drop_drop, <- E, Ea).
        exists (S n). split; [done|]. split; [|intros Hn4; apply J5'; assert (length (bo_todo y) = length (drop (S n) program)) as HL by congruence; rewrite E', !drop_length in HL; cbn [length program] in HL; lia].
        intros H3. destruct (answer_step _ _ _ H) as [Eans|(_ & _ & Eans)]; [|by rewrite Eans]. destruct (decide (3 <= n)) as [|Hlt]; [rewrite Eans; auto|].
        assert (n = 2) as -> by lia. destruct (main_step z y 2 AAsk H E eq_refl) as (_ & -> & _); done. }
  assert (HJ : J x).
  { assert (H0 : J (boot_init root head (Some l0))) by (split_and!; [by exists l0; split; [|left]|done|done|exists 0; split_and!; [done|lia|lia]]).
    assert (Hsub : forall l, l ∈ ls -> l ∈ ls) by done. revert H0 Hr Hsub. generalize (boot_init root head (Some l0)). generalize ls at 1 2 as rest. clear Hn.
    induction rest as [|l r IH]; intros x0 H0 H Hsub; cbn in H; [by injection H as <-|]. destruct (bstep x0 l) as [z|] eqn:E; [|done].
    apply (IH z); [eapply Hstep; [apply Hsub; left|exact H0|exact E]|done|intros l' Hl'; apply Hsub; by right]. }
  destruct HJ as (J1 & J2 & J3 & n & E & J4 & J5). split; [done|]. intros Hu. pose proof (J5 (users_stored _ _ E Hu)) as Hs. destruct (bo_value x) as [v|]; [|done].
  destruct (J2 v eq_refl) as (l & -> & Hl). by exists l.
Qed.
(** After the storing, the stored LIB follows the announcements. *)
Lemma follow_run after : forall x y v, pc x -> at_least 4 x -> bo_value x = Some v -> brun x after = Some y -> bo_value y = Some (latest v after).
Proof.
  induction after as [|l r IH]; intros x y v Hpc Hal Hv H; cbn in H; [by injection H as <-|]. destruct (bstep x l) as [z|] eqn:E; [|done].
  change (latest v (l :: r)) with (latest (latest v [l]) r). apply (IH z); [by eapply pc_step|by eapply at_least_step| |done].
  destruct Hal as (m & Hm & Et). destruct Hpc as (n & En & Hw).
  assert (Hdec : (exists fh, l = BForks fh) \/ ~ exists fh, l = BForks fh) by (destruct l; try (right; by intros (? & ?)); left; by eexists).
  destruct Hdec as [(fh & ->)|Hno].
  - apply (value_forks _ _ _ E); [rewrite Et; intros Hin; pose proof (todo_in m ASubscribe 1 Hin eq_refl); lia|].
    intros Hx. apply Hw in Hx as ->. rewrite Et in En. apply (f_equal length) in En. rewrite !drop_length in En. cbn [length program] in En. lia.
  - destruct (value_step _ _ _ E) as [->|[(-> & (r' & Er) & _)|(fh & -> & _)]].
    + destruct l as [| |b|fh| |lab]; cbn; try done. exfalso. apply Hno. by exists fh.
    + exfalso. rewrite Et in Er. pose proof (todo_head _ _ _ 3 Er eq_refl). lia.
    + exfalso. apply Hno. by exists fh.
Qed.
Lemma stored_place x : pc x -> AStore ∉ bo_todo x -> at_least 4 x.
Proof. intros (n & En & _) H. exists n. split; [|done]. rewrite En in H. pose proof (drop_in n AStore 3 eq_refl H). lia. Qed.
Lemma latest_after root head lib before x fh after y : brun (boot_init root head lib) before = Some x -> AStore ∉ bo_todo x -> brun x (BForks fh :: after) = Some y ->
  bo_value y = Some (latest (fh_lib fh) after).
Proof.
  intros Hb Hs H. pose proof (place_run _ _ _ (place_init root head lib) Hb) as Hpc. cbn in H. destruct (bstep x (BForks fh)) as [z|] eqn:E; [|done].
  pose proof (stored_place _ Hpc Hs) as Hal. apply (follow_run after z y); [by eapply pc_step|by eapply at_least_step| |done].
  destruct Hal as (m & Hm & Et). destruct Hpc as (n & En & Hw). apply (value_forks _ _ _ E).
  - rewrite Et. intros Hin. pose proof (todo_in m ASubscribe 1 Hin eq_refl). lia.
  - intros Hx. apply Hw in Hx as ->. rewrite Et in En. apply (f_equal length) in En. rewrite !drop_length in En. cbn [length program] in En. lia.
Qed.
Lemma latest_no_race root head lib ls x : brun (boot_init root head lib) ls = Some x ->
  (forall a fh b z r, ls = a ++ BForks fh :: b -> brun (boot_init root head lib) a = Some z -> bo_todo z <> AStore :: r) -> AStore ∉ bo_todo x -> bo_value x = Some (latest lib ls).
Proof.
  revert x. induction ls as [|l ls IH] using rev_ind; intros x Hr Hno Hs.
  { cbn in Hr. injection Hr as <-. exfalso. apply Hs. cbn. set_solver. }
  apply brun_app in Hr as (z & Hz & Hr). cbn in Hr. destruct (bstep z l) as [x'|] eqn:E; [|done]. injection Hr as ->.
  pose proof (place_run _ _ _ (place_init root head lib) Hz) as Hpc.
  assert (Hno' : forall a fh b z r, ls = a ++ BForks fh :: b -> brun (boot_init root head lib) a = Some z -> bo_todo z <> AStore :: r).
  { intros a fh b z' r -> Ha. eapply (Hno a fh (b ++ [l])); [by rewrite <- (assoc_L (++))|done]. }
  destruct (decide (AStore ∈ bo_todo z)) as [Hin|Hout].
  - (* this step stores *)
    destruct Hpc as (n & En & Hw). destruct (todo_step _ _ _ _ _ _ _ E) as [Et|(-> & a & Ea)]; [by rewrite Et in Hs|].
    assert (a = AStore) as -> by (rewrite Ea in Hin; apply elem_of_cons in Hin as [->|]; done).
    assert (n = 3) as -> by (rewrite En in Ea; exact (todo_head _ _ _ 3 Ea eq_refl)).
    destruct (main_step z x 3 AStore E En eq_refl) as (_ & _ & Hst). rewrite (Hst eq_refl). clear Hst. f_equal. rewrite latest_app. cbn [latest fold_left].
    (* the answer is that of the last announcement *)
    clear IH Hno Hs Hin E Ea Hw. revert z Hz En. induction ls as [|l ls IH] using rev_ind; intros z Hz En; [cbn in Hz; by injection Hz as <-|].
    apply brun_app in Hz as (u & Hu & Hz). cbn in Hz. destruct (bstep u l) as [z'|] eqn:E; [|done]. injection Hz as ->.
    destruct (todo_step _ _ _ _ _ _ _ E) as [Et|(-> & a & Ea)].
    + destruct (answer_step _ _ _ E) as [->|(-> & (r & Er) & _)]; [|exfalso; rewrite <- Et, En in Er; discriminate Er].
      rewrite latest_app. destruct l as [| |b|fh| |lab]; cbn [latest fold_left]; try (apply IH; [intros a fh' b' z' r -> Ha; eapply (Hno' a fh' (b' ++ [_])); [by rewrite <- (assoc_L (++))|done]|done|congruence]).
      exfalso. eapply (Hno' ls fh [] u); [done|done|]. rewrite <- Et. exact En.
    + pose proof (place_run _ _ _ (place_init root head lib) Hu) as (m & Em & _). rewrite En in Ea.
      assert (Hm : S m = 3) by (apply (todo_head _ AStore [AErrors; AToggle; AManager; AApplicator] 3); [|done]; replace (S m) with (m + 1) by lia; by rewrite <- drop_drop, <- Em, Ea).
      assert (m = 2) as -> by lia.
      destruct (main_step u z 2 AAsk E Em eq_refl) as (_ & Hst & _). rewrite (Hst eq_refl). clear Hst. rewrite latest_app. cbn [latest fold_left].
      clear -Hu. revert u Hu. induction ls as [|l ls IH] using rev_ind; intros u Hu; [cbn in Hu; by injection Hu as <-|].
      apply brun_app in Hu as (v & Hv & Hu). cbn in Hu. destruct (bstep v l) as [u'|] eqn:E; [|done]. injection Hu as ->. by rewrite latest_app, <- (IH v Hv), <- (lib_step_latest _ _ _ E).
  - rewrite latest_app. apply (follow_run [l] z x); [done|by apply stored_place| |cbn; by rewrite E]. by apply IH.
Qed.
End lib.

(** ** Before the applicator runs *)
Section idle.
Context (judge : blk -> option goerr) (o : ap_opts) (dur now : Z).
Notation bstep := (boot_step judge o dur now).
Notation brun := (boot_run judge o dur now).
Record Idle (s : sys) : Prop := {
  id_calls : forall c cl, s_calls s !! c = Some cl -> cl_buf cl = None;
  id_txs : forall i p, s_txs s !! i = Some p -> tp_buf p = None;
  id_work : s_try s = [] /\ s_att s = [];
  id_log : Forall error_return (s_log s) }.
Lemma Idle_step s lab s' : match lab with LCall _ | LSend _ | LRet _ | LTimeout _ | LTxCall _ | LTxSend _ | LTxRet _ | LTxTimeout _ _ | LAnnounce _ | LAccept _ | LTick _ => True | _ => False end ->
  step o s lab = Some s' -> Idle s -> Idle s'.
Proof.
  intros Hl Hst H. destruct H as [H1 H2 H3 H4].
  assert (Hc : forall (c : nat) k p buf q c' (cl : call), s_calls s !! c = Some (Call k p buf) -> <[c := Call k q buf]> (s_calls s) !! c' = Some cl -> cl_buf cl = None).
  { intros c k p buf q c' cl Hc Hx. destruct (decide (c = c')) as [<-|]; [|rewrite list_lookup_insert_ne in Hx by done; by eapply H1].
    rewrite list_lookup_insert in Hx by (by eapply lookup_lt_Some). injection Hx as <-. exact (H1 _ _ Hc). }
  assert (Ht : forall (i : nat) p f i' x, s_txs s !! i = Some p -> tp_buf (f p) = tp_buf p -> alter f i (s_txs s) !! i' = Some x -> tp_buf x = None).
  { intros i p f i' x Hp Hf Hx. destruct (decide (i = i')) as [<-|]; [|rewrite list_lookup_alter_ne in Hx by done; by eapply H2].
    rewrite list_lookup_alter, Hp in Hx. injection Hx as <-. rewrite Hf. by eapply H2. }
  unfold step in Hst. destruct (s_panic s); [done|]. destruct lab; try done.
  - injection Hst as <-. unfold step_call. destruct (wd_add (s_wd s) b) as [[wd [e|]]|].
    + split; [done..|]. constructor; [done|exact H4].
    + destruct (b_header b) as [h|]; [|by split]. split; [|done..]. intros c cl Hx. cbn in Hx. apply lookup_app_Some in Hx as [Hx|[_ Hx]]; [by eapply H1|].
      apply list_lookup_singleton_Some in Hx as [_ <-]. done.
    + by split.
  - destruct (s_calls s !! c) as [[k [] buf]|] eqn:E; try done. case_bool_decide; [|done]. injection Hst as <-. split; [|done..]. intros c' cl Hx. cbn in Hx. by eapply Hc.
  - destruct (s_calls s !! c) as [[k [] [r|]]|] eqn:E; try done. specialize (H1 _ _ E). done.
  - destruct (s_calls s !! c) as [[k [] buf]|] eqn:E; try done. injection Hst as <-. unfold call_return. rewrite E. split; [|done..|].
    + intros c' cl Hx. cbn in Hx. by eapply Hc.
    + constructor; [done|exact H4].
  - injection Hst as <-. by split.
  - injection Hst as <-. by split.
  - injection Hst as <-. by split.
  - injection Hst as <-. split; [done| |done..]. intros i p Hx. cbn in Hx. apply lookup_app_Some in Hx as [Hx|[_ Hx]]; [by eapply H2|].
    apply list_lookup_singleton_Some in Hx as [_ <-]. done.
  - destruct (s_txs s !! i) as [[t [] [] []]|] eqn:E; try done. case_bool_decide; [|done]. injection Hst as <-. split; [done| |done..]. intros i' p Hx. cbn in Hx. eapply (Ht i _ _ i' p E); [|exact Hx]. done.
  - destruct (s_txs s !! i) as [[t ph [r|] []]|] eqn:E; try done. specialize (H2 _ _ E). done.
  - destruct (s_txs s !! i) as [[t ph buf ret]|] eqn:E; [|done].
    assert (exists r, s' = add_log (OTxReturn i t (Some r)) (tx_set i (fun p => TxProc t ph buf (Some (Some r))) s)) as (r & ->).
    { destruct ph, ret; try done; injection Hst as <-; by eexists. }
    split; [done| |done|].
    + intros i' p Hx. cbn in Hx. eapply (Ht i _ _ i' p E); [|exact Hx]. done.
    + constructor; [done|exact H4].
Qed.
Lemma idle_run root head lib ls : forall x, brun (boot_init root head lib) ls = Some x -> AApplicator ∈ bo_todo x -> forall w, bo_world x = Some w -> Idle (w_s w).
Proof.
  induction ls as [|l ls IH] using rev_ind; intros x Hx Ha w Hw; [cbn in Hx; injection Hx as <-; done|].
  apply brun_app in Hx as (z & Hz & Hx). cbn in Hx. destruct (bstep z l) as [x'|] eqn:E; [|done]. injection Hx as ->.
  assert (Haz : AApplicator ∈ bo_todo z).
  { destruct (todo_step _ _ _ _ _ _ _ E) as [Et|(_ & a & Et)]; rewrite Et in *; [done|by right]. }
  specialize (IH z Hz Haz). unfold boot_step in E. destruct (bo_crash z); [done|]. destruct l as [| |b|fh| |lab].
  - destruct (bo_todo z) as [|[] r] eqn:Et; try done; injection E as <-; cbn in Hw; try (by apply IH). injection Hw as <-. split; [intros ? ? Hy; discriminate Hy|intros ? ? Hy; discriminate Hy|done|constructor].
  - destruct (bo_todo z) as [|[] r] eqn:Et; try done; injection E as <-. by apply IH.
  - destruct (bo_world z) as [w0|] eqn:Ew; [|by injection E as <-]. specialize (IH _ eq_refl). case_bool_decide; injection E as <-; cbn in Hw; injection Hw as <-; exact IH.
  - destruct (bo_world z) as [w0|] eqn:Ew; [|injection E as <-; cbn in Hw; congruence]. specialize (IH _ eq_refl). case_bool_decide; [|injection E as <-; cbn in Hw; injection Hw as <-; exact IH].
    destruct (wstep judge o w0 (WApp (LAnnounce fh))) as [w1|] eqn:Es; [|done]. injection E as <-. cbn in Hw. injection Hw as <-. cbn [wstep by_chain] in Es.
    destruct (step o (w_s w0) (LAnnounce fh)) as [s1|] eqn:Es'; [|done]. injection Es as <-. cbn. by eapply (Idle_step _ (LAnnounce fh)).
  - destruct (users _); [|done]. destruct (bo_value z) as [[]|]; injection E as <-; by apply IH.
  - destruct (bo_world z) as [w0|] eqn:Ew; [|done]. specialize (IH _ eq_refl). destruct (may _ _) eqn:Em; [|done]. destruct (wstep judge o w0 lab) as [w1|] eqn:Es; [|done]. injection E as <-. cbn in Hw. injection Hw as <-.
    destruct lab as [l|i|j|b]; cbn [wstep] in Es.
    + destruct (by_chain l) eqn:Eb; [done|]. destruct (step o (w_s w0) l) as [s1|] eqn:Es'; [|done]. injection Es as <-. cbn. eapply (Idle_step _ l); [|exact Es'|exact IH].
      destruct l; cbn in Em; try done; apply bool_decide_eq_true in Em; done.
    + cbn in Em. by apply bool_decide_eq_true in Em.
    + destruct (w_owed w0 !! j) as [b|]; [|done]. destruct (step o (w_s w0) (LAccept b)) as [s1|] eqn:Es'; [|done]. injection Es as <-. cbn. by eapply (Idle_step _ (LAccept b)).
    + done.
Qed.
End idle.

(** ** The list of connections *)
Lemma log_lines_from {C} (conns : list C) later : forall i, i <= 11 ->
  listed (log_from i conns later) = take (12 - i) conns /\ (length conns <= 11 - i -> left_out (log_from i conns later) = 0%Z) /\
  (12 - i <= length conns -> left_out (log_from i conns later) = (Z.of_nat later - 11)%Z).
Proof.
  induction conns as [|c r IH]; intros i Hi; cbn [log_from].
  - split_and!; [by rewrite take_nil|done|cbn; lia].
  - replace (12 - i) with (S (11 - i)) by lia. cbn [take length]. case_bool_decide as H.
    + assert (i = 11) as -> by lia. cbn. split_and!; [done|lia|lia].
    + destruct (IH (S i)) as (I1 & I2 & I3); [lia|]. cbn [listed omap list_omap left_out fold_right]. split_and!.
      * f_equal. exact I1.
      * intros Hl. change (left_out (log_from (S i) r later) = 0%Z). apply I2. lia.
      * intros Hl. change (left_out (log_from (S i) r later) = (Z.of_nat later - 11)%Z). apply I3. lia.
Qed.
Lemma log_lines {C} (conns : list C) later :
  listed (log_from 0 conns later) = take 12 conns /\ (length conns <= 11 -> left_out (log_from 0 conns later) = 0%Z) /\
  (12 <= length conns -> left_out (log_from 0 conns later) = (Z.of_nat later - 11)%Z).
Proof. apply (log_lines_from conns later 0). lia. Qed.
