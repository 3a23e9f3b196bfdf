(** More invariants of the applicator system. *)
From Verif Require Import GoBase Util TxCache_Model Watchdog_Model Applicator_Model Applicator_Spec Applicator_Core Applicator_Sys Applicator_Inv.

(** ** Where blocks come from *)
Definition known (s : sys) (k : blk) : Prop := exists c cl, s_calls s !! c = Some cl /\ cl_blk cl = k.
Record Prov (s : sys) : Prop := {
  pv_byid : forall id e, c_byid (s_core s) !! id = Some e -> known s (e_blk e);
  pv_try : forall k f t, (k, f, t) ∈ s_try s -> known s k;
  pv_att : forall i a, s_att s !! i = Some a -> known s (at_blk a) }.

Lemma effs_known lose effs s k : known s k -> known (do_effs lose effs s) k.
Proof.
  intros (c & cl & Hc & <-). pose proof (do_effs_same lose effs s) as HS.
  destruct (s_calls (do_effs lose effs s) !! c) as [cl'|] eqn:Hc'.
  - destruct (se_blk _ _ _ HS c cl' Hc') as (cl0 & ? & Hb & _). exists c, cl'. split; [done|]. congruence.
  - apply lookup_ge_None in Hc'. rewrite (se_len _ _ _ HS) in Hc'. apply lookup_lt_Some in Hc. lia.
Qed.
Lemma known_step o s lab s' k : Step o s lab s' -> known s k -> known s' k.
Proof.
  intros H Hk. assert (Hins : forall c cl cl', s_calls s !! c = Some cl -> cl_blk cl' = cl_blk cl ->
    exists c0 cl0, <[c := cl']> (s_calls s) !! c0 = Some cl0 /\ cl_blk cl0 = k).
  { intros c cl cl' Hc Hb. destruct Hk as (c0 & cl0 & Hc0 & <-). destruct (decide (c0 = c)) as [->|].
    - exists c, cl'. rewrite list_lookup_insert by (by eapply lookup_lt_Some). split; [done|]. congruence.
    - exists c0, cl0. rewrite list_lookup_insert_ne by done. done. }
  destruct H; try exact Hk.
  - destruct Hk as (c0 & cl0 & Hc0 & <-). exists c0, cl0. simpl. rewrite lookup_app_l by (by eapply lookup_lt_Some). done.
  - eapply Hins; [exact H|done].
  - eapply Hins; [exact H|done].
  - eapply Hins; [exact H|done].
  - by apply effs_known.
  - by apply effs_known.
  - by apply effs_known.
  - by apply effs_known.
Qed.

Lemma handle_fork_heads_spawn o now fh c c' effs k f t : handle_fork_heads o now fh c = Done (Some (c', effs)) ->
  SpawnTry k f t ∈ effs -> t = now /\ f = force_child o now k /\ exists cid e, c_byid c !! cid = Some e /\ k = e_blk e.
Proof.
  unfold handle_fork_heads. destruct (fh_lib fh) as [lib|]; [|done]. case_bool_decide; [done|].
  set (c1 := Core _ lib _ _ _ _).
  destruct (remove_heights _ _ _) as [c2 answers] eqn:Hr. intros [= <- <-] [Hin|Hin]%elem_of_app.
  - apply elem_of_list_join in Hin as (l & Hl & Hin). apply elem_of_map in Hin as (id & -> & _).
    apply children_spawn in Hl. exact Hl.
  - exfalso. unfold remove_heights in Hr.
    set (F := fun '(h, c, effs) => let '(c', e) := remove_height h c in (add64 h 1, c', effs ++ e)) in Hr.
    assert (Hgen : forall n x, (forall y, y ∈ snd x -> exists ch r, y = Answer ch r) -> forall y, y ∈ snd (N.iter n F x) -> exists ch r, y = Answer ch r).
    { clear. induction n as [|n IH] using N.peano_ind; intros x Hx; [exact Hx|]. rewrite N.iter_succ.
      specialize (IH x Hx). destruct (N.iter n F x) as [[h c0] e0]. simpl in *. unfold remove_height.
      destruct (c_byheight c0 !! h) as [ids|]; simpl; [|by rewrite app_nil_r].
      change (fold_left _ (elements ids) (c0, [])) with (remove_list (elements ids) c0 []).
      destruct (remove_list (elements ids) c0 []) as [c3 e3] eqn:H3. apply remove_list_shrink in H3 as (e & -> & Hs). simpl.
      intros y [Hy|Hy]%elem_of_app; [by apply IH|]. destruct (sh_effs _ _ _ _ _ Hs y Hy) as (ch & ? & ? & -> & _). eauto. }
    match type of Hr with (let '(_, _) := ?it in _) = _ => destruct it as [[h0 c0] e0] eqn:Hit end. injection Hr as <- <-.
    destruct (Hgen (if bool_decide (add64 (c_lib c) 1 <= lib)%N then (lib - add64 (c_lib c) 1 + 1)%N else 0%N) (add64 (c_lib c) 1, c1, [])
       ltac:(intros y Hy; simpl in Hy; set_solver) (SpawnTry k f t)) as (? & ? & ?); [|done].
    rewrite Hit. exact Hin.
Qed.
Lemma handle_status_spawn o now k0 res c c' effs k f t : handle_status o now k0 res c = (c', effs) ->
  SpawnTry k f t ∈ effs -> t = now /\ (k = k0 /\ f = false \/ f = force_child o now k /\ exists cid e, c_byid c !! cid = Some e /\ k = e_blk e).
Proof.
  intros [(_ & _ & ->)|[(_ & _ & _ & ->)|(_ & _ & a & Hs & ->)]]%handle_status_cases Hin.
  - apply elem_of_list_singleton in Hin. injection Hin as -> -> ->. auto.
  - set_solver.
  - apply elem_of_app in Hin as [Hin|Hin].
    + destruct res; [set_solver|]. apply children_spawn in Hin as (? & ? & ?). auto.
    + destruct (sh_effs _ _ _ _ _ Hs _ Hin) as (? & ? & ? & ? & _). done.
Qed.
Lemma handle_new_spawn o now k0 inc c c' effs k f t : handle_new o now k0 inc c = (c', effs) ->
  SpawnTry k f t ∈ effs -> k = k0 /\ f = false /\ t = now.
Proof.
  intros [(e & _ & _ & ->)|[_ H]]%handle_new_cases Hin.
  - apply elem_of_map in Hin as (? & ? & _). done.
  - unfold add_entry in H. injection H as _ <-. repeat case_bool_decide; set_solver.
Qed.

Lemma Prov_step o s lab s' : Libs s -> Acc s -> Prov s -> Step o s lab s' -> Prov s'.
Proof.
  intros HL HA [P1 P2 P3] H. pose proof (fun k => known_step o s lab s' k H) as Hmono.
  assert (Halt : forall i f a', (forall a, at_blk (f a) = at_blk a) -> alter f i (s_att s) !! a' = alter f i (s_att s) !! a' ->
     forall a, alter f i (s_att s) !! a' = Some a -> known s (at_blk a)).
  { intros i f a' Hf _ a Ha. destruct (decide (a' = i)) as [->|].
    - rewrite list_lookup_alter in Ha. destruct (s_att s !! i) as [a0|] eqn:Ha0; [|done]. injection Ha as <-. rewrite Hf. eauto.
    - rewrite list_lookup_alter_ne in Ha by done. eauto. }
  destruct H; try (split; intros; apply Hmono; eauto; fail).
  - (* new *)
    pose proof (do_effs_same lose effs (set_core core' (set_new rest s))) as HS. split.
    + intros id e. rewrite (se_core _ _ _ HS). simpl. intros He. apply Hmono.
      destruct (hd_old _ _ _ _ (handle_new_handled _ _ _ _ _ _ _ (a_ok s HA) H2) id e He) as [(e0 & He0 & ->)|(_ & k & l & [= <- <-] & _ & ->)].
      * eauto.
      * exists c, cl. done.
    + intros k f t. rewrite (se_try _ _ _ HS). simpl. intros [Hin|Hin]%elem_of_app; apply Hmono; [eauto|].
      apply elem_spawns in Hin. eapply handle_new_spawn in Hin as (-> & _ & _); [|done]. exists c, cl. done.
    + intros i a. rewrite (se_att _ _ _ HS). simpl. intros; apply Hmono; eauto.
  - (* try_start *)
    split; simpl; intros; apply Hmono; eauto.
    + eapply P2. by eapply elem_of_delete.
    + apply lookup_app_Some in H3 as [H3|(_ & H3)]; [eauto|]. apply list_lookup_singleton_Some in H3 as [_ <-]. simpl.
      eapply P2. by eapply elem_of_list_lookup_2.
  - split; simpl; intros; apply Hmono; eauto. apply elem_of_app in H3 as [H3|H3%elem_of_list_singleton].
    + eapply P2. by eapply elem_of_delete.
    + injection H3 as -> -> ->. eapply P2. by eapply elem_of_list_lookup_2.
  - split; simpl; intros; apply Hmono; eauto. eapply P2. by eapply elem_of_delete.
  - split; simpl; intros; apply Hmono; eauto. eapply P2. by eapply elem_of_delete.
  - split; simpl; intros; apply Hmono; eauto. eapply Halt; [|done|eassumption]. done.
  - split; simpl; intros; apply Hmono; eauto. eapply Halt; [|done|eassumption]. done.
  - split; simpl; intros; apply Hmono; eauto. eapply Halt; [|done|eassumption]. done.
  - split; simpl; intros; apply Hmono; eauto. eapply Halt; [|done|eassumption]. done.
  - split; simpl; intros; apply Hmono; eauto. eapply Halt; [|done|eassumption]. done.
  - split; simpl; intros; apply Hmono; eauto. eapply Halt; [|done|eassumption]. done.
  - split; simpl; intros; apply Hmono; eauto. eapply Halt; [|done|eassumption]. done.
  - split; simpl; intros; apply Hmono; eauto. eapply Halt; [|done|eassumption]. done.
  - (* status *)
    pose proof (do_effs_same lose effs (add_log (OStatus i k res) (set_core core' (set_phase i PDone s)))) as HS. split.
    + intros id e. rewrite (se_core _ _ _ HS). simpl. intros He. apply Hmono.
      destruct (hd_old _ _ _ _ (handle_status_handled _ _ _ _ _ _ _ H1) id e He) as [(e0 & He0 & ->)|(_ & ? & ? & ? & _)]; [eauto|done].
    + intros k' f t. rewrite (se_try _ _ _ HS). simpl. intros [Hin|Hin]%elem_of_app; apply Hmono; [eauto|].
      apply elem_spawns in Hin. eapply handle_status_spawn in Hin as (_ & [[-> _]|(_ & cid & e & He & ->)]); [| |done]; [|eauto].
      apply (P3 _ _ H0).
    + intros i' a. rewrite (se_att _ _ _ HS). simpl. intros; apply Hmono. eapply Halt; [|done|eassumption]. done.
  - (* fork heads *)
    match goal with |- Prov (do_effs ?l ?e ?x) => pose proof (do_effs_same l e x) as HS end. split.
    + intros id e. rewrite (se_core _ _ _ HS). simpl. intros He. apply Hmono.
      assert (lib < two64)%N by (eapply (lb_fh s HL fh); [by eapply elem_of_list_lookup_2|done]).
      assert (Hh : handled None (s_core s) core' effs).
      { eapply handle_fork_heads_handled; [apply HA|done| |apply HL|done]. unfold max_u64 in *. lia. }
      destruct (hd_old _ _ _ _ Hh id e He) as [(e0 & He0 & ->)|(_ & ? & ? & ? & _)]; [eauto|done].
    + intros k' f t. rewrite (se_try _ _ _ HS). simpl. intros [Hin|Hin]%elem_of_app; apply Hmono; [eauto|].
      apply elem_spawns in Hin. eapply handle_fork_heads_spawn in Hin as (_ & _ & cid & e & He & ->); [|done]. eauto.
    + intros i' a. rewrite (se_att _ _ _ HS). simpl. intros; apply Hmono; eauto.
  - (* broadcast *)
    match goal with |- Prov (do_effs ?l ?e ?x) => pose proof (do_effs_same l e x) as HS end.
    unfold handle_broadcast in H3. injection H3 as <- <-. split.
    + intros id e. rewrite (se_core _ _ _ HS). simpl. intros He. apply Hmono. eauto.
    + intros k' f t. rewrite (se_try _ _ _ HS). simpl. intros [Hin|Hin]%elem_of_app; apply Hmono; [eauto|].
      apply elem_spawns in Hin. apply children_spawn in Hin as (_ & _ & cid & e & He & ->). simpl in He. eauto.
    + intros i' a. rewrite (se_att _ _ _ HS). simpl. intros; apply Hmono; eauto.
Qed.

(** ** Attempts *)
Record Atts (o : ap_opts) (s : sys) : Prop := {
  at_pend : forall i a, s_att s !! i = Some a -> at_live a = true -> k_id (at_blk a) ∈ c_pending (s_core s);
  at_uniq : forall i j a b, s_att s !! i = Some a -> s_att s !! j = Some b -> at_live a = true -> at_live b = true ->
              k_id (at_blk a) = k_id (at_blk b) -> i = j;
  at_conv : s_cancelled s = false -> forall id, id ∈ c_pending (s_core s) ->
              exists i a, s_att s !! i = Some a /\ at_live a = true /\ k_id (at_blk a) = id;
  at_jobs : busy_workers s <= ao_jobs o }.

(** Changing the phase of one attempt from live to live. *)
Lemma alter_lookup_phase (l : list attempt) i j p a : alter (fun a => Attempt (at_blk a) p) i l !! j = Some a ->
  (j = i /\ exists a0, l !! i = Some a0 /\ a = Attempt (at_blk a0) p) \/ (j <> i /\ l !! j = Some a).
Proof.
  destruct (decide (j = i)) as [->|].
  - rewrite list_lookup_alter. destruct (l !! i) as [a0|]; [|done]. intros [= <-]. eauto.
  - rewrite list_lookup_alter_ne by done. auto.
Qed.
Lemma count_alter {A} (P : A -> Prop) `{forall x, Decision (P x)} (l : list A) i x (f : A -> A) : l !! i = Some x ->
  length (filter P (alter f i l)) + (if decide (P x) then 1 else 0) = length (filter P l) + (if decide (P (f x)) then 1 else 0).
Proof.
  revert i. induction l as [|y l IH]; intros [|i] Hi; try done.
  - injection Hi as ->. change (alter f 0 (x :: l)) with (f x :: l). rewrite !filter_cons. repeat case_decide; simpl; lia.
  - change (alter f (S i) (y :: l)) with (y :: alter f i l). rewrite !filter_cons. specialize (IH i Hi).
    destruct (decide (P y)); cbn [length]; lia.
Qed.
Definition busy_count (l : list attempt) : nat := length (filter (fun a => at_busy a = true) l).
Lemma busy_alter (l : list attempt) i a p : l !! i = Some a ->
  busy_count (alter (fun a => Attempt (at_blk a) p) i l) + (if at_busy a then 1 else 0) =
  busy_count l + (if at_busy (Attempt (at_blk a) p) then 1 else 0).
Proof.
  intros Hi. pose proof (count_alter (fun a => at_busy a = true) l i a (fun a => Attempt (at_blk a) p) Hi) as Hc.
  unfold busy_count. repeat case_decide; destruct (at_busy a); destruct (at_busy (Attempt (at_blk a) p)); try done; lia.
Qed.
Definition tx_count (l : list tx_proc) : nat := length (filter (fun t => tp_phase t = TRpc) l).
Lemma tx_alter (l : list tx_proc) i x (f : tx_proc -> tx_proc) : l !! i = Some x ->
  tx_count (alter f i l) + (if bool_decide (tp_phase x = TRpc) then 1 else 0) =
  tx_count l + (if bool_decide (tp_phase (f x) = TRpc) then 1 else 0).
Proof.
  intros Hi. pose proof (count_alter (fun t => tp_phase t = TRpc) l i x f Hi) as Hc. unfold tx_count.
  repeat case_decide; repeat case_bool_decide; try done; lia.
Qed.
Lemma busy_split s : busy_workers s = busy_count (s_att s) + tx_count (s_txs s).
Proof. done. Qed.

Lemma atts_phase o s s' i a p : Atts o s -> s_att s !! i = Some a ->
  s_att s' = alter (fun a => Attempt (at_blk a) p) i (s_att s) -> s_txs s' = s_txs s ->
  c_pending (s_core s') = c_pending (s_core s) -> s_cancelled s' = s_cancelled s ->
  at_live a = true -> (p = PDone -> s_cancelled s = true) ->
  (at_busy (Attempt (at_blk a) p) = true -> at_busy a = true \/ busy_workers s < ao_jobs o) -> Atts o s'.
Proof.
  intros [A1 A2 A3 A4] Ha E1 E2 E3 E4 Hlive Hdone Hbusy. split; rewrite ?E1, ?E3, ?E4.
  - intros j b [(-> & a0 & Ha0 & ->)|(Hne & Hb)]%alter_lookup_phase Hl; [|eauto]. simpl. assert (a0 = a) as -> by congruence. eauto.
  - intros j1 j2 b1 b2 H1 H2 L1 L2 Hid.
    apply alter_lookup_phase in H1 as [(-> & a1 & Ha1 & ->)|(Hne1 & Hb1)], H2 as [(-> & a2 & Ha2 & ->)|(Hne2 & Hb2)]; try done; simpl in Hid.
    + assert (a1 = a) as -> by congruence. eapply A2; eauto.
    + assert (a2 = a) as -> by congruence. eapply A2; eauto.
    + eapply A2; eauto.
  - intros Hnc id Hin. destruct (A3 Hnc id Hin) as (j & b & Hb & Hl & Hid). destruct (decide (j = i)) as [->|Hne].
    + exists i, (Attempt (at_blk a) p). rewrite list_lookup_alter, Ha. split_and!; [done| |simpl; congruence].
      destruct p; try done. rewrite Hdone in Hnc; done.
    + exists j, b. rewrite list_lookup_alter_ne by done. done.
  - rewrite busy_split, E1, E2. pose proof (busy_alter (s_att s) i a p Ha) as Hb. rewrite busy_split in *.
    destruct (at_busy (Attempt (at_blk a) p)) eqn:Hbp, (at_busy a) eqn:Hba; try lia.
Qed.
Lemma atts_same o s s' : Atts o s -> s_att s' = s_att s -> c_pending (s_core s') = c_pending (s_core s) ->
  (s_cancelled s = true -> s_cancelled s' = true) -> tx_count (s_txs s') <= tx_count (s_txs s) \/ busy_count (s_att s) + tx_count (s_txs s') <= ao_jobs o -> Atts o s'.
Proof.
  intros [A1 A2 A3 A4] E1 E2 E3 E4. split; rewrite ?E1, ?E2; try done.
  - intros Hc. apply A3. destruct (s_cancelled s); [by rewrite E3 in Hc|done].
  - rewrite busy_split, E1 in *. lia.
Qed.

Lemma Atts_step o s lab s' : Atts o s -> Step o s lab s' -> Atts o s'.
Proof.
  intros HA H.
  destruct H; try (eapply atts_same; [exact HA|..]; simpl; try done; left; done).
  - (* new *)
    match goal with |- Atts _ (do_effs ?l ?e ?x) => pose proof (do_effs_same l e x) as HS end.
    apply handle_lib_new in H2 as (_ & _ & E). eapply atts_same; [exact HA|..].
    + by rewrite (se_att _ _ _ HS). + by rewrite (se_core _ _ _ HS). + by rewrite (se_cancelled _ _ _ HS). + left. by rewrite (se_txs _ _ _ HS).
  - (* try start *)
    destruct HA as [A1 A2 A3 A4]. split; simpl.
    + intros j a [Ha|(_ & Ha)]%lookup_app_Some Hl; [set_solver|]. apply list_lookup_singleton_Some in Ha as [_ <-]. set_solver.
    + intros j1 j2 a b H3 H4 L1 L2 Hid.
      apply lookup_app_Some in H3 as [H3|(? & H3)], H4 as [H4|(? & H4)].
      * eauto.
      * apply list_lookup_singleton_Some in H4 as [_ <-]. simpl in Hid. exfalso. apply H2. rewrite <- Hid. eauto.
      * apply list_lookup_singleton_Some in H3 as [_ <-]. simpl in Hid. exfalso. apply H2. rewrite Hid. eauto.
      * apply list_lookup_singleton_Some in H3 as [? _]. apply list_lookup_singleton_Some in H4 as [? _]. lia.
    + intros Hnc id [->%elem_of_singleton|Hin]%elem_of_union.
      * exists (length (s_att s)), (Attempt k PStart). rewrite lookup_app_r by lia. rewrite Nat.sub_diag. done.
      * destruct (A3 Hnc id Hin) as (j & a & Ha & ?). exists j, a. rewrite lookup_app_l by (by eapply lookup_lt_Some). done.
    + rewrite busy_split in *. simpl. unfold busy_count in *. rewrite filter_app, app_length. simpl. lia.
  - eapply (atts_phase o s _ i _ (start_phase o (s_now s) k)); [done|exact H|done..| | ]; unfold start_phase; case_bool_decide; done.
  - eapply (atts_phase o s _ i _ PQueued); [done|exact H|done..].
  - eapply (atts_phase o s _ i _ (PStatus res)); [done|exact H|done..].
  - eapply (atts_phase o s _ i _ PDone); [done|exact H0|done..| | |done]; [|done]. destruct H1 as [(? & ? & ->)|(? & ->)]; done.
  - eapply (atts_phase o s _ i _ (PStatus irr)); [done|exact H|done..].
  - eapply (atts_phase o s _ i _ (PChecked (c_lib (s_core s)))); [done|exact H|done..|]. auto.
  - eapply (atts_phase o s _ i _ PRpc); [done|exact H|done..|]. auto.
  - eapply (atts_phase o s _ i _ (PStatus res)); [done|exact H|done..].
  - (* status *)
    match goal with |- Atts _ (do_effs ?l ?e ?x) => pose proof (do_effs_same l e x) as HS end.
    apply handle_lib_status in H1 as (_ & _ & E).
    destruct HA as [A1 A2 A3 A4]. split.
    + rewrite (se_att _ _ _ HS), (se_core _ _ _ HS). simpl. rewrite E.
      intros j b [(-> & a0 & Ha0 & ->)|(Hne & Hb)]%alter_lookup_phase Hl; [done|]. apply elem_of_difference. split; [eauto|].
      intros ?%elem_of_singleton. apply Hne. eapply A2; eauto.
    + rewrite (se_att _ _ _ HS). simpl. intros j1 j2 b1 b2 K1 K2 L1 L2 Hid.
      apply alter_lookup_phase in K1 as [(-> & a1 & Ha1 & ->)|(Hne1 & Hb1)], K2 as [(-> & a2 & Ha2 & ->)|(Hne2 & Hb2)]; try done. eapply A2; eauto.
    + rewrite (se_cancelled _ _ _ HS), (se_att _ _ _ HS), (se_core _ _ _ HS). simpl. rewrite E.
      intros Hnc id [Hin Hne]%elem_of_difference. destruct (A3 Hnc id Hin) as (j & b & Hb & Hl & Hid).
      destruct (decide (j = i)) as [->|]; [exfalso; apply Hne; rewrite H0 in Hb; injection Hb as <-; set_solver|].
      exists j, b. rewrite list_lookup_alter_ne by done. done.
    + rewrite busy_split, (se_att _ _ _ HS), (se_txs _ _ _ HS). rewrite busy_split in A4. simpl.
      pose proof (busy_alter (s_att s) i _ PDone H0) as Hb. simpl in Hb. lia.
  - match goal with |- Atts _ (do_effs ?l ?e ?x) => pose proof (do_effs_same l e x) as HS end.
    eapply handle_lib_fork_heads in H3 as (_ & _ & E); [|done]. eapply atts_same; [exact HA|..].
    + by rewrite (se_att _ _ _ HS). + by rewrite (se_core _ _ _ HS). + by rewrite (se_cancelled _ _ _ HS). + left. by rewrite (se_txs _ _ _ HS).
  - match goal with |- Atts _ (do_effs ?l ?e ?x) => pose proof (do_effs_same l e x) as HS end.
    apply handle_lib_broadcast in H3 as (_ & _ & E). eapply atts_same; [exact HA|..].
    + by rewrite (se_att _ _ _ HS). + by rewrite (se_core _ _ _ HS). + by rewrite (se_cancelled _ _ _ HS). + left. by rewrite (se_txs _ _ _ HS).
  - (* tx call *)
    eapply atts_same; [exact HA|..]; simpl; try done. left. unfold tx_count. rewrite filter_app, app_length. simpl. lia.
  - eapply atts_same; [exact HA|..]; simpl; try done. left. pose proof (tx_alter (s_txs s) i _ (fun _ => TxProc t TQueued None None) H) as Hx.
    simpl in Hx. lia.
  - eapply atts_same; [exact HA|..]; simpl; try done. right. pose proof (tx_alter (s_txs s) i _ (fun _ => TxProc t TRpc buf ret) H) as Hx.
    simpl in Hx. rewrite busy_split in H0. lia.
  - eapply atts_same; [exact HA|..]; simpl; try done. left. pose proof (tx_alter (s_txs s) i _ (fun _ => TxProc t TServed (Some None) ret) H) as Hx.
    simpl in Hx. lia.
  - eapply atts_same; [exact HA|..]; simpl; try done. left. pose proof (tx_alter (s_txs s) i _ (fun _ => TxProc t TServed (Some res) ret) H) as Hx.
    simpl in Hx. lia.
  - eapply atts_same; [exact HA|..]; simpl; try done. left. pose proof (tx_alter (s_txs s) i _ (fun _ => TxProc t ph (Some r) (Some r)) H) as Hx.
    simpl in Hx. lia.
  - eapply atts_same; [exact HA|..]; simpl; try done. left. pose proof (tx_alter (s_txs s) i _ (fun _ => TxProc t ph buf (Some r)) H) as Hx.
    simpl in Hx. lia.
Qed.
