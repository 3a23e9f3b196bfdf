(** Invariants of the applicator system: bounds of the pool, submissions in progress, timing. *)
From Verif Require Import GoBase Util TxCache_Model TxCache_Spec TxCache_Proofs Watchdog_Model
  Applicator_Model Applicator_Spec Applicator_Core Applicator_Sys Applicator_Inv Applicator_Inv2 Applicator_Inv3.

(** ** Every block in a call is a Go value *)
Definition CallsU64 (s : sys) : Prop := forall c cl, s_calls s !! c = Some cl -> (k_height (cl_blk cl) < two64)%N /\ (k_time (cl_blk cl) < two64)%N.
Lemma CallsU64_step o s lab s' : u64_label lab -> CallsU64 s -> Step o s lab s' -> CallsU64 s'.
Proof.
  intros HW HC H.
  assert (Hins : forall c cl cl', s_calls s !! c = Some cl -> cl_blk cl' = cl_blk cl -> forall c0 cl0,
    <[c := cl']> (s_calls s) !! c0 = Some cl0 -> (k_height (cl_blk cl0) < two64)%N /\ (k_time (cl_blk cl0) < two64)%N).
  { intros c cl cl' Hc Hb c0 cl0 H0. destruct (decide (c0 = c)) as [->|].
    - rewrite list_lookup_insert in H0 by (by eapply lookup_lt_Some). injection H0 as <-. rewrite Hb. eauto.
    - rewrite list_lookup_insert_ne in H0 by done. eauto. }
  assert (Heff : forall lose effs s1, s_calls s1 = s_calls s -> CallsU64 (do_effs lose effs s1)).
  { intros lose effs s1 E c cl' Hc. destruct (se_blk _ _ _ (do_effs_same lose effs s1) c cl' Hc) as (cl & Hcl & -> & _). apply (HC c). congruence. }
  destruct H; try exact HC; try (by apply Heff); try solve [intros ? ?; simpl; eapply Hins; eauto].
  intros c cl [Hc|(_ & Hc)]%lookup_app_Some; [eauto|]. apply list_lookup_singleton_Some in Hc as [_ <-]. simpl.
  simpl in HW. by apply (HW h).
Qed.

(** ** The pool *)
Record Pool (o : ap_opts) (s : sys) : Prop := {
  pl_size : (Z.of_nat (size (c_byid (s_core s))) <= Z.max 0 (wrap_i64 (Z.of_N (ao_max_pending o))))%Z;
  pl_lib : s_hang s = false -> forall id e, c_byid (s_core s) !! id = Some e -> (c_lib (s_core s) < k_height (e_blk e))%N;
  pl_win : forall id e, c_byid (s_core s) !! id = Some e -> (k_height (e_blk e) <= c_highest (s_core s) + ao_max_delta o)%N }.

Lemma size_dom_sub (m m' : gmap string entry) : (forall id, m' !! id <> None -> m !! id <> None) -> size m' <= size m.
Proof.
  intros H. rewrite <- !size_dom. apply subseteq_size. intros id. rewrite !elem_of_dom. intros [e He].
  destruct (m !! id) eqn:Hm; [done|]. exfalso. apply (H id); [by rewrite He|done].
Qed.
Lemma handled_none_sub c c' effs id e' : handled None c c' effs -> c_byid c' !! id = Some e' ->
  exists e, c_byid c !! id = Some e /\ e_blk e' = e_blk e.
Proof. intros H He. destruct (hd_old _ _ _ _ H id e' He) as [?|(_ & ? & ? & ? & _)]; done. Qed.
Lemma handled_none_size c c' effs : handled None c c' effs -> size (c_byid c') <= size (c_byid c).
Proof.
  intros H. apply size_dom_sub. intros id. destruct (c_byid c' !! id) as [e'|] eqn:He; [|done].
  destruct (handled_none_sub _ _ _ _ _ H He) as (e & -> & _). done.
Qed.

Lemma Pool_step o s lab s' : Libs s -> Acc s -> Prov s -> CallsU64 s -> Pool o s -> Step o s lab s' -> Pool o s'.
Proof.
  intros HL HA HP HU HPl H.
  assert (Hh : forall id e, c_byid (s_core s) !! id = Some e -> (k_height (e_blk e) < two64)%N).
  { intros id e He. destruct (pv_byid s HP id e He) as (c & cl & Hc & <-). eapply HU; eauto. }
  destruct HPl as [P1 P2 P3].
  destruct H; try (split; assumption); match goal with |- Pool _ (do_effs ?l ?e ?x) => pose proof (do_effs_same l e x) as HS | _ => idtac end.
  - (* new *)
    split; rewrite ?(se_core _ _ _ HS), ?(se_hang _ _ _ HS); simpl.
    + apply handle_new_cases in H2 as [(e & _ & -> & _)|[Hacc Hadd]]; [done|]. apply add_entry_handled in Hadd as (_ & _ & _ & _ & _ & _ & _ & _ & Hd); [|apply HA].
      destruct Hacc as (_ & Hsz & _). rewrite <- size_dom, Hd. pose proof (size_union_alt {[k_id (cl_blk cl)]} (dom (c_byid (s_core s)))) as Hu.
      assert (size (dom (c_byid (s_core s)) ∖ {[k_id (cl_blk cl)]}) <= size (dom (c_byid (s_core s)))) by (apply subseteq_size; set_solver).
      rewrite size_singleton in Hu. rewrite <- size_dom in Hsz. lia.
    + intros Hg id e He. pose proof (handle_new_handled _ _ _ _ _ _ _ (a_ok s HA) H2) as Hd. destruct (handle_lib_new _ _ _ _ _ _ _ H2) as (-> & _).
      apply handle_new_cases in H2 as [(err & _ & -> & _)|[Hacc _]]; [eauto|].
      destruct (hd_old _ _ _ _ Hd id e He) as [(e0 & He0 & ->)|(_ & k & inc & Heq & _ & ->)]; [eauto|]. injection Heq as <- _. apply Hacc.
    + intros id e He. pose proof (handle_new_handled _ _ _ _ _ _ _ (a_ok s HA) H2) as Hd. destruct (handle_lib_new _ _ _ _ _ _ _ H2) as (_ & -> & _).
      apply handle_new_cases in H2 as [(err & _ & -> & _)|[Hacc _]]; [eauto|].
      destruct (hd_old _ _ _ _ Hd id e He) as [(e0 & He0 & ->)|(_ & k & inc & Heq & _ & ->)]; [eauto|]. injection Heq as <- _.
      destruct Hacc as (Hw & _). unfold add64 in Hw. etrans; [exact Hw|]. apply N.mod_le. done.
  - (* status *)
    pose proof (handle_status_handled _ _ _ _ _ _ _ H1) as Hd. destruct (handle_lib_status _ _ _ _ _ _ _ H1) as (El & Eh & _).
    split; rewrite ?(se_core _ _ _ HS), ?(se_hang _ _ _ HS); simpl.
    + pose proof (handled_none_size _ _ _ Hd). lia.
    + rewrite El. intros Hg id e He. destruct (handled_none_sub _ _ _ _ _ Hd He) as (e0 & He0 & ->). eauto.
    + rewrite Eh. intros id e He. destruct (handled_none_sub _ _ _ _ _ Hd He) as (e0 & He0 & ->). eauto.
  - (* hang *) split; simpl; try done.
  - (* fork heads *)
    assert (Hlt : (lib < two64)%N) by (eapply (lb_fh s HL fh); [by eapply elem_of_list_lookup_2|done]).
    assert (Hlt' : (lib < max_u64)%N) by (unfold max_u64 in *; lia).
    pose proof (handle_fork_heads_handled _ _ _ _ _ _ _ (a_ok s HA) H1 Hlt' (lb_lib s HL) H3) as Hd.
    destruct (handle_lib_fork_heads _ _ _ _ _ _ _ H1 H3) as (El & Eh & _).
    split; rewrite ?(se_core _ _ _ HS), ?(se_hang _ _ _ HS); simpl.
    + pose proof (handled_none_size _ _ _ Hd). lia.
    + rewrite El. intros Hg id e He. destruct (handled_none_sub _ _ _ _ _ Hd He) as (e0 & He0 & Eb). rewrite Eb.
      specialize (P2 Hg id e0 He0). specialize (Hh id e0 He0).
      destruct (decide (k_height (e_blk e0) <= lib)%N) as [Hle|]; [exfalso|lia].
      destruct (handle_fork_heads_cases _ _ _ _ _ _ _ (a_ok s HA) H1 Hlt' (lb_lib s HL) H3) as (ans & _ & Hs).
      pose proof (sh_gone _ _ _ _ _ Hs id) as Hgone. rewrite He in Hgone. discriminate Hgone. exists e0. split; [done|].
      split; [|done]. unfold add64. destruct (decide (c_lib (s_core s) + 1 < two64)%N).
      * rewrite N.mod_small by done. lia.
      * pose proof (lb_lib s HL). lia.
    + rewrite Eh. intros id e He. destruct (handled_none_sub _ _ _ _ _ Hd He) as (e0 & He0 & ->). eauto.
  - (* broadcast *)
    injection H3 as <- <-. split; rewrite ?(se_core _ _ _ HS), ?(se_hang _ _ _ HS); simpl; try done.
    intros id e He. specialize (P3 id e He). case_bool_decide; lia.
Qed.

(** ** The highest height *)
Lemma max_accepted_answers head new log : only_answers new -> max_accepted head (new ++ log) = max_accepted head log.
Proof.
  induction new as [|e new IH]; intros Ho; [done|]. destruct (Ho e) as (c & r & ->); [left|]. simpl. apply IH.
  intros x Hx. apply Ho. by right.
Qed.
Lemma se_only_answers s s' effs : same_but_effs s s' effs -> exists new, s_log s' = new ++ s_log s /\ only_answers new.
Proof. intros HS. destruct (se_log _ _ _ HS) as (new & -> & Hn). exists new. split; [done|]. intros e He. destruct (Hn e He) as (? & ? & -> & _). eauto. Qed.
Lemma High_step o head s lab s' : c_highest (s_core s) = max_accepted head (s_log s) -> Step o s lab s' ->
  c_highest (s_core s') = max_accepted head (s_log s').
Proof.
  intros HH H. destruct H; try exact HH;
    match goal with |- context [do_effs ?l ?e ?x] => pose proof (do_effs_same l e x) as HS;
      rewrite (se_core _ _ _ HS); destruct (se_only_answers _ _ _ HS) as (new & -> & Ho); rewrite max_accepted_answers by done; simpl end.
  - by destruct (handle_lib_new _ _ _ _ _ _ _ H2) as (_ & -> & _).
  - by destruct (handle_lib_status _ _ _ _ _ _ _ H1) as (_ & -> & _).
  - by destruct (handle_lib_fork_heads _ _ _ _ _ _ _ H1 H3) as (_ & -> & _).
  - destruct (handle_lib_broadcast _ _ _ _ _ _ H3) as (_ & -> & _). rewrite H2, <- HH. unfold k_height. simpl. lia.
Qed.

(** ** Submissions in progress *)
Record Opn (s : sys) : Prop := {
  op_blk : forall i k, (i, k) ∈ open_blocks (s_log s) <-> s_att s !! i = Some (Attempt k PRpc);
  op_nodup : NoDup (map fst (open_blocks (s_log s)));
  op_tx : forall i, i ∈ open_txs (s_log s) <-> exists t buf ret, s_txs s !! i = Some (TxProc t TRpc buf ret);
  op_tnodup : NoDup (open_txs (s_log s)) }.

Lemma open_answers new log : only_answers new -> open_blocks (new ++ log) = open_blocks log /\ open_txs (new ++ log) = open_txs log.
Proof.
  induction new as [|e new IH]; intros Ho; [done|]. destruct (Ho e) as (c & r & ->); [left|]. simpl. apply IH.
  intros x Hx. apply Ho. by right.
Qed.
Lemma opn_same s s' : Opn s -> open_blocks (s_log s') = open_blocks (s_log s) -> open_txs (s_log s') = open_txs (s_log s) ->
  (forall i k, s_att s' !! i = Some (Attempt k PRpc) <-> s_att s !! i = Some (Attempt k PRpc)) ->
  (forall i t buf ret, s_txs s' !! i = Some (TxProc t TRpc buf ret) -> exists t buf ret, s_txs s !! i = Some (TxProc t TRpc buf ret)) ->
  (forall i t buf ret, s_txs s !! i = Some (TxProc t TRpc buf ret) -> exists t buf ret, s_txs s' !! i = Some (TxProc t TRpc buf ret)) -> Opn s'.
Proof.
  intros [O1 O2 O3 O4] E1 E2 E3 E4 E5. split; rewrite ?E1, ?E2; try done.
  - intros i k. rewrite O1, E3. done.
  - intros i. rewrite O3. split; intros (t & buf & ret & Hi); eauto.
Qed.
Lemma alter_phase_rpc (l : list attempt) i p0 p k0 j k : l !! i = Some (Attempt k0 p0) -> p0 <> PRpc -> p <> PRpc ->
  alter (fun a => Attempt (at_blk a) p) i l !! j = Some (Attempt k PRpc) <-> l !! j = Some (Attempt k PRpc).
Proof.
  intros Hi Hp0 Hp. destruct (decide (j = i)) as [->|Hne].
  - rewrite list_lookup_alter, Hi. simpl. split; congruence.
  - rewrite list_lookup_alter_ne by done. done.
Qed.
Lemma nodup_fst_filter (l : list (nat * blk)) a : NoDup (map fst l) -> NoDup (map fst (filter (fun x => fst x <> a) l)).
Proof.
  induction l as [|[x k] l IH]; intros Hnd; [done|]. simpl in Hnd. apply NoDup_cons in Hnd as [Hn Hnd]. rewrite filter_cons. case_decide; [|auto].
  simpl. apply NoDup_cons. split; [|auto]. intros Hin. apply Hn. apply elem_of_map in Hin as ([y k'] & -> & Hy%elem_of_list_filter).
  apply elem_of_map. exists (y, k'). split; [done|apply Hy].
Qed.
Lemma tx_alter_iff (l : list tx_proc) i x y : l !! i = Some x -> (tp_phase x = TRpc <-> tp_phase y = TRpc) ->
  forall j, (exists t buf ret, alter (fun _ => y) i l !! j = Some (TxProc t TRpc buf ret)) <-> (exists t buf ret, l !! j = Some (TxProc t TRpc buf ret)).
Proof.
  intros Hi Hxy j. destruct (decide (j = i)) as [->|Hne].
  - rewrite list_lookup_alter, Hi. simpl. destruct x as [t1 p1 b1 r1], y as [t2 p2 b2 r2]. simpl in *.
    split; intros (t & buf & ret & Heq); injection Heq as <- -> <- <-; eexists _, _, _; f_equal; f_equal; tauto.
  - rewrite list_lookup_alter_ne by done. done.
Qed.

Lemma Opn_step o s lab s' : Opn s -> Step o s lab s' -> Opn s'.
Proof.
  intros HO H.
  destruct H; try (eapply opn_same; [exact HO|..]; simpl; eauto; done);
    match goal with
    | |- Opn (do_effs ?l ?e ?x) => pose proof (do_effs_same l e x) as HS; destruct (se_only_answers _ _ _ HS) as (new & Elog & Ho);
        destruct (open_answers new (s_log x) Ho) as [Eo1 Eo2]
    | _ => idtac end.
  - eapply opn_same; [exact HO|..]; rewrite ?Elog, ?Eo1, ?Eo2, ?(se_att _ _ _ HS), ?(se_txs _ _ _ HS); simpl; eauto.
  - eapply opn_same; [exact HO|..]; simpl; eauto. intros j k'. split.
    + intros [Hj|(_ & Hj)]%lookup_app_Some; [done|]. apply list_lookup_singleton_Some in Hj as [_ Hj]. done.
    + intros Hj. rewrite lookup_app_l by (by eapply lookup_lt_Some). done.
  - eapply opn_same; [exact HO|..]; simpl; eauto. intros j k'. eapply alter_phase_rpc; [exact H|done|]. unfold start_phase. by case_bool_decide.
  - eapply opn_same; [exact HO|..]; simpl; eauto. intros j k'. eapply alter_phase_rpc; [exact H|done|done].
  - eapply opn_same; [exact HO|..]; simpl; eauto. intros j k'. eapply alter_phase_rpc; [exact H|done|done].
  - eapply opn_same; [exact HO|..]; simpl; eauto. intros j k'. eapply alter_phase_rpc; [exact H0| |done]. destruct H1 as [(? & ? & ->)|(? & ->)]; done.
  - eapply opn_same; [exact HO|..]; simpl; eauto. intros j k'. eapply alter_phase_rpc; [exact H|done|done].
  - eapply opn_same; [exact HO|..]; simpl; eauto. intros j k'. eapply alter_phase_rpc; [exact H|done|done].
  - (* submit *)
    destruct HO as [O1 O2 O3 O4]. split; simpl; try done.
    + intros j k'. rewrite elem_of_cons. destruct (decide (j = i)) as [->|Hne].
      * rewrite list_lookup_alter, H. simpl. rewrite O1, H. split; [intros [Heq|?]; congruence|intros Heq; left; congruence].
      * rewrite list_lookup_alter_ne by done. rewrite O1. split; [intros [Heq|?]; congruence|auto].
    + apply NoDup_cons. split; [|done]. intros Hin. apply elem_of_map in Hin as ([j k'] & -> & Hin%O1). simpl in H. congruence.
  - (* rpc done *)
    destruct HO as [O1 O2 O3 O4]. split; simpl; try done.
    + intros j k'. rewrite elem_of_list_filter. simpl. destruct (decide (j = i)) as [->|Hne].
      * rewrite list_lookup_alter, H. simpl. split; [intros [? _]; done|done].
      * rewrite list_lookup_alter_ne by done. rewrite O1. tauto.
    + by apply nodup_fst_filter.
  - eapply opn_same; [exact HO|..]; rewrite ?Elog, ?Eo1, ?Eo2, ?(se_att _ _ _ HS), ?(se_txs _ _ _ HS); simpl; eauto.
    intros j k'. eapply alter_phase_rpc; [exact H0|done|done].
  - eapply opn_same; [exact HO|..]; rewrite ?Elog, ?Eo1, ?Eo2, ?(se_att _ _ _ HS), ?(se_txs _ _ _ HS); simpl; eauto.
  - eapply opn_same; [exact HO|..]; rewrite ?Elog, ?Eo1, ?Eo2, ?(se_att _ _ _ HS), ?(se_txs _ _ _ HS); simpl; eauto.
  - (* tx call *)
    eapply opn_same; [exact HO|..]; simpl; try done.
    + intros j t' buf ret [Hj|(_ & Hj)]%lookup_app_Some; [eauto|]. apply list_lookup_singleton_Some in Hj as [_ Hj]. done.
    + intros j t' buf ret Hj. rewrite lookup_app_l by (by eapply lookup_lt_Some). eauto.
  - pose proof (tx_alter_iff (s_txs s) i _ (TxProc t TQueued None None) H ltac:(simpl; done)) as Hx.
    eapply opn_same; [exact HO|..]; simpl; try done; intros; apply Hx; eauto.
  - (* tx submit *)
    destruct HO as [O1 O2 O3 O4]. split; simpl; try done.
    + intros j. rewrite elem_of_cons. destruct (decide (j = i)) as [->|Hne].
      * rewrite list_lookup_alter, H. simpl. split; [eauto|by left].
      * rewrite list_lookup_alter_ne by done. rewrite <- O3. tauto.
    + apply NoDup_cons. split; [|done]. intros (t' & buf' & ret' & Hx)%O3. congruence.
  - pose proof (tx_alter_iff (s_txs s) i _ (TxProc t TServed (Some None) ret) H ltac:(simpl; done)) as Hx.
    eapply opn_same; [exact HO|..]; simpl; try done; intros; apply Hx; eauto.
  - (* tx done *)
    destruct HO as [O1 O2 O3 O4]. split; simpl; try done.
    + intros j. rewrite elem_of_list_filter. destruct (decide (j = i)) as [->|Hne].
      * rewrite list_lookup_alter, H. simpl. split; [intros [? _]; done|intros (? & ? & ? & ?); done].
      * rewrite list_lookup_alter_ne by done. rewrite <- O3. tauto.
    + by apply NoDup_filter.
  - pose proof (tx_alter_iff (s_txs s) i _ (TxProc t ph (Some r) (Some r)) H ltac:(simpl; done)) as Hx.
    eapply opn_same; [exact HO|..]; simpl; try done; intros; apply Hx; eauto.
  - pose proof (tx_alter_iff (s_txs s) i _ (TxProc t ph buf (Some r)) H ltac:(simpl; done)) as Hx.
    eapply opn_same; [exact HO|..]; simpl; try done; intros; apply Hx; eauto.
Qed.

(** At most as many positions as elements that satisfy [P]. *)
Lemma positions_count {A} (P : A -> Prop) `{forall x, Decision (P x)} (l : list A) (is : list nat) :
  NoDup is -> (forall i, i ∈ is -> exists x, l !! i = Some x /\ P x) -> length is <= length (filter P l).
Proof.
  revert is. induction l as [|x l IH] using rev_ind; intros is Hnd Hin.
  - destruct is as [|i is]; [done|]. destruct (Hin i) as (? & ? & _); [left|]. done.
  - rewrite filter_app, app_length.
    assert (Hlast : length (filter (fun i => i <> length l) is) + (if bool_decide (length l ∈ is) then 1 else 0) = length is).
    { clear IH Hin. induction is as [|i is IHis]; [done|]. apply NoDup_cons in Hnd as [Hn Hnd]. specialize (IHis Hnd). rewrite filter_cons.
      destruct (decide (i = length l)) as [->|Hne].
      - rewrite decide_False by tauto. rewrite bool_decide_true by left. rewrite bool_decide_false in IHis by done. simpl. lia.
      - rewrite decide_True by done. cbn [length]. destruct (bool_decide_reflect (length l ∈ is)).
        + rewrite bool_decide_true by set_solver. lia.
        + rewrite bool_decide_false by set_solver. lia. }
    assert (Hle : length (filter (fun i => i <> length l) is) <= length (filter P l)).
    { apply IH; [by apply NoDup_filter|]. intros i [Hne Hi]%elem_of_list_filter. destruct (Hin i Hi) as (y & Hy & HPy). exists y. split; [|done].
      apply lookup_app_Some in Hy as [?|(? & Hy)]; [done|]. apply list_lookup_singleton_Some in Hy as [? _]. lia. }
    rewrite filter_cons. destruct (bool_decide_reflect (length l ∈ is)) as [Hl|Hl].
    + destruct (Hin _ Hl) as (y & Hy & HPy). rewrite lookup_app_r, Nat.sub_diag in Hy by lia. injection Hy as ->. rewrite decide_True by done. simpl. lia.
    + simpl. lia.
Qed.

Lemma open_bound o s : Atts o s -> Opn s -> length (open_blocks (s_log s)) + length (open_txs (s_log s)) <= ao_jobs o.
Proof.
  intros HAt HO. pose proof (at_jobs o s HAt) as Hj. unfold busy_workers in Hj.
  assert (length (map fst (open_blocks (s_log s))) <= length (filter (fun a => at_busy a = true) (s_att s))).
  { apply positions_count; [apply HO|]. intros i Hi. apply elem_of_map in Hi as ([i' k] & -> & Hi%HO). eauto. }
  assert (length (open_txs (s_log s)) <= length (filter (fun t => tp_phase t = TRpc) (s_txs s))).
  { apply positions_count; [apply HO|]. intros i (t & buf & ret & Hi)%HO. eauto. }
  rewrite map_length in *. lia.
Qed.

(** ** Timing.  [block_instant] is what the code takes for the time of the block. *)
Definition in_time (o : ap_opts) (now : Z) (k : blk) : Prop := (block_instant (k_time k) <= now + ao_delay_threshold o)%Z.
Record Tm (o : ap_opts) (t0 : Z) (s : sys) : Prop := {
  tm_start : (t0 <= s_now s)%Z;
  tm_att : s_cancelled s = false -> forall i k p, s_att s !! i = Some (Attempt k p) ->
    match p with
    | PDelay w t => in_time o w k
    | PQueued | PChecked _ | PRpc => in_time o (s_now s) k
    | _ => True
    end;
  tm_log : s_cancelled s = false -> forall i k t, OSubmit i k t ∈ s_log s -> in_time o t k;
  tm_now : forall i k t, OSubmit i k t ∈ s_log s -> (t <= s_now s)%Z }.
(** No block timestamp in play is more than 292 years (the range of a duration) after the start. *)
Definition near_label (t0 : Z) (l : label) : Prop :=
  match l with
  | LCall b => forall h, b_header b = Some h -> (block_instant (h_timestamp h) <= t0 + max_i64)%Z
  | _ => True
  end.
Definition Near (t0 : Z) (s : sys) : Prop := forall c cl, s_calls s !! c = Some cl -> (block_instant (k_time (cl_blk cl)) <= t0 + max_i64)%Z.
Lemma Near_step o t0 s lab s' : near_label t0 lab -> Near t0 s -> Step o s lab s' -> Near t0 s'.
Proof.
  intros HW HC H.
  assert (Hins : forall c cl cl', s_calls s !! c = Some cl -> cl_blk cl' = cl_blk cl -> forall c0 cl0,
    <[c := cl']> (s_calls s) !! c0 = Some cl0 -> (block_instant (k_time (cl_blk cl0)) <= t0 + max_i64)%Z).
  { intros c cl cl' Hc Hb c0 cl0 H0. destruct (decide (c0 = c)) as [->|].
    - rewrite list_lookup_insert in H0 by (by eapply lookup_lt_Some). injection H0 as <-. rewrite Hb. eauto.
    - rewrite list_lookup_insert_ne in H0 by done. eauto. }
  assert (Heff : forall lose effs s1, s_calls s1 = s_calls s -> Near t0 (do_effs lose effs s1)).
  { intros lose effs s1 E c cl' Hc. destruct (se_blk _ _ _ (do_effs_same lose effs s1) c cl' Hc) as (cl & Hcl & -> & _). apply (HC c). congruence. }
  destruct H; try exact HC; try (by apply Heff); try solve [intros ? ?; simpl; eapply Hins; eauto].
  intros c cl [Hc|(_ & Hc)]%lookup_app_Some; [eauto|]. apply list_lookup_singleton_Some in Hc as [_ <-]. simpl.
  simpl in HW. by apply (HW h).
Qed.

Lemma tm_same o t0 s s' : Tm o t0 s -> (s_now s <= s_now s')%Z -> (s_cancelled s' = false -> s_cancelled s = false) ->
  (forall i k t, OSubmit i k t ∈ s_log s' -> OSubmit i k t ∈ s_log s \/ t = s_now s' /\ (s_cancelled s' = false -> in_time o t k)) ->
  (s_cancelled s' = false -> forall i k p, s_att s' !! i = Some (Attempt k p) -> s_att s !! i = Some (Attempt k p) \/
    match p with PDelay w t => in_time o w k | PQueued | PChecked _ | PRpc => in_time o (s_now s') k | _ => True end) -> Tm o t0 s'.
Proof.
  intros [T1 T2 T3 T4] Hnow Hc Hlog Hatt. split.
  - lia.
  - intros Hc' i k p Hi. destruct (Hatt Hc' i k p Hi) as [Hold|?]; [|done]. pose proof (T2 (Hc Hc') i k p Hold) as HT.
    destruct p; try done; unfold in_time in *; lia.
  - intros Hc' i k t Hin. destruct (Hlog i k t Hin) as [?|(-> & Hx)]; eauto.
  - intros i k t Hin. destruct (Hlog i k t Hin) as [Hin'|(-> & Hx)]; [|lia]. specialize (T4 i k t Hin'). lia.
Qed.

Ltac lg Hlog := let Hx := fresh in intros ? ? ? Hx; left; (eapply Hlog; [|exact Hx]); done.
Lemma Tm_step o t0 s lab s' : (0 <= ao_delay_threshold o)%Z -> Prov s -> Near t0 s -> Tm o t0 s -> Step o s lab s' -> Tm o t0 s'.
Proof.
  intros Hth HP HN HT H.
  assert (Hlog : forall e i k t, (match e with OSubmit _ _ _ => False | _ => True end) -> OSubmit i k t ∈ e :: s_log s -> OSubmit i k t ∈ s_log s).
  { intros e i k t He [Heq|?]%elem_of_cons; [by subst|done]. }
  destruct H; try (eapply tm_same; [exact HT|simpl; lia|done|simpl; eauto|by left]; done);
    match goal with
    | |- Tm _ _ (do_effs ?l ?e ?x) => pose proof (do_effs_same l e x) as HS; destruct (se_only_answers _ _ _ HS) as (new & Elog & Ho);
        assert (Hnew : forall i k t, OSubmit i k t ∈ s_log (do_effs l e x) -> OSubmit i k t ∈ s_log s) by
          (intros i0 k0 t1; rewrite Elog; intros [Hin|Hin]%elem_of_app; [by destruct (Ho _ Hin) as (? & ? & ?)|simpl in Hin; first [exact Hin|eapply Hlog; [|exact Hin]; done]])
    | _ => idtac end.
  all: try (eapply tm_same; [exact HT|rewrite (se_now _ _ _ HS); simpl; lia|rewrite (se_cancelled _ _ _ HS); done|intros; left; by apply Hnew|
              rewrite (se_att _ _ _ HS); by left]; done).
  all: try (eapply tm_same; [exact HT|simpl; lia|done|lg Hlog|by left]; done).
  - (* try start *)
    eapply tm_same; [exact HT|simpl; lia|done|simpl; eauto|]. simpl. intros _ j k' p [Hj|(_ & Hj)]%lookup_app_Some; [by left|].
    apply list_lookup_singleton_Some in Hj as [_ Hj]. injection Hj as <- <-. by right.
  - (* start *)
    eapply tm_same; [exact HT|simpl; lia|done|simpl; eauto|]. simpl. intros _ j k' p [(-> & -> & p0 & Hp0)|?]%alter_split; [|by left]. right.
    rewrite H in Hp0. injection Hp0 as <- <-. unfold start_phase. case_bool_decide as Hd; [|unfold in_time; lia].
    destruct (pv_att s HP i _ H) as (c & cl & Hc & Hb). pose proof (HN c cl Hc) as Hn. rewrite Hb in Hn. simpl in Hn.
    pose proof (tm_start _ _ _ HT). unfold in_time, time_sub, max_i64, min_i64 in *. lia.
  - (* wake *)
    eapply tm_same; [exact HT|simpl; lia|done|simpl; eauto|]. simpl. intros Hc j k' p [(-> & -> & p0 & Hp0)|?]%alter_split; [|by left]. right.
    rewrite H in Hp0. injection Hp0 as <- <-. destruct H0 as [Hw|Hw]; [|congruence].
    pose proof (tm_att _ _ _ HT Hc i k _ H) as Hx. unfold in_time in *. simpl in *. lia.
  - eapply tm_same; [exact HT|simpl; lia|done|lg Hlog|]. simpl. intros _ j k' p [(-> & -> & p0 & Hp0)|?]%alter_split; [|by left]. by right.
  - eapply tm_same; [exact HT|simpl; lia|done|simpl; eauto|]. simpl. intros _ j k' p' [(-> & -> & p0 & Hp0)|?]%alter_split; [|by left]. by right.
  - eapply tm_same; [exact HT|simpl; lia|done|lg Hlog|]. simpl. intros _ j k' p [(-> & -> & p0 & Hp0)|?]%alter_split; [|by left]. by right.
  - eapply tm_same; [exact HT|simpl; lia|done|lg Hlog|]. simpl. intros Hc j k' p [(-> & -> & p0 & Hp0)|?]%alter_split; [|by left]. right.
    rewrite H in Hp0. injection Hp0 as <- <-. exact (tm_att _ _ _ HT Hc i k _ H).
  - (* submit *)
    eapply tm_same; [exact HT|simpl; lia|done| |].
    + simpl. intros j k' t [Heq|?]%elem_of_cons; [|by left]. injection Heq as -> -> ->. right. split; [done|]. intros Hc. exact (tm_att _ _ _ HT Hc i k _ H).
    + simpl. intros Hc j k' p [(-> & -> & p0 & Hp0)|?]%alter_split; [|by left]. right.
      rewrite H in Hp0. injection Hp0 as <- <-. exact (tm_att _ _ _ HT Hc i k _ H).
  - eapply tm_same; [exact HT|simpl; lia|done|lg Hlog|]. simpl. intros _ j k' p [(-> & -> & p0 & Hp0)|?]%alter_split; [|by left]. by right.
  - (* status *)
    eapply tm_same; [exact HT|rewrite (se_now _ _ _ HS); simpl; lia|rewrite (se_cancelled _ _ _ HS); done|intros; left; by apply Hnew|].
    rewrite (se_att _ _ _ HS). simpl. intros _ j k' p [(-> & -> & p0 & Hp0)|?]%alter_split; [|by left]. by right.
Qed.
