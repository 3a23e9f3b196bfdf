(** Lemmas for [Early_Props]. *)
From Verif Require Import GoBase Util Gossip_Model Gossip_Spec TxCache_Model TxCache_Spec TxCache_Proofs Watchdog_Model
  Applicator_Model Applicator_Spec Applicator_Core Applicator_Sys Applicator_Inv Applicator_Inv2 Applicator_Inv3 Applicator_Inv4
  Applicator_Inv5 Applicator_Inv6 Applicator_Inv7 Applicator_Props Applicator_Props2 Deliver_Spec Deliver_Proofs Rest_Spec Rest_Proofs
  Honest_Spec Honest_Proofs Honest_Proofs2 Relay_Spec Relay_Proofs Early_Spec.

(** ** What is known of a block that nobody hands over before [t1] *)
Record Late (o : ap_opts) (k : blk) (t1 : Z) (s : sys) : Prop := {
  lt_calls : forall c cl, s_calls s !! c = Some cl -> k_id (cl_blk cl) = k_id k -> cl_blk cl = k /\ (t1 <= s_now s)%Z;
  lt_att : forall i k' w t, s_att s !! i = Some (Attempt k' (PDelay w t)) -> k_id k' = k_id k -> (t1 + ao_delay_timeout o <= t)%Z /\ (t1 + ao_delay_threshold o < block_instant (k_time k))%Z;
  lt_log : forall i k', ODelayTimeout i k' None ∈ s_log s -> k_id k' = k_id k -> (t1 + ao_delay_timeout o <= s_now s)%Z /\ (t1 + ao_delay_threshold o < block_instant (k_time k))%Z;
  lt_sub : forall i k' t, OSubmit i k' t ∈ s_log s -> k_id k' = k_id k -> k' = k }.
Definition late_label (k : blk) (t1 : Z) (s : sys) (lab : label) : Prop :=
  match lab with LCall b => str (b_id b) = k_id k -> b = k_src k /\ (t1 <= s_now s)%Z | _ => True end.
Definition noted (e : event) : bool := match e with ODelayTimeout _ _ None | OSubmit _ _ _ => true | _ => false end.
Lemma late_same o k t1 s s' : Late o k t1 s -> (s_now s <= s_now s')%Z ->
  (forall c cl', s_calls s' !! c = Some cl' -> exists cl, s_calls s !! c = Some cl /\ cl_blk cl' = cl_blk cl) ->
  (forall i k' w t, s_att s' !! i = Some (Attempt k' (PDelay w t)) -> exists i', s_att s !! i' = Some (Attempt k' (PDelay w t))) ->
  (forall e, noted e = true -> e ∈ s_log s' -> e ∈ s_log s) -> Late o k t1 s'.
Proof.
  intros [L1 L2 L3 L4] E1 E2 E3 E4. split.
  - intros c cl' Hc. destruct (E2 c cl' Hc) as (cl & Hcl & ->). intros Hid. destruct (L1 c cl Hcl Hid). split; [done|lia].
  - intros i k' w t Hi. destruct (E3 i k' w t Hi) as (i' & Hi'). by eapply L2.
  - intros i k' Hin%E4 Hid; [|done]. destruct (L3 i k' Hin Hid). split; [lia|done].
  - intros i k' t Hin%E4; [|done]. by eapply L4.
Qed.
Lemma Late_step o k t1 s lab s' : b_header (k_src k) = Some (k_hdr k) -> late_label k t1 s lab -> Prov s -> Late o k t1 s -> Step o s lab s' -> Late o k t1 s'.
Proof.
  intros Hk HW HP HT H.
  assert (Hlog : forall e0, noted e0 = false -> forall e, noted e = true -> e ∈ e0 :: s_log s -> e ∈ s_log s).
  { intros e0 He0 e He [->|?]%elem_of_cons; [congruence|done]. }
  assert (Hid : forall c (cl' : call), s_calls s !! c = Some cl' -> exists cl, s_calls s !! c = Some cl /\ cl_blk cl' = cl_blk cl) by eauto.
  assert (Hset : forall (c : nat) k0 p0 b0 p b, s_calls s !! c = Some (Call k0 p0 b0) -> forall c0 cl0, <[c := Call k0 p b]> (s_calls s) !! c0 = Some cl0 ->
     exists cl, s_calls s !! c0 = Some cl /\ cl_blk cl0 = cl_blk cl).
  { intros c k0 p0 b0 p b Hc c0 cl0 H0. destruct (decide (c0 = c)) as [->|].
    - rewrite list_lookup_insert in H0 by (by eapply lookup_lt_Some). injection H0 as <-. eauto.
    - rewrite list_lookup_insert_ne in H0 by done. eauto. }
  assert (Hph : forall (i : nat) p, (forall w t, p <> PDelay w t) -> forall j k' w t, alter (fun a => Attempt (at_blk a) p) i (s_att s) !! j = Some (Attempt k' (PDelay w t)) ->
     exists i', s_att s !! i' = Some (Attempt k' (PDelay w t))).
  { intros i p Hp j k' w t [(-> & E & _)|?]%alter_split; [by destruct (Hp w t)|eauto]. }
  assert (Hefs : forall lose effs s1, s_now s1 = s_now s -> s_calls s1 = s_calls s ->
     (forall i k' w t, s_att s1 !! i = Some (Attempt k' (PDelay w t)) -> exists i', s_att s !! i' = Some (Attempt k' (PDelay w t))) ->
     (forall e, noted e = true -> e ∈ s_log s1 -> e ∈ s_log s) -> Late o k t1 (do_effs lose effs s1)).
  { intros lose effs s1 E1 E2 E3 E4. pose proof (do_effs_same lose effs s1) as HS. destruct (se_only_answers _ _ _ HS) as (new & Elog & Ho).
    eapply late_same; [exact HT|rewrite (se_now _ _ _ HS); lia| |rewrite (se_att _ _ _ HS); exact E3|].
    - intros c cl' Hc. destruct (se_blk _ _ _ HS c cl' Hc) as (cl & Hcl & Eb & _). exists cl. split; [congruence|done].
    - intros e He. rewrite Elog. intros [Hin|Hin]%elem_of_app; [|by apply E4]. destruct (Ho _ Hin) as (? & ? & ->). done. }
  assert (Hblk : forall i k' p, s_att s !! i = Some (Attempt k' p) -> k_id k' = k_id k -> k' = k /\ (t1 <= s_now s)%Z).
  { intros i k' p Hi Hx. destruct (pv_att s HP i _ Hi) as (c & cl & Hc & Hb). cbn in Hb. rewrite <- Hb in Hx |- *. by eapply (lt_calls _ _ _ _ HT). }
  destruct H; try (eapply late_same; [exact HT|simpl; lia|simpl; eauto|simpl; eauto|simpl; eauto]; done);
    try (eapply late_same; [exact HT|simpl; lia|simpl; eauto|simpl; eauto|simpl; eapply Hlog; done]; done);
    try (apply Hefs; simpl; [done|done|by eauto|first [done|by eapply Hlog]]; done).
  - (* call *)
    destruct HT as [L1 L2 L3 L4]. split; try done. simpl. intros c cl [Hc|(_ & Hc)]%lookup_app_Some; [eauto|].
    apply list_lookup_singleton_Some in Hc as [_ <-]. simpl in *. intros Hx. destruct (HW Hx) as [-> ?]. split; [|done]. destruct k. cbn in *. congruence.
  - (* try start *)
    eapply late_same; [exact HT|simpl; lia|simpl; eauto| |simpl; eauto]. simpl. intros j k' w t' [Hj|(_ & Hj)]%lookup_app_Some; [eauto|].
    apply list_lookup_singleton_Some in Hj as [_ Hj]. done.
  - (* start *)
    destruct HT as [L1 L2 L3 L4]. split; try done. simpl. intros j k' w t [(-> & E & p0 & Hp0)|?]%alter_split; [|by eapply L2].
    intros Hx. rewrite H in Hp0. injection Hp0 as <- <-. destruct (Hblk _ _ _ H Hx) as [-> Ht]. unfold start_phase in E. case_bool_decide as Hd; [|done]. injection E as -> ->. lia.
  - eapply late_same; [exact HT|simpl; lia|simpl; eauto|simpl; by eapply Hph|simpl; eauto].
  - (* delay timeout *)
    destruct HT as [L1 L2 L3 L4]. split; simpl.
    + done.
    + intros j k' w' t' Hj. destruct (Hph i (PStatus res) ltac:(done) j k' w' t' Hj) as (i' & ?). by eapply L2.
    + intros j k' [Heq|?]%elem_of_cons; [|by eapply L3]. injection Heq as -> -> <-. intros Hx. destruct (s_cancelled s); [done|]. destruct H0 as [?|?]; [|done].
      destruct (L2 _ _ _ _ H Hx). split; [lia|done].
    + intros j k' t' [Heq|?]%elem_of_cons; [done|]. by eapply L4.
  - eapply late_same; [exact HT|simpl; lia|simpl; eauto|simpl; by eapply Hph|simpl; eauto].
  - eapply late_same; [exact HT|simpl; lia|simpl; eauto|simpl; by eapply Hph|simpl; by apply Hlog].
  - eapply late_same; [exact HT|simpl; lia|simpl; eauto|simpl; by eapply Hph|simpl; by apply Hlog].
  - (* submit *)
    destruct HT as [L1 L2 L3 L4]. split; simpl.
    + done.
    + intros j k' w' t' Hj. destruct (Hph i PRpc ltac:(done) j k' w' t' Hj) as (i' & ?). by eapply L2.
    + intros j k' [Heq|?]%elem_of_cons; [done|]. by eapply L3.
    + intros j k' t' [Heq|?]%elem_of_cons; [|by eapply L4]. injection Heq as -> -> ->. intros Hx. by eapply Hblk.
  - eapply late_same; [exact HT|simpl; lia|simpl; eauto|simpl; by eapply Hph|simpl; by apply Hlog].
  - apply Hefs; simpl; [done|done|by eapply Hph|by apply Hlog].
Qed.

(** ** The world *)
Section world.
Context (judge : blk -> option goerr) (o : ap_opts) (root : gset string) (head lib : N) (dur now : Z) (k : blk) (t1 : Z).
Context (Hth : (0 <= ao_delay_threshold o)%Z) (Hk : b_header (k_src k) = Some (k_hdr k)).
Record KI (w : world) : Prop := {
  ki_fair : Fair o head lib dur now w;
  ki_near : Near now (w_s w);
  ki_tm : Tm o now (w_s w);
  ki_open : s_cancelled (w_s w) = false;
  ki_late : Late o k t1 (w_s w) }.
Lemma open_step s lab s' : Step o s lab s' -> lab <> LCancel -> s_cancelled s = false -> s_cancelled s' = false.
Proof. intros H Hl Hc. destruct H; try done; match goal with |- context [do_effs ?l ?e ?x] => rewrite (se_cancelled _ _ _ (do_effs_same l e x)); done end. Qed.
Lemma KI_step w lab w' : usual now lab -> not_before k t1 w lab -> KI w -> wstep judge o w lab = Some w' -> KI w'.
Proof.
  intros (Hu & Hc & Hs) Hn [K1 K2 K3 K4 K5] Hst. pose proof (Fair_step _ _ _ _ _ _ _ _ _ Hu Hc K1 Hst) as HF'.
  assert (HPv : Prov (w_s w)). { destruct (fa_reach _ _ _ _ _ _ K1) as (sc & Hr & _). apply reaches_inv in Hr. apply Hr. }
  assert (Happ : forall l, Step o (w_s w) l (w_s w') -> near_label now l -> l <> LCancel -> late_label k t1 (w_s w) l -> KI w').
  { intros l HS H1 H2 H3. split; [done|by eapply Near_step|by eapply Tm_step|by eapply open_step|by eapply Late_step]. }
  apply wstep_inv in Hst. destruct lab as [l|i|j|b].
  - destruct Hst as (_ & HS & _). apply step_Step in HS as [_ HS]. destruct Hs as [Hs1 Hs2]. apply (Happ l); try done. by apply stamped_near.
  - destruct Hst as (k' & _ & HS & _). apply step_Step in HS as [_ HS]. by eapply Happ.
  - destruct Hst as (b & _ & HS & _). apply step_Step in HS as [_ HS]. by eapply Happ.
  - destruct Hst as [E _]. split; [done|by rewrite E..].
Qed.
Lemma KI_init : (lib < two64)%N -> KI (world_init root head lib dur now).
Proof.
  intros Hl. split; [by apply Fair_init|done| |done|].
  - split; cbn; try done; try lia; set_solver.
  - split; cbn; try done; set_solver.
Qed.
(** As long as the block is too early, no call for it succeeds. *)
Lemma no_success w c : KI w -> (s_now (w_s w) + ao_delay_threshold o <= timestamp_instant k - second)%Z -> (s_now (w_s w) < t1 + ao_delay_timeout o)%Z ->
  OReturn c (k_src k) None ∉ s_log (w_s w).
Proof.
  intros [K1 K2 K3 K4 K5] He Ht Hin. destruct (fa_reach _ _ _ _ _ _ K1) as (sc & Hr & _). apply elem_of_list_split in Hin as (l1 & l2 & Hlog).
  destruct (C33_success_partial _ _ _ _ _ _ _ Hr _ _ _ _ Hlog) as (i & k' & Hid & [(_ & t & Hsub)|Hx]).
  - pose proof (lt_sub _ _ _ _ K5 _ _ _ Hsub Hid) as ->. pose proof (tm_log _ _ _ K3 K4 _ _ _ Hsub) as H1. pose proof (tm_now _ _ _ K3 _ _ _ Hsub) as H2.
    unfold in_time in H1. pose proof (instant_lower (k_time k)). unfold timestamp_instant in He. lia.
  - destruct (lt_log _ _ _ _ K5 i k'); [|done|lia]. rewrite Hlog. apply elem_of_app. right. by right.
Qed.
End world.

(** ** The validators *)
Section vals.
Context (decode_block : string -> option block) (id_of_key : string -> outcome string) (me : string).
Context (judge : blk -> option goerr) (o : ap_opts) (root : gset string) (head lib : N) (dur now : Z) (k : blk) (t1 T : Z).
Context (Hth : (0 <= ao_delay_threshold o)%Z) (Hk : b_header (k_src k) = Some (k_hdr k)) (Hdur : good_dur dur) (HT : (0 <= T)%Z).
Notation KI := (KI o head lib dur now k t1).
Notation val_ok := (val_ok decode_block id_of_key me).
Definition ended_in_time (v : validation) (a : Z) : Prop := exists w, KI w /\ val_ok (w_s w) v /\ (s_now (w_s w) <= a + T)%Z.
Record TI (x : timed) : Prop := {
  ti_ki : KI (rl_world (td_relay x));
  ti_gi : GI decode_block id_of_key me (td_relay x);
  ti_len : length (td_arrived x) = length (rl_vals (td_relay x));
  ti_punct : punctual T x;
  ti_over : forall i v a call r, rl_vals (td_relay x) !! i = Some v -> td_arrived x !! i = Some a -> va_phase v = VOver call r -> ended_in_time v a }.
Lemma gstep_vals g lab g' : gstep decode_block id_of_key me judge o g lab = Some g' ->
  match lab with
  | GWorld _ => rl_vals g' = rl_vals g
  | GMsg m _ => exists v, rl_vals g' = rl_vals g ++ [v] /\ s_now (w_s (rl_world g')) = s_now (w_s (rl_world g))
  | GBack i => rl_world g' = rl_world g /\ exists v v' c, rl_vals g !! i = Some v /\ va_phase v = VWait c /\ rl_vals g' = <[i := v']> (rl_vals g)
  end.
Proof.
  destruct g as [vs w]. destruct lab as [l|m lb|i]; cbn [Relay_Spec.gstep rl_world rl_vals].
  - destruct (wstep judge o w l); [|done]. intros HH. by injection HH as <-.
  - destruct (offered _ _ _ m lb) as [b|].
    + destruct (wstep judge o w (WApp (LCall b))) as [w'|] eqn:E; [|done].
      assert (En : s_now (w_s w') = s_now (w_s w)).
      { apply wstep_inv in E as (_ & HS & _). apply step_Step in HS as [_ HS]. inversion HS; subst; done. }
      case_bool_decide; [intros HH; injection HH as <-; eauto|]. destruct (refusal w'); [|done].
      destruct (ended _ _ _ _ _ _ _); [|done]. intros HH. injection HH as <-. eauto.
    + destruct (ended _ _ _ _ _ _ _); [|done]. intros HH. injection HH as <-. eauto.
  - destruct (vs !! i) as [[m lb [c|? ?]]|] eqn:Ei; try done. destruct (s_calls (w_s w) !! c) as [cl|]; [|done]. destruct (cl_phase cl); try done.
    destruct (ended _ _ _ _ _ _ _); [|done]. intros HH. injection HH as <-. cbn. split; [done|]. eexists _, _, c. split; [done|]. split; [done|]. done.
Qed.
Lemma TI_step x lab g1 : (forall l, world_label decode_block id_of_key me lab = Some l -> usual now l /\ not_before k t1 (rl_world (td_relay x)) l) ->
  TI x -> gstep decode_block id_of_key me judge o (td_relay x) lab = Some g1 -> punctual T (Timed g1 (td_arrived x ++ arrives x lab)) ->
  TI (Timed g1 (td_arrived x ++ arrives x lab)).
Proof.
  intros HP [T1 T2 T3 T4 T5] Hst Hpu. destruct x as [g arr]. cbn [td_relay td_arrived] in *.
  pose proof (gstep_world _ _ _ _ _ _ _ _ Hst) as Hw.
  assert (HK : KI (rl_world g1)).
  { destruct (world_label _ _ _ lab) as [l|]; [|by rewrite Hw]. destruct (HP l eq_refl). by eapply KI_step. }
  assert (HG : GI decode_block id_of_key me g1) by (eapply (GI_step _ _ _ judge o head lib dur now Hdur g); [apply T1|apply HK|done|done]).
  pose proof (gstep_vals _ _ _ Hst) as Hv.
  split; cbn [td_relay td_arrived]; [done|done| |done|]; destruct lab as [l|m lb|j]; cbn [arrives td_relay].
  - by rewrite app_nil_r, Hv.
  - destruct Hv as (v & -> & _). rewrite !app_length. cbn. lia.
  - destruct Hv as (_ & v & v' & c & _ & _ & ->). by rewrite app_nil_r, insert_length.
  - rewrite app_nil_r, Hv. exact T5.
  - destruct Hv as (v' & Ev & En). intros i v a call r Hi Ha Hph. rewrite Ev in Hi. apply lookup_app_Some in Hi as [Hi|[Hge Hi]].
    + apply (T5 i v a call r Hi); [|done]. apply lookup_lt_Some in Hi. rewrite lookup_app_l in Ha by lia. done.
    + apply list_lookup_singleton_Some in Hi as [Hz <-]. rewrite lookup_app_r in Ha by lia. replace (i - length arr) with 0 in Ha by lia. injection Ha as <-.
      exists (rl_world g1). split_and!; [done| |unfold td_now; cbn; lia]. eapply (proj1 (Forall_forall _ _) HG). rewrite Ev. set_solver.
  - destruct Hv as (Ew & v1 & v' & c & Hj & Hph1 & Ev). rewrite app_nil_r. intros i v a call r Hi Ha Hph. rewrite Ev in Hi. destruct (decide (i = j)) as [->|Hne].
    + pose proof (T4 j v1 c a Hj Hph1 Ha) as Hle. unfold td_now in Hle. cbn in Hle. exists (rl_world g1). split_and!; [done| |by rewrite Ew].
      eapply (proj1 (Forall_lookup _ _) HG j). by rewrite Ev.
    + rewrite list_lookup_insert_ne in Hi by done. by eapply T5.
Qed.
Lemma TI_runs sched : forall x x', TI x -> truns decode_block id_of_key me judge o (fun w l => usual now l /\ not_before k t1 w l) T x sched x' -> TI x'.
Proof.
  induction sched as [|lab r IH]; intros x x' HI; cbn [truns]; [by intros ->|]. intros (HP & g1 & Hs & Hp & Hr). eapply IH; [|exact Hr]. by apply TI_step.
Qed.
Lemma TI_init : (lib < two64)%N -> TI (Timed (Relay [] (world_init root head lib dur now)) []).
Proof. intros Hl. split; cbn; [by apply KI_init|unfold GI; cbn; by apply Forall_nil|done|intros i v c a; cbn; done|done]. Qed.
End vals.
