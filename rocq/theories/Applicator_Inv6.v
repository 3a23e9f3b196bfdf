(** All invariants together, and facts about single steps and continuations of runs. *)
From Verif Require Import GoBase Util TxCache_Model TxCache_Spec TxCache_Proofs Watchdog_Model
  Applicator_Model Applicator_Spec Applicator_Core Applicator_Sys Applicator_Inv Applicator_Inv2 Applicator_Inv3 Applicator_Inv4 Applicator_Inv5.

Record Inv (o : ap_opts) (head lib : N) (s : sys) : Prop := {
  v_libs : Libs s; v_acc : Acc s; v_prov : Prov s; v_atts : Atts o s; v_just : Just lib s; v_u64 : CallsU64 s; v_pool : Pool o s;
  v_high : c_highest (s_core s) = max_accepted head (s_log s); v_opn : Opn s }.

Lemma Inv_init o head lib dur now : (lib < two64)%N -> Inv o head lib (sys_init head lib dur now).
Proof.
  intros Hl. split.
  - split; [done|]. simpl. set_solver.
  - split; simpl; try done.
    + split; simpl; try done; try (intros k id; split; [intros (? & ? & ?)|intros (? & ? & ?)]; done).
    + unfold waiting. simpl. apply NoDup_nil_2.
    + unfold waiting. simpl. set_solver.
    + intros c r. split; [set_solver|]. intros (? & ? & _). done.
    + apply NoDup_nil_2.
  - split; simpl; try done. set_solver.
  - split; simpl; try done. unfold busy_workers. simpl. lia.
  - split; simpl; try done; try (by intros; set_solver). intros l1 c b res l2 Heq. by destruct l1.
  - done.
  - split; simpl; try done. rewrite map_size_empty. lia.
  - done.
  - split; simpl; try done.
    + intros i k. split; [set_solver|done].
    + apply NoDup_nil_2.
    + intros i. split; [set_solver|]. intros (? & ? & ? & ?). done.
    + apply NoDup_nil_2.
Qed.
Lemma Inv_step o head lib s lab s' : u64_label lab -> Inv o head lib s -> s_panic s = false -> Step o s lab s' -> Inv o head lib s'.
Proof.
  intros HW [V1 V2 V3 V4 V5 V6 V7 V8 V9] Hp H. split.
  - by eapply Libs_step. - by eapply Acc_step. - by eapply Prov_step. - by eapply Atts_step. - by eapply Just_step.
  - by eapply CallsU64_step. - by eapply Pool_step. - by eapply High_step. - by eapply Opn_step.
Qed.
Lemma reaches_inv o head lib dur now sched s : reaches o head lib dur now sched s -> Inv o head lib s.
Proof.
  intros (Hl & HW & Hr). eapply (run_indW o u64_label (Inv o head lib)); [|exact HW|by apply Inv_init|exact Hr].
  intros. by eapply Inv_step.
Qed.
Lemma reaches_txi o head lib dur now sched s : good_dur dur -> reaches o head lib dur now sched s -> TxI dur s.
Proof.
  intros Hd (Hl & HW & Hr). eapply (run_ind o (TxI dur)); [|  |exact Hr].
  - intros. by eapply TxI_step.
  - split; simpl; try done. exists ∅. split; simpl; [apply Rel_init|..]; try done; set_solver.
Qed.
Lemma reaches_split o head lib dur now sched s sched' s' : reaches o head lib dur now sched s -> Forall u64_label sched' ->
  run o s sched' = Some s' -> reaches o head lib dur now (sched ++ sched') s'.
Proof.
  intros (Hl & HW & Hr) HW' Hr'. split; [done|]. split; [by apply Forall_app|]. rewrite run_app, Hr. done.
Qed.
Lemma final_run {A} (f : sys -> A) o s0 sched a : final f o s0 sched = Some a -> exists s, run o s0 sched = Some s /\ f s = a.
Proof. unfold final. destruct (run o s0 sched) as [s|]; [|done]. intros [= <-]. eauto. Qed.

(** ** No panic *)
Lemma reaches_no_panic o head lib dur now sched s : good_dur dur -> Forall complete_label sched ->
  reaches o head lib dur now sched s -> s_panic s = false.
Proof.
  intros Hd HC (Hl & HW & Hr).
  cut (s_panic s = false /\ Inv o head lib s /\ TxI dur s /\ Complete s); [tauto|].
  eapply (run_indW o (fun l => u64_label l /\ complete_label l) (fun s => s_panic s = false /\ Inv o head lib s /\ TxI dur s /\ Complete s));
    [| | |exact Hr].
  - intros s1 lab s2 [Hu Hc] (Hp & HI & HT & HCm) _ Hst. split_and!.
    + by eapply no_panic_step; [..|exact Hst]; try apply HI.
    + by eapply Inv_step.
    + by eapply TxI_step.
    + by eapply Complete_step.
  - apply Forall_and. done.
  - split_and!; [done|by apply Inv_init| |split; simpl; set_solver].
    split; simpl; try done. exists ∅. split; simpl; [apply Rel_init|..]; try done; set_solver.
Qed.

(** ** No block is ever delayed if no timestamp is in the future *)
Definition past_label (o : ap_opts) (t0 : Z) (l : label) : Prop :=
  match l with
  | LCall b => forall h, b_header b = Some h -> (block_instant (h_timestamp h) <= t0 + ao_delay_threshold o)%Z
  | _ => True
  end.
Record Past (o : ap_opts) (t0 : Z) (s : sys) : Prop := {
  ps_now : (t0 <= s_now s)%Z;
  ps_calls : forall c cl, s_calls s !! c = Some cl -> (block_instant (k_time (cl_blk cl)) <= t0 + ao_delay_threshold o)%Z;
  ps_att : forall i k w t, s_att s !! i <> Some (Attempt k (PDelay w t));
  ps_log : forall i k r, ODelayTimeout i k r ∉ s_log s }.
Lemma past_same o t0 s s' : Past o t0 s -> (s_now s <= s_now s')%Z -> s_calls s' = s_calls s ->
  (forall i k w t, s_att s' !! i = Some (Attempt k (PDelay w t)) -> exists i' k', s_att s !! i' = Some (Attempt k' (PDelay w t))) ->
  (forall i k r, ODelayTimeout i k r ∈ s_log s' -> ODelayTimeout i k r ∈ s_log s) -> Past o t0 s'.
Proof.
  intros [P1 P2 P3 P4] E1 E2 E3 E4. split.
  - lia. - rewrite E2. done. - intros i k w t Hi. destruct (E3 i k w t Hi) as (i' & k' & ?). by eapply P3. - intros i k r Hin. by eapply P4, E4.
Qed.
Lemma Past_step o t0 s lab s' : past_label o t0 lab -> Prov s -> Past o t0 s -> Step o s lab s' -> Past o t0 s'.
Proof.
  intros HW HP HT H.
  assert (Hlog : forall e, (match e with ODelayTimeout _ _ _ => False | _ => True end) -> forall i k t, ODelayTimeout i k t ∈ e :: s_log s -> ODelayTimeout i k t ∈ s_log s).
  { intros e He i k t [Heq|?]%elem_of_cons; [by subst|done]. }
  assert (Hset : forall (c : nat) k p0 b0 p b, s_calls s !! c = Some (Call k p0 b0) -> forall c0 cl0, <[c := Call k p b]> (s_calls s) !! c0 = Some cl0 ->
     (block_instant (k_time (cl_blk cl0)) <= t0 + ao_delay_threshold o)%Z).
  { intros c k p0 b0 p b Hc c0 cl0 H0. destruct (decide (c0 = c)) as [->|].
    - rewrite list_lookup_insert in H0 by (by eapply lookup_lt_Some). injection H0 as <-. apply (ps_calls _ _ _ HT _ _ Hc).
    - rewrite list_lookup_insert_ne in H0 by done. by eapply (ps_calls _ _ _ HT). }
  assert (Hph : forall (i : nat) p, (forall w t, p <> PDelay w t) -> forall j k w t, alter (fun a => Attempt (at_blk a) p) i (s_att s) !! j = Some (Attempt k (PDelay w t)) ->
     exists i' k', s_att s !! i' = Some (Attempt k' (PDelay w t))).
  { intros i p Hp j k w t [(-> & E & _)|?]%alter_split; [by destruct (Hp w t)|eauto]. }
  assert (Hefs : forall lose effs s1, s_now s1 = s_now s -> s_calls s1 = s_calls s ->
     (forall i k w t, s_att s1 !! i = Some (Attempt k (PDelay w t)) -> exists i' k', s_att s !! i' = Some (Attempt k' (PDelay w t))) ->
     (forall i k r, ODelayTimeout i k r ∈ s_log s1 -> ODelayTimeout i k r ∈ s_log s) -> Past o t0 (do_effs lose effs s1)).
  { intros lose effs s1 E1 E2 E3 E4. pose proof (do_effs_same lose effs s1) as HS. destruct (se_only_answers _ _ _ HS) as (new & Elog & Ho).
    destruct HT as [P1 P2 P3 P4]. split.
    - rewrite (se_now _ _ _ HS). lia.
    - intros c cl' Hc. destruct (se_blk _ _ _ HS c cl' Hc) as (cl & Hcl & -> & _). apply (P2 c). congruence.
    - rewrite (se_att _ _ _ HS). intros i k w t Hi. destruct (E3 i k w t Hi) as (? & ? & ?). by eapply P3.
    - intros i k r. rewrite Elog. intros [Hin|Hin]%elem_of_app; [by destruct (Ho _ Hin) as (? & ? & ?)|]. by eapply P4, E4. }
  destruct H; try (eapply past_same; [exact HT|simpl; lia|done|simpl; eauto|simpl; eauto]; done);
    try (eapply past_same; [exact HT|simpl; lia|done|simpl; eauto|simpl; eapply Hlog; done]; done);
    try (apply Hefs; simpl; [done|done|by eauto|first [done|by eapply Hlog]]; done).
  - (* call *)
    destruct HT as [P1 P2 P3 P4]. split; try done. simpl. intros c cl [Hc|(_ & Hc)]%lookup_app_Some; [eauto|].
    apply list_lookup_singleton_Some in Hc as [_ <-]. simpl in *. by apply HW.
  - destruct HT as [P1 P2 P3 P4]. split; try done. simpl. by eapply Hset.
  - destruct HT as [P1 P2 P3 P4]. split; try done; simpl; [by eapply Hset|]. intros i k' r' Hin%Hlog; [by eapply P4|done].
  - destruct HT as [P1 P2 P3 P4]. split; try done; simpl; [by eapply Hset|]. intros i k' r' Hin%Hlog; [by eapply P4|done].
  - (* try start *)
    eapply past_same; [exact HT|simpl; lia|done| |done]. simpl. intros j k' w t' [Hj|(_ & Hj)]%lookup_app_Some; [eauto|].
    apply list_lookup_singleton_Some in Hj as [_ Hj]. done.
  - (* start *)
    eapply past_same; [exact HT|simpl; lia|done| |done]. simpl. eapply Hph. intros w t. unfold start_phase. rewrite bool_decide_false; [done|].
    destruct (pv_att s HP i _ H) as (c & cl & Hc & Hb). pose proof (ps_calls _ _ _ HT c cl Hc) as Hn. rewrite Hb in Hn. simpl in Hn.
    pose proof (ps_now _ _ _ HT). lia.
  - eapply past_same; [exact HT|simpl; lia|done| |done]. simpl. by eapply Hph.
  - exfalso. by eapply (ps_att _ _ _ HT).
  - eapply past_same; [exact HT|simpl; lia|done| |done]. simpl. by eapply Hph.
  - eapply past_same; [exact HT|simpl; lia|done| |by apply Hlog]. simpl. by eapply Hph.
  - eapply past_same; [exact HT|simpl; lia|done| |by apply Hlog]. simpl. by eapply Hph.
  - eapply past_same; [exact HT|simpl; lia|done| |by apply Hlog]. simpl. by eapply Hph.
  - eapply past_same; [exact HT|simpl; lia|done| |by apply Hlog]. simpl. by eapply Hph.
  - apply Hefs; simpl; [done|done|by eapply Hph|by apply Hlog].
Qed.
Lemma reaches_past o head lib dur now sched s : Forall (past_label o now) sched -> reaches o head lib dur now sched s -> Past o now s.
Proof.
  intros HPs (Hl & HW & Hr). cut (Inv o head lib s /\ Past o now s); [tauto|].
  eapply (run_indW o (fun l => u64_label l /\ past_label o now l) (fun s => Inv o head lib s /\ Past o now s)); [| | |exact Hr].
  - intros s1 lab s2 [Hu Hc] (HI & HT) Hp Hst. split; [by eapply Inv_step|]. eapply Past_step; [done|apply HI|done|done].
  - by apply Forall_and.
  - split; [by apply Inv_init|]. split; simpl; try done. set_solver.
Qed.
Lemma reaches_tm o head lib dur now sched s : (0 <= ao_delay_threshold o)%Z -> Forall (near_label now) sched ->
  reaches o head lib dur now sched s -> Tm o now s.
Proof.
  intros Hth HN (Hl & HW & Hr). cut (Inv o head lib s /\ Near now s /\ Tm o now s); [tauto|].
  eapply (run_indW o (fun l => u64_label l /\ near_label now l) (fun s => Inv o head lib s /\ Near now s /\ Tm o now s)); [| | |exact Hr].
  - intros s1 lab s2 [Hu Hc] (HI & HNr & HT) Hp Hst. split_and!; [by eapply Inv_step|by eapply Near_step|]. by eapply Tm_step; [|apply HI|..].
  - by apply Forall_and.
  - split_and!; [by apply Inv_init|done|]. split; simpl; try done; set_solver.
Qed.

(** ** Requests do not get lost (continuations) *)
Lemma att_length_step o s lab s' : Step o s lab s' -> length (s_att s) <= length (s_att s').
Proof.
  intros H. destruct H; simpl; rewrite ?alter_length, ?app_length; simpl; try lia;
    match goal with |- context [do_effs ?l ?e ?x] => rewrite (se_att _ _ _ (do_effs_same l e x)); simpl; rewrite ?alter_length; lia end.
Qed.
Lemma started_step o s lab s' n k : Step o s lab s' -> started_since n k s -> started_since n k s'.
Proof.
  intros H (i & p & Hn & Hi).
  assert (Halt : forall j p', started_since n k (set_phase j p' s)).
  { intros j p'. destruct (decide (i = j)) as [->|Hne].
    - exists j, p'. split; [done|]. simpl. rewrite list_lookup_alter, Hi. done.
    - exists i, p. split; [done|]. simpl. rewrite list_lookup_alter_ne; done. }
  assert (Hsame : forall s1, s_att s1 = s_att s -> started_since n k s1) by (intros s1 E; exists i, p; rewrite E; done).
  destruct H; try (by apply Hsame); try (by apply Halt);
    try (match goal with |- started_since _ _ (do_effs ?l ?e ?x) => apply Hsame; rewrite (se_att _ _ _ (do_effs_same l e x)); done end).
  - exists i, p. split; [done|]. simpl. rewrite lookup_app_l by (by eapply lookup_lt_Some). done.
  - destruct (Halt i0 PDone) as (j & p' & ? & Hj). exists j, p'. split; [done|].
    match goal with |- context [do_effs ?l ?e ?x] => rewrite (se_att _ _ _ (do_effs_same l e x)); exact Hj end.
Qed.

(** What can become of a scheduled request in one step. *)
Lemma elem_delete_or {A} (l : list A) i x y : x ∈ l -> l !! i = Some y -> x = y \/ x ∈ delete i l.
Proof.
  intros (j & Hj)%elem_of_list_lookup Hi. destruct (decide (j = i)) as [->|]; [left; congruence|right].
  apply elem_of_list_lookup. destruct (decide (j < i)); [exists j; by rewrite lookup_delete_lt|].
  exists (j - 1). rewrite lookup_delete_ge by lia. by replace (S (j - 1)) with j by lia.
Qed.
Lemma try_step o s lab s' k f t : Step o s lab s' -> (k, f, t) ∈ s_try s ->
  (k, f, t) ∈ s_try s' \/ s_cancelled s = true \/ started_since (length (s_att s)) k s' \/
  ((exists t', (k, f, t') ∈ s_try s') /\ f = true) \/ (f = false /\ k_id k ∈ c_pending (s_core s) /\ s_core s' = s_core s /\ s_att s' = s_att s).
Proof.
  intros H Hin.
  destruct H; try (by left); try (match goal with |- context [do_effs ?l ?e ?x] => left; rewrite (se_try _ _ _ (do_effs_same l e x)); set_solver end).
  - destruct (elem_delete_or _ _ _ _ Hin H0) as [Heq|Hne].
    + injection Heq as -> -> ->. right; right; left. exists (length (s_att s)), PStart. split; [done|]. simpl. rewrite lookup_app_r, Nat.sub_diag by lia. done.
    + by left.
  - destruct (elem_delete_or _ _ _ _ Hin H0) as [Heq|Hne].
    + injection Heq as -> -> ->. right; right; right; left. split; [|done]. eexists. simpl. apply elem_of_app. right. left.
    + left. simpl. apply elem_of_app. by left.
  - destruct (elem_delete_or _ _ _ _ Hin H0) as [Heq|Hne].
    + injection Heq as -> -> ->. right; right; right; right. done.
    + by left.
  - right; left. done.
Qed.
Lemma cancelled_step o s lab s' : Step o s lab s' -> s_cancelled s = true -> s_cancelled s' = true.
Proof.
  intros H Hc. destruct H; simpl; try done; match goal with |- context [do_effs ?l ?e ?x] => rewrite (se_cancelled _ _ _ (do_effs_same l e x)); done end.
Qed.
Lemma forced_persists o sched s s' k t : run o s sched = Some s' -> (k, true, t) ∈ s_try s -> s_cancelled s' = false ->
  (exists t', (k, true, t') ∈ s_try s') \/ started_since (length (s_att s)) k s'.
Proof.
  intros Hr Hin Hc.
  cut (s_cancelled s' = true \/ (exists t', (k, true, t') ∈ s_try s') \/ started_since (length (s_att s)) k s'); [intros [?|?]; [congruence|done]|].
  eapply (run_ind o (fun x => length (s_att s) <= length (s_att x) /\ (s_cancelled x = true \/ (exists t', (k, true, t') ∈ s_try x) \/ started_since (length (s_att s)) k x)));
    [| |exact Hr].
  - intros s1 lab s2 (Hlen & HI) _ Hst. split; [pose proof (att_length_step _ _ _ _ Hst); lia|].
    destruct HI as [Hx|[(t' & Hx)|Hx]].
    + left. by eapply cancelled_step.
    + destruct (try_step _ _ _ _ _ _ _ Hst Hx) as [?|[?|[(i & p & ? & ?)|[(? & _)|(? & _)]]]]; [eauto| |right; right| eauto|done].
      * left. by eapply cancelled_step.
      * exists i, p. split; [lia|done].
    + right; right. by eapply started_step.
  - eauto.
Qed.

(** ** An idle block id stays idle until it is passed in again *)
Lemma idle_step o s lab s' id : Acc s -> Libs s -> not_again id lab -> idle id s -> Step o s lab s' ->
  idle id s' /\ exists new, s_log s' = new ++ s_log s /\ forall i k t, OSubmit i k t ∈ new -> k_id k <> id.
Proof.
  intros HA HL HW (I1 & I2 & I3 & I4) H.
  assert (Hnoent : forall cid e, c_byid (s_core s) !! cid = Some e -> k_id (e_blk e) <> id).
  { intros cid e He Hid. rewrite (ok_id _ (a_ok s HA) _ _ He) in Hid. apply I1. unfold held_ids. apply elem_of_dom. rewrite <- Hid. eauto. }
  assert (Hefs : forall lose effs s1, s_calls s1 = s_calls s -> (forall c, c ∈ s_new s1 -> c ∈ s_new s) -> s_try s1 = s_try s ->
     (forall i a, s_att s1 !! i = Some a -> at_live a = true -> k_id (at_blk a) <> id) ->
     id ∉ held_ids s1 -> (forall k f t, SpawnTry k f t ∈ effs -> k_id k <> id) ->
     (exists new, s_log s1 = new ++ s_log s /\ forall i k t, OSubmit i k t ∈ new -> k_id k <> id) ->
     idle id (do_effs lose effs s1) /\ exists new, s_log (do_effs lose effs s1) = new ++ s_log s /\ forall i k t, OSubmit i k t ∈ new -> k_id k <> id).
  { intros lose effs s1 E1 E2 E3 E4 E5 E6 (n0 & E7 & E8). pose proof (do_effs_same lose effs s1) as HS. split.
    - split_and!.
      + unfold held_ids. rewrite (se_core _ _ _ HS). done.
      + rewrite (se_try _ _ _ HS), E3. intros k f t [?|Hin]%elem_of_app; [eauto|]. apply elem_spawns in Hin. eauto.
      + rewrite (se_att _ _ _ HS). done.
      + rewrite (se_new _ _ _ HS). intros c cl' Hc Hor. destruct (se_blk _ _ _ HS c cl' Hc) as (cl & Hcl & -> & Hp). apply (I4 c); [congruence|].
        rewrite <- Hp. destruct Hor; auto.
    - destruct (se_only_answers _ _ _ HS) as (new & -> & Ho). exists (new ++ n0). rewrite E7, (assoc_L (++)). split; [done|].
      intros i k t [Hin|Hin]%elem_of_app; [by destruct (Ho _ Hin) as (? & ? & ?)|eauto]. }
  assert (Halt : forall (i : nat) p a0, s_att s !! i = Some a0 -> at_live a0 = true -> forall j a, alter (fun a => Attempt (at_blk a) p) i (s_att s) !! j = Some a -> at_live a = true -> k_id (at_blk a) <> id).
  { intros i p a0 Ha0 Hl0 j a [(-> & a1 & Ha1 & ->)|(_ & Ha)]%alter_lookup_phase Hl; [|eauto]. simpl. assert (a1 = a0) as -> by congruence. eauto. }
  assert (Hins : forall (c : nat) k p0 b0 p b, s_calls s !! c = Some (Call k p0 b0) -> (p = CSend -> p0 = CSend) ->
     forall c0 cl0, <[c := Call k p b]> (s_calls s) !! c0 = Some cl0 -> (cl_phase cl0 = CSend \/ c0 ∈ s_new s) -> k_id (cl_blk cl0) <> id).
  { intros c k p0 b0 p b Hc Hp c0 cl0 H0 Hor. destruct (decide (c0 = c)) as [->|].
    - rewrite list_lookup_insert in H0 by (by eapply lookup_lt_Some). injection H0 as <-. simpl in *. apply (I4 _ _ Hc). simpl. destruct Hor; auto.
    - rewrite list_lookup_insert_ne in H0 by done. eauto. }
  assert (Hnil : forall e, (match e with OSubmit _ _ _ => False | _ => True end) -> exists new, e :: s_log s = new ++ s_log s /\ forall i k t, OSubmit i k t ∈ new -> k_id k <> id).
  { intros e He. exists [e]. split; [done|]. intros i k t Hin%elem_of_list_singleton. by subst e. }
  assert (Hnil0 : exists new, s_log s = new ++ s_log s /\ forall i k t, OSubmit i k t ∈ new -> k_id k <> id) by (exists []; split; [done|set_solver]).
  destruct H; try (split; [by split_and!|first [exact Hnil0|by apply Hnil]]; done).
  - (* call *)
    split; [|exact Hnil0]. split_and!; try done. simpl. intros c cl [Hc|(_ & Hc)]%lookup_app_Some Hor.
    + apply (I4 c); done.
    + apply list_lookup_singleton_Some in Hc as [_ <-]. done.
  - (* send *)
    split; [|exact Hnil0]. split_and!; try done. simpl. intros c' cl' Hc' Hor. destruct (decide (c' = c)) as [->|Hne].
    + rewrite list_lookup_insert in Hc' by (by eapply lookup_lt_Some). injection Hc' as <-. simpl. apply (I4 _ _ H). by left.
    + rewrite list_lookup_insert_ne in Hc' by done. apply (I4 c'); [done|]. set_solver.
  - split; [|by apply Hnil]. split_and!; try done. simpl. by eapply Hins.
  - split; [|by apply Hnil]. split_and!; try done. simpl. by eapply Hins.
  - (* new *)
    assert (Hcid : k_id (cl_blk cl) <> id) by (apply (I4 c); [done|rewrite H0; right; left]).
    apply Hefs; try done.
    + simpl. rewrite H0. set_solver.
    + unfold held_ids. simpl. intros (e & He)%elem_of_dom.
      destruct (hd_old _ _ _ _ (handle_new_handled _ _ _ _ _ _ _ (a_ok s HA) H2) id e He) as [(e0 & He0 & _)|(_ & k & inc & Heq & -> & _)].
      * apply I1. apply elem_of_dom. eauto.
      * injection Heq as <- <-. done.
    + intros k f t Hin. destruct (handle_new_spawn _ _ _ _ _ _ _ _ _ _ H2 Hin) as (-> & _). done.
  - (* try start *)
    assert (Hk : k_id k <> id) by (eapply I2; by eapply elem_of_list_lookup_2).
    split; [|exact Hnil0]. split_and!; try done.
    + simpl. intros k' f' t' ?%elem_of_delete. eauto.
    + simpl. intros j a [Hj|(_ & Hj)]%lookup_app_Some Hl; [eauto|]. apply list_lookup_singleton_Some in Hj as [_ <-]. done.
  - (* try force *)
    assert (Hk : k_id k <> id) by (eapply I2; by eapply elem_of_list_lookup_2).
    split; [|exact Hnil0]. split_and!; try done.
    simpl. intros k' f' t' [?%elem_of_delete|Heq%elem_of_list_singleton]%elem_of_app; [eauto|]. by injection Heq as -> -> ->.
  - split; [|exact Hnil0]. split_and!; try done. simpl. intros k' f' t' ?%elem_of_delete. eauto.
  - split; [|exact Hnil0]. split_and!; try done. simpl. intros k' f' t' ?%elem_of_delete. eauto.
  - split; [|exact Hnil0]. split_and!; try done. simpl. by eapply Halt.
  - split; [|exact Hnil0]. split_and!; try done. simpl. by eapply Halt.
  - split; [|by apply Hnil]. split_and!; try done. simpl. by eapply Halt.
  - split; [|exact Hnil0]. split_and!; try done. simpl. eapply Halt; [done|]. destruct H1 as [(? & ? & ->)|(? & ->)]; done.
  - split; [|by apply Hnil]. split_and!; try done. simpl. by eapply Halt.
  - split; [|by apply Hnil]. split_and!; try done. simpl. by eapply Halt.
  - (* submit *)
    split; [split_and!; try done; simpl; by eapply Halt|]. exists [OSubmit i k (s_now s)]. split; [done|].
    intros j k' t Heq%elem_of_list_singleton. injection Heq as -> -> ->. exact (I3 i _ H eq_refl).
  - split; [|by apply Hnil]. split_and!; try done. simpl. by eapply Halt.
  - (* status *)
    apply Hefs; try done.
    + simpl. intros j a [(-> & a1 & Ha1 & ->)|(_ & Ha)]%alter_lookup_phase Hl; [done|eauto].
    + unfold held_ids. simpl. intros (e & He)%elem_of_dom.
      destruct (handled_none_sub _ _ _ _ _ (handle_status_handled _ _ _ _ _ _ _ H1) He) as (e0 & He0 & _). apply I1, elem_of_dom. eauto.
    + intros k' f t Hin. destruct (handle_status_spawn _ _ _ _ _ _ _ _ _ _ H1 Hin) as (_ & [(-> & _)|(_ & cid & e & He & ->)]); [|eauto].
      exact (I3 i _ H0 eq_refl).
    + by apply Hnil.
  - (* fork heads *)
    assert (Hlt : (lib < two64)%N) by (eapply (lb_fh s HL fh); [by eapply elem_of_list_lookup_2|done]).
    assert (Hlt' : (lib < max_u64)%N) by (unfold max_u64 in *; lia).
    apply Hefs; try done.
    + unfold held_ids. simpl. intros (e & He)%elem_of_dom.
      destruct (handled_none_sub _ _ _ _ _ (handle_fork_heads_handled _ _ _ _ _ _ _ (a_ok s HA) H1 Hlt' (lb_lib s HL) H3) He) as (e0 & He0 & _).
      apply I1, elem_of_dom. eauto.
    + intros k f t Hin. destruct (handle_fork_heads_spawn _ _ _ _ _ _ _ _ _ H3 Hin) as (_ & _ & cid & e & He & ->). eauto.
    + by apply Hnil.
  - (* broadcast *)
    apply Hefs; try done.
    + injection H3 as <- _. done.
    + injection H3 as _ <-. intros k f t Hin. apply children_spawn in Hin as (_ & _ & cid & e & He & ->). eauto.
    + by apply Hnil.
Qed.
Lemma idle_run o head lib sched s s' id : Inv o head lib s -> idle id s -> Forall u64_label sched -> Forall (not_again id) sched -> run o s sched = Some s' ->
  exists new, s_log s' = new ++ s_log s /\ forall i k t, OSubmit i k t ∈ new -> k_id k <> id.
Proof.
  intros HI Hid HU HN Hr.
  cut (Inv o head lib s' /\ idle id s' /\ exists new, s_log s' = new ++ s_log s /\ forall i k t, OSubmit i k t ∈ new -> k_id k <> id); [tauto|].
  eapply (run_indW o (fun l => u64_label l /\ not_again id l) (fun x => Inv o head lib x /\ idle id x /\ exists new, s_log x = new ++ s_log s /\ forall i k t, OSubmit i k t ∈ new -> k_id k <> id));
    [| | |exact Hr].
  - intros s1 lab s2 [Hu Hn] (HI1 & Hid1 & n1 & E1 & Hn1) Hp Hst. destruct (idle_step o s1 lab s2 id (v_acc _ _ _ _ HI1) (v_libs _ _ _ _ HI1) Hn Hid1 Hst) as (Hid2 & n2 & E2 & Hn2).
    split_and!; [by eapply Inv_step|done|]. exists (n2 ++ n1). rewrite E2, E1, (assoc_L (++)). split; [done|].
    intros i k t [?|?]%elem_of_app; eauto.
  - by apply Forall_and.
  - split_and!; [done|done|]. exists []. split; [done|set_solver].
Qed.
