(** Invariants of the applicator system: transactions and the cache, absence of panics. *)
From Verif Require Import GoBase Util TxCache_Model TxCache_Spec TxCache_Proofs Watchdog_Model
  Applicator_Model Applicator_Spec Applicator_Core Applicator_Sys Applicator_Inv Applicator_Inv2 Applicator_Inv3 Applicator_Inv4.

Definition Qx (dur : Z) (e : event) (r : list event) : Prop :=
  match e with
  | OTxSubmit i t u =>
      (forall j t' v, OTxSubmit j t' v ∈ r -> tid t' = tid t -> (u - v > dur)%Z) /\
      (forall b v, OAccepted b v ∈ r -> tid t ∈ map tid (b_txs b) ->
         (u - v > dur)%Z \/ exists w, seen_at r (tid t) w /\ (v - dur <= w < v)%Z /\ (u - w > dur)%Z)
  | OTxDuplicate i t u => exists a, seen_at r (tid t) a /\ (u - a <= dur)%Z
  | OTxResult i t _ => exists u, OTxSubmit i t u ∈ r
  | OTxReturn i t res => res = Some (ESent CtxDeadlineExceeded) \/ res = Some (ESent CtxCanceled) \/
      OTxResult i t res ∈ r \/ (res = None /\ exists u, OTxDuplicate i t u ∈ r)
  | _ => True
  end.
Record TxA (dur : Z) (s : sys) (adm : admissions) : Prop := {
  tx_rel : Rel dur (s_now s) (s_cache s) adm;
  tx_org : forall id a, adm !! id = Some a -> seen_at (s_log s) id a;
  tx_sub : forall i t v, OTxSubmit i t v ∈ s_log s -> exists a, adm !! tid t = Some a /\ (v <= a)%Z;
  tx_acc : forall b v id, OAccepted b v ∈ s_log s -> id ∈ map tid (b_txs b) -> exists a, adm !! id = Some a /\ (v - a <= dur)%Z }.
Record TxI (dur : Z) (s : sys) : Prop := {
  tx_adm : exists adm, TxA dur s adm;
  tx_hist : Hist (Qx dur) (s_log s);
  tx_st : forall i t ph buf ret, s_txs s !! i = Some (TxProc t ph buf ret) ->
     (forall r, buf = Some r -> OTxResult i t r ∈ s_log s \/ (r = None /\ exists u, OTxDuplicate i t u ∈ s_log s)) /\
     (ph = TRpc -> exists u, OTxSubmit i t u ∈ s_log s) }.

Lemma Rel_later dur t t' c adm : (t <= t')%Z -> Rel dur t c adm -> Rel dur t' c adm.
Proof.
  intros Hle [R1 R2 R3 R4 R5 R6 R7 R8]. split; try done.
  - intros it Hi. specialize (R3 it Hi). lia.
  - intros id a Ha. destruct (R7 id a Ha); [by left|right; lia].
  - intros id a Ha. specialize (R8 id a Ha). lia.
Qed.
Lemma seen_mono log log' id a : (forall e, e ∈ log -> e ∈ log') -> seen_at log id a -> seen_at log' id a.
Proof. intros Hs [(i & t & ? & ?)|(b & ? & ?)]; [left|right]; eauto. Qed.

(** Steps that do not concern transactions. *)
Definition quiet_event (e : event) : Prop :=
  match e with OTxSubmit _ _ _ | OTxDuplicate _ _ _ | OTxResult _ _ _ | OTxReturn _ _ _ | OAccepted _ _ => False | _ => True end.
Lemma txi_same dur s s' new : TxI dur s -> s_cache s' = s_cache s -> (s_now s <= s_now s')%Z -> s_txs s' = s_txs s ->
  s_log s' = new ++ s_log s -> (forall e, e ∈ new -> quiet_event e) -> TxI dur s'.
Proof.
  intros [(adm & [T1 T2 T3 T4]) TH TS] E1 E2 E3 E4 Hq.
  assert (Hsub : forall e, e ∈ s_log s -> e ∈ s_log s') by (intros e He; rewrite E4; apply elem_of_app; by right).
  assert (Hback : forall e, ~ quiet_event e -> e ∈ s_log s' -> e ∈ s_log s).
  { intros e He. rewrite E4. intros [Hin|?]%elem_of_app; [|done]. by specialize (Hq e Hin). }
  split.
  - exists adm. split.
    + rewrite E1. by eapply Rel_later.
    + intros id a Ha. eapply seen_mono; eauto.
    + intros i t v Hin. apply (T3 i). apply Hback; [simpl; tauto|done].
    + intros b v id Hin. apply T4. apply Hback; [simpl; tauto|done].
  - rewrite E4. apply Hist_app; [done|]. intros l1 e l2 ->. specialize (Hq e). destruct e; try done; exfalso; apply Hq; set_solver.
  - rewrite E3. intros i t ph buf ret Hi. destruct (TS i t ph buf ret Hi) as [S1 S2]. split.
    + intros r Hr. destruct (S1 r Hr) as [?|(? & u & ?)]; [left; auto|right; eauto].
    + intros Hp. destruct (S2 Hp) as [u Hu]. eauto.
Qed.

Lemma spec_check_recent dur now ids adm id : (0 <= dur)%Z -> (forall i a, adm !! i = Some a -> (a <= now)%Z) -> id ∈ ids ->
  exists a, fst (spec_check dur now ids adm) !! id = Some a /\ (now - a <= dur)%Z.
Proof.
  intros Hd. revert adm. induction ids as [|x ids IH]; intros adm Hle Hin; [set_solver|].
  simpl. destruct (recent dur now adm x) eqn:Hr.
  - destruct (decide (id = x)) as [->|Hne].
    + unfold recent in Hr. destruct (adm !! x) as [a|] eqn:Ha; [|done]. apply bool_decide_eq_true in Hr.
      destruct (spec_check_mono dur now ids adm x a) as (a' & Ha' & ?); [done|done|by eapply Hle|].
      destruct (spec_check dur now ids adm). exists a'. simpl in *. split; [done|lia].
    + destruct (IH adm Hle) as (a & Ha & ?); [set_solver|]. destruct (spec_check dur now ids adm). eauto.
  - assert (Hle' : forall i a, <[x:=now]> adm !! i = Some a -> (a <= now)%Z).
    { intros i a. destruct (decide (i = x)) as [->|]; [rewrite lookup_insert; intros [= <-]; lia|rewrite lookup_insert_ne by done; eauto]. }
    destruct (decide (id = x)) as [->|Hne]; [|apply IH; [done|set_solver]].
    destruct (spec_check_mono dur now ids (<[x:=now]> adm) x now) as (a' & Ha' & ?); [done|apply lookup_insert|lia|].
    exists a'. split; [done|lia].
Qed.

Lemma TxI_step o dur s lab s' : good_dur dur -> TxI dur s -> Step o s lab s' -> TxI dur s'.
Proof.
  intros Hd HT H.
  destruct H; try (eapply (txi_same dur s _ []); [exact HT|done|simpl; lia|done|done|set_solver]; done);
    try (eapply (txi_same dur s _ [_]); [exact HT|done|simpl; lia|done|done|by intros ? ->%elem_of_list_singleton]; done);
    match goal with
    | |- TxI _ (do_effs ?l ?e ?x) => pose proof (do_effs_same l e x) as HS; destruct (se_only_answers _ _ _ HS) as (new & Elog & Ho)
    | _ => idtac end.
  - (* new *)
    eapply (txi_same dur s _ new); [exact HT|by rewrite (se_cache _ _ _ HS)|rewrite (se_now _ _ _ HS); simpl; lia|by rewrite (se_txs _ _ _ HS)|done|].
    intros e He. by destruct (Ho e He) as (? & ? & ->).
  - (* status *)
    eapply (txi_same dur s _ (new ++ [OStatus i k res])); [exact HT|by rewrite (se_cache _ _ _ HS)|rewrite (se_now _ _ _ HS); simpl; lia|by rewrite (se_txs _ _ _ HS)| |].
    + rewrite Elog. simpl. by rewrite <- (assoc_L (++)).
    + intros e [He| ->%elem_of_list_singleton]%elem_of_app; [|done]. by destruct (Ho e He) as (? & ? & ->).
  - (* fork heads *)
    eapply (txi_same dur s _ (new ++ [OLib (c_lib core')])); [exact HT|by rewrite (se_cache _ _ _ HS)|rewrite (se_now _ _ _ HS); simpl; lia|by rewrite (se_txs _ _ _ HS)| |].
    + rewrite Elog. simpl. by rewrite <- (assoc_L (++)).
    + intros e [He| ->%elem_of_list_singleton]%elem_of_app; [|done]. by destruct (Ho e He) as (? & ? & ->).
  - (* broadcast *)
    cut (TxI dur (add_log (OAccepted b (s_now s)) (set_core core' (set_cache cache' (set_bc (delete i (s_bc s)) s))))).
    { intros HT1. eapply (txi_same dur _ _ new); [exact HT1|by rewrite (se_cache _ _ _ HS)|rewrite (se_now _ _ _ HS); simpl; lia|by rewrite (se_txs _ _ _ HS)|done|].
      intros e He. by destruct (Ho e He) as (? & ? & ->). }
    clear HS new Elog Ho. destruct HT as [(adm & [T1 T2 T3 T4]) TH TS].
    unfold tx_check_block in H1.
    destruct (check_rel dur (s_now s) (s_now s) (b_txs b) (s_cache s) adm Hd ltac:(lia) T1) as (c' & Hc & HR).
    rewrite Hc in H1. injection H1 as <- _.
    set (adm' := fst (spec_check dur (s_now s) (call_ids (b_txs b)) adm)) in *.
    assert (Hmono : forall id a, adm !! id = Some a -> exists a', adm' !! id = Some a' /\ (a <= a')%Z).
    { intros id a Ha. destruct (spec_check_mono dur (s_now s) (call_ids (b_txs b)) adm id a) as (a' & ? & ?); [apply Hd|done|by eapply (R_admold _ _ _ _ T1)|].
      exists a'. split; [done|lia]. }
    split; simpl.
    + exists adm'. split; simpl.
      * apply HR.
      * intros id a Ha. apply spec_check_origin in Ha as [Ha|[Hin ->]].
        -- eapply seen_mono; [|by apply T2]. intros; by right.
        -- right. exists b. split; [left|exact Hin].
      * intros j t v [?|Hin]%elem_of_cons; [done|]. destruct (T3 j t v Hin) as (a & Ha & ?). destruct (Hmono _ _ Ha) as (a' & ? & ?). exists a'. split; [done|lia].
      * intros b' v id [Heq|Hin]%elem_of_cons Hid.
        -- injection Heq as -> ->. apply spec_check_recent; [apply Hd| |done]. intros i0 a Ha. by eapply (R_admold _ _ _ _ T1).
        -- destruct (T4 b' v id Hin Hid) as (a & Ha & ?). destruct (Hmono _ _ Ha) as (a' & ? & ?). exists a'. split; [done|lia].
    + done.
    + intros j t ph buf ret Hj. destruct (TS j t ph buf ret Hj) as [S1 S2]. split.
      * intros r Hr. destruct (S1 r Hr) as [?|(? & u & ?)]; [left; by right|right; split; [done|]; exists u; by right].
      * intros Hp. destruct (S2 Hp) as [u Hu]. exists u. by right.
  - (* tx call *)
    destruct HT as [TA TH TS]. split; [destruct TA as (adm & [? ? ? ?]); exists adm; by split|done|]. simpl.
    intros j t' ph buf ret [Hj|(_ & Hj)]%lookup_app_Some; [eauto|]. apply list_lookup_singleton_Some in Hj as [_ Hj]. injection Hj as <- <- <- <-. done.
  - (* tx send *)
    destruct HT as [TA TH TS]. split; [destruct TA as (adm & [? ? ? ?]); exists adm; by split|done|]. simpl.
    intros j t' ph buf ret Hj. destruct (decide (j = i)) as [->|Hne].
    + rewrite list_lookup_alter, H in Hj. injection Hj as <- <- <- <-. done.
    + rewrite list_lookup_alter_ne in Hj by done. eauto.
  - (* tx take: new *)
    destruct HT as [(adm & [T1 T2 T3 T4]) TH TS].
    destruct (check_rel dur (s_now s) (s_now s) [t] (s_cache s) adm Hd ltac:(lia) T1) as (c' & Hc & HR).
    rewrite Hc in H1. injection H1 as <- Hz. simpl in HR, Hz. change (str (t_id t)) with (tid t) in *.
    destruct (recent dur (s_now s) adm (tid t)) eqn:Hr; [done|]. simpl in HR.
    assert (Hexp : forall a, adm !! tid t = Some a -> (s_now s - a > dur)%Z).
    { intros a Ha. unfold recent in Hr. rewrite Ha in Hr. apply bool_decide_eq_false in Hr. lia. }
    split; simpl.
    + exists (<[tid t := s_now s]> adm). split; simpl.
      * apply HR.
      * intros id a Ha. destruct (decide (id = tid t)) as [->|Hne].
        -- rewrite lookup_insert in Ha. injection Ha as <-. left. exists i, t. split; [left|done].
        -- rewrite lookup_insert_ne in Ha by done. eapply seen_mono; [|by apply T2]. intros; by right.
      * intros j t' v [Heq|Hin]%elem_of_cons.
        -- injection Heq as -> -> ->. exists (s_now s). rewrite lookup_insert. split; [done|lia].
        -- destruct (T3 j t' v Hin) as (a & Ha & ?). destruct (decide (tid t' = tid t)) as [->|Hne].
           ++ exists (s_now s). rewrite lookup_insert. split; [done|]. pose proof (R_admold _ _ _ _ T1 _ _ Ha). lia.
           ++ exists a. rewrite lookup_insert_ne by done. done.
      * intros b v id [?|Hin]%elem_of_cons Hid; [done|]. destruct (T4 b v id Hin Hid) as (a & Ha & ?). destruct (decide (id = tid t)) as [->|Hne].
        -- exists (s_now s). rewrite lookup_insert. split; [done|]. pose proof (R_admold _ _ _ _ T1 _ _ Ha). lia.
        -- exists a. rewrite lookup_insert_ne by done. done.
    + split; [|done]. split.
      * intros j t' v Hin Hid. destruct (T3 j t' v Hin) as (a & Ha & ?). rewrite Hid in Ha. specialize (Hexp a Ha). lia.
      * intros b v Hin Hid. destruct (T4 b v (tid t) Hin Hid) as (a & Ha & ?). specialize (Hexp a Ha).
        destruct (decide (a < v)%Z); [right|left; lia]. exists a. split; [by apply T2|lia].
    + intros j t' ph buf' ret' Hj. destruct (decide (j = i)) as [->|Hne].
      * rewrite list_lookup_alter, H in Hj. injection Hj as <- <- <- <-. destruct (TS i _ _ _ _ H) as [S1 _]. split.
        -- intros r Hrr. destruct (S1 r Hrr) as [?|(? & u & ?)]; [left; by right|right; split; [done|]; exists u; by right].
        -- intros _. eexists. left.
      * rewrite list_lookup_alter_ne in Hj by done. destruct (TS j _ _ _ _ Hj) as [S1 S2]. split.
        -- intros r Hrr. destruct (S1 r Hrr) as [?|(? & u & ?)]; [left; by right|right; split; [done|]; exists u; by right].
        -- intros Hp. destruct (S2 Hp) as [u Hu]. exists u. by right.
  - (* tx take: duplicate *)
    destruct HT as [(adm & [T1 T2 T3 T4]) TH TS].
    destruct (check_rel dur (s_now s) (s_now s) [t] (s_cache s) adm Hd ltac:(lia) T1) as (c' & Hc & HR).
    rewrite Hc in H1. injection H1 as <- Hz. simpl in HR, Hz. change (str (t_id t)) with (tid t) in *.
    destruct (recent dur (s_now s) adm (tid t)) eqn:Hr; [|done]. simpl in HR.
    split; simpl.
    + exists adm. split; simpl.
      * apply HR.
      * intros id a Ha. eapply seen_mono; [|by apply T2]. intros; by right.
      * intros j t' v [?|Hin]%elem_of_cons; [done|]. eauto.
      * intros b v id [?|Hin]%elem_of_cons Hid; [done|]. eauto.
    + split; [|done]. unfold recent in Hr. destruct (adm !! tid t) as [a|] eqn:Ha; [|done]. apply bool_decide_eq_true in Hr. exists a. auto.
    + intros j t' ph buf' ret' Hj. destruct (decide (j = i)) as [->|Hne].
      * rewrite list_lookup_alter, H in Hj. injection Hj as <- <- <- <-. split; [|done].
        intros r [= <-]. right. split; [done|]. eexists. left.
      * rewrite list_lookup_alter_ne in Hj by done. destruct (TS j _ _ _ _ Hj) as [S1 S2]. split.
        -- intros r Hrr. destruct (S1 r Hrr) as [?|(? & u & ?)]; [left; by right|right; split; [done|]; exists u; by right].
        -- intros Hp. destruct (S2 Hp) as [u Hu]. exists u. by right.
  - (* tx done *)
    destruct HT as [(adm & [T1 T2 T3 T4]) TH TS]. split; simpl.
    + exists adm. split; simpl; [done| | |].
      * intros id a Ha. eapply seen_mono; [|by apply T2]. intros; by right.
      * intros j t' v [?|Hin]%elem_of_cons; [done|]. eauto.
      * intros b v id [?|Hin]%elem_of_cons Hid; [done|]. eauto.
    + split; [|done]. by apply (TS i _ _ _ _ H).
    + intros j t' ph buf' ret' Hj. destruct (decide (j = i)) as [->|Hne].
      * rewrite list_lookup_alter, H in Hj. injection Hj as <- <- <- <-. split; [|done].
        intros r [= <-]. left. left.
      * rewrite list_lookup_alter_ne in Hj by done. destruct (TS j _ _ _ _ Hj) as [S1 S2]. split.
        -- intros r Hrr. destruct (S1 r Hrr) as [?|(? & u & ?)]; [left; by right|right; split; [done|]; exists u; by right].
        -- intros Hp. destruct (S2 Hp) as [u Hu]. exists u. by right.
  - (* tx ret *)
    destruct HT as [(adm & [T1 T2 T3 T4]) TH TS]. split; simpl.
    + exists adm. split; simpl; [done| | |].
      * intros id a Ha. eapply seen_mono; [|by apply T2]. intros; by right.
      * intros j t' v [?|Hin]%elem_of_cons; [done|]. eauto.
      * intros b v id [?|Hin]%elem_of_cons Hid; [done|]. eauto.
    + split; [|done]. right; right. destruct (TS i _ _ _ _ H) as [S1 _]. by apply S1.
    + intros j t' ph' buf' ret' Hj. assert (Hj' : exists ret0, s_txs s !! j = Some (TxProc t' ph' buf' ret0)).
      { destruct (decide (j = i)) as [->|Hne]; [|rewrite list_lookup_alter_ne in Hj by done; eauto].
        rewrite list_lookup_alter, H in Hj. injection Hj as <- <- <- <-. eauto. }
      destruct Hj' as [ret0 Hj']. destruct (TS j _ _ _ _ Hj') as [S1 S2]. split.
      * intros r' Hrr. destruct (S1 r' Hrr) as [?|(? & u & ?)]; [left; by right|right; split; [done|]; exists u; by right].
      * intros Hp. destruct (S2 Hp) as [u Hu]. exists u. by right.
  - (* tx timeout *)
    destruct HT as [(adm & [T1 T2 T3 T4]) TH TS]. split; simpl.
    + exists adm. split; simpl; [done| | |].
      * intros id a Ha. eapply seen_mono; [|by apply T2]. intros; by right.
      * intros j t' v [?|Hin]%elem_of_cons; [done|]. eauto.
      * intros b v id [?|Hin]%elem_of_cons Hid; [done|]. eauto.
    + split; [|done]. subst r. destruct deadline; auto.
    + intros j t' ph' buf' ret' Hj. assert (Hj' : exists ret0, s_txs s !! j = Some (TxProc t' ph' buf' ret0)).
      { destruct (decide (j = i)) as [->|Hne]; [|rewrite list_lookup_alter_ne in Hj by done; eauto].
        rewrite list_lookup_alter, H in Hj. injection Hj as <- <- <- <-. eauto. }
      destruct Hj' as [ret0 Hj']. destruct (TS j _ _ _ _ Hj') as [S1 S2]. split.
      * intros r' Hrr. destruct (S1 r' Hrr) as [?|(? & u & ?)]; [left; by right|right; split; [done|]; exists u; by right].
      * intros Hp. destruct (S2 Hp) as [u Hu]. exists u. by right.
Qed.

(** ** Absence of panics *)
Record Complete (s : sys) : Prop := {
  cm_fh : forall fh, fh ∈ s_fh s -> fh_lib fh <> None;
  cm_bc : forall b, b ∈ s_bc s -> b_header b <> None }.
Lemma Complete_step o s lab s' : complete_label lab -> Complete s -> Step o s lab s' -> Complete s'.
Proof.
  intros HW [C1 C2] H. destruct H; try (by split);
    match goal with |- Complete (do_effs ?l ?e ?x) => pose proof (do_effs_same l e x) as HS | _ => idtac end.
  - split; rewrite ?(se_fh _ _ _ HS), ?(se_bc _ _ _ HS); done.
  - split; rewrite ?(se_fh _ _ _ HS), ?(se_bc _ _ _ HS); done.
  - split; simpl; [|done]. intros fh' [?| ->%elem_of_list_singleton]%elem_of_app; eauto.
  - split; simpl; [|done]. intros fh' ?%elem_of_delete; eauto.
  - split; simpl; [|done]. intros fh' ?%elem_of_delete; eauto.
  - split; rewrite ?(se_fh _ _ _ HS), ?(se_bc _ _ _ HS); simpl; [|done]. intros fh' ?%elem_of_delete; eauto.
  - split; simpl; [done|]. intros fh' [?| ->%elem_of_list_singleton]%elem_of_app; eauto.
  - split; rewrite ?(se_fh _ _ _ HS), ?(se_bc _ _ _ HS); simpl; [done|]. intros fh' ?%elem_of_delete; eauto.
  - split; simpl; [done|]. intros fh' ?%elem_of_delete; eauto.
Qed.

Lemma no_panic_step o dur s lab s' : good_dur dur -> complete_label lab -> Libs s -> Acc s -> TxI dur s -> Complete s ->
  s_panic s = false -> Step o s lab s' -> s_panic s' = false.
Proof.
  intros Hd HW HL HA HT HC Hp H. destruct (s_panic s') eqn:Hp'; [exfalso|done].
  pose proof (handler_panic o s lab s' HL HA Hp H Hp') as Hlab.
  destruct (tx_adm _ _ HT) as (adm & [T1 _ _ _]).
  destruct H; try done; simpl in Hp'; try congruence; try (by simpl in HW).
  - (* fork heads without LIB *) eapply (cm_fh s HC fh); [by eapply elem_of_list_lookup_2|done].
  - (* fork heads *)
    assert (Hlt : (lib < two64)%N) by (eapply (lb_fh s HL fh); [by eapply elem_of_list_lookup_2|done]).
    assert (Hf : handled None (s_core s) core' effs).
    { eapply handle_fork_heads_handled; [apply HA|done| |apply HL|done]. unfold max_u64 in *. lia. }
    match type of Hp' with s_panic (do_effs _ _ ?x) = _ =>
      edestruct (acc_handler s x None []) as (_ & Hx & _); try done end.
    + right. eexists. split; [|done]. done.
    + rewrite Hx in Hp'. done.
  - (* broadcast *)
    match type of Hp' with s_panic (do_effs _ _ ?x) = _ =>
      edestruct (acc_handler s x None []) as (_ & Hx & _); try done end.
    + right. eexists. split; [|done]. done.
    + by eapply handle_broadcast_handled.
    + rewrite Hx in Hp'. done.
  - (* broadcast panic *)
    destruct H1 as [Hx|Hx].
    + unfold tx_check_block in Hx. destruct (check_rel dur (s_now s) (s_now s) (b_txs b) (s_cache s) adm Hd ltac:(lia) T1) as (c' & Hc & _). congruence.
    + eapply (cm_bc s HC b); [by eapply elem_of_list_lookup_2|done].
  - (* tx take *)
    destruct (check_rel dur (s_now s) (s_now s) [t] (s_cache s) adm Hd ltac:(lia) T1) as (c' & Hc & _). congruence.
Qed.
