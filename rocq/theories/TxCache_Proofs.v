From stdpp Require Import sorting.
From Verif Require Import GoBase Util TxCache_Model TxCache_Spec.

Local Open Scope Z_scope.

Definition call_ids (txs : list transaction) : list string := map (fun t => str (t_id t)) txs.
Definition item_times (its : list tx_item) := map ti_time its.
Definition item_ids (its : list tx_item) := map ti_id its.

(** The duration is a non-negative int64 below its maximum. *)
Definition good_dur (dur : Z) : Prop := 0 <= dur < max_i64.

Lemma expired_iff now t dur : good_dur dur -> t <= now ->
  (time_sub now t > dur <-> now - t > dur).
Proof. unfold good_dur, time_sub, max_i64, min_i64. lia. Qed.

(** ** The invariant *)
Definition its_sorted (its : list tx_item) : Prop := StronglySorted Z.le (item_times its).

Record Rel (dur last : Z) (c : tx_cache) (adm : admissions) : Prop := {
  R_dur : tc_dur c = dur;
  R_sorted : its_sorted (tc_items c);
  R_old : forall it, it ∈ tc_items c -> ti_time it <= last;
  R_nodup : NoDup (item_ids (tc_items c));
  R_map : forall id, id ∈ tc_map c <-> id ∈ item_ids (tc_items c);
  R_adm : forall it, it ∈ tc_items c -> adm !! ti_id it = Some (ti_time it);
  R_forgot : forall id a, adm !! id = Some a ->
     TxItem id a ∈ tc_items c \/ last - a > dur;
  R_admold : forall id a, adm !! id = Some a -> a <= last;
}.

Lemma Rel_init dur last : Rel dur last (tx_new dur) ∅.
Proof.
  split; simpl; auto using NoDup_nil_2; try set_solver.
  - constructor.
Qed.

(** ** Pruning *)
Lemma prune_loop_map now dur its m n id :
  id ∈ fst (tx_prune_loop now dur its m n) <->
  id ∈ m /\ forall it, it ∈ its -> time_sub now (ti_time it) > dur -> ti_id it <> id.
Proof.
  revert m n. induction its as [|it its IH]; intros m n; simpl.
  - set_solver.
  - case_bool_decide as Hx; rewrite IH; set_solver.
Qed.

Lemma prune_loop_count now dur its m n :
  snd (tx_prune_loop now dur its m n) =
  (n + length (filter (fun it => (time_sub now (ti_time it) > dur)%Z) its))%nat.
Proof.
  revert m n. induction its as [|it its IH]; intros m n; simpl; [lia|].
  case_bool_decide as Hx; rewrite IH.
  - rewrite filter_cons_True by done. simpl. lia.
  - rewrite filter_cons_False by done. lia.
Qed.

Lemma sorted_prefix now dur its : good_dur dur -> its_sorted its ->
  (forall it, it ∈ its -> ti_time it <= now) ->
  drop (length (filter (fun it => time_sub now (ti_time it) > dur) its)) its =
  filter (fun it => ~ time_sub now (ti_time it) > dur) its.
Proof.
  intros Hd. induction its as [|it its IH]; intros Hs Hle; [done|].
  unfold its_sorted in Hs; simpl in Hs. inversion Hs as [|? ? Hs' Hall]; subst.
  destruct (decide (time_sub now (ti_time it) > dur)) as [Hx|Hx].
  - rewrite filter_cons_True by done.
    rewrite (filter_cons_False (fun it => ~ time_sub now (ti_time it) > dur)) by tauto.
    simpl. apply IH; [done|]. intros; apply Hle; set_solver.
  - assert (Hnone : filter (fun it => time_sub now (ti_time it) > dur) its = []).
    { apply elem_of_nil_inv. intros it' Hin'. apply elem_of_list_filter in Hin' as [Hx' Hin].
      apply Hx. rewrite expired_iff in Hx' |- *; auto; try (apply Hle; set_solver).
      rewrite Forall_forall in Hall.
      specialize (Hall (ti_time it')). unfold item_times in Hall.
      assert (ti_time it <= ti_time it') by (apply Hall, elem_of_map; eauto). lia. }
    rewrite filter_cons_False by done. rewrite Hnone. simpl.
    rewrite filter_cons_True by done. f_equal.
    symmetry. clear -Hnone. induction its as [|a its IH]; [done|].
    destruct (decide (time_sub now (ti_time a) > dur)) as [Hy|Hy].
    + rewrite filter_cons_True in Hnone by done. discriminate.
    + rewrite filter_cons_False in Hnone by done.
      rewrite filter_cons_True by done. f_equal. auto.
Qed.

Lemma sorted_filter (P : tx_item -> Prop) `{!forall x, Decision (P x)} its :
  its_sorted its -> its_sorted (filter P its).
Proof.
  unfold its_sorted. induction its as [|it its IH]; intros Hs; [constructor|].
  simpl in Hs. inversion Hs as [|? ? Hs' Hall]; subst.
  destruct (decide (P it)).
  - rewrite filter_cons_True by done. simpl. constructor; [auto|].
    rewrite Forall_forall in Hall |- *. intros x. unfold item_times.
    rewrite elem_of_map. intros (y & -> & Hy). apply elem_of_list_filter in Hy as [_ Hy].
    apply Hall. apply elem_of_map; eauto.
  - rewrite filter_cons_False by done. auto.
Qed.

Lemma nodup_filter_ids (P : tx_item -> Prop) `{!forall x, Decision (P x)} its :
  NoDup (item_ids its) -> NoDup (item_ids (filter P its)).
Proof.
  induction its as [|it its IH]; intros Hs; [done|].
  apply NoDup_cons in Hs as [Hn Hs].
  destruct (decide (P it)).
  - rewrite filter_cons_True by done. simpl. apply NoDup_cons. split; [|auto].
    intros Hin. apply Hn. apply elem_of_map in Hin. apply elem_of_map.
    destruct Hin as (y & -> & Hy). apply elem_of_list_filter in Hy as [_ Hy]. eauto.
  - rewrite filter_cons_False by done. auto.
Qed.

(** After pruning at [now]: exactly the recent admissions remain. *)
Record Rel_now (dur now : Z) (c : tx_cache) (adm : admissions) : Prop := {
  N_rel : Rel dur now c adm;
  N_recent : forall it, it ∈ tc_items c -> now - ti_time it <= dur;
}.

Lemma prune_rel dur last now c adm : good_dur dur -> last <= now ->
  Rel dur last c adm -> Rel_now dur now (tx_prune now c) adm.
Proof.
  intros Hd Hle H. unfold tx_prune.
  destruct (tx_prune_loop now (tc_dur c) (tc_items c) (tc_map c) 0) as [m n] eqn:Hp.
  assert (Hm := fun id => prune_loop_map now (tc_dur c) (tc_items c) (tc_map c) 0 id).
  assert (Hn := prune_loop_count now (tc_dur c) (tc_items c) (tc_map c) 0).
  rewrite Hp in Hm, Hn. simpl in Hm, Hn. rewrite (R_dur _ _ _ _ H) in *.
  assert (Hnow : forall it, it ∈ tc_items c -> ti_time it <= now).
  { intros it Hin. pose proof (R_old _ _ _ _ H it Hin). lia. }
  assert (Hitems : drop n (tc_items c) = filter (fun it => ~ time_sub now (ti_time it) > dur) (tc_items c)).
  { rewrite Hn. simpl. apply sorted_prefix; auto. apply (R_sorted _ _ _ _ H). }
  rewrite Hitems. clear Hitems Hn Hp n.
  split; [split|]; simpl.
  - done.
  - apply sorted_filter, (R_sorted _ _ _ _ H).
  - intros it Hin. apply elem_of_list_filter in Hin as [_ Hin]. auto.
  - apply nodup_filter_ids, (R_nodup _ _ _ _ H).
  - intros id. rewrite Hm, (R_map _ _ _ _ H). unfold item_ids.
    rewrite !elem_of_map. split.
    + intros [(it & -> & Hin) Hall]. exists it. split; [done|].
      apply elem_of_list_filter. split; [|done]. intros Hx. eapply Hall; eauto.
    + intros (it & -> & Hin). apply elem_of_list_filter in Hin as [Hx Hin].
      split; [eauto|]. intros it' Hin' Hx' Heq.
      pose proof (R_adm _ _ _ _ H it Hin) as Ha. pose proof (R_adm _ _ _ _ H it' Hin') as Hb.
      rewrite Heq in Hb. rewrite Ha in Hb. injection Hb as Hb. rewrite <- Hb in Hx'. done.
  - intros it Hin. apply elem_of_list_filter in Hin as [_ Hin]. apply (R_adm _ _ _ _ H); auto.
  - intros id a Ha. destruct (R_forgot _ _ _ _ H id a Ha) as [Hin|Hx]; [|right; lia].
    destruct (decide (time_sub now a > dur)) as [Hx|Hx].
    + right. apply (expired_iff now a dur) in Hx; auto.
      pose proof (R_admold _ _ _ _ H id a Ha). lia.
    + left. apply elem_of_list_filter. auto.
  - intros id a Ha. pose proof (R_admold _ _ _ _ H id a Ha). lia.
  - intros it Hin. apply elem_of_list_filter in Hin as [Hx Hin].
    destruct (Z_gt_le_dec (now - ti_time it) dur) as [Hg|Hg]; [|done]. exfalso. apply Hx, expired_iff; auto.
Qed.

Lemma map_recent dur now c adm id : Rel_now dur now c adm ->
  (id ∈ tc_map c <-> recent dur now adm id = true).
Proof.
  intros [H Hrec]. rewrite (R_map _ _ _ _ H). unfold recent, item_ids. rewrite elem_of_map. split.
  - intros (it & -> & Hin). rewrite (R_adm _ _ _ _ H it Hin). apply bool_decide_eq_true. auto.
  - destruct (adm !! id) as [a|] eqn:Ha; [|done]. intros Hx%bool_decide_eq_true.
    destruct (R_forgot _ _ _ _ H id a Ha) as [Hin|Hy]; [|lia].
    exists (TxItem id a). auto.
Qed.

Lemma add_rel dur now c adm id : good_dur dur -> Rel_now dur now c adm ->
  id ∉ tc_map c ->
  exists c', tx_add c (TxItem id now) = Done c' /\ Rel_now dur now c' (<[id := now]> adm).
Proof.
  intros Hd [H Hrec] Hnin. unfold tx_add. simpl.
  assert (Hlast : (match last (tc_items c) with Some l => bool_decide (now < ti_time l) | None => false end) = false).
  { destruct (last (tc_items c)) as [l|] eqn:Hl; [|done].
    apply bool_decide_eq_false. apply last_Some in Hl as [l' Hl].
    assert (l ∈ tc_items c) by (rewrite Hl; set_solver).
    pose proof (R_old _ _ _ _ H l). specialize (H1 H0). lia. }
  rewrite Hlast. eexists; split; [done|].
  assert (Hnid : id ∉ item_ids (tc_items c)) by (rewrite <- (R_map _ _ _ _ H); done).
  split; [split|]; simpl.
  - apply (R_dur _ _ _ _ H).
  - unfold its_sorted, item_times. rewrite map_app. simpl.
    pose proof (R_sorted _ _ _ _ H) as Hs. pose proof (R_old _ _ _ _ H) as Ho.
    unfold its_sorted, item_times in Hs. clear -Hs Ho.
    induction (tc_items c) as [|it its IH]; simpl; [repeat constructor|].
    simpl in Hs. inversion Hs as [|? ? Hs' Hall]; subst. constructor.
    + apply IH; auto. intros; apply Ho; set_solver.
    + apply Forall_app. split; [done|]. constructor; [|constructor]. apply Ho; set_solver.
  - intros it Hin. apply elem_of_app in Hin as [Hin|Hin].
    + apply (R_old _ _ _ _ H); auto.
    + apply elem_of_list_singleton in Hin as ->. simpl. lia.
  - unfold item_ids. rewrite map_app. apply NoDup_app. split; [apply (R_nodup _ _ _ _ H)|].
    split; [|apply NoDup_singleton]. simpl. intros x Hx. set_solver.
  - intros x. unfold item_ids. rewrite map_app. simpl. rewrite elem_of_app.
    pose proof (R_map _ _ _ _ H x). unfold item_ids in *. set_solver.
  - intros it Hin. apply elem_of_app in Hin as [Hin|Hin].
    + rewrite lookup_insert_ne; [apply (R_adm _ _ _ _ H); auto|].
      intros ->. apply Hnid. unfold item_ids. apply elem_of_map. eauto.
    + apply elem_of_list_singleton in Hin as ->. simpl. apply lookup_insert.
  - intros x a Ha. destruct (decide (x = id)) as [->|Hne].
    + rewrite lookup_insert in Ha. injection Ha as <-. left. set_solver.
    + rewrite lookup_insert_ne in Ha by done.
      destruct (R_forgot _ _ _ _ H x a Ha); [left; set_solver|right; done].
  - intros x a Ha. destruct (decide (x = id)) as [->|Hne].
    + rewrite lookup_insert in Ha. injection Ha as <-. lia.
    + rewrite lookup_insert_ne in Ha by done. apply (R_admold _ _ _ _ H x a Ha).
  - intros it Hin. apply elem_of_app in Hin as [Hin|Hin]; [auto|].
    apply elem_of_list_singleton in Hin as ->. simpl. destruct Hd. lia.
Qed.

Lemma check_loop_rel dur now ids : good_dur dur -> forall c adm n,
  Rel_now dur now c adm ->
  exists c', tx_check_loop now ids c n = Done (c', (n + snd (spec_check dur now ids adm))%nat) /\
     Rel_now dur now c' (fst (spec_check dur now ids adm)).
Proof.
  intros Hd. induction ids as [|id ids IH]; intros c adm n H; simpl.
  - exists c. rewrite Nat.add_0_r. auto.
  - destruct (recent dur now adm id) eqn:Hr.
    + apply (map_recent _ _ _ _ _ H) in Hr. rewrite bool_decide_eq_true_2 by done.
      destruct (IH c adm (S n) H) as (c' & Hc & HR). exists c'.
      destruct (spec_check dur now ids adm) as [adm' k]. simpl in *.
      rewrite Hc. split; [do 2 f_equal; lia|done].
    + assert (Hn : id ∉ tc_map c).
      { intros Hin. apply (map_recent _ _ _ _ _ H) in Hin. congruence. }
      rewrite bool_decide_eq_false_2 by done.
      destruct (add_rel dur now c adm id Hd H Hn) as (c1 & Ha & HR1). rewrite Ha. simpl.
      apply IH. done.
Qed.

Lemma check_rel dur last now txs c adm : good_dur dur -> last <= now ->
  Rel dur last c adm ->
  exists c', tx_check now txs c = Done (c', snd (spec_check dur now (call_ids txs) adm)) /\
     Rel_now dur now c' (fst (spec_check dur now (call_ids txs) adm)).
Proof.
  intros Hd Hle H. unfold tx_check.
  destruct (check_loop_rel dur now (call_ids txs) Hd (tx_prune now c) adm 0) as (c' & Hc & HR).
  - eapply prune_rel; eauto.
  - exists c'. simpl in Hc. auto.
Qed.

Definition mono_from {A} (last : Z) (calls : list (Z * A)) : Prop :=
  clock_monotone calls /\ forall t x, head calls = Some (t, x) -> last <= t.

Lemma mono_cons {A} last now (txs : A) calls :
  mono_from last ((now, txs) :: calls) -> last <= now /\ mono_from now calls.
Proof.
  intros [Hm Hh]. split; [eapply Hh; simpl; eauto|]. split.
  - intros i j t u x y Hij Hi Hj. apply (Hm (S i) (S j) t u x y); simpl; auto; lia.
  - intros t x Hx. destruct calls as [|c calls]; [done|]. simpl in Hx. injection Hx as ->.
    apply (Hm 0%nat 1%nat now t txs x); simpl; auto.
Qed.

(** Executable state after a history, for the state-level statements. *)
Lemma run_rel dur calls : good_dur dur -> forall last c adm,
  Rel dur last c adm -> mono_from last calls ->
  exists c', tx_run calls c = Done (c', spec_results dur (map (fun '(t, x) => (t, call_ids x)) calls) adm).
Proof.
  intros Hd. induction calls as [|[now txs] calls IH]; intros last c adm H Hm; simpl.
  - eauto.
  - apply mono_cons in Hm as [Hle Hm].
    destruct (check_rel dur last now txs c adm Hd Hle H) as (c1 & Hc & HR).
    rewrite Hc. simpl. destruct (IH now c1 _ (N_rel _ _ _ _ HR) Hm) as (c2 & Hr).
    rewrite Hr. simpl. exists c2.
    destruct (spec_check dur now (call_ids txs) adm) as [adm' n]. done.
Qed.

Lemma tx_run_snoc calls now txs c c' ns :
  tx_run calls c = Done (c', ns) ->
  tx_run (calls ++ [(now, txs)]) c =
  obind (tx_check now txs c') (fun '(c'', n) => Done (c'', ns ++ [n])).
Proof.
  revert c ns. induction calls as [|[t x] calls IH]; intros c ns H; simpl in *.
  - injection H as <- <-. destruct (tx_check now txs c) as [[? ?]|]; done.
  - destruct (tx_check t x c) as [[c1 n1]|]; [|done]. simpl in *.
    destruct (tx_run calls c1) as [[c2 ns2]|] eqn:Hr; [|done]. simpl in H. injection H as -> <-.
    rewrite (IH _ _ Hr). destruct (tx_check now txs c') as [[? ?]|]; done.
Qed.

Lemma mono_weaken dur (calls : list tx_call) : clock_monotone calls ->
  exists last, Rel dur last (tx_new dur) ∅ /\ mono_from last calls.
Proof.
  intros Hm. destruct calls as [|[t x] calls].
  - exists 0. split; [apply Rel_init|]. split; [done|]. done.
  - exists t. split; [apply Rel_init|]. split; [done|]. intros u y Hu. simpl in Hu. injection Hu as ->. done.
Qed.

Lemma tx_refines dur calls : good_dur dur -> clock_monotone calls ->
  exists c', tx_run calls (tx_new dur) =
     Done (c', spec_results dur (map (fun '(t, x) => (t, map (fun tx => str (t_id tx)) x)) calls) ∅).
Proof.
  intros Hd Hm. destruct (mono_weaken dur calls Hm) as (last & HR & Hmf).
  destruct (run_rel dur calls Hd last _ _ HR Hmf) as (c' & Hc). exists c'. exact Hc.
Qed.

(** ** State invariant at every reachable state *)
Definition cache_ok (now : Z) (c : tx_cache) : Prop :=
  NoDup (map ti_id (tc_items c)) /\
  (forall id, id ∈ tc_map c <-> exists it, it ∈ tc_items c /\ ti_id it = id) /\
  (forall it, it ∈ tc_items c -> ti_time it <= now <= ti_time it + tc_dur c).

Lemma Rel_now_ok dur now c adm : Rel_now dur now c adm -> cache_ok now c.
Proof.
  intros [H Hr]. split; [apply (R_nodup _ _ _ _ H)|]. split.
  - intros id. rewrite (R_map _ _ _ _ H). unfold item_ids. rewrite elem_of_map. firstorder.
  - intros it Hin. rewrite (R_dur _ _ _ _ H). pose proof (R_old _ _ _ _ H it Hin).
    pose proof (Hr it Hin). lia.
Qed.

Lemma run_rel_state dur calls : good_dur dur -> forall last c adm c' ns,
  Rel dur last c adm -> mono_from last calls -> tx_run calls c = Done (c', ns) -> calls <> [] ->
  exists now txs adm', List.last calls (0, []) = (now, txs) /\ Rel_now dur now c' adm'.
Proof.
  intros Hd. induction calls as [|[now txs] calls IH]; intros last c adm c' ns H Hm Hr Hne; [done|].
  apply mono_cons in Hm as [Hle Hm].
  destruct (check_rel dur last now txs c adm Hd Hle H) as (c1 & Hc & HR).
  simpl in Hr. rewrite Hc in Hr. simpl in Hr.
  destruct (tx_run calls c1) as [[c2 ns2]|] eqn:Hr2; [|done]. simpl in Hr. injection Hr as <- <-.
  destruct calls as [|c3 calls].
  - simpl in *. injection Hr2 as <- <-. eauto 6.
  - destruct (IH now c1 _ c2 ns2 (N_rel _ _ _ _ HR) Hm Hr2) as (n' & t' & a' & Hl & HR'); [done|].
    exists n', t', a'. split; [|done]. exact Hl.
Qed.

Lemma tx_state_ok dur calls c' ns : good_dur dur -> clock_monotone calls ->
  tx_run calls (tx_new dur) = Done (c', ns) -> calls <> [] ->
  cache_ok (fst (List.last calls (0, []))) c'.
Proof.
  intros Hd Hm Hr Hne. destruct (mono_weaken dur calls Hm) as (last & HR & Hmf).
  destruct (run_rel_state dur calls Hd last _ _ c' ns HR Hmf Hr Hne) as (now & txs & adm' & Hl & HR').
  rewrite Hl. simpl. eapply Rel_now_ok; eauto.
Qed.

(** ** Histories: verdicts per call *)
Lemma spec_check_zero dur now ids adm :
  snd (spec_check dur now ids adm) = 0%nat ->
  forall id, id ∈ ids -> recent dur now adm id = false /\
     fst (spec_check dur now ids adm) !! id = Some now.
Proof.
  intros H. assert (Hgen : forall ids adm, snd (spec_check dur now ids adm) = 0%nat ->
    (forall id, id ∈ ids -> recent dur now adm id = false) /\
    (forall id, fst (spec_check dur now ids adm) !! id =
       if bool_decide (id ∈ ids) then Some now else adm !! id)).
  { clear. induction ids as [|x ids IH]; intros adm H; simpl in *.
    - split; [set_solver|]. done.
    - destruct (recent dur now adm x) eqn:Hr.
      + destruct (spec_check dur now ids adm); simpl in *; lia.
      + destruct (IH _ H) as [H1 H2]. split.
        * intros id Hin. apply elem_of_cons in Hin as [->|Hin]; [done|].
          specialize (H1 id Hin). unfold recent in H1.
          destruct (decide (id = x)) as [->|Hne]; [done|].
          rewrite lookup_insert_ne in H1 by done. exact H1.
        * intros id. rewrite H2. case_bool_decide as Hin.
          { rewrite bool_decide_eq_true_2 by set_solver. done. }
          destruct (decide (id = x)) as [->|Hne].
          { rewrite bool_decide_eq_true_2 by set_solver. apply lookup_insert. }
          { rewrite bool_decide_eq_false_2 by set_solver. apply lookup_insert_ne; done. } }
  destruct (Hgen ids adm H) as [H1 H2]. intros id Hin. split; [auto|].
  rewrite H2, bool_decide_eq_true_2 by done. done.
Qed.

Lemma spec_check_mono dur now ids adm id a :
  0 <= dur -> adm !! id = Some a -> a <= now ->
  exists a', fst (spec_check dur now ids adm) !! id = Some a' /\ a <= a' <= now.
Proof.
  intros Hd. revert adm a. induction ids as [|x ids IH]; intros adm a Ha Hle; simpl.
  - exists a. split; [done|lia].
  - destruct (recent dur now adm x) eqn:Hr.
    + destruct (IH adm a Ha Hle) as (a' & H1 & H2). exists a'.
      destruct (spec_check dur now ids adm). auto.
    + destruct (decide (id = x)) as [->|Hne].
      * destruct (IH (<[x:=now]> adm) now) as (a' & H1 & H2); [apply lookup_insert|lia|].
        exists a'. split; [done|lia].
      * destruct (IH (<[x:=now]> adm) a) as (a' & H1 & H2); [rewrite lookup_insert_ne; done|done|].
        exists a'. split; [done|lia].
Qed.

(** If an id has an admission at [a], a later zero-count call containing it is more than dur later. *)
Lemma spec_later dur calls : 0 <= dur -> forall last adm id a j now ids,
  adm !! id = Some a -> a <= last -> mono_from last calls ->
  calls !! j = Some (now, ids) -> id ∈ ids ->
  spec_results dur calls adm !! j = Some 0%nat -> now - a > dur.
Proof.
  intros Hd. induction calls as [|[t x] calls IH]; intros last adm id a j now ids Ha Hle Hm Hj Hin Hz; [done|].
  apply mono_cons in Hm as [Hle' Hm].
  simpl in Hz. destruct (spec_check dur t x adm) as [adm' n] eqn:Hs.
  destruct j as [|j]; simpl in *.
  - injection Hj as -> ->. injection Hz as ->.
    destruct (spec_check_zero dur now ids adm) with (id := id) as [Hr _]; [rewrite Hs; done|done|].
    unfold recent in Hr. rewrite Ha in Hr. apply bool_decide_eq_false in Hr. lia.
  - destruct (spec_check_mono dur t x adm id a Hd Ha) as (a' & H1 & H2); [lia|].
    rewrite Hs in H1. simpl in H1.
    pose proof (IH t adm' id a' j now ids H1 ltac:(lia) Hm Hj Hin Hz). lia.
Qed.

Lemma spec_two_zeros dur calls : 0 <= dur -> forall last adm id i j ti tj xi xj,
  mono_from last calls -> (i < j)%nat ->
  calls !! i = Some (ti, xi) -> calls !! j = Some (tj, xj) -> id ∈ xi -> id ∈ xj ->
  spec_results dur calls adm !! i = Some 0%nat -> spec_results dur calls adm !! j = Some 0%nat ->
  tj - ti > dur.
Proof.
  intros Hd. induction calls as [|[t x] calls IH]; intros last adm id i j ti tj xi xj Hm Hij Hi Hj Hini Hinj Hzi Hzj; [done|].
  apply mono_cons in Hm as [Hle' Hm].
  simpl in Hzi, Hzj. destruct (spec_check dur t x adm) as [adm' n] eqn:Hs.
  destruct j as [|j]; [lia|]. simpl in Hj, Hzj. destruct i as [|i]; simpl in Hi, Hzi.
  - injection Hi as -> ->. injection Hzi as ->.
    destruct (spec_check_zero dur ti xi adm) with (id := id) as [_ Ha]; [rewrite Hs; done|done|].
    rewrite Hs in Ha. simpl in Ha.
    eapply (spec_later dur calls Hd ti adm' id ti j); eauto. lia.
  - eapply (IH t adm' id i j); eauto. lia.
Qed.

(** Every admission in [fst (spec_check ...)] is an old one or was made by this call. *)
Lemma spec_check_origin dur now ids adm id a :
  fst (spec_check dur now ids adm) !! id = Some a ->
  adm !! id = Some a \/ (id ∈ ids /\ a = now).
Proof.
  revert adm. induction ids as [|x ids IH]; intros adm H; simpl in *; [auto|].
  destruct (recent dur now adm x).
  - destruct (spec_check dur now ids adm) as [adm' n] eqn:Hs. simpl in H.
    specialize (IH adm). rewrite Hs in IH. destruct (IH H) as [?|[? ?]]; [auto|]. right. set_solver.
  - destruct (IH _ H) as [Ha|[? ?]]; [|right; set_solver].
    destruct (decide (id = x)) as [->|Hne].
    + rewrite lookup_insert in Ha. injection Ha as <-. right. set_solver.
    + rewrite lookup_insert_ne in Ha by done. auto.
Qed.

(** Histories of single observations: a duplicate verdict iff some new verdict is recent. *)
Lemma spec_dup_justified dur calls : forall adm j tj id,
  calls !! j = Some (tj, [id]) -> spec_results dur calls adm !! j = Some 1%nat ->
  (exists a, adm !! id = Some a /\ tj - a <= dur) \/
  (exists i ti xi, (i < j)%nat /\ calls !! i = Some (ti, xi) /\ id ∈ xi /\ tj - ti <= dur).
Proof.
  induction calls as [|[t x] calls IH]; intros adm j tj id Hj Hr; [done|].
  simpl in Hr. destruct (spec_check dur t x adm) as [adm' n] eqn:Hs.
  destruct j as [|j]; simpl in *.
  - injection Hj as -> ->. injection Hr as ->. simpl in Hs.
    unfold recent in Hs. destruct (adm !! id) as [a|] eqn:Ha; [|congruence].
    case_bool_decide; [|congruence]. left. eauto.
  - destruct (IH adm' j tj id Hj Hr) as [(a & Ha & Hle)|(i & ti & xi & Hi & H1 & H2 & H3)].
    + pose proof (spec_check_origin dur t x adm id a) as Ho. rewrite Hs in Ho.
      destruct (Ho Ha) as [?|[? ->]]; [left; eauto|]. right. exists 0%nat, t, x.
      split; [lia|]. auto.
    + right. exists (S i), ti, xi. split; [lia|]. auto.
Qed.

Lemma spec_dup_justified_single dur calls : forall adm j tj id,
  (forall i t x, calls !! i = Some (t, x) -> exists y, x = [y]) ->
  calls !! j = Some (tj, [id]) -> spec_results dur calls adm !! j = Some 1%nat ->
  (exists a, adm !! id = Some a /\ tj - a <= dur) \/
  (exists i ti, (i < j)%nat /\ calls !! i = Some (ti, [id]) /\
     spec_results dur calls adm !! i = Some 0%nat /\ tj - ti <= dur).
Proof.
  induction calls as [|[t x] calls IH]; intros adm j tj id Hone Hj Hr; [done|].
  simpl in Hr |- *. destruct (spec_check dur t x adm) as [adm' n] eqn:Hs.
  destruct j as [|j]; simpl in *.
  - injection Hj as -> ->. injection Hr as ->. simpl in Hs.
    unfold recent in Hs. destruct (adm !! id) as [a|] eqn:Ha; [|congruence].
    case_bool_decide; [|congruence]. left. eauto.
  - destruct (IH adm' j tj id) as [(a & Ha & Hle)|(i & ti & Hi & H1 & H2 & H3)]; auto.
    { intros i u y Hi. apply (Hone (S i) u y Hi). }
    + destruct (Hone 0%nat t x eq_refl) as [y ->]. simpl in Hs.
      destruct (recent dur t adm y) eqn:Hrec.
      * injection Hs as <- <-. left. eauto.
      * injection Hs as <- <-. destruct (decide (id = y)) as [->|Hne].
        { rewrite lookup_insert in Ha. injection Ha as <-. right. exists 0%nat, t. split; [lia|]. auto. }
        { rewrite lookup_insert_ne in Ha by done. left. eauto. }
    + right. exists (S i), ti. split; [lia|]. auto.
Qed.
