From stdpp Require Import sorting.
From Verif Require Import GoBase Util Watchdog_Model Watchdog_Spec.

(** ** Purge is a filter *)
Lemma purge_loop_lookup lib hs t h :
  StronglySorted N.le hs -> (forall x, x ∈ hs -> is_Some (t !! x)) -> NoDup hs ->
  (is_Some (t !! h) -> h ∈ hs \/ (lib < h)%N) ->
  wd_purge_loop lib hs t !! h = if bool_decide (h <= lib)%N then None else t !! h.
Proof.
  revert t. induction hs as [|x hs IH]; intros t Hs Hin Hnd Hall; cbn [wd_purge_loop].
  - case_bool_decide as Hle; [|done]. destruct (t !! h) eqn:Ht; [|done].
    destruct (Hall ltac:(eauto)) as [Hx|Hx]; [set_solver|lia].
  - apply StronglySorted_inv in Hs as [Hs Hfa]. apply NoDup_cons in Hnd as [Hnx Hnd].
    destruct (bool_decide_reflect (x <= lib)%N) as [Hx|Hx].
    + rewrite IH; auto.
      * case_bool_decide; [done|]. apply lookup_delete_ne. intros ->. lia.
      * intros y Hy. rewrite lookup_delete_ne; [apply Hin; set_solver|]. intros ->. done.
      * intros [v Hv]. apply lookup_delete_Some in Hv as [Hne Hv].
        destruct (Hall ltac:(eauto)) as [Hy|Hy]; [|auto]. apply elem_of_cons in Hy as [->|Hy]; [done|auto].
    + case_bool_decide as Hle; [|done]. destruct (t !! h) eqn:Ht; [|done].
      destruct (Hall ltac:(eauto)) as [Hy|Hy]; [|lia].
      apply elem_of_cons in Hy as [->|Hy]; [lia|].
      rewrite Forall_forall in Hfa. specialize (Hfa h Hy). lia.
Qed.

Lemma purge_lookup t lib h :
  wd_purge t lib !! h = if bool_decide (h <= lib)%N then None else t !! h.
Proof.
  unfold wd_purge.
  assert (Hp := merge_sort_Permutation N.le (map fst (map_to_list t))).
  apply purge_loop_lookup.
  - apply StronglySorted_merge_sort; [apply _|]. intros x y. lia.
  - intros x Hx. rewrite Hp in Hx. apply elem_of_map in Hx as ([k v] & -> & Hkv).
    apply elem_of_map_to_list in Hkv. simpl. eauto.
  - rewrite Hp. apply NoDup_fst_map_to_list.
  - intros [v Hv]. left. rewrite Hp. apply elem_of_map. exists (h, v). split; [done|].
    apply elem_of_map_to_list. done.
Qed.

Definition ids_of (t : watchdog) h s p : gset string := default ∅ (default ∅ (t !! h) !! (s, p)).

Lemma ids_purge t lib h s p :
  ids_of (wd_purge t lib) h s p = if bool_decide (h <= lib)%N then ∅ else ids_of t h s p.
Proof. unfold ids_of. rewrite purge_lookup. case_bool_decide; [|done]. simpl. rewrite lookup_empty. done. Qed.

Lemma ids_add t b hd t' e h s p : b_header b = Some hd -> wd_add t b = Done (t', e) ->
  ids_of t' h s p =
  if bool_decide (h_height hd = h /\ str (h_signer hd) = s /\ str (h_previous hd) = p)
  then {[ str (b_id b) ]} ∪ ids_of t h s p else ids_of t h s p.
Proof.
  intros Hb Ha. unfold wd_add in Ha. rewrite Hb in Ha. injection Ha as <- _.
  unfold ids_of. destruct (decide (h_height hd = h)) as [<-|Hne].
  - rewrite lookup_insert. simpl.
    destruct (decide ((str (h_signer hd), str (h_previous hd)) = (s, p))) as [He|Hne].
    + injection He as <- <-. rewrite lookup_insert. simpl. rewrite bool_decide_eq_true_2; done.
    + rewrite lookup_insert_ne by done. rewrite bool_decide_eq_false_2; [done|].
      intros (_ & <- & <-). done.
  - rewrite lookup_insert_ne by done. rewrite bool_decide_eq_false_2; [done|]. intros (? & _). done.
Qed.

Lemma add_result t b hd t' e : b_header b = Some hd -> wd_add t b = Done (t', e) ->
  e = if bool_decide (3 < size (ids_of t' (h_height hd) (str (h_signer hd)) (str (h_previous hd))))
      then Some (ESent ErrForkBomb) else None.
Proof.
  intros Hb Ha. pose proof Ha as Ha2. unfold wd_add in Ha. rewrite Hb in Ha. injection Ha as <- <-.
  unfold ids_of. rewrite lookup_insert. simpl. rewrite lookup_insert. done.
Qed.

(** ** The tracker holds exactly the counted ids *)
Lemma counted_snoc_purge hist lib h s p id :
  counted (hist ++ [WPurge lib]) h s p id <-> counted hist h s p id /\ (lib < h)%N.
Proof.
  split.
  - intros (i & b & Hi & Hs & Hid & Hp). assert (Hlt : i < length hist).
    { apply lookup_lt_Some in Hi as Hl. rewrite app_length in Hl. simpl in Hl.
      destruct (decide (i = length hist)) as [->|]; [|lia].
      rewrite list_lookup_middle in Hi by done. done. }
    split.
    + exists i, b. rewrite lookup_app_l in Hi by done. split; [done|]. split; [done|]. split; [done|].
      intros j l Hj Hjl. apply (Hp j l Hj). apply lookup_app_l_Some. done.
    + apply (Hp (length hist) lib Hlt). apply list_lookup_middle. done.
  - intros [(i & b & Hi & Hs & Hid & Hp) Hlt]. exists i, b.
    split; [apply lookup_app_l_Some; done|]. split; [done|]. split; [done|].
    intros j l Hj Hjl. apply lookup_app_Some in Hjl as [Hjl|[Hle Hjl]]; [eauto|].
    apply list_lookup_singleton_Some in Hjl as [_ [= <-]]. done.
Qed.

Lemma counted_snoc_add hist b h s p id :
  counted (hist ++ [WAdd b]) h s p id <->
  counted hist h s p id \/ (is_sibling h s p b /\ str (b_id b) = id).
Proof.
  split.
  - intros (i & b' & Hi & Hs & Hid & Hp).
    apply lookup_app_Some in Hi as [Hi|[Hle Hi]].
    + left. exists i, b'. split; [done|]. split; [done|]. split; [done|].
      intros j l Hj Hjl. apply (Hp j l Hj). apply lookup_app_l_Some. done.
    + apply list_lookup_singleton_Some in Hi as [_ [= <-]]. auto.
  - intros [(i & b' & Hi & Hs & Hid & Hp)|[Hs Hid]].
    + exists i, b'. split; [apply lookup_app_l_Some; done|]. split; [done|]. split; [done|].
      intros j l Hj Hjl. apply lookup_app_Some in Hjl as [Hjl|[Hle Hjl]]; [eauto|].
      apply list_lookup_singleton_Some in Hjl as [_ ?]. done.
    + exists (length hist), b. split; [apply list_lookup_middle; done|]. split; [done|]. split; [done|].
      intros j l Hj Hjl. apply lookup_lt_Some in Hjl. rewrite app_length in Hjl. simpl in Hjl. lia.
Qed.

Lemma wd_run_app t ops1 ops2 :
  wd_run t (ops1 ++ ops2) =
  obind (wd_run t ops1) (fun '(t', es) => obind (wd_run t' ops2) (fun '(t'', es') => Done (t'', es ++ es'))).
Proof.
  revert t. induction ops1 as [|[b|lib] ops1 IH]; intros t; simpl.
  - destruct (wd_run t ops2) as [[? ?]|]; done.
  - destruct (wd_add t b) as [[t1 e]|]; simpl; [|done]. rewrite IH.
    destruct (wd_run t1 ops1) as [[t2 es]|]; simpl; [|done].
    destruct (wd_run t2 ops2) as [[? ?]|]; done.
  - apply IH.
Qed.

Lemma ids_counted hist t es : wd_run wd_new hist = Done (t, es) ->
  forall h s p id, id ∈ ids_of t h s p <-> counted hist h s p id.
Proof.
  revert t es. induction hist as [|o hist IH] using rev_ind; intros t es Hr h s p id.
  - simpl in Hr. injection Hr as <- <-. unfold ids_of, wd_new. rewrite lookup_empty. simpl.
    rewrite lookup_empty. simpl. split; [set_solver|]. intros (i & b & Hi & _). done.
  - rewrite wd_run_app in Hr. destruct (wd_run wd_new hist) as [[t1 es1]|]; [|done]. simpl in Hr.
    specialize (IH t1 es1 eq_refl). destruct o as [b|lib]; simpl in Hr.
    + destruct (wd_add t1 b) as [[t2 e2]|] eqn:Ha; [|done]. simpl in Hr. injection Hr as <- <-.
      destruct (b_header b) as [hd|] eqn:Hb; [|unfold wd_add in Ha; rewrite Hb in Ha; done].
      rewrite (ids_add _ _ _ _ _ h s p Hb Ha), counted_snoc_add, <- IH.
      unfold is_sibling. rewrite Hb. case_bool_decide as Hm.
      * rewrite elem_of_union, elem_of_singleton. split.
        { intros [->|?]; [right|auto]. split; [|done]. exists hd. tauto. }
        { intros [?|[_ <-]]; auto. }
      * split; [auto|]. intros [?|[(hd' & [= <-] & ?) _]]; [done|]. tauto.
    + injection Hr as <- <-. rewrite ids_purge, counted_snoc_purge, <- IH.
      case_bool_decide; [|split; [intros; split; [done|lia]|tauto]].
      split; [set_solver|lia].
Qed.

Lemma more_than_three_size (S : gset string) (P : string -> Prop) :
  (forall id, id ∈ S <-> P id) -> (3 < size S <-> more_than_three P).
Proof.
  intros HS. split.
  - intros Hsz. exists (elements S). split; [apply NoDup_elements|]. split; [exact Hsz|].
    intros id Hid. apply HS, elem_of_elements, Hid.
  - intros (ids & Hnd & Hlen & Hall). 
    assert (Hsub : list_to_set ids ⊆ S).
    { intros x Hx. apply elem_of_list_to_set in Hx. apply HS. auto. }
    apply subseteq_size in Hsub. rewrite size_list_to_set in Hsub by done. lia.
Qed.

Lemma add_exact hist t es b hd :
  wd_run wd_new hist = Done (t, es) -> b_header b = Some hd ->
  exists t' e, wd_add t b = Done (t', e) /\
  ((e = Some (ESent ErrForkBomb) /\
    more_than_three (counted (hist ++ [WAdd b]) (h_height hd) (str (h_signer hd)) (str (h_previous hd)))) \/
   (e = None /\
    ~ more_than_three (counted (hist ++ [WAdd b]) (h_height hd) (str (h_signer hd)) (str (h_previous hd))))).
Proof.
  intros Hr Hb. destruct (wd_add t b) as [[t' e]|] eqn:Ha.
  2: { unfold wd_add in Ha. rewrite Hb in Ha. done. }
  exists t', e. split; [done|].
  assert (Hr' : wd_run wd_new (hist ++ [WAdd b]) = Done (t', es ++ [e])).
  { rewrite wd_run_app, Hr. simpl. rewrite Ha. done. }
  pose proof (ids_counted _ _ _ Hr' (h_height hd) (str (h_signer hd)) (str (h_previous hd))) as Hc.
  apply more_than_three_size in Hc. rewrite <- Hc.
  rewrite (add_result _ _ _ _ _ Hb Ha). case_bool_decide; [left|right]; auto.
Qed.

Lemma run_ok hist t : (forall b, WAdd b ∈ hist -> b_header b <> None) ->
  exists t' es, wd_run t hist = Done (t', es).
Proof.
  revert t. induction hist as [|[b|lib] hist IH]; intros t Hall; simpl; [eauto| |].
  - unfold wd_add at 1. destruct (b_header b) eqn:Hb.
    2: { exfalso. apply (Hall b); [set_solver|done]. }
    simpl. edestruct IH as (t' & es & ->); [intros b' Hb'; apply Hall; set_solver|]. simpl. eauto.
  - apply IH. intros b' Hb'. apply Hall; set_solver.
Qed.

(** ** Purge makes the past below it unobservable *)
Definition cut (lib : N) (t : watchdog) : watchdog := filter (fun p => (lib < fst p)%N) t.

Lemma cut_lookup lib t h : cut lib t !! h = if bool_decide (h <= lib)%N then None else t !! h.
Proof.
  unfold cut. case_bool_decide as Hle.
  - apply map_filter_lookup_None. right. intros v _. simpl. lia.
  - destruct (t !! h) eqn:Ht.
    + apply map_filter_lookup_Some. split; [done|]. simpl. lia.
    + apply map_filter_lookup_None. auto.
Qed.
Lemma purge_cut lib t : wd_purge t lib = cut lib t.
Proof. apply map_eq. intros h. rewrite purge_lookup, cut_lookup. done. Qed.

Global Instance above_dec lib o : Decision (above lib o).
Proof. destruct o as [b|l]; simpl; [destruct (b_header b)|]; apply _. Defined.

Lemma cut_add lib t b hd t' e : b_header b = Some hd -> wd_add t b = Done (t', e) ->
  cut lib t' = (if bool_decide (lib < h_height hd)%N
                then match wd_add (cut lib t) b with Done (u, _) => u | Panic => ∅ end
                else cut lib t).
Proof.
  intros Hb Ha. unfold wd_add in *. rewrite Hb in *. injection Ha as <- <-.
  apply map_eq. intros h. rewrite cut_lookup.
  case_bool_decide as Hle; case_bool_decide as Hlt.
  - rewrite lookup_insert_ne by lia. rewrite cut_lookup, bool_decide_eq_true_2 by done. done.
  - rewrite cut_lookup, bool_decide_eq_true_2 by done. done.
  - destruct (decide (h = h_height hd)) as [->|Hne].
    + rewrite !lookup_insert, cut_lookup, bool_decide_eq_false_2 by done. done.
    + rewrite !lookup_insert_ne, cut_lookup, bool_decide_eq_false_2 by done. done.
  - rewrite lookup_insert_ne by lia. rewrite cut_lookup, bool_decide_eq_false_2 by done. done.
Qed.

Lemma cut_run lib hist : forall t t' es, wd_run t hist = Done (t', es) ->
  exists es', wd_run (cut lib t) (filter (above lib) hist) = Done (cut lib t', es').
Proof.
  induction hist as [|[b|l] hist IH]; intros t t' es Hr; simpl in Hr.
  - injection Hr as <- <-. exists []. done.
  - destruct (wd_add t b) as [[t1 e1]|] eqn:Ha; [|done]. simpl in Hr.
    destruct (wd_run t1 hist) as [[t2 es2]|] eqn:Hr1; [|done]. simpl in Hr. injection Hr as <- <-.
    destruct (IH _ _ _ Hr1) as (es' & He). clear IH.
    destruct (b_header b) as [hd|] eqn:Hb; [|unfold wd_add in Ha; rewrite Hb in Ha; done].
    rewrite (cut_add lib _ _ _ _ _ Hb Ha) in He. case_bool_decide as Hlt.
    + rewrite filter_cons_True by (simpl; rewrite Hb; done). simpl.
      destruct (wd_add (cut lib t) b) as [[u e]|] eqn:Hu.
      2: { unfold wd_add in Hu. rewrite Hb in Hu. done. }
      simpl. rewrite He. simpl. eauto.
    + rewrite filter_cons_False by (simpl; rewrite Hb; done). eauto.
  - rewrite filter_cons_True by done. simpl.
    destruct (IH _ _ _ Hr) as (es' & He). exists es'. rewrite <- He. f_equal.
    rewrite !purge_cut. apply map_eq. intros h. rewrite !cut_lookup.
    repeat case_bool_decide; done.
Qed.
