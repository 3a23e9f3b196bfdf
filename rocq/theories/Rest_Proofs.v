(** Proofs: the applicator left alone comes to rest. *)
From Verif Require Import GoBase Util TxCache_Model TxCache_Spec TxCache_Proofs Watchdog_Model
  Applicator_Model Applicator_Spec Applicator_Core Applicator_Sys Applicator_Inv Applicator_Inv2 Applicator_Inv3 Applicator_Inv4
  Applicator_Inv5 Applicator_Inv6 Applicator_Inv7 Deliver_Spec Rest_Spec.

(** ** Lexicographic order *)
Definition lex {A B} (R : A -> A -> Prop) (S : B -> B -> Prop) (p q : A * B) : Prop := R (fst p) (fst q) \/ (fst p = fst q /\ S (snd p) (snd q)).
Lemma lex_wf {A B} (R : A -> A -> Prop) (S : B -> B -> Prop) : well_founded R -> well_founded S -> well_founded (lex R S).
Proof.
  intros HR HS [x y]. revert y. induction (HR x) as [x _ IHx]. intros y. induction (HS y) as [y _ IHy].
  constructor. intros [x' y'] [H|[H1 H2]]; simpl in *; [by apply IHx|subst x'; by apply IHy].
Qed.
Lemma lex_trans {A B} (R : A -> A -> Prop) (S : B -> B -> Prop) : Transitive R -> Transitive S -> Transitive (lex R S).
Proof.
  intros HR HS [x1 y1] [x2 y2] [x3 y3] [H1|[H1 H1']] [H2|[H2 H2']]; simpl in *; subst; unfold lex; simpl.
  - left. by eapply HR. - by left. - by left. - right. split; [done|]. by eapply HS.
Qed.

(** ** Sums over lists *)
Notation sum := sum_list_with.
Lemma sum_alter {A} (f : A -> nat) (g : A -> A) (l : list A) i x : l !! i = Some x -> sum f (alter g i l) + f x = sum f l + f (g x).
Proof.
  revert i. induction l as [|y l IH]; intros [|i] Hi; try done.
  - injection Hi as ->. change (alter g 0 (x :: l)) with (g x :: l). simpl. lia.
  - change (alter g (S i) (y :: l)) with (y :: alter g i l). simpl. specialize (IH i Hi). lia.
Qed.
Lemma sum_insert {A} (f : A -> nat) (l : list A) i x y : l !! i = Some x -> sum f (<[i := y]> l) + f x = sum f l + f y.
Proof.
  revert i. induction l as [|z l IH]; intros [|i] Hi; try done.
  - injection Hi as ->. simpl. lia.
  - simpl. specialize (IH i Hi). lia.
Qed.
Lemma sum_delete {A} (f : A -> nat) (l : list A) i x : l !! i = Some x -> sum f (delete i l) + f x = sum f l.
Proof.
  revert i. induction l as [|z l IH]; intros [|i] Hi; try done.
  - injection Hi as ->. change (delete 0 (x :: l)) with l. simpl. lia.
  - change (delete (S i) (z :: l)) with (z :: delete i l). simpl. specialize (IH i Hi). lia.
Qed.
Lemma len_delete {A} (l : list A) i x : l !! i = Some x -> length (delete i l) + 1 = length l.
Proof.
  revert i. induction l as [|z l IH]; intros [|i] Hi; try done.
  - change (delete 0 (z :: l)) with l. simpl. lia.
  - change (delete (S i) (z :: l)) with (z :: delete i l). simpl. specialize (IH i Hi). lia.
Qed.
Lemma sum_ext {A} (f g : A -> nat) (l : list A) : (forall x, x ∈ l -> f x = g x) -> sum f l = sum g l.
Proof. induction l as [|z l IH]; intros H; [done|]. simpl. rewrite (H z) by left. rewrite IH; [done|]. intros x Hx. apply H. by right. Qed.
Lemma sum_zero {A} (f : A -> nat) (l : list A) : (forall x, x ∈ l -> f x = 0) -> sum f l = 0.
Proof. induction l as [|z l IH]; intros H; [done|]. simpl. rewrite (H z) by left. rewrite IH; [done|]. intros x Hx. apply H. by right. Qed.

(** ** The rank of a state *)
Definition b2n (b : bool) : nat := if b then 1 else 0.
Definition is_send (cl : call) : bool := match cl_phase cl with CSend => true | _ => false end.
Definition is_wait (cl : call) : bool := match cl_phase cl with CWait => true | _ => false end.
(** Requests and live attempts at blocks whose id satisfies [P]. *)
Definition work (P : string -> bool) (s : sys) : nat :=
  sum (fun x => b2n (P (k_id (fst (fst x))))) (s_try s) + sum (fun a => b2n (at_live a && P (k_id (at_blk a)))) (s_att s).
Definition in_pool (s : sys) (id : string) : bool := bool_decide (id ∈ held_ids s).
Definition again (a : attempt) : bool := match at_phase a with PStatus r => is_err_opt r ErrBlockState | _ => false end.
Definition phase_rank (a : attempt) : nat :=
  match at_phase a with PStart => 5 | PDelay _ _ => 4 | PQueued => 3 | PChecked _ => 2 | PRpc => 1 | PStatus _ | PDone => 0 end.
Definition tx_rank (p : tx_proc) : nat :=
  match tp_phase p with TSend => 3 | TQueued => 2 | TRpc => 1 | TServed => 0 end + match tp_ret p with None => 1 | Some _ => 0 end.
Definition small_rank (s : sys) : nat :=
  6 * length (s_try s) + sum phase_rank (s_att s) + sum tx_rank (s_txs s) + sum (fun cl => b2n (is_wait cl)) (s_calls s).
Definition rank (s : sys) :=
  (sum (fun cl => b2n (is_send cl)) (s_calls s), (length (s_new s), (length (s_fh s), (length (s_bc s),
    (size (c_byid (s_core s)), (work (fun id => negb (in_pool s id)) s, (work (in_pool s) s, (sum (fun a => b2n (again a)) (s_att s), small_rank s)))))))).
Definition rlt := lex lt (lex lt (lex lt (lex lt (lex lt (lex lt (lex lt (lex lt lt))))))).
Lemma rlt_wf : well_founded rlt.
Proof. repeat apply lex_wf; apply lt_wf. Qed.
Lemma rlt_trans x y z : rlt x y -> rlt y z -> rlt x z.
Proof.
  assert (Hl : Transitive lt) by (intros ? ? ?; lia).
  assert (Ht : Transitive rlt) by (unfold rlt; repeat (apply lex_trans; [done|]); done). apply Ht.
Qed.

(** Which component decreases. *)
Definition pool_size (s : sys) : nat := size (c_byid (s_core s)).
Definition sends (s : sys) : nat := sum (fun cl => b2n (is_send cl)) (s_calls s).
Lemma rlt_cases s' s :
  sends s' < sends s \/ (sends s' = sends s /\ (length (s_new s') < length (s_new s) \/ (s_new s' = s_new s /\
   (length (s_fh s') < length (s_fh s) \/ (s_fh s' = s_fh s /\ (length (s_bc s') < length (s_bc s) \/ (s_bc s' = s_bc s /\
    (pool_size s' < pool_size s \/ (c_byid (s_core s') = c_byid (s_core s) /\
      (work (fun id => negb (in_pool s id)) s' < work (fun id => negb (in_pool s id)) s \/
       (work (fun id => negb (in_pool s id)) s' = work (fun id => negb (in_pool s id)) s /\
        (work (in_pool s) s' < work (in_pool s) s \/ (work (in_pool s) s' = work (in_pool s) s /\
          (sum (fun a => b2n (again a)) (s_att s') < sum (fun a => b2n (again a)) (s_att s) \/
           (sum (fun a => b2n (again a)) (s_att s') = sum (fun a => b2n (again a)) (s_att s) /\ small_rank s' < small_rank s)))))))))))))))
  -> rlt (rank s') (rank s).
Proof.
  unfold rlt, rank, lex. cbn [fst snd]. unfold sends, pool_size.
  intros [?|[? [?|[E1 [?|[E2 [?|[E3 [?|[E4 H]]]]]]]]]]; [by left|..]; right; (split; [done|]).
  - by left.
  - right. split; [by rewrite E1|]. by left.
  - right. split; [by rewrite E1|]. right. split; [by rewrite E2|]. by left.
  - right. split; [by rewrite E1|]. right. split; [by rewrite E2|]. right. split; [by rewrite E3|]. by left.
  - right. split; [by rewrite E1|]. right. split; [by rewrite E2|]. right. split; [by rewrite E3|]. right. split; [by rewrite E4|].
    assert (Hp : in_pool s' = in_pool s) by (unfold in_pool, held_ids; by rewrite E4). rewrite Hp. exact H.
Qed.
(** The pool, the queues and the calls are as before. *)
Record quiet (s s' : sys) : Prop := {
  q_calls : sends s' = sends s; q_new : s_new s' = s_new s; q_fh : s_fh s' = s_fh s; q_bc : s_bc s' = s_bc s;
  q_byid : c_byid (s_core s') = c_byid (s_core s) }.
Lemma rlt_small s s' : quiet s s' -> (forall P, work P s' = work P s) ->
  sum (fun a => b2n (again a)) (s_att s') = sum (fun a => b2n (again a)) (s_att s) -> small_rank s' < small_rank s -> rlt (rank s') (rank s).
Proof. intros [] Hw Ha Hs. apply rlt_cases. right. split; [done|]. do 4 (right; split; [done|]). right. split; [done|]. right. split; [done|]. right. done. Qed.
(** One request or attempt less. *)
Lemma rlt_item s s' (id : string) : quiet s s' -> (forall P, work P s' + b2n (P id) = work P s) -> rlt (rank s') (rank s).
Proof.
  intros [] Hw. apply rlt_cases. right. split; [done|]. do 4 (right; split; [done|]).
  pose proof (Hw (in_pool s)) as H1. pose proof (Hw (fun id => negb (in_pool s id))) as H2. cbv beta in H2.
  destruct (in_pool s id); cbn [negb b2n] in *; [right; split; [lia|left; lia]|left; lia].
Qed.
Lemma sends_effs lose effs s : sends (do_effs lose effs s) = sends s.
Proof.
  pose proof (do_effs_same lose effs s) as HS. unfold sends.
  assert (E : map cl_phase (s_calls (do_effs lose effs s)) = map cl_phase (s_calls s)).
  { apply list_eq_same_length with (length (s_calls s)); [by rewrite map_length, ?(se_len _ _ _ HS)..|].
    intros i x y _ Hx Hy. rewrite list_lookup_fmap in Hx, Hy.
    destruct (s_calls (do_effs lose effs s) !! i) as [cl'|] eqn:H1; [|done]. destruct (se_blk _ _ _ HS _ _ H1) as (cl & H2 & _ & Hp).
    rewrite H2 in Hy. simpl in Hx, Hy. congruence. }
  assert (Hm : forall l, sum (fun cl => b2n (is_send cl)) l = sum (fun p => b2n (match p with CSend => true | _ => false end)) (map cl_phase l)).
  { induction l as [|? ? IH]; [done|]. simpl. by rewrite IH. }
  by rewrite !Hm, E.
Qed.
Lemma work_phase P i p s a : s_att s !! i = Some a -> work P (set_phase i p s) + b2n (at_live a && P (k_id (at_blk a))) = work P s + b2n (at_live (Attempt (at_blk a) p) && P (k_id (at_blk a))).
Proof.
  intros Hi. unfold work, set_phase. cbn [s_att s_try set_att].
  pose proof (sum_alter (fun a => b2n (at_live a && P (k_id (at_blk a)))) (fun a => Attempt (at_blk a) p) (s_att s) i a Hi) as H. cbn [at_blk] in H. lia.
Qed.
(** A phase nearer to the end. *)
Lemma rlt_phase s i k p p' x : s_att s !! i = Some (Attempt k p) -> p <> PDone -> p' <> PDone -> again (Attempt k p) = again (Attempt k p') -> phase_rank (Attempt k p') < phase_rank (Attempt k p) ->
  x = set_phase i p' s \/ (exists e, x = add_log e (set_phase i p' s)) -> rlt (rank x) (rank s).
Proof.
  intros Hi Hp Hp' Ha Hr Hx.
  assert (H : rlt (rank (set_phase i p' s)) (rank s)).
  { apply rlt_small; [by split|..].
    - intros P. pose proof (work_phase P i p' s _ Hi) as Hw. assert (at_live (Attempt k p) = true) by (by destruct p). assert (at_live (Attempt k p') = true) by (by destruct p').
      cbn [at_blk] in Hw. rewrite H, H0 in Hw. lia.
    - pose proof (sum_alter (fun a => b2n (again a)) (fun a => Attempt (at_blk a) p') (s_att s) i _ Hi) as Hw. cbn [at_blk] in Hw. rewrite Ha in Hw. unfold set_phase. cbn [s_att set_att]. lia.
    - pose proof (sum_alter phase_rank (fun a => Attempt (at_blk a) p') (s_att s) i _ Hi) as Hw. cbn [at_blk] in Hw. unfold small_rank, set_phase. cbn [s_att s_try s_txs s_calls set_att]. lia. }
  destruct Hx as [->|(e & ->)]; exact H.
Qed.
(** A transaction call nearer to its end. *)
Lemma rlt_tx s i p f x e : s_txs s !! i = Some p -> tx_rank (f p) < tx_rank p ->
  x = tx_set i f s \/ (exists c, x = add_log e (tx_set i f (set_cache c s))) \/ x = add_log e (tx_set i f s) -> rlt (rank x) (rank s).
Proof.
  intros Hi Hr Hx.
  assert (H : rlt (rank (tx_set i f s)) (rank s)).
  { apply rlt_small; [by split|done|done|]. pose proof (sum_alter tx_rank f (s_txs s) i _ Hi) as Hw. unfold small_rank, tx_set. cbn [s_att s_try s_txs s_calls set_txs]. lia. }
  destruct Hx as [->|[(c & ->)| ->]]; exact H.
Qed.
Lemma children_held o now id c x : core_ok c -> x ∈ check_children o now id c -> exists k f t, x = SpawnTry k f t /\ k_id k ∈ dom (c_byid c).
Proof.
  intros Hok. unfold check_children. destruct (c_byprev c !! id) as [ids|]; [|set_solver].
  intros Hin. apply elem_of_list_omap in Hin as (cid & _ & Hc). destruct (c_byid c !! cid) as [e|] eqn:He; [|done].
  injection Hc as <-. eexists _, _, _. split; [done|]. pose proof (ok_id _ Hok _ _ He) as E. rewrite E. apply elem_of_dom. eauto.
Qed.
Lemma elem_spawns effs k f t : (k, f, t) ∈ spawns effs -> SpawnTry k f t ∈ effs.
Proof. unfold spawns. intros Hin. apply elem_of_list_omap in Hin as ([?|? ? ?] & Hx & E); [done|]. by injection E as -> -> ->. Qed.

Lemma rank_step o head lib0 s lab s' : Inv o head lib0 s -> s_cancelled s = false -> own lab -> Step o s lab s' -> s_panic s' = false -> s_hang s' = false ->
  (waits s lab /\ rank s' = rank s) \/ rlt (rank s') (rank s).
Proof.
  intros HI Hnc Hown H Hp' Hh'.
  destruct H; try done.
  - (* send *) right. apply rlt_cases. left. unfold sends. cbn [s_calls set_new set_calls].
    pose proof (sum_insert (fun cl => b2n (is_send cl)) (s_calls s) c _ (Call k CWait buf) H) as Hs. cbn in Hs. lia.
  - (* return *) right. apply rlt_small; [split; try done|done|done|].
    + unfold sends. cbn [s_calls add_log set_calls]. pose proof (sum_insert (fun cl => b2n (is_send cl)) (s_calls s) c _ (Call k (CRet r) (Some r)) H) as Hs. cbn in Hs. lia.
    + unfold small_rank. cbn [s_calls add_log set_calls s_try s_att s_txs]. pose proof (sum_insert (fun cl => b2n (is_wait cl)) (s_calls s) c _ (Call k (CRet r) (Some r)) H) as Hs. cbn in Hs. lia.
  - (* new *) right. apply rlt_cases. right. split; [by rewrite sends_effs|]. left. rewrite (se_new _ _ _ (do_effs_same _ _ _)). cbn. rewrite H0. cbn. lia.
  - (* a request starts an attempt *) right.
    apply rlt_small.
    + by split.
    + intros P. unfold work. cbn [s_try s_att set_att set_core set_try]. rewrite sum_list_with_app. pose proof (sum_delete (fun x => b2n (P (k_id (fst (fst x))))) (s_try s) i _ H0) as Hd. cbn in Hd |- *. lia.
    + cbn [s_try s_att set_att set_core set_try]. rewrite sum_list_with_app. cbn. lia.
    + unfold small_rank. cbn [s_calls s_try s_att s_txs set_att set_core set_try]. rewrite sum_list_with_app. pose proof (len_delete _ _ _ H0). cbn. lia.
  - (* a forced request is put back *) left. split.
    + destruct (at_conv _ _ (v_atts _ _ _ _ HI) Hnc _ H2) as (j & a & Hj & Hl & E). simpl. exists k, t. split; [done|]. exists j, a. split_and!; [done| |done]. intros Hd. unfold at_live in Hl. by rewrite Hd in Hl.
    + assert (Hw : forall P, work P (set_try (delete i (s_try s) ++ [(k, true, (s_now s + ao_retry_delay o)%Z)]) s) = work P s).
      { intros P. unfold work. cbn [s_try s_att set_try]. rewrite sum_list_with_app. pose proof (sum_delete (fun x => b2n (P (k_id (fst (fst x))))) (s_try s) i _ H0) as Hd. cbn in Hd |- *. lia. }
      unfold rank. rewrite !Hw. cbn [s_calls s_new s_fh s_bc s_core s_att set_try]. do 8 f_equal.
      unfold small_rank. cbn [s_calls s_try s_att s_txs set_try]. rewrite app_length. pose proof (len_delete _ _ _ H0). cbn [length]. lia.
  - (* a request is dropped *) right. apply (rlt_item _ _ (k_id k)); [by split|]. intros P. unfold work. cbn [s_try s_att set_try].
    pose proof (sum_delete (fun x => b2n (P (k_id (fst (fst x))))) (s_try s) i _ H0) as Hd. cbn in Hd |- *. lia.
  - (* start *) right. eapply (rlt_phase s i k PStart (start_phase o (s_now s) k)); [done|done| | | |by left]; unfold start_phase; case_bool_decide; try done; cbn; lia.
  - (* wake *) right. eapply (rlt_phase s i k _ PQueued); [done|done|done|done|cbn; lia|by left].
  - (* delay timeout *) right. rewrite Hnc in H1. subst res. eapply (rlt_phase s i k _ (PStatus None)); [done|done|done|done|cbn; lia|right; eauto].
  - (* take *) right. eapply (rlt_phase (add_log (OTake i k (c_lib (s_core s))) s) i k PQueued (PStatus (Some (ESent ErrBlockIrreversibility)))); [done|done|done|done|cbn; lia|by left].
  - right. eapply (rlt_phase (add_log (OTake i k (c_lib (s_core s))) s) i k PQueued (PChecked (c_lib (s_core s)))); [done|done|done|done|cbn; lia|by left].
  - right. eapply (rlt_phase s i k _ PRpc); [done|done|done|done|cbn; lia|right; eauto].
  - right. eapply (rlt_phase s i k PRpc (PStatus res)); [done|done|done| |cbn; lia|right; eauto]. unfold again. cbn. by rewrite Hown.
  - (* status *) right. set (s1 := add_log (OStatus i k res) (set_core core' (set_phase i PDone s))).
    pose proof (do_effs_same lose effs s1) as HS. set (s2 := do_effs lose effs s1) in *.
    assert (Hsend : sends s2 = sends s) by (unfold s2; by rewrite sends_effs).
    assert (Hw1 : forall P, work P s1 + b2n (P (k_id k)) = work P s).
    { intros P. pose proof (work_phase P i PDone s _ H0) as Hw. cbn [at_live at_phase at_blk andb b2n] in Hw.
      assert (E : work P s1 = work P (set_phase i PDone s)) by reflexivity. lia. }
    assert (Hw2 : forall P, work P s2 = work P s1 + sum (fun x => b2n (P (k_id (fst (fst x))))) (spawns effs)).
    { intros P. unfold work. rewrite (se_try _ _ _ HS), (se_att _ _ _ HS), sum_list_with_app. lia. }
    apply handle_status_cases in H1 as [(Hbs & -> & ->)|[(_ & _ & -> & ->)|(_ & _ & ans & Hsh & ->)]].
    + (* block state: the request comes back *)
      apply rlt_cases. right. split; [done|]. do 4 (right; split; [done|]).
      assert (Hw : forall P, work P s2 = work P s). { intros P. rewrite Hw2. specialize (Hw1 P).
        assert (E : sum (fun x => b2n (P (k_id (fst (fst x))))) (spawns [SpawnTry k false (s_now s)]) = b2n (P (k_id k)) + 0) by reflexivity. lia. }
      right. split; [apply Hw|]. right. split; [apply Hw|]. left. rewrite (se_att _ _ _ HS). unfold s1, set_phase. cbn [s_att add_log set_core set_att].
      pose proof (sum_alter (fun a => b2n (again a)) (fun a => Attempt (at_blk a) PDone) (s_att s) i _ H0) as Hw'. cbn in Hw'. rewrite Hbs in Hw'. cbn in Hw'. lia.
    + apply (rlt_item _ _ (k_id k)); [by split|]. intros P. rewrite Hw2. specialize (Hw1 P).
      assert (E : sum (fun x : blk * bool * Z => b2n (P (k_id (fst (fst x))))) (spawns []) = 0) by reflexivity. lia.
    + destruct (decide (k_id k ∈ held_ids s)) as [Hin|Hni].
      * apply rlt_cases. right. split; [done|]. do 3 (right; split; [by rewrite ?(se_new _ _ _ HS), ?(se_fh _ _ _ HS), ?(se_bc _ _ _ HS)|]). left.
        unfold pool_size. rewrite (se_core _ _ _ HS). unfold s1. cbn [s_core add_log set_core].
        assert (E : c_byid core' = delete (k_id k) (c_byid (s_core s))).
        { apply map_eq. intros id. destruct (decide (id = k_id k)) as [->|Hne]; [rewrite lookup_delete; by apply (sh_gone _ _ _ _ _ Hsh)|].
          rewrite lookup_delete_ne by done. by rewrite (sh_stay _ _ _ _ _ Hsh). }
        rewrite E. unfold held_ids in Hin. apply elem_of_dom in Hin as [e He]. rewrite <- (insert_delete _ _ _ He) at 2. rewrite map_size_insert_None by apply lookup_delete. lia.
      * assert (E : c_byid core' = c_byid (s_core s)).
        { apply map_eq. intros id. destruct (decide (id = k_id k)) as [->|Hne]; [|by rewrite (sh_stay _ _ _ _ _ Hsh)].
          rewrite (sh_gone _ _ _ _ _ Hsh) by done. symmetry. by apply not_elem_of_dom. }
        apply rlt_cases. right. split; [done|]. do 3 (right; split; [by rewrite ?(se_new _ _ _ HS), ?(se_fh _ _ _ HS), ?(se_bc _ _ _ HS)|]).
        right. split; [by rewrite (se_core _ _ _ HS)|]. left.
        assert (Hz : sum (fun x => b2n (negb (in_pool s (k_id (fst (fst x)))))) (spawns (match res with Some _ => [] | None => check_children o (s_now s) (k_id k)
            (Core (c_highest (s_core s)) (c_lib (s_core s)) (c_byid (s_core s)) (c_byprev (s_core s)) (c_byheight (s_core s)) (c_pending (s_core s) ∖ {[k_id k]})) end ++ ans)) = 0).
        { apply sum_zero. intros [[k' f'] t'] Hx. apply elem_spawns in Hx. apply elem_of_app in Hx as [Hx|Hx].
          - destruct res; [by apply elem_of_nil in Hx|].
            destruct (children_held _ _ _ _ _ (core_ok_same (s_core s) _ eq_refl eq_refl eq_refl (a_ok s (v_acc _ _ _ _ HI))) Hx) as (k2 & f2 & t2 & E2 & Hd). injection E2 as -> -> ->.
            unfold in_pool, held_ids. cbn [fst]. rewrite bool_decide_true by exact Hd. done.
          - destruct (sh_effs _ _ _ _ _ Hsh _ Hx) as (? & ? & ? & ? & _). done. }
        rewrite Hw2, Hz. specialize (Hw1 (fun id => negb (in_pool s id))). cbv beta in Hw1.
        assert (Hip : in_pool s (k_id k) = false) by (by apply bool_decide_false). rewrite Hip in Hw1. cbn [negb b2n] in Hw1. lia.
  - (* fork heads *) right. apply rlt_cases. right. split; [by rewrite sends_effs|]. right. pose proof (do_effs_same lose effs (add_log (OLib (c_lib core')) (set_core core' (set_wd (wd_purge (s_wd s) (c_lib core')) (set_fh (delete i (s_fh s)) s))))) as HS.
    split; [by rewrite (se_new _ _ _ HS)|]. left. rewrite (se_fh _ _ _ HS). cbn. pose proof (len_delete _ _ _ H0). lia.
  - (* broadcast *) right. apply rlt_cases. right. split; [by rewrite sends_effs|]. right. 
    match goal with |- context [do_effs ?l ?e ?x] => pose proof (do_effs_same l e x) as HS end.
    split; [by rewrite (se_new _ _ _ HS)|]. right. split; [by rewrite (se_fh _ _ _ HS)|]. left. rewrite (se_bc _ _ _ HS). cbn. pose proof (len_delete _ _ _ H0). lia.
  - (* tick *) left. done.
  - right. eapply (rlt_tx s i _ _ _ (OLib 0)); [exact H| |by left]. cbn. lia.
  - right. eapply rlt_tx; [exact H| |right; left; eauto]. cbn. lia.
  - right. eapply rlt_tx; [exact H| |right; left; eauto]. cbn. lia.
  - right. eapply rlt_tx; [exact H| |right; right; eauto]. cbn. lia.
  - right. eapply rlt_tx; [exact H| |right; right; eauto]. cbn. lia.
Qed.

(** ** Something can always be done *)
Lemma find {A} (f : A -> bool) (l : list A) : (exists i x, l !! i = Some x /\ f x = true) \/ (forall i x, l !! i = Some x -> f x = false).
Proof.
  induction l as [|y l IH]; [right; intros i x Hx; by destruct i|].
  destruct (f y) eqn:Hy; [left; by exists 0, y|]. destruct IH as [(i & x & Hx & Hf)|Hn]; [left; by exists (S i), x|].
  right. intros [|i] x Hx; [by injection Hx as <-|by eapply Hn].
Qed.
(** The dispatcher ends only after the cancel. *)
Definition Loop (s : sys) : Prop := s_cancelled s = false -> s_loop s = true.
Lemma Loop_step o s lab s' : Loop s -> Step o s lab s' -> Loop s'.
Proof.
  intros HL H. destruct H; try exact HL;
    try (match goal with |- Loop (do_effs ?l ?e ?x) => pose proof (do_effs_same l e x) as HS; unfold Loop; rewrite (se_cancelled _ _ _ HS), (se_loop _ _ _ HS); exact HL end).
  - intros Hc. done.
  - intros Hc. simpl in Hc. congruence.
Qed.
Definition tx_ok (p : tx_proc) : Prop :=
  match tp_phase p with TSend => tp_buf p = None /\ tp_ret p = None | TQueued | TRpc => tp_buf p = None | TServed => tp_buf p <> None end.
Definition TxShape (s : sys) : Prop := forall i p, s_txs s !! i = Some p -> tx_ok p.
Lemma TxShape_alter s i p f x : TxShape s -> s_txs s !! i = Some p -> tx_ok (f p) -> s_txs x = alter f i (s_txs s) -> TxShape x.
Proof.
  intros HT Hi Hf E j q Hj. rewrite E in Hj. destruct (decide (j = i)) as [->|Hne].
  - rewrite list_lookup_alter, Hi in Hj. by injection Hj as <-.
  - rewrite list_lookup_alter_ne in Hj by done. by eapply HT.
Qed.
Lemma TxShape_step o s lab s' : TxShape s -> Step o s lab s' -> TxShape s'.
Proof.
  intros HT H. destruct H; try exact HT;
    try (match goal with |- TxShape (do_effs ?l ?e ?x) => pose proof (do_effs_same l e x) as HS; unfold TxShape; rewrite (se_txs _ _ _ HS); exact HT end).
  - intros j p Hj. cbn in Hj. apply lookup_app_Some in Hj as [Hj|[_ Hj]]; [by eapply HT|]. destruct (j - length (s_txs s)) as [|n]; [by injection Hj as <-|by destruct n].
  - eapply (TxShape_alter s i); [done|exact H| |reflexivity]; done.
  - pose proof (HT _ _ H) as Hx. eapply (TxShape_alter s i); [done|exact H| |reflexivity]; done.
  - pose proof (HT _ _ H) as Hx. eapply (TxShape_alter s i); [done|exact H| |reflexivity]; done.
  - pose proof (HT _ _ H) as Hx. eapply (TxShape_alter s i); [done|exact H| |reflexivity]; done.
  - pose proof (HT _ _ H) as Hx. eapply (TxShape_alter s i); [done|exact H| |done]. destruct ph; cbn in Hx |- *; try done; by destruct Hx.
  - pose proof (HT _ _ H) as Hx. eapply (TxShape_alter s i); [done|exact H| |done]. destruct ph; cbn in Hx |- *; try done; by destruct Hx.
Qed.
Lemma reach_loop o head lib dur now sched s : reaches o head lib dur now sched s -> Loop s /\ TxShape s.
Proof.
  intros (_ & _ & Hr). eapply (run_ind o (fun s => Loop s /\ TxShape s)); [| |exact Hr].
  - intros s1 lab s2 [H1 H2] _ H. split; [by eapply Loop_step|by eapply TxShape_step].
  - split; [done|]. intros i p Hp. done.
Qed.
Lemma reach_complete o head lib dur now sched s : Forall complete_label sched -> reaches o head lib dur now sched s -> Complete s.
Proof.
  intros HC (_ & _ & Hr). eapply (run_indW o complete_label Complete); [|exact HC| |exact Hr].
  - intros. by eapply Complete_step.
  - split; simpl; set_solver.
Qed.

(** After waiting for [d], the step [lab] can be made, and is more than waiting. *)
Definition able (o : ap_opts) (ans : nat -> option goerr) (s : sys) : Prop :=
  exists d lab s', run o s [LTick d; lab] = Some s' /\ own lab /\ answered_by ans lab /\ ~ waits s lab /\ s_hang s' = false.
Lemma able_now o ans s lab : s_panic s = false -> (exists s', step o (set_now (s_now s + Z.of_N 0)%Z s) lab = Some s' /\ s_hang s' = false) -> own lab -> answered_by ans lab -> ~ waits s lab -> able o ans s.
Proof. intros Hp (s' & Hs & Hh) H1 H2 H3. exists 0%N, lab, s'. split_and!; try done. cbn [run]. unfold step at 1. rewrite Hp. by rewrite Hs. Qed.
Lemma hang_effs lose effs s : s_hang s = false -> s_hang (do_effs lose effs s) = false.
Proof. by rewrite (se_hang _ _ _ (do_effs_same lose effs s)). Qed.

Lemma progress o head lib dur now sched s ans : good_dur dur -> Forall complete_label sched -> reaches o head lib dur now sched s ->
  running s -> no_final_lib s -> 0 < ao_jobs o -> (forall i, is_err_opt (ans i) ErrBlockState = false) -> at_rest s \/ able o ans s.
Proof.
  intros Hd HC Hr (Hnc & Hp & Hh) Hfl Hj Hans. pose proof (reaches_inv _ _ _ _ _ _ _ Hr) as HI. pose proof (v_acc _ _ _ _ HI) as HA.
  destruct (reach_loop _ _ _ _ _ _ _ Hr) as [HL HT]. pose proof (reach_complete _ _ _ _ _ _ _ HC Hr) as [Cf Cb].
  assert (Hsv : serving s = true) by (unfold serving; rewrite (HL Hnc), Hh; done).
  assert (Hsv' : forall t, serving (set_now t s) = true) by (intros; exact Hsv).
  (* the queue of calls *)
  destruct (s_new s) as [|c rest] eqn:Hnew.
  2:{ right. apply (able_now o ans s (LNew (fun _ => false))); [done| |done|done|by intros []].
      destruct (a_open s HA c) as (cl & Hc & _). { apply elem_of_app. left. rewrite Hnew. left. }
      unfold step. cbn [s_panic set_now]. rewrite Hp, Hsv'. cbn [negb s_new s_calls s_core s_now set_now]. rewrite Hnew, Hc.
      destruct (handle_new _ _ _ _ _) as [core' effs]. eexists. split; [done|]. by apply hang_effs. }
  (* fork heads *)
  destruct (s_fh s) as [|fh fhs] eqn:Hfh.
  2:{ right. apply (able_now o ans s (LForkHeads 0 (fun _ => false))); [done| |done|done|by intros []].
      unfold step. cbn [s_panic set_now]. rewrite Hp, Hsv'. cbn [negb s_fh s_core s_now set_now set_fh]. rewrite Hfh. cbn [lookup list_lookup].
      destruct (handle_fork_heads _ _ _ _) as [[[core' effs]|]|] eqn:Hx.
      - eexists. split; [done|]. by apply hang_effs.
      - exfalso. unfold handle_fork_heads in Hx. destruct (fh_lib fh) as [l|] eqn:El; [|done]. case_bool_decide as Hm.
        + subst l. apply (Hfl fh); [rewrite Hfh; left|done].
        + by destruct (remove_heights _ _ _).
      - exfalso. unfold handle_fork_heads in Hx. destruct (fh_lib fh) as [l|] eqn:El; [|by apply (Cf fh); [left|]].
        case_bool_decide; [done|]. by destruct (remove_heights _ _ _). }
  (* broadcasts *)
  destruct (s_bc s) as [|b bs] eqn:Hbc.
  2:{ right. apply (able_now o ans s (LBroadcast 0)); [done| |done|done|by intros []].
      unfold step. cbn [s_panic set_now]. rewrite Hp, Hsv'. cbn [negb s_bc s_core s_now set_now set_bc s_cache]. rewrite Hbc. cbn [lookup list_lookup].
      destruct (tx_check_block _ _ _) as [[cache' n]|]; [|eexists; split; [done|done]].
      destruct (b_header b) as [h|]; [|eexists; split; [done|done]].
      destruct (handle_broadcast _ _ _ _) as [core' effs]. eexists. split; [done|]. by apply hang_effs. }
  (* calls *)
  destruct (find is_send (s_calls s)) as [(c & cl & Hc & Hs)|Hsend].
  { right. apply (able_now o ans s (LSend c)); [done| |done|done|by intros []].
    destruct cl as [k ph buf]. unfold is_send in Hs. cbn in Hs. destruct ph; try done.
    unfold step. cbn [s_panic set_now s_calls s_new]. rewrite Hp, Hc, Hnew. cbn [length]. rewrite bool_decide_true by (unfold chan_cap; lia). eexists. split; [done|done]. }
  destruct (find (fun cl => is_wait cl && match cl_buf cl with Some _ => true | None => false end) (s_calls s)) as [(c & cl & Hc & Hs)|Hret].
  { right. apply (able_now o ans s (LRet c)); [done| |done|done|by intros []].
    destruct cl as [k ph buf]. unfold is_wait in Hs. cbn in Hs. destruct ph; try done. destruct buf as [r|]; [|done].
    unfold step. cbn [s_panic set_now s_calls]. rewrite Hp, Hc. unfold call_return. cbn [s_calls set_now]. rewrite Hc. eexists. split; [done|done]. }
  (* attempts *)
  destruct (find (fun a => match at_phase a with PStatus _ => true | _ => false end) (s_att s)) as [(i & [k p] & Hi & Hs)|Hst].
  { right. apply (able_now o ans s (LStatus i (fun _ => false))); [done| |done|done|by intros []].
    cbn in Hs. destruct p as [| | | | |res|]; try done. unfold step. cbn [s_panic set_now]. rewrite Hp, Hsv'. cbn [negb s_att s_core s_now set_now]. rewrite Hi.
    destruct (handle_status _ _ _ _ _) as [core' effs]. eexists. split; [done|]. by apply hang_effs. }
  destruct (find (fun a => match at_phase a with PRpc => true | _ => false end) (s_att s)) as [(i & [k p] & Hi & Hs)|Hrpc].
  { right. apply (able_now o ans s (LRpcDone i (ans i))); [done| |by apply Hans|done|by intros []].
    cbn in Hs. destruct p; try done. unfold step. cbn [s_panic set_now s_att]. rewrite Hp, Hi. eexists. split; [done|done]. }
  destruct (find (fun a => match at_phase a with PChecked _ => true | _ => false end) (s_att s)) as [(i & [k p] & Hi & Hs)|Hchk].
  { right. apply (able_now o ans s (LSubmit i)); [done| |done|done|by intros []].
    cbn in Hs. destruct p; try done. unfold step. cbn [s_panic set_now s_att]. rewrite Hp, Hi. eexists. split; [done|done]. }
  destruct (find (fun a => match at_phase a with PStart => true | _ => false end) (s_att s)) as [(i & [k p] & Hi & Hs)|Hsta].
  { right. apply (able_now o ans s (LAttStart i)); [done| |done|done|by intros []].
    cbn in Hs. destruct p; try done. unfold step. cbn [s_panic set_now s_att]. rewrite Hp, Hi. eexists. split; [done|done]. }
  destruct (find (fun a => match at_phase a with PDelay _ _ => true | _ => false end) (s_att s)) as [(i & [k p] & Hi & Hs)|Hdel].
  { right. cbn in Hs. destruct p as [|w t| | | | |]; try done.
    exists (Z.to_N (w - s_now s)%Z), (LAttWake i). eexists. split; [|split_and!; [done|done|by intros []|]].
    - cbn [run]. unfold step at 1. rewrite Hp. unfold step. cbn [s_panic set_now s_att s_now]. rewrite Hp, Hi. rewrite bool_decide_true by lia. reflexivity.
    - done. }
  (* transactions *)
  destruct (find (fun p => match tp_phase p with TRpc => true | _ => false end) (s_txs s)) as [(i & [t ph buf ret] & Hi & Hs)|Htr].
  { right. apply (able_now o ans s (LTxDone i None)); [done| |done|done|by intros []].
    cbn in Hs. destruct ph; try done. unfold step. cbn [s_panic set_now s_txs]. rewrite Hp, Hi. eexists. split; [done|done]. }
  assert (Hbusy : busy_workers s = 0).
  { unfold busy_workers. assert (E1 : filter (fun a => at_busy a = true) (s_att s) = []).
    { apply elem_of_nil_inv. intros a Ha. apply elem_of_list_filter in Ha as [Hb Ha]. apply elem_of_list_lookup in Ha as [i Hi].
      specialize (Hrpc _ _ Hi). specialize (Hchk _ _ Hi). cbv beta in *. unfold at_busy in Hb. by destruct (at_phase a). }
    assert (E2 : filter (fun t => tp_phase t = TRpc) (s_txs s) = []).
    { apply elem_of_nil_inv. intros a Ha. apply elem_of_list_filter in Ha as [Hb Ha]. apply elem_of_list_lookup in Ha as [i Hi].
      specialize (Htr _ _ Hi). cbv beta in *. by rewrite Hb in Htr. }
    by rewrite E1, E2. }
  destruct (find (fun p => match tp_phase p with TQueued => true | _ => false end) (s_txs s)) as [(i & [t ph buf ret] & Hi & Hs)|Htq].
  { right. apply (able_now o ans s (LTxTake i)); [done| |done|done|by intros []].
    cbn in Hs. destruct ph; try done. unfold step. cbn [s_panic set_now s_txs]. rewrite Hp, Hi.
    rewrite bool_decide_true by (change (busy_workers s < ao_jobs o); lia). destruct (tx_check _ _ _) as [[cache' [|n]]|]; eexists; (split; [done|done]). }
  destruct (find (fun p => match tp_phase p with TSend => true | _ => false end) (s_txs s)) as [(i & [t ph buf ret] & Hi & Hs)|Hts].
  { right. apply (able_now o ans s (LTxSend i)); [done| |done|done|by intros []].
    cbn in Hs. destruct ph; try done. destruct (HT _ _ Hi) as [E1 E2]. cbn in E1, E2. subst. unfold step. cbn [s_panic set_now s_txs]. rewrite Hp, Hi.
    assert (E : filter (fun t => tp_phase t = TQueued) (s_txs s) = []).
    { apply elem_of_nil_inv. intros a Ha. apply elem_of_list_filter in Ha as [Hb Ha]. apply elem_of_list_lookup in Ha as [i' Hi'].
      specialize (Htq _ _ Hi'). cbv beta in *. by rewrite Hb in Htq. }
    rewrite E. rewrite bool_decide_true by (unfold chan_cap; cbn; lia). eexists. split; [done|done]. }
  destruct (find (fun p => match tp_ret p with None => true | _ => false end) (s_txs s)) as [(i & [t ph buf ret] & Hi & Hs)|Htx].
  { right. apply (able_now o ans s (LTxRet i)); [done| |done|done|by intros []].
    cbn in Hs. destruct ret; try done. specialize (Htr _ _ Hi). specialize (Htq _ _ Hi). specialize (Hts _ _ Hi). cbn in Htr, Htq, Hts. pose proof (HT _ _ Hi) as Ho.
    destruct ph; try done. cbn in Ho. destruct buf as [r|]; [|done]. unfold step. cbn [s_panic set_now s_txs]. rewrite Hp, Hi. eexists. split; [done|done]. }
  (* queued attempts *)
  destruct (find (fun a => match at_phase a with PQueued => true | _ => false end) (s_att s)) as [(i & [k p] & Hi & Hs)|Hq].
  { right. apply (able_now o ans s (LTake i)); [done| |done|done|by intros []].
    cbn in Hs. destruct p; try done. unfold step. cbn [s_panic set_now s_att]. rewrite Hp, Hi.
    rewrite bool_decide_true by (change (busy_workers s < ao_jobs o); lia). case_bool_decide; eexists; (split; [done|done]). }
  assert (Hdone : forall i a, s_att s !! i = Some a -> at_phase a = PDone).
  { intros i a Hi. specialize (Hst _ _ Hi). specialize (Hrpc _ _ Hi). specialize (Hchk _ _ Hi). specialize (Hsta _ _ Hi). specialize (Hdel _ _ Hi). specialize (Hq _ _ Hi). cbv beta in *. by destruct (at_phase a). }
  assert (Hpend : c_pending (s_core s) = ∅).
  { apply elem_of_equiv_empty_L. intros id Hid. destruct (at_conv _ _ (v_atts _ _ _ _ HI) Hnc _ Hid) as (i & a & Hi & Hl & _). unfold at_live in Hl. by rewrite (Hdone _ _ Hi) in Hl. }
  (* requests *)
  destruct (s_try s) as [|[[k f] t] ts] eqn:Htry.
  2:{ right. exists (Z.to_N (t - s_now s)%Z), (LTry 0). eexists. split; [|split_and!; [done|done| |]].
      - cbn [run]. unfold step at 1. rewrite Hp. unfold step. cbn [s_panic set_now]. rewrite Hp, Hsv'. cbn [negb s_try s_now set_now s_core]. rewrite Htry. cbn [lookup list_lookup].
        rewrite bool_decide_true by lia. unfold handle_try. rewrite bool_decide_false by (rewrite Hpend; set_solver). reflexivity.
      - intros (k' & t' & _ & j & a & Hja & Hn & _). apply Hn. by eapply Hdone.
      - done. }
  left. split; [|split_and!; [done| |]].
  - split_and!; [|done|done|done|done]. intros c cl Hc Hx. specialize (Hsend _ _ Hc). unfold is_send in Hsend. by rewrite Hx in Hsend.
  - intros i p Hi Hx. specialize (Htx _ _ Hi). cbv beta in Htx. by rewrite Hx in Htx.
  - intros c [k ph buf] Hc. specialize (Hsend _ _ Hc). specialize (Hret _ _ Hc). unfold is_send, is_wait in *. cbn in Hsend, Hret. destruct ph as [| |r]; [done| |left; by exists r].
    right. destruct buf as [r|]; [done|]. split; [done|]. pose proof (a_held s HA Hnc c _ Hc ltac:(done) eq_refl) as Hw. unfold waiting in Hw. rewrite Hnew in Hw. cbn [app] in Hw.
    apply elem_all_chans in Hw as (id & e & He & Hin). destruct (a_ids s HA _ _ _ He Hin) as (cl' & Hc' & Eid). rewrite Hc in Hc'. injection Hc' as <-. cbn in Eid |- *.
    rewrite Eid. unfold held_ids. apply elem_of_dom. eauto.
Qed.

(** ** What stays as it is while the applicator is left alone *)
Record Left (o : ap_opts) (head lib dur now : _) (sched : list label) (s : sys) : Prop := {
  lf_reach : reaches o head lib dur now sched s; lf_complete : Forall complete_label sched;
  lf_cancelled : s_cancelled s = false; lf_hang : s_hang s = false; lf_fh : no_final_lib s }.
Lemma own_complete lab : own lab -> complete_label lab /\ u64_label lab.
Proof. by destruct lab. Qed.
Lemma Left_step o head lib dur now sched s lab s' : Left o head lib dur now sched s -> own lab -> step o s lab = Some s' -> Left o head lib dur now (sched ++ [lab]) s'.
Proof.
  intros [H1 H2 H3 H4 H5] Ho Hs. destruct (own_complete _ Ho) as [Hc Hu]. pose proof Hs as Hst. apply step_Step in Hst as [Hp Hst]. split.
  - eapply reaches_split; [exact H1|by apply Forall_singleton|]. cbn [run]. by rewrite Hs.
  - apply Forall_app. split; [done|by apply Forall_singleton].
  - destruct Hst; try done; try (by rewrite (se_cancelled _ _ _ (do_effs_same _ _ _))).
  - destruct Hst; try done; try (by rewrite (se_hang _ _ _ (do_effs_same _ _ _))). exfalso. apply (H5 fh); [by eapply elem_of_list_lookup_2|done].
  - destruct Hst; try done; try (unfold no_final_lib; by rewrite (se_fh _ _ _ (do_effs_same _ _ _))).
    + intros fh' Hx. cbn in Hx. apply elem_of_delete in Hx. by apply H5.
    + intros fh' Hx. cbn in Hx. apply elem_of_delete in Hx. by apply H5.
    + intros fh' Hx. rewrite (se_fh _ _ _ (do_effs_same _ _ _)) in Hx. cbn in Hx. apply elem_of_delete in Hx. by apply H5.
Qed.
Lemma left_rank o head lib dur now sched s lab s' : good_dur dur -> Left o head lib dur now sched s -> own lab -> step o s lab = Some s' ->
  (waits s lab /\ rank s' = rank s) \/ rlt (rank s') (rank s).
Proof.
  intros Hd HL Ho Hs. pose proof (Left_step _ _ _ _ _ _ _ _ _ HL Ho Hs) as HL'. pose proof Hs as Hst. apply step_Step in Hst as [_ Hst].
  eapply rank_step; [eapply reaches_inv, (lf_reach _ _ _ _ _ _ _ HL)|apply (lf_cancelled _ _ _ _ _ _ _ HL)|done|exact Hst| |apply (lf_hang _ _ _ _ _ _ _ HL')].
  eapply reaches_no_panic; [done|apply (lf_complete _ _ _ _ _ _ _ HL')|apply (lf_reach _ _ _ _ _ _ _ HL')].
Qed.
Lemma left_running o head lib dur now sched s : good_dur dur -> Left o head lib dur now sched s -> running s.
Proof. intros Hd HL. split_and!; [apply HL| |apply HL]. eapply reaches_no_panic; [done|apply (lf_complete _ _ _ _ _ _ _ HL)|apply (lf_reach _ _ _ _ _ _ _ HL)]. Qed.

Lemma rests o head lib dur now ans : good_dur dur -> 0 < ao_jobs o -> (forall i, is_err_opt (ans i) ErrBlockState = false) ->
  forall r sched s, rank s = r -> Left o head lib dur now sched s ->
  exists more s', Forall own more /\ Forall (answered_by ans) more /\ run o s more = Some s' /\ Left o head lib dur now (sched ++ more) s' /\ at_rest s'.
Proof.
  intros Hd Hj Hans r. induction (rlt_wf r) as [r _ IH]. intros sched s Er HL.
  destruct (progress o head lib dur now sched s ans Hd (lf_complete _ _ _ _ _ _ _ HL) (lf_reach _ _ _ _ _ _ _ HL) (left_running _ _ _ _ _ _ _ Hd HL) (lf_fh _ _ _ _ _ _ _ HL) Hj Hans)
    as [Hrest|(d & lab & s2 & Hrun & Ho & Ha & Hw & _)].
  - exists [], s. rewrite app_nil_r. split_and!; try done; by constructor.
  - cbn [run] in Hrun. destruct (step o s (LTick d)) as [s1|] eqn:H1; [|done]. destruct (step o s1 lab) as [s2'|] eqn:H2; [|done]. injection Hrun as ->.
    assert (HL1 : Left o head lib dur now (sched ++ [LTick d]) s1) by (by eapply Left_step).
    assert (HL2 : Left o head lib dur now ((sched ++ [LTick d]) ++ [lab]) s2) by (by eapply Left_step).
    assert (E1 : s_try s1 = s_try s /\ s_att s1 = s_att s /\ rank s1 = rank s).
    { unfold step in H1. destruct (s_panic s); [done|]. by injection H1 as <-. }
    destruct E1 as (Et & Ea & Erk).
    destruct (left_rank _ _ _ _ _ _ _ _ _ Hd HL1 Ho H2) as [[Hw1 _]|Hlt].
    { exfalso. apply Hw. destruct lab; cbn in Hw1 |- *; try done. by rewrite Et, Ea in Hw1. }
    destruct (IH (rank s2)) with ((sched ++ [LTick d]) ++ [lab]) s2 as (more & s3 & M1 & M2 & M3 & M4 & M5); [by rewrite <- Er, <- Erk|done|done|].
    exists (LTick d :: lab :: more), s3. split_and!; [by repeat constructor|by repeat constructor| | |done].
    + cbn [run]. by rewrite H1, H2.
    + rewrite <- !(assoc_L (++)) in M4. exact M4.
Qed.

(** ** The chain keeps answering "block state error" *)
Lemma alter_last {A} (f : A -> A) (l : list A) x : alter f (length l) (l ++ [x]) = l ++ [f x].
Proof. induction l as [|y l IH]; [done|]. cbn [length app]. change (alter f (S (length l)) (y :: l ++ [x])) with (y :: alter f (length l) (l ++ [x])). by rewrite IH. Qed.
Lemma lookup_last {A} (l : list A) x : (l ++ [x]) !! length l = Some x.
Proof. by rewrite lookup_app_r, Nat.sub_diag by lia. Qed.
(** One attempt is with the chain, the ones before it are over, and nothing else is under way. *)
Record Spin (o : ap_opts) (k : blk) (a : nat) (t : Z) (s : sys) : Prop := {
  sp_att : exists l, s_att s = l ++ [Attempt k PRpc] /\ length l = a /\ Forall (fun x => at_phase x = PDone) l;
  sp_try : s_try s = []; sp_txs : s_txs s = []; sp_pend : c_pending (s_core s) = {[k_id k]}; sp_serving : serving s = true; sp_panic : s_panic s = false;
  sp_now : s_now s = t; sp_start : start_phase o t k = PQueued; sp_lib : (c_lib (s_core s) < k_height k)%N }.
Definition spin_round (a : nat) : list label :=
  [LRpcDone a (Some (ESent ErrBlockState)); LStatus a (fun _ => false); LTry 0; LAttStart (S a); LTake (S a); LSubmit (S a)].
Lemma busy_none (l : list attempt) : Forall (fun x => at_phase x = PDone) l -> filter (fun a => at_busy a = true) l = [].
Proof. induction 1 as [|x l Hx _ IH]; [done|]. rewrite filter_cons, decide_False; [done|]. unfold at_busy. by rewrite Hx. Qed.
Lemma spin_step o k a t s : 0 < ao_jobs o -> Spin o k a t s ->
  exists s', run o s (spin_round a) = Some s' /\ Spin o k (S a) t s' /\ s_cancelled s' = s_cancelled s /\ s_hang s' = s_hang s /\
    exists l, s_log s' = OSubmit (S a) k t :: l ++ s_log s.
Proof.
  intros Hj [(l & Eatt & Hlen & Hall) Etry Etxs Epend Hsv Hp Hnow Hstart Hlib]. destruct s as [core wd cache calls new try att txs fh bc nw canc loop hang pan log].
  cbn [s_att s_try s_txs s_core s_panic s_now] in *. destruct core as [hi lib byid byprev byh pend]. cbn [c_pending c_lib] in *. subst att try txs pend pan nw a.
  assert (Hsv2 : loop && negb hang = true) by exact Hsv.
  set (mk := fun try att pend lg => Sys (Core hi lib byid byprev byh pend) wd cache calls new try att [] fh bc t canc loop hang false lg).
  set (l2 := l ++ [Attempt k PDone]). assert (Hl2 : S (length l) = length l2) by (unfold l2; rewrite app_length; cbn; lia).
  assert (Hall2 : Forall (fun x => at_phase x = PDone) l2) by (apply Forall_app; split; [done|by repeat constructor]).
  set (e := Some (ESent ErrBlockState)). set (lg1 := OResult (length l) k e :: log). set (lg2 := OStatus (length l) k e :: lg1). set (lg3 := OTake (S (length l)) k lib :: lg2).
  assert (E1 : step o (mk [] (l ++ [Attempt k PRpc]) {[k_id k]} log) (LRpcDone (length l) e) = Some (mk [] (l ++ [Attempt k (PStatus e)]) {[k_id k]} lg1)).
  { unfold step, mk, set_phase, set_att, add_log. cbn [s_panic s_att]. rewrite lookup_last. cbn. by rewrite alter_last. }
  assert (E2 : step o (mk [] (l ++ [Attempt k (PStatus e)]) {[k_id k]} lg1) (LStatus (length l) (fun _ => false)) = Some (mk [(k, false, t)] l2 ({[k_id k]} ∖ {[k_id k]}) lg2)).
  { unfold step, mk, set_phase, set_att, add_log, serving. cbn [s_panic s_att s_loop s_hang]. rewrite lookup_last, Hsv2. cbn. by rewrite alter_last. }
  assert (E3 : step o (mk [(k, false, t)] l2 ({[k_id k]} ∖ {[k_id k]}) lg2) (LTry 0) = Some (mk [] (l2 ++ [Attempt k PStart]) ({[k_id k]} ∪ ({[k_id k]} ∖ {[k_id k]})) lg2)).
  { unfold step, mk, serving. cbn [s_panic s_att s_loop s_hang s_try]. rewrite Hsv2. cbn [negb s_now lookup list_lookup]. rewrite bool_decide_true by lia.
    unfold handle_try. cbn [s_core c_pending]. rewrite bool_decide_false by set_solver. reflexivity. }
  assert (E4 : forall p, step o (mk [] (l2 ++ [Attempt k PStart]) p lg2) (LAttStart (S (length l))) = Some (mk [] (l2 ++ [Attempt k PQueued]) p lg2)).
  { intros p. rewrite Hl2. unfold step, mk, set_phase, set_att. cbn [s_panic s_att s_now]. rewrite lookup_last, alter_last. cbn [at_blk]. by rewrite Hstart. }
  assert (E5 : forall p, step o (mk [] (l2 ++ [Attempt k PQueued]) p lg2) (LTake (S (length l))) = Some (mk [] (l2 ++ [Attempt k (PChecked lib)]) p lg3)).
  { intros p. unfold lg3. rewrite Hl2. unfold step, mk, set_phase, set_att, add_log, busy_workers. cbn [s_panic s_att s_now s_txs s_core c_lib]. rewrite lookup_last, filter_app, busy_none by done.
    rewrite bool_decide_true by exact Hj. rewrite bool_decide_false by lia. cbn [s_att]. rewrite alter_last. reflexivity. }
  assert (E6 : forall p, step o (mk [] (l2 ++ [Attempt k (PChecked lib)]) p lg3) (LSubmit (S (length l))) = Some (mk [] (l2 ++ [Attempt k PRpc]) p (OSubmit (S (length l)) k t :: lg3))).
  { intros p. unfold lg3. rewrite Hl2. unfold step, mk, set_phase, set_att, add_log. cbn [s_panic s_att s_core c_lib]. by rewrite lookup_last, alter_last. }
  eexists. split.
  { unfold spin_round. change (Sys _ _ _ _ _ _ _ _ _ _ _ _ _ _ _ _) with (mk [] (l ++ [Attempt k PRpc]) {[k_id k]} log).
    cbn [run]. fold e. rewrite E1, E2, E3, E4, E5, E6. reflexivity. }
  split; [|split_and!; [done|done|by exists [OTake (S (length l)) k lib; OStatus (length l) k e; OResult (length l) k e]]]. split; try done.
  - exists l2. by split_and!.
  - cbn. apply set_eq. set_solver.
Qed.
Lemma run_app o s l1 l2 s1 : run o s l1 = Some s1 -> run o s (l1 ++ l2) = run o s1 l2.
Proof. revert s. induction l1 as [|x l1 IH]; intros s H; [cbn in H; by inversion H|]. cbn [run app] in *. destruct (step o s x) as [s'|]; [by apply IH|done]. Qed.
Fixpoint spinning (a n : nat) : list label := match n with O => [] | S n => spin_round a ++ spinning (S a) n end.
Lemma spins o k t n : forall a s, 0 < ao_jobs o -> Spin o k a t s -> OSubmit a k t ∈ s_log s ->
  exists s', run o s (spinning a n) = Some s' /\ s_now s' = t /\ s_cancelled s' = s_cancelled s /\ s_hang s' = s_hang s /\ s_panic s' = false /\
    (forall e, e ∈ s_log s -> e ∈ s_log s') /\ forall i, a <= i <= a + n -> OSubmit i k t ∈ s_log s'.
Proof.
  induction n as [|n IH]; intros a s Hj Hs Ha; cbn [spinning].
  { exists s. split_and!; try done; try apply Hs. intros i Hi. by replace i with a by lia. }
  destruct (spin_step o k a t s Hj Hs) as (s1 & R1 & Hs1 & C1 & H1 & l & E1).
  destruct (IH (S a) s1 Hj Hs1) as (s2 & R2 & N2 & C2 & H2 & P2 & L2 & S2); [rewrite E1; by apply elem_of_list_here|].
  assert (Hsub : forall e, e ∈ s_log s -> e ∈ s_log s2) by (intros e He; apply L2; rewrite E1; right; apply elem_of_app; by right).
  exists s2. split_and!; [by rewrite (run_app _ _ _ _ _ R1)|done|congruence|congruence|done|done|].
  intros i Hi. destruct (decide (i = a)) as [->|Hne]; [by apply Hsub|apply S2; lia].
Qed.
Lemma spinning_labels (P : label -> Prop) n : forall a, (forall a, Forall P (spin_round a)) -> Forall P (spinning a n).
Proof. induction n as [|n IH]; intros a H; [constructor|]. apply Forall_app. auto. Qed.
