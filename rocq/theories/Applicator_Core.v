(** Lemmas about the dispatcher's handlers (Applicator_Model.v, part 1). *)
From Verif Require Import GoBase Util Applicator_Model.

(** ** Indexes *)
Definition idx_ok {K} `{Countable K} (key : blk -> K) (byid : gmap string entry) (idx : gmap K (gset string)) : Prop :=
  forall k id, (exists ids, idx !! k = Some ids /\ id ∈ ids) <-> (exists e, byid !! id = Some e /\ key (e_blk e) = k).
Definition idx_tight {K} `{Countable K} (idx : gmap K (gset string)) : Prop :=
  forall k ids, idx !! k = Some ids -> ids <> ∅.
Record core_ok (c : core) : Prop := {
  ok_prev : idx_ok k_prev (c_byid c) (c_byprev c);
  ok_height : idx_ok k_height (c_byid c) (c_byheight c);
  ok_tprev : idx_tight (c_byprev c);
  ok_theight : idx_tight (c_byheight c);
  ok_id : forall id e, c_byid c !! id = Some e -> k_id (e_blk e) = id }.

Lemma idx_add_ok {K} `{Countable K} (key : blk -> K) byid idx id k chans :
  byid !! id = None -> idx_ok key byid idx ->
  idx_ok key (<[id := Entry k chans]> byid) (idx_add (key k) id idx).
Proof.
  intros Hn Hok k0 id0. unfold idx_add. destruct (decide (k0 = key k)) as [->|Hk].
  - setoid_rewrite lookup_insert. destruct (decide (id0 = id)) as [->|Hid].
    + split; intros _; [eexists; rewrite lookup_insert; eauto|]. eexists. split; [done|]. set_solver.
    + split.
      * intros (ids & [= <-] & Hin). apply elem_of_union in Hin as [Hin|Hin]; [set_solver|].
        destruct (idx !! key k) as [ids|] eqn:Hx; [|simpl in Hin; set_solver]. simpl in Hin.
        destruct (proj1 (Hok (key k) id0)) as (e & He & Hek); [eauto|].
        exists e. rewrite lookup_insert_ne by done. auto.
      * intros (e & He & Hek). rewrite lookup_insert_ne in He by done.
        destruct (proj2 (Hok (key k) id0)) as (ids & Hi & Hin); [eauto|].
        eexists. split; [done|]. rewrite Hi. simpl. set_solver.
  - rewrite lookup_insert_ne by done. rewrite (Hok k0 id0). split.
    + intros (e & He & Hek). exists e. destruct (decide (id0 = id)) as [->|]; [congruence|].
      rewrite lookup_insert_ne by done. auto.
    + intros (e & He & Hek). destruct (decide (id0 = id)) as [->|].
      * rewrite lookup_insert in He. injection He as <-. simpl in Hek. congruence.
      * rewrite lookup_insert_ne in He by done. eauto.
Qed.
Lemma idx_add_tight {K} `{Countable K} (key : K) id idx : idx_tight idx -> idx_tight (idx_add key id idx).
Proof.
  intros Ht k ids. unfold idx_add. destruct (decide (k = key)) as [->|].
  - rewrite lookup_insert. intros [= <-]. set_solver.
  - rewrite lookup_insert_ne by done. apply Ht.
Qed.
Lemma idx_del_lookup {K} `{Countable K} (key k : K) id idx id0 : idx_tight idx ->
  (exists ids, idx_del key id idx !! k = Some ids /\ id0 ∈ ids) <->
  (exists ids, idx !! k = Some ids /\ id0 ∈ ids) /\ ~ (k = key /\ id0 = id).
Proof.
  intros Ht. unfold idx_del. destruct (idx !! key) as [ids|] eqn:Hx.
  - destruct (bool_decide_reflect (ids ∖ {[id]} = ∅)) as [He|He].
    + destruct (decide (k = key)) as [->|].
      * rewrite lookup_delete. split; [intros (? & ? & _); done|].
        intros [(ids' & Hi & Hin) Hne]. rewrite Hx in Hi. injection Hi as <-. set_solver.
      * rewrite lookup_delete_ne by done. split; [intros Hh; split; [done|intros [? _]; done]|tauto].
    + destruct (decide (k = key)) as [->|].
      * rewrite lookup_insert. split.
        -- intros (ids' & [= <-] & Hin). split; [exists ids; set_solver|set_solver].
        -- intros [(ids' & Hi & Hin) Hne]. rewrite Hx in Hi. injection Hi as <-. eexists. split; [done|]. set_solver.
      * rewrite lookup_insert_ne by done. split; [intros Hh; split; [done|intros [? _]; done]|tauto].
  - split; [intros Hh; split; [done|]|tauto]. intros [-> _]. destruct Hh as (? & Hi & _). congruence.
Qed.
Lemma idx_del_tight {K} `{Countable K} (key : K) id idx : idx_tight idx -> idx_tight (idx_del key id idx).
Proof.
  intros Ht k ids. unfold idx_del. destruct (idx !! key) as [ids'|] eqn:Hx; [|apply Ht].
  destruct (bool_decide_reflect (ids' ∖ {[id]} = ∅)) as [He|He].
  - destruct (decide (k = key)) as [->|]; [rewrite lookup_delete; done|rewrite lookup_delete_ne by done; apply Ht].
  - destruct (decide (k = key)) as [->|].
    + rewrite lookup_insert. intros [= <-]. done.
    + rewrite lookup_insert_ne by done. apply Ht.
Qed.
Lemma idx_del_ok {K} `{Countable K} (key : blk -> K) byid idx id e :
  byid !! id = Some e -> idx_tight idx -> idx_ok key byid idx ->
  idx_ok key (delete id byid) (idx_del (key (e_blk e)) id idx).
Proof.
  intros He Ht Hok k id0. rewrite idx_del_lookup by done. rewrite (Hok k id0). split.
  - intros [(e0 & He0 & Hk) Hne]. exists e0. destruct (decide (id0 = id)) as [->|].
    + exfalso. apply Hne. split; [|done]. congruence.
    + rewrite lookup_delete_ne by done. auto.
  - intros (e0 & He0 & Hk). destruct (decide (id0 = id)) as [->|]; [rewrite lookup_delete in He0; done|].
    rewrite lookup_delete_ne in He0 by done. split; [eauto|]. intros [_ ?]. done.
Qed.

(** ** Channels held by the pool, and answered by a list of effects *)
Definition all_chans (byid : gmap string entry) : list nat := mjoin (map (fun x => e_chans (snd x)) (map_to_list byid)).
Definition answered (effs : list eff) : list nat := omap (fun e => match e with Answer ch _ => Some ch | _ => None end) effs.
Definition spawns (effs : list eff) : list (blk * bool * Z) :=
  omap (fun e => match e with SpawnTry k f t => Some (k, f, t) | _ => None end) effs.

Lemma answered_app a b : answered (a ++ b) = answered a ++ answered b.
Proof. apply omap_app. Qed.
Lemma spawns_app a b : spawns (a ++ b) = spawns a ++ spawns b.
Proof. apply omap_app. Qed.
Lemma answered_map (l : list nat) res : answered (map (fun ch => Answer ch res) l) = l.
Proof. induction l as [|x l IH]; [done|]. unfold answered in *. simpl. f_equal. exact IH. Qed.
Lemma spawns_map (l : list nat) res : spawns (map (fun ch => Answer ch res) l) = [].
Proof. induction l as [|x l IH]; [done|]. unfold spawns in *. simpl. exact IH. Qed.
Lemma elem_answered ch effs : ch ∈ answered effs <-> exists res, Answer ch res ∈ effs.
Proof.
  unfold answered. rewrite elem_of_list_omap. split.
  - intros ([ch' res|] & Hin & Heq); [injection Heq as ->; eauto|done].
  - intros (res & Hin). eexists. split; [exact Hin|done].
Qed.
Lemma elem_spawns k f t effs : (k, f, t) ∈ spawns effs <-> SpawnTry k f t ∈ effs.
Proof.
  unfold spawns. rewrite elem_of_list_omap. split.
  - intros ([|k' f' t'] & Hin & Heq); [done|]. injection Heq as -> -> ->. done.
  - intros Hin. eexists. split; [exact Hin|done].
Qed.

Lemma mjoin_perm {A} (l l' : list (list A)) : l ≡ₚ l' -> mjoin l ≡ₚ mjoin l'.
Proof.
  induction 1 as [|x l l' Hl IH|x y l|]; simpl; [done|by rewrite IH| |etrans; eauto].
  rewrite !(assoc_L (++)). f_equiv. apply Permutation_app_comm.
Qed.
Lemma all_chans_insert byid id e : byid !! id = None -> all_chans (<[id := e]> byid) ≡ₚ e_chans e ++ all_chans byid.
Proof.
  intros Hn. unfold all_chans. rewrite (mjoin_perm _ (map (fun x => e_chans (snd x)) ((id, e) :: map_to_list byid))).
  - reflexivity.
  - apply (fmap_Permutation (fun x : string * entry => e_chans (snd x))). apply map_to_list_insert, Hn.
Qed.
Lemma all_chans_delete byid id e : byid !! id = Some e -> all_chans byid ≡ₚ e_chans e ++ all_chans (delete id byid).
Proof.
  intros He. rewrite <- (insert_delete byid id e He) at 1. apply all_chans_insert, lookup_delete.
Qed.
Lemma all_chans_update byid id e e' : byid !! id = Some e ->
  all_chans (<[id := e']> byid) ≡ₚ e_chans e' ++ all_chans (delete id byid).
Proof. intros He. rewrite <- insert_delete_insert. apply all_chans_insert, lookup_delete. Qed.
Lemma elem_all_chans ch byid : ch ∈ all_chans byid <-> exists id e, byid !! id = Some e /\ ch ∈ e_chans e.
Proof.
  unfold all_chans. rewrite elem_of_list_join. split.
  - intros (l & Hch & Hl). apply elem_of_map in Hl as ([id e] & -> & Hin). apply elem_of_map_to_list in Hin. eauto.
  - intros (id & e & He & Hch). exists (e_chans e). split; [done|]. apply elem_of_map.
    exists (id, e). split; [done|]. apply elem_of_map_to_list, He.
Qed.
(** With pairwise distinct channels, a channel belongs to one entry, once. *)
Lemma chans_one_entry byid id1 id2 e1 e2 ch : NoDup (all_chans byid) ->
  byid !! id1 = Some e1 -> byid !! id2 = Some e2 -> ch ∈ e_chans e1 -> ch ∈ e_chans e2 -> id1 = id2.
Proof.
  intros Hnd H1 H2 Hc1 Hc2. destruct (decide (id1 = id2)) as [|Hne]; [done|exfalso].
  rewrite (all_chans_delete byid id1 e1 H1) in Hnd. apply NoDup_app in Hnd as (_ & Hd & _).
  apply (Hd ch Hc1). apply elem_all_chans. exists id2, e2. rewrite lookup_delete_ne by done. auto.
Qed.
Lemma chans_nodup_entry byid id e : NoDup (all_chans byid) -> byid !! id = Some e -> NoDup (e_chans e).
Proof. intros Hnd H. rewrite (all_chans_delete byid id e H) in Hnd. apply NoDup_app in Hnd as (Hd & _). done. Qed.

(** ** Removing entries *)
(** [shrink P res c c' effs]: exactly the entries whose id satisfies [P] are gone, and their channels
    were answered with [res]. *)
Record shrink (P : string -> Prop) (res : option goerr) (c c' : core) (effs : list eff) : Prop := {
  sh_highest : c_highest c' = c_highest c;
  sh_lib : c_lib c' = c_lib c;
  sh_pending : c_pending c' = c_pending c;
  sh_gone : forall id, P id -> c_byid c' !! id = None;
  sh_stay : forall id, ~ P id -> c_byid c' !! id = c_byid c !! id;
  sh_ok : core_ok c -> core_ok c';
  sh_perm : all_chans (c_byid c') ++ answered effs ≡ₚ all_chans (c_byid c);
  sh_effs : forall x, x ∈ effs -> exists ch id e, x = Answer ch res /\ P id /\ c_byid c !! id = Some e /\ ch ∈ e_chans e }.

Lemma shrink_none (P : string -> Prop) res c : (forall id, P id -> c_byid c !! id = None) -> shrink P res c c [].
Proof. intros H. split; try done. - unfold answered. simpl. rewrite app_nil_r. done. - set_solver. Qed.
Lemma shrink_ext (P Q : string -> Prop) res c c' effs : (forall id, P id <-> Q id) -> shrink P res c c' effs -> shrink Q res c c' effs.
Proof.
  intros HPQ [H1 H2 H3 H4 H5 H6 H7 H8]. split; try done.
  - intros id Hq. apply H4, HPQ, Hq.
  - intros id Hq. apply H5. rewrite HPQ. done.
  - intros x Hx. destruct (H8 x Hx) as (ch & id & e & ? & ? & ?). exists ch, id, e. split_and!; try tauto. apply HPQ. done.
Qed.
Lemma shrink_trans (P Q : string -> Prop) res c1 c2 c3 e1 e2 :
  (forall id, {P id} + {~ P id}) -> (forall id, {Q id} + {~ Q id}) ->
  shrink P res c1 c2 e1 -> shrink Q res c2 c3 e2 -> shrink (fun id => P id \/ Q id) res c1 c3 (e1 ++ e2).
Proof.
  intros Pdec Qdec H K. split.
  - rewrite (sh_highest _ _ _ _ _ K). apply H.
  - rewrite (sh_lib _ _ _ _ _ K). apply H.
  - rewrite (sh_pending _ _ _ _ _ K). apply H.
  - intros id Hpq. destruct (Qdec id) as [Hq|Hq]; [by apply (sh_gone _ _ _ _ _ K)|].
    rewrite (sh_stay _ _ _ _ _ K) by done. apply (sh_gone _ _ _ _ _ H). tauto.
  - intros id Hpq. rewrite (sh_stay _ _ _ _ _ K) by tauto. apply (sh_stay _ _ _ _ _ H). tauto.
  - intros Hok. apply K, H, Hok.
  - rewrite answered_app. rewrite <- (sh_perm _ _ _ _ _ H), <- (sh_perm _ _ _ _ _ K).
    rewrite <- !(assoc_L (++)). f_equiv. apply Permutation_app_comm.
  - intros x Hx. apply elem_of_app in Hx as [Hx|Hx].
    + destruct (sh_effs _ _ _ _ _ H x Hx) as (ch & id & e & ? & ? & ?). eauto 10.
    + destruct (sh_effs _ _ _ _ _ K x Hx) as (ch & id & e & ? & Hq & He & ?).
      destruct (Pdec id) as [Hp|Hp]; [rewrite (sh_gone _ _ _ _ _ H) in He; done|].
      rewrite (sh_stay _ _ _ _ _ H) in He by done. eauto 10.
Qed.

Lemma remove_entry_shrink id res c c' effs : remove_entry id res c = (c', effs) -> shrink (fun i => i = id) res c c' effs.
Proof.
  unfold remove_entry. destruct (c_byid c !! id) as [e|] eqn:He; intros [= <- <-].
  - split; simpl; try done.
    + intros i ->. apply lookup_delete.
    + intros i Hi. apply lookup_delete_ne. done.
    + intros [O1 O2 O3 O4 O5]. split; simpl.
      * eapply idx_del_ok; eauto.
      * eapply idx_del_ok; eauto.
      * by apply idx_del_tight.
      * by apply idx_del_tight.
      * intros i e0. destruct (decide (i = id)) as [->|]; [rewrite lookup_delete; done|rewrite lookup_delete_ne by done; apply O5].
    + rewrite answered_map. rewrite (all_chans_delete _ _ _ He). apply Permutation_app_comm.
    + intros x Hx. apply elem_of_map in Hx as (ch & -> & Hch). eauto 10.
  - apply shrink_none. intros i ->. done.
Qed.

Definition irr : option goerr := Some (ESent ErrBlockIrreversibility).
Definition remove_list (L : list string) (c : core) (effs : list eff) : core * list eff :=
  fold_left (fun '(c, effs) id => let '(c', e) := remove_entry id irr c in (c', effs ++ e)) L (c, effs).
Lemma remove_list_shrink L c effs0 c' effs : remove_list L c effs0 = (c', effs) ->
  exists e, effs = effs0 ++ e /\ shrink (fun i => i ∈ L) irr c c' e.
Proof.
  revert c effs0. induction L as [|id L IH]; intros c effs0 H.
  - cbn in H. injection H as <- <-. exists []. rewrite app_nil_r. split; [done|]. apply shrink_none. set_solver.
  - destruct (remove_entry id irr c) as [c1 e1] eqn:H1.
    destruct (IH c1 (effs0 ++ e1)) as (e2 & -> & H2); [unfold remove_list in *; cbn [fold_left] in H; rewrite H1 in H; exact H|].
    exists (e1 ++ e2). split; [by rewrite (assoc_L (++))|].
    eapply shrink_ext; [|eapply shrink_trans; [| |by eapply remove_entry_shrink|exact H2]].
    + intros i. simpl. rewrite elem_of_cons. done.
    + intros i. simpl. destruct (decide (i = id)); auto.
    + intros i. simpl. destruct (decide (i ∈ L)); auto.
Qed.

Lemma remove_height_shrink h c c' effs : core_ok c -> remove_height h c = (c', effs) ->
  shrink (fun i => exists e, c_byid c !! i = Some e /\ k_height (e_blk e) = h) irr c c' effs.
Proof.
  intros Hok. unfold remove_height. destruct (c_byheight c !! h) as [ids|] eqn:Hh; intros H.
  - destruct (remove_list_shrink (elements ids) c [] c' effs) as (e & -> & Hs); [exact H|].
    eapply shrink_ext; [|exact Hs]. intros i. simpl. rewrite elem_of_elements.
    rewrite <- (ok_height c Hok h i). split; [eauto|]. intros (ids' & Hi & Hin). congruence.
  - injection H as <- <-. apply shrink_none. intros i He. apply (ok_height c Hok) in He as (ids & Hi & _). congruence.
Qed.

Lemma held_dec (Q : N -> Prop) `{forall n, Decision (Q n)} (c : core) i :
  {exists e, c_byid c !! i = Some e /\ Q (k_height (e_blk e))} + {~ exists e, c_byid c !! i = Some e /\ Q (k_height (e_blk e))}.
Proof.
  destruct (c_byid c !! i) as [e|] eqn:He; [|right; intros (? & ? & _); done].
  destruct (decide (Q (k_height (e_blk e)))); [left; eauto|right; intros (e' & [= <-] & ?); done].
Qed.

(** The clean-up loop removes exactly the heights it walks over (no wrap: [h + n <= 2^64 - 1]). *)
Lemma remove_heights_shrink n h c c' effs : core_ok c -> (h + n < two64)%N -> remove_heights n h c = (c', effs) ->
  shrink (fun i => exists e, c_byid c !! i = Some e /\ (h <= k_height (e_blk e) < h + n)%N) irr c c' effs.
Proof.
  intros Hok. unfold remove_heights.
  set (F := fun '(h, c, effs) => let '(c', e) := remove_height h c in (add64 h 1, c', effs ++ e)).
  assert (Hgen : forall n, (h + n < two64)%N ->
    exists c' effs, N.iter n F (h, c, []) = ((h + n)%N, c', effs) /\
    shrink (fun i => exists e, c_byid c !! i = Some e /\ (h <= k_height (e_blk e) < h + n)%N) irr c c' effs).
  { clear n. induction n as [|n IH] using N.peano_ind; intros Hn.
    - exists c, []. split; [simpl; rewrite N.add_0_r; done|]. apply shrink_none. intros i (e & _ & ?). lia.
    - destruct IH as (c1 & e1 & Hi & H1); [lia|]. rewrite N.iter_succ, Hi. unfold F.
      destruct (remove_height (h + n) c1) as [c2 e2] eqn:Hr. exists c2, (e1 ++ e2). split.
      + f_equal. f_equal. unfold add64. rewrite N.mod_small by lia. lia.
      + pose proof (remove_height_shrink _ _ _ _ (sh_ok _ _ _ _ _ H1 Hok) Hr) as H2.
        eapply shrink_ext; [|eapply shrink_trans; [| |exact H1|exact H2]].
        * intros i. simpl. split.
          -- intros [(e & He & ?)|(e & He & ?)]; [exists e; split; [done|lia]|].
             destruct (held_dec (fun x => h <= x < h + n)%N c i) as [(e' & He' & Hx)|Hn'].
             ++ exfalso. rewrite (sh_gone _ _ _ _ _ H1) in He; [done|]. eauto.
             ++ rewrite (sh_stay _ _ _ _ _ H1) in He by done. exists e. split; [done|lia].
          -- intros (e & He & Hx). destruct (decide (k_height (e_blk e) < h + n)%N); [left; exists e; split; [done|lia]|].
             right. exists e. split; [|lia]. rewrite (sh_stay _ _ _ _ _ H1); [done|]. intros (e' & He' & ?).
             assert (e' = e) as -> by congruence. lia.
        * intros i. apply (held_dec (fun x => h <= x < h + n)%N).
        * intros i. apply (held_dec (fun x => x = h + n)%N). }
  intros Hn H. destruct (Hgen n Hn) as (c1 & e1 & Hi & H1). rewrite Hi in H. injection H as <- <-. exact H1.
Qed.

(** ** The handlers, one summary each *)
(** What every handler guarantees.  [k], [inc]: the block and the channels that come in (if any);
    [why ch res]: what justifies an answer. *)
Record handled (src : option (blk * list nat)) (c c' : core) (effs : list eff) : Prop := {
  hd_ok : core_ok c -> core_ok c';
  hd_perm : all_chans (c_byid c') ++ answered effs ≡ₚ default [] (snd <$> src) ++ all_chans (c_byid c);
  hd_old : forall id e', c_byid c' !! id = Some e' ->
    (exists e, c_byid c !! id = Some e /\ e_blk e' = e_blk e) \/
    (c_byid c !! id = None /\ exists k inc, src = Some (k, inc) /\ id = k_id k /\ e_blk e' = k);
  hd_chan : forall id e' ch, c_byid c' !! id = Some e' -> ch ∈ e_chans e' ->
    (exists e, c_byid c !! id = Some e /\ ch ∈ e_chans e) \/
    (exists k inc, src = Some (k, inc) /\ id = k_id k /\ ch ∈ inc) }.

Lemma shrink_handled P res c c' effs : (forall id, {P id} + {~ P id}) -> shrink P res c c' effs -> handled None c c' effs.
Proof.
  intros Pdec H. split.
  - apply H.
  - apply H.
  - intros id e' He'. destruct (Pdec id) as [Hp|Hp]; [rewrite (sh_gone _ _ _ _ _ H) in He'; done|].
    rewrite (sh_stay _ _ _ _ _ H) in He' by done. eauto.
  - intros id e' ch He' Hch. destruct (Pdec id) as [Hp|Hp]; [rewrite (sh_gone _ _ _ _ _ H) in He'; done|].
    rewrite (sh_stay _ _ _ _ _ H) in He' by done. eauto.
Qed.
Lemma core_ok_same c c' : c_byid c = c_byid c' -> c_byprev c = c_byprev c' -> c_byheight c = c_byheight c' -> core_ok c -> core_ok c'.
Proof. intros E1 E2 E3 [O1 O2 O3 O4 O5]. split; rewrite <- ?E1, <- ?E2, <- ?E3; done. Qed.
(** A change of the other fields is invisible to [handled]. *)
Lemma handled_same src c1 c1' c2 effs : c_byid c1 = c_byid c1' -> c_byprev c1 = c_byprev c1' -> c_byheight c1 = c_byheight c1' ->
  handled src c1 c2 effs -> handled src c1' c2 effs.
Proof.
  intros E1 E2 E3 [H1 H2 H3 H4]. split.
  - intros Hok. apply H1. by eapply core_ok_same; [..|exact Hok].
  - by rewrite <- E1.
  - rewrite <- E1. done.
  - rewrite <- E1. done.
Qed.
Lemma handled_effs src c c' effs effs' : answered effs = [] -> handled src c c' effs' -> handled src c c' (effs ++ effs').
Proof.
  intros Ha [H1 H2 H3 H4]. split; try done. rewrite answered_app, Ha. done.
Qed.
Lemma handled_refl c c' effs : c_byid c = c_byid c' -> c_byprev c = c_byprev c' -> c_byheight c = c_byheight c' ->
  answered effs = [] -> handled None c c' effs.
Proof.
  intros E1 E2 E3 Ha. split.
  - by apply core_ok_same.
  - rewrite Ha, app_nil_r, <- E1. done.
  - rewrite <- E1. eauto.
  - rewrite <- E1. eauto.
Qed.

Lemma children_answered o now id c : answered (check_children o now id c) = [].
Proof.
  unfold check_children. destruct (c_byprev c !! id); [|done]. induction (elements g) as [|x l IH]; [done|]. simpl.
  destruct (c_byid c !! x); simpl; done.
Qed.
Lemma children_spawn o now id c k f t : SpawnTry k f t ∈ check_children o now id c ->
  t = now /\ f = force_child o now k /\ exists cid e, c_byid c !! cid = Some e /\ k = e_blk e.
Proof.
  unfold check_children. destruct (c_byprev c !! id) as [ids|]; [|set_solver].
  intros Hin. apply elem_of_list_omap in Hin as (cid & _ & Hc). destruct (c_byid c !! cid) as [e|] eqn:He; [|done].
  injection Hc as <- <- <-. split; [done|]. split; [done|]. by exists cid, e.
Qed.
Lemma children_only_spawn o now id c x : x ∈ check_children o now id c -> exists k f t, x = SpawnTry k f t.
Proof.
  unfold check_children. destruct (c_byprev c !! id) as [ids|]; [|set_solver].
  intros Hin. apply elem_of_list_omap in Hin as (cid & _ & Hc). destruct (c_byid c !! cid) as [e|] eqn:He; [|done].
  injection Hc as <-. eauto.
Qed.
(** Every held block with that parent gets a request. *)
Lemma children_complete o now id c cid e : core_ok c -> c_byid c !! cid = Some e -> k_prev (e_blk e) = id ->
  SpawnTry (e_blk e) (force_child o now (e_blk e)) now ∈ check_children o now id c.
Proof.
  intros Hok He Hp. unfold check_children. destruct (proj2 (ok_prev c Hok id cid)) as (ids & Hi & Hin); [eauto|].
  rewrite Hi. apply elem_of_list_omap. exists cid. rewrite elem_of_elements, He. done.
Qed.

Lemma add_entry_handled now k inc c c' effs : core_ok c -> add_entry now k inc c = (c', effs) ->
  handled (Some (k, inc)) c c' effs /\ answered effs = [] /\
  (forall x, x ∈ effs -> x = SpawnTry k false now) /\
  c_highest c' = c_highest c /\ c_lib c' = c_lib c /\ c_pending c' = c_pending c /\
  (exists e', c_byid c' !! k_id k = Some e' /\ forall ch, ch ∈ inc -> ch ∈ e_chans e') /\
  (forall id, c_byid c !! id <> None -> c_byid c' !! id <> None) /\
  dom (c_byid c') = {[ k_id k ]} ∪ dom (c_byid c).
Proof.
  intros Hok0. unfold add_entry.
  assert (Hans : forall (b1 b2 : bool), answered (if b1 then [] else if b2 then [] else [SpawnTry k false now]) = []) by (by intros [] []).
  assert (Honly : forall (b1 b2 : bool) x, x ∈ (if b1 then [] else if b2 then [] else [SpawnTry k false now]) -> x = SpawnTry k false now)
    by (intros [] [] x Hx; set_solver).
  destruct (c_byid c !! k_id k) as [old|] eqn:Hold; intros [= <- <-].
  - split; [|split_and!; try done].
    + split; simpl.
      * intros [O1 O2 O3 O4 O5]. split; simpl; try done.
        -- intros k0 id. rewrite (O1 k0 id). destruct (decide (id = k_id k)) as [->|].
           ++ rewrite lookup_insert, Hold. split; intros (e & [= <-] & <-); eexists; (split; [done|]); done.
           ++ by rewrite lookup_insert_ne.
        -- intros k0 id. rewrite (O2 k0 id). destruct (decide (id = k_id k)) as [->|].
           ++ rewrite lookup_insert, Hold. split; intros (e & [= <-] & <-); eexists; (split; [done|]); done.
           ++ by rewrite lookup_insert_ne.
        -- intros id e. destruct (decide (id = k_id k)) as [->|].
           ++ rewrite lookup_insert. intros [= <-]. simpl. by apply O5.
           ++ rewrite lookup_insert_ne by done. apply O5.
      * rewrite Hans, app_nil_r. rewrite (all_chans_update _ _ _ _ Hold), (all_chans_delete _ _ _ Hold). simpl.
        rewrite !(assoc_L (++)). f_equiv. apply Permutation_app_comm.
      * intros id e'. destruct (decide (id = k_id k)) as [->|].
        -- rewrite lookup_insert. intros [= <-]. left. eauto.
        -- rewrite lookup_insert_ne by done. eauto.
      * intros id e' ch. destruct (decide (id = k_id k)) as [->|].
        -- rewrite lookup_insert. intros [= <-]. simpl. intros [Hin|Hin]%elem_of_app; [left; eauto|right; eauto].
        -- rewrite lookup_insert_ne by done. eauto.
    + by intros x Hx%Honly.
    + simpl. eexists. rewrite lookup_insert. split; [done|]. simpl. set_solver.
    + intros id. simpl. destruct (decide (id = k_id k)) as [->|]; [by rewrite lookup_insert|by rewrite lookup_insert_ne].
    + simpl. rewrite dom_insert_L. done.
  - split; [|split_and!; try done].
    + split; simpl.
      * intros [O1 O2 O3 O4 O5]. split; simpl.
        -- by apply idx_add_ok.
        -- by apply idx_add_ok.
        -- by apply idx_add_tight.
        -- by apply idx_add_tight.
        -- intros id e. destruct (decide (id = k_id k)) as [->|].
           ++ rewrite lookup_insert. intros [= <-]. done.
           ++ rewrite lookup_insert_ne by done. apply O5.
      * rewrite Hans, app_nil_r. by rewrite all_chans_insert.
      * intros id e'. destruct (decide (id = k_id k)) as [->|].
        -- rewrite lookup_insert. intros [= <-]. right. eauto 10.
        -- rewrite lookup_insert_ne by done. eauto.
      * intros id e' ch. destruct (decide (id = k_id k)) as [->|].
        -- rewrite lookup_insert. intros [= <-] Hin. right. eauto.
        -- rewrite lookup_insert_ne by done. eauto.
    + by intros x Hx%Honly.
    + simpl. eexists. rewrite lookup_insert. split; [done|]. simpl. set_solver.
    + intros id. simpl. destruct (decide (id = k_id k)) as [->|]; [by rewrite lookup_insert|by rewrite lookup_insert_ne].
    + simpl. rewrite dom_insert_L. done.
Qed.

(** Why a new block is refused *)
Definition new_refusal (o : ap_opts) (k : blk) (c : core) (e : goerr) : Prop :=
  (e = ESent ErrMaxHeight /\ (add64 (c_highest c) (ao_max_delta o) < k_height k)%N) \/
  (e = ESent ErrMaxPendingBlocks /\ (k_height k <= add64 (c_highest c) (ao_max_delta o))%N /\
     (wrap_i64 (Z.of_N (ao_max_pending o)) <= Z.of_nat (size (c_byid c)))%Z) \/
  (e = ESent ErrBlockIrreversibility /\ (k_height k <= c_lib c)%N /\ (k_height k <= add64 (c_highest c) (ao_max_delta o))%N /\
     (Z.of_nat (size (c_byid c)) < wrap_i64 (Z.of_N (ao_max_pending o)))%Z).
Definition new_accepted (o : ap_opts) (k : blk) (c : core) : Prop :=
  (k_height k <= add64 (c_highest c) (ao_max_delta o))%N /\
  (Z.of_nat (size (c_byid c)) < wrap_i64 (Z.of_N (ao_max_pending o)))%Z /\ (c_lib c < k_height k)%N.
Lemma handle_new_cases o now k inc c c' effs : handle_new o now k inc c = (c', effs) ->
  (exists e, new_refusal o k c e /\ c' = c /\ effs = map (fun ch => Answer ch (Some e)) inc) \/
  (new_accepted o k c /\ add_entry now k inc c = (c', effs)).
Proof.
  unfold handle_new, new_refusal, new_accepted. case_bool_decide as H1; [|case_bool_decide as H2; [|case_bool_decide as H3]].
  - intros [= <- <-]. left. eexists. split; [|done]. tauto.
  - intros [= <- <-]. left. eexists. split; [|done]. right; left. split_and!; [done|lia|done].
  - intros [= <- <-]. left. eexists. split; [|done]. right; right. split_and!; [done|done|lia|lia].
  - intros H. right. split; [|done]. split_and!; lia.
Qed.
Lemma handle_new_handled o now k inc c c' effs : core_ok c -> handle_new o now k inc c = (c', effs) -> handled (Some (k, inc)) c c' effs.
Proof.
  intros Hok [(e & _ & -> & ->)|[_ H]]%handle_new_cases.
  - split; [done| | |].
    + rewrite answered_map. simpl. apply Permutation_app_comm.
    + eauto.
    + eauto.
  - by apply add_entry_handled in H as [? _].
Qed.

Lemma handle_status_cases o now k res c c' effs : handle_status o now k res c = (c', effs) ->
  let c1 := Core (c_highest c) (c_lib c) (c_byid c) (c_byprev c) (c_byheight c) (c_pending c ∖ {[ k_id k ]}) in
  (is_err_opt res ErrBlockState = true /\ c' = c1 /\ effs = [SpawnTry k false now]) \/
  (is_err_opt res ErrBlockState = false /\ is_err_opt res ErrUnknownPreviousBlock = true /\ c' = c1 /\ effs = []) \/
  (is_err_opt res ErrBlockState = false /\ is_err_opt res ErrUnknownPreviousBlock = false /\
   exists answers, shrink (fun i => i = k_id k) res c1 c' answers /\
     effs = match res with None => check_children o now (k_id k) c1 | Some _ => [] end ++ answers).
Proof.
  unfold handle_status. destruct (is_err_opt res ErrBlockState); [intros [= <- <-]; eauto|].
  destruct (is_err_opt res ErrUnknownPreviousBlock); simpl; [intros [= <- <-]; right; left; done|].
  destruct (remove_entry _ _ _) as [c2 answers] eqn:Hr. intros [= <- <-]. right; right. split_and!; try done.
  exists answers. split; [by apply remove_entry_shrink|done].
Qed.
Lemma handle_status_handled o now k res c c' effs : handle_status o now k res c = (c', effs) -> handled None c c' effs.
Proof.
  intros [(_ & -> & ->)|[(_ & _ & -> & ->)|(_ & _ & answers & Hs & ->)]]%handle_status_cases.
  - by apply handled_refl.
  - by apply handled_refl.
  - apply handled_effs; [destruct res; [done|apply children_answered]|].
    eapply handled_same; [| | |eapply shrink_handled; [|exact Hs]]; try done. intros i. simpl. destruct (decide (i = k_id k)); auto.
Qed.

Lemma mjoin_children_answered o now ids c : answered (mjoin (map (fun id => check_children o now id c) ids)) = [].
Proof. induction ids as [|id ids IH]; [done|]. simpl. rewrite answered_app, children_answered. done. Qed.

Lemma handle_fork_heads_cases o now fh lib c c' effs : core_ok c ->
  fh_lib fh = Some lib -> (lib < max_u64)%N -> (c_lib c < two64)%N ->
  handle_fork_heads o now fh c = Done (Some (c', effs)) ->
  let c1 := Core (c_highest c) lib (c_byid c) (c_byprev c) (c_byheight c) (c_pending c) in
  exists answers, effs = mjoin (map (fun id => check_children o now id c1) (fh_heads fh)) ++ answers /\
    shrink (fun i => exists e, c_byid c !! i = Some e /\ (add64 (c_lib c) 1 <= k_height (e_blk e) <= lib)%N) irr c1 c' answers.
Proof.
  intros Hok Hl Hlt Hold. unfold handle_fork_heads. rewrite Hl. rewrite bool_decide_false by lia.
  set (c1 := Core _ lib _ _ _ _).
  set (n := if bool_decide _ then _ else _).
  destruct (remove_heights n (add64 (c_lib c) 1) c1) as [c2 answers] eqn:Hr. intros [= <- <-]. simpl.
  assert (Hs : (add64 (c_lib c) 1 < two64)%N) by (unfold add64; apply N.mod_lt; done).
  apply remove_heights_shrink in Hr.
  - exists answers. split; [done|]. eapply shrink_ext; [|exact Hr]. intros i. simpl. split.
    + intros (e & He & Hh). exists e. split; [done|]. unfold n in Hh. case_bool_decide; lia.
    + intros (e & He & Hh). exists e. split; [done|]. unfold n. rewrite bool_decide_true by lia. lia.
  - eapply core_ok_same; [..|exact Hok]; done.
  - unfold n. unfold max_u64 in Hlt. case_bool_decide; lia.
Qed.
Lemma handle_fork_heads_handled o now fh lib c c' effs : core_ok c ->
  fh_lib fh = Some lib -> (lib < max_u64)%N -> (c_lib c < two64)%N ->
  handle_fork_heads o now fh c = Done (Some (c', effs)) -> handled None c c' effs.
Proof.
  intros Hok Hl Hlt Hold H. destruct (handle_fork_heads_cases _ _ _ _ _ _ _ Hok Hl Hlt Hold H) as (answers & -> & Hs).
  apply handled_effs; [apply mjoin_children_answered|].
  eapply handled_same; [| | |eapply shrink_handled; [|exact Hs]]; try done.
  intros i. apply (held_dec (fun x => add64 (c_lib c) 1 <= x <= lib)%N).
Qed.
Lemma handle_broadcast_handled o now k c c' effs : handle_broadcast o now k c = (c', effs) -> handled None c c' effs.
Proof. intros [= <- <-]. apply handled_refl; try done. apply children_answered. Qed.
