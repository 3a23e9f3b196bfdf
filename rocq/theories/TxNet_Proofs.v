(** Invariants of the network of [TxNet_Spec]. *)
From Verif Require Import GoBase Gossip_Model Gossip_Spec TxCache_Model Watchdog_Model Applicator_Model Applicator_Spec Applicator_Sys Applicator_Inv Applicator_Inv6 Deliver_Spec Rest_Spec Rest_Proofs TxNet_Spec.

(** ** The cache *)
Lemma prune_loop_sub now dur its : forall m n, (tx_prune_loop now dur its m n).1 ⊆ m.
Proof. induction its as [|it its IH]; intros m n; cbn; [done|]. case_bool_decide; [|apply IH]. etrans; [apply IH|set_solver]. Qed.
Lemma prune_sub now c : tc_map (tx_prune now c) ⊆ tc_map c.
Proof. unfold tx_prune. pose proof (prune_loop_sub now (tc_dur c) (tc_items c) (tc_map c) 0) as Hs. destruct (tx_prune_loop _ _ _ _ _). exact Hs. Qed.
Lemma check_loop_sub now ids : forall c k c' n, tx_check_loop now ids c k = Done (c', n) -> forall id, id ∈ tc_map c' -> id ∈ tc_map c \/ id ∈ ids.
Proof.
  induction ids as [|i ids IH]; intros c k c' n; cbn; [intros [= -> ->]; by left|]. case_bool_decide.
  - intros Hl id Hid. destruct (IH _ _ _ _ Hl id Hid); [by left|right; by right].
  - unfold tx_add. destruct (match last (tc_items c) with Some _ => _ | None => _ end); [done|]. cbn. intros Hl id Hid. destruct (IH _ _ _ _ Hl id Hid) as [Hx|Hx]; [|right; by right].
    cbn in Hx. apply elem_of_union in Hx as [->%elem_of_singleton|?]; [right; left|by left].
Qed.
Lemma check_sub now us c c' n id : tx_check now us c = Done (c', n) -> id ∈ tc_map c' -> id ∈ tc_map c \/ exists u, u ∈ us /\ str (t_id u) = id.
Proof.
  unfold tx_check. intros Hc Hid. destruct (check_loop_sub _ _ _ _ _ _ Hc id Hid) as [Hx|Hx]; [left; by apply prune_sub in Hx|right].
  apply elem_of_list_In, in_map_iff in Hx as (u & <- & Hu). exists u. split; [by apply elem_of_list_In|done].
Qed.
Lemma check_dup now u c c' n : tx_check now [u] c = Done (c', S n) -> str (t_id u) ∈ tc_map c.
Proof.
  unfold tx_check. cbn. case_bool_decide as Hd; [intros _; by apply prune_sub in Hd|]. unfold tx_add. destruct (match last _ with Some _ => _ | None => _ end); cbn; [done|]. intros E. injection E. lia.
Qed.

Section network.
Context (encode : transaction -> option string) (decode_tx : string -> option transaction).
Context (su : nat -> tsetup) (links : nat -> list nat) (t : transaction).
Context (HC : tcommon encode decode_tx su t).
Notation genuine := (genuine t).
Notation twell := (twell decode_tx su t false false).
Notation tstep := (tstep encode decode_tx su links).
Notation treceive := (treceive decode_tx su links).
Notation tsend := (tsend su links).
Notation tsent_on := (tsent_on su links).
Notation toffered := (toffered decode_tx su).
Notation tended := (tended decode_tx su).

(** ** The applicator of a node *)
Definition begun (s : sys) (P : tx_phase -> Prop) : Prop := exists i q, s_txs s !! i = Some q /\ tp_tx q = t /\ P (tp_phase q).
Definition in_block (s : sys) : Prop := exists b now, OAccepted b now ∈ s_log s /\ t ∈ b_txs b.
Record AT (pool : list transaction) (s : sys) : Prop := {
  at_shape : TxShape s;
  at_gen : forall i q, s_txs s !! i = Some q -> genuine (tp_tx q);
  at_good : forall i q, s_txs s !! i = Some q -> tp_tx q = t -> (forall r, tp_buf q = Some r -> r = None) /\ (forall r, tp_ret q = Some r -> r = None /\ tp_phase q = TServed);
  at_bc : forall b, b ∈ s_bc s -> Forall genuine (b_txs b);
  at_cache : str (t_id t) ∈ tc_map (s_cache s) \/ begun s (fun ph => ph = TRpc \/ ph = TServed) -> (t ∈ pool \/ in_block s) \/ begun s (fun ph => ph = TRpc) }.
Lemma AT_same pool s s' : AT pool s -> s_txs s' = s_txs s -> s_cache s' = s_cache s -> (forall b, b ∈ s_bc s' -> b ∈ s_bc s \/ Forall genuine (b_txs b)) -> (forall e, e ∈ s_log s -> e ∈ s_log s') -> AT pool s'.
Proof.
  intros [H1 H2 H3 H4 H5] Et Ec Eb El. split; unfold TxShape, begun, in_block in *; rewrite ?Et, ?Ec; try done.
  - intros b Hb. destruct (Eb b Hb) as [?|?]; [by apply H4|done].
  - intros Hx. destruct (H5 Hx) as [[?|(b & now & Hb & Hin)]|?]; [by left; left|left; right; exists b, now; split; [by apply El|done]|by right].
Qed.
(** One call of ApplyTransaction moves on. *)
Lemma AT_alter pool pool' s s' i q f : AT pool s -> s_txs s !! i = Some q -> s_txs s' = alter f i (s_txs s) -> tp_tx (f q) = tp_tx q -> tx_ok (f q) ->
  (tp_tx q = t -> (forall r, tp_buf (f q) = Some r -> r = None) /\ (forall r, tp_ret (f q) = Some r -> r = None /\ tp_phase (f q) = TServed)) ->
  (forall id, id ∈ tc_map (s_cache s') -> id ∈ tc_map (s_cache s) \/ id = str (t_id (tp_tx q))) ->
  s_bc s' = s_bc s -> (forall e, e ∈ s_log s -> e ∈ s_log s') -> (forall u, u ∈ pool -> u ∈ pool') ->
  (tp_tx q = t -> (t ∈ pool' \/ in_block s') \/ tp_phase (f q) = TRpc \/
     (tp_phase q <> TRpc /\ (str (t_id t) ∈ tc_map (s_cache s') \/ tp_phase (f q) = TServed -> str (t_id t) ∈ tc_map (s_cache s) \/ tp_phase q = TServed))) -> AT pool' s'.
Proof.
  intros [H1 H2 H3 H4 H5] Hi Et Ex Hok Hgood Hc Eb El Hpool Hcase.
  assert (Hl : forall j p, s_txs s' !! j = Some p -> (j <> i /\ s_txs s !! j = Some p) \/ (j = i /\ p = f q)).
  { intros j p Hj. rewrite Et in Hj. destruct (decide (j = i)) as [->|Hne]; [right|left; by rewrite list_lookup_alter_ne in Hj]. rewrite list_lookup_alter, Hi in Hj. by injection Hj as <-. }
  assert (Hnew : s_txs s' !! i = Some (f q)) by (rewrite Et, list_lookup_alter, Hi; done).
  assert (Hkeep : forall j p, j <> i -> s_txs s !! j = Some p -> s_txs s' !! j = Some p) by (intros j p Hne Hj; rewrite Et; by rewrite list_lookup_alter_ne).
  split.
  - intros j p Hj. destruct (Hl j p Hj) as [[_ ?]|[-> ->]]; [by eapply H1|done].
  - intros j p Hj. destruct (Hl j p Hj) as [[_ ?]|[-> ->]]; [by eapply H2|]. rewrite Ex. by eapply H2.
  - intros j p Hj. destruct (Hl j p Hj) as [[_ ?]|[-> ->]]; [by eapply H3|]. rewrite Ex. done.
  - rewrite Eb. exact H4.
  - assert (Hold : (t ∈ pool \/ in_block s) \/ (exists j p, j <> i /\ s_txs s !! j = Some p /\ tp_tx p = t /\ tp_phase p = TRpc) -> (t ∈ pool' \/ in_block s') \/ begun s' (fun ph => ph = TRpc)).
    { intros [[?|(b & now & Hb & Hin)]|(j & p & Hne & Hj & E1 & E2)]; [left; left; by apply Hpool|left; right; exists b, now; split; [by apply El|done]|].
      right. exists j, p. split; [by apply Hkeep|done]. }
    intros Hx. destruct (decide (tp_tx q = t)) as [Eq|Nq].
    + destruct (Hcase Eq) as [?|[Hr|(C1 & C2)]]; [by left|right; exists i, (f q); split_and!; [done|congruence|done]|].
      destruct (decide (tp_phase (f q) = TRpc)) as [Hr|Hnr]; [right; exists i, (f q); split_and!; [done|congruence|done]|].
      assert (HX : str (t_id t) ∈ tc_map (s_cache s) \/ begun s (fun ph => ph = TRpc \/ ph = TServed)).
      { assert (Hq : str (t_id t) ∈ tc_map (s_cache s) \/ tp_phase q = TServed -> str (t_id t) ∈ tc_map (s_cache s) \/ begun s (fun ph => ph = TRpc \/ ph = TServed)).
        { intros [?|?]; [by left|right]. exists i, q. split_and!; [done|done|by right]. }
        destruct Hx as [Hx|(j & p & Hj & E1 & E2)]; [apply Hq, C2; by left|]. destruct (Hl j p Hj) as [[Hne Hj0]|[-> ->]]; [right; exists j, p; done|].
        destruct E2 as [?|E2]; [done|]. apply Hq, C2. by right. }
      apply Hold. destruct (H5 HX) as [?|(j & p & Hj & E1 & E2)]; [by left|right]. exists j, p. split_and!; try done. intros ->. congruence.
    + apply Hold. destruct H5 as [?|(j & p & Hj & E1 & E2)]; [|by left|right; exists j, p; split_and!; try done; intros ->; congruence].
      destruct Hx as [Hx|(j & p & Hj & E1 & E2)].
      * destruct (Hc _ Hx) as [?|E]; [by left|]. exfalso. apply Nq. by apply (H2 i q Hi).
      * destruct (Hl j p Hj) as [[Hne Hj0]|[-> ->]]; [right; exists j, p; done|congruence].
Qed.
(** What a step asks of the node *)
Definition acond (s : sys) (l : label) : Prop :=
  match l with
  | LTxDone i res => forall p, s_txs s !! i = Some p -> tp_tx p = t -> res = None
  | LTxTimeout i _ => forall p, s_txs s !! i = Some p -> tp_tx p <> t
  | LAccept b => Forall genuine (b_txs b)
  | LTxCall u => genuine u
  | _ => True
  end.
Lemma AT_step o pool s l s' : AT pool s -> acond s l -> Step o s l s' -> AT (pool ++ taccepted l s) s'.
Proof.
  intros HA Hc Hst. assert (Hpool : forall u, u ∈ pool -> u ∈ pool ++ taccepted l s) by (intros u Hu; apply elem_of_app; by left).
  assert (Hw : forall x, AT pool x -> taccepted l s = [] -> AT (pool ++ taccepted l s) x) by (intros x Hx ->; by rewrite app_nil_r).
  destruct Hst;
    try (apply Hw; [|done]; eapply (AT_same pool s); [done|done|done|by left|intros ev He; cbn; first [exact He|right; exact He|right; right; exact He]]; fail);
    try (apply Hw; [|done]; match goal with |- AT _ (do_effs ?l ?e ?x) => pose proof (do_effs_same l e x) as HS end;
         eapply (AT_same pool s); [done|by rewrite (se_txs _ _ _ HS)|by rewrite (se_cache _ _ _ HS)|rewrite (se_bc _ _ _ HS); by left|];
         intros ev He; destruct (se_log _ _ _ HS) as (new & -> & _); apply elem_of_app; right; cbn; first [exact He|right; exact He|right; right; exact He]).
  - (* a broadcast arrives *) apply Hw; [|done]. eapply (AT_same pool s); [done|done|done| |done]. cbn. intros b' [?|Hb]%elem_of_app; [by left|right]. by apply elem_of_list_singleton in Hb as ->.
  - (* a broadcast is handled *) apply Hw; [|done]. match goal with |- AT _ (do_effs ?l ?e ?x) => pose proof (do_effs_same l e x) as HS end.
    destruct HA as [A1 A2 A3 A4 A5]. assert (Hb : b ∈ s_bc s) by (by eapply elem_of_list_lookup_2).
    assert (El : forall ev, ev ∈ OAccepted b (s_now s) :: s_log s -> ev ∈ s_log (do_effs (λ _ : nat, false) effs (add_log (OAccepted b (s_now s)) (set_core core' (set_cache cache' (set_bc (delete i (s_bc s)) s)))))).
    { intros ev He. destruct (se_log _ _ _ HS) as (new & -> & _). apply elem_of_app. by right. }
    split; unfold TxShape, begun; rewrite ?(se_txs _ _ _ HS), ?(se_cache _ _ _ HS), ?(se_bc _ _ _ HS); try done.
    + intros b' Hb'. apply A4. cbn in Hb'. by eapply elem_of_delete.
    + cbn. intros Hx. assert (Hor : (str (t_id t) ∈ tc_map (s_cache s) \/ begun s (fun ph => ph = TRpc \/ ph = TServed)) \/ t ∈ b_txs b).
      { destruct Hx as [Hx|?]; [|left; by right]. unfold tx_check_block in H1. destruct (check_sub _ _ _ _ _ _ H1 Hx) as [?|(u & Hu & Eu)]; [left; by left|right].
        pose proof (A4 b Hb) as Hg. rewrite Forall_forall in Hg. by rewrite <- (Hg u Hu Eu). }
      destruct Hor as [HX|Hin]; [|left; right; exists b, (s_now s); split; [apply El; left|done]].
      destruct (A5 HX) as [[?|(b' & now' & Hb' & Hin)]|?]; [by left; left|left; right; exists b', now'; split; [apply El; by right|done]|by right].
  - apply Hw; [|done]. eapply (AT_same pool s); [done|done|done| |done]. cbn. intros b' Hb'. left. by eapply elem_of_delete.
  - (* a call *) apply Hw; [|done]. destruct HA as [A1 A2 A3 A4 A5]. cbn in Hc.
    assert (Hl : forall j p, (s_txs s ++ [TxProc t0 TSend None None]) !! j = Some p -> s_txs s !! j = Some p \/ p = TxProc t0 TSend None None).
    { intros j p Hj. apply lookup_app_Some in Hj as [?|[_ Hj]]; [by left|right]. destruct (j - length (s_txs s)) as [|k]; [by injection Hj as <-|done]. }
    split; cbn.
    + intros j p Hj. cbn in Hj. destruct (Hl j p Hj) as [?| ->]; [by eapply A1|done].
    + intros j p Hj. destruct (Hl j p Hj) as [?| ->]; [by eapply A2|done].
    + intros j p Hj. destruct (Hl j p Hj) as [?| ->]; [by eapply A3|done].
    + done.
    + intros Hx. destruct A5 as [?|(j & p & Hj & E1 & E2)]; [|by left|right; exists j, p; split; [cbn; by apply lookup_app_l_Some|done]].
      destruct Hx as [?|(j & p & Hj & E1 & E2)]; [by left|right]. cbn in Hj. destruct (Hl j p Hj) as [?| ->]; [by exists j, p|]. cbn in E2. by destruct E2.
  - (* sent *) apply Hw; [|done]. eapply (AT_alter pool pool s _ i _ _ HA H); try done; cbn; [by left|intros _; right; right; split; [done|]; intros [?|?]; [by left|done]].
  - (* submitted *) apply Hw; [|done]. pose proof (at_good _ _ HA _ _ H) as Hg. pose proof (at_shape _ _ HA _ _ H) as Hs. cbn in Hg, Hs. subst buf.
    eapply (AT_alter pool pool s _ i _ _ HA H); try done; cbn.
    + intros E. split; [done|]. intros r ->. destruct (Hg E) as [_ Hr]. by destruct (Hr r eq_refl).
    + intros id Hid. destruct (check_sub _ _ _ _ _ _ H1 Hid) as [?|(u & Hu & <-)]; [by left|right]. by apply elem_of_list_singleton in Hu as ->.
    + intros e He. by right.
    + intros _. right. by left.
  - (* a duplicate *) apply Hw; [|done]. pose proof (at_good _ _ HA _ _ H) as Hg. cbn in Hg.
    eapply (AT_alter pool pool s _ i _ _ HA H); try done; cbn.
    + intros E. split; [by intros r [= <-]|]. intros r ->. destruct (Hg E) as [_ Hr]. by destruct (Hr r eq_refl).
    + intros id Hid. destruct (check_sub _ _ _ _ _ _ H1 Hid) as [?|(u & Hu & <-)]; [by left|right]. by apply elem_of_list_singleton in Hu as ->.
    + intros e He. by right.
    + intros ->. right. right. split; [done|]. intros _. left. by eapply check_dup.
  - (* answered *) pose proof (at_good _ _ HA _ _ H) as Hg. cbn in Hg, Hc.
    eapply (AT_alter pool _ s _ i _ _ HA H); try done; cbn.
    + intros E. split; [intros r [= <-]; by eapply (Hc _ H)|]. intros r ->. destruct (Hg E) as [_ Hr]. by destruct (Hr r eq_refl).
    + by left.
    + intros e He. by right.
    + intros ->. left. left. rewrite (Hc _ H eq_refl), H. cbn. apply elem_of_app. right. left.
  - (* returned *) apply Hw; [|done]. pose proof (at_good _ _ HA _ _ H) as Hg. pose proof (at_shape _ _ HA _ _ H) as Hs. unfold tx_ok in Hs. cbn in Hg, Hs.
    assert (ph = TServed) as -> by (destruct ph; [by destruct Hs|done|done|done]).
    eapply (AT_alter pool pool s _ i _ _ HA H); try done; cbn.
    + intros E. destruct (Hg E) as [Hr _]. split; [done|]. intros r' Hr'. split; [by apply Hr|done].
    + by left.
    + intros e He. by right.
    + intros _. right. right. split; [done|]. intros _. by right.
  - (* given up *) apply Hw; [|done]. cbn in Hc. pose proof (at_shape _ _ HA _ _ H) as Hs. unfold tx_ok in Hs. cbn in Hs.
    eapply (AT_alter pool pool s _ i _ _ HA H); try done; cbn.
    + unfold tx_ok. cbn. by destruct ph.
    + intros E. by destruct (Hc _ H).
    + by left.
    + intros e He. by right.
    + intros E. by destruct (Hc _ H).
Qed.
(** The calls keep their transactions and their places. *)
Lemma txs_step o s l s' i q : Step o s l s' -> s_txs s !! i = Some q -> exists q', s_txs s' !! i = Some q' /\ tp_tx q' = tp_tx q /\ (tp_phase q = TServed -> tp_phase q' = TServed).
Proof.
  intros Hst Hi. destruct Hst; try (exists q; done);
    try (match goal with |- context [do_effs ?l ?e ?x] => rewrite (se_txs _ _ _ (do_effs_same l e x)) end; exists q; done).
  { exists q. split; [|done]. cbn. by apply lookup_app_l_Some. }
  all: destruct (decide (i = i0)) as [<-|Hne]; [|exists q; split; [cbn; by rewrite list_lookup_alter_ne|done]].
  all: rewrite Hi in H; injection H as ->; eexists; split; [cbn; rewrite list_lookup_alter, Hi; reflexivity|split; done].
Qed.

(** ** Validators *)
Lemma validate_none n m : toffered n m = None ->
  decode_tx (m_data m) = None \/ m_from m = ts_name (su n) \/ exists u, decode_tx (m_data m) = Some u /\ t_id u = None.
Proof.
  unfold TxNet_Spec.toffered, validate_tx, apply_tx. destruct (decode_tx (m_data m)) as [u|] eqn:E; [|by left]. case_bool_decide as Hf; [right; by left|].
  destruct (t_id u) as [i|] eqn:Ei; cbn; [done|]. right. right. eauto.
Qed.
Lemma validate_some n m u : toffered n m = Some u -> decode_tx (m_data m) = Some u /\ m_from m <> ts_name (su n) /\ is_Some (t_id u).
Proof.
  unfold TxNet_Spec.toffered, validate_tx, apply_tx. destruct (decode_tx (m_data m)) as [u'|] eqn:E; [|done]. case_bool_decide as Hf; [done|].
  destruct (t_id u') as [i|] eqn:Ei; cbn; [|done]. intros [= <-]. split_and!; [done|done|]. rewrite Ei. eauto.
Qed.
Lemma validate_ok n m u : toffered n m = Some u -> v_ok (validate_tx decode_tx (ts_name (su n)) (fun _ => None) m) = true /\ v_reported (validate_tx decode_tx (ts_name (su n)) (fun _ => None) m) = [].
Proof.
  intros Ho. destruct (validate_some _ _ _ Ho) as (E & Hf & (i & Hi)). unfold validate_tx, apply_tx. rewrite E. rewrite bool_decide_eq_false_2 by done. rewrite Hi. done.
Qed.

(** ** A node *)
Record NodeT (n : nat) (p : tnode) : Prop := {
  no_app : AT (tn_pool p) (tn_app p);
  no_pool : forall u, u ∈ tn_pool p -> genuine u;
  no_owed : forall u, u ∈ tn_owed p -> u ∈ tn_pool p;
  no_vals : forall v, v ∈ tn_vals p ->
    match tv_phase v with
    | TWait c => m_from (tv_msg v) <> ts_name (su n) /\ exists q, s_txs (tn_app p) !! c = Some q /\ toffered n (tv_msg v) = Some (tp_tx q)
    | TOver r => decode_tx (m_data (tv_msg v)) = Some t -> v_ok r = true /\ v_reported r = [] /\ (m_from (tv_msg v) <> ts_name (su n) -> begun (tn_app p) (fun ph => ph = TServed))
    end }.
Lemma served_step o s l s' : Step o s l s' -> begun s (fun ph => ph = TServed) -> begun s' (fun ph => ph = TServed).
Proof. intros Hst (i & q & Hi & E1 & E2). destruct (txs_step _ _ _ _ _ _ Hst Hi) as (q' & H1 & H2 & H3). exists i, q'. split_and!; [done|congruence|by apply H3]. Qed.
Lemma vals_move n s (vs : list tvalidation) s' v : (forall i q, s_txs s !! i = Some q -> exists q', s_txs s' !! i = Some q' /\ tp_tx q' = tp_tx q /\ (tp_phase q = TServed -> tp_phase q' = TServed)) -> v ∈ vs ->
  match tv_phase v with
  | TWait c => m_from (tv_msg v) <> ts_name (su n) /\ exists q, s_txs s !! c = Some q /\ toffered n (tv_msg v) = Some (tp_tx q)
  | TOver r => decode_tx (m_data (tv_msg v)) = Some t -> v_ok r = true /\ v_reported r = [] /\ (m_from (tv_msg v) <> ts_name (su n) -> begun s (fun ph => ph = TServed))
  end ->
  match tv_phase v with
  | TWait c => m_from (tv_msg v) <> ts_name (su n) /\ exists q, s_txs s' !! c = Some q /\ toffered n (tv_msg v) = Some (tp_tx q)
  | TOver r => decode_tx (m_data (tv_msg v)) = Some t -> v_ok r = true /\ v_reported r = [] /\ (m_from (tv_msg v) <> ts_name (su n) -> begun s' (fun ph => ph = TServed))
  end.
Proof.
  intros Hs _. destruct (tv_phase v) as [c|r].
  - intros (Hf & q & Hq & E). split; [done|]. destruct (Hs _ _ Hq) as (q' & H1 & H2 & _). exists q'. split; [done|by rewrite H2].
  - intros Hx Hd. destruct (Hx Hd) as (H1 & H2 & H3). split_and!; [done|done|]. intros Hf. destruct (H3 Hf) as (i & q & Hi & E1 & E2). destruct (Hs _ _ Hi) as (q' & H1' & H2' & H3'). exists i, q'. split_and!; [done|congruence|by apply H3'].
Qed.
Lemma local_node n s vs pool owed seen l s' : NodeT n (TNode s vs pool owed seen) -> acond s l -> step (ts_opts (su n)) s l = Some s' ->
  NodeT n (TNode s' vs (pool ++ taccepted l s) (owed ++ taccepted l s) seen).
Proof.
  intros [H1 H2 H3 H4] Hc Hst. cbn in *. apply step_Step in Hst as [_ Hst]. split; cbn.
  - by eapply AT_step.
  - intros u [?|Hu]%elem_of_app; [by apply H2|]. destruct l; try (by apply elem_of_nil in Hu). cbn in Hu. destruct res; [by apply elem_of_nil in Hu|]. destruct (s_txs s !! i) as [q|] eqn:Hi; [|by apply elem_of_nil in Hu].
    apply elem_of_list_singleton in Hu as ->. by apply (at_gen _ _ H1 i).
  - intros u [?|?]%elem_of_app; apply elem_of_app; [left; by apply H3|by right].
  - intros v Hv. pose proof (H4 v Hv) as Hx. eapply (vals_move n s vs); [|done|exact Hx]. intros i q. by apply (txs_step _ _ _ _ _ _ Hst).
Qed.

(** ** The network *)
Notation data_t := (encode t).
Definition tsigned (x : tnet) (m : message) : Prop := forall q, m_from m = ts_name (su q) -> m_data m ∈ tn_seen (tt_node x q).
Definition tpassed (x : tnet) (n : nat) (d : string) : Prop := forall q, q ∈ links n -> d ∈ tn_seen (tt_node x q) \/ exists m, (q, m) ∈ tt_air x /\ m_data m = d.
Definition twaiting (p : tnode) (d : string) : Prop := exists v c, v ∈ tn_vals p /\ m_data (tv_msg v) = d /\ tv_phase v = TWait c.
Definition true_msg (m : message) : Prop := forall u, decode_tx (m_data m) = Some u -> genuine u.
Record TI (d : string) (x : tnet) : Prop := {
  ti_node : forall n, NodeT n (tt_node x n);
  ti_owed : forall n, t ∈ tn_pool (tt_node x n) -> t ∈ tn_owed (tt_node x n) \/ d ∈ tn_seen (tt_node x n);
  ti_air : forall q m, (q, m) ∈ tt_air x -> tsigned x m /\ true_msg m;
  ti_vals : forall n v, v ∈ tn_vals (tt_node x n) -> tsigned x (tv_msg v) /\ true_msg (tv_msg v);
  ti_seen : forall n, d ∈ tn_seen (tt_node x n) -> t ∈ tn_pool (tt_node x n) \/ exists v, v ∈ tn_vals (tt_node x n) /\ m_data (tv_msg v) = d /\ m_from (tv_msg v) <> ts_name (su n);
  ti_sent : forall n, d ∈ tn_seen (tt_node x n) -> tpassed x n d \/ twaiting (tt_node x n) d }.
Lemma TI_init d : TI d (tnet_init su).
Proof.
  split; cbn; try done; try (intros * Hx; by apply elem_of_nil in Hx).
  - intros n. split; cbn; try (intros * Hx; by apply elem_of_nil in Hx). split; cbn; try done; try (intros * Hx; by apply elem_of_nil in Hx).
    intros [Hx|(i & q & Hi & _)]; done.
  - intros n Hx. by apply elem_of_nil in Hx.
  - intros n v Hx. by apply elem_of_nil in Hx.
Qed.
Lemma TI_change d x x' n : TI d x -> (forall q, q <> n -> tt_node x' q = tt_node x q) ->
  NodeT n (tt_node x' n) -> tn_seen (tt_node x n) ⊆ tn_seen (tt_node x' n) ->
  (forall q m, (q, m) ∈ tt_air x -> (q, m) ∈ tt_air x' \/ m_data m ∈ tn_seen (tt_node x' q)) ->
  (forall q m, (q, m) ∈ tt_air x' -> (q, m) ∈ tt_air x \/ (tsigned x' m /\ true_msg m)) ->
  (t ∈ tn_pool (tt_node x' n) -> t ∈ tn_owed (tt_node x' n) \/ d ∈ tn_seen (tt_node x' n)) ->
  (forall v, v ∈ tn_vals (tt_node x' n) -> (exists v0, v0 ∈ tn_vals (tt_node x n) /\ tv_msg v = tv_msg v0) \/ (tsigned x' (tv_msg v) /\ true_msg (tv_msg v))) ->
  (d ∈ tn_seen (tt_node x' n) -> t ∈ tn_pool (tt_node x' n) \/ exists v, v ∈ tn_vals (tt_node x' n) /\ m_data (tv_msg v) = d /\ m_from (tv_msg v) <> ts_name (su n)) ->
  (d ∈ tn_seen (tt_node x' n) -> (d ∈ tn_seen (tt_node x n) /\ (twaiting (tt_node x n) d -> tpassed x' n d \/ twaiting (tt_node x' n) d)) \/ tpassed x' n d \/ twaiting (tt_node x' n) d) ->
  TI d x'.
Proof.
  intros HI Hne HN Hs Ha1 Ha2 Ho Hv Hk Hsent.
  assert (Hseen : forall q, tn_seen (tt_node x q) ⊆ tn_seen (tt_node x' q)) by (intros q; destruct (decide (q = n)) as [->|Hq]; [done|by rewrite Hne]).
  assert (Hsg : forall m, tsigned x m -> tsigned x' m) by (intros m Hm q E; apply Hseen; by apply Hm).
  assert (Hpo : forall q, tpassed x q d -> tpassed x' q d).
  { intros q Hp r Hr. destruct (Hp r Hr) as [?|(m & Hm & Ed)]; [left; by apply Hseen|]. destruct (Ha1 _ _ Hm) as [?|?]; [right; eauto|left; by rewrite <- Ed]. }
  split.
  - intros q. destruct (decide (q = n)) as [->|Hq]; [done|rewrite Hne by done; by apply (ti_node _ _ HI)].
  - intros q. destruct (decide (q = n)) as [->|Hq]; [done|rewrite Hne by done; by apply (ti_owed _ _ HI)].
  - intros q m Hm. destruct (Ha2 _ _ Hm) as [Hm'|?]; [|done]. destruct (ti_air _ _ HI _ _ Hm'). split; [by apply Hsg|done].
  - intros q v. destruct (decide (q = n)) as [->|Hq].
    + intros Hin. destruct (Hv v Hin) as [(v0 & Hin0 & ->)|?]; [|done]. destruct (ti_vals _ _ HI _ _ Hin0). split; [by apply Hsg|done].
    + rewrite Hne by done. intros Hin. destruct (ti_vals _ _ HI _ _ Hin). split; [by apply Hsg|done].
  - intros q. destruct (decide (q = n)) as [->|Hq]; [done|rewrite Hne by done; by apply (ti_seen _ _ HI)].
  - intros q. destruct (decide (q = n)) as [->|Hq].
    + intros Hd. destruct (Hsent Hd) as [[Hd0 Himp]|?]; [|done]. destruct (ti_sent _ _ HI _ Hd0) as [?|?]; [left; by apply Hpo|by apply Himp].
    + rewrite Hne by done. intros Hd. destruct (ti_sent _ _ HI _ Hd) as [?|?]; [left; by apply Hpo|by right].
Qed.
Lemma tupd_same f n p : tupd f n p n = p.
Proof. unfold tupd. by rewrite decide_True. Qed.
Lemma tupd_other f n p q : q <> n -> tupd f n p q = f q.
Proof. intros Hq. unfold tupd. by rewrite decide_False. Qed.
Lemma in_tsend n m q m' : (q, m') ∈ tsend n m -> m_data m' = m_data m /\ m_from m' = m_from m /\ q ∈ links n.
Proof. unfold TxNet_Spec.tsend. intros Hin. apply elem_of_list_In, in_map_iff in Hin as (q' & E & Hq). injection E as -> <-. by split_and!; [| |apply elem_of_list_In]. Qed.
Lemma tsend_in n m q : q ∈ links n -> exists m', (q, m') ∈ tsend n m /\ m_data m' = m_data m.
Proof. intros Hq. eexists. split; [unfold TxNet_Spec.tsend; apply elem_of_list_In, in_map_iff; exists q; split; [done|by apply elem_of_list_In]|done]. Qed.
Lemma in_tsent n v q m : (q, m) ∈ tsent_on n v -> m_data m = m_data (tv_msg v) /\ m_from m = m_from (tv_msg v).
Proof. unfold TxNet_Spec.tsent_on. destruct (tv_phase v) as [c|r]; [intros Hx; by apply elem_of_nil in Hx|]. destruct (v_ok r); [|intros Hx; by apply elem_of_nil in Hx]. intros Hx. apply in_tsend in Hx as (? & ? & _). done. Qed.

(** A message is looked at. *)
Lemma treceive_inv d x n m again air x' : decode_tx d = Some t -> TI d x -> tsigned x m -> true_msg m ->
  (forall q m', (q, m') ∈ air -> (q, m') ∈ tt_air x) -> (forall q m', (q, m') ∈ tt_air x -> (q, m') ∈ air \/ (q = n /\ m' = m)) ->
  treceive (TNet (tt_node x) air) n m again = Some x' -> TI d x'.
Proof.
  intros Hdec HI Hsg Htm Hair1 Hair2 Hst. unfold TxNet_Spec.treceive in Hst. cbn [tt_node tt_air] in Hst.
  pose proof (ti_node _ _ HI n) as HN. destruct (tt_node x n) as [s vs pool owed seen] eqn:En. destruct (bool_decide (m_data m ∈ seen) && negb again) eqn:Hd.
  { apply andb_true_iff in Hd as [Hd%bool_decide_eq_true _]. injection Hst as <-. eapply (TI_change d x _ n); cbn; try done; try apply HI.
    - intros q m' Hm. destruct (Hair2 _ _ Hm) as [?|[-> ->]]; [by left|right]. by rewrite En.
    - intros q m' Hm. left. by apply Hair1.
    - intros v Hv. left. eauto.
    - intros Hin. left. split; [done|]. intros ?. by right. }
  assert (Hf : m_data m ∉ seen -> m_from m <> ts_name (su n)) by (intros Hx E; apply Hx; specialize (Hsg n E); by rewrite En in Hsg). clear Hd.
  assert (Hgen : forall s' v extra x', x' = TNet (tupd (tt_node x) n (TNode s' (vs ++ [v]) pool owed ({[m_data m]} ∪ seen))) (air ++ extra) ->
    NodeT n (TNode s' (vs ++ [v]) pool owed ({[m_data m]} ∪ seen)) -> tv_msg v = m -> (forall q m', (q, m') ∈ extra -> m_data m' = m_data m /\ m_from m' = m_from m) ->
    (m_data m ∉ seen -> m_data m = d -> tpassed x' n d \/ exists c, tv_phase v = TWait c) -> TI d x').
  { intros s' v extra y -> HN' Em Hex Hm. set (y := TNet _ _).
    assert (Hn : tt_node y n = TNode s' (vs ++ [v]) pool owed ({[m_data m]} ∪ seen)) by (cbn; apply tupd_same).
    assert (Hne : forall q, q <> n -> tt_node y q = tt_node x q) by (intros q Hq; cbn; by apply tupd_other).
    assert (Hsy : forall m', m_data m' = m_data m -> m_from m' = m_from m -> tsigned y m').
    { intros m' E1 E2 q E. rewrite E1. destruct (decide (q = n)) as [->|Hq]; [rewrite Hn; cbn; set_solver|]. rewrite Hne by done. apply Hsg. congruence. }
    eapply (TI_change d x y n); [done|done|by rewrite Hn|rewrite Hn, En; cbn; set_solver|..].
    - intros q m' Hin. destruct (Hair2 _ _ Hin) as [?|[-> ->]]; [left; cbn; apply elem_of_app; by left|right; rewrite Hn; cbn; set_solver].
    - intros q m' Hin. cbn in Hin. apply elem_of_app in Hin as [?|Hin]; [left; by apply Hair1|right]. destruct (Hex _ _ Hin) as [E1 E2]. split; [by apply Hsy|]. unfold true_msg. by rewrite E1.
    - rewrite Hn. cbn. intros Hp. pose proof (ti_owed _ _ HI n) as Ho. rewrite En in Ho. cbn in Ho. destruct (Ho Hp); [by left|right; set_solver].
    - rewrite Hn. cbn. intros v' [Hin| ->%elem_of_list_singleton]%elem_of_app; [left; rewrite En; eauto|right]. rewrite Em. split; [by apply Hsy|done].
    - rewrite Hn. cbn. intros Hin. assert (Hor : d ∈ seen \/ (m_data m ∉ seen /\ m_data m = d)) by (destruct (decide (m_data m ∈ seen)); set_solver). clear Hin. destruct Hor as [Hin|[Hnin E]].
      2: { right. exists v. rewrite Em. split_and!; [apply elem_of_app; right; left|done|by apply Hf]. }
      pose proof (ti_seen _ _ HI n) as Hk. rewrite En in Hk. destruct (Hk Hin) as [?|(v' & ? & ?)]; [by left|right]. exists v'. split; [apply elem_of_app; by left|done].
    - rewrite Hn. cbn. rewrite En. cbn. intros Hin. assert (Hor : (m_data m ∉ seen /\ m_data m = d) \/ d ∈ seen) by (destruct (decide (m_data m ∈ seen)); set_solver). clear Hin. destruct Hor as [[Hnin E]|Hin].
      + right. destruct (Hm Hnin E) as [?|(c & Hc)]; [by left|right]. exists v, c. split_and!; [cbn; apply elem_of_app; right; left|congruence|done].
      + left. split; [done|]. intros (v' & c & Hv' & E & Hph). right. exists v', c. split_and!; [cbn; apply elem_of_app; by left|done|done]. }
  destruct (toffered n m) as [u|] eqn:Eo.
  - destruct (step _ s (LTxCall u)) as [s'|] eqn:Es; [|done]. injection Hst as <-. destruct (validate_some _ _ _ Eo) as (Edec & Hown & _).
    eapply (Hgen s' (TValidation m (TWait (length (s_txs s)))) []); [by rewrite app_nil_r| |done|intros q m' Hx; by apply elem_of_nil in Hx|right; eauto].
    pose proof (local_node n _ _ _ _ _ _ _ HN (Htm u Edec : acond s (LTxCall u)) Es) as [L1 L2 L3 L4]. cbn in L1, L2, L3, L4. rewrite app_nil_r in L1, L2, L3. split; cbn; try done.
    + by rewrite app_nil_r in L3.
    + intros v [Hv| ->%elem_of_list_singleton]%elem_of_app; [by apply L4|]. cbn. split; [done|]. exists (TxProc u TSend None None). split; [|done].
      unfold step in Es. destruct (s_panic s); [done|]. injection Es as <-. cbn. by rewrite lookup_app_r, Nat.sub_diag by lia.
  - injection Hst as <-. eapply (Hgen s (tended n m None)); [reflexivity| |done|intros q m' Hx; by apply in_tsent in Hx|].
    + destruct HN as [N1 N2 N3 N4]. split; cbn in *; try done. intros v [Hv| ->%elem_of_list_singleton]%elem_of_app; [by apply N4|]. cbn. intros E.
      destruct (validate_none _ _ Eo) as [?|[Ho|(u & E1 & E2)]]; [congruence| |exfalso].
      { unfold validate_tx, apply_tx. rewrite E. rewrite bool_decide_eq_true_2 by done. done. } rewrite E in E1. injection E1 as <-. destruct (tc_id _ _ _ _ HC). congruence.
    + intros Hnin E. exfalso. rewrite <- E in Hdec. destruct (validate_none _ _ Eo) as [?|[?|(u & E1 & E2)]]; [congruence|by apply Hf|]. rewrite Hdec in E1. injection E1 as <-. destruct (tc_id _ _ _ _ HC). congruence.
Qed.

Lemma TI_step d x lab x' : data_t = Some d -> decode_tx d = Some t -> TI d x -> twell x lab -> tstep x lab = Some x' -> TI d x'.
Proof.
  intros He Hdec HI Hw Hst. destruct lab as [n l|n u|n j again|n i|a again|n m again]; cbn [TxNet_Spec.tstep TxNet_Spec.twell] in *.
  - (* local *) pose proof (ti_node _ _ HI n) as HN. destruct (tt_node x n) as [s vs pool owed seen] eqn:En. cbn [tn_app] in Hw.
    assert (Hl : match l with LTxCall _ => False | _ => True end) by (by destruct l).
    assert (Hst' : (fun s' => TNet (tupd (tt_node x) n (TNode s' vs (pool ++ taccepted l s) (owed ++ taccepted l s) seen)) (tt_air x)) <$> step (ts_opts (su n)) s l = Some x') by (by destruct l).
    clear Hst. destruct (step (ts_opts (su n)) s l) as [s'|] eqn:Es; [|done]. injection Hst' as <-. set (y := TNet _ _).
    assert (Hc : acond s l) by (destruct l; try done; exact (Hw eq_refl)).
    assert (Hn : tt_node y n = TNode s' vs (pool ++ taccepted l s) (owed ++ taccepted l s) seen) by (cbn; apply tupd_same).
    assert (Hne : forall q, q <> n -> tt_node y q = tt_node x q) by (intros q Hq; cbn; by apply tupd_other).
    eapply (TI_change d x y n); [done|done|rewrite Hn; by eapply local_node|by rewrite Hn, En|by left|by left|..].
    + rewrite Hn. cbn. pose proof (ti_owed _ _ HI n) as Ho. rewrite En in Ho. cbn in Ho. intros [Hp|Hp]%elem_of_app; [destruct (Ho Hp); [left; apply elem_of_app; by left|by right]|left; apply elem_of_app; by right].
    + rewrite Hn, En. cbn. intros v Hv. left. eauto.
    + rewrite Hn. cbn. pose proof (ti_seen _ _ HI n) as Hk. rewrite En in Hk. cbn in Hk. intros Hd. destruct (Hk Hd) as [?|?]; [left; apply elem_of_app; by left|by right].
    + rewrite Hn, En. cbn. intros Hd. left. split; [done|]. intros Hx. right. exact Hx.
  - (* a client *) pose proof (ti_node _ _ HI n) as HN. destruct (tt_node x n) as [s vs pool owed seen] eqn:En. injection Hst as <-. set (y := TNet _ _). specialize (Hw eq_refl).
    assert (Hn : tt_node y n = TNode s vs (pool ++ [u]) (owed ++ [u]) seen) by (cbn; apply tupd_same).
    assert (Hne : forall q, q <> n -> tt_node y q = tt_node x q) by (intros q Hq; cbn; by apply tupd_other).
    eapply (TI_change d x y n); [done|done| |by rewrite Hn, En|by left|by left|..].
    + rewrite Hn. destruct HN as [[A1 A2 A3 A4 A5] N2 N3 N4]. split; cbn in *; try done.
      * split; try done. intros Hx. destruct (A5 Hx) as [[?|?]|?]; [left; left; apply elem_of_app; by left|left; by right|by right].
      * intros u' [?| ->%elem_of_list_singleton]%elem_of_app; [by apply N2|done].
      * intros u' [?|?]%elem_of_app; apply elem_of_app; [left; by apply N3|by right].
    + rewrite Hn. cbn. pose proof (ti_owed _ _ HI n) as Ho. rewrite En in Ho. cbn in Ho. intros [Hp|Hp]%elem_of_app; [destruct (Ho Hp); [left; apply elem_of_app; by left|by right]|left; apply elem_of_app; by right].
    + rewrite Hn, En. cbn. intros v Hv. left. eauto.
    + rewrite Hn. cbn. pose proof (ti_seen _ _ HI n) as Hk. rewrite En in Hk. cbn in Hk. intros Hd. destruct (Hk Hd) as [?|?]; [left; apply elem_of_app; by left|by right].
    + rewrite Hn, En. cbn. intros Hd. left. split; [done|]. intros Hx. right. exact Hx.
  - (* announced *) pose proof (ti_node _ _ HI n) as HN. destruct (tt_node x n) as [s vs pool owed seen] eqn:En. destruct (owed !! j) as [u|] eqn:Ej; [|done]. injection Hst as <-.
    assert (Hu : u ∈ pool) by (apply (no_owed _ _ HN); cbn; by eapply elem_of_list_lookup_2). pose proof (no_pool _ _ HN u Hu) as Hg.
    assert (Hgen : forall y seen' extra, tt_node y n = TNode s vs pool (delete j owed) seen' -> (forall q, q <> n -> tt_node y q = tt_node x q) -> tt_air y = tt_air x ++ extra -> seen ⊆ seen' ->
      (forall data, data ∈ seen' -> data ∈ seen \/ (encode u = Some data /\ forall q, q ∈ links n -> exists m, (q, m) ∈ extra /\ m_data m = data)) ->
      (forall data, encode u = Some data -> data ∈ seen') ->
      (forall q m, (q, m) ∈ extra -> m_data m ∈ seen' /\ m_from m = ts_name (su n) /\ encode u = Some (m_data m)) -> TI d y).
    { intros y seen' extra Hn Hne Ea Hs1 Hs2 Hs3 Hex.
      eapply (TI_change d x y n); [done|done| |by rewrite Hn, En|..].
      + rewrite Hn. destruct HN as [N1 N2 N3 N4]. split; cbn in *; try done. intros u' Hu'. apply N3. by eapply elem_of_delete.
      + intros q m Hm. left. rewrite Ea. apply elem_of_app. by left.
      + intros q m. rewrite Ea. intros [?|Hm]%elem_of_app; [by left|right]. destruct (Hex _ _ Hm) as (H1 & H2 & H3). split.
        * intros q' E. assert (n = q') as <- by (apply (tc_names _ _ _ _ HC); congruence). by rewrite Hn.
        * intros u' Hu' E. pose proof (tc_ids _ _ _ _ HC _ _ _ H3 Hu') as Eid. assert (u = t) as -> by (apply Hg; congruence). congruence.
      + rewrite Hn. cbn. pose proof (ti_owed _ _ HI n) as Ho. rewrite En in Ho. cbn in Ho. intros Hp. destruct (Ho Hp) as [Hin|?]; [|right; by apply Hs1].
        destruct (elem_delete_or _ _ _ _ Hin Ej) as [<-|?]; [right; by apply Hs3|by left].
      + rewrite Hn, En. cbn. intros v Hv. left. eauto.
      + rewrite Hn. cbn. pose proof (ti_seen _ _ HI n) as Hk. rewrite En in Hk. cbn in Hk. intros Hd. destruct (Hs2 _ Hd) as [?|[E _]]; [by apply Hk|left].
        pose proof (tc_ids _ _ _ _ HC _ _ _ E Hdec) as Eid. by rewrite <- (Hg (eq_sym Eid)).
      + rewrite Hn, En. cbn. intros Hd. destruct (Hs2 _ Hd) as [?|[_ Hall]]; [left; split; [done|]; intros Hx; right; exact Hx|right; left].
        intros q Hq. right. destruct (Hall q Hq) as (m & H1 & H2). exists m. split; [|done]. rewrite Ea. apply elem_of_app. by right. }
    unfold tpublish, publish. cbn [ps_sent fst]. destruct (encode u) as [data|] eqn:Ee; cbn [foldl ps_sent publish_message negb app fst].
    + unfold tpublish_one. cbn [tt_node tt_air]. rewrite tupd_same. destruct (bool_decide (data ∈ seen) && negb again) eqn:Hd.
      * eapply (Hgen _ seen []); cbn; [apply tupd_same|intros q Hq; by apply tupd_other|by rewrite (right_id_L [] (++))|done|by left|intros dd [= <-]; by apply andb_true_iff in Hd as [Hd%bool_decide_eq_true _]|intros q m Hx; by apply elem_of_nil in Hx].
      * eapply (Hgen _ ({[data]} ∪ seen) (tsend n _)); cbn; [apply tupd_same|intros q Hq; by rewrite !tupd_other|done|set_solver| |intros dd [= <-]; set_solver|].
        -- intros dd [->%elem_of_singleton|?]%elem_of_union; [right; split; [done|]|by left]. intros q Hq. by apply (tsend_in n (Message data (ts_name (su n)) (ts_name (su n)) "") q).
        -- intros q m Hm. apply in_tsend in Hm as (-> & -> & _). cbn. split_and!; [set_solver|done|done].
    + eapply (Hgen _ seen []); cbn; [apply tupd_same|intros q Hq; by apply tupd_other|by rewrite (right_id_L [] (++))|done|by left|done|intros q m Hx; by apply elem_of_nil in Hx].
  - (* returned *) pose proof (ti_node _ _ HI n) as HN. destruct (tt_node x n) as [s vs pool owed seen] eqn:En. destruct (vs !! i) as [[m [c|r]]|] eqn:Ei; try done.
    destruct (s_txs s !! c) as [p|] eqn:Ec; [|done]. destruct (tp_ret p) as [res|] eqn:Er; [|done]. injection Hst as <-. set (y := TNet _ _). set (v := TValidation m (TWait c)) in *. set (v' := tended n m res).
    assert (Hin : v ∈ vs) by (by eapply elem_of_list_lookup_2).
    assert (Hi' : <[i := v']> vs !! i = Some v') by (apply list_lookup_insert; by eapply lookup_lt_Some).
    assert (Hall : forall w, w ∈ <[i := v']> vs -> w ∈ vs \/ w = v').
    { intros w Hw'. apply elem_of_list_lookup_1 in Hw' as (j & Hj). apply list_lookup_insert_Some in Hj as [(_ & -> & _)|(_ & Hj)]; [by right|left; by eapply elem_of_list_lookup_2]. }
    assert (Hback : forall w, w ∈ vs -> w = v \/ w ∈ <[i := v']> vs).
    { intros w Hw'. apply elem_of_list_lookup_1 in Hw' as (j & Hj). destruct (decide (j = i)) as [->|Hji]; [left; congruence|right]. eapply (elem_of_list_lookup_2 _ j). by rewrite list_lookup_insert_ne. }
    assert (Hn : tt_node y n = TNode s (<[i := v']> vs) pool owed seen) by (cbn; apply tupd_same).
    assert (Hne : forall q, q <> n -> tt_node y q = tt_node x q) by (intros q Hq; cbn; by apply tupd_other).
    assert (Hse : forall q, tn_seen (tt_node y q) = tn_seen (tt_node x q)) by (intros q; destruct (decide (q = n)) as [->|Hq]; [by rewrite Hn, En|by rewrite Hne]).
    destruct (no_vals _ _ HN v Hin) as (Hf & q0 & Hq0 & Ho). cbn in Hq0, Ho, Hf. assert (q0 = p) as -> by congruence. destruct (validate_some _ _ _ Ho) as (Edec & _ & _).
    assert (Hok : decode_tx (m_data m) = Some t -> res = None /\ tp_tx p = t /\ tp_phase p = TServed).
    { intros E. assert (Et : tp_tx p = t) by congruence. destruct (at_good _ _ (no_app _ _ HN) c p Ec Et) as [_ Hr]. destruct (Hr _ Er). done. }
    destruct (ti_vals _ _ HI n v) as [Hsg Htm]; [by rewrite En|].
    eapply (TI_change d x y n); [done|done| |by rewrite Hn, En|..].
    + rewrite Hn. destruct HN as [N1 N2 N3 N4]. split; cbn in *; try done. intros w Hw'. destruct (Hall w Hw') as [?| ->]; [by apply N4|]. cbn.
      intros E. destruct (Hok E) as (-> & Et & Hph). destruct (validate_ok _ _ _ Ho). split_and!; [done|done|]. intros _. by exists c, p.
    + intros q m' Hm. left. cbn. apply elem_of_app. by left.
    + intros q m' Hm. cbn [y tt_air] in Hm. apply elem_of_app in Hm as [?|Hm]; [by left|right]. apply in_tsent in Hm as [E1 E2]. cbn in E1, E2. split.
      * intros q' E. rewrite Hse, E1. apply Hsg. cbn. congruence.
      * unfold true_msg. by rewrite E1.
    + rewrite Hn. cbn. pose proof (ti_owed _ _ HI n) as Hx. by rewrite En in Hx.
    + rewrite Hn, En. cbn. intros w Hw'. left. destruct (Hall w Hw') as [?| ->]; [eauto|by exists v].
    + rewrite Hn. cbn. pose proof (ti_seen _ _ HI n) as Hx. rewrite En in Hx. cbn in Hx. intros Hd. destruct (Hx Hd) as [?|(w & Hw' & E)]; [by left|right].
      destruct (Hback _ Hw') as [->|?]; [|eauto]. exists v'. split; [by eapply elem_of_list_lookup_2|done].
    + rewrite Hn, En. cbn. intros Hd. left. split; [done|]. intros (w & c' & Hw' & E & Hphw). cbn in Hw'. destruct (Hback _ Hw') as [->|?]; [left|right; by exists w, c'].
      cbn in E. subst d. destruct (Hok Hdec) as (-> & _ & _). destruct (validate_ok _ _ _ Ho) as [Hv1 _].
      intros q Hq. right. destruct (tsend_in n m q Hq) as (m' & H1 & H2). exists m'. split; [|done]. cbn. apply elem_of_app. right. unfold TxNet_Spec.tsent_on. cbn. by rewrite Hv1.
  - (* deliver *) destruct (tt_air x !! a) as [[n m]|] eqn:Ea; [|done]. assert (Hin : (n, m) ∈ tt_air x) by (by eapply elem_of_list_lookup_2). destruct (ti_air _ _ HI _ _ Hin).
    eapply (treceive_inv d x n m again); [exact Hdec|exact HI|done|done| | |exact Hst].
    + intros q m' Hx. by eapply elem_of_delete.
    + intros q m' Hx. destruct (elem_delete_or _ _ _ _ Hx Ea) as [E|?]; [right; by injection E as <- <-|by left].
  - (* stranger *) destruct Hw as [Hg Hsg]. eapply (treceive_inv d x n m again (tt_air x)); [exact Hdec|exact HI|exact Hsg|exact (Hg eq_refl)|done|by left|by destruct x].
Qed.
Lemma TI_run d sched : data_t = Some d -> decode_tx d = Some t -> forall x x', TI d x -> truns encode decode_tx su links twell x sched x' -> TI d x'.
Proof.
  intros He Hd. induction sched as [|lab r IH]; intros x x' HI; cbn [truns]; [by intros ->|]. intros (Hw & x1 & Hs & Hr). apply (IH x1); [|done]. by eapply TI_step.
Qed.
(** ** At rest *)
Lemma tsettle d x q : decode_tx d = Some t -> TI d x -> tquiet encode decode_tx su links x -> d ∈ tn_seen (tt_node x q) ->
  has_tx (tt_node x q) t /\ forall q', q' ∈ links q -> d ∈ tn_seen (tt_node x q').
Proof.
  intros Hdec HI [Hair Hq] Hd. destruct (Hq q) as (Hrest & Howed & Hret). pose proof (ti_node _ _ HI q) as HN.
  assert (Hnorpc : begun (tn_app (tt_node x q)) (fun ph => ph = TRpc) -> False).
  { intros (i & p & Hi & E1 & E2). destruct Hrest as (_ & _ & Htx & _). specialize (Htx _ _ Hi). destruct (tp_ret p) as [r|] eqn:Er; [|done].
    destruct (at_good _ _ (no_app _ _ HN) i p Hi E1) as [_ Hr]. destruct (Hr _ Er). congruence. }
  assert (Hover : forall v c, v ∈ tn_vals (tt_node x q) -> tv_phase v = TWait c -> False).
  { intros v c Hv Hph. pose proof (no_vals _ _ HN v Hv) as Hx. rewrite Hph in Hx. destruct Hx as (_ & p & Hp & _). destruct Hrest as (_ & _ & Htx & _). specialize (Htx _ _ Hp). destruct (tp_ret p) as [r|] eqn:Er; [|done].
    apply elem_of_list_lookup_1 in Hv as (i & Hi). specialize (Hret i). cbn in Hret. destruct (tt_node x q) as [s vs pool owed seen]. cbn in *. rewrite Hi in Hret. destruct v as [m ph]. cbn in Hph. subst ph. by rewrite Hp, Er in Hret. }
  split.
  - destruct (ti_seen _ _ HI q Hd) as [?|(v & Hv & E & Hf)]; [by left|]. pose proof (no_vals _ _ HN v Hv) as Hx. destruct (tv_phase v) as [c|r] eqn:Eph; [by destruct (Hover v c Hv)|].
    rewrite E in Hx. destruct (Hx Hdec) as (_ & _ & Hb). destruct (Hb Hf) as (i & p & Hi & E1 & E2). destruct (at_cache _ _ (no_app _ _ HN)) as [[?|?]|?]; [right; exists i, p; split_and!; [done|done|by right]|by left|by right|done].
  - destruct (ti_sent _ _ HI q Hd) as [Hp|(v & c & Hv & _ & Hph)]; [|by destruct (Hover v c Hv)]. intros q' Hq'. destruct (Hp q' Hq') as [?|(m & Hm & _)]; [done|]. rewrite Hair in Hm. by apply elem_of_nil in Hm.
Qed.
End network.
