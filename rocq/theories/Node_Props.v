(** Property theorems C62-C65 and C78-C80: the node's handlers, message ids, identity. *)
From Verif Require Import GoBase Gossip_Model Node_Model Node_Spec.

Section node.
Context (cd : codecs).
Notation step := (node_step cd).
Notation nrun := (node_run cd).

Lemma node_run_app n ls1 ls2 : nrun n (ls1 ++ ls2) = nrun n ls1 ≫= fun n' => nrun n' ls2.
Proof.
  revert n. induction ls1 as [|l ls1 IH]; intros n; [done|]. cbn [app node_run]. destruct (step n l) as [n'|]; [|done]. cbn [mbind option_bind]. apply IH.
Qed.
Lemma node_run_snoc n ls l n' : nrun n (ls ++ [l]) = Some n' -> exists n1, nrun n ls = Some n1 /\ step n1 l = Some n'.
Proof.
  rewrite node_run_app. destruct (nrun n ls) as [n1|]; [|done]. cbn. destruct (step n1 l) as [n2|] eqn:H; [|done]. cbn. intros [= <-]. by exists n1.
Qed.

(** *** Published messages and the LIB *)
Lemma blocks_to_publish_snoc ls l on : blocks_to_publish cd on (ls ++ [l]) =
  blocks_to_publish cd on ls ++ match l with NBlockMsg d => if (fold_left (fun b l => match l with NSetBlock b' => b' | _ => b end) ls on) then option_list (cd_block cd d ≫= fun ba => cd_mar_block cd (ba_block ba)) else [] | _ => [] end.
Proof.
  revert on. induction ls as [|x ls IH]; intros on.
  - destruct l; cbn; try done. by rewrite app_nil_r.
  - destruct x; cbn [app blocks_to_publish fold_left]; rewrite IH; [by rewrite app_assoc|done..].
Qed.
Lemma txs_to_publish_snoc ls l on : txs_to_publish cd on (ls ++ [l]) =
  txs_to_publish cd on ls ++ match l with NTxMsg d => if (fold_left (fun b l => match l with NSetTx b' => b' | _ => b end) ls on) then option_list (cd_tx cd d ≫= fun t => cd_mar_tx cd t) else [] | _ => [] end.
Proof.
  revert on. induction ls as [|x ls IH]; intros on.
  - destruct l; cbn; try done. by rewrite app_nil_r.
  - destruct x; cbn [app txs_to_publish fold_left]; rewrite IH; [done|by rewrite app_assoc|done..].
Qed.
Lemma publish_sent on m p : ps_sent (fst (publish on m p)) = ps_sent p ++ (if on then option_list m else []).
Proof. unfold publish, publish_message. destruct on; [destruct m|]; cbn; rewrite ?app_nil_r; done. Qed.

Lemma sync_invariant ls : forall n, nrun node_new ls = Some n ->
  n_block_on n = fold_left (fun b l => match l with NSetBlock b' => b' | _ => b end) ls false /\
  n_tx_on n = fold_left (fun b l => match l with NSetTx b' => b' | _ => b end) ls false /\
  ps_sent (n_block_pub n) = blocks_to_publish cd false ls /\
  ps_sent (n_tx_pub n) = txs_to_publish cd false ls /\
  n_lib n = last (libs_received cd ls).
Proof.
  induction ls as [|l ls IH] using rev_ind; intros n Hr.
  { cbn in Hr. by injection Hr as <-. }
  apply node_run_snoc in Hr as (n1 & Hr1 & Hs). destruct (IH n1 Hr1) as (H1 & H2 & H3 & H4 & H5).
  rewrite blocks_to_publish_snoc, txs_to_publish_snoc, !fold_left_app. unfold libs_received. rewrite omap_app. fold (libs_received cd ls).
  rewrite <- H1, <- H2, <- H3, <- H4. cbn [fold_left].
  unfold node_step in Hs. destruct (n_panic n1); [done|]. destruct l as [d|d|d|i|b|b|fu].
  - injection Hs as <-. unfold handle_block_broadcast. cbn [omap list_omap]. rewrite !app_nil_r.
    destruct (cd_block cd d) as [ba|] eqn:Hd; cbn [n_block_on n_tx_on n_block_pub n_tx_pub n_lib add_go mbind option_bind option_list].
    + rewrite publish_sent. done.
    + by destruct (n_block_on n1); rewrite !app_nil_r.
  - injection Hs as <-. unfold handle_transaction_broadcast. cbn [omap list_omap]. rewrite !app_nil_r.
    destruct (cd_tx cd d) as [ba|] eqn:Hd; cbn [n_block_on n_tx_on n_block_pub n_tx_pub n_lib add_go mbind option_bind option_list].
    + rewrite publish_sent. done.
    + by destruct (n_tx_on n1); rewrite !app_nil_r.
  - injection Hs as <-. unfold handle_fork_update. cbn [omap list_omap]. rewrite !app_nil_r.
    destruct (cd_forks cd d) as [fu|] eqn:Hd; cbn [n_block_on n_tx_on n_block_pub n_tx_pub n_lib add_go set_lib fmap option_fmap option_map].
    + by rewrite last_snoc.
    + by rewrite app_nil_r.
  - destruct (n_go n1 !! i) as [g|]; [|done]. injection Hs as <-. cbn [omap list_omap]. rewrite !app_nil_r.
    destruct g as [ba|ba|fu]; cbn [run_go]; [|done..]. destruct (ba_head ba); [|done]. cbn. by destruct (ba_block ba ≫= b_header).
  - injection Hs as <-. cbn [omap list_omap]. by rewrite !app_nil_r.
  - injection Hs as <-. cbn [omap list_omap]. by rewrite !app_nil_r.
  - injection Hs as <-. cbn [omap list_omap]. rewrite !app_nil_r, last_snoc. done.
Qed.

(** *** The goroutines *)
Lemma omap_delete {A B} (f : A -> option B) (l : list A) i x : l !! i = Some x -> omap f l ≡ₚ option_list (f x) ++ omap f (delete i l).
Proof.
  intros H. rewrite (delete_Permutation l i x H) at 1. cbn [omap list_omap]. by destruct (f x).
Qed.
Lemma go_invariant ls : forall n, nrun node_new ls = Some n ->
  app_blocks (n_app n) ++ pending_blocks (n_go n) ≡ₚ blocks_received cd ls /\
  app_forks (n_app n) ++ pending_forks (n_go n) ≡ₚ forks_received cd ls /\
  n_heads n ++ omap head_time (pending_heads (n_go n)) ≡ₚ omap head_time (blocks_received cd ls) /\
  (forall ba, ba ∈ pending_heads (n_go n) -> ba ∈ blocks_received cd ls) /\
  (n_panic n = true -> exists ba, ba ∈ blocks_received cd ls /\ headless ba).
Proof.
  induction ls as [|l ls IH] using rev_ind; intros n Hr.
  { cbn in Hr. injection Hr as <-. cbn. split; [done|]. split; [done|]. split; [done|]. split; [|done]. intros ba H. by apply elem_of_nil in H. }
  apply node_run_snoc in Hr as (n1 & Hr1 & Hs). destruct (IH n1 Hr1) as (H1 & H2 & H3 & H4 & _). clear IH Hr1.
  unfold blocks_received, forks_received in *. rewrite !omap_app.
  unfold node_step in Hs. destruct (n_panic n1) eqn:Hp; [done|].
  destruct l as [d|d|d|i|b|b|fu]; cbn [omap list_omap] in *; rewrite ?app_nil_r.
  - injection Hs as <-. unfold handle_block_broadcast. destruct (cd_block cd d) as [ba|]; [|rewrite !app_nil_r; split_and!; try done; congruence].
    cbn [n_heads n_app n_go n_panic add_go]. unfold pending_blocks, pending_forks, pending_heads in *. rewrite !omap_app. cbn [omap list_omap]. rewrite ?app_nil_r.
    split; [by rewrite app_assoc, H1|]. split; [done|]. split; [|split; [|congruence]].
    + rewrite app_assoc, H3. by destruct (head_time ba).
    + intros x Hx. apply elem_of_app in Hx as [Hx|Hx]; apply elem_of_app; [left; by apply H4|by right].
  - injection Hs as <-. unfold handle_transaction_broadcast. destruct (cd_tx cd d) as [ba|]; cbn [n_heads n_app n_go n_panic]; split_and!; try done; congruence.
  - injection Hs as <-. unfold handle_fork_update. destruct (cd_forks cd d) as [fu|]; [|rewrite !app_nil_r; split_and!; try done; congruence].
    cbn [n_heads n_app n_go n_panic add_go set_lib]. unfold pending_blocks, pending_forks, pending_heads in *. rewrite !omap_app. cbn [omap list_omap]. rewrite ?app_nil_r.
    split; [done|]. split; [by rewrite app_assoc, H2|]. split; [done|]. split; [done|congruence].
  - destruct (n_go n1 !! i) as [g|] eqn:Hg; [|done]. injection Hs as <-.
    assert (Pb := omap_delete (fun g => match g with GBlock b => Some b | _ => None end) (n_go n1) i g Hg).
    assert (Pf := omap_delete (fun g => match g with GForks b => Some b | _ => None end) (n_go n1) i g Hg).
    assert (Ph := omap_delete (fun g => match g with GHead b => Some b | _ => None end) (n_go n1) i g Hg).
    fold (pending_blocks (n_go n1)) in Pb. fold (pending_forks (n_go n1)) in Pf. fold (pending_heads (n_go n1)) in Ph.
    fold (pending_blocks (delete i (n_go n1))) in Pb. fold (pending_forks (delete i (n_go n1))) in Pf. fold (pending_heads (delete i (n_go n1))) in Ph.
    rewrite Pb in H1. rewrite Pf in H2. rewrite Ph in H3.
    assert (H4' : forall ba, ba ∈ pending_heads (delete i (n_go n1)) -> ba ∈ omap (fun l => match l with NBlockMsg d => cd_block cd d | _ => None end) ls).
    { intros ba Hb. apply H4. rewrite Ph. apply elem_of_app. by right. }
    destruct g as [ba|ba|fu].
    + unfold run_go. rewrite omap_app in H3. change (option_list (Some ba)) with [ba] in H3. cbn [omap list_omap] in H3.
      assert (Hin : ba ∈ omap (fun l => match l with NBlockMsg d => cd_block cd d | _ => None end) ls) by (apply H4; rewrite Ph; left).
      assert (Ht : head_time ba = if ba_head ba then h_timestamp <$> (ba_block ba ≫= b_header) else None) by done.
      rewrite Ht in H3. destruct (ba_head ba) eqn:Hh; cbn [negb].
      2:{ cbn [n_heads n_app n_go n_panic]. split; [done|]. split; [done|]. split; [|split; [done|congruence]].
          done. }
      destruct (ba_block ba ≫= b_header) as [h|] eqn:Hb; cbn [n_heads n_app n_go n_panic fmap option_fmap option_map] in *; (split; [done|]); (split; [done|]).
      * split; [by rewrite <- app_assoc|]. split; [done|congruence].
      * split; [done|]. split; [done|]. intros _. exists ba. done.
    + cbn [run_go n_heads n_app n_go n_panic]. unfold app_blocks, app_forks in *. rewrite !omap_app. cbn [omap list_omap]. rewrite ?app_nil_r, <- ?app_assoc. cbn [app].
      split_and!; try done; congruence.
    + cbn [run_go n_heads n_app n_go n_panic]. unfold app_blocks, app_forks in *. rewrite !omap_app. cbn [omap list_omap]. rewrite ?app_nil_r, <- ?app_assoc. cbn [app].
      split_and!; try done; congruence.
  - injection Hs as <-. cbn [n_heads n_app n_go n_panic]. split_and!; try done; congruence.
  - injection Hs as <-. cbn [n_heads n_app n_go n_panic]. split_and!; try done; congruence.
  - injection Hs as <-. cbn [n_heads n_app n_go n_panic set_lib]. split_and!; try done; congruence.
Qed.

(** ** C65 *)
(** In every execution: every decodable block broadcast and fork update is given to the applicator exactly once or is still on its way,
    every head block with a header updates the head time exactly once or is still on its way; what is published is exactly what was
    announced while gossip was on, in order; the LIB is the last one announced. *)
Theorem C65_effects : forall ls n, nrun node_new ls = Some n ->
  app_blocks (n_app n) ++ pending_blocks (n_go n) ≡ₚ blocks_received cd ls /\
  app_forks (n_app n) ++ pending_forks (n_go n) ≡ₚ forks_received cd ls /\
  n_heads n ++ omap head_time (pending_heads (n_go n)) ≡ₚ omap head_time (blocks_received cd ls) /\
  ps_sent (n_block_pub n) = blocks_to_publish cd false ls /\
  ps_sent (n_tx_pub n) = txs_to_publish cd false ls /\
  n_lib n = last (libs_received cd ls).
Proof.
  intros ls n Hr. destruct (go_invariant ls n Hr) as (H1 & H2 & H3 & _). destruct (sync_invariant ls n Hr) as (_ & _ & H4 & H5 & H6). done.
Qed.
(** Once the goroutines have run, everything has been delivered exactly once. *)
Theorem C65_delivered_once : forall ls n, nrun node_new ls = Some n -> n_go n = [] ->
  app_blocks (n_app n) ≡ₚ blocks_received cd ls /\ app_forks (n_app n) ≡ₚ forks_received cd ls /\
  n_heads n ≡ₚ omap head_time (blocks_received cd ls).
Proof.
  intros ls n Hr Hg. destruct (C65_effects ls n Hr) as (H1 & H2 & H3 & _). rewrite Hg in *. cbn in *. by rewrite !app_nil_r in *.
Qed.
(** ... and they can run: every goroutine can be run at any time, and none starts another. *)
Theorem C65_delivery_possible : forall ls n, nrun node_new ls = Some n -> (forall ba, ba ∈ blocks_received cd ls -> ~ headless ba) ->
  exists ls' n', nrun n ls' = Some n' /\ n_go n' = [] /\ length ls' = length (n_go n).
Proof.
  intros ls n Hr Hh.
  assert (Hp : n_panic n = false).
  { destruct (n_panic n) eqn:E; [|done]. destruct (go_invariant ls n Hr) as (_ & _ & _ & _ & H). destruct (H E) as (ba & Hin & Hb). by destruct (Hh ba Hin). }
  destruct (go_invariant ls n Hr) as (_ & _ & _ & Hq & _).
  assert (Hok : forall ba, GHead ba ∈ n_go n -> ~ headless ba).
  { intros ba Hin. apply Hh, Hq. unfold pending_heads. apply elem_of_list_omap. by exists (GHead ba). }
  clear Hr Hq Hh. remember (length (n_go n)) as k eqn:Hk. revert n Hk Hp Hok. induction k as [|k IH]; intros n Hk Hp Hok.
  - exists [], n. split; [done|]. split; [|done]. by destruct (n_go n).
  - destruct (n_go n) as [|g gs] eqn:Hg; [done|].
    assert (Hs : exists n1, step n (NRun 0) = Some n1 /\ n_go n1 = gs /\ n_panic n1 = false).
    { unfold node_step. rewrite Hp, Hg. cbn [lookup list_lookup]. eexists. split; [reflexivity|].
      destruct g as [ba|ba|fu]; cbn [run_go]; [|done..].
      destruct (ba_head ba) eqn:Hb; [|done]. cbn [negb]. destruct (ba_block ba ≫= b_header) eqn:Hbh; [done|]. destruct (Hok ba); [left|done]. }
    destruct Hs as (n1 & Hs & Hg1 & Hp1). destruct (IH n1) as (ls' & n' & H1 & H2 & H3).
    + rewrite Hg1. cbn in Hk. lia.
    + done.
    + intros ba Hin. apply Hok. right. by rewrite <- Hg1.
    + exists (NRun 0 :: ls'), n'. split; [cbn [node_run]; by rewrite Hs|]. split; [done|]. cbn. by rewrite H3.
Qed.
(** A broadcast that cannot be decoded changes nothing. *)
Theorem C65_malformed_ignored : forall n d, n_panic n = false ->
  (cd_block cd d = None -> step n (NBlockMsg d) = Some n) /\ (cd_tx cd d = None -> step n (NTxMsg d) = Some n) /\
  (cd_forks cd d = None -> step n (NForkMsg d) = Some n).
Proof.
  intros n d Hp. unfold node_step, handle_block_broadcast, handle_transaction_broadcast, handle_fork_update. rewrite Hp.
  split; [|split]; by intros ->.
Qed.
(** The node panics only on a head announcement without a header. *)
Theorem C65_panic_only_headless : forall ls n, nrun node_new ls = Some n -> n_panic n = true ->
  exists ba, ba ∈ blocks_received cd ls /\ headless ba.
Proof. intros ls n Hr. apply (go_invariant ls n Hr). Qed.

(** ** C79: the last irreversible block *)
(** GetLastIrreversibleBlock returns the last one announced; it panics exactly if there was none yet. *)
Theorem C79_is_latest : forall ls n, nrun node_new ls = Some n ->
  (forall l, get_lib n = Done l <-> last (libs_received cd ls) = Some l) /\ (get_lib n = Panic <-> libs_received cd ls = []).
Proof.
  intros ls n Hr. destruct (sync_invariant ls n Hr) as (_ & _ & _ & _ & H). unfold get_lib. rewrite H. split.
  - intros l. destruct (last (libs_received cd ls)); split; congruence.
  - rewrite <- last_None. destruct (last (libs_received cd ls)); split; congruence.
Qed.
(** It never goes back as long as the announcements, with the answer Start got placed where Start stores it, do not. *)
Theorem C79_never_goes_back_partial : forall ls ls' n n' a b, nrun node_new ls = Some n -> nrun n ls' = Some n' ->
  get_lib n = Done (Some a) -> get_lib n' = Done (Some b) ->
  (forall i j x y, (i <= j)%nat -> libs_received cd (ls ++ ls') !! i = Some (Some x) -> libs_received cd (ls ++ ls') !! j = Some (Some y) -> (tp_height x <= tp_height y)%N) ->
  (tp_height a <= tp_height b)%N.
Proof.
  intros ls ls' n n' a b Hr Hr' Ha Hb Hmono.
  assert (Hr2 : nrun node_new (ls ++ ls') = Some n') by (rewrite node_run_app, Hr; done).
  apply (C79_is_latest _ _ Hr) in Ha. apply (C79_is_latest _ _ Hr2) in Hb.
  rewrite last_lookup in Ha, Hb. eapply (Hmono _ _ a b); [|unfold libs_received in *; rewrite omap_app; apply lookup_app_l_Some; exact Ha|exact Hb].
  unfold libs_received. rewrite omap_app, app_length. lia.
Qed.
End node.
Print Assumptions C65_effects.
Print Assumptions C65_delivered_once.
Print Assumptions C65_delivery_possible.
Print Assumptions C65_malformed_ignored.
Print Assumptions C65_panic_only_headless.
Print Assumptions C79_is_latest.
Print Assumptions C79_never_goes_back_partial.

(** A codec with a few messages *)
Definition ba_of (t : N) (head : bool) : block_accepted := BlockAccepted (Some (Block (Some "id") (Some (Header t (Some "p") t (Some "s"))) [] "")) head.
Definition fu_of (h : N) : fork_update := ForkUpdate (Some (Topology (Some "lib") h None)) [].
Definition demo_codecs : codecs := Codecs
  (fun s => if bool_decide (s = "b1") then Some (ba_of 1 true) else if bool_decide (s = "b2") then Some (ba_of 2 true)
            else if bool_decide (s = "side") then Some (ba_of 3 false) else if bool_decide (s = "headless") then Some (BlockAccepted None true) else None)
  (fun s => if bool_decide (s = "t") then Some (Some (Transaction (Some "t") "")) else None)
  (fun s => if bool_decide (s = "f10") then Some (fu_of 10) else if bool_decide (s = "f11") then Some (fu_of 11) else None)
  (fun _ => Some "block") (fun _ => Some "tx").
Example C65_nonvacuous : exists n,
  node_run demo_codecs node_new [NStored (fu_of 9); NBlockMsg "side"; NSetBlock true; NBlockMsg "b1"; NTxMsg "t"; NBlockMsg "junk"; NForkMsg "f10"; NRun 3; NRun 0; NRun 1; NRun 1; NRun 0] = Some n /\
  n_go n = [] /\ n_heads n = [1%N] /\ n_app n = [AmBlock (ba_of 1 true); AmForks (fu_of 10); AmBlock (ba_of 3 false)] /\
  ps_sent (n_block_pub n) = ["block"] /\ ps_sent (n_tx_pub n) = [] /\ get_lib n = Done (Some (Topology (Some "lib") 10 None)).
Proof. eexists. vm_compute. done. Qed.
(** Full statement: a broadcast either has the documented effects or none; the node does not panic. *)
Definition C65_statement : Prop := forall cd ls n, node_run cd node_new ls = Some n -> n_panic n = false.
Theorem C65_headless_head_panics_refuted : ~ C65_statement.
Proof. intros H. specialize (H demo_codecs [NBlockMsg "headless"; NRun 0]). vm_compute in H. specialize (H _ eq_refl). done. Qed.
Print Assumptions C65_headless_head_panics_refuted.

(** ** C79, refuted: Start asks for the fork heads (answer: 5), an update (10) arrives and is stored, then Start stores its answer. *)
Definition C79_statement : Prop := forall cd ls ls' n n' a b, node_run cd node_new ls = Some n -> node_run cd n ls' = Some n' ->
  get_lib n = Done (Some a) -> get_lib n' = Done (Some b) -> (tp_height a <= tp_height b)%N.
Theorem C79_never_goes_back_refuted : ~ C79_statement.
Proof.
  intros H. specialize (H demo_codecs [NForkMsg "f10"] [NStored (fu_of 5)]). vm_compute in H.
  specialize (H _ _ _ _ eq_refl eq_refl eq_refl eq_refl). done.
Qed.
Print Assumptions C79_never_goes_back_refuted.

(** ** C80: the order of effects *)
(** Full statement: the head time in effect is that of the last head block announced, and the applicator sees the fork updates in the
    order in which they arrived, once everything has been delivered. *)
Definition C80_statement : Prop := forall cd ls n, node_run cd node_new ls = Some n -> n_go n = [] ->
  last (n_heads n) = last (omap head_time (blocks_received cd ls)) /\ app_forks (n_app n) = forks_received cd ls.
(** Each effect has its own goroutine, and these run in any order. *)
Theorem C80_in_order_refuted :
  (exists n, node_run demo_codecs node_new [NBlockMsg "b1"; NBlockMsg "b2"; NRun 2; NRun 0; NRun 0; NRun 0] = Some n /\ n_go n = [] /\ last (n_heads n) = Some 1%N) /\
  (exists n, node_run demo_codecs node_new [NForkMsg "f10"; NForkMsg "f11"; NRun 1; NRun 0] = Some n /\ n_go n = [] /\
     app_forks (n_app n) = [fu_of 11; fu_of 10] /\ get_lib n = Done (Some (Topology (Some "lib") 11 None))) /\
  ~ C80_statement.
Proof.
  split; [eexists; vm_compute; done|]. split; [eexists; vm_compute; done|]. intros H.
  specialize (H demo_codecs [NForkMsg "f10"; NForkMsg "f11"; NRun 1; NRun 0]). vm_compute in H. specialize (H _ eq_refl eq_refl). by destruct H.
Qed.
Print Assumptions C80_in_order_refuted.
(** Proved: if the goroutines of a broadcast run before the next one arrives, the order is kept. *)
Definition prompt_step (cd : codecs) (n : node) (l : nlabel) : Prop :=
  match l with NBlockMsg _ | NForkMsg _ => n_go n = [] | _ => True end.
Fixpoint prompt (cd : codecs) (n : node) (ls : list nlabel) : Prop :=
  match ls with [] => True | l :: r => prompt_step cd n l /\ match node_step cd n l with Some n' => prompt cd n' r | None => True end end.
Lemma prompt_app cd n ls1 ls2 n1 : node_run cd n ls1 = Some n1 -> prompt cd n (ls1 ++ ls2) -> prompt cd n ls1 /\ prompt cd n1 ls2.
Proof.
  revert n. induction ls1 as [|l ls1 IH]; intros n Hr Hp; cbn [app node_run prompt] in *.
  - by injection Hr as <-.
  - destruct Hp as [H1 H2]. destruct (node_step cd n l) as [n'|]; [|done]. destruct (IH n' Hr H2). done.
Qed.
Theorem C80_in_order_partial : forall cd ls n, node_run cd node_new ls = Some n -> prompt cd node_new ls -> n_go n = [] ->
  n_heads n = omap head_time (blocks_received cd ls) /\ app_forks (n_app n) = forks_received cd ls /\ app_blocks (n_app n) = blocks_received cd ls.
Proof.
  intros cd ls n Hr Hp Hg.
  enough (Hinv : (n_heads n ++ omap head_time (pending_heads (n_go n)) = omap head_time (blocks_received cd ls) /\
    app_forks (n_app n) ++ pending_forks (n_go n) = forks_received cd ls /\ app_blocks (n_app n) ++ pending_blocks (n_go n) = blocks_received cd ls) /\
    (length (pending_heads (n_go n)) <= 1 /\ length (pending_forks (n_go n)) <= 1 /\ length (pending_blocks (n_go n)) <= 1)%nat).
  { destruct Hinv as [Hinv _]. rewrite Hg in Hinv. cbn in Hinv. by rewrite !app_nil_r in Hinv. }
  clear Hg. revert n Hr Hp. induction ls as [|l ls IH] using rev_ind; intros n Hr Hp.
  { cbn in Hr. injection Hr as <-. cbn. split; [done|lia]. }
  apply node_run_snoc in Hr as (n1 & Hr1 & Hs). destruct (prompt_app cd node_new ls [l] n1 Hr1 Hp) as [Hp1 [Hl _]].
  destruct (IH n1 Hr1 Hp1) as ((H1 & H2 & H3) & Hn). clear IH Hp Hp1.
  unfold blocks_received, forks_received in *. rewrite !omap_app. unfold node_step in Hs. destruct (n_panic n1) eqn:Hpan; [done|].
  destruct l as [d|d|d|i|b|b|fu]; cbn [omap list_omap prompt_step] in *; rewrite ?app_nil_r.
  - injection Hs as <-. unfold handle_block_broadcast. destruct (cd_block cd d) as [ba|]; [|rewrite !app_nil_r; done].
    rewrite Hl in *. cbn in H1, H2, H3. rewrite app_nil_r in H1, H2, H3. cbn [n_heads n_app n_go add_go]. rewrite Hl. cbn. rewrite app_nil_r, H1, H2, H3.
    split; [done|lia].
  - injection Hs as <-. unfold handle_transaction_broadcast. by destruct (cd_tx cd d).
  - injection Hs as <-. unfold handle_fork_update. destruct (cd_forks cd d) as [fu|]; [|rewrite !app_nil_r; done].
    rewrite Hl in *. cbn in H1, H2, H3. rewrite app_nil_r in H1, H2, H3. cbn [n_heads n_app n_go add_go set_lib]. rewrite Hl. cbn. rewrite !app_nil_r, H1, H2, H3.
    split; [done|lia].
  - destruct (n_go n1 !! i) as [g|] eqn:Hg; [|done]. injection Hs as <-.
    assert (Pb := omap_delete (fun g => match g with GBlock b => Some b | _ => None end) (n_go n1) i g Hg).
    assert (Pf := omap_delete (fun g => match g with GForks b => Some b | _ => None end) (n_go n1) i g Hg).
    assert (Ph := omap_delete (fun g => match g with GHead b => Some b | _ => None end) (n_go n1) i g Hg).
    fold (pending_blocks (n_go n1)) in Pb. fold (pending_forks (n_go n1)) in Pf. fold (pending_heads (n_go n1)) in Ph.
    fold (pending_blocks (delete i (n_go n1))) in Pb. fold (pending_forks (delete i (n_go n1))) in Pf. fold (pending_heads (delete i (n_go n1))) in Ph.
    assert (Hone : forall (A : Type) (l1 l2 : list A), l1 ≡ₚ l2 -> (length l1 <= 1)%nat -> l1 = l2).
    { intros A l1 l2 Hpm Hlen. destruct l1 as [|x [|y l1]]; [by apply Permutation_nil_l in Hpm|by apply Permutation_singleton_l in Hpm|cbn in Hlen; lia]. }
    assert (Eb := Hone _ _ _ Pb (proj2 (proj2 Hn))).
    assert (Ef := Hone _ _ _ Pf (proj1 (proj2 Hn))). assert (Eh := Hone _ _ _ Ph (proj1 Hn)).
    rewrite Eb in H3. rewrite Ef in H2. rewrite Eh in H1. rewrite Eb, Ef, Eh, !app_length in Hn.
    destruct g as [ba|ba|fu]; cbn [option_list app] in *.
    + change (option_list (Some ba)) with [ba] in *. unfold run_go.
      assert (Ht : head_time ba = if ba_head ba then h_timestamp <$> (ba_block ba ≫= b_header) else None) by done.
      rewrite omap_app in H1. cbn [omap list_omap] in H1. rewrite Ht in H1. destruct (ba_head ba); cbn [negb] in *.
      * destruct (ba_block ba ≫= b_header) as [h|]; cbn [n_heads n_app n_go fmap option_fmap option_map] in *.
        -- rewrite <- app_assoc. split; [done|cbn in Hn; lia].
        -- split; [done|cbn in Hn; lia].
      * cbn [n_heads n_app n_go]. split; [done|cbn in Hn; lia].
    + change (option_list (Some ba)) with [ba] in *. cbn [run_go n_heads n_app n_go]. unfold app_blocks, app_forks in *. rewrite !omap_app. cbn [omap list_omap]. rewrite ?app_nil_r, <- ?app_assoc.
      split; [done|cbn in Hn; lia].
    + change (option_list (Some fu)) with [fu] in *. cbn [run_go n_heads n_app n_go]. unfold app_blocks, app_forks in *. rewrite !omap_app. cbn [omap list_omap]. rewrite ?app_nil_r, <- ?app_assoc.
      split; [done|cbn in Hn; lia].
  - injection Hs as <-. done.
  - injection Hs as <-. done.
  - injection Hs as <-. done.
Qed.
Print Assumptions C80_in_order_partial.
Example C80_nonvacuous : exists n, let ls := [NBlockMsg "b1"; NRun 1; NRun 0; NBlockMsg "b2"; NRun 0; NRun 0; NForkMsg "f10"; NRun 0] in
  node_run demo_codecs node_new ls = Some n /\ prompt demo_codecs node_new ls /\ n_go n = [] /\ n_heads n = [1%N; 2%N].
Proof. eexists. vm_compute. done. Qed.
