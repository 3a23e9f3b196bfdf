(** Proofs: the applicator together with a chain service that works. *)
From Verif Require Import GoBase Util TxCache_Model TxCache_Spec TxCache_Proofs Watchdog_Model
  Applicator_Model Applicator_Spec Applicator_Core Applicator_Sys Applicator_Inv Applicator_Inv2 Applicator_Inv3 Applicator_Inv4
  Applicator_Inv5 Applicator_Inv6 Applicator_Inv7 Applicator_Props Deliver_Spec Deliver_Proofs Deliver_Props Rest_Spec Rest_Proofs Honest_Spec.

(** ** Where calls come from *)
Lemma calls_back o s lab s' c cl' : Step o s lab s' -> s_calls s' !! c = Some cl' ->
  (exists cl, s_calls s !! c = Some cl /\ cl_blk cl' = cl_blk cl) \/ (exists b h, lab = LCall b /\ b_header b = Some h /\ cl_blk cl' = Blk b h).
Proof.
  intros H Hc.
  assert (Hins : forall c0 cl0 cl1, s_calls s !! c0 = Some cl0 -> cl_blk cl1 = cl_blk cl0 -> <[c0 := cl1]> (s_calls s) !! c = Some cl' ->
    exists cl, s_calls s !! c = Some cl /\ cl_blk cl' = cl_blk cl).
  { intros c0 cl0 cl1 Hc0 Hb Hx. destruct (decide (c0 = c)) as [->|].
    - rewrite list_lookup_insert in Hx by (by eapply lookup_lt_Some). injection Hx as <-. eauto.
    - rewrite list_lookup_insert_ne in Hx by done. eauto. }
  destruct H; try (left; by eauto);
    try (match goal with _ : context [do_effs ?l ?e ?x] |- _ => left; destruct (se_blk _ _ _ (do_effs_same l e x) _ _ Hc) as (cl0 & ? & ? & _); by exists cl0 end).
  - cbn in Hc. apply lookup_app_Some in Hc as [?|(_ & Hc)]; [left; eauto|]. apply list_lookup_singleton_Some in Hc as [_ <-]. right. by exists b, h.
  - left. eapply Hins; [exact H| |exact Hc]. done.
  - left. eapply Hins; [exact H| |exact Hc]. done.
  - left. eapply Hins; [exact H| |exact Hc]. done.
Qed.
Definition Hdrs (s : sys) : Prop := forall c cl, s_calls s !! c = Some cl -> b_header (k_src (cl_blk cl)) = Some (k_hdr (cl_blk cl)).
Lemma Hdrs_step o s lab s' : Hdrs s -> Step o s lab s' -> Hdrs s'.
Proof. intros HH H c cl Hc. destruct (calls_back _ _ _ _ _ _ H Hc) as [(cl0 & H0 & ->)|(b & h & _ & Hb & ->)]; [by eapply HH|done]. Qed.
Lemma reach_hdrs o head lib dur now sched s k : reaches o head lib dur now sched s -> passed s k -> b_header (k_src k) = Some (k_hdr k).
Proof.
  intros (_ & _ & Hr) (c & cl & Hc & <-). revert c cl Hc. change (Hdrs s). eapply (run_ind o Hdrs); [| |exact Hr]; [intros; by eapply Hdrs_step|by intros c cl Hc].
Qed.
Lemma reach_u64 o head lib dur now sched s k : reaches o head lib dur now sched s -> passed s k -> u64_block (k_src k).
Proof.
  intros Hr (c & cl & Hc & <-). pose proof (fr_calls _ _ (reaches_from _ _ _ _ _ _ _ Hr) _ _ Hc) as Hin. destruct Hr as (_ & Hu & _).
  rewrite Forall_forall in Hu. by apply Hu in Hin.
Qed.

(** ** The world and the applicator in it *)
Section world.
Context (judge : blk -> option goerr) (o : ap_opts) (root : gset string) (head lib : N) (dur now : Z).
(** The applicator's label of a step of the world. *)
Lemma wstep_inv w lab w' : wstep judge o w lab = Some w' ->
  match lab with
  | WApp l => by_chain l = false /\ step o (w_s w) l = Some (w_s w') /\ w_chain w' = w_chain w /\ w_owed w' = w_owed w
  | WAnswer i => exists k, s_att (w_s w) !! i = Some (Attempt k PRpc) /\ step o (w_s w) (LRpcDone i (verdict judge (w_chain w) k)) = Some (w_s w') /\
      ((verdict judge (w_chain w) k = None /\ k_id k ∉ w_chain w /\ w_chain w' = {[k_id k]} ∪ w_chain w /\ w_owed w' = w_owed w ++ [k_src k]) \/
       ((verdict judge (w_chain w) k <> None \/ k_id k ∈ w_chain w) /\ w_chain w' = w_chain w /\ w_owed w' = w_owed w))
  | WAnnounce j => exists b, w_owed w !! j = Some b /\ step o (w_s w) (LAccept b) = Some (w_s w') /\ w_chain w' = w_chain w /\ w_owed w' = delete j (w_owed w)
  | WElse b => w_s w' = w_s w /\ w_chain w' = {[str (b_id b)]} ∪ w_chain w /\ w_owed w' = w_owed w ++ [b]
  end.
Proof.
  destruct lab as [l|i|j|b]; cbn [wstep].
  - destruct (by_chain l); [done|]. destruct (step o (w_s w) l); [|done]. by intros [= <-].
  - destruct (s_att (w_s w) !! i) as [[k []]|] eqn:Hi; try done. destruct (step o (w_s w) _) as [s1|] eqn:Hs; [|done]. intros [= <-]. exists k.
    unfold takes. destruct (verdict judge (w_chain w) k) as [e|] eqn:Ev; [by split_and!; [done|done|right; split; [by left|]]|].
    case_bool_decide as Hd; cbn [w_s w_chain w_owed]; split_and!; try done; [right; split; [by right|done]|by left].
  - destruct (w_owed w !! j) as [b|] eqn:Hj; [|done]. destruct (step o (w_s w) _) as [s1|] eqn:Hs; [|done]. intros [= <-]. by exists b.
  - by intros [= <-].
Qed.

(** The state of the applicator is reached by the applicator alone; what the chain owes is well formed. *)
Record Fair (w : world) : Prop := {
  fa_reach : exists sched, reaches o head lib dur now sched (w_s w) /\ Forall complete_label sched;
  fa_owed : forall b, b ∈ w_owed w -> u64_block b /\ b_header b <> None }.
Lemma Fair_init : (lib < two64)%N -> Fair (world_init root head lib dur now).
Proof. intros Hl. split; [|cbn; set_solver]. exists []. by split_and!. Qed.
Lemma reach_more sched s lab s' : reaches o head lib dur now sched s -> Forall complete_label sched -> u64_label lab -> complete_label lab -> step o s lab = Some s' ->
  reaches o head lib dur now (sched ++ [lab]) s' /\ Forall complete_label (sched ++ [lab]).
Proof.
  intros H1 H2 H3 H4 H5. split; [|apply Forall_app; split; [done|by apply Forall_singleton]].
  eapply reaches_split; [exact H1|by apply Forall_singleton|]. cbn [run]. by rewrite H5.
Qed.
Lemma Fair_step w lab w' : wu64 lab -> wcomplete lab -> Fair w -> wstep judge o w lab = Some w' -> Fair w'.
Proof.
  intros Hu Hc [(sched & Hr & HC) Ho] Hst. apply wstep_inv in Hst. destruct lab as [l|i|j|b]; cbn in Hu, Hc.
  - destruct Hst as (_ & Hs & _ & Eo). split; [|by rewrite Eo]. exists (sched ++ [l]). by eapply reach_more.
  - destruct Hst as (k & Hi & Hs & Hcase).
    assert (Hk : u64_block (k_src k) /\ b_header (k_src k) <> None).
    { assert (Hp : passed (w_s w) k) by (apply (pv_att _ (v_prov _ _ _ _ (reaches_inv _ _ _ _ _ _ _ Hr)) _ _ Hi)).
      split; [by eapply reach_u64|]. by rewrite (reach_hdrs _ _ _ _ _ _ _ _ Hr Hp). }
    split; [exists (sched ++ [LRpcDone i (verdict judge (w_chain w) k)]); by eapply reach_more|].
    destruct Hcase as [(_ & _ & _ & ->)|(_ & _ & ->)]; [|done]. intros b [?|Hx%elem_of_list_singleton]%elem_of_app; [auto|by rewrite Hx].
  - destruct Hst as (b & Hb & Hs & _ & Eo). apply elem_of_list_lookup_2 in Hb as Hin. destruct (Ho _ Hin).
    split; [exists (sched ++ [LAccept b]); by eapply reach_more|]. rewrite Eo. intros b' Hb'. apply Ho. by eapply elem_of_delete.
  - destruct Hst as (Es & _ & Eo). split; [rewrite Es; eauto|]. rewrite Eo. intros b' [?|Hx%elem_of_list_singleton]%elem_of_app; [auto|by rewrite Hx].
Qed.
Lemma Fair_run sched : forall w w', Forall wu64 sched -> Forall wcomplete sched -> Fair w -> wrun judge o w sched = Some w' -> Fair w'.
Proof.
  induction sched as [|lab r IH]; intros w w' Hu Hc HF Hr; cbn in Hr; [by injection Hr as <-|].
  apply Forall_cons in Hu as [Hu1 Hu2], Hc as [Hc1 Hc2]. destruct (wstep judge o w lab) as [w1|] eqn:H1; [|done]. apply (IH w1); try done. by eapply Fair_step.
Qed.
Lemma wreaches_fair sched w : wreaches judge o root head lib dur now sched w -> Fair w.
Proof. intros (Hl & Hu & Hc & Hr). eapply Fair_run; [done|done|by apply Fair_init|exact Hr]. Qed.

(** ** The order *)
Definition pids (s : sys) : gset string := list_to_set (map (fun cl => k_id (cl_blk cl)) (s_calls s)).
Lemma elem_pids s id : id ∈ pids s <-> exists k, passed s k /\ k_id k = id.
Proof.
  unfold pids. rewrite elem_of_list_to_set, elem_of_list_fmap. split.
  - intros (cl & -> & Hin). apply elem_of_list_lookup in Hin as (c & Hc). eexists. split; [by exists c, cl|done].
  - intros (k & (c & cl & Hc & <-) & <-). exists cl. split; [done|]. by eapply elem_of_list_lookup_2.
Qed.
Lemma pids_step s lab s' : Step o s lab s' -> (forall b, lab <> LCall b) -> pids s' = pids s.
Proof.
  intros H Hn. apply set_eq. intros id. rewrite !elem_pids. split.
  - intros (k & (c & cl & Hc & <-) & <-). destruct (calls_back _ _ _ _ _ _ H Hc) as [(cl0 & H0 & E)|(b & h & -> & _)]; [|by destruct (Hn b)].
    exists (cl_blk cl0). split; [by exists c, cl0|by rewrite E].
  - intros (k & Hk & <-). exists k. split; [by eapply known_step|done].
Qed.
Definition wrank (w : world) := (size (pids (w_s w) ∖ w_chain w), (length (w_owed w), rank (w_s w))).
Definition wlt := lex lt (lex lt rlt).
Lemma wlt_wf : well_founded wlt.
Proof. apply lex_wf; [apply lt_wf|]. apply lex_wf; [apply lt_wf|apply rlt_wf]. Qed.
Lemma wlt_trans x y z : wlt x y -> wlt y z -> wlt x z.
Proof.
  assert (Hl : Transitive lt) by (intros ? ? ?; lia). assert (Hr : Transitive rlt) by (intros ? ? ?; apply rlt_trans).
  assert (Ht : Transitive wlt) by (unfold wlt; repeat (apply lex_trans; [done|]); done). apply Ht.
Qed.
Record WLeft (w : world) : Prop := {
  wl_left : exists sched, Left o head lib dur now sched (w_s w);
  wl_owed : forall b, b ∈ w_owed w -> u64_block b /\ b_header b <> None }.
Context (Hdur : good_dur dur) (Hjobs : 0 < ao_jobs o) (Hjudge : forall k, is_err_opt (judge k) ErrBlockState = false).
Lemma verdict_state chain k : is_err_opt (verdict judge chain k) ErrBlockState = false.
Proof. unfold verdict. case_bool_decide; [done|]. case_bool_decide; [apply Hjudge|done]. Qed.
Lemma Left_accept sched s b s' : Left o head lib dur now sched s -> u64_block b -> b_header b <> None -> step o s (LAccept b) = Some s' -> exists sched', Left o head lib dur now sched' s'.
Proof.
  intros [H1 H2 H3 H4 H5] Hu Hc Hs. exists (sched ++ [LAccept b]). destruct (reach_more _ _ (LAccept b) _ H1 H2 Hu Hc Hs) as [R1 R2].
  unfold step in Hs. destruct (s_panic s); [done|]. injection Hs as <-. by split.
Qed.
Lemma wleft_step w lab w' : WLeft w -> wown lab -> wstep judge o w lab = Some w' -> WLeft w' /\ ((wwaits w lab /\ wrank w' = wrank w) \/ wlt (wrank w') (wrank w)).
Proof.
  clear Hjobs. intros [(sched & HL) Ho] Hown Hst. apply wstep_inv in Hst. destruct lab as [l|i|j|b]; cbn in Hown; [| | |done].
  - destruct Hst as (_ & Hs & Ec & Eo). pose proof Hs as Hst. apply step_Step in Hst as [_ Hst]. split.
    + split; [eexists; by eapply Left_step|by rewrite Eo].
    + assert (Ep : pids (w_s w') = pids (w_s w)) by (eapply pids_step; [exact Hst|]; intros b ->; done).
      unfold wrank. rewrite Ep, Ec, Eo. destruct (left_rank _ _ _ _ _ _ _ _ _ Hdur HL Hown Hs) as [[Hw ->]|Hlt]; [by left|right].
      right. split; [done|]. right. done.
  - destruct Hst as (k & Hi & Hs & Hcase). pose proof Hs as Hst. apply step_Step in Hst as [_ Hst].
    assert (Hown1 : own (LRpcDone i (verdict judge (w_chain w) k))) by (apply verdict_state).
    assert (Hp : passed (w_s w) k) by (apply (pv_att _ (v_prov _ _ _ _ (reaches_inv _ _ _ _ _ _ _ (lf_reach _ _ _ _ _ _ _ HL))) _ _ Hi)).
    assert (Hk : u64_block (k_src k) /\ b_header (k_src k) <> None).
    { split; [eapply reach_u64; [apply HL|done]|]. by rewrite (reach_hdrs _ _ _ _ _ _ _ _ (lf_reach _ _ _ _ _ _ _ HL) Hp). }
    split.
    + split; [eexists; by eapply Left_step|]. destruct Hcase as [(_ & _ & _ & ->)|(_ & _ & ->)]; [|done].
      intros b [?|Hx%elem_of_list_singleton]%elem_of_app; [auto|by rewrite Hx].
    + assert (Ep : pids (w_s w') = pids (w_s w)) by (by eapply pids_step). right. unfold wrank, wlt, lex. cbn [fst snd]. rewrite Ep.
      destruct Hcase as [(_ & Hn & -> & _)|(_ & -> & ->)].
      * left. apply subset_size. split; [set_solver|]. intros Hsub. specialize (Hsub (k_id k)).
        assert (k_id k ∈ pids (w_s w)) by (apply elem_pids; eauto). set_solver.
      * right. split; [done|]. right. split; [done|]. destruct (left_rank _ _ _ _ _ _ _ _ _ Hdur HL Hown1 Hs) as [[[] _]|Hlt]. done.
  - destruct Hst as (b & Hb & Hs & Ec & Eo). pose proof Hs as Hst. apply step_Step in Hst as [_ Hst].
    destruct (Ho b) as [Hu Hc]; [by eapply elem_of_list_lookup_2|]. split.
    + split; [by eapply Left_accept|]. rewrite Eo. intros b' Hb'. apply Ho. by eapply elem_of_delete.
    + assert (Ep : pids (w_s w') = pids (w_s w)) by (by eapply pids_step). right. unfold wrank, wlt, lex. cbn [fst snd]. rewrite Ep, Ec, Eo.
      right. split; [done|]. left. pose proof (len_delete _ _ _ Hb). lia.
Qed.
Lemma wprogress w : WLeft w -> wrest w \/ exists d lab w', wrun judge o w [WApp (LTick d); lab] = Some w' /\ wown lab /\ ~ wwaits w lab.
Proof.
  intros [(sched & HL) Ho].
  set (ans := fun i => match s_att (w_s w) !! i with Some a => verdict judge (w_chain w) (at_blk a) | None => None end).
  assert (Hans : forall i, is_err_opt (ans i) ErrBlockState = false) by (intros i; unfold ans; destruct (s_att (w_s w) !! i); [apply verdict_state|done]).
  pose proof (left_running _ _ _ _ _ _ _ Hdur HL) as (Hrc & Hrp & Hrh).
  destruct (progress o head lib dur now sched (w_s w) ans Hdur (lf_complete _ _ _ _ _ _ _ HL) (lf_reach _ _ _ _ _ _ _ HL) ltac:(by split) (lf_fh _ _ _ _ _ _ _ HL) Hjobs Hans)
    as [Hrest|(d & lab & s2 & Hrun & Hown & Ha & Hw & _)].
  - destruct (w_owed w) as [|b bs] eqn:Eo; [left; by split|]. right. exists 0%N, (WAnnounce 0).
    eexists. split; [|split; [done|by intros []]]. cbn [wrun wstep by_chain]. unfold step at 1. rewrite Hrp. cbn [fmap option_fmap option_map w_owed]. rewrite Eo. cbn [lookup list_lookup w_s].
    unfold step. cbn [s_panic set_now]. rewrite Hrp. reflexivity.
  - cbn [run] in Hrun. destruct (step o (w_s w) (LTick d)) as [s1|] eqn:H1; [|done]. destruct (step o s1 lab) as [s2'|] eqn:H2; [|done]. injection Hrun as ->.
    assert (E1 : s_att s1 = s_att (w_s w)). { unfold step in H1. rewrite Hrp in H1. by injection H1 as <-. }
    right. destruct (by_chain lab) eqn:Hb.
    + destruct lab as [| | | | | | | | | | | | |i r| | | | | | | | | | | | | |]; try done. cbn in Ha. subst r.
      pose proof H2 as H2'. apply step_Step in H2' as [_ H2']. inversion H2' as [| | | | | | | | | | | | | | | | | |? k ? Hi| | | | | | | | | | | | | | | | | | |]; subst.
      exists d, (WAnswer i). eexists. split; [|split; [done|by intros []]]. cbn [wrun wstep by_chain]. rewrite H1. cbn [fmap option_fmap option_map w_s w_chain]. rewrite Hi.
      unfold ans in H2. rewrite <- E1, Hi in H2. cbn [at_blk] in H2. rewrite H2. reflexivity.
    + exists d, (WApp lab). eexists. split; [|split; [done|done]]. cbn [wrun wstep]. rewrite H1. cbn [by_chain fmap option_fmap option_map w_s]. rewrite Hb, H2. reflexivity.
Qed.
Lemma wrests r : forall w, wrank w = r -> WLeft w -> exists more w', Forall wown more /\ wrun judge o w more = Some w' /\ WLeft w' /\ wrest w'.
Proof.
  induction (wlt_wf r) as [r _ IH]. intros w Er HL. destruct (wprogress w HL) as [Hrest|(d & lab & w2 & Hrun & Hown & Hw)].
  - exists [], w. split_and!; try done.
  - cbn [wrun] in Hrun. destruct (wstep judge o w (WApp (LTick d))) as [w1|] eqn:H1; [|done]. destruct (wstep judge o w1 lab) as [w2'|] eqn:H2; [|done]. injection Hrun as ->.
    destruct (wleft_step w (WApp (LTick d)) w1 HL I H1) as [HL1 _]. destruct (wleft_step _ _ _ HL1 Hown H2) as [HL2 Hrk].
    assert (E1 : s_try (w_s w1) = s_try (w_s w) /\ s_att (w_s w1) = s_att (w_s w) /\ wrank w1 = wrank w).
    { cbn in H1. unfold step in H1. destruct (s_panic (w_s w)); [done|]. by injection H1 as <-. }
    destruct E1 as (Et & Ea & Erk).
    destruct Hrk as [[Hw1 _]|Hlt].
    { exfalso. apply Hw. destruct lab as [l| | |]; try done. destruct l; cbn in Hw1 |- *; try done. by rewrite Et, Ea in Hw1. }
    destruct (IH (wrank w2)) with w2 as (more & w3 & M1 & M2 & M3 & M4); [by rewrite <- Er, <- Erk|done|done|].
    exists (WApp (LTick d) :: lab :: more), w3. split_and!; [by repeat constructor| |done|done]. cbn [wrun]. by rewrite H1, H2.
Qed.
End world.
