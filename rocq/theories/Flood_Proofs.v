(** Proofs: a network of nodes in gossip mode. *)
From Verif Require Import GoBase Util Gossip_Model Gossip_Spec TxCache_Model TxCache_Spec TxCache_Proofs Watchdog_Model
  Applicator_Model Applicator_Spec Applicator_Core Applicator_Sys Applicator_Inv Applicator_Inv2 Applicator_Inv3 Applicator_Inv4
  Applicator_Inv5 Applicator_Inv6 Applicator_Inv7 Applicator_Props Deliver_Spec Deliver_Proofs Deliver_Props Rest_Spec Rest_Proofs
  Honest_Spec Honest_Proofs Honest_Proofs2 Honest_Props Round_Spec Round_Proofs Relay_Spec Relay_Proofs Flood_Spec.

(** ** One node at rest *)
Lemma rest_step o root head lib dur now parent h ks w k :
  Calm o root head lib dur now parent h ks w -> running (w_s w) -> wrest w -> (head + ao_max_delta o + 1 < two64)%N ->
  (forall k, k ∈ ks -> b_header (k_src k) = Some (k_hdr k)) -> successors parent h ks ->
  (parent ∈ root -> (h <= head)%N) -> (forall k, k ∈ ks -> k_id k ∈ root -> (k_height k <= head)%N) ->
  k ∈ ks -> (recent o (s_now (w_s w)) k \/ Ordered root k w) -> k_prev k ∈ w_chain w -> k_prev k ∉ held_ids (w_s w) ->
  k_id k ∉ held_ids (w_s w) /\ (passed (w_s w) k -> k_id k ∈ w_chain w).
Proof.
  intros HCalm Hrun [Hrest Howed] Hlow Hwf Hsucc Hh Hroot Hk Hro Hprev Hnot.
  destruct (cm_kept _ _ _ _ _ _ _ _ _ _ HCalm) as (sc & Hre & Hkept). pose proof (reaches_inv _ _ _ _ _ _ _ Hre) as HI. destruct Hrest as (Hset & Hfh & Htx & Hcalls).
  assert (Hann : forall x, x ∈ w_chain w -> announced root (s_log (w_s w)) x).
  { intros x Hid. destruct (cm_conv _ _ _ _ _ _ _ _ _ _ HCalm x Hid) as [?|(b & [Hb|[Hb|(t & Hb)]] & E)]; [by left| | |right; eauto].
    - rewrite Howed in Hb. by apply elem_of_nil in Hb.
    - destruct Hset as (_ & _ & _ & _ & Hbc). rewrite Hbc in Hb. by apply elem_of_nil in Hb. }
  assert (Hfam : forall k, passed (w_s w) k -> fam parent ks (k_id k) -> k ∈ ks).
  { intros k' Hp Hf. eapply (fam_in o head lib dur now parent h ks); [exact Hwf|exact Hre|exact (cm_s _ _ _ _ _ _ _ _ _ _ HCalm)|exact Hp|exact Hf]. }
  assert (Hsame : forall k' k2, passed (w_s w) k' -> k2 ∈ ks -> k_id k' = k_id k2 -> k' = k2).
  { intros k' k2 Hp Hk2 E. eapply (fam_same o head lib dur now parent h ks); [exact Hwf|exact Hre|exact (cm_s _ _ _ _ _ _ _ _ _ _ HCalm)|done|done|done]. }
  assert (HE : Env (fam parent ks) root head (w_s w)).
  { split; [done|apply truthful_check; apply HCalm|apply HCalm| |].
    - intros k1 k' Hf Hp Hp' E. apply Hsame; [done| |done]. apply Hfam; [done|by rewrite <- E].
    - pose proof (cm_max _ _ _ _ _ _ _ _ _ Hlow _ HCalm). lia. }
  assert (HD : fam parent ks (k_prev k)).
  { destruct (successors_prev _ _ _ _ Hsucc Hk) as [(E & _)|(k' & Hk' & E & _)]; [by left|right]. by exists k'. }
  assert (Hn : k_id k ∉ held_ids (w_s w)).
  { intros Hin. unfold held_ids in Hin. apply elem_of_dom in Hin as (en & He). pose proof (pv_byid _ (v_prov _ _ _ _ HI) _ _ He) as Hp.
    pose proof (ok_id _ (a_ok _ (v_acc _ _ _ _ HI)) _ _ He) as E. assert (Eb : e_blk en = k) by (by apply Hsame). destruct en as [k1 cs]. cbn [e_blk] in Eb. subst k1.
    apply Hnot. eapply (settled_served (fam parent ks)); [exact Hre|exact Hkept|exact HE|done|right; eauto|exact HD|exact He| | |by apply Hann].
    - destruct Hro as [?|Hal]; [by left|right]. apply in_order_check. apply Hal.
    - split.
      + destruct (successors_prev _ _ _ _ Hsucc Hk) as [(E2 & ->)|(k' & Hk' & -> & ->)]; [rewrite E2; intros Hx; specialize (Hh Hx); lia|]. intros Hin. specialize (Hroot k' Hk' Hin). lia.
      + intros b t Hin E3. destruct (cm_told _ _ _ _ _ _ _ _ _ _ HCalm b) as (_ & (Hnn & Hid) & _); [right; right; eauto|].
        destruct (successors_prev _ _ _ _ Hsucc Hk) as [(E2 & ->)|(k' & Hk' & E2 & ->)]; [destruct (Hnn ltac:(congruence)) as (hd & H1 & H2); exists hd; split; [done|lia]|].
        rewrite (Hid k' Hk' ltac:(congruence)). exists (k_hdr k'). split; [by apply Hwf|]. unfold k_height. lia. }
  split; [done|]. intros (c & cl & Hc & Eb).
  destruct (settled_answered (fam parent ks) o root head lib dur now sc (w_s w) c cl Hre HE Hset Hc) as [(_ & Hap)|(e & He)].
  - rewrite Eb. right. eauto.
  - by rewrite Eb.
  - rewrite Eb in Hap. by apply (cm_applied _ _ _ _ _ _ _ _ _ _ HCalm).
  - destruct (cs_ans _ _ _ _ _ _ _ (cm_s _ _ _ _ _ _ _ _ _ _ HCalm) c cl e Hc) as [_ Hi]; [rewrite Eb; right; eauto|done|]. rewrite Eb in Hi. by apply (cm_lib _ _ _ _ _ _ _ _ _ _ HCalm).
Qed.

Lemma fresh_call o s lab s' c cl : Step o s lab s' -> s_calls s !! c = None -> s_calls s' !! c = Some cl -> cl_phase cl = CSend.
Proof.
  intros H Hn Hc. assert (Hins : forall (c0 : nat) cl0, <[c0 := cl0]> (s_calls s) !! c = Some cl -> cl_phase cl = CSend).
  { intros c0 cl0 Hx. apply lookup_lt_Some in Hx. rewrite insert_length in Hx. apply lookup_ge_None in Hn. lia. }
  assert (Heffs : forall l e x, s_calls x = s_calls s -> s_calls (do_effs l e x) !! c = Some cl -> cl_phase cl = CSend).
  { intros l e x Ex Hx. destruct (se_blk _ _ _ (do_effs_same l e x) _ _ Hx) as (cl0 & H0 & _). congruence. }
  destruct H; try (exfalso; cbn in Hc; congruence); try (by eapply Heffs; [|exact Hc]); try (eapply Hins; exact Hc).
  cbn in Hc. apply lookup_app_Some in Hc as [Hc|[_ Hc]]; [congruence|]. by apply list_lookup_singleton_Some in Hc as [_ <-].
Qed.
Section network.
Context (encode : block -> option string) (decode_block : string -> option block) (id_of_key : string -> outcome string).
Context (su : nat -> setup) (links : nat -> list nat) (parent : string) (h : N) (ks : list blk) (young : nat -> blk -> Prop).
Context (HC : common encode decode_block su parent h ks).
Notation step_of n := (gstep decode_block id_of_key (su_name (su n)) (su_judge (su n)) (su_opts (su n))).
Notation undisturbed := (undisturbed su parent h ks young).
Notation patient := (patient ks).
Notation heard := (heard decode_block id_of_key su parent h ks young).
Notation offered n := (offered decode_block id_of_key (su_name (su n))).
Notation validate n := (validate_block decode_block id_of_key (su_name (su n))).

(** ** One node *)
(** What holds for the validator of a message with one of the blocks *)
Definition vgood (n : nat) (s : sys) (v : validation) : Prop := forall k, k ∈ ks -> decode_block (m_data (va_msg v)) = Some (k_src k) -> m_from (va_msg v) <> su_name (su n) ->
  exists c cl, s_calls s !! c = Some cl /\ cl_blk cl = k /\
    (va_phase v = VWait c \/ exists r, va_phase v = VOver (Some c) r /\ v_ok r = true /\ v_reported r = [] /\ applied (s_log s) (k_id k)).
Record NodeI (n : nat) (g : relay) : Prop := {
  nd_gi : GI decode_block id_of_key (su_name (su n)) g;
  nd_fair : Fair (su_opts (su n)) (su_head (su n)) (su_lib (su n)) (su_dur (su n)) (su_now (su n)) (rl_world g);
  nd_calm : Calm (su_opts (su n)) (su_root (su n)) (su_head (su n)) (su_lib (su n)) (su_dur (su n)) (su_now (su n)) parent h ks (rl_world g);
  nd_ord : forall k, k ∈ ks -> young n k \/ Ordered (su_root (su n)) k (rl_world g);
  nd_ans : forall c cl, s_calls (w_s (rl_world g)) !! c = Some cl -> cl_blk cl ∈ ks -> answered_only cl;
  nd_lib : forall l k, OLib l ∈ s_log (w_s (rl_world g)) -> k ∈ ks -> (l < k_height k)%N;
  nd_low : forall v k, v ∈ rl_vals g -> k ∈ ks -> (va_lib v <= k_height k)%N;
  nd_good : forall v, v ∈ rl_vals g -> vgood n (w_s (rl_world g)) v }.
Lemma hdr_of k : k ∈ ks -> b_header (k_src k) = Some (k_hdr k).
Proof. intros Hk. destruct (co_valid _ _ _ _ _ _ HC 0) as [_ _ _ V4]. by apply V4. Qed.
Lemma NodeI_init n : NodeI n (Relay [] (world_init (su_root (su n)) (su_head (su n)) (su_lib (su n)) (su_dur (su n)) (su_now (su n)))).
Proof.
  destruct (co_valid _ _ _ _ _ _ HC n) as [V1 V2 V3 V4]. split; cbn [rl_world rl_vals].
  - unfold GI. by apply Forall_nil.
  - by apply Fair_init.
  - apply Calm_init; [|done]. intros k Hk. by apply V4.
  - intros k Hk. right. split; cbn; [|done]. by intros (c & cl & Hx & _).
  - by intros c cl Hx.
  - intros l k Hx. by apply elem_of_nil in Hx.
  - intros v k Hv. by apply elem_of_nil in Hv.
  - intros v Hv. by apply elem_of_nil in Hv.
Qed.
(** What a call with one of the blocks returns *)
Lemma ret_none n g c cl k res : NodeI n g -> k ∈ ks -> s_calls (w_s (rl_world g)) !! c = Some cl -> cl_blk cl = k -> cl_phase cl = CRet res -> res = None /\ applied (s_log (w_s (rl_world g))) (k_id k).
Proof.
  intros HN Hk Hc Eb Hp.
  destruct (calm_returned (su_judge (su n)) (su_opts (su n)) (su_root (su n)) (su_head (su n)) (su_lib (su n)) (su_dur (su n)) (su_now (su n)) parent h ks (rl_world g) c cl k res (nd_fair _ _ HN) (nd_calm _ _ HN) Hk Hc Eb) as [?|(_ & Hi)].
  - by eapply (nd_ans _ _ HN); [|rewrite Eb].
  - done.
  - done.
  - exfalso. destruct Hi as [Hi|(l & Hin & Hle)].
    + destruct (co_root _ _ _ _ _ _ HC n) as [_ Hr]. destruct (Hr k Hk). lia.
    + pose proof (nd_lib _ _ HN l k Hin Hk). lia.
Qed.
Definition gcond (n : nat) (g : relay) (lab : glabel) : Prop :=
  match lab with GWorld l => undisturbed n (rl_world g) l /\ patient (rl_world g) l | GMsg m lib => heard n (rl_world g) m lib | GBack _ => True end.
(** The part of the invariant that is about the applicator and the chain *)
Lemma world_step n g lab g' : gcond n g lab -> NodeI n g -> step_of n g lab = Some g' ->
  let w := rl_world g' in
  Fair (su_opts (su n)) (su_head (su n)) (su_lib (su n)) (su_dur (su n)) (su_now (su n)) w /\
  Calm (su_opts (su n)) (su_root (su n)) (su_head (su n)) (su_lib (su n)) (su_dur (su n)) (su_now (su n)) parent h ks w /\
  (forall k, k ∈ ks -> young n k \/ Ordered (su_root (su n)) k w) /\
  (forall c cl, s_calls (w_s w) !! c = Some cl -> cl_blk cl ∈ ks -> answered_only cl) /\
  (forall l k, OLib l ∈ s_log (w_s w) -> k ∈ ks -> (l < k_height k)%N) /\
  moves (w_s (rl_world g)) (w_s w).
Proof.
  intros Hcond HN Hst w. pose proof (gstep_world _ _ _ _ _ _ _ _ Hst) as Hw. change (rl_world g') with w in Hw. destruct (world_label decode_block id_of_key (su_name (su n)) lab) as [l|] eqn:El.
  2:{ rewrite Hw. split_and!; try apply HN. apply moves_refl. }
  assert (Hl : undisturbed n (rl_world g) l /\ patient (rl_world g) l).
  { destruct lab as [l'|m lib|i]; cbn in El; [by injection El as ->| |done]. destruct (offered n m lib) as [b|] eqn:Eo; [|done]. injection El as <-. destruct Hcond as [_ Hcond]. by destruct (Hcond b Eo). }
  destruct Hl as [((Hu & Hc & Hwel) & Hord & Hfk) Hpat].
  destruct (co_valid _ _ _ _ _ _ HC n) as [V1 V2 V3 V4].
  destruct (calm_step (su_judge (su n)) (su_opts (su n)) (su_root (su n)) (su_head (su n)) (su_lib (su n)) (su_dur (su n)) (su_now (su n)) parent h ks) with (w := rl_world g) (lab := l) (w' := w) as (S1 & S2 & S3 & S4 & S5 & S6); try done.
  { apply (co_dur _ _ _ _ _ _ HC). }
  all: try (intros k Hk; by apply V4). all: try apply HN.
  split_and!; try done.
  - intros k Hk. destruct (nd_ord _ _ HN k Hk) as [?|Ho]; [by left|]. destruct (Hord k Hk) as [?|Ha]; [by left|right]. eapply (Ordered_step (su_judge (su n)) (su_opts (su n))); [apply HN|exact Ha|exact Ho|exact Hw].
  - intros c cl Hcl Hk.
    destruct (s_calls (w_s (rl_world g)) !! c) as [cl0|] eqn:E0.
    + destruct (wstep_moves _ _ _ _ _ Hw) as [_ Hm]. destruct (Hm _ _ E0) as (cl1 & H1 & H2). rewrite Hcl in H1. injection H1 as <-. rewrite H2 in Hk.
      destruct (S5 c cl0) as (cl1 & H1 & _ & H3); [|done|by eapply (nd_ans _ _ HN c)|rewrite Hcl in H1; by injection H1 as <-]. intros ->. exact (Hpat cl0 E0 Hk).
    + assert (Hst2 : (exists l', Step (su_opts (su n)) (w_s (rl_world g)) l' (w_s w)) \/ w_s w = w_s (rl_world g)).
      { apply wstep_inv in Hw. destruct l as [l'|i|j|b].
        - destruct Hw as (_ & Hs & _). apply step_Step in Hs as [_ Hs]. eauto.
        - destruct Hw as (k & _ & Hs & _). apply step_Step in Hs as [_ Hs]. eauto.
        - destruct Hw as (k & _ & Hs & _). apply step_Step in Hs as [_ Hs]. eauto.
        - right. by destruct Hw. }
      destruct Hst2 as [(l' & Hs)|E]; [|rewrite E in Hcl; congruence]. intros r Hph.
      by rewrite (fresh_call _ _ _ _ _ _ Hs E0 Hcl) in Hph.
  - intros x k Hin Hk. destruct (S6 x Hin) as [?|(i & lose & fh & -> & H1 & H2)]; [by eapply (nd_lib _ _ HN)|]. by eapply Hfk.
  - by eapply wstep_moves.
Qed.
Lemma vgood_moves n s s' v : moves s s' -> vgood n s v -> vgood n s' v.
Proof.
  intros [(new & El) Hm] Hv k Hk Hd Hf. destruct (Hv k Hk Hd Hf) as (c & cl & Hc & Eb & Hor). destruct (Hm _ _ Hc) as (cl' & Hc' & Eb'). exists c, cl'. split_and!; [done|congruence|].
  destruct Hor as [?|(r & H1 & H2 & H3 & H4)]; [by left|right]. exists r. split_and!; try done. rewrite El. by apply applied_mono.
Qed.
(** The fork watchdog lets the block through: the call is made. *)
Lemma lcall_taken judge o w b w' : wstep judge o w (WApp (LCall b)) = Some w' -> s_panic (w_s w') = false -> (forall wd e, wd_add (s_wd (w_s w)) b <> Done (wd, Some e)) ->
  exists hd, b_header b = Some hd /\ s_calls (w_s w') = s_calls (w_s w) ++ [Call (Blk b hd) CSend None].
Proof.
  intros Hst Hp Hwd. apply wstep_inv in Hst as (_ & Hs & _). unfold step in Hs. destruct (s_panic (w_s w)); [done|]. injection Hs as Hs. unfold step_call in Hs.
  destruct (wd_add (s_wd (w_s w)) b) as [[wd' [e|]]|] eqn:E.
  - by destruct (Hwd wd' e).
  - destruct (b_header b) as [hd|]; [exists hd; split; [done|]; by rewrite <- Hs|]. rewrite <- Hs in Hp. by cbn in Hp.
  - rewrite <- Hs in Hp. by cbn in Hp.
Qed.
Lemma no_panic n w : Fair (su_opts (su n)) (su_head (su n)) (su_lib (su n)) (su_dur (su n)) (su_now (su n)) w -> s_panic (w_s w) = false.
Proof. intros HF. destruct (fa_reach _ _ _ _ _ _ HF) as (sc & Hr & Hc). exact (reaches_no_panic _ _ _ _ _ _ _ (co_dur _ _ _ _ _ _ HC n) Hc Hr). Qed.
(** How the validators change in a step *)
Lemma vals_step n g lab g' : step_of n g lab = Some g' ->
  match lab with
  | GWorld _ => rl_vals g' = rl_vals g
  | GMsg m lib => exists v, rl_vals g' = rl_vals g ++ [v] /\ va_msg v = m /\ va_lib v = lib
  | GBack i => exists v c cl res r, rl_vals g !! i = Some v /\ va_phase v = VWait c /\ s_calls (w_s (rl_world g)) !! c = Some cl /\ cl_phase cl = CRet res /\
      validate n (va_lib v) (fun _ => res) (va_msg v) = Done r /\ rl_vals g' = <[i := Validation (va_msg v) (va_lib v) (VOver (Some c) r)]> (rl_vals g) /\ rl_world g' = rl_world g
  end.
Proof.
  destruct g as [vs w]. destruct lab as [l|m lib|i]; cbn [Relay_Spec.gstep rl_world rl_vals].
  - destruct (wstep _ _ w l); [|done]. intros HH. by injection HH as <-.
  - unfold ended. destruct (offered n m lib) as [b|].
    + destruct (wstep _ _ w (WApp (LCall b))) as [w'|]; [|done]. case_bool_decide; [intros HH; injection HH as <-; by eexists|]. destruct (refusal w'); [|done].
      destruct (validate n _ _ _); [|done]. intros HH. injection HH as <-. by eexists.
    + destruct (validate n _ _ _); [|done]. intros HH. injection HH as <-. by eexists.
  - destruct (vs !! i) as [[m lib [c|? ?]]|] eqn:Ei; try done. destruct (s_calls (w_s w) !! c) as [cl|] eqn:Ec; [|done]. destruct (cl_phase cl) as [| |res] eqn:Ep; try done.
    unfold ended. destruct (validate n lib _ m) as [r|] eqn:Ev; [|done]. intros HH. injection HH as <-. exists (Validation m lib (VWait c)), c, cl, res, r. done.
Qed.
Lemma NodeI_step n g lab g' : gcond n g lab -> NodeI n g -> step_of n g lab = Some g' -> NodeI n g' /\ moves (w_s (rl_world g)) (w_s (rl_world g')).
Proof.
  intros Hcond HN Hst. destruct (world_step n g lab g' Hcond HN Hst) as (W1 & W2 & W3 & W4 & W5 & W6). pose proof (vals_step _ _ _ _ Hst) as Hv.
  assert (HG : GI decode_block id_of_key (su_name (su n)) g').
  { eapply GI_step; [apply (co_dur _ _ _ _ _ _ HC n)|apply HN|exact W1|apply HN|exact Hst]. }
  split; [|done].
  destruct lab as [l|m lib|i].
  - split; try done; rewrite Hv; [apply HN|]. intros v Hin. eapply vgood_moves; [exact W6|]. by apply (nd_good _ _ HN).
  - destruct Hv as (v & Ev & Em & El). split; try done; rewrite Ev.
    + intros v' k [Hin| ->%elem_of_list_singleton]%elem_of_app Hk; [by apply (nd_low _ _ HN)|]. rewrite El. by apply Hcond.
    + intros v' [Hin| ->%elem_of_list_singleton]%elem_of_app; [eapply vgood_moves; [exact W6|]; by apply (nd_good _ _ HN)|].
      intros k Hk Hd Hf. rewrite Em in Hd, Hf. destruct (co_code _ _ _ _ _ _ HC k Hk) as [Hcomp _]. destruct Hcond as [Hlow Hoff].
      destruct (carried _ id_of_key _ _ _ (conj Hd (conj Hf Hcomp)) lib) as [(Hlt & _)|(_ & Ho & _)].
      { specialize (Hlow k Hk). unfold block_height in Hlt. rewrite (hdr_of k Hk) in Hlt. unfold k_height in Hlow. lia. }
      destruct (Hoff _ Ho) as [_ Hwd]. specialize (Hwd k Hk eq_refl).
      destruct g as [vs w]. cbn [Relay_Spec.gstep rl_vals rl_world] in *. rewrite Ho in Hst.
      destruct (wstep _ _ w (WApp (LCall (k_src k)))) as [w'|] eqn:Ew; [|done].
      assert (Ep : s_panic (w_s w') = false).
      { pose proof (no_panic n _ W1) as Hp. revert Hp. case_bool_decide; [injection Hst as <-; done|]. destruct (refusal w'); [|done]. destruct (ended _ _ _ _ _ _ _); [|done]. by injection Hst as <-. }
      destruct (lcall_taken _ _ _ _ _ Ew Ep Hwd) as (hd & Hhd & Ec). rewrite bool_decide_eq_true_2 in Hst by (rewrite Ec, app_length; cbn; lia). injection Hst as <-. cbn [rl_vals rl_world] in *.
      apply app_inj_tail in Ev as [_ <-]. exists (length (s_calls (w_s w))), (Call (Blk (k_src k) hd) CSend None). split_and!; [rewrite Ec; by rewrite lookup_app_r, Nat.sub_diag by done| |by left].
      pose proof (hdr_of k Hk). cbn. destruct k. cbn in *. congruence.
  - destruct Hv as (v & c & cl & res & r & Hi & Hph & Hc & Hret & Hval & Ev & Ew).
    assert (Hin : v ∈ rl_vals g) by (by eapply elem_of_list_lookup_2).
    assert (Hall : forall v', v' ∈ rl_vals g' -> v' ∈ rl_vals g \/ v' = Validation (va_msg v) (va_lib v) (VOver (Some c) r)).
    { rewrite Ev. intros v' Hv'. apply elem_of_list_lookup_1 in Hv' as (j & Hj). apply list_lookup_insert_Some in Hj as [(_ & -> & _)|(_ & Hj)]; [by right|left; by eapply elem_of_list_lookup_2]. }
    split; try done.
    + intros v' k Hv' Hk. apply Hall in Hv' as [?| ->]; [by apply (nd_low _ _ HN)|]. cbn. by apply (nd_low _ _ HN).
    + intros v' Hv'. apply Hall in Hv' as [?| ->]; [eapply vgood_moves; [exact W6|]; by apply (nd_good _ _ HN)|].
      intros k Hk Hd Hf. cbn [va_msg] in Hd, Hf. destruct (nd_good _ _ HN v Hin k Hk Hd Hf) as (c' & cl' & Hc' & Eb & [Hw|(r' & Hr' & _)]); [|congruence]. assert (c' = c) as -> by congruence.
      rewrite Hc in Hc'. injection Hc' as <-. rewrite Ew. exists c, cl. split_and!; [done|done|]. right. exists r. destruct (ret_none n g c cl k res HN Hk Hc Eb Hret) as [-> Hap].
      destruct (co_code _ _ _ _ _ _ HC k Hk) as [Hcomp _]. destruct (carried _ id_of_key _ _ _ (conj Hd (conj Hf Hcomp)) (va_lib v)) as [(Hlt & _)|(_ & _ & Hx & _)].
      { pose proof (nd_low _ _ HN v k Hin Hk) as Hlow. unfold block_height in Hlt. rewrite (hdr_of k Hk) in Hlt. unfold k_height in Hlow. lia. }
      rewrite Hx in Hval. injection Hval as <-. done.
Qed.
(** The node's own messages are accepted at once. *)
Lemma own_offered n m lib : m_from m = su_name (su n) -> offered n m lib = None.
Proof. intros E. unfold Relay_Spec.offered, validate_block, apply_block. destruct (decode_block (m_data m)) as [b|]; [|done]. by rewrite bool_decide_eq_true_2. Qed.
Lemma waits_foreign n g v c : NodeI n g -> v ∈ rl_vals g -> va_phase v = VWait c -> m_from (va_msg v) <> su_name (su n).
Proof.
  intros HN Hv Hph E. pose proof (nd_gi _ _ HN) as HG. unfold GI in HG. rewrite Forall_forall in HG. specialize (HG v Hv). unfold val_ok in HG. rewrite Hph in HG.
  destruct HG as (cl & _ & Ho). by rewrite (own_offered n _ _ E) in Ho.
Qed.
Lemma own_good n g v c r b : NodeI n g -> v ∈ rl_vals g -> va_phase v = VOver c r -> m_from (va_msg v) = su_name (su n) -> decode_block (m_data (va_msg v)) = Some b -> v_ok r = true /\ v_reported r = [].
Proof.
  intros HN Hv Hph E Hd. pose proof (nd_gi _ _ HN) as HG. unfold GI in HG. rewrite Forall_forall in HG. specialize (HG v Hv). unfold val_ok in HG. rewrite Hph, (own_offered n _ _ E) in HG.
  destruct c as [c|]; [destruct HG as (b' & res & Ho & _); done|]. destruct HG as [(_ & Hx)|(b' & e & Ho & _)]; [|done].
  unfold validate_block, apply_block in Hx. rewrite Hd, bool_decide_eq_true_2 in Hx by done. cbn in Hx. by injection Hx as <-.
Qed.
(** What the chain of the node has announced *)
Lemma node_spoken n g lab g' b : gcond n g lab -> NodeI n g -> step_of n g lab = Some g' -> spoken (w_s (rl_world g')) b ->
  spoken (w_s (rl_world g)) b \/ exists j, lab = GWorld (WAnnounce j) /\ w_owed (rl_world g) !! j = Some b.
Proof.
  intros Hcond HN Hst Hs. destruct (NodeI_step _ _ _ _ Hcond HN Hst) as [HN' _]. pose proof (gstep_world _ _ _ _ _ _ _ _ Hst) as Hw.
  destruct (world_label decode_block id_of_key (su_name (su n)) lab) as [l|] eqn:El; [|rewrite Hw in Hs; by left].
  destruct (fa_reach _ _ _ _ _ _ (nd_fair _ _ HN)) as (sc & Hr & _). pose proof (reaches_inv _ _ _ _ _ _ _ Hr) as HI. pose proof (no_panic n _ (nd_fair _ _ HN')) as Hp.
  apply wstep_inv in Hw. destruct l as [l|i|j|b'].
  - destruct Hw as (Hbc & Hs' & _). apply step_Step in Hs' as [_ Hs']. apply (spoken_step _ _ _ _ _ _ b HI Hs' Hp) in Hs as [?| ->]; [by left|done].
  - destruct Hw as (k & _ & Hs' & _). apply step_Step in Hs' as [_ Hs']. apply (spoken_step _ _ _ _ _ _ b HI Hs' Hp) in Hs as [?|?]; [by left|done].
  - destruct Hw as (k & Hk & Hs' & _). apply step_Step in Hs' as [_ Hs']. apply (spoken_step _ _ _ _ _ _ b HI Hs' Hp) in Hs as [?|E]; [by left|]. injection E as ->. right. exists j. split; [|done].
    destruct lab as [l'|m lib|i]; cbn in El; [by injection El as ->| |done]. destruct (offered n m lib); [|done]. by injection El.
  - destruct Hw as (E & _). rewrite E in Hs. by left.
Qed.
Lemma node_spoken_mono n g lab g' b : gcond n g lab -> NodeI n g -> step_of n g lab = Some g' -> 
  spoken (w_s (rl_world g)) b \/ (exists j, lab = GWorld (WAnnounce j) /\ w_owed (rl_world g) !! j = Some b) -> spoken (w_s (rl_world g')) b.
Proof.
  intros Hcond HN Hst Hs. destruct (NodeI_step _ _ _ _ Hcond HN Hst) as [HN' _]. pose proof (gstep_world _ _ _ _ _ _ _ _ Hst) as Hw.
  destruct (world_label decode_block id_of_key (su_name (su n)) lab) as [l|] eqn:El.
  2:{ rewrite Hw. destruct Hs as [?|(j & -> & _)]; [done|]. done. }
  destruct (fa_reach _ _ _ _ _ _ (nd_fair _ _ HN)) as (sc & Hr & _). pose proof (reaches_inv _ _ _ _ _ _ _ Hr) as HI. pose proof (no_panic n _ (nd_fair _ _ HN')) as Hp.
  assert (Hlab : (exists j, lab = GWorld (WAnnounce j) /\ w_owed (rl_world g) !! j = Some b) -> exists j, l = WAnnounce j /\ w_owed (rl_world g) !! j = Some b) by (intros (j & -> & Hj); exists j; injection El as <-; done).
  apply wstep_inv in Hw. destruct l as [l|i|j|b'].
  - destruct Hw as (Hbc & Hs' & _). apply step_Step in Hs' as [_ Hs']. apply (spoken_step _ _ _ _ _ _ b HI Hs' Hp). left. destruct Hs as [?|Hx]; [done|]. by destruct (Hlab Hx) as (? & ? & _).
  - destruct Hw as (k & _ & Hs' & _). apply step_Step in Hs' as [_ Hs']. apply (spoken_step _ _ _ _ _ _ b HI Hs' Hp). left. destruct Hs as [?|Hx]; [done|]. by destruct (Hlab Hx) as (? & ? & _).
  - destruct Hw as (k & Hk & Hs' & _). apply step_Step in Hs' as [_ Hs']. apply (spoken_step _ _ _ _ _ _ b HI Hs' Hp). destruct Hs as [?|Hx]; [by left|]. destruct (Hlab Hx) as (j' & E & ?). injection E as <-. right. congruence.
  - destruct Hw as (-> & _). destruct Hs as [?|Hx]; [done|]. by destruct (Hlab Hx) as (? & ? & _).
Qed.
(** ** The network *)
Notation nstep := (nstep encode decode_block id_of_key su links).
Notation well := (well decode_block id_of_key su parent h ks young).
Notation send := (send su links).
Notation sent_on := (sent_on su links).
Notation vals_of p := (rl_vals (pn_relay p)).
Definition signed (x : net) (m : message) : Prop := forall q, m_from m = su_name (su q) -> m_data m ∈ pn_seen (nt_node x q).
(** The message was sent to all peers: they have seen it, or it is on its way. *)
Definition passed_on (x : net) (n : nat) (data : string) : Prop :=
  forall q, q ∈ links n -> data ∈ pn_seen (nt_node x q) \/ exists m, (q, m) ∈ nt_air x /\ m_data m = data.
Definition checking (p : pnode) (data : string) : Prop := exists v c, v ∈ vals_of p /\ m_data (va_msg v) = data /\ va_phase v = VWait c.
Definition known_from (n : nat) (p : pnode) (data : string) : Prop :=
  (exists b, spoken (w_s (world_of p)) b /\ encode b = Some data) \/ exists v, v ∈ vals_of p /\ m_data (va_msg v) = data /\ m_from (va_msg v) <> su_name (su n).
Record NI (x : net) : Prop := {
  ni_node : forall n, NodeI n (pn_relay (nt_node x n));
  ni_spoken : forall n b data, spoken (w_s (world_of (nt_node x n))) b -> encode b = Some data -> data ∈ pn_seen (nt_node x n);
  ni_air : forall q m, (q, m) ∈ nt_air x -> signed x m;
  ni_vals : forall n v, v ∈ vals_of (nt_node x n) -> signed x (va_msg v);
  ni_seen : forall n data, data ∈ pn_seen (nt_node x n) -> known_from n (nt_node x n) data;
  ni_sent : forall n k data, k ∈ ks -> encode (k_src k) = Some data -> data ∈ pn_seen (nt_node x n) -> passed_on x n data \/ checking (nt_node x n) data }.
Lemma NI_init : NI (net_init su).
Proof.
  split; cbn; try done.
  - apply NodeI_init.
  - intros n b data [Hx|(t & Hx)]; by apply elem_of_nil in Hx.
  - intros q m Hx. by apply elem_of_nil in Hx.
  - intros n v Hx. by apply elem_of_nil in Hx.
Qed.
(** A step changes one node, and what is on its way. *)
Lemma NI_change x x' n : NI x -> (forall q, q <> n -> nt_node x' q = nt_node x q) ->
  NodeI n (pn_relay (nt_node x' n)) -> pn_seen (nt_node x n) ⊆ pn_seen (nt_node x' n) ->
  (forall q m, (q, m) ∈ nt_air x -> (q, m) ∈ nt_air x' \/ m_data m ∈ pn_seen (nt_node x' q)) ->
  (forall q m, (q, m) ∈ nt_air x' -> (q, m) ∈ nt_air x \/ signed x' m) ->
  (forall b data, spoken (w_s (world_of (nt_node x' n))) b -> encode b = Some data -> data ∈ pn_seen (nt_node x' n)) ->
  (forall v, v ∈ vals_of (nt_node x' n) -> (exists v0, v0 ∈ vals_of (nt_node x n) /\ va_msg v = va_msg v0) \/ signed x' (va_msg v)) ->
  (forall data, data ∈ pn_seen (nt_node x' n) -> known_from n (nt_node x' n) data) ->
  (forall k data, k ∈ ks -> encode (k_src k) = Some data -> data ∈ pn_seen (nt_node x' n) ->
     (data ∈ pn_seen (nt_node x n) /\ (passed_on x n data \/ checking (nt_node x n) data -> passed_on x' n data \/ checking (nt_node x' n) data)) \/ passed_on x' n data \/ checking (nt_node x' n) data) ->
  NI x' /\ forall m, signed x m -> signed x' m.
Proof.
  intros HI Hne HN Hs Ha1 Ha2 Hsp Hv Hk Hsent.
  assert (Hseen : forall q, pn_seen (nt_node x q) ⊆ pn_seen (nt_node x' q)) by (intros q; destruct (decide (q = n)) as [->|Hq]; [done|by rewrite Hne]).
  assert (Hsg : forall m, signed x m -> signed x' m) by (intros m Hm q E; apply Hseen; by apply Hm).
  assert (Hpo : forall q data, passed_on x q data -> passed_on x' q data).
  { intros q data Hp r Hr. destruct (Hp r Hr) as [?|(m & Hm & Ed)]; [left; by apply Hseen|]. destruct (Ha1 _ _ Hm) as [?|?]; [right; eauto|left; by rewrite <- Ed]. }
  split; [|done]. split.
  - intros q. destruct (decide (q = n)) as [->|Hq]; [done|rewrite Hne by done; by apply (ni_node _ HI)].
  - intros q. destruct (decide (q = n)) as [->|Hq]; [done|rewrite Hne by done; by apply (ni_spoken _ HI)].
  - intros q m Hm. destruct (Ha2 _ _ Hm) as [?|?]; [|done]. apply Hsg. by eapply (ni_air _ HI).
  - intros q v. destruct (decide (q = n)) as [->|Hq].
    + intros Hin. destruct (Hv v Hin) as [(v0 & Hin0 & ->)|?]; [|done]. by apply Hsg, (ni_vals _ HI _ _ Hin0).
    + rewrite Hne by done. intros Hin. by apply Hsg, (ni_vals _ HI _ _ Hin).
  - intros q. destruct (decide (q = n)) as [->|Hq]; [done|rewrite Hne by done; by apply (ni_seen _ HI)].
  - intros q k data Hkk He. destruct (decide (q = n)) as [->|Hq].
    + intros Hd. destruct (Hsent k data Hkk He Hd) as [[Hd0 Himp]|?]; [|done]. by apply Himp, (ni_sent _ HI _ k).
    + rewrite Hne by done. intros Hd. destruct (ni_sent _ HI _ k _ Hkk He Hd) as [?|?]; [left; by apply Hpo|by right].
Qed.
Lemma passed_mono x x' n data : (forall q, pn_seen (nt_node x q) ⊆ pn_seen (nt_node x' q)) -> (forall q m, (q, m) ∈ nt_air x -> (q, m) ∈ nt_air x' \/ m_data m ∈ pn_seen (nt_node x' q)) ->
  passed_on x n data -> passed_on x' n data.
Proof. intros Hs Ha Hp r Hr. destruct (Hp r Hr) as [?|(m & Hm & Ed)]; [left; by apply Hs|]. destruct (Ha _ _ Hm) as [?|?]; [right; eauto|left; by rewrite <- Ed]. Qed.
Lemma upd_same f n p : upd f n p n = p.
Proof. unfold upd. by rewrite decide_True. Qed.
Lemma upd_other f n p q : q <> n -> upd f n p q = f q.
Proof. intros Hq. unfold upd. by rewrite decide_False. Qed.
Lemma in_send n m q m' : (q, m') ∈ send n m -> m_data m' = m_data m /\ m_from m' = m_from m /\ q ∈ links n.
Proof. unfold Flood_Spec.send. intros Hin. apply elem_of_list_In, in_map_iff in Hin as (q' & E & Hq). injection E as -> <-. by split_and!; [| |apply elem_of_list_In]. Qed.
Lemma send_in n m q : q ∈ links n -> exists m', (q, m') ∈ send n m /\ m_data m' = m_data m.
Proof. intros Hq. eexists. split; [unfold Flood_Spec.send; apply elem_of_list_In, in_map_iff; exists q; split; [done|by apply elem_of_list_In]|done]. Qed.
Lemma in_sent n v q m : (q, m) ∈ sent_on n v -> m_data m = m_data (va_msg v) /\ m_from m = m_from (va_msg v).
Proof. unfold Flood_Spec.sent_on. destruct (va_phase v) as [c|c r]; [intros Hx; by apply elem_of_nil in Hx|]. destruct (v_ok r); [|intros Hx; by apply elem_of_nil in Hx]. intros Hx. apply in_send in Hx as (? & ? & _). done. Qed.

(** A message is looked at. *)
Lemma receive_inv x n m lib again air x' : NI x -> signed x m -> heard n (world_of (nt_node x n)) m lib ->
  (forall q m', (q, m') ∈ air -> (q, m') ∈ nt_air x) -> (forall q m', (q, m') ∈ nt_air x -> (q, m') ∈ air \/ (q = n /\ m' = m)) ->
  receive decode_block id_of_key su links (Net (nt_node x) air) n m lib again = Some x' -> NI x'.
Proof.
  intros HI Hsg Hh Hair1 Hair2 Hst. unfold receive in Hst. cbn [nt_node nt_air] in Hst. destruct (bool_decide (m_data m ∈ pn_seen (nt_node x n)) && negb again) eqn:Hd.
  { apply andb_true_iff in Hd as [Hd%bool_decide_eq_true _]. injection Hst as <-. eapply (NI_change x _ n); cbn; try done; try apply HI.
    - intros q m' Hm. destruct (Hair2 _ _ Hm) as [?|[-> ->]]; [by left|by right].
    - intros q m' Hm. left. by apply Hair1.
    - intros v Hv. left. eauto.
    - intros k data Hk He Hin. left. split; [done|]. intros [Hp|?]; [left|by right]. eapply (passed_mono x); [done| |exact Hp]. intros q m' Hm. cbn. destruct (Hair2 _ _ Hm) as [?|[-> ->]]; [by left|by right]. }
  clear Hd. assert (Hnew : forall data, data ∈ {[m_data m]} ∪ pn_seen (nt_node x n) -> (m_data m = data /\ m_from m <> su_name (su n) /\ data ∉ pn_seen (nt_node x n)) \/ data ∈ pn_seen (nt_node x n)).
  { intros data Hx. destruct (decide (data ∈ pn_seen (nt_node x n))) as [?|Hnin]; [by right|left]. assert (m_data m = data) as <- by set_solver. split_and!; [done| |done]. intros E. apply Hnin. by apply Hsg. }
  destruct (gstep _ _ _ _ _ _ _) as [g'|] eqn:Eg; [|done]. injection Hst as <-. set (x' := Net _ _).
  assert (Hcond : gcond n (pn_relay (nt_node x n)) (GMsg m lib)) by exact Hh.
  destruct (NodeI_step n _ _ _ Hcond (ni_node _ HI n) Eg) as [HN' Hmv]. destruct (vals_step _ _ _ _ Eg) as (v & Ev & Em & El).
  assert (Hn : nt_node x' n = PNode g' ({[m_data m]} ∪ pn_seen (nt_node x n))) by (cbn; apply upd_same).
  assert (Hne : forall q, q <> n -> nt_node x' q = nt_node x q) by (intros q Hq; cbn; by apply upd_other).
  assert (Hd' : m_data m ∈ pn_seen (nt_node x' n)) by (rewrite Hn; cbn; set_solver).
  assert (Hair : forall q m', (q, m') ∈ nt_air x -> (q, m') ∈ nt_air x' \/ m_data m' ∈ pn_seen (nt_node x' q)).
  { intros q m' Hin. destruct (Hair2 _ _ Hin) as [?|[-> ->]]; [left|by right]. cbn. apply elem_of_app. by left. }
  eapply (NI_change x x' n); [done|done|by rewrite Hn|rewrite Hn; cbn; set_solver|done|..].
  - intros q m' Hin. cbn in Hin. rewrite Ev, last_snoc in Hin. apply elem_of_app in Hin as [?|Hin]; [left; by apply Hair1|right]. apply in_sent in Hin as [E1 E2]. rewrite Em in E1, E2.
    intros q' E. rewrite E1. destruct (decide (q' = n)) as [->|Hq]; [done|]. rewrite Hne by done. apply Hsg. congruence.
  - rewrite Hn. cbn. intros b data Hs He. destruct (node_spoken n _ _ _ b Hcond (ni_node _ HI n) Eg Hs) as [Hs0|(j & E & _)]; [|done]. apply elem_of_union_r. by eapply (ni_spoken _ HI).
  - rewrite Hn. cbn. rewrite Ev. intros v' [Hin| ->%elem_of_list_singleton]%elem_of_app; [left; eauto|right]. rewrite Em.
    intros q E. destruct (decide (q = n)) as [->|Hq]; [done|]. rewrite Hne by done. by apply Hsg.
  - rewrite Hn. cbn. unfold known_from. cbn. rewrite Ev. intros data Hin. destruct (Hnew _ Hin) as [(<- & Hf & _)|Hin0]; clear Hin; [|rename Hin0 into Hin].
    + right. exists v. rewrite Em. split_and!; [apply elem_of_app; right; left|done|done].
    + destruct (ni_seen _ HI _ _ Hin) as [(b & Hb & He)|(v' & Hv' & E)]; [left|right; exists v'; split; [apply elem_of_app; by left|done]].
      exists b. split; [|done]. eapply (node_spoken_mono n); [exact Hcond|apply (ni_node _ HI)|exact Eg|by left].
  - intros k data Hk He Hin. rewrite Hn in Hin. cbn in Hin. destruct (Hnew _ Hin) as [(<- & Hf & _)|Hin0]; clear Hin; [|rename Hin0 into Hin].
    + right. right. destruct (co_code _ _ _ _ _ _ HC k Hk) as (_ & data' & He' & Hdec & _). assert (data' = m_data m) as -> by congruence.
      destruct (nd_good _ _ HN' v) with (k := k) as (c & cl & Hc & Eb & Hor); [rewrite Ev; apply elem_of_app; right; left|done|by rewrite Em| |].
      { by rewrite Em. }
      exists v, c. rewrite Hn. cbn. split_and!; [rewrite Ev; apply elem_of_app; right; left|by rewrite Em|]. destruct Hor as [?|(r & Hr & _)]; [done|]. exfalso.
      clear -Eg Ev Hr. destruct (pn_relay (nt_node x n)) as [vs w]. cbn [gstep rl_vals rl_world] in *. unfold ended in Eg. destruct (offered n m lib) as [b|].
      * destruct (wstep _ _ _ _) as [w'|]; [|done]. case_bool_decide; [injection Eg as <-; cbn in Ev; apply app_inj_tail in Ev as [_ <-]; done|]. destruct (refusal w'); [|done].
        destruct (validate n _ _ _); [|done]. injection Eg as <-. cbn in Ev. apply app_inj_tail in Ev as [_ <-]. done.
      * destruct (validate n _ _ _); [|done]. injection Eg as <-. cbn in Ev. apply app_inj_tail in Ev as [_ <-]. done.
    + left. split; [done|]. intros [Hp|(v' & c & Hv' & E & Hph)].
      * left. eapply (passed_mono x); [|exact Hair|exact Hp]. intros q. destruct (decide (q = n)) as [->|Hq]; [rewrite Hn; cbn; set_solver|by rewrite Hne].
      * right. exists v', c. rewrite Hn. cbn. rewrite Ev. split_and!; [apply elem_of_app; by left|done|done].
Qed.
Lemma NI_step x lab x' : NI x -> well false x lab -> nstep x lab = Some x' -> NI x'.
Proof.
  intros HI Hw Hst. destruct lab as [n l|n j again|n i|a lib again|n m lib again]; cbn [Flood_Spec.nstep Flood_Spec.well] in *.
  - (* local *) destruct Hw as [Hu Hp]. specialize (Hp eq_refl). assert (Hl : match l with WAnnounce _ => False | _ => True end) by (by destruct l).
    assert (Hst' : (fun g => Net (upd (nt_node x) n (PNode g (pn_seen (nt_node x n)))) (nt_air x)) <$> step_of n (pn_relay (nt_node x n)) (GWorld l) = Some x') by (by destruct l).
    clear Hst. destruct (step_of n (pn_relay (nt_node x n)) (GWorld l)) as [g'|] eqn:Eg; [|done]. injection Hst' as <-. set (x' := Net _ _).
    assert (Hcond : gcond n (pn_relay (nt_node x n)) (GWorld l)) by (by split).
    destruct (NodeI_step n _ _ _ Hcond (ni_node _ HI n) Eg) as [HN' Hmv]. pose proof (vals_step _ _ _ _ Eg) as Ev. cbn in Ev.
    assert (Hn : nt_node x' n = PNode g' (pn_seen (nt_node x n))) by (cbn; apply upd_same).
    assert (Hne : forall q, q <> n -> nt_node x' q = nt_node x q) by (intros q Hq; cbn; by apply upd_other).
    eapply (NI_change x x' n); [done|done|by rewrite Hn|by rewrite Hn|by left|by left|..].
    + rewrite Hn. cbn. intros b data Hs He. destruct (node_spoken n _ _ _ b Hcond (ni_node _ HI n) Eg Hs) as [Hs0|(j & E & _)]; [by eapply (ni_spoken _ HI)|]. by injection E as ->.
    + rewrite Hn. cbn. rewrite Ev. intros v Hv. left. eauto.
    + rewrite Hn. cbn. unfold known_from. cbn. rewrite Ev. intros data Hin. destruct (ni_seen _ HI _ _ Hin) as [(b & Hb & He)|?]; [left|by right].
      exists b. split; [|done]. eapply (node_spoken_mono n); [exact Hcond|apply (ni_node _ HI)|exact Eg|by left].
    + intros k data Hk He Hin. rewrite Hn in Hin. left. split; [done|]. intros [Hp'|(v' & c & Hv' & E & Hph)]; [left|right].
      * eapply (passed_mono x); [|by left|exact Hp']. intros q. destruct (decide (q = n)) as [->|Hq]; [by rewrite Hn|by rewrite Hne].
      * exists v', c. rewrite Hn. cbn. by rewrite Ev.
  - (* announce *) destruct (w_owed (world_of (nt_node x n)) !! j) as [b|] eqn:Ej; [|done].
    destruct (step_of n (pn_relay (nt_node x n)) (GWorld (WAnnounce j))) as [g'|] eqn:Eg; [|done]. injection Hst as <-.
    assert (Hcond : gcond n (pn_relay (nt_node x n)) (GWorld (WAnnounce j))) by (by split).
    destruct (NodeI_step n _ _ _ Hcond (ni_node _ HI n) Eg) as [HN' Hmv]. pose proof (vals_step _ _ _ _ Eg) as Ev. cbn in Ev.
    assert (Hgen : forall x' seen' extra, nt_node x' n = PNode g' seen' -> (forall q, q <> n -> nt_node x' q = nt_node x q) -> nt_air x' = nt_air x ++ extra -> pn_seen (nt_node x n) ⊆ seen' ->
      (forall data, data ∈ seen' -> data ∈ pn_seen (nt_node x n) \/ (encode b = Some data /\ forall q, q ∈ links n -> exists m, (q, m) ∈ extra /\ m_data m = data)) ->
      (forall data, encode b = Some data -> data ∈ seen') ->
      (forall q m, (q, m) ∈ extra -> m_data m ∈ seen' /\ m_from m = su_name (su n)) -> NI x').
    { intros x' seen' extra Hn Hne Ea Hs1 Hs2 Hs3 Hex.
      eapply (NI_change x x' n); [done|done|by rewrite Hn|by rewrite Hn|..].
      + intros q m Hm. left. rewrite Ea. apply elem_of_app. by left.
      + intros q m. rewrite Ea. intros [?|Hm]%elem_of_app; [by left|right]. apply Hex in Hm as [H1 H2]. intros q' E. assert (n = q') as <- by (apply (co_names _ _ _ _ _ _ HC); congruence). by rewrite Hn.
      + rewrite Hn. cbn. intros b' data Hs He. destruct (node_spoken n _ _ _ b' Hcond (ni_node _ HI n) Eg Hs) as [Hs0|(j' & E & Hj')]; [apply Hs1; by eapply (ni_spoken _ HI)|]. injection E as <-. apply Hs3. congruence.
      + rewrite Hn. cbn. rewrite Ev. intros v Hv. left. eauto.
      + rewrite Hn. cbn. unfold known_from. cbn. rewrite Ev. intros data Hin. destruct (Hs2 _ Hin) as [Hin0|[He _]].
        * destruct (ni_seen _ HI _ _ Hin0) as [(b' & Hb & He)|?]; [left|by right]. exists b'. split; [|done]. eapply (node_spoken_mono n); [exact Hcond|apply (ni_node _ HI)|exact Eg|by left].
        * left. exists b. split; [|done]. eapply (node_spoken_mono n); [exact Hcond|apply (ni_node _ HI)|exact Eg|right; eauto].
      + intros k data Hk He Hin. rewrite Hn in Hin. cbn in Hin. destruct (Hs2 _ Hin) as [Hin0|[_ Hall]].
        * left. split; [done|]. intros [Hp'|(v' & c & Hv' & E & Hph)]; [left|right].
          -- eapply (passed_mono x); [| |exact Hp']; [intros q; destruct (decide (q = n)) as [->|Hq]; [by rewrite Hn|by rewrite Hne]|]. intros q m Hm. left. rewrite Ea. apply elem_of_app. by left.
          -- exists v', c. rewrite Hn. cbn. by rewrite Ev.
        * right. left. intros q Hq. right. destruct (Hall q Hq) as (m & H1 & H2). exists m. split; [|done]. rewrite Ea. apply elem_of_app. by right. }
    unfold publish_block, publish. cbn [ps_sent fst]. destruct (encode b) as [data|] eqn:Ee; cbn [foldl ps_sent publish_message negb app fst].
    + unfold publish_one. cbn [nt_node nt_air]. rewrite upd_same. cbn [pn_seen pn_relay]. destruct (bool_decide (data ∈ pn_seen (nt_node x n)) && negb again) eqn:Hd.
      * eapply (Hgen _ (pn_seen (nt_node x n)) []); cbn; [apply upd_same|intros q Hq; by apply upd_other|by rewrite (right_id_L [] (++))|done|by left|intros d [= <-]; by apply andb_true_iff in Hd as [Hd%bool_decide_eq_true _]|intros q m Hx; by apply elem_of_nil in Hx].
      * eapply (Hgen _ ({[data]} ∪ pn_seen (nt_node x n)) (send n _)); cbn; [apply upd_same|intros q Hq; by rewrite !upd_other|done|set_solver| |intros d [= <-]; set_solver|].
        -- intros d [->%elem_of_singleton|?]%elem_of_union; [right; split; [done|]|by left]. intros q Hq. by apply (send_in n (Message data (su_name (su n)) (su_name (su n)) "") q).
        -- intros q m Hm. apply in_send in Hm as (-> & -> & _). cbn. split; [set_solver|done].
    + eapply (Hgen _ (pn_seen (nt_node x n)) []); cbn; [apply upd_same|intros q Hq; by apply upd_other|by rewrite (right_id_L [] (++))|done|by left|done|intros q m Hx; by apply elem_of_nil in Hx].
  - (* return *) destruct (step_of n (pn_relay (nt_node x n)) (GBack i)) as [g'|] eqn:Eg; [|done]. injection Hst as <-. set (x' := Net _ _).
    assert (Hcond : gcond n (pn_relay (nt_node x n)) (GBack i)) by done.
    destruct (NodeI_step n _ _ _ Hcond (ni_node _ HI n) Eg) as [HN' Hmv]. destruct (vals_step _ _ _ _ Eg) as (v & c & cl & res & r & Hi & Hph & Hc & Hret & Hval & Ev & Ew).
    set (v' := Validation (va_msg v) (va_lib v) (VOver (Some c) r)) in *.
    assert (Hin : v ∈ vals_of (nt_node x n)) by (by eapply elem_of_list_lookup_2).
    assert (Hi' : rl_vals g' !! i = Some v') by (rewrite Ev; apply list_lookup_insert; by eapply lookup_lt_Some).
    assert (Hall : forall w, w ∈ rl_vals g' -> w ∈ vals_of (nt_node x n) \/ w = v').
    { rewrite Ev. intros w Hw'. apply elem_of_list_lookup_1 in Hw' as (j & Hj). apply list_lookup_insert_Some in Hj as [(_ & -> & _)|(_ & Hj)]; [by right|left; by eapply elem_of_list_lookup_2]. }
    assert (Hback : forall w, w ∈ vals_of (nt_node x n) -> w = v \/ w ∈ rl_vals g').
    { intros w Hw'. apply elem_of_list_lookup_1 in Hw' as (j & Hj). destruct (decide (j = i)) as [->|Hji]; [left; congruence|right]. rewrite Ev. eapply (elem_of_list_lookup_2 _ j). by rewrite list_lookup_insert_ne. }
    assert (Hn : nt_node x' n = PNode g' (pn_seen (nt_node x n))) by (cbn; apply upd_same).
    assert (Hne : forall q, q <> n -> nt_node x' q = nt_node x q) by (intros q Hq; cbn; by apply upd_other).
    assert (Hse : forall q, pn_seen (nt_node x' q) = pn_seen (nt_node x q)) by (intros q; destruct (decide (q = n)) as [->|Hq]; [by rewrite Hn|by rewrite Hne]).
    assert (Ea : nt_air x' = nt_air x ++ sent_on n v') by (cbn; by rewrite Hi').
    eapply (NI_change x x' n); [done|done|by rewrite Hn|by rewrite Hn|..].
    + intros q m Hm. left. rewrite Ea. apply elem_of_app. by left.
    + intros q m. rewrite Ea. intros [?|Hm]%elem_of_app; [by left|right]. apply in_sent in Hm as [E1 E2]. cbn in E1, E2. intros q' E. rewrite Hse, E1. apply (ni_vals _ HI n v Hin). congruence.
    + rewrite Hn. cbn. intros b data Hs He. destruct (node_spoken n _ _ _ b Hcond (ni_node _ HI n) Eg Hs) as [Hs0|(j & E & _)]; [by eapply (ni_spoken _ HI)|done].
    + rewrite Hn. cbn. intros w Hw'. left. destruct (Hall _ Hw') as [?| ->]; [eauto|by exists v].
    + rewrite Hn. cbn. unfold known_from. cbn. intros data Hd. destruct (ni_seen _ HI _ _ Hd) as [(b & Hb & He)|(w & Hw' & E)]; [left|right].
      * exists b. split; [|done]. eapply (node_spoken_mono n); [exact Hcond|apply (ni_node _ HI)|exact Eg|by left].
      * destruct (Hback _ Hw') as [->|?]; [|eauto]. exists v'. split; [by eapply elem_of_list_lookup_2|done].
    + intros k data Hk He Hd. rewrite Hn in Hd. left. split; [done|]. intros [Hp'|(w & c' & Hw' & E & Hphw)].
      * left. eapply (passed_mono x); [intros q; by rewrite Hse| |exact Hp']. intros q m Hm. left. rewrite Ea. apply elem_of_app. by left.
      * destruct (Hback _ Hw') as [->|?]; [left|right; exists w, c'; by rewrite Hn].
        destruct (co_code _ _ _ _ _ _ HC k Hk) as (_ & data' & He' & Hdec & _). assert (data' = data) as -> by congruence. clear He'.
        destruct (nd_good _ _ HN' v') with (k := k) as (c2 & cl2 & _ & _ & [Hx|(r2 & Hr2 & Hok & _)]); [by eapply elem_of_list_lookup_2|done|cbn; congruence|by apply (waits_foreign n (pn_relay (nt_node x n)) v c (ni_node _ HI n))|done|].
        injection Hr2 as -> <-. intros q Hq. right. destruct (send_in n (va_msg v) q Hq) as (m & H1 & H2). exists m. split; [|congruence]. rewrite Ea. apply elem_of_app. right.
        unfold Flood_Spec.sent_on. cbn. by rewrite Hok.
  - (* deliver *) destruct (nt_air x !! a) as [[n m]|] eqn:Ea; [|done]. specialize (Hw n m eq_refl). assert (Hin : (n, m) ∈ nt_air x) by (by eapply elem_of_list_lookup_2).
    eapply (receive_inv x); [exact HI|by eapply (ni_air _ HI)|exact Hw| | |exact Hst].
    + intros q m' Hx. by eapply elem_of_delete.
    + intros q m' Hx. destruct (elem_delete_or _ _ _ _ Hx Ea) as [E|?]; [right; by injection E as <- <-|by left].
  - (* stranger *) destruct Hw as [Hh Hsg]. eapply (receive_inv x n m lib again (nt_air x)); [exact HI|exact Hsg|exact Hh|done|by left|by destruct x].
Qed.
Lemma NI_run sched : forall x x', NI x -> nruns encode decode_block id_of_key su links (well false) x sched x' -> NI x'.
Proof.
  induction sched as [|lab r IH]; intros x x' HI; cbn [nruns]; [by intros ->|]. intros (Hw & x1 & Hs & Hr). apply (IH x1); [|done]. by eapply NI_step.
Qed.
(** ** At rest *)
Lemma settle x q k data : NI x -> quiet decode_block id_of_key su x -> (forall n k, k ∈ ks -> young n k -> recent (su_opts (su n)) (s_now (w_s (world_of (nt_node x n)))) k) ->
  k ∈ ks -> encode (k_src k) = Some data -> k_prev k ∈ w_chain (world_of (nt_node x q)) -> k_prev k ∉ held_ids (w_s (world_of (nt_node x q))) -> data ∈ pn_seen (nt_node x q) ->
  k_id k ∈ w_chain (world_of (nt_node x q)) /\ k_id k ∉ held_ids (w_s (world_of (nt_node x q))) /\ forall q', q' ∈ links q -> data ∈ pn_seen (nt_node x q').
Proof.
  intros HI [Hair Hq] Hy Hk He Hp Hnp Hd. destruct (Hq q) as (Hrun & Hrest & Hback). pose proof (ni_node _ HI q) as HN. destruct (co_valid _ _ _ _ _ _ HC q) as [V1 V2 V3 V4].
  destruct (co_code _ _ _ _ _ _ HC k Hk) as (Hcomp & data' & He' & Hdec & Hid). assert (data' = data) as -> by congruence. clear He'.
  destruct (rest_step (su_opts (su q)) (su_root (su q)) (su_head (su q)) (su_lib (su q)) (su_dur (su q)) (su_now (su q)) parent h ks (world_of (nt_node x q)) k) as [R1 R2]; try done.
  { apply HN. } { intros k' Hk'. by apply hdr_of. } { apply (co_chain _ _ _ _ _ _ HC). } { apply (co_root _ _ _ _ _ _ HC q). } { intros k' Hk'. by apply (co_root _ _ _ _ _ _ HC q). }
  { destruct (nd_ord _ _ HN k Hk) as [?|?]; [left; by apply Hy|by right]. }
  assert (Hval : forall v, v ∈ vals_of (nt_node x q) -> m_data (va_msg v) = data -> m_from (va_msg v) <> su_name (su q) -> exists c cl, s_calls (w_s (world_of (nt_node x q))) !! c = Some cl /\ cl_blk cl = k /\ (va_phase v = VWait c \/ exists r, va_phase v = VOver (Some c) r)).
  { intros v Hv E Hf. destruct (nd_good _ _ HN v Hv k Hk) as (c & cl & Hc & Eb & Hor); [by rewrite E|done|]. exists c, cl. split_and!; [done|done|]. destruct Hor as [?|(r & ? & _)]; [by left|right; eauto]. }
  split_and!; [|done|].
  - destruct (ni_seen _ HI _ _ Hd) as [(b & Hb & Eb)|(v & Hv & E & Hf)].
    + rewrite <- (Hid _ Eb). apply (cm_told _ _ _ _ _ _ _ _ _ _ (nd_calm _ _ HN)). by right.
    + apply R2. destruct (Hval v Hv E Hf) as (c & cl & ? & ? & _). by exists c, cl.
  - destruct (ni_sent _ HI q k data Hk He Hd) as [Hpo|(v & c & Hv & E & Hph)].
    + intros q' Hq'. destruct (Hpo q' Hq') as [?|(m & Hm & _)]; [done|]. rewrite Hair in Hm. by apply elem_of_nil in Hm.
    + exfalso. pose proof (waits_foreign q _ v c HN Hv Hph) as Hf. destruct (Hval v Hv E Hf) as (c' & cl & Hc & Eb & [Hw|(r & Hr)]); [|congruence]. assert (c' = c) as -> by congruence.
      destruct Hrest as [(_ & _ & _ & Hcalls) _]. destruct (Hcalls c cl Hc) as [(res & Hret)|(_ & Hh)]; [|by rewrite Eb in Hh].
      apply elem_of_list_lookup_1 in Hv as Hv'. destruct Hv' as (i & Hi). specialize (Hback i). destruct (pn_relay (nt_node x q)) as [vs w] eqn:Er. cbn [gstep rl_vals rl_world] in *. destruct v as [m l ph]. cbn in Hph, E. subst ph.
      rewrite Hi, Hc, Hret in Hback. unfold ended in Hback. destruct (validate_block _ _ _ l (fun _ => res) m) as [vr|] eqn:Ev; [done|].
      assert (Hcar : carries decode_block (su_name (su q)) m k) by (split_and!; [by rewrite E|exact Hf|done]).
      destruct (carried _ id_of_key _ _ _ Hcar l) as [(_ & _ & Hx)|(_ & _ & Hx & Hx2)]; cbn in Hx; [by rewrite Hx in Ev|]. destruct res as [e|]; [by rewrite Hx2 in Ev|by rewrite Hx in Ev].
Qed.
Lemma published x src k data : NI x -> quiet decode_block id_of_key su x -> k ∈ ks -> encode (k_src k) = Some data ->
  k_id k ∈ w_chain (world_of (nt_node x src)) -> k_id k ∉ su_root (su src) -> data ∈ pn_seen (nt_node x src).
Proof.
  intros HI [_ Hq] Hk He Hin Hn. destruct (Hq src) as (_ & [_ Howed] & _). pose proof (nd_calm _ _ (ni_node _ HI src)) as Hcalm.
  destruct (cm_conv _ _ _ _ _ _ _ _ _ _ Hcalm _ Hin) as [?|(b & Hb & E)]; [done|]. destruct (cm_told _ _ _ _ _ _ _ _ _ _ Hcalm b Hb) as (_ & (_ & Hid) & _).
  rewrite (Hid k Hk E) in Hb. destruct Hb as [Hb|Hb]; [rewrite Howed in Hb; by apply elem_of_nil in Hb|]. by eapply (ni_spoken _ HI).
Qed.
Lemma spread x (area : nat -> Prop) : NI x -> quiet decode_block id_of_key su x -> (forall n k, k ∈ ks -> young n k -> recent (su_opts (su n)) (s_now (w_s (world_of (nt_node x n)))) k) ->
  (forall q, area q -> parent ∈ w_chain (world_of (nt_node x q))) ->
  (forall k q, k ∈ ks -> area q -> exists src, k_id k ∈ w_chain (world_of (nt_node x src)) /\ k_id k ∉ su_root (su src) /\ rtc (within links area) src q) ->
  forall k q, k ∈ ks -> area q -> k_id k ∈ w_chain (world_of (nt_node x q)).
Proof.
  intros HI Hqu Hy Hpar Hsrc.
  assert (Hmain : forall l p hp, successors p hp l -> (forall k, k ∈ l -> k ∈ ks) -> (forall q, area q -> p ∈ w_chain (world_of (nt_node x q)) /\ p ∉ held_ids (w_s (world_of (nt_node x q)))) ->
    forall k q, k ∈ l -> area q -> k_id k ∈ w_chain (world_of (nt_node x q))).
  { induction l as [|k0 l IH]; intros p hp Hsucc Hl Hp k q Hk Hq; [by apply elem_of_nil in Hk|]. destruct Hsucc as (Ep & _ & Hsucc). assert (Hk0 : k0 ∈ ks) by (apply Hl; left).
    destruct (co_code _ _ _ _ _ _ HC k0 Hk0) as (_ & data & He & _).
    assert (Hset : forall q, area q -> data ∈ pn_seen (nt_node x q) -> k_id k0 ∈ w_chain (world_of (nt_node x q)) /\ k_id k0 ∉ held_ids (w_s (world_of (nt_node x q))) /\ forall q', q' ∈ links q -> data ∈ pn_seen (nt_node x q')).
    { intros q' Hq' Hd. destruct (Hp q' Hq'). eapply settle; try done; by rewrite Ep. }
    assert (Hseen : forall q, area q -> data ∈ pn_seen (nt_node x q)).
    { intros q' Hq'. destruct (Hsrc k0 q' Hk0 Hq') as (src & S1 & S2 & Hpath). pose proof (published x src k0 data HI Hqu Hk0 He S1 S2) as Hd. clear S1 S2 Hq'.
      induction Hpath as [n|n1 n2 n3 (A1 & A2 & A3) _ IHp]; [done|]. apply IHp. by apply (Hset n1 A1 Hd). }
    apply elem_of_cons in Hk as [->|Hk]; [apply Hset; [done|by apply Hseen]|].
    eapply (IH (k_id k0)); [exact Hsucc|intros k' Hk'; apply Hl; by right| |exact Hk|exact Hq]. intros q' Hq'. destruct (Hset q' Hq' (Hseen q' Hq')) as (? & ? & _). done. }
  intros k q Hk Hq. eapply (Hmain ks); [apply (co_chain _ _ _ _ _ _ HC)|done| |done|done]. intros q' Hq'. split; [by apply Hpar|].
  intros Hin. pose proof (nd_calm _ _ (ni_node _ HI q')) as Hcalm. destruct (cm_kept _ _ _ _ _ _ _ _ _ _ Hcalm) as (sc & Hre & _). pose proof (reaches_inv _ _ _ _ _ _ _ Hre) as HInv.
  unfold held_ids in Hin. apply elem_of_dom in Hin as (en & He). pose proof (pv_byid _ (v_prov _ _ _ _ HInv) _ _ He) as Hp.
  pose proof (ok_id _ (a_ok _ (v_acc _ _ _ _ HInv)) _ _ He) as E. destruct (cs_calls _ _ _ _ _ _ _ (cm_s _ _ _ _ _ _ _ _ _ _ Hcalm) _ Hp) as (_ & _ & Hn & _). by apply Hn.
Qed.
End network.
