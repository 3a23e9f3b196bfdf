(** Proofs: gossip of blocks and sync sessions at the same time. *)
From Verif Require Import GoBase Util Gossip_Model Gossip_Spec PeerConn_Model Catchup_Spec Catchup_Proofs TxCache_Model TxCache_Spec TxCache_Proofs Watchdog_Model
  Applicator_Model Applicator_Spec Applicator_Core Applicator_Sys Applicator_Inv Applicator_Inv2 Applicator_Inv3 Applicator_Inv4
  Applicator_Inv5 Applicator_Inv6 Applicator_Inv7 Applicator_Props Deliver_Spec Deliver_Proofs Deliver_Props Rest_Spec Rest_Proofs
  Honest_Spec Honest_Proofs Honest_Proofs2 Honest_Props Round_Spec Round_Proofs Relay_Spec Relay_Proofs Flood_Spec Flood_Proofs Follow_Spec Follow_Proofs Both_Spec.

Lemma reports_name decode_block id_of_key me lib apply m r x e : validate_block decode_block id_of_key me lib apply m = Done r -> (x, e) ∈ v_reported r -> x = m_received m.
Proof.
  unfold validate_block, apply_block. destruct (decode_block (m_data m)) as [b|]; cbn; [|intros [= <-]; cbn; rewrite elem_of_list_singleton; congruence].
  case_bool_decide; cbn; [intros [= <-]; cbn; by rewrite elem_of_nil|].
  destruct b as [[i|] [[ht [pv|] ts sg]|]]; cbn; try (intros [= <-]; cbn; rewrite elem_of_list_singleton; congruence).
  case_bool_decide; cbn; [intros [= <-]; cbn; by rewrite elem_of_nil|]. destruct (apply _); cbn; intros [= <-]; cbn; rewrite ?elem_of_nil, ?elem_of_list_singleton; try congruence; done.
Qed.
Lemma own_message decode_block id_of_key me lib apply m r b : decode_block (m_data m) = Some b -> m_from m = me -> validate_block decode_block id_of_key me lib apply m = Done r -> v_reported r = [].
Proof. intros Hd Hf. unfold validate_block, apply_block. rewrite Hd, (bool_decide_eq_true_2 _ Hf). cbn. by intros [= <-]. Qed.
Lemma with_same c : with_world c (cp_world c) = c.
Proof. by destruct c. Qed.

Section both.
Context (decode_block : string -> option block) (id_of_key : string -> outcome string) (me : string).
Context (judge : blk -> option goerr) (o : ap_opts) (po : pc_opts) (id : string) (root : gset string) (head lib top : N) (cid : bytes) (ch : N -> blk) (young : blk -> Prop)
  (dur now : Z) (had : N).
Context (Hdur : good_dur dur) (HS : sound_setting judge o po root head lib top ch had).
Notation ks := (the_blocks lib top ch).
Notation CI := (CI o po root head lib top ch young dur now).
Notation nice := (nice o po root head lib top cid ch young).
Notation behaved := (behaved decode_block id_of_key me o po id root head lib top cid ch young).
Notation bstep := (bstep decode_block id_of_key me judge o po id).
Notation bruns := (bruns decode_block id_of_key me judge o po id).
Notation carries := (carries decode_block me).
Notation gstep := (gstep decode_block id_of_key me judge o).

Definition vfine (s : sys) (v : validation) : Prop := forall k, k ∈ ks -> carries (va_msg v) k -> forall call r, va_phase v = VOver call r ->
  v_reported r = [] /\ ((v_ok r = true /\ applied (s_log s) (k_id k)) \/ (v_ok r = false /\ (k_height k < va_lib v)%N)).
Definition from_peer (v : validation) : Prop := m_received (va_msg v) = id -> exists k, k ∈ ks /\ decode_block (m_data (va_msg v)) = Some (k_src k) /\ complete_block (k_src k).
Record BI (x : both) : Prop := {
  bi_ci : CI (bo_comp x);
  bi_gi : GI decode_block id_of_key me (Relay (bo_vals x) (cp_world (bo_comp x)));
  bi_ans : forall c cl, s_calls (w_s (cp_world (bo_comp x))) !! c = Some cl -> cl_blk cl ∈ ks -> answered_only cl;
  bi_fine : forall v, v ∈ bo_vals x -> vfine (w_s (cp_world (bo_comp x))) v;
  bi_peer : forall v, v ∈ bo_vals x -> from_peer v }.

Lemma fair_of c : CI c -> Fair o head lib dur now (cp_world c).
Proof. intros H. apply (wi_fair _ _ _ _ _ _ _ _ _ _ _ _ (ci_w _ _ _ _ _ _ _ _ _ _ _ H)). Qed.
Lemma calm_of c : CI c -> Calm o root head lib dur now (k_id (ch lib)) lib ks (cp_world c).
Proof. intros H. apply (wi_calm _ _ _ _ _ _ _ _ _ _ _ _ (ci_w _ _ _ _ _ _ _ _ _ _ _ H)). Qed.
(** Calls with blocks of the chain are not given up. *)
Lemma ans_step w w' lab : wstep judge o w lab = Some w' -> Fair o head lib dur now w -> Fair o head lib dur now w' -> patient ks w lab ->
  (forall c cl, s_calls (w_s w) !! c = Some cl -> cl_blk cl ∈ ks -> answered_only cl) -> forall c cl, s_calls (w_s w') !! c = Some cl -> cl_blk cl ∈ ks -> answered_only cl.
Proof.
  intros Hw HF HF' Hpat Hans c cl Hcl Hk.
  assert (Hst : (exists l', Step o (w_s w) l' (w_s w') /\ (forall n, l' = LTimeout n -> lab = WApp (LTimeout n))) \/ w_s w' = w_s w).
  { apply wstep_inv in Hw. destruct lab as [l'|i|j|b].
    - destruct Hw as (_ & Hs & _). apply step_Step in Hs as [_ Hs]. left. exists l'. split; [done|]. by intros n ->.
    - destruct Hw as (k & _ & Hs & _). apply step_Step in Hs as [_ Hs]. left. eexists. split; [exact Hs|]. done.
    - destruct Hw as (k & _ & Hs & _). apply step_Step in Hs as [_ Hs]. left. eexists. split; [exact Hs|]. done.
    - right. by destruct Hw. }
  destruct Hst as [(l' & Hs & Hl)|E]; [|rewrite E in Hcl; by eapply Hans].
  destruct (fa_reach _ _ _ _ _ _ HF) as (sc & Hr & _). pose proof (reaches_inv _ _ _ _ _ _ _ Hr) as HI.
  destruct (fa_reach _ _ _ _ _ _ HF') as (sc' & Hr' & _). pose proof (reaches_inv _ _ _ _ _ _ _ Hr') as HI'.
  destruct (s_calls (w_s w) !! c) as [cl0|] eqn:E0.
  - destruct (wstep_moves _ _ _ _ _ Hw) as [_ Hm]. destruct (Hm _ _ E0) as (cl1 & H1 & H2). rewrite Hcl in H1. injection H1 as <-. rewrite H2 in Hk.
    destruct (own_call o (w_s w) l' (w_s w') c cl0 (v_acc _ _ _ _ HI) (v_acc _ _ _ _ HI') Hs) as (cl1 & H1 & _ & H3); [|done|by eapply Hans|rewrite Hcl in H1; by injection H1 as <-].
    intros E. apply Hl in E. subst lab. exact (Hpat cl0 E0 Hk).
  - intros r Hph. by rewrite (fresh_call _ _ _ _ _ _ Hs E0 Hcl) in Hph.
Qed.
Lemma vfine_moves s s' v : moves s s' -> vfine s v -> vfine s' v.
Proof.
  intros [(new & El) _] Hv k Hk Hc call r Hph. destruct (Hv k Hk Hc call r Hph) as (H1 & [[H2 H3]|H2]); (split; [done|]); [left|by right]. split; [done|]. rewrite El. by apply applied_mono.
Qed.
(** A step of the composition without the validators, seen from the applicator and the chain *)
Lemma cstep_world c lab c' : cstep judge o po id c lab c' -> nice c lab c' ->
  cp_world c' = cp_world c \/ exists l, wstep judge o (cp_world c) l = Some (cp_world c') /\ ((lab = CWorld l) \/ exists b, l = WApp (LCall b)).
Proof. intros Hst [_ Hn]. destruct Hst; cbn [cp_world]; try (by left); try done; right; eexists; (split; [eassumption|]); eauto. Qed.

(** The step of the rest when a message or a return happens *)
Lemma msg_comp vs c m vs' w' : gstep (Relay vs (cp_world c)) (GMsg m (cp_lib c)) = Some (Relay vs' w') ->
  match offered decode_block id_of_key me m (cp_lib c) with
  | Some b => wstep judge o (cp_world c) (WApp (LCall b)) = Some w' /\ cstep judge o po id c (CWorld (WApp (LCall b))) (with_world c w')
  | None => with_world c w' = c
  end.
Proof.
  intros Hst. apply gstep_world in Hst. cbn [world_label rl_world] in Hst. destruct (offered _ _ _ m _) as [b|]; cbn in Hst; [|rewrite Hst; apply with_same].
  split; [done|]. destruct c as [s wait w p l]. cbn in *. by apply cs_world.
Qed.
Lemma back_comp vs c i vs' w' : gstep (Relay vs (cp_world c)) (GBack i) = Some (Relay vs' w') -> with_world c w' = c.
Proof. intros Hst. apply gstep_world in Hst. cbn in Hst. rewrite Hst. apply with_same. Qed.

(** What the labels of the composition are for the session *)
Definition lower (x : both) (lab : blabel) : list clabel :=
  match lab with
  | BComp l => [l]
  | BMsg m => match offered decode_block id_of_key me m (cp_lib (bo_comp x)) with Some b => [CWorld (WApp (LCall b))] | None => [] end
  | BBack _ => []
  end.
Lemma lower_step x lab x' : bstep x lab x' -> behaved x lab x' -> cruns judge o po id nice (bo_comp x) (lower x lab) (bo_comp x').
Proof.
  intros Hst Hb. destruct Hst as [vs c m vs' w' Hg|vs c i vs' w' Hg|vs c l c' Hc]; cbn [lower bo_comp].
  - pose proof (msg_comp _ _ _ _ _ Hg) as Hm. destruct Hb as [_ Hb]. cbn [bo_comp] in Hb. destruct (offered _ _ _ m _) as [b|]; [|rewrite Hm; constructor].
    destruct Hm as [_ Hm]. econstructor; [exact Hm|by apply Hb|constructor].
  - rewrite (back_comp _ _ _ _ _ Hg). constructor.
  - destruct Hb as [Hb _]. econstructor; [done|exact Hb|constructor].
Qed.
Lemma CI_lower x lab x' : bstep x lab x' -> behaved x lab x' -> CI (bo_comp x) -> CI (bo_comp x').
Proof. intros Hst Hb HC. eapply CI_runs; [exact Hdur|exact HS|exact HC|by eapply lower_step]. Qed.

Lemma BI_step x lab x' : bstep x lab x' -> behaved x lab x' -> BI x -> BI x'.
Proof.
  intros Hst Hb [B1 B2 B3 B4 B5]. pose proof (CI_lower _ _ _ Hst Hb B1) as B1'.
  pose proof (fair_of _ B1) as HF. pose proof (fair_of _ B1') as HF'. pose proof (calm_of _ B1) as HCalm.
  destruct Hst as [vs c m vs' w' Hg|vs c i vs' w' Hg|vs c l c' Hc]; cbn [bo_comp bo_vals] in *.
  - assert (HG : GI decode_block id_of_key me (Relay vs' w')) by (by eapply (GI_step decode_block id_of_key me judge o head lib dur now Hdur (Relay vs (cp_world c)))).
    pose proof (msg_comp _ _ _ _ _ Hg) as Hm. destruct Hb as [Hfrom Hb]. cbn [bo_comp] in Hb.
    assert (Hmv : moves (w_s (cp_world c)) (w_s w')).
    { apply gstep_world in Hg. cbn [rl_world] in Hg. destruct (world_label _ _ _ _); [by eapply wstep_moves|]. rewrite Hg. apply moves_refl. }
    assert (Hv : exists v, vs' = vs ++ [v] /\ va_msg v = m /\ va_lib v = cp_lib c /\ vfine (w_s w') v).
    { cbn [Relay_Spec.gstep] in Hg. unfold ended in Hg. destruct (offered decode_block id_of_key me m (cp_lib c)) as [b|] eqn:Eo.
      - destruct Hm as [Hw _]. rewrite Hw in Hg. case_bool_decide as Hlen; [injection Hg as <-; eexists; split_and!; [done|done|done|]; by intros k _ _ call r|].
        destruct (refusal w') as [e|] eqn:Er; [|done]. destruct (validate_block _ _ _ _ _ m) as [v|] eqn:Ev; [|done]. injection Hg as <-. eexists. split_and!; [done|done|done|].
        intros k Hk Hcar call r Hph. exfalso. cbn [va_msg] in Hcar. destruct (Hb b eq_refl) as [_ Hwd]. pose proof (offered_some _ _ _ _ _ _ Eo) as (Hd & _). destruct Hcar as (Hd' & _). assert (b = k_src k) as -> by congruence.
        destruct (fa_reach _ _ _ _ _ _ HF') as (sc & Hr & Hco). pose proof (reaches_no_panic _ _ _ _ _ _ _ Hdur Hco Hr) as Hnp. cbn in Hnp.
        destruct (lcall_taken _ _ _ _ _ Hw Hnp (Hwd k Hk eq_refl)) as (hd & _ & Ec). apply Hlen. rewrite Ec, app_length. cbn. lia.
      - destruct (validate_block _ _ _ _ _ m) as [v|] eqn:Ev; [|done]. injection Hg as <-. eexists. split_and!; [done|done|done|]. intros k Hk Hcar call r Hph. cbn in Hph, Hcar |- *. injection Hph as _ <-.
        destruct (carried _ id_of_key _ _ _ Hcar (cp_lib c)) as [(Hlt & _ & Hx)|(_ & Ho & _)]; [|congruence]. rewrite Hx in Ev. injection Ev as <-. split; [done|right; split; [done|]].
        unfold Gossip_Spec.block_height in Hlt. by rewrite (Hwf judge o po root head lib top ch had HS k Hk) in Hlt. }
    destruct Hv as (v & -> & Em & El & Hv). split; cbn [bo_comp bo_vals with_world cp_world].
    + done.
    + done.
    + destruct (offered decode_block id_of_key me m (cp_lib c)) as [b|]; [destruct Hm as [Hw _]; by eapply ans_step|]. apply (f_equal cp_world) in Hm. cbn in Hm. by rewrite Hm.
    + intros v' [Hin|Hin]%elem_of_app; [eapply vfine_moves; [exact Hmv|by apply B4]|]. apply elem_of_list_singleton in Hin as ->. done.
    + intros v' [Hin|Hin]%elem_of_app; [by apply B5|]. apply elem_of_list_singleton in Hin as ->. unfold from_peer. by rewrite Em.
  - assert (HG : GI decode_block id_of_key me (Relay vs' w')) by (by eapply (GI_step decode_block id_of_key me judge o head lib dur now Hdur (Relay vs (cp_world c)))).
    pose proof (back_comp _ _ _ _ _ Hg) as Ec. rewrite Ec in B1', HF'. split; cbn [bo_comp bo_vals]; rewrite ?Ec; try done.
    + apply (f_equal cp_world) in Ec. cbn in Ec. by rewrite <- Ec.
    + cbn [Relay_Spec.gstep] in Hg. destruct (vs !! i) as [[m l [n|? ?]]|] eqn:Ei; try done. destruct (s_calls (w_s (cp_world c)) !! n) as [cl|] eqn:En; [|done]. destruct (cl_phase cl) as [| |res] eqn:Ep; try done.
      unfold ended in Hg. destruct (validate_block _ _ _ _ _ m) as [v|] eqn:Ev; [|done]. injection Hg as <- _. intros v' Hin. apply elem_of_list_lookup_1 in Hin as (j & Hj).
      apply list_lookup_insert_Some in Hj as [(_ & <- & _)|(_ & Hj)]; [|apply B4; by eapply elem_of_list_lookup_2]. intros k Hk Hcar call r Hph. cbn in Hcar, Hph |- *. injection Hph as _ <-.
      pose proof (proj1 (Forall_lookup _ _) B2 i _ Ei) as Hv. unfold val_ok in Hv. cbn in Hv. destruct Hv as (cl' & Hcl & Ho). rewrite En in Hcl. injection Hcl as <-.
      pose proof (offered_some _ _ _ _ _ _ Ho) as (Hd & _). pose proof Hcar as (Hd' & _). assert (Es : k_src (cl_blk cl) = k_src k) by congruence.
      destruct (fa_reach _ _ _ _ _ _ HF) as (sc & Hr & _). pose proof (reach_hdrs _ _ _ _ _ _ _ (cl_blk cl) Hr ltac:(by exists n, cl)) as Hx.
      assert (Ekk : cl_blk cl = k). { rewrite Es, (Hwf judge o po root head lib top ch had HS k Hk) in Hx. destruct (cl_blk cl), k. cbn in *. congruence. }
      destruct (carried _ id_of_key _ _ _ Hcar l) as [(_ & Hn & _)|(_ & _ & Hval & _)]; [congruence|].
      destruct (calm_returned judge o root head lib dur now (k_id (ch lib)) lib ks (cp_world c) n cl k res HF HCalm Hk En Ekk) as [(-> & Hap)|(_ & Hi)]; [eapply B3; [exact En|by rewrite Ekk]|done| |].
      * rewrite Hval in Ev. injection Ev as <-. split; [done|]. left. done.
      * exfalso. exact (Hb _ k Ei Hk Hcar Hi).
    + cbn [Relay_Spec.gstep] in Hg. destruct (vs !! i) as [[m l [n|? ?]]|] eqn:Ei; try done. destruct (s_calls (w_s (cp_world c)) !! n) as [cl|] eqn:En; [|done]. destruct (cl_phase cl) as [| |res] eqn:Ep; try done.
      unfold ended in Hg. destruct (validate_block _ _ _ _ _ m) as [v|] eqn:Ev; [|done]. injection Hg as <- _. intros v' Hin. apply elem_of_list_lookup_1 in Hin as (j & Hj).
      apply list_lookup_insert_Some in Hj as [(_ & <- & _)|(_ & Hj)]; [|apply B5; by eapply elem_of_list_lookup_2]. exact (B5 _ (elem_of_list_lookup_2 _ _ _ Ei)).
  - destruct Hb as [Hn Hpat]. cbn [bo_comp] in Hn, Hpat. destruct (cstep_world _ _ _ Hc Hn) as [E|(wl & Hw & Hl)].
    + split; cbn [bo_comp bo_vals]; rewrite ?E; done.
    + assert (Hp : patient ks (cp_world c) wl) by (destruct Hl as [->|(b & ->)]; done). pose proof (wstep_moves _ _ _ _ _ Hw) as Hmv. split; cbn [bo_comp bo_vals].
      * done.
      * unfold GI in *. cbn in *. eapply Forall_impl; [exact B2|]. intros v. by apply val_ok_moves.
      * by eapply ans_step.
      * intros v Hv. eapply vfine_moves; [exact Hmv|by apply B4].
      * done.
Qed.
Lemma BI_runs x l x' : bruns behaved x l x' -> BI x -> BI x'.
Proof. induction 1 as [|x lab x1 rest x2 Hst Hb Hr IH]; [done|]. intros HB. apply IH. by eapply BI_step. Qed.
Lemma BI_init peer : (peer <= top)%N -> BI (both_init po root head lib dur now peer).
Proof.
  intros Hp. split; cbn [both_init bo_comp bo_vals].
  - by eapply CI_init.
  - by apply Forall_nil.
  - intros c cl Hx. done.
  - intros v Hv. by apply elem_of_nil in Hv.
  - intros v Hv. by apply elem_of_nil in Hv.
Qed.
(** The run of the session, the applicator and the chain *)
Lemma lower_runs x l x' : bruns behaved x l x' -> exists cl, cruns judge o po id nice (bo_comp x) cl (bo_comp x') /\ session_steps cl = ran l /\
  (Forall (fun lab => lab <> BComp CConnect) l -> Forall (fun lab => lab <> CConnect) cl).
Proof.
  induction 1 as [x|x lab x1 rest x2 Hst Hb Hr (cl & H1 & H2 & H3)]; [exists []; split_and!; [constructor|done|constructor]|].
  pose proof (lower_step _ _ _ Hst Hb) as Hl. exists (lower x lab ++ cl). split_and!.
  - clear -Hl H1. revert Hl. generalize (lower x lab), (bo_comp x). intros la. induction la as [|a la IH]; intros c Hl; inversion Hl; subst; [done|]. econstructor; [done|done|]. by apply IH.
  - clear -H2. unfold lower. destruct lab as [m|i|a]; cbn [ran]; [destruct (offered _ _ _ m _); cbn; exact H2|exact H2|]. cbn [app]. rewrite session_steps_cons. by rewrite H2.
  - intros [Ha Hrest]%Forall_cons. apply Forall_app. split; [|by apply H3]. clear -Ha. unfold lower. destruct lab as [m|i|a]; [destruct (offered _ _ _ m _); [by apply Forall_singleton|constructor]|constructor|].
    apply Forall_cons. split; [congruence|constructor].
Qed.
(** The current session's start *)
Lemma last_session x0 l x : bruns behaved x0 l x -> cp_ses (bo_comp x0) = session_init po -> checked po ch (bo_comp x0) ->
  exists l1 x1 l2, l = l1 ++ l2 /\ bruns behaved x0 l1 x1 /\ cp_ses (bo_comp x1) = session_init po /\ checked po ch (bo_comp x1) /\ bruns behaved x1 l2 x /\ Forall (fun lab => lab <> BComp CConnect) l2.
Proof.
  induction 1 as [x|x lab x1 rest x2 Hst Hb Hr IH]; intros Hs Hc; [exists [], x, []; split_and!; try done; constructor|].
  assert (Hdec : (exists rest1 y rest2, rest = rest1 ++ rest2 /\ bruns behaved x1 rest1 y /\ cp_ses (bo_comp y) = session_init po /\ checked po ch (bo_comp y) /\ bruns behaved y rest2 x2 /\ Forall (fun lab => lab <> BComp CConnect) rest2) \/
    Forall (fun lab => lab <> BComp CConnect) rest).
  { clear IH Hs Hc Hst Hb. induction Hr as [y|y lb y1 rs y2 Ht Hbb Hrr IHr]; [right; constructor|]. destruct IHr as [(r1 & z & r2 & -> & I1 & I2 & I3 & I4 & I5)|Hno].
    - left. exists (lb :: r1), z, r2. split_and!; try done. by econstructor.
    - assert (Hdl : lb = BComp CConnect \/ lb <> BComp CConnect) by (destruct lb as [| |[]]; try (by left); by right). destruct Hdl as [->|Hne]; [|right; by constructor].
      left. exists [BComp CConnect], y1, rs. split_and!; try done; [econstructor; [done|done|constructor]|..].
      + inversion Ht; subst. match goal with H : cstep _ _ _ _ _ CConnect _ |- _ => inversion H; subst end. done.
      + destruct Hbb as [_ Hbb]. inversion Ht; subst. match goal with H : cstep _ _ _ _ _ CConnect _ |- _ => inversion H; subst end. exact Hbb. }
  destruct Hdec as [(r1 & y & r2 & -> & I1 & I2 & I3 & I4 & I5)|Hno].
  - exists (lab :: r1), y, r2. split_and!; try done. by econstructor.
  - assert (Hdl : lab = BComp CConnect \/ lab <> BComp CConnect) by (destruct lab as [| |[]]; try (by left); by right). destruct Hdl as [->|Hne].
    + exists [BComp CConnect], x1, rest. split_and!; try done; [econstructor; [done|done|constructor]|..].
      * inversion Hst; subst. match goal with H : cstep _ _ _ _ _ CConnect _ |- _ => inversion H; subst end. done.
      * destruct Hb as [_ Hb]. inversion Hst; subst. match goal with H : cstep _ _ _ _ _ CConnect _ |- _ => inversion H; subst end. exact Hb.
    + exists [], x, (lab :: rest). split_and!; try done; [constructor|by econstructor|by constructor].
Qed.
End both.
