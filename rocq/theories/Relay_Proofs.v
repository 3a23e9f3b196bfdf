(** Proofs: gossip of blocks on top of the applicator and a chain service that works. *)
From Verif Require Import GoBase Util Gossip_Model Gossip_Spec TxCache_Model TxCache_Spec TxCache_Proofs Watchdog_Model
  Applicator_Model Applicator_Spec Applicator_Core Applicator_Sys Applicator_Inv Applicator_Inv2 Applicator_Inv3 Applicator_Inv4
  Applicator_Inv5 Applicator_Inv6 Applicator_Inv7 Applicator_Props Deliver_Spec Deliver_Proofs Deliver_Props Rest_Spec Rest_Proofs
  Honest_Spec Honest_Proofs Honest_Proofs2 Honest_Props Round_Spec Round_Proofs Relay_Spec.

(** ** Calls that have returned are in the log. *)
Definition Logged (s : sys) : Prop := forall c cl r, s_calls s !! c = Some cl -> cl_phase cl = CRet r -> OReturn (Some c) (k_src (cl_blk cl)) r ∈ s_log s.
Lemma Logged_step o s lab s' : Logged s -> Step o s lab s' -> Logged s'.
Proof.
  intros HL H c cl' r Hc' Hph.
  destruct (step_log_grows _ _ _ _ H) as (new & El).
  assert (Hold : forall cl, s_calls s !! c = Some cl -> cl_blk cl' = cl_blk cl -> cl_phase cl = CRet r -> OReturn (Some c) (k_src (cl_blk cl')) r ∈ s_log s').
  { intros cl Hc Eb Hp. rewrite El, Eb. apply elem_of_app. right. by apply HL. }
  assert (Heffs : forall l e x, s_calls x = s_calls s -> s_calls (do_effs l e x) !! c = Some cl' -> OReturn (Some c) (k_src (cl_blk cl')) r ∈ s_log s').
  { intros l e x Ex Hcx. pose proof (do_effs_same l e x) as HS. destruct (se_blk _ _ _ HS _ _ Hcx) as (cl0 & H0 & Eb & Ep). rewrite Ex in H0. eapply Hold; [exact H0|done|congruence]. }
  assert (Hsame : s_calls s' = s_calls s -> OReturn (Some c) (k_src (cl_blk cl')) r ∈ s_log s') by (intros E; rewrite E in Hc'; by eapply Hold).
  assert (Hins : forall (c0 : nat) cl0, s_calls s' = <[c0 := cl0]> (s_calls s) -> (c0 = c -> cl_phase cl0 = CRet r -> OReturn (Some c) (k_src (cl_blk cl0)) r ∈ s_log s') -> OReturn (Some c) (k_src (cl_blk cl')) r ∈ s_log s').
  { intros c0 cl0 E Hcl. rewrite E in Hc'. apply list_lookup_insert_Some in Hc' as [(-> & -> & _)|(_ & Hc)]; [by apply Hcl|by eapply Hold]. }
  destruct H; try (by apply Hsame); try (eapply Heffs; [|exact Hc']; done).
  - cbn in Hc'. apply lookup_app_Some in Hc' as [Hc'|[_ Hc']]; [by eapply Hold|]. apply list_lookup_singleton_Some in Hc' as [_ <-]. done.
  - eapply Hins; [done|]. done.
  - eapply Hins; [done|]. cbn. intros -> [= <-]. left.
  - eapply Hins; [done|]. cbn. intros -> [= <-]. left.
Qed.
Lemma reach_logged o head lib dur now sched s : reaches o head lib dur now sched s -> Logged s.
Proof.
  intros (Hl & HW & Hr). eapply (run_indW o u64_label Logged); [|done| |exact Hr]; [|by intros c cl r Hc].
  intros s1 lab s2 _ HL _ Hst. by eapply Logged_step.
Qed.

Section relay.
Context (decode_block : string -> option block) (id_of_key : string -> outcome string) (me : string).
Context (judge : blk -> option goerr) (o : ap_opts) (root : gset string) (head lib0 : N) (dur now : Z).
Notation validate := (validate_block decode_block id_of_key me).
Notation offered := (offered decode_block id_of_key me).
Notation carries := (carries decode_block me).
Notation gstep := (gstep decode_block id_of_key me judge o).
Notation gruns := (gruns decode_block id_of_key me judge o).
Notation Fair := (Fair o head lib0 dur now).

(** What the validator does with a block that it hands over *)
Lemma offered_some m lib b : offered m lib = Some b -> decode_block (m_data m) = Some b /\ m_from m <> me /\ complete_block b /\ (lib <= block_height b)%N.
Proof.
  unfold Relay_Spec.offered, validate_block, apply_block. destruct (decode_block (m_data m)) as [b'|]; cbn; [|done]. case_bool_decide as Hme; [done|].
  destruct b' as [[i|] [[ht [pv|] ts sg]|]]; cbn; try done. case_bool_decide as Hh; cbn; [done|]. intros [= <-].
  split_and!; [done|done|split; [done|by eexists]|cbn; lia].
Qed.
Lemma carried m k : carries m k -> forall lib,
  ((block_height (k_src k) < lib)%N /\ offered m lib = None /\ forall res, validate lib (fun _ => res) m = Done (ValResult false [] [])) \/
  ((lib <= block_height (k_src k))%N /\ offered m lib = Some (k_src k) /\ validate lib (fun _ => None) m = Done (ValResult true [k_src k] []) /\
   forall e, validate lib (fun _ => Some e) m = Done (ValResult false [k_src k] [(m_received m, EWrap (ESent ErrBlockApplication))])).
Proof.
  intros (Hd & Hme & Hi & h & Hh & Hp) lib. unfold Relay_Spec.offered, validate_block, apply_block. rewrite Hd, (bool_decide_eq_false_2 _ Hme). unfold block_height.
  destruct (k_src k) as [[i|] [[ht [pv|] ts sg]|]]; cbn in *; try done; [|by injection Hh as <-]. case_bool_decide as Hl; cbn; [left|right]; split_and!; try done; lia.
Qed.

(** ** The invariant of the validators *)
Definition val_ok (s : sys) (v : validation) : Prop :=
  match va_phase v with
  | VWait c => exists cl, s_calls s !! c = Some cl /\ offered (va_msg v) (va_lib v) = Some (k_src (cl_blk cl))
  | VOver (Some c) r => exists b res, offered (va_msg v) (va_lib v) = Some b /\ OReturn (Some c) b res ∈ s_log s /\ validate (va_lib v) (fun _ => res) (va_msg v) = Done r
  | VOver None r =>
    (offered (va_msg v) (va_lib v) = None /\ validate (va_lib v) (fun _ => None) (va_msg v) = Done r) \/
    exists b e, offered (va_msg v) (va_lib v) = Some b /\ OReturn None b (Some e) ∈ s_log s /\ validate (va_lib v) (fun _ => Some e) (va_msg v) = Done r
  end.
Definition moves (s s' : sys) : Prop :=
  (exists new, s_log s' = new ++ s_log s) /\ forall c cl, s_calls s !! c = Some cl -> exists cl', s_calls s' !! c = Some cl' /\ cl_blk cl' = cl_blk cl.
Lemma moves_refl s : moves s s.
Proof. split; [by exists []|eauto]. Qed.
Lemma wstep_moves w lab w' : wstep judge o w lab = Some w' -> moves (w_s w) (w_s w').
Proof.
  intros Hst. assert (Hstep : (exists l, Step o (w_s w) l (w_s w')) \/ w_s w' = w_s w).
  { apply wstep_inv in Hst. destruct lab as [l|i|j|b].
    - destruct Hst as (_ & Hs & _). apply step_Step in Hs as [_ Hs]. eauto.
    - destruct Hst as (k & _ & Hs & _). apply step_Step in Hs as [_ Hs]. eauto.
    - destruct Hst as (k & _ & Hs & _). apply step_Step in Hs as [_ Hs]. eauto.
    - right. by destruct Hst. }
  destruct Hstep as [(l & Hs)| ->]; [|apply moves_refl]. split; [exact (step_log_grows _ _ _ _ Hs)|]. intros c cl Hc. by eapply call_step.
Qed.
Lemma val_ok_moves s s' v : moves s s' -> val_ok s v -> val_ok s' v.
Proof.
  intros [(new & El) Hc]. unfold val_ok. destruct (va_phase v) as [c|[c|] r].
  - intros (cl & H1 & H2). destruct (Hc _ _ H1) as (cl' & ? & E). exists cl'. by rewrite E.
  - intros (b & res & H1 & H2 & H3). exists b, res. split_and!; [done| |done]. rewrite El. apply elem_of_app. by right.
  - intros [?|(b & e & H1 & H2 & H3)]; [by left|right]. exists b, e. split_and!; [done| |done]. rewrite El. apply elem_of_app. by right.
Qed.
Lemma lcall_log w b w' : wstep judge o w (WApp (LCall b)) = Some w' -> b_header b <> None ->
  (length (s_calls (w_s w')) = S (length (s_calls (w_s w))) /\ exists hd, b_header b = Some hd /\ s_calls (w_s w') = s_calls (w_s w) ++ [Call (Blk b hd) CSend None]) \/
  (length (s_calls (w_s w')) <> S (length (s_calls (w_s w))) /\ ((exists e, s_log (w_s w') = OReturn None b (Some e) :: s_log (w_s w)) \/ (s_log (w_s w') = s_log (w_s w) /\ s_panic (w_s w') = true))).
Proof.
  intros Hst Hh. apply wstep_inv in Hst as (_ & Hs & _). unfold step in Hs. destruct (s_panic (w_s w)); [done|]. injection Hs as Hs. unfold step_call in Hs.
  destruct (wd_add (s_wd (w_s w)) b) as [[wd' [e|]]|].
  - right. rewrite <- Hs. cbn. split; [lia|]. left. by exists e.
  - destruct (b_header b) as [hd|]; [|done]. left. rewrite <- Hs. cbn. rewrite app_length. cbn. split; [lia|]. by exists hd.
  - right. rewrite <- Hs. cbn. split; [lia|]. by right.
Qed.
Context (Hdur : good_dur dur).
Definition GI (g : relay) : Prop := Forall (val_ok (w_s (rl_world g))) (rl_vals g).
Lemma GI_step g lab g' : Fair (rl_world g) -> Fair (rl_world g') -> GI g -> gstep g lab = Some g' -> GI g'.
Proof.
  intros HF HF' HG Hst. destruct g as [vs w]. unfold GI in *. cbn [rl_vals rl_world] in *. destruct lab as [l|m lib|i]; cbn [Relay_Spec.gstep] in Hst.
  - destruct (wstep judge o w l) as [w'|] eqn:E; [|done]. injection Hst as <-. cbn. eapply Forall_impl; [exact HG|]. intros v. apply val_ok_moves. by eapply wstep_moves.
  - destruct (offered m lib) as [b|] eqn:Eo.
    + destruct (wstep judge o w (WApp (LCall b))) as [w'|] eqn:E; [|done]. pose proof (wstep_moves _ _ _ E) as Hm.
      assert (Hvs : Forall (val_ok (w_s w')) vs) by (eapply Forall_impl; [exact HG|]; intros v; by apply val_ok_moves).
      destruct (offered_some _ _ _ Eo) as (_ & _ & (_ & hd & Hhd & _) & _).
      destruct (lcall_log _ _ _ E) as [(El & hd' & Hhd' & Ec)|(El & Hr)]; [by rewrite Hhd|rewrite bool_decide_eq_true_2 in Hst by done|rewrite bool_decide_eq_false_2 in Hst by done].
      * injection Hst as <-. cbn. apply Forall_app. split; [done|]. apply Forall_singleton. unfold val_ok. cbn. exists (Call (Blk b hd') CSend None).
        split; [rewrite Ec; by rewrite lookup_app_r, Nat.sub_diag by done|done].
      * destruct (refusal w') as [e|] eqn:Er; [|done]. destruct Hr as [(e' & Elog)|(Elog & Hp)].
        -- unfold refusal in Er. rewrite Elog in Er. injection Er as ->. unfold ended in Hst. destruct (validate lib (fun _ => Some e) m) as [v|] eqn:Ev; [|done]. injection Hst as <-. cbn.
           apply Forall_app. split; [done|]. apply Forall_singleton. unfold val_ok. cbn. right. exists b, e. split_and!; [done|rewrite Elog; left|done].
        -- exfalso. unfold ended in Hst. destruct (validate lib (fun _ => Some e) m) as [v|]; [|done]. injection Hst as <-. cbn in HF'.
           destruct (fa_reach _ _ _ _ _ _ HF') as (sc & Hr & Hc). pose proof (reaches_no_panic _ _ _ _ _ _ _ Hdur Hc Hr). congruence.
    + unfold ended in Hst. destruct (validate lib (fun _ => None) m) as [v|] eqn:Ev; [|done]. injection Hst as <-. cbn. apply Forall_app. split; [done|]. apply Forall_singleton. unfold val_ok. cbn. left. done.
  - destruct (vs !! i) as [[m lib [c|? ?]]|] eqn:Ei; try done. destruct (s_calls (w_s w) !! c) as [cl|] eqn:Ec; [|done]. destruct (cl_phase cl) as [| |res] eqn:Ep; try done.
    unfold ended in Hst. destruct (validate lib (fun _ => res) m) as [v|] eqn:Ev; [|done]. injection Hst as <-. cbn.
    apply Forall_insert; [done|]. unfold val_ok. cbn. pose proof (proj1 (Forall_lookup _ _) HG i _ Ei) as Hv. unfold val_ok in Hv. cbn in Hv. destruct Hv as (cl' & Hcl & Ho).
    rewrite Ec in Hcl. injection Hcl as <-. exists (k_src (cl_blk cl)), res. split_and!; [done| |done]. destruct (fa_reach _ _ _ _ _ _ HF) as (sc & Hr & _). by eapply reach_logged.
Qed.
(** ** The run of the applicator and the chain *)
Lemma gstep_world g lab g' : gstep g lab = Some g' ->
  match world_label decode_block id_of_key me lab with Some l => wstep judge o (rl_world g) l = Some (rl_world g') | None => rl_world g' = rl_world g end.
Proof.
  destruct g as [vs w]. destruct lab as [l|m lib|i]; cbn [Relay_Spec.gstep world_label rl_world].
  - destruct (wstep judge o w l); [|done]. intros HH. by injection HH as <-.
  - destruct (offered m lib) as [b|]; cbn [fmap option_fmap option_map].
    + destruct (wstep judge o w (WApp (LCall b))) as [w'|]; [|done]. case_bool_decide; [intros HH; by injection HH as <-|]. destruct (refusal w'); [|done].
      destruct (ended _ _ _ _ _ _ _); [|done]. intros HH. by injection HH as <-.
    + destruct (ended _ _ _ _ _ _ _); [|done]. intros HH. by injection HH as <-.
  - destruct (vs !! i) as [[m lib [c|? ?]]|]; try done. destruct (s_calls (w_s w) !! c) as [cl|]; [|done]. destruct (cl_phase cl); try done.
    destruct (ended _ _ _ _ _ _ _); [|done]. intros HH. by injection HH as <-.
Qed.
Lemma gruns_world (P : world -> wlabel -> Prop) sched : forall g g', gruns P g sched g' -> exists ws, wrun judge o (rl_world g) ws = Some (rl_world g') /\ along judge o P (rl_world g) ws.
Proof.
  induction sched as [|lab r IH]; intros g g'; cbn; [intros ->; by exists []|]. intros (HP & g1 & Hs & Hr). destruct (IH _ _ Hr) as (ws & H1 & H2).
  apply gstep_world in Hs. destruct (world_label _ _ _ lab) as [l|]; [|exists ws; by rewrite <- Hs]. exists (l :: ws). cbn. rewrite Hs. split_and!; [done|by apply HP|done].
Qed.
Lemma along_Forall (Q : wlabel -> Prop) (P : world -> wlabel -> Prop) ws : (forall w l, P w l -> Q l) -> forall w w', wrun judge o w ws = Some w' -> along judge o P w ws -> Forall Q ws.
Proof.
  intros Hq. induction ws as [|l r IH]; intros w w' Hr Ha; [done|]. cbn in *. destruct Ha as [H1 H2]. destruct (wstep judge o w l) as [w1|]; [|done]. constructor; [by eapply Hq|by eapply IH].
Qed.
Lemma along_mono (P Q : world -> wlabel -> Prop) ws : (forall w l, P w l -> Q w l) -> forall w, along judge o P w ws -> along judge o Q w ws.
Proof. intros Hq. induction ws as [|l r IH]; intros w Ha; [done|]. cbn in *. destruct Ha as [H1 H2]. split; [by apply Hq|]. destruct (wstep judge o w l); [by apply IH|done]. Qed.
Lemma GI_run (P : world -> wlabel -> Prop) sched : (forall w l, P w l -> wu64 l /\ wcomplete l) -> forall g g', Fair (rl_world g) -> GI g -> gruns P g sched g' -> GI g' /\ Fair (rl_world g').
Proof.
  intros HP. induction sched as [|lab r IH]; intros g g' HF HG; cbn; [by intros ->|]. intros (Hl & g1 & Hs & Hr).
  assert (HF1 : Fair (rl_world g1)).
  { pose proof (gstep_world _ _ _ Hs) as Hw. destruct (world_label _ _ _ lab) as [l|]; [|by rewrite Hw]. destruct (HP _ _ (Hl l eq_refl)). by eapply Fair_step. }
  apply (IH g1); [done|by eapply (GI_step g)|done].
Qed.
End relay.
