(** Lemmas for [Stay_Props]. *)
From Verif Require Import GoBase Util Gossip_Model PeerConn_Model Catchup_Spec Applicator_Model Applicator_Spec Honest_Spec Round_Spec Relay_Spec Follow_Spec Both_Spec
  ErrHandler_Model ErrHandler_Spec ErrHandler_Proofs ErrHandler_Props EhSys_Model EhSys_Spec EhSys_Proofs ConnMgr_Model Asm_Model Asm_Spec Asm_Proofs Cutoff_Model Cutoff_Spec Cutoff_Proofs Stay_Spec.

Ltac es_cbn H := cbn [es_provider es_loop es_scores es_canq es_scoreq es_calls es_reports es_disc es_cancelled es_panic es_log es_found] in H.
Ltac es_cases Hst lab :=
  destruct lab; unfold es_step, serve, EhSys_Model.set_calls, EhSys_Model.set_loop, EhSys_Model.set_disc in Hst; es_cbn Hst;
  repeat (case_match; try discriminate Hst; es_cbn Hst); injection Hst as <-;
  cbn [es_provider es_loop es_scores es_canq es_scoreq es_calls es_reports es_disc es_cancelled es_panic es_log es_found] in *.
Lemma in_delete {A} (l : list A) i x : x ∈ delete i l -> x ∈ l.
Proof. revert i. induction l as [|y l IH]; intros [|i]; cbn; try done; [by right|]. intros [->|H]%elem_of_cons; [left|right; by eapply IH]. Qed.
Section clean.
Context (id : string) (decay : N -> Z -> N) (eo : eh_opts).
(** The error handler has nothing about the peer. *)
Record Clean (s : ehs) : Prop := {
  cl_reports : forall e, (id, e) ∉ es_reports s;
  cl_hand : forall e, es_loop s <> EAddress id e;
  cl_disc : id ∉ es_disc s;
  cl_served : forall now a e, EvError now id a e ∉ served_events s }.
Lemma clean_step s l s' : es_step decay eo s l = Some s' -> (forall e, l <> XReport id e) -> Clean s -> Clean s'.
Proof.
  intros Hst Hl [C1 C2 C3 C4]. destruct s as [pv lp sc cq sq ca rp dc cc pn lg fd].
  assert (Hsv : forall x now a e, (forall now a e, x.1.2 <> EvError now id a e) -> EvError now id a e ∉ map (fun x : option nat * eh_event * eh_out => x.1.2) (rev (x :: lg))).
  { intros x now a e Hx. cbn [rev]. rewrite map_app. intros [H|H]%elem_of_app; [by eapply C4|]. apply elem_of_list_singleton in H. by eapply Hx. }
  unfold served_events in *. es_cases Hst l; subst; split; unfold served_events; es_cbn C1; es_cbn C2; es_cbn C3; es_cbn C4;
    cbn [es_reports es_loop es_disc es_log]; try assumption; try done.
  all: try (intros now' a' e'; apply Hsv; intros; cbn; done).
  all: try (rewrite app_nil_r; assumption).
  all: try (intros now' a' e'; apply Hsv; intros; cbn; intros [= -> -> -> ->]; by eapply C2).
  all: try (intros Hin; apply C3; eapply in_delete; exact Hin).
  - intros e' [Hin|Hin]%elem_of_app; [by eapply C1|]. apply elem_of_list_singleton in Hin. injection Hin as -> ->. by eapply Hl.
  - intros e' Hin. eapply C1. eapply in_delete. exact Hin.
  - intros e' [= -> ->]. eapply C1. by eapply elem_of_list_lookup_2.
  - intros [Hin|Hin]%elem_of_app; [done|]. apply elem_of_list_singleton in Hin. subst.
    match goal with H : eh_step _ _ _ _ = _ |- _ => cbn [eh_step] in H; destruct (eh_error _ _ _ _ _ _) as [? []]; try discriminate H; injection H as _ -> end. by eapply C2.
Qed.
(** The step of the network as a step of the handler *)
Lemma clean_net s l s' : nt_step decay eo s l = Some s' -> (forall e, l <> NAs (AEh (XReport id e))) -> Clean (nt_eh s) -> Clean (nt_eh s').
Proof.
  intros Hst Hl HC. apply nt_cases in Hst as [l' HS]. destruct (nt_eh_part _ _ _ _ _ _ HS) as [->|(a & le & -> & He & Hlab)]; [done|].
  eapply clean_step; [exact He| |exact HC]. intros e ->. inversion HS; subst; cbn in Hlab; try done.
  destruct a as [| | |i|now]; cbn in Hlab; try done; [subst|by destruct Hlab..]. by eapply Hl.
Qed.
(** The closing loop has nothing about the peer either. *)
Record Spared (s : net) : Prop := { sp_clean : Clean (nt_eh s); sp_closer : nt_closer s <> CClosing id }.
Lemma spared_step s l s' : nt_step decay eo s l = Some s' -> (forall e, l <> NAs (AEh (XReport id e))) -> Spared s -> Spared s'.
Proof.
  intros Hst Hl [S1 S2]. split; [by eapply clean_net|]. apply nt_cases in Hst as [l' HS].
  destruct HS as [a x Hn1 Hn2 Hx|i p a x b e c' Hc Hg Hx|k c' Hk|k c' x Hk Hb Hx|Hcl|k p x Hcl Hk Hx|p Hcl|Hcl Hc2]; try done.
  cbn. intros [= ->]. apply (cl_disc _ S1). by eapply elem_of_list_lookup_2.
Qed.
Lemma spared_init initial : Spared (nt_init initial).
Proof. split; [|done]. split; cbn; try done; intros; apply not_elem_of_nil. Qed.
(** A connection of such a peer ends only by itself. *)
Lemma spared_open s l s' c : nt_step decay eo s l = Some s' -> Spared s -> c ∈ nt_open s -> cn_peer c = id -> c ∉ nt_open s' -> exists k, l = NHangUp k /\ nt_open s !! k = Some c.
Proof.
  intros Hst [S1 S2] Hc Hp Hn. apply nt_cases in Hst as [l' HS].
  destruct HS as [a x Hn1 Hn2 Hx|i p a x b e c' Hca Hg Hx|k c' Hk|k c' x Hk Hb Hx|Hcl|k p x Hcl Hk Hx|p Hcl|Hcl Hc2]; try done; cbn [nt_open] in Hn.
  - destruct Hn. apply elem_of_app. by left.
  - exists k. split; [done|]. rewrite (delete_Permutation _ _ _ Hk) in Hc. apply elem_of_cons in Hc as [->|Hc]; done.
  - destruct Hn. apply elem_of_list_filter. split; [|done]. intros E. apply S2. congruence.
Qed.
End clean.
