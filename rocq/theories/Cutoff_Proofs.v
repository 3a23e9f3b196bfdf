(** Invariants of the node with its network connections. *)
From Verif Require Import GoBase ErrHandler_Model ErrHandler_Spec ErrHandler_Proofs EhSys_Model EhSys_Spec EhSys_Proofs
  ConnMgr_Model ConnMgr_Spec ConnMgr_Proofs Asm_Model Asm_Spec Asm_Proofs Cutoff_Model Cutoff_Spec.

Ltac es_cases Hst lab :=
  destruct lab; unfold EhSys_Model.es_step, serve, set_calls, set_loop, set_disc in Hst;
  repeat (case_match; try discriminate Hst); injection Hst as <-;
  cbn [es_provider es_loop es_scores es_canq es_scoreq es_calls es_reports es_disc es_cancelled es_panic es_log es_found] in *.
Section proofs.
Context (decay : N -> Z -> N) (o : eh_opts).
Notation as_step := (as_step decay o). Notation as_run := (as_run decay o). Notation es_step := (es_step decay o).
Notation nt_step := (nt_step decay o). Notation nt_run := (nt_run decay o). Notation nt_reach := (nt_reach decay o).

Lemma nt_run_app s l1 l2 : nt_run s (l1 ++ l2) = match nt_run s l1 with Some s' => nt_run s' l2 | None => None end.
Proof. revert s. induction l1 as [|a l1 IH]; intros s; [done|]. cbn [Cutoff_Model.nt_run app]. destruct (nt_step s a); [apply IH|done]. Qed.
Lemma nt_reach_ind initial (P : net -> Prop) :
  P (nt_init initial) -> (forall s lab s', nt_reach initial s -> P s -> nt_step s lab = Some s' -> P s') ->
  forall s, nt_reach initial s -> P s.
Proof.
  intros H0 Hs s [sched Hr]. revert s Hr. induction sched as [|lab sched IH] using rev_ind; intros s Hr.
  - injection Hr as <-. done.
  - rewrite nt_run_app in Hr. destruct (nt_run (nt_init initial) sched) as [s1|] eqn:H1; [|done].
    cbn [Cutoff_Model.nt_run] in Hr. destruct (nt_step s1 lab) as [s2|] eqn:H2; [|done]. injection Hr as <-.
    eapply Hs; [by exists sched|by apply IH|done].
Qed.
Lemma nt_reach_step initial s lab s' : nt_reach initial s -> nt_step s lab = Some s' -> nt_reach initial s'.
Proof. intros [sched Hr] Hst. exists (sched ++ [lab]). rewrite nt_run_app, Hr. cbn [Cutoff_Model.nt_run]. by rewrite Hst. Qed.
Lemma nt_reach_run initial s sched s' : nt_reach initial s -> nt_run s sched = Some s' -> nt_reach initial s'.
Proof. intros [sched0 Hr] Hst. exists (sched0 ++ sched). by rewrite nt_run_app, Hr. Qed.

(** *** The part of a step in the handler and the manager *)
Inductive NtStep (s : net) : nlabel -> option alabel -> net -> Prop :=
| Nt_as l x : (forall e, l <> ACm (LNotify e)) -> (forall k, l <> AEh (XDisconnected k)) -> as_step (nt_as s) l = Some x ->
    NtStep s (NAs l) (Some l) (set_as x s)
| Nt_open i p a x b e : let c := Conn p a (nt_next s) in
    es_calls (as_eh (nt_as s)) !! i = Some (ECall (KCanAddr a) (PDone (OutCan true)) b e) -> i ∉ nt_gates s ->
    as_step (nt_as s) (ACm (LNotify (NConnected c))) = Some x ->
    NtStep s (NOpen i p a) (Some (ACm (LNotify (NConnected c)))) (Net x (nt_open s ++ [c]) (nt_closing s) (S (nt_next s)) (i :: nt_gates s) (nt_closer s))
| Nt_hang_up k c : nt_open s !! k = Some c ->
    NtStep s (NHangUp k) None (Net (nt_as s) (delete k (nt_open s)) (nt_closing s ++ [c]) (nt_next s) (nt_gates s) (nt_closer s))
| Nt_notify k c x : nt_closing s !! k = Some c -> NConnected c ∉ cm_blocked (as_cm (nt_as s)) ->
    as_step (nt_as s) (ACm (LNotify (NDisconnected c))) = Some x ->
    NtStep s (NNotify k) (Some (ACm (LNotify (NDisconnected c)))) (Net x (nt_open s) (delete k (nt_closing s)) (nt_next s) (nt_gates s) (nt_closer s))
| Nt_start : nt_closer s = CNotStarted -> NtStep s NStartCloser None (set_closer CIdle s)
| Nt_take k p x : nt_closer s = CIdle -> es_disc (as_eh (nt_as s)) !! k = Some p -> as_step (nt_as s) (AEh (XDisconnected k)) = Some x ->
    NtStep s (NTake k) (Some (AEh (XDisconnected k))) (set_closer (CClosing p) (set_as x s))
| Nt_close p : nt_closer s = CClosing p ->
    NtStep s NClosePeer None (Net (nt_as s) (filter (fun c => cn_peer c <> p) (nt_open s)) (nt_closing s ++ filter (fun c => cn_peer c = p) (nt_open s))
                (nt_next s) (nt_gates s) CIdle)
| Nt_end : nt_closer s = CIdle -> es_cancelled (as_eh (nt_as s)) = true -> NtStep s NEndCloser None (set_closer CEnded s).
Lemma nt_cases s lab s' : nt_step s lab = Some s' -> exists l, NtStep s lab l s'.
Proof.
  intros H. destruct lab as [l|i p a|k|k| |k| |]; cbn [Cutoff_Model.nt_step] in H.
  - assert (Hx : (forall e, l <> ACm (LNotify e)) /\ (forall k, l <> AEh (XDisconnected k)) /\ exists x, as_step (nt_as s) l = Some x /\ s' = set_as x s).
    { destruct l as [l|l| |i|now]; try destruct l; try discriminate H; apply bind_Some in H as (x & Hx & H); injection H as <-; (split; [done|]); (split; [done|]); by exists x. }
    destruct Hx as (H1 & H2 & x & Hx & ->). eexists. by apply Nt_as.
  - destruct (es_calls _ !! i) as [[[a'| |] [| | |[| [] |]] b e]|] eqn:Hc; try discriminate H.
    destruct (bool_decide (a' = a)) eqn:E1; [|discriminate H]. apply bool_decide_eq_true in E1 as ->.
    destruct (bool_decide (i ∉ nt_gates s)) eqn:E2; [|discriminate H]. apply bool_decide_eq_true in E2. cbn [andb] in H.
    apply bind_Some in H as (x & Hx & H). injection H as <-. eexists. by eapply Nt_open.
  - destruct (nt_open s !! k) as [c|] eqn:E; [|done]. injection H as <-. eexists. by apply Nt_hang_up.
  - destruct (nt_closing s !! k) as [c|] eqn:E; [|done]. case_bool_decide as E2; [done|]. apply bind_Some in H as (x & Hx & H). injection H as <-.
    eexists. by eapply Nt_notify.
  - destruct (nt_closer s) eqn:E; try done. injection H as <-. eexists. by apply Nt_start.
  - destruct (nt_closer s) eqn:E; try done. destruct (es_disc _ !! k) as [p|] eqn:E2; [|done]. apply bind_Some in H as (x & Hx & H). injection H as <-.
    eexists. by eapply Nt_take.
  - destruct (nt_closer s) eqn:E; try done. injection H as <-. eexists. by apply Nt_close.
  - destruct (nt_closer s) eqn:E; try done. destruct (es_cancelled _) eqn:E2; [|done]. injection H as <-. eexists. by apply Nt_end.
Qed.
Definition oseq (l : option alabel) : list alabel := match l with Some l => [l] | None => [] end.
Lemma nt_part s lab l s' : NtStep s lab l s' -> as_run (nt_as s) (oseq l) = Some (nt_as s').
Proof. intros H. destruct H; cbn [oseq Asm_Model.as_run nt_as set_as set_closer]; try done; repeat match goal with Hx : as_step _ _ = Some _ |- _ => rewrite Hx; clear Hx end; done. Qed.
Lemma nt_proj sched : forall s s', nt_run s sched = Some s' -> exists ls, as_run (nt_as s) ls = Some (nt_as s') /\
  (forall l, NAs l ∈ sched -> l ∈ ls) /\
  (Forall (fun lab => nt_context_ends lab = false) sched -> Forall (fun l => context_ends l = false) ls) /\
  (forall l, l ∈ ls -> NAs l ∈ sched \/ (exists e, l = ACm (LNotify e)) \/ exists k, l = AEh (XDisconnected k)).
Proof.
  induction sched as [|lab sched IH]; intros s s' Hr; cbn [Cutoff_Model.nt_run] in Hr.
  - injection Hr as <-. exists []. split; [done|]. split; [intros l H; by apply elem_of_nil in H|]. split; [constructor|intros l H; by apply elem_of_nil in H].
  - destruct (nt_step s lab) as [s1|] eqn:H1; [|done]. apply nt_cases in H1 as [l Hl]. destruct (IH _ _ Hr) as (ls & Hls & Hin & HF & HB).
    exists (oseq l ++ ls). split; [by rewrite as_run_app, (nt_part _ _ _ _ Hl)|]. split.
    + intros l' Hl'. apply elem_of_cons in Hl' as [<-|Hl']; apply elem_of_app; [left|right; by apply Hin]. inversion Hl; subst. left.
    + split; [intros HF'; apply Forall_cons in HF' as [Hx HF']; apply Forall_app; split; [|by apply HF]; destruct Hl; cbn [oseq]; by repeat constructor|].
      intros l' Hl'. apply elem_of_app in Hl' as [Hl'|Hl']; [|destruct (HB _ Hl') as [H|H]; [left; by right|by right]].
      destruct Hl; cbn [oseq] in Hl'; try (by apply elem_of_nil in Hl'); apply elem_of_list_singleton in Hl' as ->; [left; left|right; left; by eexists|right; left; by eexists|right; right; by eexists].
Qed.
Lemma as_reach_nt initial s : nt_reach initial s -> as_reach decay o initial [] (nt_as s).
Proof. intros [sched Hr]. destruct (nt_proj _ _ _ Hr) as (ls & H & _). by exists ls. Qed.

(** *** How notifications move *)
Definition same_net (c c' : cm) : Prop := cm_blocked c' = cm_blocked c /\ net_history (rev (cm_log c')) = net_history (rev (cm_log c)).
Definition take_net (c c' : cm) : Prop := exists i e, cm_blocked c !! i = Some e /\ cm_blocked c' = delete i (cm_blocked c) /\
  net_history (rev (cm_log c')) = net_history (rev (cm_log c)) ++ [e].
Lemma cm_net_step c l c' : cm_step c l = Some c' -> (forall x xs, cm_starter c <> Some (x :: xs)) ->
  match l with LNotify e => cm_blocked c' = cm_blocked c ++ [e] /\ net_history (rev (cm_log c')) = net_history (rev (cm_log c))
  | _ => same_net c c' \/ take_net c c' end.
Proof.
  intros Hst Hs. destruct c as [sd st m pe nx bl ca se cc lg]. unfold same_net, take_net.
  cm_cases Hst l; subst; try (by destruct (Hs _ _ eq_refl)); rewrite ?rev_app_distr; cbn [rev];
    repeat rewrite net_app; try (left; split; [done|]; cbn; by rewrite ?app_nil_r); try (by split).
  all: try (right; eexists i, _; split; [done|]; split; [done|]; cbn; by rewrite ?app_nil_r).
  left. split; [done|]. rewrite (net_plain (rev (map _ _))); [cbn; by rewrite !app_nil_r|]. apply Forall_forall. intros x Hx.
  apply elem_of_list_In, in_rev, elem_of_list_In, elem_of_list_fmap in Hx as (? & -> & _). done.
Qed.

Lemma same_refl c : same_net c c.
Proof. done. Qed.
Lemma same_trans c1 c2 c3 : same_net c1 c2 -> same_net c2 c3 -> same_net c1 c3.
Proof. intros [A1 A2] [B1 B2]. split; congruence. Qed.
Lemma ask_same p c c' : ask p c = Some c' -> same_net c c'.
Proof. intros H. injection H as <-. done. Qed.
Lemma expire_same j c c' : expire j c = Some c' -> same_net c c'.
Proof. destruct j as [j|]; cbn [expire]; intros H; [|by injection H as <-]. cbn [cm_step] in H. destruct (cm_callers c !! j) as [[q st x]|]; [|done]. by injection H as <-. Qed.
Lemma as_net_step s l s' : as_step s l = Some s' -> (forall x xs, cm_starter (as_cm s) <> Some (x :: xs)) ->
  match l with ACm (LNotify e) => cm_blocked (as_cm s') = cm_blocked (as_cm s) ++ [e] /\ handled s' = handled s
  | _ => same_net (as_cm s) (as_cm s') \/ take_net (as_cm s) (as_cm s') end.
Proof.
  intros Hst Hs. unfold handled. destruct l as [l|l| |i|now]; cbn [Asm_Model.as_step] in Hst.
  - assert (H : exists c, cm_step (as_cm s) l = Some c /\ s' = Asm c (as_eh s) (as_calls s) (as_err s)).
    { destruct l; try (destruct (decide _) in Hst); try discriminate Hst; apply bind_Some in Hst as (c & Hc & Hx); injection Hx as <-; by exists c. }
    destruct H as (c & Hc & ->). cbn [as_cm]. apply cm_net_step in Hc; [|done]. by destruct l.
  - left. apply bind_Some in Hst as (e & He & Hst).
    destruct l as [| | |k|i|i a|i|now|now|i|i|id er|k|now a|k|k|]; try discriminate Hst; try (by injection Hst as <-).
    + destruct k as [a|p|p]; [by injection Hst as <-|apply bind_Some in Hst as (c & Hc & Hx); injection Hx as <-; by eapply ask_same..].
    + apply bind_Some in Hst as (c & Hc & Hx). injection Hx as <-. by eapply expire_same.
    + apply bind_Some in Hst as ([id er] & _ & Hst). apply bind_Some in Hst as (c & Hc & Hst). apply bind_Some in Hst as (c' & Hc' & Hx). injection Hx as <-. cbn [as_cm].
      eapply same_trans; [by eapply ask_same|]. destruct (cm_cancelled (as_cm s)); [by eapply expire_same|by injection Hc' as <-].
  - left. apply bind_Some in Hst as (e & He & Hst). apply bind_Some in Hst as (c & Hc & Hst). apply bind_Some in Hst as (c' & Hc' & Hx). injection Hx as <-. cbn [as_cm].
    eapply same_trans; [|by eapply expire_same]. by injection Hc as <-.
  - left. apply bind_Some in Hst as (j & Hj & Hst). destruct (cm_callers (as_cm s) !! j) as [[q [| |[a| |]] x]|]; try discriminate Hst.
    apply bind_Some in Hst as (e & He & Hx). by injection Hx as <-.
  - left. apply bind_Some in Hst as (j & Hj & Hst). destruct (cm_callers (as_cm s) !! j) as [[q [| |[a| |]] x]|]; try discriminate Hst.
    apply bind_Some in Hst as (e & He & Hx). by injection Hx as <-.
Qed.
Lemma starter_none initial s : as_reach decay o initial [] s -> forall x xs, cm_starter (as_cm s) <> Some (x :: xs).
Proof.
  intros Hr x xs Hs. destruct (proj_reach _ _ _ _ _ Hr) as [Hc _]. pose proof (Inv0_reach _ _ _ Hc) as H. unfold Inv0 in H. rewrite Hs in H. by destruct H as [H _].
Qed.

(** *** Every connection is at one place *)
Definition events (s : net) : list netev := cm_blocked (nt_mgr s) ++ told s.
Record NI (s : net) : Prop := {
  ni_events : NoDup (events s);
  ni_open : NoDup (nt_open s);
  ni_closing : NoDup (nt_closing s);
  ni_disjoint : forall c, c ∈ nt_open s -> c ∉ nt_closing s;
  ni_alive : forall c, c ∈ nt_open s \/ c ∈ nt_closing s -> NConnected c ∈ events s /\ NDisconnected c ∉ events s;
  ni_gone : forall c, NConnected c ∈ events s -> c ∈ nt_open s \/ c ∈ nt_closing s \/ NDisconnected c ∈ events s;
  ni_after : forall c, NDisconnected c ∈ events s -> NConnected c ∈ told s;
  ni_fresh : forall c, NConnected c ∈ events s -> (cn_id c < nt_next s)%nat;
  ni_order : forall h1 c h2, told s = h1 ++ NDisconnected c :: h2 -> NConnected c ∈ h1 }.
Definition nt_part_of (s s' : net) (l : option alabel) : Prop :=
  match l with Some (ACm (LNotify e)) => cm_blocked (nt_mgr s') = cm_blocked (nt_mgr s) ++ [e] /\ told s' = told s
  | _ => same_net (nt_mgr s) (nt_mgr s') \/ take_net (nt_mgr s) (nt_mgr s') end.
Lemma part_step initial s lab l s' : nt_reach initial s -> NtStep s lab l s' -> nt_part_of s s' l.
Proof.
  intros Hr Hst. pose proof (starter_none _ _ (as_reach_nt _ _ Hr)) as Hs. apply nt_part in Hst. unfold nt_part_of, nt_mgr, told.
  destruct l as [l|]; cbn [oseq Asm_Model.as_run] in Hst.
  - destruct (as_step (nt_as s) l) as [x|] eqn:Hx; [|done]. injection Hst as ->. apply as_net_step in Hx; [|done]. by destruct l as [[]| | | |].
  - injection Hst as ->. left. apply same_refl.
Qed.
Lemma NI_mono s s' : NI s -> nt_open s' = nt_open s -> nt_closing s' = nt_closing s -> nt_next s' = nt_next s ->
  same_net (nt_mgr s) (nt_mgr s') \/ take_net (nt_mgr s) (nt_mgr s') -> NI s'.
Proof.
  intros [A1 A2 A3 A4 A5 A6 A7 A8 A9] E1 E2 E3 [[B1 B2]|(i & e & B1 & B2 & B3)].
  - assert (Et : told s' = told s) by exact B2. assert (Ee : events s' = events s) by (unfold events; by rewrite B1, Et).
    by split; rewrite ?Ee, ?Et, ?E1, ?E2, ?E3.
  - assert (Et : told s' = told s ++ [e]) by exact B3.
    assert (Ep : events s' ≡ₚ events s). { unfold events. rewrite B2, Et. pose proof (delete_Permutation _ _ _ B1) as Hp. transitivity ((e :: delete i (cm_blocked (nt_mgr s))) ++ told s); [|by rewrite <- Hp]. cbn [app]. rewrite (assoc_L (++)). symmetry. apply Permutation_cons_append. }
    split; rewrite ?E1, ?E2, ?E3; try done.
    + by rewrite Ep.
    + intros c Hc. rewrite Ep. by apply A5.
    + intros c Hc. rewrite Ep in *. by apply A6.
    + intros c Hc. rewrite Ep in Hc. rewrite Et. apply elem_of_app. left. by apply A7.
    + intros c Hc. rewrite Ep in Hc. by apply A8.
    + intros h1 c h2 Hh. rewrite Et in Hh. apply snoc_split in Hh as [(Hx & Hy & Hz)|(l2 & Hx & Hy)].
      * subst. apply A7. unfold events. apply elem_of_app. left. by eapply elem_of_list_lookup_2.
      * by eapply A9.
Qed.

Lemma NI_reach initial s : nt_reach initial s -> NI s.
Proof.
  revert s. apply nt_reach_ind.
  { split; cbn; try (by constructor); try (intros c H; by apply elem_of_nil in H); try (intros c [H|H]; by apply elem_of_nil in H). intros [|? ?] c h2 H; discriminate H. }
  intros s lab s' Hr HI Hst. apply nt_cases in Hst as [l Hl]. pose proof (part_step _ _ _ _ _ Hr Hl) as Hp. unfold nt_part_of in Hp.
  destruct Hl as [l x Hn1 Hn2 Hx|i p a x b e c Hc Hg Hx|k c Hk|k c x Hk Hb Hx|Hc|k p x Hc Hk Hx|p Hc|Hc Hcan].
  - eapply NI_mono; [exact HI|done..|]. destruct l as [[]| | | |]; try exact Hp. by destruct (Hn1 e).
  - destruct Hp as [B1 B2]. destruct HI as [A1 A2 A3 A4 A5 A6 A7 A8 A9].
    match goal with |- NI ?x => set (s' := x) in * end.
    assert (Ep : events s' ≡ₚ NConnected c :: events s). { unfold events. rewrite B1, B2. rewrite <- (assoc_L (++)). symmetry. apply Permutation_middle. }
    assert (Hnew : forall c', NConnected c' ∈ events s -> c' <> c). { intros c' H ->. apply A8 in H. unfold c in H. cbn [cn_id] in H. lia. }
    assert (Hnd : NDisconnected c ∉ events s). { intros H. apply A7 in H. eapply Hnew; [|done]. unfold events. apply elem_of_app. by right. }
    assert (Hno : c ∉ nt_open s). { intros H. eapply Hnew; [|done]. apply A5. by left. }
    assert (Hncl : c ∉ nt_closing s). { intros H. eapply Hnew; [|done]. apply A5. by right. }
    split.
    + rewrite Ep. apply NoDup_cons. split; [|done]. intros H. by apply (Hnew c).
    + cbn [nt_open s']. apply NoDup_app. split; [done|]. split; [|apply NoDup_singleton]. intros c' H1 ->%elem_of_list_singleton. done.
    + done.
    + intros c' [H|H]%elem_of_app; [by apply A4|]. by apply elem_of_list_singleton in H as ->.
    + intros c' H. rewrite Ep, !elem_of_cons. assert (H' : c' = c \/ c' ∈ nt_open s \/ c' ∈ nt_closing s).
      { destruct H as [[H|H]%elem_of_app|H]; [tauto|left; by apply elem_of_list_singleton in H|tauto]. }
      destruct H' as [->|H']; [split; [by left|]; intros [E|E]; done|]. destruct (A5 _ H') as [H1 H2]. split; [by right|]. intros [E|E]; done.
    + intros c' H. rewrite Ep in *. rewrite elem_of_cons in *. cbn [nt_open nt_closing s']. destruct H as [H|H]; [injection H as ->; left; apply elem_of_app; right; left|].
      destruct (A6 _ H) as [H'|[H'|H']]; [left; apply elem_of_app; by left|by right; left|by right; right; right].
    + intros c' H. rewrite Ep in H. apply elem_of_cons in H as [H|H]; [done|]. rewrite B2. by apply A7.
    + intros c' H. rewrite Ep in H. cbn [nt_next s']. apply elem_of_cons in H as [H|H]; [injection H as ->; unfold c; cbn; lia|]. apply A8 in H. lia.
    + rewrite B2. done.
  - destruct HI as [A1 A2 A3 A4 A5 A6 A7 A8 A9]. pose proof (delete_Permutation _ _ _ Hk) as Hd.
    assert (Hin : c ∈ nt_open s) by by eapply elem_of_list_lookup_2.
    assert (Hsub : forall c', c' ∈ nt_open s <-> c' = c \/ c' ∈ delete k (nt_open s)). { intros c'. rewrite Hd at 1. by rewrite elem_of_cons. }
    assert (Hnd : NoDup (delete k (nt_open s)) /\ c ∉ delete k (nt_open s)). { rewrite Hd in A2. apply NoDup_cons in A2. tauto. }
    split; cbn [nt_open nt_closing nt_next]; try done.
    + apply Hnd.
    + apply NoDup_app. split; [done|]. split; [|apply NoDup_singleton]. intros c' H1 ->%elem_of_list_singleton. by apply (A4 c).
    + intros c' H [H1|H1]%elem_of_app; [eapply A4; [|done]; apply Hsub; by right|]. apply elem_of_list_singleton in H1 as ->. by apply Hnd.
    + intros c' H. apply A5. rewrite Hsub. destruct H as [H|[H|H]%elem_of_app]; [tauto|tauto|]. apply elem_of_list_singleton in H. tauto.
    + intros c' H. destruct (A6 c' H) as [H1|[H1|H1]]; [apply Hsub in H1 as [->|H1]; [right; left; apply elem_of_app; right; left|by left]|right; left; apply elem_of_app; by left|by right; right].
  - destruct Hp as [B1 B2]. destruct HI as [A1 A2 A3 A4 A5 A6 A7 A8 A9]. pose proof (delete_Permutation _ _ _ Hk) as Hd.
    match goal with |- NI ?x => set (s' := x) in * end.
    assert (Hin : c ∈ nt_closing s) by by eapply elem_of_list_lookup_2.
    assert (Hsub : forall c', c' ∈ nt_closing s <-> c' = c \/ c' ∈ delete k (nt_closing s)). { intros c'. rewrite Hd at 1. by rewrite elem_of_cons. }
    assert (Hnd : NoDup (delete k (nt_closing s)) /\ c ∉ delete k (nt_closing s)). { rewrite Hd in A3. apply NoDup_cons in A3. tauto. }
    assert (Ep : events s' ≡ₚ NDisconnected c :: events s). { unfold events. rewrite B1, B2. rewrite <- (assoc_L (++)). symmetry. apply Permutation_middle. }
    destruct (A5 c (or_intror Hin)) as [Hcc Hcd].
    assert (Hct : NConnected c ∈ told s). { unfold events in Hcc. apply elem_of_app in Hcc as [H|H]; [|done]. by destruct Hb. }
    split; cbn [nt_open nt_closing nt_next s']; try done.
    + rewrite Ep. apply NoDup_cons. by split.
    + apply Hnd.
    + intros c' H H1. apply (A4 c' H). apply Hsub. by right.
    + intros c' H. rewrite Ep, !elem_of_cons. assert (H' : c' ∈ nt_open s \/ c' ∈ nt_closing s) by (rewrite Hsub; tauto). destruct (A5 _ H') as [H1 H2]. split; [by right|].
      intros [E|E]; [|done]. injection E as ->. destruct H as [H|H]; [by apply (A4 c)|by apply Hnd].
    + intros c' H. rewrite Ep in *. rewrite elem_of_cons in *. destruct H as [H|H]; [done|].
      destruct (A6 _ H) as [H'|[H'|H']]; [by left|apply Hsub in H' as [->|H']; [right; right; by left|by right; left]|by right; right; right].
    + intros c' H. rewrite Ep in H. rewrite B2. apply elem_of_cons in H as [H|H]; [injection H as ->; done|by apply A7].
    + intros c' H. rewrite Ep in H. apply elem_of_cons in H as [H|H]; [done|by apply A8].
    + rewrite B2. done.
  - eapply NI_mono; [exact HI|done..].
  - eapply NI_mono; [exact HI|done..].
  - destruct HI as [A1 A2 A3 A4 A5 A6 A7 A8 A9].
    assert (Hsub : forall c', c' ∈ nt_open s \/ c' ∈ nt_closing s <-> c' ∈ filter (fun c => cn_peer c <> p) (nt_open s) \/ c' ∈ nt_closing s ++ filter (fun c => cn_peer c = p) (nt_open s)).
    { intros c'. rewrite elem_of_app, !elem_of_list_filter. destruct (decide (cn_peer c' = p)); tauto. }
    split; cbn [nt_open nt_closing nt_next]; try done.
    + by apply NoDup_filter.
    + apply NoDup_app. split; [done|]. split; [|by apply NoDup_filter]. intros c' H1 [_ H2]%elem_of_list_filter. by apply (A4 c').
    + intros c' [H1 H2]%elem_of_list_filter [H3|[H3 _]%elem_of_list_filter]%elem_of_app; [by apply (A4 c')|done].
    + intros c' H. apply A5, Hsub, H.
    + intros c' H. destruct (A6 c' H) as [H1|[H1|H1]]; [| |by right; right].
      * destruct (proj1 (Hsub c') (or_introl H1)); tauto.
      * destruct (proj1 (Hsub c') (or_intror H1)); tauto.
  - eapply NI_mono; [exact HI|done..].
Qed.

(** *** What happens in the handler *)
Definition eh_label (lab : alabel) (l : elabel) : Prop :=
  match lab with
  | ACm _ => False
  | AEh l' => l = l'
  | ACancel => l = XCancel
  | AAnswer i => exists a, l = XAddress i a
  | AErrAnswer now => exists a, l = XErrAddress now a
  end.
Lemma eh_part s lab s' : as_step s lab = Some s' -> as_eh s' = as_eh s /\ (exists l, lab = ACm l) \/ exists l, es_step (as_eh s) l = Some (as_eh s') /\ eh_label lab l.
Proof.
  intros Hst. destruct lab as [l|l| |i|now]; cbn [Asm_Model.as_step] in Hst.
  - left. split; [|by eexists]. destruct l; try (destruct (decide _) in Hst); try discriminate Hst; apply bind_Some in Hst as (c & Hc & Hs); by injection Hs as <-.
  - right. apply bind_Some in Hst as (e & He & Hst). exists l. split; [|done]. rewrite He. f_equal.
    destruct l as [| | |k|i|i a|i|now|now|i|i|id er|k|now a|k|k|]; try discriminate Hst; try (by injection Hst as <-).
    + destruct k as [a|p|p]; [by injection Hst as <-|apply bind_Some in Hst as (c & Hc & Hs); by injection Hs as <-..].
    + apply bind_Some in Hst as (c & Hc & Hs); by injection Hs as <-.
    + apply bind_Some in Hst as ([id er] & _ & Hst). apply bind_Some in Hst as (c & Hc & Hst). apply bind_Some in Hst as (c' & Hc' & Hs). by injection Hs as <-.
  - right. apply bind_Some in Hst as (e & He & Hst). apply bind_Some in Hst as (c & Hc & Hst). apply bind_Some in Hst as (c' & Hc' & Hs). injection Hs as <-. by eexists.
  - right. apply bind_Some in Hst as (j & Hj & Hst). destruct (cm_callers (as_cm s) !! j) as [[q [| |[a| |]] x]|]; try discriminate Hst.
    apply bind_Some in Hst as (e & He & Hs). injection Hs as <-. eexists. split; [exact He|by exists a].
  - right. apply bind_Some in Hst as (j & Hj & Hst). destruct (cm_callers (as_cm s) !! j) as [[q [| |[a| |]] x]|]; try discriminate Hst.
    apply bind_Some in Hst as (e & He & Hs). injection Hs as <-. eexists. split; [exact He|by exists a].
Qed.
Lemma es_disc_step e l e' p : es_step e l = Some e' -> p ∈ es_disc e ->
  p ∈ es_disc e' \/ (exists k, l = XDisconnected k /\ es_disc e !! k = Some p) \/ es_cancelled e = true.
Proof.
  intros Hst Hp. destruct e as [pv lp sc cq sq ca rp dc cc pn lg fd]. cbn [es_disc] in Hp.
  es_cases Hst l; subst; try (by left); try (by right; right).
  all: try (left; cbn [es_disc]; apply elem_of_app; by left).
  match goal with H : dc !! ?k = Some ?q |- _ => rename H into Hk end. destruct (decide (dc !! k = Some p)) as [E|E]; [right; left; by exists k|left].
  pose proof (delete_Permutation _ _ _ Hk) as Hd. rewrite Hd in Hp. apply elem_of_cons in Hp as [->|Hp]; [|done]. by destruct E.
Qed.
Lemma es_disc_len e l e' : es_step e l = Some e' -> (length (es_disc e') <= length (es_disc e) + 1)%nat.
Proof.
  intros Hst. destruct e as [pv lp sc cq sq ca rp dc cc pn lg fd]. es_cases Hst l; subst; cbn [es_disc set_disc set_calls set_loop]; try lia.
  all: try (rewrite app_length; cbn; lia).
  all: match goal with H : _ !! _ = Some _ |- context [delete _ _] => apply delete_length in H; lia end.
Qed.
Lemma es_bans_step e l e' p : es_step e l = Some e' -> served_answers e' = served_answers e ++ [OutDisconnect (Some p)] -> p ∈ es_disc e'.
Proof.
  intros Hst Hb. assert (Hno : forall xs (y : eh_out), xs <> xs ++ [y]) by (intros xs y H; apply (f_equal length) in H; rewrite app_length in H; cbn in H; lia).
  destruct e as [pv lp sc cq sq ca rp dc cc pn lg fd]. es_cases Hst l; subst; try (by apply Hno in Hb); unfold served_answers in Hb; cbn [es_log rev] in Hb; rewrite map_app in Hb; apply app_inj_tail in Hb as [_ Hb]; cbn [snd] in Hb; subst.
  all: try match goal with H : eh_step _ _ _ _ = _ |- _ => unfold eh_step in H; repeat case_match; simplify_eq end.
  all: cbn [es_disc]; apply elem_of_app; right; left.
Qed.
Lemma es_cancelled_step e l e' : es_step e l = Some e' -> es_cancelled e = true -> es_cancelled e' = true.
Proof. intros Hst Hc. destruct e as [pv lp sc cq sq ca rp dc cc pn lg fd]. cbn in Hc. subst. es_cases Hst l; subst; done. Qed.

(** *** Cutting off *)
Lemma nt_eh_part s lab l s' : NtStep s lab l s' ->
  nt_eh s' = nt_eh s \/ exists l' le, l = Some l' /\ es_step (nt_eh s) le = Some (nt_eh s') /\ eh_label l' le.
Proof.
  intros Hst. apply nt_part in Hst. unfold nt_eh. destruct l as [l|]; cbn [oseq Asm_Model.as_run] in Hst; [|injection Hst as ->; by left].
  destruct (as_step (nt_as s) l) as [x|] eqn:Hx; [|done]. injection Hst as ->. destruct (eh_part _ _ _ Hx) as [[H _]|(le & H1 & H2)]; [by left|right; by exists l, le].
Qed.
Lemma nt_cancelled_step s lab s' : nt_step s lab = Some s' -> es_cancelled (nt_eh s) = true -> es_cancelled (nt_eh s') = true.
Proof. intros Hst Hc. apply nt_cases in Hst as [l Hl]. destruct (nt_eh_part _ _ _ _ Hl) as [->|(l' & le & _ & H & _)]; [done|]. by eapply es_cancelled_step. Qed.
Lemma nt_cancelled_run sched : forall s s', nt_run s sched = Some s' -> es_cancelled (nt_eh s') = false -> es_cancelled (nt_eh s) = false.
Proof.
  induction sched as [|lab sched IH]; intros s s' Hr Hc; cbn [Cutoff_Model.nt_run] in Hr; [by injection Hr as ->|].
  destruct (nt_step s lab) as [s1|] eqn:H1; [|done]. pose proof (IH _ _ Hr Hc) as H. destruct (es_cancelled (nt_eh s)) eqn:E; [|done].
  by rewrite (nt_cancelled_step _ _ _ H1 E) in H.
Qed.
(** A connection that has been opened: it is closed, or it will be *)
Definition doomed (c : conn) (s : net) : Prop := (cn_id c < nt_next s)%nat /\
  (c ∉ nt_open s \/ cn_peer c ∈ es_disc (nt_eh s) \/ nt_closer s = CClosing (cn_peer c)).
Lemma next_step s lab l s' : NtStep s lab l s' -> (nt_next s <= nt_next s')%nat.
Proof. intros Hst. destruct Hst; cbn; lia. Qed.
Lemma closed_stays c s lab l s' : NtStep s lab l s' -> (cn_id c < nt_next s)%nat -> c ∉ nt_open s -> c ∉ nt_open s'.
Proof.
  intros Hst Hid Hc. destruct Hst as [l x Hn1 Hn2 Hx|i p a x b e c' Hca Hg Hx|k c' Hk|k c' x Hk Hb Hx|Hcl|k p x Hcl Hk Hx|p Hcl|Hcl Hcan]; try done; cbn [nt_open].
  - intros [H|H]%elem_of_app; [done|]. apply elem_of_list_singleton in H. subst c. cbn in Hid. lia.
  - intros H. apply Hc. pose proof (delete_Permutation _ _ _ Hk) as Hd. rewrite Hd. by right.
  - intros [_ H]%elem_of_list_filter. done.
Qed.
Lemma closed_run c sched : forall s s', nt_run s sched = Some s' -> (cn_id c < nt_next s)%nat -> c ∉ nt_open s -> c ∉ nt_open s'.
Proof.
  induction sched as [|lab sched IH]; intros s s' Hr Hid Hc; cbn [Cutoff_Model.nt_run] in Hr; [by injection Hr as <-|].
  destruct (nt_step s lab) as [s1|] eqn:H1; [|done]. apply nt_cases in H1 as [l Hl]. apply (IH s1); [done|pose proof (next_step _ _ _ _ Hl); lia|by eapply closed_stays].
Qed.
Lemma doomed_step c s lab s' : nt_step s lab = Some s' -> es_cancelled (nt_eh s) = false -> doomed c s -> doomed c s'.
Proof.
  intros Hst Hcan [Hid Hd]. apply nt_cases in Hst as [l Hl]. split; [pose proof (next_step _ _ _ _ Hl); lia|].
  destruct Hd as [Hd|Hd]; [left; by eapply closed_stays|]. pose proof (nt_eh_part _ _ _ _ Hl) as He.
  assert (Hkeep : cn_peer c ∈ es_disc (nt_eh s) -> cn_peer c ∈ es_disc (nt_eh s') \/ exists k, l = Some (AEh (XDisconnected k)) /\ es_disc (nt_eh s) !! k = Some (cn_peer c)).
  { intros H. destruct He as [->|(l' & le & -> & He & Hlab)]; [by left|]. destruct (es_disc_step _ _ _ _ He H) as [H'|[(k & -> & Hk)|H']]; [by left| |congruence].
    right. exists k. split; [|done]. destruct l' as [| | |i|now]; cbn in Hlab; try done; [by subst|by destruct Hlab..]. }
  destruct Hl as [l x Hn1 Hn2 Hx|i p a x b e c' Hc Hg Hx|k c' Hk|k c' x Hk Hb Hx|Hcl|k p x Hcl Hk Hx|p Hcl|Hcl Hc2].
  - destruct Hd as [Hd|Hd]; [|by right; right]. destruct (Hkeep Hd) as [H|(k & E & _)]; [by right; left|]. injection E as ->. by destruct (Hn2 k).
  - destruct Hd as [Hd|Hd]; [|by right; right]. destruct (Hkeep Hd) as [H|(k & E & _)]; [by right; left|done].
  - right. done.
  - destruct Hd as [Hd|Hd]; [|by right; right]. destruct (Hkeep Hd) as [H|(k' & E & _)]; [by right; left|done].
  - destruct Hd as [Hd|Hd]; [by right; left|congruence].
  - destruct Hd as [Hd|Hd]; [|congruence]. destruct (Hkeep Hd) as [H|(k' & E & Hk')]; [by right; left|]. injection E as <-. right; right. unfold nt_eh in Hk'. rewrite Hk in Hk'. injection Hk' as ->. done.
  - destruct Hd as [Hd|Hd]; [by right; left|]. left. rewrite Hcl in Hd. injection Hd as ->. cbn [nt_open]. by intros [? _]%elem_of_list_filter.
  - destruct Hd as [Hd|Hd]; [by right; left|congruence].
Qed.
Lemma doomed_run c sched : forall s s', nt_run s sched = Some s' -> es_cancelled (nt_eh s') = false -> doomed c s -> doomed c s'.
Proof.
  induction sched as [|lab sched IH]; intros s s' Hr Hc Hd; [by injection Hr as <-|].
  pose proof (nt_cancelled_run _ _ _ Hr Hc) as Hc0. cbn [Cutoff_Model.nt_run] in Hr. destruct (nt_step s lab) as [s1|] eqn:H1; [|done]. apply (IH s1); [done|done|]. by eapply doomed_step.
Qed.
Lemma doomed_quiet c s : doomed c s -> quiet s -> c ∉ nt_open s.
Proof. intros [_ [H|[H|H]]] (_ & Hd & Hc & _); [done|rewrite Hd in H; by apply elem_of_nil in H|congruence]. Qed.
Lemma bans_dooms initial c s lab s' p : nt_reach initial s -> bans decay o s lab s' p -> cn_peer c = p -> NConnected c ∈ events s -> doomed c s'.
Proof.
  intros Hr [Hst Hb] Hp Hin. pose proof (ni_fresh _ (NI_reach _ _ Hr) _ Hin) as Hid. apply nt_cases in Hst as [l Hl]. split; [pose proof (next_step _ _ _ _ Hl); lia|]. right; left.
  destruct (nt_eh_part _ _ _ _ Hl) as [E|(l' & le & _ & He & _)]; [|subst p; by eapply es_bans_step].
  rewrite E in Hb. apply (f_equal length) in Hb. rewrite app_length in Hb. cbn in Hb. lia.
Qed.
(** *** Sessions and connections *)
Lemma real_told initial s : nt_reach initial s -> real_history (told s).
Proof.
  intros Hr. pose proof (NI_reach _ _ Hr) as H. split; [|apply H]. pose proof (ni_events _ H) as Hn. unfold events in Hn. by apply NoDup_app in Hn as (_ & _ & Hn).
Qed.
Lemma session_alive h p c : real_history h -> session_conn h p c -> NConnected c ∈ h /\ NDisconnected c ∉ h.
Proof.
  intros [Hn Ho] (h1 & h2 & -> & Hp & _ & HF). split; [apply elem_of_app; right; left|]. intros [H|H]%elem_of_app.
  - apply elem_of_list_split in H as (g1 & g2 & ->). assert (Hin : NConnected c ∈ g1) by (eapply (Ho g1 c (g2 ++ NConnected c :: h2)); by rewrite <- (assoc_L (++))).
    apply NoDup_app in Hn as (_ & Hn & _). apply (Hn (NConnected c)); [apply elem_of_app; by left|left].
  - apply elem_of_cons in H as [H|H]; [done|]. rewrite Forall_forall in HF. by apply (HF _ H c).
Qed.
Lemma session_tracks initial s sid c : nt_reach initial s -> session s sid c -> session_conn (told s) (cn_peer c) c.
Proof.
  intros Hr Hs. destruct (proj_reach _ _ _ _ _ (as_reach_nt _ _ Hr)) as [Hc _]. destruct (Inv1_reach _ _ _ Hc) as (Ht & _). destruct (Inv2_reach _ _ _ Hc) as ((HS1 & _) & _).
  apply HS1 in Hs. fold (nt_mgr s) in *. destruct (cm_manager (nt_mgr s)); [..|rewrite Ht, lookup_empty in Hs; done].
  all: specialize (Ht (cn_peer c)); fold (nt_mgr s) in Hs; rewrite Hs in Ht; apply Ht.
Qed.
Lemma quiet_session_open initial s sid c : nt_reach initial s -> quiet s -> session s sid c -> c ∈ nt_open s.
Proof.
  intros Hr ((Hb & _) & _ & _ & Hcl) Hs. destruct (session_alive _ _ _ (real_told _ _ Hr) (session_tracks _ _ _ _ Hr Hs)) as [H1 H2].
  assert (He : events s = told s) by (unfold events, nt_mgr; by rewrite Hb). pose proof (NI_reach _ _ Hr) as HN. destruct (ni_gone _ HN c) as [H|[H|H]]; [by rewrite He|done|rewrite Hcl in H; by apply elem_of_nil in H|by rewrite He in H].
Qed.
Lemma nt_later sched s s' : nt_run s sched = Some s' -> later (nt_mgr s) (nt_mgr s').
Proof. intros Hr. destruct (nt_proj _ _ _ Hr) as (ls & H & _). by eapply as_later. Qed.
Lemma told_prefix sched s s' : nt_run s sched = Some s' -> told s `prefix_of` told s'.
Proof. intros Hr. apply net_prefix, later_prefix. by eapply nt_later. Qed.

(** *** Coming to rest *)
Definition nt_weight (s : net) : nat :=
  4 * weight (nt_as s) + 6 * length (nt_open s) + 5 * length (nt_closing s) + 2 * length (es_disc (nt_eh s)) + match nt_closer s with CClosing _ => 1 | _ => 0 end.
Lemma notify_weight s e s' : as_step s (ACm (LNotify e)) = Some s' -> weight s' = weight s + 1 /\ as_eh s' = as_eh s.
Proof.
  intros H. cbn in H. injection H as <-. split; [|done]. unfold weight, w_cm. cbn [as_cm as_eh set_blocked cm_callers cm_blocked cm_seed cm_starter]. rewrite app_length. cbn. lia.
Qed.
Lemma take_weight s k s' : as_step s (AEh (XDisconnected k)) = Some s' -> weight s' = weight s /\ S (length (es_disc (as_eh s'))) = length (es_disc (as_eh s)) /\ es_disc (as_eh s') = delete k (es_disc (as_eh s)).
Proof.
  intros H. cbn [Asm_Model.as_step] in H. apply bind_Some in H as (e & He & H). injection H as <-. unfold EhSys_Model.es_step in He. destruct (es_panic _); [done|].
  destruct (es_disc (as_eh s) !! k) as [p|] eqn:E; [|done]. injection He as <-. split; [done|]. cbn [as_eh set_disc es_disc]. split; [by eapply delete_length|done].
Qed.
Lemma filter_split {A} (P : A -> Prop) `{!forall x, Decision (P x)} (l : list A) : length (filter (fun x => ~ P x) l) + length (filter P l) = length l.
Proof. induction l as [|x l IH]; [done|]. rewrite !filter_cons. destruct (decide (P x)), (decide (~ P x)); try tauto; cbn [length]; lia. Qed.
Lemma nt_weight_step s lab s' : cm_cancelled (nt_mgr s) = false -> nt_step s lab = Some s' -> nt_internal lab = true -> nt_weight s' < nt_weight s.
Proof.
  intros Hcan Hst Hi. apply nt_cases in Hst as [l Hl]. unfold nt_weight, nt_eh.
  destruct Hl as [l x Hn1 Hn2 Hx|i p a x b e c' Hc Hg Hx|k c' Hk|k c' x Hk Hb Hx|Hcl|k p x Hcl Hk Hx|p Hcl|Hcl Hc2]; try discriminate Hi; cbn [nt_as nt_open nt_closing nt_closer set_as set_closer].
  - cbn [nt_internal] in Hi. pose proof (weight_step _ _ _ _ _ Hcan Hx Hi) as Hw. destruct (eh_part _ _ _ Hx) as [[-> _]|(le & He & _)]; [lia|]. apply es_disc_len in He. lia.
  - apply notify_weight in Hx as [Hw ->]. apply delete_length in Hk. lia.
  - apply take_weight in Hx as (Hw & Hd & _). rewrite Hcl. lia.
  - rewrite Hcl. pose proof (filter_split (fun c => cn_peer c = p) (nt_open s)) as Hf. rewrite app_length. lia.
Qed.
Definition closer_on (s : net) : Prop := nt_closer s = CIdle \/ exists p, nt_closer s = CClosing p.
Lemma closer_step s lab s' : nt_step s lab = Some s' -> es_cancelled (nt_eh s) = false -> closer_on s -> closer_on s'.
Proof.
  intros Hst Hcan Hc. apply nt_cases in Hst as [l Hl]. unfold closer_on in *.
  destruct Hl; cbn [nt_closer set_as set_closer]; try done; try (by left); try (right; by eexists). unfold nt_eh in Hcan. congruence.
Qed.
Lemma closer_run sched : forall s s', nt_run s sched = Some s' -> es_cancelled (nt_eh s') = false -> closer_on s -> closer_on s'.
Proof.
  induction sched as [|lab sched IH]; intros s s' Hr Hc Hd; [by injection Hr as <-|].
  pose proof (nt_cancelled_run _ _ _ Hr Hc) as Hc0. cbn [Cutoff_Model.nt_run] in Hr. destruct (nt_step s lab) as [s1|] eqn:H1; [|done]. apply (IH s1); [done|done|]. by eapply closer_step.
Qed.
Definition fit (s : net) : Prop := alive (nt_as s) /\ running_loop (nt_eh s) /\ closer_on s.
Lemma not_cancelled initial s : nt_reach initial s -> alive (nt_as s) -> es_cancelled (nt_eh s) = false.
Proof. intros Hr [H _]. destruct (KInv_reach _ _ _ _ _ (as_reach_nt _ _ Hr)) as (_ & _ & _ & _ & _ & HC & _). unfold nt_eh. by rewrite HC. Qed.
Lemma going_fit initial sched s : nt_run (nt_init initial) sched = Some s -> going sched -> fit s.
Proof.
  intros Hr (G1 & G2 & G3). assert (Hre : nt_reach initial s) by by eexists. destruct (nt_proj _ _ _ Hr) as (ls & Hls & Hin & HF & _).
  assert (Ha : alive (nt_as s)) by (eapply alive_run; [exact Hls|by apply HF|split; [done|constructor]]). split; [done|].
  split; [eapply started_running; [exact Hls|by apply HF|by apply Hin]|]. pose proof (not_cancelled _ _ Hre Ha) as Hc.
  apply elem_of_list_split in G2 as (l1 & l2 & ->). rewrite nt_run_app in Hr. destruct (nt_run (nt_init initial) l1) as [s1|] eqn:H1; [|done]. cbn [Cutoff_Model.nt_run] in Hr.
  destruct (nt_step s1 NStartCloser) as [s2|] eqn:H2; [|done]. eapply closer_run; [exact Hr|done|]. cbn in H2. destruct (nt_closer s1); try done. injection H2 as <-. by left.
Qed.
Lemma fit_step initial s lab s' : nt_reach initial s -> nt_step s lab = Some s' -> nt_context_ends lab = false -> fit s -> fit s'.
Proof.
  intros Hre Hst Hn (F1 & F2 & F3). assert (Hr : nt_run s [lab] = Some s') by (cbn [Cutoff_Model.nt_run]; by rewrite Hst).
  destruct (nt_proj _ _ _ Hr) as (ls & Hls & _ & HF & _). assert (HF' : Forall (fun l => context_ends l = false) ls) by (apply HF; by repeat constructor).
  split; [by eapply alive_run|]. split; [eapply running_as_run; [by eapply as_reach_nt|exact Hls|done|done|done]|]. eapply closer_step; [exact Hst|by eapply not_cancelled|done].
Qed.
Lemma nt_internal_alive lab : nt_internal lab = true -> nt_context_ends lab = false.
Proof. destruct lab as [l| | | | | | |]; try done. apply internal_alive. Qed.
Lemma nt_progress initial s : nt_reach initial s -> fit s -> quiet s \/ exists lab s', nt_internal lab = true /\ nt_step s lab = Some s'.
Proof.
  intros Hre (F1 & F2 & F3). destruct (progress _ _ _ _ (as_reach_nt _ _ Hre) F1 F2) as [Hs|(l & x & Hl & Hx)].
  2:{ right. exists (NAs l), (set_as x s). split; [done|]. cbn [Cutoff_Model.nt_step]. destruct l as [[]|[]| | |]; try discriminate Hl; by rewrite Hx. }
  destruct (nt_closing s) as [|c cl] eqn:Hcl.
  2:{ right. destruct (as_step (nt_as s) (ACm (LNotify (NDisconnected c)))) as [x|] eqn:Hx; [|discriminate Hx].
      eexists (NNotify 0), _. split; [done|]. cbn [Cutoff_Model.nt_step]. rewrite Hcl. cbn [lookup list_lookup]. rewrite bool_decide_eq_false_2; [rewrite Hx; done|].
      destruct Hs as [-> _]. apply not_elem_of_nil. }
  destruct F3 as [F3|[p F3]].
  2:{ right. eexists NClosePeer, _. split; [done|]. cbn [Cutoff_Model.nt_step]. rewrite F3. done. }
  destruct (es_disc (nt_eh s)) as [|p d] eqn:Hd; [by left|]. right.
  destruct (as_step (nt_as s) (AEh (XDisconnected 0))) as [x|] eqn:Hx.
  - eexists (NTake 0), _. split; [done|]. cbn [Cutoff_Model.nt_step]. unfold nt_eh in Hd. rewrite F3, Hd. cbn [lookup list_lookup]. rewrite Hx. done.
  - exfalso. cbn [Asm_Model.as_step] in Hx. destruct (proj_reach _ _ _ _ _ (as_reach_nt _ _ Hre)) as [_ Her].
    assert (Hpan : es_panic (nt_eh s) = false). { eapply no_panic; [exact Her|]. destruct Hs as (_ & _ & _ & _ & _ & _ & Hlp). unfold nt_eh. by rewrite Hlp. }
    unfold EhSys_Model.es_step in Hx. unfold nt_eh in *. rewrite Hpan, Hd in Hx. done.
Qed.

(** *** Reports *)
Lemma es_log_step e l e' : es_step e l = Some e' -> exists t, es_log e' = t ++ es_log e.
Proof. intros Hst. destruct e as [pv lp sc cq sq ca rp dc cc pn lg fd]. es_cases Hst l; subst; cbn [es_log]; first [by exists []|by eexists [_]]. Qed.
Lemma nt_log_run sched : forall s s', nt_run s sched = Some s' -> exists t, es_log (nt_eh s') = t ++ es_log (nt_eh s).
Proof.
  induction sched as [|lab sched IH]; intros s s' Hr; cbn [Cutoff_Model.nt_run] in Hr; [injection Hr as <-; by exists []|].
  destruct (nt_step s lab) as [s1|] eqn:H1; [|done]. destruct (IH _ _ Hr) as [t Ht]. apply nt_cases in H1 as [l Hl].
  destruct (nt_eh_part _ _ _ _ Hl) as [E|(l' & le & _ & He & _)]; [rewrite E in Ht; by exists t|]. apply es_log_step in He as [t' Ht']. exists (t ++ t'). by rewrite Ht, Ht', (assoc_L (++)).
Qed.
Lemma served_prefix e e' t : es_log e' = t ++ es_log e -> served_events e `prefix_of` served_events e'.
Proof. intros H. exists (map (fun x => x.1.2) (rev t)). unfold served_events. by rewrite H, rev_app_distr, map_app. Qed.
Lemma nt_served_prefix sched s s' : nt_run s sched = Some s' -> served_events (nt_eh s) `prefix_of` served_events (nt_eh s').
Proof. intros H. apply nt_log_run in H as [t Ht]. by eapply served_prefix. Qed.
Lemma es_report_step e l e' x : es_step e l = Some e' -> x ∈ es_reports e -> x ∈ es_reports e' \/ exists k, l = XTakeReport k /\ es_reports e !! k = Some x.
Proof.
  intros Hst Hx. destruct e as [pv lp sc cq sq ca rp dc cc pn lg fd]. cbn [es_reports] in Hx. es_cases Hst l; subst; try (by left).
  - left. apply elem_of_app. by left.
  - match goal with H : rp !! _ = Some _ |- _ => rename H into Hk end. destruct (decide (rp !! k = Some x)) as [E|E]; [right; by exists k|left].
    pose proof (delete_Permutation _ _ _ Hk) as Hd. rewrite Hd in Hx. apply elem_of_cons in Hx as [->|Hx]; [|done]. by destruct E.
Qed.
Lemma report_taken p e sched : forall s s', nt_run s sched = Some s' -> (p, e) ∈ es_reports (nt_eh s) -> es_reports (nt_eh s') = [] ->
  exists l1 sa k sa' l2, nt_run s l1 = Some sa /\ es_reports (nt_eh sa) !! k = Some (p, e) /\ nt_step sa (NAs (AEh (XTakeReport k))) = Some sa' /\ nt_run sa' l2 = Some s'.
Proof.
  induction sched as [|lab sched IH]; intros s s' Hr Hin He; cbn [Cutoff_Model.nt_run] in Hr; [injection Hr as <-; rewrite He in Hin; by apply elem_of_nil in Hin|].
  destruct (nt_step s lab) as [s1|] eqn:H1; [|done]. destruct (nt_cases _ _ _ H1) as [l Hl].
  assert (Hx : (p, e) ∈ es_reports (nt_eh s1) \/ exists k, lab = NAs (AEh (XTakeReport k)) /\ es_reports (nt_eh s) !! k = Some (p, e)).
  { destruct (nt_eh_part _ _ _ _ Hl) as [->|(l' & le & -> & Hs & Hlab)]; [by left|]. destruct (es_report_step _ _ _ _ Hs Hin) as [H|(k & -> & Hk)]; [by left|].
    right. exists k. split; [|done]. destruct l' as [| | |i|now]; cbn in Hlab; try done; [|by destruct Hlab..]. subst. by inversion Hl. }
  destruct Hx as [Hx|(k & -> & Hk)].
  - destruct (IH _ _ Hr Hx He) as (l1 & sa & k & sa' & l2 & G1 & G2). exists (lab :: l1), sa, k, sa', l2. cbn [Cutoff_Model.nt_run]. by rewrite H1.
  - by exists [], s, k, s1, sched.
Qed.
Lemma err_first sched : (forall t, NAs (AErrAnswer t) ∉ sched) \/ exists l1 t l2, sched = l1 ++ NAs (AErrAnswer t) :: l2 /\ forall t, NAs (AErrAnswer t) ∉ l1.
Proof.
  induction sched as [|lab sched IH]; [left; intros t H; by apply elem_of_nil in H|].
  destruct (match lab with NAs (AErrAnswer t) => Some t | _ => None end) as [t|] eqn:E.
  - right. exists [], t, sched. split; [|intros t' H; by apply elem_of_nil in H]. destruct lab as [[| | | |]| | | | | | |]; try discriminate E. by injection E as ->.
  - assert (Hl : forall t, lab <> NAs (AErrAnswer t)) by (intros t ->; discriminate E). destruct IH as [IH|(l1 & t & l2 & -> & IH)].
    + left. intros t [H|H]%elem_of_cons; [by destruct (Hl t)|by apply (IH t)].
    + right. exists (lab :: l1), t, l2. split; [done|]. intros t' [H|H]%elem_of_cons; [by destruct (Hl t')|by apply (IH t')].
Qed.
Lemma nas_step s l s' : nt_step s (NAs l) = Some s' -> as_step (nt_as s) l = Some (nt_as s').
Proof. intros H. apply nt_cases in H as [l' Hl]. inversion Hl; subst. done. Qed.
Lemma no_answer_proj sched s s' : nt_run s sched = Some s' -> (forall t, NAs (AErrAnswer t) ∉ sched) ->
  exists ls, as_run (nt_as s) ls = Some (nt_as s') /\ forall t, AErrAnswer t ∉ ls.
Proof.
  intros Hr Hn. destruct (nt_proj _ _ _ Hr) as (ls & Hls & _ & _ & HB). exists ls. split; [done|]. intros t H. destruct (HB _ H) as [H'|[(e & H')|(k & H')]]; [by apply (Hn t)|done..].
Qed.
(** A report waiting at the channel is charged before everything is done. *)
Lemma report_served initial p e sched s s' : nt_reach initial s -> nt_run s sched = Some s' -> (p, e) ∈ es_reports (nt_eh s) ->
  es_reports (nt_eh s') = [] -> report_in_hand (nt_eh s') = [] ->
  exists l1 sa k sa' l2 ls sb now sc l3, nt_run s l1 = Some sa /\ es_reports (nt_eh sa) !! k = Some (p, e) /\ nt_step sa (NAs (AEh (XTakeReport k))) = Some sa' /\
    nt_run sa' l2 = Some sb /\ as_run (nt_as sa') ls = Some (nt_as sb) /\ (forall t, AErrAnswer t ∉ ls) /\
    nt_step sb (NAs (AErrAnswer now)) = Some sc /\ nt_run sc l3 = Some s'.
Proof.
  intros Hre Hr Hin He Hh. destruct (report_taken _ _ _ _ _ Hr Hin He) as (l1 & sa & k & sa' & l2 & G1 & G2 & G3 & G4).
  assert (Hrea : nt_reach initial sa) by by eapply nt_reach_run. assert (Hrea' : nt_reach initial sa') by by eapply nt_reach_step.
  destruct (err_first l2) as [Hno|(m1 & now & m2 & -> & Hno)].
  - exfalso. destruct (no_answer_proj _ _ _ G4 Hno) as (ls & Hls & Hno').
    pose proof (nas_step _ _ _ G3) as Hst. cbn [Asm_Model.as_step] in Hst. apply bind_Some in Hst as (e' & He' & Hst). unfold nt_eh in G2. rewrite G2 in Hst. cbn [mbind option_bind] in Hst.
    apply bind_Some in Hst as (c & Hc & Hst). apply bind_Some in Hst as (c' & Hc' & Hs).
    assert (Hloop : es_loop e' = EAddress p e). { unfold EhSys_Model.es_step in He'. destruct (es_panic _); [done|]. destruct (es_loop _); try done. rewrite G2 in He'. by injection He' as <-. }
    injection Hs as Hs. destruct (err_kept_run decay o initial [] ls (nt_as sa') (nt_as s') (length (cm_callers (as_cm (nt_as sa)))) p e) as [_ HL]; [by eapply as_reach_nt|done|done|by rewrite <- Hs|by rewrite <- Hs|].
    unfold report_in_hand, nt_eh in Hh. by rewrite HL in Hh.
  - rewrite nt_run_app in G4. destruct (nt_run sa' m1) as [sb|] eqn:Hb; [|done]. cbn [Cutoff_Model.nt_run] in G4. destruct (nt_step sb (NAs (AErrAnswer now))) as [sc|] eqn:Hc; [|done].
    destruct (no_answer_proj _ _ _ Hb Hno) as (ls & Hls & Hno'). by exists l1, sa, k, sa', m1, ls, sb, now, sc, m2.
Qed.
(** *** A peer the manager does not know *)
Lemma err_source s l s' j p e : as_step s l = Some s' -> as_err s' = Some j -> es_loop (as_eh s') = EAddress p e ->
  (as_err s = Some j /\ es_loop (as_eh s) = EAddress p e) \/ j = length (cm_callers (as_cm s)).
Proof.
  intros Hst Hj Hl. destruct l as [l|l| |i|now]; cbn [Asm_Model.as_step] in Hst.
  - left. destruct l; try (destruct (decide _) in Hst); try discriminate Hst; apply bind_Some in Hst as (c & Hc & Hs); by injection Hs as <-.
  - apply bind_Some in Hst as (e' & He & Hst). pose proof (es_loop_step _ _ _ _ _ He) as Hlp'.
    destruct l as [| | |k|i|i a|i|now|now|i|i|id' er|k|now a|k|k|]; try discriminate Hst; try (injection Hst as <-; left; split; [done|by apply Hlp']).
    + destruct k as [a|q|q]; [injection Hst as <-; left; split; [done|by apply Hlp']|apply bind_Some in Hst as (c & Hc & Hs); injection Hs as <-; left; split; [done|by apply Hlp']..].
    + apply bind_Some in Hst as (c & Hc & Hs); injection Hs as <-. left. split; [done|by apply Hlp'].
    + apply bind_Some in Hst as ([id er] & _ & Hst). apply bind_Some in Hst as (c & Hc & Hst). apply bind_Some in Hst as (c' & Hc' & Hs). injection Hs as <-. right. by injection Hj as <-.
  - apply bind_Some in Hst as (e' & He & Hst). pose proof (es_loop_step _ _ _ _ _ He) as Hlp'. apply bind_Some in Hst as (c & Hc & Hst). apply bind_Some in Hst as (c' & Hc' & Hs). injection Hs as <-. left. split; [done|by apply Hlp'].
  - apply bind_Some in Hst as (j' & Hj' & Hst). destruct (cm_callers (as_cm s) !! j') as [[q [| |[a| |]] x]|]; try discriminate Hst.
    apply bind_Some in Hst as (e' & He & Hs). pose proof (es_loop_step _ _ _ _ _ He) as Hlp'. injection Hs as <-. left. split; [done|by apply Hlp'].
  - apply bind_Some in Hst as (j' & Hj' & Hst). destruct (cm_callers (as_cm s) !! j') as [[q [| |[a| |]] x]|]; try discriminate Hst.
    apply bind_Some in Hst as (e' & He & Hs). by injection Hs as <-.
Qed.
(** Which requests a step serves *)
Lemma as_serves s l s' now p a e : as_step s l = Some s' -> EvError now p a e ∈ served_events (as_eh s') ->
  EvError now p a e ∈ served_events (as_eh s) \/
  exists j x, as_err s = Some j /\ es_loop (as_eh s) = EAddress p e /\ cm_callers (as_cm s) !! j = Some (Caller x.1 (ClReturned (AAddr a)) x.2).
Proof.
  intros Hst Hin.
  assert (Hes : forall le e', es_step (as_eh s) le = Some e' -> (forall t a, le <> XErrAddress t a) -> EvError now p a e ∈ served_events e' -> EvError now p a e ∈ served_events (as_eh s)).
  { clear. intros le e' Hst Hl H. destruct (as_eh s) as [pv lp sc cq sq ca rp dc cc pn lg fd]. es_cases Hst le; subst; try done; try (by edestruct Hl);
      unfold served_events in *; cbn [es_log rev] in *; rewrite map_app in H; apply elem_of_app in H as [H|H]; try done; by apply elem_of_list_singleton in H. }
  destruct (eh_part _ _ _ Hst) as [[E _]|(le & He & Hlab)]; [left; by rewrite E in Hin|].
  destruct l as [l|l| |i|now']; cbn in Hlab; [done|subst le; left; eapply Hes; [exact He| |done]|subst le; left; eapply Hes; [exact He|done|done]|destruct Hlab as [b ->]; left; eapply Hes; [exact He|done|done]|destruct Hlab as [b ->]].
  - intros t b ->. cbn [Asm_Model.as_step] in Hst. apply bind_Some in Hst as (? & ? & Hst). done.
  - cbn [Asm_Model.as_step] in Hst. apply bind_Some in Hst as (j & Hj & Hst). destruct (cm_callers (as_cm s) !! j) as [[q [| |[b'| |]] x]|] eqn:Hc; try discriminate Hst.
    apply bind_Some in Hst as (e' & He' & Hs). injection Hs as <-. cbn [as_eh] in *.
    unfold EhSys_Model.es_step in He'. destruct (es_panic _); [done|]. destruct (es_loop (as_eh s)) as [| |id er|] eqn:El; try done. destruct (eh_step decay o _ _) as [st out]. injection He' as <-.
    unfold served_events in Hin. cbn [es_log rev] in Hin. rewrite map_app in Hin. apply elem_of_app in Hin as [Hin|Hin]; [by left|]. apply elem_of_list_singleton in Hin. injection Hin as -> -> -> ->.
    right. by exists j, (q, x).
Qed.
Definition silent (p : string) (e : netev) : Prop := forall c, e = NConnected c -> cn_peer c <> p.
Definition unknown (s1 : net) (p : string) (s : net) : Prop :=
  (exists t, told s = told s1 ++ t /\ Forall (silent p) t) /\ Forall (silent p) (cm_blocked (nt_mgr s)) /\
  (forall j e, as_err (nt_as s) = Some j -> es_loop (nt_eh s) = EAddress p e -> length (cm_callers (nt_mgr s1)) <= j) /\
  (forall now a e, EvError now p (Some a) e ∈ served_events (nt_eh s) -> EvError now p (Some a) e ∈ served_events (nt_eh s1)).
Lemma silent_unknown h t p : ~ last_connected h p -> Forall (silent p) t -> ~ last_connected (h ++ t) p.
Proof.
  intros Hn. induction t as [|e t IH] using rev_ind; intros HF; [by rewrite app_nil_r|]. apply Forall_app in HF as [HF He]. apply Forall_cons in He as [He _].
  rewrite (assoc_L (++)), last_snoc. intros [[Hp [c ->]]|[_ H]]; [by apply (He c)|by apply IH].
Qed.
Lemma unknown_run initial s1 p : nt_reach initial s1 -> ~ last_connected (told s1) p -> Forall (silent p) (cm_blocked (nt_mgr s1)) ->
  (forall e, report_in_hand (nt_eh s1) <> [(p, e)]) ->
  forall sched s, nt_run s1 sched = Some s -> (forall i a, NOpen i p a ∉ sched) -> unknown s1 p s.
Proof.
  intros Hre Hn Hbl Hh. induction sched as [|lab sched IH] using rev_ind; intros s Hr Hno.
  { injection Hr as <-. split; [exists []; by rewrite app_nil_r|]. split; [done|]. split; [|done]. intros j e _ E. destruct (Hh e). unfold report_in_hand. by rewrite E. }
  rewrite nt_run_app in Hr. destruct (nt_run s1 sched) as [s2|] eqn:H2; [|done]. cbn [Cutoff_Model.nt_run] in Hr. destruct (nt_step s2 lab) as [s'|] eqn:Hst; [|done]. injection Hr as ->.
  destruct (IH s2 eq_refl) as ((t & Ht & HFt) & HB & HE & HS); [intros i a H; apply (Hno i a), elem_of_app; by left|]. clear IH.
  pose proof (nt_reach_run _ _ _ _ Hre H2) as Hre2. apply nt_cases in Hst as [l Hl]. pose proof (part_step _ _ _ _ _ Hre2 Hl) as Hp. unfold nt_part_of in Hp.
  assert (Has : nt_as s = nt_as s2 \/ exists l', l = Some l' /\ as_step (nt_as s2) l' = Some (nt_as s)).
  { pose proof (nt_part _ _ _ _ Hl) as Hx. destruct l as [l|]; cbn [oseq Asm_Model.as_run] in Hx; [|injection Hx as ->; by left].
    right. exists l. split; [done|]. by destruct (as_step (nt_as s2) l). }
  assert (Hev : forall ev, l = Some (ACm (LNotify ev)) -> silent p ev).
  { intros ev E c' -> Hpc. destruct Hl as [l x Hn1 Hn2 Hx|i q a x b e c Hc Hg Hx|k c Hk|k c x Hk Hb Hx|Hc|k q x Hc Hk Hx|q Hc|Hc Hcan]; try discriminate E.
    - injection E as ->. by destruct (Hn1 (NConnected c')).
    - injection E as <-. cbn in Hpc. subst q. apply (Hno i a), elem_of_app. right. left. }
  assert (Htb : (exists t, told s = told s1 ++ t /\ Forall (silent p) t) /\ Forall (silent p) (cm_blocked (nt_mgr s))).
  { assert (Hgen : same_net (nt_mgr s2) (nt_mgr s) \/ take_net (nt_mgr s2) (nt_mgr s) -> (exists t, told s = told s1 ++ t /\ Forall (silent p) t) /\ Forall (silent p) (cm_blocked (nt_mgr s))).
    { intros [[B1 B2]|(i & e & B1 & B2 & B3)].
      - assert (Et : told s = told s2) by exact B2. split; [exists t; by rewrite Et|by rewrite B1].
      - assert (Et : told s = told s2 ++ [e]) by exact B3. split.
        + exists (t ++ [e]). rewrite Et, Ht, (assoc_L (++)). split; [done|]. apply Forall_app. split; [done|]. constructor; [|constructor]. by eapply (Forall_lookup_1 (silent p)).
        + rewrite B2. rewrite (delete_Permutation _ _ _ B1) in HB. by apply Forall_cons in HB as [_ HB]. }
    destruct l as [[[]| | | |]|]; try (by apply Hgen). destruct Hp as [B1 B2]. split; [exists t; by rewrite B2|]. rewrite B1. apply Forall_app. split; [done|]. constructor; [|constructor].
    by apply Hev. }
  split; [apply Htb|]. split; [apply Htb|]. split.
  - intros j e Hj Hlp. destruct Has as [E|(l' & -> & Has)]; [unfold nt_eh in *; rewrite E in *; by eapply HE|]. destruct (err_source _ _ _ _ _ _ Has Hj Hlp) as [[E1 E2]| ->]; [by eapply HE|].
    destruct (nt_later _ _ _ H2) as (_ & Hlen & _). exact Hlen.
  - intros now a e Hin. apply HS. destruct Has as [E|(l' & -> & Has)]; [unfold nt_eh in *; by rewrite E in *|]. destruct (as_serves _ _ _ _ _ _ _ Has Hin) as [H|(j & x & Hj & Hlp & Hc)]; [done|]. exfalso.
    destruct (KInv_reach _ _ _ _ _ (as_reach_nt _ _ Hre2)) as (_ & _ & _ & _ & HK & _). rewrite Hj in HK. destruct HK as (id & er & st & x' & G1 & G2 & _).
    rewrite Hlp in G1. injection G1 as <- <-. rewrite Hc in G2. injection G2 as E1 <- E2. rewrite E1 in Hc.
    destruct (nt_proj _ _ _ H2) as (ls & Hls & _).
    destruct (answered_between decay o initial [] (nt_as s1) ls (nt_as s2) j p (Some a) x.2) as [[_ Hx]|(h & [[t1 Hb1] [t2 Hb2]] & Hf)]; [by eapply as_reach_nt|done|by eapply HE|done|done|].
    destruct Hf as [Hf _]. revert Hf. rewrite Hb1. apply silent_unknown; [exact Hn|].
    rewrite Hb1 in Hb2. unfold told in Ht. rewrite Hb2, <- (assoc_L (++)) in Ht. apply app_inv_head in Ht. rewrite <- Ht in HFt. by apply Forall_app in HFt as [? _].
Qed.
End proofs.

(** ** Histories in which a peer has one connection at a time *)
Lemma open_session_conn h c : real_history h -> one_at_a_time h -> is_open h c -> session_conn h (cn_peer c) c.
Proof.
  intros [Hn Hr] H1 (h1 & h2 & -> & Hno). exists h1, h2. split; [done|]. split; [done|]. split.
  { intros Hl. apply last_open in Hl as (c' & Hp & Ho). by eapply (H1 h1 c h2). }
  apply Forall_forall. intros e He c' -> Hp. apply elem_of_list_split in He as (t1 & t2 & ->).
  assert (Hin : NConnected c' ∈ h1 ++ NConnected c :: t1).
  { eapply (Hr _ _ t2). by rewrite <- app_assoc. }
  apply elem_of_app in Hin as [Hin|Hin].
  - apply elem_of_list_split in Hin as (g1 & g2 & ->).
    eapply (H1 _ _ _ eq_refl c'); [done|]. exists g1, g2. split; [done|]. intros Hd.
    apply NoDup_app in Hn as (_ & Hn & _). apply (Hn (NDisconnected c')).
    + apply elem_of_app. right. by right.
    + right. apply elem_of_app. right. left.
  - apply elem_of_cons in Hin as [[= ->]|Hin].
    + apply Hno, elem_of_app. right. left.
    + apply elem_of_list_split in Hin as (g1 & g2 & ->).
      eapply (H1 (h1 ++ NConnected c :: g1) c' (g2 ++ NDisconnected c' :: t2)); [by rewrite <- !app_assoc; cbn; rewrite <- ?app_assoc|by symmetry|].
      exists h1, g1. split; [done|]. intros Hd. apply Hno. rewrite <- app_assoc. apply elem_of_app. by left.
Qed.
Lemma one_prefix h h' : h `prefix_of` h' -> one_at_a_time h' -> one_at_a_time h.
Proof. intros [t ->] H h1 c h2 -> c' Hp. eapply (H h1 c (h2 ++ t)); [by rewrite <- (assoc_L (++))|done]. Qed.
Lemma real_prefix h h' : h `prefix_of` h' -> real_history h' -> real_history h.
Proof. intros [t ->] [H1 H2]. split; [by apply NoDup_app in H1 as (? & _)|]. intros h1 c h2 ->. eapply (H2 h1 c (h2 ++ t)). by rewrite <- (assoc_L (++)). Qed.
Lemma prefix_elem {A} (x : A) l l' : l `prefix_of` l' -> x ∈ l -> x ∈ l'.
Proof. intros [t ->] H. apply elem_of_app. by left. Qed.
Lemma open_in h c : NConnected c ∈ h -> NDisconnected c ∉ h -> is_open h c.
Proof. intros H Hn. apply elem_of_list_split in H as (h1 & h2 & ->). exists h1, h2. split; [done|]. intros H. apply Hn. apply elem_of_app. right. by right. Qed.

Lemma ledger_hit decay ts ts' now x : ledger_of decay (ts ++ THit now x :: ts') <> None.
Proof.
  unfold ledger_of. rewrite fold_left_app. cbn [fold_left]. set (l := touch1 decay _ (THit now x)).
  assert (Hl : l <> None) by (unfold l, touch1, hit; by destruct (look decay now _) as [[? ?]|]). clearbody l. revert l Hl.
  induction ts' as [|t ts' IH]; intros l Hl; [done|]. cbn [fold_left]. apply IH. destruct l as [[? ?]|]; [|done]. by destruct t.
Qed.
