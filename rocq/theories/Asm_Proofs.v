(** Invariants of the error handler and the connection manager wired together. *)
From Verif Require Import GoBase ErrHandler_Model ErrHandler_Spec ErrHandler_Proofs EhSys_Model EhSys_Spec EhSys_Proofs
  ConnMgr_Model ConnMgr_Spec ConnMgr_Proofs Asm_Model Asm_Spec.

(** ** More about the manager *)
Ltac cm_simpl H := cbn [cm_seeds cm_starter cm_manager cm_peers cm_next cm_blocked cm_callers cm_seed cm_cancelled cm_log app] in H.
Ltac cm_cases Hst lab :=
  destruct lab; unfold cm_step in Hst; cm_simpl Hst;
  repeat (case_match; try discriminate Hst);
  unfold handle, handle_connected, handle_disconnected, seed_result, set_manager, set_blocked, set_callers, set_seed, set_starter, logs in Hst;
  cm_simpl Hst;
  repeat (case_match; try discriminate Hst); injection Hst as <-;
  cbn [cm_seeds cm_starter cm_manager cm_peers cm_next cm_blocked cm_callers cm_seed cm_cancelled cm_log] in *.

(** The log only grows, calls keep their query, an answer is final and an expired context stays so. *)
Definition later (c c' : cm) : Prop :=
  (exists l, cm_log c' = l ++ cm_log c) /\ length (cm_callers c) <= length (cm_callers c') /\
  (forall j q st x, cm_callers c !! j = Some (Caller q st x) -> exists st' x', cm_callers c' !! j = Some (Caller q st' x') /\
     (forall a, st = ClReturned a -> st' = ClReturned a)) /\
  (cm_cancelled c = true -> cm_cancelled c' = true).
Lemma later_refl c : later c c.
Proof. split; [by exists []|]. split; [done|]. split; [|done]. intros j q st x H. by exists st, x. Qed.
Lemma later_trans c1 c2 c3 : later c1 c2 -> later c2 c3 -> later c1 c3.
Proof.
  intros ([l1 H1] & H2 & H3 & H4) ([l2 G1] & G2 & G3 & G4). split; [exists (l2 ++ l1); by rewrite G1, H1, app_assoc|]. split; [lia|]. split; [|auto].
  intros j q st x H. destruct (H3 _ _ _ _ H) as (st1 & x1 & H' & Ha). destruct (G3 _ _ _ _ H') as (st2 & x2 & H'' & Hb). exists st2, x2. split; [done|auto].
Qed.
Lemma insert_keeps (ca : list caller) i q st x st' x' :
  ca !! i = Some (Caller q st x) -> (forall a, st = ClReturned a -> st' = ClReturned a) ->
  length ca <= length (<[i := Caller q st' x']> ca) /\
  forall j q1 st1 x1, ca !! j = Some (Caller q1 st1 x1) -> exists st2 x2, (<[i := Caller q st' x']> ca) !! j = Some (Caller q1 st2 x2) /\
    (forall a, st1 = ClReturned a -> st2 = ClReturned a).
Proof.
  intros Hi Ha. split; [by rewrite insert_length|]. intros j q1 st1 x1 Hj. destruct (decide (i = j)) as [<-|Hne].
  - rewrite Hi in Hj. injection Hj as <- <- <-. exists st', x'. split; [|done]. apply list_lookup_insert. by eapply lookup_lt_Some.
  - exists st1, x1. by rewrite list_lookup_insert_ne.
Qed.
Lemma later_step c lab c' : cm_step c lab = Some c' -> later c c'.
Proof.
  intros Hst. destruct c as [sd st m pe nx bl ca se cc lg].
  cm_cases Hst lab; subst; unfold later; cbn [cm_log cm_callers cm_cancelled];
    (split; [first [by exists []|by eexists [_]|by eexists [_; _]|by eexists [_; _; _]|eexists (_ ++ [_]); rewrite <- app_assoc; done]|]);
    first [ split; [done|]; split; [|done]; intros j q1 st1 x1 Hj; by exists st1, x1
          | (split; [rewrite app_length; lia|]; split; [|done]; intros j q1 st1 x1 Hj; exists st1, x1; split; [by apply lookup_app_l_Some|done])
          | match goal with H : ca !! ?i = Some (Caller ?q ?a ?x) |- context [<[?i := Caller ?q ?b ?y]> ca] =>
              destruct (insert_keeps ca i q a x b y H) as [HA HB]; [intros ? Hx; try discriminate Hx; done|]; split; [done|]; split; [exact HB|done] end ].
Qed.
Lemma later_run sched c c' : cm_run c sched = Some c' -> later c c'.
Proof.
  revert c. induction sched as [|lab sched IH]; intros c Hr; cbn [cm_run] in Hr; [injection Hr as <-; apply later_refl|].
  destruct (cm_step c lab) as [c1|] eqn:H1; [|done]. eapply later_trans; [by eapply later_step|by apply IH].
Qed.
(** Only calls that were made return; a call waits only while the loop answers it (unless a context ends); the loop ends only
    when told to. *)
Definition Inv8 (c : cm) : Prop :=
  (forall j a, GReturn j a ∈ cm_log c -> j < length (cm_callers c)) /\
  (forall j q, cm_callers c !! j = Some (Caller q ClWaiting false) -> cm_cancelled c = false -> exists a, cm_manager c = MReplying (ByCaller j) q a) /\
  (forall p todo, cm_seed c = SdWaiting p todo -> cm_cancelled c = false -> exists q a, cm_manager c = MReplying BySeeds q a) /\
  (cm_manager c = MEnded -> cm_cancelled c = true).
Lemma Inv8_reach initial existing c : cm_reach initial existing c -> Inv8 c.
Proof.
  apply cm_reach_ind; clear c.
  { split; [|split; [|split]]; cbn; try done. intros j a H. by apply elem_of_nil in H. }
  intros [sd st m pe nx bl ca se cc lg] lab s' Hr (H1 & H2 & H3 & H4) Hst.
  pose proof (Inv7_reach _ _ _ Hr) as H7. unfold Inv7 in H7. pose proof (Inv3_reach _ _ _ Hr) as [_ H5].
  cbn [cm_starter cm_manager cm_seed cm_callers cm_cancelled cm_log] in *.
  pose proof (later_step _ _ _ Hst) as (_ & Hlen & _ & _). cbn [cm_callers] in Hlen.
  pose proof (Inv0_reach _ _ _ Hr) as H0. unfold Inv0 in H0. cbn [cm_starter cm_manager cm_seed cm_callers cm_cancelled cm_log] in H0.
  assert (HS : forall x : Prop, (m = MNotStarted \/ m = MServing) -> cc = false -> forall j q, ca !! j = Some (Caller q ClWaiting false) -> x).
  { intros x [-> | ->] Hc j q Hj; destruct (H2 j q Hj Hc) as [a Ha]; discriminate Ha. }
  cm_cases Hst lab; subst; unfold Inv8; cbn [cm_log cm_callers cm_cancelled cm_manager cm_seed]; cbn [cm_callers] in Hlen;
  (split; [intros j a0 Hin; try (apply elem_of_app in Hin as [Hin|Hin]; [apply elem_of_list_fmap in Hin as (? & Hx & _); discriminate Hx|]);
           repeat (apply elem_of_cons in Hin as [Hin|Hin]; [try discriminate Hin|]); [..|apply H1 in Hin; lia];
           injection Hin as -> _; rewrite ?insert_length; by eapply lookup_lt_Some|]);
  (split; [|split; [|try done]]);
  try (intros ? ? ? Hc; discriminate Hc);
  try (intros j0 q0 Hj0 Hc; first [by apply H2|by eapply H3|by destruct (H3 _ _ Hj0 Hc) as (? & ? & HH); discriminate HH|discriminate Hj0|(eapply HS; [|done|exact Hj0]; by auto)]).
  all: try (intros j0 q0 Hj0 Hc; apply list_lookup_insert_Some in Hj0 as [(<- & Hj0 & _)|(Hne & Hj0)]; [injection Hj0; intros; subst; try discriminate|];
    first [by apply H2|eexists; done|(eapply HS; [|done|exact Hj0]; by auto)|(destruct (H2 _ _ Hj0 Hc) as [? HH]; injection HH as HH _ _; by destruct Hne)]).
  all: try (intros j0 q0 Hj0 Hc; apply lookup_app_Some in Hj0 as [Hj0|[_ Hj0]]; [by apply H2|destruct (j0 - length ca); discriminate Hj0]).
  all: try (intros; by eexists _, _).
  all: try (destruct_and?; subst; intros j0 q0 Hj0 Hc; apply (HS _ (or_introl eq_refl) Hc j0 q0 Hj0)).
  all: intros j0 q0 Hj0 Hc; destruct (H2 _ _ Hj0 Hc) as [? HH]; discriminate HH.
  Unshelve. all: first [exact EmptyString|exact []].
Qed.

(** ** Histories *)
Lemma net_prefix l1 l2 : l1 `prefix_of` l2 -> net_history l1 `prefix_of` net_history l2.
Proof. intros [k ->]. exists (net_history k). apply net_app. Qed.
Lemma later_prefix c c' : later c c' -> rev (cm_log c) `prefix_of` rev (cm_log c').
Proof. intros ([l ->] & _). exists (rev l). by rewrite rev_app_distr. Qed.
Lemma prefix_before {A} (L l1 l2 : list A) x : L `prefix_of` l1 ++ x :: l2 -> x ∉ L -> L `prefix_of` l1.
Proof.
  intros [k Hk] Hx. revert l1 Hk Hx. induction L as [|y L IH]; intros l1 Hk Hx; [apply prefix_nil|].
  destruct l1 as [|z l1]; cbn [app] in Hk; injection Hk as <- Hk.
  - destruct Hx. left.
  - apply prefix_cons. apply (IH l1 Hk). intros Hin. apply Hx. by right.
Qed.

Section proofs.
Context (decay : N -> Z -> N) (o : eh_opts).
Notation as_step := (as_step decay o). Notation as_run := (as_run decay o). Notation es_step := (es_step decay o).

Lemma as_run_app s l1 l2 : as_run s (l1 ++ l2) = match as_run s l1 with Some s' => as_run s' l2 | None => None end.
Proof. revert s. induction l1 as [|a l1 IH]; intros s; [done|]. cbn [Asm_Model.as_run app]. destruct (as_step s a); [apply IH|done]. Qed.
Lemma as_reach_ind initial existing (P : asm -> Prop) :
  P (as_init initial existing) -> (forall s lab s', as_reach decay o initial existing s -> P s -> as_step s lab = Some s' -> P s') ->
  forall s, as_reach decay o initial existing s -> P s.
Proof.
  intros H0 Hs s [sched Hr]. revert s Hr. induction sched as [|lab sched IH] using rev_ind; intros s Hr.
  - injection Hr as <-. done.
  - rewrite as_run_app in Hr. destruct (as_run (as_init initial existing) sched) as [s1|] eqn:H1; [|done].
    cbn [Asm_Model.as_run] in Hr. destruct (as_step s1 lab) as [s2|] eqn:H2; [|done]. injection Hr as <-.
    eapply Hs; [by exists sched|by apply IH|done].
Qed.
Lemma as_reach_step initial existing s lab s' : as_reach decay o initial existing s -> as_step s lab = Some s' -> as_reach decay o initial existing s'.
Proof. intros [sched Hr] Hst. exists (sched ++ [lab]). rewrite as_run_app, Hr. cbn [Asm_Model.as_run]. by rewrite Hst. Qed.
Lemma as_reach_run initial existing s sched s' : as_reach decay o initial existing s -> as_run s sched = Some s' -> as_reach decay o initial existing s'.
Proof. intros [sched0 Hr] Hst. exists (sched0 ++ sched). by rewrite as_run_app, Hr. Qed.

(** *** What a step does *)
Lemma expire_later j c c' : expire j c = Some c' -> later c c'.
Proof. destruct j as [j|]; cbn [expire]; [apply later_step|]. intros H. injection H as <-. apply later_refl. Qed.
(** The two parts of a step *)
Lemma proj_step s lab s' : as_step s lab = Some s' ->
  (exists lc, cm_run (as_cm s) lc = Some (as_cm s')) /\ (exists le, es_run decay o (as_eh s) le = Some (as_eh s')).
Proof.
  assert (H1 : forall c l c', cm_step c l = Some c' -> cm_run c [l] = Some c') by (intros c l c' H; cbn [cm_run]; by rewrite H).
  assert (G1 : forall e l e', es_step e l = Some e' -> es_run decay o e [l] = Some e') by (intros e l e' H; cbn [es_run]; by rewrite H).
  assert (H2 : forall j c c', expire j c = Some c' -> exists lc, cm_run c lc = Some c').
  { intros [j|] c c' H; cbn [expire] in H; [exists [LExpire j]; by apply H1|]. injection H as <-. by exists []. }
  assert (H3 : forall c c' c'' la, cm_step c la = Some c' -> (exists lc, cm_run c' lc = Some c'') -> exists lc, cm_run c lc = Some c'').
  { intros c c' c'' la Hs [lc Hr]. exists (la :: lc). cbn [cm_run]. by rewrite Hs. }
  intros Hst. destruct lab as [l|l| |i|now]; cbn [Asm_Model.as_step] in Hst.
  - assert (H : exists c, cm_step (as_cm s) l = Some c /\ s' = Asm c (as_eh s) (as_calls s) (as_err s)).
    { destruct l; try (destruct (decide _) in Hst); try discriminate Hst; apply bind_Some in Hst as (c & Hc & Hs); injection Hs as <-; by exists c. }
    destruct H as (c & Hc & ->). cbn. split; [eexists; by apply H1|by exists []].
  - apply bind_Some in Hst as (e & He & Hst).
    assert (H : exists lc, cm_run (as_cm s) lc = Some (as_cm s')).
    { destruct l as [| | |k|i|i a|i|now|now|i|i|id er|k|now a|k|k|];
        try discriminate Hst; try (injection Hst as <-; by exists []).
      - destruct k as [a|p|p]; [injection Hst as <-; by exists []|apply bind_Some in Hst as (c & Hc & Hs); injection Hs as <-; exact (ex_intro _ _ (H1 _ _ _ Hc))..].
      - apply bind_Some in Hst as (c & Hc & Hs); injection Hs as <-; cbn. by eapply H2.
      - apply bind_Some in Hst as ([id er] & _ & Hst). apply bind_Some in Hst as (c & Hc & Hst). apply bind_Some in Hst as (c' & Hc' & Hs).
        injection Hs as <-. cbn. eapply H3; [exact Hc|]. revert Hc'. destruct (cm_cancelled (as_cm s)); intros Hc'; [by eapply (H2 (Some _))|injection Hc' as <-; by exists []]. }
    split; [exact H|]. exists [l]. rewrite (G1 _ _ _ He). f_equal.
    destruct l as [| | |k|i|i a|i|now|now|i|i|id er|k|now a|k|k|]; try discriminate Hst; try (by injection Hst as <-).
    + destruct k as [a|p|p]; [by injection Hst as <-|apply bind_Some in Hst as (c & Hc & Hs); by injection Hs as <-..].
    + apply bind_Some in Hst as (c & Hc & Hs); by injection Hs as <-.
    + apply bind_Some in Hst as ([id er] & _ & Hst). apply bind_Some in Hst as (c & Hc & Hst). apply bind_Some in Hst as (c' & Hc' & Hs). by injection Hs as <-.
  - apply bind_Some in Hst as (e & He & Hst). apply bind_Some in Hst as (c & Hc & Hst). apply bind_Some in Hst as (c' & Hc' & Hs). injection Hs as <-. cbn.
    split; [eapply H3; [exact Hc|by eapply H2]|eexists; by apply G1].
  - apply bind_Some in Hst as (j & Hj & Hst). destruct (cm_callers (as_cm s) !! j) as [[q [| |[a| |]] x]|]; try discriminate Hst.
    apply bind_Some in Hst as (e & He & Hs). injection Hs as <-. cbn. split; [by exists []|eexists; by apply G1].
  - apply bind_Some in Hst as (j & Hj & Hst). destruct (cm_callers (as_cm s) !! j) as [[q [| |[a| |]] x]|]; try discriminate Hst.
    apply bind_Some in Hst as (e & He & Hs). injection Hs as <-. cbn. split; [by exists []|eexists; by apply G1].
Qed.
Lemma proj_reach initial existing s : as_reach decay o initial existing s -> cm_reach initial existing (as_cm s) /\ es_reach decay o (as_eh s).
Proof.
  revert s. apply as_reach_ind.
  - split; [by exists []|by exists [XSetProvider]].
  - intros s lab s' _ [[lc Hc] [le He]] Hst. destruct (proj_step s lab s' Hst) as [[lc' Hc'] [le' He']]. split.
    + exists (lc ++ lc'). by rewrite cm_run_app, Hc.
    + exists (le ++ le'). by rewrite es_run_app, He.
Qed.
Lemma as_later s sched s' : as_run s sched = Some s' -> later (as_cm s) (as_cm s').
Proof.
  revert s. induction sched as [|lab sched IH]; intros s Hr; cbn [Asm_Model.as_run] in Hr; [injection Hr as <-; apply later_refl|].
  destruct (as_step s lab) as [s1|] eqn:H1; [|done]. eapply later_trans; [|by apply IH].
  destruct (proj_step _ _ _ H1) as [[lc Hc] _]. by eapply later_run.
Qed.

(** *** The links *)
Definition cm_keeps (j : nat) (c c' : cm) : Prop := forall q st x, cm_callers c !! j = Some (Caller q st x) ->
  exists st', cm_callers c' !! j = Some (Caller q st' x) /\ (forall a, st = ClReturned a -> st' = ClReturned a).
Lemma cm_keeps_refl j c : cm_keeps j c c.
Proof. intros q st x H. by exists st. Qed.
Lemma cm_keeps_trans j c1 c2 c3 : cm_keeps j c1 c2 -> cm_keeps j c2 c3 -> cm_keeps j c1 c3.
Proof. intros H1 H2 q st x H. destruct (H1 _ _ _ H) as (st1 & G & Ga). destruct (H2 _ _ _ G) as (st2 & F & Fa). exists st2. split; [done|auto]. Qed.
Lemma cm_keeps_step j c l c' : cm_step c l = Some c' -> l <> LExpire j -> cm_keeps j c c'.
Proof.
  intros Hst Hl. destruct c as [sd st m pe nx bl ca se cc lg].
  cm_cases Hst l; subst; unfold cm_keeps; cbn [cm_callers]; intros q1 st1 x1 Hj;
    first [ by exists st1 | (exists st1; split; [by apply lookup_app_l_Some|done]) | idtac ].
  all: match goal with |- exists _, <[?i := _]> _ !! _ = _ /\ _ => destruct (decide (i = j)) as [->|Hne]; [|exists st1; by rewrite list_lookup_insert_ne] end.
  all: try (by destruct Hl).
  all: match type of Hj with ?L = _ => match goal with H : L = Some _ |- _ => rewrite H in Hj; injection Hj as <- <- <-; eexists; split; [apply list_lookup_insert; by eapply lookup_lt_Some|intros ? Hx; discriminate Hx] end end.
Qed.
Definition es_keeps (i : nat) (e e' : ehs) : Prop := forall k ph b x, es_calls e !! i = Some (ECall k ph b x) ->
  (exists ph' b' x', es_calls e' !! i = Some (ECall k ph' b' x') /\ (x = true -> x' = true) /\ (ph = PAddress <-> ph' = PAddress) /\
     (forall r, ph = PDone r -> ph' = PDone r)) /\
  (forall a, (i, a) ∈ es_found e' <-> (i, a) ∈ es_found e).
Ltac es_cases Hst lab :=
  destruct lab; unfold EhSys_Model.es_step, serve, set_calls, set_loop, set_disc in Hst;
  repeat (case_match; try discriminate Hst); injection Hst as <-;
  cbn [es_provider es_loop es_scores es_canq es_scoreq es_calls es_reports es_disc es_cancelled es_panic es_log es_found] in *.
Lemma es_keeps_step i e l e' : es_step e l = Some e' -> (forall a, l <> XAddress i a) -> es_keeps i e e'.
Proof.
  intros Hst Hl. destruct e as [pv lp sc cq sq ca rp dc cc pn lg fd].
  es_cases Hst l; subst; unfold es_keeps; cbn [es_calls es_found]; intros k1 ph1 b1 x1 Hj.
  all: try (split; [exists ph1, b1, x1; split; [first [done|by apply lookup_app_l_Some]|done]|done]).
  all: match goal with |- (exists _ _ _, <[?n := _]> _ !! _ = _ /\ _) /\ _ => destruct (decide (n = i)) as [->|Hne];
         [|split; [exists ph1, b1, x1; by rewrite list_lookup_insert_ne|try done]] end.
  all: try (by destruct (Hl (Some a0))); try (by destruct (Hl None)); try (by edestruct Hl).
  all: try (intros a1; rewrite elem_of_cons; split; [intros [Hx|Hx]; [injection Hx as <- _; by destruct Hne|done]|by right]).
  all: match type of Hj with ?L = _ => match goal with H : L = Some _ |- _ => rewrite H in Hj; injection Hj as <- <- <- <- end end.
  all: split; [eexists _, _, _; split; [apply list_lookup_insert; by eapply lookup_lt_Some|]|done].
  all: repeat split; intros; try done; congruence.
Qed.
Lemma es_address_back i e l e' k b x : es_step e l = Some e' -> es_calls e' !! i = Some (ECall k PAddress b x) ->
  (exists b0 x0, es_calls e !! i = Some (ECall k PAddress b0 x0)) \/ (i = length (es_calls e) /\ l = XCall k /\ forall a, k <> KCanAddr a).
Proof.
  intros Hst Hi. destruct e as [pv lp sc cq sq ca rp dc cc pn lg fd].
  es_cases Hst l; subst; try (left; by eexists _, _).
  all: try (apply list_lookup_insert_Some in Hi as [(<- & Hi & _)|(Hne & Hi)]; [first [discriminate Hi|injection Hi as <- -> <- <-]|]; left; by eexists _, _).
  all: try (apply lookup_app_Some in Hi as [Hi|[Hle Hi]]; [left; by eexists _, _|]; destruct (i - length ca)%nat eqn:Hd; [|destruct n; discriminate Hi]; try discriminate Hi; injection Hi as <- <- <-).
  all: right; (split; [lia|]); split; done.
Qed.
Lemma es_loop_step e l e' : es_step e l = Some e' ->
  match l with
  | XTakeReport n => exists id er, es_reports e !! n = Some (id, er) /\ es_loop e' = EAddress id er /\ es_loop e = EServing
  | XErrAddress _ _ => es_loop e' = EServing
  | _ => forall id er, es_loop e' = EAddress id er <-> es_loop e = EAddress id er
  end.
Proof.
  intros Hst. destruct e as [pv lp sc cq sq ca rp dc cc pn lg fd].
  es_cases Hst l; subst; try done; try (by eexists _, _).
Qed.
Lemma es_flags e l e' : es_step e l = Some e' -> es_panic e = false /\
  (es_provider e = true -> es_provider e' = true) /\ (l <> XCancel -> es_cancelled e' = es_cancelled e) /\ (l = XCancel -> es_cancelled e' = true).
Proof.
  intros Hst. destruct e as [pv lp sc cq sq ca rp dc cc pn lg fd].
  es_cases Hst l; subst; try done.
Qed.
Lemma es_calls_len e l e' : es_step e l = Some e' -> match l with
  | XCall k => length (es_calls e') = S (length (es_calls e)) /\ (es_provider e = true -> es_calls e' !! length (es_calls e) = Some (ECall k (match k with KCanAddr a => PSend a | _ => PAddress end) None false)) \/ es_provider e = false
  | _ => length (es_calls e') = length (es_calls e) end.
Proof.
  intros Hst. destruct e as [pv lp sc cq sq ca rp dc cc pn lg fd].
  es_cases Hst l; subst; rewrite ?insert_length, ?app_length; try done; try (by right).
  all: left; split; [cbn; lia|]; intros _; apply list_lookup_middle; done.
Qed.

Definition peer_of (k : ekind) : option string := match k with KCanAddr _ => None | KCanPeer p | KScore p => Some p end.
(** Call [i] of the handler is about the peer caller [j] of the manager asked for, and goes on with the answer given to [j]. *)
Definition link_ok (c : cm) (e : ehs) (i j : nat) : Prop :=
  exists k ph b x p st x', es_calls e !! i = Some (ECall k ph b x) /\ peer_of k = Some p /\
    cm_callers c !! j = Some (Caller (QAddr p) st x') /\ (x' = true -> x = true) /\
    (ph = PAddress \/ exists a, st = ClReturned (AAddr a) /\
       match a with
       | Some a => (i, a) ∈ es_found e /\ forall a', (i, a') ∈ es_found e -> a' = a
       | None => ph = PDone (no_address k) /\ forall a', (i, a') ∉ es_found e
       end).
Lemma link_keeps c e c' e' i j : link_ok c e i j -> cm_keeps j c c' -> es_keeps i e e' -> link_ok c' e' i j.
Proof.
  intros (k & ph & b & x & p & st & x1 & H1 & H2 & H3 & H4 & H5) Hc He.
  destruct (Hc _ _ _ H3) as (st' & G1 & G2). destruct (He _ _ _ _ H1) as [(ph' & b' & x' & F1 & F2 & F3 & F4) F5].
  exists k, ph', b', x', p, st', x1. split; [done|]. split; [done|]. split; [done|]. split; [auto|].
  destruct H5 as [H5|(a & H5 & H6)]; [left; by apply F3|right]. exists a. split; [by apply G2|].
  destruct a as [a|].
  - destruct H6 as [H6 H7]. split; [by apply F5|]. intros a' Ha'. by apply H7, F5.
  - destruct H6 as [H6 H7]. split; [by apply F4|]. intros a' Ha'. by apply (H7 a'), F5.
Qed.
Definition KInv (s : asm) : Prop :=
  NoDup (map fst (as_calls s)) /\ NoDup (map snd (as_calls s)) /\
  (forall i j, (i, j) ∈ as_calls s -> link_ok (as_cm s) (as_eh s) i j) /\
  (forall i k b x, es_calls (as_eh s) !! i = Some (ECall k PAddress b x) -> i ∈ map fst (as_calls s)) /\
  match as_err s with
  | None => forall id e, es_loop (as_eh s) <> EAddress id e
  | Some j => exists id e st x, es_loop (as_eh s) = EAddress id e /\ cm_callers (as_cm s) !! j = Some (Caller (QAddr id) st x) /\
      (x = true -> cm_cancelled (as_cm s) = true) /\ j ∉ map snd (as_calls s)
  end /\
  es_cancelled (as_eh s) = cm_cancelled (as_cm s) /\ es_provider (as_eh s) = true.
Lemma linked_in l i j : NoDup (map fst l) -> (i, j) ∈ l <-> linked l i = Some j.
Proof.
  induction l as [|[i' j'] l IH]; cbn [map fst linked]; intros Hn; [split; [intros H; by apply elem_of_nil in H|done]|].
  apply NoDup_cons in Hn as [Hni Hn]. rewrite elem_of_cons. destruct (decide (i' = i)) as [->|Hne].
  - split.
    + intros [H|H]; [by injection H as ->|]. destruct Hni. apply elem_of_list_fmap. by exists (i, j).
    + intros H. injection H as ->. by left.
  - rewrite <- IH by done. split; [intros [H|H]; [injection H as -> _; done|done]|by right].
Qed.
Lemma snd_in (l : list (nat * nat)) i j : (i, j) ∈ l -> j ∈ map snd l.
Proof. intros H. apply elem_of_list_fmap. by exists (i, j). Qed.
Lemma fst_in (l : list (nat * nat)) i j : (i, j) ∈ l -> i ∈ map fst l.
Proof. intros H. apply elem_of_list_fmap. by exists (i, j). Qed.
Lemma snd_inj (l : list (nat * nat)) i i' j : NoDup (map snd l) -> (i, j) ∈ l -> (i', j) ∈ l -> i = i'.
Proof.
  induction l as [|[a b] l IH]; cbn [map snd]; intros Hn H1 H2; [by apply elem_of_nil in H1|].
  apply NoDup_cons in Hn as [Hni Hn]. apply elem_of_cons in H1 as [H1|H1], H2 as [H2|H2].
  - congruence.
  - injection H1 as -> ->. by destruct Hni; eapply snd_in.
  - injection H2 as -> ->. by destruct Hni; eapply snd_in.
  - by apply IH.
Qed.
(** A step of the manager that expires none of the handler's callers *)
Lemma KInv_cm s c : KInv s -> (exists l, cm_step (as_cm s) l = Some c /\ l <> LCancel /\ forall j, j ∈ map snd (as_calls s) \/ as_err s = Some j -> l <> LExpire j) ->
  KInv (Asm c (as_eh s) (as_calls s) (as_err s)).
Proof.
  intros (N1 & N2 & HL & HA & HE & HC & HP) (l & Hst & Hnc & Hl).
  assert (Hcc : cm_cancelled c = cm_cancelled (as_cm s)).
  { clear -Hst Hnc. destruct (as_cm s) as [sd st m pe nx bl ca se cc lg]. cm_cases Hst l; subst; done. }
  repeat (split; [done|]). split; [|split; [done|split; [|split; [by cbn; rewrite Hcc|done]]]]; cbn [as_cm as_eh as_calls as_err].
  - intros i j Hin. eapply link_keeps; [by apply HL| |].
    + eapply cm_keeps_step; [exact Hst|]. apply Hl. left. by eapply snd_in.
    + intros k ph b x Hi. split; [by exists ph, b, x|done].
  - destruct (as_err s) as [j|] eqn:Hj; [|done]. destruct HE as (id & e & st & x & H1 & H2 & H3 & H4).
    destruct (cm_keeps_step j _ _ _ Hst (Hl j (or_intror eq_refl)) _ _ _ H2) as (st' & H5 & _).
    exists id, e, st', x. rewrite Hcc. done.
Qed.
(** A step of the handler that is neither about an address nor the taking of a report, with callers added to the manager *)
Lemma KInv_eh s e l : KInv s -> es_step (as_eh s) l = Some e ->
  match l with XCancel | XAddress _ _ | XErrAddress _ _ | XTakeReport _ | XCall (KCanPeer _) | XCall (KScore _) => False | _ => True end ->
  KInv (Asm (as_cm s) e (as_calls s) (as_err s)).
Proof.
  intros (N1 & N2 & HL & HA & HE & HC & HP) Hst Hl.
  destruct (es_flags _ _ _ Hst) as (_ & Hp & Hcc & _). assert (Hcc' : es_cancelled e = es_cancelled (as_eh s)) by (apply Hcc; intros ->; done).
  pose proof (es_loop_step _ _ _ Hst) as Hlp.
  assert (Hlp' : forall id er, es_loop e = EAddress id er <-> es_loop (as_eh s) = EAddress id er) by (destruct l; try done; apply Hlp).
  split; [done|]. split; [done|]. split; [|split; [|split; [|split; [cbn; congruence|cbn; auto]]]]; cbn [as_cm as_eh as_calls as_err].
  - intros i j Hin. eapply link_keeps; [by apply HL|apply cm_keeps_refl|]. eapply es_keeps_step; [exact Hst|]. intros a ->. done.
  - intros i k b x Hi. destruct (es_address_back _ _ _ _ _ _ _ Hst Hi) as [(b0 & x0 & H0)|(-> & -> & Hk)]; [by eapply HA|].
    destruct k; [by destruct (Hk a)|done..].
  - destruct (as_err s) as [j|].
    + destruct HE as (id & er & st & x & H1 & H2). exists id, er, st, x. split; [by apply Hlp'|done].
    + intros id er H. apply (HE id er). by apply Hlp'.
Qed.
Lemma expire_callers j c c' q st x : cm_callers c !! j = Some (Caller q st x) -> expire (Some j) c = Some c' ->
  cm_callers c' = <[j := Caller q st true]> (cm_callers c) /\ cm_cancelled c' = cm_cancelled c.
Proof. intros Hj. cbn [expire cm_step]. rewrite Hj. intros H. by injection H as <-. Qed.
Lemma ask_callers p c c' : ask p c = Some c' -> cm_callers c' = cm_callers c ++ [Caller (QAddr p) ClSending false] /\ cm_cancelled c' = cm_cancelled c.
Proof. intros H. by injection H as <-. Qed.
Lemma app_keeps j c c' l : cm_callers c' = cm_callers c ++ l -> cm_keeps j c c'.
Proof. intros H q st x Hj. exists st. rewrite H. split; [by apply lookup_app_l_Some|done]. Qed.
Lemma link_bounds s i j : KInv s -> (i, j) ∈ as_calls s -> i < length (es_calls (as_eh s)) /\ j < length (cm_callers (as_cm s)).
Proof.
  intros (_ & _ & HL & _) Hin. destruct (HL _ _ Hin) as (k & ph & b & x & p & st & x1 & H1 & H2 & H3 & _). split; by eapply lookup_lt_Some.
Qed.
Lemma KInv_call s e c k p : KInv s -> es_step (as_eh s) (XCall k) = Some e -> peer_of k = Some p -> ask p (as_cm s) = Some c ->
  KInv (Asm c e (as_calls s ++ [(length (es_calls (as_eh s)), length (cm_callers (as_cm s)))]) (as_err s)).
Proof.
  intros HK Hst Hk Hask. pose proof HK as (N1 & N2 & HL & HA & HE & HC & HP). destruct (ask_callers _ _ _ Hask) as [Hca Hcc].
  destruct (es_flags _ _ _ Hst) as (_ & Hp & Hec & _). specialize (Hec ltac:(done)).
  destruct (es_calls_len _ _ _ Hst) as [[Hlen Hnew]|?]; [|congruence]. specialize (Hnew HP).
  pose proof (es_loop_step _ _ _ Hst) as Hlp. cbn in Hlp.
  assert (Hkeep : forall i, es_keeps i (as_eh s) e) by (intros i; eapply es_keeps_step; [exact Hst|done]).
  assert (Hfd : es_found e = es_found (as_eh s)).
  { clear -Hst HP. unfold EhSys_Model.es_step in Hst. rewrite HP in Hst. destruct (es_panic _); [done|]. destruct k; by injection Hst as <-. }
  split; [|split; [|split; [|split; [|split; [|split; [cbn; congruence|cbn; auto]]]]]]; cbn [as_cm as_eh as_calls as_err].
  - rewrite map_app. cbn [map fst]. apply NoDup_app. split; [done|]. split; [|apply NoDup_singleton].
    intros i Hi Hn. apply elem_of_list_singleton in Hn as ->. apply elem_of_list_fmap in Hi as ([i j] & Heq & Hin). apply (link_bounds s) in Hin as [Hb _]; [|done]. cbn in Heq, Hb. lia.
  - rewrite map_app. cbn [map snd]. apply NoDup_app. split; [done|]. split; [|apply NoDup_singleton].
    intros i Hi Hn. apply elem_of_list_singleton in Hn as ->. apply elem_of_list_fmap in Hi as ([i j] & Heq & Hin). apply (link_bounds s) in Hin as [_ Hb]; [|done]. cbn in Heq, Hb. lia.
  - intros i j Hin. apply elem_of_app in Hin as [Hin|Hin].
    + eapply link_keeps; [by apply HL|by eapply app_keeps|done].
    + apply elem_of_list_singleton in Hin. injection Hin as -> ->.
      exists k, PAddress, None, false, p, ClSending, false. split; [by destruct k|]. split; [done|].
      split; [rewrite Hca; by apply list_lookup_middle|]. split; [done|]. by left.
  - intros i k1 b x Hi. rewrite map_app. destruct (es_address_back _ _ _ _ _ _ _ Hst Hi) as [(b0 & x0 & H0)|(-> & _ & _)]; apply elem_of_app.
    + left. by eapply HA.
    + right. cbn. left.
  - destruct (as_err s) as [j|].
    + destruct HE as (id & er & st & x & H1 & H2 & H3 & H4). exists id, er, st, x. split; [by apply Hlp|].
      split; [rewrite Hca; by apply lookup_app_l_Some|]. split; [by rewrite Hcc|]. rewrite map_app. cbn. intros Hin. apply elem_of_app in Hin as [Hin|Hin]; [done|].
      apply elem_of_list_singleton in Hin as ->. apply lookup_lt_Some in H2. lia.
    + intros id er H. apply (HE id er). by apply Hlp.
Qed.
Lemma KInv_step s lab s' : KInv s -> es_reach decay o (as_eh s) -> as_step s lab = Some s' -> KInv s'.
Proof.
  intros HK Hre Hst. pose proof HK as (N1 & N2 & HL & HA & HE & HC & HP). destruct lab as [l|l| |i|now]; cbn [Asm_Model.as_step] in Hst.
  - assert (H : exists c, cm_step (as_cm s) l = Some c /\ l <> LCancel /\ (forall j, j ∈ map snd (as_calls s) \/ as_err s = Some j -> l <> LExpire j) /\ s' = Asm c (as_eh s) (as_calls s) (as_err s)).
    { destruct l; try (destruct (decide _) as [?|Hd] in Hst); try discriminate Hst; apply bind_Some in Hst as (c & Hc & Hs); injection Hs as <-; exists c; repeat split; try done.
      intros j Hj Hx. injection Hx as ->. by apply Hd. }
    destruct H as (c & Hc & Hl1 & Hl2 & ->). apply KInv_cm; [done|]. by exists l.
  - apply bind_Some in Hst as (e & He & Hst).
    destruct l as [| | |k|i|i a|i|now|now|i|i|id er|k|now a|k|k|]; try discriminate Hst; try (injection Hst as <-; by eapply KInv_eh).
    + destruct k as [a|p|p]; [injection Hst as <-; by eapply KInv_eh|apply bind_Some in Hst as (c & Hc & Hs); injection Hs as <-; by eapply KInv_call..].
    + apply bind_Some in Hst as (c & Hc & Hs); injection Hs as <-.
      pose proof (KInv_eh s e (XExpire i) HK He I) as (M1 & M2 & ML & MA & ME & MC & MP). cbn [as_cm as_eh as_calls as_err] in *.
      destruct (linked (as_calls s) i) as [j|] eqn:Hj; [|injection Hc as <-; by repeat split].
      apply linked_in in Hj; [|done]. destruct (ML _ _ Hj) as (k & ph & b & x & p & st & x1 & H1 & H2 & H3 & H4 & H5).
      destruct (expire_callers _ _ _ _ _ _ H3 Hc) as [Hca Hcc].
      assert (Hx : x = true).
      { clear -He H1. unfold EhSys_Model.es_step in He. destruct (es_panic _); [done|]. destruct (es_calls (as_eh s) !! i) as [[k1 ph1 b1 x1]|] eqn:Hi; [|done]. injection He as <-.
        cbn in H1. rewrite list_lookup_insert in H1 by by eapply lookup_lt_Some. by injection H1. }
      split; [done|]. split; [done|]. split; [|split; [done|split; [|split; [cbn; congruence|done]]]]; cbn [as_cm as_eh as_calls as_err].
      * intros i' j' Hin. destruct (decide (j' = j)) as [->|Hne].
        -- assert (i' = i) as -> by by eapply snd_inj. exists k, ph, b, x, p, st, true. split; [done|]. split; [done|].
           split; [rewrite Hca; apply list_lookup_insert; by eapply lookup_lt_Some|]. done.
        -- eapply link_keeps; [by apply ML| |intros k0 ph0 b0 x0 H0; split; [by exists ph0, b0, x0|done]].
           intros q0 st0 x0 H0. exists st0. rewrite Hca. by rewrite list_lookup_insert_ne by done.
      * destruct (as_err s) as [j'|]; [|done]. destruct ME as (id & er & st' & x' & G1 & G2 & G3 & G4). exists id, er, st', x'. split; [done|].
        split; [rewrite Hca, list_lookup_insert_ne; [done|]; intros ->; apply G4; by eapply snd_in|]. by rewrite Hcc.
    + apply bind_Some in Hst as ([id er] & Hrep & Hst). apply bind_Some in Hst as (c & Hc & Hst). apply bind_Some in Hst as (c' & Hc' & Hs). injection Hs as <-.
      destruct (ask_callers _ _ _ Hc) as [Hca Hcc].
      destruct (es_flags _ _ _ He) as (_ & Hp & Hec & _). specialize (Hec ltac:(done)).
      pose proof (es_loop_step _ _ _ He) as (id' & er' & Hr' & Hl1 & Hl2). rewrite Hrep in Hr'. injection Hr' as <- <-.
      set (j := length (cm_callers (as_cm s))) in *.
      assert (Hc'' : exists x, cm_callers c' = cm_callers (as_cm s) ++ [Caller (QAddr id) ClSending x] /\ cm_cancelled c' = cm_cancelled (as_cm s) /\ (x = true -> cm_cancelled (as_cm s) = true)).
      { revert Hc'. destruct (cm_cancelled (as_cm s)) eqn:Hcan; intros Hc'.
        - destruct (expire_callers j c c' (QAddr id) ClSending false) as [G1 G2]; [rewrite Hca; by apply list_lookup_middle|done|].
          exists true. split; [|by split; [congruence|]]. rewrite G1, Hca. unfold j. rewrite insert_app_r_alt by lia. by rewrite Nat.sub_diag.
        - injection Hc' as <-. exists false. split; [done|]. by split; [congruence|]. }
      destruct Hc'' as (x & Hca' & Hcc' & Hx).
      split; [done|]. split; [done|]. split; [|split; [|split; [|split; [cbn; congruence|cbn; auto]]]]; cbn [as_cm as_eh as_calls as_err].
      * intros i1 j1 Hin. eapply link_keeps; [by apply HL|by eapply app_keeps|]. by eapply es_keeps_step.
      * intros i1 k1 b1 x1 Hi1. destruct (es_address_back _ _ _ _ _ _ _ He Hi1) as [(b0 & x0 & H0)|(_ & Hx1 & _)]; [by eapply HA|discriminate Hx1].
      * exists id, er, ClSending, x. split; [done|]. split; [rewrite Hca'; by apply list_lookup_middle|]. split; [by rewrite Hcc'|].
        intros Hin. apply elem_of_list_fmap in Hin as ([i1 j1] & Hj1 & Hin). apply (link_bounds s) in Hin as [_ Hb]; [|done]. cbn in Hj1. unfold j in Hj1. lia.
  - apply bind_Some in Hst as (e & He & Hst). apply bind_Some in Hst as (c & Hc & Hst). apply bind_Some in Hst as (c' & Hc' & Hs). injection Hs as <-.
    destruct (es_flags _ _ _ He) as (_ & Hp & _ & Hec). specialize (Hec eq_refl). pose proof (es_loop_step _ _ _ He) as Hlp. cbn in Hlp.
    assert (Hcan : cm_cancelled c = true /\ cm_callers c = cm_callers (as_cm s)) by (by injection Hc as <-). destruct Hcan as [Hcan Hca].
    assert (Hcan' : cm_cancelled c' = true).
    { destruct (expire_later _ _ _ Hc') as (_ & _ & _ & H). by apply H. }
    assert (Hkeep : forall j, as_err s <> Some j -> cm_keeps j (as_cm s) c').
    { intros j Hj. apply (cm_keeps_trans j _ c); [intros q st x H; exists st; by rewrite Hca|].
      destruct (as_err s) as [j'|]; cbn [expire] in Hc'; [|injection Hc' as <-; apply cm_keeps_refl]. eapply cm_keeps_step; [exact Hc'|]. intros Hx. injection Hx as ->. done. }
    split; [done|]. split; [done|]. split; [|split; [|split; [|split; [cbn; congruence|cbn; auto]]]]; cbn [as_cm as_eh as_calls as_err].
    + intros i j Hin. eapply link_keeps; [by apply HL| |by eapply es_keeps_step]. apply Hkeep. intros Hx. rewrite Hx in HE.
      destruct HE as (? & ? & ? & ? & _ & _ & _ & Hni). apply Hni. by eapply snd_in.
    + intros i1 k1 b1 x1 Hi1. destruct (es_address_back _ _ _ _ _ _ _ He Hi1) as [(b0 & x0 & H0)|(_ & Hx1 & _)]; [by eapply HA|discriminate Hx1].
    + destruct (as_err s) as [j|].
      * destruct HE as (id & er & st & x & H1 & H2 & H3 & H4). exists id, er, st, true. split; [by apply Hlp|].
        rewrite <- Hca in H2. destruct (expire_callers _ _ _ _ _ _ H2 Hc') as [G1 _]. split; [|by rewrite Hcan'].
        rewrite G1. apply list_lookup_insert. by eapply lookup_lt_Some.
      * intros id er H. apply (HE id er). by apply Hlp.
  - apply bind_Some in Hst as (j & Hj & Hst). destruct (cm_callers (as_cm s) !! j) as [[q [| |[a| |]] x]|] eqn:Hcj; try discriminate Hst.
    apply bind_Some in Hst as (e & He & Hs). injection Hs as <-. apply linked_in in Hj; [|done].
    destruct (HL _ _ Hj) as (k & ph & b & x2 & p & st & x1 & H1 & H2 & H3 & H4 & H5). rewrite Hcj in H3. injection H3 as -> <- <-.
    destruct (es_flags _ _ _ He) as (_ & Hp & Hec & _). specialize (Hec ltac:(done)). pose proof (es_loop_step _ _ _ He) as Hlp. cbn in Hlp.
    split; [done|]. split; [done|]. split; [|split; [|split; [|split; [cbn; congruence|cbn; auto]]]]; cbn [as_cm as_eh as_calls as_err].
    + intros i1 j1 Hin. destruct (decide (i1 = i)) as [->|Hne].
      * assert (j1 = j) as ->. { apply linked_in in Hin; [|done]. apply linked_in in Hj; [|done]. congruence. }
        unfold EhSys_Model.es_step in He. destruct (es_panic (as_eh s)); [done|]. rewrite H1 in He. destruct ph; try discriminate He.
        destruct (J2_reach decay o _ Hre) as (_ & _ & _ & HCI & _). destruct (HCI _ _ _ _ _ H1) as [_ (_ & _ & Hnf)].
        destruct a as [a|]; injection He as <-.
        -- exists k, (PSend a), b, x2, p, (ClReturned (AAddr (Some a))), x. cbn [es_calls es_found].
           split; [apply list_lookup_insert; by eapply lookup_lt_Some|]. split; [done|]. split; [done|]. split; [done|]. right. exists (Some a). split; [done|].
           split; [left|]. intros a' Ha'. apply elem_of_cons in Ha' as [Ha'|Ha']; [by injection Ha'|by destruct (Hnf a')].
        -- exists k, (PDone (no_address k)), b, x2, p, (ClReturned (AAddr None)), x. cbn [es_calls es_found].
           split; [apply list_lookup_insert; by eapply lookup_lt_Some|]. split; [done|]. split; [done|]. split; [done|]. right. exists None. done.
      * eapply link_keeps; [by apply HL|apply cm_keeps_refl|]. eapply es_keeps_step; [exact He|]. intros a0 Hx. injection Hx as Hx _. by destruct Hne.
    + intros i1 k1 b1 x3 Hi1. destruct (es_address_back _ _ _ _ _ _ _ He Hi1) as [(b0 & x0 & H0)|(_ & Hx1 & _)]; [by eapply HA|discriminate Hx1].
    + destruct (as_err s) as [j'|].
      * destruct HE as (id & er & st' & x' & G1 & G2). exists id, er, st', x'. split; [by apply Hlp|done].
      * intros id er H. apply (HE id er). by apply Hlp.
  - apply bind_Some in Hst as (j & Hj & Hst). destruct (cm_callers (as_cm s) !! j) as [[q [| |[a| |]] x]|] eqn:Hcj; try discriminate Hst.
    apply bind_Some in Hst as (e & He & Hs). injection Hs as <-.
    destruct (es_flags _ _ _ He) as (_ & Hp & Hec & _). specialize (Hec ltac:(done)). pose proof (es_loop_step _ _ _ He) as Hlp. cbn in Hlp.
    split; [done|]. split; [done|]. split; [|split; [|split; [|split; [cbn; congruence|cbn; auto]]]]; cbn [as_cm as_eh as_calls as_err].
    + intros i1 j1 Hin. eapply link_keeps; [by apply HL|apply cm_keeps_refl|by eapply es_keeps_step].
    + intros i1 k1 b1 x3 Hi1. destruct (es_address_back _ _ _ _ _ _ _ He Hi1) as [(b0 & x0 & H0)|(_ & Hx1 & _)]; [by eapply HA|discriminate Hx1].
    + rewrite Hlp. done.
Qed.
Lemma KInv_reach initial existing s : as_reach decay o initial existing s -> KInv s.
Proof.
  revert s. apply as_reach_ind.
  - split; [constructor|]. split; [constructor|]. split; [intros i j H; by apply elem_of_nil in H|]. done.
  - intros s lab s' Hr HK Hst. eapply KInv_step; [exact HK|by eapply proj_reach|exact Hst].
Qed.

(** *** Answers come from a moment of the call *)
Lemma answered_between initial existing s1 sched s3 j p a x : as_reach decay o initial existing s1 -> as_run s1 sched = Some s3 ->
  length (cm_callers (as_cm s1)) <= j -> cm_callers (as_cm s3) !! j = Some (Caller (QAddr p) (ClReturned (AAddr a)) x) ->
  (x = true /\ a = None) \/ exists h, between s1 s3 h /\ found_peer h p a.
Proof.
  intros Hr1 Hrun Hj Hc. pose proof (as_reach_run _ _ _ _ _ Hr1 Hrun) as Hr3.
  destruct (proj_reach _ _ _ Hr1) as [Hc1 _]. destruct (proj_reach _ _ _ Hr3) as [Hc3 _].
  destruct (Inv3_reach _ _ _ Hc3) as [H3 _]. destruct (H3 _ _ _ _ Hc) as [[-> H]|(l1 & l2 & Hl & Hra)]; [left; split; [done|by injection H]|right].
  exists (net_history l1). split; [split|].
  - apply net_prefix. eapply (prefix_before _ l1 l2 (GReturn j (AAddr a))).
    + rewrite <- Hl. apply later_prefix. by eapply as_later.
    + intros Hin. rewrite <- elem_of_list_In, <- in_rev, elem_of_list_In in Hin || (apply elem_of_list_In, in_rev, elem_of_list_In in Hin).
      destruct (Inv8_reach _ _ _ Hc1) as (H8 & _). apply H8 in Hin. lia.
  - apply net_prefix. rewrite Hl. by eexists.
  - unfold found_peer, connected_from. destruct a; exact Hra.
Qed.
Lemma calls_grow_step s lab s' : as_step s lab = Some s' -> exists l, as_calls s' = as_calls s ++ l.
Proof.
  intros Hst. destruct lab as [l|l| |i|now]; cbn [Asm_Model.as_step] in Hst.
  - destruct l; try (destruct (decide _) in Hst); try discriminate Hst; apply bind_Some in Hst as (c & Hc & Hs); injection Hs as <-; exists []; by rewrite app_nil_r.
  - apply bind_Some in Hst as (e & He & Hst). destruct l as [| | |k|i|i a|i|now|now|i|i|id er|k|now a|k|k|]; try discriminate Hst; try (injection Hst as <-; exists []; by rewrite app_nil_r).
    + destruct k as [a|p|p]; [injection Hst as <-; exists []; by rewrite app_nil_r|apply bind_Some in Hst as (c & Hc & Hs); injection Hs as <-; by eexists..].
    + apply bind_Some in Hst as (c & Hc & Hs); injection Hs as <-. exists []; by rewrite app_nil_r.
    + apply bind_Some in Hst as ([id er] & Hrep & Hst). apply bind_Some in Hst as (c & Hc & Hst). apply bind_Some in Hst as (c' & Hc' & Hs). injection Hs as <-. exists []; by rewrite app_nil_r.
  - apply bind_Some in Hst as (e & He & Hst). apply bind_Some in Hst as (c & Hc & Hst). apply bind_Some in Hst as (c' & Hc' & Hs). injection Hs as <-. exists []; by rewrite app_nil_r.
  - apply bind_Some in Hst as (j & Hj & Hst). destruct (cm_callers (as_cm s) !! j) as [[q [| |[a| |]] x]|]; try discriminate Hst.
    apply bind_Some in Hst as (e & He & Hs). injection Hs as <-. exists []; by rewrite app_nil_r.
  - apply bind_Some in Hst as (j & Hj & Hst). destruct (cm_callers (as_cm s) !! j) as [[q [| |[a| |]] x]|]; try discriminate Hst.
    apply bind_Some in Hst as (e & He & Hs). injection Hs as <-. exists []; by rewrite app_nil_r.
Qed.
Lemma calls_grow_run sched s s' i j : as_run s sched = Some s' -> (i, j) ∈ as_calls s -> (i, j) ∈ as_calls s'.
Proof.
  revert s. induction sched as [|lab sched IH]; intros s Hr Hin; cbn [Asm_Model.as_run] in Hr; [by injection Hr as <-|].
  destruct (as_step s lab) as [s1|] eqn:H1; [|done]. apply (IH s1); [done|]. destruct (calls_grow_step _ _ _ H1) as [l ->]. apply elem_of_app. by left.
Qed.
(** handleError waits for its own caller until that one returns. *)
Lemma err_kept s lab s' j id e : KInv s -> as_step s lab = Some s' -> (forall t, lab <> AErrAnswer t) -> as_err s = Some j -> es_loop (as_eh s) = EAddress id e ->
  as_err s' = Some j /\ es_loop (as_eh s') = EAddress id e.
Proof.
  intros HK Hst Hl Hj Hlp. destruct lab as [l|l| |i|now]; cbn [Asm_Model.as_step] in Hst.
  - destruct l; try (destruct (decide _) in Hst); try discriminate Hst; apply bind_Some in Hst as (c & Hc & Hs); by injection Hs as <-.
  - apply bind_Some in Hst as (e' & He & Hst). pose proof (es_loop_step _ _ _ He) as Hlp'.
    destruct l as [| | |k|i|i a|i|now|now|i|i|id' er|k|now a|k|k|]; try discriminate Hst; try (injection Hst as <-; split; [done|by apply Hlp']).
    + destruct k as [a|p|p]; [injection Hst as <-; split; [done|by apply Hlp']|apply bind_Some in Hst as (c & Hc & Hs); injection Hs as <-; split; [done|by apply Hlp']..].
    + apply bind_Some in Hst as (c & Hc & Hs); injection Hs as <-. split; [done|by apply Hlp'].
    + destruct Hlp' as (? & ? & _ & _ & Hx). rewrite Hlp in Hx. discriminate Hx.
  - apply bind_Some in Hst as (e' & He & Hst). pose proof (es_loop_step _ _ _ He) as Hlp'. apply bind_Some in Hst as (c & Hc & Hst). apply bind_Some in Hst as (c' & Hc' & Hs). injection Hs as <-. split; [done|by apply Hlp'].
  - apply bind_Some in Hst as (j' & Hj' & Hst). destruct (cm_callers (as_cm s) !! j') as [[q [| |[a| |]] x]|]; try discriminate Hst.
    apply bind_Some in Hst as (e' & He & Hs). pose proof (es_loop_step _ _ _ He) as Hlp'. injection Hs as <-. split; [done|by apply Hlp'].
  - by destruct (Hl now).
Qed.
Lemma err_kept_run initial existing sched : forall s s' j id e, as_reach decay o initial existing s -> as_run s sched = Some s' -> (forall t, AErrAnswer t ∉ sched) ->
  as_err s = Some j -> es_loop (as_eh s) = EAddress id e -> as_err s' = Some j /\ es_loop (as_eh s') = EAddress id e.
Proof.
  induction sched as [|lab sched IH]; intros s s' j id e Hr Hrun Hn Hj Hl; cbn [Asm_Model.as_run] in Hrun; [by injection Hrun as <-|].
  destruct (as_step s lab) as [s1|] eqn:H1; [|done].
  destruct (err_kept s lab s1 j id e) as [Hj1 Hl1]; [by eapply KInv_reach|done|intros t ->; apply (Hn t); left|done|done|].
  apply (IH s1); [by eapply as_reach_step|done|intros t Hin; apply (Hn t); by right|done|done].
Qed.

(** *** Progress *)
Lemma sum_insert {A} (f : A -> nat) l i x y : l !! i = Some x -> sum_list_with f (<[i := y]> l) + f x = sum_list_with f l + f y.
Proof. revert i. induction l as [|z l IH]; intros [|i] H; try done; [injection H as ->; cbn; lia|]. specialize (IH i H). change (<[S i := y]> (z :: l)) with (z :: <[i := y]> l). cbn [sum_list_with]. lia. Qed.
Lemma delete_length {A} (l : list A) i x : l !! i = Some x -> S (length (delete i l)) = length l.
Proof. intros H. rewrite length_delete by by eexists. apply lookup_lt_Some in H. lia. Qed.
Definition w_caller (c : caller) : nat := match cl_state_of c with ClSending => 2 | ClWaiting => 1 | ClReturned _ => 0 end.
Definition w_seed (d : seed_ctl) : nat :=
  match d with SdNext t => 3 * length t + 1 | SdSending _ t => 3 * length t + 3 | SdWaiting _ t => 3 * length t + 2 | _ => 0 end.
Definition w_cm (c : cm) : nat :=
  sum_list_with w_caller (cm_callers c) + length (cm_blocked c) + w_seed (cm_seed c) + match cm_starter c with Some _ => 1 | None => 0 end.
Definition w_call (c : ecall) : nat := match ec_phase c with PAddress => 4 | PSend _ => 3 | PWait _ => 1 | PDone _ => 0 end.
Definition w_eh (e : ehs) : nat :=
  sum_list_with w_call (es_calls e) + length (es_canq e) + length (es_scoreq e) + 4 * length (es_reports e) +
  match es_loop e with EAddress _ _ => 1 | _ => 0 end.
Lemma w_cm_step c l c' : cm_step c l = Some c' -> internal (ACm l) = true -> w_cm c' < w_cm c.
Proof.
  intros Hst Hl. destruct c as [sd st m pe nx bl ca se cc lg].
  cm_cases Hst l; subst; try discriminate Hl; unfold w_cm; cbn [cm_callers cm_blocked cm_seed cm_starter w_seed length];
  try match goal with H : bl !! _ = Some _ |- _ => apply delete_length in H; lia end;
  try match goal with H : ca !! ?i = Some ?x |- context [<[?i := ?y]> ca] => pose proof (sum_insert w_caller ca i x y H) as Hs; cbn [w_caller cl_state_of] in Hs; lia end; try lia.
Qed.
Lemma w_eh_step e l e' : es_step e l = Some e' ->
  match l with
  | XSend _ | XServeCan _ | XServeScore _ | XReceive _ | XAddress _ _ | XErrAddress _ _ => w_eh e' < w_eh e
  | XTakeReport _ => w_eh e' + 3 = w_eh e
  | _ => True
  end.
Proof.
  intros Hst. destruct e as [pv lp sc cq sq ca rp dc cc pn lg fd].
  es_cases Hst l; subst; try exact I; unfold w_eh; cbn [es_calls es_canq es_scoreq es_reports es_loop length];
  rewrite ?app_length; cbn [length];
  try match goal with H : rp !! _ = Some _ |- _ => apply delete_length in H; lia end;
  try match goal with H : ca !! ?i = Some ?x |- context [<[?i := ?y]> ca] => pose proof (sum_insert w_call ca i x y H) as Hs; unfold w_call in Hs at 2 4; cbn in Hs; lia end; try lia.
Qed.
Definition weight (s : asm) : nat := w_cm (as_cm s) + w_eh (as_eh s).
Lemma weight_step s lab s' : cm_cancelled (as_cm s) = false -> as_step s lab = Some s' -> internal lab = true -> weight s' < weight s.
Proof.
  intros Hcan Hst Hl. unfold weight. destruct lab as [l|l| |i|now]; cbn [Asm_Model.as_step] in Hst; [| |discriminate Hl| |].
  - assert (H : exists c, cm_step (as_cm s) l = Some c /\ s' = Asm c (as_eh s) (as_calls s) (as_err s)).
    { destruct l; try discriminate Hl; apply bind_Some in Hst as (c & Hc & Hs); injection Hs as <-; by exists c. }
    destruct H as (c & Hc & ->). cbn. apply w_cm_step in Hc; [lia|done].
  - apply bind_Some in Hst as (e & He & Hst). apply w_eh_step in He.
    destruct l as [| | |k|i|i a|i|now|now|i|i|id er|k|now a|k|k|]; try discriminate Hl; try (injection Hst as <-; cbn; lia).
    apply bind_Some in Hst as ([id er] & _ & Hst). apply bind_Some in Hst as (c & Hc & Hst). rewrite Hcan in Hst. cbn [mbind option_bind] in Hst. injection Hst as <-. cbn.
    injection Hc as <-. unfold w_cm. cbn [set_callers cm_callers cm_blocked cm_seed cm_starter]. rewrite sum_list_with_app. cbn. lia.
  - apply bind_Some in Hst as (j & Hj & Hst). destruct (cm_callers (as_cm s) !! j) as [[q [| |[a| |]] x]|]; try discriminate Hst.
    apply bind_Some in Hst as (e & He & Hs). injection Hs as <-. apply w_eh_step in He. cbn. lia.
  - apply bind_Some in Hst as (j & Hj & Hst). destruct (cm_callers (as_cm s) !! j) as [[q [| |[a| |]] x]|]; try discriminate Hst.
    apply bind_Some in Hst as (e & He & Hs). injection Hs as <-. apply w_eh_step in He. cbn. lia.
Qed.
(** As long as no context ends *)
Definition alive (s : asm) : Prop :=
  cm_cancelled (as_cm s) = false /\ Forall (fun c => cl_expired c = false) (cm_callers (as_cm s)).
Lemma cm_alive_step c l c' : cm_step c l = Some c' -> l <> LCancel -> (forall j, l <> LExpire j) -> cm_cancelled c = false ->
  Forall (fun x => cl_expired x = false) (cm_callers c) -> cm_cancelled c' = false /\ Forall (fun x => cl_expired x = false) (cm_callers c').
Proof.
  intros Hst H1 H2 Hc HF. destruct c as [sd st m pe nx bl ca se cc lg].
  cm_cases Hst l; subst; try done; (split; [done|]); try (apply Forall_app; split; [done|by repeat constructor]).
  all: try (by edestruct H2).
  all: apply Forall_insert; [done|]; match goal with H : _ !! _ = Some (Caller _ _ _) |- _ => exact (Forall_lookup_1 _ _ _ _ HF H) end.
Qed.
Lemma alive_step s lab s' : as_step s lab = Some s' -> context_ends lab = false -> alive s -> alive s'.
Proof.
  intros Hst Hl [H1 H2]. unfold alive. destruct lab as [l|l| |i|now]; cbn [Asm_Model.as_step] in Hst; [| |discriminate Hl| |].
  - assert (H : exists c, cm_step (as_cm s) l = Some c /\ s' = Asm c (as_eh s) (as_calls s) (as_err s) /\ l <> LCancel).
    { destruct l; try discriminate Hl; try discriminate Hst; apply bind_Some in Hst as (c & Hc & Hs); injection Hs as <-; by exists c. }
    destruct H as (c & Hc & -> & Hn). eapply cm_alive_step; [exact Hc|done| |done|done]. intros j ->. discriminate Hl.
  - apply bind_Some in Hst as (e & He & Hst).
    destruct l as [| | |k|i|i a|i|now|now|i|i|id er|k|now a|k|k|]; try discriminate Hl; try discriminate Hst; try (by injection Hst as <-).
    + destruct k as [a|p|p]; [by injection Hst as <-|apply bind_Some in Hst as (c & Hc & Hs); injection Hs as <-; exact (cm_alive_step _ (LCall (QAddr p)) _ Hc ltac:(done) ltac:(done) H1 H2)..].
    + apply bind_Some in Hst as ([id er] & _ & Hst). apply bind_Some in Hst as (c & Hc & Hst). rewrite H1 in Hst. cbn [mbind option_bind] in Hst. injection Hst as <-. exact (cm_alive_step _ (LCall (QAddr id)) _ Hc ltac:(done) ltac:(done) H1 H2).
  - apply bind_Some in Hst as (j & Hj & Hst). destruct (cm_callers (as_cm s) !! j) as [[q [| |[a| |]] x]|]; try discriminate Hst.
    apply bind_Some in Hst as (e & He & Hs). by injection Hs as <-.
  - apply bind_Some in Hst as (j & Hj & Hst). destruct (cm_callers (as_cm s) !! j) as [[q [| |[a| |]] x]|]; try discriminate Hst.
    apply bind_Some in Hst as (e & He & Hs). by injection Hs as <-.
Qed.
Lemma alive_run sched s s' : as_run s sched = Some s' -> Forall (fun lab => context_ends lab = false) sched -> alive s -> alive s'.
Proof.
  revert s. induction sched as [|lab sched IH]; intros s Hr HF Ha; cbn [Asm_Model.as_run] in Hr; [by injection Hr as <-|].
  destruct (as_step s lab) as [s1|] eqn:H1; [|done]. apply Forall_cons in HF as [HF1 HF]. apply (IH s1); [done|done|]. by eapply alive_step.
Qed.
Lemma internal_alive lab : internal lab = true -> context_ends lab = false.
Proof. destruct lab as [[]|[]| | |]; done. Qed.
(** The handler's loop, once started, goes on until the context ends. *)
Definition running_loop (e : ehs) : Prop := es_loop e = EServing \/ exists id er, es_loop e = EAddress id er.
Lemma running_step e l e' : es_step e l = Some e' -> es_cancelled e = false -> running_loop e -> running_loop e'.
Proof.
  intros Hst Hc Hl. unfold running_loop in *. destruct e as [pv lp sc cq sq ca rp dc cc pn lg fd]. es_cases Hst l; subst; try done; try (by left); try (by right; eexists _, _).
Qed.
Lemma running_as_step s lab s' : KInv s -> as_step s lab = Some s' -> cm_cancelled (as_cm s) = false -> running_loop (as_eh s) -> running_loop (as_eh s').
Proof.
  intros (_ & _ & _ & _ & _ & HC & _) Hst Hcan Hl. rewrite <- HC in Hcan.
  assert (H : as_eh s' = as_eh s \/ exists l, es_step (as_eh s) l = Some (as_eh s')).
  { clear -Hst. destruct lab as [l|l| |i|now]; cbn [Asm_Model.as_step] in Hst.
    - left. destruct l; try (destruct (decide _) in Hst); try discriminate Hst; apply bind_Some in Hst as (c & Hc & Hs); by injection Hs as <-.
    - right. apply bind_Some in Hst as (e & He & Hst). exists l. rewrite He. f_equal.
      destruct l as [| | |k|i|i a|i|now|now|i|i|id er|k|now a|k|k|]; try discriminate Hst; try (by injection Hst as <-).
      + destruct k as [a|p|p]; [by injection Hst as <-|apply bind_Some in Hst as (c & Hc & Hs); by injection Hs as <-..].
      + apply bind_Some in Hst as (c & Hc & Hs); by injection Hs as <-.
      + apply bind_Some in Hst as ([id er] & _ & Hst). apply bind_Some in Hst as (c & Hc & Hst). apply bind_Some in Hst as (c' & Hc' & Hs). by injection Hs as <-.
    - right. apply bind_Some in Hst as (e & He & Hst). apply bind_Some in Hst as (c & Hc & Hst). apply bind_Some in Hst as (c' & Hc' & Hs). injection Hs as <-. by eexists.
    - right. apply bind_Some in Hst as (j & Hj & Hst). destruct (cm_callers (as_cm s) !! j) as [[q [| |[a| |]] x]|]; try discriminate Hst.
      apply bind_Some in Hst as (e & He & Hs). injection Hs as <-. by eexists.
    - right. apply bind_Some in Hst as (j & Hj & Hst). destruct (cm_callers (as_cm s) !! j) as [[q [| |[a| |]] x]|]; try discriminate Hst.
      apply bind_Some in Hst as (e & He & Hs). injection Hs as <-. by eexists. }
  destruct H as [->|[l H]]; [done|]. by eapply running_step.
Qed.
Lemma running_as_run initial existing sched : forall s s', as_reach decay o initial existing s -> as_run s sched = Some s' ->
  Forall (fun lab => context_ends lab = false) sched -> alive s -> running_loop (as_eh s) -> running_loop (as_eh s').
Proof.
  induction sched as [|lab sched IH]; intros s s' Hre Hr HF Ha Hl; cbn [Asm_Model.as_run] in Hr; [by injection Hr as <-|].
  destruct (as_step s lab) as [s1|] eqn:H1; [|done]. apply Forall_cons in HF as [HF1 HF].
  apply (IH s1); [by eapply as_reach_step|done|done|by eapply alive_step|]. eapply running_as_step; [by eapply KInv_reach|exact H1|apply Ha|done].
Qed.
Lemma started_running initial sched s : as_run (as_init initial []) sched = Some s -> Forall (fun lab => context_ends lab = false) sched ->
  AEh XStart ∈ sched -> running_loop (as_eh s).
Proof.
  intros Hr HF Hin. apply elem_of_list_split in Hin as (l1 & l2 & ->). rewrite as_run_app in Hr.
  destruct (as_run (as_init initial []) l1) as [s1|] eqn:H1; [|done]. cbn [Asm_Model.as_run] in Hr.
  destruct (as_step s1 (AEh XStart)) as [s2|] eqn:H2; [|done]. apply Forall_app in HF as [HF1 HF2]. apply Forall_cons in HF2 as [_ HF2].
  assert (Hre1 : as_reach decay o initial [] s1) by by eexists.
  assert (Ha1 : alive s1) by (eapply alive_run; [exact H1|done|split; [done|constructor]]).
  eapply (running_as_run initial []); [by eapply as_reach_step|exact Hr|done|by eapply alive_step|].
  cbn [Asm_Model.as_step] in H2. apply bind_Some in H2 as (e & He & Hs). injection Hs as <-. cbn. left.
  destruct (KInv_reach _ _ _ Hre1) as (_ & _ & _ & _ & _ & _ & HP). unfold EhSys_Model.es_step in He. destruct (es_panic _); [done|]. destruct (es_loop (as_eh s1)); try done. rewrite HP in He. by injection He as <-.
Qed.
Lemma all_or {A} (P : A -> Prop) (l : list A) : (forall x, P x \/ ~ P x) -> Forall P l \/ exists i x, l !! i = Some x /\ ~ P x.
Proof.
  intros Hd. induction l as [|y l IH]; [by left|]. destruct (Hd y) as [Hy|Hy]; [|right; by exists 0, y].
  destruct IH as [IH|(i & x & H & Hx)]; [left; by constructor|right; by exists (S i), x].
Qed.
Lemma progress initial s : as_reach decay o initial [] s -> alive s -> running_loop (as_eh s) ->
  settled s \/ exists lab s', internal lab = true /\ as_step s lab = Some s'.
Proof.
  intros Hre [Hcan Hx] Hlp. destruct (proj_reach _ _ _ Hre) as [Hcr Her]. pose proof (KInv_reach _ _ _ Hre) as (N1 & N2 & HL & HA & HE & HC & HP).
  pose proof (Inv0_reach _ _ _ Hcr) as H0. pose proof (Inv7_reach _ _ _ Hcr) as H7. pose proof (Inv8_reach _ _ _ Hcr) as (_ & H8 & H8s & H8e).
  destruct (Inv3_reach _ _ _ Hcr) as [H3 _].
  assert (Hcm : forall l c, cm_step (as_cm s) l = Some c -> internal (ACm l) = true -> exists lab s', internal lab = true /\ as_step s lab = Some s').
  { intros l c Hc Hl. exists (ACm l), (Asm c (as_eh s) (as_calls s) (as_err s)). split; [done|].
    destruct l; try discriminate Hl; cbn [Asm_Model.as_step]; rewrite Hc; done. }
  assert (Hunx : forall j q st x, cm_callers (as_cm s) !! j = Some (Caller q st x) -> x = false).
  { intros j q st x Hj. exact (Forall_lookup_1 _ _ _ _ Hx Hj). }
  unfold Inv0 in H0. destruct (cm_starter (as_cm s)) as [st0|] eqn:Hst0.
  { right. destruct H0 as (-> & _). eapply (Hcm LStarted); [cbn [cm_step]; by rewrite Hst0|done]. }
  unfold Inv7 in H7. destruct (cm_manager (as_cm s)) as [| |w q a|] eqn:Hm; [by destruct H0 as (_ & H0 & _)| | |by rewrite H8e in Hcan].
  2:{ right. cbn [can_answer] in H7. destruct w as [j|].
      - destruct H7 as (st & x & Hj & Hw). pose proof (Hunx _ _ _ _ Hj) as ->. destruct Hw as [->|Hw]; [|done].
        eapply (Hcm LReply); [cbn [cm_step]; by rewrite Hm, Hj|done].
      - destruct H7 as [[b ->] [(p & todo & Hw)|Hw]]; [|congruence]. eapply (Hcm LReply); [cbn [cm_step]; by rewrite Hm, Hw|done]. }
  destruct (cm_blocked (as_cm s)) as [|ev bl] eqn:Hbl.
  2:{ right. eapply (Hcm (LTakeEvent 0)); [cbn [cm_step]; by rewrite Hm, Hbl|done]. }
  destruct (all_or (fun c => exists a, cl_state_of c = ClReturned a) (cm_callers (as_cm s))) as [Hret|(j & [q st x] & Hj & Hn)].
  { intros [q [| |a] x]; [right|right|left; by eexists]; intros [a H]; discriminate H. }
  2:{ right. pose proof (Hunx _ _ _ _ Hj) as ->. destruct st as [| |a]; [|destruct (H8 _ _ Hj Hcan) as [a Ha]; discriminate Ha|destruct Hn; by eexists].
      eapply (Hcm (LTakeQuery j)); [cbn [cm_step]; by rewrite Hm, Hj|done]. }
  assert (Hans : forall j p st x, cm_callers (as_cm s) !! j = Some (Caller (QAddr p) st x) -> exists a, st = ClReturned (AAddr a)).
  { intros j p st x Hj. destruct (Forall_lookup_1 _ _ _ _ Hret Hj) as [a Ha]. cbn in Ha. subst st. pose proof (Hunx _ _ _ _ Hj) as ->.
    destruct (H3 _ _ _ _ Hj) as [[? _]|(l1 & l2 & _ & Hra)]; [done|]. destruct a as [a| |]; [by exists a|done..]. }
  assert (Hpan : es_panic (as_eh s) = false) by (destruct (J3_reach decay o _ Her) as (_ & _ & _ & _ & H); auto).
  destruct Hlp as [Hlp|(id & er & Hlp)].
  2:{ right. destruct (as_err s) as [j|] eqn:Hj; [|by destruct (HE id er)]. destruct HE as (id' & er' & st & x & H1 & H2 & _).
      destruct (Hans _ _ _ _ H2) as [a ->]. destruct (es_step (as_eh s) (XErrAddress 0 a)) as [e|] eqn:He.
      - eexists (AErrAnswer 0), _. split; [done|]. cbn [Asm_Model.as_step]. rewrite Hj. cbn [mbind option_bind]. rewrite H2, He. done.
      - exfalso. unfold EhSys_Model.es_step in He. rewrite Hpan, Hlp in He. by destruct (eh_step _ _ _ _). }
  assert (Heh : forall l e, es_step (as_eh s) l = Some e -> match l with XSend _ | XServeCan _ | XServeScore _ | XReceive _ => True | _ => False end -> exists lab s', internal lab = true /\ as_step s lab = Some s').
  { intros l e He Hl. exists (AEh l), (Asm (as_cm s) e (as_calls s) (as_err s)). cbn [Asm_Model.as_step]. rewrite He. by destruct l. }
  destruct (es_canq (as_eh s)) as [|[i a] q] eqn:Hq1.
  2:{ right. destruct (serve_enabled decay o (as_eh s) (KCanPeer "") 0 i a q Her Hlp Hq1) as (out & e & k & ph & x & He & _). by eapply Heh. }
  destruct (es_scoreq (as_eh s)) as [|[i a] q] eqn:Hq2.
  2:{ right. destruct (serve_enabled decay o (as_eh s) (KScore "") 0 i a q Her Hlp Hq2) as (out & e & k & ph & x & He & _). by eapply Heh. }
  destruct (es_reports (as_eh s)) as [|[id er] rs] eqn:Hrep.
  2:{ right. destruct (es_step (as_eh s) (XTakeReport 0)) as [e|] eqn:He.
      - eexists (AEh (XTakeReport 0)), _. split; [done|]. cbn [Asm_Model.as_step]. rewrite He, Hrep. cbn [mbind option_bind lookup list_lookup ask cm_step]. rewrite Hcan. cbn [mbind option_bind]. done.
      - exfalso. unfold EhSys_Model.es_step in He. by rewrite Hpan, Hlp, Hrep in He. }
  destruct (all_or (fun c => exists r, ec_phase c = PDone r) (es_calls (as_eh s))) as [Hdone|(i & [k ph b x] & Hi & Hn)].
  { intros [k [|a|a|r] b x]; [right|right|right|left; by eexists]; intros [r H]; discriminate H. }
  { left. split; [done|]. split; [done|]. split; [done|]. split; [done|]. split; [unfold report_in_hand; by rewrite Hlp|done]. }
  right. destruct ph as [|a|a|r]; [| | |destruct Hn; by eexists].
  - pose proof (HA _ _ _ _ Hi) as Hin. apply elem_of_list_fmap in Hin as ([i' j] & Heq & Hin). cbn in Heq. subst i'.
    destruct (HL _ _ Hin) as (k' & ph' & b' & x' & p & st & x1 & G1 & G2 & G3 & _). destruct (Hans _ _ _ _ G3) as [a ->]. apply linked_in in Hin; [|done].
    destruct (es_step (as_eh s) (XAddress i a)) as [e|] eqn:He.
    + eexists (AAnswer i), _. split; [done|]. cbn [Asm_Model.as_step]. rewrite Hin. cbn [mbind option_bind]. rewrite G3, He. done.
    + exfalso. unfold EhSys_Model.es_step in He. rewrite Hpan, Hi in He. by destruct a.
  - destruct (send_possible decay o (as_eh s) i k a b x Hpan Hi) as (e & He & _); [unfold queue_for; rewrite Hq1, Hq2; destruct (is_score k); cbn; unfold queue_cap; lia|]. by eapply Heh.
  - destruct b as [r|].
    + destruct (receive_step decay o (as_eh s) i k a r x Her Hpan Hi) as (e & He & _). by eapply Heh.
    + destruct (J3_reach decay o _ Her) as (HW & _). pose proof (HW _ _ _ _ Hi) as Hin. unfold queue_for in Hin. rewrite Hq1, Hq2 in Hin. destruct (is_score k); by apply elem_of_nil in Hin.
Qed.

(** *** A manager that cannot start *)
Lemma never_answers initial existing s : existing <> [] -> as_reach decay o initial existing s ->
  Forall (fun c => cl_state_of c = ClSending) (cm_callers (as_cm s)) /\ cm_manager (as_cm s) = MNotStarted.
Proof.
  intros Hne Hr. destruct (proj_reach _ _ _ Hr) as [Hc _]. pose proof (Inv0_reach _ _ _ Hc) as H0. unfold Inv0 in H0.
  destruct (cm_starter (as_cm s)) as [l|]; [|by destruct H0]. by destruct H0 as (_ & H1 & _ & _ & _ & _ & H2).
Qed.
Lemma no_answer_step initial existing s lab s' : existing <> [] -> as_reach decay o initial existing s -> as_step s lab = Some s' ->
  as_eh s' = as_eh s \/ exists l, es_step (as_eh s) l = Some (as_eh s') /\ (forall i a, l <> XAddress i a) /\ (forall t a, l <> XErrAddress t a).
Proof.
  intros Hne Hr Hst. destruct (never_answers _ _ _ Hne Hr) as [HS _].
  assert (Hno : forall j q a x, cm_callers (as_cm s) !! j <> Some (Caller q (ClReturned a) x)).
  { intros j q a x Hj. pose proof (Forall_lookup_1 _ _ _ _ HS Hj) as H. discriminate H. }
  destruct lab as [l|l| |i|now]; cbn [Asm_Model.as_step] in Hst.
  - left. destruct l; try (destruct (decide _) in Hst); try discriminate Hst; apply bind_Some in Hst as (c & Hc & Hs); by injection Hs as <-.
  - right. apply bind_Some in Hst as (e & He & Hst). exists l. rewrite He.
    destruct l as [| | |k|i|i a|i|now|now|i|i|id er|k|now a|k|k|]; try discriminate Hst; try (by injection Hst as <-).
    + destruct k as [a|p|p]; [by injection Hst as <-|apply bind_Some in Hst as (c & Hc & Hs); by injection Hs as <-..].
    + apply bind_Some in Hst as (c & Hc & Hs); by injection Hs as <-.
    + apply bind_Some in Hst as ([id er] & _ & Hst). apply bind_Some in Hst as (c & Hc & Hst). apply bind_Some in Hst as (c' & Hc' & Hs). by injection Hs as <-.
  - right. apply bind_Some in Hst as (e & He & Hst). apply bind_Some in Hst as (c & Hc & Hst). apply bind_Some in Hst as (c' & Hc' & Hs). injection Hs as <-. by eexists.
  - apply bind_Some in Hst as (j & Hj & Hst). destruct (cm_callers (as_cm s) !! j) as [[q [| |a] x]|] eqn:Hc; try discriminate Hst. by destruct (Hno j q a x).
  - apply bind_Some in Hst as (j & Hj & Hst). destruct (cm_callers (as_cm s) !! j) as [[q [| |a] x]|] eqn:Hc; try discriminate Hst. by destruct (Hno j q a x).
Qed.
Definition frozen (e e' : ehs) : Prop :=
  es_log e' = es_log e /\ forall i k ph b x, es_calls e !! i = Some (ECall k ph b x) -> exists ph' x', es_calls e' !! i = Some (ECall k ph' b x') /\
    (x = true -> x' = true) /\ forall r, ph' = PDone r -> ph = PDone r \/ b = Some r \/ x' = true.
Lemma frozen_step e l e' id er : es_step e l = Some e' -> es_loop e = EAddress id er -> (forall i a, l <> XAddress i a) -> (forall t a, l <> XErrAddress t a) ->
  frozen e e' /\ es_loop e' = EAddress id er.
Proof.
  intros Hst Hl H1 H2. destruct e as [pv lp sc cq sq ca rp dc cc pn lg fd]. unfold frozen.
  es_cases Hst l; subst; try done; try (by edestruct H1); try (by edestruct H2); (split; [|done]); (split; [done|]); intros i1 k1 ph1 b1 x1 Hi;
  try (exists ph1, x1; split; [first [done|by apply lookup_app_l_Some]|by auto]).
  all: match goal with |- context [<[?n := _]> _] => destruct (decide (n = i1)) as [->|Hne]; [|exists ph1, x1; rewrite list_lookup_insert_ne by done; by auto] end.
  all: match type of Hi with ?L = _ => match goal with H : L = Some _ |- _ => rewrite H in Hi; injection Hi as <- <- <- <- end end.
  all: eexists _, _; split; [apply list_lookup_insert; by eapply lookup_lt_Some|]; split; [done|]; intros r Hr; try discriminate Hr; try (by auto); injection Hr as ->; auto.
Qed.
Lemma frozen_run initial existing sched : forall s s' id er, existing <> [] -> as_reach decay o initial existing s -> as_run s sched = Some s' ->
  es_loop (as_eh s) = EAddress id er -> frozen (as_eh s) (as_eh s') /\ es_loop (as_eh s') = EAddress id er.
Proof.
  induction sched as [|lab sched IH]; intros s s' id er Hne Hre Hr Hl; cbn [Asm_Model.as_run] in Hr.
  - injection Hr as <-. split; [|done]. split; [done|]. intros i k ph b x Hi. exists ph, x. auto.
  - destruct (as_step s lab) as [s1|] eqn:H1; [|done].
    assert (Hf : frozen (as_eh s) (as_eh s1) /\ es_loop (as_eh s1) = EAddress id er).
    { destruct (no_answer_step _ _ _ _ _ Hne Hre H1) as [->|(l & Hst & G1 & G2)]; [|by eapply frozen_step].
      split; [|done]. split; [done|]. intros i k ph b x Hi. exists ph, x. auto. }
    destruct Hf as [[F1 F2] Hl1]. destruct (IH s1 s' id er Hne) as [[G1 G2] Hl2]; [by eapply as_reach_step|done|done|].
    split; [|done]. split; [congruence|]. intros i k ph b x Hi. destruct (F2 _ _ _ _ _ Hi) as (ph1 & x1 & Hi1 & Hx1 & Hd1).
    destruct (G2 _ _ _ _ _ Hi1) as (ph2 & x2 & Hi2 & Hx2 & Hd2). exists ph2, x2. split; [done|]. split; [auto|]. intros r Hr2.
    destruct (Hd2 r Hr2) as [H|[H|H]]; [|auto|auto]. destruct (Hd1 r H) as [H'|[H'|H']]; auto.
Qed.
Lemma peers_wait initial existing s : existing <> [] -> as_reach decay o initial existing s ->
  forall i k ph b x, es_calls (as_eh s) !! i = Some (ECall k ph b x) -> (forall a, k <> KCanAddr a) -> ph = PAddress.
Proof.
  intros Hne. revert s. apply (as_reach_ind initial existing (fun s => forall i k ph b x, es_calls (as_eh s) !! i = Some (ECall k ph b x) -> (forall a, k <> KCanAddr a) -> ph = PAddress)); [done|].
  intros s lab s' Hr IH Hst i k ph b x Hi Hk. destruct (no_answer_step _ _ _ _ _ Hne Hr Hst) as [Heq|(l & Hes & G1 & _)]; [rewrite Heq in Hi; by eapply IH|].
  pose proof (es_calls_len _ _ _ Hes) as Hlen. destruct (KInv_reach _ _ _ Hr) as (_ & _ & _ & _ & _ & _ & HP).
  destruct (es_calls (as_eh s) !! i) as [[k0 ph0 b0 x0]|] eqn:H0.
  - destruct (es_keeps_step i _ _ _ Hes (G1 i) _ _ _ _ H0) as [(ph' & b' & x' & F1 & _ & F3 & _) _]. rewrite Hi in F1. injection F1 as <- <- <- <-. apply F3. by eapply IH.
  - apply lookup_ge_None in H0. apply lookup_lt_Some in Hi as Hlt. destruct l; try lia. destruct Hlen as [[Hlen Hnew]|?]; [|congruence].
    assert (i = length (es_calls (as_eh s))) as -> by lia. rewrite (Hnew HP) in Hi. injection Hi as <- <- _ _. destruct k0; [by destruct (Hk a)|done..].
Qed.
End proofs.
