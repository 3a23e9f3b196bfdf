(** Invariants of the concurrent error handler. *)
From Verif Require Import GoBase ErrHandler_Model ErrHandler_Spec ErrHandler_Proofs EhSys_Model EhSys_Spec.

Section proofs.
Context (decay : N -> Z -> N) (o : eh_opts).

Lemma es_run_app s l1 l2 : es_run decay o s (l1 ++ l2) = match es_run decay o s l1 with Some s' => es_run decay o s' l2 | None => None end.
Proof. revert s. induction l1 as [|a l1 IH]; intros s; [done|]. cbn [es_run app]. destruct (es_step decay o s a); [apply IH|done]. Qed.
Lemma es_reach_ind (P : ehs -> Prop) :
  P es_init -> (forall s lab s', es_reach decay o s -> P s -> es_step decay o s lab = Some s' -> P s') ->
  forall s, es_reach decay o s -> P s.
Proof.
  intros H0 Hs s [sched Hr]. revert s Hr. induction sched as [|lab sched IH] using rev_ind; intros s Hr.
  - injection Hr as <-. done.
  - rewrite es_run_app in Hr. destruct (es_run decay o es_init sched) as [s1|] eqn:H1; [|done].
    cbn [es_run] in Hr. destruct (es_step decay o s1 lab) as [s2|] eqn:H2; [|done]. injection Hr as <-.
    eapply Hs; [by exists sched|by apply IH|done].
Qed.

Ltac es_cbn H := cbn [es_provider es_loop es_scores es_canq es_scoreq es_calls es_reports es_disc es_cancelled es_panic es_log es_found] in H.
Ltac es_cases Hst lab :=
  destruct lab; unfold es_step, serve, set_calls, set_loop, set_disc in Hst; es_cbn Hst;
  repeat (case_match; try discriminate Hst; es_cbn Hst); injection Hst as <-;
  cbn [es_provider es_loop es_scores es_canq es_scoreq es_calls es_reports es_disc es_cancelled es_panic es_log es_found] in *.

(** ** The loop is sequential *)
Lemma eh_run_snoc st evs ev : eh_run decay o st (evs ++ [ev]) =
  let '(st1, outs) := eh_run decay o st evs in let '(st2, out) := eh_step decay o st1 ev in (st2, outs ++ [out]).
Proof.
  revert st. induction evs as [|e evs IH]; intros st; cbn [app eh_run].
  - by destruct (eh_step decay o st ev).
  - destruct (eh_step decay o st e) as [st1 x]. rewrite IH. destruct (eh_run decay o st1 evs) as [st2 xs].
    by destruct (eh_step decay o st2 ev).
Qed.
Definition J1 (s : ehs) : Prop := eh_run decay o ∅ (served_events s) = (es_scores s, served_answers s).
Lemma J1_reach s : es_reach decay o s -> J1 s.
Proof.
  apply es_reach_ind; clear s; [done|].
  intros [pv lp sc cq sq ca rp dc cc pn lg fd] lab s' _ HJ Hst. unfold J1, served_events, served_answers in *.
  es_cases Hst lab; subst; try done; cbn [rev]; rewrite !map_app; cbn [map fst snd];
    rewrite eh_run_snoc, HJ;
    match goal with H : eh_step _ _ _ _ = _ |- _ => by rewrite H end.
Qed.

(** ** Calls, queues, answers *)
Definition is_score (k : ekind) : bool := match k with KScore _ => true | _ => false end.
Definition addr_ok (fd : list (nat * maddr)) (i : nat) (k : ekind) (a : maddr) : Prop := match k with KCanAddr a' => a' = a | _ => (i, a) ∈ fd end.
Definition QInv (fd : list (nat * maddr)) (ca : list ecall) (sc : bool) (q : list (nat * maddr)) : Prop :=
  NoDup (map fst q) /\ forall i a, (i, a) ∈ q -> exists k ph x, ca !! i = Some (ECall k ph None x) /\ is_score k = sc /\
    (ph = PWait a \/ exists r, ph = PDone r) /\ addr_ok fd i k a.
Definition logged (lg : list (option nat * eh_event * eh_out)) : list nat := omap (fun x => x.1.1) lg.
Definition LInv (fd : list (nat * maddr)) (ca : list ecall) (lg : list (option nat * eh_event * eh_out)) : Prop :=
  NoDup (logged lg) /\ forall i ev r, (Some i, ev, r) ∈ lg -> exists k ph x, ca !! i = Some (ECall k ph (Some r) x) /\ request_of fd i k ev.
Definition phase_ok (fd : list (nat * maddr)) (i : nat) (k : ekind) (ph : ephase) (b : option eh_out) (x : bool) : Prop :=
  match ph with
  | PAddress => b = None /\ (forall a, k <> KCanAddr a) /\ forall a, (i, a) ∉ fd
  | PSend a => b = None /\ addr_ok fd i k a
  | PWait a => addr_ok fd i k a
  | PDone r => (r = no_address k /\ (forall a, k <> KCanAddr a) /\ forall a, (i, a) ∉ fd) \/ (x = true /\ r = gave_up k) \/ b = Some r
  end.
Definition CInv (fd : list (nat * maddr)) (ca : list ecall) (lg : list (option nat * eh_event * eh_out)) : Prop :=
  forall i k ph b x, ca !! i = Some (ECall k ph b x) ->
    (forall r, b = Some r -> exists ev, (Some i, ev, r) ∈ lg) /\ phase_ok fd i k ph b x.

Lemma Q_insert fd ca sc q i k ph b x ph' b' x' :
  ca !! i = Some (ECall k ph b x) -> QInv fd ca sc q ->
  (forall a, (i, a) ∈ q -> b' = None /\ (ph = PWait a \/ (exists r, ph = PDone r) -> ph' = PWait a \/ exists r, ph' = PDone r)) ->
  QInv fd (<[i := ECall k ph' b' x']> ca) sc q.
Proof.
  intros Hi [Hn Hq] Hc. split; [done|]. intros j a Hj. destruct (Hq _ _ Hj) as (k1 & ph1 & x1 & H1 & H2 & H3 & H4).
  destruct (decide (i = j)) as [<-|Hne].
  - rewrite Hi in H1. injection H1 as -> -> -> ->. destruct (Hc _ Hj) as [-> Hph]. exists k1, ph', x'.
    split; [apply list_lookup_insert; by eapply lookup_lt_Some|]. split; [done|]. split; [by apply Hph|done].
  - exists k1, ph1, x1. by rewrite list_lookup_insert_ne.
Qed.
Lemma Q_app fd ca sc q c : QInv fd ca sc q -> QInv fd (ca ++ [c]) sc q.
Proof.
  intros [Hn Hq]. split; [done|]. intros j a Hj. destruct (Hq _ _ Hj) as (k1 & ph1 & x1 & H1 & H2). exists k1, ph1, x1.
  split; [by apply lookup_app_l_Some|done].
Qed.
Lemma L_insert fd ca lg i k ph b x ph' b' x' :
  ca !! i = Some (ECall k ph b x) -> LInv fd ca lg -> (b <> None -> b' = b) -> LInv fd (<[i := ECall k ph' b' x']> ca) lg.
Proof.
  intros Hi [Hn Hl] Hb. split; [done|]. intros j ev r Hj. destruct (Hl _ _ _ Hj) as (k1 & ph1 & x1 & H1 & H2).
  destruct (decide (i = j)) as [<-|Hne].
  - rewrite Hi in H1. injection H1 as -> -> -> ->. rewrite Hb by done. exists k1, ph', x'. split; [|done].
    apply list_lookup_insert. by eapply lookup_lt_Some.
  - exists k1, ph1, x1. by rewrite list_lookup_insert_ne.
Qed.
Lemma L_app fd ca lg c : LInv fd ca lg -> LInv fd (ca ++ [c]) lg.
Proof.
  intros [Hn Hl]. split; [done|]. intros j ev r Hj. destruct (Hl _ _ _ Hj) as (k1 & ph1 & x1 & H1 & H2). exists k1, ph1, x1.
  split; [by apply lookup_app_l_Some|done].
Qed.
Lemma L_none fd ca lg ev r : LInv fd ca lg -> LInv fd ca ((None, ev, r) :: lg).
Proof. intros [Hn Hl]. split; [done|]. intros j ev' r' Hj. apply elem_of_cons in Hj as [Hj|Hj]; [discriminate Hj|by eapply Hl]. Qed.
Lemma C_insert fd ca lg i k ph b x ph' b' x' :
  ca !! i = Some (ECall k ph b x) -> CInv fd ca lg ->
  (forall r, b' = Some r -> exists ev, (Some i, ev, r) ∈ lg) -> phase_ok fd i k ph' b' x' ->
  CInv fd (<[i := ECall k ph' b' x']> ca) lg.
Proof.
  intros Hi Hc Hb Hp j k1 ph1 b1 x1 Hj. apply list_lookup_insert_Some in Hj as [(<- & Hj & _)|(_ & Hj)]; [|by eapply Hc].
  injection Hj as <- <- <- <-. done.
Qed.
Lemma C_app fd ca lg k ph : CInv fd ca lg -> phase_ok fd (length ca) k ph None false -> CInv fd (ca ++ [ECall k ph None false]) lg.
Proof.
  intros Hc Hp j k1 ph1 b1 x1 Hj. apply lookup_app_Some in Hj as [Hj|[Hle Hj]]; [by eapply Hc|].
  destruct (j - length ca)%nat eqn:Hd; [|done]. injection Hj as <- <- <- <-. assert (j = length ca) as -> by lia. split; [intros r Hr; discriminate Hr|done].
Qed.
Lemma C_log fd ca lg y : CInv fd ca lg -> CInv fd ca (y :: lg).
Proof.
  intros Hc i k ph b x Hi. destruct (Hc _ _ _ _ _ Hi) as [H1 H2]. split; [|done]. intros r Hr. destruct (H1 r Hr) as [ev Hev].
  exists ev. by right.
Qed.
Lemma logged_in lg i : i ∈ logged lg <-> exists ev r, (Some i, ev, r) ∈ lg.
Proof.
  unfold logged. rewrite elem_of_list_omap. split.
  - intros ([[j ev] r] & Hin & Hj). cbn in Hj. subst j. by exists ev, r.
  - intros (ev & r & Hin). by exists (Some i, ev, r).
Qed.

Definition FInv (fd : list (nat * maddr)) (ca : list ecall) : Prop := forall i a, (i, a) ∈ fd -> (i < length ca)%nat.
Lemma request_mono fd y i k ev : request_of fd i k ev -> request_of (y :: fd) i k ev.
Proof. unfold request_of. destruct k, ev; try done; intros H; by right. Qed.
Lemma addr_mono fd y i k a : addr_ok fd i k a -> addr_ok (y :: fd) i k a.
Proof. unfold addr_ok. destruct k; try done; intros H; by right. Qed.
Lemma Q_mono fd y ca sc q : QInv fd ca sc q -> QInv (y :: fd) ca sc q.
Proof.
  intros [Hn Hq]. split; [done|]. intros i a Hin. destruct (Hq _ _ Hin) as (k & ph & x & H1 & H2 & H3 & H4). exists k, ph, x.
  split; [done|]. split; [done|]. split; [done|]. by apply addr_mono.
Qed.
Lemma L_mono fd y ca lg : LInv fd ca lg -> LInv (y :: fd) ca lg.
Proof.
  intros [Hn Hl]. split; [done|]. intros i ev r Hin. destruct (Hl _ _ _ Hin) as (k & ph & x & H1 & H2). exists k, ph, x.
  split; [done|]. by apply request_mono.
Qed.
Lemma C_found fd ca lg i k b x a : CInv fd ca lg -> ca !! i = Some (ECall k PAddress b x) ->
  CInv ((i, a) :: fd) (<[i := ECall k (PSend a) b x]> ca) lg.
Proof.
  intros Hc Hi j k1 ph1 b1 x1 Hj. apply list_lookup_insert_Some in Hj as [(<- & Hj & _)|(Hne & Hj)].
  - injection Hj as <- <- <- <-. destruct (Hc _ _ _ _ _ Hi) as [H1 (-> & H2 & _)]. split; [done|]. split; [done|].
    unfold addr_ok. destruct k; [by destruct (H2 a0)|left|left].
  - destruct (Hc _ _ _ _ _ Hj) as [H1 H2]. split; [done|].
    assert (Hni : forall a', (j, a') ∉ fd -> (j, a') ∉ (i, a) :: fd).
    { intros a' H Hin. apply elem_of_cons in Hin as [Hin|Hin]; [by injection Hin as -> ->|done]. }
    destruct ph1; cbn [phase_ok] in *.
    + destruct H2 as (? & ? & ?). split; [done|]. split; [done|]. intros a'. by apply Hni.
    + destruct H2. split; [done|]. by apply addr_mono.
    + by apply addr_mono.
    + destruct H2 as [(? & ? & ?)|[?|?]]; [left|by right; left|by right; right]. split; [done|]. split; [done|]. intros a'. by apply Hni.
Qed.
Lemma F_insert fd ca i c : FInv fd ca -> FInv fd (<[i := c]> ca).
Proof. intros H j a Hj. rewrite insert_length. by eapply H. Qed.
Lemma F_app fd ca c : FInv fd ca -> FInv fd (ca ++ [c]).
Proof. intros H j a Hj. rewrite app_length. specialize (H _ _ Hj). lia. Qed.
Lemma Q_push fd ca sc q i k a x : ca !! i = Some (ECall k (PSend a) None x) -> is_score k = sc -> addr_ok fd i k a -> QInv fd ca sc q ->
  QInv fd (<[i := ECall k (PWait a) None x]> ca) sc (q ++ [(i, a)]).
Proof.
  intros Hi Hk Ha [Hn Hq].
  assert (Hni : forall a', (i, a') ∉ q).
  { intros a' Hin. destruct (Hq _ _ Hin) as (k1 & ph1 & x1 & H1 & _ & H3 & _). rewrite Hi in H1. injection H1 as <- <- <-.
    destruct H3 as [H3|[r H3]]; discriminate H3. }
  assert (HQ : QInv fd (<[i := ECall k (PWait a) None x]> ca) sc q).
  { eapply Q_insert; [exact Hi|by split|]. intros a' Hin. by apply Hni in Hin. }
  split.
  - rewrite map_app. apply NoDup_app. split; [done|]. split; [|apply NoDup_singleton].
    intros j Hj Hj'. apply elem_of_list_singleton in Hj'. cbn in Hj'. subst j. apply elem_of_list_fmap in Hj as ([j a'] & -> & Hin). by apply Hni in Hin.
  - intros j a' Hin. apply elem_of_app in Hin as [Hin|Hin]; [by apply HQ|]. apply elem_of_list_singleton in Hin. injection Hin as -> ->.
    exists k, (PWait a), x. split; [apply list_lookup_insert; by eapply lookup_lt_Some|]. split; [done|]. split; [by left|done].
Qed.
Lemma serve_ok fd ca sc q1 q2 lg i a k ph x ev out :
  ca !! i = Some (ECall k ph None x) -> QInv fd ca sc ((i, a) :: q1) -> QInv fd ca (negb sc) q2 -> LInv fd ca lg -> CInv fd ca lg ->
  request_of fd i k ev ->
  QInv fd (<[i := ECall k ph (Some out) x]> ca) sc q1 /\ QInv fd (<[i := ECall k ph (Some out) x]> ca) (negb sc) q2 /\
  LInv fd (<[i := ECall k ph (Some out) x]> ca) ((Some i, ev, out) :: lg) /\ CInv fd (<[i := ECall k ph (Some out) x]> ca) ((Some i, ev, out) :: lg).
Proof.
  intros Hi [Hn1 HQ1] HQ2 [Hn HL] HC Hreq.
  destruct (HQ1 i a) as (k1 & ph1 & x1 & H1 & H2 & H3 & H4); [left|]. rewrite Hi in H1. injection H1 as <- <- <-.
  cbn [map fst] in Hn1. apply NoDup_cons in Hn1 as [Hni Hn1].
  split; [|split; [|split]].
  - eapply Q_insert; [done|split; [done|]|].
    + intros j a' Hj. apply HQ1. by right.
    + intros a' Hin. exfalso. apply Hni. apply elem_of_list_fmap. by exists (i, a').
  - eapply Q_insert; [done|done|]. intros a' Hin. exfalso. destruct HQ2 as [_ HQ2]. destruct (HQ2 _ _ Hin) as (k2 & ph2 & x2 & E1 & E2 & _).
    rewrite Hi in E1. injection E1 as <- <- <-. rewrite H2 in E2. by destruct sc.
  - split.
    + cbn [logged omap list_omap fst]. apply NoDup_cons. split; [|done]. intros Hin. apply logged_in in Hin as (ev' & r' & Hin).
      destruct (HL _ _ _ Hin) as (k2 & ph2 & x2 & E1 & _). rewrite Hi in E1. discriminate E1.
    + intros j ev' r Hj. apply elem_of_cons in Hj as [Hj|Hj].
      * injection Hj as -> -> ->. exists k, ph, x. split; [|done]. apply list_lookup_insert. by eapply lookup_lt_Some.
      * eapply L_insert; [exact Hi|by split| |exact Hj]. done.
  - eapply C_insert; [done|by apply C_log| |].
    + intros r [= <-]. exists ev. left.
    + destruct (HC _ _ _ _ _ Hi) as [_ Hp]. destruct ph as [|a'|a'|r]; cbn [phase_ok] in *.
      * destruct H3 as [H3|[? H3]]; discriminate H3.
      * destruct H3 as [H3|[? H3]]; discriminate H3.
      * done.
      * destruct Hp as [?|[?|Hp]]; [by left|by right; left|discriminate Hp].
Qed.
Definition J2 (s : ehs) : Prop :=
  QInv (es_found s) (es_calls s) false (es_canq s) /\ QInv (es_found s) (es_calls s) true (es_scoreq s) /\
  LInv (es_found s) (es_calls s) (es_log s) /\ CInv (es_found s) (es_calls s) (es_log s) /\ FInv (es_found s) (es_calls s).

(** A step that changes neither the queues nor the log nor the buffer, and takes a call from [ph] to [ph'] *)
Lemma move_ok fd ca cq sq lg i k ph b x ph' x' :
  ca !! i = Some (ECall k ph b x) ->
  QInv fd ca false cq /\ QInv fd ca true sq /\ LInv fd ca lg /\ CInv fd ca lg /\ FInv fd ca ->
  (forall a, ph = PWait a \/ (exists r, ph = PDone r) -> ph' = PWait a \/ exists r, ph' = PDone r) ->
  phase_ok fd i k ph' b x' ->
  let ca' := <[i := ECall k ph' b x']> ca in
  QInv fd ca' false cq /\ QInv fd ca' true sq /\ LInv fd ca' lg /\ CInv fd ca' lg /\ FInv fd ca'.
Proof.
  intros Hi (HQ1 & HQ2 & HL & HC & HF) Hph Hok ca'. unfold ca'.
  assert (Hq : forall sc q a, QInv fd ca sc q -> (i, a) ∈ q -> b = None).
  { intros sc q a [_ Hq] Hin. destruct (Hq _ _ Hin) as (k1 & ph1 & x1 & H1 & _). rewrite Hi in H1. by injection H1. }
  split; [|split; [|split; [|split]]].
  - eapply Q_insert; [done|done|]. intros a Hin. split; [by apply (Hq _ _ a HQ1)|apply Hph].
  - eapply Q_insert; [done|done|]. intros a Hin. split; [by apply (Hq _ _ a HQ2)|apply Hph].
  - by eapply L_insert.
  - eapply C_insert; [done|done| |done]. by apply (HC _ _ _ _ _ Hi).
  - by apply F_insert.
Qed.
Lemma new_ok fd ca cq sq lg k ph :
  QInv fd ca false cq /\ QInv fd ca true sq /\ LInv fd ca lg /\ CInv fd ca lg /\ FInv fd ca ->
  phase_ok fd (length ca) k ph None false ->
  let ca' := ca ++ [ECall k ph None false] in
  QInv fd ca' false cq /\ QInv fd ca' true sq /\ LInv fd ca' lg /\ CInv fd ca' lg /\ FInv fd ca'.
Proof.
  intros (HQ1 & HQ2 & HL & HC & HF) Hok ca'. unfold ca'. split; [by apply Q_app|split; [by apply Q_app|split; [by apply L_app|split; [by apply C_app|by apply F_app]]]].
Qed.
Lemma push_ok sc fd ca cq sq lg i k a b x :
  ca !! i = Some (ECall k (PSend a) b x) -> is_score k = sc ->
  QInv fd ca false cq /\ QInv fd ca true sq /\ LInv fd ca lg /\ CInv fd ca lg /\ FInv fd ca ->
  let ca' := <[i := ECall k (PWait a) b x]> ca in
  QInv fd ca' false (if sc then cq else cq ++ [(i, a)]) /\ QInv fd ca' true (if sc then sq ++ [(i, a)] else sq) /\
  LInv fd ca' lg /\ CInv fd ca' lg /\ FInv fd ca'.
Proof.
  intros Hi Hk HJ ca'. unfold ca'. pose proof HJ as (HQ1 & HQ2 & HL & HC & HF). destruct (HC _ _ _ _ _ Hi) as [_ [-> Ha]].
  destruct (move_ok fd ca cq sq lg i k (PSend a) None x (PWait a) x) as (E1 & E2 & E3 & E4 & E5); [done|done| |done|].
  { intros a' [E|[r E]]; discriminate E. }
  destruct sc; (split; [|split; [|done]]); try done; by apply Q_push.
Qed.
Lemma J2_reach s : es_reach decay o s -> J2 s.
Proof.
  apply es_reach_ind; clear s.
  - split; [|split; [|split; [|split]]]; [split; [constructor|intros i a H; by apply elem_of_nil in H]..|split; [constructor|intros i ev r H; by apply elem_of_nil in H]|intros i k ph b x H; done|intros i a H; by apply elem_of_nil in H].
  - intros [pv lp sc cq sq ca rp dc cc pn lg fd] lab s' _ HJ Hst. unfold J2 in *. es_cbn HJ.
    assert (Hfresh : forall a, (length ca, a) ∉ fd).
    { intros a Hin. destruct HJ as (_ & _ & _ & _ & HF). apply HF in Hin. lia. }
    es_cases Hst lab; subst; try done.
    + by apply new_ok.
    + by apply new_ok.
    + by apply new_ok.
    + eapply move_ok; [done|done|done|]. destruct HJ as (_ & _ & _ & HC & _). destruct (HC _ _ _ _ _ H0) as [_ Hp].
      destruct ec_phase; cbn [phase_ok] in *; try done. destruct Hp as [Hp|[[_ Hp]|Hp]]; [by left|by right; left|by right; right].
    + destruct HJ as (HQ1 & HQ2 & HL & HC & HF). destruct (HC _ _ _ _ _ H0) as [_ (-> & Hp1 & Hp2)].
      split; [|split; [|split; [|split]]].
      * eapply Q_insert; [done|by apply Q_mono|]. intros a Hin. split; [done|]. intros [E|[r E]]; discriminate E.
      * eapply Q_insert; [done|by apply Q_mono|]. intros a Hin. split; [done|]. intros [E|[r E]]; discriminate E.
      * eapply L_insert; [done|by apply L_mono|done].
      * by apply C_found.
      * intros j a Hj. rewrite insert_length. apply elem_of_cons in Hj as [Hj|Hj]; [|by eapply HF]. injection Hj as -> ->. by eapply lookup_lt_Some.
    + eapply move_ok; [done|done| |].
      * intros a [E|[r E]]; discriminate E.
      * destruct HJ as (_ & _ & _ & HC & _). destruct (HC _ _ _ _ _ H0) as [_ (-> & Hp1 & Hp2)]. by left.
    + by eapply (push_ok false).
    + by eapply (push_ok false).
    + by eapply (push_ok true).
    + destruct HJ as (HQ1 & HQ2 & HL & HC & HF). pose proof HQ1 as [_ HQ]. destruct (HQ n m) as (k1 & ph1 & x1 & H1 & Hs & _ & Ha); [left|].
      match goal with H : ca !! n = Some ?c |- _ => rewrite H in H1; injection H1 as -> -> -> end.
      destruct (serve_ok fd ca false l sq lg n m k1 ph1 x1 (EvCanConnect now m) e0) as (E1 & E2 & E3 & E4); try done.
      { by destruct k1. }
      split; [done|]. split; [done|]. split; [done|]. split; [done|]. by apply F_insert.
    + destruct HJ as (HQ1 & HQ2 & HL & HC & HF). pose proof HQ2 as [_ HQ]. destruct (HQ n m) as (k1 & ph1 & x1 & H1 & Hs & _ & Ha); [left|].
      match goal with H : ca !! n = Some ?c |- _ => rewrite H in H1; injection H1 as -> -> -> end.
      destruct (serve_ok fd ca true l cq lg n m k1 ph1 x1 (EvGetScore now m) e0) as (E1 & E2 & E3 & E4); try done.
      { by destruct k1. }
      split; [done|]. split; [done|]. split; [done|]. split; [done|]. by apply F_insert.
    + eapply move_ok; [done|done| |].
      * intros a' [E|[r E]]; [right; by eexists|discriminate E].
      * by right; right.
    + eapply move_ok; [done|done| |].
      * intros a' [E|[r E]]; [right; by eexists|discriminate E].
      * by right; left.
    + destruct HJ as (HQ1 & HQ2 & HL & HC & HF). split; [done|]. split; [done|]. split; [by apply L_none|]. split; [by apply C_log|done].
    + destruct HJ as (HQ1 & HQ2 & HL & HC & HF). split; [done|]. split; [done|]. split; [by apply L_none|]. split; [by apply C_log|done].
    + destruct HJ as (HQ1 & HQ2 & HL & HC & HF). split; [done|]. split; [done|]. split; [by apply L_none|]. split; [by apply C_log|done].
    + destruct HJ as (HQ1 & HQ2 & HL & HC & HF). split; [done|]. split; [done|]. split; [by apply L_none|]. split; [by apply C_log|done].
Qed.

(** ** A waiting call whose result channel is empty is in its queue; queues are bounded; panics *)
Definition queue_for (k : ekind) (s : ehs) : list (nat * maddr) := if is_score k then es_scoreq s else es_canq s.
Definition J3 (s : ehs) : Prop :=
  (forall i k a x, es_calls s !! i = Some (ECall k (PWait a) None x) -> (i, a) ∈ queue_for k s) /\
  (length (es_canq s) <= queue_cap)%nat /\ (length (es_scoreq s) <= queue_cap)%nat /\
  (es_loop s <> ENotStarted -> es_provider s = true) /\ (es_provider s = true -> es_panic s = false).
Lemma J3_reach s : es_reach decay o s -> J3 s.
Proof.
  apply es_reach_ind; clear s.
  - split; [intros i k a x H; done|]. split; [cbn; unfold queue_cap; lia|]. split; [cbn; unfold queue_cap; lia|done].
  - intros [pv lp sc cq sq ca rp dc cc pn lg fd] lab s' _ (HW & H1 & H2 & H3 & H4) Hst.
    unfold J3, queue_for in *. es_cbn HW. es_cbn H1. es_cbn H2. es_cbn H3. es_cbn H4.
    es_cases Hst lab; subst;
      try match goal with H : (_ <? _)%nat = true |- _ => apply Nat.ltb_lt in H end;
      (split; [intros i' k' a' x' Hi';
        try (by eapply HW);
        try (apply lookup_app_Some in Hi' as [Hi'|[_ Hi']]; [by eapply HW|]; destruct (i' - length ca)%nat; [|done]; discriminate Hi');
        try (apply list_lookup_insert_Some in Hi' as [(-> & Hi' & _)|(Hne & Hi')]; [|pose proof (HW _ _ _ _ Hi') as HW'])
      |repeat match goal with |- _ /\ _ => split end; rewrite ?app_length; cbn [length] in *; try done; try lia; try (intros; exfalso; congruence)]).
    all: try (intros _; by apply H3).
    all: try done.
    all: try (injection Hi' as ? ? ? ?; subst; try discriminate; by eapply HW).
    all: try (injection Hi' as ? ? ? ?; subst; cbn [is_score]; apply elem_of_app; right; by left).
    all: try (destruct (is_score k'); [exact HW'|]; apply elem_of_app; by left).
    all: try (destruct (is_score k'); [|exact HW']; apply elem_of_app; by left).
    all: try discriminate Hi'.
    + destruct (is_score k'); [exact HW'|]. apply elem_of_cons in HW' as [HW'|HW']; [by injection HW' as -> ->|done].
    + destruct (is_score k'); [|exact HW']. apply elem_of_cons in HW' as [HW'|HW']; [by injection HW' as -> ->|done].
Qed.

(** ** The loop can always go on *)
Definition serve_label (k : ekind) (now : Z) : elabel := if is_score k then XServeScore now else XServeCan now.
Lemma reach_step s lab s' : es_reach decay o s -> es_step decay o s lab = Some s' -> es_reach decay o s'.
Proof. intros [sched Hr] Hst. exists (sched ++ [lab]). rewrite es_run_app, Hr. cbn [es_run]. by rewrite Hst. Qed.
Lemma reach_run s sched s' : es_reach decay o s -> es_run decay o s sched = Some s' -> es_reach decay o s'.
Proof. intros [sched0 Hr] Hst. exists (sched0 ++ sched). by rewrite es_run_app, Hr. Qed.
Lemma no_panic s : es_reach decay o s -> es_loop s <> ENotStarted -> es_panic s = false.
Proof. intros Hr Hl. destruct (J3_reach s Hr) as (_ & _ & _ & H3 & H4). auto. Qed.
Lemma serve_enabled s k0 now i a q : es_reach decay o s -> es_loop s = EServing -> queue_for k0 s = (i, a) :: q ->
  exists out s' k ph x, es_step decay o s (serve_label k0 now) = Some s' /\ es_loop s' = EServing /\ queue_for k0 s' = q /\
    es_cancelled s' = es_cancelled s /\
    es_calls s !! i = Some (ECall k ph None x) /\ es_calls s' = <[i := ECall k ph (Some out) x]> (es_calls s) /\
    (if is_score k0 then es_canq s' = es_canq s else es_scoreq s' = es_scoreq s).
Proof.
  intros Hr Hl Hq. assert (Hp : es_panic s = false) by (apply no_panic; [done|by rewrite Hl]).
  destruct (J2_reach s Hr) as ([_ HQ1] & [_ HQ2] & _). unfold serve_label, queue_for in *.
  destruct (is_score k0).
  - destruct (HQ2 i a) as (k & ph & x & H1 & _); [rewrite Hq; left|].
    destruct (eh_step decay o (es_scores s) (EvGetScore now a)) as [st out] eqn:He.
    unfold es_step. rewrite Hp, Hl, Hq. unfold serve. rewrite H1, He. eexists out, _, k, ph, x. split; [done|]. cbn. by rewrite Hl.
  - destruct (HQ1 i a) as (k & ph & x & H1 & _); [rewrite Hq; left|].
    destruct (eh_step decay o (es_scores s) (EvCanConnect now a)) as [st out] eqn:He.
    unfold es_step. rewrite Hp, Hl, Hq. unfold serve. rewrite H1, He. eexists out, _, k, ph, x. split; [done|]. cbn. by rewrite Hl.
Qed.
Lemma drain now k a x i q1 : forall s q2, es_reach decay o s -> es_loop s = EServing ->
  queue_for k s = q1 ++ (i, a) :: q2 -> es_calls s !! i = Some (ECall k (PWait a) None x) ->
  exists s' r, es_run decay o s (replicate (S (length q1)) (serve_label k now)) = Some s' /\
    es_calls s' !! i = Some (ECall k (PWait a) (Some r) x) /\ es_loop s' = EServing.
Proof.
  induction q1 as [|[j b] q1 IH]; intros s q2 Hr Hl Hq Hi.
  - destruct (serve_enabled s k now i a q2 Hr Hl Hq) as (out & s' & k1 & ph & x1 & Hst & Hl' & Hq' & _ & H1 & Hc & _).
    exists s', out. cbn [length replicate es_run]. rewrite Hst. split; [done|]. split; [|done].
    rewrite Hi in H1. injection H1 as <- <- <-. rewrite Hc. apply list_lookup_insert. by eapply lookup_lt_Some.
  - destruct (serve_enabled s k now j b (q1 ++ (i, a) :: q2) Hr Hl Hq) as (out & s1 & k1 & ph & x1 & Hst & Hl' & Hq' & _ & H1 & Hc & _).
    assert (Hne : j <> i).
    { intros ->. assert (Hn : NoDup (map fst (queue_for k s))).
      { destruct (J2_reach s Hr) as ([HN1 _] & [HN2 _] & _). unfold queue_for. by destruct (is_score k). }
      rewrite Hq in Hn. cbn [map fst app] in Hn. apply NoDup_cons in Hn as [Hn _]. apply Hn. rewrite map_app. cbn [map fst].
      apply elem_of_app. right. left. }
    destruct (IH s1 q2 (reach_step _ _ _ Hr Hst) Hl' Hq') as (s' & r & Hrun & H2 & H3).
    { rewrite Hc. by rewrite list_lookup_insert_ne. }
    exists s', r. cbn [length]. cbn [length] in Hrun. split; [|done]. change (replicate (S (S (length q1))) (serve_label k now)) with (serve_label k now :: replicate (S (length q1)) (serve_label k now)).
    cbn [es_run]. by rewrite Hst.
Qed.
Lemma waiting_answered now s i k a x : es_reach decay o s -> es_loop s = EServing -> es_calls s !! i = Some (ECall k (PWait a) None x) ->
  exists n s' r, (n <= queue_cap)%nat /\ es_run decay o s (replicate n (serve_label k now)) = Some s' /\
    es_calls s' !! i = Some (ECall k (PWait a) (Some r) x) /\ es_loop s' = EServing.
Proof.
  intros Hr Hl Hi. destruct (J3_reach s Hr) as (HW & Hb1 & Hb2 & _). pose proof (HW _ _ _ _ Hi) as Hin.
  apply elem_of_list_split in Hin as (q1 & q2 & Hq). destruct (drain now k a x i q1 s q2 Hr Hl Hq Hi) as (s' & r & H).
  exists (S (length q1)), s', r. split; [|done].
  assert (length (queue_for k s) <= queue_cap)%nat as Hb by (unfold queue_for; by destruct (is_score k)).
  rewrite Hq, app_length in Hb. cbn [length] in Hb. lia.
Qed.
Lemma receive_step s i k a r x : es_reach decay o s -> es_panic s = false -> es_calls s !! i = Some (ECall k (PWait a) (Some r) x) ->
  exists s', es_step decay o s (XReceive i) = Some s' /\ call_returned s' i r.
Proof.
  intros Hr Hp Hi. unfold es_step. rewrite Hp, Hi. eexists. split; [done|]. exists k, (Some r), x. cbn. apply list_lookup_insert. by eapply lookup_lt_Some.
Qed.
Lemma send_possible s i k a b x : es_panic s = false -> es_calls s !! i = Some (ECall k (PSend a) b x) -> (length (queue_for k s) < queue_cap)%nat ->
  exists s', es_step decay o s (XSend i) = Some s' /\ es_calls s' !! i = Some (ECall k (PWait a) b x) /\ es_loop s' = es_loop s.
Proof.
  intros Hp Hi Hlen. assert (Hlt : (length (queue_for k s) <? queue_cap)%nat = true) by by apply Nat.ltb_lt.
  unfold es_step. rewrite Hp, Hi. unfold queue_for in Hlt.
  destruct k; cbn [is_score] in Hlt; rewrite Hlt; eexists; (split; [done|]); (split; [|done]); cbn; apply list_lookup_insert; by eapply lookup_lt_Some.
Qed.

(** ** A call that cannot hand over its request never returns *)
Definition stuck_sending (i : nat) (s : ehs) : Prop :=
  es_loop s = EEnded /\ (exists a b x p, es_calls s !! i = Some (ECall (KCanAddr a) (PSend p) b x)) /\ (queue_cap <= length (es_canq s))%nat.
Lemma stuck_step i s lab s' : stuck_sending i s -> es_step decay o s lab = Some s' -> stuck_sending i s'.
Proof.
  intros (Hl & (a & b & x & p & Hi) & Hlen) Hst.
  destruct s as [pv lp sc cq sq ca rp dc cc pn lg fd]. es_cbn Hl. es_cbn Hi. es_cbn Hlen. subst lp.
  unfold stuck_sending. es_cases Hst lab; subst; try done;
    (split; [done|]); (split; [|try done; try (rewrite app_length; lia)]); try (by exists a, b, x, p);
    try (exists a, b, x, p; by apply lookup_app_l_Some);
    try match goal with H : (_ <? _)%nat = true |- _ => apply Nat.ltb_lt in H; lia end;
    match goal with H : ca !! ?j = Some _ |- context [<[?j := _]> ca] =>
      destruct (decide (j = i)) as [->|Hne];
      [rewrite Hi in H; try discriminate H; injection H as ? ? ? ?; subst; eexists _, _, _, _; apply list_lookup_insert; by eapply lookup_lt_Some
      |exists a, b, x, p; by rewrite list_lookup_insert_ne] end.
Qed.
Lemma stuck_run i sched : forall s s', stuck_sending i s -> es_run decay o s sched = Some s' -> stuck_sending i s'.
Proof.
  induction sched as [|lab sched IH]; intros s s' Hs Hr.
  - by injection Hr as <-.
  - cbn [es_run] in Hr. destruct (es_step decay o s lab) as [s1|] eqn:H1; [|done]. eapply IH; [|done]. by eapply stuck_step.
Qed.
Lemma stuck_never_returns i s r : stuck_sending i s -> ~ call_returned s i r.
Proof. intros (_ & (a & b & x & p & Hi) & _) (k & b' & x' & H). rewrite Hi in H. discriminate H. Qed.

(** ** Answers and reports *)
Lemma log_right_answer s i ev r k : es_reach decay o s -> (Some i, ev, r) ∈ es_log s -> request_of (es_found s) i k ev -> right_answer decay o s i k r.
Proof.
  intros Hr Hin Hreq. pose proof (J1_reach s Hr) as HJ. unfold J1 in HJ.
  assert (Hin' : (Some i, ev, r) ∈ rev (es_log s)) by (apply elem_of_list_In, in_rev; rewrite rev_involutive; by apply elem_of_list_In).
  apply elem_of_list_split in Hin' as (l1 & l2 & Hl).
  assert (Hev : served_events s = map (fun x => x.1.2) l1 ++ ev :: map (fun x => x.1.2) l2).
  { unfold served_events. rewrite Hl, map_app. done. }
  assert (Hans : served_answers s !! length (map (fun x : option nat * eh_event * eh_out => x.1.2) l1) = Some r).
  { unfold served_answers. rewrite Hl, map_app, map_length. rewrite lookup_app_r by (by rewrite map_length).
    rewrite map_length, Nat.sub_diag. done. }
  pose proof (run_answer decay o (map (fun x => x.1.2) l1) ev (map (fun x => x.1.2) l2)) as Hra.
  rewrite <- Hev, HJ in Hra. cbn [snd] in Hra. rewrite Hans in Hra. injection Hra as Hra.
  unfold right_answer.
  destruct k as [a|p|p], ev as [n0 id0 a0 e0|now b|now b]; try done; cbn [request_of event_host answer] in *;
    eexists _, now, b, _; (split; [first [symmetry; exact Hreq|exact Hreq]|]); (split; [exact Hev|]); rewrite Hra; try done;
    unfold gate_answer, score_answer; by destruct (look _ _ _) as [[? ?]|].
Qed.
Lemma reports_accounted sched : forall s, es_run decay o es_init sched = Some s ->
  reports_made sched ≡ₚ reports_served (served_events s) ++ report_in_hand s ++ es_reports s.
Proof.
  induction sched as [|lab sched IH] using rev_ind; intros s Hr.
  - injection Hr as <-. done.
  - rewrite es_run_app in Hr. destruct (es_run decay o es_init sched) as [s1|] eqn:H1; [|done].
    cbn [es_run] in Hr. destruct (es_step decay o s1 lab) as [s2|] eqn:H2; [|done]. injection Hr as <-.
    specialize (IH s1 eq_refl). unfold reports_made, reports_served in *. rewrite omap_app, IH. clear H1 IH. rename H2 into Hst.
    destruct s1 as [pv lp sc cq sq ca rp dc cc pn lg fd]. unfold report_in_hand, served_events in *.
    es_cases Hst lab; subst; cbn [omap list_omap]; rewrite ?app_nil_r; try done.
    all: try (cbn [rev]; rewrite map_app, omap_app; cbn [map omap list_omap fst snd]; rewrite ?app_nil_r; try done).
    all: try (rewrite <- !app_assoc; done).
    all: try (match goal with H : EAddress _ _ = EAddress _ _ |- _ => injection H as <- <-; cbn [app]; by rewrite <- ?app_assoc end).
    all: cbn [app]; apply Permutation_app_head.
    match goal with H : EAddress _ _ = EAddress _ _ |- _ => injection H as <- <- end. by apply delete_Permutation.
Qed.

(** ** Before Start (or without an address provider) nothing is served *)
Lemma not_serving_step s lab s' : es_loop s = ENotStarted -> es_log s = [] -> (lab <> XStart \/ es_provider s = false) ->
  es_step decay o s lab = Some s' -> es_loop s' = ENotStarted /\ es_log s' = [].
Proof.
  intros Hl Hg Hlab Hst. destruct s as [pv lp sc cq sq ca rp dc cc pn lg fd]. es_cbn Hl. es_cbn Hg. es_cbn Hlab. subst.
  es_cases Hst lab; subst; try done. destruct Hlab; done.
Qed.
Lemma provider_step s lab s' : lab <> XSetProvider -> es_step decay o s lab = Some s' -> es_provider s' = es_provider s.
Proof.
  intros Hlab Hst. destruct s as [pv lp sc cq sq ca rp dc cc pn lg fd]. es_cases Hst lab; subst; done.
Qed.
Lemma not_serving sched : forall s, XStart ∉ sched \/ XSetProvider ∉ sched -> es_run decay o es_init sched = Some s ->
  es_loop s = ENotStarted /\ es_log s = [] /\ (XSetProvider ∉ sched -> es_provider s = false).
Proof.
  induction sched as [|lab sched IH] using rev_ind; intros s Hno Hr.
  - by injection Hr as <-.
  - rewrite es_run_app in Hr. destruct (es_run decay o es_init sched) as [s1|] eqn:H1; [|done].
    cbn [es_run] in Hr. destruct (es_step decay o s1 lab) as [s2|] eqn:H2; [|done]. injection Hr as <-.
    rewrite !not_elem_of_app, !elem_of_list_singleton in *.
    destruct (IH s1) as (E1 & E2 & E3); [destruct Hno as [[? _]|[? _]]; auto|done|].
    destruct (not_serving_step s1 lab s2) as [E4 E5]; [done|done| |done|].
    { destruct Hno as [[_ ?]|[? _]]; [left; congruence|right; auto]. }
    split; [done|]. split; [done|]. intros [Ha Hb]. rewrite (provider_step s1 lab s2); [auto|congruence|done].
Qed.
End proofs.
