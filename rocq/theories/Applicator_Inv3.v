(** Invariants about the history of the applicator system. *)
From Verif Require Import GoBase Util TxCache_Model TxCache_Spec TxCache_Proofs Watchdog_Model
  Applicator_Model Applicator_Spec Applicator_Core Applicator_Sys Applicator_Inv Applicator_Inv2.

(** Every event stands in relation [Q] to the events before it (the log is newest first). *)
Fixpoint Hist (Q : event -> list event -> Prop) (log : list event) : Prop :=
  match log with [] => True | e :: r => Q e r /\ Hist Q r end.
Lemma Hist_split Q log l1 e l2 : Hist Q log -> log = l1 ++ e :: l2 -> Q e l2.
Proof. revert log. induction l1 as [|x l1 IH]; intros log H ->; simpl in H; [tauto|]. destruct H as [_ H]. eapply IH; eauto. Qed.
Lemma Hist_app (Q : event -> list event -> Prop) new log : Hist Q log -> (forall l1 e l2, new = l1 ++ e :: l2 -> Q e (l2 ++ log)) -> Hist Q (new ++ log).
Proof.
  intros H. induction new as [|e new IH]; intros Hn; simpl; [done|]. split; [by apply (Hn [] e new)|].
  apply IH. intros l1 x l2 ->. apply (Hn (e :: l1) x l2). done.
Qed.

Lemma do_effs_calls lose effs s c cl' : s_calls (do_effs lose effs s) !! c = Some cl' ->
  exists cl, s_calls s !! c = Some cl /\
    (cl' = cl \/ (cl_buf cl = None /\ exists r, cl' = Call (cl_blk cl) (cl_phase cl) (Some r) /\ Answer c r ∈ effs)).
Proof.
  unfold do_effs. revert s. induction effs as [|e effs IH]; intros s H; simpl in H; [eauto|].
  destruct (IH _ H) as (cl1 & Hc1 & Hor).
  assert (Hone : exists cl, s_calls s !! c = Some cl /\ (cl1 = cl \/ (cl_buf cl = None /\ exists r, cl1 = Call (cl_blk cl) (cl_phase cl) (Some r) /\ e = Answer c r))).
  { destruct e as [ch res|]; simpl in Hc1; [|eauto]. destruct (s_cancelled s && lose ch); [eauto|].
    destruct (s_calls s !! ch) as [cl|] eqn:Hch; [|eauto]. destruct (cl_buf cl) eqn:Hb; [eauto|]. simpl in Hc1.
    destruct (decide (c = ch)) as [->|].
    - rewrite list_lookup_insert in Hc1 by (by eapply lookup_lt_Some). injection Hc1 as <-. exists cl. eauto 10.
    - rewrite list_lookup_insert_ne in Hc1 by done. eauto. }
  destruct Hone as (cl & Hc & Hcl). exists cl. split; [done|].
  destruct Hcl as [->|(Hb & r & -> & ->)], Hor as [->|(Hb1 & r1 & -> & Hin)].
  - by left.
  - right. split; [done|]. exists r1. split; [done|]. by right.
  - right. split; [done|]. exists r. split; [done|]. left.
  - done.
Qed.

(** ** Why answers are what they are *)
Definition seen_lib (lib0 : N) (log : list event) (l : N) : Prop := l = lib0 \/ OLib l ∈ log.
Definition why (log : list event) (i : nat) (k : blk) (r : option goerr) : Prop :=
  OResult i k r ∈ log \/ ODelayTimeout i k r ∈ log \/ (r = irr /\ exists l, OTake i k l ∈ log /\ (k_height k <= l)%N).
Definition reason (lib0 : N) (log : list event) (id : string) (r : option goerr) : Prop :=
  r = Some (ESent ErrMaxHeight) \/ r = Some (ESent ErrMaxPendingBlocks) \/
  (r = irr /\ exists k l, k_id k = id /\ (k_height k <= l)%N /\ seen_lib lib0 log l) \/
  (exists i k, OStatus i k r ∈ log /\ k_id k = id /\ ~ transient r).

Definition Qj (lib0 : N) (e : event) (r : list event) : Prop :=
  match e with
  | OReturn None b res => res = Some (ESent ErrForkBomb)
  | OTake i k l => l = last_lib lib0 r
  | OSubmit i k _ => exists l, OTake i k l ∈ r /\ (l < k_height k)%N
  | OResult i k _ => exists t, OSubmit i k t ∈ r
  | ODelayTimeout i k res => res = None \/ res = Some (ESent CtxCanceled)
  | OStatus i k res => why r i k res
  | _ => True
  end.

Record Just (lib0 : N) (s : sys) : Prop := {
  j_lib : c_lib (s_core s) = last_lib lib0 (s_log s);
  j_phase : forall i k p, s_att s !! i = Some (Attempt k p) ->
    match p with
    | PStatus r => why (s_log s) i k r
    | PChecked l => OTake i k l ∈ s_log s /\ (l < k_height k)%N
    | PRpc => exists t, OSubmit i k t ∈ s_log s
    | _ => True
    end;
  j_buf : forall c cl r, s_calls s !! c = Some cl -> cl_buf cl = Some r -> reason lib0 (s_log s) (k_id (cl_blk cl)) r;
  j_ret : forall c b r, OReturn (Some c) b r ∈ s_log s -> exists cl, s_calls s !! c = Some cl /\ cl_phase cl = CRet r /\ b = k_src (cl_blk cl);
  j_hist : Hist (Qj lib0) (s_log s);
  j_hist2 : forall l1 c b res l2, s_log s = l1 ++ OReturn (Some c) b res :: l2 ->
      (forall b' res', OReturn (Some c) b' res' ∉ l2) /\
      (res = Some (ESent ErrBlockApplicationTimeout) \/ (OAnswer c res ∈ l2 /\ reason lib0 l2 (str (b_id b)) res)) }.

Lemma last_lib_seen lib0 log : seen_lib lib0 log (last_lib lib0 log).
Proof.
  induction log as [|e log IH]; simpl; [by left|].
  destruct e; try (destruct IH as [->|IH]; [by left|right; by right]). right. left.
Qed.
Lemma why_mono log log' i k r : (forall e, e ∈ log -> e ∈ log') -> why log i k r -> why log' i k r.
Proof. intros Hs [?|[?|(? & l & ? & ?)]]; [left|right; left|right; right]; eauto. Qed.
Lemma reason_mono lib0 log log' id r : (forall e, e ∈ log -> e ∈ log') -> reason lib0 log id r -> reason lib0 log' id r.
Proof.
  intros Hs [?|[?|[(? & k & l & ? & ? & [?|?])|(i & k & ? & ? & ?)]]].
  - by left. - right; by left.
  - right; right; left. split; [done|]. exists k, l. split_and!; try done. by left.
  - right; right; left. split; [done|]. exists k, l. split_and!; try done. right. auto.
  - right; right; right. exists i, k. auto.
Qed.

Lemma step_log_grows o s lab s' : Step o s lab s' -> exists new, s_log s' = new ++ s_log s.
Proof.
  intros H. destruct H; try (exists []; reflexivity); try (eexists [_]; reflexivity).
  - destruct (se_log _ _ _ (do_effs_same lose effs (set_core core' (set_new rest s)))) as (nn & -> & _). eauto.
  - destruct (se_log _ _ _ (do_effs_same lose effs (add_log (OStatus i k res) (set_core core' (set_phase i PDone s))))) as (nn & -> & _). simpl.
    exists (nn ++ [OStatus i k res]). by rewrite <- (assoc_L (++)).
  - match goal with |- context [do_effs ?l ?e ?x] => destruct (se_log _ _ _ (do_effs_same l e x)) as (nn & -> & _) end. simpl.
    exists (nn ++ [OLib (c_lib core')]). by rewrite <- (assoc_L (++)).
  - match goal with |- context [do_effs ?l ?e ?x] => destruct (se_log _ _ _ (do_effs_same l e x)) as (nn & -> & _) end. simpl.
    exists (nn ++ [OAccepted b (s_now s)]). by rewrite <- (assoc_L (++)).
Qed.
Lemma log_mono o s lab s' e : Step o s lab s' -> e ∈ s_log s -> e ∈ s_log s'.
Proof. intros (new & ->)%step_log_grows Hin. apply elem_of_app. by right. Qed.

(** A run of answers in front of the log changes nothing but the answers. *)
Definition only_answers (new : list event) : Prop := forall e, e ∈ new -> exists c r, e = OAnswer c r.
Lemma last_lib_answers lib0 new log : only_answers new -> last_lib lib0 (new ++ log) = last_lib lib0 log.
Proof.
  induction new as [|e new IH]; intros Ho; [done|]. destruct (Ho e) as (c & r & ->); [left|]. simpl. apply IH.
  intros x Hx. apply Ho. by right.
Qed.
Lemma Hist_answers (Q : event -> list event -> Prop) new log : (forall c r l, Q (OAnswer c r) l) -> only_answers new -> Hist Q log -> Hist Q (new ++ log).
Proof.
  intros HQ Ho H. apply Hist_app; [done|]. intros l1 e l2 ->. destruct (Ho e) as (c & r & ->); [|done]. apply elem_of_app. right. left.
Qed.
Lemma split_answers (P : event -> list event -> Prop) new log e :
  only_answers new -> answer_call e = None -> (forall l1 l2, log = l1 ++ e :: l2 -> P e l2) ->
  forall l1 l2, new ++ log = l1 ++ e :: l2 -> P e l2.
Proof.
  intros Ho He HP. induction new as [|x new IH]; intros l1 l2 Heq; [eauto|].
  destruct l1 as [|y l1]; simpl in Heq.
  - exfalso. injection Heq as -> _. destruct (Ho e) as (c & r & ->); [left|]. done.
  - injection Heq as -> Heq. eapply IH; [|exact Heq]. intros z Hz. apply Ho. by right.
Qed.

Lemma just_same lib0 s s' new : Just lib0 s -> s_log s' = new ++ s_log s -> s_calls s' = s_calls s ->
  c_lib (s_core s') = last_lib lib0 (s_log s') ->
  (forall i k p, s_att s' !! i = Some (Attempt k p) -> s_att s !! i = Some (Attempt k p) \/
    match p with
    | PStatus r => why (s_log s') i k r
    | PChecked l => OTake i k l ∈ s_log s' /\ (l < k_height k)%N
    | PRpc => exists t, OSubmit i k t ∈ s_log s'
    | _ => True
    end) ->
  (new = [] \/ exists e, new = [e] /\ (match e with OReturn (Some _) _ _ => False | _ => True end) /\ Qj lib0 e (s_log s)) -> Just lib0 s'.
Proof.
  intros HJ Hlog Hcalls Hlib Hph Hnew.
  assert (Hsub : forall e, e ∈ s_log s -> e ∈ s_log s') by (intros e He; rewrite Hlog; apply elem_of_app; by right).
  assert (Hret : forall c b r, OReturn (Some c) b r ∈ s_log s' -> OReturn (Some c) b r ∈ s_log s).
  { intros c b r. rewrite Hlog. intros [Hin|Hin]%elem_of_app; [|done]. destruct Hnew as [->|(e & -> & Hne & _)]; [set_solver|].
    apply elem_of_list_singleton in Hin as <-. done. }
  split.
  - done.
  - intros i k p Hi. destruct (Hph i k p Hi) as [Hold|?]; [|done]. pose proof (j_phase _ _ HJ i k p Hold) as Hj.
    destruct p; try done.
    + destruct Hj. auto. + destruct Hj as [t Ht]. eauto. + by eapply why_mono.
  - rewrite Hcalls. intros c cl r Hc Hb. eapply reason_mono; [exact Hsub|]. by eapply j_buf.
  - rewrite Hcalls. intros c b r Hin. by eapply j_ret, Hret.
  - rewrite Hlog. destruct Hnew as [->|(e & -> & Hne & HQ)]; [apply HJ|]. simpl. split; [done|apply HJ].
  - intros l1 c b res l2 Heq. destruct Hnew as [->|(e & -> & Hne & HQ)]; rewrite Hlog in Heq; simpl in Heq.
    + by eapply (j_hist2 _ _ HJ).
    + destruct l1 as [|x l1]; simpl in Heq; injection Heq as -> Heq; [done|]. by eapply (j_hist2 _ _ HJ).
Qed.

Lemma just_handler lib0 s s1 core' effs lose new0 : Just lib0 s -> s_core s1 = core' -> s_calls s1 = s_calls s ->
  s_log s1 = new0 ++ s_log s ->
  c_lib core' = last_lib lib0 (s_log s1) ->
  (forall i k p, s_att s1 !! i = Some (Attempt k p) -> p = PDone \/ s_att s !! i = Some (Attempt k p)) ->
  (new0 = [] \/ exists e, new0 = [e] /\ answer_call e = None /\ (match e with OReturn (Some _) _ _ => False | _ => True end) /\ Qj lib0 e (s_log s)) ->
  (forall c cl r, s_calls s !! c = Some cl -> Answer c r ∈ effs -> reason lib0 (s_log s1) (k_id (cl_blk cl)) r) ->
  Just lib0 (do_effs lose effs s1).
Proof.
  intros HJ Hcore Hcalls Hlog1 Hlib Hph Hnew0 Hans.
  pose proof (do_effs_same lose effs s1) as HS. destruct (se_log _ _ _ HS) as (new & Hlog & Hn).
  assert (Ho : only_answers new) by (intros e He; destruct (Hn e He) as (? & ? & -> & _); eauto).
  assert (HJ1 : Just lib0 s1).
  { eapply (just_same lib0 s s1 new0); [done|done|done|congruence| |].
    - intros i k p Hi. destruct (Hph i k p Hi) as [->|?]; [by right|by left].
    - destruct Hnew0 as [?|(e & ? & _ & ? & ?)]; [by left|]. right. eauto. }
  assert (Hsub : forall e, e ∈ s_log s1 -> e ∈ s_log (do_effs lose effs s1)) by (intros e He; rewrite Hlog; apply elem_of_app; by right).
  split.
  - rewrite (se_core _ _ _ HS), Hlog, last_lib_answers by done. apply HJ1.
  - rewrite (se_att _ _ _ HS). intros i k p Hi. pose proof (j_phase _ _ HJ1 i k p Hi) as Hj. destruct p; try done.
    + destruct Hj. auto. + destruct Hj as [t Ht]. eauto. + by eapply why_mono.
  - intros c cl' r Hc' Hb'. destruct (do_effs_calls _ _ _ _ _ Hc') as (cl & Hc & [->|(Hb & r0 & -> & Hin)]).
    + eapply reason_mono; [exact Hsub|]. by eapply (j_buf _ _ HJ1).
    + simpl in Hb'. injection Hb' as ->. simpl. eapply reason_mono; [exact Hsub|]. apply (Hans c); [|done]. congruence.
  - intros c b r. rewrite Hlog. intros [Hin|Hin]%elem_of_app; [destruct (Ho _ Hin) as (? & ? & ?); done|].
    destruct (j_ret _ _ HJ1 c b r Hin) as (cl & Hc & Hp & Hb).
    destruct (s_calls (do_effs lose effs s1) !! c) as [cl'|] eqn:Hc'.
    + destruct (se_blk _ _ _ HS c cl' Hc') as (cl0 & ? & ? & ?). exists cl'. split; [done|]. split; congruence.
    + apply lookup_ge_None in Hc'. rewrite (se_len _ _ _ HS) in Hc'. apply lookup_lt_Some in Hc. lia.
  - rewrite Hlog. apply Hist_answers; [done|done|apply HJ1].
  - rewrite Hlog. intros l1 c b res l2 Heq.
    eapply (split_answers (fun e l2 => match e with OReturn (Some c) b res => (forall b' res', OReturn (Some c) b' res' ∉ l2) /\
      (res = Some (ESent ErrBlockApplicationTimeout) \/ (OAnswer c res ∈ l2 /\ reason lib0 l2 (str (b_id b)) res)) | _ => True end) new (s_log s1) (OReturn (Some c) b res));
      [done|done| |exact Heq]. intros l1' l2' Heq'. by eapply (j_hist2 _ _ HJ1).
Qed.

Lemma wd_add_err w b w' e : wd_add w b = Done (w', Some e) -> e = ESent ErrForkBomb.
Proof. unfold wd_add. destruct (b_header b); [|done]. intros H. injection H as _ H. case_bool_decide; congruence. Qed.

(** A call returns: it has not returned before. *)
Lemma just_return lib0 s c k buf r : Acc s -> Just lib0 s -> s_calls s !! c = Some (Call k CWait buf) ->
  (r = Some (ESent ErrBlockApplicationTimeout) \/ buf = Some r) ->
  Just lib0 (add_log (OReturn (Some c) (k_src k) r) (set_calls (<[c := Call k (CRet r) buf]> (s_calls s)) s)).
Proof.
  intros HA HJ Hc Hr.
  assert (Hlk : <[c := Call k (CRet r) buf]> (s_calls s) !! c = Some (Call k (CRet r) buf)) by (apply list_lookup_insert; by eapply lookup_lt_Some).
  assert (Hsub : forall e, e ∈ s_log s -> e ∈ OReturn (Some c) (k_src k) r :: s_log s) by (intros; by right).
  split; simpl.
  - apply HJ.
  - intros i k' p Hi. pose proof (j_phase _ _ HJ i k' p Hi) as Hj. destruct p; try done.
    + destruct Hj. auto. + destruct Hj as [t Ht]. eauto. + by eapply why_mono.
  - intros c' cl r' Hc' Hb. eapply reason_mono; [exact Hsub|]. destruct (decide (c' = c)) as [->|].
    + rewrite Hlk in Hc'. injection Hc' as <-. simpl in *. subst. eapply (j_buf _ _ HJ c _ r' Hc). done.
    + rewrite list_lookup_insert_ne in Hc' by done. by eapply j_buf.
  - intros c' b r' [Heq|Hin]%elem_of_cons.
    + injection Heq as -> -> ->. rewrite Hlk. eauto.
    + destruct (j_ret _ _ HJ c' b r' Hin) as (cl & Hcl & Hp & Hb). destruct (decide (c' = c)) as [->|].
      * rewrite Hc in Hcl. injection Hcl as <-. done.
      * rewrite list_lookup_insert_ne by done. eauto.
  - split; [done|]. apply HJ.
  - intros l1 c' b res l2 Heq. destruct l1 as [|x l1]; simpl in Heq.
    + injection Heq as <- <- <- <-. split.
      * intros b' res' Hin. destruct (j_ret _ _ HJ c b' res' Hin) as (cl & Hcl & Hp & _). rewrite Hc in Hcl. injection Hcl as <-. done.
      * destruct Hr as [Hr | ->]; [by left|right]. split; [apply (a_log s HA); eauto|]. apply (j_buf _ _ HJ c _ r Hc). done.
    + injection Heq as <- Heq. by eapply (j_hist2 _ _ HJ).
Qed.

Lemma alter_split (l : list attempt) i j p k p' : alter (fun a => Attempt (at_blk a) p) i l !! j = Some (Attempt k p') ->
  (j = i /\ p' = p /\ exists p0, l !! i = Some (Attempt k p0)) \/ l !! j = Some (Attempt k p').
Proof.
  intros [(-> & [k0 p0] & Ha & Heq)|(_ & H)]%alter_lookup_phase; [|by right]. simpl in Heq. injection Heq as -> ->. left. eauto.
Qed.

Lemma Just_step o lib0 s lab s' : Libs s -> Acc s -> Just lib0 s -> Step o s lab s' -> Just lib0 s'.
Proof.
  intros HL HA HJ H.
  destruct H; try (eapply (just_same lib0 s _ []); [exact HJ|done|done|apply HJ|by left|by left]).
  - (* call *)
    destruct HJ as [J1 J2 J3 J4 J5 J6]. split; simpl; try done.
    + intros c cl r [Hc|(_ & Hc)]%lookup_app_Some; [by eapply J3|]. apply list_lookup_singleton_Some in Hc as [_ <-]. done.
    + intros c b' r Hin. destruct (J4 c b' r Hin) as (cl & Hcl & ?). exists cl. rewrite lookup_app_l by (by eapply lookup_lt_Some). done.
  - eapply (just_same lib0 s _ [_]); [exact HJ|done|done|apply HJ|by left|]. right. eexists. split; [done|]. split; [done|].
    simpl. f_equal. by eapply wd_add_err.
  - (* send *)
    destruct HJ as [J1 J2 J3 J4 J5 J6]. split; simpl; try done.
    + intros c' cl r Hc' Hb. destruct (decide (c' = c)) as [->|].
      * rewrite list_lookup_insert in Hc' by (by eapply lookup_lt_Some). injection Hc' as <-. simpl in *. by eapply (J3 c _ r H).
      * rewrite list_lookup_insert_ne in Hc' by done. by eapply J3.
    + intros c' b r Hin. destruct (J4 c' b r Hin) as (cl & Hcl & Hp & Hb). destruct (decide (c' = c)) as [->|].
      * rewrite H in Hcl. injection Hcl as <-. done.
      * rewrite list_lookup_insert_ne by done. eauto.
  - eapply just_return; eauto.
  - eapply just_return; eauto.
  - (* new *)
    eapply (just_handler lib0 s (set_core core' (set_new rest s)) core' effs lose []); try done.
    + destruct (handle_lib_new _ _ _ _ _ _ _ H2) as (-> & _). apply HJ.
    + by right.
    + by left.
    + intros c' cl' r Hc' Hin. apply handle_new_cases in H2 as [(e & Href & -> & ->)|[_ Hadd]].
      * apply elem_of_map in Hin as (ch & Heq & ->%elem_of_list_singleton). injection Heq as -> ->.
        rewrite H1 in Hc'. injection Hc' as <-. unfold reason.
        destruct Href as [(-> & _)|[(-> & _)|(-> & Hle & _)]]; [by left|right; by left|]. right; right; left. split; [done|].
        exists (cl_blk cl), (c_lib (s_core s)). split_and!; [done|done|]. simpl. rewrite (j_lib _ _ HJ). apply last_lib_seen.
      * apply add_entry_handled in Hadd as (_ & Ha & _); [|apply HA]. exfalso.
        assert (Hx : c' ∈ answered effs) by (apply elem_answered; eauto). rewrite Ha in Hx. set_solver.
  - (* try_start *)
    eapply (just_same lib0 s _ []); [exact HJ|done|done|apply HJ| |by left]. simpl.
    intros j k' p [Hj|(_ & Hj)]%lookup_app_Some; [by left|]. apply list_lookup_singleton_Some in Hj as [_ Hj]. injection Hj as <- <-. by right.
  - eapply (just_same lib0 s _ []); [exact HJ|done|done|apply HJ| |by left]. simpl.
    intros j k' p [(-> & -> & _)|?]%alter_split; [|by left]. right. unfold start_phase. by case_bool_decide.
  - eapply (just_same lib0 s _ []); [exact HJ|done|done|apply HJ| |by left]. simpl.
    intros j k' p [(-> & -> & _)|?]%alter_split; [|by left]. by right.
  - (* delay timeout *)
    eapply (just_same lib0 s _ [_]); [exact HJ|done|done|apply HJ| |].
    + simpl. intros j k' p [(-> & -> & p0 & Hp0)|?]%alter_split; [|by left]. right. right; left.
      rewrite H in Hp0. injection Hp0 as <- <-. left.
    + right. eexists. split; [done|]. split; [done|]. simpl. subst res. destruct (s_cancelled s); auto.
  - eapply (just_same lib0 s _ []); [exact HJ|done|done|apply HJ| |by left]. simpl.
    intros j k' p' [(-> & -> & _)|?]%alter_split; [|by left]. by right.
  - (* take low *)
    eapply (just_same lib0 s _ [_]); [exact HJ|done|done|apply HJ| |].
    + simpl. intros j k' p [(-> & -> & p0 & Hp0)|?]%alter_split; [|by left]. right. right; right. split; [done|].
      rewrite H in Hp0. injection Hp0 as <- <-. eexists. split; [left|done].
    + right. eexists. split; [done|]. split; [done|]. simpl. apply (j_lib _ _ HJ).
  - (* take *)
    eapply (just_same lib0 s _ [_]); [exact HJ|done|done|apply HJ| |].
    + simpl. intros j k' p [(-> & -> & p0 & Hp0)|?]%alter_split; [|by left]. right.
      rewrite H in Hp0. injection Hp0 as <- <-. split; [left|done].
    + right. eexists. split; [done|]. split; [done|]. simpl. apply (j_lib _ _ HJ).
  - (* submit *)
    eapply (just_same lib0 s _ [_]); [exact HJ|done|done|apply HJ| |].
    + simpl. intros j k' p [(-> & -> & p0 & Hp0)|?]%alter_split; [|by left]. right.
      rewrite H in Hp0. injection Hp0 as <- <-. eexists. left.
    + right. eexists. split; [done|]. split; [done|]. simpl. exists lib. apply (j_phase _ _ HJ i k _ H).
  - (* rpc done *)
    eapply (just_same lib0 s _ [_]); [exact HJ|done|done|apply HJ| |].
    + simpl. intros j k' p [(-> & -> & p0 & Hp0)|?]%alter_split; [|by left]. right.
      rewrite H in Hp0. injection Hp0 as <- <-. left. left.
    + right. eexists. split; [done|]. split; [done|]. simpl. apply (j_phase _ _ HJ i k _ H).
  - (* status *)
    eapply (just_handler lib0 s (add_log (OStatus i k res) (set_core core' (set_phase i PDone s))) core' effs lose [OStatus i k res]); try done.
    + destruct (handle_lib_status _ _ _ _ _ _ _ H1) as (-> & _). apply HJ.
    + simpl. intros j k' p [(-> & -> & _)|?]%alter_split; [by left|by right].
    + right. eexists. split_and!; [done|done|done|]. simpl. apply (j_phase _ _ HJ i k _ H0).
    + intros c' cl' r Hc' Hin. apply handle_status_cases in H1 as [(_ & _ & ->)|[(_ & _ & _ & ->)|(Hbs & Hup & answers & Hs & ->)]].
      * apply elem_of_list_singleton in Hin. done.
      * set_solver.
      * apply elem_of_app in Hin as [Hin|Hin].
        -- exfalso. destruct res; [set_solver|]. apply children_only_spawn in Hin as (? & ? & ? & ?). done.
        -- destruct (sh_effs _ _ _ _ _ Hs _ Hin) as (ch & id & e & Heq & -> & He & Hch). injection Heq as <- <-. simpl in He.
           destruct (a_ids s HA _ e c' He Hch) as (cl0 & Hc0 & Hid). rewrite Hc' in Hc0. injection Hc0 as <-.
           right; right; right. exists i, k. split; [left|]. split; [done|]. intros [?|?]; congruence.
  - (* fork heads, endless loop *)
    eapply (just_same lib0 s _ [_]); [exact HJ|done|done|done|by left|]. right. eexists. split; [done|]. split; done.
  - (* fork heads *)
    assert (Hlt : (lib < two64)%N) by (eapply (lb_fh s HL fh); [by eapply elem_of_list_lookup_2|done]).
    destruct (handle_lib_fork_heads _ _ _ _ _ _ _ H1 H3) as (El & _).
    eapply (just_handler lib0 s _ core' effs lose [OLib (c_lib core')]); try done.
    + simpl. by right.
    + right. eexists. split_and!; done.
    + intros c' cl' r Hc' Hin.
      destruct (handle_fork_heads_cases o (s_now s) fh lib (s_core s) core' effs (a_ok s HA) H1) as (answers & -> & Hs);
        [unfold max_u64 in *; lia|apply HL|done|].
      apply elem_of_app in Hin as [Hin|Hin].
      * exfalso. apply elem_of_list_join in Hin as (l & Hl & Hin). apply elem_of_map in Hin as (id & -> & _).
        apply children_only_spawn in Hl as (? & ? & ? & ?). done.
      * destruct (sh_effs _ _ _ _ _ Hs _ Hin) as (ch & id & e & Heq & (e0 & He0 & Hh) & He & Hch). injection Heq as <- ->. simpl in He.
        assert (e0 = e) as -> by congruence.
        destruct (a_ids s HA _ e c' He Hch) as (cl0 & Hc0 & Hid). rewrite Hc' in Hc0. injection Hc0 as <-.
        right; right; left. split; [done|]. exists (e_blk e), lib. split_and!.
        -- rewrite Hid. apply (ok_id _ (a_ok s HA)). done.
        -- lia.
        -- right. simpl. rewrite El. left.
  - (* broadcast *)
    unfold handle_broadcast in H3. injection H3 as <- <-.
    eapply (just_handler lib0 s _ _ _ _ [OAccepted b (s_now s)]); try done.
    + simpl. apply HJ.
    + simpl. by right.
    + right. eexists. split_and!; done.
    + intros c' cl' r Hc' Hin. exfalso. apply children_only_spawn in Hin as (? & ? & ? & ?). done.
  - eapply (just_same lib0 s _ [_]); [exact HJ|done|done|apply HJ|by left|]. right. eexists. split; [done|]. split; done.
  - eapply (just_same lib0 s _ [_]); [exact HJ|done|done|apply HJ|by left|]. right. eexists. split; [done|]. split; done.
  - eapply (just_same lib0 s _ [_]); [exact HJ|done|done|apply HJ|by left|]. right. eexists. split; [done|]. split; done.
  - eapply (just_same lib0 s _ [_]); [exact HJ|done|done|apply HJ|by left|]. right. eexists. split; [done|]. split; done.
  - eapply (just_same lib0 s _ [_]); [exact HJ|done|done|apply HJ|by left|]. right. eexists. split; [done|]. split; done.
Qed.
