(** Invariants of the gossip switch of the wired node. *)
From Verif Require Import GoBase ErrHandler_Model EhSys_Model ConnMgr_Model ConnMgr_Spec ConnMgr_Proofs Toggle_Model Toggle_Proofs Asm_Model Asm_Spec Asm_Proofs Switch_Model Switch_Spec.

(** ** The manager *)
(** A call made after [c1] that has returned in [c2] was answered in between, unless its context was done. *)
Lemma cm_answered initial existing c1 lc c2 j q a x : cm_reach initial existing c1 -> cm_run c1 lc = Some c2 ->
  length (cm_callers c1) <= j -> cm_callers c2 !! j = Some (Caller q (ClReturned a) x) ->
  (x = true /\ a = no_answer q) \/
  exists h, net_history (rev (cm_log c1)) `prefix_of` h /\ h `prefix_of` net_history (rev (cm_log c2)) /\ right_answer h q a.
Proof.
  intros Hc1 Hrun Hj Hc.
  assert (Hc2 : cm_reach initial existing c2) by (destruct Hc1 as [l1 H1]; exists (l1 ++ lc); by rewrite cm_run_app, H1).
  destruct (Inv3_reach _ _ _ Hc2) as [H3 _]. destruct (H3 _ _ _ _ Hc) as [[-> H]|(l1 & l2 & Hl & Hra)]; [by left|right].
  exists (net_history l1). split; [|split; [|done]].
  - apply net_prefix. eapply (prefix_before _ l1 l2 (GReturn j a)).
    + rewrite <- Hl. apply later_prefix. by eapply later_run.
    + intros Hin. apply elem_of_list_In, in_rev, elem_of_list_In in Hin.
      destruct (Inv8_reach _ _ _ Hc1) as (H8 & _). apply H8 in Hin. lia.
  - apply net_prefix. rewrite Hl. by eexists.
Qed.
(** Without a connection at start-up and with all contexts alive, the manager has answered everyone or can go on. *)
Lemma cm_progress initial c : cm_reach initial [] c -> cm_cancelled c = false -> Forall (fun x => cl_expired x = false) (cm_callers c) ->
  (cm_manager c = MServing /\ cm_blocked c = [] /\ Forall (fun x => exists a, cl_state_of x = ClReturned a) (cm_callers c)) \/
  exists l c', internal (ACm l) = true /\ cm_step c l = Some c'.
Proof.
  intros Hcr Hcan Hx.
  pose proof (Inv0_reach _ _ _ Hcr) as H0. pose proof (Inv7_reach _ _ _ Hcr) as H7. pose proof (Inv8_reach _ _ _ Hcr) as (_ & H8 & H8s & H8e).
  assert (Hcm : forall l c', cm_step c l = Some c' -> internal (ACm l) = true -> exists l c', internal (ACm l) = true /\ cm_step c l = Some c').
  { intros l c' Hc Hl. by exists l, c'. }
  assert (Hunx : forall j q st x, cm_callers c !! j = Some (Caller q st x) -> x = false).
  { intros j q st x Hj. exact (Forall_lookup_1 _ _ _ _ Hx Hj). }
  unfold Inv0 in H0. destruct (cm_starter c) as [st0|] eqn:Hst0.
  { right. destruct H0 as (-> & _). eapply (Hcm LStarted); [cbn [cm_step]; by rewrite Hst0|done]. }
  unfold Inv7 in H7. destruct (cm_manager c) as [| |w q a|] eqn:Hm; [by destruct H0 as (_ & H0 & _)| | |by rewrite H8e in Hcan].
  2:{ right. cbn [can_answer] in H7. destruct w as [j|].
      - destruct H7 as (st & x & Hj & Hw). pose proof (Hunx _ _ _ _ Hj) as ->. destruct Hw as [->|Hw]; [|done].
        eapply (Hcm LReply); [cbn [cm_step]; by rewrite Hm, Hj|done].
      - destruct H7 as [[b ->] [(p & todo & Hw)|Hw]]; [|congruence]. eapply (Hcm LReply); [cbn [cm_step]; by rewrite Hm, Hw|done]. }
  destruct (cm_blocked c) as [|ev bl] eqn:Hbl.
  2:{ right. eapply (Hcm (LTakeEvent 0)); [cbn [cm_step]; by rewrite Hm, Hbl|done]. }
  destruct (all_or (fun c => exists a, cl_state_of c = ClReturned a) (cm_callers c)) as [Hret|(j & [q st x] & Hj & Hn)].
  { intros [q [| |a] x]; [right|right|left; by eexists]; intros [a H]; discriminate H. }
  { by left. }
  right. pose proof (Hunx _ _ _ _ Hj) as ->. destruct st as [| |a]; [|destruct (H8 _ _ Hj Hcan) as [a Ha]; discriminate Ha|destruct Hn; by eexists].
  eapply (Hcm (LTakeQuery j)); [cbn [cm_step]; by rewrite Hm, Hj|done].
Qed.
(** Once the loop has ended, a caller still sending its message goes on doing so. *)
Lemma ended_step c l c' j q : cm_step c l = Some c' -> cm_manager c = MEnded -> cm_starter c = None -> (exists x, cm_callers c !! j = Some (Caller q ClSending x)) ->
  cm_manager c' = MEnded /\ cm_starter c' = None /\ exists x, cm_callers c' !! j = Some (Caller q ClSending x).
Proof.
  intros Hst Hm Hs [x Hj]. destruct c as [sd st m pe nx bl ca se cc lg]. cbn [cm_manager cm_starter cm_callers] in *.
  cm_cases Hst l; simplify_eq; try done; (split; [done|split; [done|]]); try (by exists x).
  all: try (exists x; by apply lookup_app_l_Some).
  all: match goal with |- exists _, <[?n := _]> _ !! _ = _ => destruct (decide (n = j)) as [->|Hne]; [|exists x; by rewrite list_lookup_insert_ne by done] end.
  all: simplify_eq.
  all: eexists; apply list_lookup_insert; by eapply lookup_lt_Some.
Qed.
Lemma ended_run lc c c' j q : cm_run c lc = Some c' -> cm_manager c = MEnded -> cm_starter c = None -> (exists x, cm_callers c !! j = Some (Caller q ClSending x)) ->
  cm_manager c' = MEnded /\ cm_starter c' = None /\ exists x, cm_callers c' !! j = Some (Caller q ClSending x).
Proof.
  revert c. induction lc as [|l lc IH]; intros c Hr Hm Hs Hj; cbn [cm_run] in Hr; [by injection Hr as <-|].
  destruct (cm_step c l) as [c1|] eqn:H1; [|done]. destruct (ended_step _ _ _ _ _ H1 Hm Hs Hj) as (G1 & G2 & G3). by eapply IH.
Qed.

(** ** Runs *)
Section runs.
Context (o : tg_opts).
Notation sw_step := (Switch_Model.sw_step o).
Notation sw_run := (Switch_Model.sw_run o).
Lemma sw_run_app s l1 l2 : sw_run s (l1 ++ l2) = match sw_run s l1 with Some s' => sw_run s' l2 | None => None end.
Proof. revert s. induction l1 as [|a l1 IH]; intros s; [done|]. cbn [Switch_Model.sw_run app]. destruct (sw_step s a); [apply IH|done]. Qed.
Lemma sw_reach_ind initial existing (P : sw -> Prop) :
  P (sw_init initial existing) -> (forall s lab s', sw_reach o initial existing s -> P s -> sw_step s lab = Some s' -> P s') ->
  forall s, sw_reach o initial existing s -> P s.
Proof.
  intros H0 Hs s [sched Hr]. revert s Hr. induction sched as [|lab sched IH] using rev_ind; intros s Hr.
  - cbn in Hr. by injection Hr as <-.
  - rewrite sw_run_app in Hr. destruct (sw_run (sw_init initial existing) sched) as [s1|] eqn:H1; [|done].
    cbn [Switch_Model.sw_run] in Hr. destruct (sw_step s1 lab) as [s2|] eqn:H2; [|done]. injection Hr as <-.
    eapply Hs; [by exists sched|by apply IH|exact H2].
Qed.
Lemma sw_reach_step initial existing s lab s' : sw_reach o initial existing s -> sw_step s lab = Some s' -> sw_reach o initial existing s'.
Proof. intros [sched Hr] Hst. exists (sched ++ [lab]). rewrite sw_run_app, Hr. cbn [Switch_Model.sw_run]. by rewrite Hst. Qed.
Lemma sw_reach_run initial existing s sched s' : sw_reach o initial existing s -> sw_run s sched = Some s' -> sw_reach o initial existing s'.
Proof. intros [sched0 Hr] Hst. exists (sched0 ++ sched). by rewrite sw_run_app, Hr. Qed.
(** Induction along a run *)
Lemma sw_run_ind (P : sw -> Prop) (A : slabel -> Prop) :
  (forall s lab s', A lab -> P s -> sw_step s lab = Some s' -> P s') -> forall sched s s', Forall A sched -> P s -> sw_run s sched = Some s' -> P s'.
Proof.
  intros Hs. induction sched as [|lab sched IH]; intros s s' HA HP Hr; cbn [Switch_Model.sw_run] in Hr; [by injection Hr as <-|].
  apply Forall_cons in HA as [HA1 HA]. destruct (sw_step s lab) as [s1|] eqn:H1; [|done]. eapply IH; [exact HA| |exact Hr]. by eapply Hs.
Qed.
End runs.
Lemma notin_Forall {A} (x : A) l : x ∉ l -> Forall (fun y => y <> x) l.
Proof. intros H. apply Forall_forall. intros y Hy ->. done. Qed.

(** Cases of a step *)
Ltac sw_proj := cbn [sw_cm sw_tog sw_enabled sw_head sw_sessions sw_blocks sw_txs sw_cancel sw_close sw_status sw_published sw_panic] in *.
Ltac sw_unf H := unfold with_cm, with_tog, with_enabled, with_sessions, with_cancel, with_topic, with_close, announce, crash, op_step in H.
Lemma step_ok o s lab s' : sw_step o s lab = Some s' -> sw_panic s = false.
Proof. unfold sw_step. by destruct (sw_panic s). Qed.
(** One step of EnableGossip *)
Lemma op_keeps x ok s s' r : op_step x ok s = (s', r) ->
  sw_cm s' = sw_cm s /\ sw_tog s' = sw_tog s /\ sw_enabled s' = sw_enabled s /\ sw_head s' = sw_head s /\ sw_close s' = sw_close s /\ sw_published s' = sw_published s.
Proof. intros H. destruct x; cbn [op_step] in H; try destruct (sw_cancel s); by injection H as <- <-. Qed.

Lemma cm_side o s lab s' : sw_step o s lab = Some s' ->
  exists lc, cm_run (sw_cm s) lc = Some (sw_cm s') /\ (lab <> WStop -> cm_cancelled (sw_cm s') = cm_cancelled (sw_cm s)) /\
    (lab = WStop -> cm_cancelled (sw_cm s') = true).
Proof.
  intros Hst. pose proof (step_ok _ _ _ _ Hst) as Hp. unfold sw_step in Hst. rewrite Hp in Hst.
  assert (H1 : forall c l c', cm_step c l = Some c' -> cm_run c [l] = Some c') by (intros c l c' H; cbn [cm_run]; by rewrite H).
  assert (Hcc : forall c l c', cm_step c l = Some c' -> l <> LCancel -> cm_cancelled c' = cm_cancelled c).
  { clear. intros c l c' Hst Hl. destruct c as [sd st m pe nx bl ca se cc lg]. cm_cases Hst l; subst; done. }
  assert (H0 : forall c : cm, exists lc, cm_run c lc = Some c /\ (lab <> WStop -> cm_cancelled c = cm_cancelled c) /\ (lab = WStop -> lab = WStop)).
  { intros c. by exists []. }
  destruct lab as [l| | | | |now|ok| |t|i t ok|i t|t| |ok| |].
  - assert (H : exists c, cm_step (sw_cm s) l = Some c /\ s' = with_cm c s /\ l <> LCancel).
    { destruct l; try (destruct (decide _) in Hst); try discriminate Hst; apply bind_Some in Hst as (c & Hc & Hs); injection Hs as <-; by exists c. }
    destruct H as (c & Hc & -> & Hl). exists [l]. split; [by apply H1|]. split; [|done]. intros _. by eapply Hcc.
  - destruct (sw_tog s); try discriminate Hst. injection Hst as <-. exists []. by repeat case_match.
  - destruct (sw_tog s); try discriminate Hst. cbn [mbind option_bind] in Hst. apply bind_Some in Hst as (c & Hc & Hst). apply bind_Some in Hst as (c' & Hc' & Hs). injection Hs as <-.
    unfold sw_stopped in Hc'. destruct (cm_cancelled (sw_cm s)) eqn:Hcan.
    + exists [LCall QNum; LExpire (length (cm_callers (sw_cm s)))]. cbn [cm_run]. rewrite Hc, Hc'. split; [done|]. split; [|done]. intros _. cbn.
      rewrite (Hcc _ _ _ Hc' ltac:(done)). rewrite (Hcc _ _ _ Hc ltac:(done)). done.
    + injection Hc' as <-. exists [LCall QNum]. split; [by apply H1|]. split; [|done]. intros _. cbn. by rewrite (Hcc _ _ _ Hc ltac:(done)).
  - destruct (sw_tog s), (sw_stopped s); try discriminate Hst. injection Hst as <-. by exists [].
  - destruct (sw_tog s) as [| |j| | | |]; try discriminate Hst. destruct (cm_callers (sw_cm s) !! j) as [[q [| |[| |]] x]|]; try discriminate Hst. injection Hst as <-. by exists [].
  - destruct (sw_tog s); try discriminate Hst. injection Hst as <-. by exists [].
  - destruct (sw_tog s) as [| | | |b x| |]; try discriminate Hst. destruct (op_step x ok s) as [s1 r] eqn:Ho. injection Hst as <-.
    destruct (op_keeps _ _ _ _ _ Ho) as (G & _). exists []. cbn. rewrite G. by destruct r.
  - destruct (sw_tog s); try discriminate Hst. injection Hst as <-. by exists [].
  - injection Hst as <-. by exists [].
  - apply bind_Some in Hst as (g & Hg & Hst). destruct (starter_of t g); try discriminate Hst. injection Hst as <-. exists []. by case_match.
  - apply bind_Some in Hst as (g & Hg & Hst). destruct (starter_of t g), (gs_cancelled g); try discriminate Hst. injection Hst as <-. by exists [].
  - injection Hst as <-. by exists [].
  - destruct (sw_close s); try discriminate Hst. injection Hst as <-. by exists [].
  - destruct (sw_close s) as [|x| |]; try discriminate Hst. destruct (op_step x ok s) as [s1 r] eqn:Ho. injection Hst as <-.
    destruct (op_keeps _ _ _ _ _ Ho) as (G & _). exists []. cbn. rewrite G. by destruct r.
  - destruct (sw_close s); try discriminate Hst. injection Hst as <-. by exists [].
  - cbn [mbind option_bind cm_step] in Hst. apply bind_Some in Hst as (c' & Hc' & Hs). injection Hs as <-. cbn.
    match type of Hc' with match _ with _ => _ end = _ => idtac | _ => idtac end.
    set (c := Cm _ _ _ _ _ _ _ _ true _) in Hc'. assert (Hc : cm_step (sw_cm s) LCancel = Some c) by done.
    assert (H : c' = c \/ exists j, cm_step c (LExpire j) = Some c').
    { destruct (sw_tog s) as [| |j| | | |]; try (left; by injection Hc' as <-). right. by exists j. }
    destruct H as [->|[j Hj]].
    + exists [LCancel]. split; [by apply H1|]. done.
    + exists [LCancel; LExpire j]. cbn [cm_run]. rewrite Hc, Hj. split; [done|]. split; [done|]. intros _. by rewrite (Hcc _ _ _ Hj ltac:(done)).
Qed.
(** What a step does to everything but the manager *)
Definition step_to o (s : sw) (lab : slabel) (s' : sw) : Prop :=
  match lab with
  | WCm l => s' = with_cm (sw_cm s') s /\ cm_step (sw_cm s) l = Some (sw_cm s') /\ l <> LCancel /\ forall j, sw_tog s = TAsking j -> l <> LExpire j
  | WStart => sw_tog s = TNew /\ s' = (if tg_always_enable o then with_tog (TCalling true OStart) s
                    else if tg_always_disable o then with_tog TEnded (with_enabled false s) else with_tog TIdle s)
  | WTick => sw_tog s = TIdle /\ s' = with_tog (TAsking (length (cm_callers (sw_cm s)))) (with_cm (sw_cm s') s) /\
      cm_callers (sw_cm s') = cm_callers (sw_cm s) ++ [Caller QNum ClSending (sw_stopped s)]
  | WEnd => sw_tog s = TIdle /\ sw_stopped s = true /\ s' = with_tog TEnded s
  | WCount => exists j n q x, sw_tog s = TAsking j /\ cm_callers (sw_cm s) !! j = Some (Caller q (ClReturned (ANum n)) x) /\ s' = with_tog (TCounted n) s
  | WDecide now => exists n, sw_tog s = TCounted n /\
      s' = with_tog (if eqb (decide_on n (sw_head s) now) (sw_enabled s) then TIdle else TCalling (decide_on n (sw_head s) now) (op_begin (decide_on n (sw_head s) now))) s
  | WOp ok => exists b x s1 r, sw_tog s = TCalling b x /\ op_step x ok s = (s1, r) /\ s' = with_tog (match r with Some x => TCalling b x | None => TStoring b end) s1
  | WStore => exists b, sw_tog s = TStoring b /\ s' = with_tog (if tg_always_enable o then TEnded else TIdle) (with_enabled b s)
  | WHead t => s' = Sw (sw_cm s) (sw_tog s) (sw_enabled s) t (sw_sessions s) (sw_blocks s) (sw_txs s) (sw_cancel s) (sw_close s) (sw_status s) (sw_published s) false
  | WStarter i t ok => exists g s1, sw_sessions s !! i = Some g /\ starter_of t g = GNotRun /\ s1 = with_sessions (<[i := move_starter t GLoop g]> (sw_sessions s)) s /\
      s' = if ok && negb (topic_on t s) then with_topic t true s1 else s1
  | WStarterExit i t => exists g, sw_sessions s !! i = Some g /\ starter_of t g = GLoop /\ s' = with_sessions (<[i := move_starter t GExited g]> (sw_sessions s)) s
  | WPublish t => s' = Sw (sw_cm s) (sw_tog s) (sw_enabled s) (sw_head s) (sw_sessions s) (sw_blocks s) (sw_txs s) (sw_cancel s) (sw_close s) (sw_status s)
             (if topic_on t s then S (sw_published s) else sw_published s) false
  | WClose => sw_close s = CNotCalled /\ s' = with_close (CCalling OStopBlocks) s
  | WCloseOp ok => exists x s1 r, sw_close s = CCalling x /\ op_step x ok s = (s1, r) /\ s' = with_close (match r with Some x => CCalling x | None => CHost end) s1
  | WHostClosed => sw_close s = CHost /\ s' = with_close CClosed s
  | WStop => s' = with_sessions (map end_session (sw_sessions s)) (with_cm (sw_cm s') s) /\
      cm_callers (sw_cm s') = match sw_tog s with
        | TAsking j => alter (fun c => Caller (cl_query c) (cl_state_of c) true) j (cm_callers (sw_cm s)) | _ => cm_callers (sw_cm s) end
  end.
Lemma sw_inv o s lab s' : sw_step o s lab = Some s' -> sw_panic s = false /\ step_to o s lab s'.
Proof.
  intros Hst. pose proof (step_ok _ _ _ _ Hst) as Hp. split; [done|]. unfold sw_step in Hst. rewrite Hp in Hst.
  destruct lab as [l| | | | |now|ok| |t|i t ok|i t|t| |ok| |]; cbn [step_to].
  - assert (H : exists c, cm_step (sw_cm s) l = Some c /\ s' = with_cm c s /\ l <> LCancel /\ forall j, sw_tog s = TAsking j -> l <> LExpire j).
    { destruct l; try (destruct (decide _) as [?|Hd] in Hst); try discriminate Hst; apply bind_Some in Hst as (c & Hc & Hs); injection Hs as <-; exists c; repeat split; try done.
      intros j Hj [= ->]. by apply Hd. }
    destruct H as (c & Hc & -> & Hl & Hl'). done.
  - destruct (sw_tog s); try discriminate Hst. by injection Hst as <-.
  - destruct (sw_tog s); try discriminate Hst. apply bind_Some in Hst as (c & Hc & Hst). apply bind_Some in Hst as (c' & Hc' & Hs). injection Hs as <-.
    split; [done|]. split; [done|]. cbn. injection Hc as <-. destruct (sw_stopped s).
    + cbn in Hc'. rewrite lookup_app_r, Nat.sub_diag in Hc' by done. cbn in Hc'. injection Hc' as <-. cbn.
      rewrite insert_app_r_alt, Nat.sub_diag by done. done.
    + by injection Hc' as <-.
  - destruct (sw_tog s), (sw_stopped s); try discriminate Hst. by injection Hst as <-.
  - destruct (sw_tog s) as [| |j| | | |]; try discriminate Hst. destruct (cm_callers (sw_cm s) !! j) as [[q [| |[|n|]] x]|] eqn:Hj; try discriminate Hst. injection Hst as <-. by exists j, n, q, x.
  - destruct (sw_tog s) as [| | |n| | |]; try discriminate Hst. injection Hst as <-. by exists n.
  - destruct (sw_tog s) as [| | | |b x| |]; try discriminate Hst. destruct (op_step x ok s) as [s1 r] eqn:Ho. injection Hst as <-. by exists b, x, s1, r.
  - destruct (sw_tog s) as [| | | | |b|]; try discriminate Hst. injection Hst as <-. by exists b.
  - by injection Hst as <-.
  - apply bind_Some in Hst as (g & Hg & Hst). destruct (starter_of t g) eqn:Ht; try discriminate Hst. injection Hst as <-. eexists g, _. split; [done|]. split; [done|]. split; [done|]. by destruct t.
  - apply bind_Some in Hst as (g & Hg & Hst). destruct (starter_of t g) eqn:Ht, (gs_cancelled g); try discriminate Hst. injection Hst as <-. by exists g.
  - by injection Hst as <-.
  - destruct (sw_close s); try discriminate Hst. by injection Hst as <-.
  - destruct (sw_close s) as [|x| |]; try discriminate Hst. destruct (op_step x ok s) as [s1 r] eqn:Ho. injection Hst as <-. by exists x, s1, r.
  - destruct (sw_close s); try discriminate Hst. by injection Hst as <-.
  - cbn [mbind option_bind cm_step] in Hst. apply bind_Some in Hst as (c' & Hc' & Hs). injection Hs as <-. split; [done|]. cbn.
    destruct (sw_tog s) as [| |j| | | |]; try (by injection Hc' as <-). cbn in Hc'. destruct (cm_callers (sw_cm s) !! j) as [[q st x]|] eqn:Hj; [|done]. injection Hc' as <-. cbn.
    apply list_eq. intros i. destruct (decide (j = i)) as [->|Hne].
    + rewrite list_lookup_insert by by eapply lookup_lt_Some. by rewrite list_lookup_alter, Hj.
    + by rewrite list_lookup_insert_ne, list_lookup_alter_ne by done.
Qed.
Ltac sw_destruct Hst lab :=
  let H := fresh "Hto" in
  apply sw_inv in Hst as [?Hp H];
  destruct lab as [l| | | | |now|ok| |t|i t ok|i t|t| |ok| |]; cbn [step_to] in H;
  [ destruct H as (?Hs & ?Hc & ?Hl & ?Hle)
  | destruct H as (?Ht & ?Hs)
  | destruct H as (?Ht & ?Hs & ?Hca)
  | destruct H as (?Ht & ?Hx & ?Hs)
  | destruct H as (?j & ?n & ?q & ?x & ?Ht & ?Hj & ?Hs)
  | destruct H as (?n & ?Ht & ?Hs)
  | destruct H as (?b & ?x & ?s1 & ?r & ?Ht & ?Ho & ?Hs)
  | destruct H as (?b & ?Ht & ?Hs)
  | rename H into Hs
  | destruct H as (?g & ?s1 & ?Hg & ?Ht & ?Hs1 & ?Hs)
  | destruct H as (?g & ?Hg & ?Ht & ?Hs)
  | rename H into Hs
  | destruct H as (?Hcl & ?Hs)
  | destruct H as (?x & ?s1 & ?r & ?Hcl & ?Ho & ?Hs)
  | destruct H as (?Hcl & ?Hs)
  | destruct H as (?Hs & ?Hca) ].

Lemma op_head x ok s s' r : op_step x ok s = (s', r) -> sw_head s' = sw_head s.
Proof. destruct x; cbn; intros [= <- <-] || (case_match; intros [= <- <-]); try done. Qed.
Lemma head_step o s lab s' : sw_step o s lab = Some s' -> sw_head s' = last_told (sw_head s) lab.
Proof.
  intros Hst. sw_destruct Hst lab; cbn [last_told]; rewrite Hs; try done.
  - by destruct (tg_always_enable o), (tg_always_disable o).
  - cbn. by eapply op_head.
  - rewrite Hs1. by destruct (_ && _), t.
  - cbn. by eapply op_head.
Qed.
Lemma head_run o s sched s' : sw_run o s sched = Some s' -> sw_head s' = fold_left last_told sched (sw_head s).
Proof.
  revert s. induction sched as [|lab sched IH]; intros s H; cbn in *; [by injection H as <-|].
  destruct (sw_step o s lab) as [s1|] eqn:H1; [|done]. by rewrite (IH _ H), (head_step _ _ _ _ H1).
Qed.

Section invariants.
Context (o : tg_opts).
Notation sw_step := (Switch_Model.sw_step o).
Notation sw_run := (Switch_Model.sw_run o).
Notation sw_reach := (Switch_Spec.sw_reach o).
Lemma cm_reach_of initial existing s : sw_reach initial existing s -> cm_reach initial existing (sw_cm s).
Proof.
  revert s. apply sw_reach_ind; [by exists []|]. intros s lab s' _ [lc Hc] Hst. destruct (cm_side _ _ _ _ Hst) as (lc' & Hc' & _).
  exists (lc ++ lc'). by rewrite cm_run_app, Hc.
Qed.
Lemma cm_run_of s sched s' : sw_run s sched = Some s' -> exists lc, cm_run (sw_cm s) lc = Some (sw_cm s').
Proof.
  revert s. induction sched as [|lab sched IH]; intros s Hr; cbn [Switch_Model.sw_run] in Hr; [injection Hr as <-; by exists []|].
  destruct (sw_step s lab) as [s1|] eqn:H1; [|done]. destruct (IH s1 Hr) as [l2 H2]. destruct (cm_side _ _ _ _ H1) as (l1 & Hl1 & _).
  exists (l1 ++ l2). by rewrite cm_run_app, Hl1.
Qed.
Lemma seen_grows s sched s' : sw_run s sched = Some s' -> seen s `prefix_of` seen s'.
Proof. intros H. destruct (cm_run_of _ _ _ H) as [lc Hc]. apply net_prefix, later_prefix. by eapply later_run. Qed.
Lemma stopped_step s lab s' : sw_step s lab = Some s' -> sw_stopped s = true -> sw_stopped s' = true.
Proof.
  intros Hst Hs. destruct (cm_side _ _ _ _ Hst) as (lc & _ & H1 & H2). unfold sw_stopped in *.
  destruct lab; try (rewrite H1; done). by apply H2.
Qed.
(** The toggle's own question *)
Definition asking_ok (s : sw) : Prop := forall j, sw_tog s = TAsking j -> exists st x, cm_callers (sw_cm s) !! j = Some (Caller QNum st x) /\ (x = true -> sw_stopped s = true).
Lemma keeps_caller c l c' j q st x : cm_step c l = Some c' -> l <> LExpire j -> cm_callers c !! j = Some (Caller q st x) -> exists st', cm_callers c' !! j = Some (Caller q st' x).
Proof. intros Hc Hl Hj. destruct (cm_keeps_step _ _ _ _ Hc Hl _ _ _ Hj) as (st' & H & _). by exists st'. Qed.
Lemma asking_ok_step s lab s' : sw_step s lab = Some s' -> asking_ok s -> asking_ok s'.
Proof.
  intros Hst HA. pose proof (cm_side _ _ _ _ Hst) as (lc & _ & Hcc & Hcc'). intros j1 Hj1.
  assert (Hsame : sw_tog s = TAsking j1 -> sw_cm s' = sw_cm s -> exists st x, cm_callers (sw_cm s') !! j1 = Some (Caller QNum st x) /\ (x = true -> sw_stopped s' = true)).
  { intros H1 H2. unfold sw_stopped. rewrite H2. by apply HA. }
  sw_destruct Hst lab; subst.
  - rewrite Hs in Hj1. cbn in Hj1. destruct (HA _ Hj1) as (st & x & Hx & Hx'). destruct (keeps_caller _ _ _ _ _ _ _ Hc (Hle _ Hj1) Hx) as [st' H'].
    exists st', x. split; [done|]. intros ->. unfold sw_stopped. rewrite Hcc by done. by apply Hx'.
  - repeat case_match; cbn in Hj1; discriminate Hj1.
  - rewrite Hs in Hj1. cbn in Hj1. injection Hj1 as <-. exists ClSending, (sw_stopped s). rewrite Hca. split; [by apply list_lookup_middle|].
    intros H. unfold sw_stopped in *. by rewrite Hcc.
  - discriminate Hj1.
  - discriminate Hj1.
  - cbn in Hj1. case_match; discriminate Hj1.
  - cbn in Hj1. destruct r; discriminate Hj1.
  - cbn in Hj1. case_match; discriminate Hj1.
  - by apply Hsame.
  - apply Hsame; [|by case_match]. by case_match.
  - by apply Hsame.
  - by apply Hsame.
  - by apply Hsame.
  - destruct (op_keeps _ _ _ _ _ Ho) as (G1 & G2 & _). apply Hsame; [by cbn in Hj1; rewrite <- G2|done].
  - by apply Hsame.
  - rewrite Hs in Hj1. cbn in Hj1. rewrite Hj1 in Hca. destruct (HA _ Hj1) as (st & x & Hx & Hx'). exists st, true. rewrite Hca, list_lookup_alter, Hx. cbn. split; [done|].
    intros _. by apply Hcc'.
Qed.
Lemma asking_ok_reach initial existing s : sw_reach initial existing s -> asking_ok s.
Proof. revert s. apply sw_reach_ind; [done|]. intros s lab s' _ H Hst. by eapply asking_ok_step. Qed.

(** From the tick in [s1] on *)
Definition tick_inv (s1 : sw) (s : sw) : Prop :=
  match sw_tog s with
  | TNew => False
  | TAsking j => j = length (cm_callers (sw_cm s1))
  | TCounted n => sw_stopped s = true \/ exists h, meanwhile s1 s h /\ right_answer h QNum (ANum n)
  | _ => True
  end.
Lemma tick_inv_step initial existing s1 s lab s' : sw_reach initial existing s1 -> sw_reach initial existing s -> (exists lc, cm_run (sw_cm s1) lc = Some (sw_cm s)) ->
  sw_step s lab = Some s' -> lab <> WTick -> tick_inv s1 s -> tick_inv s1 s'.
Proof.
  intros Hr1 Hr Hlc Hst Hl HI. pose proof (stopped_step _ _ _ Hst) as Hstop.
  assert (Hgrow : seen s `prefix_of` seen s') by (eapply (seen_grows s [lab]); cbn; by rewrite Hst).
  assert (Hsame : sw_tog s' = sw_tog s -> tick_inv s1 s').
  { intros Heq. unfold tick_inv in *. rewrite Heq. destruct (sw_tog s) as [| |j|n|b x|b|]; try done.
    destruct HI as [HI|(h & [H1 H2] & H3)]; [left; auto|right]. exists h. split; [|done]. split; [done|]. by etrans. }
  sw_destruct Hst lab; subst; try done.
  - apply Hsame. by rewrite Hs.
  - unfold tick_inv in HI. by rewrite Ht in HI.
  - unfold tick_inv in *. cbn [sw_tog with_tog]. rewrite Ht in HI. destruct (asking_ok_reach _ _ _ Hr _ Ht) as (st & x1 & Hx & Hx'). rewrite Hj in Hx. injection Hx as -> <- <-. subst j.
    destruct Hlc as [lc Hlc]. destruct (cm_answered initial existing _ _ _ _ _ _ _ (cm_reach_of _ _ _ Hr1) Hlc ltac:(done) Hj) as [[-> _]|(h & G1 & G2 & G3)].
    + left. by apply Hx'.
    + right. exists h. by repeat split.
  - unfold tick_inv. cbn. case_match; simplify_eq; done.
  - unfold tick_inv. cbn. by destruct r.
  - unfold tick_inv. cbn. by destruct (tg_always_enable o).
  - apply Hsame. by destruct (ok && negb (topic_on t s)).
  - apply Hsame. destruct (op_keeps _ _ _ _ _ Ho) as (_ & G2 & _). by cbn.
  - apply Hsame. by rewrite Hs.
Qed.
Lemma tick_inv_run initial existing s1 sched : forall s s', sw_reach initial existing s1 -> sw_reach initial existing s -> (exists lc, cm_run (sw_cm s1) lc = Some (sw_cm s)) ->
  sw_run s sched = Some s' -> WTick ∉ sched -> tick_inv s1 s -> tick_inv s1 s'.
Proof.
  induction sched as [|lab sched IH]; intros s s' Hr1 Hr Hlc Hrun Hl HI; cbn [Switch_Model.sw_run] in Hrun; [by injection Hrun as <-|].
  destruct (sw_step s lab) as [s2|] eqn:H2; [|done]. apply not_elem_of_cons in Hl as [Hl1 Hl].
  eapply (IH s2); [done|by eapply sw_reach_step| |done|done|].
  - destruct Hlc as [lc Hlc]. destruct (cm_side _ _ _ _ H2) as (lc2 & Hlc2 & _). exists (lc ++ lc2). by rewrite cm_run_app, Hlc.
  - eapply tick_inv_step; [exact Hr1|exact Hr|exact Hlc|exact H2|by intros ->|done].
Qed.
(** After the decision *)
Definition decided (b : bool) (s : sw) : Prop :=
  match sw_tog s with TIdle | TEnded => sw_enabled s = b | TCalling b' _ | TStoring b' => b' = b | _ => False end.
Lemma decided_step b s lab s' : sw_step s lab = Some s' -> lab <> WTick -> decided b s -> decided b s'.
Proof.
  intros Hst Hl HI. assert (Hsame : sw_tog s' = sw_tog s -> sw_enabled s' = sw_enabled s -> decided b s') by (intros H1 H2; unfold decided; by rewrite H1, H2).
  unfold decided in HI. sw_destruct Hst lab; subst; try done; try (by apply Hsame); try (by rewrite Ht in HI).
  - apply Hsame; by rewrite Hs.
  - rewrite Ht in HI. subst b0. unfold decided. cbn. by destruct r.
  - rewrite Ht in HI. subst b0. unfold decided. cbn. by destruct (tg_always_enable o).
  - apply Hsame; by destruct (ok && negb (topic_on t s)).
  - destruct (op_keeps _ _ _ _ _ Ho) as (_ & G2 & G3 & _). apply Hsame; by cbn.
  - apply Hsame; by rewrite Hs.
Qed.
Lemma decided_run b sched s s' : sw_run s sched = Some s' -> WTick ∉ sched -> decided b s -> decided b s'.
Proof.
  intros Hr Hl Hd. eapply (sw_run_ind o (decided b) (fun lab => lab <> WTick)); [|by apply notin_Forall|exact Hd|exact Hr].
  intros s0 lab s1 H1 H2 H3. by eapply decided_step.
Qed.
Lemma decide_right n h head now : right_answer h QNum (ANum n) -> (Z.of_N head * 1000000 <= max_i64)%Z ->
  decide_on n head now = true <-> should_gossip h head now.
Proof.
  intros (l & Hn & Hl & Hlen) Hh. unfold decide_on, should_gossip. rewrite (instant_ok _ Hh), andb_true_iff, negb_true_iff, bool_decide_eq_false, bool_decide_eq_true, since_iff.
  assert (n <> 0 <-> exists p, last_connected h p) as ->; [|done]. subst n. destruct l as [|p l]; cbn.
  - split; [done|]. intros [p Hp]. apply Hl in Hp. by apply elem_of_nil in Hp.
  - split; [|done]. intros _. exists p. apply Hl. left.
Qed.

(** ** gossipCancel *)
Definition safe (s : sw) : Prop :=
  (sw_tog s = TCalling false OCancel \/ sw_tog s = TCalling false OClear -> sw_cancel s <> None) /\
  (sw_close s = CCalling OCancel \/ sw_close s = CCalling OClear -> sw_cancel s <> None).
Definition call_shape (s : sw) : Prop := forall b x, sw_tog s = TCalling b x ->
  if b then x = OStart \/ x = OAnnounce true else x <> OStart /\ x <> OAnnounce true.
Definition close_shape (s : sw) : Prop := forall x, sw_close s = CCalling x -> x <> OStart /\ x <> OAnnounce true.
Lemma shape_step s lab s' : sw_step s lab = Some s' -> call_shape s /\ close_shape s -> call_shape s' /\ close_shape s'.
Proof.
  intros Hst [H1 H2].
  assert (Hsame : sw_tog s' = sw_tog s -> sw_close s' = sw_close s -> call_shape s' /\ close_shape s').
  { intros G1 G2. unfold call_shape, close_shape. rewrite G1, G2. done. }
  assert (Hnew : (forall b x, sw_tog s' <> TCalling b x) -> sw_close s' = sw_close s -> call_shape s' /\ close_shape s').
  { intros G1 G2. unfold call_shape, close_shape. rewrite G2. split; [|done]. intros b x H. by destruct (G1 b x). }
  sw_destruct Hst lab; subst; try (by apply Hsame); try (by apply Hnew).
  - apply Hsame; by rewrite Hs.
  - split; [|repeat case_match; done]. repeat case_match; unfold call_shape; cbn; intros b x Hb; try done. injection Hb as <- <-. by left.
  - apply Hnew; by rewrite Hs.
  - split; [|done]. unfold call_shape. cbn. intros b x Hb. case_match; [done|]. injection Hb as <- <-. unfold op_begin. case_match; [by left|done].
  - destruct (op_keeps _ _ _ _ _ Ho) as (_ & _ & _ & _ & G4 & _). split; [|unfold close_shape; cbn; by rewrite G4]. specialize (H1 _ _ Ht).
    unfold call_shape. cbn. intros b1 x1 Hb. destruct r as [x2|]; [|done]. injection Hb as <- <-.
    destruct x; cbn [op_step] in Ho; try destruct (sw_cancel s); simplify_eq; try done; destruct b; try done; intuition congruence.
  - apply Hnew; [|done]. cbn. by case_match.
  - apply Hsame; by destruct (ok && negb (topic_on t s)).
  - split; [done|]. unfold close_shape. cbn. intros x [= <-]. done.
  - destruct (op_keeps _ _ _ _ _ Ho) as (_ & G2 & _). split; [unfold call_shape; cbn; by rewrite G2|]. specialize (H2 _ Hcl).
    unfold close_shape. cbn. intros x1 Hb. destruct r as [x2|]; [|done]. injection Hb as <-.
    destruct x; cbn [op_step] in Ho; try destruct (sw_cancel s); simplify_eq; try done; intuition congruence.
  - split; [done|]. intros x Hx. discriminate Hx.
  - apply Hsame; by rewrite Hs.
Qed.
Lemma shape_reach initial existing s : sw_reach initial existing s -> call_shape s /\ close_shape s.
Proof. revert s. apply sw_reach_ind; [done|]. intros s lab s' _ H Hst. by eapply shape_step. Qed.
Lemma op_cancel x ok s s' r : op_step x ok s = (s', r) ->
  (x = OStart -> sw_cancel s' <> None) /\ (x <> OStart -> x <> OClear -> sw_cancel s' = sw_cancel s) /\
  (r = Some OCancel \/ r = Some OClear -> sw_cancel s' <> None) /\ (sw_panic s = false -> sw_panic s' = true -> x = OCancel /\ sw_cancel s = None).
Proof. intros H. destruct x; cbn [op_step] in H; try destruct (sw_cancel s) eqn:Hc; injection H as <- <-; cbn; rewrite ?Hc; intuition congruence. Qed.
Lemma safe_step s lab s' : call_shape s -> close_shape s -> sw_step s lab = Some s' -> ~ both_stopping s -> safe s -> safe s' /\ sw_panic s' = false.
Proof.
  intros HS1 HS2 Hst Hb [H1 H2].
  assert (Hsame : sw_tog s' = sw_tog s -> sw_close s' = sw_close s -> sw_cancel s' = sw_cancel s -> sw_panic s' = sw_panic s -> sw_panic s = false -> safe s' /\ sw_panic s' = false).
  { intros G1 G2 G3 G4 G5. unfold safe. rewrite G1, G2, G3, G4. done. }
  assert (Hnew : (sw_tog s' <> TCalling false OCancel /\ sw_tog s' <> TCalling false OClear) -> sw_close s' = sw_close s -> sw_cancel s' = sw_cancel s -> sw_panic s' = sw_panic s -> sw_panic s = false -> safe s' /\ sw_panic s' = false).
  { intros G1 G2 G3 G4 G5. unfold safe. rewrite G2, G3, G4. split; [|done]. split; [|done]. intros [H|H]; by destruct G1. }
  sw_destruct Hst lab; subst; try (by apply Hsame); try (by apply Hnew).
  - apply Hsame; first [done | by rewrite Hs].
  - apply Hnew; repeat case_match; done.
  - apply Hnew; first [done | by rewrite Hs].
  - apply Hnew; try done. cbn. case_match; [done|]. unfold op_begin. by case_match.
  - destruct (op_keeps _ _ _ _ _ Ho) as (_ & _ & _ & _ & G4 & _). destruct (op_cancel _ _ _ _ _ Ho) as (C1 & C2 & C3 & C4).
    assert (Hp1 : sw_panic s1 = false).
    { destruct (sw_panic s1); [|done]. destruct (C4 Hp eq_refl) as [-> Hn]. pose proof (HS1 _ _ Ht) as Hsh. destruct b; [by destruct Hsh|]. destruct H1; [by left|done]. }
    split; [|done]. split; cbn.
    + destruct r as [x1|]; [|intros [?|?]; done]. intros [[= -> ->]|[= -> ->]]; apply C3; auto.
    + rewrite G4. intros Hc. destruct (decide (x = OStart)) as [->|Hn]; [by apply C1|]. rewrite C2; [by apply H2|done|].
      intros ->. apply Hb. pose proof (HS1 _ _ Ht) as Hsh. destruct b; [by destruct Hsh|]. split; [by eexists|]. destruct Hc as [-> | ->]; by eexists.
  - apply Hnew; try done. cbn. by case_match.
  - apply Hsame; first [done | by destruct (ok && negb (topic_on t s))].
  - split; [|done]. split; cbn; [done|]. intros [?|?]; done.
  - destruct (op_keeps _ _ _ _ _ Ho) as (_ & G2 & _). destruct (op_cancel _ _ _ _ _ Ho) as (C1 & C2 & C3 & C4).
    assert (Hp1 : sw_panic s1 = false).
    { destruct (sw_panic s1); [|done]. destruct (C4 Hp eq_refl) as [-> Hn]. destruct H2; [by left|done]. }
    split; [|done]. split; cbn.
    + rewrite G2. intros Hc. destruct (decide (x = OStart)) as [->|Hn]; [by apply C1|]. rewrite C2; [by apply H1|done|].
      intros ->. apply Hb. split; [destruct Hc as [-> | ->]; by eexists|]. by eexists.
    + destruct r as [x1|]; [|intros [?|?]; done]. intros [[= ->]|[= ->]]; apply C3; auto.
  - split; [|done]. split; cbn; [done|]. intros [?|?]; done.
  - apply Hsame; first [done | by rewrite Hs].
Qed.
Lemma safe_run initial existing sched s : sw_run (sw_init initial existing) sched = Some s ->
  (forall l1 l2 s0, sched = l1 ++ l2 -> sw_run (sw_init initial existing) l1 = Some s0 -> ~ both_stopping s0) -> safe s /\ sw_panic s = false.
Proof.
  revert s. induction sched as [|lab sched IH] using rev_ind; intros s Hr Hb.
  - injection Hr as <-. split; [|done]. split; intros [?|?]; done.
  - rewrite sw_run_app in Hr. destruct (sw_run (sw_init initial existing) sched) as [s1|] eqn:H1; [|done].
    cbn [Switch_Model.sw_run] in Hr. destruct (sw_step s1 lab) as [s2|] eqn:H2; [|done]. injection Hr as <-.
    destruct (IH s1 eq_refl) as [Hs _].
    { intros l1 l2 s0 -> Hl1. eapply (Hb l1 (l2 ++ [lab])); [by rewrite app_assoc|done]. }
    destruct (shape_reach initial existing s1) as [S1 S2]; [by exists sched|]. eapply safe_step; [exact S1|exact S2|exact H2| |exact Hs].
    by eapply (Hb sched [lab]).
Qed.
(** Without Close *)
Lemma not_closed_step s lab s' : sw_step s lab = Some s' -> sw_close s' = CNotCalled -> sw_close s = CNotCalled.
Proof.
  intros Hst Hc. sw_destruct Hst lab; subst; try done; try (by rewrite Hs in Hc).
  - by repeat case_match.
  - destruct (op_keeps _ _ _ _ _ Ho) as (_ & _ & _ & _ & G4 & _). by rewrite <- G4.
  - by destruct (ok && negb (topic_on t s)).
  - cbn in Hc. by destruct r.
Qed.
Lemma safe_unclosed initial existing s : sw_reach initial existing s -> sw_close s = CNotCalled -> safe s /\ sw_panic s = false.
Proof.
  revert s. apply (sw_reach_ind o initial existing (fun s => sw_close s = CNotCalled -> safe s /\ sw_panic s = false)).
  - intros _. split; [|done]. split; intros [?|?]; done.
  - intros s lab s' Hr IH Hst Hc. pose proof (not_closed_step _ _ _ Hst Hc) as Hc0. destruct (shape_reach _ _ _ Hr) as [S1 S2].
    eapply safe_step; [exact S1|exact S2|exact Hst| |by apply IH]. intros [_ [x Hx]]. by rewrite Hc0 in Hx.
Qed.

(** ** Announcements *)
Definition last_status (s : sw) : bool := match sw_status s with [] => false | (b, _) :: _ => b end.
Definition stat_inv (s : sw) : Prop :=
  (forall i b, announcements s !! i = Some b -> b = Nat.even i) /\
  match sw_tog s with
  | TCalling b _ => last_status s = sw_enabled s /\ sw_enabled s = negb b
  | TStoring b => last_status s = b
  | TNew => last_status s = sw_enabled s /\ sw_enabled s = false
  | _ => last_status s = sw_enabled s
  end.
Lemma last_parity s : (forall i b, announcements s !! i = Some b -> b = Nat.even i) -> last_status s = Nat.odd (length (sw_status s)).
Proof.
  unfold announcements, last_status. intros H. destruct (sw_status s) as [|[b k] l]; [done|]. cbn [map rev fst length] in *.
  specialize (H (length (rev (map fst l))) b). rewrite rev_length, map_length in H. rewrite Nat.odd_succ. apply H.
  rewrite lookup_app_r by (by rewrite rev_length, map_length). rewrite rev_length, map_length, Nat.sub_diag. done.
Qed.
Lemma announce_alt (b k : bool) (l : list (bool * bool)) : (forall i x, rev (map fst l) !! i = Some x -> x = Nat.even i) -> b = Nat.even (length l) ->
  forall i x, rev (map fst ((b, k) :: l)) !! i = Some x -> x = Nat.even i.
Proof.
  intros H Hb i x Hi. cbn [map rev fst] in Hi. apply lookup_app_Some in Hi as [Hi|[Hlen Hi]]; [by apply H|].
  rewrite rev_length, map_length in *. destruct (i - length l) as [|?] eqn:Hd; [|done]. cbn in Hi. injection Hi as <-. rewrite Hb. f_equal. lia.
Qed.
Lemma stat_step initial existing s lab s' : sw_reach initial existing s -> sw_step s lab = Some s' -> sw_close s' = CNotCalled -> stat_inv s -> stat_inv s'.
Proof.
  intros Hre Hst Hcl' [HA HT]. pose proof (not_closed_step _ _ _ Hst Hcl') as Hcl0.
  destruct (safe_unclosed _ _ _ (sw_reach_step _ _ _ _ _ _ Hre Hst) Hcl') as [_ Hp'].
  assert (Hsame : sw_status s' = sw_status s -> sw_tog s' = sw_tog s -> sw_enabled s' = sw_enabled s -> stat_inv s').
  { intros G1 G2 G3. unfold stat_inv, announcements, last_status. rewrite G1, G2, G3. done. }
  sw_destruct Hst lab; subst; try (by apply Hsame).
  - apply Hsame; first [done | by rewrite Hs].
  - rewrite Ht in HT. destruct HT as [H1 H2]. unfold stat_inv. destruct (tg_always_enable o); [|destruct (tg_always_disable o)]; cbn; (split; [done|]); unfold last_status in *; cbn; rewrite ?H1, ?H2; done.
  - rewrite Hs. rewrite Ht in HT. by split.
  - rewrite Ht in HT. by split.
  - rewrite Ht in HT. by split.
  - rewrite Ht in HT. unfold stat_inv. cbn. split; [done|]. unfold last_status in *. cbn. destruct (eqb _ _) eqn:He; [done|]. split; [done|]. apply eqb_false_iff in He. by destruct (sw_enabled s), (decide_on n (sw_head s) now).
  - rewrite Ht in HT. destruct HT as [H1 H2]. destruct (op_keeps _ _ _ _ _ Ho) as (_ & _ & G3 & _). destruct (shape_reach _ _ _ Hre) as [S1 _]. specialize (S1 _ _ Ht).
    destruct r as [x1|].
    + assert (Hst1 : sw_status s1 = sw_status s) by (destruct x; cbn [op_step] in Ho; try destruct (sw_cancel s); by simplify_eq).
      unfold stat_inv, announcements, last_status. cbn. rewrite Hst1, G3. done.
    + assert (exists b1, x = OAnnounce b1) as [b1 ->].
      { destruct x; cbn [op_step] in Ho; try destruct (sw_cancel s); simplify_eq; try done; by eexists. }
      cbn [op_step] in Ho. injection Ho as <-. assert (b1 = b) as -> by (destruct b, b1; intuition congruence).
      unfold stat_inv, announcements, last_status. cbn [sw_status sw_tog with_tog announce]. split; [|done]. apply announce_alt; [exact HA|].
      rewrite (last_parity s HA) in H1. rewrite <- Nat.negb_odd, H1, H2. by rewrite negb_involutive.
  - rewrite Ht in HT. unfold stat_inv. cbn. split; [done|]. unfold last_status in *. cbn. by case_match.
  - apply Hsame; first [done | by destruct (ok && negb (topic_on t s))].
  - cbn in Hcl'. by destruct r.
  - apply Hsame; first [done | by rewrite Hs].
Qed.
Lemma stat_reach initial existing s : sw_reach initial existing s -> sw_close s = CNotCalled -> stat_inv s.
Proof.
  revert s. apply (sw_reach_ind o initial existing (fun s => sw_close s = CNotCalled -> stat_inv s)).
  - intros _. split; [|done]. intros i b H. by destruct i.
  - intros s lab s' Hr IH Hst Hc. eapply stat_step; [exact Hr|exact Hst|exact Hc|]. apply IH. by eapply not_closed_step.
Qed.

(** ** Progress of a tick *)
Definition w_op (x : op) : nat := match x with OStart => 2 | OStopBlocks => 6 | OStopTxs => 5 | OCheck => 4 | OCancel => 3 | OClear => 2 | OAnnounce _ => 1 end.
Definition w_tog (t : tphase) : nat := match t with TAsking _ => 12 | TCounted _ => 11 | TCalling _ x => 2 + w_op x | TStoring _ => 1 | _ => 0 end.
Definition w_sw (s : sw) : nat := w_cm (sw_cm s) + w_tog (sw_tog s).
Lemma w_sw_step s lab s' : sw_step s lab = Some s' -> by_itself lab = true -> w_sw s' < w_sw s.
Proof.
  intros Hst Hl. unfold w_sw. sw_destruct Hst lab; subst; try discriminate Hl.
  - assert (internal (ACm l) = true) by (by destruct l). pose proof (w_cm_step _ _ _ Hc H). rewrite Hs. cbn. lia.
  - cbn. rewrite Ht. cbn. lia.
  - cbn. rewrite Ht. cbn. case_match; cbn; [lia|]. unfold op_begin. case_match; cbn; lia.
  - destruct (op_keeps _ _ _ _ _ Ho) as (G1 & _). cbn [sw_cm sw_tog with_tog]. rewrite G1, Ht. destruct x; cbn [op_step] in Ho; try destruct (sw_cancel s); injection Ho as <- <-; cbn; lia.
  - cbn. rewrite Ht. case_match; cbn; lia.
Qed.
Definition unexpired (s : sw) : Prop := sw_stopped s = false /\ Forall (fun c => cl_expired c = false) (cm_callers (sw_cm s)).
Lemma unexpired_step s lab s' : sw_step s lab = Some s' -> ends_context lab = false -> unexpired s -> unexpired s'.
Proof.
  intros Hst Hl [H1 H2]. destruct (cm_side _ _ _ _ Hst) as (lc & _ & Hcc & _). unfold unexpired, sw_stopped in *.
  assert (lab <> WStop) as Hns by (by intros ->). rewrite Hcc by done. split; [done|].
  assert (Hsame : sw_cm s' = sw_cm s -> Forall (fun c => cl_expired c = false) (cm_callers (sw_cm s'))) by by intros ->.
  sw_destruct Hst lab; subst; try (by apply Hsame).
  - apply (cm_alive_step _ _ _ Hc); [done| |done|done]. intros j ->. discriminate Hl.
  - apply Hsame. by repeat case_match.
  - rewrite Hca. apply Forall_app. split; [done|]. repeat constructor. exact H1.
  - apply Hsame. destruct (op_keeps _ _ _ _ _ Ho) as (G1 & _). done.
  - apply Hsame. by destruct (ok && negb (topic_on t s)).
  - apply Hsame. destruct (op_keeps _ _ _ _ _ Ho) as (G1 & _). done.
Qed.
Definition ticking (s : sw) : Prop := sw_tog s <> TNew /\ sw_tog s <> TEnded.
Lemma ticking_step s lab s' : automatic o -> sw_step s lab = Some s' -> sw_stopped s = false -> (ticking s \/ lab = WStart) -> ticking s'.
Proof.
  intros [Ha1 Ha2] Hst Hs0 Hk. sw_destruct Hst lab; subst; try (destruct Hk as [Hk|Hk]; [|discriminate Hk]); try done.
  - unfold ticking in *. by rewrite Hs.
  - rewrite Ha1, Ha2. done.
  - unfold ticking. by rewrite Hs.
  - congruence.
  - unfold ticking. cbn. by case_match.
  - unfold ticking. cbn. by destruct r.
  - unfold ticking. cbn. by rewrite Ha1.
  - by destruct (ok && negb (topic_on t s)).
  - destruct (op_keeps _ _ _ _ _ Ho) as (_ & G2 & _). unfold ticking in *. cbn. by rewrite G2.
  - unfold ticking in *. by rewrite Hs.
Qed.
Lemma sw_progress initial s : sw_reach initial [] s -> unexpired s -> sw_panic s = false -> ticking s ->
  sw_tog s = TIdle \/ exists lab s', by_itself lab = true /\ sw_step s lab = Some s'.
Proof.
  intros Hre [Hs Hx] Hp [Ht1 Ht2]. destruct (sw_tog s) as [| |j|n|b x|b|] eqn:Ht; try done; [by left|right..].
  - destruct (cm_progress initial (sw_cm s) (cm_reach_of _ _ _ Hre) Hs Hx) as [(Hm & _ & HF)|(l & c & Hl & Hc)].
    + destruct (asking_ok_reach _ _ _ Hre _ Ht) as (st & x & Hj & _). destruct (Forall_lookup_1 _ _ _ _ HF Hj) as [a Ha]. cbn in Ha. subst st.
      pose proof (Forall_lookup_1 _ _ _ _ Hx Hj) as Hxx. cbn in Hxx. subst x.
      destruct (Inv3_reach _ _ _ (cm_reach_of _ _ _ Hre)) as [H3 _]. destruct (H3 _ _ _ _ Hj) as [[? _]|(l1 & l2 & _ & Hra)]; [done|]. destruct a as [|n|]; [done| |done].
      eexists WCount, _. split; [done|]. unfold Switch_Model.sw_step. by rewrite Hp, Ht, Hj.
    + exists (WCm l), (with_cm c s). split; [by destruct l|]. unfold Switch_Model.sw_step. rewrite Hp. by destruct l; try discriminate Hl; rewrite Hc.
  - eexists (WDecide 0), _. split; [done|]. unfold Switch_Model.sw_step. by rewrite Hp, Ht.
  - destruct (op_step x true s) as [s1 r] eqn:Ho. eexists (WOp true), _. split; [done|]. unfold Switch_Model.sw_step. by rewrite Hp, Ht, Ho.
  - eexists WStore, _. split; [done|]. unfold Switch_Model.sw_step. by rewrite Hp, Ht.
Qed.

(** ** A manager that cannot start *)
Definition dead_switch (s : sw) : Prop :=
  (forall b x, sw_tog s <> TCalling b x) /\ (forall b, sw_tog s <> TStoring b) /\ (forall n, sw_tog s <> TCounted n) /\ sw_enabled s = false /\
  sw_sessions s = [] /\ sw_blocks s = false /\ sw_txs s = false /\ sw_cancel s = None /\ Forall (fun x => x.1 = false) (sw_status s) /\ sw_published s = 0.
Lemma dead_reach initial existing s : automatic o -> existing <> [] -> sw_reach initial existing s -> dead_switch s.
Proof.
  intros [Ha1 Ha2] Hne. revert s. apply sw_reach_ind; [repeat split; first [done | by constructor]|].
  intros s lab s' Hre (H1 & H2 & H3 & H4 & H5 & H6 & H7 & H8 & H9 & H10) Hst.
  pose proof (Inv0_reach _ _ _ (cm_reach_of _ _ _ Hre)) as H0. unfold Inv0 in H0.
  assert (HS : Forall (fun c => cl_state_of c = ClSending) (cm_callers (sw_cm s))).
  { destruct (cm_starter (sw_cm s)) as [l|]; [|by destruct H0]. by destruct H0 as (_ & _ & _ & _ & _ & _ & H). }
  destruct (shape_reach _ _ _ Hre) as [_ S2].
  sw_destruct Hst lab; subst.
  - rewrite Hs. by repeat split.
  - rewrite Ha1, Ha2. by repeat split.
  - rewrite Hs. by repeat split.
  - by repeat split.
  - pose proof (Forall_lookup_1 _ _ _ _ HS Hj) as Hx. discriminate Hx.
  - by destruct (H3 n).
  - by destruct (H1 b x).
  - by destruct (H2 b).
  - by repeat split.
  - by rewrite H5 in Hg.
  - by rewrite H5 in Hg.
  - assert (Hoff : topic_on t s = false) by by destruct t. unfold dead_switch. sw_proj. rewrite Hoff. by repeat split.
  - by repeat split.
  - specialize (S2 _ Hcl). destruct (op_keeps _ _ _ _ _ Ho) as (_ & G2 & G3 & _ & _ & G6). unfold dead_switch. cbn [sw_tog sw_enabled sw_sessions sw_blocks sw_txs sw_cancel sw_status sw_published with_close].
    rewrite G2, G3, G6. repeat (split; [done|]).
    destruct x as [| | | | | |b]; cbn [op_step] in Ho; rewrite ?H8 in Ho; injection Ho as <- <-; cbn; try done; try (by destruct S2).
    destruct b; [by destruct S2|]. repeat (split; [done|]). split; [|done]. by constructor.
  - by repeat split.
  - rewrite Hs. unfold dead_switch. cbn. rewrite H5. by repeat split.
Qed.

(** ** After Close *)
Definition closing (s : sw) : Prop :=
  sw_tog s = TEnded /\ all_started s /\
  match sw_close s with
  | CNotCalled => False
  | CCalling OStopBlocks => True
  | CCalling OStopTxs => sw_blocks s = false
  | _ => sw_blocks s = false /\ sw_txs s = false
  end.
Lemma all_started_insert l i (g : gsession) t x : l !! i = Some g -> Forall (fun g => gs_blocks g <> GNotRun /\ gs_txs g <> GNotRun) l -> x <> GNotRun ->
  Forall (fun g => gs_blocks g <> GNotRun /\ gs_txs g <> GNotRun) (<[i := move_starter t x g]> l).
Proof. intros Hg HF Hx. apply Forall_insert; [done|]. destruct (Forall_lookup_1 _ _ _ _ HF Hg). by destruct t. Qed.
Lemma all_started_end l : Forall (fun g => gs_blocks g <> GNotRun /\ gs_txs g <> GNotRun) l -> Forall (fun g => gs_blocks g <> GNotRun /\ gs_txs g <> GNotRun) (map end_session l).
Proof. intros H. apply Forall_map. eapply Forall_impl; [exact H|]. done. Qed.
Lemma closing_step s lab s' : close_shape s -> sw_step s lab = Some s' -> closing s -> closing s'.
Proof.
  intros HS Hst (H1 & H2 & H3).
  assert (Hsame : sw_tog s' = sw_tog s -> sw_sessions s' = sw_sessions s -> sw_close s' = sw_close s -> sw_blocks s' = sw_blocks s -> sw_txs s' = sw_txs s -> closing s').
  { intros G1 G2 G3 G4 G5. unfold closing, all_started. rewrite G1, G2, G3, G4, G5. done. }
  sw_destruct Hst lab; subst; try (by apply Hsame); try congruence.
  - apply Hsame; first [done | by rewrite Hs].
  - pose proof (Forall_lookup_1 _ _ _ _ H2 Hg) as [? ?]. by destruct t.
  - split; [done|]. split; [|done]. by apply all_started_insert.
  - by rewrite Hcl in H3.
  - rewrite Hcl in H3. specialize (HS _ Hcl). destruct (op_keeps _ _ _ _ _ Ho) as (_ & G2 & _). unfold closing, all_started. cbn [sw_tog sw_sessions sw_close sw_blocks sw_txs with_close].
    split; [by rewrite G2|].
    destruct x as [| | | | | |b]; cbn [op_step] in Ho; try destruct (sw_cancel s) as [i|] eqn:Hca; injection Ho as <- <-; cbn; try done; try (by destruct HS); (split; [|done]).
    apply Forall_alter; [done|]. intros g _ Hg. done.
  - rewrite Hcl in H3. split; [done|]. by split.
  - rewrite Hs. split; [done|]. split; [by apply all_started_end|done].
Qed.
Lemma op_published x ok s s' r : op_step x ok s = (s', r) -> sw_published s' = sw_published s.
Proof. intros H. by destruct (op_keeps _ _ _ _ _ H) as (_ & _ & _ & _ & _ & ?). Qed.
Definition shut (s : sw) : Prop := closing s /\ (sw_close s = CHost \/ sw_close s = CClosed).
Lemma shut_step s lab s' : close_shape s -> sw_step s lab = Some s' -> shut s -> shut s' /\ sw_published s' = sw_published s.
Proof.
  intros HS Hst [Hc Hcl0]. pose proof (closing_step _ _ _ HS Hst Hc) as Hc'. destruct Hc as (H1 & H2 & H3).
  assert (Hoff : sw_blocks s = false /\ sw_txs s = false) by (destruct Hcl0 as [Hx|Hx]; by rewrite Hx in H3).
  assert (H : (sw_close s' = CHost \/ sw_close s' = CClosed) /\ sw_published s' = sw_published s); [|destruct H as [Hq1 Hq2]; split; [by split|done]].
  sw_destruct Hst lab; subst; try done; try congruence.
  - by rewrite Hs.
  - pose proof (Forall_lookup_1 _ _ _ _ H2 Hg) as [? ?]. by destruct t.
  - cbn. destruct Hoff as [Hb Htx]. split; [done|]. destruct t; cbn; by rewrite ?Hb, ?Htx.
  - destruct Hcl0; congruence.
  - destruct Hcl0; congruence.
  - cbn. auto.
  - by rewrite Hs.
Qed.

(** ** Stopping *)
Definition asking_exp (s : sw) : Prop := sw_stopped s = true -> forall j q st x, sw_tog s = TAsking j -> cm_callers (sw_cm s) !! j = Some (Caller q st x) -> x = true.
Lemma asking_exp_step s lab s' : asking_ok s -> sw_step s lab = Some s' -> asking_exp s -> asking_exp s'.
Proof.
  intros HA Hst HE Hs' j1 q1 st1 x1 Hj1 Hx1. pose proof (cm_side _ _ _ _ Hst) as (lc & _ & Hcc & _).
  assert (Hsame : sw_tog s = TAsking j1 -> sw_cm s' = sw_cm s -> lab <> WStop -> x1 = true).
  { intros H1 H2 H3. rewrite H2 in Hx1. eapply HE; [|exact H1|exact Hx1]. unfold sw_stopped in *. by rewrite <- Hcc. }
  sw_destruct Hst lab; subst.
  - rewrite Hs in Hj1. cbn in Hj1. destruct (HA _ Hj1) as (st & x & Hx & _). destruct (keeps_caller _ _ _ _ _ _ _ Hc (Hle _ Hj1) Hx) as [st' H'].
    rewrite H' in Hx1. injection Hx1 as <- <- <-. eapply HE; [|exact Hj1|exact Hx]. unfold sw_stopped in *. by rewrite <- Hcc.
  - repeat case_match; cbn in Hj1; discriminate Hj1.
  - rewrite Hs in Hj1. cbn in Hj1. injection Hj1 as <-. rewrite Hca, list_lookup_middle in Hx1 by done. injection Hx1 as <- <- <-. unfold sw_stopped in *. by rewrite <- Hcc.
  - discriminate Hj1.
  - discriminate Hj1.
  - cbn in Hj1. case_match; discriminate Hj1.
  - cbn in Hj1. destruct r; discriminate Hj1.
  - cbn in Hj1. case_match; discriminate Hj1.
  - by apply Hsame.
  - apply Hsame; [by destruct (ok && negb (topic_on t s))|by destruct (ok && negb (topic_on t s))|done].
  - by apply Hsame.
  - by apply Hsame.
  - by apply Hsame.
  - destruct (op_keeps _ _ _ _ _ Ho) as (G1 & G2 & _). apply Hsame; [by cbn in Hj1; rewrite <- G2|done|done].
  - by apply Hsame.
  - rewrite Hs in Hj1. cbn in Hj1. rewrite Hj1 in Hca. rewrite Hca, list_lookup_alter in Hx1. destruct (cm_callers (sw_cm s) !! j1) as [c|]; [|done]. cbn in Hx1. by injection Hx1 as _ _ <-.
Qed.
Lemma asking_expired initial existing s j q st x : sw_reach initial existing s -> sw_stopped s = true -> sw_tog s = TAsking j -> cm_callers (sw_cm s) !! j = Some (Caller q st x) -> x = true.
Proof.
  intros Hr. assert (HE : asking_exp s); [|intros H1 H2 H3; by eapply HE].
  revert s Hr. apply sw_reach_ind; [done|]. intros s lab s' Hr IH Hst. eapply asking_exp_step; [by eapply asking_ok_reach|exact Hst|exact IH].
Qed.
Lemma cm_returns c j q st : cm_cancelled c = true -> (cm_manager c = MServing \/ exists w q a, cm_manager c = MReplying w q a) ->
  cm_callers c !! j = Some (Caller q st true) ->
  exists lc c', cm_run c lc = Some c' /\ Forall (fun l => l <> LCancel /\ forall i, l <> LExpire i) lc /\ exists a, cm_callers c' !! j = Some (Caller q (ClReturned a) true).
Proof.
  intros Hcan Hm Hj. pose proof (lookup_lt_Some _ _ _ Hj) as Hlt. destruct st as [| |a].
  - destruct Hm as [Hm|(w & q' & a & Hm)].
    + exists [LTakeQuery j; LTimeout j]. cbn [cm_run cm_step]. rewrite Hm, Hj. cbn. rewrite list_lookup_insert by done. eexists. split; [done|]. split; [by repeat constructor|].
      eexists. cbn. apply list_lookup_insert. by rewrite insert_length.
    + exists [LGiveUp; LTakeQuery j; LTimeout j]. cbn [cm_run cm_step]. rewrite Hm, Hcan. cbn. rewrite Hj. cbn. rewrite list_lookup_insert by done. eexists. split; [done|]. split; [by repeat constructor|].
      eexists. cbn. apply list_lookup_insert. by rewrite insert_length.
  - exists [LTimeout j]. cbn [cm_run cm_step]. rewrite Hj. eexists. split; [done|]. split; [by repeat constructor|]. eexists. cbn. by apply list_lookup_insert.
  - exists [], c. split; [done|]. split; [constructor|]. by exists a.
Qed.
(** Steps of the manager alone *)
Lemma cm_lift lc : forall s c, sw_panic s = false -> cm_run (sw_cm s) lc = Some c -> Forall (fun l => l <> LCancel /\ forall i, l <> LExpire i) lc ->
  sw_run s (map WCm lc) = Some (with_cm c s).
Proof.
  induction lc as [|l lc IH]; intros s c Hp Hc HF; cbn [cm_run] in Hc.
  - injection Hc as <-. cbn. by destruct s.
  - apply Forall_cons in HF as [[H1 H2] HF]. destruct (cm_step (sw_cm s) l) as [c1|] eqn:Hc1; [|done]. cbn [map Switch_Model.sw_run].
    assert (Hs : sw_step s (WCm l) = Some (with_cm c1 s)).
    { unfold Switch_Model.sw_step. rewrite Hp. destruct l; try done; try (by rewrite Hc1). by destruct (H2 i). }
    rewrite Hs. by rewrite (IH (with_cm c1 s) c).
Qed.
(** From the decision on *)
Lemma finish n : forall initial existing s, sw_reach initial existing s -> w_tog (sw_tog s) <= n -> sw_stopped s = true -> sw_close s = CNotCalled ->
  sw_tog s <> TNew -> (forall j, sw_tog s <> TAsking j) -> exists rest s', sw_run s rest = Some s' /\ sw_tog s' = TEnded.
Proof.
  induction n as [n IH] using lt_wf_ind. intros initial existing s Hr Hn Hs Hc Ht1 Ht2.
  destruct (safe_unclosed _ _ _ Hr Hc) as [_ Hp].
  assert (Hgo : forall lab s1, sw_step s lab = Some s1 -> w_tog (sw_tog s1) < w_tog (sw_tog s) -> sw_close s1 = CNotCalled -> sw_tog s1 <> TNew -> (forall j, sw_tog s1 <> TAsking j) ->
    exists rest s', sw_run s rest = Some s' /\ sw_tog s' = TEnded).
  { intros lab s1 H1 Hw Hc1 G1 G2. destruct (IH (w_tog (sw_tog s1)) ltac:(lia) initial existing s1) as (rest & s' & Hr' & He); try done.
    - by eapply sw_reach_step. - by eapply stopped_step. - exists (lab :: rest), s'. cbn [Switch_Model.sw_run]. by rewrite H1. }
  destruct (sw_tog s) as [| |j|m|b x|b|] eqn:Ht; try done.
  - exists [WEnd]. eexists. cbn [Switch_Model.sw_run]. unfold Switch_Model.sw_step. rewrite Hp, Ht, Hs. done.
  - by destruct (Ht2 j).
  - eapply (Hgo (WDecide 0)); [unfold Switch_Model.sw_step; by rewrite Hp, Ht|..]; cbn; try done.
    + case_match; cbn; [lia|]. unfold op_begin. case_match; cbn; lia.
    + by case_match.
    + intros j. by case_match.
  - destruct (op_step x true s) as [s1 r] eqn:Ho. eapply (Hgo (WOp true)); [unfold Switch_Model.sw_step; by rewrite Hp, Ht, Ho|..]; cbn.
    + destruct x; cbn [op_step] in Ho; try destruct (sw_cancel s); injection Ho as <- <-; cbn; try lia.
    + destruct (op_keeps _ _ _ _ _ Ho) as (_ & _ & _ & _ & G4 & _). by rewrite G4.
    + by destruct r.
    + intros j. by destruct r.
  - destruct (tg_always_enable o) eqn:Ha.
    + exists [WStore]. eexists. cbn [Switch_Model.sw_run]. unfold Switch_Model.sw_step. rewrite Hp, Ht, Ha. done.
    + eapply (Hgo WStore); [unfold Switch_Model.sw_step; by rewrite Hp, Ht, Ha|..]; cbn; done || lia.
  - exists [], s. done.
Qed.
Lemma toggle_can_end initial existing s : sw_reach initial existing s -> sw_stopped s = true -> sw_close s = CNotCalled -> sw_tog s <> TNew ->
  (cm_manager (sw_cm s) = MServing \/ exists w q a, cm_manager (sw_cm s) = MReplying w q a) -> exists rest s', sw_run s rest = Some s' /\ sw_tog s' = TEnded.
Proof.
  intros Hr Hs Hc Ht1 Hm. destruct (safe_unclosed _ _ _ Hr Hc) as [_ Hp].
  destruct (sw_tog s) as [| |j|n|b x|b|] eqn:Ht; try (eapply finish; [exact Hr|reflexivity|done|done|by rewrite Ht|by rewrite Ht]).
  - destruct (asking_ok_reach _ _ _ Hr _ Ht) as (st & x & Hj & _).
    assert (x = true) as -> by by eapply asking_expired.
    destruct (cm_returns _ _ _ _ Hs Hm Hj) as (lc & c & Hlc & HF & a & Ha).
    pose proof (cm_lift _ _ _ Hp Hlc HF) as Hrun. pose proof (sw_reach_run _ _ _ _ _ _ Hr Hrun) as Hr1.
    assert (exists n, a = ANum n) as [n ->].
    { destruct (Inv3_reach _ _ _ (cm_reach_of _ _ _ Hr1)) as [H3 _]. destruct (H3 _ _ _ _ Ha) as [[_ ->]|(l1 & l2 & _ & Hra)]; [by eexists|]. destruct a as [|n|]; try done. by eexists. }
    assert (Hw : sw_step (with_cm c s) WCount = Some (with_tog (TCounted n) (with_cm c s))).
    { unfold Switch_Model.sw_step. cbn [sw_panic sw_tog sw_cm with_cm]. by rewrite Hp, Ht, Ha. }
    destruct (finish 11 initial existing (with_tog (TCounted n) (with_cm c s))) as (rest & s' & Hr' & He); try done.
    + by eapply sw_reach_step.
    + eapply stopped_step; [exact Hw|]. destruct (cm_side _ _ _ _ Hw) as (_ & _ & _). clear -Hs Hlc. unfold sw_stopped. cbn. destruct (later_run _ _ _ Hlc) as [H _].
      revert Hs Hlc. unfold sw_stopped. generalize (sw_cm s). clear. induction lc as [|l lc IH]; intros c0 H1 H2; cbn [cm_run] in H2; [by injection H2 as <-|].
      destruct (cm_step c0 l) as [c1|] eqn:Hc1; [|done]. apply (IH c1); [|done]. destruct c0 as [sd st m pe nx bl ca se cc lg]. cm_cases Hc1 l; subst; done.
    + exists (map WCm lc ++ WCount :: rest), s'. rewrite sw_run_app, Hrun. cbn [Switch_Model.sw_run]. by rewrite Hw.
Qed.
Lemma stuck_step s lab s' j : sw_step s lab = Some s' -> sw_tog s = TAsking j -> cm_manager (sw_cm s) = MEnded -> cm_starter (sw_cm s) = None ->
  (exists x, cm_callers (sw_cm s) !! j = Some (Caller QNum ClSending x)) ->
  sw_tog s' = TAsking j /\ cm_manager (sw_cm s') = MEnded /\ cm_starter (sw_cm s') = None /\ exists x, cm_callers (sw_cm s') !! j = Some (Caller QNum ClSending x).
Proof.
  intros Hst Ht0 Hm Hs0 Hj0. destruct (cm_side _ _ _ _ Hst) as (lc & Hlc & _). split; [|by eapply ended_run].
  sw_destruct Hst lab; subst; try congruence; try done.
  - by rewrite Hs.
  - destruct Hj0 as [y Hy]. congruence.
  - by destruct (ok && negb (topic_on t s)).
  - destruct (op_keeps _ _ _ _ _ Ho) as (_ & G2 & _). cbn. by rewrite G2.
  - by rewrite Hs.
Qed.
Lemma stuck_run sched : forall s s' j, sw_run s sched = Some s' -> sw_tog s = TAsking j -> cm_manager (sw_cm s) = MEnded -> cm_starter (sw_cm s) = None ->
  (exists x, cm_callers (sw_cm s) !! j = Some (Caller QNum ClSending x)) -> sw_tog s' = TAsking j.
Proof.
  induction sched as [|lab sched IH]; intros s s' j Hr Ht Hm Hs Hj; cbn [Switch_Model.sw_run] in Hr; [by injection Hr as <-|].
  destruct (sw_step s lab) as [s1|] eqn:H1; [|done]. destruct (stuck_step _ _ _ _ H1 Ht Hm Hs Hj) as (G1 & G2 & G3 & G4). by eapply IH.
Qed.
(** ** Small facts *)
Lemma unclosed_step s lab s' : sw_step s lab = Some s' -> lab <> WClose -> sw_close s = CNotCalled -> sw_close s' = CNotCalled.
Proof.
  intros Hst Hl Hc0. sw_destruct Hst lab; subst; try done; try (by rewrite Hs); try congruence.
  - by repeat case_match.
  - destruct (op_keeps _ _ _ _ _ Ho) as (_ & _ & _ & _ & G4 & _). cbn. by rewrite G4.
  - by destruct (ok && negb (topic_on t s)).
Qed.
Lemma tended_step s lab s' : sw_step s lab = Some s' -> sw_tog s = TEnded -> sw_enabled s = true -> sw_tog s' = TEnded /\ sw_enabled s' = true.
Proof.
  intros Hst H1 H2. sw_destruct Hst lab; subst; try done; try (by rewrite Hs); try congruence.
  - by destruct (ok && negb (topic_on t s)).
  - destruct (op_keeps _ _ _ _ _ Ho) as (_ & G2 & G3 & _). cbn. by rewrite G2, G3.
Qed.
(** With a flag the toggle never turns gossip off. *)
Lemma flags_never_off initial existing s : ~ automatic o -> sw_reach initial existing s -> forall x, sw_tog s <> TCalling false x.
Proof.
  intros Ha. cut (sw_reach initial existing s -> sw_tog s = TNew \/ sw_tog s = TEnded \/ (tg_always_enable o = true /\ ((exists x, sw_tog s = TCalling true x) \/ exists b, sw_tog s = TStoring b))).
  { intros H Hr x Hx. destruct (H Hr) as [H1|[H1|(_ & [[y H1]|[b H1]])]]; congruence. }
  revert s. apply sw_reach_ind; [by left|]. intros s lab s' _ IH Hst.
  assert (Hsame : sw_tog s' = sw_tog s -> sw_tog s' = TNew \/ sw_tog s' = TEnded \/ (tg_always_enable o = true /\ ((exists x, sw_tog s' = TCalling true x) \/ exists b, sw_tog s' = TStoring b))) by by intros ->.
  assert (Hno : sw_tog s <> TIdle /\ (forall j, sw_tog s <> TAsking j) /\ forall n, sw_tog s <> TCounted n).
  { repeat split; intros; intros Hx; destruct IH as [H1|[H1|(_ & [[y H1]|[b H1]])]]; congruence. }
  destruct Hno as (N1 & N2 & N3).
  sw_destruct Hst lab; subst; try (by apply Hsame); try (by destruct N1); try (by destruct (N2 j)); try (by destruct (N3 n)).
  - apply Hsame. by rewrite Hs.
  - destruct (tg_always_enable o) eqn:H1; [right; right; split; [done|]; left; by eexists|]. destruct (tg_always_disable o) eqn:H2; [right; by left|]. destruct Ha. by split.
  - destruct IH as [H1|[H1|(Hen & [[y H1]|[b1 H1]])]]; try congruence. right. right. split; [done|]. cbn. rewrite H1 in Ht. injection Ht as <- <-.
    destruct r; [left|right]; by eexists.
  - destruct IH as [H1|[H1|(Hen & _)]]; try congruence. rewrite Hen. right. by left.
  - apply Hsame. by destruct (ok && negb (topic_on t s)).
  - apply Hsame. destruct (op_keeps _ _ _ _ _ Ho) as (_ & G2 & _). by cbn.
  - apply Hsame. by rewrite Hs.
Qed.
Lemma dead_asking initial existing s lab s' j : existing <> [] -> sw_reach initial existing s -> sw_step s lab = Some s' -> sw_tog s = TAsking j -> sw_tog s' = TAsking j.
Proof.
  intros Hne Hre Hst Hj0. pose proof (Inv0_reach _ _ _ (cm_reach_of _ _ _ Hre)) as H0. unfold Inv0 in H0.
  assert (HS : Forall (fun c => cl_state_of c = ClSending) (cm_callers (sw_cm s))).
  { destruct (cm_starter (sw_cm s)) as [l|]; [|by destruct H0]. by destruct H0 as (_ & _ & _ & _ & _ & _ & H). }
  sw_destruct Hst lab; subst; try done; try (by rewrite Hs); try congruence.
  - pose proof (Forall_lookup_1 _ _ _ _ HS Hj) as Hx. discriminate Hx.
  - by destruct (ok && negb (topic_on t s)).
  - destruct (op_keeps _ _ _ _ _ Ho) as (_ & G2 & _). cbn. by rewrite G2.
Qed.
End invariants.
Lemma last_connected_snoc_self h c : last_connected (h ++ [NConnected c]) (cn_peer c).
Proof. exists h, c, []. repeat split. constructor. Qed.

(** ** The error handler when the node is stopped *)
Section handler.
Context (decay : N -> Z -> N) (o : eh_opts).
Notation es_step := (EhSys_Model.es_step decay o).
Notation as_step := (Asm_Model.as_step decay o).
Notation as_run := (Asm_Model.as_run decay o).
Definition err_exp (s : asm) : Prop := cm_cancelled (as_cm s) = true -> forall j q st x, as_err s = Some j -> cm_callers (as_cm s) !! j = Some (Caller q st x) -> x = true.
Lemma cm_cancelled_step c l c' : cm_step c l = Some c' -> l <> LCancel -> cm_cancelled c' = cm_cancelled c.
Proof. intros Hst Hl. destruct c as [sd st m pe nx bl ca se cc lg]. cm_cases Hst l; subst; done. Qed.
Lemma cm_cancelled_run lc : forall c c', cm_run c lc = Some c' -> cm_cancelled c = true -> cm_cancelled c' = true.
Proof.
  induction lc as [|l lc IH]; intros c c' Hr Hc; cbn [cm_run] in Hr; [by injection Hr as <-|]. destruct (cm_step c l) as [c1|] eqn:H1; [|done]. eapply IH; [exact Hr|].
  clear IH Hr. destruct c as [sd st m pe nx bl ca se cc lg]. cm_cases H1 l; subst; done.
Qed.
Lemma err_exp_cm s c l : KInv s -> cm_step (as_cm s) l = Some c -> l <> LCancel -> (forall j, as_err s = Some j -> l <> LExpire j) -> err_exp s ->
  forall e calls, err_exp (Asm c e calls (as_err s)).
Proof.
  intros HK Hc Hl Hle HE e calls Hcan j q st x Hj Hx. cbn in *. rewrite (cm_cancelled_step _ _ _ Hc Hl) in Hcan.
  destruct HK as (_ & _ & _ & _ & HK & _). rewrite Hj in HK. destruct HK as (id & er & st0 & x0 & _ & Hx0 & _).
  destruct (cm_keeps_step _ _ _ _ Hc (Hle _ Hj) _ _ _ Hx0) as (st' & H' & _). rewrite H' in Hx. injection Hx as <- <- <-. by eapply HE.
Qed.
Lemma expire_ok j c c' : expire (Some j) c = Some c' -> cm_cancelled c' = cm_cancelled c /\ forall i q st x, cm_callers c' !! i = Some (Caller q st x) -> (i = j -> x = true) /\ (i <> j -> cm_callers c !! i = Some (Caller q st x)).
Proof.
  cbn. destruct (cm_callers c !! j) as [[q0 st0 x0]|] eqn:Hj; [|done]. intros [= <-]. split; [done|]. cbn. intros i q st x Hi. split.
  - intros ->. rewrite list_lookup_insert in Hi by by eapply lookup_lt_Some. by injection Hi as <- <- <-.
  - intros Hne. by rewrite list_lookup_insert_ne in Hi.
Qed.
Lemma err_exp_step s lab s' : KInv s -> as_step s lab = Some s' -> err_exp s -> err_exp s'.
Proof.
  intros HK Hst HE.
  assert (Hsame : forall e calls, err_exp (Asm (as_cm s) e calls (as_err s))) by done.
  destruct lab as [l|l| |i|now]; cbn [Asm_Model.as_step] in Hst.
  - assert (H : exists c, cm_step (as_cm s) l = Some c /\ s' = Asm c (as_eh s) (as_calls s) (as_err s) /\ l <> LCancel /\ forall j, as_err s = Some j -> l <> LExpire j).
    { destruct l; try (destruct (decide _) as [?|Hd] in Hst); try discriminate Hst; apply bind_Some in Hst as (c & Hc & Hs); injection Hs as <-; exists c; repeat split; try done.
      intros j Hj [= ->]. apply Hd. by right. }
    destruct H as (c & Hc & -> & Hl & Hle). by eapply err_exp_cm.
  - apply bind_Some in Hst as (e' & He & Hst).
    destruct l as [| | |k|i|i a|i|now|now|i|i|id' er|k|now a|k|k|]; try discriminate Hst; try (injection Hst as <-; done).
    + destruct k as [a|p|p]; [injection Hst as <-; done|apply bind_Some in Hst as (c & Hc & Hs); injection Hs as <-; eapply err_exp_cm; [exact HK|exact Hc|done|done|exact HE]..].
    + apply bind_Some in Hst as (c & Hc & Hs). injection Hs as <-. destruct (linked (as_calls s) i) as [j|] eqn:Hlk; [|injection Hc as <-; done].
      eapply err_exp_cm; [done|exact Hc|done| |done]. intros j' Hj' [= ->].
      destruct HK as (Hnd & _ & _ & _ & HK & _). rewrite Hj' in HK. destruct HK as (id & er & st & x & _ & _ & _ & Hn). apply Hn. eapply snd_in. by apply linked_in.
    + apply bind_Some in Hst as ([id er] & Hk & Hst). apply bind_Some in Hst as (c & Hc & Hst). apply bind_Some in Hst as (c' & Hc' & Hs). injection Hs as <-.
      intros Hcan j q st x [= <-] Hx. cbn in Hcan, Hx. destruct (ask_callers _ _ _ Hc) as [_ Hcc]. destruct (cm_cancelled (as_cm s)) eqn:Hcs.
      * destruct (expire_ok _ _ _ Hc') as [_ Hok]. by eapply (Hok _ _ _ _ Hx).
      * injection Hc' as <-. congruence.
  - apply bind_Some in Hst as (e' & He & Hst). apply bind_Some in Hst as (c & Hc & Hst). apply bind_Some in Hst as (c' & Hc' & Hs). injection Hs as <-.
    intros _ j q st x Hj Hx. cbn in Hj, Hx. rewrite Hj in Hc'. destruct (expire_ok _ _ _ Hc') as [_ Hok]. by eapply (Hok _ _ _ _ Hx).
  - apply bind_Some in Hst as (j' & Hj' & Hst). destruct (cm_callers (as_cm s) !! j') as [[q [| |[a| |]] x]|]; try discriminate Hst.
    apply bind_Some in Hst as (e' & He & Hs). injection Hs as <-. done.
  - apply bind_Some in Hst as (j' & Hj' & Hst). destruct (cm_callers (as_cm s) !! j') as [[q [| |[a| |]] x]|]; try discriminate Hst.
    apply bind_Some in Hst as (e' & He & Hs). injection Hs as <-. intros _ j q' st x' Hj. discriminate Hj.
Qed.
Lemma err_exp_reach initial existing s : as_reach decay o initial existing s -> err_exp s.
Proof. revert s. apply as_reach_ind; [done|]. intros s lab s' Hr IH Hst. eapply err_exp_step; [by eapply KInv_reach|exact Hst|exact IH]. Qed.
Lemma cm_lift_as lc : forall s c, cm_run (as_cm s) lc = Some c -> Forall (fun l => l <> LCancel /\ forall i, l <> LExpire i) lc ->
  as_run s (map ACm lc) = Some (Asm c (as_eh s) (as_calls s) (as_err s)).
Proof.
  induction lc as [|l lc IH]; intros s c Hc HF; cbn [cm_run] in Hc.
  - injection Hc as <-. cbn. by destruct s.
  - apply Forall_cons in HF as [[H1 H2] HF]. destruct (cm_step (as_cm s) l) as [c1|] eqn:Hc1; [|done]. cbn [map Asm_Model.as_run].
    assert (Hs : as_step s (ACm l) = Some (Asm c1 (as_eh s) (as_calls s) (as_err s))).
    { cbn [Asm_Model.as_step]. destruct l; try done; try (by rewrite Hc1). by destruct (H2 i). }
    rewrite Hs. by rewrite (IH (Asm c1 (as_eh s) (as_calls s) (as_err s)) c).
Qed.
Lemma handler_can_end initial existing s : as_reach decay o initial existing s -> es_cancelled (as_eh s) = true -> es_panic (as_eh s) = false ->
  es_loop (as_eh s) <> ENotStarted -> cm_manager (as_cm s) = MServing \/ (exists w q a, cm_manager (as_cm s) = MReplying w q a) ->
  exists rest s', as_run s rest = Some s' /\ es_loop (as_eh s') = EEnded.
Proof.
  intros Hr Hs Hp Hl Hm. pose proof (KInv_reach _ _ _ _ _ Hr) as HK.
  assert (Hexit : forall t, es_loop (as_eh t) = EServing -> es_cancelled (as_eh t) = true -> es_panic (as_eh t) = false -> exists t', as_step t (AEh XExit) = Some t' /\ es_loop (as_eh t') = EEnded).
  { intros t H1 H2 H3. eexists. cbn [Asm_Model.as_step]. unfold EhSys_Model.es_step. rewrite H3, H1, H2. cbn. split; reflexivity. }
  destruct (es_loop (as_eh s)) as [| |id e|] eqn:Hlp; try done.
  - destruct (Hexit s Hlp Hs Hp) as (t' & H1 & H2). exists [AEh XExit], t'. cbn [Asm_Model.as_run]. by rewrite H1.
  - pose proof (err_exp_reach _ _ _ Hr) as HE. destruct HK as (_ & _ & _ & _ & HK & Hcc & _). destruct (as_err s) as [j|] eqn:Hj; [|by destruct (HK id e)].
    destruct HK as (id' & e' & st & x & Hlp' & Hx & _). rewrite Hlp in Hlp'. injection Hlp' as <- <-. rewrite Hcc in Hs.
    assert (x = true) as -> by by eapply HE. destruct (cm_returns _ _ _ _ Hs Hm Hx) as (lc & c & Hlc & HF & a & Ha).
    pose proof (cm_lift_as _ _ _ Hlc HF) as Hrun. pose proof (as_reach_run _ _ _ _ _ _ _ Hr Hrun) as Hr1. rewrite Hj in Hrun, Hr1.
    assert (exists a', a = AAddr a') as [a' ->].
    { destruct (Inv3_reach _ _ _ (proj1 (proj_reach _ _ _ _ _ Hr1))) as [H3 _]. destruct (H3 _ _ _ _ Ha) as [[_ ->]|(l1 & l2 & _ & Hra)]; [by eexists|]. destruct a; try done. by eexists. }
    destruct (eh_step decay o (es_scores (as_eh s)) (EvError 0 id a' e)) as [st' out] eqn:Heh.
    assert (exists t, as_step (Asm c (as_eh s) (as_calls s) (Some j)) (AErrAnswer 0) = Some t /\ es_loop (as_eh t) = EServing /\ es_cancelled (as_eh t) = true /\ es_panic (as_eh t) = false) as (t & Ht & G1 & G2 & G3).
    { cbn [Asm_Model.as_step as_err as_cm as_eh as_calls mbind option_bind]. rewrite Ha. unfold EhSys_Model.es_step. rewrite Hp, Hlp. rewrite Heh. cbn. eexists. split; [done|]. cbn. rewrite Hcc. done. }
    destruct (Hexit t G1 G2 G3) as (t' & H1 & H2). exists (map ACm lc ++ [AErrAnswer 0; AEh XExit]), t'. split; [|done].
    rewrite as_run_app, Hrun. cbn [Asm_Model.as_run]. by rewrite Ht, H1.
  - exists [], s. done.
Qed.
End handler.
