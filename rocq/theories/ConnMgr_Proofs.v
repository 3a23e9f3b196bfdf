(** Invariants of the connection manager. *)
From Verif Require Import GoBase ErrHandler_Model ConnMgr_Model ConnMgr_Spec.

Global Instance maddr_eq_dec : EqDecision maddr.
Proof. solve_decision. Defined.
Global Instance conn_eq_dec : EqDecision conn.
Proof. solve_decision. Defined.
Global Instance netev_eq_dec : EqDecision netev.
Proof. solve_decision. Defined.
Global Instance query_eq_dec : EqDecision query.
Proof. solve_decision. Defined.
Global Instance answer_eq_dec : EqDecision answer.
Proof. solve_decision. Defined.
Global Instance asker_eq_dec : EqDecision asker.
Proof. solve_decision. Defined.
Global Instance obs_eq_dec : EqDecision obs.
Proof. solve_decision. Defined.

Lemma cm_run_app s l1 l2 : cm_run s (l1 ++ l2) = match cm_run s l1 with Some s' => cm_run s' l2 | None => None end.
Proof. revert s. induction l1 as [|a l1 IH]; intros s; [done|]. simpl. destruct (cm_step s a); [apply IH|done]. Qed.
Lemma cm_reach_ind initial existing (P : cm -> Prop) :
  P (cm_init initial existing) ->
  (forall s lab s', cm_reach initial existing s -> P s -> cm_step s lab = Some s' -> P s') ->
  forall s, cm_reach initial existing s -> P s.
Proof.
  intros H0 Hs s [sched Hr]. revert s Hr. induction sched as [|lab sched IH] using rev_ind; intros s Hr.
  - injection Hr as <-. done.
  - rewrite cm_run_app in Hr. destruct (cm_run (cm_init initial existing) sched) as [s1|] eqn:H1; [|done].
    simpl in Hr. destruct (cm_step s1 lab) as [s2|] eqn:H2; [|done]. injection Hr as <-.
    eapply Hs; [by exists sched|by apply IH|done].
Qed.
Lemma cm_run_ind (P : cm -> Prop) :
  (forall s lab s', P s -> cm_step s lab = Some s' -> P s') ->
  forall sched s s', P s -> cm_run s sched = Some s' -> P s'.
Proof.
  intros Hs. induction sched as [|lab sched IH]; intros s s' H0 Hr; simpl in Hr; [by injection Hr as <-|].
  destruct (cm_step s lab) as [s1|] eqn:H1; [|done]. eapply IH; [by eapply Hs|done].
Qed.

(** All cases of a step *)
Ltac cm_simpl H := cbn [cm_seeds cm_starter cm_manager cm_peers cm_next cm_blocked cm_callers cm_seed cm_cancelled cm_log app] in H.
Ltac cm_cases Hst lab :=
  destruct lab; unfold cm_step in Hst; cm_simpl Hst;
  repeat (case_match; try discriminate Hst);
  unfold handle, handle_connected, handle_disconnected, seed_result, set_manager, set_blocked, set_callers, set_seed, set_starter, logs in Hst;
  cm_simpl Hst;
  repeat (case_match; try discriminate Hst); injection Hst as <-;
  cbn [cm_seeds cm_starter cm_manager cm_peers cm_next cm_blocked cm_callers cm_seed cm_cancelled cm_log] in *.

(** ** Histories *)
Lemma net_app l1 l2 : net_history (l1 ++ l2) = net_history l1 ++ net_history l2.
Proof. apply omap_app. Qed.
Lemma last_snoc h e p : last_connected (h ++ [e]) p <->
  (ev_peer e = p /\ exists c, e = NConnected c) \/ (ev_peer e <> p /\ last_connected h p).
Proof.
  split.
  - intros (h1 & c & h2 & Heq & Hc & Hf). destruct h2 as [|x h2 _] using rev_ind.
    + apply app_inj_tail in Heq as [_ ->]. left. split; [done|]. by exists c.
    + rewrite app_comm_cons, app_assoc in Heq. apply app_inj_tail in Heq as [-> ->].
      apply Forall_app in Hf as [Hf Hx]. apply Forall_cons in Hx as [Hx _]. right. split; [done|]. by exists h1, c, h2.
  - intros [[Hp (c & ->)]|[Hp (h1 & c & h2 & -> & Hc & Hf)]].
    + exists h, c, []. done.
    + exists h1, c, (h2 ++ [e]). rewrite <- app_assoc. split; [done|]. split; [done|]. apply Forall_app. split; [done|]. constructor; [done|constructor].
Qed.
Lemma session_snoc h e p c : session_conn h p c -> (forall c', e = NDisconnected c' -> cn_peer c' <> p) -> session_conn (h ++ [e]) p c.
Proof.
  intros (h1 & h2 & -> & Hc & Hn & Hf) He. exists h1, (h2 ++ [e]). rewrite <- app_assoc. split; [done|]. split; [done|]. split; [done|].
  apply Forall_app. split; [done|]. constructor; [done|constructor].
Qed.

Definition tracks (h : list netev) (peers : gmap string (nat * conn)) : Prop :=
  forall p, match peers !! p with
            | Some (_, c) => session_conn h p c /\ last_connected h p
            | None => ~ last_connected h p
            end.
Lemma tracks_new h peers c n : tracks h peers -> peers !! cn_peer c = None -> tracks (h ++ [NConnected c]) (<[cn_peer c := (n, c)]> peers).
Proof.
  intros Ht Hn p. specialize (Ht p) as Hp. destruct (decide (cn_peer c = p)) as [<-|Hne].
  - rewrite lookup_insert. rewrite Hn in Hp. split.
    + exists h, []. done.
    + apply last_snoc. left. split; [done|]. by exists c.
  - rewrite lookup_insert_ne by done. destruct (peers !! p) as [[sid c']|] eqn:E.
    + destruct Hp as [H1 H2]. split; [by apply session_snoc|]. apply last_snoc. by right.
    + rewrite last_snoc. intros [[H _]|[_ H]]; [done|]. by apply Hp.
Qed.
Lemma tracks_again h peers c x : tracks h peers -> peers !! cn_peer c = Some x -> tracks (h ++ [NConnected c]) peers.
Proof.
  intros Ht Hn p. specialize (Ht p) as Hp. destruct (peers !! p) as [[sid c']|] eqn:E.
  - destruct Hp as [H1 H2]. split; [by apply session_snoc|]. apply last_snoc. destruct (decide (cn_peer c = p)) as [He|Hne]; [|by right].
    left. split; [done|]. by exists c.
  - rewrite last_snoc. intros [[H _]|[_ H]]; [|by apply Hp]. simpl in H. congruence.
Qed.
Lemma tracks_gone h peers c : tracks h peers -> tracks (h ++ [NDisconnected c]) (delete (cn_peer c) peers).
Proof.
  intros Ht p. specialize (Ht p) as Hp. destruct (decide (cn_peer c = p)) as [<-|Hne].
  - rewrite lookup_delete, last_snoc. intros [[_ (c' & H)]|[H _]]; [discriminate H|]. by apply H.
  - rewrite lookup_delete_ne by done. destruct (peers !! p) as [[sid c']|] eqn:E.
    + destruct Hp as [H1 H2]. split; [apply session_snoc; [done|]|apply last_snoc; by right]. intros c2 [= <-]. done.
    + rewrite last_snoc. intros [[H _]|[_ H]]; [done|]. by apply Hp.
Qed.
Lemma tracks_none h peers c : tracks h peers -> peers !! cn_peer c = None -> tracks (h ++ [NDisconnected c]) peers.
Proof. intros Ht Hn. rewrite <- (delete_notin peers (cn_peer c)) by done. by apply tracks_gone. Qed.

Lemma tracks_answer h peers q : tracks h peers -> right_answer h q (answer_to peers q).
Proof.
  intros Ht. destruct q as [p| |p]; simpl.
  - specialize (Ht p). destruct (peers !! p) as [[sid c]|]; simpl; [|done]. destruct Ht as [H1 H2]. split; [done|]. by exists c.
  - exists (map fst (map_to_list peers)). split; [apply NoDup_fst_map_to_list|]. split.
    + intros p. specialize (Ht p). rewrite elem_of_list_fmap. split.
      * intros ([p' x] & -> & Hin). apply elem_of_map_to_list in Hin. simpl in *. rewrite Hin in Ht. destruct x. apply Ht.
      * intros Hl. destruct (peers !! p) as [x|] eqn:E; [|by destruct Ht]. exists (p, x). split; [done|]. by apply elem_of_map_to_list.
    + rewrite map_length. reflexivity.
  - rewrite bool_decide_eq_true. specialize (Ht p). destruct (peers !! p) as [[sid c]|].
    + split; [intros _; apply Ht|intros _; by eexists].
    + split; [intros [? H]; discriminate H|done].
Qed.

(** ** Before and after the start *)
Definition Inv0 (existing : list conn) (s : cm) : Prop :=
  match cm_starter s with
  | Some l => l = existing /\ cm_manager s = MNotStarted /\ cm_seed s = SdNotStarted /\ cm_log s = [] /\ cm_peers s = ∅ /\ cm_next s = 0 /\
      Forall (fun c => cl_state_of c = ClSending) (cm_callers s)
  | None => existing = [] /\ cm_manager s <> MNotStarted /\ cm_seed s <> SdNotStarted
  end.
Lemma Inv0_reach initial existing s : cm_reach initial existing s -> Inv0 existing s.
Proof.
  apply cm_reach_ind; clear s; [by repeat split; try constructor|].
  intros [sd st m pe nx bl ca se cc lg] lab s' _ HI Hst. unfold Inv0 in HI. cbn [cm_starter cm_manager cm_seed cm_log cm_peers cm_next cm_callers] in HI.
  cm_cases Hst lab; subst; unfold Inv0; cbn [cm_starter cm_manager cm_seed cm_log cm_peers cm_next cm_callers] in *; try done;
    destruct_and?; try done; try (by destruct st; destruct_and?).
  - repeat (split; [done|]). apply Forall_app. split; [done|]. by repeat constructor.
  - repeat (split; [done|]). apply Forall_insert; [done|].
    match goal with H : ca !! i = Some _, Hf : Forall _ ca |- _ => exact (Forall_lookup_1 _ _ _ _ Hf H) end.
  - match goal with H : ca !! i = Some _, Hf : Forall _ ca |- _ => pose proof (Forall_lookup_1 _ _ _ _ Hf H) as Hx; discriminate Hx end.
Qed.

(** ** The peers and the history; every answer is right *)
Definition answers_right (l : list obs) : Prop :=
  forall l1 w q a l2, l = l1 ++ GAnswer w q a :: l2 -> right_answer (net_history l1) q a.
Definition Inv1 (s : cm) : Prop :=
  let L := rev (cm_log s) in
  match cm_manager s with MEnded => cm_peers s = ∅ | _ => tracks (net_history L) (cm_peers s) end /\
  match cm_manager s with MReplying _ q a => right_answer (net_history L) q a | _ => True end /\
  answers_right L.
Lemma snoc_split {A} (l l1 l2 : list A) a x : l ++ [a] = l1 ++ x :: l2 ->
  (l2 = [] /\ l = l1 /\ a = x) \/ (exists l2', l2 = l2' ++ [a] /\ l = l1 ++ x :: l2').
Proof.
  destruct l2 as [|y l2 _] using rev_ind; intros H.
  - left. by apply app_inj_tail in H as [-> ->].
  - right. rewrite app_comm_cons, app_assoc in H. apply app_inj_tail in H as [-> ->]. eauto.
Qed.
Lemma answers_snoc l x : answers_right l -> (forall w q a, x = GAnswer w q a -> right_answer (net_history l) q a) -> answers_right (l ++ [x]).
Proof.
  intros Hl Hx l1 w q a l2 H. apply snoc_split in H as [(_ & <- & ->)|(l2' & _ & ->)]; [by eapply Hx|by eapply Hl].
Qed.
Lemma answers_plain l l2 : answers_right l -> Forall (fun x => match x with GAnswer _ _ _ => False | _ => True end) l2 -> answers_right (l ++ l2).
Proof.
  intros Hl. induction l2 as [|x l2 IH] using rev_ind; intros Hf; [by rewrite app_nil_r|].
  apply Forall_app in Hf as [Hf Hx]. apply Forall_cons in Hx as [Hx _]. rewrite app_assoc. apply answers_snoc; [by apply IH|].
  intros w q a ->. done.
Qed.
Lemma net_plain l2 : Forall (fun x => match x with GNet _ => False | _ => True end) l2 -> net_history l2 = [].
Proof. induction 1 as [|x l2 Hx Hl IH]; [done|]. destruct x; try done; exact IH. Qed.
Lemma Inv1_reach initial existing s : cm_reach initial existing s -> Inv1 s.
Proof.
  apply cm_reach_ind; clear s.
  - split; [|split; [done|]].
    + intros p. cbn [cm_init cm_peers]. rewrite lookup_empty. intros (h1 & c & h2 & H & _). by destruct h1.
    + intros l1 w q a l2 H. by destruct l1.
  - intros [sd st m pe nx bl ca se cc lg] lab s' Hreach (Ht & Hr & Ha) Hst.
    cbn [cm_manager cm_peers cm_log] in *.
    cm_cases Hst lab; subst; unfold Inv1; cbn [cm_manager cm_peers cm_log rev app] in *;
      rewrite ?rev_app_distr; cbn [rev app]; rewrite <- ?app_assoc, ?net_app; cbn [net_history omap list_omap app].
    all: try done.
    all: rewrite ?app_nil_r in *.
    all: try (split; [done|]; split; [done|]; apply answers_plain; [done|repeat constructor; done]).
    all: try (split; [done|]; split; [by apply tracks_answer|done]).
    + split; [by eapply tracks_again|]. split; [done|]. apply answers_plain; [done|repeat constructor].
    + split; [by eapply tracks_new|]. split; [done|]. apply answers_plain; [done|repeat constructor].
    + pose proof (Inv0_reach _ _ _ Hreach) as H0. unfold Inv0 in H0. cbn in H0. by destruct_and!.
    + split; [by eapply tracks_again|]. split; [done|]. apply answers_plain; [done|repeat constructor].
    + split; [by eapply tracks_new|]. split; [done|]. apply answers_plain; [done|repeat constructor].
    + split; [by eapply tracks_gone|]. split; [done|]. apply answers_plain; [done|repeat constructor].
    + split; [by eapply tracks_none|]. split; [done|]. apply answers_plain; [done|repeat constructor].
    + split; [done|]. split; [|done]. by apply (tracks_answer _ _ (QIs p)).
    + split; [done|]. split; [done|]. change [GAnswer (ByCaller i) q a; GReturn i a] with ([GAnswer (ByCaller i) q a] ++ [GReturn i a]).
      rewrite app_assoc. apply answers_plain; [|repeat constructor]. apply answers_snoc; [done|]. intros w q' a' [= <- <- <-]. done.
    + split; [done|]. split; [done|]. change [GAnswer BySeeds q (AIs true); GSeed p true] with ([GAnswer BySeeds q (AIs true)] ++ [GSeed p true]).
      rewrite app_assoc. apply answers_plain; [|repeat constructor]. apply answers_snoc; [done|]. intros w q' a' [= <- <- <-]. done.
    + split; [done|]. split; [done|]. change [GAnswer BySeeds q (AIs false); GSeed p false; GDial p] with ([GAnswer BySeeds q (AIs false)] ++ [GSeed p false; GDial p]).
      rewrite app_assoc. apply answers_plain; [|repeat constructor]. apply answers_snoc; [done|]. intros w q' a' [= <- <- <-]. done.
    + split; [done|]. split; [done|]. apply answers_plain; [done|]. constructor; [done|]. apply Forall_rev, Forall_forall.
      intros x Hx. apply elem_of_list_fmap in Hx as (y & -> & _). done.
Qed.

(** ** Sessions *)
Lemma started_app l1 l2 : started (l1 ++ l2) = started l1 ++ started l2.
Proof. apply omap_app. Qed.
Lemma csess_app l1 l2 : cancelled_sessions (l1 ++ l2) = cancelled_sessions l1 ++ cancelled_sessions l2.
Proof. apply omap_app. Qed.
Lemma elem_started l sid c : GStart sid c ∈ l -> sid ∈ started l.
Proof. intros H. apply elem_of_list_omap. by exists (GStart sid c). Qed.
Lemma elem_csess l sid : GCancel sid ∈ l <-> sid ∈ cancelled_sessions l.
Proof.
  unfold cancelled_sessions. rewrite elem_of_list_omap. split.
  - intros H. by exists (GCancel sid).
  - intros (x & Hx & Heq). destruct x; try discriminate Heq. by injection Heq as ->.
Qed.
Definition why_cancelled (l : list obs) : Prop := forall l1 sid l2, l = l1 ++ GCancel sid :: l2 ->
  GShutdown ∈ l1 \/ exists l1' c0 c, l1 = l1' ++ [GNet (NDisconnected c0)] /\ GStart sid c ∈ l1' /\ cn_peer c = cn_peer c0.
Definition Sess (peers : gmap string (nat * conn)) (next : nat) (L : list obs) : Prop :=
  (forall sid c, running L sid c <-> peers !! cn_peer c = Some (sid, c)) /\
  (forall p sid c, peers !! p = Some (sid, c) -> cn_peer c = p) /\
  started L = seq 0 next /\
  (NoDup (cancelled_sessions L) /\ forall sid, sid ∈ cancelled_sessions L -> sid < next) /\
  (forall sid c c', GStart sid c ∈ L -> GStart sid c' ∈ L -> c = c') /\
  why_cancelled L.

Definition neutral (x : obs) : bool := match x with GStart _ _ | GCancel _ => false | _ => true end.
Lemma neutral_notin l x : forallb neutral l = true -> x ∈ l -> neutral x = true.
Proof. intros H Hx. rewrite forallb_forall in H. apply H. by apply elem_of_list_In. Qed.
Lemma why_plain L l : why_cancelled L -> forallb neutral l = true -> why_cancelled (L ++ l).
Proof.
  intros Hw. induction l as [|x l IH] using rev_ind; intros Hf; [by rewrite app_nil_r|].
  rewrite forallb_app in Hf. apply andb_true_iff in Hf as [Hf Hx]. rewrite app_assoc.
  intros l1 sid l2 H. apply snoc_split in H as [(_ & _ & ->)|(l2' & _ & H)]; [done|]. by eapply (IH Hf).
Qed.
Lemma Sess_plain peers next L l : Sess peers next L -> forallb neutral l = true -> Sess peers next (L ++ l).
Proof.
  intros (H1 & H2 & H3 & [H4 H5] & H6 & H7) Hl.
  assert (Hs : started l = []).
  { clear -Hl. induction l as [|x l IH]; [done|]. simpl in Hl. apply andb_true_iff in Hl as [Hx Hl]. destruct x; try done; by apply IH. }
  assert (Hc : cancelled_sessions l = []).
  { clear -Hl. induction l as [|x l IH]; [done|]. simpl in Hl. apply andb_true_iff in Hl as [Hx Hl]. destruct x; try done; by apply IH. }
  assert (Hin : forall sid c, GStart sid c ∈ L ++ l <-> GStart sid c ∈ L).
  { intros sid c. rewrite elem_of_app. split; [|by left]. intros [H|H]; [done|]. by apply (neutral_notin _ _ Hl) in H. }
  split; [|split; [done|split; [|split; [|split]]]].
  - intros sid c. rewrite <- H1. unfold running. rewrite Hin, !elem_csess, csess_app, Hc, app_nil_r. done.
  - by rewrite started_app, Hs, app_nil_r.
  - rewrite csess_app, Hc, app_nil_r. done.
  - intros sid c c'. rewrite !Hin. apply H6.
  - by apply why_plain.
Qed.
Lemma Sess_start peers next L c : Sess peers next L -> peers !! cn_peer c = None ->
  Sess (<[cn_peer c := (next, c)]> peers) (S next) (L ++ [GStart next c]).
Proof.
  intros (H1 & H2 & H3 & [H4 H5] & H6 & H7) Hn.
  assert (Hfresh : forall c', GStart next c' ∉ L).
  { intros c' H. apply elem_started in H. rewrite H3, elem_of_seq in H. lia. }
  assert (Hcl : cancelled_sessions (L ++ [GStart next c]) = cancelled_sessions L) by (rewrite csess_app; apply app_nil_r).
  split; [|split; [|split; [|split; [|split]]]].
  - intros sid c'. unfold running. rewrite elem_csess, Hcl, <- elem_csess, elem_of_app, elem_of_list_singleton. split.
    + intros [[H|[= -> ->]] Hc].
      * assert (Hr : peers !! cn_peer c' = Some (sid, c')) by (apply H1; done).
        rewrite lookup_insert_ne; [done|]. intros He. rewrite He in Hn. congruence.
      * by rewrite lookup_insert.
    + destruct (decide (cn_peer c = cn_peer c')) as [He|Hne].
      * rewrite <- He, lookup_insert. intros [= <- <-]. split; [by right|]. rewrite elem_csess. intros H. apply H5 in H. lia.
      * rewrite lookup_insert_ne by done. intros H. apply H1 in H as [Ha Hb]. split; [by left|done].
  - intros p sid c'. destruct (decide (cn_peer c = p)) as [<-|Hne].
    + rewrite lookup_insert. by intros [= <- <-].
    + rewrite lookup_insert_ne by done. apply H2.
  - rewrite started_app, H3, seq_S. done.
  - rewrite Hcl. split; [done|]. intros sid H. apply H5 in H. lia.
  - intros sid c1 c2. rewrite !elem_of_app, !elem_of_list_singleton. intros [Ha|[= -> ->]] [Hb|Hb].
    + by eapply H6.
    + injection Hb as -> ->. by apply Hfresh in Ha.
    + by apply Hfresh in Hb.
    + by injection Hb as ->.
  - intros l1 sid l2 H. apply snoc_split in H as [(_ & _ & H)|(l2' & _ & H)]; [discriminate H|]. by eapply H7.
Qed.
Lemma Sess_stop peers next L sid c c0 : Sess peers next L -> peers !! cn_peer c0 = Some (sid, c) ->
  Sess (delete (cn_peer c0) peers) next (L ++ [GNet (NDisconnected c0); GCancel sid]).
Proof.
  intros (H1 & H2 & H3 & [H4 H5] & H6 & H7) Hp.
  assert (Hc : cn_peer c = cn_peer c0) by (by eapply H2).
  assert (Hr : running L sid c) by (apply H1; by rewrite Hc).
  destruct Hr as [Hr1 Hr2].
  assert (Hcl : cancelled_sessions (L ++ [GNet (NDisconnected c0); GCancel sid]) = cancelled_sessions L ++ [sid]) by (rewrite csess_app; done).
  split; [|split; [|split; [|split; [|split]]]].
  - intros sid' c'. unfold running. rewrite elem_csess, Hcl, (elem_of_app (cancelled_sessions L)), elem_of_list_singleton, <- elem_csess. split.
    + intros [Ha Hb]. rewrite elem_of_app in Ha. destruct Ha as [Ha|Ha]; [|set_solver].
      assert (Hx : peers !! cn_peer c' = Some (sid', c')) by (apply H1; split; [done|]; intros H; apply Hb; by left).
      rewrite lookup_delete_ne; [done|]. intros He. apply Hb. right. rewrite <- He in Hx. congruence.
    + intros H. apply lookup_delete_Some in H as [Hne H]. apply H1 in H as [Ha Hb]. split; [by apply elem_of_app; left|].
      intros [H| ->]; [done|]. pose proof (H6 _ _ _ Ha Hr1). subst c'. by apply Hne.
  - intros p sid' c' H. apply lookup_delete_Some in H as [_ H]. by eapply H2.
  - rewrite started_app, app_nil_r. done.
  - rewrite Hcl. split.
    + apply NoDup_app. split; [done|]. split; [|apply NoDup_singleton]. intros x Hx. rewrite elem_of_list_singleton. intros ->. by rewrite <- elem_csess in Hx.
    + intros x. rewrite elem_of_app, elem_of_list_singleton. intros [Hx| ->]; [by apply H5|]. apply elem_started in Hr1. rewrite H3, elem_of_seq in Hr1. lia.
  - intros x c1 c2. rewrite !elem_of_app. intros [Ha|Ha] [Hb|Hb]; [by eapply H6|set_solver..].
  - change [GNet (NDisconnected c0); GCancel sid] with ([GNet (NDisconnected c0)] ++ [GCancel sid]). rewrite app_assoc.
    intros l1 sid' l2 H. apply snoc_split in H as [(_ & <- & [= <-])|(l2' & _ & H)].
    + right. exists L, c0, c. done.
    + apply snoc_split in H as [(_ & _ & H)|(l3 & _ & H)]; [discriminate H|]. by eapply H7.
Qed.
Lemma csess_map (l : list (string * (nat * conn))) : cancelled_sessions (map (fun x => GCancel x.2.1) l) = map (fun x => x.2.1) l.
Proof. induction l as [|x l IH]; [done|]. simpl. f_equal. exact IH. Qed.
Lemma Sess_shutdown peers next L : Sess peers next L ->
  Sess ∅ next (L ++ GShutdown :: rev (map (fun x => GCancel x.2.1) (map_to_list peers))).
Proof.
  intros (H1 & H2 & H3 & [H4 H5] & H6 & H7). set (ks := rev (map (fun x => GCancel x.2.1) (map_to_list peers))).
  assert (Hks : forall sid, GCancel sid ∈ ks <-> exists c, running L sid c).
  { intros sid. unfold ks. rewrite elem_of_reverse || rewrite <- elem_of_list_In, <- in_rev, elem_of_list_In || idtac.
    assert (Hrev : GCancel sid ∈ rev (map (fun x => GCancel x.2.1) (map_to_list peers)) <-> GCancel sid ∈ map (fun x : string * (nat * conn) => GCancel x.2.1) (map_to_list peers)).
    { rewrite !elem_of_list_In. symmetry. apply in_rev. }
    rewrite Hrev, elem_of_list_fmap. split.
    - intros ([p [sid' c]] & [= ->] & Hin). apply elem_of_map_to_list in Hin. exists c. apply H1. by rewrite (H2 _ _ _ Hin).
    - intros (c & Hr). apply H1 in Hr. exists (cn_peer c, (sid, c)). split; [done|]. by apply elem_of_map_to_list. }
  assert (Hkc : forall x, x ∈ ks -> exists sid, x = GCancel sid).
  { intros x Hx. unfold ks in Hx. apply elem_of_list_In, in_rev, elem_of_list_In, elem_of_list_fmap in Hx as (y & -> & _). by eexists. }
  assert (Hst : forall sid c, GStart sid c ∈ L ++ GShutdown :: ks <-> GStart sid c ∈ L).
  { intros sid c. rewrite elem_of_app, elem_of_cons. split; [|by left]. intros [H|[H|H]]; [done|done|]. apply Hkc in H as [? H]. discriminate H. }
  assert (Hcl : forall sid, GCancel sid ∈ L ++ GShutdown :: ks <-> GCancel sid ∈ L \/ exists c, running L sid c).
  { intros sid. rewrite elem_of_app, elem_of_cons, Hks. split; [intros [H|[H|H]]; [by left|done|by right]|intros [H|H]; [by left|by right; right]]. }
  split; [|split; [|split; [|split; [|split]]]].
  - intros sid c. rewrite lookup_empty. split; [|done]. intros [Ha Hb]. exfalso. apply Hst in Ha. apply Hb, Hcl.
    destruct (decide (GCancel sid ∈ L)) as [Hx|Hx]; [by left|right]. exists c. done.
  - intros p sid c. by rewrite lookup_empty.
  - rewrite started_app, H3. assert (Hz : started (GShutdown :: ks) = []).
    { change (started (GShutdown :: ks)) with (started ks). clear -Hkc. induction ks as [|x l IH]; [done|].
      destruct (Hkc x) as [sid ->]; [left|]. apply IH. intros y Hy. apply Hkc. by right. }
    by rewrite Hz, app_nil_r.
  - assert (Hcs : cancelled_sessions (L ++ GShutdown :: ks) = cancelled_sessions L ++ cancelled_sessions ks) by (rewrite csess_app; done).
    assert (Hp : cancelled_sessions ks ≡ₚ map (fun x : string * (nat * conn) => x.2.1) (map_to_list peers)).
    { rewrite <- csess_map. unfold cancelled_sessions. unfold ks. apply omap_Permutation. symmetry. apply Permutation_rev. }
    rewrite Hcs. split.
    + apply NoDup_app. split; [done|]. split.
      * intros sid Ha Hb. rewrite <- elem_csess in Ha, Hb. apply Hks in Hb as [c [_ Hb]]. done.
      * rewrite Hp. apply NoDup_fmap_2_strong; [|apply NoDup_map_to_list].
        intros [p1 [s1 c1]] [p2 [s2 c2]] Hx Hy Heq. simpl in Heq. subst s2. apply elem_of_map_to_list in Hx, Hy.
        pose proof (H2 _ _ _ Hx) as E1. pose proof (H2 _ _ _ Hy) as E2. subst p1 p2.
        assert (c1 = c2) as -> by (eapply H6; [apply H1; exact Hx|apply H1; exact Hy]). done.
    + intros sid. rewrite elem_of_app. intros [Ha|Ha]; [by apply H5|]. rewrite <- elem_csess in Ha. apply Hks in Ha as [c [Ha _]].
      apply elem_started in Ha. rewrite H3, elem_of_seq in Ha. lia.
  - intros sid c1 c2. rewrite !Hst. apply H6.
  - intros l1 sid l2 Heq.
    destruct (decide (GShutdown ∈ l1)) as [Hin|Hin]; [by left|]. right.
    (* the shutdown is not in l1, so the cancel is in L *)
    assert (Hx : exists k, L = l1 ++ GCancel sid :: k).
    { clear -Heq Hin. revert L Heq. induction l1 as [|x l1 IH]; intros L Heq; simpl in *.
      - destruct L as [|y L]; simpl in Heq; [discriminate Heq|]. injection Heq as -> _. by eexists.
      - destruct L as [|y L]; simpl in Heq; [injection Heq as <- Heq; exfalso; apply Hin; left|].
        injection Heq as -> Heq. destruct (IH ltac:(intros H; apply Hin; by right) L Heq) as [k ->]. by eexists. }
    destruct Hx as [k Hk]. destruct (H7 _ _ _ Hk) as [H|H]; [done|]. exact H.
Qed.

Definition Inv2 (s : cm) : Prop :=
  Sess (cm_peers s) (cm_next s) (rev (cm_log s)) /\ (GShutdown ∈ cm_log s <-> cm_manager s = MEnded).
Lemma Inv2_reach initial existing s : cm_reach initial existing s -> Inv2 s.
Proof.
  apply cm_reach_ind; clear s.
  - split; [|split; [by intros H; apply elem_of_nil in H|done]]. split; [|split; [|split; [|split; [|split]]]].
    + intros sid c. cbn. rewrite lookup_empty. split; [intros [H _]; by apply elem_of_nil in H|done].
    + intros p sid c. cbn. by rewrite lookup_empty.
    + done.
    + split; [constructor|]. intros sid H. by apply elem_of_nil in H.
    + intros sid c c' H. by apply elem_of_nil in H.
    + intros l1 sid l2 H. by destruct l1.
  - intros [sd st m pe nx bl ca se cc lg] lab s' Hreach (HS & He) Hst. 
    pose proof (Inv0_reach _ _ _ Hreach) as H0. unfold Inv0 in H0.
    cbn [cm_starter cm_manager cm_seed cm_peers cm_next cm_log] in *.
    cm_cases Hst lab; subst; unfold Inv2; cbn [cm_starter cm_manager cm_seed cm_peers cm_next cm_log rev] in *;
      rewrite ?rev_app_distr; cbn [rev app]; rewrite <- ?app_assoc; cbn [app];
      try (split; [exact HS|exact He]);
      try (split; [exact HS|]; split; [intros H; apply He in H; by try discriminate H|by try discriminate]);
      try (split; [by apply Sess_plain|]; rewrite ?elem_of_cons; split; [intros H; repeat (destruct H as [H|H]; [discriminate H|]); apply He in H; exact H || discriminate H|intros H; first [discriminate H|apply He in H; auto]]).
    all: try (match goal with |- Sess (<[cn_peer ?c := _]> _) _ _ /\ _ =>
        split; [change [GNet (NConnected c); GStart nx c] with ([GNet (NConnected c)] ++ [GStart nx c]); rewrite app_assoc;
                by apply Sess_start; [apply Sess_plain|] |] end).
    all: try (match goal with |- Sess (delete _ _) _ _ /\ _ => split; [by eapply Sess_stop|] end).
    all: try (match goal with |- Sess ∅ _ _ /\ _ =>
        split; [by apply Sess_shutdown|]; split; [done|]; intros _; apply elem_of_app; right; left end).
    all: try (rewrite !elem_of_cons; split; [intros H; repeat (destruct H as [H|H]; [discriminate H|]); by apply He in H|intros H; discriminate H]).
    split; [done|]. destruct H0 as (_ & -> & _). split; [intros H; by apply He in H|intros H; discriminate H].
Qed.

(** ** Callers *)
Definition calls_right (ca : list caller) (L : list obs) : Prop :=
  forall i q a x, ca !! i = Some (Caller q (ClReturned a) x) ->
    (x = true /\ a = no_answer q) \/ (exists l1 l2, L = l1 ++ GReturn i a :: l2 /\ right_answer (net_history l1) q a).
Definition replying_to (m : manager) (ca : list caller) : Prop :=
  match m with
  | MReplying (ByCaller i) q a => exists st x, ca !! i = Some (Caller q st x) /\ st <> ClSending
  | _ => True
  end.
Lemma calls_grow ca L l : calls_right ca L -> calls_right ca (L ++ l).
Proof.
  intros Hc i q a x H. destruct (Hc _ _ _ _ H) as [H'|(l1 & l2 & -> & H')]; [by left|right].
  exists l1, (l2 ++ l). split; [by rewrite <- app_assoc|done].
Qed.
Lemma calls_new ca L q : calls_right ca L -> calls_right (ca ++ [Caller q ClSending false]) L.
Proof.
  intros Hc i q1 a x Hl. apply lookup_app_Some in Hl as [Hl|[_ Hl]]; [by eapply Hc|].
  destruct (i - length ca); discriminate Hl.
Qed.
Lemma calls_insert ca L i q st x st' x' :
  ca !! i = Some (Caller q st x) -> calls_right ca L ->
  (forall a, st' = ClReturned a -> (x' = true /\ a = no_answer q) \/
     (exists l1 l2, L = l1 ++ GReturn i a :: l2 /\ right_answer (net_history l1) q a)) ->
  calls_right (<[i := Caller q st' x']> ca) L.
Proof.
  intros Hi Hc Hn i1 q1 a x1 Hl. apply list_lookup_insert_Some in Hl as [(<- & Hl & _)|(_ & Hl)]; [|by eapply Hc].
  injection Hl as <- -> <-. by apply Hn.
Qed.
Lemma replying_new m ca c : replying_to m ca -> replying_to m (ca ++ [c]).
Proof.
  destruct m as [| |[i|] q a|]; [done|done| |done|done]. intros (st & x & H & Hs). exists st, x.
  split; [by apply lookup_app_l_Some|done].
Qed.
Lemma replying_insert m ca i q st x st' x' :
  ca !! i = Some (Caller q st x) -> (st <> ClSending -> st' <> ClSending) -> replying_to m ca ->
  replying_to m (<[i := Caller q st' x']> ca).
Proof.
  intros Hi Hn. destruct m as [| |[j|] q1 a|]; [done|done| |done|done]. intros (st1 & x1 & H & Hs).
  destruct (decide (i = j)) as [<-|Hne].
  - rewrite Hi in H. injection H as <- <- <-. exists st', x'. split; [|by apply Hn].
    apply list_lookup_insert. by eapply lookup_lt_Some.
  - exists st1, x1. by rewrite list_lookup_insert_ne by done.
Qed.
Definition Inv3 (s : cm) : Prop := calls_right (cm_callers s) (rev (cm_log s)) /\ replying_to (cm_manager s) (cm_callers s).
Lemma Inv3_reach initial existing s : cm_reach initial existing s -> Inv3 s.
Proof.
  apply cm_reach_ind; clear s; [done|].
  intros [sd st m pe nx bl ca se cc lg] lab s' Hreach (Hc & Hm) Hst.
  destruct (Inv1_reach _ _ _ Hreach) as (_ & Hr & _).
  cbn [cm_manager cm_callers cm_log] in *. clear Hreach.
  cm_cases Hst lab; subst; unfold Inv3; cbn [cm_manager cm_callers cm_log rev] in *;
    rewrite ?rev_app_distr; cbn [rev app]; rewrite <- ?app_assoc; cbn [app];
    try (split; [exact Hc|exact Hm]); try (split; [exact Hc|done]);
    try (split; [by apply calls_grow|exact Hm]); try (split; [by apply calls_grow|done]);
    try (split; [by apply calls_new|by apply replying_new]).
  all: try (match goal with |- calls_right (<[_ := Caller _ (ClReturned _) true]> _) _ /\ _ =>
    split; [eapply calls_insert; [done|by apply calls_grow|intros ? [= <-]; by left]
           |by eapply replying_insert] end).
  all: try (match goal with |- calls_right (<[_ := Caller _ ?st true]> _) _ /\ _ =>
    split; [eapply calls_insert; [done|done|intros a1 ->;
              match goal with Hi : _ !! _ = Some (Caller _ _ _) |- _ => destruct (Hc _ _ _ _ Hi) as [[_ H']|H']; [by left|by right] end]
           |by eapply replying_insert] end).
  - split; [eapply calls_insert; [done|done|intros a Ha; discriminate Ha]|].
    exists ClWaiting, cl_expired. split; [|done]. apply list_lookup_insert. by eapply lookup_lt_Some.
  - split; [|done]. destruct Hm as (st1 & x1 & Hm1 & Hm2).
    match goal with H : ca !! i = Some (Caller _ ClWaiting _) |- _ => rename H into Hi end.
    rewrite Hi in Hm1. injection Hm1 as <- <- <-.
    eapply calls_insert; [done|by apply calls_grow|]. intros a1 [= <-]. right.
    exists (rev lg ++ [GAnswer (ByCaller i) cl_query a]), []. rewrite <- app_assoc. split; [done|]. rewrite net_app, app_nil_r. done.
Qed.

(** ** The seed loop *)
Lemma trace_app l1 l2 : seed_trace (l1 ++ l2) = seed_trace l1 ++ seed_trace l2.
Proof. apply List.filter_app. Qed.
Definition in_round (initial : list string) (rest : list string) (r : list obs) : Prop :=
  exists vs, NoDup (map fst vs ++ rest) /\ (forall p, p ∈ map fst vs ++ rest <-> p ∈ initial) /\ r = GRound :: flat_map visit vs.
Definition round_state (initial : list string) (d : seed_ctl) (t : list obs) : Prop :=
  match d with
  | SdNotStarted => t = []
  | SdPausing => exists rs, Forall (complete_round initial) rs /\ t = concat rs
  | SdNext todo | SdDialing _ todo => exists rs r, Forall (complete_round initial) rs /\ in_round initial todo r /\ t = concat rs ++ r
  | SdSending p todo | SdWaiting p todo => exists rs r, Forall (complete_round initial) rs /\ in_round initial (p :: todo) r /\ t = concat rs ++ r
  end.
Definition Inv4 (initial : list string) (s : cm) : Prop :=
  cm_seeds s = remove_dups initial /\ round_state initial (cm_seed s) (seed_trace (rev (cm_log s))).
Lemma round_visit initial p todo b rs r :
  in_round initial (p :: todo) r -> 
  exists r', in_round initial todo r' /\ concat rs ++ r ++ visit (p, b) = concat rs ++ r'.
Proof.
  intros (vs & Hn & Hp & ->). exists (GRound :: flat_map visit (vs ++ [(p, b)])). split.
  - exists (vs ++ [(p, b)]). rewrite map_app. cbn [map fst]. rewrite <- app_assoc. cbn [app]. done.
  - f_equal. rewrite flat_map_app. cbn [flat_map app]. by rewrite app_nil_r.
Qed.
Lemma Inv4_reach initial existing s : cm_reach initial existing s -> Inv4 initial s.
Proof.
  apply cm_reach_ind; clear s; [done|].
  intros [sd st m pe nx bl ca se cc lg] lab s' Hreach (Hd & Hr) Hst.
  pose proof (Inv0_reach _ _ _ Hreach) as H0. unfold Inv0 in H0.
  cbn [cm_seeds cm_starter cm_manager cm_seed cm_peers cm_next cm_log] in *. subst sd. clear Hreach.
  cm_cases Hst lab; subst; unfold Inv4; cbn [cm_seeds cm_manager cm_callers cm_seed cm_log rev] in *; (split; [done|]);
    rewrite ?rev_app_distr; cbn [rev app]; rewrite <- ?app_assoc; cbn [app]; try exact Hr;
    rewrite ?trace_app; try (cbn [seed_trace List.filter]; rewrite ?app_nil_r; exact Hr);
    try (destruct Hr as (rs & r & Hrs & Hr' & ->); cbn [seed_trace List.filter]; rewrite <- app_assoc;
         match goal with
         | |- round_state _ (SdNext ?todo) (_ ++ _ ++ [GSeed ?p true]) =>
           destruct (round_visit initial p todo true rs r Hr') as (r' & Hr1 & Hr2); unfold visit in Hr2; cbn [fst snd] in Hr2; rewrite Hr2; by exists rs, r'
         | |- round_state _ (SdDialing _ ?todo) (_ ++ _ ++ [GSeed ?p false; _]) =>
           destruct (round_visit initial p todo false rs r Hr') as (r' & Hr1 & Hr2); unfold visit in Hr2; cbn [fst snd] in Hr2; rewrite Hr2; by exists rs, r'
         end).
  all: try (match goal with |- context [map (fun x : string * (nat * conn) => GCancel x.2.1) ?l] =>
     assert (Hnil : seed_trace (rev (map (fun x : string * (nat * conn) => GCancel x.2.1) l)) = [])
       by (rewrite <- map_rev; induction (rev l) as [|x l' IH]; [done|exact IH]);
     cbn [seed_trace List.filter]; fold (seed_trace (rev (map (fun x : string * (nat * conn) => GCancel x.2.1) l)));
     rewrite Hnil, app_nil_r; exact Hr end).
  all: try (match goal with |- round_state _ (SdNext ?order) (_ ++ seed_trace [GRound]) =>
     destruct Hr as (rs & Hrs & ->); exists rs, [GRound]; split; [done|]; split; [|done];
     exists []; cbn [map app flat_map];
     match goal with H : bool_decide _ && bool_decide _ = true |- _ =>
       apply andb_true_iff in H as [H1 H2]; apply bool_decide_eq_true in H1; apply bool_decide_eq_true in H2 end;
     split; [done|]; split; [|done]; intros p;
     rewrite <- (elem_of_list_to_set (C:=gset string)), H2, elem_of_list_to_set; apply elem_of_remove_dups end).
  all: try (destruct Hr as (rs & r & Hrs & (vs & Hn & Hp & ->) & ->); exists (rs ++ [GRound :: flat_map visit vs]);
     rewrite app_nil_r in Hn, Hp;
     split; [apply Forall_app; split; [done|]; apply Forall_cons_2; [by exists vs|apply Forall_nil_2]|];
     rewrite concat_app; cbn [concat]; by rewrite app_nil_r).
  all: try (destruct H0 as (_ & _ & -> & -> & _); exists []; done).
Qed.

Definition asking (d : seed_ctl) : nat := match d with SdWaiting _ _ => 1 | _ => 0 end.
Definition Inv5 (s : cm) : Prop :=
  forall l1 l2, rev (cm_log s) = l1 ++ GShutdown :: l2 -> cm_manager s = MEnded /\ dials l2 + asking (cm_seed s) <= 1.
Lemma dials_app l1 l2 : dials (l1 ++ l2) = dials l1 + dials l2.
Proof. unfold dials. by rewrite List.filter_app, app_length. Qed.
Lemma split_app_plain (L l l1 l2 : list obs) : GShutdown ∉ l -> L ++ l = l1 ++ GShutdown :: l2 ->
  exists l3, L = l1 ++ GShutdown :: l3 /\ l2 = l3 ++ l.
Proof.
  intros Hl Heq. revert L Heq. induction l1 as [|x l1 IH]; intros L Heq.
  - destruct L as [|y L]; cbn [app] in Heq.
    + subst l. exfalso. apply Hl. left.
    + injection Heq as -> <-. by exists L.
  - destruct L as [|y L]; cbn [app] in Heq.
    + exfalso. apply Hl. rewrite Heq. right. apply elem_of_app. right. left.
    + injection Heq as -> Heq. destruct (IH _ Heq) as (l3 & -> & ->). by exists l3.
Qed.
Lemma split_first (L X l1 l2 : list obs) : GShutdown ∉ L -> L ++ GShutdown :: X = l1 ++ GShutdown :: l2 -> GShutdown ∉ X -> l2 = X.
Proof.
  intros HL Heq HX. revert l1 Heq. induction L as [|y L IH]; intros l1 Heq; cbn [app] in Heq.
  - destruct l1 as [|z l1]; cbn [app] in Heq; [by injection Heq|].
    injection Heq as _ ->. exfalso. apply HX, elem_of_app. right. left.
  - destruct l1 as [|z l1]; cbn [app] in Heq; injection Heq as -> Heq.
    + exfalso. apply HL. left.
    + apply (IH ltac:(intros H; apply HL; by right) l1 Heq).
Qed.
Lemma Inv5_reach initial existing s : cm_reach initial existing s -> Inv5 s.
Proof.
  apply cm_reach_ind; clear s; [intros l1 l2 H; by destruct l1|].
  intros [sd st m pe nx bl ca se cc lg] lab s' Hreach HI Hst.
  pose proof (Inv2_reach _ _ _ Hreach) as (_ & He). pose proof (Inv0_reach _ _ _ Hreach) as H0. unfold Inv0 in H0.
  cbn [cm_starter cm_manager cm_seed cm_peers cm_next cm_log] in *. clear Hreach.
  unfold Inv5 in HI. cbn [cm_starter cm_manager cm_seed cm_log] in HI.
  cm_cases Hst lab; subst; unfold Inv5; cbn [cm_starter cm_manager cm_seed cm_log rev] in *;
    rewrite ?rev_app_distr; cbn [rev app]; rewrite <- ?app_assoc; cbn [app]; try exact HI.
  all: try (intros l1 l2 Heq; exfalso;
    assert (Hin : GShutdown ∈ lg) by (rewrite <- (rev_involutive lg), Heq; apply elem_of_list_In; rewrite <- in_rev; apply elem_of_list_In, elem_of_app; right; left);
    apply He in Hin; discriminate Hin).
  all: try (intros l1 l2 Heq; apply split_app_plain in Heq as (l3 & Heq & ->);
    [destruct (HI _ _ Heq) as [HM HD]; first [discriminate HM|split; [done|]; rewrite dials_app; cbn in *; lia]
    |rewrite ?elem_of_cons, ?elem_of_nil; intuition discriminate]).
  all: try (intros l1 l2 Heq; destruct (HI _ _ Heq) as [HM HD]; first [discriminate HM|split; [done|]; cbn in *; lia]).
  all: try (match goal with |- context [map (fun x : string * (nat * conn) => GCancel x.2.1) ?l] =>
    assert (Hnil : forall l', l' = rev (map (fun x : string * (nat * conn) => GCancel x.2.1) l) -> GShutdown ∉ l' /\ dials l' = 0)
       by (intros l' ->; rewrite <- map_rev; induction (rev l) as [|x l' IH]; cbn [map];
           [split; [apply not_elem_of_nil|done]|destruct IH as [IH1 IH2]; split; [apply not_elem_of_cons; done|exact IH2]]) end;
    intros l1 l2 Heq; assert (Hno : GShutdown ∉ rev lg)
      by (intros Hin; apply elem_of_list_In in Hin; rewrite <- in_rev in Hin; apply elem_of_list_In, He in Hin; discriminate Hin)).
  - intros l1 l2 Heq. destruct H0 as (_ & _ & _ & -> & _). by destruct l1.
  - destruct (Hnil _ eq_refl) as [Hn1 Hn2]. apply split_first in Heq as ->; [|done|done]. split; [done|].
    rewrite Hn2. destruct se; cbn; lia.
Qed.

(** What the seed loop is told *)
Definition seed_told (cancelled : bool) (L : list obs) : Prop :=
  forall l1 p b l2, L = l1 ++ GSeed p b :: l2 ->
    (cancelled = true /\ b = false) \/ (exists l0, l1 = l0 ++ [GAnswer BySeeds (QIs p) (AIs b)]).
Definition Inv6 (s : cm) : Prop :=
  seed_told (cm_cancelled s) (rev (cm_log s)) /\
  match cm_manager s, cm_seed s with
  | MReplying BySeeds q _, SdWaiting p _ => q = QIs p
  | _, _ => True
  end.
Lemma told_plain c L l : seed_told c L -> (forall p b, GSeed p b ∉ l) -> seed_told c (L ++ l).
Proof.
  intros H Hl. induction l as [|x l IH] using rev_ind; [by rewrite app_nil_r|].
  intros l1 p b l2 Heq. rewrite app_assoc in Heq. destruct l2 as [|y l2 _] using rev_ind.
  - apply app_inj_tail in Heq as [_ ->]. exfalso. apply (Hl p b), elem_of_app. right. left.
  - rewrite app_comm_cons, app_assoc in Heq. apply app_inj_tail in Heq as [Heq _].
    eapply IH; [|exact Heq]. intros p1 b1 Hin. apply (Hl p1 b1), elem_of_app. by left.
Qed.
Lemma told_snoc c L p b : seed_told c L -> (c = true /\ b = false) \/ (exists l0, L = l0 ++ [GAnswer BySeeds (QIs p) (AIs b)]) ->
  seed_told c (L ++ [GSeed p b]).
Proof.
  intros H Hn l1 p1 b1 l2 Heq. destruct l2 as [|y l2 _] using rev_ind.
  - apply app_inj_tail in Heq as [-> Heq]. injection Heq as -> ->. done.
  - rewrite app_comm_cons, app_assoc in Heq. apply app_inj_tail in Heq as [Heq _]. by eapply H.
Qed.
Lemma told_cancel c L : seed_told c L -> seed_told true L.
Proof. intros H l1 p b l2 Heq. destruct (H _ _ _ _ Heq) as [[_ ?]|?]; [by left|by right]. Qed.
Ltac no_seed := intros ? ? Hin; rewrite ?elem_of_cons, ?elem_of_nil in Hin; intuition discriminate.
Lemma Inv6_reach initial existing s : cm_reach initial existing s -> Inv6 s.
Proof.
  apply cm_reach_ind; clear s; [split; [intros l1 p b l2 H; by destruct l1|done]|].
  intros [sd st m pe nx bl ca se cc lg] lab s' Hreach (HT & Hq) Hst. clear Hreach.
  cbn [cm_starter cm_manager cm_seed cm_cancelled cm_log] in *.
  cm_cases Hst lab; subst; unfold Inv6; cbn [cm_manager cm_seed cm_cancelled cm_log rev] in *;
    rewrite ?rev_app_distr; cbn [rev app]; rewrite <- ?app_assoc; cbn [app];
    try (split; [exact HT|exact Hq]); try (split; [exact HT|done]);
    try (split; [by eapply told_cancel|exact Hq]);
    try (split; [apply told_plain; [exact HT|no_seed]|done]);
    try (split; [apply told_plain; [exact HT|no_seed]|exact Hq]).
  all: try (match goal with |- seed_told true (rev _ ++ [GSeed ?p false; GDial ?p]) /\ _ =>
    split; [|done]; change [GSeed p false; GDial p] with ([GSeed p false] ++ [GDial p]); rewrite app_assoc;
    apply told_plain; [apply told_snoc; [exact HT|by left]|no_seed] end).
  - split; [by eapply told_cancel|done].
  - split; [|done]. change [GAnswer BySeeds (QIs p) (AIs true); GSeed p true] with ([GAnswer BySeeds (QIs p) (AIs true)] ++ [GSeed p true]).
    rewrite app_assoc. apply told_snoc; [apply told_plain; [exact HT|no_seed]|]. right. by exists (rev lg).
  - split; [|done].
    change [GAnswer BySeeds (QIs p) (AIs false); GSeed p false; GDial p]
      with ([GAnswer BySeeds (QIs p) (AIs false)] ++ [GSeed p false] ++ [GDial p]).
    rewrite !app_assoc. apply told_plain; [|no_seed].
    apply told_snoc; [apply told_plain; [exact HT|no_seed]|]. right. by exists (rev lg).
  - split; [|done]. apply told_plain; [exact HT|]. intros p b Hin.
    apply elem_of_cons in Hin as [Hin|Hin]; [discriminate Hin|].
    apply elem_of_list_In in Hin. rewrite <- in_rev in Hin. apply in_map_iff in Hin as (x & Hx & _). discriminate Hx.
Qed.

(** ** More about histories *)
Lemma stays_connected h1 c t p : cn_peer c = p -> Forall (fun e => forall c', e = NDisconnected c' -> cn_peer c' <> p) t ->
  last_connected (h1 ++ NConnected c :: t) p.
Proof.
  intros Hc. induction t as [|e t IH] using rev_ind; intros Hf.
  - by exists h1, c, [].
  - apply Forall_app in Hf as [Hf He]. apply Forall_cons in He as [He _].
    rewrite app_comm_cons, app_assoc. apply last_snoc. destruct (decide (ev_peer e = p)) as [Hp|Hp].
    + left. split; [done|]. destruct e as [c'|c']; [by exists c'|]. by destruct (He c').
    + right. split; [done|]. by apply IH.
Qed.
Lemma session_unique h p c1 c2 : session_conn h p c1 -> session_conn h p c2 -> c1 = c2.
Proof.
  intros (a1 & b1 & H1 & Hp1 & Hn1 & Hf1) (a2 & b2 & H2 & Hp2 & Hn2 & Hf2). rewrite H1 in H2.
  apply app_eq_inv in H2 as [(k & -> & H2)|(k & -> & H2)].
  - destruct k as [|x k]; cbn [app] in H2; [by injection H2|]. injection H2 as <- H2. exfalso. apply Hn1.
    apply stays_connected; [done|]. rewrite H2 in Hf2. by apply Forall_app in Hf2 as [? _].
  - destruct k as [|x k]; cbn [app] in H2; [by injection H2|]. injection H2 as <- H2. exfalso. apply Hn2.
    apply stays_connected; [done|]. rewrite H2 in Hf1. by apply Forall_app in Hf1 as [? _].
Qed.
Lemma open_stays h c : real_history h -> one_at_a_time h -> is_open h c -> last_connected h (cn_peer c).
Proof.
  intros [Hn Hr] H1 (h1 & h2 & -> & Hno). apply stays_connected; [done|]. apply Forall_forall.
  intros e He c' -> Hp. apply elem_of_list_split in He as (t1 & t2 & ->).
  assert (Hin : NConnected c' ∈ h1 ++ NConnected c :: t1).
  { eapply (Hr _ _ t2). by rewrite <- app_assoc. }
  apply elem_of_app in Hin as [Hin|Hin].
  - apply elem_of_list_split in Hin as (g1 & g2 & ->).
    eapply (H1 _ _ _ eq_refl c'); [done|]. exists g1, g2. split; [done|]. intros Hd.
    apply NoDup_app in Hn as (_ & Hn & _). apply (Hn (NDisconnected c')).
    + apply elem_of_app. right. by right.
    + right. apply elem_of_app. right. left.
  - apply elem_of_cons in Hin as [[= ->]|Hin].
    + apply Hno, elem_of_app. right. left.
    + apply elem_of_list_split in Hin as (g1 & g2 & ->).
      eapply (H1 (h1 ++ NConnected c :: g1) c' (g2 ++ NDisconnected c' :: t2)); [by rewrite <- !app_assoc; cbn; rewrite <- ?app_assoc|by symmetry|].
      exists h1, g1. split; [done|]. intros Hd. apply Hno. rewrite <- app_assoc. apply elem_of_app. by left.
Qed.
Lemma last_open h p : last_connected h p -> exists c, cn_peer c = p /\ is_open h c.
Proof.
  intros (h1 & c & h2 & -> & Hc & Hf). exists c. split; [done|]. exists h1, h2. split; [done|].
  intros Hin. rewrite Forall_forall in Hf. by apply (Hf _ Hin).
Qed.

(** ** The loop between a question and its answer *)
Definition can_answer (m : manager) (ca : list caller) (d : seed_ctl) (c : bool) : Prop :=
  match m with
  | MReplying (ByCaller i) q a => exists st x, ca !! i = Some (Caller q st x) /\ (st = ClWaiting \/ x = true)
  | MReplying BySeeds q a => (exists b, a = AIs b) /\ ((exists p todo, d = SdWaiting p todo) \/ c = true)
  | _ => True
  end.
Definition Inv7 (s : cm) : Prop := can_answer (cm_manager s) (cm_callers s) (cm_seed s) (cm_cancelled s).
Lemma can_answer_insert m ca d c i q st x st' x' :
  ca !! i = Some (Caller q st x) -> (st = ClWaiting \/ x = true -> st' = ClWaiting \/ x' = true) -> can_answer m ca d c ->
  can_answer m (<[i := Caller q st' x']> ca) d c.
Proof.
  intros Hi Hn. destruct m as [| |[j|] q1 a|]; [done|done| |done|done]. intros (st1 & x1 & H & Hs).
  destruct (decide (i = j)) as [<-|Hne].
  - rewrite Hi in H. injection H as <- <- <-. exists st', x'. split; [|by apply Hn].
    apply list_lookup_insert. by eapply lookup_lt_Some.
  - exists st1, x1. by rewrite list_lookup_insert_ne by done.
Qed.
Lemma can_answer_cancel m ca d c : can_answer m ca d c -> can_answer m ca d true.
Proof. destruct m as [| |[j|] q1 a|]; [done|done|done| |done]. intros [H _]. split; [done|by right]. Qed.
Lemma can_answer_new m ca d c x : can_answer m ca d c -> can_answer m (ca ++ [x]) d c.
Proof.
  destruct m as [| |[j|] q1 a|]; [done|done| |done|done]. intros (st1 & x1 & H & Hs). exists st1, x1.
  split; [by apply lookup_app_l_Some|done].
Qed.
Lemma can_answer_seed m ca d d' c : can_answer m ca d c -> (forall p todo, d <> SdWaiting p todo) -> can_answer m ca d' c.
Proof. destruct m as [| |[j|] q1 a|]; [done|done|done| |done]. intros [H [(p & todo & ->)| -> ]] Hd; [by destruct (Hd p todo)|]. split; [done|by right]. Qed.
Lemma Inv7_reach initial existing s : cm_reach initial existing s -> Inv7 s.
Proof.
  apply cm_reach_ind; clear s; [done|].
  intros [sd st m pe nx bl ca se cc lg] lab s' Hreach HI Hst. unfold Inv7 in HI. clear Hreach.
  cbn [cm_starter cm_manager cm_seed cm_callers cm_cancelled cm_log] in *.
  destruct lab; unfold cm_step in Hst; cm_simpl Hst;
  repeat (case_match; try discriminate Hst);
  unfold handle, handle_connected, handle_disconnected, seed_result, set_manager, set_blocked, set_callers, set_seed, set_starter, logs in Hst;
  cm_simpl Hst;
  repeat (case_match; try discriminate Hst); injection Hst as <-; subst; unfold Inv7;
    cbn [cm_seeds cm_starter cm_manager cm_peers cm_next cm_blocked cm_callers cm_seed cm_cancelled cm_log];
    try exact HI; try exact I; try (by eapply can_answer_cancel); try (by eapply can_answer_new);
    try (eapply can_answer_insert; [done| |done]; intuition discriminate);
    try (eapply can_answer_seed; [exact HI|intros ? ? Hx; discriminate Hx]).
  - eexists _, _. split; [apply list_lookup_insert; by eapply lookup_lt_Some|by left].
  - split; [by eexists|]. left. by eexists _, _.
  - destruct m as [| |[j|] q1 a|]; [done|done|done| |done]. destruct HI as [H _]. split; [done|by right].
Qed.

(** ** A loop that waits for a caller that is gone *)
Definition stuck (i : nat) (s : cm) : Prop :=
  cm_starter s = None /\ cm_cancelled s = false /\ exists q a a' x, cm_manager s = MReplying (ByCaller i) q a /\ cm_callers s !! i = Some (Caller q (ClReturned a') x).
Definition served (l : list obs) : list obs := List.filter serves l.
Lemma stuck_step i s lab s' : stuck i s -> lab <> LCancel -> cm_step s lab = Some s' ->
  stuck i s' /\ served (cm_log s') = served (cm_log s).
Proof.
  intros (Hs0 & Hc & q & a & a' & x & Hm & Hl) Hn Hst. destruct s as [sd st m pe nx bl ca se cc lg].
  cbn [cm_cancelled cm_manager cm_callers cm_log cm_starter] in *. subst m cc st.
  destruct lab; unfold cm_step in Hst; cm_simpl Hst;
  repeat (case_match; try discriminate Hst); try done;
  unfold handle, handle_connected, handle_disconnected, seed_result, set_manager, set_blocked, set_callers, set_seed, set_starter, logs in Hst;
  cm_simpl Hst; try injection Hst as <-; unfold stuck;
  cbn [cm_seeds cm_starter cm_manager cm_peers cm_next cm_blocked cm_callers cm_seed cm_cancelled cm_log];
  try (split; [split; [done|]; split; [done|]; by exists q, a, a', x|done]); simplify_eq.
  - split; [|done]. split; [done|]. split; [done|]. exists q, a, a', x. split; [done|]. by apply lookup_app_l_Some.
  - split; [|done]. split; [done|]. split; [done|]. destruct (decide (i0 = i)) as [->|Hne].
    + simplify_eq. exists q, a, a', true. split; [done|]. apply list_lookup_insert. by eapply lookup_lt_Some.
    + exists q, a, a', x. split; [done|]. by rewrite list_lookup_insert_ne.
  - split; [|done]. split; [done|]. split; [done|]. destruct (decide (i0 = i)) as [->|Hne]; [simplify_eq|].
    exists q, a, a', x. split; [done|]. by rewrite list_lookup_insert_ne.
Qed.
Lemma stuck_run i sched s s' : LCancel ∉ sched -> stuck i s -> cm_run s sched = Some s' ->
  stuck i s' /\ served (cm_log s') = served (cm_log s).
Proof.
  revert s. induction sched as [|lab sched IH]; intros s Hn Hs Hr; cbn [cm_run] in Hr; [injection Hr as <-; done|].
  apply not_elem_of_cons in Hn as [Hn1 Hn2].
  destruct (cm_step s lab) as [s1|] eqn:E; [|discriminate Hr].
  destruct (stuck_step _ _ _ _ Hs (not_eq_sym Hn1) E) as [H1 H2]. destruct (IH _ Hn2 H1 Hr) as [H3 H4]. split; [done|]. by rewrite H4.
Qed.

(** ** After the end of the loop *)
Lemma ended_step s lab s' : cm_manager s = MEnded -> cm_starter s = None -> cm_step s lab = Some s' ->
  cm_manager s' = MEnded /\ cm_starter s' = None /\
  (forall i q x, cm_callers s !! i = Some (Caller q ClSending x) -> exists x', cm_callers s' !! i = Some (Caller q ClSending x')) /\
  (forall p todo, cm_seed s = SdSending p todo -> cm_seed s' = SdSending p todo).
Proof.
  intros Hm Hs0 Hst. destruct s as [sd st m pe nx bl ca se cc lg]. cbn [cm_cancelled cm_manager cm_callers cm_log cm_starter] in *. subst m st.
  destruct lab; unfold cm_step in Hst; cm_simpl Hst;
  repeat (case_match; try discriminate Hst); try done;
  unfold handle, handle_connected, handle_disconnected, seed_result, set_manager, set_blocked, set_callers, set_seed, set_starter, logs in Hst;
  cm_simpl Hst; try injection Hst as <-;
  cbn [cm_seeds cm_starter cm_manager cm_peers cm_next cm_blocked cm_callers cm_seed cm_cancelled cm_log];
  (split; [done|]; split; [done|]; split; [|by intros; simplify_eq]); try (intros j q' x' Hj; by exists x').
  - intros j q' x' Hj. exists x'. by apply lookup_app_l_Some.
  - intros j q' x' Hj. destruct (decide (i = j)) as [->|Hne].
    + simplify_eq. exists true. apply list_lookup_insert. by eapply lookup_lt_Some.
    + exists x'. by rewrite list_lookup_insert_ne.
  - intros j q' x' Hj. destruct (decide (i = j)) as [->|Hne]; [simplify_eq|].
    exists x'. by rewrite list_lookup_insert_ne.
Qed.
Lemma ended_run sched s s' : cm_manager s = MEnded -> cm_starter s = None -> cm_run s sched = Some s' ->
  cm_manager s' = MEnded /\ cm_starter s' = None /\
  (forall i q x, cm_callers s !! i = Some (Caller q ClSending x) -> exists x', cm_callers s' !! i = Some (Caller q ClSending x')) /\
  (forall p todo, cm_seed s = SdSending p todo -> cm_seed s' = SdSending p todo).
Proof.
  revert s. induction sched as [|lab sched IH]; intros s Hm Hst Hr; cbn [cm_run] in Hr.
  - injection Hr as <-. repeat (split; [done|]). split; [|done]. intros i q x H. by exists x.
  - destruct (cm_step s lab) as [s1|] eqn:E; [|discriminate Hr].
    destruct (ended_step _ _ _ Hm Hst E) as (H1 & H2 & H3 & H4). destruct (IH _ H1 H2 Hr) as (H5 & H6 & H7 & H8).
    repeat (split; [done|]). split.
    + intros i q x H. destruct (H3 _ _ _ H) as [x' H']. by eapply H7.
    + intros p todo H. by apply H8, H4.
Qed.
