From Verif Require Import GoBase Util ErrHandler_Model Gossip_Model GossipLife_Model Gossip_Spec.

(** ** Manager *)
(** The log as a function of the number of finished sessions and whether one is open. *)
Definition closed_log (n : nat) : list gm_ev := concat (map (fun i => [EvSubscribe i; EvCancel i]) (seq 0 n)).
Definition gm_inv (g : gm) : Prop :=
  if gm_enabled g
  then exists n, gm_next g = S n /\ gm_sub g = Some n /\ gm_log g = closed_log n ++ [EvSubscribe n]
  else gm_sub g = None /\ gm_log g = closed_log (gm_next g).

Lemma closed_log_S n : closed_log (S n) = closed_log n ++ [EvSubscribe n; EvCancel n].
Proof.
  unfold closed_log. rewrite seq_S, map_app, concat_app. simpl. reflexivity.
Qed.
Lemma gm_inv_new j : gm_inv (gm_new j).
Proof. split; reflexivity. Qed.
Lemma gm_step_inv g c : gm_inv g -> exists g', gm_step g c = Done g' /\ gm_inv g' /\ gm_topic g' = gm_topic g.
Proof.
  intros H. unfold gm_inv in H. destruct c as [ok|]; simpl.
  - unfold gm_start. destruct (gm_enabled g) eqn:He.
    + exists g. simpl. unfold gm_inv. rewrite He. auto.
    + destruct H as [H1 H2]. destruct (gm_topic g) eqn:Ht, ok; simpl; eexists; (split; [reflexivity|]);
        unfold gm_inv; simpl; rewrite ?He; auto.
      split; [|done]. exists (gm_next g). rewrite H2. auto.
  - unfold gm_stop. destruct (gm_enabled g) eqn:He; simpl.
    + destruct H as (n & H1 & H2 & H3). rewrite H2. eexists. split; [reflexivity|].
      unfold gm_inv. simpl. split; [|done]. split; [done|]. rewrite H1, closed_log_S, H3, <- app_assoc. reflexivity.
    + exists g. unfold gm_inv. rewrite He. auto.
Qed.
Lemma gm_run_inv cs g : gm_inv g -> exists g', gm_run g cs = Done g' /\ gm_inv g' /\ gm_topic g' = gm_topic g.
Proof.
  revert g. induction cs as [|c cs IH]; intros g H; simpl; [eauto|].
  destruct (gm_step_inv g c H) as (g1 & -> & H1 & Ht). simpl.
  destruct (IH g1 H1) as (g2 & -> & H2 & Ht2). exists g2. rewrite Ht2. auto.
Qed.
Lemma closed_log_elem n x : x ∈ closed_log n <-> exists i, i < n /\ (x = EvSubscribe i \/ x = EvCancel i).
Proof.
  induction n as [|n IH].
  - unfold closed_log. simpl. split; [set_solver|]. intros (i & Hi & _). lia.
  - rewrite closed_log_S, elem_of_app, IH, !elem_of_cons. split.
    + intros [(i & Hi & Hx)|[->|[->|Hx]]]; [exists i; split; [lia|done]|exists n; auto with lia|exists n; auto with lia|set_solver].
    + intros (i & Hi & Hx). destruct (decide (i = n)) as [->|]; [right; tauto|].
      left. exists i. split; [lia|done].
Qed.
Lemma gm_inv_live g : gm_inv g ->
  (gm_enabled g = true <-> exists s, live (gm_log g) s) /\
  (forall s s', live (gm_log g) s -> live (gm_log g) s' -> s = s').
Proof.
  intros H. unfold gm_inv in H. destruct (gm_enabled g).
  - destruct H as (n & _ & _ & ->).
    assert (Hu : forall s, live (closed_log n ++ [EvSubscribe n]) s <-> s = n).
    { intros s. unfold live. rewrite !elem_of_app, !closed_log_elem, !elem_of_list_singleton. split.
      - intros [[(i & Hi & [[= ->]|Hx])|[= ->]] Hc]; [|done|done].
        exfalso. apply Hc. left. eauto.
      - intros ->. split; [auto|]. intros [(i & Hi & [Hx|[= <-]])|Hx]; [done|lia|done]. }
    split; [split; [intros _; exists n; apply Hu; done|done]|].
    intros s s' Hs Hs'. apply Hu in Hs, Hs'. congruence.
  - destruct H as (_ & ->).
    assert (Hu : forall s, ~ live (closed_log (gm_next g)) s).
    { intros s [Hs Hc]. rewrite closed_log_elem in Hs, Hc. destruct Hs as (i & Hi & [[= ->]|Hx]); [|done].
      apply Hc. eauto. }
    split; [split; [done|]|]; [intros [s Hs]|intros s s' Hs _]; exfalso; eapply Hu; eauto.
Qed.
Lemma gm_inv_paired g : gm_inv g -> well_paired 0 (gm_log g).
Proof.
  intros H. assert (Hgen : forall n k tl, (tl = [] \/ tl = [EvSubscribe (k + n)]) ->
    well_paired k (concat (map (fun i => [EvSubscribe i; EvCancel i]) (seq k n)) ++ tl)).
  { induction n as [|n IH]; intros k tl Htl.
    - simpl. destruct Htl as [->| ->]; simpl; [done|lia].
    - cbn [seq map concat app well_paired]. split; [done|]. split; [done|]. apply IH.
      destruct Htl as [->| ->]; [auto|]. right. do 2 f_equal. lia. }
  unfold gm_inv in H. destruct (gm_enabled g).
  - destruct H as (n & _ & _ & ->). apply (Hgen n 0). right. done.
  - destruct H as (_ & ->). rewrite <- (app_nil_r (closed_log _)). apply (Hgen (gm_next g) 0). auto.
Qed.

(** ** Life cycle *)
Lemma life_run_app l a b :
  life_run l (a ++ b) = match life_run l a with Some l' => life_run l' b | None => None end.
Proof. revert l. induction a as [|x a IH]; intros l; simpl; [done|]. destruct (life_step l x); auto. Qed.

Definition quiet (l : life) : Prop := no_outstanding l /\ lf_enabled l = false.

Lemma alter_starter (f : session -> session) i (ss : list session) j s :
  (forall x, ss_starter x <> StNotRun -> ss_starter (f x) <> StNotRun) ->
  (forall k x, ss !! k = Some x -> ss_starter x <> StNotRun) ->
  alter f i ss !! j = Some s -> ss_starter s <> StNotRun.
Proof.
  intros Hf Hall Hj. destruct (decide (i = j)) as [->|Hne].
  - rewrite list_lookup_alter in Hj. destruct (ss !! j) as [x|] eqn:Hx; [|done]. simpl in Hj.
    injection Hj as <-. apply Hf. eauto.
  - rewrite list_lookup_alter_ne in Hj by done. eauto.
Qed.
Lemma upd_quiet f i l : (forall x, ss_starter x <> StNotRun -> ss_starter (f x) <> StNotRun) ->
  quiet l -> quiet (upd i f l).
Proof.
  intros Hf [Hn He]. split; [|done]. intros j s Hj. simpl in Hj. eapply alter_starter; eauto.
Qed.

Lemma quiet_step l lab l' : quiet l -> lab <> LEnable -> life_step l lab = Some l' ->
  quiet l' /\ lf_published l' = lf_published l.
Proof.
  intros Hq Hlab Hs. pose proof Hq as [Hn He]. unfold life_step in Hs. destruct (lf_panic l); [done|].
  destruct lab as [| | |i ok|i|i|i|i|i|i| |]; [done| | | | | | | | | | |].
  - destruct (lf_stopping l); [done|]. injection Hs as <-. split; [|done]. split; [|done].
    intros j s Hj. simpl in Hj. rewrite He in Hj. destruct (lf_owner l); eapply Hn; eauto.
  - destruct (lf_stopping l); [|done]. simpl in Hs. injection Hs as <-. split; [|done]. split; [|exact He].
    intros j s Hj. simpl in Hj. destruct (lf_current l); [|eapply Hn; eauto].
    eapply alter_starter; [|exact Hn|exact Hj]. auto.
  - destruct (lf_sessions l !! i) as [s|] eqn:Hi; [|done]. pose proof (Hn i s Hi).
    destruct (ss_starter s); done.
  - destruct (lf_sessions l !! i) as [s|] eqn:Hi; [|done]. destruct (ss_starter s); try done.
    destruct (bool_decide _); [|done]. injection Hs as <-. split; [apply upd_quiet; auto|done].
  - destruct (lf_sessions l !! i) as [s|] eqn:Hi; [|done]. destruct (ss_starter s); try done.
    destruct (ss_cancelled s); [|done]. injection Hs as <-. split; [apply upd_quiet; auto; done|done].
  - destruct (lf_sessions l !! i) as [s|] eqn:Hi; [|done]. destruct (ss_reader s); try done.
    injection Hs as <-. split; [apply upd_quiet; auto|done].
  - destruct (lf_sessions l !! i) as [s|] eqn:Hi; [|done]. destruct (ss_reader s); try done.
    destruct (ss_subcancelled s); [|done]. injection Hs as <-. split; [apply upd_quiet; auto|done].
  - destruct (lf_sessions l !! i) as [s|] eqn:Hi; [|done]. destruct (ss_reader s); try done.
    destruct (ss_starter s); [destruct (bool_decide _); [|done]|destruct (bool_decide _); [|done]|];
      injection Hs as <-; (split; [|done]); try (apply upd_quiet; auto); exact Hq.
  - destruct (lf_sessions l !! i) as [s|] eqn:Hi; [|done]. destruct (ss_reader s); try done.
    destruct (ss_subcancelled s); [|done]. injection Hs as <-. split; [apply upd_quiet; auto|done].
  - injection Hs as <-. split; [exact Hq|]. simpl. rewrite He. done.
  - injection Hs as <-. split; [|done]. split; [|exact He]. intros j s Hj. simpl in Hj.
    rewrite lookup_map in Hj. destruct (lf_sessions l !! j) as [x|] eqn:Hx; [|done].
    simpl in Hj. injection Hj as <-. simpl. eauto.
Qed.

Lemma quiet_run l sched l' : quiet l -> LEnable ∉ sched -> life_run l sched = Some l' ->
  quiet l' /\ lf_published l' = lf_published l.
Proof.
  revert l. induction sched as [|lab sched IH]; intros l Hq Hn Hr; simpl in Hr; [injection Hr as <-; auto|].
  destruct (life_step l lab) as [l1|] eqn:Hs; [|done].
  destruct (quiet_step l lab l1 Hq ltac:(set_solver) Hs) as [Hq1 Hp1].
  destruct (IH l1 Hq1 ltac:(set_solver) Hr) as [Hq2 Hp2]. split; [done|congruence].
Qed.

Lemma stop_quiet l l1 l2 : no_outstanding l -> life_step l LStop = Some l1 -> life_step l1 LStopCancel = Some l2 ->
  quiet l2 /\ lf_published l2 = lf_published l.
Proof.
  intros Hn H1 H2. unfold life_step in H1. destruct (lf_panic l); [done|].
  destruct (lf_stopping l); [done|]. injection H1 as <-. simpl in H2. injection H2 as <-.
  split; [|done]. split; [|done]. intros j s Hj. simpl in Hj.
  assert (Hss : forall k x, (match lf_owner l with
       | Some o => if lf_enabled l then alter set_subcancel o (lf_sessions l) else lf_sessions l
       | None => lf_sessions l end) !! k = Some x -> ss_starter x <> StNotRun).
  { intros k x Hk. destruct (lf_owner l); [destruct (lf_enabled l)|]; [|eapply Hn; eauto|eapply Hn; eauto].
    eapply alter_starter; [|exact Hn|exact Hk]. auto. }
  destruct (lf_current l) as [c|]; [|eapply Hss; eauto].
  eapply alter_starter; [|exact Hss|exact Hj]. auto.
Qed.

(** *** No crash while no context was cancelled, or while nobody holds a message over the cancel *)
Definition no_closed (l : life) : Prop :=
  forall i s, lf_sessions l !! i = Some s -> ss_cancelled s = false /\ ss_starter s <> StExited.
Definition no_cancel_label (lab : life_label) : Prop := lab <> LStopCancel /\ lab <> LShutdown.

Lemma alter_no_closed (f : session -> session) i (ss : list session) j s :
  (forall x, ss_cancelled x = false /\ ss_starter x <> StExited -> ss_cancelled (f x) = false /\ ss_starter (f x) <> StExited) ->
  (forall k x, ss !! k = Some x -> ss_cancelled x = false /\ ss_starter x <> StExited) ->
  alter f i ss !! j = Some s -> ss_cancelled s = false /\ ss_starter s <> StExited.
Proof.
  intros Hf Hall Hj. destruct (decide (i = j)) as [->|Hne].
  - rewrite list_lookup_alter in Hj. destruct (ss !! j) as [x|] eqn:Hx; [|done]. simpl in Hj.
    injection Hj as <-. apply Hf. eauto.
  - rewrite list_lookup_alter_ne in Hj by done. eauto.
Qed.
Lemma no_closed_step l lab l' : no_closed l -> no_cancel_label lab -> life_step l lab = Some l' ->
  no_closed l' /\ lf_panic l' = false.
Proof.
  intros Hn [Hl1 Hl2] Hs. unfold life_step in Hs. destruct (lf_panic l) eqn:Hp; [done|].
  assert (Hupd : forall i f, (forall x, ss_cancelled x = false /\ ss_starter x <> StExited -> ss_cancelled (f x) = false /\ ss_starter (f x) <> StExited) ->
     no_closed (upd i f l) /\ lf_panic (upd i f l) = false).
  { intros i f Hf. split; [|exact Hp]. intros j s Hj. simpl in Hj. eapply alter_no_closed; eauto. }
  destruct lab as [| | |i ok|i|i|i|i|i|i| |]; try done.
  - destruct (lf_stopping l); [done|]. injection Hs as <-. split; [|done]. intros j s Hj. simpl in Hj.
    apply lookup_app_Some in Hj as [Hj|[_ Hj]]; [eapply Hn; eauto|].
    apply list_lookup_singleton_Some in Hj as [_ <-]. done.
  - destruct (lf_stopping l); [done|]. injection Hs as <-. split; [|done]. intros j s Hj. simpl in Hj.
    destruct (lf_owner l); [destruct (lf_enabled l)|]; [|eapply Hn; eauto|eapply Hn; eauto].
    eapply alter_no_closed; [|exact Hn|exact Hj]. auto.
  - destruct (lf_sessions l !! i) as [s|] eqn:Hi; [|done]. destruct (ss_starter s); try done.
    destruct (lf_enabled l || negb ok); injection Hs as <-.
    + apply Hupd. intros x [? _]. simpl. done.
    + split; [|done]. intros j s' Hj. simpl in Hj. eapply alter_no_closed; [|exact Hn|exact Hj].
      intros x [? _]. simpl. done.
  - destruct (lf_sessions l !! i) as [s|] eqn:Hi; [|done]. destruct (ss_starter s); try done.
    destruct (bool_decide _); [|done]. injection Hs as <-. apply Hupd. auto.
  - destruct (lf_sessions l !! i) as [s|] eqn:Hi; [|done]. destruct (ss_starter s); try done.
    destruct (Hn i s Hi) as [Hc _]. rewrite Hc in Hs. done.
  - destruct (lf_sessions l !! i) as [s|] eqn:Hi; [|done]. destruct (ss_reader s); try done.
    injection Hs as <-. apply Hupd. auto.
  - destruct (lf_sessions l !! i) as [s|] eqn:Hi; [|done]. destruct (ss_reader s); try done.
    destruct (ss_subcancelled s); [|done]. injection Hs as <-. apply Hupd. auto.
  - destruct (lf_sessions l !! i) as [s|] eqn:Hi; [|done]. destruct (ss_reader s); try done.
    destruct (Hn i s Hi) as [_ Hx]. destruct (ss_starter s); [| |done];
      (destruct (bool_decide _); [|done]); injection Hs as <-; apply Hupd; auto.
  - destruct (lf_sessions l !! i) as [s|] eqn:Hi; [|done]. destruct (ss_reader s); try done.
    destruct (ss_subcancelled s); [|done]. injection Hs as <-. apply Hupd. auto.
  - injection Hs as <-. split; done.
Qed.
Lemma no_closed_run l sched l' : no_closed l -> lf_panic l = false -> Forall no_cancel_label sched ->
  life_run l sched = Some l' -> lf_panic l' = false.
Proof.
  revert l. induction sched as [|lab sched IH]; intros l Hn Hp Hall Hr; simpl in Hr; [injection Hr as <-; done|].
  inversion Hall as [|? ? Hlab Hall']; subst. destruct (life_step l lab) as [l1|] eqn:Hs; [|done].
  destruct (no_closed_step l lab l1 Hn Hlab Hs) as [Hn1 Hp1]. eauto.
Qed.

(** Exactly one way to crash: the reader of a session still holds a message after the starter of the
    same session closed the channel. *)
Lemma panic_exactly l lab l' : lf_panic l = false -> life_step l lab = Some l' ->
  (lf_panic l' = true <->
   exists i s, lab = LReaderSend i /\ lf_sessions l !! i = Some s /\ ss_reader s = RdHold /\ ss_starter s = StExited).
Proof.
  intros Hp Hs. unfold life_step in Hs. rewrite Hp in Hs. split.
  - intros Hp'. destruct lab as [| | |i ok|i|i|i|i|i|i| |]; simpl in Hs; repeat case_match; try done;
      injection Hs as <-; simpl in Hp'; try congruence; eauto 10.
  - intros (i & s & -> & Hi & Hr & Hst). rewrite Hi, Hr, Hst in Hs. injection Hs as <-. done.
Qed.

(** ** Validation *)
Section validation.
Context (decode_block : string -> option block) (decode_tx : string -> option transaction)
        (id_of_key : string -> outcome string) (me : string).
Notation vb := (validate_block decode_block id_of_key me).
Notation vt := (validate_tx decode_tx me).

(** The complete behaviour of the block validator, as a table. *)
Lemma vb_undecodable lib apply m : decode_block (m_data m) = None ->
  vb lib apply m = Done (ValResult false [] [(m_received m, EWrap (ESent ErrDeserialization))]).
Proof. intros H. unfold validate_block, apply_block. rewrite H. reflexivity. Qed.
Lemma vb_ours lib apply m b : decode_block (m_data m) = Some b -> m_from m = me ->
  vb lib apply m = Done (ValResult true [] []).
Proof. intros H Hm. unfold validate_block, apply_block. rewrite H, bool_decide_eq_true_2 by done. reflexivity. Qed.
Lemma vb_incomplete lib apply m b : decode_block (m_data m) = Some b -> m_from m <> me -> ~ complete_block b ->
  vb lib apply m = Done (ValResult false [] [(m_received m, EWrap (ESent ErrDeserialization))]).
Proof.
  intros H Hm Hc. unfold validate_block, apply_block. rewrite H, bool_decide_eq_false_2 by done.
  destruct (b_id b) eqn:Hid; [|reflexivity]. destruct (b_header b) as [h|] eqn:Hh; [|reflexivity]. simpl.
  destruct (h_previous h) eqn:Hp; [|reflexivity]. exfalso. apply Hc. split; [congruence|]. exists h. rewrite Hp. done.
Qed.
Lemma vb_complete lib apply m b : decode_block (m_data m) = Some b -> m_from m <> me -> complete_block b ->
  vb lib apply m = Done (if bool_decide (block_height b < lib)%N then ValResult false [] []
    else match apply b with
         | Some _ => ValResult false [b] [(m_received m, EWrap (ESent ErrBlockApplication))]
         | None => ValResult true [b] []
         end).
Proof.
  intros H Hm [Hid (h & Hh & Hp)]. unfold validate_block, apply_block, block_height.
  rewrite H, bool_decide_eq_false_2, Hh by done.
  destruct (b_id b); [|done]. simpl. destruct (h_previous h); [|done]. simpl.
  destruct (bool_decide _); [reflexivity|]. destruct (apply b); reflexivity.
Qed.
Lemma complete_dec b : {complete_block b} + {~ complete_block b}.
Proof.
  destruct (b_id b) eqn:Hid; [|right; intros [H _]; done].
  destruct (b_header b) as [h|] eqn:Hh; [|right; intros [_ (h & H & _)]; congruence].
  destruct (h_previous h) eqn:Hp; [left; split; [congruence|exists h; split; [done|congruence]]|].
  right. intros [_ (h' & H & H')]. congruence.
Qed.
Lemma vb_total lib apply m : exists r, vb lib apply m = Done r.
Proof.
  destruct (decode_block (m_data m)) as [b|] eqn:H; [|eexists; by apply vb_undecodable].
  destruct (decide (m_from m = me)); [eexists; by eapply vb_ours|].
  destruct (complete_dec b); [eexists; by eapply vb_complete|eexists; by eapply vb_incomplete].
Qed.
End validation.

Lemma never_joined calls g : gm_run (gm_new false) calls = Done g -> gm_enabled g = false.
Proof.
  assert (Hgen : forall calls g0 g, gm_topic g0 = false -> gm_enabled g0 = false -> gm_run g0 calls = Done g -> gm_enabled g = false).
  { clear. induction calls as [|c calls IH]; intros g0 g Ht He Hr; simpl in Hr; [injection Hr as <-; done|].
    destruct c as [ok|]; simpl in Hr; [unfold gm_start in Hr|unfold gm_stop in Hr]; rewrite He in Hr; [rewrite Ht in Hr|];
      simpl in Hr; eauto. }
  intros Hr. eapply Hgen; [| |exact Hr]; reflexivity.
Qed.

(** A closed channel means a cancelled context (and then the reader's context is cancelled too). *)
Definition ok_session (s : session) : Prop :=
  (ss_starter s = StExited -> ss_cancelled s = true) /\ (ss_cancelled s = true -> ss_subcancelled s = true).
Definition all_ok (l : life) : Prop := forall i s, lf_sessions l !! i = Some s -> ok_session s.
Lemma alter_ok (f : session -> session) i (ss : list session) j s :
  (forall x, ss !! i = Some x -> ok_session x -> ok_session (f x)) ->
  (forall k x, ss !! k = Some x -> ok_session x) ->
  alter f i ss !! j = Some s -> ok_session s.
Proof.
  intros Hf Hall Hj. destruct (decide (i = j)) as [->|Hne].
  - rewrite list_lookup_alter in Hj. destruct (ss !! j) as [x|] eqn:Hx; [|done]. simpl in Hj.
    injection Hj as <-. apply Hf; eauto.
  - rewrite list_lookup_alter_ne in Hj by done. eauto.
Qed.
Lemma all_ok_step l lab l' : all_ok l -> life_step l lab = Some l' -> all_ok l'.
Proof.
  intros Hn Hs. unfold life_step in Hs. destruct (lf_panic l) eqn:Hp; [done|].
  assert (Hupd : forall i f, (forall x, lf_sessions l !! i = Some x -> ok_session x -> ok_session (f x)) -> all_ok (upd i f l)).
  { intros i f Hf j s Hj. simpl in Hj. eapply alter_ok; eauto. }
  destruct lab as [| | |i ok|i|i|i|i|i|i| |].
  - destruct (lf_stopping l); [done|]. injection Hs as <-. intros j s Hj. simpl in Hj.
    apply lookup_app_Some in Hj as [Hj|[_ Hj]]; [eapply Hn; eauto|].
    apply list_lookup_singleton_Some in Hj as [_ <-]. done.
  - destruct (lf_stopping l); [done|]. injection Hs as <-. intros j s Hj. simpl in Hj.
    destruct (lf_owner l); [destruct (lf_enabled l)|]; [|eapply Hn; eauto|eapply Hn; eauto].
    eapply alter_ok; [|exact Hn|exact Hj]. intros x _ [H1 H2]. split; auto.
  - destruct (lf_stopping l); [|done]. simpl in Hs. injection Hs as <-. intros j s Hj. simpl in Hj.
    destruct (lf_current l); [|eapply Hn; eauto].
    eapply alter_ok; [|exact Hn|exact Hj]. intros x _ [H1 H2]. split; auto.
  - destruct (lf_sessions l !! i) as [s|] eqn:Hi; [|done]. destruct (ss_starter s); try done.
    destruct (lf_enabled l || negb ok); injection Hs as <-.
    + apply Hupd. intros x _ [H1 H2]. split; simpl; [discriminate|auto].
    + intros j s' Hj. simpl in Hj. eapply alter_ok; [|exact Hn|exact Hj]. intros x _ [H1 H2]. split; simpl; [discriminate|auto].
  - destruct (lf_sessions l !! i) as [s|] eqn:Hi; [|done]. destruct (ss_starter s); try done.
    destruct (bool_decide _); [|done]. injection Hs as <-. apply Hupd. auto.
  - destruct (lf_sessions l !! i) as [s|] eqn:Hi; [|done]. destruct (ss_starter s); try done.
    destruct (ss_cancelled s) eqn:Hc; [|done]. injection Hs as <-. apply Hupd. intros x Hx [H1 H2].
    assert (x = s) as -> by congruence. split; auto.
  - destruct (lf_sessions l !! i) as [s|] eqn:Hi; [|done]. destruct (ss_reader s); try done.
    injection Hs as <-. apply Hupd. auto.
  - destruct (lf_sessions l !! i) as [s|] eqn:Hi; [|done]. destruct (ss_reader s); try done.
    destruct (ss_subcancelled s); [|done]. injection Hs as <-. apply Hupd. auto.
  - destruct (lf_sessions l !! i) as [s|] eqn:Hi; [|done]. destruct (ss_reader s); try done.
    destruct (ss_starter s); [destruct (bool_decide _); [|done]|destruct (bool_decide _); [|done]|];
      injection Hs as <-; try (apply Hupd; auto); exact Hn.
  - destruct (lf_sessions l !! i) as [s|] eqn:Hi; [|done]. destruct (ss_reader s); try done.
    destruct (ss_subcancelled s); [|done]. injection Hs as <-. apply Hupd. auto.
  - injection Hs as <-. exact Hn.
  - injection Hs as <-. intros j s Hj. simpl in Hj. rewrite lookup_map in Hj.
    destruct (lf_sessions l !! j) as [x|] eqn:Hx; [|done]. simpl in Hj. injection Hj as <-. split; auto.
Qed.
Lemma exited_cancelled sched l i s : life_run life_init sched = Some l -> lf_sessions l !! i = Some s ->
  ss_starter s = StExited -> ss_cancelled s = true /\ ss_subcancelled s = true.
Proof.
  assert (Hgen : forall sched l0 l, all_ok l0 -> life_run l0 sched = Some l -> all_ok l).
  { clear. induction sched as [|lab sched IH]; intros l0 l H Hr; simpl in Hr; [injection Hr as <-; done|].
    destruct (life_step l0 lab) as [l1|] eqn:Hs; [|done]. eapply IH; [|exact Hr]. eapply all_ok_step; eauto. }
  intros Hr Hi Hst. assert (H0 : all_ok life_init) by (intros j x Hj; done).
  destruct (Hgen _ _ _ H0 Hr i s Hi) as [H1 H2]. auto.
Qed.

Lemma publish_history (calls : list (bool * option string)) :
  let p := fold_left (fun p c => fst (publish (fst c) (snd c) p)) calls (PubState 0 []) in
  ps_sent p = omap snd (filter (fun c => fst c = true) calls) /\
  ps_count p = (N.of_nat (length (ps_sent p)) mod 2 ^ 32)%N.
Proof.
  induction calls as [|[en m] calls IH] using rev_ind; [done|].
  rewrite fold_left_app. simpl in *. destruct IH as [IH1 IH2].
  set (p := fold_left _ calls _) in *. rewrite filter_app, omap_app, <- IH1.
  destruct en; [|rewrite filter_cons_False, filter_nil by done; simpl; rewrite app_nil_r; auto].
  rewrite filter_cons_True, filter_nil by done.
  destruct m as [d|]; simpl; [|rewrite app_nil_r; auto]. split; [done|].
  rewrite app_length, IH2. simpl. unfold two32.
  rewrite N.add_mod_idemp_l by done. f_equal. lia.
Qed.
Lemma fork_bomb_score e : is_err e ErrForkBomb = true -> ErrHandler_Model.eh_score ErrHandler_Model.eh_defaults e = 200000%N.
Proof.
  intros H. assert (Hgen : forall s, s <> ErrForkBomb -> is_err e s = false).
  { intros s Hs. induction e as [s'|e IH|]; simpl in *; [|auto|done].
    apply bool_decide_eq_true in H as ->. apply bool_decide_eq_false. congruence. }
  unfold ErrHandler_Model.eh_score. rewrite !Hgen by done. rewrite H. reflexivity.
Qed.
