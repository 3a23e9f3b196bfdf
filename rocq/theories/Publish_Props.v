(** Property theorems C129: while gossip is reported as enabled, blocks and transactions are published. *)
From Verif Require Import GoBase ConnMgr_Model ConnMgr_Spec Toggle_Model Asm_Props Switch_Model Switch_Spec Switch_Proofs Switch_Props Punctual_Model Punctual_Spec Punctual_Props.

(** The node reports gossip as enabled and is not just being told to switch it off; the goroutines that EnableGossip began have run. *)
Definition settled_on (s : sw) : Prop :=
  sw_enabled s = true /\ (forall x, sw_tog s <> TCalling false x) /\ sw_tog s <> TStoring false /\ all_started s.
(** The subscription to the topic that was made when gossip was last switched on did not fail (earlier ones may have). *)
Definition subscribed (t : gtopic) (sched : list slabel) (s : sw) : Prop := forall ok, WStarter (pred (length (sw_sessions s))) t ok ∈ sched -> ok = true.
(** Full statement: then whatever block or transaction is to be published is handed to its topic, until Close is called.
    REFUTED: if the subscription to the topic fails, the goroutine goes on without it (gossip.go:291: the error of Start is
    dropped), gossip is reported and announced as enabled, and nothing is published or tried again until gossip was switched off and on. *)
Definition C129_statement : Prop := forall o initial existing sched s t s', sw_run o (sw_init initial existing) sched = Some s -> sw_close s = CNotCalled -> settled_on s ->
  sw_step o s (WPublish t) = Some s' -> sw_published s' = S (sw_published s).

Local Definition mute : list slabel := sw_demo ++ sw_tick 5 ++ sw_enable ++ [WStarter 0 Blocks false; WStarter 0 Txs true].
(** No call of EnableGossip goes on *)
Definition not_switched (lab : slabel) : Prop := match lab with WOp _ | WCloseOp _ => False | _ => True end.
Local Definition quiet (s : sw) : Prop := all_started s /\ sw_blocks s = false.
Local Lemma quiet_step o s lab s' : not_switched lab -> sw_step o s lab = Some s' -> quiet s -> quiet s' /\ (lab = WPublish Blocks -> sw_published s' = sw_published s).
Proof.
  intros Hl Hst [HA Hb]. unfold quiet. sw_destruct Hst lab; subst; try done.
  - rewrite Hs. done.
  - by repeat case_match.
  - rewrite Hs. done.
  - exfalso. pose proof (proj1 (Forall_lookup _ _) HA _ _ Hg) as [G1 G2]. by destruct t.
  - split; [|done]. split; [|done]. unfold all_started in *. cbn. pose proof (proj1 (Forall_lookup _ _) HA _ _ Hg) as [G1 G2].
    apply Forall_insert; [done|]. destruct t; cbn; by split.
  - split; [done|]. intros [= ->]. cbn. by rewrite Hb.
  - rewrite Hs. split; [|done]. split; [|done]. by apply all_started_end.
Qed.
(** ** C129, refuted: and it stays so, whatever else happens. *)
Theorem C129_mute_refuted : exists s, sw_run auto (sw_init ["s"] []) mute = Some s /\ sw_close s = CNotCalled /\ settled_on s /\ announcements s = [true] /\
  forall rest s1 s2, Forall not_switched rest -> sw_run auto s rest = Some s1 -> sw_step auto s1 (WPublish Blocks) = Some s2 -> sw_published s2 = sw_published s1.
Proof.
  eexists. split; [vm_compute; reflexivity|]. split; [reflexivity|]. split; [|split; [reflexivity|]].
  - split; [reflexivity|]. split; [intros x H; discriminate H|]. split; [discriminate|]. repeat constructor; discriminate.
  - intros rest s1 s2 HF Hr Hp. assert (Hq : quiet s1).
    { eapply (sw_run_ind auto quiet not_switched); [|exact HF| |exact Hr].
      - intros x lab x' Hl Hx Hst. exact (proj1 (quiet_step auto x lab x' Hl Hst Hx)).
      - split; [repeat constructor; discriminate|reflexivity]. }
    exact (proj2 (quiet_step auto s1 (WPublish Blocks) s2 I Hp Hq) eq_refl).
Qed.
Print Assumptions C129_mute_refuted.
Theorem C129_refuted : ~ C129_statement.
Proof.
  intros H. destruct C129_mute_refuted as (s & Hr & Hc & Hs & _ & Hq).
  destruct (sw_step auto s (WPublish Blocks)) as [s2|] eqn:Hp.
  - pose proof (H auto ["s"] [] mute s Blocks s2 Hr Hc Hs Hp) as H1. pose proof (Hq [] s s2 (Forall_nil_2 _) eq_refl Hp) as H2. lia.
  - unfold sw_step in Hp. destruct (safe_unclosed auto ["s"] [] s (ex_intro _ _ Hr) Hc) as [_ Hpa]. rewrite Hpa in Hp. discriminate Hp.
Qed.
Print Assumptions C129_refuted.

(** Gossip is on, or EnableGossip(true) has begun the goroutines. *)
Local Definition on_phase (s : sw) : Prop :=
  match sw_tog s with
  | TCalling true (OAnnounce _) | TStoring true => True
  | TCalling false OStopBlocks => True
  | TCalling false _ | TStoring false => False
  | TCalling true _ | _ => sw_enabled s = true
  end.
(** [h i t]: the subscription of session [i] to topic [t] did not fail. *)
Local Definition topics_on (h : nat -> gtopic -> Prop) (s : sw) : Prop :=
  exists i g, (sw_cancel s = Some i /\ S i = length (sw_sessions s)) /\ sw_sessions s !! i = Some g /\ forall t, h i t -> starter_of t g <> GNotRun -> topic_on t s = true.
Local Lemma starter_topic ok t t1 s L : topic_on t1 (if ok && negb (topic_on t s) then with_topic t true (with_sessions L s) else with_sessions L s) =
  match t, t1 with Blocks, Blocks | Txs, Txs => ok || topic_on t1 s | _, _ => topic_on t1 s end.
Proof. destruct ok; [|by destruct t, t1]. destruct t, t1; cbn; [destruct (sw_blocks s) eqn:E|destruct (sw_blocks s)|destruct (sw_txs s)|destruct (sw_txs s) eqn:E]; by cbn. Qed.
Local Lemma on_step (h : nat -> gtopic -> Prop) o initial existing s lab s' : sw_reach o initial existing s -> sw_step o s lab = Some s' -> sw_close s' = CNotCalled ->
  (forall i t ok, lab = WStarter i t ok -> h i t -> ok = true) -> (on_phase s -> topics_on h s) -> on_phase s' -> topics_on h s'.
Proof.
  intros Hr Hst Hc Hok IH Hon. pose proof (proj1 (shape_reach _ _ _ _ Hr)) as Hshape.
  assert (Hsame : sw_tog s' = sw_tog s -> sw_enabled s' = sw_enabled s -> sw_cancel s' = sw_cancel s -> sw_sessions s' = sw_sessions s -> (forall t, topic_on t s' = topic_on t s) -> topics_on h s').
  { intros G1 G2 G3 G4 G5. unfold on_phase in Hon. rewrite G1, G2 in Hon. destruct (IH Hon) as (i & g & H1 & H2 & H3). exists i, g. rewrite G3, G4. split; [done|]. split; [done|].
    intros t Hh Ht. rewrite G5. by apply H3. }
  sw_destruct Hst lab; subst; try (by apply Hsame; [..|intros []]).
  - apply Hsame; by rewrite Hs.
  - unfold on_phase in Hon, IH. rewrite Ht in IH. destruct (tg_always_enable o); [by apply IH|]. destruct (tg_always_disable o); [done|]. by apply IH.
  - unfold on_phase in Hon, IH. rewrite Hs in Hon. cbn in Hon. rewrite Ht in IH. destruct (IH Hon) as (i & g & H). exists i, g. rewrite Hs. exact H.
  - unfold on_phase in Hon, IH. rewrite Ht in IH. by apply IH.
  - unfold on_phase in Hon, IH. rewrite Ht in IH. by apply IH.
  - unfold on_phase in Hon, IH. rewrite Ht in IH. cbn [sw_tog with_tog sw_enabled] in Hon. apply IH.
    destruct (decide_on n (sw_head s) now) eqn:Ed; cbn [eqb op_begin] in Hon; destruct (sw_enabled s); done.
  - pose proof (Hshape _ _ Ht) as Hx. unfold on_phase in Hon, IH. rewrite Ht in IH. cbn [sw_tog with_tog] in Hon. destruct b.
    + destruct Hx as [-> | ->]; cbn [op_step] in Ho; injection Ho as <- <-.
      * clear IH. exists (length (sw_sessions s)), (GSession (sw_stopped s) GNotRun GNotRun). split; [split; [done|cbn; rewrite app_length; cbn; lia]|]. split; [cbn; by apply list_lookup_middle|]. intros []; done.
      * by apply IH.
    + destruct r as [x'|]; [|done]. destruct x; cbn [op_step] in Ho; try destruct (sw_cancel s); by simplify_eq.
  - unfold on_phase in Hon, IH. rewrite Ht in IH. destruct b; [by apply IH|]. cbn in Hon. by destruct (tg_always_enable o).
  - assert (Hon' : on_phase s) by (by destruct (ok && negb (topic_on t s))).
    destruct (IH Hon') as (i1 & g1 & [H1 H1'] & H2 & H3). destruct (decide (i1 = i)) as [->|Hne].
    + assert (g1 = g) as -> by congruence. exists i, (move_starter t GLoop g).
      split; [by destruct (ok && negb (topic_on t s)); cbn; rewrite insert_length|].
      split; [destruct (ok && negb (topic_on t s)); cbn; apply list_lookup_insert; by eapply lookup_lt_Some|].
      intros t1 Hh Ht1. rewrite starter_topic. destruct t, t1; try (apply H3; [exact Hh|exact Ht1]); by rewrite (Hok _ _ _ eq_refl Hh).
    + exists i1, g1. split; [by destruct (ok && negb (topic_on t s)); cbn; rewrite insert_length|].
      split; [destruct (ok && negb (topic_on t s)); cbn; by rewrite list_lookup_insert_ne|].
      intros t1 Hh Ht1. rewrite starter_topic. specialize (H3 t1 Hh Ht1). destruct t, t1; rewrite H3; by destruct ok.
  - destruct (IH Hon) as (i1 & g1 & H1 & H2 & H3). destruct (decide (i1 = i)) as [->|Hne].
    + assert (g1 = g) as -> by congruence. exists i, (move_starter t GExited g). split; [by cbn; rewrite insert_length|]. split; [cbn; apply list_lookup_insert; by eapply lookup_lt_Some|].
      intros t1 Hh Ht1. change (topic_on t1 s = true). destruct t, t1; (apply H3; [exact Hh|]); cbn in *; congruence.
    + exists i1, g1. split; [by cbn; rewrite insert_length|]. split; [cbn; by rewrite list_lookup_insert_ne|]. done.
  - cbn in Hc. by destruct r.
  - unfold on_phase in Hon. rewrite Hs in Hon. destruct (IH Hon) as (i1 & g1 & H1 & H2 & H3). exists i1, (end_session g1). rewrite Hs. split; [by cbn; rewrite fmap_length|]. split; [cbn; by rewrite list_lookup_fmap, H2|].
    intros t1 Hh Ht1. change (topic_on t1 s = true). apply H3; [exact Hh|]. by destruct t1.
Qed.
(** ** C129, as far as it is true: if the last subscription to the topic did not fail. *)
Theorem C129_publishes_partial : forall o initial existing sched s t s', sw_run o (sw_init initial existing) sched = Some s -> subscribed t sched s ->
  sw_close s = CNotCalled -> settled_on s -> sw_step o s (WPublish t) = Some s' -> sw_published s' = S (sw_published s).
Proof.
  intros o initial existing sched s t s' Hr Hw Hc (He & Hn1 & Hn2 & HA) Hp.
  assert (HI : on_phase s -> topics_on (fun i t => forall ok, WStarter i t ok ∈ sched -> ok = true) s).
  { clear -Hr Hc. revert s Hr Hc. induction sched as [|lab sched IH] using rev_ind; intros s Hr Hc.
    - cbn in Hr. injection Hr as <-. done.
    - rewrite sw_run_app in Hr. destruct (sw_run o (sw_init initial existing) sched) as [s1|] eqn:H1; [|done].
      cbn [sw_run] in Hr. destruct (sw_step o s1 lab) as [s2|] eqn:H2; [|done]. injection Hr as <-.
      assert (Hr1 : sw_reach o initial existing s1) by by exists sched.
      eapply (on_step _ o initial existing s1 lab s2); [exact Hr1|exact H2|exact Hc| |].
      + intros i t ok -> Hh. apply Hh. apply elem_of_app. right. by apply elem_of_list_singleton.
      + intros Hon. destruct (IH s1 eq_refl (not_closed_step _ _ _ _ H2 Hc) Hon) as (i & g & G1 & G2 & G3). exists i, g. split; [done|]. split; [done|].
        intros t Hh. apply G3. intros ok Hin. apply Hh. apply elem_of_app. by left. }
  assert (Hon : topic_on t s = true).
  { destruct HI as (i & g & [_ Hi] & Hg & HT).
    - unfold on_phase. pose proof (proj1 (shape_reach o initial existing s (ex_intro _ _ Hr))) as Hshape. unfold call_shape in Hshape.
      destruct (sw_tog s) as [| | | |[] x|[]|] eqn:Et; try done; [by destruct x|by destruct (Hn1 x)].
    - apply HT; [|pose proof (proj1 (Forall_lookup _ _) HA _ _ Hg) as [G1 G2]; by destruct t].
      intros ok Hin. apply Hw. unfold subscribed. rewrite <- Hi. exact Hin. }
  apply sw_inv in Hp as [_ ->]. cbn. by rewrite Hon.
Qed.
Print Assumptions C129_publishes_partial.
Local Definition again (i : nat) (now : Z) : list slabel := [WTick; WCm (LTakeQuery i); WCm LReply; WCount; WDecide now].
(** Non-vacuity: the first subscription to the blocks failed; gossip was switched off and on again, and now blocks are published. *)
Example C129_nonvacuous : exists sched s s', sw_run auto (sw_init ["s"] []) sched = Some s /\ WStarter 0 Blocks false ∈ sched /\ (forall t, subscribed t sched s) /\
  sw_close s = CNotCalled /\ settled_on s /\ sw_step auto s (WPublish Blocks) = Some s' /\ sw_published s = 1 /\ sw_published s' = 2.
Proof.
  exists (mute ++ again 1 100000000000 ++ sw_off ++ again 2 5 ++ sw_enable ++ [WStarter 1 Blocks true; WStarter 1 Txs true; WPublish Txs]).
  eexists _, _. split; [vm_compute; reflexivity|]. split; [apply elem_of_list_In; vm_compute; tauto|]. split.
  - intros t ok H. vm_compute in H. repeat (apply elem_of_cons in H as [H|H]; [try discriminate H; injection H as -> ->; reflexivity|]). by apply elem_of_nil in H.
  - split; [reflexivity|]. split; [split; [reflexivity|]; split; [intros x H; discriminate H|]; split; [discriminate|]; repeat constructor; discriminate|].
    split; [vm_compute; reflexivity|]. split; reflexivity.
Qed.

(** ** C129 with C128: from when on what is produced here is published.  Someone is connected and the head block is at most 45 seconds
    old from [t0] on; a second and two ticks later, once the listeners have begun, whatever is to be published is handed over. *)
Theorem C129_in_time : forall o initial existing L sched s t0 r until s' t s'', automatic o -> (0 <= L)%Z -> sw_run o (sw_init initial existing) sched = Some s ->
  sw_tog s <> TNew -> sw_tog s <> TEnded -> sw_stopped s = false -> WStop ∉ map snd r -> sw_run o s (map snd r) = Some s' -> in_time o L s t0 t0 r until ->
  throughout (fun t s => someone s /\ sane_head s /\ (age t s <= 45 * second)%Z) o s t0 r until -> (t0 + 2 * L + second < until)%Z ->
  all_started s' -> subscribed t (sched ++ map snd r) s' -> sw_close s' = CNotCalled -> sw_step o s' (WPublish t) = Some s'' -> sw_published s'' = S (sw_published s').
Proof.
  intros o initial existing L sched s t0 r until s' t s'' Ha HL Hr Hn He Hs0 Hl0 Hrun Hin Hth Hun HA Hsub Hc Hp.
  destruct (on_settled o initial existing L s t0 r until s' Ha HL (ex_intro _ _ Hr) Hn He Hs0 Hl0 Hrun Hin Hth Hun) as (E1 & E2 & E3).
  eapply (C129_publishes_partial o initial existing (sched ++ map snd r) s' t s''); [|exact Hsub|exact Hc|by repeat split|exact Hp].
  rewrite sw_run_app, Hr. exact Hrun.
Qed.
Print Assumptions C129_in_time.
Local Definition run_to (s : sw) (l : list slabel) : sw := default s (sw_run auto s l).
Local Definition begun : tsched :=
  [(3 * second, WTick); (3 * second, WCm (LTakeQuery 0)); (3 * second, WCm LReply); (3 * second, WCount); (3 * second, WDecide (3 * second));
   (4 * second, WOp true); (4 * second, WOp true); (4 * second, WStarter 0 Txs true); (4 * second, WStore); (4 * second, WStarter 0 Blocks true);
   (4 * second, WTick); (4 * second, WCm (LTakeQuery 1)); (4 * second, WCm LReply); (4 * second, WCount); (5 * second, WDecide (5 * second))]%Z.
Local Fixpoint check (p : Z -> sw -> bool) (s : sw) (now : Z) (r : tsched) (until : Z) : bool :=
  p now s && match r with [] => p until s | (t, lab) :: r => p t s && match sw_step auto s lab with Some s' => check p s' t r until | None => false end end.
Local Lemma check_ok (P : Z -> sw -> Prop) p : (forall t s, p t s = true -> P t s) -> forall r s now until, check p s now r until = true -> throughout P auto s now r until.
Proof.
  intros Hp. induction r as [|[t lab] r IH]; intros s now until; cbn [check throughout]; rewrite ?andb_true_iff; [intros [H1 H2]; auto|].
  intros (H1 & H2 & H3). split; [auto|]. split; [auto|]. destruct (sw_step auto s lab); [auto|done].
Qed.
Example C129_in_time_nonvacuous : exists s s' s'', automatic auto /\ sw_run auto (sw_init ["s"] []) sw_demo = Some s /\ sw_tog s = TIdle /\ sw_stopped s = false /\ sw_enabled s = false /\
  WStop ∉ map snd begun /\ sw_run auto s (map snd begun) = Some s' /\ in_time auto second s (2 * second) (2 * second) begun (6 * second) /\
  throughout (fun t s => someone s /\ sane_head s /\ (age t s <= 45 * second)%Z) auto s (2 * second) begun (6 * second) /\ (2 * second + 2 * second + second < 6 * second)%Z /\
  all_started s' /\ (forall t, subscribed t (sw_demo ++ map snd begun) s') /\ sw_close s' = CNotCalled /\ sw_step auto s' (WPublish Txs) = Some s'' /\ sw_published s'' = 1.
Proof.
  exists (run_to (sw_init ["s"] []) sw_demo), (run_to (run_to (sw_init ["s"] []) sw_demo) (map snd begun)), (run_to (run_to (run_to (sw_init ["s"] []) sw_demo) (map snd begun)) [WPublish Txs]).
  split; [split; reflexivity|]. split; [vm_compute; reflexivity|]. split; [vm_compute; reflexivity|]. split; [vm_compute; reflexivity|]. split; [vm_compute; reflexivity|].
  split; [intros H; unfold begun in H; cbn [map snd] in H; repeat (apply elem_of_cons in H as [H|H]; [discriminate H|]); exact (not_elem_of_nil _ H)|].
  split; [vm_compute; reflexivity|]. split; [vm_compute; repeat split; try discriminate; intros x [= <-]; reflexivity|].
  split.
  { apply (check_ok _ (fun t s => bool_decide (seen s = [NConnected demo_conn]) && bool_decide (sw_head s = 1000%N) && Z.leb (t - 1000000000) (45 * second))); [|vm_compute; reflexivity].
    intros t s H. apply andb_true_iff in H as [H H3]. apply andb_true_iff in H as [H1 H2]. apply bool_decide_eq_true in H1, H2. apply Z.leb_le in H3.
    split; [exists (cn_peer demo_conn); rewrite H1; by exists [], demo_conn, []|]. split; [unfold sane_head; by rewrite H2|]. unfold age. rewrite H2. lia. }
  split; [reflexivity|]. split; [vm_compute; repeat constructor; discriminate|]. split.
  { intros t ok H. vm_compute in H. repeat (apply elem_of_cons in H as [H|H]; [try discriminate H; injection H as -> ->; reflexivity|]). by apply elem_of_nil in H. }
  split; [vm_compute; reflexivity|]. split; vm_compute; reflexivity.
Qed.
