(** Property theorems C86-C91: the gossip toggle, gossip, the connection manager and Close wired together as in the node. *)
From Verif Require Import GoBase ErrHandler_Model ErrHandler_Spec ErrHandler_Proofs ErrHandler_Props EhSys_Model EhSys_Spec EhSys_Proofs EhSys_Props
  ConnMgr_Model ConnMgr_Spec ConnMgr_Proofs Toggle_Model Toggle_Proofs Asm_Model Asm_Spec Asm_Proofs Asm_Props Switch_Model Switch_Spec Switch_Proofs.

Local Ltac notin := let H := fresh in intros H; vm_compute in H; repeat (apply elem_of_cons in H as [H|H]; [discriminate H|]); by apply elem_of_nil in H.
(** Neither flag; --force-gossip; an example: a peer connects and the first tick begins *)
Definition auto : tg_opts := TgOpts false false.
Definition forced : tg_opts := TgOpts true false.
Definition sw_demo : list slabel := [WStart; WCm LStarted; WHead 1000; WCm (LNotify (NConnected demo_conn)); WCm (LTakeEvent 0)].
Definition sw_tick (now : Z) : list slabel := [WTick; WCm (LTakeQuery 0); WCm LReply; WCount; WDecide now].
Definition sw_enable : list slabel := [WOp true; WOp true; WStore].
Definition sw_off : list slabel := [WOp true; WOp true; WOp true; WOp true; WOp true; WOp true; WStore].

(** ** C86 *)
(** A tick of the toggle begins in [s1] and decides in [s2] at the time [now], not before the node is being stopped.  Then there is a moment
    in between such that, until the next tick, whenever the toggle is idle again, gossip is enabled exactly if someone was connected at
    that moment and the head time the node was last told was not older than 45 seconds. *)
Theorem C86_tick_decides_right : forall o initial existing sched1 s1 s1' sched2 s2 now s3,
  sw_run o (sw_init initial existing) sched1 = Some s1 -> sw_step o s1 WTick = Some s1' ->
  sw_run o s1' sched2 = Some s2 -> WTick ∉ sched2 -> sw_step o s2 (WDecide now) = Some s3 -> sw_stopped s2 = false ->
  (Z.of_N (head_told (sched1 ++ WTick :: sched2)) * 1000000 <= max_i64)%Z ->
  exists h, meanwhile s1 s2 h /\
    forall sched3 s4, sw_run o s3 sched3 = Some s4 -> WTick ∉ sched3 -> sw_tog s4 = TIdle ->
      (sw_enabled s4 = true <-> should_gossip h (head_told (sched1 ++ WTick :: sched2)) now).
Proof.
  intros o initial existing sched1 s1 s1' sched2 s2 now s3 Hr1 Ht Hr2 Hn2 Hd Hst Hh.
  assert (Hr12 : sw_run o (sw_init initial existing) (sched1 ++ WTick :: sched2) = Some s2) by (rewrite sw_run_app, Hr1; cbn; by rewrite Ht).
  assert (Hht : head_told (sched1 ++ WTick :: sched2) = sw_head s2) by (symmetry; exact (head_run _ _ _ _ Hr12)).
  rewrite Hht in Hh |- *.
  assert (Hre1 : sw_reach o initial existing s1) by by eexists. pose proof (sw_reach_step _ _ _ _ _ _ Hre1 Ht) as Hre1'.
  assert (HI1 : tick_inv s1 s1').
  { apply sw_inv in Ht as [_ (_ & Hs & _)]. rewrite Hs. by unfold tick_inv. }
  pose proof (tick_inv_run _ _ _ _ _ _ _ Hre1 Hre1' (cm_run_of o s1 [WTick] s1' ltac:(cbn; by rewrite Ht)) Hr2 Hn2 HI1) as HI2.
  apply sw_inv in Hd as [_ (n & Hn & Hs3)]. unfold tick_inv in HI2. rewrite Hn in HI2. destruct HI2 as [HI2|(h & Hm & Hra)]; [congruence|].
  exists h. split; [done|]. intros sched3 s4 Hr4 Hn4 Hi4. rewrite <- (decide_right n h _ now Hra Hh).
  assert (Hdec : decided (decide_on n (sw_head s2) now) s3).
  { rewrite Hs3. unfold decided. cbn. destruct (eqb _ _) eqn:He; [|done]. symmetry. by apply eqb_prop. }
  pose proof (decided_run _ _ _ _ _ Hr4 Hn4 Hdec) as Hdec4. unfold decided in Hdec4. rewrite Hi4 in Hdec4. by rewrite Hdec4.
Qed.
Print Assumptions C86_tick_decides_right.
Example C86_nonvacuous : exists s1 s1' s2 s3 s4, sw_run auto (sw_init ["s"] []) sw_demo = Some s1 /\ sw_step auto s1 WTick = Some s1' /\
  sw_run auto s1' [WCm (LTakeQuery 0); WCm LReply; WCount] = Some s2 /\ sw_step auto s2 (WDecide 5) = Some s3 /\ sw_stopped s2 = false /\ sw_enabled s2 = false /\
  sw_run auto s3 sw_enable = Some s4 /\ sw_tog s4 = TIdle /\ sw_enabled s4 = true /\ announcements s4 = [true].
Proof. eexists _, _, _, _, _. repeat (split; [vm_compute; reflexivity|]). vm_compute. reflexivity. Qed.

(** In automatic mode without connections at start-up, as long as no context ends and Close is not called: once the toggle is started, what
    the node does by itself comes to an end, and can only stop when the toggle is idle.  So every tick completes. *)
Theorem C86_ticks_complete : forall o initial sched s, automatic o ->
  sw_run o (sw_init initial []) sched = Some s -> WStart ∈ sched -> Forall (fun lab => ends_context lab = false) sched -> WClose ∉ sched ->
  (exists n, forall rest s', Forall (fun lab => by_itself lab = true) rest -> sw_run o s rest = Some s' -> (length rest <= n)%nat) /\
  (forall rest s', Forall (fun lab => by_itself lab = true) rest -> sw_run o s rest = Some s' ->
     sw_tog s' = TIdle \/ exists lab s'', by_itself lab = true /\ sw_step o s' lab = Some s'').
Proof.
  intros o initial sched s Ha Hr Hst HF Hnc.
  assert (Hre : sw_reach o initial [] s) by by eexists.
  assert (Halive : forall sched s s', Forall (fun lab => ends_context lab = false) sched -> unexpired s -> sw_run o s sched = Some s' -> unexpired s').
  { intros l t t' HFl Hu Hl. eapply (sw_run_ind o unexpired (fun lab => ends_context lab = false)); [|exact HFl|exact Hu|exact Hl].
    intros ? ? ? ? ? ?. by eapply unexpired_step. }
  assert (Hu0 : unexpired (sw_init initial [])) by (split; [done|constructor]).
  assert (Hu : unexpired s) by by eapply Halive.
  assert (Htick : forall sched s s', Forall (fun lab => ends_context lab = false) sched -> unexpired s -> (ticking s \/ WStart ∈ sched) -> sw_run o s sched = Some s' -> ticking s').
  { clear -Ha. induction sched as [|lab sched IH]; intros s s' HF Hu Hk Hr; cbn [sw_run] in Hr; [injection Hr as <-; destruct Hk as [Hk|Hk]; [done|by apply elem_of_nil in Hk]|].
    apply Forall_cons in HF as [HF1 HF]. destruct (sw_step o s lab) as [s1|] eqn:H1; [|done].
    pose proof (unexpired_step _ _ _ _ H1 HF1 Hu) as Hu1. eapply (IH s1); [done|done| |done]. destruct Hu as [Hus _].
    destruct Hk as [Hk|Hk]; [left; by eapply ticking_step; eauto|]. apply elem_of_cons in Hk as [<-|Hk]; [left; by eapply ticking_step; eauto|by right]. }
  assert (Hcl : forall sched s s', WClose ∉ sched -> sw_close s = CNotCalled -> sw_run o s sched = Some s' -> sw_close s' = CNotCalled).
  { clear. intros sched s s' Hn Hc Hr. eapply (sw_run_ind o (fun s => sw_close s = CNotCalled) (fun lab => lab <> WClose)); [|by apply notin_Forall|exact Hc|exact Hr].
    clear. intros s lab s' Hl Hc Hst. by eapply unclosed_step. }
  assert (Hby : forall rest, Forall (fun lab => by_itself lab = true) rest -> Forall (fun lab => ends_context lab = false) rest /\ WClose ∉ rest).
  { intros rest Hb. split; [eapply Forall_impl; [exact Hb|]; by intros [[]| | | | | | | | | | | | | | |]|]. intros Hin. by apply (proj1 (Forall_forall _ _) Hb) in Hin. }
  split.
  - exists (w_sw s). intros rest. clear -Halive. revert s. induction rest as [|lab rest IH]; intros s s' HF Hr; [cbn; lia|].
    cbn [sw_run] in Hr. destruct (sw_step o s lab) as [s1|] eqn:H1; [|done]. apply Forall_cons in HF as [HF1 HF].
    pose proof (w_sw_step _ _ _ _ H1 HF1). pose proof (IH s1 s' HF Hr). cbn [length]. lia.
  - intros rest s' HF' Hr'. destruct (Hby _ HF') as [Hb1 Hb2]. pose proof (sw_reach_run _ _ _ _ _ _ Hre Hr') as Hre'.
    assert (Hc' : sw_close s' = CNotCalled) by (exact (Hcl rest s s' Hb2 (Hcl sched (sw_init initial []) _ Hnc eq_refl Hr) Hr')).
    eapply (sw_progress o initial); [exact Hre'|by eapply Halive| |].
    + by destruct (safe_unclosed _ _ _ _ Hre' Hc').
    + exact (Htick rest s s' Hb1 Hu (or_introl (Htick sched _ _ HF Hu0 (or_intror Hst) Hr)) Hr').
Qed.
Print Assumptions C86_ticks_complete.
Example C86_completes_nonvacuous : exists s s', sw_run auto (sw_init ["s"] []) (sw_demo ++ [WTick]) = Some s /\ automatic auto /\ WStart ∈ sw_demo ++ [WTick] /\
  Forall (fun lab => ends_context lab = false) (sw_demo ++ [WTick]) /\ WClose ∉ sw_demo ++ [WTick] /\ sw_tog s = TAsking 0 /\
  sw_run auto s ([WCm (LTakeQuery 0); WCm LReply; WCount; WDecide 5] ++ sw_enable) = Some s' /\ sw_tog s' = TIdle.
Proof. eexists _, _. split; [vm_compute; reflexivity|]. split; [done|]. split; [left|]. split; [by repeat constructor|]. split; [notin|]. split; [vm_compute; reflexivity|]. split; vm_compute; reflexivity. Qed.

(** ** C87 *)
(** Full statement: the status last delivered to the other services is the one IsEnabled tells, whenever the toggle is between two ticks.
    REFUTED: an error of the broadcast is dropped, and the status is not announced again. *)
Definition C87_statement : Prop := forall o initial existing s, sw_reach o initial existing s -> sw_close s = CNotCalled -> sw_tog s = TIdle ->
  last (delivered s) = Some (sw_enabled s) \/ delivered s = [] /\ sw_enabled s = false.
Theorem C87_status_delivered_refuted : ~ C87_statement.
Proof.
  intros H.
  assert (exists s, sw_run auto (sw_init ["s"] []) (sw_demo ++ sw_tick 5 ++ [WOp true; WOp false; WStore]) = Some s /\ sw_close s = CNotCalled /\ sw_tog s = TIdle /\
    sw_enabled s = true /\ delivered s = []) as (s & Hr & Hc & Ht & He & Hd).
  { eexists. split; [vm_compute; reflexivity|]. by repeat split. }
  destruct (H auto ["s"] [] s (ex_intro _ _ Hr) Hc Ht) as [Hx|[_ Hx]]; [by rewrite Hd in Hx|congruence].
Qed.
Print Assumptions C87_status_delivered_refuted.
(** As long as Close is not called: the statuses the node announces alternate, beginning with "enabled"; when the toggle is between two ticks
    or has ended, IsEnabled tells the status last announced (before the first one: false). *)
Theorem C87_announcements_partial : forall o initial existing s, sw_reach o initial existing s -> sw_close s = CNotCalled ->
  (forall i b, announcements s !! i = Some b -> b = Nat.even i) /\
  (sw_tog s = TIdle \/ sw_tog s = TEnded -> sw_enabled s = default false (last (announcements s))).
Proof.
  intros o initial existing s Hr Hc. destruct (stat_reach _ _ _ _ Hr Hc) as [HA HT]. split; [done|]. intros Ht.
  assert (Hl : default false (last (announcements s)) = last_status s).
  { unfold announcements, last_status. destruct (sw_status s) as [|[b k] l]; [done|]. cbn [map rev fst]. by rewrite stdpp.list.last_snoc. }
  rewrite Hl. destruct Ht as [Ht|Ht]; by rewrite Ht in HT.
Qed.
Print Assumptions C87_announcements_partial.
(** If every broadcast succeeds, the status last delivered is the one IsEnabled tells. *)
Theorem C87_delivered_partial : forall o initial existing s, sw_reach o initial existing s -> sw_close s = CNotCalled -> sw_tog s = TIdle ->
  Forall (fun x => x.2 = true) (sw_status s) -> last (delivered s) = Some (sw_enabled s) \/ delivered s = [] /\ sw_enabled s = false.
Proof.
  intros o initial existing s Hr Hc Ht Hall. destruct (C87_announcements_partial _ _ _ _ Hr Hc) as [_ He]. rewrite (He (or_introl Ht)).
  assert (Hd : delivered s = announcements s).
  { unfold delivered, announcements. do 2 f_equal. clear -Hall. induction (sw_status s) as [|[b k] l IH]; [done|]. apply Forall_cons in Hall as [Hk Hall]. cbn in *. rewrite Hk. f_equal. by apply IH. }
  rewrite Hd. destruct (last (announcements s)) as [b|] eqn:Hl; [by left|right]. split; [by apply last_None|done].
Qed.
Print Assumptions C87_delivered_partial.
Example C87_nonvacuous : exists s, sw_run auto (sw_init ["s"] []) (sw_demo ++ sw_tick 5 ++ sw_enable ++
    [WTick; WCm (LTakeQuery 1); WCm LReply; WCount; WDecide 100000000000] ++ sw_off) = Some s /\
  sw_close s = CNotCalled /\ sw_tog s = TIdle /\ announcements s = [true; false] /\ delivered s = [true; false] /\ sw_enabled s = false.
Proof. eexists. split; [vm_compute; reflexivity|]. by repeat split. Qed.

(** ** C88 *)
(** Full statement: once Close has returned, gossip is off for good: nothing is published any more, IsEnabled is false, and the last status
    announced is "disabled".  REFUTED in each part. *)
Definition C88_statement : Prop := forall o initial existing s, sw_reach o initial existing s -> sw_close s = CClosed ->
  forall rest s', sw_run o s rest = Some s' -> sw_published s' = sw_published s /\ sw_enabled s' = false /\ last (announcements s') = Some false.
Definition close_all : list slabel := [WClose; WCloseOp true; WCloseOp true; WCloseOp true; WCloseOp true; WCloseOp true; WCloseOp true; WHostClosed].
Definition close_idle : list slabel := [WClose; WCloseOp true; WCloseOp true; WCloseOp true; WCloseOp true; WHostClosed].
(** A tick in progress when Close is called enables gossip again afterwards: messages are handed to the topics after Close has returned,
    and the last status announced is "enabled". *)
Theorem C88_tick_reenables_refuted : exists initial existing s rest s', sw_reach auto initial existing s /\ sw_close s = CClosed /\ sw_run auto s rest = Some s' /\
  sw_published s = 0%nat /\ sw_published s' = 2%nat /\ sw_enabled s' = true /\ announcements s' = [false; true].
Proof.
  eexists ["s"], [], _, (sw_enable ++ [WStarter 0 Blocks true; WStarter 0 Txs true; WPublish Blocks; WPublish Txs]), _. split; [exists (sw_demo ++ sw_tick 5 ++ close_idle); vm_compute; reflexivity|].
  split; [reflexivity|]. split; [vm_compute; reflexivity|]. by repeat split.
Qed.
Print Assumptions C88_tick_reenables_refuted.
(** Without any tick in progress: the goroutines started by an earlier EnableGossip(true) may run after Close only. *)
Theorem C88_late_starter_refuted : exists initial existing s rest s', sw_reach auto initial existing s /\ sw_close s = CClosed /\ sw_tog s = TIdle /\ sw_run auto s rest = Some s' /\
  WTick ∉ rest /\ sw_published s = 0%nat /\ sw_published s' = 1%nat.
Proof.
  eexists ["s"], [], _, [WStarter 0 Blocks true; WPublish Blocks], _. split; [exists (sw_demo ++ sw_tick 5 ++ sw_enable ++ close_all); vm_compute; reflexivity|].
  split; [reflexivity|]. split; [reflexivity|]. split; [vm_compute; reflexivity|]. split; [notin|]. by split.
Qed.
Print Assumptions C88_late_starter_refuted.
(** With --force-gossip the toggle ends after enabling; Close leaves IsEnabled true. *)
Theorem C88_forced_stays_enabled_refuted : exists initial existing s, sw_reach forced initial existing s /\ sw_close s = CClosed /\ sw_tog s = TEnded /\ announcements s = [true; false] /\
  forall rest s', sw_run forced s rest = Some s' -> sw_enabled s' = true.
Proof.
  eexists ["s"], [], _. split; [exists ([WStart] ++ sw_enable ++ close_all); vm_compute; reflexivity|]. split; [reflexivity|]. split; [reflexivity|]. split; [reflexivity|].
  intros rest s' Hr. assert (H : sw_tog s' = TEnded /\ sw_enabled s' = true); [|by destruct H].
  eapply (sw_run_ind forced (fun s => sw_tog s = TEnded /\ sw_enabled s = true) (fun _ => True)) in Hr; [exact Hr| |by apply Forall_true|by split].
  clear. intros s lab s' _ [H1 H2] Hst. by eapply tended_step.
Qed.
Print Assumptions C88_forced_stays_enabled_refuted.
Theorem C88_closed_for_good_refuted : ~ C88_statement.
Proof.
  intros H. destruct C88_tick_reenables_refuted as (initial & existing & s & rest & s' & Hr & Hc & Hrun & H0 & H1 & _).
  destruct (H _ _ _ _ Hr Hc _ _ Hrun) as [Hp _]. congruence.
Qed.
Print Assumptions C88_closed_for_good_refuted.
(** If the toggle has ended and the goroutines of earlier starts have begun when Close is called, then from the moment Close has turned
    gossip off nothing is published any more, for ever. *)
Theorem C88_publishes_nothing_partial : forall o initial existing s0 s1 sched s2 rest s3,
  sw_reach o initial existing s0 -> sw_tog s0 = TEnded -> all_started s0 -> sw_step o s0 WClose = Some s1 ->
  sw_run o s1 sched = Some s2 -> sw_close s2 = CHost \/ sw_close s2 = CClosed -> sw_run o s2 rest = Some s3 ->
  sw_published s3 = sw_published s2 /\ sw_blocks s3 = false /\ sw_txs s3 = false.
Proof.
  intros o initial existing s0 s1 sched s2 rest s3 Hr0 Ht0 Ha0 Hc Hr1 Hcl Hr2.
  pose proof (sw_reach_step _ _ _ _ _ _ Hr0 Hc) as Hre1.
  assert (HC1 : closing s1) by (apply sw_inv in Hc as [_ [_ ->]]; by repeat split).
  assert (Hgo : forall l t t', sw_reach o initial existing t -> closing t -> sw_run o t l = Some t' -> closing t').
  { induction l as [|lab l IH]; intros t t' Ht HC Hl; cbn [sw_run] in Hl; [by injection Hl as <-|]. destruct (sw_step o t lab) as [t1|] eqn:H1; [|done].
    destruct (shape_reach _ _ _ _ Ht) as [_ S2]. eapply (IH t1); [by eapply sw_reach_step|by eapply closing_step|done]. }
  pose proof (Hgo _ _ _ Hre1 HC1 Hr1) as HC2. pose proof (sw_reach_run _ _ _ _ _ _ Hre1 Hr1) as Hre2.
  assert (HS : forall l t t', sw_reach o initial existing t -> shut t -> sw_run o t l = Some t' -> shut t' /\ sw_published t' = sw_published t).
  { induction l as [|lab l IH]; intros t t' Ht HC Hl; cbn [sw_run] in Hl; [by injection Hl as <-|]. destruct (sw_step o t lab) as [t1|] eqn:H1; [|done].
    destruct (shape_reach _ _ _ _ Ht) as [_ S2]. destruct (shut_step _ _ _ _ S2 H1 HC) as [HC' Hp]. destruct (IH t1 t' ltac:(by eapply sw_reach_step) HC' Hl) as [G1 G2]. split; [done|congruence]. }
  destruct (HS _ _ _ Hre2 (conj HC2 Hcl) Hr2) as [[(_ & _ & Hx) [Hy|Hy]] Hp]; rewrite Hy in Hx; by destruct Hx.
Qed.
Print Assumptions C88_publishes_nothing_partial.
Example C88_nonvacuous : exists s0 s1 s2, sw_run forced (sw_init ["s"] []) ([WStart] ++ sw_enable ++ [WStarter 0 Blocks true; WStarter 0 Txs true; WPublish Txs]) = Some s0 /\
  sw_tog s0 = TEnded /\ all_started s0 /\ sw_txs s0 = true /\ sw_step forced s0 WClose = Some s1 /\ sw_run forced s1 (WPublish Txs :: tail close_all) = Some s2 /\ sw_close s2 = CClosed /\
  sw_published s2 = 2%nat.
Proof. eexists _, _, _. split; [vm_compute; reflexivity|]. split; [reflexivity|]. split; [by repeat constructor|]. split; [reflexivity|]. split; [vm_compute; reflexivity|]. split; [vm_compute; reflexivity|]. by split. Qed.

(** ** C89 *)
(** Full statement: turning gossip on and off, by the toggle and by Close, never crashes the node.  REFUTED: both may find gossipCancel set
    and one of them dereferences it after the other has cleared it. *)
Definition C89_statement : Prop := forall o initial existing s, sw_reach o initial existing s -> sw_panic s = false.
Theorem C89_close_crashes_refuted : ~ C89_statement.
Proof.
  intros H.
  assert (exists s, sw_run auto (sw_init ["s"] []) (sw_demo ++ sw_tick 5 ++ sw_enable ++ [WTick; WCm (LTakeQuery 1); WCm LReply; WCount; WDecide 100000000000] ++
    [WOp true; WOp true; WOp true; WClose; WCloseOp true; WCloseOp true; WCloseOp true; WCloseOp true; WCloseOp true; WOp true]) = Some s /\ sw_panic s = true) as (s & Hr & Hp).
  { eexists. split; [vm_compute; reflexivity|]. reflexivity. }
  rewrite (H auto ["s"] [] s (ex_intro _ _ Hr)) in Hp. done.
Qed.
Print Assumptions C89_close_crashes_refuted.
(** The node can only crash this way after a moment at which the toggle and Close are both turning gossip off. *)
Theorem C89_only_both_stopping_partial : forall o initial existing sched s, sw_run o (sw_init initial existing) sched = Some s -> sw_panic s = true ->
  ~ forall sched1 sched2 s0, sched = sched1 ++ sched2 -> sw_run o (sw_init initial existing) sched1 = Some s0 -> ~ both_stopping s0.
Proof. intros o initial existing sched s Hr Hp H. destruct (safe_run _ _ _ _ _ Hr H) as [_ Hx]. congruence. Qed.
Print Assumptions C89_only_both_stopping_partial.
(** In particular never before Close is called. *)
Theorem C89_not_before_close_partial : forall o initial existing s, sw_reach o initial existing s -> sw_close s = CNotCalled -> sw_panic s = false.
Proof. intros o initial existing s Hr Hc. by destruct (safe_unclosed _ _ _ _ Hr Hc). Qed.
Print Assumptions C89_not_before_close_partial.
(** Nor with --force-gossip or --disable-gossip *)
Theorem C89_not_with_flags_partial : forall o initial existing s, ~ automatic o -> sw_reach o initial existing s -> sw_panic s = false.
Proof.
  intros o initial existing s Ha [sched Hr]. destruct (safe_run o initial existing sched s Hr) as [_ Hx]; [|done].
  intros l1 l2 s0 _ Hl1 [[x Hx] _]. assert (Hre : sw_reach o initial existing s0) by by eexists. by eapply (flags_never_off o initial existing s0 Ha Hre x).
Qed.
Print Assumptions C89_not_with_flags_partial.
Example C89_nonvacuous : exists s, sw_run auto (sw_init ["s"] []) (sw_demo ++ sw_tick 5 ++ sw_enable ++ close_all) = Some s /\ sw_panic s = false /\ sw_close s = CClosed /\ sw_cancel s = None.
Proof. eexists. split; [vm_compute; reflexivity|]. by repeat split. Qed.

(** ** C90 *)
(** Full statement: without flags, a node can come to have gossip enabled, whatever connections it had when it was started.  REFUTED. *)
Definition C90_statement : Prop := forall o initial existing, automatic o -> exists s, sw_reach o initial existing s /\ sw_enabled s = true.
(** With a connection at start-up gossip is never enabled: IsEnabled stays false, nothing is published and "enabled" is never announced,
    and the toggle does not come back from its first tick, whatever happens. *)
Theorem C90_never_enabled : forall o initial existing s, automatic o -> existing <> [] -> sw_reach o initial existing s ->
  sw_enabled s = false /\ sw_published s = 0%nat /\ true ∉ announcements s /\
  forall j, sw_tog s = TAsking j -> forall rest s', sw_run o s rest = Some s' -> sw_tog s' = TAsking j.
Proof.
  intros o initial existing s Ha Hne Hr. destruct (dead_reach _ _ _ _ Ha Hne Hr) as (_ & _ & _ & He & _ & _ & _ & _ & Hst & Hp). split; [done|]. split; [done|]. split.
  - unfold announcements. intros Hin. apply elem_of_list_In, in_rev, elem_of_list_In in Hin. apply elem_of_list_fmap in Hin as ([b k] & Hb & Hin).
    apply (proj1 (Forall_forall _ _) Hst) in Hin. cbn in *. congruence.
  - intros j Hj rest. revert s Hr He Hst Hp Hj. induction rest as [|lab rest IH]; intros s Hr He Hst Hp Hj s' Hrun; cbn [sw_run] in Hrun; [by injection Hrun as <-|].
    destruct (sw_step o s lab) as [s1|] eqn:H1; [|done]. pose proof (sw_reach_step _ _ _ _ _ _ Hr H1) as Hr1.
    destruct (dead_reach _ _ _ _ Ha Hne Hr1) as (_ & _ & _ & He1 & _ & _ & _ & _ & Hst1 & Hp1). apply (IH s1); [done..| |done]. eapply (dead_asking o initial existing); [exact Hne|exact Hr|exact H1|exact Hj].
Qed.
Print Assumptions C90_never_enabled.
Theorem C90_can_enable_refuted : ~ C90_statement.
Proof.
  intros H. destruct (H auto [] [demo_conn] ltac:(done)) as (s & Hr & He). destruct (C90_never_enabled auto [] [demo_conn] s ltac:(done) ltac:(done) Hr) as [Hx _]. congruence.
Qed.
Print Assumptions C90_can_enable_refuted.
(** Without a connection at start-up: if during a tick someone is connected at every moment and the head is fresh, gossip is enabled and
    "enabled" is the status last announced when the tick is over. *)
Theorem C90_enabled_partial : forall o initial existing sched1 s1 s1' sched2 s2 now s3 sched3 s4,
  sw_run o (sw_init initial existing) sched1 = Some s1 -> sw_step o s1 WTick = Some s1' ->
  sw_run o s1' sched2 = Some s2 -> WTick ∉ sched2 -> sw_step o s2 (WDecide now) = Some s3 -> sw_stopped s2 = false ->
  (Z.of_N (head_told (sched1 ++ WTick :: sched2)) * 1000000 <= max_i64)%Z -> (forall h, meanwhile s1 s2 h -> should_gossip h (head_told (sched1 ++ WTick :: sched2)) now) ->
  sw_run o s3 sched3 = Some s4 -> WTick ∉ sched3 -> sw_tog s4 = TIdle -> sw_enabled s4 = true /\ (sw_close s4 = CNotCalled -> last (announcements s4) = Some true).
Proof.
  intros o initial existing sched1 s1 s1' sched2 s2 now s3 sched3 s4 Hr1 Ht Hr2 Hn2 Hd Hst Hh Hall Hr4 Hn4 Hi.
  destruct (C86_tick_decides_right _ _ _ _ _ _ _ _ _ _ Hr1 Ht Hr2 Hn2 Hd Hst Hh) as (h & Hm & Hx).
  assert (He : sw_enabled s4 = true) by by apply (Hx _ _ Hr4 Hn4 Hi), Hall. split; [done|]. intros Hc.
  assert (Hre : sw_reach o initial existing s4).
  { exists (sched1 ++ WTick :: sched2 ++ WDecide now :: sched3). rewrite sw_run_app, Hr1. cbn [sw_run]. rewrite Ht, sw_run_app, Hr2. cbn [sw_run]. by rewrite Hd. }
  destruct (C87_announcements_partial _ _ _ _ Hre Hc) as [_ Hl]. rewrite (Hl (or_introl Hi)) in He. by destruct (last (announcements s4)) as [[]|].
Qed.
Print Assumptions C90_enabled_partial.
Example C90_nonvacuous : exists s1 s1' s2 s3 s4, sw_run auto (sw_init ["s"] []) sw_demo = Some s1 /\ sw_step auto s1 WTick = Some s1' /\
  sw_run auto s1' [WCm (LTakeQuery 0); WCm LReply; WCount] = Some s2 /\ sw_step auto s2 (WDecide 5) = Some s3 /\ sw_stopped s2 = false /\
  (forall h, meanwhile s1 s2 h -> should_gossip h (head_told (sw_demo ++ WTick :: [WCm (LTakeQuery 0); WCm LReply; WCount])) 5) /\ sw_run auto s3 sw_enable = Some s4 /\ sw_tog s4 = TIdle.
Proof.
  eexists _, _, _, _, _. split; [vm_compute; reflexivity|]. split; [vm_compute; reflexivity|]. split; [vm_compute; reflexivity|]. split; [vm_compute; reflexivity|]. split; [reflexivity|].
  split; [|split; vm_compute; reflexivity]. intros h [H1 H2]. assert (h = [NConnected demo_conn]) as ->.
  { assert (Hl : forall (l h : list netev), l `prefix_of` h -> h `prefix_of` l -> h = l).
    { intros l h' [a ->] [b Hb]. rewrite <- app_assoc in Hb. rewrite <- (app_nil_r l) in Hb at 1. apply app_inv_head in Hb. destruct a; [by rewrite app_nil_r|done]. }
    apply Hl; [exact H1|exact H2]. }
  split; [|vm_compute; discriminate]. exists "p"%string. apply (last_connected_snoc_self [] demo_conn).
Qed.

(** ** C91 *)
(** Full statement: once the node's context is done, the toggle and the error handler can end, whatever the scheduler has done so far.
    REFUTED for both, even without connections at start-up: the manager may have ended first. *)
Definition C91_toggle_statement : Prop := forall o initial s, sw_reach o initial [] s -> sw_stopped s = true -> sw_tog s <> TNew -> sw_close s = CNotCalled ->
  exists rest s', sw_run o s rest = Some s' /\ sw_tog s' = TEnded.
Definition C91_handler_statement : Prop := forall decay o initial s, as_reach decay o initial [] s -> node_stopped s = true -> es_loop (as_eh s) <> ENotStarted ->
  exists rest s', as_run decay o s rest = Some s' /\ es_loop (as_eh s') = EEnded.
(** A toggle in GetNumConnections whose message the manager had not taken when it ended stays there for ever. *)
Theorem C91_toggle_hangs : forall o initial existing s j x, sw_reach o initial existing s -> sw_tog s = TAsking j -> cm_manager (sw_cm s) = MEnded ->
  cm_callers (sw_cm s) !! j = Some (Caller QNum ClSending x) -> forall rest s', sw_run o s rest = Some s' -> sw_tog s' = TAsking j.
Proof.
  intros o initial existing s j x Hr Ht Hm Hj rest s' Hrun. pose proof (Inv0_reach _ _ _ (cm_reach_of _ _ _ _ Hr)) as H0. unfold Inv0 in H0.
  eapply stuck_run; [exact Hrun|done|done| |by exists x]. destruct (cm_starter (sw_cm s)) as [l|]; [|done]. destruct H0 as (_ & H0 & _). congruence.
Qed.
Print Assumptions C91_toggle_hangs.
Theorem C91_toggle_refuted : ~ C91_toggle_statement.
Proof.
  intros H.
  assert (exists s, sw_run auto (sw_init ["s"] []) [WStart; WCm LStarted; WTick; WStop; WCm LShutdown] = Some s /\ sw_stopped s = true /\ sw_tog s = TAsking 0 /\ sw_close s = CNotCalled /\
    cm_manager (sw_cm s) = MEnded /\ cm_callers (sw_cm s) !! 0%nat = Some (Caller QNum ClSending true)) as (s & Hr & Hs & Ht & Hc & Hm & Hj).
  { eexists. split; [vm_compute; reflexivity|]. by repeat split. }
  destruct (H auto ["s"] s (ex_intro _ _ Hr) Hs ltac:(by rewrite Ht) Hc) as (rest & s' & Hrun & He).
  pose proof (C91_toggle_hangs auto ["s"] [] s 0 true (ex_intro _ _ Hr) Ht Hm Hj rest s' Hrun). congruence.
Qed.
Print Assumptions C91_toggle_refuted.
(** Likewise the error handler charging a report. *)
Theorem C91_handler_hangs : forall decay o initial existing s j id e x, as_reach decay o initial existing s -> es_loop (as_eh s) = EAddress id e -> as_err s = Some j ->
  cm_manager (as_cm s) = MEnded -> cm_callers (as_cm s) !! j = Some (Caller (QAddr id) ClSending x) ->
  forall rest s', as_run decay o s rest = Some s' -> es_loop (as_eh s') = EAddress id e.
Proof.
  intros decay o initial existing s j id e x Hr Hl Hj Hm Hc rest s' Hrun. pose proof (Inv0_reach _ _ _ (proj1 (proj_reach _ _ _ _ _ Hr))) as H0. unfold Inv0 in H0.
  assert (Hs : cm_starter (as_cm s) = None) by (destruct (cm_starter (as_cm s)) as [l|]; [destruct H0 as (_ & H0 & _); congruence|done]).
  assert (Hc' : exists x, cm_callers (as_cm s) !! j = Some (Caller (QAddr id) ClSending x)) by by exists x. clear H0 Hc.
  revert s Hr Hl Hj Hm Hs Hc' Hrun. induction rest as [|lab rest IH]; intros s Hr Hl Hj Hm Hs [y Hc] Hrun; cbn [as_run] in Hrun; [by injection Hrun as <-|].
  destruct (as_step decay o s lab) as [s1|] eqn:H1; [|done].
  destruct (err_kept decay o s lab s1 j id e) as [Hj1 Hl1]; [by eapply KInv_reach|done| |done|done|].
  { intros t ->. cbn [as_step] in H1. rewrite Hj in H1. cbn in H1. rewrite Hc in H1. done. }
  destruct (proj_step _ _ _ _ _ H1) as [[lc Hlc] _]. destruct (ended_run _ _ _ j (QAddr id) Hlc Hm Hs ltac:(by exists y)) as (G1 & G2 & G3).
  by apply (IH s1 (as_reach_step _ _ _ _ _ _ _ Hr H1)).
Qed.
Print Assumptions C91_handler_hangs.
Theorem C91_handler_refuted : ~ C91_handler_statement.
Proof.
  intros H.
  assert (exists s, as_run demo_decay eh_defaults (as_init ["s"] []) [AEh XStart; ACm LStarted; AEh (XReport "p" (ESent ErrForkBomb)); AEh (XTakeReport 0); ACancel; ACm LShutdown] = Some s /\
    node_stopped s = true /\ es_loop (as_eh s) = EAddress "p" (ESent ErrForkBomb) /\ as_err s = Some 0%nat /\ cm_manager (as_cm s) = MEnded /\
    cm_callers (as_cm s) !! 0%nat = Some (Caller (QAddr "p") ClSending true)) as (s & Hr & Hs & Hl & Hj & Hm & Hc).
  { eexists. split; [vm_compute; reflexivity|]. by repeat split. }
  destruct (H demo_decay eh_defaults ["s"] s (ex_intro _ _ Hr) Hs ltac:(by rewrite Hl)) as (rest & s' & Hrun & He).
  pose proof (C91_handler_hangs demo_decay eh_defaults ["s"] [] s 0 _ _ true (ex_intro _ _ Hr) Hl Hj Hm Hc rest s' Hrun). congruence.
Qed.
Print Assumptions C91_handler_refuted.
(** As long as the manager's loop has not ended, both can end; and that loop can always end. *)
Theorem C91_toggle_can_end_partial : forall o initial existing s, sw_reach o initial existing s -> sw_stopped s = true -> sw_tog s <> TNew -> sw_close s = CNotCalled ->
  cm_manager (sw_cm s) = MServing \/ (exists w q a, cm_manager (sw_cm s) = MReplying w q a) ->
  exists rest s', sw_run o s rest = Some s' /\ sw_tog s' = TEnded.
Proof. intros o initial existing s Hr Hs Ht Hc Hm. by eapply toggle_can_end. Qed.
Print Assumptions C91_toggle_can_end_partial.
Theorem C91_handler_can_end_partial : forall decay o initial existing s, as_reach decay o initial existing s -> node_stopped s = true -> es_panic (as_eh s) = false ->
  es_loop (as_eh s) <> ENotStarted -> cm_manager (as_cm s) = MServing \/ (exists w q a, cm_manager (as_cm s) = MReplying w q a) ->
  exists rest s', as_run decay o s rest = Some s' /\ es_loop (as_eh s') = EEnded.
Proof. intros decay o initial existing s Hr Hs Hp Hl Hm. by eapply handler_can_end. Qed.
Print Assumptions C91_handler_can_end_partial.
Theorem C91_manager_can_end_partial : forall c, cm_cancelled c = true -> cm_manager c = MServing \/ (exists w q a, cm_manager c = MReplying w q a) ->
  exists rest c', cm_run c rest = Some c' /\ cm_manager c' = MEnded.
Proof.
  intros c Hc [Hm|(w & q & a & Hm)].
  - exists [LShutdown]. cbn [cm_run cm_step]. rewrite Hm, Hc. by eexists.
  - exists [LGiveUp; LShutdown]. cbn [cm_run cm_step]. rewrite Hm, Hc. cbn. rewrite Hc. by eexists.
Qed.
Print Assumptions C91_manager_can_end_partial.
Example C91_nonvacuous : exists s s', sw_run auto (sw_init ["s"] []) [WStart; WCm LStarted; WTick; WStop] = Some s /\ sw_stopped s = true /\ sw_tog s = TAsking 0 /\ cm_manager (sw_cm s) = MServing /\
  sw_run auto s [WCm (LTakeQuery 0); WCm (LTimeout 0); WCount; WDecide 5; WEnd] = Some s' /\ sw_tog s' = TEnded.
Proof. eexists _, _. split; [vm_compute; reflexivity|]. split; [reflexivity|]. split; [reflexivity|]. split; [reflexivity|]. split; vm_compute; reflexivity. Qed.
