(** C105: turning gossip off ends the goroutines that turning it on began (gossip.go:213-246, 286-336), on the model of the gossip
    switch. *)
From Verif Require Import GoBase ErrHandler_Model ErrHandler_Spec ErrHandler_Proofs ErrHandler_Props EhSys_Model EhSys_Spec EhSys_Proofs EhSys_Props
  ConnMgr_Model ConnMgr_Spec ConnMgr_Proofs Toggle_Model Toggle_Proofs Asm_Model Asm_Spec Asm_Proofs Asm_Props Switch_Model Switch_Spec Switch_Proofs Switch_Props.

(** The contexts of all the goroutines that were started are cancelled. *)
Definition all_cancelled (s : sw) : Prop := Forall (fun g => gs_cancelled g = true) (sw_sessions s).
(** A goroutine whose context is cancelled returns once it runs: from now on its session, whatever happens, can get to its end. *)
Definition returned (i : nat) (s : sw) : Prop := exists g, sw_sessions s !! i = Some g /\ gs_blocks g = GExited /\ gs_txs g = GExited.
Definition C105_statement : Prop := forall o initial existing s, sw_reach o initial existing s -> sw_tog s = TIdle -> sw_enabled s = false -> all_cancelled s.

Section proofs.
Context (o : tg_opts).
(** What holds of the sessions and gossipCancel until Close is called *)
Definition ses_inv (s : sw) : Prop :=
  (forall i g, sw_sessions s !! i = Some g -> gs_cancelled g = true \/ sw_cancel s = Some i) /\
  match sw_tog s with
  | TCalling true OStart => sw_cancel s = None
  | TCalling true (OAnnounce true) => sw_cancel s <> None
  | TCalling false OStopBlocks | TCalling false OStopTxs | TCalling false OCheck | TCalling false OCancel => sw_cancel s <> None
  | TCalling false OClear => all_cancelled s
  | TCalling false (OAnnounce false) => sw_cancel s = None
  | TCalling _ _ => False
  | TNew => sw_cancel s = None /\ sw_enabled s = false
  | TStoring b => (sw_cancel s = None <-> b = false)
  | _ => sw_cancel s = None <-> sw_enabled s = false
  end.
Lemma ses_step s lab s' : sw_step o s lab = Some s' -> sw_close s' = CNotCalled -> ses_inv s -> ses_inv s'.
Proof.
  intros Hst Hcl' [HS HT].
  assert (Hsame : sw_sessions s' = sw_sessions s -> sw_cancel s' = sw_cancel s -> sw_tog s' = sw_tog s -> sw_enabled s' = sw_enabled s -> ses_inv s').
  { intros G1 G2 G3 G4. unfold ses_inv, all_cancelled. rewrite G1, G2, G3, G4. done. }
  assert (Hses : (forall i g, sw_sessions s' !! i = Some g -> exists g0, sw_sessions s !! i = Some g0 /\ (gs_cancelled g0 = true -> gs_cancelled g = true)) ->
    sw_cancel s' = sw_cancel s -> sw_tog s' = sw_tog s -> sw_enabled s' = sw_enabled s -> ses_inv s').
  { intros G1 G2 G3 G4. split.
    - intros i g Hi. destruct (G1 i g Hi) as (g0 & H0 & Hg). destruct (HS i g0 H0) as [?|?]; [left; auto|right; congruence].
    - rewrite G2, G3, G4. destruct (sw_tog s) as [| | | |[] []| |]; try done. apply Forall_lookup. intros i g Hi. destruct (G1 i g Hi) as (g0 & H0 & Hg). apply Hg. by eapply Forall_lookup in HT. }
  assert (Hmv : forall (i : nat) t x g, sw_sessions s !! i = Some g -> forall j g', <[i := move_starter t x g]> (sw_sessions s) !! j = Some g' ->
    exists g0, sw_sessions s !! j = Some g0 /\ (gs_cancelled g0 = true -> gs_cancelled g' = true)).
  { intros i t x g Hg j g' Hj. destruct (decide (i = j)) as [<-|].
    - rewrite list_lookup_insert in Hj by (by eapply lookup_lt_Some). injection Hj as <-. exists g. split; [done|]. by destruct t.
    - rewrite list_lookup_insert_ne in Hj by done. by exists g'. }
  sw_destruct Hst lab; subst; try (by apply Hsame).
  - apply Hsame; by rewrite Hs.
  - rewrite Ht in HT. unfold ses_inv. destruct (tg_always_enable o); [|destruct (tg_always_disable o)]; cbn.
    all: destruct HT as [H1 H2]; split; [exact HS|]; by rewrite ?H1, ?H2.
  - rewrite Hs. rewrite Ht in HT. by split.
  - rewrite Ht in HT. by split.
  - rewrite Ht in HT. by split.
  - rewrite Ht in HT. unfold ses_inv. cbn. split; [done|]. destruct (eqb _ _) eqn:He; [done|]. apply eqb_false_iff in He. unfold op_begin.
    destruct (sw_enabled s), (decide_on n (sw_head s) now), (sw_cancel s); try done; by destruct HT as [H1 H2]; try (specialize (H1 eq_refl)); try (specialize (H2 eq_refl)).
  - rewrite Ht in HT. unfold ses_inv. destruct b, x as [| | | | | |[]]; try done; cbn [op_step] in Ho.
    + injection Ho as <- <-. cbn. split; [|done]. intros i g Hi. apply lookup_app_Some in Hi as [Hi|[Hl Hi]]; [left; destruct (HS i g Hi); [done|congruence]|right].
      apply list_lookup_singleton_Some in Hi as [Hi _]. f_equal. lia.
    + injection Ho as <- <-. cbn. split; [done|]. by destruct (sw_cancel s).
    + injection Ho as <- <-. by cbn.
    + injection Ho as <- <-. by cbn.
    + injection Ho as <- <-. cbn. split; [done|]. by destruct (sw_cancel s).
    + destruct (sw_cancel s) as [c|] eqn:Ec; [|done]. injection Ho as <- <-. cbn.
      assert (Hall : Forall (fun g => gs_cancelled g = true) (alter end_session c (sw_sessions s))).
      { apply Forall_lookup. intros i g Hi. destruct (decide (c = i)) as [<-|].
        - rewrite list_lookup_alter in Hi. destruct (sw_sessions s !! c); [|done]. by injection Hi as <-.
        - rewrite list_lookup_alter_ne in Hi by done. destruct (HS i g Hi); [done|congruence]. }
      split; [|done]. intros i g Hi. left. by eapply Forall_lookup in Hall.
    + injection Ho as <- <-. cbn. split; [|done]. intros i g Hi. left. by eapply Forall_lookup in HT.
    + injection Ho as <- <-. cbn. split; [done|]. by rewrite HT.
  - rewrite Ht in HT. unfold ses_inv. cbn. split; [done|]. by case_match.
  - destruct (ok && negb (topic_on t s)); apply Hses; try done; intros j g' Hj; destruct t; (eapply Hmv; [exact Hg|exact Hj]).
  - apply Hses; try done. intros j g' Hj. eapply Hmv; [exact Hg|exact Hj].
  - cbn in Hcl'. by destruct r.
  - apply Hses; rewrite Hs; try done. intros i g Hi. cbn in Hi. rewrite list_lookup_fmap in Hi. destruct (sw_sessions s !! i) as [g0|]; [|done]. injection Hi as <-. by exists g0.
Qed.
Lemma ses_reach initial existing s : sw_reach o initial existing s -> sw_close s = CNotCalled -> ses_inv s.
Proof.
  revert s. apply (sw_reach_ind o initial existing (fun s => sw_close s = CNotCalled -> ses_inv s)).
  - intros _. split; [|done]. intros i g Hi. done.
  - intros s lab s' Hr IH Hst Hc. eapply ses_step; [exact Hst|exact Hc|]. apply IH. by eapply not_closed_step.
Qed.
(** When the node's context is done, all sessions are cancelled. *)
Lemma stop_reach initial existing s : sw_reach o initial existing s -> sw_stopped s = true -> all_cancelled s.
Proof.
  revert s. apply (sw_reach_ind o initial existing (fun s => sw_stopped s = true -> all_cancelled s)); [done|].
  intros s lab s' _ IH Hst Hx. unfold all_cancelled.
  destruct (cm_side _ _ _ _ Hst) as (_ & _ & Hcc & _). unfold sw_stopped in *.
  assert (Hop : forall x ok s1 r, op_step x ok s = (s1, r) -> cm_cancelled (sw_cm s) = true -> Forall (fun g => gs_cancelled g = true) (sw_sessions s1)).
  { intros x ok s1 r Ho Hs. specialize (IH Hs). destruct x; cbn [op_step] in Ho; try (destruct (sw_cancel s) as [c|]); injection Ho as <- <-; cbn; try done.
    - apply Forall_app. split; [done|]. repeat constructor. exact Hs.
    - apply Forall_app. split; [done|]. repeat constructor. exact Hs.
    - apply Forall_alter; [done|]. by intros. }
  assert (Hmv : forall (i : nat) t x g, sw_sessions s !! i = Some g -> cm_cancelled (sw_cm s) = true -> Forall (fun g => gs_cancelled g = true) (<[i := move_starter t x g]> (sw_sessions s))).
  { intros i t x g Hg Hs. specialize (IH Hs). apply Forall_insert; [done|]. eapply Forall_lookup in Hg; [|exact IH]. by destruct t. }
  assert (Hsame : lab <> WStop -> sw_sessions s' = sw_sessions s -> Forall (fun g => gs_cancelled g = true) (sw_sessions s')) by (intros Hn ->; apply IH; by rewrite <- Hcc).
  assert (Hold : lab <> WStop -> cm_cancelled (sw_cm s) = true) by (intros Hn; by rewrite <- Hcc).
  sw_destruct Hst lab; try (apply Hsame; [done|]; by rewrite Hs).
  - apply Hsame; [done|]. rewrite Hs. by repeat case_match.
  - rewrite Hs. cbn. eapply Hop; [exact Ho|by apply Hold].
  - assert (E : sw_sessions s' = <[i := move_starter t GLoop g]> (sw_sessions s)) by (rewrite Hs, Hs1; by destruct (ok && negb (topic_on t s)), t). rewrite E. apply Hmv; [done|by apply Hold].
  - assert (E : sw_sessions s' = <[i := move_starter t GExited g]> (sw_sessions s)) by (by rewrite Hs). rewrite E. apply Hmv; [done|by apply Hold].
  - rewrite Hs. cbn. eapply Hop; [exact Ho|by apply Hold].
  - rewrite Hs. cbn. apply Forall_fmap. by apply Forall_true.
Qed.
(** A goroutine runs to its end: steps of the two goroutines of session [i] only. *)
Lemma exit_one i t s : sw_panic s = false -> (exists g, sw_sessions s !! i = Some g /\ gs_cancelled g = true) ->
  exists rest s', sw_run o s rest = Some s' /\ Forall (fun lab => (exists ok, lab = WStarter i t ok) \/ lab = WStarterExit i t) rest /\ sw_panic s' = false /\
    exists g g', sw_sessions s !! i = Some g /\ sw_sessions s' !! i = Some g' /\ gs_cancelled g' = true /\ starter_of t g' = GExited /\
      starter_of (match t with Blocks => Txs | Txs => Blocks end) g' = starter_of (match t with Blocks => Txs | Txs => Blocks end) g.
Proof.
  intros Hp (g & Hg & Hc).
  assert (Hexit : forall s g, sw_panic s = false -> sw_sessions s !! i = Some g -> gs_cancelled g = true -> starter_of t g = GLoop ->
    sw_step o s (WStarterExit i t) = Some (with_sessions (<[i := move_starter t GExited g]> (sw_sessions s)) s)).
  { clear. intros s g Hp Hg Hc Ht. unfold sw_step. rewrite Hp. cbn [mbind option_bind]. rewrite Hg. cbn. by rewrite Ht, Hc. }
  assert (Hafter : forall s g x, sw_sessions s !! i = Some g -> <[i := move_starter t x g]> (sw_sessions s) !! i = Some (move_starter t x g)).
  { clear. intros s g x Hg. apply list_lookup_insert. by eapply lookup_lt_Some. }
  assert (Hmc : forall g x, gs_cancelled (move_starter t x g) = gs_cancelled g) by (intros; by destruct t).
  assert (Hms : forall g x, starter_of t (move_starter t x g) = x) by (intros; by destruct t).
  assert (Hmo : forall g x, starter_of (match t with Blocks => Txs | Txs => Blocks end) (move_starter t x g) = starter_of (match t with Blocks => Txs | Txs => Blocks end) g) by (intros; by destruct t).
  destruct (starter_of t g) eqn:Ht.
  - set (s1 := with_sessions (<[i := move_starter t GLoop g]> (sw_sessions s)) s).
    assert (Hs1 : sw_step o s (WStarter i t false) = Some s1) by (unfold sw_step; rewrite Hp; cbn [mbind option_bind]; rewrite Hg; cbn; by rewrite Ht).
    assert (Hg1 : sw_sessions s1 !! i = Some (move_starter t GLoop g)) by (by apply Hafter).
    eexists [WStarter i t false; WStarterExit i t], _. cbn [sw_run]. rewrite Hs1. rewrite (Hexit s1 (move_starter t GLoop g)); [|done|done|by rewrite Hmc|by apply Hms].
    split; [done|]. split; [apply Forall_cons; split; [left; by exists false|apply Forall_singleton; by right]|]. split; [done|]. exists g, (move_starter t GExited (move_starter t GLoop g)). split_and!; [done|by apply Hafter|by rewrite !Hmc|by apply Hms|by rewrite !Hmo].
  - eexists [WStarterExit i t], _. cbn [sw_run]. rewrite (Hexit s g) by done. split; [done|]. split; [apply Forall_singleton; by right|]. split; [done|].
    exists g, (move_starter t GExited g). split_and!; [done|by apply Hafter|by rewrite !Hmc|by apply Hms|by rewrite !Hmo].
  - exists [], s. split; [done|]. split; [done|]. split; [done|]. by exists g, g.
Qed.
Lemma exit_both i s : sw_panic s = false -> (exists g, sw_sessions s !! i = Some g /\ gs_cancelled g = true) ->
  exists rest s', sw_run o s rest = Some s' /\ Forall (fun lab => exists t, (exists ok, lab = WStarter i t ok) \/ lab = WStarterExit i t) rest /\ returned i s'.
Proof.
  intros Hp Hg. destruct (exit_one i Blocks s Hp Hg) as (r1 & s1 & H1 & F1 & Hp1 & _ & g1 & _ & G1 & C1 & E1 & _).
  destruct (exit_one i Txs s1 Hp1 ltac:(by exists g1)) as (r2 & s2 & H2 & F2 & _ & g1' & g2 & G1' & G2 & _ & E2 & E3). rewrite G1 in G1'. injection G1' as <-.
  exists (r1 ++ r2), s2. split; [by rewrite sw_run_app, H1|]. split; [apply Forall_app; split; [eapply Forall_impl; [exact F1|]; intros x Hx; by exists Blocks|eapply Forall_impl; [exact F2|]; intros x Hx; by exists Txs]|]. exists g2. cbn in *. split_and!; [done|congruence|done].
Qed.
End proofs.

(** C105, partial: until Close is called, whenever gossip is off between two ticks ... *)
Theorem C105_off_partial : forall o initial existing s, sw_reach o initial existing s -> sw_close s = CNotCalled -> sw_tog s = TIdle -> sw_enabled s = false -> all_cancelled s.
Proof.
  intros o initial existing s Hr Hc Ht He. destruct (ses_reach _ _ _ _ Hr Hc) as [HS HT]. rewrite Ht in HT. apply Forall_lookup. intros i g Hi.
  destruct (HS i g Hi) as [?|Hx]; [done|]. rewrite (proj2 HT He) in Hx. done.
Qed.
Print Assumptions C105_off_partial.
(** ... and, in every execution, when the node's context is done, the contexts of all these goroutines are cancelled; ... *)
Theorem C105_stopped : forall o initial existing s, sw_reach o initial existing s -> sw_stopped s = true -> all_cancelled s.
Proof. apply stop_reach. Qed.
Print Assumptions C105_stopped.
(** ... then each of them can return, by its own steps alone. *)
Theorem C105_can_return : forall o initial existing s i, sw_reach o initial existing s -> sw_panic s = false -> all_cancelled s -> i < length (sw_sessions s) ->
  exists rest s', sw_run o s rest = Some s' /\ Forall (fun lab => exists t, (exists ok, lab = WStarter i t ok) \/ lab = WStarterExit i t) rest /\ returned i s'.
Proof.
  intros o initial existing s i _ Hp Hall Hi. apply exit_both; [done|]. apply lookup_lt_is_Some in Hi as [g Hg]. exists g. split; [done|]. by eapply Forall_lookup in Hall.
Qed.
Print Assumptions C105_can_return.
(** At any time before Close at most the goroutines of the latest enabling run on. *)
Theorem C105_at_most_latest_partial : forall o initial existing s i j g h, sw_reach o initial existing s -> sw_close s = CNotCalled ->
  sw_sessions s !! i = Some g -> sw_sessions s !! j = Some h -> gs_cancelled g = false -> gs_cancelled h = false -> i = j.
Proof.
  intros o initial existing s i j g h Hr Hc Hi Hj Hg Hh. destruct (ses_reach _ _ _ _ Hr Hc) as [HS _].
  destruct (HS i g Hi) as [?|E1]; [congruence|]. destruct (HS j h Hj) as [?|E2]; [congruence|]. congruence.
Qed.
Print Assumptions C105_at_most_latest_partial.
(** C105, REFUTED when Close takes part: between its cancelling and its clearing of gossipCancel the toggle turns gossip off and on again.  The
    cancel function of the new goroutines is cleared; turning gossip off does not end them, and nothing but the end of the node's
    context ever will. *)
Definition again (n : nat) (now : Z) : list slabel := [WTick; WCm (LTakeQuery n); WCm LReply; WCount; WDecide now].
Definition late : Z := 100000000000.
Definition cleared : list slabel :=
  sw_demo ++ sw_tick 5 ++ sw_enable ++ [WClose; WCloseOp true; WCloseOp true; WCloseOp true; WCloseOp true] ++
  again 1 late ++ sw_off ++ again 2 5 ++ sw_enable ++ [WStarter 1 Blocks true; WStarter 1 Txs true; WCloseOp true; WCloseOp true; WHostClosed] ++
  again 3 late ++ [WOp true; WOp true; WOp true; WOp true; WStore].
Theorem C105_leak_refuted : exists initial existing s, sw_reach auto initial existing s /\ sw_tog s = TIdle /\ sw_enabled s = false /\ sw_close s = CClosed /\
  (exists g, sw_sessions s !! 1 = Some g /\ gs_blocks g = GLoop /\ gs_txs g = GLoop) /\
  forall rest s', WStop ∉ rest -> sw_run auto s rest = Some s' -> exists g, sw_sessions s' !! 1 = Some g /\ gs_cancelled g = false /\ gs_blocks g = GLoop /\ gs_txs g = GLoop.
Proof.
  eexists ["s"%string], [], _. split; [exists cleared; vm_compute; reflexivity|]. split; [reflexivity|]. split; [reflexivity|]. split; [reflexivity|]. split; [by eexists|].
  intros rest s' Hn Hr.
  assert (H : sw_cancel s' <> Some 1 /\ exists g, sw_sessions s' !! 1 = Some g /\ gs_cancelled g = false /\ gs_blocks g = GLoop /\ gs_txs g = GLoop); [|by destruct H].
  eapply (sw_run_ind auto (fun s => sw_cancel s <> Some 1 /\ exists g, sw_sessions s !! 1 = Some g /\ gs_cancelled g = false /\ gs_blocks g = GLoop /\ gs_txs g = GLoop) (fun lab => lab <> WStop)) in Hr;
    [exact Hr| |by apply notin_Forall|split; [done|by eexists]]. clear.
  intros s lab s' Hl (Hc & g & Hg & H1 & H2 & H3) Hst.
  assert (Hop : forall x ok s1 r, op_step x ok s = (s1, r) -> sw_cancel s1 <> Some 1 /\ sw_sessions s1 !! 1 = Some g).
  { intros x ok s1 r Ho. destruct x; cbn [op_step] in Ho; try (destruct (sw_cancel s) as [c|] eqn:Ec); injection Ho as <- <-; cbn; rewrite ?Ec; try done.
    - split; [|by apply lookup_app_l_Some]. apply lookup_lt_Some in Hg. intros [= E]. lia.
    - split; [|by apply lookup_app_l_Some]. apply lookup_lt_Some in Hg. intros [= E]. lia.
    - split; [done|]. rewrite list_lookup_alter_ne; [done|]. congruence. }
  assert (Hsame : sw_cancel s' = sw_cancel s -> sw_sessions s' = sw_sessions s -> sw_cancel s' <> Some 1 /\ exists g, sw_sessions s' !! 1 = Some g /\ gs_cancelled g = false /\ gs_blocks g = GLoop /\ gs_txs g = GLoop).
  { intros -> ->. split; [done|]. by exists g. }
  assert (Hmv : forall i t x g0, sw_sessions s !! i = Some g0 -> (x = GLoop -> starter_of t g0 = GNotRun) -> (x = GExited -> starter_of t g0 = GLoop /\ gs_cancelled g0 = true) -> x <> GNotRun ->
    <[i := move_starter t x g0]> (sw_sessions s) !! 1 = Some g).
  { intros i t x g0 Hi Hx Hy Hz. destruct (decide (i = 1)) as [->|]; [|by rewrite list_lookup_insert_ne]. exfalso. rewrite Hg in Hi. injection Hi as <-.
    destruct x; [done| |]; [specialize (Hx eq_refl)|destruct (Hy eq_refl)]; destruct t; cbn in *; congruence. }
  destruct lab as [l| | | | |now|ok| |t|i t ok|i t|t| |ok| |]; try (by exfalso; apply Hl).
  all: assert (Hst' := Hst); apply sw_inv in Hst as [_ Hto]; cbn [step_to] in Hto.
  - destruct Hto as (Hs & _). apply Hsame; by rewrite Hs.
  - destruct Hto as (_ & ->). by apply Hsame.
  - destruct Hto as (_ & Hs & _). apply Hsame; by rewrite Hs.
  - destruct Hto as (_ & _ & ->). by apply Hsame.
  - destruct Hto as (? & ? & ? & ? & _ & _ & ->). by apply Hsame.
  - destruct Hto as (? & _ & ->). by apply Hsame.
  - destruct Hto as (b & x & s1 & r & _ & Ho & ->). destruct (Hop _ _ _ _ Ho) as [? ?]. cbn. split; [done|]. by exists g.
  - destruct Hto as (b & _ & ->). by apply Hsame.
  - subst s'. by apply Hsame.
  - destruct Hto as (g0 & s1 & Hg0 & Ht & -> & ->). assert (E := Hmv i t GLoop g0 Hg0 ltac:(done) ltac:(done) ltac:(done)).
    destruct (ok && negb (topic_on t s)), t; (split; [exact Hc|]; exists g; split; [exact E|done]).
  - unfold sw_step in Hst'. destruct (sw_panic s); [done|]. apply bind_Some in Hst' as (g0 & Hg0 & Hst). destruct (starter_of t g0) eqn:Ht, (gs_cancelled g0) eqn:Hcg; try discriminate Hst. injection Hst as <-.
    assert (E := Hmv i t GExited g0 Hg0 ltac:(done) ltac:(done) ltac:(done)). split; [exact Hc|]. exists g. by split.
  - subst s'. by apply Hsame.
  - destruct Hto as (_ & ->). by apply Hsame.
  - destruct Hto as (x & s1 & r & _ & Ho & ->). destruct (Hop _ _ _ _ Ho) as [? ?]. cbn. split; [done|]. by exists g.
  - destruct Hto as (_ & ->). by apply Hsame.
Qed.
Print Assumptions C105_leak_refuted.
Theorem C105_ends_refuted : ~ C105_statement.
Proof.
  intros H. destruct C105_leak_refuted as (initial & existing & s & Hr & Ht & He & _ & _ & Hx). destruct (Hx [] s ltac:(by intros Hn%elem_of_nil) eq_refl) as (g & Hg & Hc & _).
  specialize (H _ _ _ _ Hr Ht He). eapply Forall_lookup in Hg; [|exact H]. cbn in Hg. congruence.
Qed.
Print Assumptions C105_ends_refuted.
(** Gossip is turned on, off and on again: the first two goroutines' context is cancelled, the second two's is not until it is turned off. *)
Example C105_nonvacuous : exists s s', sw_run auto (sw_init ["s"%string] []) (sw_demo ++ sw_tick 5 ++ sw_enable ++ again 1 late ++ sw_off ++ again 2 5 ++ sw_enable) = Some s /\
  map gs_cancelled (sw_sessions s) = [true; false] /\ sw_enabled s = true /\ sw_run auto s (again 3 late ++ sw_off) = Some s' /\
  sw_close s' = CNotCalled /\ sw_tog s' = TIdle /\ sw_enabled s' = false /\ sw_panic s' = false /\ length (sw_sessions s') = 2.
Proof. eexists _, _. split; [vm_compute; reflexivity|]. split; [reflexivity|]. split; [reflexivity|]. split; [vm_compute; reflexivity|]. by split_and!. Qed.
