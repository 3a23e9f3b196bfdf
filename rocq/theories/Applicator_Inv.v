(** Invariants of the applicator system. *)
From Verif Require Import GoBase Util TxCache_Model Watchdog_Model Applicator_Model Applicator_Spec Applicator_Core Applicator_Sys.

Lemma run_indW o (W : label -> Prop) (I : sys -> Prop) :
  (forall s lab s', W lab -> I s -> s_panic s = false -> Step o s lab s' -> I s') ->
  forall sched s s', Forall W sched -> I s -> run o s sched = Some s' -> I s'.
Proof.
  intros Hstep. induction sched as [|lab r IH]; intros s s' HW HI H; simpl in H; [congruence|].
  apply Forall_cons in HW as [HW1 HW2].
  destruct (step o s lab) as [s1|] eqn:H1; [|done]. apply step_Step in H1 as [Hp H1]. eapply IH; [done| |exact H]. eauto.
Qed.

Ltac effs_same :=
  repeat match goal with |- context [do_effs ?l ?e ?s] =>
    let H := fresh "Hsame" in pose proof (do_effs_same l e s) as H; generalize dependent (do_effs l e s); intros ?s2 H
  end.

(** ** uint64 bounds *)
Record Libs (s : sys) : Prop := {
  lb_lib : (c_lib (s_core s) < two64)%N;
  lb_fh : forall fh n, fh ∈ s_fh s -> fh_lib fh = Some n -> (n < two64)%N }.

Lemma elem_of_delete {A} (l : list A) i x : x ∈ delete i l -> x ∈ l.
Proof.
  intros (j & Hj)%elem_of_list_lookup. destruct (decide (j < i)).
  - rewrite lookup_delete_lt in Hj by done. by eapply elem_of_list_lookup_2.
  - rewrite lookup_delete_ge in Hj by lia. by eapply elem_of_list_lookup_2.
Qed.

Lemma handle_lib_new o now k inc c c' effs : handle_new o now k inc c = (c', effs) ->
  c_lib c' = c_lib c /\ c_highest c' = c_highest c /\ c_pending c' = c_pending c.
Proof.
  intros [(e & _ & -> & _)|[_ H]]%handle_new_cases; [done|]. unfold add_entry in H. injection H as <- _. by destruct (c_byid c !! k_id k).
Qed.
Lemma handle_lib_status o now k res c c' effs : handle_status o now k res c = (c', effs) ->
  c_lib c' = c_lib c /\ c_highest c' = c_highest c /\ c_pending c' = c_pending c ∖ {[ k_id k ]}.
Proof.
  intros [(_ & -> & _)|[(_ & _ & -> & _)|(_ & _ & a & Hs & _)]]%handle_status_cases; [done|done|].
  rewrite (sh_lib _ _ _ _ _ Hs), (sh_highest _ _ _ _ _ Hs), (sh_pending _ _ _ _ _ Hs). done.
Qed.
Lemma remove_list_fields L c effs c' effs' : remove_list L c effs = (c', effs') ->
  c_lib c' = c_lib c /\ c_highest c' = c_highest c /\ c_pending c' = c_pending c.
Proof.
  intros (e & _ & Hs)%remove_list_shrink. rewrite (sh_lib _ _ _ _ _ Hs), (sh_highest _ _ _ _ _ Hs), (sh_pending _ _ _ _ _ Hs). done.
Qed.
Lemma handle_lib_fork_heads o now fh lib c c' effs : fh_lib fh = Some lib -> handle_fork_heads o now fh c = Done (Some (c', effs)) ->
  c_lib c' = lib /\ c_highest c' = c_highest c /\ c_pending c' = c_pending c.
Proof.
  intros Hl. unfold handle_fork_heads. rewrite Hl. case_bool_decide; [done|].
  set (c1 := Core _ lib _ _ _ _). generalize (if bool_decide (add64 (c_lib c) 1 <= lib)%N then (lib - add64 (c_lib c) 1 + 1)%N else 0%N). intros n.
  destruct (remove_heights n (add64 (c_lib c) 1) c1) as [c2 answers] eqn:Hr. intros [= <- _].
  cut (c_lib c2 = c_lib c1 /\ c_highest c2 = c_highest c1 /\ c_pending c2 = c_pending c1); [done|].
  unfold remove_heights in Hr.
  set (F := fun '(h, c, effs) => let '(c', e) := remove_height h c in (add64 h 1, c', effs ++ e)) in Hr.
  assert (Hgen : forall n x, let y := N.iter n F x in
    c_lib (snd (fst y)) = c_lib (snd (fst x)) /\ c_highest (snd (fst y)) = c_highest (snd (fst x)) /\ c_pending (snd (fst y)) = c_pending (snd (fst x))).
  { clear. induction n as [|n IH] using N.peano_ind; intros x; [done|]. rewrite N.iter_succ. simpl.
    specialize (IH x). simpl in IH. destruct (N.iter n F x) as [[h c0] e0]. simpl in *. unfold remove_height.
    destruct (c_byheight c0 !! h) as [ids|]; [|done].
    change (fold_left _ (elements ids) (c0, [])) with (remove_list (elements ids) c0 []).
    destruct (remove_list (elements ids) c0 []) as [c3 e3] eqn:H3. apply remove_list_fields in H3. simpl.
    destruct H3 as (-> & -> & ->). done. }
  specialize (Hgen n (add64 (c_lib c) 1, c1, [])). simpl in Hgen.
  destruct (N.iter n F _) as [[h0 c0] e0]. injection Hr as <- <-. exact Hgen.
Qed.
Lemma handle_lib_broadcast o now k c c' effs : handle_broadcast o now k c = (c', effs) ->
  c_lib c' = c_lib c /\ c_highest c' = N.max (c_highest c) (k_height k) /\ c_pending c' = c_pending c.
Proof. intros [= <- _]. simpl. split_and!; [done| |done]. case_bool_decide; lia. Qed.

Lemma Libs_step o s lab s' : u64_label lab -> Libs s -> Step o s lab s' -> Libs s'.
Proof.
  intros HW [L1 L2] H. destruct H; try (by split).
  - destruct (do_effs_same lose effs (set_core core' (set_new rest s))). apply handle_lib_new in H2 as (E & _).
    split; [rewrite se_core; simpl; congruence|rewrite se_fh; done].
  - destruct (do_effs_same lose effs (add_log (OStatus i k res) (set_core core' (set_phase i PDone s)))).
    apply handle_lib_status in H1 as (E & _). split; [rewrite se_core; simpl; congruence|rewrite se_fh; done].
  - split; [done|]. simpl. intros fh' n [Hin|Hin%elem_of_list_singleton]%elem_of_app Hn; [eauto|]. subst. by apply HW.
  - split; [done|]. simpl. intros fh' n Hin%elem_of_delete. eauto.
  - split; [done|]. simpl. intros fh' n Hin%elem_of_delete. eauto.
  - match goal with |- Libs (do_effs ?l ?e ?x) => destruct (do_effs_same l e x) end.
    eapply handle_lib_fork_heads in H3 as (E & _); [|done]. split; [rewrite se_core; simpl; rewrite E|rewrite se_fh].
    + eapply L2; [|done]. by eapply elem_of_list_lookup_2.
    + simpl. intros fh' n Hin%elem_of_delete. eauto.
  - match goal with |- Libs (do_effs ?l ?e ?x) => destruct (do_effs_same l e x) end.
    apply handle_lib_broadcast in H3 as (E & _). split; [rewrite se_core; simpl; congruence|rewrite se_fh; done].
Qed.

(** ** Callers are accounted for *)
Definition waiting (s : sys) : list nat := s_new s ++ all_chans (c_byid (s_core s)).
Definition answer_call (e : event) : option nat := match e with OAnswer c _ => Some c | _ => None end.
Record Acc (s : sys) : Prop := {
  a_ok : core_ok (s_core s);
  a_nodup : NoDup (waiting s);
  a_open : forall c, c ∈ waiting s -> exists cl, s_calls s !! c = Some cl /\ cl_buf cl = None /\ cl_phase cl <> CSend;
  a_send : forall c cl, s_calls s !! c = Some cl -> cl_phase cl = CSend -> cl_buf cl = None;
  a_held : s_cancelled s = false -> forall c cl, s_calls s !! c = Some cl -> cl_phase cl <> CSend -> cl_buf cl = None -> c ∈ waiting s;
  a_ids : forall id e ch, c_byid (s_core s) !! id = Some e -> ch ∈ e_chans e ->
            exists cl, s_calls s !! ch = Some cl /\ k_id (cl_blk cl) = id;
  a_log : forall c r, OAnswer c r ∈ s_log s <-> exists cl, s_calls s !! c = Some cl /\ cl_buf cl = Some r;
  a_once : NoDup (omap answer_call (s_log s)) }.

Lemma acc_handler s s1 src inc core' effs lose :
  Acc s -> s_core s1 = core' -> s_calls s1 = s_calls s -> s_cancelled s1 = s_cancelled s ->
  s_panic s = false -> s_panic s1 = false ->
  (s_log s1 = s_log s \/ exists x, answer_call x = None /\ s_log s1 = x :: s_log s) ->
  inc = default [] (snd <$> src) -> s_new s = inc ++ s_new s1 ->
  handled src (s_core s) core' effs ->
  (forall k l c, src = Some (k, l) -> c ∈ l -> exists cl, s_calls s !! c = Some cl /\ cl_blk cl = k) ->
  Acc (do_effs lose effs s1) /\ s_panic (do_effs lose effs s1) = false /\ fine s1 effs.
Proof.
  intros HA Hcore Hcalls Hcan Hp Hp1 Hlog Hinc Hnew Hh Hsrc.
  assert (Hperm : s_new s1 ++ all_chans (c_byid core') ++ answered effs ≡ₚ waiting s).
  { rewrite (hd_perm _ _ _ _ Hh), <- Hinc. unfold waiting. rewrite Hnew.
    rewrite (assoc_L (++) (s_new s1)). f_equiv. apply Permutation_app_comm. }
  assert (Hnd : NoDup (s_new s1 ++ all_chans (c_byid core') ++ answered effs)) by (rewrite Hperm; apply HA).
  assert (Hfine : fine s1 effs).
  { split.
    - apply NoDup_app in Hnd as (_ & _ & Hnd). by apply NoDup_app in Hnd as (_ & _ & Hnd).
    - intros ch Hch. rewrite Hcalls. destruct (a_open s HA ch) as (cl & ? & ? & _); [|eauto].
      rewrite <- Hperm. set_solver. }
  destruct (do_effs_fine lose effs s1 Hfine) as [Hpan Hpt].
  pose proof (do_effs_same lose effs s1) as HS.
  assert (Hwait : waiting (do_effs lose effs s1) = s_new s1 ++ all_chans (c_byid core')).
  { unfold waiting. rewrite (se_core _ _ _ HS), (se_new _ _ _ HS), Hcore. done. }
  assert (Hdisj : forall c, c ∈ s_new s1 ++ all_chans (c_byid core') -> c ∉ answered effs).
  { intros c Hc. rewrite (assoc_L (++)) in Hnd. apply NoDup_app in Hnd as (_ & Hd & _). by apply Hd. }
  assert (Hback : forall c cl', s_calls (do_effs lose effs s1) !! c = Some cl' -> exists cl, s_calls s !! c = Some cl /\
    ((c ∉ answered effs /\ cl' = cl) \/ (c ∈ answered effs /\ cl_buf cl = None /\ s_cancelled s = true /\ cl' = cl) \/
     (exists r, Answer c r ∈ effs /\ cl_buf cl = None /\ cl' = Call (cl_blk cl) (cl_phase cl) (Some r) /\ OAnswer c r ∈ s_log (do_effs lose effs s1)))).
  { intros c cl' Hc'. destruct (se_blk _ _ _ HS c cl' Hc') as (cl & Hc & _). exists cl. split; [by rewrite <- Hcalls|].
    destruct (Hpt c cl Hc) as [P1 P2]. destruct (decide (c ∈ answered effs)) as [Hin|Hin].
    - right. destruct (proj2 Hfine c Hin) as (cl0 & Hc0 & Hb0). assert (cl0 = cl) as -> by congruence.
      pose proof Hin as Hin2. apply elem_answered in Hin2 as (r & Hr). destruct (P2 r Hr) as [[Q Q']|[Q1 Q2]].
      + right. exists r. split_and!; try done. congruence.
      + left. split_and!; try done; congruence.
    - left. split; [done|]. rewrite P1 in Hc' by done. congruence. }
  split_and!; [|congruence|done]. split.
  - rewrite (se_core _ _ _ HS), Hcore. apply Hh, HA.
  - rewrite Hwait. rewrite (assoc_L (++)) in Hnd. by apply NoDup_app in Hnd as (? & _).
  - intros c Hc. rewrite Hwait in Hc. destruct (a_open s HA c) as (cl & Hcl & ? & ?).
    { rewrite <- Hperm, (assoc_L (++)). apply elem_of_app. by left. }
    exists cl. split; [|done]. apply Hpt; [congruence|]. by apply Hdisj.
  - intros c cl' Hc' Hph. destruct (Hback c cl' Hc') as (cl & Hcl & [[_ ->]|[(_ & ? & _ & ->)|(r & Hr & Hb & -> & _)]]); [by eapply a_send|done|].
    simpl in *. exfalso. assert (Hin : c ∈ answered effs) by (apply elem_answered; eauto).
    destruct (a_open s HA c) as (cl0 & Hc0 & _ & Hne); [rewrite <- Hperm; set_solver|]. congruence.
  - rewrite (se_cancelled _ _ _ HS), Hcan. intros Hnc c cl' Hc' Hph Hb. rewrite Hwait.
    destruct (Hback c cl' Hc') as (cl & Hcl & [[Hn ->]|[(_ & _ & ? & _)|(r & Hr & _ & -> & _)]]); [|congruence|done].
    pose proof (a_held s HA Hnc c cl Hcl Hph Hb) as Hin. rewrite <- Hperm in Hin. set_solver.
  - rewrite (se_core _ _ _ HS), Hcore. intros id e ch He Hch.
    assert (Hx : exists cl, s_calls s !! ch = Some cl /\ k_id (cl_blk cl) = id).
    { destruct (hd_chan _ _ _ _ Hh id e ch He Hch) as [(e0 & He0 & Hch0)|(k & l & Hs & -> & Hin)].
      - by eapply (a_ids s HA).
      - destruct (Hsrc k l ch Hs Hin) as (cl & ? & <-). eauto. }
    destruct Hx as (cl & Hcl & Hid). exists cl. split; [|done]. apply Hpt; [congruence|].
    apply Hdisj, elem_of_app. right. apply elem_all_chans. eauto.
  - intros c r. destruct (se_log _ _ _ HS) as (new & Hl & Hn).
    assert (Hold : OAnswer c r ∈ s_log s1 <-> OAnswer c r ∈ s_log s).
    { destruct Hlog as [->|(x & Hx & ->)]; [done|]. rewrite elem_of_cons. split; [|tauto]. intros [<-|]; [done|tauto]. }
    split.
    + rewrite Hl, elem_of_app, Hold. intros [Hin|Hin].
      * destruct (Hn _ Hin) as (ch & res & [= <- <-] & Heff).
        destruct (proj2 Hfine c) as (cl & Hc & Hb); [apply elem_answered; eauto|].
        destruct (Hpt c cl Hc) as [_ P2]. destruct (P2 r Heff) as [[Q _]|[Q1 Q2]]; [eauto|].
        (* a lost answer is not logged: contradiction with the log being written only on delivery *)
        exfalso. clear -Hin Hn Q2 Hb Hc Hl Hfine Heff HS.
        assert (Hdel : forall effs s1 new, fine s1 effs -> s_log (do_effs lose effs s1) = new ++ s_log s1 -> OAnswer c r ∈ new ->
           exists cl, s_calls (do_effs lose effs s1) !! c = Some cl /\ cl_buf cl = Some r).
        { clear. intros effs. unfold do_effs. induction effs as [|e effs IH]; intros s1 new Hf Hl Hin; simpl in *.
          - assert (new = []) as ->; [|set_solver]. apply (app_inv_tail (s_log s1)). done.
          - destruct e as [ch res|k f t].
            + destruct Hf as [Hnd Hop]. change (answered (Answer ch res :: effs)) with (ch :: answered effs) in *.
              apply NoDup_cons in Hnd as [Hni Hnd].
              simpl in *. destruct (Hop ch) as (cl0 & Hc0 & Hb0); [left|]. rewrite Hc0, Hb0 in *.
              destruct (s_cancelled s1 && lose ch).
              * eapply IH; [|exact Hl|done]. split; [done|]. intros x Hx. apply Hop. by right.
              * set (s1' := add_log _ _) in *.
                assert (Hf' : fine s1' effs).
                { split; [done|]. intros x Hx. destruct (Hop x) as (cl & Hc & ?); [by right|]. exists cl. simpl.
                  rewrite list_lookup_insert_ne by set_solver. done. }
                destruct (se_log _ _ _ (do_effs_same lose effs s1')) as (n2 & Hl2 & Hn2). unfold do_effs in Hl2.
                pose proof Hl as Hl3. rewrite Hl2 in Hl3. unfold s1' in Hl3. simpl in Hl3.
                assert (new = n2 ++ [OAnswer ch res]) as ->.
                { apply (app_inv_tail (s_log s1)). rewrite <- Hl3, <- (assoc_L (++)). done. }
                apply elem_of_app in Hin as [Hi|Hin%elem_of_list_singleton]; [by eapply IH|]. injection Hin as -> ->.
                exists (Call (cl_blk cl0) (cl_phase cl0) (Some res)). split; [|done].
                destruct (do_effs_fine lose effs s1' Hf') as [_ Hpt]. unfold do_effs in Hpt.
                apply (Hpt ch (Call (cl_blk cl0) (cl_phase cl0) (Some res))); [|done].
                simpl. apply list_lookup_insert. by eapply lookup_lt_Some.
            + eapply IH; [|exact Hl|done]. exact Hf. }
        destruct (Hdel effs s1 new Hfine Hl Hin) as (cl' & ? & ?). congruence.
      * apply (a_log s HA) in Hin as (cl & Hcl & Hb). exists cl. split; [|done]. apply Hpt; [congruence|].
        intros Hin. destruct (proj2 Hfine c Hin) as (cl0 & ? & ?). congruence.
    + intros (cl' & Hc' & Hb'). destruct (Hback c cl' Hc') as (cl & Hcl & [[_ ->]|[(_ & ? & _ & ->)|(r0 & Hr & Hb & -> & Hlg)]]).
      * rewrite Hl, elem_of_app, Hold. right. apply (a_log s HA). eauto.
      * congruence.
      * simpl in Hb'. injection Hb' as ->. done.
  - assert (Honce : NoDup (omap answer_call (s_log s1))).
    { destruct Hlog as [->|(x & Hx & ->)]; [apply HA|]. simpl. rewrite Hx. apply HA. }
    assert (Hfresh : forall c, c ∈ omap answer_call (s_log s1) -> c ∉ answered effs).
    { intros c Hc Hin. destruct (proj2 Hfine c Hin) as (cl & Hcl & Hb).
      apply elem_of_list_omap in Hc as (x & Hx & Hxc). destruct x; try done. injection Hxc as ->.
      assert (Hx' : OAnswer c res ∈ s_log s).
      { destruct Hlog as [<-|(y & Hy & Hl)]; [done|]. rewrite Hl in Hx. apply elem_of_cons in Hx as [<-|]; done. }
      apply (a_log s HA) in Hx' as (cl0 & ? & ?). congruence. }
    clear -Honce Hfresh Hfine. revert s1 Honce Hfresh Hfine. unfold do_effs.
    induction effs as [|e effs IH]; intros s1 Honce Hfresh Hf; simpl; [done|]. apply IH.
    + destruct e as [ch res|]; simpl; [|done]. destruct (s_cancelled s1 && lose ch); [done|].
      destruct (s_calls s1 !! ch) as [cl|]; [|done]. destruct (cl_buf cl); [done|]. simpl.
      apply NoDup_cons. split; [|done]. intros Hin. apply (Hfresh ch Hin). left.
    + intros c Hc Hin. destruct e as [ch res|]; simpl in Hc; [|by apply (Hfresh c)].
      destruct Hf as [Hnd _]. change (answered (Answer ch res :: effs)) with (ch :: answered effs) in *. apply NoDup_cons in Hnd as [Hni _].
      assert (Hor : c = ch \/ c ∈ omap answer_call (s_log s1)).
      { destruct (s_cancelled s1 && lose ch); [by right|]. destruct (s_calls s1 !! ch) as [cl|]; [|by right].
        destruct (cl_buf cl); [by right|]. simpl in Hc. apply elem_of_cons in Hc. done. }
      destruct Hor as [->|Hor]; [done|]. apply (Hfresh c Hor). by right.
    + destruct e as [ch res|k f t]; simpl; [|done]. destruct Hf as [Hnd Hop].
      change (answered (Answer ch res :: effs)) with (ch :: answered effs) in *. apply NoDup_cons in Hnd as [Hni Hnd].
      destruct (s_cancelled s1 && lose ch); [split; [done|]; intros x Hx; apply Hop; by right|].
      destruct (Hop ch) as (cl0 & Hc0 & Hb0); [left|]. rewrite Hc0, Hb0. split; [done|]. simpl.
      intros x Hx. destruct (Hop x) as (cl & Hc & ?); [by right|]. exists cl. rewrite list_lookup_insert_ne by set_solver. done.
Qed.

(** Steps that touch neither calls, nor the pool, nor the queue of new blocks. *)
Lemma acc_same s s' : Acc s -> c_byid (s_core s') = c_byid (s_core s) -> c_byprev (s_core s') = c_byprev (s_core s) ->
  c_byheight (s_core s') = c_byheight (s_core s) -> s_calls s' = s_calls s -> s_new s' = s_new s ->
  (s_cancelled s = true -> s_cancelled s' = true) ->
  (s_log s' = s_log s \/ exists x, answer_call x = None /\ s_log s' = x :: s_log s) -> Acc s'.
Proof.
  intros [A1 A2 A3 A4 A5 A6 A7 A8] E1 E2 E3 E4 E5 E6 E7.
  assert (Hw : waiting s' = waiting s) by (unfold waiting; congruence).
  split; rewrite ?Hw, ?E1, ?E4; try done.
  - by eapply core_ok_same; [..|exact A1].
  - intros Hc. apply A5. destruct (s_cancelled s); [by rewrite E6 in Hc|done].
  - intros c r. rewrite <- A7. destruct E7 as [->|(x & Hx & ->)]; [done|]. rewrite elem_of_cons. split; [|tauto]. intros [<-|]; done.
  - destruct E7 as [->|(x & Hx & ->)]; [done|]. simpl. rewrite Hx. done.
Qed.

Lemma Acc_step o s lab s' : Libs s -> Acc s -> s_panic s = false -> Step o s lab s' -> Acc s'.
Proof.
  intros HL HA Hp H.
  destruct H; try (eapply acc_same; [exact HA|..]; simpl; try done; first [by left|by right; eexists; split; [|done]]; done).
  - (* call *)
    destruct HA as [A1 A2 A3 A4 A5 A6 A7 A8]. split; simpl; try done.
    + intros c Hc. destruct (A3 c Hc) as (cl & Hcl & ?). exists cl. rewrite lookup_app_l by (by eapply lookup_lt_Some). done.
    + intros c cl [Hc|(_ & Hc)]%lookup_app_Some; [by eapply A4|]. apply list_lookup_singleton_Some in Hc as [_ <-]. done.
    + intros Hnc c cl [Hc|(_ & Hc)]%lookup_app_Some; [by eapply A5|]. apply list_lookup_singleton_Some in Hc as [_ <-]. done.
    + intros id e ch He Hch. destruct (A6 id e ch He Hch) as (cl & Hcl & ?). exists cl. rewrite lookup_app_l by (by eapply lookup_lt_Some). done.
    + intros c r. rewrite A7. split.
      * intros (cl & Hcl & ?). exists cl. rewrite lookup_app_l by (by eapply lookup_lt_Some). done.
      * intros (cl & [Hc|(_ & Hc)]%lookup_app_Some & ?); [eauto|]. apply list_lookup_singleton_Some in Hc as [_ <-]. done.
  - (* send *)
    assert (Hbuf : buf = None) by (exact (a_send s HA _ _ H eq_refl)). subst buf.
    assert (Hnc : c ∉ waiting s) by (intros Hin; destruct (a_open s HA c Hin) as (cl & ? & ? & ?); simplify_eq; done).
    assert (Hlk : <[c:=Call k CWait None]> (s_calls s) !! c = Some (Call k CWait None)) by (apply list_lookup_insert; by eapply lookup_lt_Some).
    assert (Hw : forall c', c' ∈ waiting (set_new (s_new s ++ [c]) (set_calls (<[c:=Call k CWait None]> (s_calls s)) s)) <-> c' = c \/ c' ∈ waiting s).
    { intros c'. unfold waiting. simpl. rewrite !elem_of_app, elem_of_list_singleton. tauto. }
    destruct HA as [A1 A2 A3 A4 A5 A6 A7 A8]. split; try done.
    + unfold waiting in *. simpl. rewrite (Permutation_app_comm (s_new s)). rewrite <- (assoc_L (++)). simpl. apply NoDup_cons. done.
    + intros c' [->|Hc']%Hw; simpl; [eauto|].
      destruct (decide (c' = c)) as [->|]; [eauto|]. rewrite list_lookup_insert_ne by done. by apply A3.
    + simpl. intros c' cl. destruct (decide (c' = c)) as [->|]; [rewrite Hlk; intros [= <-]; done|].
      rewrite list_lookup_insert_ne by done. apply A4.
    + simpl. intros Hcc c' cl Hc' Hph Hb. apply Hw. destruct (decide (c' = c)) as [->|]; [by left|].
      rewrite list_lookup_insert_ne in Hc' by done. right. eauto.
    + simpl. intros id e ch He Hch. destruct (A6 id e ch He Hch) as (cl & Hcl & Hid). destruct (decide (ch = c)) as [->|].
      * rewrite Hlk. eexists. split; [done|]. rewrite H in Hcl. injection Hcl as <-. done.
      * rewrite list_lookup_insert_ne by done. eauto.
    + simpl. intros c' r. rewrite A7. destruct (decide (c' = c)) as [->|].
      * rewrite Hlk, H. split; intros (cl & [= <-] & ?); done.
      * by rewrite list_lookup_insert_ne.
  - (* ret *)
    assert (Hlk : <[c:=Call k (CRet r) (Some r)]> (s_calls s) !! c = Some (Call k (CRet r) (Some r))) by (apply list_lookup_insert; by eapply lookup_lt_Some).
    assert (Hnc : c ∉ waiting s) by (intros Hin; destruct (a_open s HA c Hin) as (cl & ? & ? & ?); simplify_eq; done).
    destruct HA as [A1 A2 A3 A4 A5 A6 A7 A8]. split; simpl; try done.
    + intros c' Hc'. change (c' ∈ waiting s) in Hc'. rewrite list_lookup_insert_ne by set_solver. by apply A3.
    + intros c' cl. destruct (decide (c' = c)) as [->|]; [rewrite Hlk; intros [= <-]; done|].
      rewrite list_lookup_insert_ne by done. apply A4.
    + intros Hcc c' cl Hc' Hph Hb. destruct (decide (c' = c)) as [->|]; [rewrite Hlk in Hc'; by injection Hc' as <-|].
      rewrite list_lookup_insert_ne in Hc' by done. eapply A5; eauto.
    + intros id e ch He Hch. destruct (A6 id e ch He Hch) as (cl & Hcl & Hid). destruct (decide (ch = c)) as [->|].
      * rewrite Hlk. eexists. split; [done|]. rewrite H in Hcl. injection Hcl as <-. done.
      * rewrite list_lookup_insert_ne by done. eauto.
    + intros c' r'. rewrite elem_of_cons. assert (OAnswer c' r' ∈ s_log s <-> OAnswer c' r' = OReturn (Some c) (k_src k) r \/ OAnswer c' r' ∈ s_log s) as <- by (split; [tauto|]; intros [?|?]; done).
      rewrite A7. destruct (decide (c' = c)) as [->|].
      * rewrite Hlk, H. split; intros (cl & [= <-] & Hb); simpl in *; eauto.
      * by rewrite list_lookup_insert_ne.
  - (* timeout *)
    set (cl1 := Call k (CRet (Some (ESent ErrBlockApplicationTimeout))) buf).
    assert (Hlk : <[c:=cl1]> (s_calls s) !! c = Some cl1) by (apply list_lookup_insert; by eapply lookup_lt_Some).
    destruct HA as [A1 A2 A3 A4 A5 A6 A7 A8]. split; simpl; try done.
    + intros c' Hc'. change (c' ∈ waiting s) in Hc'. destruct (decide (c' = c)) as [->|].
      * exists cl1. split; [done|]. destruct (A3 c Hc') as (cl & Hcl & ? & ?). rewrite H in Hcl. injection Hcl as <-. done.
      * rewrite list_lookup_insert_ne by done. by apply A3.
    + intros c' cl. destruct (decide (c' = c)) as [->|]; [rewrite Hlk; intros [= <-]; done|].
      rewrite list_lookup_insert_ne by done. apply A4.
    + intros Hcc c' cl Hc' Hph Hb. destruct (decide (c' = c)) as [->|].
      * rewrite Hlk in Hc'. injection Hc' as <-. simpl in Hb. eapply (A5 Hcc c); [exact H|done|done].
      * rewrite list_lookup_insert_ne in Hc' by done. eapply A5; eauto.
    + intros id e ch He Hch. destruct (A6 id e ch He Hch) as (cl & Hcl & Hid). destruct (decide (ch = c)) as [->|].
      * rewrite Hlk. eexists. split; [done|]. rewrite H in Hcl. injection Hcl as <-. done.
      * rewrite list_lookup_insert_ne by done. eauto.
    + intros c' r'. rewrite elem_of_cons. match goal with |- (_ = ?x \/ _) <-> _ => assert (OAnswer c' r' ∈ s_log s <-> OAnswer c' r' = x \/ OAnswer c' r' ∈ s_log s) as <- by (split; [tauto|]; intros [?|?]; done) end.
      rewrite A7. destruct (decide (c' = c)) as [->|].
      * rewrite Hlk, H. split; intros (cl & [= <-] & Hb); simpl in *; eauto.
      * by rewrite list_lookup_insert_ne.
  - (* new *)
    eapply (acc_handler s (set_core core' (set_new rest s)) (Some (cl_blk cl, [c])) [c]); try done.
    + by left.
    + eapply handle_new_handled; [apply HA|done].
    + intros k l c' [= <- <-] ->%elem_of_list_singleton. eauto.
  - (* status *)
    eapply (acc_handler s (add_log (OStatus i k res) (set_core core' (set_phase i PDone s))) None []); try done.
    + right. eexists. split; [|done]. done.
    + by eapply handle_status_handled.
  - (* fork heads *)
    eapply (acc_handler s (add_log (OLib (c_lib core')) (set_core core' (set_wd (wd_purge (s_wd s) (c_lib core')) (set_fh (delete i (s_fh s)) s)))) None []); try done.
    + right. eexists. split; [|done]. done.
    + assert (lib < two64)%N by (eapply (lb_fh s HL fh); [by eapply elem_of_list_lookup_2|done]).
      eapply handle_fork_heads_handled; [apply HA|done| |apply HL|done]. unfold max_u64 in *. lia.
  - (* broadcast *)
    eapply (acc_handler s (add_log (OAccepted b (s_now s)) (set_core core' (set_cache cache' (set_bc (delete i (s_bc s)) s)))) None []); try done.
    + right. eexists. split; [|done]. done.
    + by eapply handle_broadcast_handled.
Qed.

(** Nothing the dispatcher does panics, except on incomplete inputs. *)
Lemma handler_panic o s lab s' : Libs s -> Acc s -> s_panic s = false -> Step o s lab s' -> s_panic s' = true ->
  match lab with LCall _ | LForkHeads _ _ | LBroadcast _ | LTxTake _ => True | _ => False end.
Proof.
  intros HL HA Hp H Hp'. destruct H; simpl in *; try done; try congruence.
  - edestruct (acc_handler s (set_core core' (set_new rest s)) (Some (cl_blk cl, [c])) [c]) as (_ & Hx & _); try done.
    + by left.
    + eapply handle_new_handled; [apply HA|done].
    + intros k l c' [= <- <-] ->%elem_of_list_singleton. eauto.
    + rewrite Hx in Hp'. done.
  - edestruct (acc_handler s (add_log (OStatus i k res) (set_core core' (set_phase i PDone s))) None []) as (_ & Hx & _); try done.
    + right. eexists. split; [|done]. done.
    + by eapply handle_status_handled.
    + rewrite Hx in Hp'. done.
Qed.
