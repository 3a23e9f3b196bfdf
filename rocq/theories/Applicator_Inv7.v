(** Facts about single steps of the dispatcher, and about states in which it is stuck. *)
From Verif Require Import GoBase Util TxCache_Model TxCache_Spec TxCache_Proofs Watchdog_Model
  Applicator_Model Applicator_Spec Applicator_Core Applicator_Sys Applicator_Inv Applicator_Inv2 Applicator_Inv3 Applicator_Inv4 Applicator_Inv5 Applicator_Inv6.

Lemma run_log o sched s s' : run o s sched = Some s' -> exists new, s_log s' = new ++ s_log s.
Proof.
  intros Hr. eapply (run_ind o (fun x => exists new, s_log x = new ++ s_log s)); [| |exact Hr]; [|by exists []].
  intros s1 lab s2 (n1 & E1) _ Hst. destruct (step_log_grows _ _ _ _ Hst) as (n2 & E2). exists (n2 ++ n1). rewrite E2, E1. by rewrite (assoc_L (++)).
Qed.

(** ** Admission *)
Lemma wrap_small z : (0 <= z < 2 ^ 63)%Z -> wrap_i64 z = z.
Proof. intros H. unfold wrap_i64. rewrite Z.mod_small; lia. Qed.
Lemma admission_step o head lib dur now sched s lose s' :
  reaches o head lib dur now sched s -> s_cancelled s = false ->
  (max_accepted head (s_log s) + ao_max_delta o < two64)%N -> (ao_max_pending o < 2 ^ 63)%N ->
  step o s (LNew lose) = Some s' ->
  exists c rest cl, s_new s = c :: rest /\ s_calls s !! c = Some cl /\ s_new s' = rest /\
    match refusal o head lib (s_log s) (size (held_ids s)) (cl_blk cl) with
    | Some e => s_log s' = OAnswer c (Some (ESent e)) :: s_log s /\ s_core s' = s_core s /\ s_try s' = s_try s
    | None => s_log s' = s_log s /\ exists k cs, held s' (k_id (cl_blk cl)) k cs /\ c ∈ cs
    end.
Proof.
  intros Hr Hc Hov Hmp Hst. pose proof (reaches_inv _ _ _ _ _ _ _ Hr) as HI. apply step_Step in Hst as [Hp Hst].
  remember (LNew lose) as lab eqn:Elab. destruct Hst as [| | | | | |lose' c rest cl core' effs Hsv Hn Hcl Hh| | | | | | | | | | | | | | | | | | | | | | | | | | | | | | |]; try done. injection Elab as ->.
  exists c, rest, cl. split; [done|]. split; [done|]. split; [by rewrite (se_new _ _ _ (do_effs_same _ _ _))|].
  assert (Hopen : cl_buf cl = None).
  { destruct (a_open s (v_acc _ _ _ _ HI) c) as (cl0 & Hcl0 & Hb & _); [unfold waiting; rewrite Hn; left|]. congruence. }
  unfold held_ids. rewrite size_dom. unfold refusal. rewrite <- (v_high _ _ _ _ HI), <- (j_lib _ _ (v_just _ _ _ _ HI)).
  rewrite <- (v_high _ _ _ _ HI) in Hov. apply handle_new_cases in Hh.
  unfold new_refusal, new_accepted, add64 in Hh. rewrite N.mod_small in Hh by done.
  rewrite wrap_small in Hh by lia.
  assert (Hans : forall e, s_log (do_effs lose (map (fun ch => Answer ch (Some e)) [c]) (set_core (s_core s) (set_new rest s))) = OAnswer c (Some e) :: s_log s /\
     s_core (do_effs lose (map (fun ch => Answer ch (Some e)) [c]) (set_core (s_core s) (set_new rest s))) = s_core s /\
     s_try (do_effs lose (map (fun ch => Answer ch (Some e)) [c]) (set_core (s_core s) (set_new rest s))) = s_try s).
  { intros e. unfold do_effs. simpl. rewrite Hc. simpl. rewrite Hcl, Hopen. done. }
  destruct Hh as [(e & Href & -> & ->)|[Hacc Hadd]].
  - destruct Href as [(-> & ?)|[(-> & ? & ?)|(-> & ? & ? & ?)]].
    + rewrite bool_decide_true by lia. apply Hans.
    + rewrite bool_decide_false by lia. rewrite bool_decide_true by lia. apply Hans.
    + rewrite bool_decide_false by lia. rewrite bool_decide_false by lia. rewrite bool_decide_true by lia. apply Hans.
  - rewrite bool_decide_false by lia. rewrite bool_decide_false by lia. rewrite bool_decide_false by lia.
    apply add_entry_handled in Hadd as (_ & Ha & Hsp & _ & _ & _ & ([k cs] & He & Hin) & _); [|apply HI].
    match goal with |- context [do_effs ?l ?e ?x] => pose proof (do_effs_same l e x) as HS end. split.
    + destruct (se_log _ _ _ HS) as (new & -> & Hnew). simpl. destruct new as [|x new]; [done|]. destruct (Hnew x) as (ch & res & _ & Hx); [left|].
      apply Hsp in Hx. done.
    + exists k, cs. unfold held. rewrite (se_core _ _ _ HS). simpl. split; [done|]. apply Hin. left.
Qed.

(** ** Children of a reported block *)
Lemma reported_children o head lib0 s lab s' id cid k cs :
  Inv o head lib0 s -> step o s lab = Some s' -> s_panic s' = false -> s_hang s' = false -> reports s lab id ->
  held s' cid k cs -> k_prev k = id -> (k, force_child o (s_now s) k, s_now s) ∈ s_try s'.
Proof.
  intros HI Hst Hp' Hg' Hrep Hheld Hprev. apply step_Step in Hst as [Hp H]. unfold held in Hheld.
  assert (Hgo : forall (c1 c' : core) (effs1 effs : list eff), c_byid c1 = c_byid (s_core s) -> c_byprev c1 = c_byprev (s_core s) -> c_byheight c1 = c_byheight (s_core s) ->
    handled None (s_core s) c' effs -> c_byid c' !! cid = Some (Entry k cs) ->
    (forall x : eff, x ∈ check_children o (s_now s) id c1 -> x ∈ effs1) -> SpawnTry k (force_child o (s_now s) k) (s_now s) ∈ effs1).
  { intros c1 c' effs1 effs E1 E2 E3 Hh He Hsub. destruct (handled_none_sub _ _ _ _ _ Hh He) as ([k0 cs0] & He0 & Ek). simpl in Ek. subst k0.
    apply Hsub. pose proof (children_complete o (s_now s) id c1 cid (Entry k cs0)) as Hcc. simpl in Hcc. apply Hcc; [|congruence|done].
    eapply core_ok_same; [..|apply HI]; done. }
  destruct H; try done; simpl in Hrep.
  - (* status *)
    destruct Hrep as (k1 & Hk1 & Hid). rewrite H0 in Hk1. injection Hk1 as <- ->.
    match goal with |- context [do_effs ?l ?e ?x] => pose proof (do_effs_same l e x) as HS end.
    rewrite (se_core _ _ _ HS) in Hheld. simpl in Hheld.
    rewrite (se_try _ _ _ HS). apply elem_of_app. right. apply elem_spawns.
    pose proof (handle_status_handled _ _ _ _ _ _ _ H1) as Hh.
    apply handle_status_cases in H1 as [(? & _)|[(_ & ? & _)|(_ & _ & ans & Hs & ->)]]; [done|done|].
    eapply Hgo; [..|exact Hh|exact Hheld|]; [done|done|done|].
    intros x Hx. apply elem_of_app. left. rewrite <- Hid in Hx. exact Hx.
  - (* fork heads *)
    destruct Hrep as (fh1 & Hf1 & Hin). rewrite H0 in Hf1. injection Hf1 as <-.
    assert (Hlt : (lib < two64)%N) by (eapply (lb_fh s (v_libs _ _ _ _ HI) fh); [by eapply elem_of_list_lookup_2|done]).
    assert (Hlt' : (lib < max_u64)%N) by (unfold max_u64 in *; lia).
    match goal with |- context [do_effs ?l ?e ?x] => pose proof (do_effs_same l e x) as HS end.
    rewrite (se_core _ _ _ HS) in Hheld. simpl in Hheld.
    rewrite (se_try _ _ _ HS). apply elem_of_app. right. apply elem_spawns.
    pose proof (handle_fork_heads_handled _ _ _ _ _ _ _ (a_ok s (v_acc _ _ _ _ HI)) H1 Hlt' (lb_lib s (v_libs _ _ _ _ HI)) H3) as Hh.
    destruct (handle_fork_heads_cases _ _ _ _ _ _ _ (a_ok s (v_acc _ _ _ _ HI)) H1 Hlt' (lb_lib s (v_libs _ _ _ _ HI)) H3) as (ans & -> & Hs).
    eapply Hgo; [..|exact Hh|exact Hheld|]; [reflexivity| | |]; [done|done|]. simpl.
    intros x Hx. apply elem_of_app. left. apply elem_of_list_join. eexists. split; [exact Hx|]. apply elem_of_map. eauto.
  - (* broadcast *)
    destruct Hrep as (b1 & Hb1 & Hid). rewrite H0 in Hb1. injection Hb1 as <-.
    match goal with |- context [do_effs ?l ?e ?x] => pose proof (do_effs_same l e x) as HS end.
    rewrite (se_core _ _ _ HS) in Hheld. simpl in Hheld.
    rewrite (se_try _ _ _ HS). apply elem_of_app. right. apply elem_spawns.
    pose proof (handle_broadcast_handled _ _ _ _ _ _ H3) as Hh. injection H3 as <- <-.
    eapply Hgo; [..|exact Hh|exact Hheld|]; [done|done|done|]. intros x Hx. rewrite <- Hid in Hx. exact Hx.
Qed.

(** ** How a held block leaves *)
Lemma leaves_step o head lib0 s lab s' id k cs :
  Inv o head lib0 s -> step o s lab = Some s' -> held s id k cs -> id ∉ held_ids s' ->
  (exists i lose k' res, lab = LStatus i lose /\ s_att s !! i = Some (Attempt k' (PStatus res)) /\ k_id k' = id /\ ~ transient res) \/
  (exists i lose fh lib, lab = LForkHeads i lose /\ s_fh s !! i = Some fh /\ fh_lib fh = Some lib /\ (k_height k <= lib)%N).
Proof.
  intros HI Hst Hheld Hgone. apply step_Step in Hst as [Hp H]. unfold held in Hheld. unfold held_ids in Hgone. rewrite elem_of_dom in Hgone.
  assert (Hsame : c_byid (s_core s') !! id = Some (Entry k cs) -> False) by (intros E; apply Hgone; eauto).
  destruct H; try (exfalso; apply Hsame; exact Hheld);
    match goal with | _ : context [do_effs ?l ?e ?x] |- _ => pose proof (do_effs_same l e x) as HS; rewrite (se_core _ _ _ HS) in Hgone, Hsame; simpl in Hgone, Hsame end.
  - exfalso. apply handle_new_cases in H2 as [(? & _ & -> & _)|[_ Hadd]]; [by apply Hsame|].
    apply add_entry_handled in Hadd as (_ & _ & _ & _ & _ & _ & _ & Hdom & _); [|apply HI].
    destruct (c_byid core' !! id) eqn:E; [by apply Hgone|]. apply (Hdom id); [by rewrite Hheld|done].
  - left. apply handle_status_cases in H1 as [(_ & -> & _)|[(_ & _ & -> & _)|(Hb & Hu & ans & Hs & _)]]; [by exfalso; apply Hsame|by exfalso; apply Hsame|].
    destruct (decide (id = k_id k0)) as [->|Hne].
    + exists i, lose, k0, res. split_and!; [done|done|done|]. intros [?|?]; congruence.
    + exfalso. apply Hsame. rewrite (sh_stay _ _ _ _ _ Hs); done.
  - right.
    assert (Hlt : (lib < two64)%N) by (eapply (lb_fh s (v_libs _ _ _ _ HI) fh); [by eapply elem_of_list_lookup_2|done]).
    assert (Hlt' : (lib < max_u64)%N) by (unfold max_u64 in *; lia).
    destruct (handle_fork_heads_cases _ _ _ _ _ _ _ (a_ok s (v_acc _ _ _ _ HI)) H1 Hlt' (lb_lib s (v_libs _ _ _ _ HI)) H3) as (ans & -> & Hs).
    destruct (decide (k_height k <= lib)%N) as [Hle|Hgt]; [exists i, lose, fh, lib; done|].
    exfalso. apply Hsame. rewrite (sh_stay _ _ _ _ _ Hs); [done|]. intros (e & He & Hx). simpl in He. rewrite Hheld in He. injection He as <-. simpl in Hx. lia.
  - exfalso. injection H3 as <- _. by apply Hsame.
Qed.

(** ** A new LIB *)
Lemma lib_step o head lib0 dur now sched s i lose fh lib s' :
  reaches o head lib0 dur now sched s -> step o s (LForkHeads i lose) = Some s' ->
  s_fh s !! i = Some fh -> fh_lib fh = Some lib -> (lib < max_u64)%N ->
  s_hang s' = false /\ s_panic s' = false /\ c_lib (s_core s') = lib /\ 
  (forall id k cs, held s id k cs -> (k_height k <= lib)%N ->
     id ∉ held_ids s' /\ forall c, c ∈ cs -> s_cancelled s = true \/ OAnswer c (Some (ESent ErrBlockIrreversibility)) ∈ s_log s') /\
  (forall id k cs, held s id k cs -> (lib < k_height k)%N -> held s' id k cs) /\
  (forall id, id ∈ held_ids s' -> id ∈ held_ids s).
Proof.
  intros Hr Hst Hf Hl Hlt. pose proof (reaches_inv _ _ _ _ _ _ _ Hr) as HI. apply step_Step in Hst as [Hp H].
  remember (LForkHeads i lose) as lab eqn:Elab.
  destruct H; try done; injection Elab as -> ->; rewrite Hf in H0; injection H0 as <-; rewrite Hl in H1; try done.
  { injection H1 as ->. lia. }
  injection H1 as <-.
  assert (Hg : s_hang s = false) by (unfold serving in H; by apply andb_true_iff in H as [_ ?%negb_true_iff]).
  pose proof (v_acc _ _ _ _ HI) as HA. pose proof (v_libs _ _ _ _ HI) as HL.
  pose proof (handle_fork_heads_handled _ _ _ _ _ _ _ (a_ok s HA) Hl Hlt (lb_lib s HL) H3) as Hh.
  destruct (handle_fork_heads_cases _ _ _ _ _ _ _ (a_ok s HA) Hl Hlt (lb_lib s HL) H3) as (ans & Eeffs & Hs).
  destruct (handle_lib_fork_heads _ _ _ _ _ _ _ Hl H3) as (El & _).
  match goal with |- context [do_effs ?l ?e ?x] => pose proof (do_effs_same l e x) as HS;
    edestruct (acc_handler s x None [] core' effs l HA) as (_ & Hpan & Hfine); try done end.
  { right. eexists. split; [|done]. done. }
  rewrite (se_hang _ _ _ HS), (se_core _ _ _ HS). simpl. split_and!; [done|exact Hpan|done| | |].
  - intros id k cs Hheld Hle. unfold held in Hheld.
    assert (HP : exists e, c_byid (s_core s) !! id = Some e /\ (add64 (c_lib (s_core s)) 1 <= k_height (e_blk e) <= lib)%N).
    { exists (Entry k cs). split; [done|]. simpl. split; [|done].
      pose proof (pl_lib _ _ (v_pool _ _ _ _ HI) Hg id _ Hheld) as Hx. simpl in Hx.
      unfold add64. rewrite N.mod_small; [lia|]. unfold max_u64 in Hlt. lia. }
    split.
    + unfold held_ids. rewrite (se_core _ _ _ HS). simpl. intros (e & He)%elem_of_dom. rewrite (sh_gone _ _ _ _ _ Hs id HP) in He. done.
    + intros c Hin. destruct (a_open s HA c) as (cl & Hcl & Hb & _).
      { unfold waiting. apply elem_of_app. right. apply elem_all_chans. eauto. }
      destruct (s_cancelled s) eqn:Hcan; [by left|right].
      assert (Ha : Answer c irr ∈ effs).
      { assert (Hca : c ∈ answered ans).
        { pose proof (sh_perm _ _ _ _ _ Hs) as Hperm. simpl in Hperm.
          assert (Hc1 : c ∈ all_chans (c_byid core') ++ answered ans) by (rewrite Hperm; apply elem_all_chans; eauto).
          apply elem_of_app in Hc1 as [Hc1|?]; [|done]. exfalso. apply elem_all_chans in Hc1 as (id2 & e2 & He2 & Hin2).
          destruct (hd_chan _ _ _ _ Hh id2 e2 c He2 Hin2) as [(e3 & He3 & Hin3)|(? & ? & ? & _)]; [|done].
          assert (id2 = id).
          { eapply (chans_one_entry (c_byid (s_core s))); [|exact He3|exact Hheld|exact Hin3|exact Hin].
            pose proof (a_nodup s HA) as Hnd. unfold waiting in Hnd. by apply NoDup_app in Hnd as (_ & _ & ?). }
          subst id2. rewrite (sh_gone _ _ _ _ _ Hs id HP) in He2. done. }
        apply elem_answered in Hca as (res & Hx). destruct (sh_effs _ _ _ _ _ Hs _ Hx) as (ch & ? & ? & Heq & _). injection Heq as <- ->.
        subst effs. apply elem_of_app. by right. }
      match goal with |- context [do_effs ?l ?e ?x] => destruct (do_effs_fine l e x Hfine) as (_ & Hpt) end.
      destruct (Hpt c cl Hcl) as (_ & Hpt2). destruct (Hpt2 irr Ha) as [(_ & ?)|(? & _)]; [done|]. simpl in *. congruence.
  - intros id k cs Hheld Hgt. unfold held in *. rewrite (se_core _ _ _ HS). simpl. rewrite (sh_stay _ _ _ _ _ Hs); [done|].
    intros (e & He & Hx). simpl in He. rewrite Hheld in He. injection He as <-. simpl in Hx. lia.
  - unfold held_ids. rewrite (se_core _ _ _ HS). simpl. intros id (e & He)%elem_of_dom.
    destruct (handled_none_sub _ _ _ _ _ Hh He) as (e0 & He0 & _). apply elem_of_dom. eauto.
Qed.

(** ** A stuck dispatcher *)
Lemma stuck_step o s lab s' : serving s = false -> Step o s lab s' ->
  serving s' = false /\ c_byid (s_core s') = c_byid (s_core s) /\ (exists new, s_new s' = s_new s ++ new) /\
  (forall c r, OAnswer c r ∈ s_log s' -> OAnswer c r ∈ s_log s).
Proof.
  intros Hs H.
  destruct H; try congruence; try (split_and!; [exact Hs|done|exists []; by rewrite app_nil_r|simpl; by try (intros ? ? [?|?]%elem_of_cons)]; done).
  - split_and!; [exact Hs|done|by eexists|done].
  - split_and!; [|done|exists []; by rewrite app_nil_r|done]. done.
Qed.
Lemma stuck_run o sched s s' : serving s = false -> run o s sched = Some s' ->
  serving s' = false /\ c_byid (s_core s') = c_byid (s_core s) /\ (exists new, s_new s' = s_new s ++ new) /\
  (forall c r, OAnswer c r ∈ s_log s' -> OAnswer c r ∈ s_log s).
Proof.
  intros Hs Hr.
  eapply (run_ind o (fun x => serving x = false /\ c_byid (s_core x) = c_byid (s_core s) /\ (exists new, s_new x = s_new s ++ new) /\ (forall c r, OAnswer c r ∈ s_log x -> OAnswer c r ∈ s_log s)));
    [| |exact Hr].
  - intros s1 lab s2 (S1 & S2 & (n1 & S3) & S4) _ Hst. destruct (stuck_step _ _ _ _ S1 Hst) as (T1 & T2 & (n2 & T3) & T4). split_and!; try done.
    + congruence. + exists (n1 ++ n2). rewrite T3, S3. by rewrite (assoc_L (++)). + eauto.
  - split_and!; try done. exists []. by rewrite app_nil_r.
Qed.
(** A caller stuck in front of the full channel stays there. *)
Lemma blocked_run o sched s s' c k buf : serving s = false -> chan_cap <= length (s_new s) -> s_calls s !! c = Some (Call k CSend buf) ->
  run o s sched = Some s' -> s_calls s' !! c = Some (Call k CSend buf).
Proof.
  intros Hs Hn Hc Hr.
  cut (serving s' = false /\ chan_cap <= length (s_new s') /\ s_calls s' !! c = Some (Call k CSend buf)); [tauto|].
  eapply (run_ind o (fun x => serving x = false /\ chan_cap <= length (s_new x) /\ s_calls x !! c = Some (Call k CSend buf))); [| |exact Hr]; [|done].
  intros s1 lab s2 (S1 & S2 & S3) _ Hst. destruct (stuck_step _ _ _ _ S1 Hst) as (T1 & _ & (n2 & T3) & _). split_and!; [done|rewrite T3, app_length; lia|].
  destruct Hst; try done; try congruence; simpl.
  - rewrite lookup_app_l by (by eapply lookup_lt_Some). done.
  - lia.
  - destruct (decide (c0 = c)) as [->|]; [congruence|]. by rewrite list_lookup_insert_ne.
  - destruct (decide (c0 = c)) as [->|]; [congruence|]. by rewrite list_lookup_insert_ne.
Qed.

(** Shutdown errors only after the shutdown. *)
Lemma delay_cancelled o head lib dur now sched s i k e : reaches o head lib dur now sched s -> ODelayTimeout i k (Some e) ∈ s_log s -> s_cancelled s = true.
Proof.
  intros (_ & _ & Hr). revert i k e.
  eapply (run_ind o (fun x => forall i k e, ODelayTimeout i k (Some e) ∈ s_log x -> s_cancelled x = true)); [| |exact Hr]; [|simpl; set_solver].
  intros s1 lab s2 IH _ Hst i k e Hin.
  assert (Hold : ODelayTimeout i k (Some e) ∈ s_log s1 -> s_cancelled s2 = true) by (intros Hx; eapply cancelled_step; [exact Hst|by eapply IH]).
  destruct Hst; try (by apply Hold); simpl in Hin; try (apply elem_of_cons in Hin as [Heq|Hin]; [try discriminate Heq|by apply Hold]).
  all: try (match type of Hin with context [do_effs ?l ?e ?x] => destruct (se_only_answers _ _ _ (do_effs_same l e x)) as (new & Elog & Ho) end;
    rewrite Elog in Hin; apply elem_of_app in Hin as [Hin|Hin]; [by destruct (Ho _ Hin) as (? & ? & ?)|]; simpl in Hin;
    try (apply elem_of_cons in Hin as [?|Hin]; [done|]); by apply Hold).
  injection Heq as -> -> Heq. subst res. simpl. destruct (s_cancelled s1); [done|discriminate Heq].
Qed.

(** The endless loop only follows a LIB of 2^64 - 1. *)
Lemma hang_lib o head lib dur now sched s : reaches o head lib dur now sched s -> s_hang s = true -> OLib max_u64 ∈ s_log s.
Proof.
  intros (_ & _ & Hr).
  eapply (run_ind o (fun x => s_hang x = true -> OLib max_u64 ∈ s_log x)); [| |exact Hr]; [|done].
  intros s1 lab s2 IH _ Hst Hh. destruct (step_log_grows _ _ _ _ Hst) as (new & E). 
  assert (Hold : s_hang s1 = true -> OLib max_u64 ∈ s_log s2) by (intros Hx; rewrite E; apply elem_of_app; right; by apply IH).
  destruct Hst; try (by apply Hold); try (simpl; left);
    match type of Hh with context [do_effs ?l ?e ?x] => rewrite (se_hang _ _ _ (do_effs_same l e x)) in Hh; by apply Hold end.
Qed.

Lemma instant_lower ts : (block_instant ts <= Z.of_N ts * millisecond < block_instant ts + second)%Z.
Proof.
  unfold block_instant. pose proof (N.div_mod' ts 1000) as E. pose proof (N.mod_lt ts 1000 ltac:(done)) as Hm.
  set (q := (ts / 1000)%N) in *. set (m := (ts `mod` 1000)%N) in *. unfold second, millisecond. lia.
Qed.
Lemma stamped_past o t0 l : stamped_by (t0 + ao_delay_threshold o) l -> past_label o t0 l.
Proof. destruct l; try done. simpl. intros H h Hh. specialize (H h Hh). pose proof (instant_lower (h_timestamp h)). lia. Qed.
Lemma stamped_near t0 l : stamped_by (t0 + max_i64) l -> near_label t0 l.
Proof. destruct l; try done. simpl. intros H h Hh. specialize (H h Hh). pose proof (instant_lower (h_timestamp h)). lia. Qed.

Lemma in_order_max lib log : libs_in_order lib log -> last_lib lib log = max_lib lib log.
Proof.
  assert (Hup : forall log b, (lib <= b)%N -> (forall a, OLib a ∈ log -> (a <= b)%N) -> (max_lib lib log <= b)%N).
  { clear log. induction log as [|e log IH]; intros b Hb Ha; [done|]. simpl. assert (max_lib lib log <= b)%N by (apply IH; set_solver).
    destruct e; try done. specialize (Ha lib0 ltac:(left)). lia. }
  induction log as [|e log IH]; intros H; [done|].
  assert (Ho : libs_in_order lib log) by (intros l1 b l2 ->; apply (H (e :: l1) b l2); done).
  destruct e; simpl; try (by apply IH). destruct (H [] lib0 log eq_refl) as [H1 H2]. specialize (Hup log lib0 H1 H2). lia.
Qed.

Lemma answers_cons c e log : answers_to c (e :: log) =
  match e with OAnswer c' r => if bool_decide (c' = c) then r :: answers_to c log else answers_to c log | _ => answers_to c log end.
Proof. unfold answers_to. destruct e; try done. simpl. by case_bool_decide. Qed.
Lemma calls_cons e log : omap answer_call (e :: log) = match e with OAnswer c _ => c :: omap answer_call log | _ => omap answer_call log end.
Proof. by destruct e. Qed.
Lemma answers_nodup c log : NoDup (omap answer_call log) -> length (answers_to c log) <= 1.
Proof.
  assert (Hz : c ∉ omap answer_call log -> answers_to c log = []).
  { induction log as [|e log IH]; [done|]. rewrite calls_cons, answers_cons. destruct e; auto. intros Hn. rewrite bool_decide_false by set_solver. set_solver. }
  revert Hz. induction log as [|e log IH]; intros Hz Hnd; [simpl; lia|].
  rewrite calls_cons in Hz, Hnd. rewrite answers_cons in *. destruct e; auto. apply NoDup_cons in Hnd as [Hn Hnd].
  assert (Hz' : c ∉ omap answer_call log -> answers_to c log = []).
  { clear. induction log as [|e log IH]; [done|]. rewrite calls_cons, answers_cons. destruct e; auto. intros Hn. rewrite bool_decide_false by set_solver. set_solver. }
  case_bool_decide; [subst; simpl; rewrite Hz' by done; simpl; lia|auto].
Qed.
Lemma answers_none c log : answers_to c log = [] -> forall r, OAnswer c r ∉ log.
Proof.
  unfold answers_to. intros H r Hin. apply (not_elem_of_nil r). rewrite <- H. apply elem_of_list_omap. exists (OAnswer c r).
  split; [done|]. by rewrite bool_decide_true.
Qed.

(** Every block at work was passed to ApplyBlock. *)
Record From (B : block -> Prop) (s : sys) : Prop := {
  fr_calls : forall c cl, s_calls s !! c = Some cl -> B (k_src (cl_blk cl));
  fr_res : forall i k r, OResult i k r ∈ s_log s -> B (k_src k);
  fr_sub : forall i k t, OSubmit i k t ∈ s_log s -> B (k_src k) }.
Lemma From_step (B : block -> Prop) o s lab s' : (forall b, lab = LCall b -> B b) -> Prov s -> From B s -> Step o s lab s' -> From B s'.
Proof.
  intros HW HP [F1 F2 F3] H.
  assert (Hatt : forall i a, s_att s !! i = Some a -> B (k_src (at_blk a))).
  { intros i a Hi. destruct (pv_att s HP i a Hi) as (c & cl & Hc & <-). eauto. }
  assert (Hset : forall (c : nat) k p0 b0 p b, s_calls s !! c = Some (Call k p0 b0) -> forall c0 cl0, <[c := Call k p b]> (s_calls s) !! c0 = Some cl0 -> B (k_src (cl_blk cl0))).
  { intros c k p0 b0 p b Hc c0 cl0 H0. destruct (decide (c0 = c)) as [->|].
    - rewrite list_lookup_insert in H0 by (by eapply lookup_lt_Some). injection H0 as <-. apply (F1 _ _ Hc).
    - rewrite list_lookup_insert_ne in H0 by done. eauto. }
  destruct H; try (split; assumption).
  all: try (match goal with |- From _ (do_effs ?l ?e ?x) => pose proof (do_effs_same l e x) as HS end;
    destruct (se_only_answers _ _ _ HS) as (new & Elog & Ho); split;
    [intros c0 cl0 Hc0; destruct (se_blk _ _ _ HS c0 cl0 Hc0) as (cl1 & Hc1 & -> & _); by eapply F1
    |intros i0 k0 r0; rewrite Elog; intros [Hin|Hin]%elem_of_app; [by destruct (Ho _ Hin) as (? & ? & ?)|]; simpl in Hin; try (apply elem_of_cons in Hin as [?|Hin]; [done|]); by eapply F2
    |intros i0 k0 r0; rewrite Elog; intros [Hin|Hin]%elem_of_app; [by destruct (Ho _ Hin) as (? & ? & ?)|]; simpl in Hin; try (apply elem_of_cons in Hin as [?|Hin]; [done|]); by eapply F3]).
  all: split; simpl; try assumption; try (by eapply Hset);
    try (intros ? ? ? [Heq|?]%elem_of_cons; [try discriminate Heq|eauto; fail]).
  - intros c cl [?|(_ & Hc)]%lookup_app_Some; [eauto|]. apply list_lookup_singleton_Some in Hc as [_ <-]. simpl. by apply HW.
  - injection Heq as -> -> ->. by apply (Hatt _ _ H).
  - injection Heq as -> -> ->. by apply (Hatt _ _ H).
Qed.
Lemma reaches_from o head lib dur now sched s : reaches o head lib dur now sched s -> From (fun b => LCall b ∈ sched) s.
Proof.
  intros (Hl & HW & Hr). cut (Inv o head lib s /\ From (fun b => LCall b ∈ sched) s); [tauto|].
  eapply (run_indW o (fun l => u64_label l /\ l ∈ sched) (fun s => Inv o head lib s /\ From (fun b => LCall b ∈ sched) s)); [| | |exact Hr].
  - intros s1 lab s2 [Hu Hc] (HI & HF) Hp Hst. split; [by eapply Inv_step|]. eapply From_step; [|apply HI|done|done]. intros b ->. done.
  - apply Forall_and. split; [done|]. apply Forall_forall. done.
  - split; [by apply Inv_init|]. split; simpl; [done|set_solver|set_solver].
Qed.

(** A check of [u64_label] by computation, for examples. *)
Definition u64_check (l : label) : bool :=
  match l with
  | LCall b | LAccept b => match b_header b with Some h => (h_height h <? two64)%N && (h_timestamp h <? two64)%N | None => true end
  | LAnnounce fh => match fh_lib fh with Some n => (n <? two64)%N | None => true end
  | _ => true
  end.
Lemma u64_checks sched : forallb u64_check sched = true -> Forall u64_label sched.
Proof.
  intros H. apply Forall_forall. intros l Hl. rewrite forallb_forall in H. specialize (H l (proj1 (elem_of_list_In _ _) Hl)).
  destruct l; try done; simpl in *.
  - intros h Hh. rewrite Hh in H. apply andb_true_iff in H as [H1 H2]. apply N.ltb_lt in H1, H2. done.
  - intros n Hn. rewrite Hn in H. by apply N.ltb_lt in H.
  - intros h Hh. rewrite Hh in H. apply andb_true_iff in H as [H1 H2]. apply N.ltb_lt in H1, H2. done.
Qed.
Definition stamped_check (limit : Z) (l : label) : bool :=
  match l with LCall b => match b_header b with Some h => (Z.of_N (h_timestamp h) * millisecond <=? limit)%Z | None => true end | _ => true end.
Lemma stamped_checks limit sched : forallb (stamped_check limit) sched = true -> Forall (stamped_by limit) sched.
Proof.
  intros H. apply Forall_forall. intros l Hl. rewrite forallb_forall in H. specialize (H l (proj1 (elem_of_list_In _ _) Hl)).
  destruct l; try done; simpl in *. intros h Hh. rewrite Hh in H. by apply Z.leb_le in H.
Qed.
