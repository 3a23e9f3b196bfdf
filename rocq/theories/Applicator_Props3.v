(** Property theorem C69: fork bombs and ApplyBlock. *)
From Verif Require Import GoBase Util TxCache_Model TxCache_Spec TxCache_Proofs Watchdog_Model Watchdog_Spec Watchdog_Proofs
  Applicator_Model Applicator_Spec Applicator_Core Applicator_Sys Applicator_Inv Applicator_Inv2 Applicator_Inv3 Applicator_Inv4
  Applicator_Inv5 Applicator_Inv6 Applicator_Inv7 Applicator_Props.

Lemma wd_run_step t ops1 ops2 t1 es1 t2 es2 : wd_run t ops1 = Done (t1, es1) -> wd_run t1 ops2 = Done (t2, es2) -> exists es, wd_run t (ops1 ++ ops2) = Done (t2, es).
Proof. intros H1 H2. rewrite wd_run_app, H1. simpl. rewrite H2. simpl. eauto. Qed.

Lemma watched_step o head lib0 s lab s' : Inv o head lib0 s -> Step o s lab s' -> s_panic s' = false -> exists es, wd_run (s_wd s) (watched s lab) = Done (s_wd s', es).
Proof.
  intros HI H Hp.
  assert (Hnil : forall t, exists es, wd_run t [] = Done (t, es)) by (intros; eexists; reflexivity).
  destruct H; try (by apply Hnil); try discriminate Hp; simpl;
    try (match goal with |- context [do_effs ?l ?e ?x] => rewrite (se_wd _ _ _ (do_effs_same l e x)); simpl; try (by apply Hnil) end).
  - rewrite H. simpl. eauto.
  - rewrite H. simpl. eauto.
  - rewrite H0, H1. simpl. eauto.
  - rewrite H0, H1. simpl. destruct (handle_lib_fork_heads _ _ _ _ _ _ _ H1 H3) as (-> & _). eauto.
Qed.
Lemma watched_run o head lib0 sched s s' : Inv o head lib0 s -> Forall u64_label sched -> run o s sched = Some s' -> s_panic s' = false ->
  exists es, wd_run (s_wd s) (watch_hist o s sched) = Done (s_wd s', es).
Proof.
  revert s. induction sched as [|lab r IH]; intros s HI HU Hr Hp; simpl in *; [injection Hr as ->; eauto|].
  apply Forall_cons in HU as [HU1 HU]. destruct (step o s lab) as [s1|] eqn:Hst; [|done].
  apply step_Step in Hst as [Hp0 Hst]. destruct (IH s1) as (es2 & H2); [by eapply Inv_step|done|done|done|].
  destruct (watched_step _ _ _ _ _ _ HI Hst) as (es1 & H1).
  - destruct r as [|lab2 r]; simpl in Hr; [congruence|]. unfold step in Hr. by destruct (s_panic s1).
  - eapply wd_run_step; eauto.
Qed.

(** C69.  A call of ApplyBlock returns the fork-bomb error at once, and leaves nothing behind, exactly
    when its block is the fourth distinct one of its height, signer and parent passed to ApplyBlock since
    a LIB at or above that height was processed.  Otherwise the call goes on. *)
Theorem C69_fork_bomb_stopped_at_the_door : forall o head lib dur now sched s b hd,
  reaches o head lib dur now sched s -> s_panic s = false -> b_header b = Some hd ->
  exists s', step o s (LCall b) = Some s' /\
  let siblings := counted (watch_hist o (sys_init head lib dur now) sched ++ [WAdd b]) (h_height hd) (str (h_signer hd)) (str (h_previous hd)) in
  ((more_than_three siblings /\ s_log s' = OReturn None b (Some (ESent ErrForkBomb)) :: s_log s /\ s_calls s' = s_calls s) \/
   (~ more_than_three siblings /\ s_log s' = s_log s /\ s_calls s' = s_calls s ++ [Call (Blk b hd) CSend None])) /\
  s_core s' = s_core s /\ s_try s' = s_try s /\ s_att s' = s_att s /\ s_new s' = s_new s.
Proof.
  intros o head lib dur now sched s b hd (Hl & HU & Hr) Hp Hb.
  destruct (watched_run _ _ _ _ _ _ (Inv_init o head lib dur now Hl) HU Hr Hp) as (es & Hw). simpl in Hw.
  destruct (add_exact _ _ _ _ _ Hw Hb) as (t' & e & Ha & Hcase).
  unfold step. rewrite Hp. eexists. split; [reflexivity|]. unfold step_call. rewrite Ha, Hb.
  destruct Hcase as [(-> & Hm)|(-> & Hm)]; simpl; (split; [|done]); [left|right]; done.
Qed.
Print Assumptions C69_fork_bomb_stopped_at_the_door.
Definition siblings4 : list label := map (fun id => LCall (mk id 11 "p" 1 "")) ["a"; "b"; "c"]%string.
Example C69_nonvacuous :
  demo_log siblings4 = Some [] /\
  demo_log (siblings4 ++ [LCall (mk "d" 11 "p" 1 "")]) = Some [OReturn None (mk "d" 11 "p" 1 "") (Some (ESent ErrForkBomb))] /\
  demo_log (siblings4 ++ [LCall (mk "d" 11 "q" 1 "")]) = Some [] /\
  demo_log (siblings4 ++ [LAnnounce (ForkHeads (Some 11%N) []); LForkHeads 0 none_lost; LCall (mk "d" 11 "p" 1 "")]) = Some [OLib 11].
Proof. repeat split; vm_compute; reflexivity. Qed.
