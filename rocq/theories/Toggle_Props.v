(** Property theorems C14-C16 about the gossip toggle. *)
From Verif Require Import GoBase Util Toggle_Model Toggle_Spec Toggle_Proofs.

(** C14.  After any history, a tick that sees [conns] connections at wall clock [now] leaves gossip
    enabled iff there is a connection and the last head time (in milliseconds) is at most 45 seconds
    behind. *)
Theorem C14_enabled_iff_connected_and_recent : forall before evs conns now,
  TgCancel ∉ evs ->
  let head := head_after before evs in
  (Z.of_N head * 1000000 <= max_i64)%Z ->
  (tg_enabled (tg_run tg_default before (evs ++ [TgTick conns now])) = true <->
   0 < conns /\ (now - Z.of_N head * 1000000 <= 45 * second)%Z).
Proof.
  intros before evs conns now Hc head Hh. rewrite run_snoc. simpl.
  rewrite tick_enabled by (apply loop_on; done). rewrite bool_decide_eq_true.
  rewrite run_head. fold head. rewrite instant_ok by done. rewrite since_iff. intuition lia.
Qed.
Print Assumptions C14_enabled_iff_connected_and_recent.
Definition demo_evs : list tg_event := [TgUpdate 100000; TgTick 3 (120 * second)].
Example C14_nonvacuous : (Z.of_N (head_after [5]%N demo_evs) * 1000000 <= max_i64)%Z /\ TgCancel ∉ demo_evs /\
  tg_enabled (tg_run tg_default [5]%N demo_evs) = true /\
  tg_enabled (tg_run tg_default [5]%N (demo_evs ++ [TgTick 3 (145 * second)])) = true /\
  tg_enabled (tg_run tg_default [5]%N (demo_evs ++ [TgTick 3 (145 * second + 1)])) = false /\
  tg_enabled (tg_run tg_default [5]%N (demo_evs ++ [TgTick 0 (120 * second)])) = false.
Proof.
  split; [vm_compute; discriminate|]. split; [|repeat split; vm_compute; reflexivity].
  unfold demo_evs. rewrite !elem_of_cons. intros [H|[H|H]]; try discriminate H. set_solver.
Qed.
(** Outside the int64 nanosecond range (head times after the year 2262) the conversion wraps and the
    claim fails: a head time in the far future counts as far in the past. *)
Example C14_range_is_needed :
  let head := 9223372036855%N in
  tg_enabled (tg_run tg_default [head] [TgTick 3 (120 * second)]) = false /\
  (120 * second - Z.of_N head * 1000000 <= 45 * second)%Z.
Proof. split; vm_compute; [reflexivity|discriminate]. Qed.

(** C15.  The EnableGossip calls of any run alternate true, false, true, ... and IsEnabled is the
    argument of the last one (false before any). *)
Theorem C15_calls_alternate : forall o before evs,
  (forall i b, tg_calls (tg_run o before evs) !! i = Some b -> b = Nat.even i) /\
  tg_enabled (tg_run o before evs) = default false (last (tg_calls (tg_run o before evs))).
Proof.
  intros o before evs. destruct (run_inv o before evs) as [Ha He]. split; [|exact He].
  revert Ha. generalize (tg_calls (tg_run o before evs)). intros l Ha i b Hi.
  assert (Hgen : forall l s i b, alternates s l -> l !! i = Some b -> b = xorb s (Nat.odd i)).
  { clear. induction l as [|x l IH]; intros s i b Ha Hi; [done|]. destruct Ha as [-> Ha].
    destruct i as [|i]; simpl in Hi.
    - injection Hi as <-. destruct s; reflexivity.
    - rewrite (IH _ _ _ Ha Hi). rewrite Nat.odd_succ, <- Nat.negb_odd. destruct s, (Nat.odd i); reflexivity. }
  rewrite (Hgen _ _ _ _ Ha Hi). rewrite <- Nat.negb_odd. destruct (Nat.odd i); reflexivity.
Qed.
Print Assumptions C15_calls_alternate.
Example C15_nonvacuous :
  tg_calls (tg_run tg_default []%N (demo_evs ++ [TgTick 3 (130 * second); TgTick 0 0; TgTick 1 (120 * second)])) = [true; false; true].
Proof. vm_compute. reflexivity. Qed.

(** C16.  Forced modes: whatever happens afterwards. *)
Theorem C16_always_enable : forall o before evs, tg_always_enable o = true ->
  tg_calls (tg_run o before evs) = [true] /\ tg_enabled (tg_run o before evs) = true.
Proof. intros o before evs H. destruct (forced o before evs (or_introl H)) as [H1 H2]. rewrite H in *. auto. Qed.
Print Assumptions C16_always_enable.
Theorem C16_always_disable : forall o before evs,
  tg_always_enable o = false -> tg_always_disable o = true ->
  tg_calls (tg_run o before evs) = [] /\ tg_enabled (tg_run o before evs) = false.
Proof. intros o before evs He H. destruct (forced o before evs (or_intror H)) as [H1 H2]. rewrite He in *. auto. Qed.
Print Assumptions C16_always_disable.
(** The command line: the flags set exactly these options, and --force-gossip wins. *)
Theorem C16_flags : forall disable force,
  tg_always_enable (tg_of_flags disable force) = force /\
  tg_always_disable (tg_of_flags disable force) = disable /\
  (force = true -> forall before evs, tg_enabled (tg_run (tg_of_flags disable force) before evs) = true) /\
  (force = false -> disable = true -> forall before evs, tg_calls (tg_run (tg_of_flags disable force) before evs) = []).
Proof.
  intros disable force. split; [destruct disable, force; reflexivity|]. split; [destruct disable, force; reflexivity|]. split.
  - intros -> before evs. apply C16_always_enable. destruct disable; reflexivity.
  - intros -> -> before evs. apply C16_always_disable; reflexivity.
Qed.
Print Assumptions C16_flags.
