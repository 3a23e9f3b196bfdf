From Verif Require Import GoBase Util Toggle_Model Toggle_Spec.

Lemma tick_head g c now : tg_head (tg_tick g c now) = tg_head g.
Proof. unfold tg_tick, tg_set. repeat case_match; reflexivity. Qed.
Lemma tick_loop g c now : tg_loop (tg_tick g c now) = tg_loop g.
Proof. unfold tg_tick, tg_set. repeat case_match; reflexivity. Qed.

Lemma updates_before before g :
  fold_left tg_update before g =
  Toggle (tg_enabled g) (List.last before (tg_head g)) (tg_loop g) (tg_calls g).
Proof.
  revert g. induction before as [|t before IH]; intros g; [destruct g; reflexivity|].
  cbn [fold_left]. rewrite IH. simpl. f_equal. destruct before; [reflexivity|].
  clear. revert n. induction before as [|x l IH]; intros n; [reflexivity|]. apply IH.
Qed.

Lemma start_head o before : tg_head (tg_start o (fold_left tg_update before tg_new)) = List.last before 0%N.
Proof. rewrite updates_before. unfold tg_start, tg_set. repeat case_match; reflexivity. Qed.

Lemma steps_head evs g :
  tg_head (fold_left tg_step evs g) = fold_left (fun h e => match e with TgUpdate t => t | _ => h end) evs (tg_head g).
Proof.
  revert g. induction evs as [|e evs IH]; intros g; [reflexivity|]. cbn [fold_left]. rewrite IH. f_equal.
  destruct e as [t|c now|]; simpl; [reflexivity|apply tick_head|reflexivity].
Qed.
Lemma run_head o before evs : tg_head (tg_run o before evs) = head_after before evs.
Proof. unfold tg_run, head_after. rewrite steps_head, start_head. reflexivity. Qed.

Lemma run_snoc o before evs e : tg_run o before (evs ++ [e]) = tg_step (tg_run o before evs) e.
Proof. unfold tg_run. rewrite fold_left_app. reflexivity. Qed.

Lemma instant_ok h : (Z.of_N h * 1000000 <= max_i64)%Z -> tg_head_instant h = (Z.of_N h * 1000000)%Z.
Proof.
  intros H. unfold tg_head_instant, wrap_i64, max_i64 in *.
  rewrite (Z.mod_small (Z.of_N h + 2 ^ 63)) by lia.
  rewrite Z.mod_small; lia.
Qed.

Lemma since_iff now t : (time_sub now t <= 45 * second <-> now - t <= 45 * second)%Z.
Proof. unfold time_sub, min_i64, max_i64, second. lia. Qed.

Lemma loop_on o before evs : tg_always_enable o = false -> tg_always_disable o = false ->
  TgCancel ∉ evs -> tg_loop (tg_run o before evs) = true.
Proof.
  intros H1 H2. unfold tg_run.
  assert (Hs : tg_loop (tg_start o (fold_left tg_update before tg_new)) = true).
  { unfold tg_start. rewrite H1, H2. reflexivity. }
  revert Hs. generalize (tg_start o (fold_left tg_update before tg_new)).
  induction evs as [|e evs IH]; intros g Hs Hn; [done|]. cbn [fold_left]. apply IH; [|set_solver].
  destruct e as [t|c now|]; simpl; [done|rewrite tick_loop; done|set_solver].
Qed.

Lemma tick_enabled g c now : tg_loop g = true ->
  tg_enabled (tg_tick g c now) =
  bool_decide (c <> 0 /\ (time_sub now (tg_head_instant (tg_head g)) <= 45 * second)%Z).
Proof.
  intros Hl. unfold tg_tick. rewrite Hl. simpl.
  destruct (bool_decide_reflect (c = 0)) as [->|Hc].
  - rewrite bool_decide_eq_false_2 by tauto. destruct (tg_enabled g) eqn:He; [reflexivity|exact He].
  - destruct (bool_decide_reflect (time_sub now (tg_head_instant (tg_head g)) <= 45 * second)%Z) as [Ht|Ht].
    + rewrite bool_decide_eq_true_2 by tauto. destruct (tg_enabled g) eqn:He; simpl; [exact He|reflexivity].
    + rewrite bool_decide_eq_false_2 by tauto. destruct (tg_enabled g) eqn:He; [reflexivity|exact He].
Qed.

(** Alternating lists of booleans starting with [b]. *)
Fixpoint alternates (b : bool) (l : list bool) : Prop :=
  match l with [] => True | x :: r => x = b /\ alternates (negb b) r end.
Lemma alternates_snoc b l : alternates b l ->
  alternates b (l ++ [match last l with Some x => negb x | None => b end]).
Proof.
  revert b. induction l as [|x l IH]; intros b H; [simpl; auto|].
  destruct H as [-> H]. cbn [app alternates]. split; [done|]. specialize (IH _ H).
  destruct l as [|y l]; [simpl; auto|].
  assert (Hl : last (b :: y :: l) = last (y :: l)) by reflexivity. rewrite Hl.
  destruct (last (y :: l)) eqn:E; [exact IH|]. apply last_None in E. done.
Qed.

Definition tg_inv (g : toggle) : Prop :=
  alternates true (tg_calls g) /\ tg_enabled g = default false (last (tg_calls g)).

Lemma set_inv g b : tg_inv g -> tg_enabled g = negb b -> tg_inv (tg_set g b).
Proof.
  intros [Ha He] Hb. unfold tg_inv, tg_set. simpl. rewrite last_snoc. split; [|reflexivity].
  pose proof (alternates_snoc true _ Ha) as Hs. rewrite He in Hb.
  destruct (last (tg_calls g)) as [x|] eqn:Hl; simpl in *.
  - rewrite Hb, negb_involutive in Hs. exact Hs.
  - destruct b; [exact Hs|discriminate].
Qed.
Lemma tick_inv g c now : tg_inv g -> tg_inv (tg_tick g c now).
Proof.
  intros H. unfold tg_tick. destruct (tg_loop g); simpl; [|done].
  destruct (bool_decide (c = 0)); [destruct (tg_enabled g) eqn:He; [apply set_inv; done|done]|].
  destruct (bool_decide _); destruct (tg_enabled g) eqn:He; simpl; try done; apply set_inv; done.
Qed.
Lemma start_inv o g : tg_inv g -> tg_enabled g = false -> tg_inv (tg_start o g).
Proof.
  intros H He. unfold tg_start. destruct (tg_always_enable o); [apply set_inv; done|].
  destruct H as [Ha Hb]. destruct (tg_always_disable o); split; simpl; try done. congruence.
Qed.
Lemma run_inv o before evs : tg_inv (tg_run o before evs).
Proof.
  unfold tg_run. assert (Hs : tg_inv (tg_start o (fold_left tg_update before tg_new))).
  { apply start_inv; rewrite updates_before; [split; done|done]. }
  revert Hs. generalize (tg_start o (fold_left tg_update before tg_new)).
  induction evs as [|e evs IH]; intros g Hs; [done|]. cbn [fold_left]. apply IH.
  destruct e as [t|c now|]; simpl; [exact Hs|apply tick_inv; done|exact Hs].
Qed.

Lemma forced o before evs : tg_always_enable o = true \/ tg_always_disable o = true ->
  tg_enabled (tg_run o before evs) = tg_always_enable o /\
  tg_calls (tg_run o before evs) = if tg_always_enable o then [true] else [].
Proof.
  intros Ho. unfold tg_run.
  assert (Hs : let g := tg_start o (fold_left tg_update before tg_new) in
    tg_loop g = false /\ tg_enabled g = tg_always_enable o /\ tg_calls g = if tg_always_enable o then [true] else []).
  { rewrite updates_before. unfold tg_start. destruct (tg_always_enable o); [done|].
    destruct Ho as [?|Ho]; [done|]. rewrite Ho. done. }
  revert Hs. generalize (tg_start o (fold_left tg_update before tg_new)).
  induction evs as [|e evs IH]; intros g (H1 & H2 & H3); [done|]. cbn [fold_left]. apply IH.
  destruct e as [t|c now|]; simpl; [done| |done]. unfold tg_tick. rewrite H1. done.
Qed.
