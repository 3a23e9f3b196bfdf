(** Property theorems C04-C06 about the fork watchdog. *)
From Verif Require Import GoBase Util Watchdog_Model Watchdog_Spec Watchdog_Proofs.

Definition demo_block (id : string) (h : N) (signer parent : string) : block :=
  Block (Some id) (Some (Header h (Some parent) 0 (Some signer))) [] EmptyString.
Definition demo_hist : list wd_op :=
  [WAdd (demo_block "a" 5 "s" "p"); WPurge 4; WAdd (demo_block "b" 5 "s" "p"); WAdd (demo_block "b" 5 "s" "p");
   WAdd (demo_block "z" 5 "s" "q"); WAdd (demo_block "c" 5 "s" "p")]%N.

(** Answers only: used to evaluate concrete histories. *)
Definition answers (ops : list wd_op) : option (list (option goerr)) :=
  match wd_run wd_new ops with Done (_, es) => Some es | Panic => None end.

(** C04.  After any sequence of Add and Purge calls, Add answers the fork-bomb error iff more than
    three distinct ids are counted for the block's height, signer and parent (this block included),
    and nil otherwise. *)
Theorem C04_fork_bomb_exactly_on_fourth_sibling : forall hist t es b hd,
  wd_run wd_new hist = Done (t, es) -> b_header b = Some hd ->
  exists t' e, wd_add t b = Done (t', e) /\
  ((e = Some (ESent ErrForkBomb) /\
    more_than_three (counted (hist ++ [WAdd b]) (h_height hd) (str (h_signer hd)) (str (h_previous hd)))) \/
   (e = None /\
    ~ more_than_three (counted (hist ++ [WAdd b]) (h_height hd) (str (h_signer hd)) (str (h_previous hd))))).
Proof. exact add_exact. Qed.
Print Assumptions C04_fork_bomb_exactly_on_fourth_sibling.
(** Every history of blocks with headers runs (the hypothesis of C04 is always met), and a block
    without a header crashes the caller. *)
Theorem C04_histories_run : forall hist t,
  (forall b, WAdd b ∈ hist -> b_header b <> None) -> exists t' es, wd_run t hist = Done (t', es).
Proof. exact run_ok. Qed.
Print Assumptions C04_histories_run.
Example C04_nonvacuous :
  answers demo_hist = Some [None; None; None; None; None] /\
  answers (demo_hist ++ [WAdd (demo_block "d" 5 "s" "p")]) =
     Some [None; None; None; None; None; Some (ESent ErrForkBomb)].
Proof. split; vm_compute; reflexivity. Qed.

(** C05.  Purge(lib) removes exactly the records at heights <= lib ... *)
Theorem C05_purge_exact : forall t lib h,
  wd_purge t lib !! h = if bool_decide (h <= lib)%N then None else t !! h.
Proof. exact purge_lookup. Qed.
Print Assumptions C05_purge_exact.
(** ... so everything after it goes exactly as if nothing had ever been added at those heights. *)
Theorem C05_purge_forgets : forall hist lib t es later,
  wd_run wd_new hist = Done (t, es) ->
  exists t0 es0, wd_run wd_new (filter (above lib) hist) = Done (t0, es0) /\
    wd_run (wd_purge t lib) later = wd_run t0 later.
Proof.
  intros hist lib t es later Hr. destruct (cut_run lib hist _ _ _ Hr) as (es0 & H0).
  exists (cut lib t), es0. split; [|rewrite purge_cut; done].
  rewrite <- H0. f_equal.
Qed.
Print Assumptions C05_purge_forgets.
Example C05_nonvacuous :
  answers (demo_hist ++ [WPurge 5; WAdd (demo_block "d" 5 "s" "p")]%N) =
     Some [None; None; None; None; None; None] /\
  answers (demo_hist ++ [WPurge 4; WAdd (demo_block "d" 5 "s" "p")]%N) =
     Some [None; None; None; None; None; Some (ESent ErrForkBomb)].
Proof. split; vm_compute; reflexivity. Qed.

(** C06, full statement: whatever the other messages are, a genuine block (one really signed by its
    signer) whose signer made no other genuine block for this height and parent is not reported.
    It is false: the signer field of the other messages is not verified before they are counted. *)
Definition C06_statement : Prop :=
  forall (genuine : block -> Prop) hist t es b hd t' e,
  wd_run wd_new hist = Done (t, es) -> b_header b = Some hd -> genuine b ->
  (forall b', genuine b' -> is_sibling (h_height hd) (str (h_signer hd)) (str (h_previous hd)) b' ->
     str (b_id b') = str (b_id b)) ->
  wd_add t b = Done (t', e) -> e = None.
Theorem C06_honest_producer_refuted : ~ C06_statement.
Proof.
  intros H.
  set (good := demo_block "good" 5 "producer" "p").
  set (hist := [WAdd (demo_block "f1" 5 "producer" "p"); WAdd (demo_block "f2" 5 "producer" "p");
             WAdd (demo_block "f3" 5 "producer" "p")]).
  assert (Hout : answers (hist ++ [WAdd good]) = Some [None; None; None; Some (ESent ErrForkBomb)])
    by (vm_compute; reflexivity).
  unfold answers in Hout. rewrite wd_run_app in Hout.
  destruct (wd_run wd_new hist) as [[t es]|] eqn:Hr; [|discriminate Hout]. cbn [obind wd_run] in Hout.
  destruct (wd_add t good) as [[t' e]|] eqn:Ha; [|discriminate Hout]. cbn [obind] in Hout.
  assert (He : e = None).
  { apply (H (fun b => b = good) hist t es good (Header 5 (Some "p") 0 (Some "producer")) t' e); auto.
    intros b' -> _. reflexivity. }
  subst e. destruct es as [|? [|? [|? [|? [|? ?]]]]]; discriminate Hout.
Qed.
Print Assumptions C06_honest_producer_refuted.
(** The true boundary: a block is not reported as long as at most two other ids are counted for its
    height, signer and parent.  Missing for C06: the attacker's power to forge three of them. *)
Theorem C06_fewer_than_three_others_partial : forall hist t es b hd t' e,
  wd_run wd_new hist = Done (t, es) -> b_header b = Some hd ->
  (forall ids, NoDup ids ->
     (forall id, id ∈ ids -> id <> str (b_id b) /\
        counted hist (h_height hd) (str (h_signer hd)) (str (h_previous hd)) id) -> length ids <= 2) ->
  wd_add t b = Done (t', e) -> e = None.
Proof.
  intros hist t es b hd t' e Hr Hb Hfew Ha.
  destruct (add_exact hist t es b hd Hr Hb) as (t1 & e1 & Ha1 & Hcase).
  rewrite Ha in Ha1. injection Ha1 as <- <-.
  destruct Hcase as [[-> (ids & Hnd & Hlen & Hall)]|[-> _]]; [|done]. exfalso.
  assert (Hle : length (filter (fun x => x <> str (b_id b)) ids) <= 2).
  { apply Hfew; [apply NoDup_filter; done|]. intros id Hid. apply elem_of_list_filter in Hid as [Hne Hid].
    split; [done|]. specialize (Hall id Hid). apply counted_snoc_add in Hall as [?|[_ ?]]; [done|congruence]. }
  assert (Hge : length ids <= S (length (filter (fun x => x <> str (b_id b)) ids))).
  { clear -Hnd. induction ids as [|x ids IH]; [simpl; lia|].
    apply NoDup_cons in Hnd as [Hn Hnd]. destruct (decide (x = str (b_id b))) as [->|Hne].
    - rewrite filter_cons_False by tauto. simpl.
      assert (filter (fun x => x <> str (b_id b)) ids = ids) as ->; [|lia].
      clear -Hn. induction ids as [|y ids IH]; [done|]. rewrite filter_cons_True by set_solver.
      f_equal. apply IH. set_solver.
    - rewrite filter_cons_True by done. simpl. specialize (IH Hnd). lia. }
  lia.
Qed.
Print Assumptions C06_fewer_than_three_others_partial.
Example C06_nonvacuous :
  answers [WAdd (demo_block "f1" 5 "producer" "p"); WAdd (demo_block "f2" 5 "producer" "p");
           WAdd (demo_block "good" 5 "producer" "p")] = Some [None; None; None].
Proof. vm_compute. reflexivity. Qed.
