(** Model for C130 and C131: the seed loop of the connection manager (ConnMgr_Model) in time. *)
From Verif Require Import GoBase ConnMgr_Model.

(** connection_manager.go:300, 317: how long the seed loop pauses between two rounds *)
Definition seed_pause : Z := (10 * second)%Z.
(** A run of the connection manager with times: every step with the time at which it is taken, oldest first *)
Definition csched : Type := list (Z * cm_label).
Global Instance seed_ctl_eq_dec : EqDecision seed_ctl.
Proof. solve_decision. Defined.
(** How long the seed loop may stay where it is: the pause between two rounds (connection_manager.go:317), [D] in a dial, and [Q] in
    each of: going on to the next seed, waiting for the manager to take the question, waiting for its answer *)
Definition seed_may_last (Q D : Z) (c : seed_ctl) (d : Z) : Prop :=
  match c with SdNotStarted => True | SdPausing => (d <= seed_pause)%Z | SdDialing _ _ => (d <= D)%Z | _ => (d <= Q)%Z end.
(** The run from [s] at [now] to the time [until]: time does not go back, and the seed loop is nowhere longer than it may be.
    [since]: when it came to where it is, or when we began to look. *)
Fixpoint seeds_in_time (Q D : Z) (s : cm) (now since : Z) (r : csched) (until : Z) : Prop :=
  match r with
  | [] => (now <= until)%Z /\ seed_may_last Q D (cm_seed s) (until - since)
  | (t, lab) :: r =>
    (now <= t)%Z /\ seed_may_last Q D (cm_seed s) (t - since) /\
    match cm_step s lab with
    | Some s' => seeds_in_time Q D s' t (if decide (cm_seed s = cm_seed s') then since else t) r until
    | None => False
    end
  end.
(** For C131: a round begins not before the pause after the last one is over (connection_manager.go:317: the timer does not fire
    early; before the first round there is no pause, which does not matter here). *)
Fixpoint pauses_kept (s : cm) (now since : Z) (r : csched) : Prop :=
  match r with
  | [] => True
  | (t, lab) :: r =>
    (now <= t)%Z /\ (forall order, lab = LRound order -> (seed_pause <= t - since)%Z) /\
    match cm_step s lab with Some s' => pauses_kept s' t (if decide (cm_seed s = cm_seed s') then since else t) r | None => False end
  end.
