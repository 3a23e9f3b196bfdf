(** Model for C128: the gossip switch (Switch_Model) in time. *)
From Verif Require Import GoBase Toggle_Model Switch_Model.

(** gossip_toggle.go:61: the time between two ticks of the ticker *)
Definition tick_time : Z := second.
(** A run with times: every step with the time at which it is taken, oldest first *)
Definition tsched : Type := list (Z * slabel).
(** How long the toggle may stay between two ticks, and in a tick: [L].  gossip_toggle.go:61-69: a tick that came in the meantime is
    waiting, so no pause is longer than the time of the ticker. *)
Definition may_last (L : Z) (t : tphase) (d : Z) : Prop :=
  match t with TIdle => (d <= tick_time)%Z | TNew | TEnded => True | _ => (d <= L)%Z end.
Definition between_ticks (s : sw) : bool := bool_decide (sw_tog s = TIdle).
(** The run from [s] at [now] to the time [until]: time does not go back, the clock that the toggle reads shows the time, and the toggle
    is never longer than [tick_time] between two ticks, nor longer than [L] in a tick.  [since]: when the present tick or the present pause
    began, or when we began to look. *)
Fixpoint in_time (o : tg_opts) (L : Z) (s : sw) (now since : Z) (r : tsched) (until : Z) : Prop :=
  match r with
  | [] => (now <= until)%Z /\ may_last L (sw_tog s) (until - since)
  | (t, lab) :: r =>
    (now <= t)%Z /\ may_last L (sw_tog s) (t - since) /\ (forall x, lab = WDecide x -> x = t) /\
    match sw_step o s lab with
    | Some s' => in_time o L s' t (if eqb (between_ticks s) (between_ticks s') then since else t) r until
    | None => False
    end
  end.
