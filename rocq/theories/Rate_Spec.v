(** How often a host has to do something wrong to be cut off. *)
From Coq Require Import Reals.
From Verif Require Import GoBase ErrHandler_Model ErrHandler_Spec EhSys_Model EhSys_Spec.

Definition time_of (t : touch) : Z := match t with THit now _ => now | TLook now => now end.
(** The clock does not go back, and reads nanoseconds of an int64 *)
Fixpoint in_order (t : Z) (ts : list touch) : Prop :=
  match ts with [] => True | x :: r => (t <= time_of x <= max_i64)%Z /\ in_order (time_of x) r end.
Definition charges (ts : list touch) : list N := omap (fun t => match t with THit _ x => Some x | TLook _ => None end) ts.
Definition total_charge (ts : list touch) : N := fold_right N.add 0%N (charges ts).
(** Between two errors of the host at least [D] passes. *)
Fixpoint spaced (D : Z) (last : option Z) (ts : list touch) : Prop :=
  match ts with
  | [] => True
  | TLook _ :: r => spaced D last r
  | THit t _ :: r => match last with Some t0 => (t0 + D <= t)%Z | None => True end /\ spaced D (Some t) r
  end.
(** A series of errors: each with the looks at the score (gate calls and score calls) since the one before. *)
Definition series := list (list Z * (Z * N)).
Definition touches_of_series (r : series) : list touch := mjoin (map (fun x => map TLook x.1 ++ [THit x.2.1 x.2.2]) r).
(** Between two errors of the series at most [D] passes. *)
Fixpoint close (D : Z) (last : option Z) (r : series) : Prop :=
  match r with
  | [] => True
  | (_, (t, _)) :: r => match last with Some t0 => (t <= t0 + D)%Z | None => True end /\ close D (Some t) r
  end.
(** The part of a score that is left after a time [D], for the half-life [H]: 2^(-D/H) *)
Definition left (H D : Z) : R := Rpower 2 (- (IZR D / IZR H)).

(** What the handler did, in the order in which it served requests: a request for the disconnection of a peer on [host]; a refusal
    of a connection from [host]. *)
Definition cut_off (s : ehs) (host : string) : Prop := exists n now id a e,
  served_events s !! n = Some (EvError now id (Some a) e) /\ ma_first a = host /\ served_answers s !! n = Some (OutDisconnect (Some id)).
Definition turned_away (s : ehs) (host : string) : Prop := exists n now a,
  served_events s !! n = Some (EvCanConnect now a) /\ ma_first a = host /\ served_answers s !! n = Some (OutCan false).
Definition history (o : eh_opts) (s : ehs) (host : string) : list touch := touches o host (served_events s).
