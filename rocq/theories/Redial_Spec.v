(** Specification for C130 and C131. *)
From Verif Require Import GoBase ConnMgr_Model ConnMgr_Spec.

(** As far as the manager was told, [p] is not connected, in every state of the run. *)
Definition away (p : string) (s : cm) : Prop := ~ last_connected (net_history (rev (cm_log s))) p.
Fixpoint away_throughout (p : string) (s : cm) (r : list cm_label) : Prop :=
  away p s /\ match r with [] => True | lab :: r => match cm_step s lab with Some s' => away_throughout p s' r | None => False end end.
(** Between the two states a dial of [p] began *)
Definition dialled (p : string) (s s' : cm) : Prop := exists new, cm_log s' = new ++ cm_log s /\ GDial p ∈ new.
(** How many dials of [p] a part of the log has *)
Definition dials_of (p : string) (l : list obs) : nat := length (List.filter (fun x => match x with GDial q => bool_decide (q = p) | _ => false end) l).
