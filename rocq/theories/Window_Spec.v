(** Specification for C126: errors in a window of time, and sessions in which nothing succeeds. *)
From Coq Require Import Reals.
From Verif Require Import GoBase PeerConn_Model Pace_Model Rate_Spec.

(** All errors of the series came between [a] and [b]. *)
Definition between (a b : Z) (r : series) : Prop := Forall (fun x => (a <= x.2.1 <= b)%Z) r.
(** The errors a session has handed to the error handler *)
Fixpoint reports (log : list act) : nat := match log with [] => 0 | AReport _ _ _ :: log => S (reports log) | _ :: log => reports log end.
(** No round of requests succeeded.  ([AHandshake None] may be there: the handshake may have succeeded.) *)
Definition nothing_gained (log : list act) : Prop := ASync None ∉ log.
