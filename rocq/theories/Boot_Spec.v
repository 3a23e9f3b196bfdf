(** The start of the program and the log of connections: what is meant by the properties. *)
From Verif Require Import GoBase Watchdog_Model Applicator_Model Applicator_Spec Deliver_Spec Rest_Spec Honest_Spec Boot_Model.

(** Numbers are uint64, and messages are complete: blocks have headers, announcements name the LIB. *)
Definition bu64 (l : blabel) : Prop := match l with BBlock b => u64_block b | BForks fh => u64_label (LAnnounce fh) | BWorld lab => wu64 lab | _ => True end.
Definition bcomplete (l : blabel) : Prop := match l with BBlock b => b_header b <> None | BForks fh => fh_lib fh <> None | BWorld lab => wcomplete lab | _ => True end.

(** The parent of [k] was reported since the history was [before]: an attempt at it succeeded, or its broadcast was processed. *)
Definition reported (k : blk) (before now : list event) : Prop :=
  exists new, now = new ++ before /\
    ((exists i P, OStatus i P None ∈ new /\ k_id P = k_prev k) \/ exists b t, OAccepted b t ∈ new /\ str (b_id b) = k_prev k).

(** The LIB that the chain named last: in the last announcement, or [lib] from the beginning. *)
Definition latest (lib : option N) (ls : list blabel) : option N := fold_left (fun acc l => match l with BForks fh => fh_lib fh | _ => acc end) ls lib.
(** All announcements name a LIB. *)
Definition names_lib (l : blabel) : Prop := match l with BForks fh => fh_lib fh <> None | _ => True end.

(** The connections listed, and the number of those said to be left out. *)
Definition listed {C} (lines : list (conn_line C)) : list C := omap (fun l => match l with LineConn c => Some c | LineMore _ => None end) lines.
Definition left_out {C} (lines : list (conn_line C)) : Z := fold_right (fun l acc => match l with LineConn _ => acc | LineMore n => (n + acc)%Z end) 0%Z lines.

(** A call returned with an error. *)
Definition error_return (e : event) : Prop := match e with OReturn _ _ (Some _) | OTxReturn _ _ (Some _) => True | _ => False end.
