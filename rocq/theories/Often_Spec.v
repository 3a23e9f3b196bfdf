(** How often a block may be submitted to the chain: the occasions for it, in terms of calls, messages of the chain and answers
    of the chain only. *)
From Verif Require Import GoBase Applicator_Model.

Definition one (b : bool) : nat := if b then 1 else 0.
(** The block with id [c], whose parent is [p], is submitted *)
Definition submission (c : string) (e : event) : nat := match e with OSubmit _ k _ => one (bool_decide (k_id k = c)) | _ => 0 end.
Definition submissions (c : string) (log : list event) : nat := sum_list_with (submission c) log.
(** Occasions from outside: somebody calls ApplyBlock with the block; the chain announces that it accepted the parent, or
    announces the parent as a head. *)
Definition outside (c p : string) (lab : label) : nat :=
  match lab with
  | LCall b => one (bool_decide (str (b_id b) = c))
  | LAccept b => one (bool_decide (str (b_id b) = p))
  | LAnnounce fh => sum_list_with (fun h => one (bool_decide (h = p))) (fh_heads fh)
  | _ => 0
  end.
(** Occasions from submissions: the chain answers for the block that its state does not allow it now, or the application of the
    parent ends without an error. *)
Definition outcome_of (c p : string) (k : blk) (res : option goerr) : nat :=
  one (bool_decide (k_id k = c) && is_err_opt res ErrBlockState) + one (bool_decide (k_id k = p) && bool_decide (res = None)).
Definition answer_event (c p : string) (e : event) : nat :=
  match e with OResult _ k res | ODelayTimeout _ k res => outcome_of c p k res | _ => 0 end.
Definition occasions (c p : string) (sched : list label) (log : list event) : nat :=
  sum_list_with (outside c p) sched + sum_list_with (answer_event c p) log.

(** Goroutines under way for the block that have not submitted it yet: requests for an attempt, and attempts that wait for their
    turn. *)
Definition request_for (c : string) (x : blk * bool * Z) : nat := one (bool_decide (k_id (fst (fst x)) = c)).
Definition attempt_for (c : string) (a : attempt) : nat :=
  match at_phase a with PStart | PDelay _ _ | PQueued | PChecked _ => one (bool_decide (k_id (at_blk a) = c)) | _ => 0 end.
Definition under_way (c : string) (s : sys) : nat := sum_list_with (request_for c) (s_try s) + sum_list_with (attempt_for c) (s_att s).
(** The blocks handed over under the id [c] name the parent [p] (an id is the hash of a header that names the parent). *)
Definition parent_of (c p : string) (sched : list label) : Prop :=
  forall b h, LCall b ∈ sched -> b_header b = Some h -> str (b_id b) = c -> str (h_previous h) = p.
Definition calls_with (c : string) (sched : list label) : nat :=
  length (List.filter (fun lab => match lab with LCall b => bool_decide (str (b_id b) = c) | _ => false end) sched).
