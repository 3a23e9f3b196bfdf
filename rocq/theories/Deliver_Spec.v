(** Blocks handed over in any order: what a truthful chain, a settled applicator and a recent block are, in terms of
    the observable events and of what is still under way. *)
From Verif Require Import GoBase Watchdog_Model Applicator_Model Applicator_Spec.

(** The chain has said that it has the block [id]: it had it at the start ([root]), or a block broadcast with it was
    processed. *)
Definition announced (root : gset string) (log : list event) (id : string) : Prop :=
  id ∈ root \/ exists b t, OAccepted b t ∈ log /\ str (b_id b) = id.
(** The chain accepted the block [id] when it was submitted. *)
Definition applied (log : list event) (id : string) : Prop := exists i k, OResult i k None ∈ log /\ k_id k = id.

(** The chain has the block [id]: it said so, or it accepted the block. *)
Definition has_block (root : gset string) (log : list event) (id : string) : Prop := announced root log id \/ applied log id.
(** What follows concerns the blocks whose ids are in [D] only; nothing is assumed about others. *)
Section family.
Context (D : string -> Prop).
(** A truthful chain: it does not answer "unknown previous block" to a block that was submitted when it had the parent,
    or had accepted that very block before.  (The log is newest first: [past] is the history up to the submission.) *)
Definition truthful (root : gset string) (log : list event) : Prop :=
  forall later i k r between t past, D (k_id k) -> log = later ++ OResult i k r :: between ++ OSubmit i k t :: past ->
    has_block root past (k_prev k) \/ applied past (k_id k) -> is_err_opt r ErrUnknownPreviousBlock = false.

(** No call was answered with an error, no attempt ended with an error other than the two after which the block is
    kept, and no attempt was given up waiting for the block's timestamp. *)
Definition no_refusal (s : sys) : Prop :=
  (forall c cl e, s_calls s !! c = Some cl -> D (k_id (cl_blk cl)) -> OAnswer c (Some e) ∉ s_log s) /\
  (forall i k e, D (k_id k) -> OStatus i k (Some e) ∈ s_log s -> transient (Some e)) /\
  (forall i k r, D (k_id k) -> ODelayTimeout i k r ∉ s_log s).
(** Block ids identify the blocks passed in. *)
Definition ids_distinct (s : sys) : Prop := forall k k', D (k_id k) ->
  (exists c cl, s_calls s !! c = Some cl /\ cl_blk cl = k) -> (exists c cl, s_calls s !! c = Some cl /\ cl_blk cl = k') -> k_id k = k_id k' -> k = k'.
End family.
(** The block was submitted only when the chain had its parent already. *)
Definition in_order (root : gset string) (log : list event) (k : blk) : Prop :=
  forall later i t past, log = later ++ OSubmit i k t :: past -> has_block root past (k_prev k).

(** The applicator runs: not shut down, not crashed, not in the endless loop for LIB = 2^64-1. *)
Definition running (s : sys) : Prop := s_cancelled s = false /\ s_panic s = false /\ s_hang s = false.
(** Nothing is under way: no call on its way in, no request, no attempt and no broadcast waiting to be processed. *)
Definition settled (s : sys) : Prop :=
  (forall c cl, s_calls s !! c = Some cl -> cl_phase cl <> CSend) /\ s_new s = [] /\ s_try s = [] /\
  (forall i a, s_att s !! i = Some a -> at_phase a = PDone) /\ s_bc s = [].

(** The block was passed to ApplyBlock (and the fork watchdog let it through). *)
Definition passed (s : sys) (k : blk) : Prop := exists c cl, s_calls s !! c = Some cl /\ cl_blk cl = k.
(** [k] is younger than ForceChildRequestThreshold at time [now] (the other bounds exclude overflow of the Go clock
    arithmetic). *)
Definition recent (o : ap_opts) (now : Z) (k : blk) : Prop :=
  (k_time k < 2 ^ 63)%N /\ (min_i64 < ao_force_threshold o)%Z /\
  (now - timestamp_instant k < ao_force_threshold o)%Z /\ (now - timestamp_instant k <= max_i64)%Z.

(** The height of [k] is at most one more than that of its parent, as far as the parent was announced; the blocks in
    [root] are not above the head at the start. *)
Definition follows_parent (root : gset string) (head : N) (log : list event) (k : blk) : Prop :=
  (k_prev k ∈ root -> (k_height k <= head + 1)%N) /\
  (forall b t, OAccepted b t ∈ log -> str (b_id b) = k_prev k -> exists h, b_header b = Some h /\ (k_height k <= h_height h + 1)%N).

(** A chain of blocks: the first one's parent is [parent], every other one's parent is the one before it. *)
Fixpoint linked (parent : string) (ks : list blk) : Prop :=
  match ks with [] => True | k :: r => k_prev k = parent /\ linked (k_id k) r end.
