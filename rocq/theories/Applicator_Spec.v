(** What the applicator is supposed to do, in terms of calls, observable events and inputs only. *)
From Verif Require Import GoBase Watchdog_Model Applicator_Model.

(** Inputs that a Go program can produce: every uint64 is below 2^64. *)
Definition u64_block (b : block) : Prop :=
  forall h, b_header b = Some h -> (h_height h < two64)%N /\ (h_timestamp h < two64)%N.
Definition u64_label (l : label) : Prop :=
  match l with
  | LCall b | LAccept b => u64_block b
  | LAnnounce fh => forall n, fh_lib fh = Some n -> (n < two64)%N
  | _ => True
  end.
(** Inputs that do not crash the node by a nil dereference: blocks come with a header, fork-head messages with a
    last irreversible block. *)
Definition complete_label (l : label) : Prop :=
  match l with
  | LCall b | LAccept b => b_header b <> None
  | LAnnounce fh => fh_lib fh <> None
  | _ => True
  end.

(** Submissions to the chain in progress: begun and not yet returned (the log is newest first). *)
Fixpoint open_blocks (log : list event) : list (nat * blk) :=
  match log with
  | [] => []
  | OSubmit a k _ :: r => (a, k) :: open_blocks r
  | OResult a _ _ :: r => filter (fun x => fst x <> a) (open_blocks r)
  | _ :: r => open_blocks r
  end.
Fixpoint open_txs (log : list event) : list nat :=
  match log with
  | [] => []
  | OTxSubmit i _ _ :: r => i :: open_txs r
  | OTxResult i _ _ :: r => filter (fun x => x <> i) (open_txs r)
  | _ :: r => open_txs r
  end.

(** How often the call [c] was answered. *)
Definition answers_to (c : nat) (log : list event) : list (option goerr) :=
  omap (fun e => match e with OAnswer c' r => if bool_decide (c' = c) then Some r else None | _ => None end) log.

(** The maximum of the head height at start-up and of the heights of the accepted blocks. *)
Fixpoint max_accepted (head : N) (log : list event) : N :=
  match log with
  | [] => head
  | OAccepted b _ :: r => match b_header b with Some h => N.max (h_height h) (max_accepted head r) | None => max_accepted head r end
  | _ :: r => max_accepted head r
  end.
(** The last LIB processed, and the highest one. *)
Fixpoint last_lib (lib : N) (log : list event) : N :=
  match log with [] => lib | OLib l :: _ => l | _ :: r => last_lib lib r end.
Fixpoint max_lib (lib : N) (log : list event) : N :=
  match log with [] => lib | OLib l :: r => N.max l (max_lib lib r) | _ :: r => max_lib lib r end.

(** The instant a block's timestamp (milliseconds since the epoch) denotes, in nanoseconds. *)
Definition timestamp_instant (k : blk) : Z := (Z.of_N (k_time k) * millisecond)%Z.

(** A run of the applicator: [sched] is any interleaving, with inputs a Go program can produce, that leads from the
    start (head height, LIB, cache duration, clock) to the state [s]. *)
Definition reaches (o : ap_opts) (head lib : N) (dur now : Z) (sched : list label) (s : sys) : Prop :=
  (lib < two64)%N /\ Forall u64_label sched /\ run o (sys_init head lib dur now) sched = Some s.

(** The blocks held: their id, the block, and the calls waiting for it. *)
Definition held (s : sys) (id : string) (k : blk) (calls : list nat) : Prop := c_byid (s_core s) !! id = Some (Entry k calls).
Definition held_ids (s : sys) : gset string := dom (c_byid (s_core s)).

(** Nothing of block id [id] is under way: it is not held, no attempt is scheduled or running, and no call with it is
    still to be processed. *)
Definition idle (id : string) (s : sys) : Prop :=
  id ∉ held_ids s /\ (forall k f t, (k, f, t) ∈ s_try s -> k_id k <> id) /\
  (forall i a, s_att s !! i = Some a -> at_live a = true -> k_id (at_blk a) <> id) /\
  (forall c cl, s_calls s !! c = Some cl -> (cl_phase cl = CSend \/ c ∈ s_new s) -> k_id (cl_blk cl) <> id).

(** Observations of the final state of a run, for examples. *)
Definition final {A} (f : sys -> A) (o : ap_opts) (s : sys) (sched : list label) : option A := f <$> run o s sched.

(** The fate of a block [k] that reaches the dispatcher after the history [log] while [n] blocks are held:
    the refusal, or [None] if it is taken into the pool. *)
Definition refusal (o : ap_opts) (head lib : N) (log : list event) (n : nat) (k : blk) : option sentinel :=
  if bool_decide (max_accepted head log + ao_max_delta o < k_height k)%N then Some ErrMaxHeight
  else if bool_decide (ao_max_pending o <= N.of_nat n)%N then Some ErrMaxPendingBlocks
  else if bool_decide (k_height k <= last_lib lib log)%N then Some ErrBlockIrreversibility
  else None.

(** The step [lab] tells the dispatcher that the block [id] was accepted: the success of an own attempt, a block
    broadcast, or a fork head. *)
Definition reports (s : sys) (lab : label) (id : string) : Prop :=
  match lab with
  | LStatus i _ => exists k, s_att s !! i = Some (Attempt k (PStatus None)) /\ k_id k = id
  | LBroadcast i => exists b, s_bc s !! i = Some b /\ str (b_id b) = id
  | LForkHeads i _ => exists fh, s_fh s !! i = Some fh /\ id ∈ fh_heads fh
  | _ => False
  end.

(** Chain errors after which the block is kept. *)
Definition transient (r : option goerr) : Prop := is_err_opt r ErrBlockState = true \/ is_err_opt r ErrUnknownPreviousBlock = true.

(** A call of ApplyBlock / ApplyTransaction that has not returned. *)
Definition block_call_open (c : nat) (s : sys) : Prop := exists cl, s_calls s !! c = Some cl /\ forall r, cl_phase cl <> CRet r.
Definition tx_call_open (i : nat) (s : sys) : Prop := exists t, s_txs s !! i = Some t /\ tp_ret t = None.

(** The id of a transaction; it was submitted at time [a], or was in a block accepted at time [a]. *)
Definition tid (t : transaction) : string := str (t_id t).
Definition seen_at (log : list event) (id : string) (a : Z) : Prop :=
  (exists i t, OTxSubmit i t a ∈ log /\ tid t = id) \/ (exists b, OAccepted b a ∈ log /\ id ∈ map tid (b_txs b)).

(** An attempt at the block [k] was started after the first [n] attempts. *)
Definition started_since (n : nat) (k : blk) (s : sys) : Prop := exists i p, n <= i /\ s_att s !! i = Some (Attempt k p).

(** Nobody passes a block with id [id] to ApplyBlock. *)
Definition not_again (id : string) (l : label) : Prop := match l with LCall b => str (b_id b) <> id | _ => True end.

(** No block passed to ApplyBlock carries a timestamp after [limit]. *)
Definition stamped_by (limit : Z) (l : label) : Prop :=
  match l with LCall b => forall h, b_header b = Some h -> (Z.of_N (h_timestamp h) * millisecond <= limit)%Z | _ => True end.

(** Processed LIBs, in the order of processing, never decrease. *)
Definition libs_in_order (lib : N) (log : list event) : Prop :=
  forall l1 b l2, log = l1 ++ OLib b :: l2 -> (lib <= b)%N /\ forall a, OLib a ∈ l2 -> (a <= b)%N.

(** What the fork watchdog sees during a run: the blocks passed to ApplyBlock and the LIBs processed, in order. *)
Definition watched (s : sys) (lab : label) : list wd_op :=
  match lab with
  | LCall b => [WAdd b]
  | LForkHeads i _ => match s_fh s !! i with Some fh => match fh_lib fh with Some lib => [WPurge lib] | None => [] end | None => [] end
  | _ => []
  end.
Fixpoint watch_hist (o : ap_opts) (s : sys) (sched : list label) : list wd_op :=
  match sched with
  | [] => []
  | lab :: r => match step o s lab with Some s' => watched s lab ++ watch_hist o s' r | None => [] end
  end.
