(** Go semantics used by every model file: unsigned/signed 64-bit arithmetic,
    durations, byte slices, errors, panics.  No proofs about the code here. *)
From stdpp Require Export base numbers option list gmap strings.
From Coq Require Export ZArith NArith Lia.

(** ** Integers.  Go [uint64]/[uint32] values are [N]; every Go operation that can
    wrap is written with the wrap. *)
Definition two64 : N := 2 ^ 64.
Definition two32 : N := 2 ^ 32.
Definition max_u64 : N := two64 - 1.
(** Go [a + b] on uint64. *)
Definition add64 (a b : N) : N := (a + b) `mod` two64.
(** Go [a - b] on uint64 (both below 2^64). *)
Definition sub64 (a b : N) : N := (a + two64 - b) `mod` two64.
(** Go [uint32(x)] for a uint64 [x]. *)
Definition to_u32 (x : N) : N := x `mod` two32.
(** Go [int64(x)] for an arbitrary integer bit pattern [x], and int64 wrap-around. *)
Definition wrap_i64 (z : Z) : Z := (z + 2 ^ 63) `mod` (2 ^ 64) - 2 ^ 63.
Definition max_i64 : Z := 2 ^ 63 - 1.
Definition min_i64 : Z := - 2 ^ 63.

(** ** Time.  [time.Time] is an integer number of nanoseconds since the epoch,
    [time.Duration] an int64 number of nanoseconds.  [time.Time.Sub] saturates. *)
Definition time_sub (a b : Z) : Z := Z.max min_i64 (Z.min max_i64 (a - b)).
Definition nanosecond : Z := 1.
Definition millisecond : Z := 1000000.
Definition second : Z := 1000000000.
Definition minute : Z := 60 * second.

(** ** Byte slices.  [None] is the nil slice; [string(b)] of nil is the empty string;
    [bytes.Equal] does not distinguish nil from empty. *)
Definition bytes := option string.
Definition str (b : bytes) : string := default EmptyString b.
Definition bytes_equal (a b : bytes) : bool := bool_decide (str a = str b).

(** ** Panics. *)
Inductive outcome (A : Type) : Type := Done (a : A) | Panic.
Arguments Done {A} a.
Arguments Panic {A}.
Definition obind {A B} (x : outcome A) (f : A -> outcome B) : outcome B :=
  match x with Done a => f a | Panic => Panic end.
Definition is_panic {A} (x : outcome A) : bool := match x with Done _ => false | Panic => true end.

(** ** Errors.  internal/p2perrors/errors.go:7-73, plus the two context errors. *)
Inductive sentinel :=
| ErrDeserialization | ErrSerialization | ErrBlockIrreversibility | ErrBlockApplication
| ErrTransactionApplication | ErrInvalidNonce | ErrChainIDMismatch | ErrChainNotConnected
| ErrCheckpointMismatch | ErrLocalRPC | ErrPeerRPC | ErrLocalRPCTimeout | ErrPeerRPCTimeout
| ErrProcessRequestTimeout | ErrUnknownPreviousBlock | ErrBlockApplicationTimeout
| ErrMaxPendingBlocks | ErrForkBomb | ErrMaxHeight | ErrBlockState | ErrProtocolMismatch
| ErrProtocolMissing
| CtxCanceled | CtxDeadlineExceeded.
Global Instance sentinel_eq_dec : EqDecision sentinel.
Proof. solve_decision. Defined.

(** An error value: a sentinel, an error made by [fmt.Errorf("%w ...", inner)] (only the
    chain of wrapped errors is kept, the text is dropped: text included with [%s]/[%v] does not
    take part in [errors.Is]), or any other error. *)
Inductive goerr :=
| ESent (s : sentinel)
| EWrap (inner : goerr)
| EOther (msg : string).
Global Instance goerr_eq_dec : EqDecision goerr.
Proof. solve_decision. Defined.

(** [errors.Is(err, s)] for a non-nil [err]. *)
Fixpoint is_err (e : goerr) (s : sentinel) : bool :=
  match e with
  | ESent s' => bool_decide (s' = s)
  | EWrap e' => is_err e' s
  | EOther _ => false
  end.
(** [errors.Is(err, s)] for a possibly nil [err]. *)
Definition is_err_opt (e : option goerr) (s : sentinel) : bool :=
  match e with Some e => is_err e s | None => false end.

(** ** Protocol values (koinos-proto-golang): only the fields this repository reads;
    everything else is the opaque [b_body]/[t_body], so two blocks can share an id and differ. *)
Record header := Header { h_height : N; h_previous : bytes; h_timestamp : N; h_signer : bytes }.
Record transaction := Transaction { t_id : bytes; t_body : string }.
Record block := Block { b_id : bytes; b_header : option header; b_txs : list transaction; b_body : string }.
Global Instance header_eq_dec : EqDecision header.
Proof. solve_decision. Defined.
Global Instance transaction_eq_dec : EqDecision transaction.
Proof. solve_decision. Defined.
Global Instance block_eq_dec : EqDecision block.
Proof. solve_decision. Defined.

(** [koinos.BlockTopology] *)
Record topology := Topology { tp_id : bytes; tp_height : N; tp_previous : bytes }.
