(** Specification of the score of one host as a function of what happened to that host. *)
From Verif Require Import GoBase ErrHandler_Model.

(** The innermost error kind of an error value. *)
Fixpoint root (e : goerr) : option sentinel :=
  match e with ESent s => Some s | EWrap e' => root e' | EOther _ => None end.

(** The documented score per kind; [None] means the kind has no score of its own. *)
Definition configured (o : eh_opts) (s : sentinel) : option N :=
  match s with
  | ErrDeserialization => Some (o_deserialization o)
  | ErrSerialization => Some (o_serialization o)
  | ErrBlockIrreversibility => Some (o_irreversibility o)
  | ErrBlockApplication => Some (o_block_application o)
  | ErrTransactionApplication => Some (o_tx_application o)
  | ErrInvalidNonce => Some (o_invalid_nonce o)
  | ErrChainIDMismatch => Some (o_chain_id o)
  | ErrChainNotConnected => Some (o_chain_not_connected o)
  | ErrCheckpointMismatch => Some (o_checkpoint o)
  | ErrLocalRPC => Some (o_local_rpc o)
  | ErrPeerRPC => Some (o_peer_rpc o)
  | ErrLocalRPCTimeout => Some (o_local_rpc_timeout o)
  | ErrPeerRPCTimeout => Some (o_peer_rpc_timeout o)
  | ErrProcessRequestTimeout => Some (o_process_timeout o)
  | ErrUnknownPreviousBlock => Some (o_unknown_previous o)
  | ErrBlockApplicationTimeout => Some (o_block_application_timeout o)
  | ErrMaxPendingBlocks => Some (o_max_pending o)
  | ErrForkBomb => Some (o_fork_bomb o)
  | ErrMaxHeight => Some (o_max_height o)
  | ErrProtocolMismatch => Some (o_protocol o)
  | ErrBlockState | ErrProtocolMissing | CtxCanceled | CtxDeadlineExceeded => None
  end.
Definition expected_score (o : eh_opts) (e : goerr) : N :=
  match root e with
  | Some s => default (o_unknown o) (configured o s)
  | None => o_unknown o
  end.

(** What happened to a host: an error of a given score, or a look at its score. *)
Inductive touch := THit (now : Z) (score : N) | TLook (now : Z).

(** The host's ledger: nothing before the first hit; afterwards a time and a score.  A look at time
    [now] shows the decayed score; a hit adds to the decayed score (uint64). *)
Definition ledger := option (Z * N).
Definition look (decay : N -> Z -> N) (now : Z) (l : ledger) : ledger :=
  match l with Some (t, s) => Some (now, decay s (time_sub now t)) | None => None end.
Definition hit (decay : N -> Z -> N) (now : Z) (x : N) (l : ledger) : ledger :=
  match look decay now l with Some (t, s) => Some (t, add64 s x) | None => Some (now, x) end.
Definition touch1 decay (l : ledger) (t : touch) : ledger :=
  match t with THit now x => hit decay now x l | TLook now => look decay now l end.
Definition ledger_of decay (ts : list touch) : ledger := fold_left (touch1 decay) ts None.
Definition ledger_score (l : ledger) : N := match l with Some (_, s) => s | None => 0%N end.

(** The touches of [host] in a history. *)
Definition touch_of (o : eh_opts) (host : string) (ev : eh_event) : option touch :=
  match ev with
  | EvError now _ (Some a) e => if bool_decide (ma_first a = host) then Some (THit now (expected_score o e)) else None
  | EvError _ _ None _ => None
  | EvCanConnect now a => if bool_decide (ma_first a = host) then Some (TLook now) else None
  | EvGetScore now a => if bool_decide (ma_first a = host) then Some (TLook now) else None
  end.
Definition touches (o : eh_opts) (host : string) (hist : list eh_event) : list touch :=
  omap (touch_of o host) hist.

(** The host an event is about. *)
Definition event_host (ev : eh_event) : option string :=
  match ev with
  | EvError _ _ addr _ => ma_first <$> addr
  | EvCanConnect _ a | EvGetScore _ a => Some (ma_first a)
  end.
