(** Model of internal/p2p/error_handler.go and internal/options/error_handler_options.go. *)
From Verif Require Import GoBase.

(** error_handler_options.go:36-62 PeerErrorHandlerOptions *)
Record eh_opts := EhOpts {
  o_halflife : Z; o_threshold : N; o_reconnect : N;
  o_deserialization : N; o_serialization : N; o_irreversibility : N; o_block_application : N;
  o_unknown_previous : N; o_block_application_timeout : N; o_max_pending : N; o_tx_application : N;
  o_invalid_nonce : N; o_chain_id : N; o_chain_not_connected : N; o_checkpoint : N; o_local_rpc : N;
  o_peer_rpc : N; o_local_rpc_timeout : N; o_peer_rpc_timeout : N; o_process_timeout : N;
  o_fork_bomb : N; o_max_height : N; o_protocol : N; o_unknown : N }.

(** error_handler_options.go:7-33, 65-92: the defaults *)
Definition eh_defaults : eh_opts := {|
  o_halflife := 30 * minute; o_threshold := 100000; o_reconnect := 100000 / 2;
  o_deserialization := 5000; o_serialization := 0; o_irreversibility := 100; o_block_application := 5000;
  o_unknown_previous := 2500; o_block_application_timeout := 2500; o_max_pending := 1000;
  o_tx_application := 100; o_invalid_nonce := 0; o_chain_id := 100000 * 2;
  o_chain_not_connected := 100000 * 2; o_checkpoint := 100000 * 2; o_local_rpc := 0;
  o_peer_rpc := 5000; o_local_rpc_timeout := 0; o_peer_rpc_timeout := 3500; o_process_timeout := 0;
  o_fork_bomb := 100000 * 2; o_max_height := 5000; o_protocol := 100000 * 2; o_unknown := 5000 |}%N.

(** error_handler.go:148-201 getScoreForError: the switch, in the order of the code *)
Definition eh_score (o : eh_opts) (e : goerr) : N :=
  if is_err e ErrTransactionApplication then o_tx_application o
  else if is_err e ErrInvalidNonce then o_invalid_nonce o
  else if is_err e ErrBlockApplication then o_block_application o
  else if is_err e ErrUnknownPreviousBlock then o_unknown_previous o
  else if is_err e ErrBlockApplicationTimeout then o_block_application_timeout o
  else if is_err e ErrMaxPendingBlocks then o_max_pending o
  else if is_err e ErrMaxHeight then o_max_height o
  else if is_err e ErrDeserialization then o_deserialization o
  else if is_err e ErrBlockIrreversibility then o_irreversibility o
  else if is_err e ErrPeerRPC then o_peer_rpc o
  else if is_err e ErrPeerRPCTimeout then o_peer_rpc_timeout o
  else if is_err e ErrForkBomb then o_fork_bomb o
  else if is_err e ErrChainIDMismatch then o_chain_id o
  else if is_err e ErrChainNotConnected then o_chain_not_connected o
  else if is_err e ErrCheckpointMismatch then o_checkpoint o
  else if is_err e ErrProtocolMismatch then o_protocol o
  else if is_err e ErrLocalRPC then o_local_rpc o
  else if is_err e ErrLocalRPCTimeout then o_local_rpc_timeout o
  else if is_err e ErrSerialization then o_serialization o
  else if is_err e ErrProcessRequestTimeout then o_process_timeout o
  else o_unknown o.

(** A multiaddress: its components as strings, at least one (libp2p never hands out an empty one).
    [ma.Split(addr)[0].String()] is the first. *)
Record maddr := Maddr { ma_first : string; ma_rest : list string }.
Definition host_of (a : maddr) : string := ma_first a.

(** error_handler.go:29-32 errorScoreRecord *)
Record eh_rec := EhRec { er_last : Z; er_score : N }.
Notation eh_state := (gmap string eh_rec).

Section handler.
(** error_handler.go:203-208 decayErrorScore as a function of the score and the elapsed time; the
    floating point formula is in ErrDecay_Model.v.  Everything in this section holds for any [decay]. *)
Context (decay : N -> Z -> N) (o : eh_opts).

(** error_handler.go:203-208: sets the score and the time *)
Definition eh_decay (now : Z) (r : eh_rec) : eh_rec :=
  EhRec now (decay (er_score r) (time_sub now (er_last r))).

(** error_handler.go:102-109 handleCanConnect *)
Definition eh_can_connect (now : Z) (a : maddr) (st : eh_state) : eh_state * bool :=
  match st !! host_of a with
  | Some r => let r' := eh_decay now r in
              (<[host_of a := r']> st, bool_decide (er_score r' < o_reconnect o)%N)
  | None => (st, true)
  end.

(** error_handler.go:111-118 handleGetPeerErrorScore *)
Definition eh_get_score (now : Z) (a : maddr) (st : eh_state) : eh_state * N :=
  match st !! host_of a with
  | Some r => let r' := eh_decay now r in (<[host_of a := r']> st, er_score r')
  | None => (st, 0%N)
  end.

(** error_handler.go:120-146 handleError: [addr] is what GetPeerAddress returned; the result says
    whether a goroutine sending the peer id to disconnectPeerChan was started (lines 137-144).
    The two clock readings of one call are taken as one.  The log line is dropped. *)
Definition eh_error (now : Z) (addr : option maddr) (e : goerr) (st : eh_state) : eh_state * bool :=
  match addr with
  | None => (st, false)
  | Some a =>
    let r' := match st !! host_of a with
              | Some r => let d := eh_decay now r in EhRec (er_last d) (add64 (er_score d) (eh_score o e))
              | None => EhRec now (eh_score o e)
              end in
    (<[host_of a := r']> st, bool_decide (o_threshold o <= er_score r')%N)
  end.

(** error_handler.go:236-256: the serving loop handles one request at a time; a history is the order
    in which it picks them.  EvError carries the peer id and the address found for it. *)
Inductive eh_event :=
| EvError (now : Z) (id : string) (addr : option maddr) (e : goerr)
| EvCanConnect (now : Z) (addr : maddr)
| EvGetScore (now : Z) (addr : maddr).
Inductive eh_out :=
| OutDisconnect (id : option string)   (* the id sent to disconnectPeerChan, if any *)
| OutCan (b : bool)
| OutScore (n : N).

Definition eh_step (st : eh_state) (ev : eh_event) : eh_state * eh_out :=
  match ev with
  | EvError now id addr e =>
    let '(st', d) := eh_error now addr e st in (st', OutDisconnect (if d then Some id else None))
  | EvCanConnect now a => let '(st', b) := eh_can_connect now a st in (st', OutCan b)
  | EvGetScore now a => let '(st', n) := eh_get_score now a st in (st', OutScore n)
  end.
Fixpoint eh_run (st : eh_state) (evs : list eh_event) : eh_state * list eh_out :=
  match evs with
  | [] => (st, [])
  | ev :: r => let '(st', x) := eh_step st ev in let '(st'', xs) := eh_run st' r in (st'', x :: xs)
  end.

(** error_handler.go:58-64 CanConnect: the query is only sent if the peer's address is known. *)
Definition eh_can_connect_peer (now : Z) (addr : option maddr) (st : eh_state) : eh_state * bool :=
  match addr with Some a => eh_can_connect now a st | None => (st, true) end.
(** error_handler.go:83-96 GetPeerErrorScore (context alive): 0 without an address. *)
Definition eh_get_score_peer (now : Z) (addr : option maddr) (st : eh_state) : eh_state * N :=
  match addr with Some a => eh_get_score now a st | None => (st, 0%N) end.
(** error_handler.go:211-233, the ConnectionGater callbacks: InterceptPeerDial is CanConnect,
    the three address callbacks are CanConnectAddr, InterceptUpgraded always allows. *)
Definition eh_intercept_peer_dial := eh_can_connect_peer.
Definition eh_intercept_addr_dial := eh_can_connect.
Definition eh_intercept_accept := eh_can_connect.
Definition eh_intercept_secured := eh_can_connect.
Definition eh_intercept_upgraded : bool := true.
End handler.
