(** Model of internal/rpc/peer_rpc.go (the client side of peer RPC) and internal/rpc/peer_rpc_service.go (the serving side),
    and of the libp2p gorpc channel between them.  proto.Marshal/Unmarshal of a block are arbitrary functions. *)
From Verif Require Import GoBase LocalRpc_Model PeerConn_Model.

(** What client.CallContext leaves behind: the response struct and the error *)
Definition call_result (R : Type) : Type := R * option goerr.
(** peer_rpc.go:33-37, 48-52, 66-70, 85-89 *)
Definition peer_error (e : goerr) : goerr := EWrap (ESent (if is_err e CtxDeadlineExceeded then ErrPeerRPCTimeout else ErrPeerRPC)).
(** peer_rpc.go:28-40, 43-55, 58-73 *)
Definition client_chain_id (r : call_result bytes) : call_result bytes := (fst r, peer_error <$> snd r).
Definition client_head_block (r : call_result (bytes * N)) : call_result (bytes * N) := (fst r, peer_error <$> snd r).
Definition client_ancestor (r : call_result bytes) : call_result bytes := (fst r, peer_error <$> snd r).
(** peer_rpc.go:96-103: the allocation and the loop that decodes the blocks *)
Fixpoint decode_blocks (unm : string -> option block) (raw : list bytes) : option (list block) :=
  match raw with
  | [] => Some []
  | d :: rest => match unm (str d), decode_blocks unm rest with Some b, Some bs => Some (b :: bs) | _, _ => None end
  end.
(** peer_rpc.go:76-106 *)
Definition client_blocks (unm : string -> option block) (num : N) (r : call_result (list bytes)) : call_result (list block) :=
  match snd r with
  | Some e => ([], Some (peer_error e))
  | None =>
    if bool_decide (to_u32 (N.of_nat (length (fst r))) = num)
    then match decode_blocks unm (fst r) with
         | Some bs => (bs, None)
         | None => ([], Some (EWrap (ESent ErrDeserialization)))
         end
    else ([], Some (EWrap (ESent ErrPeerRPC)))
  end.

(** The serving side: [local] is what the call to the local node returned; [Panic]: nil dereference.
    peer_rpc_service.go:69-77 *)
Definition serve_chain_id (local : option bytes * option goerr) : outcome (call_result bytes) :=
  match local with
  | (_, Some e) => Done (None, Some e)
  | (Some id, None) => Done (id, None)
  | (None, None) => Panic
  end.
(** peer_rpc_service.go:80-89 *)
Definition serve_head_block (local : option head_info * option goerr) : outcome (call_result (bytes * N)) :=
  match local with
  | (_, Some e) => Done ((None, 0%N), Some e)
  | (Some h, None) => match hi_topology h with Some t => Done ((tp_id t, tp_height t), None) | None => Panic end
  | (None, None) => Panic
  end.
(** peer_rpc_service.go:92-104 *)
Definition serve_ancestor (local : option (list block_item) * option goerr) : outcome (call_result bytes) :=
  match local with
  | (_, Some e) => Done (None, Some e)
  | (Some [i], None) => Done (bi_id i, None)
  | (Some _, None) => Done (None, Some (EOther "unexpected number of blocks returned"))
  | (None, None) => Panic
  end.
(** peer_rpc_service.go:113-119: the loop that encodes the blocks; a nil block is encoded too *)
Fixpoint encode_blocks (mar : option block -> option string) (items : list block_item) : option (list bytes) :=
  match items with
  | [] => Some []
  | i :: rest => match mar (bi_block i), encode_blocks mar rest with Some d, Some ds => Some (Some d :: ds) | _, _ => None end
  end.
(** peer_rpc_service.go:107-122 *)
Definition serve_blocks (mar : option block -> option string) (local : option (list block_item) * option goerr) : outcome (call_result (list bytes)) :=
  match local with
  | (_, Some e) => Done ([], Some e)
  | (Some items, None) => match encode_blocks mar items with Some ds => Done (ds, None) | None => Done ([], Some (EOther "marshal")) end
  | (None, None) => Panic
  end.
(** The channel between the two (go-libp2p-gorpc): [net] is a failure of the stream or of the context on the client side; an error of
    the service reaches the client as text only. *)
Definition over_stream {R} (zero : R) (net : option goerr) (served : outcome (call_result R)) : call_result R :=
  match net with
  | Some e => (zero, Some e)
  | None =>
    match served with
    | Done (r, None) => (r, None)
    | Done (_, Some _) => (zero, Some (EOther "remote error"))
    | Panic => (zero, Some (EOther "stream reset"))
    end
  end.

(** The four remote calls end to end: the peer's local node is [w] *)
Section remote.
Context (mar : option block -> option string) (unm : string -> option block) (w : wire) (net : option goerr).
Definition remote_chain_id : call_result bytes := client_chain_id (over_stream None net (serve_chain_id (snd (get_chain_id w)))).
Definition remote_head_block : call_result (bytes * N) := client_head_block (over_stream (None, 0%N) net (serve_head_block (snd (get_head_block w)))).
Definition remote_ancestor (parent : bytes) (height : N) : call_result bytes :=
  client_ancestor (over_stream None net (serve_ancestor (snd (get_blocks_by_height w parent height 1)))).
Definition remote_blocks (head : bytes) (start num : N) : call_result (list block) :=
  client_blocks unm num (over_stream [] net (serve_blocks mar (snd (get_blocks_by_height w head start num)))).
End remote.

(** A peer connection on top of the RPC clients: the answers to the requests of [PeerConn_Model] (the lines are cited there).  The
    local node, the peer's node, the network, the LIB provider, the version lookup and the applicator may behave differently at
    every request. *)
Section world.
Context (mar : option block -> option string) (unm : string -> option block) (mine theirs : nat -> wire) (net : nat -> option goerr)
  (lib : nat -> option topology) (version : nat -> string * option goerr) (app : nat -> block -> option goerr).
Definition world : environment := fun n q =>
  match q with
  | QVersion => version n
  | QLocalChainID _ => snd (get_chain_id (mine n))
  | QPeerChainID _ => remote_chain_id (theirs n) (net n)
  | QPeerHead _ => remote_head_block (theirs n) (net n)
  | QPeerAncestor _ head height => remote_ancestor (theirs n) (net n) head height
  | QLib => lib n
  | QLocalBlocks _ ids => prod_map (fmap (map (Some ∘ bi_height))) id (snd (get_blocks_by_id (mine n) ids))
  | QPeerBlocks _ head start num => remote_blocks mar unm (theirs n) (net n) head start num
  | QApply _ b => app n b
  end.
End world.
