(** Model of the serving side of peer RPC (internal/rpc/peer_rpc_service.go) together with the calls to the local node that it makes
    (internal/rpc/koinos_rpc.go): the requests of remote peers, one after the other, and the messages that go to the local services.
    Requests that are served at the same time have no state in common, so their messages interleave like requests served in some
    order: any list of requests is considered. *)
From Verif Require Import GoBase LocalRpc_Model PeerConn_Model PeerRpc_Model.

(** The four methods that connection_manager.go:104 registers with the RPC server, and their arguments: peer_rpc_service.go:15-16, 24-25,
    34-37, 45-49.  NumBlocks is a uint32: [N] below 2^32 in the specification. *)
Inductive peer_req := PChainID | PHeadBlock | PAncestor (parent : bytes) (height : N) | PBlocks (head : bytes) (start num : N).
(** The response structs: peer_rpc_service.go:19-21, 28-31, 40-42, 52-54 *)
Inductive peer_answer := AChainID (id : bytes) | AHeadBlock (id : bytes) (height : N) | AAncestor (id : bytes) | ABlocks (bs : list bytes).

(** The response or the error that goes back to the peer *)
Definition reply_of {R} (f : R -> peer_answer) (o : outcome (call_result R)) : outcome (peer_answer + goerr) :=
  match o with
  | Panic => Panic
  | Done (r, None) => Done (inl (f r))
  | Done (_, Some e) => Done (inr e)
  end.
(** One request: the messages to the local services, and the reply.  peer_rpc_service.go:69-77, 80-89, 92-104, 107-122 *)
Definition serve_one (mar : option block -> option string) (w : wire) (q : peer_req) : list (string * string) * outcome (peer_answer + goerr) :=
  match q with
  | PChainID => let r := get_chain_id w in (fst r, reply_of AChainID (serve_chain_id (snd r)))
  | PHeadBlock => let r := get_head_block w in (fst r, reply_of (fun p => AHeadBlock (fst p) (snd p)) (serve_head_block (snd r)))
  | PAncestor parent height => let r := get_blocks_by_height w parent height 1 in (fst r, reply_of AAncestor (serve_ancestor (snd r)))
  | PBlocks head start num => let r := get_blocks_by_height w head start num in (fst r, reply_of ABlocks (serve_blocks mar (snd r)))
  end.

(** A request, who sent it, and how the local services are at the time *)
Record visit := Visit { v_peer : string; v_wire : wire; v_req : peer_req }.
(** A whole life of the service: the messages to the local services in order, and the replies in order.  A panic in a method ends
    the process: nothing after it is served. *)
Fixpoint serve_all (mar : option block -> option string) (vs : list visit) : list (string * string) * list (outcome (peer_answer + goerr)) :=
  match vs with
  | [] => ([], [])
  | v :: rest =>
    match serve_one mar (v_wire v) (v_req v) with
    | (ms, Panic) => (ms, [Panic])
    | (ms, Done a) => let '(ms', rs) := serve_all mar rest in (ms ++ ms', Done a :: rs)
    end
  end.
