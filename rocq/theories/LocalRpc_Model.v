(** Model of internal/rpc/koinos_rpc.go: the calls to the local node over the message queue.
    proto.Marshal, proto.Unmarshal and the message queue are arbitrary functions ([wire]). *)

From Verif Require Import GoBase.


(** ** 1. Messages (koinos-proto-golang), with the fields this repository sets or reads *)
Inductive chain_req :=
| CGetHeadInfo | CSubmitBlock (b : option block) | CSubmitTransaction (t : option transaction) (bcast : bool)
| CGetChainId | CGetForkHeads | CReserved.
Inductive store_req :=
| SGetById (ids : list bytes) (ret_block ret_receipt : bool)
| SGetByHeight (head : bytes) (start num : N) (ret_block ret_receipt : bool)
| SReserved.
Inductive rpc_req := RChain (q : chain_req) | RStore (q : store_req).

(** chain.ErrorCode: the codes of the two error maps, and all others *)
Inductive error_code := ECUnknownPrevious | ECPreIrreversibility | ECBlockState | ECInvalidNonce | ECOther (n : Z).
(** One entry of ErrorStatus.Details: [None] if UnmarshalTo(&chain.ErrorDetails) fails on it *)
Definition detail := option error_code.

Record head_info := HeadInfo { hi_topology : option topology; hi_head_time : N }.
Record block_item := BlockItem { bi_id : bytes; bi_height : N; bi_block : option block }.
(** ChainResponse.Response; [VOther] is any other variant, or none *)
Inductive chain_resp :=
| VHeadInfo (h : head_info) | VSubmitBlock | VSubmitTransaction | VChainId (id : bytes)
| VForkHeads (lib : option topology) (heads : list topology) | VError (details : list detail) | VOther.
(** BlockStoreResponse.Response *)
Inductive store_resp := WById (items : list block_item) | WByHeight (items : list block_item) | WError | WOther.

(** ** 2. What the calls depend on *)
Record wire := Wire {
  w_marshal : rpc_req -> option string;                    (* proto.Marshal; None: error *)
  w_mq : string -> string -> string + goerr;               (* mq.RPC(ctx, _, service, data) *)
  w_chain : string -> option chain_resp;                   (* proto.Unmarshal into ChainResponse *)
  w_store : string -> option store_resp }.                 (* proto.Unmarshal into BlockStoreResponse *)

(** The messages handed to the queue (service, data) and the result *)
Definition called (R : Type) : Type := list (string * string) * (option R * option goerr).

(** koinos_rpc.go:23-30 *)
Definition chain_rpc := "chain".
Definition block_store_rpc := "block_store".
Definition max_message_size : N := 536870912.
(** koinos_rpc.go:32-40 *)
Definition block_error_map (c : error_code) : option sentinel :=
  match c with
  | ECUnknownPrevious => Some ErrUnknownPreviousBlock
  | ECPreIrreversibility => Some ErrBlockIrreversibility
  | ECBlockState => Some ErrBlockState
  | _ => None
  end.
Definition transaction_error_map (c : error_code) : option sentinel :=
  match c with ECInvalidNonce => Some ErrInvalidNonce | _ => None end.
(** koinos_rpc.go:54-59 *)
Definition check_message_size (b : string) : option goerr :=
  if (max_message_size <? N.of_nat (Strings.String.length b))%N then Some (EOther "message exceeds maximum size") else None.

Section calls.
Context (w : wire).

(** The part common to all calls up to the reply: koinos_rpc.go:69-86, 118-135, 176-193, 240-257, 293-310, 340-357, 387-404,
    446-463, 483-500.  [k] is what the call does with the reply. *)
Definition request {R} (service : string) (q : rpc_req) (k : string -> option R * option goerr) : called R :=
  match w_marshal w q with
  | None => ([], (None, Some (EWrap (ESent ErrSerialization))))
  | Some data =>
    match check_message_size data with
    | Some e => ([], (None, Some e))
    | None =>
      ([(service, data)],
       match w_mq w service data with
       | inr e => (None, Some (EWrap (ESent (if is_err e CtxDeadlineExceeded then ErrLocalRPCTimeout else ErrLocalRPC))))
       | inl reply => k reply
       end)
    end
  end.
Definition undecodable {R} : option R * option goerr := (None, Some (EWrap (ESent ErrDeserialization))).
Definition local_error {R} : option R * option goerr := (None, Some (EWrap (ESent ErrLocalRPC))).

(** koinos_rpc.go:62-106 *)
Definition get_head_block : called head_info :=
  request chain_rpc (RChain CGetHeadInfo) (fun reply =>
    match w_chain w reply with
    | None => undecodable
    | Some (VHeadInfo h) => (Some h, None)
    | Some (VError _) => local_error
    | Some _ => local_error
    end).
(** The loop over the error details, koinos_rpc.go:149-156, 207-214 *)
Fixpoint mapped (m : error_code -> option sentinel) (ds : list detail) : option sentinel :=
  match ds with
  | [] => None
  | Some c :: r => match m c with Some s => Some s | None => mapped m r end
  | None :: r => mapped m r
  end.
(** koinos_rpc.go:109-163 *)
Definition apply_block (b : option block) : called unit :=
  request chain_rpc (RChain (CSubmitBlock b)) (fun reply =>
    match w_chain w reply with
    | None => undecodable
    | Some VSubmitBlock => (Some tt, None)
    | Some (VError ds) => match mapped block_error_map ds with Some s => (None, Some (ESent s)) | None => local_error end
    | Some _ => local_error
    end).
(** koinos_rpc.go:166-221 *)
Definition apply_transaction (t : option transaction) : called unit :=
  request chain_rpc (RChain (CSubmitTransaction t true)) (fun reply =>
    match w_chain w reply with
    | None => undecodable
    | Some VSubmitTransaction => (Some tt, None)
    | Some (VError ds) => match mapped transaction_error_map ds with Some s => (None, Some (ESent s)) | None => local_error end
    | Some _ => local_error
    end).
(** koinos_rpc.go:224-277 *)
Definition get_blocks_by_id (ids : list bytes) : called (list block_item) :=
  request block_store_rpc (RStore (SGetById ids true false)) (fun reply =>
    match w_store w reply with
    | None => undecodable
    | Some (WById l) => (Some l, None)
    | Some WError => local_error
    | Some _ => local_error
    end).
(** koinos_rpc.go:280-330 *)
Definition get_blocks_by_height (head : bytes) (height num : N) : called (list block_item) :=
  request block_store_rpc (RStore (SGetByHeight head height num true false)) (fun reply =>
    match w_store w reply with
    | None => undecodable
    | Some (WByHeight l) => (Some l, None)
    | Some WError => local_error
    | Some _ => local_error
    end).
(** koinos_rpc.go:333-377 *)
Definition get_chain_id : called bytes :=
  request chain_rpc (RChain CGetChainId) (fun reply =>
    match w_chain w reply with
    | None => undecodable
    | Some (VChainId id) => (Some id, None)
    | Some (VError _) => local_error
    | Some _ => local_error
    end).
(** koinos_rpc.go:380-424 *)
Definition get_fork_heads : called (option topology * list topology) :=
  request chain_rpc (RChain CGetForkHeads) (fun reply =>
    match w_chain w reply with
    | None => undecodable
    | Some (VForkHeads lib heads) => (Some (lib, heads), None)
    | Some (VError _) => local_error
    | Some _ => local_error
    end).
(** koinos_rpc.go:439-472, 476-509; (true, nil) is [Some tt] *)
Definition is_connected_to_block_store : called unit :=
  request block_store_rpc (RStore SReserved) (fun reply => match w_store w reply with None => undecodable | Some _ => (Some tt, None) end).
Definition is_connected_to_chain : called unit :=
  request chain_rpc (RChain CReserved) (fun reply => match w_chain w reply with None => undecodable | Some _ => (Some tt, None) end).
End calls.
