(** Specification for C123: what peers can make the local services do. *)
From Verif Require Import GoBase LocalRpc_Model Serve_Model.

(** The requests to a local service that read, and those that hand something over *)
Definition reads (q : rpc_req) : Prop :=
  match q with
  | RChain CGetHeadInfo | RChain CGetChainId => True
  | RStore (SGetByHeight _ _ _ _ _) => True
  | _ => False
  end.
Definition submits (q : rpc_req) : Prop :=
  match q with RChain (CSubmitBlock _) | RChain (CSubmitTransaction _ _) => True | _ => False end.
(** Which service answers a request *)
Definition addressee (q : rpc_req) : string := match q with RChain _ => "chain" | RStore _ => "block_store" end.
(** [m] is the encoding of [q], addressed to its service *)
Definition encodes (w : wire) (q : rpc_req) (m : string * string) : Prop := fst m = addressee q /\ w_marshal w q = Some (snd m).
(** How many blocks a request to the block store asks for *)
Definition blocks_asked (q : rpc_req) : N :=
  match q with RStore (SGetByHeight _ _ num _ _) => num | RStore (SGetById ids _ _) => N.of_nat (length ids) | _ => 0 end.
(** Different requests have different encodings *)
Definition encoding_unambiguous (w : wire) : Prop :=
  forall q q' data, w_marshal w q = Some data -> w_marshal w q' = Some data -> q = q'.
(** The chain, asked for its head, answers with head info that has no topology *)
Definition headless (w : wire) : Prop :=
  exists data reply time, w_marshal w (RChain CGetHeadInfo) = Some data /\ (N.of_nat (Strings.String.length data) <= 536870912)%N /\
    w_mq w "chain" data = inl reply /\ w_chain w reply = Some (VHeadInfo (HeadInfo None time)).
(** A request that a peer can put on the wire: the number of blocks is a uint32 *)
Definition sendable (q : peer_req) : Prop := match q with PBlocks _ _ num => (num < 2 ^ 32)%N | _ => True end.
