(** Specification of the local RPC calls (C59, C60). *)
From Verif Require Import GoBase ErrHandler_Spec LocalRpc_Model.

(** The kind of an error is its innermost p2p error (none: an error that is no p2p error). *)
Definition kind_of {R} (res : called R) : option (option sentinel) := root <$> snd (snd res).

(** What became of a request on its way: [reached w svc q reply] - it was encoded, small enough, and answered with [reply] *)
Definition encoded (w : wire) (q : rpc_req) (data : string) : Prop :=
  w_marshal w q = Some data /\ (N.of_nat (Strings.String.length data) <= 536870912)%N.
Definition oversized (w : wire) (q : rpc_req) : Prop :=
  exists data, w_marshal w q = Some data /\ (536870912 < N.of_nat (Strings.String.length data))%N.
Definition reached (w : wire) (svc : string) (q : rpc_req) (reply : string) : Prop :=
  exists data, encoded w q data /\ w_mq w svc data = inl reply.
Definition failed (w : wire) (svc : string) (q : rpc_req) (e : goerr) : Prop :=
  exists data, encoded w q data /\ w_mq w svc data = inr e.

(** The meaning of a reply to a call: an answer, a refusal of a kind (ErrLocalRPC unless the chain's error code says more) or garbage *)
Inductive meaning (R : Type) := Answer (r : R) | Refusal (k : sentinel) | Garbage.
Arguments Answer {R} r.
Arguments Refusal {R} k.
Arguments Garbage {R}.

(** [classified w svc q m res]: the call [res] with request [q], whose replies have the meaning [m], is classified as documented. *)
Definition classified {R} (w : wire) (svc : string) (q : rpc_req) (m : string -> meaning R -> Prop) (res : called R) : Prop :=
  (* a response is returned exactly when the call succeeded and the reply is an answer; otherwise an error *)
  (forall r, snd res = (Some r, None) <-> exists reply, reached w svc q reply /\ m reply (Answer r)) /\
  (fst (snd res) = None <-> snd (snd res) <> None) /\
  (kind_of res = Some (Some ErrSerialization) <-> w_marshal w q = None) /\
  (kind_of res = Some None <-> oversized w q) /\
  (kind_of res = Some (Some ErrLocalRPCTimeout) <-> exists e, failed w svc q e /\ is_err e CtxDeadlineExceeded = true) /\
  (kind_of res = Some (Some ErrDeserialization) <-> exists reply, reached w svc q reply /\ m reply Garbage) /\
  (kind_of res = Some (Some ErrLocalRPC) <->
    (exists e, failed w svc q e /\ is_err e CtxDeadlineExceeded = false) \/ (exists reply, reached w svc q reply /\ m reply (Refusal ErrLocalRPC))) /\
  (forall k, k <> ErrSerialization -> k <> ErrLocalRPCTimeout -> k <> ErrDeserialization -> k <> ErrLocalRPC ->
    (kind_of res = Some (Some k) <-> exists reply, reached w svc q reply /\ m reply (Refusal k))).

(** The kind chosen by the first error detail that has a mapped code *)
Definition decides (m : error_code -> option sentinel) (ds : list detail) (k : sentinel) : Prop :=
  (exists l1 c l2, ds = l1 ++ Some c :: l2 /\ m c = Some k /\ forall c', Some c' ∈ l1 -> m c' = None) \/
  ((forall c, Some c ∈ ds -> m c = None) /\ k = ErrLocalRPC).
(** The documented error codes of block and transaction submission *)
Definition block_kind (c : error_code) : option sentinel :=
  match c with
  | ECUnknownPrevious => Some ErrUnknownPreviousBlock
  | ECPreIrreversibility => Some ErrBlockIrreversibility
  | ECBlockState => Some ErrBlockState
  | ECInvalidNonce | ECOther _ => None
  end.
Definition transaction_kind (c : error_code) : option sentinel :=
  match c with ECInvalidNonce => Some ErrInvalidNonce | ECUnknownPrevious | ECPreIrreversibility | ECBlockState | ECOther _ => None end.

(** Meanings of the replies, per call; [answer] says which variant answers the call and with what *)
Definition chain_meaning {R} (w : wire) (answer : chain_resp -> R -> Prop) (refusal : list detail -> sentinel -> Prop) (reply : string) (m : meaning R) : Prop :=
  match m with
  | Garbage => w_chain w reply = None
  | Answer r => exists v, w_chain w reply = Some v /\ answer v r
  | Refusal k => exists v, w_chain w reply = Some v /\ (forall r, ~ answer v r) /\
      match v with VError ds => refusal ds k | _ => k = ErrLocalRPC end
  end.
Definition store_meaning {R} (w : wire) (answer : store_resp -> R -> Prop) (reply : string) (m : meaning R) : Prop :=
  match m with
  | Garbage => w_store w reply = None
  | Answer r => exists v, w_store w reply = Some v /\ answer v r
  | Refusal k => exists v, w_store w reply = Some v /\ (forall r, ~ answer v r) /\ k = ErrLocalRPC
  end.
Definition plain_refusal (_ : list detail) (k : sentinel) : Prop := k = ErrLocalRPC.
