(** Vocabulary for peer RPC (C61, C77). *)
From Verif Require Import GoBase ErrHandler_Spec LocalRpc_Model LocalRpc_Spec PeerRpc_Model.

(** Same content; the wire does not distinguish nil from empty byte strings. *)
Definition same_header (a b : header) : Prop :=
  h_height a = h_height b /\ str (h_previous a) = str (h_previous b) /\ h_timestamp a = h_timestamp b /\ str (h_signer a) = str (h_signer b).
Definition same_transaction (a b : transaction) : Prop := str (t_id a) = str (t_id b) /\ t_body a = t_body b.
Definition same_block (a b : block) : Prop :=
  str (b_id a) = str (b_id b) /\ option_Forall2 same_header (b_header a) (b_header b) /\ Forall2 same_transaction (b_txs a) (b_txs b) /\ b_body a = b_body b.
Definition empty_block : block := Block None None [] "".
(** What is assumed of proto.Marshal and proto.Unmarshal for blocks: decoding undoes encoding; a nil block is encoded as an empty one. *)
Definition codec_ok (mar : option block -> option string) (unm : string -> option block) : Prop :=
  forall b d, mar b = Some d -> exists b', unm d = Some b' /\ same_block (default empty_block b) b'.
(** The block store of the node behind [w] answers the request for [num] blocks from [start] below [head] with [items]. *)
Definition store_has (w : wire) (head : bytes) (start num : N) (items : list block_item) : Prop :=
  exists reply, reached w "block_store" (RStore (SGetByHeight head start num true false)) reply /\ w_store w reply = Some (WByHeight items).
(** The chain behind [w] has this chain id, and this head. *)
Definition chain_has_id (w : wire) (id : bytes) : Prop :=
  exists reply, reached w "chain" (RChain CGetChainId) reply /\ w_chain w reply = Some (VChainId id).
Definition chain_has_head (w : wire) (id : bytes) (height : N) : Prop :=
  exists reply h t, reached w "chain" (RChain CGetHeadInfo) reply /\ w_chain w reply = Some (VHeadInfo h) /\ hi_topology h = Some t /\ tp_id t = id /\ tp_height t = height.
(** The block store behind [w] does not know the block (it answers with an item of height 0). *)
Definition store_lacks (w : wire) (id : bytes) : Prop :=
  exists reply i, reached w "block_store" (RStore (SGetById [id] true false)) reply /\ w_store w reply = Some (WById [i]) /\ bi_height i = 0%N.
