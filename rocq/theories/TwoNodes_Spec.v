(** Specification of C97: two nodes that run this program.  Here we say what the chain and the block store behind each of them answer; the
    rest is the code ([PeerRpc_Model.world]). *)
From Verif Require Import GoBase LocalRpc_Model LocalRpc_Spec PeerConn_Model PeerRpc_Model PeerRpc_Spec Catchup_Spec.

Section nodes.
Context (c : onechain) (mar : option block -> option string).
(** A record of the block store for the block at height [h] *)
Definition item_at (h : N) (i : block_item) : Prop :=
  str (bi_id i) = str (id_at c h) /\ exists b, bi_block i = Some b /\ is_block c h b /\ mar (Some b) <> None.
(** The node behind [w] has the chain up to height [h]: this is its head, and its block store finds every part of the chain below every block
    of it. *)
Definition has_chain (w : wire) (h : N) : Prop :=
  (exists id, chain_has_id w id /\ str id = str (oc_id c)) /\ chain_has_head w (id_at c h) h /\
  forall k start n, (k <= h)%N -> (start + n <= k + 1)%N -> (n < two32)%N ->
    exists items, store_has w (id_at c k) start n items /\ Forall2 (fun j => item_at (start + N.of_nat j)) (seq 0 (N.to_nat n)) items.
(** Our own node behind [w] is on this chain and has the blocks up to height [h]; its block store reports height 0 for a block of the chain
    (up to the height [p]) that it does not know. *)
Definition has_blocks (w : wire) (p h : N) : Prop :=
  (exists id, chain_has_id w id /\ str id = str (oc_id c)) /\
  forall k, (k <= p)%N -> exists reply i, reached w "block_store" (RStore (SGetById [id_at c k] true false)) reply /\ w_store w reply = Some (WById [i]) /\
    bi_height i = (if bool_decide (k <= h)%N then k else 0%N).
(** The surroundings of our session in the state [w]: their node [theirs] has the chain up to [pl_peer w], ours [mine] up to [pl_head w], the
    network works, and what the session asks within our own process is answered honestly. *)
Definition fits (w : place) (mine theirs : wire) (net : option goerr) (lib : option topology) (version : string * option goerr) (app : block -> option goerr) : Prop :=
  has_chain theirs (pl_peer w) /\ has_blocks mine (pl_peer w) (pl_head w) /\ net = None /\
  answered c w QLib lib /\ answered c w QVersion version /\ forall t b, answered c w (QApply t b) (app b).
End nodes.

(** The requests in a log, oldest first *)
Fixpoint asked (log : list act) : list req :=
  match log with [] => [] | ACall (Ev q _) :: l => asked l ++ [q] | _ :: l => asked l end.
(** [w n] is the state when the [n]-th request is answered; between two requests others may act. *)
Definition keeps_pace (c : onechain) (policy : N -> N) (meanwhile : place -> place -> Prop) (w : nat -> place) (reqs : list req) : Prop :=
  forall n q, reqs !! n = Some q -> w (S n) = effect c policy (w n) q \/ meanwhile (effect c policy (w n) q) (w (S n)).
