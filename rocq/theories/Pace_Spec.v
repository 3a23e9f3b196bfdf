(** Specification for C124: what a session asks of its peer. *)
From Verif Require Import GoBase PeerConn_Model.

(** Requests that go over the network to the peer *)
Definition to_peer (q : req) : N :=
  match q with QPeerChainID _ | QPeerHead _ | QPeerAncestor _ _ _ | QPeerBlocks _ _ _ _ => 1 | _ => 0 end.
(** Blocks that a request asks the peer for *)
Definition blocks_of (q : req) : N := match q with QPeerBlocks _ _ _ num => num | _ => 0 end.

(** The sum over the requests in a log *)
Definition total (weight : req -> N) (log : list act) : N :=
  foldr (fun a n => match a with ACall (Ev q _) => weight q + n | _ => n end)%N 0%N log.
(** A handshake has succeeded *)
Definition greeted (log : list act) : Prop := AHandshake None ∈ log.
(** How many requests to the peer, and for how many blocks in all *)
Definition requests := total to_peer.
Definition blocks_requested := total blocks_of.
