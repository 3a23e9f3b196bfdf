(** The node as a whole, as far as a peer meets it: the validators of block messages and the sessions with the applicator and the
    chain ([Both_Spec]), and the error handler, the connection manager and the loop that closes connections, with the
    network's connections ([Cutoff_Model]).  They are connected by the reports of errors (the channel peerErrorChan: node.go:83,
    gossip.go:343-347, peer_connection.go:209-213, error_handler.go:244-245).  This is no new model of code. *)
From Verif Require Import GoBase Gossip_Model PeerConn_Model Catchup_Spec Applicator_Model Applicator_Spec Honest_Spec Round_Spec Relay_Spec Follow_Spec Both_Spec
  ErrHandler_Model ErrHandler_Spec EhSys_Model EhSys_Spec ConnMgr_Model Asm_Model Cutoff_Model Cutoff_Spec.

Record whole := Whole { wh_both : both; wh_net : net }.
Inductive wholelabel := HBoth (l : blabel) | HNet (l : nlabel).
Section composed.
Context (decode_block : string -> option block) (id_of_key : string -> outcome string) (me : string).
Context (judge : blk -> option goerr) (o : ap_opts) (po : pc_opts) (id : string) (decay : N -> Z -> N) (eo : eh_opts).
(** An error of the peer [id] is reported only when a validator or the session has something against it.  Errors of other
    peers may be reported at any time. *)
Inductive hstep : whole -> wholelabel -> whole -> Prop :=
| hs_both x s l x' : bstep decode_block id_of_key me judge o po id x l x' -> hstep (Whole x s) (HBoth l) (Whole x' s)
| hs_net x s l s' : nt_step decay eo s l = Some s' -> (forall e, l = NAs (AEh (XReport id e)) -> charged id x) -> hstep (Whole x s) (HNet l) (Whole x s').
(** [P] holds at each step of the first part. *)
Inductive hruns (P : both -> blabel -> both -> Prop) : whole -> list wholelabel -> whole -> Prop :=
| hr_nil n : hruns P n [] n
| hr_cons n lab n1 rest n2 : hstep n lab n1 -> match lab with HBoth l => P (wh_both n) l (wh_both n1) | _ => True end -> hruns P n1 rest n2 -> hruns P n (lab :: rest) n2.
End composed.
(** Nobody but the peer [id] was charged with an error at the host of [a]. *)
Definition host_to_itself (id : string) (a : maddr) (s : ehs) : Prop :=
  forall now q a' e, EvError now q (Some a') e ∈ served_events s -> q <> id -> ma_first a' <> ma_first a.
