(** A sync round together with the applicator it hands its blocks to and a chain service that works: peer_connection.go:92-191
    (the program [request_sync] of [PeerConn_Model]) on top of [Honest_Spec].  This is no new model of code: it connects the
    request [QApply] of the round (peer_connection.go:165) with the call of ApplyBlock in the applicator's model
    (applicator.go:99-116). *)
From Verif Require Import GoBase PeerConn_Model TxCache_Model TxCache_Proofs Watchdog_Model Applicator_Model Applicator_Spec Deliver_Spec Rest_Spec Honest_Spec.

(** What is left of the round, the number of the call of ApplyBlock it waits for, and the applicator with the chain. *)
Record round := Round { rd_prog : prog (option goerr * bool); rd_wait : option nat; rd_world : world }.
Inductive rlabel :=
| RWorld (lab : wlabel)                      (* anybody else: the applicator, other callers, the chain, the clock *)
| RAsk (q : req) (r : resp q)                (* the round gets the answer to a request that is not ApplyBlock *)
| RHand (b : block)                          (* it calls ApplyBlock *)
| RRefused (b : block)                       (* it calls ApplyBlock, and the fork watchdog refuses the block (applicator.go:100-103) *)
| RBack                                      (* ApplyBlock returns *)
| RGiveUp.                                   (* the deadline of ApplyBlock passes (applicator.go:113-114) *)

Section composed.
Context (judge : blk -> option goerr) (o : ap_opts).
Inductive rstep : round -> rlabel -> round -> Prop :=
| rs_world p wait w lab w' : wstep judge o w lab = Some w' -> (forall c, wait = Some c -> lab <> WApp (LTimeout c)) ->
    rstep (Round p wait w) (RWorld lab) (Round p wait w')
| rs_ask q k r w : (forall t b, q <> QApply t b) -> rstep (Round (PeerConn_Model.Call q k) None w) (RAsk q r) (Round (k r) None w)
| rs_hand t b k w w' : wstep judge o w (WApp (LCall b)) = Some w' -> length (s_calls (w_s w')) = S (length (s_calls (w_s w))) ->
    rstep (Round (PeerConn_Model.Call (QApply t b) k) None w) (RHand b) (Round (PeerConn_Model.Call (QApply t b) k) (Some (length (s_calls (w_s w)))) w')
| rs_refused t b k w w' e : wstep judge o w (WApp (LCall b)) = Some w' -> s_log (w_s w') = OReturn None b (Some e) :: s_log (w_s w) ->
    rstep (Round (PeerConn_Model.Call (QApply t b) k) None w) (RRefused b) (Round (k (Some e)) None w')
| rs_back t b k c cl res w : s_calls (w_s w) !! c = Some cl -> cl_phase cl = CRet res ->
    rstep (Round (PeerConn_Model.Call (QApply t b) k) (Some c) w) RBack (Round (k res) None w)
| rs_give_up t b k c w w' : wstep judge o w (WApp (LTimeout c)) = Some w' ->
    rstep (Round (PeerConn_Model.Call (QApply t b) k) (Some c) w) RGiveUp (Round (PeerConn_Model.Call (QApply t b) k) (Some c) w').
(** A run whose steps all satisfy [P]. *)
Inductive rruns (P : round -> rlabel -> Prop) : round -> list rlabel -> round -> Prop :=
| rr_nil r : rruns P r [] r
| rr_cons r lab r1 rest r2 : P r lab -> rstep r lab r1 -> rruns P r1 rest r2 -> rruns P r (lab :: rest) r2.
End composed.

(** ** An honest peer on one chain *)
(** The blocks of the chain by height; the links and the heights are right. *)
Definition is_chain (ch : N -> blk) : Prop :=
  forall h, k_height (ch h) = h /\ k_prev (ch (h + 1)%N) = k_id (ch h) /\ b_header (k_src (ch h)) = Some (k_hdr (ch h)).
(** The blocks at the heights [start], [start + 1], ..., [start + n - 1] *)
Definition stretch (ch : N -> blk) (start : N) (n : nat) : list blk := map (fun i => ch (start + N.of_nat i)%N) (seq 0 n).
(** Right answers: the peer's head is at height [peer], the last irreversible block at [lib]; the block store knows the peer's
    head ([known]: its height) or not (0). *)
Definition honest_answer (ch : N -> blk) (peer lib known : N) (q : req) : resp q -> Prop :=
  match q return resp q -> Prop with
  | QPeerHead _ => fun r => r = (b_id (k_src (ch peer)), peer, None)
  | QPeerAncestor _ head h => fun r => head = b_id (k_src (ch peer)) -> (h <= peer)%N -> exists id, r = (id, None) /\ str id = k_id (ch h)
  | QLib => fun r => exists t, r = Some t /\ tp_height t = lib /\ str (tp_id t) = k_id (ch lib)
  | QLocalBlocks _ _ => fun r => r = (Some [Some known], None)
  | QPeerBlocks _ head start n => fun r => head = b_id (k_src (ch peer)) -> (start + n <= peer + 1)%N -> r = (map k_src (stretch ch start (N.to_nat n)), None)
  | _ => fun _ => True
  end.
(** How many blocks the round asks for: the way to the peer's head, at most a batch. *)
Definition asked_for (po : pc_opts) (peer lib : N) : nat := N.to_nat (N.min (po_batch po) (peer - lib)).

(** The round has to wait for the others: it is over, or its call of ApplyBlock has not returned. *)
Definition round_waits (r : round) : Prop :=
  match rd_prog r with
  | PeerConn_Model.Call _ _ => exists c, rd_wait r = Some c /\ forall cl res, s_calls (w_s (rd_world r)) !! c = Some cl -> cl_phase cl <> CRet res
  | _ => True
  end.

(** ** Conditions *)
Section conditions.
Context (o : ap_opts) (root : gset string) (head : N) (ch : N -> blk) (peer lib known : N) (ks : list blk) (young : blk -> Prop).
(** Irreversibility is said to reach only such of the blocks [ks] as the chain has said it has. *)
Definition said_before (w : world) (lab : wlabel) : Prop :=
  match lab with
  | WApp (LForkHeads i _) => forall fh l k, s_fh (w_s w) !! i = Some fh -> fh_lib fh = Some l -> k ∈ ks -> (k_height k <= l)%N -> has_block root (s_log (w_s w)) (k_id k)
  | _ => True
  end.
(** The peer and the node's own services give right answers; what others do leaves the applicator open for the blocks [ks]
    (see [welcome]), and they hand over those that are not young only after the chain has announced the parent; none of them
    is said to be irreversible before the chain has said that it has it; when the round
    hands over a block, it is within the height window and not from the future; the fork watchdog does not object, and the
    deadline of ApplyBlock does not pass. *)
Definition fine (r : round) (lab : rlabel) : Prop :=
  match lab with
  | RWorld l => wu64 l /\ wcomplete l /\ welcome o head (k_id (ch lib)) lib ks (rd_world r) l /\
      said_before (rd_world r) l /\ forall k, k ∈ ks -> young k \/ after_parent root k (rd_world r) l
  | RAsk q a => honest_answer ch peer lib known q a
  | RHand b => forall hd, b_header b = Some hd -> (h_height hd <= max_accepted head (s_log (w_s (rd_world r))) + ao_max_delta o)%N /\
      (block_instant (h_timestamp hd) <= s_now (w_s (rd_world r)) + ao_delay_threshold o)%Z
  | RBack => True
  | RRefused _ | RGiveUp => False
  end.
End conditions.

(** ** The setting *)
(** The peer's chain extends the last irreversible block [ch lib] up to height [peer]; its next blocks are valid, and those
    that the chain had at the start ([root]) are at or below the head of that time. *)
Record honest_peer (judge : blk -> option goerr) (o : ap_opts) (po : pc_opts) (root : gset string) (head lib0 : N) (ch : N -> blk) (peer lib : N) : Prop := {
  hp_chain : is_chain ch;
  hp_ids : forall h h', k_id (ch h) = k_id (ch h') -> h = h';
  hp_ahead : (lib < peer)%N;
  hp_low : (peer + ao_max_delta o + 1 < two64)%N /\ (head + ao_max_delta o + 1 < two64)%N;
  hp_opts : (0 < po_batch po < two32)%N /\ (ao_max_pending o < 2 ^ 63)%N;
  hp_valid : forall k, k ∈ stretch ch (lib + 1) (asked_for po peer lib) -> judge k = None /\ u64_block (k_src k) /\ (k_id k ∈ root -> (k_height k <= head)%N);
  hp_lib : (lib0 <= lib)%N /\ (k_id (ch lib) ∈ root -> (lib <= head)%N) }.
(** The node before the round, reached by [sched]: the applicator was open for the blocks, the chain has the last irreversible
    block and has said so of each of the blocks known to be irreversible, and blocks that are not young were handed over after
    their parents. *)
Record node_ready (judge : blk -> option goerr) (o : ap_opts) (root : gset string) (head lib0 : N) (dur now : Z) (ch : N -> blk) (lib : N) (ks : list blk) (young : blk -> Prop)
    (sched : list wlabel) (w : world) : Prop := {
  nr_dur : good_dur dur;
  nr_reached : wreaches judge o root head lib0 dur now sched w;
  nr_open : along judge o (welcome o head (k_id (ch lib)) lib ks) (world_init root head lib0 dur now) sched;
  nr_lib : has_block root (s_log (w_s w)) (k_id (ch lib));
  nr_irreversible : forall k, k ∈ ks -> irreversible lib0 (s_log (w_s w)) (k_height k) -> has_block root (s_log (w_s w)) (k_id k);
  nr_order : forall k, k ∈ ks -> young k \/ along judge o (after_parent root k) (world_init root head lib0 dur now) sched }.
