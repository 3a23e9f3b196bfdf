(** Gossip of blocks and sync sessions at the same time, on top of one applicator and a chain service that works: the validators
    of [Relay_Spec] (gossip.go:310-377) and the session of [Follow_Spec] (peer_connection.go:34-247).  Both call the same
    ApplyBlock (applicator.go:99-116), and both look at the last irreversible block that the node has stored (gossip.go:361,
    peer_connection.go:94, node.go:280, 368-370).  This is no new model of code: it connects the two. *)
From Verif Require Import GoBase Gossip_Model Gossip_Spec PeerConn_Model Catchup_Spec TxCache_Model TxCache_Proofs Watchdog_Model Applicator_Model Applicator_Spec
  Deliver_Spec Rest_Spec Honest_Spec Round_Spec Relay_Spec Flood_Spec Follow_Spec.

(** The validators of all messages so far, and the session with the applicator and the chain *)
Record both := Both { bo_vals : list validation; bo_comp : comp }.
Inductive blabel :=
| BMsg (m : message)     (* a message arrives, and its validator runs until it is over or waits *)
| BBack (i : nat)        (* the call of ApplyBlock of validator [i] returns, and the validator ends *)
| BComp (lab : clabel).  (* the session, the applicator, other callers, the chain, the clock *)
Definition with_world (c : comp) (w : world) : comp := Comp (cp_ses c) (cp_wait c) w (cp_peer c) (cp_lib c).

Section composed.
Context (decode_block : string -> option block) (id_of_key : string -> outcome string) (me : string).
Context (judge : blk -> option goerr) (o : ap_opts) (po : pc_opts) (id : string).
Inductive bstep : both -> blabel -> both -> Prop :=
| bs_msg vs c m vs' w' : gstep decode_block id_of_key me judge o (Relay vs (cp_world c)) (GMsg m (cp_lib c)) = Some (Relay vs' w') ->
    bstep (Both vs c) (BMsg m) (Both vs' (with_world c w'))
| bs_back vs c i vs' w' : gstep decode_block id_of_key me judge o (Relay vs (cp_world c)) (GBack i) = Some (Relay vs' w') ->
    bstep (Both vs c) (BBack i) (Both vs' (with_world c w'))
| bs_comp vs c lab c' : cstep judge o po id c lab c' -> bstep (Both vs c) (BComp lab) (Both vs c').
Inductive bruns (P : both -> blabel -> both -> Prop) : both -> list blabel -> both -> Prop :=
| br_nil x : bruns P x [] x
| br_cons x lab x1 rest x2 : bstep x lab x1 -> P x lab x1 -> bruns P x1 rest x2 -> bruns P x (lab :: rest) x2.

(** The node holds something against the peer [id]: a validator reports it, or the session with it has failed or has a
    report to make. *)
Definition charged (x : both) : Prop :=
  (exists v call r e, v ∈ bo_vals x /\ va_phase v = VOver call r /\ (id, e) ∈ v_reported r) \/
  (exists a, a ∈ ss_log (cp_ses (bo_comp x)) /\ failure a) \/ ss_pend (cp_ses (bo_comp x)) <> [].

(** ** A peer that behaves, and a node that works *)
Section conditions.
Context (root : gset string) (head lib top : N) (cid : bytes) (ch : N -> blk) (young : blk -> Prop).
Notation ks := (the_blocks lib top ch).
Notation carries := (carries decode_block me).
(** The checkpoints are blocks of the chain that the peer has. *)
Definition checked (c : comp) : Prop := Forall (fun cp => cp_id cp = b_id (k_src (ch (cp_height cp))) /\ (cp_height cp <= cp_peer c)%N) (po_checkpoints po).
(** What the session, the chain and others do is as in [Follow_Spec]; a session begins when the peer has the blocks of the
    checkpoints; no deadline passes for a call with a block of the chain.  The peer passes on blocks of the chain only, and
    those that were made by this node, but nothing else; what messages of all peers bring is as what others hand over, and the
    fork watchdog does not object to the blocks of the chain.  When ApplyBlock returns to the validator of a block of the chain,
    that block is above the last irreversible one. *)
Definition behaved (x : both) (lab : blabel) (x' : both) : Prop :=
  let c := bo_comp x in
  match lab with
  | BComp l => nice o po root head lib top cid ch young c l (bo_comp x') /\
      match l with CWorld wl => patient ks (cp_world c) wl | CConnect => checked c | _ => True end
  | BMsg m => (m_received m = id -> exists k, k ∈ ks /\ decode_block (m_data m) = Some (k_src k) /\ complete_block (k_src k)) /\
      forall b, offered decode_block id_of_key me m (cp_lib c) = Some b ->
        nice o po root head lib top cid ch young c (CWorld (WApp (LCall b))) (bo_comp x') /\
        forall k, k ∈ ks -> b = k_src k -> forall wd e, wd_add (s_wd (w_s (cp_world c))) b <> Done (wd, Some e)
  | BBack i => forall v k, bo_vals x !! i = Some v -> k ∈ ks -> carries (va_msg v) k -> ~ irreversible lib (s_log (w_s (cp_world c))) (k_height k)
  end.
Definition both_init (dur now : Z) (peer : N) : both := Both [] (comp_init po root head lib dur now peer).
End conditions.
End composed.

(** How often the goroutine of the session ran *)
Fixpoint ran (l : list blabel) : nat := match l with [] => 0 | BComp lab :: r => session_steps [lab] + ran r | _ :: r => ran r end.
