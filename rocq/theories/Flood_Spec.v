(** A network of nodes in gossip mode.  Every node is the validator on top of the applicator and a chain service that works
    ([Relay_Spec]); what its chain announces is published (handleBlockBroadcast, node.go:223-249; PublishBlock, gossip.go:268-284).  The pubsub library between the
    nodes (go-libp2p-pubsub 0.9.3, not part of the repository) is taken as follows: a message is sent on to all peers linked to the
    node that publishes it, and to all peers linked to a node whose validator accepted it; links lose nothing; whatever
    has the id of a message seen before is dropped, be it received or published, unless pubsub has forgotten that it has seen it.  The id of a block message
    is the hash of its payload (generateMessageID, node.go:476-490, [Node_Model]); here it is the payload.  Ids may be forgotten at
    any time (pubsub keeps them for thirty seconds, node.go:63, 146). *)
From Verif Require Import GoBase Gossip_Model Gossip_Spec TxCache_Model TxCache_Proofs Watchdog_Model Applicator_Model Applicator_Spec Deliver_Spec Rest_Spec Honest_Spec Relay_Spec.

(** The nodes are numbered.  What is fixed for a node: its id, its chain's judgement, its options and its start. *)
Record setup := Setup { su_name : string; su_judge : blk -> option goerr; su_opts : ap_opts; su_root : gset string; su_head : N; su_lib : N; su_dur : Z; su_now : Z }.
(** A node: validators, applicator and chain, and the ids of the messages it has ever seen *)
Record pnode := PNode { pn_relay : relay; pn_seen : gset string }.
(** The nodes, and the messages on their way to a node *)
Record net := Net { nt_node : nat -> pnode; nt_air : list (nat * message) }.
Notation world_of p := (rl_world (pn_relay p)).
Inductive nlabel :=
| NLocal (n : nat) (l : wlabel)                 (* node [n]: the applicator, other callers, the chain, the clock *)
(* [again]: pubsub has forgotten that the node has seen the message *)
| NAnnounce (n j : nat) (again : bool)          (* node [n]: the chain announces a block *)
| NReturn (n i : nat)                           (* node [n]: a call of ApplyBlock returns to its validator *)
| NDeliver (a : nat) (lib : N) (again : bool)   (* a message arrives; [lib]: the last irreversible block its validator sees *)
| NStranger (n : nat) (m : message) (lib : N) (again : bool). (* node [n] gets a message from a peer outside *)

Section network.
Context (encode : block -> option string) (decode_block : string -> option block) (id_of_key : string -> outcome string).
Context (su : nat -> setup) (links : nat -> list nat).
Notation step_of n := (gstep decode_block id_of_key (su_name (su n)) (su_judge (su n)) (su_opts (su n))).
Definition upd (f : nat -> pnode) (n : nat) (p : pnode) : nat -> pnode := fun q => if decide (q = n) then p else f q.
(** The message goes to the peers linked to [n]. *)
Definition send (n : nat) (m : message) : list (nat * message) := map (fun q => (q, Message (m_data m) (m_from m) (su_name (su n)) (m_key m))) (links n).
(** ... if the validator has accepted it. *)
Definition sent_on (n : nat) (v : validation) : list (nat * message) :=
  match va_phase v with VOver _ r => if v_ok r then send n (va_msg v) else [] | VWait _ => [] end.
(** Node [n] gets a message. *)
Definition receive (x : net) (n : nat) (m : message) (lib : N) (again : bool) : option net :=
  let p := nt_node x n in
  if bool_decide (m_data m ∈ pn_seen p) && negb again then Some x
  else match step_of n (pn_relay p) (GMsg m lib) with
       | Some g => Some (Net (upd (nt_node x) n (PNode g ({[m_data m]} ∪ pn_seen p))) (nt_air x ++ match last (rl_vals g) with Some v => sent_on n v | None => [] end))
       | None => None
       end.
(** Node [n] publishes (gossip is enabled; a block that cannot be encoded is not published). *)
Definition publish_one (n : nat) (again : bool) (x : net) (data : string) : net :=
  let p := nt_node x n in
  if bool_decide (data ∈ pn_seen p) && negb again then x
  else Net (upd (nt_node x) n (PNode (pn_relay p) ({[data]} ∪ pn_seen p))) (nt_air x ++ send n (Message data (su_name (su n)) (su_name (su n)) "")).
Definition publish_block (x : net) (n : nat) (b : block) (again : bool) : net := foldl (publish_one n again) x (ps_sent (publish true (encode b) (PubState 0 [])).1).
Definition nstep (x : net) (lab : nlabel) : option net :=
  match lab with
  | NLocal n l =>
    match l with
    | WAnnounce _ => None
    | _ => (fun g => Net (upd (nt_node x) n (PNode g (pn_seen (nt_node x n)))) (nt_air x)) <$> step_of n (pn_relay (nt_node x n)) (GWorld l)
    end
  | NAnnounce n j again =>
    match w_owed (world_of (nt_node x n)) !! j, step_of n (pn_relay (nt_node x n)) (GWorld (WAnnounce j)) with
    | Some b, Some g => Some (publish_block (Net (upd (nt_node x) n (PNode g (pn_seen (nt_node x n)))) (nt_air x)) n b again)
    | _, _ => None
    end
  | NReturn n i =>
    match step_of n (pn_relay (nt_node x n)) (GBack i) with
    | Some g => Some (Net (upd (nt_node x) n (PNode g (pn_seen (nt_node x n)))) (nt_air x ++ match rl_vals g !! i with Some v => sent_on n v | None => [] end))
    | None => None
    end
  | NDeliver a lib again => match nt_air x !! a with Some (n, m) => receive (Net (nt_node x) (delete a (nt_air x))) n m lib again | None => None end
  | NStranger n m lib again => receive x n m lib again
  end.
(** A run in which [P] holds at each step *)
Fixpoint nruns (P : net -> nlabel -> Prop) (x : net) (sched : list nlabel) (x' : net) : Prop :=
  match sched with [] => x' = x | lab :: r => P x lab /\ exists x1, nstep x lab = Some x1 /\ nruns P x1 r x' end.
Definition net_init : net := Net (fun n => PNode (Relay [] (world_init (su_root (su n)) (su_head (su n)) (su_lib (su n)) (su_dur (su n)) (su_now (su n)))) ∅) [].

(** Nothing is left to do anywhere. *)
Definition quiet (x : net) : Prop :=
  nt_air x = [] /\ forall n, let p := nt_node x n in running (w_s (world_of p)) /\ wrest (world_of p) /\ forall i, step_of n (pn_relay p) (GBack i) = None.
(** A link between nodes of an area of the network *)
Definition within (area : nat -> Prop) (n q : nat) : Prop := area n /\ area q /\ q ∈ links n.

(** ** Conditions *)
Section conditions.
Context (parent : string) (h : N) (ks : list blk) (young : nat -> blk -> Prop).
(** A step of node [n]'s applicator and chain: the applicator stays open for the blocks [ks], those that are not young are handed
    over after their parents, and the last irreversible block stays below them. *)
Definition undisturbed (n : nat) (w : world) (l : wlabel) : Prop :=
  open (su_opts (su n)) (su_head (su n)) parent h ks w l /\
  (forall k, k ∈ ks -> young n k \/ after_parent (su_root (su n)) k w l) /\
  match l with WApp (LForkHeads i _) => forall fh x k, s_fh (w_s w) !! i = Some fh -> fh_lib fh = Some x -> k ∈ ks -> (x < k_height k)%N | _ => True end.
(** The deadline of no call of ApplyBlock with one of the blocks passes. *)
Definition patient (w : world) (l : wlabel) : Prop :=
  match l with WApp (LTimeout c) => forall cl, s_calls (w_s w) !! c = Some cl -> cl_blk cl ∉ ks | _ => True end.
(** When node [n] looks at a message: the validator sees a last irreversible block that is not above the blocks, and the fork
    watchdog does not object to them. *)
Definition heard (n : nat) (w : world) (m : message) (lib : N) : Prop :=
  (forall k, k ∈ ks -> (lib <= k_height k)%N) /\
  forall b, offered decode_block id_of_key (su_name (su n)) m lib = Some b ->
    undisturbed n w (WApp (LCall b)) /\ forall k, k ∈ ks -> b = k_src k -> forall wd e, wd_add (s_wd (w_s w)) b <> Done (wd, Some e).
(** [hasty]: deadlines may pass. *)
Definition well (hasty : bool) (x : net) (lab : nlabel) : Prop :=
  match lab with
  | NLocal n l => undisturbed n (world_of (nt_node x n)) l /\ (hasty = false -> patient (world_of (nt_node x n)) l)
  | NAnnounce n j _ => undisturbed n (world_of (nt_node x n)) (WAnnounce j)
  | NReturn _ _ => True
  | NDeliver a lib _ => forall n m, nt_air x !! a = Some (n, m) -> heard n (world_of (nt_node x n)) m lib
  | NStranger n m lib _ => heard n (world_of (nt_node x n)) m lib /\ forall q, m_from m = su_name (su q) -> m_data m ∈ pn_seen (nt_node x q)  (* signatures *)
  end.
(** The setting: all chains accept the blocks [ks] on top of [parent]; the encoding is faithful for them. *)
Record common : Prop := {
  co_dur : forall n, good_dur (su_dur (su n));
  co_valid : forall n, valid_blocks (su_judge (su n)) (su_opts (su n)) (su_root (su n)) (su_head (su n)) (su_lib (su n)) ks;
  co_chain : successors parent h ks;
  co_root : forall n, (parent ∈ su_root (su n) -> (h <= su_head (su n))%N) /\ forall k, k ∈ ks -> (su_lib (su n) < k_height k)%N /\ (k_id k ∈ su_root (su n) -> (k_height k <= su_head (su n))%N);
  co_code : forall k, k ∈ ks -> complete_block (k_src k) /\ exists data, encode (k_src k) = Some data /\ decode_block data = Some (k_src k) /\
    forall b, encode b = Some data -> str (b_id b) = k_id k;
  co_names : forall n q, su_name (su n) = su_name (su q) -> n = q }.
End conditions.
End network.
