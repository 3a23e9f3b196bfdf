(** A session with an honest peer, round after round, on top of the applicator and a chain service that works: the session of
    [PeerConn_Model] (peer_connection.go:34-247) whose calls of ApplyBlock (line 165) are calls in the applicator's model
    (applicator.go:99-116), and whose last irreversible block (line 94) is what the node stored (node.go:280, 368-370).  This is
    no new model of code: it connects the two. *)
From Verif Require Import GoBase PeerConn_Model Catchup_Spec TxCache_Model TxCache_Proofs Watchdog_Model Applicator_Model Applicator_Spec Deliver_Spec Rest_Spec Honest_Spec Round_Spec.

(** The session, the number of the call of ApplyBlock that it waits for, the applicator with the chain, the height of the
    peer's head, and the height of the last irreversible block that the node has stored. *)
Record comp := Comp { cp_ses : session; cp_wait : option nat; cp_world : world; cp_peer : N; cp_lib : N }.
Inductive clabel :=
| CWorld (lab : wlabel)                      (* the applicator, other callers, the chain, the clock *)
| CPeer (p : N)                              (* the peer's chain changes *)
| CLib (l : N)                               (* the node stores another last irreversible block (node.go:280) *)
| CConnect                                   (* the session is given up, and a new one begins *)
| COwn (lab : slabel)                        (* a step of the session that is no request *)
| CAsk (q : req) (r : resp q)                (* the session gets the answer to a request that is not ApplyBlock *)
| CHand (b : block)                          (* it calls ApplyBlock *)
| CRefused (b : block)                       (* it calls ApplyBlock, and the fork watchdog refuses the block *)
| CBack                                      (* ApplyBlock returns *)
| CGiveUp.                                   (* the deadline of ApplyBlock passes *)

(** The request that the session makes next, or waits for *)
Definition request (s : session) : option req :=
  match ss_ctl s with HsRun (PeerConn_Model.Call q _) => Some q | SyRun (PeerConn_Model.Call q _) => Some q | _ => None end.

Section composed.
Context (judge : blk -> option goerr) (o : ap_opts) (po : pc_opts) (id : string).
Inductive cstep : comp -> clabel -> comp -> Prop :=
| cs_world s wait w p l lab w' : wstep judge o w lab = Some w' -> (forall c, wait = Some c -> lab <> WApp (LTimeout c)) ->
    cstep (Comp s wait w p l) (CWorld lab) (Comp s wait w' p l)
| cs_peer s wait w p l p' : cstep (Comp s wait w p l) (CPeer p') (Comp s wait w p' l)
| cs_lib s wait w p l l' : cstep (Comp s wait w p l) (CLib l') (Comp s wait w p l')
| cs_connect s wait w p l : cstep (Comp s wait w p l) CConnect (Comp (session_init po) None w p l)
| cs_own s wait w p l lab s' env : request s = None \/ (forall f, lab <> MStep f) -> sstep po id env s lab = Some s' ->
    cstep (Comp s wait w p l) (COwn lab) (Comp s' wait w p l)
| cs_ask s w p l q (ans : forall q, resp q) f s' : request s = Some q -> (forall t b, q <> QApply t b) -> sstep po id (fun _ => ans) s (MStep f) = Some s' ->
    cstep (Comp s None w p l) (CAsk q (ans q)) (Comp s' None w p l)
| cs_hand s w p l t b w' : request s = Some (QApply t b) -> wstep judge o w (WApp (LCall b)) = Some w' -> length (s_calls (w_s w')) = S (length (s_calls (w_s w))) ->
    cstep (Comp s None w p l) (CHand b) (Comp s (Some (length (s_calls (w_s w)))) w' p l)
| cs_refused s w p l t b w' e (ans : forall q, resp q) f s' : request s = Some (QApply t b) -> wstep judge o w (WApp (LCall b)) = Some w' ->
    s_log (w_s w') = OReturn None b (Some e) :: s_log (w_s w) -> ans (QApply t b) = Some e -> sstep po id (fun _ => ans) s (MStep f) = Some s' ->
    cstep (Comp s None w p l) (CRefused b) (Comp s' None w' p l)
| cs_back s c w p l t b cl (ans : forall q, resp q) f s' : request s = Some (QApply t b) -> s_calls (w_s w) !! c = Some cl -> cl_phase cl = CRet (ans (QApply t b)) ->
    sstep po id (fun _ => ans) s (MStep f) = Some s' -> cstep (Comp s (Some c) w p l) CBack (Comp s' None w p l)
| cs_give_up s c w p l w' : wstep judge o w (WApp (LTimeout c)) = Some w' -> cstep (Comp s (Some c) w p l) CGiveUp (Comp s (Some c) w' p l).
(** A run whose steps all satisfy [P]. *)
Inductive cruns (P : comp -> clabel -> comp -> Prop) : comp -> list clabel -> comp -> Prop :=
| cr_nil c : cruns P c [] c
| cr_cons c lab c1 rest c2 : cstep c lab c1 -> P c lab c1 -> cruns P c1 rest c2 -> cruns P c (lab :: rest) c2.
End composed.

(** How often the goroutine of the session ran *)
Fixpoint session_steps (l : list clabel) : nat :=
  match l with
  | [] => 0
  | COwn (MStep _) :: r | CAsk _ _ :: r | CBack :: r | CRefused _ :: r => S (session_steps r)
  | _ :: r => session_steps r
  end.
(** The session has to wait for the applicator. *)
Definition session_waits (c : comp) : Prop :=
  exists n, cp_wait c = Some n /\ forall cl res, s_calls (w_s (cp_world c)) !! n = Some cl -> cl_phase cl <> CRet res.

(** ** An honest peer and a node that works *)
Section conditions.
Context (judge : blk -> option goerr) (o : ap_opts) (po : pc_opts) (root : gset string) (head lib top : N) (cid : bytes) (ch : N -> blk) (young : blk -> Prop).
(** The chain as in [Catchup_Spec]; [lib] is the last irreversible block when the program starts, and nobody gets to know of a
    block of this chain above [top]. *)
Definition the_chain : onechain := OneChain cid (fun h => b_id (k_src (ch h))).
Definition the_blocks : list blk := stretch ch (lib + 1) (N.to_nat (top - lib)).
(** What the services behind the node and the peer have *)
Definition place_of (c : comp) (pl : place) : Prop :=
  pl_peer pl = cp_peer c /\ pl_lib pl = cp_lib c /\ forall h, (lib <= h)%N -> k_id (ch h) ∈ w_chain (cp_world c) <-> (h <= pl_head pl)%N.
(** A right answer (see [Catchup_Spec.answered]); the blocks that the peer sends are those of the chain from the height asked for. *)
Definition right_answer (c : comp) (q : req) (a : resp q) : Prop :=
  (forall pl, place_of c pl -> answered the_chain pl q a) /\
  match q return resp q -> Prop with
  | QPeerBlocks _ _ start n => fun a => exists m, a.1 = map k_src (stretch ch start m) /\ (start + N.of_nat m <= top + 1)%N
  | _ => fun _ => True
  end a.
(** The chain has no block above [top], and the last irreversible block that the node knows is less than a batch behind. *)
Definition in_reach (c : comp) : Prop :=
  forall h, (lib < h)%N -> k_id (ch h) ∈ w_chain (cp_world c) -> (h <= top)%N /\ (h < cp_lib c + po_batch po)%N.
(** Blocks that the chain gets from elsewhere are on top of blocks that it has. *)
Definition on_top (w : world) (lab : wlabel) : Prop :=
  match lab with WElse b => forall h, (lib < h)%N -> str (b_id b) = k_id (ch h) -> k_id (ch (h - 1)) ∈ w_chain w | _ => True end.
Definition nice (c : comp) (lab : clabel) (c' : comp) : Prop :=
  in_reach c' /\
  match lab with
  | CWorld l => wu64 l /\ wcomplete l /\ welcome o head (k_id (ch lib)) lib the_blocks (cp_world c) l /\ said_before root the_blocks (cp_world c) l /\
      on_top (cp_world c) l /\ forall k, k ∈ the_blocks -> young k \/ after_parent root k (cp_world c) l
  | CPeer p => (cp_peer c <= p <= top)%N
  | CLib l => (cp_lib c <= l)%N /\ has_block root (s_log (w_s (cp_world c))) (k_id (ch l))
  | CAsk q a => right_answer c q a
  | CHand b => forall hd, b_header b = Some hd -> (h_height hd <= max_accepted head (s_log (w_s (cp_world c))) + ao_max_delta o)%N /\
      (block_instant (h_timestamp hd) <= s_now (w_s (cp_world c)) + ao_delay_threshold o)%Z
  | CRefused _ | CGiveUp => False
  | CConnect | COwn _ | CBack => True
  end.
(** The setting: the chain is valid from [lib] to [top]; when the program starts, the chain service has it up to [had]. *)
Record sound_setting (had : N) : Prop := {
  so_chain : is_chain ch;
  so_ids : forall h h', k_id (ch h) = k_id (ch h') -> h = h';
  so_low : (top + ao_max_delta o + 1 < two64)%N /\ (head + ao_max_delta o + 1 < two64)%N;
  so_opts : (0 < po_batch po < two32)%N /\ (ao_max_pending o < 2 ^ 63)%N;
  so_valid : forall k, k ∈ the_blocks -> judge k = None /\ u64_block (k_src k);
  so_root : forall h, (lib <= h)%N -> k_id (ch h) ∈ root <-> (h <= had)%N;
  so_had : (lib <= had <= head)%N /\ (had <= top)%N /\ (had < lib + po_batch po)%N }.
Definition comp_init (dur now : Z) (peer : N) : comp := Comp (session_init po) None (world_init root head lib dur now) peer lib.
End conditions.
