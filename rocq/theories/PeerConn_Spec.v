(** Vocabulary for the properties of peer connections (C45-C52, C70, C71), in terms of the requests made and
    the answers received, independent of the definitions of the code model. *)
From Verif Require Import GoBase PeerConn_Model.

(** ** The handshake: a list of independent checks.  The [i]-th check uses the answer to the [i]-th request. *)
Section handshake.
Context (o : pc_opts) (env : environment) (n : nat).
Definition ans_version : string * option goerr := env n QVersion.
Definition ans_local_chain : option bytes * option goerr := env (n + 1) (QLocalChainID (po_local_timeout o)).
Definition ans_peer_chain : bytes * option goerr := env (n + 2) (QPeerChainID (po_remote_timeout o)).
Definition ans_head : bytes * N * option goerr := env (n + 3) (QPeerHead (po_remote_timeout o)).
Definition peer_head : bytes := ans_head.1.1.
Definition checkpoint_query (cp : checkpoint) : req := QPeerAncestor (po_remote_timeout o) peer_head (cp_height cp).
Definition ans_checkpoint (i : nat) (cp : checkpoint) : bytes * option goerr :=
  env (n + 4 + i) (QPeerAncestor (po_remote_timeout o) peer_head (cp_height cp)).

(** A check: the error with which the handshake must fail if this is the first check that fails. *)
Definition version_check : option goerr :=
  match ans_version.2 with
  | Some e => if is_err e ErrProtocolMissing then None else Some e
  | None => None end.
Definition local_check : option goerr := ans_local_chain.2.
Definition chain_check : option goerr :=
  match ans_peer_chain.2 with
  | Some _ => Some (ESent ErrChainIDMismatch)
  | None => if bool_decide (str (default None ans_local_chain.1) = str ans_peer_chain.1) then None
            else Some (ESent ErrChainIDMismatch) end.
Definition head_check : option goerr := ans_head.2.
Definition checkpoint_check (i : nat) (cp : checkpoint) : option goerr :=
  match (ans_checkpoint i cp).2 with
  | Some _ => Some (ESent ErrCheckpointMismatch)
  | None => if bool_decide (str (ans_checkpoint i cp).1 = str (cp_id cp)) then None
            else Some (ESent ErrCheckpointMismatch) end.
(** The requests in order, each with the check it serves. *)
Definition handshake_script : list (event * option goerr) :=
  [(Ev QVersion ans_version, version_check);
   (Ev (QLocalChainID (po_local_timeout o)) ans_local_chain, local_check);
   (Ev (QPeerChainID (po_remote_timeout o)) ans_peer_chain, chain_check);
   (Ev (QPeerHead (po_remote_timeout o)) ans_head, head_check)]
  ++ imap (fun i cp => (Ev (checkpoint_query cp) (ans_checkpoint i cp), checkpoint_check i cp)) (po_checkpoints o).
(** A successful local chain id call carries a response. *)
Definition local_chain_ok : Prop := ans_local_chain.2 = None -> ans_local_chain.1 <> None.
End handshake.

(** Go through a script until the first failing check: the requests made and the failure. *)
Fixpoint play (script : list (event * option goerr)) : list event * option goerr :=
  match script with
  | [] => ([], None)
  | (e, Some err) :: _ => ([e], Some err)
  | (e, None) :: r => let '(tr, res) := play r in (e :: tr, res)
  end.

(** ** Sync rounds: reading a trace (oldest first) *)
Definition is_block_request (e : event) : bool := match e with Ev (QPeerBlocks _ _ _ _) _ => true | _ => false end.
(** the blocks passed to the applicator, with the results *)
Definition applied (tr : list event) : list (block * option goerr) :=
  omap (fun e => match e with Ev (QApply _ b) r => Some (b, r : option goerr) | _ => None end) tr.
(** the blocks received *)
Definition received (tr : list event) : list block :=
  flat_map (fun e => match e with Ev (QPeerBlocks _ _ _ _) (bs, None) => (bs : list block) | _ => [] end) tr.
(** The result of a block that does not stop the round *)
Definition harmless (r : option goerr) : Prop :=
  r = None \/ exists e, r = Some e /\ is_err e ErrBlockIrreversibility = true.

Definition the_lib (tr : list event) (lib : topology) : Prop := In (Ev QLib (Some lib)) tr.
Definition the_head (tr : list event) (head : bytes) (height : N) : Prop :=
  exists t, In (Ev (QPeerHead t) (head, height, None)) tr.
(** the block store's answer about the peer's head: its height, 0 if unknown *)
Definition head_known_at (tr : list event) (head : bytes) (h : N) : Prop :=
  exists t, In (Ev (QLocalBlocks t [head]) (Some [Some h], None)) tr.
Definition last_received (tr : list event) (h : header) : Prop :=
  exists b, last (received tr) = Some b /\ b_header b = Some h.

(** C49: the reasons to consider ourselves synced with the peer *)
Definition round_synced (o : pc_opts) (tr : list event) : Prop :=
  exists lib head height, the_lib tr lib /\ the_head tr head height /\
    ((height <= tp_height lib)%N
     \/ (exists h, head_known_at tr head h /\ h <> 0%N)
     \/ (exists h, last_received tr h /\ (Z.of_N height - Z.of_N (h_height h) < Z.of_N (po_delta o))%Z)).

(** Every height in the answers is a uint64. *)
Definition event_u64 (e : event) : Prop :=
  match e with
  | Ev QLib (Some lib) => (tp_height lib < two64)%N
  | Ev (QPeerHead _) (_, h, _) => (h < two64)%N
  | Ev (QPeerBlocks _ _ _ _) (bs, _) =>
    Forall (fun b => match b_header b with Some h => (h_height h < two64)%N | None => True end) (bs : list block)
  | _ => True
  end.
Definition env_u64 (env : environment) : Prop := forall n q, event_u64 (Ev q (env n q)).

(** The local node answers every request it does not refuse with a complete response. *)
Definition event_local_ok (e : event) : Prop :=
  match e with
  | Ev QLib lib => lib <> None
  | Ev (QLocalChainID _) (id, None) => id <> None
  | Ev (QLocalBlocks _ _) (items, None) => exists l, items = Some l /\ Forall (fun i : option N => i <> None) l
  | _ => True
  end.
Definition env_local_ok (env : environment) : Prop := forall n q, event_local_ok (Ev q (env n q)).
(** What rpc.PeerRPC.GetBlocks guarantees of every answer without error (C61): the requested number of blocks *)
Definition event_counts_ok (e : event) : Prop :=
  match e with
  | Ev (QPeerBlocks _ _ _ num) (bs, None) => to_u32 (N.of_nat (length bs)) = num
  | _ => True
  end.
Definition env_counts_ok (env : environment) : Prop := forall n q, event_counts_ok (Ev q (env n q)).
(** The peer sends only blocks with a header. *)
Definition event_headers_ok (e : event) : Prop :=
  match e with
  | Ev (QPeerBlocks _ _ _ _) (bs, None) => Forall (fun b => b_header b <> None) bs
  | _ => True
  end.
Definition env_headers_ok (env : environment) : Prop := forall n q, event_headers_ok (Ev q (env n q)).

(** C71: the deadline of a request, and the one the options give it *)
Definition deadline (e : event) : option Z :=
  match e with
  | Ev (QLocalChainID t) _ | Ev (QPeerChainID t) _ | Ev (QPeerHead t) _ | Ev (QPeerAncestor t _ _) _
  | Ev (QLocalBlocks t _) _ | Ev (QPeerBlocks t _ _ _) _ | Ev (QApply t _) _ => Some t
  | Ev QVersion _ | Ev QLib _ => None
  end.
Definition configured (o : pc_opts) (e : event) : option Z :=
  match e with
  | Ev (QLocalChainID _) _ | Ev (QLocalBlocks _ _) _ => Some (po_local_timeout o)
  | Ev (QPeerChainID _) _ | Ev (QPeerHead _) _ | Ev (QPeerAncestor _ _ _) _ => Some (po_remote_timeout o)
  | Ev (QPeerBlocks _ _ _ _) _ => Some (po_block_timeout o)
  | Ev (QApply _ _) _ => Some (po_app_timeout o)
  | Ev QVersion _ | Ev QLib _ => None
  end.

(** ** Sessions: reading a log (oldest first) *)
(** the failed rounds, in order *)
Definition sync_failures (l : list act) : list goerr :=
  omap (fun a => match a with ASync (Some e) => Some e | _ => None end) l.
(** all errors of failed rounds, in the order in which the rounds ended *)
Definition failures (l : list act) : list goerr :=
  omap (fun a => match a with AHandshake (Some e) | ASync (Some e) => Some e | _ => None end) l.
(** the reports, in order, with the peer they are against *)
Definition reports (l : list act) : list (string * goerr) :=
  omap (fun a => match a with AReport id e _ => Some (id, e) | _ => None end) l.
Definition sync_reports (l : list act) : list (string * goerr) :=
  omap (fun a => match a with AReport id e FromSync => Some (id, e) | _ => None end) l.
Definition dropped (l : list act) : list goerr :=
  omap (fun a => match a with ADrop e _ => Some e | _ => None end) l.

(** The rounds of a log: the requests of each round and its result. *)
Inductive round := RHandshake (tr : list event) (res : option goerr) | RSync (tr : list event) (res : option goerr).
Fixpoint rounds (acc : list event) (l : list act) : list round :=
  match l with
  | [] => []
  | ACall e :: r => rounds (acc ++ [e]) r
  | AHandshake res :: r => RHandshake acc res :: rounds [] r
  | ASync res :: r => RSync acc res :: rounds [] r
  | _ :: r => rounds acc r
  end.
(** The most recent successful sync round, if any, found us synced. *)
Definition synced_now (o : pc_opts) (rs : list round) : Prop :=
  exists pre tr post, rs = pre ++ RSync tr None :: post /\
    Forall (fun r => forall tr', r <> RSync tr' None) post /\ round_synced o tr.

(** the end of a round after which no further round may start once the session is cancelled *)
Definition is_final_end (a : act) : bool := match a with AHandshake (Some _) | ASync _ => true | _ => false end.
Definition is_activity (a : act) : bool := match a with ACall _ | AHandshake _ | ASync _ => true | _ => false end.

(** States a session can reach *)
Definition sreach (o : pc_opts) (id : string) (env : environment) (s : session) : Prop :=
  exists sched, sruns o id env (session_init o) sched = Some s.

(** What a session has done, seen as rounds: some failed handshakes, then at most one successful one, and
    sync rounds only after it. *)
Definition rounds_in_order (rs : list round) : Prop := exists fails rest, rs = fails ++ rest /\
  Forall (fun r => exists tr e, r = RHandshake tr (Some e)) fails /\
  (rest = [] \/ exists tr syncs, rest = RHandshake tr None :: syncs /\ Forall (fun r => exists tr' res, r = RSync tr' res) syncs).
(** Each round is a complete handshake or sync conversation with the answers that were given. *)
Definition genuine (o : pc_opts) (env : environment) (r : round) : Prop :=
  match r with
  | RHandshake tr res => exists n, run env n (handshake o) = (tr, Done res)
  | RSync tr res => exists n b b', run env n (request_sync o b) = (tr, Done (res, b'))
  end.
(** In no sync round was the last received block above the head the peer had reported. *)
Definition heights_below_head (rs : list round) : Prop :=
  Forall (fun r => match r with
                   | RHandshake _ _ => True
                   | RSync tr _ => forall h head height, last_received tr h -> the_head tr head height -> (h_height h <= height)%N
                   end) rs.
(** A step of the session itself (as opposed to the cancellation, which comes from outside) *)
Definition progress (o : pc_opts) (id : string) (env : environment) (s' s : session) : Prop :=
  exists lab, lab <> MCancel /\ sstep o id env s lab = Some s'.
