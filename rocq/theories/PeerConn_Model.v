(** Model of internal/p2p/peer_connection.go and internal/options/peer_connection_options.go. *)
From Verif Require Import GoBase.

(** ** 1. Options *)

(** peer_connection_options.go:10-13 *)
Record checkpoint := Checkpoint { cp_height : N; cp_id : bytes }.
(** peer_connection_options.go:27-37 *)
Record pc_opts := PcOpts {
  po_checkpoints : list checkpoint;
  po_local_timeout : Z; po_app_timeout : Z; po_remote_timeout : Z;
  po_batch : N; po_block_timeout : Z; po_retry : Z;
  po_delta : N; po_sleep : Z }.
(** peer_connection_options.go:15-24, 40-52 (blockRequestBatchSizeDefault*0.3 is the constant 150) *)
Definition pc_defaults : pc_opts :=
  PcOpts [] (6 * second) (12 * second) (6 * second) 500 (150 * second) (6 * second) 5 (10 * second).

(** ** 2. Conversations.  Everything a connection asks of other components is a request; the answers
    are arbitrary.  A timeout in a request is the one given to context.WithTimeout for it. *)
Inductive req :=
| QVersion                                               (* versionProvider.GetProtocolVersion, line 36 *)
| QLocalChainID (timeout : Z)                            (* line 51 *)
| QPeerChainID (timeout : Z)                             (* line 59 *)
| QPeerHead (timeout : Z)                                (* lines 71, 99 *)
| QPeerAncestor (timeout : Z) (head : bytes) (height : N) (* lines 79, 133 *)
| QLib                                                   (* line 94 *)
| QLocalBlocks (timeout : Z) (ids : list bytes)          (* line 113 *)
| QPeerBlocks (timeout : Z) (head : bytes) (start num : N) (* line 155 *)
| QApply (timeout : Z) (b : block).                      (* applicator.ApplyBlock, line 165 *)

(** Answers; a pointer that may be nil is an [option], an error is [option goerr].
    The version is kept as a string; a block item is its height. *)
Definition resp (q : req) : Type :=
  match q with
  | QVersion => string * option goerr
  | QLocalChainID _ => option bytes * option goerr
  | QPeerChainID _ => bytes * option goerr
  | QPeerHead _ => bytes * N * option goerr
  | QPeerAncestor _ _ _ => bytes * option goerr
  | QLib => option topology
  | QLocalBlocks _ _ => option (list (option N)) * option goerr
  | QPeerBlocks _ _ _ _ => list block * option goerr
  | QApply _ _ => option goerr
  end.

Inductive event := Ev (q : req) (r : resp q).

(** A piece of code that talks to its environment.  [Crash] is a run-time panic. *)
Inductive prog (A : Type) :=
| Ret (a : A)
| Crash
| Call (q : req) (k : resp q -> prog A).
Arguments Ret {A} a.
Arguments Crash {A}.
Arguments Call {A} q k.

(** The environment: [env n q] is the answer to request [q] when it is the [n]-th one.  Quantifying over
    all such functions covers every adaptive peer, since any sequence of answers is one of them. *)
Definition environment := nat -> forall q : req, resp q.

Fixpoint run {A} (env : environment) (n : nat) (p : prog A) : list event * outcome A :=
  match p with
  | Ret a => ([], Done a)
  | Crash => ([], Panic)
  | Call q k => let '(tr, out) := run env (S n) (k (env n q)) in (Ev q (env n q) :: tr, out)
  end.

(** ** 3. The handshake *)

(** peer_connection.go:76-87 *)
Fixpoint check_points (o : pc_opts) (head : bytes) (cps : list checkpoint) : prog (option goerr) :=
  match cps with
  | [] => Ret None
  | cp :: cps' =>
    Call (QPeerAncestor (po_remote_timeout o) head (cp_height cp)) (fun '(id, err) =>
      match err with
      | Some _ => Ret (Some (ESent ErrCheckpointMismatch))
      | None => if bytes_equal id (cp_id cp) then check_points o head cps'
                else Ret (Some (ESent ErrCheckpointMismatch))
      end)
  end.
(** peer_connection.go:48-89, after the version check *)
Definition handshake_chain (o : pc_opts) : prog (option goerr) :=
  Call (QLocalChainID (po_local_timeout o)) (fun '(mine, err) =>
    match err with
    | Some e => Ret (Some e)
    | None =>
      Call (QPeerChainID (po_remote_timeout o)) (fun '(theirs, err) =>
        match err with
        | Some _ => Ret (Some (ESent ErrChainIDMismatch))
        | None =>
          match mine with
          | None => Crash  (* myChainID.ChainId of a nil response, line 64 *)
          | Some id =>
            if bytes_equal id theirs then
              Call (QPeerHead (po_remote_timeout o)) (fun '(head, _, err) =>
                match err with
                | Some e => Ret (Some e)
                | None => check_points o head (po_checkpoints o)
                end)
            else Ret (Some (ESent ErrChainIDMismatch))
          end
        end)
    end).
(** peer_connection.go:34-90; p.version (lines 38, 42) is never read and left out *)
Definition handshake (o : pc_opts) : prog (option goerr) :=
  Call QVersion (fun '(_, err) =>
    match err with
    | None => handshake_chain o
    | Some e => if is_err e ErrProtocolMissing then handshake_chain o else Ret (Some e)
    end).

(** ** 4. A sync round *)

(** peer_connection.go:161-185.  ApplyBlock dereferences the header before anything else
    (applicator.go:100, fork_watchdog.go:28-36: see [Applicator_Model.step_call]). *)
Fixpoint apply_blocks (o : pc_opts) (bs : list block) : prog (option goerr) :=
  match bs with
  | [] => Ret None
  | b :: bs' =>
    match b_header b with
    | None => Crash
    | Some _ =>
      Call (QApply (po_app_timeout o) b) (fun res =>
        match res with
        | None => apply_blocks o bs'
        | Some e =>
          if is_err e ErrLocalRPCTimeout then Ret (Some e)
          else if is_err e ErrForkBomb then Ret (Some e)
          else if is_err e ErrBlockIrreversibility then apply_blocks o bs'
          else Ret (Some (EWrap (ESent ErrBlockApplication)))
        end)
    end
  end.
Fixpoint bind {A B} (p : prog A) (f : A -> prog B) : prog B :=
  match p with
  | Ret a => f a
  | Crash => Crash
  | Call q k => Call q (fun r => bind (k r) f)
  end.
(** peer_connection.go:143-190: the request, the application, the synced flag.  [blocks[len(blocks)-1]]
    of an empty slice and a nil header panic (line 188). *)
Definition fetch (o : pc_opts) (lib_height : N) (head : bytes) (head_height : N) (synced : bool) : prog (option goerr * bool) :=
  let distance := sub64 head_height lib_height in
  let n := if bool_decide (po_batch o < distance)%N then po_batch o else distance in
  Call (QPeerBlocks (po_block_timeout o) head (add64 lib_height 1) (to_u32 n)) (fun '(blocks, err) =>
    match err with
    | Some e => Ret (Some e, synced)
    | None =>
      bind (apply_blocks o blocks) (fun res =>
        match res with
        | Some e => Ret (Some e, synced)
        | None =>
          match last blocks with
          | Some b => match b_header b with
                      | Some h => Ret (None, bool_decide (sub64 head_height (h_height h) < po_delta o)%N)
                      | None => Crash end
          | None => Crash
          end
        end)
    end).
(** peer_connection.go:92-191; the synced flag is passed in and out *)
Definition request_sync (o : pc_opts) (synced : bool) : prog (option goerr * bool) :=
  Call QLib (fun lib =>
  Call (QPeerHead (po_remote_timeout o)) (fun '(head, head_height, err) =>
    match err with
    | Some e => Ret (Some e, synced)
    | None =>
      match lib with
      | None => Crash  (* lib.Height of a nil LIB, line 105 *)
      | Some lib =>
        if bool_decide (head_height <= tp_height lib)%N then Ret (None, true)
        else
          Call (QLocalBlocks (po_local_timeout o) [head]) (fun '(items, err) =>
            match err with
            | Some e => Ret (Some e, synced)
            | None =>
              match items with
              | None => Crash  (* line 118, nil response *)
              | Some [item] =>
                match item with
                | None => Crash  (* line 123, nil item *)
                | Some h =>
                  if bool_decide (h <> 0%N) then Ret (None, true)
                  else if bool_decide (0 < tp_height lib)%N then
                    Call (QPeerAncestor (po_remote_timeout o) head (tp_height lib)) (fun '(id, err) =>
                      match err with
                      | Some e => Ret (Some e, synced)
                      | None => if bytes_equal id (tp_id lib) then fetch o (tp_height lib) head head_height synced
                                else Ret (Some (ESent ErrChainNotConnected), synced)
                      end)
                  else fetch o (tp_height lib) head head_height synced
                end
              | Some _ => Ret (Some (EWrap (ESent ErrLocalRPC)), synced)
              end
            end)
      end
    end)).

(** ** 5. The session: the goroutine of Start, the reporting goroutines, cancellation *)

Inductive control :=
| HsRun (p : prog (option goerr))            (* in handshake, line 227 *)
| HsPause                                    (* lines 239-243 *)
| SyRun (p : prog (option goerr * bool))     (* in requestSyncBlocks, line 197 *)
| SyReport (e : goerr)                       (* lines 199-203 *)
| SyPause (d : Z)                            (* lines 213-217 *)
| Stopped
| Crashed.

(** Who wrote a report *)
Inductive origin := FromHandshake | FromSync.

(** What happens, latest first in the log. *)
Inductive act :=
| ACall (e : event)
| AHandshake (res : option goerr)            (* handshake returned *)
| ASync (res : option goerr)                 (* requestSyncBlocks returned *)
| APause (d : Z)                             (* time.After(d) of lines 214, 240 *)
| AReport (id : string) (e : goerr) (from : origin)   (* sent to peerErrorChan *)
| ADrop (e : goerr) (from : origin)          (* not sent, lines 201, 232 *)
| ACancel.                                   (* the session's context is cancelled *)

Record session := Session {
  ss_ctl : control;
  ss_synced : bool;
  ss_calls : nat;                            (* requests made so far *)
  ss_pend : list goerr;                      (* goroutines of line 229 that have not ended *)
  ss_cancelled : bool;
  ss_log : list act }.

(** peer_connection.go:249-268 followed by Start *)
Definition session_init (o : pc_opts) : session := Session (HsRun (handshake o)) false 0 [] false [].

Inductive slabel :=
| MStep (first : bool)     (* the main goroutine; [first]: which branch a select takes (true: not ctx.Done) *)
| MDeliver (i : nat)       (* line 231 *)
| MDrop (i : nat)          (* line 232 *)
| MCancel.

(** peer_connection.go:206-210 *)
Definition pause_of (o : pc_opts) (synced : bool) : Z := if synced then po_sleep o else second.

(** A select between a fresh timer and ctx.Done.  time.After and entering the select are one step: with
    a positive duration a context that is already done, or is done first, wins. *)
Definition wakes (cancelled : bool) (d : Z) : bool := negb cancelled || bool_decide (d <= 0)%Z.

Definition sstep (o : pc_opts) (id : string) (env : environment) (s : session) (lab : slabel) : option session :=
  let 'Session ctl synced n pend cancelled log := s in
  match lab with
  | MCancel => Some (Session ctl synced n pend true (ACancel :: log))
  | MDeliver i =>
    match pend !! i with
    | Some e => Some (Session ctl synced n (delete i pend) cancelled (AReport id e FromHandshake :: log))
    | None => None
    end
  | MDrop i =>
    match pend !! i with
    | Some e => if cancelled then Some (Session ctl synced n (delete i pend) cancelled (ADrop e FromHandshake :: log)) else None
    | None => None
    end
  | MStep first =>
    match ctl with
    | HsRun (Call q k) => Some (Session (HsRun (k (env n q))) synced (S n) pend cancelled (ACall (Ev q (env n q)) :: log))
    | HsRun Crash => Some (Session Crashed synced n pend cancelled log)
    | HsRun (Ret (Some e)) => Some (Session HsPause synced n (pend ++ [e]) cancelled (APause (po_retry o) :: AHandshake (Some e) :: log))
    | HsRun (Ret None) => Some (Session (SyRun (request_sync o synced)) synced n pend cancelled (AHandshake None :: log))
    | HsPause =>
      if first
      then if wakes cancelled (po_retry o) then Some (Session (HsRun (handshake o)) synced n pend cancelled log) else None
      else if cancelled then Some (Session Stopped synced n pend cancelled log) else None
    | SyRun (Call q k) => Some (Session (SyRun (k (env n q))) synced (S n) pend cancelled (ACall (Ev q (env n q)) :: log))
    | SyRun Crash => Some (Session Crashed synced n pend cancelled log)
    | SyRun (Ret (Some e, synced')) => Some (Session (SyReport e) synced' n pend cancelled (ASync (Some e) :: log))
    | SyRun (Ret (None, synced')) =>
      let d := pause_of o synced' in
      Some (Session (SyPause d) synced' n pend cancelled (APause d :: ASync None :: log))
    | SyReport e =>
      if first
      then let d := pause_of o synced in
           Some (Session (SyPause d) synced n pend cancelled (APause d :: AReport id e FromSync :: log))
      else if cancelled then Some (Session Stopped synced n pend cancelled (ADrop e FromSync :: log)) else None
    | SyPause d =>
      if first
      then if wakes cancelled d then Some (Session (SyRun (request_sync o synced)) synced n pend cancelled log) else None
      else if cancelled then Some (Session Stopped synced n pend cancelled log) else None
    | Stopped | Crashed => None
    end
  end.

Fixpoint sruns (o : pc_opts) (id : string) (env : environment) (s : session) (sched : list slabel) : option session :=
  match sched with
  | [] => Some s
  | lab :: r => match sstep o id env s lab with Some s' => sruns o id env s' r | None => None end
  end.
