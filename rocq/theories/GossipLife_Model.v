(** Life cycle of one gossip topic (gossip.go:72-146, 198-246, 286-308): EnableGossip starts a
    goroutine per topic (the "starter"), which creates a channel, calls GossipManager.Start (which
    starts the reader goroutine), drains the channel until its context ends, and closes the channel.
    One topic is modelled; the block and the transaction topic run the same code with separate
    managers and channels.  Labels are the atomic steps; a schedule is any list of labels. *)
From Verif Require Import GoBase.

Inductive starter := StNotRun | StLoop | StExited.
Inductive reader := RdNone | RdNext | RdHold | RdExited.
(** One call of StartGossip. *)
Record session := Session {
  ss_cancelled : bool;      (* gossipCtx (line 215) is cancelled *)
  ss_subcancelled : bool;   (* subCtx of this session's Start (line 88) is cancelled *)
  ss_starter : starter;     (* the goroutine of startBlockGossip (lines 287-307); Exited = channel closed *)
  ss_reader : reader;       (* readMessages (lines 124-146): in sub.Next, holding a message, gone *)
  ss_buf : nat }.           (* messages in the channel *)
(** gossip.go:26 blockBuffer (transactionBuffer is 32; the proofs do not depend on it) *)
Definition chan_cap : nat := 8.

Record life := Life {
  lf_sessions : list session;
  lf_enabled : bool;               (* gm.Enabled *)
  lf_owner : option nat;           (* session whose Start set gm.sub/gm.cancel *)
  lf_current : option nat;         (* kg.gossipCancel *)
  lf_stopping : bool;              (* between block.Stop() and the cancel in StopGossip *)
  lf_last : option bool;           (* ghost: last completed EnableGossip call *)
  lf_published : nat;              (* ghost: messages handed to the topic *)
  lf_panic : bool }.               (* send on closed channel *)
Definition life_init : life := Life [] false None None false None 0 false.

Inductive life_label :=
| LEnable                 (* EnableGossip(true): lines 198-204, 213-218 *)
| LStop                   (* EnableGossip(false), first half: lines 205, 240 *)
| LStopCancel             (* second half: lines 242-245 *)
| LStarterRun (i : nat) (sub_ok : bool)  (* lines 288-291 with Start (72-96) *)
| LStarterDrain (i : nat) (* line 298 *)
| LStarterExit (i : nat)  (* line 303: ctx.Done, then the deferred close (289) *)
| LReaderMsg (i : nat)    (* line 133: sub.Next returns a message (possible also after a cancel) *)
| LReaderErr (i : nat)    (* lines 134-137: sub.Next fails, subCtx done *)
| LReaderSend (i : nat)   (* line 142 *)
| LReaderQuit (i : nat)   (* line 140-141 *)
| LPublish                (* PublishBlock/PublishTransaction by anyone: lines 268-284 *)
| LShutdown.              (* the parent context is cancelled *)

Definition upd (i : nat) (f : session -> session) (l : life) : life :=
  Life (alter f i (lf_sessions l)) (lf_enabled l) (lf_owner l) (lf_current l) (lf_stopping l) (lf_last l)
       (lf_published l) (lf_panic l).
Definition set_starter st s := Session (ss_cancelled s) (ss_subcancelled s) st (ss_reader s) (ss_buf s).
Definition set_reader rd s := Session (ss_cancelled s) (ss_subcancelled s) (ss_starter s) rd (ss_buf s).
Definition set_buf n s := Session (ss_cancelled s) (ss_subcancelled s) (ss_starter s) (ss_reader s) n.
Definition set_subcancel s := Session (ss_cancelled s) true (ss_starter s) (ss_reader s) (ss_buf s).
(** Cancelling gossipCtx also cancels the subCtx derived from it. *)
Definition set_cancel s := Session true true (ss_starter s) (ss_reader s) (ss_buf s).

(** [None]: the label is not enabled in this state. *)
Definition life_step (l : life) (lab : life_label) : option life :=
  if lf_panic l then None else
  match lab with
  | LEnable =>
    if lf_stopping l then None else   (* the toggle makes its calls one after the other *)
    Some (Life (lf_sessions l ++ [Session false false StNotRun RdNone 0]) (lf_enabled l) (lf_owner l)
           (Some (length (lf_sessions l))) false (Some true) (lf_published l) false)
  | LStop =>
    if lf_stopping l then None else
    let ss := match lf_owner l with
              | Some o => if lf_enabled l then alter set_subcancel o (lf_sessions l) else lf_sessions l
              | None => lf_sessions l
              end in
    Some (Life ss false (if lf_enabled l then None else lf_owner l) (lf_current l) true (lf_last l) (lf_published l) false)
  | LStopCancel =>
    if negb (lf_stopping l) then None else
    let ss := match lf_current l with Some c => alter set_cancel c (lf_sessions l) | None => lf_sessions l end in
    Some (Life ss (lf_enabled l) (lf_owner l) None false (Some false) (lf_published l) false)
  | LStarterRun i sub_ok =>
    match lf_sessions l !! i with
    | Some s =>
      match ss_starter s with
      | StNotRun =>
        if lf_enabled l || negb sub_ok then Some (upd i (set_starter StLoop) l)
        else (* Start subscribes, starts the reader, sets Enabled; subCtx is done if gossipCtx is *)
          Some (Life (alter (fun s => Session (ss_cancelled s) (ss_cancelled s) StLoop RdNext (ss_buf s)) i (lf_sessions l))
                  true (Some i) (lf_current l) (lf_stopping l) (lf_last l) (lf_published l) false)
      | _ => None
      end
    | None => None
    end
  | LStarterDrain i =>
    match lf_sessions l !! i with
    | Some s => match ss_starter s with
                | StLoop => if bool_decide (0 < ss_buf s) then Some (upd i (set_buf (pred (ss_buf s))) l) else None
                | _ => None
                end
    | None => None
    end
  | LStarterExit i =>
    match lf_sessions l !! i with
    | Some s => match ss_starter s with
                | StLoop => if ss_cancelled s then Some (upd i (set_starter StExited) l) else None
                | _ => None
                end
    | None => None
    end
  | LReaderMsg i =>
    match lf_sessions l !! i with
    | Some s => match ss_reader s with RdNext => Some (upd i (set_reader RdHold) l) | _ => None end
    | None => None
    end
  | LReaderErr i =>
    match lf_sessions l !! i with
    | Some s => match ss_reader s with
                | RdNext => if ss_subcancelled s then Some (upd i (set_reader RdExited) l) else None
                | _ => None end
    | None => None
    end
  | LReaderSend i =>
    match lf_sessions l !! i with
    | Some s =>
      match ss_reader s with
      | RdHold =>
        match ss_starter s with
        | StExited => (* send on closed channel *)
          Some (Life (lf_sessions l) (lf_enabled l) (lf_owner l) (lf_current l) (lf_stopping l) (lf_last l) (lf_published l) true)
        | _ => if bool_decide (ss_buf s < chan_cap)
               then Some (upd i (fun s => set_reader RdNext (set_buf (S (ss_buf s)) s)) l) else None
        end
      | _ => None
      end
    | None => None
    end
  | LReaderQuit i =>
    match lf_sessions l !! i with
    | Some s => match ss_reader s with
                | RdHold => if ss_subcancelled s then Some (upd i (set_reader RdExited) l) else None
                | _ => None end
    | None => None
    end
  | LPublish =>
    Some (Life (lf_sessions l) (lf_enabled l) (lf_owner l) (lf_current l) (lf_stopping l) (lf_last l)
           (if lf_enabled l then S (lf_published l) else lf_published l) false)
  | LShutdown =>
    Some (Life (map set_cancel (lf_sessions l)) (lf_enabled l) (lf_owner l) (lf_current l) (lf_stopping l) (lf_last l)
           (lf_published l) false)
  end.

Fixpoint life_run (l : life) (sched : list life_label) : option life :=
  match sched with
  | [] => Some l
  | lab :: r => match life_step l lab with Some l' => life_run l' r | None => None end
  end.
