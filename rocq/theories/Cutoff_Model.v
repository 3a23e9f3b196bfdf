(** Cutting off a peer: the error handler and the connection manager of [Asm_Model] together with the loop that closes
    connections (internal/node/node.go:423-432), the channel it reads (node.go:84, unbuffered) and the network's connections.
    The network (libp2p's swarm) is not part of the repository; what is assumed of it is said at each label. *)
From Verif Require Import GoBase ErrHandler_Model EhSys_Model ConnMgr_Model Asm_Model.

Global Instance co_maddr_dec : EqDecision maddr.
Proof. solve_decision. Defined.
Global Instance co_conn_dec : EqDecision conn.
Proof. solve_decision. Defined.
Global Instance co_netev_dec : EqDecision netev.
Proof. solve_decision. Defined.

(** node.go:423-432: not started, in the select, in ClosePeer, ended *)
Inductive closer := CNotStarted | CIdle | CClosing (p : string) | CEnded.

Record net := Net {
  nt_as : asm;
  nt_open : list conn;                   (* open connections *)
  nt_closing : list conn;                (* closed connections whose Disconnected notification has not begun *)
  nt_next : nat;                         (* number of connections opened so far *)
  nt_gates : list nat;                   (* gate calls that have let a connection in *)
  nt_closer : closer }.
(** The node is started without connections (compare C56, C85). *)
Definition nt_init (initial : list string) : net := Net (as_init initial []) [] [] 0 [] CNotStarted.

Inductive nlabel :=
| NAs (l : alabel)                       (* a step of the handler, the manager or their users *)
| NOpen (i : nat) (p : string) (a : maddr) (* a connection of peer [p] at address [a] is opened, which gate call [i] allowed *)
| NHangUp (k : nat)                      (* the k-th open connection ends for some other reason *)
| NNotify (k : nat)                      (* the Disconnected notification for the k-th closed connection begins *)
| NStartCloser                           (* node.go:423 *)
| NTake (k : nat)                        (* node.go:426: the closer receives from the k-th waiting goroutine of error_handler.go:138 *)
| NClosePeer                             (* node.go:427 *)
| NEndCloser.                            (* node.go:428-429 *)

Section system.
Context (decay : N -> Z -> N) (o : eh_opts).
Notation as_step := (as_step decay o).

Definition set_as (x : asm) (s : net) : net := Net x (nt_open s) (nt_closing s) (nt_next s) (nt_gates s) (nt_closer s).
Definition set_closer (x : closer) (s : net) : net := Net (nt_as s) (nt_open s) (nt_closing s) (nt_next s) (nt_gates s) x.

Definition nt_step (s : net) (lab : nlabel) : option net :=
  match lab with
  | NAs l =>
    match l with
    | ACm (LNotify _) | AEh (XDisconnected _) => None         (* NOpen and NNotify; NTake *)
    | _ => x ← as_step (nt_as s) l; Some (set_as x s)
    end
  | NOpen i p a =>
    (* libp2p asks InterceptSecured (error_handler.go:226-228) about every connection, in and out, at some time before it adds it,
       and then calls Connected (connection_manager.go:126) in a goroutine.  The connection gets a new identity. *)
    match es_calls (as_eh (nt_as s)) !! i with
    | Some (ECall (KCanAddr a') (PDone (OutCan true)) _ _) =>
      if bool_decide (a' = a) && bool_decide (i ∉ nt_gates s) then
        let c := Conn p a (nt_next s) in
        x ← as_step (nt_as s) (ACm (LNotify (NConnected c)));
        Some (Net x (nt_open s ++ [c]) (nt_closing s) (S (nt_next s)) (i :: nt_gates s) (nt_closer s))
      else None
    | _ => None
    end
  | NHangUp k =>
    match nt_open s !! k with
    | Some c => Some (Net (nt_as s) (delete k (nt_open s)) (nt_closing s ++ [c]) (nt_next s) (nt_gates s) (nt_closer s))
    | None => None
    end
  | NNotify k =>
    (* libp2p calls Disconnected for a connection in a goroutine, after Connected for it has returned *)
    match nt_closing s !! k with
    | Some c =>
      if bool_decide (NConnected c ∈ cm_blocked (as_cm (nt_as s))) then None
      else x ← as_step (nt_as s) (ACm (LNotify (NDisconnected c)));
           Some (Net x (nt_open s) (delete k (nt_closing s)) (nt_next s) (nt_gates s) (nt_closer s))
    | None => None
    end
  | NStartCloser => match nt_closer s with CNotStarted => Some (set_closer CIdle s) | _ => None end
  | NTake k =>
    match nt_closer s, es_disc (as_eh (nt_as s)) !! k with
    | CIdle, Some p => x ← as_step (nt_as s) (AEh (XDisconnected k)); Some (set_closer (CClosing p) (set_as x s))
    | _, _ => None
    end
  | NClosePeer =>
    (* ClosePeer closes the connections the peer has; taken as one step *)
    match nt_closer s with
    | CClosing p =>
      Some (Net (nt_as s) (filter (fun c => cn_peer c <> p) (nt_open s)) (nt_closing s ++ filter (fun c => cn_peer c = p) (nt_open s))
                (nt_next s) (nt_gates s) CIdle)
    | _ => None
    end
  | NEndCloser =>
    match nt_closer s with CIdle => if es_cancelled (as_eh (nt_as s)) then Some (set_closer CEnded s) else None | _ => None end
  end.

Fixpoint nt_run (s : net) (sched : list nlabel) : option net :=
  match sched with
  | [] => Some s
  | lab :: r => match nt_step s lab with Some s' => nt_run s' r | None => None end
  end.
End system.
