(** Model of the concurrent side of internal/p2p/error_handler.go: the serving loop, its buffered request
    channels, the callers of CanConnect, CanConnectAddr and GetPeerErrorScore (and through them the
    ConnectionGater callbacks), error reports and the goroutines that ask for a disconnection.
    What the loop does with one request is [ErrHandler_Model.eh_step]. *)
From Verif Require Import GoBase ErrHandler_Model.

(** error_handler.go:57-96, 211-233: the calls.  KCanAddr also stands for InterceptAddrDial, InterceptAccept and
    InterceptSecured, KCanPeer for InterceptPeerDial; their context (Background) never ends. *)
Inductive ekind := KCanAddr (a : maddr) | KCanPeer (p : string) | KScore (p : string).
(** What a call returns when it gets no answer: lines 63, 78, 95 *)
Definition no_address (k : ekind) : eh_out := match k with KScore _ => OutScore 0 | _ => OutCan true end.
Definition gave_up (k : ekind) : eh_out := match k with KScore _ => OutScore 0 | _ => OutCan false end.

(** A call is in GetPeerAddress (lines 59, 85), in the send (69, 86), in the select (74-79, 88-91), or has returned. *)
Inductive ephase := PAddress | PSend (a : maddr) | PWait (a : maddr) | PDone (r : eh_out).
(** [ec_buf]: its result channel, of capacity 1 (lines 68, 84) *)
Record ecall := ECall { ec_kind : ekind; ec_phase : ephase; ec_buf : option eh_out; ec_expired : bool }.

(** error_handler.go:236-256: not started, in the select, in handleError waiting for GetPeerAddress (line 121), ended *)
Inductive eloop := ENotStarted | EServing | EAddress (id : string) (e : goerr) | EEnded.

(** error_handler.go:268-269 *)
Definition queue_cap : nat := 10.

Record ehs := Ehs {
  es_provider : bool;                       (* addrProvider is set, line 280 *)
  es_loop : eloop;
  es_scores : eh_state;
  es_canq : list (nat * maddr);             (* canConnectChan: the calls whose request is in it and its address, oldest first *)
  es_scoreq : list (nat * maddr);                     (* getPeerErrorScoreChan *)
  es_calls : list ecall;
  es_reports : list (string * goerr);       (* senders waiting on peerErrorChan (unbuffered) *)
  es_disc : list string;                    (* goroutines of line 138 *)
  es_cancelled : bool;                      (* the context of Start is done *)
  es_panic : bool;
  es_log : list (option nat * eh_event * eh_out) (* requests served (with the call), newest first *);
  es_found : list (nat * maddr)             (* the addresses GetPeerAddress returned to calls *) }.
Definition es_init : ehs := Ehs false ENotStarted ∅ [] [] [] [] [] false false [] [].

Inductive elabel :=
| XSetProvider                              (* lines 278-282 *)
| XStart                                    (* lines 236-240 *)
| XCancel
| XCall (k : ekind)
| XExpire (i : nat)                         (* the context of call i is done *)
| XAddress (i : nat) (a : option maddr)     (* GetPeerAddress returns to call i *)
| XSend (i : nat)
| XServeCan (now : Z)                       (* lines 246-247 *)
| XServeScore (now : Z)                     (* lines 248-249 *)
| XReceive (i : nat)
| XTimeout (i : nat)
| XReport (id : string) (e : goerr)         (* someone sends to peerErrorChan *)
| XTakeReport (k : nat)                     (* lines 244-245 *)
| XErrAddress (now : Z) (a : option maddr)  (* GetPeerAddress returns to handleError *)
| XDisconnected (k : nat)                   (* line 140 *)
| XGiveUpDisconnect (k : nat)               (* line 141 *)
| XExit.                                    (* lines 251-252 *)

Section system.
Context (decay : N -> Z -> N) (o : eh_opts).

Definition set_calls (c : list ecall) (s : ehs) : ehs :=
  Ehs (es_provider s) (es_loop s) (es_scores s) (es_canq s) (es_scoreq s) c (es_reports s) (es_disc s) (es_cancelled s) (es_panic s) (es_log s) (es_found s).
Definition set_loop (l : eloop) (s : ehs) : ehs :=
  Ehs (es_provider s) l (es_scores s) (es_canq s) (es_scoreq s) (es_calls s) (es_reports s) (es_disc s) (es_cancelled s) (es_panic s) (es_log s) (es_found s).
Definition set_disc (d : list string) (s : ehs) : ehs :=
  Ehs (es_provider s) (es_loop s) (es_scores s) (es_canq s) (es_scoreq s) (es_calls s) (es_reports s) d (es_cancelled s) (es_panic s) (es_log s) (es_found s).
(** The loop serves call [i]: eh_step, then the send to the result channel, possible only while it is empty. *)
Definition serve (i : nat) (ev : eh_event) (canq scoreq : list (nat * maddr)) (s : ehs) : option ehs :=
  match es_calls s !! i with
  | Some (ECall k ph None x) =>
    let '(st', out) := eh_step decay o (es_scores s) ev in
    Some (Ehs (es_provider s) (es_loop s) st' canq scoreq (<[i := ECall k ph (Some out) x]> (es_calls s)) (es_reports s) (es_disc s)
              (es_cancelled s) (es_panic s) ((Some i, ev, out) :: es_log s) (es_found s))
  | _ => None
  end.
Definition es_step (s : ehs) (lab : elabel) : option ehs :=
  if es_panic s then None else
  match lab with
  | XSetProvider => Some (Ehs true (es_loop s) (es_scores s) (es_canq s) (es_scoreq s) (es_calls s) (es_reports s) (es_disc s) (es_cancelled s) (es_panic s) (es_log s) (es_found s))
  | XStart =>
    match es_loop s with
    | ENotStarted => Some (if es_provider s then set_loop EServing s else s)
    | _ => None                              (* Start is called once, node.go *)
    end
  | XCancel => Some (Ehs (es_provider s) (es_loop s) (es_scores s) (es_canq s) (es_scoreq s) (es_calls s) (es_reports s) (es_disc s) true (es_panic s) (es_log s) (es_found s))
  | XCall k =>
    match k with
    | KCanAddr a => Some (set_calls (es_calls s ++ [ECall k (PSend a) None false]) s)
    | _ =>
      if es_provider s then Some (set_calls (es_calls s ++ [ECall k PAddress None false]) s)
      else Some (Ehs (es_provider s) (es_loop s) (es_scores s) (es_canq s) (es_scoreq s) (es_calls s) (es_reports s) (es_disc s) (es_cancelled s) true (es_log s) (es_found s))
           (* method call on a nil interface *)
    end
  | XExpire i =>
    match es_calls s !! i with
    | Some (ECall k ph b _) => Some (set_calls (<[i := ECall k ph b true]> (es_calls s)) s)
    | None => None
    end
  | XAddress i a =>
    match es_calls s !! i with
    | Some (ECall k PAddress b x) =>
      match a with
      | Some a =>
        Some (Ehs (es_provider s) (es_loop s) (es_scores s) (es_canq s) (es_scoreq s) (<[i := ECall k (PSend a) b x]> (es_calls s)) (es_reports s) (es_disc s)
                  (es_cancelled s) (es_panic s) (es_log s) ((i, a) :: es_found s))
      | None => Some (set_calls (<[i := ECall k (PDone (no_address k)) b x]> (es_calls s)) s)
      end
    | _ => None
    end
  | XSend i =>
    match es_calls s !! i with
    | Some (ECall k (PSend a) b x) =>
      let c := <[i := ECall k (PWait a) b x]> (es_calls s) in
      match k with
      | KScore _ =>
        if (length (es_scoreq s) <? queue_cap)%nat
        then Some (Ehs (es_provider s) (es_loop s) (es_scores s) (es_canq s) (es_scoreq s ++ [(i, a)]) c (es_reports s) (es_disc s) (es_cancelled s) (es_panic s) (es_log s) (es_found s))
        else None
      | _ =>
        if (length (es_canq s) <? queue_cap)%nat
        then Some (Ehs (es_provider s) (es_loop s) (es_scores s) (es_canq s ++ [(i, a)]) (es_scoreq s) c (es_reports s) (es_disc s) (es_cancelled s) (es_panic s) (es_log s) (es_found s))
        else None
      end
    | _ => None
    end
  | XServeCan now =>
    match es_loop s, es_canq s with
    | EServing, (i, a) :: q => serve i (EvCanConnect now a) q (es_scoreq s) s
    | _, _ => None
    end
  | XServeScore now =>
    match es_loop s, es_scoreq s with
    | EServing, (i, a) :: q => serve i (EvGetScore now a) (es_canq s) q s
    | _, _ => None
    end
  | XReceive i =>
    match es_calls s !! i with
    | Some (ECall k (PWait a) (Some r) x) => Some (set_calls (<[i := ECall k (PDone r) (Some r) x]> (es_calls s)) s)
    | _ => None
    end
  | XTimeout i =>
    match es_calls s !! i with
    | Some (ECall k (PWait a) b true) => Some (set_calls (<[i := ECall k (PDone (gave_up k)) b true]> (es_calls s)) s)
    | _ => None
    end
  | XReport id e =>
    Some (Ehs (es_provider s) (es_loop s) (es_scores s) (es_canq s) (es_scoreq s) (es_calls s) (es_reports s ++ [(id, e)]) (es_disc s) (es_cancelled s) (es_panic s) (es_log s) (es_found s))
  | XTakeReport k =>
    match es_loop s, es_reports s !! k with
    | EServing, Some (id, e) =>
      Some (Ehs (es_provider s) (EAddress id e) (es_scores s) (es_canq s) (es_scoreq s) (es_calls s) (delete k (es_reports s)) (es_disc s) (es_cancelled s) (es_panic s) (es_log s) (es_found s))
    | _, _ => None
    end
  | XErrAddress now a =>
    match es_loop s with
    | EAddress id e =>
      let ev := EvError now id a e in
      let '(st', out) := eh_step decay o (es_scores s) ev in
      Some (Ehs (es_provider s) EServing st' (es_canq s) (es_scoreq s) (es_calls s) (es_reports s)
                (es_disc s ++ match out with OutDisconnect (Some p) => [p] | _ => [] end) (es_cancelled s) (es_panic s) ((None, ev, out) :: es_log s) (es_found s))
    | _ => None
    end
  | XDisconnected k => match es_disc s !! k with Some _ => Some (set_disc (delete k (es_disc s)) s) | None => None end
  | XGiveUpDisconnect k =>
    match es_disc s !! k with Some _ => if es_cancelled s then Some (set_disc (delete k (es_disc s)) s) else None | None => None end
  | XExit =>
    match es_loop s with EServing => if es_cancelled s then Some (set_loop EEnded s) else None | _ => None end
  end.

Fixpoint es_run (s : ehs) (sched : list elabel) : option ehs :=
  match sched with
  | [] => Some s
  | lab :: r => match es_step s lab with Some s' => es_run s' r | None => None end
  end.
End system.
