(** Specification of the error handler and the connection manager wired together (C82-C84). *)
From Verif Require Import GoBase ErrHandler_Model ErrHandler_Spec EhSys_Model EhSys_Spec ConnMgr_Model ConnMgr_Spec Asm_Model.

Definition as_reach decay o initial existing (s : asm) : Prop := exists sched, as_run decay o (as_init initial existing) sched = Some s.
(** The network's notifications handled so far, oldest first *)
Definition handled (s : asm) : list netev := net_history (rev (cm_log (as_cm s))).
(** [h] is the history at some moment between the states [s] and [s'] *)
Definition between (s s' : asm) (h : list netev) : Prop := handled s `prefix_of` h /\ h `prefix_of` handled s'.
(** After the history [h], peer [p] is connected, and [a] is the address of the connection that began its present session. *)
Definition connected_from (h : list netev) (p : string) (a : maddr) : Prop :=
  last_connected h p /\ exists c, session_conn h p c /\ cn_addr c = a.
(** What the manager may say about [p] after the history [h]: its address, or that it is not connected *)
Definition found_peer (h : list netev) (p : string) (a : option maddr) : Prop :=
  match a with Some a => connected_from h p a | None => ~ last_connected h p end.
(** Query [k] about address [a] was served at some moment and [r] is the right answer for the requests served before it. *)
Definition answered_about decay o (s : asm) (k : ekind) (a : maddr) (r : eh_out) : Prop :=
  exists hist now rest, match k with
    | KScore _ => served_events (as_eh s) = hist ++ EvGetScore now a :: rest /\ r = OutScore (score_answer decay o hist now a)
    | _ => served_events (as_eh s) = hist ++ EvCanConnect now a :: rest /\ r = OutCan (gate_answer decay o hist now a)
    end.
Definition node_stopped (s : asm) : bool := es_cancelled (as_eh s).

(** ** Steps the program takes by itself, without the network, a clock, a caller or a context doing anything *)
Definition internal (lab : alabel) : bool :=
  match lab with
  | ACm l => match l with LStarted | LTakeEvent _ | LTakeQuery _ | LTakeSeed | LReply | LSeedAsk => true | _ => false end
  | AEh l => match l with XSend _ | XServeCan _ | XServeScore _ | XReceive _ | XTakeReport _ => true | _ => false end
  | ACancel => false
  | AAnswer _ | AErrAnswer _ => true
  end.
(** A context ends *)
Definition context_ends (lab : alabel) : bool :=
  match lab with ACancel | ACm (LExpire _) | AEh (XExpire _) => true | _ => false end.
(** Nothing is left to do: all notifications are handled, all calls of both components have returned, all reports are charged or
    dropped, and both loops wait for something new. *)
Definition settled (s : asm) : Prop :=
  cm_blocked (as_cm s) = [] /\
  Forall (fun c => exists a, cl_state_of c = ClReturned a) (cm_callers (as_cm s)) /\
  Forall (fun c => exists r, ec_phase c = PDone r) (es_calls (as_eh s)) /\
  es_reports (as_eh s) = [] /\ report_in_hand (as_eh s) = [] /\
  cm_manager (as_cm s) = MServing /\ es_loop (as_eh s) = EServing.
