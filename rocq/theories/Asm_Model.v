(** The error handler and the connection manager wired together: internal/node/node.go:86-91, 203-218 (the manager is the
    handler's PeerAddressProvider) and 405-421 (both are started with the node's context).  The parts are [EhSys_Model] and
    [ConnMgr_Model]; here a call of GetPeerAddress by the handler (error_handler.go:59, 85, 121) is a caller of the manager. *)
From Verif Require Import GoBase ErrHandler_Model EhSys_Model ConnMgr_Model.

Record asm := Asm {
  as_cm : cm;
  as_eh : ehs;
  as_calls : list (nat * nat);           (* calls of the handler that asked the manager, and the manager's caller *)
  as_err : option nat }.                 (* the manager's caller handleError waits for, error_handler.go:121 *)
(** node.go:86-218: constructed and wired; the host had the connections [existing] when Start asked for them *)
Definition as_init (initial : list string) (existing : list conn) : asm :=
  Asm (cm_init initial existing) (Ehs true ENotStarted ∅ [] [] [] [] [] false false [] []) [] None.

Inductive alabel :=
| ACm (l : cm_label)                     (* a step of the manager or of its other users *)
| AEh (l : elabel)                       (* a step of the handler or of its users *)
| ACancel                                (* the node's context is done *)
| AAnswer (i : nat)                      (* GetPeerAddress returns to call [i] of the handler *)
| AErrAnswer (now : Z).                  (* GetPeerAddress returns to handleError *)

(** The manager's caller for call [i] of the handler *)
Fixpoint linked (l : list (nat * nat)) (i : nat) : option nat :=
  match l with [] => None | (i', j) :: l => if decide (i' = i) then Some j else linked l i end.
(** The context of a caller of the manager is done *)
Definition expire (j : option nat) (c : cm) : option cm :=
  match j with Some j => cm_step c (LExpire j) | None => Some c end.
(** error_handler.go:59, 85, 121: a call of GetPeerAddress *)
Definition ask (p : string) (c : cm) : option cm := cm_step c (LCall (QAddr p)).

Section system.
Context (decay : N -> Z -> N) (o : eh_opts).

Definition as_step (s : asm) (lab : alabel) : option asm :=
  match lab with
  | ACm l =>
    match l with
    | LCancel => None                    (* ACancel *)
    | LExpire j =>                       (* the handler's own callers expire with the handler's calls *)
      if decide (j ∈ map snd (as_calls s) \/ as_err s = Some j) then None
      else c ← cm_step (as_cm s) l; Some (Asm c (as_eh s) (as_calls s) (as_err s))
    | _ => c ← cm_step (as_cm s) l; Some (Asm c (as_eh s) (as_calls s) (as_err s))
    end
  | AEh l =>
    e ← es_step decay o (as_eh s) l;
    match l with
    | XCancel | XAddress _ _ | XErrAddress _ _ => None   (* ACancel, AAnswer, AErrAnswer *)
    | XCall (KCanPeer p) | XCall (KScore p) =>
      c ← ask p (as_cm s);
      Some (Asm c e (as_calls s ++ [(length (es_calls (as_eh s)), length (cm_callers (as_cm s)))]) (as_err s))
    | XExpire i => c ← expire (linked (as_calls s) i) (as_cm s); Some (Asm c e (as_calls s) (as_err s))
    | XTakeReport k =>
      '(id, _) ← es_reports (as_eh s) !! k;
      let j := length (cm_callers (as_cm s)) in
      c ← ask id (as_cm s);
      c ← (if cm_cancelled (as_cm s) then expire (Some j) c else Some c);   (* a caller whose context was done before *)
      Some (Asm c e (as_calls s) (Some j))
    | _ => Some (Asm (as_cm s) e (as_calls s) (as_err s))
    end
  | ACancel =>
    e ← es_step decay o (as_eh s) XCancel;
    c ← cm_step (as_cm s) LCancel;
    c ← expire (as_err s) c;
    Some (Asm c e (as_calls s) (as_err s))
  | AAnswer i =>
    j ← linked (as_calls s) i;
    match cm_callers (as_cm s) !! j with
    | Some (Caller _ (ClReturned (AAddr a)) _) => e ← es_step decay o (as_eh s) (XAddress i a); Some (Asm (as_cm s) e (as_calls s) (as_err s))
    | _ => None
    end
  | AErrAnswer now =>
    j ← as_err s;
    match cm_callers (as_cm s) !! j with
    | Some (Caller _ (ClReturned (AAddr a)) _) => e ← es_step decay o (as_eh s) (XErrAddress now a); Some (Asm (as_cm s) e (as_calls s) None)
    | _ => None
    end
  end.

Fixpoint as_run (s : asm) (sched : list alabel) : option asm :=
  match sched with
  | [] => Some s
  | lab :: r => match as_step s lab with Some s' => as_run s' r | None => None end
  end.
End system.
