(** Specification of cutting off a peer (C94-C96). *)
From Verif Require Import GoBase ErrHandler_Model ErrHandler_Spec EhSys_Model EhSys_Spec ConnMgr_Model ConnMgr_Spec Asm_Model Asm_Spec Cutoff_Model.

Definition nt_reach decay o initial (s : net) : Prop := exists sched, nt_run decay o (nt_init initial) sched = Some s.
Definition nt_mgr (s : net) : cm := as_cm (nt_as s).
Definition nt_eh (s : net) : ehs := as_eh (nt_as s).
(** The network's notifications handled by the connection manager, oldest first *)
Definition told (s : net) : list netev := handled (nt_as s).

(** In the step from [s] to [s'] an error of peer [p] is charged, and it brings the score of the peer's host to the threshold (C07). *)
Definition bans decay o (s : net) (lab : nlabel) (s' : net) (p : string) : Prop :=
  nt_step decay o s lab = Some s' /\ served_answers (nt_eh s') = served_answers (nt_eh s) ++ [OutDisconnect (Some p)].
(** A sync session of the manager: started and not cancelled *)
Definition session (s : net) (sid : nat) (c : conn) : Prop := running (rev (cm_log (nt_mgr s))) sid c.
Definition session_ended (s : net) (sid : nat) : Prop := GCancel sid ∈ cm_log (nt_mgr s).

(** Steps the program and the network's notification goroutines take by themselves *)
Definition nt_internal (lab : nlabel) : bool :=
  match lab with NAs l => internal l | NNotify _ | NTake _ | NClosePeer => true | _ => false end.
Definition nt_context_ends (lab : nlabel) : bool := match lab with NAs l => context_ends l | _ => false end.
(** Nothing is left to do: as in C82, and no connection is to be closed or reported as closed. *)
Definition quiet (s : net) : Prop :=
  settled (nt_as s) /\ es_disc (nt_eh s) = [] /\ nt_closer s = CIdle /\ nt_closing s = [].
(** The error handler and the closing loop were started, and no context has ended. *)
Definition going (sched : list nlabel) : Prop :=
  NAs (AEh XStart) ∈ sched /\ NStartCloser ∈ sched /\ Forall (fun lab => nt_context_ends lab = false) sched.

(** The score of the host of [a] when an error is charged to it at time [now], after the requests [hist] (as in C07) *)
Definition charged_score decay o (hist : list eh_event) (now : Z) (a : maddr) (e : goerr) : N :=
  match look decay now (ledger_of decay (touches o (ma_first a) hist)) with
  | Some (_, s) => add64 s (expected_score o e)
  | None => expected_score o e
  end.
(** The score of the host of [a] as seen at time [now] *)
Definition host_score decay o (hist : list eh_event) (now : Z) (a : maddr) : N :=
  ledger_score (look decay now (ledger_of decay (touches o (ma_first a) hist))).
