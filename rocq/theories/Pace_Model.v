(** Model of the timing of a peer session (peer_connection.go:193-246): the session of PeerConn_Model with a clock.  Calls and other
    steps take any time; what time.After(d) guarantees is that the channel is not ready before d has passed. *)
From Verif Require Import GoBase PeerConn_Model.

(** A session, the present time, and the time at which the timer started last is due *)
Record timed := Timed { td_session : session; td_now : Z; td_due : Z }.

(** peer_connection.go:220 called at [t0]; no timer has been started *)
Definition timed_init (o : pc_opts) (t0 : Z) : timed := Timed (session_init o) t0 t0.

Inductive tlabel :=
| TPass (dt : Z)        (* time passes *)
| TDo (lab : slabel).   (* a step of the session *)

(** A session waits for a timer: peer_connection.go:213-217, 239-243 *)
Definition pausing (c : control) : bool := match c with HsPause | SyPause _ => true | _ => false end.
(** The timer of a session that has just begun to wait: time.After of lines 214 and 240 *)
Definition timer_of (o : pc_opts) (c : control) : option Z :=
  match c with HsPause => Some (po_retry o) | SyPause d => Some d | _ => None end.

(** The branch that reads from the timer *)
Definition on_timer (lab : slabel) : bool := match lab with MStep true => true | _ => false end.

Definition tstep (o : pc_opts) (id : string) (env : environment) (t : timed) (lab : tlabel) : option timed :=
  let 'Timed s now due := t in
  match lab with
  | TPass dt => if decide (0 <= dt)%Z then Some (Timed s (now + dt) due) else None
  | TDo lab =>
    (* the branch of the timer, lines 214 and 240, is taken only when it is due *)
    if pausing (ss_ctl s) && on_timer lab && bool_decide (now < due)%Z then None
    else
      match sstep o id env s lab with
      | None => None
      | Some s' =>
        match timer_of o (ss_ctl s') with
        | Some d => if pausing (ss_ctl s) then Some (Timed s' now due) else Some (Timed s' now (now + d))
        | None => Some (Timed s' now due)
        end
      end
  end.
Fixpoint truns (o : pc_opts) (id : string) (env : environment) (t : timed) (sched : list tlabel) : option timed :=
  match sched with
  | [] => Some t
  | lab :: r => match tstep o id env t lab with Some t' => truns o id env t' r | None => None end
  end.
