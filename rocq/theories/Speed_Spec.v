(** Specification for C125: how long the calls of a session take, and sessions that are not held up. *)
From Verif Require Import GoBase PeerConn_Model Pace_Model.

(** How long the calls take at most: a question to the peer, to the local node, for a batch of blocks, handing over a block; how long
    the version lookup takes; and how long the error handler takes to accept a report *)
Record latency := Latency { l_remote : N; l_local : N; l_blocks : N; l_apply : N; l_version : N; l_report : N }.
Definition lat (l : latency) (q : req) : N :=
  match q with
  | QVersion => l_version l
  | QLocalChainID _ | QLocalBlocks _ _ => l_local l
  | QPeerChainID _ | QPeerHead _ | QPeerAncestor _ _ _ => l_remote l
  | QLib => 0
  | QPeerBlocks _ _ _ _ => l_blocks l
  | QApply _ _ => l_apply l
  end.
(** The time-outs of the options as latencies: calls return by their deadlines (C71) *)
Definition by_timeouts (o : pc_opts) : latency :=
  Latency (Z.to_N (po_remote_timeout o)) (Z.to_N (po_local_timeout o)) (Z.to_N (po_block_timeout o)) (Z.to_N (po_app_timeout o)) 0 0.

(** How long a session may stay as it is: until the call has returned, until the timer is due, or not at all.  A session that has
    ended may stay so. *)
Definition patience {A} (l : latency) (p : prog A) : N := match p with Call q _ => lat l q | _ => 0 end.
Definition may_stay (o : pc_opts) (l : latency) (c : control) (d : Z) : Prop :=
  match c with
  | HsRun p => (d <= Z.of_N (patience l p))%Z
  | SyRun p => (d <= Z.of_N (patience l p))%Z
  | HsPause => (d <= Z.max 0 (po_retry o))%Z
  | SyPause d' => (d <= Z.max 0 d')%Z
  | SyReport _ => (d <= Z.of_N (l_report l))%Z
  | Stopped | Crashed => True
  end.
(** A schedule that does not hold up the session: time passes only as long as it may stay as it is.  [since]: when the main goroutine
    did something last. *)
Fixpoint prompt (o : pc_opts) (id : string) (env : environment) (l : latency) (t : timed) (since : Z) (sched : list tlabel) : Prop :=
  match sched with
  | [] => True
  | lab :: r =>
    match tstep o id env t lab with
    | None => False
    | Some t' =>
      match lab with
      | TPass _ => may_stay o l (ss_ctl (td_session t)) (td_now t' - since) /\ prompt o id env l t' since r
      | TDo (MStep _) => prompt o id env l t' (td_now t) r
      | TDo _ => prompt o id env l t' since r
      end
    end
  end.
(** An answer has no more blocks than were asked for (what the RPC client guarantees: C61) *)
Definition fits (q : req) : resp q -> Prop :=
  match q return resp q -> Prop with QPeerBlocks _ _ _ num => fun r => (N.of_nat (length (fst r)) <= num)%N | _ => fun _ => True end.

(** The longest that a handshake and a round take *)
Definition handshake_time (o : pc_opts) (l : latency) : N :=
  l_version l + l_local l + (2 + N.of_nat (length (po_checkpoints o))) * l_remote l.
Definition round_time (o : pc_opts) (l : latency) : N := l_local l + 2 * l_remote l + l_blocks l + po_batch o * l_apply l.
(** The longest pause between two rounds *)
Definition longest_pause (o : pc_opts) : N := Z.to_N (Z.max second (po_sleep o)).
(** The handshakes that failed in a log *)
Fixpoint failed_handshakes (log : list act) : N :=
  match log with [] => 0 | AHandshake (Some _) :: log => 1 + failed_handshakes log | _ :: log => failed_handshakes log end.
