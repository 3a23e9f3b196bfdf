(** The gossip toggle, gossip itself, the connection manager and Close as wired by internal/node/node.go:196-216, 376-384 and 405-421, in
    steps finer than those of [Toggle_Model] and [GossipLife_Model]: a tick of the toggle asks the manager, and EnableGossip may be called
    by the toggle and by Close at the same time.  Message readers are in [GossipLife_Model]. *)
From Verif Require Import GoBase ConnMgr_Model Toggle_Model.

(** Where a call of EnableGossip is, gossip.go:198-210 with StartGossip (213-218) and StopGossip (238-246) *)
Inductive op :=
| OStart                   (* 215-218: a new context, gossipCancel, and the two starter goroutines *)
| OStopBlocks              (* 240 *)
| OStopTxs                 (* 241 *)
| OCheck                   (* 242: is gossipCancel nil? *)
| OCancel                  (* 243: the function gossipCancel points to is called *)
| OClear                   (* 244 *)
| OAnnounce (b : bool).    (* 202, 207: BroadcastGossipStatus *)
(** Where the goroutine of GossipToggle.Start is, gossip_toggle.go:44-103 *)
Inductive tphase :=
| TNew
| TIdle                    (* 65-69 *)
| TAsking (j : nat)        (* 71: in GetNumConnections, as caller [j] of the manager *)
| TCounted (n : nat)       (* 71, 78-84: before the decision *)
| TCalling (b : bool) (o : op)
| TStoring (b : bool)      (* 49-51, 74-76, 87-89, 95-97: before g.enabled is set *)
| TEnded.
Global Instance op_eq_dec : EqDecision op.
Proof. solve_decision. Defined.
Global Instance tphase_eq_dec : EqDecision tphase.
Proof. solve_decision. Defined.
(** Where a call of node.Close is, node.go:376-384 *)
Inductive cphase := CNotCalled | CCalling (o : op) | CHost | CClosed.
(** The goroutine of startBlockGossip or startTransactionGossip, gossip.go:286-308: before Start, in its loop, returned *)
Inductive gstarter := GNotRun | GLoop | GExited.
Inductive gtopic := Blocks | Txs.
(** One call of StartGossip *)
Record gsession := GSession { gs_cancelled : bool; gs_blocks : gstarter; gs_txs : gstarter }.

Record sw := Sw {
  sw_cm : cm;                      (* its context is the node's *)
  sw_tog : tphase;
  sw_enabled : bool;               (* what IsEnabled returns, gossip_toggle.go:30-34 *)
  sw_head : N;
  sw_sessions : list gsession;
  sw_blocks : bool;                (* Enabled of the two gossip managers *)
  sw_txs : bool;
  sw_cancel : option nat;          (* gossipCancel: the session whose context it cancels *)
  sw_close : cphase;
  sw_status : list (bool * bool);  (* ghost: calls of BroadcastGossipStatus, newest first; whether they succeeded *)
  sw_published : nat;              (* ghost: messages handed to a topic *)
  sw_panic : bool }.
(** node.go:70-220: constructed, with the connections the host had when the manager's Start asked for them *)
Definition sw_init (initial : list string) (existing : list conn) : sw :=
  Sw (cm_init initial existing) TNew false 0 [] false false None CNotCalled [] 0 false.
Definition sw_stopped (s : sw) : bool := cm_cancelled (sw_cm s).

Definition with_cm (c : cm) (s : sw) : sw :=
  Sw c (sw_tog s) (sw_enabled s) (sw_head s) (sw_sessions s) (sw_blocks s) (sw_txs s) (sw_cancel s) (sw_close s) (sw_status s) (sw_published s) (sw_panic s).
Definition with_tog (t : tphase) (s : sw) : sw :=
  Sw (sw_cm s) t (sw_enabled s) (sw_head s) (sw_sessions s) (sw_blocks s) (sw_txs s) (sw_cancel s) (sw_close s) (sw_status s) (sw_published s) (sw_panic s).
Definition with_enabled (b : bool) (s : sw) : sw :=
  Sw (sw_cm s) (sw_tog s) b (sw_head s) (sw_sessions s) (sw_blocks s) (sw_txs s) (sw_cancel s) (sw_close s) (sw_status s) (sw_published s) (sw_panic s).
Definition with_sessions (l : list gsession) (s : sw) : sw :=
  Sw (sw_cm s) (sw_tog s) (sw_enabled s) (sw_head s) l (sw_blocks s) (sw_txs s) (sw_cancel s) (sw_close s) (sw_status s) (sw_published s) (sw_panic s).
Definition with_cancel (x : option nat) (s : sw) : sw :=
  Sw (sw_cm s) (sw_tog s) (sw_enabled s) (sw_head s) (sw_sessions s) (sw_blocks s) (sw_txs s) x (sw_close s) (sw_status s) (sw_published s) (sw_panic s).
Definition with_topic (t : gtopic) (b : bool) (s : sw) : sw :=
  Sw (sw_cm s) (sw_tog s) (sw_enabled s) (sw_head s) (sw_sessions s) (match t with Blocks => b | Txs => sw_blocks s end)
     (match t with Txs => b | Blocks => sw_txs s end) (sw_cancel s) (sw_close s) (sw_status s) (sw_published s) (sw_panic s).
Definition with_close (c : cphase) (s : sw) : sw :=
  Sw (sw_cm s) (sw_tog s) (sw_enabled s) (sw_head s) (sw_sessions s) (sw_blocks s) (sw_txs s) (sw_cancel s) c (sw_status s) (sw_published s) (sw_panic s).
Definition announce (b ok : bool) (s : sw) : sw :=
  Sw (sw_cm s) (sw_tog s) (sw_enabled s) (sw_head s) (sw_sessions s) (sw_blocks s) (sw_txs s) (sw_cancel s) (sw_close s) ((b, ok) :: sw_status s) (sw_published s) (sw_panic s).
Definition crash (s : sw) : sw :=
  Sw (sw_cm s) (sw_tog s) (sw_enabled s) (sw_head s) (sw_sessions s) (sw_blocks s) (sw_txs s) (sw_cancel s) (sw_close s) (sw_status s) (sw_published s) true.
Definition topic_on (t : gtopic) (s : sw) : bool := match t with Blocks => sw_blocks s | Txs => sw_txs s end.
(** gossip.go:243: the context of a session is cancelled *)
Definition end_session (g : gsession) : gsession := GSession true (gs_blocks g) (gs_txs g).
Definition starter_of (t : gtopic) (g : gsession) : gstarter := match t with Blocks => gs_blocks g | Txs => gs_txs g end.
Definition move_starter (t : gtopic) (x : gstarter) (g : gsession) : gsession :=
  match t with Blocks => GSession (gs_cancelled g) x (gs_txs g) | Txs => GSession (gs_cancelled g) (gs_blocks g) x end.

(** gossip.go:198-246: one step of EnableGossip, and what is left of it; [ok]: the broadcast succeeds (its error is dropped) *)
Definition op_step (x : op) (ok : bool) (s : sw) : sw * option op :=
  match x with
  | OStart => (with_cancel (Some (length (sw_sessions s))) (with_sessions (sw_sessions s ++ [GSession (sw_stopped s) GNotRun GNotRun]) s), Some (OAnnounce true))
  | OStopBlocks => (with_topic Blocks false s, Some OStopTxs)
  | OStopTxs => (with_topic Txs false s, Some OCheck)
  | OCheck => (s, Some (match sw_cancel s with Some _ => OCancel | None => OAnnounce false end))
  | OCancel =>
    match sw_cancel s with
    | Some i => (with_sessions (alter end_session i (sw_sessions s)) s, Some OClear)
    | None => (crash s, None)             (* nil pointer dereference *)
    end
  | OClear => (with_cancel None s, Some (OAnnounce false))
  | OAnnounce b => (announce b ok s, None)
  end.
(** gossip.go:198-205: where EnableGossip begins *)
Definition op_begin (b : bool) : op := if b then OStart else OStopBlocks.
(** gossip_toggle.go:71, 80-84: should gossip be on, with [n] connections, the stored head time and the clock? *)
Definition decide_on (n : nat) (head : N) (now : Z) : bool :=
  negb (bool_decide (n = 0)) && bool_decide (time_sub now (tg_head_instant head) <= 45 * second)%Z.

Inductive slabel :=
| WCm (l : cm_label)               (* a step of the manager, the network or its other callers *)
| WStart                           (* the goroutine of GossipToggle.Start begins *)
| WTick                            (* the ticker fires *)
| WEnd                             (* the toggle sees its context done *)
| WCount                           (* GetNumConnections returns to the toggle *)
| WDecide (now : Z)
| WOp (ok : bool)                  (* the toggle's call of EnableGossip goes on *)
| WStore
| WHead (t : N)                    (* UpdateHeadTime *)
| WStarter (i : nat) (t : gtopic) (ok : bool) (* gossip.go:288-291 with GossipManager.Start (72-96) *)
| WStarterExit (i : nat) (t : gtopic)         (* gossip.go:303 *)
| WPublish (t : gtopic)            (* PublishBlock, PublishTransaction by anyone, gossip.go:249-284 *)
| WClose                           (* Close is called (once) *)
| WCloseOp (ok : bool)             (* its call of EnableGossip goes on *)
| WHostClosed                      (* node.go:379-383: Host.Close and Close return *)
| WStop.                           (* the node's context is done *)

Section system.
Context (o : tg_opts).

Definition sw_step (s : sw) (lab : slabel) : option sw :=
  if sw_panic s then None else
  match lab with
  | WCm l =>
    match l with
    | LCancel => None                     (* WStop *)
    | LExpire j => if decide (sw_tog s = TAsking j) then None else c ← cm_step (sw_cm s) l; Some (with_cm c s)
    | _ => c ← cm_step (sw_cm s) l; Some (with_cm c s)
    end
  | WStart =>                             (* gossip_toggle.go:45-61 *)
    match sw_tog s with
    | TNew => Some (if tg_always_enable o then with_tog (TCalling true OStart) s
                    else if tg_always_disable o then with_tog TEnded (with_enabled false s) else with_tog TIdle s)
    | _ => None
    end
  | WTick =>
    match sw_tog s with
    | TIdle =>
      let j := length (cm_callers (sw_cm s)) in
      c ← cm_step (sw_cm s) (LCall QNum);
      c ← (if sw_stopped s then cm_step c (LExpire j) else Some c);
      Some (with_tog (TAsking j) (with_cm c s))
    | _ => None
    end
  | WEnd => match sw_tog s with TIdle => if sw_stopped s then Some (with_tog TEnded s) else None | _ => None end
  | WCount =>
    match sw_tog s with
    | TAsking j =>
      match cm_callers (sw_cm s) !! j with
      | Some (Caller _ (ClReturned (ANum n)) _) => Some (with_tog (TCounted n) s)
      | _ => None
      end
    | _ => None
    end
  | WDecide now =>
    match sw_tog s with
    | TCounted n =>
      let b := decide_on n (sw_head s) now in
      Some (with_tog (if eqb b (sw_enabled s) then TIdle else TCalling b (op_begin b)) s)
    | _ => None
    end
  | WOp ok =>
    match sw_tog s with
    | TCalling b x => let '(s, r) := op_step x ok s in Some (with_tog (match r with Some x => TCalling b x | None => TStoring b end) s)
    | _ => None
    end
  | WStore =>
    match sw_tog s with
    | TStoring b => Some (with_tog (if tg_always_enable o then TEnded else TIdle) (with_enabled b s))
    | _ => None
    end
  | WHead t =>
    Some (Sw (sw_cm s) (sw_tog s) (sw_enabled s) t (sw_sessions s) (sw_blocks s) (sw_txs s) (sw_cancel s) (sw_close s) (sw_status s) (sw_published s) (sw_panic s))
  | WStarter i t ok =>
    g ← sw_sessions s !! i;
    match starter_of t g with
    | GNotRun =>
      let s := with_sessions (<[i := move_starter t GLoop g]> (sw_sessions s)) s in
      Some (if ok && negb (topic_on t s) then with_topic t true s else s)
    | _ => None
    end
  | WStarterExit i t =>
    g ← sw_sessions s !! i;
    match starter_of t g with
    | GLoop => if gs_cancelled g then Some (with_sessions (<[i := move_starter t GExited g]> (sw_sessions s)) s) else None
    | _ => None
    end
  | WPublish t =>
    Some (Sw (sw_cm s) (sw_tog s) (sw_enabled s) (sw_head s) (sw_sessions s) (sw_blocks s) (sw_txs s) (sw_cancel s) (sw_close s) (sw_status s)
             (if topic_on t s then S (sw_published s) else sw_published s) (sw_panic s))
  | WClose => match sw_close s with CNotCalled => Some (with_close (CCalling OStopBlocks) s) | _ => None end
  | WCloseOp ok =>
    match sw_close s with
    | CCalling x => let '(s, r) := op_step x ok s in Some (with_close (match r with Some x => CCalling x | None => CHost end) s)
    | _ => None
    end
  | WHostClosed => match sw_close s with CHost => Some (with_close CClosed s) | _ => None end
  | WStop =>
    c ← cm_step (sw_cm s) LCancel;
    c ← match sw_tog s with TAsking j => cm_step c (LExpire j) | _ => Some c end;
    Some (with_sessions (map end_session (sw_sessions s)) (with_cm c s))
  end.

Fixpoint sw_run (s : sw) (sched : list slabel) : option sw :=
  match sched with
  | [] => Some s
  | lab :: r => match sw_step s lab with Some s' => sw_run s' r | None => None end
  end.
End system.
