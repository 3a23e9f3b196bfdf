(** Specification of the gossip switch of the wired node (C86-C90). *)
From Verif Require Import GoBase ConnMgr_Model ConnMgr_Spec Toggle_Model Switch_Model.

Definition sw_reach o initial existing (s : sw) : Prop := exists sched, sw_run o (sw_init initial existing) sched = Some s.
(** The network's notifications handled so far, oldest first *)
Definition seen (s : sw) : list netev := net_history (rev (cm_log (sw_cm s))).
(** [h] is the history at some moment between the states [s] and [s'] *)
Definition meanwhile (s s' : sw) (h : list netev) : Prop := seen s `prefix_of` h /\ h `prefix_of` seen s'.
(** The head time the node was last told (UpdateHeadTime), 0 if it was told none *)
Definition last_told (t : N) (lab : slabel) : N := match lab with WHead t' => t' | _ => t end.
Definition head_told (sched : list slabel) : N := fold_left last_told sched 0%N.
(** Gossip should be on: someone is connected, and the head block is not older than 45 seconds. *)
Definition should_gossip (h : list netev) (head : N) (now : Z) : Prop :=
  (exists p, last_connected h p) /\ (now - Z.of_N head * 1000000 <= 45 * second)%Z.

(** Neither --force-gossip nor --disable-gossip *)
Definition automatic (o : tg_opts) : Prop := tg_always_enable o = false /\ tg_always_disable o = false.
(** The statuses the node announced or tried to announce, oldest first *)
Definition announcements (s : sw) : list bool := rev (map fst (sw_status s)).
(** The statuses that reached the other services, oldest first *)
Definition delivered (s : sw) : list bool := rev (map fst (List.filter snd (sw_status s))).

(** Steps of the program that nobody outside has to take *)
Definition by_itself (lab : slabel) : bool :=
  match lab with
  | WCm l => match l with LStarted | LTakeEvent _ | LTakeQuery _ | LTakeSeed | LReply | LSeedAsk => true | _ => false end
  | WCount | WDecide _ | WOp _ | WStore => true
  | _ => false
  end.
(** The node's context ends, or that of another caller of the manager *)
Definition ends_context (lab : slabel) : bool := match lab with WStop | WCm (LExpire _) => true | _ => false end.
(** Both the toggle and Close are in EnableGossip(false). *)
Definition both_stopping (s : sw) : Prop := (exists x, sw_tog s = TCalling false x) /\ exists x, sw_close s = CCalling x.
(** No goroutine that EnableGossip(true) started is still to run. *)
Definition all_started (s : sw) : Prop := Forall (fun g => gs_blocks g <> GNotRun /\ gs_txs g <> GNotRun) (sw_sessions s).
