(** Specification of the connection manager (C53-C57, C68, C73), in terms of what it is told and what it does. *)
From Verif Require Import GoBase ErrHandler_Model ConnMgr_Model.

(** ** Notifications handled so far, oldest first *)
Definition net_history (l : list obs) : list netev :=
  omap (fun x => match x with GNet e => Some e | _ => None end) l.
Definition ev_peer (e : netev) : string := match e with NConnected c | NDisconnected c => cn_peer c end.

(** The latest event about [p] is a connect. *)
Definition last_connected (h : list netev) (p : string) : Prop :=
  exists h1 c h2, h = h1 ++ NConnected c :: h2 /\ cn_peer c = p /\ Forall (fun e => ev_peer e <> p) h2.
(** [c] is the connection that began the present period of [p] being connected. *)
Definition session_conn (h : list netev) (p : string) (c : conn) : Prop :=
  exists h1 h2, h = h1 ++ NConnected c :: h2 /\ cn_peer c = p /\ ~ last_connected h1 p /\
    Forall (fun e => forall c', e = NDisconnected c' -> cn_peer c' <> p) h2.

(** C53: the right answer to a query after the events [h] *)
Definition right_answer (h : list netev) (q : query) (a : answer) : Prop :=
  match q, a with
  | QIs p, AIs b => b = true <-> last_connected h p
  | QNum, ANum n => exists l : list string, NoDup l /\ (forall p, p ∈ l <-> last_connected h p) /\ length l = n
  | QAddr p, AAddr (Some a) => last_connected h p /\ exists c, session_conn h p c /\ cn_addr c = a
  | QAddr p, AAddr None => ~ last_connected h p
  | _, _ => False
  end.

(** What a call whose context is done before it has an answer returns: the zero value of its result type. *)
Definition gave_up (q : query) (a : answer) : Prop :=
  match q with QAddr _ => a = AAddr None | QNum => a = ANum 0 | QIs _ => a = AIs false end.

(** ** C54: connections *)
Definition is_open (h : list netev) (c : conn) : Prop :=
  exists h1 h2, h = h1 ++ NConnected c :: h2 /\ NDisconnected c ∉ h2.
(** What a network can report: a connection is opened at most once and closed at most once, after it was opened. *)
Definition real_history (h : list netev) : Prop :=
  NoDup h /\ forall h1 c h2, h = h1 ++ NDisconnected c :: h2 -> NConnected c ∈ h1.
(** A new connection to a peer is opened only when there is no open one. *)
Definition one_at_a_time (h : list netev) : Prop :=
  forall h1 c h2, h = h1 ++ NConnected c :: h2 -> forall c', cn_peer c' = cn_peer c -> ~ is_open h1 c'.

(** ** C55: sessions *)
Definition running (l : list obs) (sid : nat) (c : conn) : Prop := GStart sid c ∈ l /\ GCancel sid ∉ l.
Definition started (l : list obs) : list nat := omap (fun x => match x with GStart sid _ => Some sid | _ => None end) l.
Definition cancelled_sessions (l : list obs) : list nat := omap (fun x => match x with GCancel sid => Some sid | _ => None end) l.

(** ** C57: rounds of the seed loop *)
Definition seed_trace (l : list obs) : list obs :=
  List.filter (fun x => match x with GRound | GSeed _ _ | GDial _ => true | _ => false end) l.
Definition visit (v : string * bool) : list obs := GSeed v.1 v.2 :: if v.2 then [] else [GDial v.1].
(** A round visits every seed once and dials exactly those found not connected. *)
Definition complete_round (initial : list string) (r : list obs) : Prop :=
  exists vs, NoDup (map fst vs) /\ (forall p, p ∈ map fst vs <-> p ∈ initial) /\ r = GRound :: flat_map visit vs.
Definition partial_round (initial : list string) (r : list obs) : Prop :=
  exists vs, NoDup (map fst vs) /\ (forall p, p ∈ map fst vs -> p ∈ initial) /\ r = GRound :: flat_map visit vs.
Definition dials (l : list obs) : nat := length (List.filter (fun x => match x with GDial _ => true | _ => false end) l).
Definition seed_rounds (l : list obs) : nat := length (List.filter (fun x => match x with GRound => true | _ => false end) l).

(** ** Executions *)
Definition cm_reach (initial : list string) (existing : list conn) (s : cm) : Prop :=
  exists sched, cm_run (cm_init initial existing) sched = Some s.
(** the manager loop does something for others *)
Definition serves (x : obs) : bool :=
  match x with GNet _ | GAnswer _ _ _ | GStart _ _ | GCancel _ => true | _ => false end.
Definition returned (s : cm) (i : nat) (a : answer) : Prop := exists q x, cm_callers s !! i = Some (Caller q (ClReturned a) x).
