(** Model of internal/p2p/connection_manager.go (all but GetProtocolVersion, which is in Version_Model.v).
    The manager is a labelled transition system: its loop, the goroutine of Start, the seed loop, the
    goroutines of the network that deliver notifications, and callers of the three queries, interleaved in
    any order.  Channels are unbuffered: a send and the matching receive are one step. *)
From Verif Require Import GoBase ErrHandler_Model.

(** A network connection (network.Conn): RemotePeer, RemoteMultiaddr and an identity *)
Record conn := Conn { cn_peer : string; cn_addr : maddr; cn_id : nat }.

(** Notifications of the network: connection_manager.go:125-133 *)
Inductive netev := NConnected (c : conn) | NDisconnected (c : conn).

(** connection_manager.go:29-41 the three queries; lines 143-180 their answers, and the answer when the
    caller's context ends first (lines 152, 165, 178) *)
Inductive query := QAddr (p : string) | QNum | QIs (p : string).
Inductive answer := AAddr (a : option maddr) | ANum (n : nat) | AIs (b : bool).
Definition no_answer (q : query) : answer :=
  match q with QAddr _ => AAddr None | QNum => ANum 0 | QIs _ => AIs false end.

(** connection_manager.go:143-180: a caller is sending its message, waiting in the select, or has returned.
    [cl_expired]: its context is done. *)
Inductive cl_state := ClSending | ClWaiting | ClReturned (a : answer).
Record caller := Caller { cl_query : query; cl_state_of : cl_state; cl_expired : bool }.

(** connection_manager.go:323-346: the loop is not started, in its select, in the select of one of the
    three handlers that answer (lines 270-296), or has ended. *)
Inductive asker := ByCaller (i : nat) | BySeeds.
Inductive manager := MNotStarted | MServing | MReplying (w : asker) (q : query) (a : answer) | MEnded.

(** connection_manager.go:298-321: the seed loop is not started, between two seeds of a round, in
    IsConnected (sending, waiting), in host.Connect, or in the select between rounds.  It has no end. *)
Inductive seed_ctl :=
| SdNotStarted
| SdNext (todo : list string)
| SdSending (p : string) (todo : list string)
| SdWaiting (p : string) (todo : list string)
| SdDialing (p : string) (todo : list string)
| SdPausing.

(** What happens, newest first *)
Inductive obs :=
| GNet (e : netev)                       (* a notification was handled *)
| GStart (sid : nat) (c : conn)          (* a sync session was started *)
| GCancel (sid : nat)                    (* the context of a session was cancelled *)
| GShutdown                              (* the loop saw its context done *)
| GAnswer (w : asker) (q : query) (a : answer) (* the loop's answer was received *)
| GReturn (i : nat) (a : answer)         (* a call returned *)
| GRound                                 (* the seed loop starts a round *)
| GSeed (p : string) (connected : bool)  (* result of IsConnected in the seed loop *)
| GDial (p : string).                    (* host.Connect of a seed *)

Record cm := Cm {
  cm_seeds : list string;                (* keys of initialPeers, lines 60, 110-112 *)
  cm_starter : option (list conn);       (* connections Start still has to send; None: it has returned *)
  cm_manager : manager;
  cm_peers : gmap string (nat * conn);   (* connectedPeers, line 61: session and its connection *)
  cm_next : nat;                         (* number of sessions started *)
  cm_blocked : list netev;               (* notifications whose goroutine waits to send *)
  cm_callers : list caller;
  cm_seed : seed_ctl;
  cm_cancelled : bool;                   (* the context of Start is done *)
  cm_log : list obs }.

(** connection_manager.go:71-115 and the call of Start, line 349, with the connections the host has then
    (one per peer, lines 351-354) *)
Definition cm_init (initial : list string) (existing : list conn) : cm :=
  Cm (remove_dups initial) (Some existing) MNotStarted ∅ 0 [] [] SdNotStarted false [].

(** connection_manager.go:228-254 handleConnected; the session itself is [PeerConn_Model.session_init] *)
Definition handle_connected (c : conn) (s : cm) : cm :=
  let s := Cm (cm_seeds s) (cm_starter s) (cm_manager s) (cm_peers s) (cm_next s) (cm_blocked s) (cm_callers s) (cm_seed s) (cm_cancelled s)
              (GNet (NConnected c) :: cm_log s) in
  match cm_peers s !! cn_peer c with
  | Some _ => s
  | None =>
    Cm (cm_seeds s) (cm_starter s) (cm_manager s) (<[cn_peer c := (cm_next s, c)]> (cm_peers s)) (S (cm_next s)) (cm_blocked s) (cm_callers s) (cm_seed s) (cm_cancelled s)
       (GStart (cm_next s) c :: cm_log s)
  end.
(** connection_manager.go:256-268 handleDisconnected *)
Definition handle_disconnected (c : conn) (s : cm) : cm :=
  let s := Cm (cm_seeds s) (cm_starter s) (cm_manager s) (cm_peers s) (cm_next s) (cm_blocked s) (cm_callers s) (cm_seed s) (cm_cancelled s)
              (GNet (NDisconnected c) :: cm_log s) in
  match cm_peers s !! cn_peer c with
  | Some (sid, _) =>
    Cm (cm_seeds s) (cm_starter s) (cm_manager s) (delete (cn_peer c) (cm_peers s)) (cm_next s) (cm_blocked s) (cm_callers s) (cm_seed s) (cm_cancelled s)
       (GCancel sid :: cm_log s)
  | None => s
  end.
Definition handle (e : netev) (s : cm) : cm :=
  match e with NConnected c => handle_connected c s | NDisconnected c => handle_disconnected c s end.

(** connection_manager.go:270-296: what the three handlers send back *)
Definition answer_to (peers : gmap string (nat * conn)) (q : query) : answer :=
  match q with
  | QAddr p => AAddr ((fun x => cn_addr x.2) <$> peers !! p)
  | QNum => ANum (size peers)
  | QIs p => AIs (bool_decide (is_Some (peers !! p)))
  end.

Definition set_manager (m : manager) (s : cm) : cm :=
  Cm (cm_seeds s) (cm_starter s) m (cm_peers s) (cm_next s) (cm_blocked s) (cm_callers s) (cm_seed s) (cm_cancelled s) (cm_log s).
Definition set_blocked (b : list netev) (s : cm) : cm :=
  Cm (cm_seeds s) (cm_starter s) (cm_manager s) (cm_peers s) (cm_next s) b (cm_callers s) (cm_seed s) (cm_cancelled s) (cm_log s).
Definition set_callers (c : list caller) (s : cm) : cm :=
  Cm (cm_seeds s) (cm_starter s) (cm_manager s) (cm_peers s) (cm_next s) (cm_blocked s) c (cm_seed s) (cm_cancelled s) (cm_log s).
Definition set_seed (d : seed_ctl) (s : cm) : cm :=
  Cm (cm_seeds s) (cm_starter s) (cm_manager s) (cm_peers s) (cm_next s) (cm_blocked s) (cm_callers s) d (cm_cancelled s) (cm_log s).
Definition set_starter (x : option (list conn)) (s : cm) : cm :=
  Cm (cm_seeds s) x (cm_manager s) (cm_peers s) (cm_next s) (cm_blocked s) (cm_callers s) (cm_seed s) (cm_cancelled s) (cm_log s).
Definition logs (l : list obs) (s : cm) : cm :=
  Cm (cm_seeds s) (cm_starter s) (cm_manager s) (cm_peers s) (cm_next s) (cm_blocked s) (cm_callers s) (cm_seed s) (cm_cancelled s) (l ++ cm_log s).

(** connection_manager.go:305-312: the seed loop goes on with the result of IsConnected *)
Definition seed_result (p : string) (todo : list string) (connected : bool) (s : cm) : cm :=
  if connected then set_seed (SdNext todo) (logs [GSeed p true] s)
  else set_seed (SdDialing p todo) (logs [GDial p; GSeed p false] s).

Inductive cm_label :=
| LCancel                       (* the context of Start is done *)
| LNotify (e : netev)           (* the network calls Connected or Disconnected *)
| LCall (q : query)             (* someone calls a query *)
| LExpire (i : nat)             (* the context of caller i is done *)
| LHandOver                     (* the loop receives a connection from Start *)
| LStarted                      (* Start has sent all and starts the two loops *)
| LTakeEvent (i : nat)          (* the loop receives the i-th blocked notification *)
| LTakeQuery (i : nat)          (* the loop receives the message of caller i *)
| LTakeSeed                     (* the loop receives the message of the seed loop *)
| LReply                        (* the answer is received *)
| LGiveUp                       (* the loop gives up answering: its context is done *)
| LTimeout (i : nat)            (* caller i returns because its context is done *)
| LShutdown                     (* the loop sees its context done *)
| LRound (order : list string)  (* the seed loop leaves its select; order in which it visits the map *)
| LSeedAsk                      (* the seed loop calls IsConnected for the next seed, or ends the round *)
| LSeedTimeout                  (* IsConnected in the seed loop returns because the context is done *)
| LDialed.                      (* host.Connect returns *)

Definition cm_step (s : cm) (lab : cm_label) : option cm :=
  match lab with
  | LCancel =>
    Some (Cm (cm_seeds s) (cm_starter s) (cm_manager s) (cm_peers s) (cm_next s) (cm_blocked s) (cm_callers s) (cm_seed s) true (cm_log s))
  | LNotify e => Some (set_blocked (cm_blocked s ++ [e]) s)                          (* 126-133 *)
  | LCall q => Some (set_callers (cm_callers s ++ [Caller q ClSending false]) s)     (* 143-180 *)
  | LExpire i =>
    match cm_callers s !! i with
    | Some (Caller q st _) => Some (set_callers (<[i := Caller q st true]> (cm_callers s)) s)
    | None => None
    end
  | LHandOver =>                                                                     (* 354, 326 *)
    match cm_manager s, cm_starter s with
    | MServing, Some (c :: cs) => Some (handle_connected c (set_starter (Some cs) s))
    | _, _ => None
    end
  | LStarted =>                                                                      (* 358-359, 299-304 *)
    match cm_starter s with
    | Some [] => Some (set_seed SdPausing (set_manager MServing (set_starter None s)))
    | _ => None
    end
  | LTakeEvent i =>                                                                  (* 326-329 *)
    match cm_manager s, cm_blocked s !! i with
    | MServing, Some e => Some (handle e (set_blocked (delete i (cm_blocked s)) s))
    | _, _ => None
    end
  | LTakeQuery i =>                                                                  (* 330-335 *)
    match cm_manager s, cm_callers s !! i with
    | MServing, Some (Caller q ClSending x) =>
      Some (set_manager (MReplying (ByCaller i) q (answer_to (cm_peers s) q)) (set_callers (<[i := Caller q ClWaiting x]> (cm_callers s)) s))
    | _, _ => None
    end
  | LTakeSeed =>
    match cm_manager s, cm_seed s with
    | MServing, SdSending p todo =>
      Some (set_manager (MReplying BySeeds (QIs p) (answer_to (cm_peers s) (QIs p))) (set_seed (SdWaiting p todo) s))
    | _, _ => None
    end
  | LReply =>                                                                        (* 276-279, 284-285, 293-294 *)
    match cm_manager s with
    | MReplying (ByCaller i) q a =>
      match cm_callers s !! i with
      | Some (Caller q' ClWaiting x) =>
        Some (logs [GReturn i a; GAnswer (ByCaller i) q a] (set_manager MServing (set_callers (<[i := Caller q' (ClReturned a) x]> (cm_callers s)) s)))
      | _ => None
      end
    | MReplying BySeeds q a =>
      match cm_seed s, a with
      | SdWaiting p todo, AIs b => Some (seed_result p todo b (logs [GAnswer BySeeds q a] (set_manager MServing s)))
      | _, _ => None
      end
    | _ => None
    end
  | LGiveUp =>
    match cm_manager s with
    | MReplying _ _ _ => if cm_cancelled s then Some (set_manager MServing s) else None
    | _ => None
    end
  | LTimeout i =>                                                                    (* 151, 164, 177 *)
    match cm_callers s !! i with
    | Some (Caller q ClWaiting true) =>
      Some (logs [GReturn i (no_answer q)] (set_callers (<[i := Caller q (ClReturned (no_answer q)) true]> (cm_callers s)) s))
    | _ => None
    end
  | LShutdown =>                                                                     (* 337-343 *)
    match cm_manager s with
    | MServing =>
      if cm_cancelled s
      then Some (Cm (cm_seeds s) (cm_starter s) MEnded ∅ (cm_next s) (cm_blocked s) (cm_callers s) (cm_seed s) true
                    (map (fun x => GCancel x.2.1) (map_to_list (cm_peers s)) ++ GShutdown :: cm_log s))
      else None
    | _ => None
    end
  | LRound order =>                                                                  (* 306-307, 316-319 *)
    match cm_seed s with
    | SdPausing =>
      if bool_decide (NoDup order) && bool_decide ((list_to_set order : gset string) = list_to_set (cm_seeds s))
      then Some (set_seed (SdNext order) (logs [GRound] s)) else None
    | _ => None
    end
  | LSeedAsk =>                                                                      (* 307-308, 316 *)
    match cm_seed s with
    | SdNext (p :: todo) => Some (set_seed (SdSending p todo) s)
    | SdNext [] => Some (set_seed SdPausing s)
    | _ => None
    end
  | LSeedTimeout =>                                                                  (* 177-178 *)
    match cm_seed s with
    | SdWaiting p todo => if cm_cancelled s then Some (seed_result p todo false s) else None
    | _ => None
    end
  | LDialed =>                                                                       (* 310-312 *)
    match cm_seed s with
    | SdDialing p todo => Some (set_seed (SdNext todo) s)
    | _ => None
    end
  end.

Fixpoint cm_run (s : cm) (sched : list cm_label) : option cm :=
  match sched with
  | [] => Some s
  | lab :: r => match cm_step s lab with Some s' => cm_run s' r | None => None end
  end.
