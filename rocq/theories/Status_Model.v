(** Model of BroadcastGossipStatus, internal/rpc/koinos_rpc.go:426-435, and of makeVersionString, cmd/koinos-p2p/main.go:60-70, 244-251. *)
From Verif Require Import GoBase Switch_Model.

(** koinos_rpc.go:434 *)
Definition status_topic : string := "koinos.gossip.status".
(** koinos_rpc.go:427-435.  [marshal]: canonical.Marshal of GossipStatus with this Enabled; [mq]: the answer of mq.Broadcast to a topic
    and data.  The messages handed to the queue, and the result. *)
Definition broadcast_gossip_status (marshal : bool -> option string) (mq : string -> string -> option goerr) (enabled : bool) : list (string * string) * option goerr :=
  match marshal enabled with
  | None => ([], Some (EWrap (ESent ErrSerialization)))
  | Some data => ([(status_topic, data)], mq status_topic data)
  end.
(** gossip.go:202, 207: the calls of a run of the node, oldest first, with the answers of the queue to them in turn.  A message is with
    the other services if the queue took it (Broadcast returned nil): koinosmq is not modelled further. *)
Fixpoint queue_after (marshal : bool -> option string) (calls : list (bool * option goerr)) : list (string * string) :=
  match calls with
  | [] => []
  | (b, answer) :: r =>
    match broadcast_gossip_status marshal (fun _ _ => answer) b with
    | (msgs, None) => msgs ++ queue_after marshal r
    | (_, Some _) => queue_after marshal r
    end
  end.
(** Whether such a call succeeds: the label [ok] of Switch_Model *)
Definition call_ok (marshal : bool -> option string) (call : bool * option goerr) : bool :=
  match snd (broadcast_gossip_status marshal (fun _ _ => snd call) (fst call)) with None => true | Some _ => false end.

(** main.go:66-68, 244-251.  [commit]: the variable Commit, set by the linker *)
Definition version_string (commit : string) : string :=
  let c := if Nat.leb 8 (Strings.String.length commit) then (Strings.String.append "(" (Strings.String.append (Strings.String.substring 0 8 commit) ")")) else "" in
  Strings.String.append "Koinos P2P" (Strings.String.append " " (Strings.String.append "v1.2.0" (Strings.String.append " " c))).
