(** Specification for C127: what others learn about the node. *)
From Verif Require Import GoBase Switch_Model Node_Model.

(** A service that reads the topic: it believes what the last message said, and before the first one that gossip is off. *)
Definition believes (decode : string -> bool) (queue : list (string * string)) : bool :=
  match last (List.filter (fun m => bool_decide (fst m = "koinos.gossip.status")) queue) with Some m => decode (snd m) | None => false end.
(** [decode] undoes [marshal]. *)
Definition decodes (marshal : bool -> option string) (decode : string -> bool) : Prop := forall b, exists d, marshal b = Some d /\ decode d = b.
(** The calls of a run, oldest first: which status was to be announced, and how the queue answered; they are the announcements of the
    run, and succeeded as the run says. *)
Definition calls_of (ok : bool * option goerr -> bool) (s : sw) (calls : list (bool * option goerr)) : Prop :=
  rev (sw_status s) = map (fun c => (fst c, ok c)) calls.
(** The first eight bytes of the commit, if there are so many *)
Definition short (commit : string) : option string := if Nat.leb 8 (Strings.String.length commit) then Some (Strings.String.substring 0 8 commit) else None.
