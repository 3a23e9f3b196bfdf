(** Specification of the fork watchdog in terms of the history of calls only. *)
From Verif Require Import GoBase Watchdog_Model.

(** [b] is a block at height [h] by [signer] on top of [parent]. *)
Definition is_sibling (h : N) (signer parent : string) (b : block) : Prop :=
  exists hd, b_header b = Some hd /\ h_height hd = h /\ str (h_signer hd) = signer /\ str (h_previous hd) = parent.

(** [id] was added for that height, signer and parent since the last Purge covering the height. *)
Definition counted (hist : list wd_op) (h : N) (signer parent id : string) : Prop :=
  exists i b, hist !! i = Some (WAdd b) /\ is_sibling h signer parent b /\ str (b_id b) = id /\
    forall j lib, i < j -> hist !! j = Some (WPurge lib) -> (lib < h)%N.

(** More than three distinct ids satisfy [P]. *)
Definition more_than_three (P : string -> Prop) : Prop :=
  exists ids, NoDup ids /\ 3 < length ids /\ forall id, id ∈ ids -> P id.

(** The history without the Adds at or below a height. *)
Definition above (lib : N) (o : wd_op) : Prop :=
  match o with
  | WAdd b => match b_header b with Some h => (lib < h_height h)%N | None => True end
  | WPurge _ => True
  end.
