(** Specification of the protocol version lookup (C58). *)
From Verif Require Import GoBase Version_Model.
Local Open Scope string_scope.

Definition no_slash (s : string) : Prop := forall a b, s <> a ++ "/" ++ b.
(** [c] is what follows the last slash of [s] *)
Definition last_component (s c : string) : Prop := no_slash c /\ ((exists a, s = a ++ "/" ++ c) \/ s = c).
(** A string that names a version of this protocol *)
Definition names_version {V} (parse : string -> option V) (s : string) (v : V) : Prop :=
  exists rest c, s = "koinos/p2p/" ++ rest /\ last_component s c /\ parse c = Some v.
(** There is something to decide on. *)
Definition decisive (x : stored) : Prop := match x with StNone => False | StString s => s <> "" | StOther => True end.
