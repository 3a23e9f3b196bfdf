(** Specification of the transaction cache, independent of its data structures:
    a map from transaction id to the time of its last admission; nothing is ever forgotten. *)
From Verif Require Import GoBase.

Notation admissions := (gmap string Z).

(** Is [id] a duplicate at time [now]?  Exactly if its last admission is at most [dur] ago. *)
Definition recent (dur now : Z) (adm : admissions) (id : string) : bool :=
  match adm !! id with
  | Some a => bool_decide (now - a <= dur)%Z
  | None => false
  end.

(** Observing ids in order at time [now]: a duplicate is counted and does not refresh the
    admission, anything else is admitted now. *)
Fixpoint spec_check (dur now : Z) (ids : list string) (adm : admissions) : admissions * nat :=
  match ids with
  | [] => (adm, 0)
  | id :: r =>
    if recent dur now adm id
    then let '(adm', n) := spec_check dur now r adm in (adm', S n)
    else spec_check dur now r (<[id := now]> adm)
  end.

(** Results of a history of calls. *)
Fixpoint spec_results (dur : Z) (calls : list (Z * list string)) (adm : admissions) : list nat :=
  match calls with
  | [] => []
  | (now, ids) :: r =>
    let '(adm', n) := spec_check dur now ids adm in n :: spec_results dur r adm'
  end.

(** The clock readings of a history never go backwards. *)
Definition clock_monotone {A} (calls : list (Z * A)) : Prop :=
  forall i j t u x y, i <= j -> calls !! i = Some (t, x) -> calls !! j = Some (u, y) -> (t <= u)%Z.
