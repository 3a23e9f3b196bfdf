(** Model of internal/p2p/fork_watchdog.go. *)
From stdpp Require Import sorting.
From Verif Require Import GoBase.

(** fork_watchdog.go:11-19.  [map[uint64]map[pairKey]map[string]void]; a pairKey is the pair
    (Signer, Parent).  The mutex is dropped: Add and Purge hold it for their whole bodies. *)
Notation wd_pairs := (gmap (string * string) (gset string)).
Notation watchdog := (gmap N (gmap (string * string) (gset string))).

(** fork_watchdog.go:21-25 NewForkWatchdog *)
Definition wd_new : watchdog := ∅.

(** fork_watchdog.go:28-52 Add.  A nil header is a nil dereference (line 33).  A missing inner map
    is created empty (lines 37-43), then the id is inserted (45) and counted (47). *)
Definition wd_add (t : watchdog) (b : block) : outcome (watchdog * option goerr) :=
  match b_header b with
  | None => Panic
  | Some h =>
    let pair := (str (h_signer h), str (h_previous h)) in
    let at_height : wd_pairs := default ∅ (t !! h_height h) in
    let ids : gset string := {[ str (b_id b) ]} ∪ default ∅ (at_height !! pair) in
    let t' := <[h_height h := <[pair := ids]> at_height]> t in
    Done (t', if bool_decide (3 < size ids) then Some (ESent ErrForkBomb) else None)
  end.

(** fork_watchdog.go:69-75, the loop over the sorted heights with its early exit. *)
Fixpoint wd_purge_loop (lib : N) (heights : list N) (t : watchdog) : watchdog :=
  match heights with
  | [] => t
  | h :: r => if bool_decide (h <= lib)%N then wd_purge_loop lib r (delete h t) else t
  end.

(** fork_watchdog.go:55-76 Purge: collect the heights in map order (lines 59-63), sort them (65-67),
    delete from below. *)
Definition wd_purge (t : watchdog) (lib : N) : watchdog :=
  wd_purge_loop lib (merge_sort N.le (map fst (map_to_list t))) t.

(** A sequence of calls, in the order in which they get the mutex. *)
Inductive wd_op := WAdd (b : block) | WPurge (lib : N).
Fixpoint wd_run (t : watchdog) (ops : list wd_op) : outcome (watchdog * list (option goerr)) :=
  match ops with
  | [] => Done (t, [])
  | WAdd b :: r =>
    obind (wd_add t b) (fun '(t', e) => obind (wd_run t' r) (fun '(t'', es) => Done (t'', e :: es)))
  | WPurge lib :: r => wd_run (wd_purge t lib) r
  end.
