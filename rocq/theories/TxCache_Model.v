(** Model of internal/p2p/transaction_cache.go. *)
From Verif Require Import GoBase.

(** transaction_cache.go:15-18 *)
Record tx_item := TxItem { ti_id : string; ti_time : Z }.

(** transaction_cache.go:21-26.  The map [map[string]void] is a set; the mutex is dropped because
    [CheckTransactions] holds it for its whole body (lines 58-59), so calls are atomic and ordered. *)
Record tx_cache := TxCache { tc_map : gset string; tc_items : list tx_item; tc_dur : Z }.

(** transaction_cache.go:29-37 NewTransactionCache *)
Definition tx_new (dur : Z) : tx_cache := TxCache ∅ [] dur.

(** transaction_cache.go:39-53 addTransactionItem; the panic of line 45 is an outcome.
    The log lines are dropped. *)
Definition tx_add (c : tx_cache) (it : tx_item) : outcome tx_cache :=
  let older := match last (tc_items c) with
               | Some l => bool_decide (ti_time it < ti_time l)%Z
               | None => false
               end in
  if older then Panic
  else Done (TxCache ({[ ti_id it ]} ∪ tc_map c) (tc_items c ++ [it]) (tc_dur c)).

(** transaction_cache.go:90-97, the loop of pruneTransactions: walks all items, deletes the id of
    every expired one from the map and counts them. *)
Fixpoint tx_prune_loop (now dur : Z) (its : list tx_item) (m : gset string) (n : nat) : gset string * nat :=
  match its with
  | [] => (m, n)
  | it :: r =>
    if bool_decide (time_sub now (ti_time it) > dur)%Z
    then tx_prune_loop now dur r (m ∖ {[ ti_id it ]}) (S n)
    else tx_prune_loop now dur r m n
  end.

(** transaction_cache.go:90-105 pruneTransactions: the first [pruneCount] items are cut off,
    whichever items were the expired ones. *)
Definition tx_prune (now : Z) (c : tx_cache) : tx_cache :=
  let '(m, n) := tx_prune_loop now (tc_dur c) (tc_items c) (tc_map c) 0 in
  TxCache m (drop n (tc_items c)) (tc_dur c).

(** transaction_cache.go:66-80, the loop of CheckTransactions over the ids. *)
Fixpoint tx_check_loop (now : Z) (ids : list string) (c : tx_cache) (count : nat) : outcome (tx_cache * nat) :=
  match ids with
  | [] => Done (c, count)
  | id :: r =>
    if bool_decide (id ∈ tc_map c) then tx_check_loop now r c (S count)
    else obind (tx_add c (TxItem id now)) (fun c' => tx_check_loop now r c' count)
  end.

(** transaction_cache.go:56-83 CheckTransactions; [now] is the clock reading of line 61, taken
    while the lock is held. *)
Definition tx_check (now : Z) (txs : list transaction) (c : tx_cache) : outcome (tx_cache * nat) :=
  tx_check_loop now (map (fun t => str (t_id t)) txs) (tx_prune now c) 0.

(** transaction_cache.go:86-88 CheckBlock *)
Definition tx_check_block (now : Z) (b : block) (c : tx_cache) : outcome (tx_cache * nat) :=
  tx_check now (b_txs b) c.

(** A history of calls, each with the clock reading it makes; the results in order. *)
Notation tx_call := (Z * list transaction)%type.
Fixpoint tx_run (calls : list tx_call) (c : tx_cache) : outcome (tx_cache * list nat) :=
  match calls with
  | [] => Done (c, [])
  | (now, txs) :: r =>
    obind (tx_check now txs c) (fun '(c', n) =>
    obind (tx_run r c') (fun '(c'', ns) => Done (c'', n :: ns)))
  end.
