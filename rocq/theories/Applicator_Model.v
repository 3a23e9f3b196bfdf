(** Model of internal/p2p/applicator.go and internal/options/applicator_options.go. *)
From Verif Require Import GoBase TxCache_Model Watchdog_Model.

(** applicator_options.go:27-35 *)
Record ap_opts := ApOpts {
  ao_max_pending : N; ao_max_delta : N; ao_delay_threshold : Z; ao_delay_timeout : Z;
  ao_jobs : nat (* a negative int starts no worker, like 0 *);
  ao_force_threshold : Z; ao_retry_delay : Z }.
(** applicator_options.go:16-24, 38-48 *)
Definition ap_defaults (num_cpu : nat) : ap_opts :=
  ApOpts 2500 60 (4 * second) (60 * second) (Nat.min 8 num_cpu) minute (50 * millisecond).

(** ** 1. The state owned by the dispatcher goroutine, and its handlers. *)

(** A block whose header is present.  ApplyBlock dereferences block.Header in forkWatchdog.Add before
    anything else (line 100), so every block behind that point has one; [k_hdr] is that header. *)
Record blk := Blk { k_src : block; k_hdr : header }.
Definition k_id (k : blk) : string := str (b_id (k_src k)).
Definition k_height (k : blk) : N := h_height (k_hdr k).
Definition k_prev (k : blk) : string := str (h_previous (k_hdr k)).
Definition k_time (k : blk) : N := h_timestamp (k_hdr k).

(** applicator.go:16-19 blockEntry; an errChan is named by the number of the ApplyBlock call that made it *)
Record entry := Entry { e_blk : blk; e_chans : list nat }.

(** applicator.go:44-68: the fields the dispatcher uses *)
Record core := Core {
  c_highest : N;
  c_lib : N;
  c_byid : gmap string entry;
  c_byprev : gmap string (gset string);
  c_byheight : gmap N (gset string);
  c_pending : gset string }.

(** What a handler does to the outside: answer an errChan, or start a goroutine that sends a try
    request (tryBlockApplication, lines 210-220) which is sent no earlier than [not_before]. *)
Inductive eff :=
| Answer (ch : nat) (res : option goerr)
| SpawnTry (k : blk) (force : bool) (not_before : Z).

(** The inner-map idiom "create if missing, then insert" (lines 152-155, 157-160) *)
Definition idx_add {K} `{Countable K} (key : K) (id : string) (m : gmap K (gset string)) : gmap K (gset string) :=
  <[key := {[ id ]} ∪ default ∅ (m !! key)]> m.
(** "delete; if empty delete the inner map" (lines 192-198, 200-206) *)
Definition idx_del {K} `{Countable K} (key : K) (id : string) (m : gmap K (gset string)) : gmap K (gset string) :=
  match m !! key with
  | Some ids => let ids' := ids ∖ {[ id ]} in
                if bool_decide (ids' = ∅) then delete key m else <[key := ids']> m
  | None => m
  end.

(** applicator.go:142-175 addBlockEntry; [now] is the moment the goroutine of line 211 may send *)
Definition add_entry (now : Z) (k : blk) (chans : list nat) (c : core) : core * list eff :=
  let c' :=
    match c_byid c !! k_id k with
    | Some old => Core (c_highest c) (c_lib c)
                    (<[k_id k := Entry (e_blk old) (e_chans old ++ chans)]> (c_byid c))
                    (c_byprev c) (c_byheight c) (c_pending c)
    | None => Core (c_highest c) (c_lib c)
                    (<[k_id k := Entry k chans]> (c_byid c))
                    (idx_add (k_prev k) (k_id k) (c_byprev c))
                    (idx_add (k_height k) (k_id k) (c_byheight c))
                    (c_pending c)
    end in
  (c', if bool_decide (add64 (c_highest c) 1 < k_height k)%N then []
       else if bool_decide (k_prev k ∈ c_pending c) then []
       else [SpawnTry k false now]).

(** applicator.go:177-208 removeBlockEntry *)
Definition remove_entry (id : string) (res : option goerr) (c : core) : core * list eff :=
  match c_byid c !! id with
  | None => (c, [])
  | Some e =>
    (Core (c_highest c) (c_lib c) (delete id (c_byid c))
       (idx_del (k_prev (e_blk e)) id (c_byprev c))
       (idx_del (k_height (e_blk e)) id (c_byheight c))
       (c_pending c),
     map (fun ch => Answer ch res) (e_chans e))
  end.

(** applicator.go:326: time.Since(time.UnixMilli(int64(Timestamp))) < ForceChildRequestThreshold *)
Definition force_child (o : ap_opts) (now : Z) (k : blk) : bool :=
  bool_decide (time_sub now (wrap_i64 (Z.of_N (k_time k)) * millisecond) < ao_force_threshold o)%Z.

(** applicator.go:322-331 checkBlockChildren.  Go iterates over the set in an unspecified order; the
    requests go to separate goroutines, so the order is not visible. *)
Definition check_children (o : ap_opts) (now : Z) (id : string) (c : core) : list eff :=
  match c_byprev c !! id with
  | None => []
  | Some ids =>
    omap (fun cid => match c_byid c !! cid with
                     | Some e => Some (SpawnTry (e_blk e) (force_child o now (e_blk e)) now)
                     | None => None end) (elements ids)
  end.

(** applicator.go:283-296 handleBlockStatus *)
Definition handle_status (o : ap_opts) (now : Z) (k : blk) (res : option goerr) (c : core) : core * list eff :=
  let c := Core (c_highest c) (c_lib c) (c_byid c) (c_byprev c) (c_byheight c) (c_pending c ∖ {[ k_id k ]}) in
  if is_err_opt res ErrBlockState then (c, [SpawnTry k false now])
  else if negb (is_err_opt res ErrUnknownPreviousBlock) then
    let effs := match res with None => check_children o now (k_id k) c | Some _ => [] end in
    let '(c', answers) := remove_entry (k_id k) res c in
    (c', effs ++ answers)
  else (c, []).

(** applicator.go:298-320 handleNewBlock: the two comparisons use uint64 addition and int conversion *)
Definition handle_new (o : ap_opts) (now : Z) (k : blk) (chans : list nat) (c : core) : core * list eff :=
  let err :=
    if bool_decide (add64 (c_highest c) (ao_max_delta o) < k_height k)%N then Some (ESent ErrMaxHeight)
    else if bool_decide (wrap_i64 (Z.of_N (ao_max_pending o)) <= Z.of_nat (size (c_byid c)))%Z
         then Some (ESent ErrMaxPendingBlocks)
    else if bool_decide (k_height k <= c_lib c)%N then Some (ESent ErrBlockIrreversibility)
    else None in
  match err with
  | Some e => (c, map (fun ch => Answer ch (Some e)) chans)
  | None => add_entry now k chans c
  end.

(** applicator.go:352-354, one height of the clean-up loop.  Go iterates over the set while deleting
    from it; every id of it is visited exactly once. *)
Definition remove_height (h : N) (c : core) : core * list eff :=
  match c_byheight c !! h with
  | None => (c, [])
  | Some ids =>
    fold_left (fun '(c, effs) id =>
      let '(c', e) := remove_entry id (Some (ESent ErrBlockIrreversibility)) c in (c', effs ++ e))
      (elements ids) (c, [])
  end.
(** applicator.go:350-356, the loop "for h := oldLib + 1; h <= lib; h++", [n] iterations from height [h] *)
Definition remove_heights (n : N) (h : N) (c : core) : core * list eff :=
  let '(_, c, effs) :=
    N.iter n (fun '(h, c, effs) => let '(c', e) := remove_height h c in (add64 h 1, c', effs ++ e)) (h, c, []) in
  (c, effs).

(** broadcast.ForkHeads: the last irreversible block (its height; nil is [None]) and the ids of the heads *)
Record fork_heads := ForkHeads { fh_lib : option N; fh_heads : list string }.

(** applicator.go:333-357 handleForkHeads without the watchdog (line 337, done in the system below).
    A nil LastIrreversibleBlock is a nil dereference (Panic).  For LIB = 2^64-1 the loop never ends:
    the second component is [None]. *)
Definition handle_fork_heads (o : ap_opts) (now : Z) (fh : fork_heads) (c : core) : outcome (option (core * list eff)) :=
  match fh_lib fh with
  | None => Panic
  | Some lib =>
    let old := c_lib c in
    let c := Core (c_highest c) lib (c_byid c) (c_byprev c) (c_byheight c) (c_pending c) in
    let effs := mjoin (map (fun id => check_children o now id c) (fh_heads fh)) in
    let start := add64 old 1 in
    if bool_decide (lib = max_u64) then Done None
    else
      let n := if bool_decide (start <= lib)%N then (lib - start + 1)%N else 0%N in
      let '(c', effs') := remove_heights n start c in
      Done (Some (c', effs ++ effs'))
  end.

(** applicator.go:359-368 handleBlockBroadcast without the transaction cache (line 360, below) *)
Definition handle_broadcast (o : ap_opts) (now : Z) (k : blk) (c : core) : core * list eff :=
  let c := Core (if bool_decide (c_highest c < k_height k)%N then k_height k else c_highest c)
             (c_lib c) (c_byid c) (c_byprev c) (c_byheight c) (c_pending c) in
  (c, check_children o now (k_id k) c).

(** applicator.go:222-238 handleTryBlockApplication up to the goroutine: [true] = an attempt starts *)
Definition handle_try (o : ap_opts) (now : Z) (k : blk) (force : bool) (c : core) : core * list eff * bool :=
  if bool_decide (k_id k ∈ c_pending c)
  then (c, if force then [SpawnTry k force (now + ao_retry_delay o)%Z] else [], false)
  else (Core (c_highest c) (c_lib c) (c_byid c) (c_byprev c) (c_byheight c) ({[ k_id k ]} ∪ c_pending c), [], true).

(** ** 2. The system: callers, goroutines, workers, RPC, time. *)

(** applicator.go:246: time.Unix(int64(ts/1000), int64(ts%1000)), in nanoseconds (the milliseconds
    of the timestamp are passed as nanoseconds) *)
Definition block_instant (ts : N) : Z := (Z.of_N (ts / 1000) * second + Z.of_N (ts `mod` 1000))%Z.

(** The goroutine of an application attempt (lines 240-280) together with the worker serving it. *)
Inductive phase :=
| PStart                            (* not yet looked at the clock *)
| PDelay (wake timeout : Z)         (* line 254: waiting for one of the two timers *)
| PQueued                           (* line 267: the request is in, or about to enter, applyBlockChan *)
| PChecked (lib : N)                (* a worker loaded LIB (line 372) and is about to call the RPC *)
| PRpc                              (* the RPC of line 375 is running *)
| PStatus (res : option goerr)      (* the result is in, or about to enter, blockStatusChan *)
| PDone.                            (* the dispatcher has taken the status, or the goroutine gave up *)
Record attempt := Attempt { at_blk : blk; at_phase : phase }.
(** A worker is busy with it. *)
Definition at_busy (a : attempt) : bool := match at_phase a with PChecked _ | PRpc => true | _ => false end.
Definition at_live (a : attempt) : bool := match at_phase a with PDone => false | _ => true end.

(** A call of ApplyBlock (lines 99-116) past the fork watchdog. *)
Inductive call_phase := CSend | CWait | CRet (res : option goerr).
Record call := Call {
  cl_blk : blk;
  cl_phase : call_phase;                 (* CSend: in line 107; CWait: in the select *)
  cl_buf : option (option goerr) }.      (* errChan: None = empty and open, Some r = r was sent and it is closed *)

(** A call of ApplyTransaction (lines 118-130) *)
Inductive tx_phase := TSend | TQueued | TRpc | TServed.
Record tx_proc := TxProc {
  tp_tx : transaction; tp_phase : tx_phase;
  tp_buf : option (option goerr); tp_ret : option (option goerr) }.

(** Observable events, latest first. *)
Inductive event :=
| OReturn (call : option nat) (b : block) (res : option goerr)  (* ApplyBlock returned (None: from the watchdog) *)
| OAnswer (call : nat) (res : option goerr)                     (* sent to errChan *)
| OTake (a : nat) (k : blk) (lib : N)                           (* a worker took the block and loaded LIB *)
| OSubmit (a : nat) (k : blk) (now : Z)                         (* rpc.ApplyBlock called *)
| OResult (a : nat) (k : blk) (res : option goerr)              (* rpc.ApplyBlock returned *)
| ODelayTimeout (a : nat) (k : blk) (res : option goerr)        (* line 256 *)
| OStatus (a : nat) (k : blk) (res : option goerr)              (* the dispatcher handled the status *)
| OAccepted (b : block) (now : Z)                               (* a block broadcast was handled *)
| OLib (lib : N)                                                (* a fork heads message was handled *)
| OTxSubmit (i : nat) (t : transaction) (now : Z)               (* rpc.ApplyTransaction called *)
| OTxDuplicate (i : nat) (t : transaction) (now : Z)            (* not called: the cache knew the id *)
| OTxResult (i : nat) (t : transaction) (res : option goerr)
| OTxReturn (i : nat) (t : transaction) (res : option goerr).

Record sys := Sys {
  s_core : core;
  s_wd : watchdog;
  s_cache : tx_cache;
  s_calls : list call;
  s_new : list nat;                     (* newBlockChan, oldest first: the numbers of the calls *)
  s_try : list (blk * bool * Z);        (* goroutines of tryBlockApplication (with their earliest time) *)
  s_att : list attempt;
  s_txs : list tx_proc;
  s_fh : list fork_heads;               (* announced, not yet handled *)
  s_bc : list block;                    (* block broadcasts, not yet handled *)
  s_now : Z;
  s_cancelled : bool;                   (* the context given to Start is cancelled *)
  s_loop : bool;                        (* the dispatcher runs *)
  s_hang : bool;                        (* the dispatcher is in the endless loop of lines 350-356 *)
  s_panic : bool;
  s_log : list event }.

(** applicator.go:70-96 NewApplicator (head and LIB from GetHeadBlock) followed by Start (392-432) *)
Definition sys_init (head lib : N) (cache_dur now : Z) : sys :=
  Sys (Core head lib ∅ ∅ ∅ ∅) wd_new (tx_new cache_dur) [] [] [] [] [] [] [] now false true false false [].

(** Record updates *)
Definition set_core c s := Sys c (s_wd s) (s_cache s) (s_calls s) (s_new s) (s_try s) (s_att s) (s_txs s) (s_fh s) (s_bc s) (s_now s) (s_cancelled s) (s_loop s) (s_hang s) (s_panic s) (s_log s).
Definition set_wd w s := Sys (s_core s) w (s_cache s) (s_calls s) (s_new s) (s_try s) (s_att s) (s_txs s) (s_fh s) (s_bc s) (s_now s) (s_cancelled s) (s_loop s) (s_hang s) (s_panic s) (s_log s).
Definition set_cache x s := Sys (s_core s) (s_wd s) x (s_calls s) (s_new s) (s_try s) (s_att s) (s_txs s) (s_fh s) (s_bc s) (s_now s) (s_cancelled s) (s_loop s) (s_hang s) (s_panic s) (s_log s).
Definition set_calls x s := Sys (s_core s) (s_wd s) (s_cache s) x (s_new s) (s_try s) (s_att s) (s_txs s) (s_fh s) (s_bc s) (s_now s) (s_cancelled s) (s_loop s) (s_hang s) (s_panic s) (s_log s).
Definition set_new x s := Sys (s_core s) (s_wd s) (s_cache s) (s_calls s) x (s_try s) (s_att s) (s_txs s) (s_fh s) (s_bc s) (s_now s) (s_cancelled s) (s_loop s) (s_hang s) (s_panic s) (s_log s).
Definition set_try x s := Sys (s_core s) (s_wd s) (s_cache s) (s_calls s) (s_new s) x (s_att s) (s_txs s) (s_fh s) (s_bc s) (s_now s) (s_cancelled s) (s_loop s) (s_hang s) (s_panic s) (s_log s).
Definition set_att x s := Sys (s_core s) (s_wd s) (s_cache s) (s_calls s) (s_new s) (s_try s) x (s_txs s) (s_fh s) (s_bc s) (s_now s) (s_cancelled s) (s_loop s) (s_hang s) (s_panic s) (s_log s).
Definition set_txs x s := Sys (s_core s) (s_wd s) (s_cache s) (s_calls s) (s_new s) (s_try s) (s_att s) x (s_fh s) (s_bc s) (s_now s) (s_cancelled s) (s_loop s) (s_hang s) (s_panic s) (s_log s).
Definition set_fh x s := Sys (s_core s) (s_wd s) (s_cache s) (s_calls s) (s_new s) (s_try s) (s_att s) (s_txs s) x (s_bc s) (s_now s) (s_cancelled s) (s_loop s) (s_hang s) (s_panic s) (s_log s).
Definition set_bc x s := Sys (s_core s) (s_wd s) (s_cache s) (s_calls s) (s_new s) (s_try s) (s_att s) (s_txs s) (s_fh s) x (s_now s) (s_cancelled s) (s_loop s) (s_hang s) (s_panic s) (s_log s).
Definition set_now x s := Sys (s_core s) (s_wd s) (s_cache s) (s_calls s) (s_new s) (s_try s) (s_att s) (s_txs s) (s_fh s) (s_bc s) x (s_cancelled s) (s_loop s) (s_hang s) (s_panic s) (s_log s).
Definition set_cancelled s := Sys (s_core s) (s_wd s) (s_cache s) (s_calls s) (s_new s) (s_try s) (s_att s) (s_txs s) (s_fh s) (s_bc s) (s_now s) true (s_loop s) (s_hang s) (s_panic s) (s_log s).
Definition set_loop x s := Sys (s_core s) (s_wd s) (s_cache s) (s_calls s) (s_new s) (s_try s) (s_att s) (s_txs s) (s_fh s) (s_bc s) (s_now s) (s_cancelled s) x (s_hang s) (s_panic s) (s_log s).
Definition set_hang s := Sys (s_core s) (s_wd s) (s_cache s) (s_calls s) (s_new s) (s_try s) (s_att s) (s_txs s) (s_fh s) (s_bc s) (s_now s) (s_cancelled s) (s_loop s) true (s_panic s) (s_log s).
Definition set_panic s := Sys (s_core s) (s_wd s) (s_cache s) (s_calls s) (s_new s) (s_try s) (s_att s) (s_txs s) (s_fh s) (s_bc s) (s_now s) (s_cancelled s) (s_loop s) (s_hang s) true (s_log s).
Definition add_log e s := Sys (s_core s) (s_wd s) (s_cache s) (s_calls s) (s_new s) (s_try s) (s_att s) (s_txs s) (s_fh s) (s_bc s) (s_now s) (s_cancelled s) (s_loop s) (s_hang s) (s_panic s) (e :: s_log s).

(** Effects.  An answer is "select { case ch <- err: close(ch); case <-ctx.Done(): }" (lines 180-184,
    311-315): a send on a closed channel panics; [lose ch] says that the second case was chosen, which
    is possible only after the cancel. *)
Definition do_eff (lose : nat -> bool) (s : sys) (e : eff) : sys :=
  match e with
  | SpawnTry k force t => set_try (s_try s ++ [(k, force, t)]) s
  | Answer ch res =>
    if s_cancelled s && lose ch then s
    else match s_calls s !! ch with
         | Some cl =>
           match cl_buf cl with
           | Some _ => set_panic s
           | None => add_log (OAnswer ch res) (set_calls (<[ch := Call (cl_blk cl) (cl_phase cl) (Some res)]> (s_calls s)) s)
           end
         | None => set_panic s
         end
  end.
Definition do_effs (lose : nat -> bool) (effs : list eff) (s : sys) : sys := fold_left (do_eff lose) effs s.

(** The capacity of newBlockChan and applyTransactionChan (lines 87, 93) *)
Definition chan_cap : nat := 10.
Global Instance tx_phase_eq_dec : EqDecision tx_phase.
Proof. solve_decision. Defined.
(** Workers (lines 413-431) that are in the middle of a request. *)
Definition busy_workers (s : sys) : nat :=
  length (filter (fun a => at_busy a = true) (s_att s))
  + length (filter (fun t => tp_phase t = TRpc) (s_txs s)).
(** The dispatcher can pick a message (lines 393-411). *)
Definition serving (s : sys) : bool := s_loop s && negb (s_hang s).

Definition set_phase (i : nat) (p : phase) (s : sys) : sys :=
  set_att (alter (fun a => Attempt (at_blk a) p) i (s_att s)) s.

(** One label per atomic step.  A worker's preference for blocks (lines 416-421) only restricts the
    schedule and is left out: any waiting request may be taken. *)
Inductive label :=
| LCall (b : block)                    (* ApplyBlock is called: line 100 *)
| LSend (c : nat)                      (* line 107 *)
| LRet (c : nat)                       (* lines 110-111 *)
| LTimeout (c : nat)                   (* lines 113-114: the caller's context ended *)
| LNew (lose : nat -> bool)            (* lines 398-399 *)
| LTry (i : nat)                       (* lines 404-405 *)
| LTryDrop (i : nat)                   (* lines 217, 230: after the cancel *)
| LAttStart (i : nat)                  (* lines 241-252 *)
| LAttWake (i : nat)                   (* line 255 *)
| LAttDelayTimeout (i : nat)           (* lines 256-261 *)
| LAttGiveUp (i : nat)                 (* lines 262-263, 276, 278: after the cancel *)
| LTake (i : nat)                      (* lines 417-418, 421-422, 370-373 *)
| LSubmit (i : nat)                    (* line 375, the call *)
| LRpcDone (i : nat) (res : option goerr) (* line 375, the return, with any result *)
| LStatus (i : nat) (lose : nat -> bool)  (* lines 396-397 *)
| LAnnounce (fh : fork_heads)          (* node.go:276-278: HandleForkHeads in its own goroutine *)
| LForkHeads (i : nat) (lose : nat -> bool) (* lines 400-401 *)
| LAccept (b : block)                  (* node.go:238-240: HandleBlockBroadcast in its own goroutine *)
| LBroadcast (i : nat)                 (* lines 402-403 *)
| LTick (d : N)                        (* time passes: d nanoseconds *)
| LCancel                              (* shutdown *)
| LLoopExit                            (* lines 407-408 *)
| LTxCall (t : transaction)            (* line 119 *)
| LTxSend (i : nat)                    (* line 121 *)
| LTxTake (i : nat)                    (* lines 423-424, 383-385: cache check and, if new, the RPC call *)
| LTxDone (i : nat) (res : option goerr)  (* lines 385-389 *)
| LTxRet (i : nat)                     (* lines 124-125 *)
| LTxTimeout (i : nat) (deadline : bool). (* lines 127-128 *)

(** The call of ApplyBlock up to line 105. *)
Definition step_call (b : block) (s : sys) : sys :=
  match wd_add (s_wd s) b, b_header b with
  | Done (wd', None), Some h =>
    set_calls (s_calls s ++ [Call (Blk b h) CSend None]) (set_wd wd' s)
  | Done (wd', Some e), _ => add_log (OReturn None b (Some e)) (set_wd wd' s)
  | _, _ => set_panic s
  end.

Definition call_return (c : nat) (res : option goerr) (s : sys) : sys :=
  match s_calls s !! c with
  | Some cl => add_log (OReturn (Some c) (k_src (cl_blk cl)) res)
                 (set_calls (<[c := Call (cl_blk cl) (CRet res) (cl_buf cl)]> (s_calls s)) s)
  | None => s
  end.
Definition tx_set (i : nat) (f : tx_proc -> tx_proc) (s : sys) : sys := set_txs (alter f i (s_txs s)) s.

(** applicator.go:244-264: what the attempt does after reading the clock *)
Definition start_phase (o : ap_opts) (now : Z) (k : blk) : phase :=
  let threshold := (now + ao_delay_threshold o)%Z in
  let bt := block_instant (k_time k) in
  if bool_decide (threshold < bt)%Z
  then PDelay (now + time_sub bt threshold)%Z (now + ao_delay_timeout o)%Z
  else PQueued.

(** [None]: the label is not enabled. *)
Definition step (o : ap_opts) (s : sys) (lab : label) : option sys :=
  if s_panic s then None else
  match lab with
  | LCall b => Some (step_call b s)
  | LSend c =>
    match s_calls s !! c with
    | Some (Call k CSend buf) =>
      if bool_decide (length (s_new s) < chan_cap)
      then Some (set_new (s_new s ++ [c]) (set_calls (<[c := Call k CWait buf]> (s_calls s)) s))
      else None
    | _ => None
    end
  | LRet c =>
    match s_calls s !! c with
    | Some (Call k CWait (Some r)) => Some (call_return c r s)
    | _ => None
    end
  | LTimeout c =>
    match s_calls s !! c with
    | Some (Call k CWait buf) => Some (call_return c (Some (ESent ErrBlockApplicationTimeout)) s)
    | _ => None
    end
  | LNew lose =>
    if negb (serving s) then None else
    match s_new s with
    | [] => None
    | c :: rest =>
      match s_calls s !! c with
      | Some cl =>
        let '(core', effs) := handle_new o (s_now s) (cl_blk cl) [c] (s_core s) in
        Some (do_effs lose effs (set_core core' (set_new rest s)))
      | None => None
      end
    end
  | LTry i =>
    if negb (serving s) then None else
    match s_try s !! i with
    | Some (k, force, t) =>
      if bool_decide (t <= s_now s)%Z then
        let '(core', effs, started) := handle_try o (s_now s) k force (s_core s) in
        let s' := do_effs (fun _ => false) effs (set_core core' (set_try (delete i (s_try s)) s)) in
        Some (if started : bool then set_att (s_att s' ++ [Attempt k PStart]) s' else s')
      else None
    | None => None
    end
  | LTryDrop i =>
    if s_cancelled s then
      match s_try s !! i with Some _ => Some (set_try (delete i (s_try s)) s) | None => None end
    else None
  | LAttStart i =>
    match s_att s !! i with
    | Some (Attempt k PStart) => Some (set_phase i (start_phase o (s_now s) k) s)
    | _ => None
    end
  | LAttWake i =>
    match s_att s !! i with
    | Some (Attempt k (PDelay wake _)) =>
      if bool_decide (wake <= s_now s)%Z || s_cancelled s then Some (set_phase i PQueued s) else None
    | _ => None
    end
  | LAttDelayTimeout i =>
    match s_att s !! i with
    | Some (Attempt k (PDelay _ timeout)) =>
      if bool_decide (timeout <= s_now s)%Z || s_cancelled s then
        let res := if s_cancelled s then Some (ESent CtxCanceled) else None in
        Some (add_log (ODelayTimeout i k res) (set_phase i (PStatus res) s))
      else None
    | _ => None
    end
  | LAttGiveUp i =>
    if s_cancelled s then
      match s_att s !! i with
      | Some (Attempt k (PDelay _ _)) | Some (Attempt k (PStatus _)) => Some (set_phase i PDone s)
      | _ => None
      end
    else None
  | LTake i =>
    match s_att s !! i with
    | Some (Attempt k PQueued) =>
      if bool_decide (busy_workers s < ao_jobs o) then
        let lib := c_lib (s_core s) in
        let s := add_log (OTake i k lib) s in
        if bool_decide (k_height k <= lib)%N
        then Some (set_phase i (PStatus (Some (ESent ErrBlockIrreversibility))) s)
        else Some (set_phase i (PChecked lib) s)
      else None
    | _ => None
    end
  | LSubmit i =>
    match s_att s !! i with
    | Some (Attempt k (PChecked _)) => Some (add_log (OSubmit i k (s_now s)) (set_phase i PRpc s))
    | _ => None
    end
  | LRpcDone i res =>
    match s_att s !! i with
    | Some (Attempt k PRpc) => Some (add_log (OResult i k res) (set_phase i (PStatus res) s))
    | _ => None
    end
  | LStatus i lose =>
    if negb (serving s) then None else
    match s_att s !! i with
    | Some (Attempt k (PStatus res)) =>
      let '(core', effs) := handle_status o (s_now s) k res (s_core s) in
      Some (do_effs lose effs (add_log (OStatus i k res) (set_core core' (set_phase i PDone s))))
    | _ => None
    end
  | LAnnounce fh => Some (set_fh (s_fh s ++ [fh]) s)
  | LForkHeads i lose =>
    if negb (serving s) then None else
    match s_fh s !! i with
    | Some fh =>
      let s := set_fh (delete i (s_fh s)) s in
      match handle_fork_heads o (s_now s) fh (s_core s) with
      | Panic => Some (set_panic s)
      | Done None => (* the stored LIB is visible to the workers, the dispatcher loops forever *)
        let c := s_core s in
        Some (set_hang (add_log (OLib max_u64) (set_core (Core (c_highest c) max_u64 (c_byid c) (c_byprev c) (c_byheight c) (c_pending c))
                (set_wd (wd_purge (s_wd s) max_u64) s))))
      | Done (Some (core', effs)) =>
        Some (do_effs lose effs (add_log (OLib (c_lib core')) (set_core core' (set_wd (wd_purge (s_wd s) (c_lib core')) s))))
      end
    | None => None
    end
  | LAccept b => Some (set_bc (s_bc s ++ [b]) s)
  | LBroadcast i =>
    if negb (serving s) then None else
    match s_bc s !! i with
    | Some b =>
      let s := set_bc (delete i (s_bc s)) s in
      match tx_check_block (s_now s) b (s_cache s), b_header b with
      | Done (cache', _), Some h =>
        let '(core', effs) := handle_broadcast o (s_now s) (Blk b h) (s_core s) in
        Some (do_effs (fun _ => false) effs (add_log (OAccepted b (s_now s)) (set_core core' (set_cache cache' s))))
      | _, _ => Some (set_panic s)
      end
    | None => None
    end
  | LTick d => Some (set_now (s_now s + Z.of_N d)%Z s)
  | LCancel => Some (set_cancelled s)
  | LLoopExit => if s_cancelled s then Some (set_loop false s) else None
  | LTxCall t => Some (set_txs (s_txs s ++ [TxProc t TSend None None]) s)
  | LTxSend i =>
    match s_txs s !! i with
    | Some (TxProc t TSend None None) =>
      if bool_decide (length (filter (fun t => tp_phase t = TQueued) (s_txs s)) < chan_cap)
      then Some (tx_set i (fun _ => TxProc t TQueued None None) s) else None
    | _ => None
    end
  | LTxTake i =>
    match s_txs s !! i with
    | Some (TxProc t TQueued buf ret) =>
      if bool_decide (busy_workers s < ao_jobs o) then
        match tx_check (s_now s) [t] (s_cache s) with
        | Panic => Some (set_panic s)
        | Done (cache', 0) =>
          Some (add_log (OTxSubmit i t (s_now s)) (tx_set i (fun p => TxProc t TRpc buf ret) (set_cache cache' s)))
        | Done (cache', _) =>
          Some (add_log (OTxDuplicate i t (s_now s)) (tx_set i (fun p => TxProc t TServed (Some None) ret) (set_cache cache' s)))
        end
      else None
    | _ => None
    end
  | LTxDone i res =>
    match s_txs s !! i with
    | Some (TxProc t TRpc buf ret) =>
      Some (add_log (OTxResult i t res) (tx_set i (fun p => TxProc t TServed (Some res) ret) s))
    | _ => None
    end
  | LTxRet i =>
    match s_txs s !! i with
    | Some (TxProc t ph (Some r) None) =>
      Some (add_log (OTxReturn i t r) (tx_set i (fun p => TxProc t ph (Some r) (Some r)) s))
    | _ => None
    end
  | LTxTimeout i deadline =>
    match s_txs s !! i with
    | Some (TxProc t TSend _ _) => None
    | Some (TxProc t ph buf None) =>
      let r := Some (ESent (if deadline : bool then CtxDeadlineExceeded else CtxCanceled)) in
      Some (add_log (OTxReturn i t r) (tx_set i (fun p => TxProc t ph buf (Some r)) s))
    | _ => None
    end
  end.

Fixpoint run (o : ap_opts) (s : sys) (sched : list label) : option sys :=
  match sched with
  | [] => Some s
  | lab :: r => match step o s lab with Some s' => run o s' r | None => None end
  end.
