(** The applicator left alone: what it does by itself, and when nothing is left to do. *)
From Verif Require Import GoBase TxCache_Model Watchdog_Model Applicator_Model Applicator_Spec Deliver_Spec.

(** What the applicator, the callers inside it and the chain service do without anything new from outside: no new call, no
    new broadcast, no caller that gives up and no shutdown.  The chain answers anything but "block state error", after
    which the block is submitted again at once. *)
Definition own (lab : label) : Prop :=
  match lab with
  | LCall _ | LTimeout _ | LTryDrop _ | LAttGiveUp _ | LAnnounce _ | LAccept _ | LCancel | LLoopExit | LTxCall _ | LTxTimeout _ _ => False
  | LRpcDone _ r => is_err_opt r ErrBlockState = false
  | _ => True
  end.
(** The two things that only pass the time: the clock, and a forced request that finds an attempt at its block under way
    and is put back for ForceChildRequestDelay. *)
Definition waits (s : sys) (lab : label) : Prop :=
  match lab with
  | LTick _ => True
  | LTry i => exists k t, s_try s !! i = Some (k, true, t) /\
      exists j a, s_att s !! j = Some a /\ at_phase a <> PDone /\ k_id (at_blk a) = k_id k
  | _ => False
  end.
(** The chain's answers are those of [ans], which is told the attempt. *)
Definition answered_by (ans : nat -> option goerr) (lab : label) : Prop :=
  match lab with LRpcDone i r => r = ans i | _ => True end.

(** No block or fork heads message waits, nothing was announced that stops the applicator for ever (C40). *)
Definition no_final_lib (s : sys) : Prop := forall fh, fh ∈ s_fh s -> fh_lib fh <> Some max_u64.

(** Nothing is left to do: the applicator is settled, no message waits, every call of ApplyTransaction has returned, and
    every call of ApplyBlock has returned or waits with its block in the pool. *)
Definition at_rest (s : sys) : Prop :=
  settled s /\ s_fh s = [] /\
  (forall i p, s_txs s !! i = Some p -> tp_ret p <> None) /\
  (forall c cl, s_calls s !! c = Some cl -> (exists r, cl_phase cl = CRet r) \/ (cl_buf cl = None /\ k_id (cl_blk cl) ∈ held_ids s)).
