(** The applicator together with a chain service that works: what the chain answers and announces, and what callers may
    expect then. *)
From Verif Require Import GoBase TxCache_Model Watchdog_Model Applicator_Model Applicator_Spec Deliver_Spec Rest_Spec.

(** ** A chain service that works *)
(** The applicator, the blocks the chain has, and the blocks it got but has not yet announced by a broadcast. *)
Record world := World { w_s : sys; w_chain : gset string; w_owed : list block }.
Inductive wlabel :=
| WApp (lab : label)   (* a step of the applicator, a caller or the clock *)
| WAnswer (i : nat)    (* the chain answers the submission of attempt [i] *)
| WAnnounce (j : nat)  (* the chain announces a block it got *)
| WElse (b : block).   (* the chain gets a block from elsewhere *)

Section chain.
(** [judge]: what the chain says to a new block whose parent it has ([None]: it accepts the block). *)
Context (judge : blk -> option goerr) (o : ap_opts).
(** A block the chain has is fine; a block whose parent it does not have is not accepted. *)
Definition verdict (chain : gset string) (k : blk) : option goerr :=
  if bool_decide (k_id k ∈ chain) then None
  else if bool_decide (k_prev k ∈ chain) then judge k
  else Some (ESent ErrUnknownPreviousBlock).
(** A block that the chain accepts and did not have is announced later. *)
Definition takes (w : world) (k : blk) (s : sys) : world :=
  match verdict (w_chain w) k with
  | None => if bool_decide (k_id k ∈ w_chain w) then World s (w_chain w) (w_owed w) else World s ({[k_id k]} ∪ w_chain w) (w_owed w ++ [k_src k])
  | Some _ => World s (w_chain w) (w_owed w)
  end.
Definition by_chain (lab : label) : bool := match lab with LRpcDone _ _ | LAccept _ => true | _ => false end.
Definition wstep (w : world) (lab : wlabel) : option world :=
  match lab with
  | WApp l => if by_chain l then None else (fun s => World s (w_chain w) (w_owed w)) <$> step o (w_s w) l
  | WAnswer i =>
    match s_att (w_s w) !! i with
    | Some (Attempt k PRpc) => takes w k <$> step o (w_s w) (LRpcDone i (verdict (w_chain w) k))
    | _ => None
    end
  | WAnnounce j =>
    match w_owed w !! j with
    | Some b => (fun s => World s (w_chain w) (delete j (w_owed w))) <$> step o (w_s w) (LAccept b)
    | None => None
    end
  | WElse b => Some (World (w_s w) ({[str (b_id b)]} ∪ w_chain w) (w_owed w ++ [b]))
  end.
Fixpoint wrun (w : world) (sched : list wlabel) : option world :=
  match sched with [] => Some w | lab :: r => match wstep w lab with Some w' => wrun w' r | None => None end end.
(** [P] holds at each step of the run. *)
Fixpoint along (P : world -> wlabel -> Prop) (w : world) (sched : list wlabel) : Prop :=
  match sched with [] => True | lab :: r => P w lab /\ match wstep w lab with Some w' => along P w' r | None => True end end.

(** The start: the chain has the blocks [root]. *)
Definition world_init (root : gset string) (head lib : N) (dur now : Z) : world := World (sys_init head lib dur now) root [].
Definition wu64 (lab : wlabel) : Prop := match lab with WApp l => u64_label l | WElse b => u64_block b | _ => True end.
Definition wcomplete (lab : wlabel) : Prop := match lab with WApp l => complete_label l | WElse b => b_header b <> None | _ => True end.
Definition wreaches (root : gset string) (head lib : N) (dur now : Z) (sched : list wlabel) (w : world) : Prop :=
  (lib < two64)%N /\ Forall wu64 sched /\ Forall wcomplete sched /\ wrun (world_init root head lib dur now) sched = Some w.
End chain.

(** ** Left alone *)
(** What happens without anything new from outside. *)
Definition wown (lab : wlabel) : Prop := match lab with WApp l => own l | WAnswer _ | WAnnounce _ => True | WElse _ => False end.
Definition wwaits (w : world) (lab : wlabel) : Prop := match lab with WApp l => waits (w_s w) l | _ => False end.
Definition wrest (w : world) : Prop := at_rest (w_s w) /\ w_owed w = [].

(** ** A chain of valid blocks handed over *)
(** Blocks [ks], each one's parent the one before it (the first one's [parent], of height [h]), with heights one apart. *)
Fixpoint successors (parent : string) (h : N) (ks : list blk) : Prop :=
  match ks with [] => True | k :: r => k_prev k = parent /\ k_height k = (h + 1)%N /\ successors (k_id k) (h + 1) r end.
(** Nobody waits for the block [id], and nothing is under way for it. *)
Definition idle (s : sys) (id : string) : Prop :=
  id ∉ held_ids s /\ (forall k f t, (k, f, t) ∈ s_try s -> k_id k <> id) /\ (forall i k p, s_att s !! i = Some (Attempt k p) -> k_id k = id -> p = PDone).
Section handed.
Context (o : ap_opts) (head : N) (parent : string) (h : N) (ks : list blk).
(** Heights stay away from the end of uint64. *)
Definition low (b : block) : Prop := forall hd, b_header b = Some hd -> (h_height hd + ao_max_delta o + 1 < two64)%N.
(** Ids identify the blocks [ks] and the height of their parent, which nobody hands over. *)
Definition identified (b : block) : Prop :=
  (str (b_id b) = parent -> exists hd, b_header b = Some hd /\ h_height hd = h) /\ forall k, k ∈ ks -> str (b_id b) = k_id k -> b = k_src k.
(** The conditions under which the applicator takes blocks in: when one of [ks] is handed over it is within the height
    window and not from the future; the pool is never full; and when irreversibility is said to reach some of [ks], the chain
    has them and the applicator is done with them. *)
Definition welcome (w : world) (lab : wlabel) : Prop :=
  match lab with
  | WApp (LCall b) => low b /\ identified b /\ str (b_id b) <> parent /\ forall k, k ∈ ks -> b = k_src k ->
      (k_height k <= max_accepted head (s_log (w_s w)) + ao_max_delta o)%N /\ (block_instant (k_time k) <= s_now (w_s w) + ao_delay_threshold o)%Z
  | WApp (LNew _) => (N.of_nat (size (held_ids (w_s w))) < ao_max_pending o)%N
  | WApp (LForkHeads i _) => forall fh l k, s_fh (w_s w) !! i = Some fh -> fh_lib fh = Some l -> k ∈ ks -> (k_height k <= l)%N ->
      k_id k ∈ w_chain w /\ idle (w_s w) (k_id k)
  | WElse b => low b /\ identified b
  | _ => True
  end.
End handed.
(** A block of height [h] is at or below the last irreversible block, as it was at the start ([lib]) or as the applicator learnt. *)
Definition irreversible (lib : N) (log : list event) (h : N) : Prop := (h <= lib)%N \/ exists l, OLib l ∈ log /\ (h <= l)%N.
(** [k] is handed over only when the chain has said that it has its parent. *)
Definition after_parent (root : gset string) (k : blk) (w : world) (lab : wlabel) : Prop :=
  forall b, lab = WApp (LCall b) -> str (b_id b) = k_id k -> has_block root (s_log (w_s w)) (k_prev k).
