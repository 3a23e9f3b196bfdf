(** Specification of C92: a node and an honest peer on one chain.  This is no model of code of the repository: it describes the
    surroundings of a peer session, the answers to the requests that [PeerConn_Model] makes. *)
From Verif Require Import GoBase PeerConn_Model.

(** One chain: its identifier and the identifier of the block at every height *)
Record onechain := OneChain { oc_id : bytes; id_at : N -> bytes }.

(** The heights of the peer's head, of our head and of our last irreversible block *)
Record place := Place { pl_peer : N; pl_head : N; pl_lib : N }.
Definition block_height (b : block) : N := match b_header b with Some h => h_height h | None => 0 end.
(** [b] is the block of the chain at height [h] (whatever its other fields: identifiers are hashes). *)
Definition is_block (c : onechain) (h : N) (b : block) : Prop :=
  str (b_id b) = str (id_at c h) /\ exists hd, b_header b = Some hd /\ h_height hd = h.
(** [bs]: the blocks at the heights [start], [start+1], ..., [start+n-1] *)
Definition blocks_at (c : onechain) (start : N) (n : nat) (bs : list block) : Prop := Forall2 (fun i b => is_block c (start + N.of_nat i) b) (seq 0 n) bs.

(** An honest answer in [w]: what the peer and our own services answer about the chain up to their head is right.  Nothing is required of
    answers to other questions. *)
Definition answered (c : onechain) (w : place) (q : req) : resp q -> Prop :=
  match q return resp q -> Prop with
  | QVersion => fun r => r.2 = None \/ exists e, r.2 = Some e /\ is_err e ErrProtocolMissing = true
  | QLocalChainID _ => fun r => exists id, r = (Some id, None) /\ str id = str (oc_id c)
  | QPeerChainID _ => fun r => exists id, r = (id, None) /\ str id = str (oc_id c)
  | QPeerHead _ => fun r => r = (id_at c (pl_peer w), pl_peer w, None)
  | QPeerAncestor _ head h => fun r => forall k, head = id_at c k -> (k <= pl_peer w)%N -> (h <= k)%N ->
      exists id, r = (id, None) /\ str id = str (id_at c h)
  | QLib => fun r => exists t, r = Some t /\ tp_height t = pl_lib w /\ str (tp_id t) = str (id_at c (pl_lib w))
  | QLocalBlocks _ ids => fun r => forall k, ids = [id_at c k] -> (k <= pl_peer w)%N ->
      r = (Some [Some (if bool_decide (k <= pl_head w)%N then k else 0%N)], None)          (* height 0: unknown *)
  | QPeerBlocks _ head start n => fun r => forall k, head = id_at c k -> (k <= pl_peer w)%N -> (start + n <= k + 1)%N -> (n < two32)%N ->
      exists bs, r = (bs, None) /\ blocks_at c start (N.to_nat n) bs
  | QApply _ b => fun r => forall h, is_block c h b -> (h <= pl_head w + 1)%N ->
      r = None \/ (h <= pl_head w)%N /\ exists e, r = Some e /\ is_err e ErrBlockIrreversibility = true
  end.
(** [policy h]: how far the chain is irreversible when our head is at [h] *)
Definition sound_policy (policy : N -> N) : Prop := (forall h, policy h <= h)%N /\ (forall h h', h <= h' -> policy h <= policy h')%N.
(** Applying the block after our head advances our head, and with it irreversibility; a block that is already there changes nothing. *)
Definition effect (c : onechain) (policy : N -> N) (w : place) (q : req) : place :=
  match q with
  | QApply _ b =>
    if bool_decide (block_height b = pl_head w + 1)%N && bool_decide (str (b_id b) = str (id_at c (block_height b)))
    then Place (pl_peer w) (block_height b) (N.max (pl_lib w) (policy (block_height b))) else w
  | _ => w
  end.
(** A consistent state *)
Definition consistent (policy : N -> N) (w : place) : Prop :=
  (policy (pl_head w) <= pl_lib w)%N /\ (pl_lib w <= pl_head w)%N /\ (pl_peer w < two64)%N.
(** What others may do meanwhile: the peer's chain grows, and ours does by other means. *)
Definition moves_on (policy : N -> N) (w w' : place) : Prop :=
  (pl_peer w <= pl_peer w')%N /\ (pl_head w <= pl_head w')%N /\ (pl_lib w <= pl_lib w')%N /\ consistent policy w'.
(** Only the peer's chain grows. *)
Definition peer_moves_on (policy : N -> N) (w w' : place) : Prop :=
  moves_on policy w w' /\ pl_head w' = pl_head w /\ pl_lib w' = pl_lib w.

(** [honest log w]: [log] (latest first) is part of the log of a session, begins in [w0] and ends in [w], and every request in it was
    answered honestly. *)
Section honest.
Context (c : onechain) (policy : N -> N) (meanwhile : place -> place -> Prop) (w0 : place).
Inductive honest : list act -> place -> Prop :=
| HonestStart : honest [] w0
| HonestCall log w q r : honest log w -> answered c w q r -> honest (ACall (Ev q r) :: log) (effect c policy w q)
| HonestOther log w a : honest log w -> (forall e, a <> ACall e) -> honest (a :: log) w
| HonestElse log w w' : honest log w -> meanwhile w w' -> honest log w'.
End honest.

(** The sync rounds that have ended in a log *)
Fixpoint rounds (log : list act) : nat :=
  match log with [] => 0 | ASync _ :: log => S (rounds log) | _ :: log => rounds log end.
(** Something in a log that the peer could be charged for, or that shows a failure *)
Definition failure (a : act) : Prop :=
  match a with AHandshake (Some _) | ASync (Some _) | AReport _ _ _ | ADrop _ _ => True | _ => False end.
(** How often the main goroutine of the session ran *)
Fixpoint main_steps (sched : list slabel) : nat :=
  match sched with [] => 0 | MStep _ :: r => S (main_steps r) | _ :: r => main_steps r end.
(** The checkpoints are on the chain, and the peer has reached them. *)
Definition checkpoints_met (c : onechain) (o : pc_opts) (w : place) : Prop :=
  Forall (fun cp => cp_id cp = id_at c (cp_height cp) /\ (cp_height cp <= pl_peer w)%N) (po_checkpoints o).
