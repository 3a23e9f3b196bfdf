(** Specifications for the gossip properties C17-C26. *)
From Verif Require Import GoBase Gossip_Model GossipLife_Model.

(** Strictly alternating subscribe/cancel of the same, ever new subscription. *)
Fixpoint well_paired (n : nat) (log : list gm_ev) : Prop :=
  match log with
  | [] => True
  | [EvSubscribe s] => s = n
  | EvSubscribe s :: EvCancel s' :: r => s = n /\ s' = n /\ well_paired (S n) r
  | _ => False
  end.
(** Live subscriptions: subscribed and not cancelled. *)
Definition live (log : list gm_ev) (s : nat) : Prop := EvSubscribe s ∈ log /\ EvCancel s ∉ log.

(** Every start-up goroutine of an earlier EnableGossip(true) has run its Start. *)
Definition no_outstanding (l : life) : Prop := forall i s, lf_sessions l !! i = Some s -> ss_starter s <> StNotRun.

(** A block message has everything the node needs to look at. *)
Definition complete_block (b : block) : Prop :=
  b_id b <> None /\ exists h, b_header b = Some h /\ h_previous h <> None.
Definition block_height (b : block) : N := match b_header b with Some h => h_height h | None => 0 end.
