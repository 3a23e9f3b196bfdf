(** Model of the gossip score of a peer (node.go:169-188): AppSpecificScore, its weight 1 and the thresholds.  The other parts of the
    pubsub score have weight zero (no topic parameters, IPColocationFactorWeight and BehaviourPenaltyWeight unset), so the score is this. *)
From Coq Require Import Reals.
From Flocq Require Import Core.
From Verif Require Import GoBase ErrDecay_Model.
Local Open Scope R_scope.

(** node.go:171-174; float64(x) of a uint64 rounds to nearest even *)
Definition app_specific_score (reconnect : N) (raw : N) : R := fl (- fl (IZR (Z.of_N raw)) + fl (IZR (Z.of_N reconnect))).
(** node.go:179-184 GossipThreshold, PublishThreshold and GraylistThreshold; pubsub ignores a peer whose score is below *)
Definition graylist_threshold : R := -1.
Definition graylisted (reconnect raw : N) : Prop := app_specific_score reconnect raw < graylist_threshold.
