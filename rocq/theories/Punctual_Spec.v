(** Specification for C128: the gossip switch in time. *)
From Verif Require Import GoBase ConnMgr_Model ConnMgr_Spec Toggle_Model Switch_Model Switch_Spec Punctual_Model.

(** [P] holds from [now] to [until]: whenever something happens, before and after, and at the end *)
Fixpoint throughout (P : Z -> sw -> Prop) (o : tg_opts) (s : sw) (now : Z) (r : tsched) (until : Z) : Prop :=
  P now s /\
  match r with
  | [] => P until s
  | (t, lab) :: r => P t s /\ match sw_step o s lab with Some s' => throughout P o s' t r until | None => False end
  end.
(** Someone is connected, as far as the manager was told *)
Definition someone (s : sw) : Prop := exists p, last_connected (seen s) p.
(** The age of the head block the node was last told of; the head's time in nanoseconds fits in 64 bits. *)
Definition age (t : Z) (s : sw) : Z := (t - Z.of_N (sw_head s) * 1000000)%Z.
Definition sane_head (s : sw) : Prop := (Z.of_N (sw_head s) * 1000000 <= max_i64)%Z.
