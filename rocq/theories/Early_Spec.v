(** Gossip of blocks with the times at which the messages arrive.  No new model of code: the runs of [Relay_Spec] with the time
    of arrival of each message (the clock of [Applicator_Model]) and with the time that a validator is given (the deadline that
    gossip.go:368-371 puts on its call of ApplyBlock, BlockTimeout of gossip_options.go:6). *)
From Verif Require Import GoBase Gossip_Model Gossip_Spec Applicator_Model Applicator_Spec Honest_Spec Relay_Spec.

Record timed := Timed { td_relay : relay; td_arrived : list Z }.
Definition td_now (x : timed) : Z := s_now (w_s (rl_world (td_relay x))).
Definition arrives (x : timed) (lab : glabel) : list Z := match lab with GMsg _ _ => [td_now x] | _ => [] end.
(** No validator is at work for longer than [T]. *)
Definition punctual (T : Z) (x : timed) : Prop := forall i v c a,
  rl_vals (td_relay x) !! i = Some v -> va_phase v = VWait c -> td_arrived x !! i = Some a -> (td_now x <= a + T)%Z.
Section runs.
Context (decode_block : string -> option block) (id_of_key : string -> outcome string) (me : string).
Context (judge : blk -> option goerr) (o : ap_opts).
Fixpoint truns (P : world -> wlabel -> Prop) (T : Z) (x : timed) (sched : list glabel) (x' : timed) : Prop :=
  match sched with
  | [] => x' = x
  | lab :: r =>
    (forall l, world_label decode_block id_of_key me lab = Some l -> P (rl_world (td_relay x)) l) /\
    exists g1, gstep decode_block id_of_key me judge o (td_relay x) lab = Some g1 /\
      punctual T (Timed g1 (td_arrived x ++ arrives x lab)) /\ truns P T (Timed g1 (td_arrived x ++ arrives x lab)) r x'
  end.
End runs.
(** Numbers within uint64, whole blocks, timestamps within the range of a duration from the start, no shutdown *)
Definition usual (now : Z) (lab : wlabel) : Prop :=
  wu64 lab /\ wcomplete lab /\ match lab with WApp l => stamped_by (now + max_i64) l /\ l <> LCancel | _ => True end.
(** The block is not handed to ApplyBlock, by anyone, before [t1], and no other block has its id. *)
Definition not_before (k : blk) (t1 : Z) (w : world) (lab : wlabel) : Prop :=
  match lab with WApp (LCall b) => str (b_id b) = k_id k -> b = k_src k /\ (t1 <= s_now (w_s w))%Z | _ => True end.
