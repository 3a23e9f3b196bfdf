(** Gossip of blocks on top of the applicator and a chain service that works: the validator of [Gossip_Model]
    (gossip.go:310-377) whose call of ApplyBlock (line 371) is a call in the applicator's model (applicator.go:99-116).  This is
    no new model of code: it connects the two.  Any number of messages may be under way at the same time. *)
From Verif Require Import GoBase Gossip_Model Gossip_Spec TxCache_Model TxCache_Proofs Watchdog_Model Applicator_Model Applicator_Spec Deliver_Spec Rest_Spec Honest_Spec.

(** The validator of one message: it waits for its call of ApplyBlock, or it is over ([call]: the call that it made, if the
    fork watchdog let the block through). *)
Inductive vphase := VWait (call : nat) | VOver (call : option nat) (r : val_result block).
(** The message, the height of the last irreversible block that the validator saw (line 361), and how far it is *)
Record validation := Validation { va_msg : message; va_lib : N; va_phase : vphase }.
Record relay := Relay { rl_vals : list validation; rl_world : world }.
Inductive glabel :=
| GWorld (lab : wlabel)              (* the applicator, other callers, the chain, the clock, the deadlines of all calls *)
| GMsg (m : message) (lib : N)       (* a message arrives, and its validator runs until it is over or waits *)
| GBack (i : nat).                   (* the call of ApplyBlock of validator [i] returns, and the validator ends *)

Section composed.
Context (decode_block : string -> option block) (id_of_key : string -> outcome string) (me : string).
Context (judge : blk -> option goerr) (o : ap_opts).
Notation validate := (validate_block decode_block id_of_key me).
(** What the validator hands to ApplyBlock *)
Definition offered (m : message) (lib : N) : option block :=
  match validate lib (fun _ => None) m with Done v => head (v_applied v) | Panic => None end.
Definition ended (m : message) (lib : N) (call : option nat) (res : option goerr) : option validation :=
  match validate lib (fun _ => res) m with Done v => Some (Validation m lib (VOver call v)) | Panic => None end.
(** What the fork watchdog answered, when there is no call (applicator.go:100-103) *)
Definition refusal (w : world) : option goerr := match s_log (w_s w) with OReturn None _ res :: _ => res | _ => None end.
Definition gstep (g : relay) (lab : glabel) : option relay :=
  let '(Relay vs w) := g in
  match lab with
  | GWorld l => Relay vs <$> wstep judge o w l
  | GMsg m lib =>
    match offered m lib with
    | None => (fun v => Relay (vs ++ [v]) w) <$> ended m lib None None
    | Some b =>
      match wstep judge o w (WApp (LCall b)) with
      | Some w' =>
        if bool_decide (length (s_calls (w_s w')) = S (length (s_calls (w_s w))))
        then Some (Relay (vs ++ [Validation m lib (VWait (length (s_calls (w_s w))))]) w')
        else match refusal w' with Some e => (fun v => Relay (vs ++ [v]) w') <$> ended m lib None (Some e) | None => None end
      | None => None
      end
    end
  | GBack i =>
    match vs !! i with
    | Some (Validation m lib (VWait c)) =>
      match s_calls (w_s w) !! c with
      | Some cl => match cl_phase cl with CRet res => (fun v => Relay (<[i := v]> vs) w) <$> ended m lib (Some c) res | _ => None end
      | None => None
      end
    | _ => None
    end
  end.
(** What happens to the applicator and the chain in such a step *)
Definition world_label (lab : glabel) : option wlabel :=
  match lab with GWorld l => Some l | GMsg m lib => (fun b => WApp (LCall b)) <$> offered m lib | GBack _ => None end.
(** A run in which [P] holds at each step of the applicator and the chain *)
Fixpoint gruns (P : world -> wlabel -> Prop) (g : relay) (sched : list glabel) (g' : relay) : Prop :=
  match sched with
  | [] => g' = g
  | lab :: r => (forall l, world_label lab = Some l -> P (rl_world g) l) /\ exists g1, gstep g lab = Some g1 /\ gruns P g1 r g'
  end.
(** The message carries the block [k], complete, and is not of this node's own making. *)
Definition carries (m : message) (k : blk) : Prop := decode_block (m_data m) = Some (k_src k) /\ m_from m <> me /\ complete_block (k_src k).
End composed.

(** The validator has called ApplyBlock, and the fork watchdog let the block through. *)
Definition taken (v : validation) : Prop := exists c, va_phase v = VWait c \/ exists r, va_phase v = VOver (Some c) r.

(** ** Conditions *)
(** The blocks [ks] extend [parent] (of height [h]) and are valid; what happens leaves the applicator open for them (see
    [welcome]). *)
Section conditions.
Context (judge : blk -> option goerr) (o : ap_opts) (root : gset string) (head lib : N) (parent : string) (h : N) (ks : list blk).
Definition open (w : world) (lab : wlabel) : Prop := wu64 lab /\ wcomplete lab /\ welcome o head parent h ks w lab.
Record valid_blocks : Prop := {
  vb_low : (head + ao_max_delta o + 1 < two64)%N;
  vb_pend : (ao_max_pending o < 2 ^ 63)%N;
  vb_lib : (lib < two64)%N;
  vb_valid : forall k, k ∈ ks -> judge k = None /\ b_header (k_src k) = Some (k_hdr k) /\ ((k_height k <= lib)%N -> k_id k ∈ root) }.
End conditions.
