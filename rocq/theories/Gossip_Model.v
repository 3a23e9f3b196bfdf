(** Model of internal/p2p/gossip.go: topic manager, start/stop life cycle, publishing, validation. *)
From Verif Require Import GoBase.

(** ** 1. The topic manager as a sequential object (gossip.go:36-110).
    Start, Stop hold [enableMutex] for their whole bodies, so calls are atomic. *)

(** What the manager does to the pubsub library: subscribe (a fresh subscription) and cancel. *)
Inductive gm_ev := EvSubscribe (sub : nat) | EvCancel (sub : nat).
Record gm := Gm {
  gm_topic : bool;            (* gm.topic != nil: Join succeeded (lines 56-61) *)
  gm_enabled : bool;          (* gm.Enabled *)
  gm_sub : option nat;        (* gm.sub *)
  gm_next : nat;              (* identity of the next subscription (ghost) *)
  gm_log : list gm_ev }.      (* ghost *)
(** gossip.go:48-64 NewGossipManager; [joined] says whether Join succeeded *)
Definition gm_new (joined : bool) : gm := Gm joined false None 0 [].

Inductive gm_res := GmOk | GmErr.
(** gossip.go:72-96 Start; [sub_ok] is whether Subscribe succeeds *)
Definition gm_start (sub_ok : bool) (g : gm) : gm * gm_res :=
  if gm_enabled g then (g, GmOk)
  else if negb (gm_topic g) then (g, GmErr)
  else if negb sub_ok then (g, GmErr)
  else (Gm (gm_topic g) true (Some (gm_next g)) (S (gm_next g)) (gm_log g ++ [EvSubscribe (gm_next g)]), GmOk).
(** gossip.go:99-110 Stop; [gm.sub.Cancel()] on a nil subscription would be a nil dereference *)
Definition gm_stop (g : gm) : outcome gm :=
  if negb (gm_enabled g) then Done g
  else match gm_sub g with
       | None => Panic
       | Some s => Done (Gm (gm_topic g) false None (gm_next g) (gm_log g ++ [EvCancel s]))
       end.
Inductive gm_call := CStart (sub_ok : bool) | CStop.
Definition gm_step (g : gm) (c : gm_call) : outcome gm :=
  match c with CStart ok => Done (fst (gm_start ok g)) | CStop => gm_stop g end.
Fixpoint gm_run (g : gm) (cs : list gm_call) : outcome gm :=
  match cs with [] => Done g | c :: r => obind (gm_step g c) (fun g' => gm_run g' r) end.

(** ** 2. Publishing (gossip.go:113-122, 249-284).
    The caller holds [enableMutex]; [marshal] is canonical.Marshal (None = error). *)
Record pub_state := PubState { ps_count : N (* recentBlocks / recentTrxs, uint32 *); ps_sent : list string }.
(** gossip.go:113-122 PublishMessage: the result of topic.Publish is ignored *)
Definition publish_message (enabled : bool) (data : string) (p : pub_state) : pub_state :=
  if negb enabled then p else PubState (ps_count p) (ps_sent p ++ [data]).
(** gossip.go:249-265 PublishTransaction and 268-284 PublishBlock (the same code); true = error returned *)
Definition publish (enabled : bool) (marshalled : option string) (p : pub_state) : pub_state * bool :=
  if enabled then
    match marshalled with
    | None => (p, true)
    | Some data =>
      let p := PubState ((ps_count p + 1) `mod` two32) (ps_sent p) in
      (publish_message enabled data p, false)
    end
  else (p, false).

(** ** 3. Validation (gossip.go:310-377, 403-447). *)
(** pubsub.Message: payload, signer (GetFrom), the peer it came from, and the signer's key *)
Record message := Message { m_data : string; m_from : string; m_received : string; m_key : string }.
(** What a validator does: its verdict, the blocks/transactions it handed to the applicator, and the
    errors it reports against peers (sent by a goroutine, lines 317-330 and 407-412; lost only if the
    context ends first, which is not modelled). *)
Record val_result (A : Type) := ValResult {
  v_ok : bool; v_applied : list A; v_reported : list (string * goerr) }.
Arguments ValResult {A}. Arguments v_ok {A}. Arguments v_applied {A}. Arguments v_reported {A}.

(** Access through a pointer: a nil dereference panics. *)
Definition deref {A} (x : option A) : outcome A := match x with Some a => Done a | None => Panic end.
Definition is_nil {A} (x : option A) : bool := match x with Some _ => false | None => true end.

Section validation.
(** External: protobuf decoding; crypto.UnmarshalPublicKey followed by peer.IDFromPublicKey (the
    errors are ignored, a key that does not parse is a nil interface and the second call panics). *)
Context (decode_block : string -> option block) (decode_tx : string -> option transaction)
        (id_of_key : string -> outcome string).
(** This node's id. *)
Context (me : string).

(** gossip.go:338-377 applyBlock.  [lib] is the height the LIB provider returns, [apply] what
    ApplyBlock returns for the block.  Wrapping with %w of one sentinel is [EWrap (ESent s)].  Log
    messages (util.BlockString) are left out. *)
Definition apply_block (lib : N) (apply : block -> option goerr) (m : message)
  : outcome (option goerr * list block) :=
  match decode_block (m_data m) with
  | None => Done (Some (EWrap (ESent ErrDeserialization)), [])
  | Some b =>
    if bool_decide (m_from m = me) then Done (None, [])
    else if is_nil (b_id b) then Done (Some (EWrap (ESent ErrDeserialization)), [])
    else if is_nil (b_header b) then Done (Some (EWrap (ESent ErrDeserialization)), [])
    else obind (deref (b_header b)) (fun h =>
      if is_nil (h_previous h) then Done (Some (EWrap (ESent ErrDeserialization)), [])
      else if bool_decide (h_height h < lib)%N then Done (Some (ESent ErrBlockIrreversibility), [])
      else match apply b with
           | Some _ => Done (Some (EWrap (ESent ErrBlockApplication)), [b])
           | None => Done (None, [b])
           end)
  end.

(** gossip.go:310-336 validateBlock *)
Definition validate_block (lib : N) (apply : block -> option goerr) (m : message)
  : outcome (val_result block) :=
  obind (apply_block lib apply m) (fun '(err, applied) =>
  match err with
  | None => Done (ValResult true applied [])
  | Some e =>
    if is_err e ErrBlockIrreversibility then Done (ValResult false applied [])
    else obind (if is_err e ErrForkBomb then id_of_key (m_key m) else Done (m_received m)) (fun id =>
         Done (ValResult false applied [(id, e)]))
  end).

(** gossip.go:418-447 applyTransaction *)
Definition apply_tx (apply : transaction -> option goerr) (m : message) : option goerr * list transaction :=
  match decode_tx (m_data m) with
  | None => (Some (EWrap (ESent ErrDeserialization)), [])
  | Some t =>
    if bool_decide (m_from m = me) then (None, [])
    else if is_nil (t_id t) then (Some (EWrap (ESent ErrDeserialization)), [])
    else match apply t with
         | Some e => if is_err e ErrInvalidNonce then (Some (EWrap (ESent ErrInvalidNonce)), [t])
                     else (Some (EWrap (ESent ErrTransactionApplication)), [t])
         | None => (None, [t])
         end
  end.

(** gossip.go:403-416 validateTransaction *)
Definition validate_tx (apply : transaction -> option goerr) (m : message) : val_result transaction :=
  let '(err, applied) := apply_tx apply m in
  match err with
  | None => ValResult true applied []
  | Some e => ValResult false applied [(m_received m, e)]
  end.
End validation.
