(** Specification for C114 and C115: what the node still remembers of what it was shown. *)
From Verif Require Import GoBase Watchdog_Model Applicator_Model ErrHandler_Model.

(** A block as the applicator records it at the door: height, signer, parent, id. *)
Record seen_block := SeenBlock { sb_height : N; sb_signer : string; sb_parent : string; sb_id : string }.
(** The record is in the node's memory. *)
Definition remembers (s : sys) (r : seen_block) : Prop :=
  exists pairs ids, s_wd s !! sb_height r = Some pairs /\ pairs !! (sb_signer r, sb_parent r) = Some ids /\ sb_id r ∈ ids.
(** The record that [b] leaves. *)
Definition record_of (b : block) (r : seen_block) : Prop :=
  exists hd, b_header b = Some hd /\ r = SeenBlock (h_height hd) (str (h_signer hd)) (str (h_previous hd)) (str (b_id b)).

(** The blocks passed to ApplyBlock in a run, in order. *)
Definition called (sched : list label) : list block := omap (fun lab => match lab with LCall b => Some b | _ => None end) sched.
(** The last irreversible heights processed from one state to a later one stay below [h]: [log'] continues [log]. *)
Definition libs_below (h : N) (log log' : list event) : Prop := exists new, log' = new ++ log /\ forall lib, OLib lib ∈ new -> (lib < h)%N.

(** Hosts with a record in the error handler. *)
Definition on_record (st : eh_state) (host : string) : Prop := exists r, st !! host = Some r.
(** [host] was reported for an error while its address was known. *)
Definition was_charged (evs : list eh_event) (host : string) : Prop :=
  exists now id a e, EvError now id (Some a) e ∈ evs /\ ma_first a = host.
