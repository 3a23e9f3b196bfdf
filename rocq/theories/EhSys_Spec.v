(** Specification of the concurrent error handler (C68, C74-C76). *)
From Verif Require Import GoBase ErrHandler_Model ErrHandler_Spec EhSys_Model.

Definition es_reach (decay : N -> Z -> N) (o : eh_opts) (s : ehs) : Prop := exists sched, es_run decay o es_init sched = Some s.
(** The requests served so far, oldest first, and what was answered *)
Definition served_events (s : ehs) : list eh_event := map (fun x => x.1.2) (rev (es_log s)).
Definition served_answers (s : ehs) : list eh_out := map snd (rev (es_log s)).
(** [ev] is the request call [i] of kind [k] makes: about the given address, or about the address found for the given peer *)
Definition request_of (found : list (nat * maddr)) (i : nat) (k : ekind) (ev : eh_event) : Prop :=
  match k, ev with
  | KCanAddr a, EvCanConnect _ b => a = b
  | KCanPeer _, EvCanConnect _ b => (i, b) ∈ found
  | KScore _, EvGetScore _ b => (i, b) ∈ found
  | _, _ => False
  end.
Definition call_returned (s : ehs) (i : nat) (r : eh_out) : Prop :=
  exists k b x, es_calls s !! i = Some (ECall k (PDone r) b x).

(** What a query about address [a] at time [now] must be told after the history [hist] of served requests (C08, C09) *)
Definition gate_answer decay o (hist : list eh_event) (now : Z) (a : maddr) : bool :=
  match look decay now (ledger_of decay (touches o (ma_first a) hist)) with
  | Some (_, s) => bool_decide (s < o_reconnect o)%N
  | None => true
  end.
Definition score_answer decay o (hist : list eh_event) (now : Z) (a : maddr) : N :=
  ledger_score (look decay now (ledger_of decay (touches o (ma_first a) hist))).
(** [r] is the right answer to a query [k] of call [i], given at some moment of the served history *)
Definition right_answer decay o (s : ehs) (i : nat) (k : ekind) (r : eh_out) : Prop :=
  exists hist now a later,
    (match k with KCanAddr a' => a = a' | _ => (i, a) ∈ es_found s end) /\
    match k with
    | KScore _ => served_events s = hist ++ EvGetScore now a :: later /\ r = OutScore (score_answer decay o hist now a)
    | _ => served_events s = hist ++ EvCanConnect now a :: later /\ r = OutCan (gate_answer decay o hist now a)
    end.
(** A peer that is not connected has no address: it may connect and has no errors.  A caller whose context ended without an answer is told
    not to connect (and no errors).  Calls about a peer are those that need its address. *)
Definition about_peer (k : ekind) : Prop := exists p, k = KCanPeer p \/ k = KScore p.
Definition answer_without_address (k : ekind) (r : eh_out) : Prop := about_peer k /\ match k with KScore _ => r = OutScore 0 | _ => r = OutCan true end.
Definition answer_when_expired (k : ekind) (r : eh_out) : Prop := match k with KScore _ => r = OutScore 0 | _ => r = OutCan false end.
(** The reports made in a schedule; the reports charged in a history *)
Definition reports_made (sched : list elabel) : list (string * goerr) :=
  omap (fun l => match l with XReport id e => Some (id, e) | _ => None end) sched.
Definition reports_served (hist : list eh_event) : list (string * goerr) :=
  omap (fun ev => match ev with EvError _ id _ e => Some (id, e) | _ => None end) hist.
Definition report_in_hand (s : ehs) : list (string * goerr) := match es_loop s with EAddress id e => [(id, e)] | _ => [] end.
