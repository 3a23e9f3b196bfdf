(** Property theorems C17-C26 about gossip. *)
From Verif Require Import GoBase Util ErrHandler_Model ErrHandler_Spec Gossip_Model GossipLife_Model Gossip_Spec Gossip_Proofs.

(** ** C17: one live subscription at most, Enabled exactly while there is one. *)
Theorem C17_subscriptions_alternate : forall joined calls,
  exists g, gm_run (gm_new joined) calls = Done g /\
    well_paired 0 (gm_log g) /\
    (gm_enabled g = true <-> exists s, live (gm_log g) s) /\
    (forall s s', live (gm_log g) s -> live (gm_log g) s' -> s = s').
Proof.
  intros joined calls. destruct (gm_run_inv calls _ (gm_inv_new joined)) as (g & Hr & Hi & _).
  exists g. split; [exact Hr|]. split; [apply gm_inv_paired, Hi|]. apply gm_inv_live, Hi.
Qed.
Print Assumptions C17_subscriptions_alternate.
(** What each call does after any history. *)
Theorem C17_calls : forall joined calls g,
  gm_run (gm_new joined) calls = Done g ->
  (gm_enabled g = true -> forall ok, gm_start ok g = (g, GmOk)) /\
  (gm_enabled g = false -> gm_stop g = Done g) /\
  (joined = false -> gm_enabled g = false /\ forall ok, gm_start ok g = (g, GmErr)) /\
  (joined = true -> gm_enabled g = false ->
     gm_start false g = (g, GmErr) /\
     exists g', gm_start true g = (g', GmOk) /\ gm_enabled g' = true /\
                exists s, gm_log g' = gm_log g ++ [EvSubscribe s]) /\
  (gm_enabled g = true -> exists g' s, gm_stop g = Done g' /\ gm_enabled g' = false /\
                live (gm_log g) s /\ gm_log g' = gm_log g ++ [EvCancel s]).
Proof.
  intros joined calls g Hr.
  destruct (gm_run_inv calls _ (gm_inv_new joined)) as (g0 & Hr0 & Hi & Ht). rewrite Hr in Hr0. injection Hr0 as <-.
  simpl in Ht. split; [|split; [|split; [|split]]].
  - intros He ok. unfold gm_start. rewrite He. reflexivity.
  - intros He. unfold gm_stop. rewrite He. reflexivity.
  - intros ->. assert (He : gm_enabled g = false) by (eapply never_joined; exact Hr).
    split; [exact He|]. intros ok. unfold gm_start. rewrite He, Ht. reflexivity.
  - intros -> He. unfold gm_start. rewrite He, Ht. simpl. split; [reflexivity|]. eexists. split; [reflexivity|]. simpl. eauto.
  - intros He. pose proof Hi as Hi'. unfold gm_inv in Hi. rewrite He in Hi. destruct Hi as (n & Hn & Hs & Hl).
    unfold gm_stop. rewrite He, Hs. simpl. eexists _, n. split; [reflexivity|]. simpl. split; [done|]. split; [|done].
    rewrite Hl. split; [set_solver|]. rewrite elem_of_app, closed_log_elem, elem_of_list_singleton.
    intros [(i & Hi2 & [H|[= ->]])|H]; [done|lia|done].
Qed.
Print Assumptions C17_calls.
Example C17_nonvacuous :
  gm_log <$> (match gm_run (gm_new true) [CStart false; CStop; CStart true; CStart true; CStop; CStop; CStart true] with Done g => Some g | Panic => None end)
  = Some [EvSubscribe 0; EvCancel 0; EvSubscribe 1].
Proof. reflexivity. Qed.

(** ** C18: nothing is published after a completed disable.
    REFUTED: the start-up goroutine of an earlier enable may run after the disable. *)
Theorem C18_publish_after_disable_refuted : exists sched l,
  life_run life_init sched = Some l /\ lf_last l = Some false /\ lf_stopping l = false /\
  exists l', life_run l [LStarterRun 0 true; LPublish] = Some l' /\
    lf_last l' = Some false /\ lf_published l' = S (lf_published l).
Proof.
  exists [LEnable; LStop; LStopCancel]. eexists. split; [vm_compute; reflexivity|]. split; [reflexivity|]. split; [reflexivity|].
  eexists. split; [vm_compute; reflexivity|]. split; reflexivity.
Qed.
Print Assumptions C18_publish_after_disable_refuted.
(** The strongest true statement: if at the moment of the disable no start-up goroutine is outstanding,
    nothing is published until the next enable, under every schedule. *)
Theorem C18_nothing_published_partial : forall before l l1 l2 after l3,
  life_run life_init before = Some l -> no_outstanding l ->
  life_step l LStop = Some l1 -> life_step l1 LStopCancel = Some l2 ->
  LEnable ∉ after -> life_run l2 after = Some l3 ->
  lf_published l3 = lf_published l /\ lf_enabled l3 = false.
Proof.
  intros before l l1 l2 after l3 _ Hn H1 H2 Ha H3. destruct (stop_quiet l l1 l2 Hn H1 H2) as [Hq Hp].
  destruct (quiet_run l2 after l3 Hq Ha H3) as [[_ Hq3] Hp3]. split; [congruence|done].
Qed.
Print Assumptions C18_nothing_published_partial.
Definition get_life (x : option life) : life := default life_init x.
Example C18_nonvacuous :
  let l := get_life (life_run life_init [LEnable; LStarterRun 0 true; LPublish]) in
  let l1 := get_life (life_step l LStop) in
  let l2 := get_life (life_step l1 LStopCancel) in
  life_run life_init [LEnable; LStarterRun 0 true; LPublish] = Some l /\ lf_published l = 1 /\ no_outstanding l /\
  life_step l LStop = Some l1 /\ life_step l1 LStopCancel = Some l2 /\
  is_Some (life_run l2 [LPublish; LReaderErr 0; LStarterExit 0; LPublish]).
Proof.
  vm_compute. split; [reflexivity|]. split; [reflexivity|]. split.
  - intros i s Hi. destruct i as [|i]; [injection Hi as <-; discriminate|destruct i; discriminate].
  - split; [reflexivity|]. split; [reflexivity|]. eexists. reflexivity.
Qed.
(** A consequence of the same race: the delayed goroutine of a stopped session can occupy the manager,
    so that after the next enable no goroutine reads the topic although gossip is "enabled". *)
Theorem C18_enabled_without_reader_refuted : exists sched l,
  life_run life_init sched = Some l /\ lf_last l = Some true /\ lf_enabled l = true /\ lf_stopping l = false /\
  Forall (fun s => ss_starter s <> StNotRun /\ ss_reader s <> RdNext /\ ss_reader s <> RdHold) (lf_sessions l).
Proof.
  exists [LEnable; LStop; LStopCancel; LStarterRun 0 true; LReaderErr 0; LEnable; LStarterRun 1 true].
  eexists. split; [reflexivity|]. do 3 (split; [reflexivity|]).
  repeat constructor; discriminate.
Qed.
Print Assumptions C18_enabled_without_reader_refuted.

(** ** C19: stopping gossip never crashes.
    REFUTED: the reader may hold a message while the channel is closed under it. *)
Theorem C19_send_on_closed_channel_refuted : exists sched l,
  life_run life_init sched = Some l /\ lf_panic l = true.
Proof.
  exists [LEnable; LStarterRun 0 true; LReaderMsg 0; LStop; LStopCancel; LStarterExit 0; LReaderSend 0].
  eexists. split; reflexivity.
Qed.
Print Assumptions C19_send_on_closed_channel_refuted.
(** No crash as long as no gossip context was cancelled (by a completed disable or by shutdown). *)
Theorem C19_no_crash_while_running_partial : forall sched l,
  Forall (fun lab => lab <> LStopCancel /\ lab <> LShutdown) sched ->
  life_run life_init sched = Some l -> lf_panic l = false.
Proof.
  intros sched l Hs Hr. eapply no_closed_run; [| |exact Hs|exact Hr]; [intros i s Hi; done|done].
Qed.
Print Assumptions C19_no_crash_while_running_partial.
(** The only way to crash: a reader that received a message before it noticed the stop sends it after
    the goroutine that owns the channel has closed it. *)
Theorem C19_crash_only_this_way_partial : forall sched l lab l',
  life_run life_init sched = Some l -> lf_panic l = false -> life_step l lab = Some l' ->
  (lf_panic l' = true <->
   exists i s, lab = LReaderSend i /\ lf_sessions l !! i = Some s /\
     ss_reader s = RdHold /\ ss_starter s = StExited /\ ss_cancelled s = true /\ ss_subcancelled s = true).
Proof.
  intros sched l lab l' Hr Hp Hs. rewrite (panic_exactly l lab l' Hp Hs). split.
  - intros (i & s & -> & Hi & Hrd & Hst). exists i, s. split_and!; try done.
    + eapply exited_cancelled; eauto.
    + eapply exited_cancelled; eauto.
  - intros (i & s & -> & Hi & Hrd & Hst & _). eauto 10.
Qed.
Print Assumptions C19_crash_only_this_way_partial.
Example C19_nonvacuous : exists l,
  life_run life_init [LEnable; LStarterRun 0 true; LReaderMsg 0; LReaderSend 0; LStarterDrain 0; LReaderMsg 0; LStop; LReaderQuit 0] = Some l /\
  lf_panic l = false.
Proof. eexists. split; reflexivity. Qed.

(** ** C20: publishing. *)
Theorem C20_publish : forall enabled marshalled p,
  publish enabled marshalled p =
    match enabled, marshalled with
    | true, Some data => (PubState ((ps_count p + 1) mod 2 ^ 32) (ps_sent p ++ [data]), false)
    | true, None => (p, true)
    | false, _ => (p, false)
    end.
Proof. intros [] [data|] p; reflexivity. Qed.
Print Assumptions C20_publish.
(** Over any history of publish calls: what is sent is exactly the serializable messages of the calls
    made while enabled, in order, each once; and the counter counts them modulo 2^32. *)
Theorem C20_history : forall (calls : list (bool * option string)),
  let p := fold_left (fun p c => fst (publish (fst c) (snd c) p)) calls (PubState 0 []) in
  ps_sent p = omap snd (filter (fun c => fst c = true) calls) /\
  ps_count p = (N.of_nat (length (ps_sent p)) mod 2 ^ 32)%N.
Proof. exact publish_history. Qed.
Print Assumptions C20_history.
Example C20_nonvacuous :
  ps_sent (fold_left (fun p c => fst (publish (fst c) (snd c) p))
    [(true, Some "a"); (false, Some "b"); (true, None); (true, Some "c")] (PubState 0 [])) = ["a"; "c"]%string.
Proof. reflexivity. Qed.

(** ** Validation.  For any decoder, key-to-id function and own id. *)
Section validation.
Context (decode_block : string -> option block) (decode_tx : string -> option transaction)
        (id_of_key : string -> outcome string) (me : string).
Notation validate_block := (validate_block decode_block id_of_key me).
Notation validate_tx := (validate_tx decode_tx me).

(** C21 *)
Theorem C21_block_accepted_iff : forall lib apply m,
  exists r, validate_block lib apply m = Done r /\
  (v_ok r = true <->
   exists b, decode_block (m_data m) = Some b /\
     (m_from m = me \/ (complete_block b /\ (lib <= block_height b)%N /\ apply b = None))) /\
  (* the applicator is called at most once, on the decoded block, exactly when *)
  (forall b, v_applied r = [b] <->
     decode_block (m_data m) = Some b /\ m_from m <> me /\ complete_block b /\ (lib <= block_height b)%N) /\
  (v_applied r = [] \/ exists b, v_applied r = [b]).
Proof.
  intros lib apply m. destruct (decode_block (m_data m)) as [b|] eqn:H.
  2: { rewrite (vb_undecodable _ _ _ _ _ _ H). eexists. split; [reflexivity|]. simpl. split; [|split; [|auto]].
       - split; [done|]. intros (b & Hb & _). congruence.
       - intros b. split; [done|]. intros (Hb & _). congruence. }
  destruct (decide (m_from m = me)) as [Hm|Hm].
  { rewrite (vb_ours _ _ _ _ _ _ _ H Hm). eexists. split; [reflexivity|]. simpl. split; [|split; [|auto]].
    - split; [eauto|done].
    - intros b'. split; [done|]. intros (_ & Hb & _). done. }
  destruct (complete_dec b) as [Hc|Hc].
  2: { rewrite (vb_incomplete _ _ _ _ _ _ _ H Hm Hc). eexists. split; [reflexivity|]. simpl. split; [|split; [|auto]].
       - split; [done|]. intros (b' & Hb & [?|(Hc' & _)]); [done|]. injection Hb as <-. done.
       - intros b'. split; [done|]. intros (Hb & _ & Hc' & _). injection Hb as <-. done. }
  rewrite (vb_complete _ _ _ _ _ _ _ H Hm Hc). destruct (bool_decide_reflect (block_height b < lib)%N) as [Hl|Hl].
  - eexists. split; [reflexivity|]. simpl. split; [|split; [|auto]].
    + split; [done|]. intros (b' & Hb & [?|(_ & Hl' & _)]); [done|]. injection Hb as <-. lia.
    + intros b'. split; [done|]. intros (Hb & _ & _ & Hl'). injection Hb as <-. lia.
  - destruct (apply b) as [e|] eqn:Ha; eexists; (split; [reflexivity|]); simpl; (split; [|split; [|eauto]]).
    + split; [done|]. intros (b' & Hb & [?|(_ & _ & Ha')]); [done|]. injection Hb as <-. congruence.
    + intros b'. split; [intros [= ->]|intros ([= ->] & _)]; [|done]. split_and!; try done. lia.
    + split; [|done]. intros _. exists b. split; [done|]. right. split_and!; try done. lia.
    + intros b'. split; [intros [= ->]|intros ([= ->] & _)]; [|done]. split_and!; try done. lia.
Qed.

(** C22: malformed blocks and transactions. *)
Theorem C22_malformed_block : forall lib apply m,
  decode_block (m_data m) = None \/
    (m_from m <> me /\ exists b, decode_block (m_data m) = Some b /\ ~ complete_block b) ->
  exists e, validate_block lib apply m = Done (ValResult false [] [(m_received m, e)]) /\
    is_err e ErrDeserialization = true.
Proof.
  intros lib apply m [H|(Hm & b & H & Hc)].
  - rewrite (vb_undecodable _ _ _ _ _ _ H). eauto.
  - rewrite (vb_incomplete _ _ _ _ _ _ _ H Hm Hc). eauto.
Qed.
Theorem C22_malformed_tx : forall apply m,
  decode_tx (m_data m) = None \/
    (m_from m <> me /\ exists t, decode_tx (m_data m) = Some t /\ t_id t = None) ->
  exists e, validate_tx apply m = ValResult false [] [(m_received m, e)] /\
    is_err e ErrDeserialization = true.
Proof.
  intros apply m [H|(Hm & t & H & Hc)]; unfold Gossip_Model.validate_tx, apply_tx; rewrite H.
  - eauto.
  - rewrite bool_decide_eq_false_2 by done. rewrite Hc. simpl. eauto.
Qed.
(** No message crashes the block validator, whatever the applicator answers. *)
Theorem C22_never_panics : forall lib apply m, is_panic (validate_block lib apply m) = false.
Proof. intros lib apply m. destruct (vb_total decode_block id_of_key me lib apply m) as [r ->]. reflexivity. Qed.

(** C23: below the last irreversible height a block is dropped silently ... *)
Theorem C23_below_lib_costs_nothing_partial : forall lib apply m b,
  decode_block (m_data m) = Some b -> complete_block b -> (block_height b < lib)%N ->
  exists r, validate_block lib apply m = Done r /\ v_reported r = [] /\ v_applied r = [].
Proof.
  intros lib apply m b H Hc Hl. destruct (decide (m_from m = me)) as [Hm|Hm].
  - rewrite (vb_ours _ _ _ _ _ _ _ H Hm). eauto.
  - rewrite (vb_complete _ _ _ _ _ _ _ H Hm Hc), bool_decide_eq_true_2 by done. eauto.
Qed.
(** ... but not at that height, nor when the applicator already knows a higher one: its irreversibility
    answer is charged as a block application error (REFUTED). *)
Theorem C23_irreversible_block_charged_refuted : forall lib apply m b,
  decode_block (m_data m) = Some b -> m_from m <> me -> complete_block b -> (lib <= block_height b)%N ->
  apply b = Some (ESent ErrBlockIrreversibility) ->
  exists e, validate_block lib apply m = Done (ValResult false [b] [(m_received m, e)]) /\
    eh_score eh_defaults e = 5000%N.
Proof.
  intros lib apply m b H Hm Hc Hl Ha. rewrite (vb_complete _ _ _ _ _ _ _ H Hm Hc), bool_decide_eq_false_2, Ha by lia.
  eexists. split; reflexivity.
Qed.

(** C24 REFUTED: for every gossiped block the applicator rejects as a fork bomb, the error that is
    reported no longer is a fork bomb, and it is reported against the forwarding peer. *)
Theorem C24_fork_bomb_charged_to_forwarder_refuted : forall lib apply m b e0,
  decode_block (m_data m) = Some b -> m_from m <> me -> complete_block b -> (lib <= block_height b)%N ->
  apply b = Some e0 -> is_err e0 ErrForkBomb = true ->
  exists e, validate_block lib apply m = Done (ValResult false [b] [(m_received m, e)]) /\
    is_err e ErrForkBomb = false /\ eh_score eh_defaults e = 5000%N /\ eh_score eh_defaults e0 = 200000%N.
Proof.
  intros lib apply m b e0 H Hm Hc Hl Ha He0.
  rewrite (vb_complete _ _ _ _ _ _ _ H Hm Hc), bool_decide_eq_false_2, Ha by lia.
  eexists. split; [reflexivity|]. split; [reflexivity|]. split; [reflexivity|].
  apply fork_bomb_score, He0.
Qed.
(** What remains: the block is not relayed and the forwarding peer is charged something. *)
Theorem C24_fork_bomb_not_relayed_partial : forall lib apply m b e0,
  decode_block (m_data m) = Some b -> m_from m <> me -> apply b = Some e0 -> is_err e0 ErrForkBomb = true ->
  exists r, validate_block lib apply m = Done r /\ v_ok r = false.
Proof.
  intros lib apply m b e0 H Hm Ha He0. destruct (complete_dec b) as [Hc|Hc].
  - rewrite (vb_complete _ _ _ _ _ _ _ H Hm Hc), Ha. destruct (bool_decide _); eauto.
  - rewrite (vb_incomplete _ _ _ _ _ _ _ H Hm Hc). eauto.
Qed.

(** C25 on the gossip paths REFUTED: whatever the applicator's error was, in particular a local RPC
    failure or timeout, the forwarding peer is charged (except for an invalid nonce). *)
Theorem C25_gossip_charges_every_block_failure_refuted : forall lib apply m b e0,
  decode_block (m_data m) = Some b -> m_from m <> me -> complete_block b -> (lib <= block_height b)%N ->
  apply b = Some e0 ->
  exists e, validate_block lib apply m = Done (ValResult false [b] [(m_received m, e)]) /\
    eh_score eh_defaults e = 5000%N.
Proof.
  intros lib apply m b e0 H Hm Hc Hl Ha. rewrite (vb_complete _ _ _ _ _ _ _ H Hm Hc), bool_decide_eq_false_2, Ha by lia.
  eexists. split; reflexivity.
Qed.
Theorem C25_gossip_charges_tx_failure_refuted : forall apply m t e0,
  decode_tx (m_data m) = Some t -> m_from m <> me -> t_id t <> None ->
  apply t = Some e0 -> is_err e0 ErrInvalidNonce = false ->
  exists e, validate_tx apply m = ValResult false [t] [(m_received m, e)] /\
    eh_score eh_defaults e = 100%N.
Proof.
  intros apply m t e0 H Hm Hi Ha He. unfold Gossip_Model.validate_tx, apply_tx.
  rewrite H, bool_decide_eq_false_2, Ha by done. destruct (t_id t); [|done]. simpl. rewrite He.
  eexists. split; reflexivity.
Qed.

(** C26 *)
Theorem C26_tx_accepted_iff : forall apply m,
  let r := validate_tx apply m in
  v_ok r = true <->
  exists t, decode_tx (m_data m) = Some t /\ (m_from m = me \/ (t_id t <> None /\ apply t = None)).
Proof.
  intros apply m. unfold Gossip_Model.validate_tx, apply_tx. destruct (decode_tx (m_data m)) as [t|] eqn:H; simpl.
  2: { split; [done|]. intros (t & Ht & _). done. }
  destruct (bool_decide_reflect (m_from m = me)) as [Hm|Hm]; simpl; [split; eauto|].
  destruct (t_id t) as [i|] eqn:Hi; simpl.
  2: { split; [done|]. intros (t' & [= <-] & [?|[? _]]); done. }
  destruct (apply t) as [e|] eqn:Ha; simpl.
  - destruct (is_err e ErrInvalidNonce); simpl; (split; [done|]); intros (t' & [= <-] & [?|[_ ?]]); congruence.
  - split; [intros _|done]. exists t. split; [done|]. right. split; [congruence|done].
Qed.
Theorem C26_failures_charged_by_kind : forall apply m t e0,
  decode_tx (m_data m) = Some t -> m_from m <> me -> t_id t <> None -> apply t = Some e0 ->
  exists e, validate_tx apply m = ValResult false [t] [(m_received m, e)] /\
    root e = Some (if is_err e0 ErrInvalidNonce then ErrInvalidNonce else ErrTransactionApplication) /\
    eh_score eh_defaults e = (if is_err e0 ErrInvalidNonce then 0 else 100)%N.
Proof.
  intros apply m t e0 H Hm Hi Ha. unfold Gossip_Model.validate_tx, apply_tx.
  rewrite H, bool_decide_eq_false_2, Ha by done. destruct (t_id t); [|done]. simpl.
  destruct (is_err e0 ErrInvalidNonce); eexists; (split; [reflexivity|]); split; reflexivity.
Qed.
(** Exactly one error per rejected transaction, always against the forwarding peer; none for an accepted one. *)
Theorem C26_one_report_per_rejection : forall apply m,
  let r := validate_tx apply m in
  if v_ok r then v_reported r = [] else exists e, v_reported r = [(m_received m, e)].
Proof.
  intros apply m. unfold Gossip_Model.validate_tx. destruct (apply_tx _ _ _ m) as [[e|] a]; simpl; eauto.
Qed.
End validation.
Print Assumptions C21_block_accepted_iff.
Print Assumptions C22_malformed_block.
Print Assumptions C22_malformed_tx.
Print Assumptions C22_never_panics.
Print Assumptions C23_below_lib_costs_nothing_partial.
Print Assumptions C23_irreversible_block_charged_refuted.
Print Assumptions C24_fork_bomb_charged_to_forwarder_refuted.
Print Assumptions C24_fork_bomb_not_relayed_partial.
Print Assumptions C25_gossip_charges_every_block_failure_refuted.
Print Assumptions C25_gossip_charges_tx_failure_refuted.
Print Assumptions C26_tx_accepted_iff.
Print Assumptions C26_failures_charged_by_kind.
Print Assumptions C26_one_report_per_rejection.

(** A concrete decoder, message and block meeting the hypotheses above. *)
Definition demo_b : block := Block (Some "b1") (Some (Header 10 (Some "p") 0 (Some "s"))) [] "".
Definition demo_dec (s : string) : option block := if bool_decide (s = "good") then Some demo_b
  else if bool_decide (s = "noheader") then Some (Block (Some "b1") None [] "") else None.
Definition demo_msg (d : string) : message := Message d "alice" "bob" "key".
Example validation_nonvacuous :
  complete_block demo_b /\ demo_dec (m_data (demo_msg "good")) = Some demo_b /\ m_from (demo_msg "good") <> "me"%string /\
  validate_block demo_dec (fun _ => Panic) "me" 10 (fun _ => None) (demo_msg "good") = Done (ValResult true [demo_b] []) /\
  validate_block demo_dec (fun _ => Panic) "me" 11 (fun _ => None) (demo_msg "good") = Done (ValResult false [] []) /\
  (exists e, validate_block demo_dec (fun _ => Panic) "me" 10 (fun _ => None) (demo_msg "noheader") = Done (ValResult false [] [("bob"%string, e)])) /\
  (exists e, validate_block demo_dec (fun _ => Panic) "me" 10 (fun _ => Some (ESent ErrLocalRPC)) (demo_msg "good") = Done (ValResult false [demo_b] [("bob"%string, e)])).
Proof.
  split; [split; [done|eexists; split; [reflexivity|done]]|]. split; [reflexivity|]. split; [done|].
  split; [reflexivity|]. split; [reflexivity|]. split; eexists; reflexivity.
Qed.
