(** The step function as an inductive relation with one rule per case, and the effect of [do_effs]. *)
From Verif Require Import GoBase Util TxCache_Model Watchdog_Model Applicator_Model Applicator_Core.

Inductive Step (o : ap_opts) (s : sys) : label -> sys -> Prop :=
| St_call b h wd' : wd_add (s_wd s) b = Done (wd', None) -> b_header b = Some h ->
    Step o s (LCall b) (set_calls (s_calls s ++ [Call (Blk b h) CSend None]) (set_wd wd' s))
| St_call_bomb b wd' e : wd_add (s_wd s) b = Done (wd', Some e) ->
    Step o s (LCall b) (add_log (OReturn None b (Some e)) (set_wd wd' s))
| St_call_panic b : b_header b = None -> Step o s (LCall b) (set_panic s)
| St_send c k buf : s_calls s !! c = Some (Call k CSend buf) -> length (s_new s) < chan_cap ->
    Step o s (LSend c) (set_new (s_new s ++ [c]) (set_calls (<[c := Call k CWait buf]> (s_calls s)) s))
| St_ret c k r : s_calls s !! c = Some (Call k CWait (Some r)) ->
    Step o s (LRet c) (add_log (OReturn (Some c) (k_src k) r) (set_calls (<[c := Call k (CRet r) (Some r)]> (s_calls s)) s))
| St_timeout c k buf : s_calls s !! c = Some (Call k CWait buf) ->
    Step o s (LTimeout c)
      (add_log (OReturn (Some c) (k_src k) (Some (ESent ErrBlockApplicationTimeout)))
         (set_calls (<[c := Call k (CRet (Some (ESent ErrBlockApplicationTimeout))) buf]> (s_calls s)) s))
| St_new lose c rest cl core' effs : serving s = true -> s_new s = c :: rest -> s_calls s !! c = Some cl ->
    handle_new o (s_now s) (cl_blk cl) [c] (s_core s) = (core', effs) ->
    Step o s (LNew lose) (do_effs lose effs (set_core core' (set_new rest s)))
| St_try_start i k f t : serving s = true -> s_try s !! i = Some (k, f, t) -> (t <= s_now s)%Z ->
    k_id k ∉ c_pending (s_core s) ->
    Step o s (LTry i)
      (set_att (s_att s ++ [Attempt k PStart])
        (set_core (Core (c_highest (s_core s)) (c_lib (s_core s)) (c_byid (s_core s)) (c_byprev (s_core s))
                     (c_byheight (s_core s)) ({[ k_id k ]} ∪ c_pending (s_core s)))
        (set_try (delete i (s_try s)) s)))
| St_try_force i k t : serving s = true -> s_try s !! i = Some (k, true, t) -> (t <= s_now s)%Z ->
    k_id k ∈ c_pending (s_core s) ->
    Step o s (LTry i) (set_try (delete i (s_try s) ++ [(k, true, (s_now s + ao_retry_delay o)%Z)]) s)
| St_try_skip i k t : serving s = true -> s_try s !! i = Some (k, false, t) -> (t <= s_now s)%Z ->
    k_id k ∈ c_pending (s_core s) ->
    Step o s (LTry i) (set_try (delete i (s_try s)) s)
| St_try_drop i x : s_cancelled s = true -> s_try s !! i = Some x ->
    Step o s (LTryDrop i) (set_try (delete i (s_try s)) s)
| St_att_start i k : s_att s !! i = Some (Attempt k PStart) ->
    Step o s (LAttStart i) (set_phase i (start_phase o (s_now s) k) s)
| St_att_wake i k w t : s_att s !! i = Some (Attempt k (PDelay w t)) -> (w <= s_now s)%Z \/ s_cancelled s = true ->
    Step o s (LAttWake i) (set_phase i PQueued s)
| St_att_delay_timeout i k w t res : s_att s !! i = Some (Attempt k (PDelay w t)) ->
    (t <= s_now s)%Z \/ s_cancelled s = true ->
    res = (if s_cancelled s then Some (ESent CtxCanceled) else None) ->
    Step o s (LAttDelayTimeout i) (add_log (ODelayTimeout i k res) (set_phase i (PStatus res) s))
| St_att_give_up i k p : s_cancelled s = true -> s_att s !! i = Some (Attempt k p) ->
    (exists w t, p = PDelay w t) \/ (exists r, p = PStatus r) ->
    Step o s (LAttGiveUp i) (set_phase i PDone s)
| St_take_low i k : s_att s !! i = Some (Attempt k PQueued) -> busy_workers s < ao_jobs o ->
    (k_height k <= c_lib (s_core s))%N ->
    Step o s (LTake i) (set_phase i (PStatus (Some (ESent ErrBlockIrreversibility)))
                          (add_log (OTake i k (c_lib (s_core s))) s))
| St_take i k : s_att s !! i = Some (Attempt k PQueued) -> busy_workers s < ao_jobs o ->
    (c_lib (s_core s) < k_height k)%N ->
    Step o s (LTake i) (set_phase i (PChecked (c_lib (s_core s))) (add_log (OTake i k (c_lib (s_core s))) s))
| St_submit i k lib : s_att s !! i = Some (Attempt k (PChecked lib)) ->
    Step o s (LSubmit i) (add_log (OSubmit i k (s_now s)) (set_phase i PRpc s))
| St_rpc_done i k res : s_att s !! i = Some (Attempt k PRpc) ->
    Step o s (LRpcDone i res) (add_log (OResult i k res) (set_phase i (PStatus res) s))
| St_status i lose k res core' effs : serving s = true -> s_att s !! i = Some (Attempt k (PStatus res)) ->
    handle_status o (s_now s) k res (s_core s) = (core', effs) ->
    Step o s (LStatus i lose) (do_effs lose effs (add_log (OStatus i k res) (set_core core' (set_phase i PDone s))))
| St_announce fh : Step o s (LAnnounce fh) (set_fh (s_fh s ++ [fh]) s)
| St_fork_heads_panic i lose fh : serving s = true -> s_fh s !! i = Some fh -> fh_lib fh = None ->
    Step o s (LForkHeads i lose) (set_panic (set_fh (delete i (s_fh s)) s))
| St_fork_heads_hang i lose fh : serving s = true -> s_fh s !! i = Some fh -> fh_lib fh = Some max_u64 ->
    Step o s (LForkHeads i lose)
      (set_hang (add_log (OLib max_u64)
        (set_core (Core (c_highest (s_core s)) max_u64 (c_byid (s_core s)) (c_byprev (s_core s)) (c_byheight (s_core s)) (c_pending (s_core s)))
        (set_wd (wd_purge (s_wd s) max_u64) (set_fh (delete i (s_fh s)) s)))))
| St_fork_heads i lose fh lib core' effs : serving s = true -> s_fh s !! i = Some fh -> fh_lib fh = Some lib ->
    lib <> max_u64 ->
    handle_fork_heads o (s_now s) fh (s_core s) = Done (Some (core', effs)) ->
    Step o s (LForkHeads i lose)
      (do_effs lose effs (add_log (OLib (c_lib core')) (set_core core' (set_wd (wd_purge (s_wd s) (c_lib core'))
         (set_fh (delete i (s_fh s)) s)))))
| St_accept b : Step o s (LAccept b) (set_bc (s_bc s ++ [b]) s)
| St_broadcast i b h cache' n core' effs : serving s = true -> s_bc s !! i = Some b ->
    tx_check_block (s_now s) b (s_cache s) = Done (cache', n) -> b_header b = Some h ->
    handle_broadcast o (s_now s) (Blk b h) (s_core s) = (core', effs) ->
    Step o s (LBroadcast i)
      (do_effs (fun _ => false) effs (add_log (OAccepted b (s_now s)) (set_core core' (set_cache cache'
         (set_bc (delete i (s_bc s)) s)))))
| St_broadcast_panic i b : serving s = true -> s_bc s !! i = Some b ->
    tx_check_block (s_now s) b (s_cache s) = Panic \/ b_header b = None ->
    Step o s (LBroadcast i) (set_panic (set_bc (delete i (s_bc s)) s))
| St_tick d : Step o s (LTick d) (set_now (s_now s + Z.of_N d)%Z s)
| St_cancel : Step o s LCancel (set_cancelled s)
| St_loop_exit : s_cancelled s = true -> Step o s LLoopExit (set_loop false s)
| St_tx_call t : Step o s (LTxCall t) (set_txs (s_txs s ++ [TxProc t TSend None None]) s)
| St_tx_send i t : s_txs s !! i = Some (TxProc t TSend None None) ->
    length (filter (fun t => tp_phase t = TQueued) (s_txs s)) < chan_cap ->
    Step o s (LTxSend i) (tx_set i (fun _ => TxProc t TQueued None None) s)
| St_tx_take_panic i t buf ret : s_txs s !! i = Some (TxProc t TQueued buf ret) -> busy_workers s < ao_jobs o ->
    tx_check (s_now s) [t] (s_cache s) = Panic -> Step o s (LTxTake i) (set_panic s)
| St_tx_take i t buf ret cache' : s_txs s !! i = Some (TxProc t TQueued buf ret) -> busy_workers s < ao_jobs o ->
    tx_check (s_now s) [t] (s_cache s) = Done (cache', 0) ->
    Step o s (LTxTake i) (add_log (OTxSubmit i t (s_now s)) (tx_set i (fun p => TxProc t TRpc buf ret) (set_cache cache' s)))
| St_tx_take_dup i t buf ret cache' n : s_txs s !! i = Some (TxProc t TQueued buf ret) -> busy_workers s < ao_jobs o ->
    tx_check (s_now s) [t] (s_cache s) = Done (cache', S n) ->
    Step o s (LTxTake i) (add_log (OTxDuplicate i t (s_now s)) (tx_set i (fun p => TxProc t TServed (Some None) ret) (set_cache cache' s)))
| St_tx_done i t buf ret res : s_txs s !! i = Some (TxProc t TRpc buf ret) ->
    Step o s (LTxDone i res) (add_log (OTxResult i t res) (tx_set i (fun p => TxProc t TServed (Some res) ret) s))
| St_tx_ret i t ph r : s_txs s !! i = Some (TxProc t ph (Some r) None) ->
    Step o s (LTxRet i) (add_log (OTxReturn i t r) (tx_set i (fun p => TxProc t ph (Some r) (Some r)) s))
| St_tx_timeout i deadline t ph buf r : s_txs s !! i = Some (TxProc t ph buf None) -> ph <> TSend ->
    r = Some (ESent (if deadline : bool then CtxDeadlineExceeded else CtxCanceled)) ->
    Step o s (LTxTimeout i deadline) (add_log (OTxReturn i t r) (tx_set i (fun p => TxProc t ph buf (Some r)) s)).

Lemma wd_add_panic w b : wd_add w b = Panic -> b_header b = None.
Proof. unfold wd_add. destruct (b_header b); [|done]. simpl. by repeat case_match. Qed.

Lemma step_Step o s lab s' : step o s lab = Some s' -> s_panic s = false /\ Step o s lab s'.
Proof.
  unfold step. destruct (s_panic s); [done|]. intros H. split; [done|]. destruct lab.
  - injection H as <-. unfold step_call. destruct (wd_add (s_wd s) b) as [[wd' [e|]]|] eqn:Hw.
    + by eapply St_call_bomb.
    + destruct (b_header b) eqn:Hb; [by eapply St_call|by eapply St_call_panic].
    + eapply St_call_panic, wd_add_panic, Hw.
  - destruct (s_calls s !! c) as [[k [| |] buf]|] eqn:Hc; try done. case_bool_decide; [|done]. injection H as <-. by eapply St_send.
  - destruct (s_calls s !! c) as [[k [| |] [buf|]]|] eqn:Hc; try done. injection H as <-. unfold call_return. rewrite Hc. by eapply St_ret.
  - destruct (s_calls s !! c) as [[k [| |] buf]|] eqn:Hc; try done. injection H as <-. unfold call_return. rewrite Hc. by eapply St_timeout.
  - destruct (serving s) eqn:Hsv; [|done]. simpl in H. destruct (s_new s) as [|c rest] eqn:Hn; [done|].
    destruct (s_calls s !! c) as [cl|] eqn:Hc; [|done].
    destruct (handle_new _ _ _ _ _) as [core' effs] eqn:Hh. injection H as <-. by eapply St_new.
  - destruct (serving s) eqn:Hsv; [|done]. simpl in H. destruct (s_try s !! i) as [[[k f] t]|] eqn:Ht; [|done].
    case_bool_decide as Hle; [|done]. unfold handle_try in H. case_bool_decide as Hp.
    + destruct f; injection H as <-.
      * match goal with |- Step _ _ _ ?x =>
          replace x with (set_try (delete i (s_try s) ++ [(k, true, (s_now s + ao_retry_delay o)%Z)]) s) by (by destruct s) end.
        by eapply St_try_force.
      * match goal with |- Step _ _ _ ?x => replace x with (set_try (delete i (s_try s)) s) by (by destruct s) end.
        by eapply St_try_skip.
    + injection H as <-. by eapply St_try_start.
  - destruct (s_cancelled s) eqn:Hc; [|done]. destruct (s_try s !! i) eqn:Ht; [|done]. injection H as <-. by eapply St_try_drop.
  - destruct (s_att s !! i) as [[k []]|] eqn:Ha; try done. injection H as <-. by eapply St_att_start.
  - destruct (s_att s !! i) as [[k []]|] eqn:Ha; try done. destruct (bool_decide _ || _) eqn:Hb; [|done]. injection H as <-.
    eapply St_att_wake; [done|]. apply orb_true_iff in Hb as [Hb|Hb]; [left; by apply bool_decide_eq_true in Hb|by right].
  - destruct (s_att s !! i) as [[k []]|] eqn:Ha; try done. destruct (bool_decide _ || _) eqn:Hb; [|done]. injection H as <-.
    eapply St_att_delay_timeout; [done| |done]. apply orb_true_iff in Hb as [Hb|Hb]; [left; by apply bool_decide_eq_true in Hb|by right].
  - destruct (s_cancelled s) eqn:Hc; [|done]. destruct (s_att s !! i) as [[k []]|] eqn:Ha; try done; injection H as <-.
    + eapply St_att_give_up; eauto.
    + eapply St_att_give_up; eauto.
  - destruct (s_att s !! i) as [[k []]|] eqn:Ha; try done. case_bool_decide as Hj; [|done]. case_bool_decide as Hl; injection H as <-.
    + by eapply St_take_low.
    + eapply St_take; [done|done|lia].
  - destruct (s_att s !! i) as [[k []]|] eqn:Ha; try done. injection H as <-. by eapply St_submit.
  - destruct (s_att s !! i) as [[k []]|] eqn:Ha; try done. injection H as <-. by eapply St_rpc_done.
  - destruct (serving s) eqn:Hsv; [|done]. simpl in H. destruct (s_att s !! i) as [[k []]|] eqn:Ha; try done.
    destruct (handle_status _ _ _ _ _) as [core' effs] eqn:Hh. injection H as <-. by eapply St_status.
  - injection H as <-. constructor.
  - destruct (serving s) eqn:Hsv; [|done]. simpl in H. destruct (s_fh s !! i) as [fh|] eqn:Hf; [|done].
    destruct (fh_lib fh) as [lib|] eqn:Hl.
    + destruct (decide (lib = max_u64)) as [->|Hne].
      * unfold handle_fork_heads in H. rewrite Hl in H. rewrite bool_decide_true in H by done. injection H as <-.
        by eapply St_fork_heads_hang.
      * destruct (handle_fork_heads _ _ _ _) as [[[core' effs]|]|] eqn:Hh.
        -- injection H as <-. by eapply St_fork_heads.
        -- exfalso. unfold handle_fork_heads in Hh. rewrite Hl in Hh. rewrite bool_decide_false in Hh by done.
           destruct (remove_heights _ _ _) in Hh. done.
        -- exfalso. unfold handle_fork_heads in Hh. rewrite Hl in Hh. rewrite bool_decide_false in Hh by done.
           destruct (remove_heights _ _ _) in Hh. done.
    + unfold handle_fork_heads in H. rewrite Hl in H. injection H as <-. by eapply St_fork_heads_panic.
  - injection H as <-. constructor.
  - destruct (serving s) eqn:Hsv; [|done]. simpl in H. destruct (s_bc s !! i) as [b|] eqn:Hb; [|done].
    destruct (tx_check_block _ _ _) as [[cache' n]|] eqn:Hcb.
    + destruct (b_header b) as [h|] eqn:Hh.
      * injection H as <-. by eapply St_broadcast.
      * injection H as <-. eapply St_broadcast_panic; eauto.
    + injection H as <-. eapply St_broadcast_panic; eauto.
  - injection H as <-. constructor.
  - injection H as <-. constructor.
  - destruct (s_cancelled s) eqn:Hc; [|done]. injection H as <-. by constructor.
  - injection H as <-. constructor.
  - destruct (s_txs s !! i) as [[t [] [|] [|]]|] eqn:Ht; try done. case_bool_decide as Hl; [|done]. injection H as <-. by eapply St_tx_send.
  - destruct (s_txs s !! i) as [[t [] buf ret]|] eqn:Ht; try done. case_bool_decide as Hl; [|done].
    destruct (tx_check _ _ _) as [[cache' [|n]]|] eqn:Hc; injection H as <-.
    + by eapply St_tx_take.
    + by eapply St_tx_take_dup.
    + by eapply St_tx_take_panic.
  - destruct (s_txs s !! i) as [[t [] buf ret]|] eqn:Ht; try done. injection H as <-. by eapply St_tx_done.
  - destruct (s_txs s !! i) as [[t ph [r|] [ret|]]|] eqn:Ht; try done. injection H as <-. by eapply St_tx_ret.
  - destruct (s_txs s !! i) as [[t [] buf [ret|]]|] eqn:Ht; try done; injection H as <-; by eapply St_tx_timeout.
Qed.

(** Induction over runs. *)
Lemma run_app o s sched1 sched2 : run o s (sched1 ++ sched2) =
  match run o s sched1 with Some s' => run o s' sched2 | None => None end.
Proof. revert s. induction sched1 as [|lab r IH]; intros s; [done|]. simpl. destruct (step o s lab); [apply IH|done]. Qed.
Lemma run_ind o (I : sys -> Prop) : (forall s lab s', I s -> s_panic s = false -> Step o s lab s' -> I s') ->
  forall sched s s', I s -> run o s sched = Some s' -> I s'.
Proof.
  intros Hstep. induction sched as [|lab r IH]; intros s s' HI H; simpl in H; [congruence|].
  destruct (step o s lab) as [s1|] eqn:H1; [|done]. apply step_Step in H1 as [Hp H1]. eapply IH; [|exact H]. eauto.
Qed.

(** ** Effects *)
(** Everything [do_effs] leaves alone, whatever the effects. *)
Record same_but_effs (s s' : sys) (effs : list eff) : Prop := {
  se_core : s_core s' = s_core s; se_wd : s_wd s' = s_wd s; se_cache : s_cache s' = s_cache s;
  se_new : s_new s' = s_new s; se_try : s_try s' = s_try s ++ spawns effs;
  se_att : s_att s' = s_att s; se_txs : s_txs s' = s_txs s; se_fh : s_fh s' = s_fh s; se_bc : s_bc s' = s_bc s;
  se_now : s_now s' = s_now s; se_cancelled : s_cancelled s' = s_cancelled s; se_loop : s_loop s' = s_loop s;
  se_hang : s_hang s' = s_hang s;
  se_len : length (s_calls s') = length (s_calls s);
  se_blk : forall c cl', s_calls s' !! c = Some cl' -> exists cl, s_calls s !! c = Some cl /\ cl_blk cl' = cl_blk cl /\ cl_phase cl' = cl_phase cl;
  se_log : exists new, s_log s' = new ++ s_log s /\ forall e, e ∈ new -> exists ch res, e = OAnswer ch res /\ Answer ch res ∈ effs }.

Lemma do_effs_same lose effs s : same_but_effs s (do_effs lose effs s) effs.
Proof.
  unfold do_effs. revert s. induction effs as [|e effs IH]; intros s; simpl.
  - split; try done. + by rewrite app_nil_r. + eauto. + exists []. split; [done|]. set_solver.
  - destruct (IH (do_eff lose s e)) as [H1 H2 H3 H4 H5 H6 H7 H8 H9 H10 H11 H12 H13 H14 H15 H16].
    assert (Hlog : exists new, s_log (do_eff lose s e) = new ++ s_log s /\ forall x, x ∈ new -> exists ch res, x = OAnswer ch res /\ e = Answer ch res).
    { destruct e as [ch res|k f t]; simpl.
      - destruct (s_cancelled s && lose ch); [exists []; split; [done|set_solver]|].
        destruct (s_calls s !! ch) as [cl|]; [|exists []; split; [done|set_solver]].
        destruct (cl_buf cl); [exists []; split; [done|set_solver]|].
        exists [OAnswer ch res]. split; [done|]. intros x Hx%elem_of_list_singleton. eauto.
      - exists []. split; [done|set_solver]. }
    assert (Hcalls : length (s_calls (do_eff lose s e)) = length (s_calls s) /\
      forall c cl', s_calls (do_eff lose s e) !! c = Some cl' -> exists cl, s_calls s !! c = Some cl /\ cl_blk cl' = cl_blk cl /\ cl_phase cl' = cl_phase cl).
    { destruct e as [ch res|k f t]; simpl; [|eauto].
      destruct (s_cancelled s && lose ch); [eauto|]. destruct (s_calls s !! ch) as [cl|] eqn:Hc; [|simpl; eauto].
      destruct (cl_buf cl); simpl; [eauto|]. split; [apply insert_length|]. intros c cl'.
      destruct (decide (c = ch)) as [->|].
      - rewrite list_lookup_insert by (by eapply lookup_lt_Some). intros [= <-]. eauto.
      - rewrite list_lookup_insert_ne by done. eauto. }
    destruct Hcalls as [Hlen Hblk].
    assert (Hrest : s_core (do_eff lose s e) = s_core s /\ s_wd (do_eff lose s e) = s_wd s /\ s_cache (do_eff lose s e) = s_cache s /\
      s_new (do_eff lose s e) = s_new s /\ s_try (do_eff lose s e) = s_try s ++ spawns [e] /\ s_att (do_eff lose s e) = s_att s /\
      s_txs (do_eff lose s e) = s_txs s /\ s_fh (do_eff lose s e) = s_fh s /\ s_bc (do_eff lose s e) = s_bc s /\
      s_now (do_eff lose s e) = s_now s /\ s_cancelled (do_eff lose s e) = s_cancelled s /\ s_loop (do_eff lose s e) = s_loop s /\
      s_hang (do_eff lose s e) = s_hang s).
    { destruct e as [ch res|k f t]; simpl; [|done].
      unfold spawns; simpl. rewrite app_nil_r.
      destruct (s_cancelled s && lose ch); [done|]. destruct (s_calls s !! ch) as [cl|]; [|done]. by destruct (cl_buf cl). }
    destruct Hrest as (R1 & R2 & R3 & R4 & R5 & R6 & R7 & R8 & R9 & R10 & R11 & R12 & R13).
    split; try congruence.
    + rewrite H5, R5, <- (assoc_L (++)). f_equal. change (e :: effs) with ([e] ++ effs). by rewrite spawns_app.
    + intros c cl' Hc. destruct (H15 c cl' Hc) as (cl1 & Hc1 & ? & ?). destruct (Hblk c cl1 Hc1) as (cl & ? & ? & ?).
      exists cl. split_and!; congruence.
    + destruct H16 as (n2 & -> & Hn2). destruct Hlog as (n1 & -> & Hn1). exists (n2 ++ n1).
      split; [by rewrite (assoc_L (++))|]. intros x Hx. apply elem_of_app in Hx as [Hx|Hx].
      * destruct (Hn2 x Hx) as (ch & res & -> & ?). exists ch, res. split; [done|]. by right.
      * destruct (Hn1 x Hx) as (ch & res & -> & ->). exists ch, res. split; [done|]. left.
Qed.

(** When the answered channels are distinct, and all of them open and empty, nothing panics and every
    answer arrives (unless the context is cancelled). *)
Definition fine (s : sys) (effs : list eff) : Prop :=
  NoDup (answered effs) /\ forall ch, ch ∈ answered effs -> exists cl, s_calls s !! ch = Some cl /\ cl_buf cl = None.

Lemma do_effs_fine lose effs s : fine s effs ->
  s_panic (do_effs lose effs s) = s_panic s /\
  forall c cl, s_calls s !! c = Some cl ->
    (c ∉ answered effs -> s_calls (do_effs lose effs s) !! c = Some cl) /\
    (forall r, Answer c r ∈ effs ->
       (s_calls (do_effs lose effs s) !! c = Some (Call (cl_blk cl) (cl_phase cl) (Some r)) /\ OAnswer c r ∈ s_log (do_effs lose effs s)) \/
       (s_cancelled s = true /\ s_calls (do_effs lose effs s) !! c = Some cl)).
Proof.
  unfold do_effs. revert s. induction effs as [|e effs IH]; intros s [Hnd Hopen]; simpl.
  - split; [done|]. intros c cl Hc. split; [done|]. set_solver.
  - destruct e as [ch res|k f t].
    + assert (Hans : answered (Answer ch res :: effs) = ch :: answered effs) by done.
      rewrite Hans in *. apply NoDup_cons in Hnd as [Hni Hnd].
      destruct (Hopen ch) as (cl0 & Hc0 & Hb0); [left|]. simpl. rewrite Hc0, Hb0.
      destruct (s_cancelled s && lose ch) eqn:Hl.
      * destruct (IH s) as [Hp Hpt]; [split; [done|]; intros x Hx; apply Hopen; by right|].
        split; [done|]. intros c cl Hc. destruct (Hpt c cl Hc) as [P1 P2]. split.
        -- intros Hn. apply P1. set_solver.
        -- intros r Hr. apply elem_of_cons in Hr as [[= -> ->]|Hr]; [|by apply P2].
           right. split; [by apply andb_true_iff in Hl as [? _]|]. by apply P1.
      * set (s1 := add_log (OAnswer ch res) (set_calls (<[ch:=Call (cl_blk cl0) (cl_phase cl0) (Some res)]> (s_calls s)) s)).
        destruct (IH s1) as [Hp Hpt].
        { split; [done|]. intros x Hx. destruct (Hopen x) as (cl & Hc & ?); [by right|]. exists cl. simpl.
          rewrite list_lookup_insert_ne by set_solver. done. }
        split; [done|]. intros c cl Hc. destruct (decide (c = ch)) as [->|Hne].
        -- split; [set_solver|]. intros r Hr. assert (r = res) as ->.
           { apply elem_of_cons in Hr as [[= ->]|Hr]; [done|]. exfalso. apply Hni, elem_answered. eauto. }
           left. assert (cl = cl0) as -> by congruence.
           assert (Hc1 : s_calls s1 !! ch = Some (Call (cl_blk cl0) (cl_phase cl0) (Some res)))
             by (simpl; apply list_lookup_insert; by eapply lookup_lt_Some).
           destruct (Hpt ch _ Hc1) as [P1 _]. split; [by apply P1|].
           destruct (se_log _ _ _ (do_effs_same lose effs s1)) as (new & Hlog & _). unfold do_effs in Hlog. rewrite Hlog.
           apply elem_of_app. right. simpl. left.
        -- assert (Hc1 : s_calls s1 !! c = Some cl) by (simpl; rewrite list_lookup_insert_ne; done).
           destruct (Hpt c cl Hc1) as [P1 P2]. split; [intros Hn; apply P1; set_solver|].
           intros r Hr. apply elem_of_cons in Hr as [[= -> ->]|Hr]; [done|]. by apply P2.
    + assert (Hans : answered (SpawnTry k f t :: effs) = answered effs) by done.
      rewrite Hans in *. destruct (IH (do_eff lose s (SpawnTry k f t))) as [Hp Hpt]; [done|].
      split; [done|]. intros c cl Hc. destruct (Hpt c cl Hc) as [P1 P2]. split; [done|].
      intros r Hr. apply elem_of_cons in Hr as [?|Hr]; [done|]. by apply P2.
Qed.
