(** Property theorems: C110, a network of nodes that pass on transactions. *)
From stdpp Require Import pretty.
From Verif Require Import GoBase Gossip_Model Gossip_Spec TxCache_Model Watchdog_Model Applicator_Model Applicator_Spec Applicator_Sys Deliver_Spec Rest_Spec Rest_Proofs
  Honest_Spec Honest_Props Round_Props TxNet_Spec TxNet_Proofs.

(** C110.  A transaction that the chains accept and that has come up at a node (a client handed it to the node's chain, or the chain
    accepted it from the node).  When nothing is left to do in the network, the chain of every node that can be reached from there
    over links has it.  Full statement: without [twell false false], that is, also when other transactions with the same id are
    around, and when deadlines pass; both are refuted below. *)
Theorem C110_spreads_partial : forall encode decode_tx su links t sched x (area : nat -> Prop) src q,
  tcommon encode decode_tx su t ->
  truns encode decode_tx su links (twell decode_tx su t false false) (tnet_init su) sched x -> tquiet encode decode_tx su links x ->
  t ∈ tn_pool (tt_node x src) -> rtc (twithin links area) src q -> has_tx (tt_node x q) t.
Proof.
  intros encode decode_tx su links t sched x area src q HC Hr Hq Hsrc Hpath. destruct (tc_code _ _ _ _ HC) as (d & He & Hd).
  assert (HI : TI decode_tx su links t d x) by (eapply TI_run; [exact HC|exact He|exact Hd| |exact Hr]; by apply TI_init).
  assert (Hseen : d ∈ tn_seen (tt_node x src)).
  { destruct (ti_owed _ _ _ _ _ _ HI src Hsrc) as [Hx|?]; [|done]. destruct Hq as [_ Hq]. destruct (Hq src) as (_ & E & _). rewrite E in Hx. by apply elem_of_nil in Hx. }
  clear Hsrc. induction Hpath as [n|n1 n2 n3 (_ & _ & Hl) _ IH].
  - by eapply (tsettle encode decode_tx su links t d x n).
  - apply IH. by eapply (tsettle encode decode_tx su links t d x n1).
Qed.
Print Assumptions C110_spreads_partial.
(** No node charges another one for the transaction, at any time: every validator of a message with it that is over has accepted it. *)
Theorem C110_nobody_charged : forall encode decode_tx su links t sched x n v r,
  tcommon encode decode_tx su t ->
  truns encode decode_tx su links (twell decode_tx su t false false) (tnet_init su) sched x ->
  v ∈ tn_vals (tt_node x n) -> decode_tx (m_data (tv_msg v)) = Some t -> tv_phase v = TOver r -> v_ok r = true /\ v_reported r = [].
Proof.
  intros encode decode_tx su links t sched x n v r HC Hr Hv Hdv Hph. destruct (tc_code _ _ _ _ HC) as (d & He & Hd).
  assert (HI : TI decode_tx su links t d x) by (eapply TI_run; [exact HC|exact He|exact Hd| |exact Hr]; by apply TI_init).
  pose proof (no_vals _ _ _ _ _ (ti_node _ _ _ _ _ _ HI n) v Hv) as Hx. rewrite Hph in Hx. destruct (Hx Hdv) as (? & ? & _). done.
Qed.
Print Assumptions C110_nobody_charged.

(** ** Concrete runs: three nodes in a line *)
Fixpoint tname (n : nat) : string := match n with O => "" | S n => String Ascii.zero (tname n) end.
Lemma tname_inj n : forall q, tname n = tname q -> n = q.
Proof. induction n as [|n IH]; intros [|q] E; cbn in E; try done. injection E as E. f_equal. by apply IH. Qed.
Definition pay : transaction := Transaction (Some "t1"%string) "pay".
Definition twin : transaction := Transaction (Some "t1"%string) "junk".
Definition tencode (u : transaction) : option string := if bool_decide (u = pay) then Some "PAY"%string else if bool_decide (u = twin) then Some "JUNK"%string else None.
Definition tdecode (d : string) : option transaction := if bool_decide (d = "PAY"%string) then Some pay else if bool_decide (d = "JUNK"%string) then Some twin else None.
Definition tline (n : nat) : list nat := match n with 0 => [1] | 1 => [0; 2] | 2 => [1] | _ => [] end.
Definition ts3 (n : nat) : tsetup := TSetup (tname n) (ap_defaults 4) 10 10 (5 * minute) 0.
Lemma tcommon3 : tcommon tencode tdecode ts3 pay.
Proof.
  split.
  - by eexists.
  - exists "PAY"%string. by split; vm_compute.
  - intros u data u'. unfold tencode, tdecode. intros E1 E2. assert (H1 : str (t_id u) = "t1"%string) by (revert E1; repeat case_bool_decide; subst; done). rewrite H1. revert E2. repeat case_bool_decide; try done; by intros [= <-].
  - intros n q. apply tname_inj.
Qed.
(** The conditions, as a check *)
Definition twell_b (twins hasty : bool) (x : tnet) (lab : tlabel) : bool :=
  match lab with
  | TLocal n l =>
    match l with
    | LTxDone i res => match s_txs (tn_app (tt_node x n)) !! i with Some p => negb (bool_decide (tp_tx p = pay)) || bool_decide (res = None) | None => true end
    | LTxTimeout _ _ => hasty
    | LAccept _ => false
    | _ => true
    end
  | TClient _ u => bool_decide (u = pay)
  | TStranger _ m _ => (twins || negb (bool_decide (tdecode (m_data m) = Some twin))) &&
    (bool_decide (m_from m = "eve"%string) || bool_decide (m_from m = tname 0 /\ m_data m ∈ tn_seen (tt_node x 0)))
  | _ => true
  end.
Notation tstep3 := (tstep tencode tdecode ts3 tline).
Notation twell3 := (twell tdecode ts3 pay).
Definition ttarget (x : tnet) (lab : tlabel) : nat :=
  match lab with TLocal n _ | TClient n _ | TAnnounce n _ _ | TReturn n _ | TStranger n _ _ => n | TDeliver a _ => match tt_air x !! a with Some (n, _) => n | None => 0 end end.
Fixpoint trun (twins hasty : bool) (x : tnet) (sched : list tlabel) : option tnet :=
  match sched with
  | [] => Some x
  | lab :: r => if twell_b twins hasty x lab && bool_decide (ttarget x lab < 3) then match tstep3 x lab with Some x' => trun twins hasty x' r | None => None end else None
  end.
Lemma twell_check twins hasty x lab : twell_b twins hasty x lab = true -> twell3 twins hasty x lab.
Proof.
  destruct lab as [n l|n u|n j again|n i|a again|n m again]; cbn [twell_b twell]; try done.
  - destruct l; try done.
    + intros Hx p Hp E. rewrite Hp in Hx. apply orb_true_iff in Hx as [Hx|Hx]; [apply negb_true_iff, bool_decide_eq_false in Hx; done|by apply bool_decide_eq_true in Hx].
    + by intros -> [=].
  - intros Hx _. by apply bool_decide_eq_true in Hx as ->.
  - intros [H1 H2]%andb_true_iff. split.
    + intros -> u Hu _. cbn in H1. apply negb_true_iff, bool_decide_eq_false in H1. revert Hu H1. unfold tdecode. repeat case_bool_decide; try done; by intros [= <-].
    + intros q E. apply orb_true_iff in H2 as [H2|H2]; apply bool_decide_eq_true in H2; [rewrite H2 in E; by destruct q|]. destruct H2 as [H2 H3]. rewrite H2 in E. apply tname_inj in E as <-. exact H3.
Qed.
Lemma treceive_other x n m again x' q : treceive tdecode ts3 tline x n m again = Some x' -> q <> n -> tt_node x' q = tt_node x q.
Proof.
  unfold treceive. destruct (tt_node x n) as [s vs pool owed seen] eqn:En. destruct (bool_decide _ && _); [by intros [= <-]|]. destruct (toffered _ _ _ _).
  - destruct (step _ _ _); [|done]. intros [= <-] Hq. cbn. by apply tupd_other.
  - intros [= <-] Hq. cbn. by apply tupd_other.
Qed.
Lemma tstep_other x lab x' q : tstep3 x lab = Some x' -> q <> ttarget x lab -> tt_node x' q = tt_node x q.
Proof.
  destruct lab as [n l|n u|n j again|n i|a again|n m again]; cbn [tstep ttarget].
  - destruct (tt_node x n) as [s vs pool owed seen] eqn:En. intros Hs Hq.
    assert (Hs' : (fun s' => TNet (tupd (tt_node x) n (TNode s' vs (pool ++ taccepted l s) (owed ++ taccepted l s) seen)) (tt_air x)) <$> step (ts_opts (ts3 n)) s l = Some x') by (by destruct l).
    destruct (step _ _ _); [|done]. injection Hs' as <-. cbn. by apply tupd_other.
  - destruct (tt_node x n) as [s vs pool owed seen] eqn:En. intros [= <-] Hq. cbn. by apply tupd_other.
  - destruct (tt_node x n) as [s vs pool owed seen] eqn:En. destruct (owed !! j) as [u|]; [|done]. intros [= <-] Hq. unfold tpublish, publish. destruct (tencode u); cbn; [|by apply tupd_other].
    unfold tpublish_one. cbn. rewrite tupd_same. destruct (bool_decide _ && _); cbn; by rewrite !tupd_other.
  - destruct (tt_node x n) as [s vs pool owed seen] eqn:En. destruct (vs !! i) as [[m [c|r]]|]; try done. destruct (s_txs s !! c) as [p|]; [|done]. destruct (tp_ret p); [|done]. intros [= <-] Hq. cbn. by apply tupd_other.
  - destruct (tt_air x !! a) as [[n m]|]; [|done]. intros Hr Hq. by eapply treceive_other in Hr.
  - apply treceive_other.
Qed.
Lemma trun_runs twins hasty sched : forall x x', trun twins hasty x sched = Some x' -> truns tencode tdecode ts3 tline (twell3 twins hasty) x sched x' /\ forall q, 3 <= q -> tt_node x' q = tt_node x q.
Proof.
  induction sched as [|lab r IH]; intros x x'; cbn [trun truns]; [by intros [= <-]|]. destruct (twell_b twins hasty x lab) eqn:Ew; [|done]. case_bool_decide as Ht; [|done]. cbn [andb].
  destruct (tstep3 x lab) as [x1|] eqn:E1; [|done]. intros Hr. destruct (IH _ _ Hr) as [H1 H2]. split; [split; [by apply twell_check|eauto]|].
  intros q Hq. rewrite H2 by done. eapply tstep_other; [exact E1|lia].
Qed.
Definition tfinal {A} (twins hasty : bool) (f : tnet -> A) (sched : list tlabel) : option A := f <$> trun twins hasty (tnet_init ts3) sched.
Lemma tfinal_run {A} twins hasty (f : tnet -> A) sched a : tfinal twins hasty f sched = Some a -> exists x, trun twins hasty (tnet_init ts3) sched = Some x /\ f x = a.
Proof. unfold tfinal. destruct (trun twins hasty (tnet_init ts3) sched) as [x|]; [|done]. intros [= <-]. eauto. Qed.
(** At rest, without blocks *)
Definition tdone (p : tnode) : bool :=
  match s_calls (tn_app p), s_new (tn_app p), s_try (tn_app p), s_att (tn_app p), s_bc (tn_app p), s_fh (tn_app p), tn_owed p with [], [], [], [], [], [], [] => true | _, _, _, _, _, _, _ => false end &&
  forallb (fun q => match tp_ret q with Some _ => true | None => false end) (s_txs (tn_app p)) && forallb (fun v => match tv_phase v with TOver _ => true | _ => false end) (tn_vals p).
Lemma tdone_check x n : tdone (tt_node x n) = true -> at_rest (tn_app (tt_node x n)) /\ tn_owed (tt_node x n) = [] /\ forall i, tstep3 x (TReturn n i) = None.
Proof.
  unfold tdone. cbn [tstep]. destruct (tt_node x n) as [s vs pool owed seen]. cbn [tn_app tn_vals tn_owed]. intros [[H1 H2]%andb_true_iff H3]%andb_true_iff. rewrite forallb_forall in H2, H3.
  destruct (s_calls s) eqn:E1, (s_new s) eqn:E2, (s_try s) eqn:E3, (s_att s) eqn:E4, (s_bc s) eqn:E5, (s_fh s) eqn:E6, owed; try done.
  split_and!; [|done|].
  - unfold at_rest, settled. rewrite E1, E2, E3, E4, E5, E6. split_and!; try done.
    intros i p Hp. specialize (H2 p). intros E. rewrite E in H2. discriminate H2. apply elem_of_list_In. by eapply elem_of_list_lookup_2.
  - intros i. destruct (vs !! i) as [[m [c|r]]|] eqn:Ei; try done. specialize (H3 (TValidation m (TWait c)) ltac:(apply elem_of_list_In; by eapply elem_of_list_lookup_2)). done.
Qed.
Lemma tquiet_check x : tt_air x = [] -> (forall q, 3 <= q -> tt_node x q = tt_node (tnet_init ts3) q) -> forallb (fun n => tdone (tt_node x n)) [0; 1; 2] = true -> tquiet tencode tdecode ts3 tline x.
Proof.
  intros Ha Hq Hf. split; [done|]. intros n. apply tdone_check. destruct (le_lt_dec 3 n) as [Hn|Hn]; [by rewrite (Hq n Hn)|]. rewrite forallb_forall in Hf. apply Hf. cbn. lia.
Qed.
(** What is looked at: the chain of a node has accepted [pay] or a block (with it or not), and what its validators said *)
Definition has_obs (p : tnode) : bool * bool := (bool_decide (pay ∈ tn_pool p), existsb (fun e => match e with OAccepted _ _ => true | _ => false end) (s_log (tn_app p))).
Definition said (p : tnode) : list (option (string * bool * list (string * goerr))) := map (fun v => match tv_phase v with TOver r => Some (m_data (tv_msg v), v_ok r, v_reported r) | _ => None end) (tn_vals p).
Lemma has_not p : has_obs p = (false, false) -> ~ has_tx p pay.
Proof.
  unfold has_obs. intros [= H1 H2] [Hx|(b & now & Hx & _)]; [by apply bool_decide_eq_false in H1|]. assert (Ht : existsb (fun e => match e with OAccepted _ _ => true | _ => false end) (s_log (tn_app p)) = true); [|congruence].
  apply existsb_exists. exists (OAccepted b now). split; [by apply elem_of_list_In|done].
Qed.
Definition at_node (n : nat) (l : list label) : list tlabel := map (TLocal n) l.
(** A client hands the transaction to the first node's chain, which announces it. *)
Definition comes_up : list tlabel := [TClient 0 pay; TAnnounce 0 0 false].
(** Node [n] gets the message at place [a] on the way; the chain accepts the transaction and announces it. *)
Definition tgets (n a : nat) : list tlabel := [TDeliver a false] ++ at_node n [LTxSend 0; LTxTake 0; LTxDone 0 None; LTxRet 0] ++ [TReturn n 0; TAnnounce n 0 false].
Definition whole_tx : list tlabel := comes_up ++ tgets 1 0 ++ [TDeliver 0 false] ++ tgets 2 0 ++ [TDeliver 0 false; TStranger 2 (Message "trash" "eve" "eve" "") false;
  TStranger 0 (Message "PAY" (tname 0) "eve" "") true; TDeliver 0 false].
(** Eve sends the second node another transaction with the same id first. *)
Definition twin_tx : list tlabel :=
  [TStranger 1 (Message "JUNK" "eve" "eve" "") false] ++ at_node 1 [LTxSend 0; LTxTake 0; LTxDone 0 (Some (EOther "bad")); LTxRet 0] ++ [TReturn 1 0] ++
  comes_up ++ [TDeliver 0 false] ++ at_node 1 [LTxSend 1; LTxTake 1; LTxRet 1] ++ [TReturn 1 1; TDeliver 0 false] ++ tgets 2 0 ++ [TDeliver 0 false].
(** The second node's chain takes longer than the deadline of the validator (TransactionTimeout). *)
Definition late_tx : list tlabel :=
  comes_up ++ [TDeliver 0 false] ++ at_node 1 [LTxSend 0; LTxTake 0; LTick 1000000000; LTxTimeout 0 true; LTxDone 0 None] ++ [TReturn 1 0; TAnnounce 1 0 false].
Lemma line_path : rtc (twithin tline (fun n => n < 3)) 0 2 /\ rtc (twithin tline (fun n => n < 3)) 0 1.
Proof.
  assert (H01 : twithin tline (fun n => n < 3) 0 1) by (split_and!; [lia|lia|cbn; left]). assert (H12 : twithin tline (fun n => n < 3) 1 2) by (split_and!; [lia|lia|cbn; right; left]).
  split; [eapply rtc_l; [exact H01|by apply rtc_once]|by apply rtc_once].
Qed.
(** The transaction comes up at the first node of a line of three; in the end the third one, which is not linked to the first, has it.
    A stranger's trash is refused, and the first node's own message, sent back to it when pubsub has forgotten it, goes round once
    more. *)
Example C110_nonvacuous : exists x,
  tcommon tencode tdecode ts3 pay /\
  truns tencode tdecode ts3 tline (twell3 false false) (tnet_init ts3) whole_tx x /\ tquiet tencode tdecode ts3 tline x /\
  pay ∈ tn_pool (tt_node x 0) /\ rtc (twithin tline (fun n => n < 3)) 0 2 /\ 2 ∉ tline 0 /\ pay ∈ tn_pool (tt_node x 2) /\
  said (tt_node x 2) = [Some ("PAY", true, []); Some ("trash", false, [("eve", EWrap (ESent ErrDeserialization))])]%string.
Proof.
  destruct (tfinal_run false false (fun x => (bool_decide (tt_air x = []), forallb (fun n => tdone (tt_node x n)) [0; 1; 2], map (fun n => bool_decide (pay ∈ tn_pool (tt_node x n))) [0; 1; 2], said (tt_node x 2))) whole_tx
    (true, true, [true; true; true], [Some ("PAY", true, []); Some ("trash", false, [("eve", EWrap (ESent ErrDeserialization))])]%string)) as (x & Hx & E); [vm_compute; reflexivity|].
  apply trun_runs in Hx as [Hx Hq]. exists x. set (A := bool_decide (tt_air x = [])) in E. set (B := forallb _ [0; 1; 2]) in E. set (V := said _) in E. injection E as EA EB C0 C1 C2 EV. apply bool_decide_eq_true in EA, C0, C2.
  split; [exact tcommon3|]. split; [exact Hx|]. clear Hx. split; [by apply tquiet_check|]. split; [exact C0|]. split; [apply line_path|]. split; [cbn; by rewrite elem_of_list_singleton|]. split; [exact C2|exact EV].
Qed.
(** C110 as stated is refuted.  Eve, a peer of the second node, sends it another transaction with the same id, which the chain
    rejects.  When the true one arrives, the transaction cache knows its id: the node takes it as applied and sends it on, but its
    chain never gets it.  The chains of both neighbours have it, no deadline has passed, and all is quiet.  Eve was charged once. *)
Theorem C110_twin_refuted : exists x,
  tcommon tencode tdecode ts3 pay /\
  truns tencode tdecode ts3 tline (twell3 true false) (tnet_init ts3) twin_tx x /\ tquiet tencode tdecode ts3 tline x /\
  pay ∈ tn_pool (tt_node x 0) /\ pay ∈ tn_pool (tt_node x 2) /\ rtc (twithin tline (fun n => n < 3)) 0 1 /\ ~ has_tx (tt_node x 1) pay /\
  said (tt_node x 1) = [Some ("JUNK", false, [("eve", EWrap (ESent ErrTransactionApplication))]); Some ("PAY", true, [])]%string.
Proof.
  destruct (tfinal_run true false (fun x => (bool_decide (tt_air x = []), forallb (fun n => tdone (tt_node x n)) [0; 1; 2], map (fun n => bool_decide (pay ∈ tn_pool (tt_node x n))) [0; 2], has_obs (tt_node x 1), said (tt_node x 1))) twin_tx
    (true, true, [true; true], (false, false), [Some ("JUNK", false, [("eve", EWrap (ESent ErrTransactionApplication))]); Some ("PAY", true, [])]%string)) as (x & Hx & E); [vm_compute; reflexivity|].
  apply trun_runs in Hx as [Hx Hq]. exists x. set (A := bool_decide (tt_air x = [])) in E. set (B := forallb _ [0; 1; 2]) in E. set (H := has_obs _) in E. set (V := said _) in E.
  pose proof (f_equal (fun p => p.1.1.1.1) E) as EA. pose proof (f_equal (fun p => p.1.1.1.2) E) as EB. pose proof (f_equal (fun p => p.1.1.2) E) as EC. pose proof (f_equal (fun p => p.1.2) E) as EH. pose proof (f_equal snd E) as EV.
  cbn [fst snd] in EA, EB, EC, EH, EV. clear E. cbn [map] in EC. injection EC as C0 C2. apply bool_decide_eq_true in C0, C2, EA.
  split; [exact tcommon3|]. split; [exact Hx|]. clear Hx. split; [by apply tquiet_check|]. split; [exact C0|]. split; [exact C2|]. split; [apply line_path|]. split; [by apply has_not|]. exact EV.
Qed.
Print Assumptions C110_twin_refuted.
(** The second node's chain takes longer than the validator's deadline.  The message is not sent on, the first node is charged for it,
    and the node's own publication, once its chain has accepted the transaction, has the id of a message it has seen and is dropped:
    the third node never gets the transaction. *)
Theorem C110_late_refuted : exists x,
  tcommon tencode tdecode ts3 pay /\
  truns tencode tdecode ts3 tline (twell3 false true) (tnet_init ts3) late_tx x /\ tquiet tencode tdecode ts3 tline x /\
  pay ∈ tn_pool (tt_node x 0) /\ pay ∈ tn_pool (tt_node x 1) /\ rtc (twithin tline (fun n => n < 3)) 0 2 /\ ~ has_tx (tt_node x 2) pay /\
  said (tt_node x 1) = [Some ("PAY", false, [(tname 0, EWrap (ESent ErrTransactionApplication))])]%string /\ tn_vals (tt_node x 2) = [].
Proof.
  destruct (tfinal_run false true (fun x => (bool_decide (tt_air x = []), forallb (fun n => tdone (tt_node x n)) [0; 1; 2], map (fun n => bool_decide (pay ∈ tn_pool (tt_node x n))) [0; 1], has_obs (tt_node x 2), said (tt_node x 1), tn_vals (tt_node x 2))) late_tx
    (true, true, [true; true], (false, false), [Some ("PAY", false, [(tname 0, EWrap (ESent ErrTransactionApplication))])]%string, [])) as (x & Hx & E); [vm_compute; reflexivity|].
  apply trun_runs in Hx as [Hx Hq]. exists x. set (A := bool_decide (tt_air x = [])) in E. set (B := forallb _ [0; 1; 2]) in E. set (H := has_obs _) in E. set (V := said _) in E. set (W := tn_vals _) in E.
  pose proof (f_equal (fun p => p.1.1.1.1.1) E) as EA. pose proof (f_equal (fun p => p.1.1.1.1.2) E) as EB. pose proof (f_equal (fun p => p.1.1.1.2) E) as EC. pose proof (f_equal (fun p => p.1.1.2) E) as EH. pose proof (f_equal (fun p => p.1.2) E) as EV. pose proof (f_equal snd E) as EW.
  cbn [fst snd] in EA, EB, EC, EH, EV, EW. clear E. cbn [map] in EC. injection EC as C0 C2. apply bool_decide_eq_true in C0, C2, EA.
  split; [exact tcommon3|]. split; [exact Hx|]. clear Hx. split; [by apply tquiet_check|]. split; [exact C0|]. split; [exact C2|]. split; [apply line_path|]. split; [by apply has_not|]. split; [exact EV|exact EW].
Qed.
Print Assumptions C110_late_refuted.
