(** Property theorems C01-C03 about the transaction cache. *)
From Verif Require Import GoBase Util TxCache_Model TxCache_Spec TxCache_Proofs.
Local Open Scope Z_scope.

(** A concrete history: ids "a","b" at 0, "a" again at 5 (cached), "a" at 11 (expired, window 10),
    and "b","b" at 12. *)
Definition demo_tx (s : string) : transaction := Transaction (Some s) EmptyString.
Definition demo_calls : list tx_call :=
  [(0, [demo_tx "a"; demo_tx "b"]); (5, [demo_tx "a"]); (11, [demo_tx "a"]); (12, [demo_tx "b"; demo_tx "b"])].
Lemma demo_monotone : clock_monotone demo_calls.
Proof.
  intros i j t u x y Hij Hi Hj.
  destruct i as [|[|[|[|i]]]]; try discriminate Hi;
  destruct j as [|[|[|[|j]]]]; try discriminate Hj; try lia;
  simpl in Hi, Hj; injection Hi as <- <-; injection Hj as <- <-; lia.
Qed.

(** C01.  Every call of every history returns what the never-forgetting specification says;
    in particular no call panics. *)
Theorem C01_cache_counts_exactly_the_recent_ids : forall (dur : Z) (calls : list tx_call),
  0 <= dur < max_i64 -> clock_monotone calls ->
  exists c, tx_run calls (tx_new dur) =
    Done (c, spec_results dur (map (fun '(t, txs) => (t, map (fun tx => str (t_id tx)) txs)) calls) ∅).
Proof. exact tx_refines. Qed.
Print Assumptions C01_cache_counts_exactly_the_recent_ids.
Example C01_nonvacuous : 0 <= 10 < max_i64 /\ clock_monotone demo_calls /\
  (exists c, tx_run demo_calls (tx_new 10) = Done (c, [0; 1; 0; 1]%nat)).
Proof. split; [unfold max_i64; lia|]. split; [apply demo_monotone|]. eexists. vm_compute. reflexivity. Qed.

(** CheckBlock is CheckTransactions on the transactions of the block. *)
Theorem C01_check_block : forall now b c, tx_check_block now b c = tx_check now (b_txs b) c.
Proof. reflexivity. Qed.

(** C02.  Two calls that report all their ids as new and share an id are more than [dur] apart. *)
Theorem C02_admitted_at_most_once_per_window :
  forall (dur : Z) (calls : list tx_call) c ns i j ti tj xi xj tx tx',
  0 <= dur < max_i64 -> clock_monotone calls ->
  tx_run calls (tx_new dur) = Done (c, ns) ->
  (i < j)%nat -> calls !! i = Some (ti, xi) -> calls !! j = Some (tj, xj) ->
  tx ∈ xi -> tx' ∈ xj -> str (t_id tx) = str (t_id tx') ->
  ns !! i = Some 0%nat -> ns !! j = Some 0%nat ->
  tj - ti > dur.
Proof.
  intros dur calls c ns i j ti tj xi xj tx tx' Hd Hm Hr Hij Hi Hj Hx Hx' Heq Hni Hnj.
  destruct (tx_refines dur calls Hd Hm) as (c' & Hc). rewrite Hr in Hc. injection Hc as _ ->.
  destruct (mono_weaken dur calls Hm) as (last & _ & Hmf).
  set (cs := map (fun '(t, txs) => (t, map (fun tx => str (t_id tx)) txs)) calls) in *.
  assert (Hcs : mono_from last cs).
  { destruct Hmf as [Hm1 Hh]. split.
    - intros a b t u x y Hab Ha Hb. unfold cs in Ha, Hb. rewrite lookup_map in Ha, Hb.
      destruct (calls !! a) as [[t1 x1]|] eqn:Ea; [|done]. destruct (calls !! b) as [[t2 x2]|] eqn:Eb; [|done].
      simpl in Ha, Hb. injection Ha as <- <-. injection Hb as <- <-. eapply Hm1; eauto.
    - intros t x Ht. unfold cs in Ht. destruct calls as [|[t1 x1] calls]; [done|]. simpl in Ht.
      injection Ht as <- <-. eapply Hh. simpl. eauto. }
  eapply (spec_two_zeros dur cs ltac:(lia) last ∅ (str (t_id tx)) i j ti tj
            (map (fun tx => str (t_id tx)) xi) (map (fun tx => str (t_id tx)) xj)); eauto.
  - unfold cs. rewrite lookup_map, Hi. done.
  - unfold cs. rewrite lookup_map, Hj. done.
  - apply elem_of_map. eauto.
  - rewrite Heq. apply elem_of_map. eauto.
Qed.
Print Assumptions C02_admitted_at_most_once_per_window.

(** C02, the other direction, for histories of single-transaction calls (the way ApplyTransaction
    uses the cache): a call reports a duplicate iff an earlier call reported the same id as new at
    most [dur] before. *)
Theorem C02_duplicate_iff_recently_new :
  forall (dur : Z) (calls : list tx_call) c ns j tj tx,
  0 <= dur < max_i64 -> clock_monotone calls ->
  (forall i t x, calls !! i = Some (t, x) -> exists y, x = [y]) ->
  tx_run calls (tx_new dur) = Done (c, ns) ->
  calls !! j = Some (tj, [tx]) ->
  (ns !! j = Some 1%nat <->
   exists i ti tx', (i < j)%nat /\ calls !! i = Some (ti, [tx']) /\
     str (t_id tx') = str (t_id tx) /\ ns !! i = Some 0%nat /\ tj - ti <= dur).
Proof.
  intros dur calls c ns j tj tx Hd Hm Hone Hr Hj.
  destruct (tx_refines dur calls Hd Hm) as (c' & Hc). pose proof Hr as Hr0. rewrite Hr in Hc. injection Hc as _ ->.
  set (cs := map (fun '(t, txs) => (t, map (fun tx => str (t_id tx)) txs)) calls) in *.
  assert (Hcj : cs !! j = Some (tj, [str (t_id tx)])).
  { unfold cs. rewrite lookup_map, Hj. done. }
  split.
  - intros H1. destruct (spec_dup_justified_single dur cs ∅ j tj (str (t_id tx))) as
      [(a & Ha & _)|(i & ti & Hij & Hi & Hz & Hle)]; auto.
    + intros i t x Hi. unfold cs in Hi. rewrite lookup_map in Hi.
      destruct (calls !! i) as [[t1 x1]|] eqn:Ei; [|done]. simpl in Hi. injection Hi as <- <-.
      destruct (Hone i t1 x1 Ei) as [y ->]. simpl. eauto.
    + rewrite lookup_empty in Ha. done.
    + unfold cs in Hi. rewrite lookup_map in Hi.
      destruct (calls !! i) as [[t1 x1]|] eqn:Ei; [|done]. simpl in Hi. injection Hi as <- Hx.
      destruct (Hone i t1 x1 Ei) as [y ->]. simpl in Hx. injection Hx as Hx.
      exists i, t1, y. auto.
  - intros (i & ti & tx' & Hij & Hi & Heq & Hz & Hle).
    assert (Hlen : exists n, spec_results dur cs ∅ !! j = Some n /\ (n <= 1)%nat).
    { clear -Hcj. revert Hcj. generalize (∅ : admissions). revert j.
      induction cs as [|[t x] cs IH]; intros j adm Hcj; [done|]. simpl.
      destruct (spec_check dur t x adm) as [adm' n] eqn:Hs. destruct j as [|j]; simpl in *.
      - injection Hcj as -> ->. simpl in Hs. exists n. split; [done|].
        destruct (recent dur tj adm (str (t_id tx))); injection Hs; lia.
      - apply IH; auto. }
    destruct Hlen as (n & Hn & Hle1). destruct n as [|[|n]]; [|done|lia].
    exfalso. assert (tj - ti > dur); [|lia].
    eapply (C02_admitted_at_most_once_per_window dur calls c _ i j ti tj [tx'] [tx] tx' tx Hd Hm Hr0); eauto; set_solver.
Qed.
Print Assumptions C02_duplicate_iff_recently_new.
Definition demo_single : list tx_call := [(0, [demo_tx "a"]); (5, [demo_tx "a"]); (11, [demo_tx "a"])].
Example C02_nonvacuous :
  (exists c, tx_run demo_calls (tx_new 10) = Done (c, [0; 1; 0; 1]%nat)) /\
  (exists c, tx_run demo_single (tx_new 10) = Done (c, [0; 1; 0]%nat)) /\
  (forall i t x, demo_single !! i = Some (t, x) -> exists y, x = [y]).
Proof.
  split; [eexists; vm_compute; reflexivity|]. split; [eexists; vm_compute; reflexivity|].
  intros [|[|[|i]]] t x H; simpl in H; try discriminate; injection H as <- <-; eauto.
Qed.

(** C03.  After every call (the last one at time [now]) the cache holds no id twice, the lookup set
    and the items describe the same ids, and every item was admitted within the window. *)
Theorem C03_cache_bounded_by_window : forall dur (calls : list tx_call) c ns,
  0 <= dur < max_i64 -> clock_monotone calls -> calls <> [] ->
  tx_run calls (tx_new dur) = Done (c, ns) ->
  let now := fst (List.last calls (0, [])) in
  NoDup (map ti_id (tc_items c)) /\
  (forall id, id ∈ tc_map c <-> exists it, it ∈ tc_items c /\ ti_id it = id) /\
  (forall it, it ∈ tc_items c -> ti_time it <= now <= ti_time it + tc_dur c).
Proof. intros dur calls c ns Hd Hm Hne Hr. exact (tx_state_ok dur calls c ns Hd Hm Hr Hne). Qed.
Print Assumptions C03_cache_bounded_by_window.
Theorem C03_cache_never_panics : forall dur (calls : list tx_call),
  0 <= dur < max_i64 -> clock_monotone calls -> tx_run calls (tx_new dur) <> Panic.
Proof. intros dur calls Hd Hm H. destruct (tx_refines dur calls Hd Hm) as (c & Hc). congruence. Qed.
Print Assumptions C03_cache_never_panics.
(** The hypothesis on the clock matters: with a clock running backwards the panic is reachable. *)
Example C03_panic_needs_backward_clock :
  tx_run [(5, [demo_tx "a"]); (4, [demo_tx "b"])] (tx_new 10) = Panic.
Proof. vm_compute. reflexivity. Qed.
