(** C121: what gets a host cut off is the rate of its errors. *)
From Coq Require Import Reals Lra.
From Flocq Require Import Core.
From Verif Require Import GoBase Util ErrHandler_Model ErrHandler_Spec ErrHandler_Proofs ErrDecay_Model ErrDecay_Proofs EhSys_Model EhSys_Spec EhSys_Proofs EhSys_Props Rate_Spec Rate_Proofs.
Local Open Scope R_scope.

(** C121, rare errors.  If between two errors of a host at least D passes and none costs more than m, and m is less than what a
    score at the threshold loses in the time D, then no peer of the host is ever disconnected for its errors; likewise for the
    reconnect threshold and refused connections.  For any number of errors, over any time, however often the score is looked at. *)
Theorem C121_rare_errors : forall H D o s host (m : N), (0 < H)%Z -> (0 < D)%Z -> es_reach (decay_real H) o s ->
  in_order 0 (history o s host) -> spaced D None (history o s host) -> Forall (fun x => (x <= m)%N) (charges (history o s host)) ->
  (NR m < NR (o_threshold o) * (1 - left H D) -> ~ cut_off s host) /\
  (NR m < NR (o_reconnect o) * (1 - left H D) -> ~ turned_away s host).
Proof.
  intros H D o s host m HH HD Hr Ho Hs Hm. rewrite left_factor by done. split.
  - intros Hlt (n & now & id & a & e & Hn & <- & Ha). destruct (error_score _ _ _ _ _ _ _ _ Hr Hn) as (later & Eh & Hsc). rewrite Ha in Hsc. injection Hsc as Hsc.
    destruct (decide (o_threshold o <= ledger_score (ledger_of (decay_real H) (touches o (ma_first a) (take n (served_events s)) ++ [THit now (expected_score o e)])))%N) as [Hge|Hge]; [|by rewrite bool_decide_false in Hsc].
    rewrite Eh in Ho, Hs, Hm. change (THit now (expected_score o e) :: later) with ([THit now (expected_score o e)] ++ later) in *. rewrite app_assoc in Ho, Hs, Hm.
    unfold charges in Hm. rewrite omap_app in Hm. apply Forall_app in Hm as [Hm _].
    pose proof (rare_score H D m HH HD _ (o_threshold o) (in_order_app _ _ _ Ho) (spaced_app _ _ _ _ Hs) Hm Hlt). lia.
  - intros Hlt (n & now & a & Hn & <- & Ha). destruct (gate_score _ _ _ _ _ _ Hr Hn Ha) as (later & Eh & Hsc).
    rewrite Eh in Ho, Hs, Hm. unfold charges in Hm. rewrite omap_app in Hm. apply Forall_app in Hm as [Hm _].
    pose proof (rare_score H D m HH HD _ (o_reconnect o) (in_order_app _ _ _ Ho) (spaced_app _ _ _ _ Hs) Hm Hlt). lia.
Qed.
Print Assumptions C121_rare_errors.

(** C121, few errors.  Errors that together cost less than the threshold never get a peer disconnected, for any decay that does
    not raise scores below the threshold (the float64 formula too, C10). *)
Theorem C121_few_errors : forall decay o s host, es_reach decay o s -> in_order 0 (history o s host) -> forall thr : N, (thr <= two64)%N ->
  (forall x dt, (x < thr)%N -> (0 <= dt)%Z -> (decay x dt <= x)%N) -> (total_charge (history o s host) < thr)%N ->
  (o_threshold o = thr -> ~ cut_off s host) /\ (o_reconnect o = thr -> ~ turned_away s host).
Proof.
  intros decay o s host Hr Ho thr H64 Hd Ht.
  assert (Hpre : forall a b, history o s host = a ++ b -> (ledger_score (ledger_of decay a) < thr)%N).
  { intros a b E. rewrite E in Ho, Ht. rewrite total_app in Ht. pose proof (few_score decay thr a Hd H64 0%Z None ltac:(lia) ltac:(done) (in_order_app _ _ _ Ho)) as X.
    cbn [ledger_score] in X. unfold ledger_of. specialize (X ltac:(lia)). lia. }
  split.
  - intros Eq (n & now & id & a & e & Hn & <- & Ha). destruct (error_score _ _ _ _ _ _ _ _ Hr Hn) as (later & Eh & Hsc). rewrite Ha in Hsc. injection Hsc as Hsc.
    change (THit now (expected_score o e) :: later) with ([THit now (expected_score o e)] ++ later) in Eh. rewrite app_assoc in Eh. apply Hpre in Eh.
    rewrite bool_decide_false in Hsc by (rewrite Eq; lia). discriminate Hsc.
  - intros Eq (n & now & a & Hn & <- & Ha). destruct (gate_score _ _ _ _ _ _ Hr Hn Ha) as (later & Eh & Hsc). apply Hpre in Eh. lia.
Qed.
Print Assumptions C121_few_errors.

(** C121, frequent errors.  A host whose last n errors cost at least m each and came at most D after one another, with at most k
    looks at its score in between, is cut off, when n is large enough for the sum of what is left of the charges to reach the
    threshold; at the latest the last of these errors does it. *)
Theorem C121_frequent_errors : forall H D o s host (m : N) (k : nat) pre errors, (0 < H)%Z -> (0 < D)%Z -> es_reach (decay_real H) o s ->
  history o s host = pre ++ touches_of_series errors -> in_order 0 (history o s host) -> (total_charge (history o s host) < two64)%N ->
  errors <> [] -> close D None errors -> Forall (fun x => (m <= x.2.2)%N /\ (length x.1 <= k)%nat) errors ->
  NR (o_threshold o) * (1 - left H D) <= (NR m - INR k - 1) * (1 - left H D ^ length errors) -> cut_off s host.
Proof.
  intros H D o s host m k pre errors HH HD Hr Eh Ho Ht Hne Hc Hf Hthr. rewrite left_factor in Hthr by done. rewrite Eh in Ho, Ht.
  pose proof (series_score H D m k HH HD pre errors (o_threshold o) Ho Ht Hc Hne Hf Hthr) as Hge.
  destruct (exists_last Hne) as (r & [L [t x]] & ->).
  assert (Es : pre ++ touches_of_series (r ++ [(L, (t, x))]) = (pre ++ touches_of_series r ++ map TLook L) ++ THit t x :: []).
  { rewrite series_snoc. by rewrite <- !app_assoc. }
  rewrite Es in *. unfold history in Eh. destruct (touches_split _ _ _ _ _ _ Eh) as (h1 & ev & h2 & Ehist & Hev & Hh1).
  destruct ev as [now id [a|] e|now a|now a]; cbn [touch_of] in Hev; try discriminate Hev; destruct (decide (ma_first a = host)) as [Hh|Hh];
    rewrite ?bool_decide_true, ?bool_decide_false in Hev by done; try discriminate Hev. injection Hev as -> <-.
  exists (length h1), t, id, a, e. assert (Hl : served_events s !! length h1 = Some (EvError t id (Some a) e)) by (rewrite Ehist; by apply list_lookup_middle).
  split; [exact Hl|]. split; [done|]. destruct (error_score _ _ _ _ _ _ _ _ Hr Hl) as (later & _ & ->). rewrite Ehist, take_app, Hh, Hh1. by rewrite bool_decide_true.
Qed.
Print Assumptions C121_frequent_errors.

(** With the default options: errors of the ordinary kinds (5000 and less) that come at least three minutes apart never get a
    peer disconnected; thirty errors of 5000 and more that come at most a minute apart, with at most one look at the score between
    two of them, do. *)
Lemma root_bound (q y : R) n : 0 <= y -> y ^ n <= q ^ n -> 0 < q -> n <> 0%nat -> y <= q.
Proof.
  intros Hy Hp Hq Hn. destruct (Rle_or_lt y q) as [H|H]; [done|exfalso]. assert (q ^ n < y ^ n); [|lra].
  clear Hp. induction n as [|n IH]; [done|]. destruct n as [|n]; [rewrite !pow_1; lra|]. specialize (IH ltac:(done)). change (q * q ^ S n < y * y ^ S n). pose proof (pow_lt q (S n) Hq). nra.
Qed.
Lemma factor_pow H d n : factor H d ^ n = factor H (Z.of_nat n * d).
Proof. induction n as [|n IH]; [cbn; by rewrite factor_zero|]. change (factor H d * factor H d ^ n = factor H (Z.of_nat (S n) * d)). rewrite IH, <- factor_plus. f_equal. lia. Qed.
Theorem C121_defaults : forall s host, es_reach (decay_real (o_halflife eh_defaults)) eh_defaults s -> in_order 0 (history eh_defaults s host) ->
  (spaced (3 * minute) None (history eh_defaults s host) -> Forall (fun x => (x <= 5000)%N) (charges (history eh_defaults s host)) -> ~ cut_off s host) /\
  (forall pre errors, history eh_defaults s host = pre ++ touches_of_series errors -> (total_charge (history eh_defaults s host) < two64)%N ->
     length errors = 30%nat -> close minute None errors -> Forall (fun x => (5000 <= x.2.2)%N /\ (length x.1 <= 1)%nat) errors -> cut_off s host).
Proof.
  intros s host Hr Ho. assert (Hh : (0 < o_halflife eh_defaults)%Z) by (vm_compute; done). split.
  - intros Hs Hm. apply (C121_rare_errors (o_halflife eh_defaults) (3 * minute) eh_defaults s host 5000%N Hh ltac:(vm_compute; done) Hr Ho Hs Hm).
    rewrite left_factor by done. set (q := factor (o_halflife eh_defaults) (3 * minute)).
    assert (Hq : q ^ 10 = / 2). { unfold q. rewrite factor_pow. change (Z.of_nat 10 * (3 * minute))%Z with (Z.of_nat 1 * o_halflife eh_defaults)%Z. rewrite factor_halflives by done. by rewrite pow_1. }
    assert (Hqp : 0 < q) by apply factor_pos. assert (Hq2 : q <= 94 / 100) by (apply (root_bound _ _ 10); [lra| |lra|done]; rewrite Hq; cbn; lra).
    change (NR (o_threshold eh_defaults)) with 100000. change (NR 5000) with 5000. lra.
  - intros pre errors Eh Ht Hl Hc Hf. apply (C121_frequent_errors (o_halflife eh_defaults) minute eh_defaults s host 5000%N 1 pre errors Hh ltac:(vm_compute; done) Hr Eh Ho Ht); [by intros ->|done|done|].
    rewrite left_factor, Hl by done. set (q := factor (o_halflife eh_defaults) minute).
    assert (Hq : q ^ 30 = / 2). { unfold q. rewrite factor_pow. change (Z.of_nat 30 * minute)%Z with (Z.of_nat 1 * o_halflife eh_defaults)%Z. rewrite factor_halflives by done. by rewrite pow_1. }
    assert (Hqp : 0 < q) by apply factor_pos. assert (Hq2 : 976 / 1000 <= q) by (apply (root_bound _ _ 30); [lra| |lra|done]; rewrite Hq; cbn; lra).
    rewrite Hq. change (NR (o_threshold eh_defaults)) with 100000. change (NR 5000) with 5000. cbn [INR]. lra.
Qed.
Print Assumptions C121_defaults.

(** Both happen: a host whose peer fails again and again at a fixed interval. *)
Definition failing (gap : Z) (n : nat) : list eh_event := map (fun i => EvError (Z.of_nat i * gap) "p" (Some (Maddr "/ip4/1.1.1.1" [])) (ESent ErrPeerRPC)) (seq 1 n).
Definition failures (gap : Z) (n : nat) : list elabel :=
  XSetProvider :: XStart :: mjoin (map (fun i => [XReport "p" (ESent ErrPeerRPC); XTakeReport 0; XErrAddress (Z.of_nat i * gap) (Some (Maddr "/ip4/1.1.1.1" []))]) (seq 1 n)).
Lemma failures_served decay o gap n : exists s, es_reach decay o s /\ served_events s = failing gap n.
Proof.
  assert (Hgen : forall n j s, es_loop s = EServing -> es_reports s = [] -> es_panic s = false ->
    exists s', es_run decay o s (mjoin (map (fun i => [XReport "p" (ESent ErrPeerRPC); XTakeReport 0; XErrAddress (Z.of_nat i * gap) (Some (Maddr "/ip4/1.1.1.1" []))]) (seq j n))) = Some s' /\
      served_events s' = served_events s ++ map (fun i => EvError (Z.of_nat i * gap) "p" (Some (Maddr "/ip4/1.1.1.1" [])) (ESent ErrPeerRPC)) (seq j n)).
  { clear n. induction n as [|n IH]; intros j s Hl Hr Hp; [exists s; cbn; by rewrite app_nil_r|].
    destruct s as [pr lo sc cq sq ca re di cn pa lg fo]. cbn in Hl, Hr, Hp. subst lo re pa. cbn [seq map mjoin list_join app es_run es_step es_panic es_reports es_loop lookup list_lookup delete list_delete es_scores].
    destruct (eh_step decay o sc (EvError (Z.of_nat j * gap) "p" (Some (Maddr "/ip4/1.1.1.1" [])) (ESent ErrPeerRPC))) as [st' out].
    edestruct (IH (S j)) as (s' & Hs' & Es'); [..|exists s'; split; [exact Hs'|rewrite Es'; unfold served_events; cbn [es_log rev]; rewrite map_app, <- app_assoc; done]]; done. }
  edestruct (Hgen n 1%nat) as (s & Hs & Es); [..|exists s; split; [exists (failures gap n); exact Hs|rewrite Es; done]]; done.
Qed.
Lemma failing_history gap n : touches eh_defaults "/ip4/1.1.1.1" (failing gap n) = map (fun i => THit (Z.of_nat i * gap) 5000) (seq 1 n).
Proof. unfold failing. generalize 1%nat. induction n as [|n IH]; intros j; [done|]. cbn [seq map]. rewrite touches_cons. cbn [touch_of ma_first]. rewrite bool_decide_true by done. by rewrite IH. Qed.
Lemma failing_order gap n : (0 < gap)%Z -> (Z.of_nat n * gap <= max_i64)%Z -> in_order 0 (map (fun i => THit (Z.of_nat i * gap) 5000) (seq 1 n)).
Proof.
  intros Hg Hm. assert (Hgen : forall k j t, (t <= Z.of_nat j * gap)%Z -> (Z.of_nat (j + k) * gap <= max_i64 + gap)%Z -> in_order t (map (fun i => THit (Z.of_nat i * gap) 5000) (seq j k))).
  { induction k as [|k IH]; intros j t Ht Hb; [done|]. cbn [seq map in_order time_of]. split; [nia|]. apply IH; [nia|]. replace (S j + k)%nat with (j + S k)%nat by lia. done. }
  apply Hgen; nia.
Qed.
Lemma failing_spaced gap n : spaced gap None (map (fun i => THit (Z.of_nat i * gap) 5000) (seq 1 n)).
Proof.
  assert (Hgen : forall k j t, (t + gap <= Z.of_nat j * gap)%Z -> spaced gap (Some t) (map (fun i => THit (Z.of_nat i * gap) 5000) (seq j k))).
  { induction k as [|k IH]; intros j t Ht; [done|]. cbn [seq map spaced]. split; [done|]. apply IH. lia. }
  destruct n as [|n]; [done|]. cbn [seq map spaced]. split; [done|]. apply Hgen. lia.
Qed.
Lemma failing_series gap n : map (fun i => THit (Z.of_nat i * gap) 5000) (seq 1 n) = touches_of_series (map (fun i => ([], (Z.of_nat i * gap, 5000%N)))%Z (seq 1 n)).
Proof. generalize 1%nat. induction n as [|n IH]; intros j; [done|]. cbn [seq map]. rewrite IH. reflexivity. Qed.
Lemma failing_close gap n : close gap None (map (fun i => ([], (Z.of_nat i * gap, 5000%N)))%Z (seq 1 n)).
Proof.
  assert (Hgen : forall k j t, (Z.of_nat j * gap <= t + gap)%Z -> close gap (Some t) (map (fun i => ([], (Z.of_nat i * gap, 5000%N)))%Z (seq j k))).
  { induction k as [|k IH]; intros j t Ht; [done|]. cbn [seq map close]. split; [done|]. apply IH. lia. }
  destruct n as [|n]; [done|]. cbn [seq map close]. split; [done|]. apply Hgen. lia.
Qed.
Example C121_nonvacuous :
  (forall n, (Z.of_nat n <= 1000000)%Z -> exists s, es_reach (decay_real (o_halflife eh_defaults)) eh_defaults s /\ served_events s = failing (3 * minute) n /\ ~ cut_off s "/ip4/1.1.1.1") /\
  (exists s, es_reach (decay_real (o_halflife eh_defaults)) eh_defaults s /\ served_events s = failing minute 30 /\ cut_off s "/ip4/1.1.1.1").
Proof.
  split.
  - intros n Hn. destruct (failures_served (decay_real (o_halflife eh_defaults)) eh_defaults (3 * minute) n) as (s & Hr & Es). exists s. split; [exact Hr|]. split; [exact Es|].
    assert (Eh : history eh_defaults s "/ip4/1.1.1.1" = map (fun i => THit (Z.of_nat i * (3 * minute)) 5000) (seq 1 n)) by (unfold history; rewrite Es; apply failing_history).
    apply C121_defaults; [exact Hr| | |]; rewrite Eh.
    + apply failing_order; [vm_compute; done|]. unfold minute, second, max_i64. lia.
    + apply failing_spaced.
    + generalize 1%nat. clear. induction n as [|n IH]; intros j; cbn [seq map]; [constructor|]. constructor; [lia|apply IH].
  - destruct (failures_served (decay_real (o_halflife eh_defaults)) eh_defaults minute 30) as (s & Hr & Es). exists s. split; [exact Hr|]. split; [exact Es|].
    assert (Eh : history eh_defaults s "/ip4/1.1.1.1" = map (fun i => THit (Z.of_nat i * minute) 5000) (seq 1 30)) by (unfold history; rewrite Es; apply failing_history).
    refine (proj2 (C121_defaults s "/ip4/1.1.1.1" Hr _) [] _ (eq_trans Eh (failing_series minute 30)) _ _ _ _).
    + rewrite Eh. apply failing_order; vm_compute; done.
    + rewrite Eh. vm_compute. reflexivity.
    + reflexivity.
    + apply failing_close.
    + apply Forall_forall. intros x Hx. apply elem_of_list_fmap in Hx as (i & -> & _). cbn. lia.
Qed.
