(** Property theorems C126: a peer that fails again and again is cut off in time. *)
From Coq Require Import Reals Lra.
From Verif Require Import GoBase Util ErrHandler_Model ErrHandler_Spec ErrDecay_Model ErrDecay_Proofs EhSys_Model EhSys_Spec EhSys_Proofs
  PeerConn_Model Pace_Model Catchup_Spec Speed_Spec Speed_Props Rate_Spec Rate_Proofs Rate_Props Window_Spec.

(** ** The score after errors in a window of time *)
Section window.
Local Open Scope R_scope.
Context (H : Z) (m : N) (k : nat) (HH : (0 < H)%Z) (from : Z).
Let w (n : nat) (u : Z) : R := INR n * (NR m * factor H (u - from) - INR k - 1).
Local Lemma window_fold r : forall te s n, (0 <= te)%Z -> (from <= te)%Z -> in_order te (touches_of_series r) -> (s + total_charge (touches_of_series r) < two64)%N ->
  Forall (fun x => (m <= x.2.2)%N /\ (length x.1 <= k)%nat) r -> w n te <= NR s ->
  exists u s', fold_left (touch1 (decay_real H)) (touches_of_series r) (Some (te, s)) = Some (u, s') /\
    u = (match last r with Some x => x.2.1 | None => te end) /\ w (n + length r) u <= NR s'.
Proof using HH.
  induction r as [|[L [t x]] r IH]; intros te s n Hte Hfr Ho Ht Hf Hg.
  - exists te, s. split; [done|]. split; [done|]. by rewrite Nat.add_0_r.
  - apply Forall_cons in Hf as [[Hx HL] Hf]. cbn [fst snd] in Hx, HL. change (touches_of_series ((L, (t, x)) :: r)) with ((map TLook L ++ [THit t x]) ++ touches_of_series r) in *.
    rewrite <- app_assoc in *. rewrite fold_left_app. destruct (looks_fold H HH L te s Hte (in_order_app _ _ _ Ho)) as (u & s1 & -> & Hu & Htu & Hs1 & Hb).
    apply in_order_snd in Ho. rewrite <- Hu in Ho. destruct Ho as [Hut Ho]. cbn [time_of] in *. rewrite !total_app, total_looks in Ht. assert (E : total_charge [THit t x] = x) by (unfold total_charge; cbn; lia). rewrite E in Ht.
    cbn [app fold_left touch1]. unfold hit, look. rewrite sub_exact by lia. pose proof (decay_real_le H s1 (t - u) HH ltac:(lia)) as Hle.
    destruct (decay_real_bounds H s1 (t - u) HH ltac:(lia)) as [Hd _]. pose proof (add64_exact (decay_real H s1 (t - u)) x ltac:(lia)) as Hadd.
    assert (Hlow : w (S n) t <= NR (add64 (decay_real H s1 (t - u)) x)).
    { rewrite Hadd. assert (Hxr : NR m <= NR x) by (apply IZR_le; lia). assert (HLr : INR (length L) <= INR k) by (by apply le_INR).
      pose proof (factor_pos H (t - u)) as F1. pose proof (factor_le1 H (t - u) HH ltac:(lia)) as F2. pose proof (pos_INR (length L)) as F3.
      pose proof (factor_pos H (u - te)) as F4. pose proof (factor_le1 H (u - te) HH ltac:(lia)) as F5. pose proof (factor_pos H (te - from)) as F6. pose proof (factor_le1 H (te - from) HH ltac:(lia)) as F7.
      pose proof (pos_INR n) as F8. pose proof (pos_INR k) as F9. pose proof (IZR_N_nonneg m) as F10.
      assert (Ef : factor H (t - from) = factor H (te - from) * (factor H (u - te) * factor H (t - u))) by (rewrite <- !factor_plus; f_equal; lia).
      unfold w in *. rewrite S_INR, Ef. set (a := factor H (te - from)) in *. set (b := factor H (u - te)) in *. set (c := factor H (t - u)) in *.
      assert (B1 : 0 < b * c <= 1) by nra. set (d := b * c) in *.
      assert (B2 : INR n * (NR m * (a * d) - INR k - 1) <= INR n * (NR m * a - INR k - 1) * d).
      { assert (INR n * (INR k + 1) * d <= INR n * (INR k + 1)) by (assert (0 <= INR n * (INR k + 1)) by nra; nra). lra. }
      assert (B3 : INR n * (NR m * a - INR k - 1) * d <= NR s * d) by nra.
      assert (B4 : NR s * d - INR k <= NR s1 * c).
      { assert ((NR s * b - INR (length L)) * c <= NR s1 * c) by nra. assert (INR (length L) * c <= INR k) by nra. unfold d. lra. }
      assert (B5 : NR m * (a * d) <= NR m) by (assert (a * d <= 1) by nra; nra). lra. }
    assert (Hnw : (add64 (decay_real H s1 (t - u)) x = decay_real H s1 (t - u) + x)%N) by (unfold add64; rewrite N.mod_small by lia; done).
    destruct (IH t (add64 (decay_real H s1 (t - u)) x) (S n) ltac:(lia) ltac:(lia) Ho ltac:(lia) Hf Hlow) as (u' & s' & -> & Hu' & Hfin).
    exists u', s'. split; [done|]. split; [rewrite Hu'; destruct r as [|y r]; [done|]; rewrite last_cons_cons; assert (Hs : is_Some (last (y :: r))) by (by apply last_is_Some); by destruct Hs as [z ->]|].
    cbn [length]. by rewrite Nat.add_succ_r.
Qed.
Local Lemma window_score to pre r thr : in_order 0 (pre ++ touches_of_series r) -> (total_charge (pre ++ touches_of_series r) < two64)%N -> r <> [] -> between from to r ->
  Forall (fun x => (m <= x.2.2)%N /\ (length x.1 <= k)%nat) r -> NR thr <= INR (length r) * (NR m * factor H (to - from) - INR k - 1) ->
  (thr <= ledger_score (ledger_of (decay_real H) (pre ++ touches_of_series r)))%N.
Proof using HH.
  intros Ho Ht Hne Hb Hf Hthr. assert (Hlast : exists y, last r = Some y /\ (from <= y.2.1 <= to)%Z).
  { assert (Hs : is_Some (last r)) by (by apply last_is_Some). destruct Hs as [y Hy]. exists y. split; [done|]. unfold between in Hb. rewrite Forall_forall in Hb. by apply Hb, last_Some_elem_of. }
  destruct Hlast as (y & Hy & Hyb). destruct r as [|[L [t x]] r]; [done|]. pose proof Hf as Hf0. apply Forall_cons in Hf as [[Hx HL] Hf]. apply Forall_cons in Hb as [Hb1 _]. cbn [fst snd] in Hx, HL, Hb1.
  change (touches_of_series ((L, (t, x)) :: r)) with ((map TLook L ++ [THit t x]) ++ touches_of_series r) in *. unfold ledger_of. rewrite !app_assoc in *. rewrite <- (app_assoc pre) in *.
  rewrite fold_left_app. pose proof (in_order_snd _ _ _ Ho) as Ho2. rewrite app_assoc, last_snoc in Ho2. cbn [time_of] in Ho2.
  pose proof (in_order_app _ _ _ Ho) as Ho1. rewrite total_app in Ht.
  destruct (first_hit H HH pre L t x Ho1 ltac:(lia)) as (s & -> & Hxs & Hst & Ht0).
  pose proof (IZR_N_nonneg m) as M0. pose proof (pos_INR k) as K0.
  assert (Hg1 : w 1 t <= NR s).
  { unfold w. cbn [INR]. assert (NR m <= NR s) by (apply IZR_le; lia). pose proof (factor_pos H (t - from)). pose proof (factor_le1 H (t - from) HH ltac:(lia)). nra. }
  destruct (window_fold r t s 1 Ht0 ltac:(lia) Ho2 ltac:(lia) Hf Hg1) as (u & s' & -> & Hu & Hfin). cbn [ledger_score].
  assert (Hut : (u <= to)%Z). { rewrite Hu. destruct r as [|z r]; [cbn in Hy; injection Hy as <-; cbn in Hyb |- *; lia|]. rewrite last_cons_cons in Hy. rewrite Hy. lia. }
  assert (Hle : NR thr <= NR s'); [|apply le_IZR in Hle; lia].
  eapply Rle_trans; [exact Hthr|]. eapply Rle_trans; [|exact Hfin]. unfold w. change (1 + length r)%nat with (S (length r)). cbn [length].
  pose proof (factor_mono H (u - from) (to - from) HH ltac:(lia)). pose proof (pos_INR (S (length r))). apply Rmult_le_compat_l; [done|]. nra.
Qed.
End window.

(** ** C126, errors in a window of time.  A host that made n errors between [a] and [b], of at least m each, with at most k looks at its
    score before each, is cut off when what is left of n m after the time b - a reaches the threshold (k + 1 is lost to rounding at each
    error). *)
Theorem C126_errors_in_a_window : forall H o s host (m : N) (k : nat) a b pre errors, (0 < H)%Z -> es_reach (decay_real H) o s ->
  history o s host = pre ++ touches_of_series errors -> in_order 0 (history o s host) -> (total_charge (history o s host) < two64)%N ->
  errors <> [] -> between a b errors -> Forall (fun x => (m <= x.2.2)%N /\ (length x.1 <= k)%nat) errors ->
  (NR (o_threshold o) <= INR (length errors) * (NR m * left H (b - a) - INR k - 1))%R -> cut_off s host.
Proof.
  intros H o s host m k a b pre errors HH Hr Eh Ho Ht Hne Hb Hf Hthr. rewrite left_factor in Hthr by done. rewrite Eh in Ho, Ht.
  pose proof (window_score H m k HH a b pre errors (o_threshold o) Ho Ht Hne Hb Hf Hthr) as Hge.
  destruct (exists_last Hne) as (r & [L [t x]] & ->).
  assert (Es : pre ++ touches_of_series (r ++ [(L, (t, x))]) = (pre ++ touches_of_series r ++ map TLook L) ++ THit t x :: []).
  { rewrite series_snoc. by rewrite <- !app_assoc. }
  rewrite Es in *. unfold history in Eh. destruct (touches_split _ _ _ _ _ _ Eh) as (h1 & ev & h2 & Ehist & Hev & Hh1).
  destruct ev as [now id [ad|] e|now ad|now ad]; cbn [touch_of] in Hev; try discriminate Hev; destruct (decide (ma_first ad = host)) as [Hh|Hh];
    rewrite ?bool_decide_true, ?bool_decide_false in Hev by done; try discriminate Hev. injection Hev as -> <-.
  exists (length h1), t, id, ad, e. assert (Hl : served_events s !! length h1 = Some (EvError t id (Some ad) e)) by (rewrite Ehist; by apply list_lookup_middle).
  split; [exact Hl|]. split; [done|]. destruct (error_score _ _ _ _ _ _ _ _ Hr Hl) as (later & _ & ->). rewrite Ehist, take_app, Hh, Hh1. by rewrite bool_decide_true.
Qed.
Print Assumptions C126_errors_in_a_window.

(** ** What a session in which nothing succeeds reports *)
Section session.
Context (o : pc_opts) (l : latency) (id : string) (env : environment).
Local Fixpoint gains (log : list act) : nat := match log with [] => 0 | ASync None :: log => S (gains log) | _ :: log => gains log end.
Local Definition waiting (c : control) : nat := match c with SyReport _ => 1 | _ => 0 end.
Local Definition counted (s : session) : Prop :=
  (ss_cancelled s = false -> ss_ctl s <> Stopped /\
    reports (ss_log s) + length (ss_pend s) + waiting (ss_ctl s) + gains (ss_log s) = N.to_nat (failed_handshakes (ss_log s)) + rounds (ss_log s)) /\
  (AHandshake None ∉ ss_log s -> rounds (ss_log s) = 0 /\ match ss_ctl s with SyRun _ | SyReport _ | SyPause _ => False | _ => True end).
Local Lemma counted_init : counted (session_init o).
Proof. unfold counted, session_init. cbn. split; [intros _; split; [done|lia]|]. done. Qed.
Local Lemma counted_step s lab s' : counted s -> sstep o id env s lab = Some s' -> counted s'.
Proof.
  destruct s as [ctl synced n pend cancelled log]. intros [H1 H2] Hs. unfold counted in *. cbn [ss_ctl ss_log ss_pend ss_cancelled] in *.
  assert (Hin : forall x, AHandshake None ∉ x :: log -> AHandshake None ∉ log) by (intros x Hx Hi; apply Hx; by right).
  assert (Hin2 : forall x y, AHandshake None ∉ x :: y :: log -> AHandshake None ∉ log) by (intros x y Hx Hi; apply Hx; by right; right).
  destruct lab as [first|i|i|]; cbn [sstep] in Hs.
  - destruct ctl as [[[e|]| |q k]| |[[[e|] sy]| |q k]|e|d| |]; try discriminate Hs; try destruct first; try (destruct (wakes cancelled _); [|discriminate Hs]); try (destruct cancelled; [|discriminate Hs]);
      injection Hs as <-; cbn [ss_ctl ss_log ss_pend ss_cancelled reports gains failed_handshakes rounds waiting] in *;
      (split; [intros Hc; first [discriminate Hc|destruct (H1 Hc) as [_ E]; split; [done|rewrite ?app_length; cbn [length]; lia]]|]);
      intros Hn; first [by (exfalso; apply Hn; left)|destruct (H2 Hn) as [G1 G2]|destruct (H2 (Hin _ Hn)) as [G1 G2]|destruct (H2 (Hin2 _ _ Hn)) as [G1 G2]]; try done.
  - destruct (pend !! i) as [e|] eqn:Ei; [|discriminate Hs]. injection Hs as <-. cbn [ss_ctl ss_log ss_pend ss_cancelled reports gains failed_handshakes rounds]. split; [|intros Hn; by apply H2, (Hin _ Hn)].
    intros Hc. destruct (H1 Hc) as [G E]. split; [done|]. pose proof (lookup_lt_Some _ _ _ Ei) as Hlt. rewrite length_delete by (by eexists). lia.
  - destruct (pend !! i) as [e|] eqn:Ei; [|discriminate Hs]. destruct cancelled; [|discriminate Hs]. injection Hs as <-. cbn [ss_ctl ss_log ss_pend ss_cancelled reports gains failed_handshakes rounds]. split; [done|intros Hn; by apply H2, (Hin _ Hn)].
  - injection Hs as <-. cbn [ss_ctl ss_log ss_pend ss_cancelled reports gains failed_handshakes rounds]. split; [done|intros Hn; by apply H2, (Hin _ Hn)].
Qed.
Local Lemma counted_runs t sched t' : counted (td_session t) -> truns o id env t sched = Some t' -> counted (td_session t').
Proof.
  revert t. induction sched as [|lab sched IH]; intros t Ht; cbn [truns]; [by intros [= <-]|].
  destruct (tstep o id env t lab) as [t1|] eqn:Hs; [|done]. apply IH. destruct t as [s now due]. destruct lab as [dt|lab]; cbn [tstep] in Hs.
  - case_decide; [|done]. injection Hs as <-. done.
  - destruct (_ && _); [done|]. destruct (sstep o id env s lab) as [s'|] eqn:E; [|done]. pose proof (counted_step _ _ _ Ht E) as Hc.
    assert (td_session t1 = s') as -> by (destruct (timer_of o (ss_ctl s')); [destruct (pausing (ss_ctl s))|]; by injection Hs as <-). done.
Qed.
Local Lemma met_or_not (log : list act) : AHandshake None ∈ log \/ AHandshake None ∉ log.
Proof.
  induction log as [|a log [IH|IH]]; [right; by apply not_elem_of_nil|left; by right|].
  destruct a as [?|[e|]|?|?|? ? ?|? ?|]; try (right; intros Hi; apply elem_of_cons in Hi as [Hi|Hi]; [discriminate Hi|done]). left. left.
Qed.
Local Lemma no_gains log : nothing_gained log -> gains log = 0.
Proof.
  unfold nothing_gained. induction log as [|a log IH]; [done|]. intros Hn. assert (Hl : ASync None ∉ log) by (intros Hi; apply Hn; by right).
  destruct a as [?|?|[e|]|?|? ? ?|? ?|]; cbn [gains]; try by apply IH. exfalso. apply Hn. left.
Qed.
End session.

(** ** C126, a session in which nothing succeeds reports errors regularly.  D: the time for a handshake and the pause after it and, if
    the handshake succeeded, for a round of requests, its report and the pause after it. *)
Theorem C126_failures_reported : forall o l id env t0 sched t D, (forall n q, fits q (env n q)) ->
  truns o id env (timed_init o t0) sched = Some t -> prompt o id env l (timed_init o t0) t0 sched ->
  ss_cancelled (td_session t) = false -> ss_ctl (td_session t) <> Crashed -> ss_pend (td_session t) = [] -> nothing_gained (ss_log (td_session t)) ->
  (Z.of_N (handshake_time o l) + Z.max 0 (po_retry o) <= D)%Z ->
  (AHandshake None ∈ ss_log (td_session t) -> Z.of_N (round_time o l) + Z.of_N (l_report l) + Z.of_N (longest_pause o) <= D)%Z ->
  (td_now t - t0 <= (Z.of_nat (reports (ss_log (td_session t))) + 3) * D)%Z.
Proof.
  intros o l id env t0 sched t D Hf Hr Hp Hc Hcr Hpend Hn HD1 HD2.
  destruct (counted_runs o id env (timed_init o t0) sched t (counted_init o) Hr) as [C1 C2]. destruct (C1 Hc) as [Hst E]. rewrite Hpend, (no_gains _ Hn) in E. cbn [length] in E.
  pose proof (C125_polls o l id env t0 sched t Hf Hr Hp Hst Hcr) as He.
  assert (H0 : Speed_Props.on_time o l t0 (timed_init o t0) t0).
  { unfold Speed_Props.on_time, timed_init, session_init. cbn [td_session td_now ss_ctl ss_log may_stay]. split; [lia|]. exists (handshake_time o l). split; [apply Speed_Props.handshake_lasts|]. unfold Speed_Props.used. cbn [failed_handshakes rounds]. lia. }
  destruct (Speed_Props.on_time_runs o l id env Hf t0 _ _ _ _ H0 Hp Hr) as (since & Hm & Ht). unfold Speed_Props.used in Ht.
  set (log := ss_log (td_session t)) in *. set (fh := failed_handshakes log) in *. set (rd := rounds log) in *. set (rp := reports log) in *.
  assert (Hfh : (Z.of_N fh * (Z.of_N (handshake_time o l) + Z.max 0 (po_retry o)) <= Z.of_N fh * D)%Z) by (apply Z.mul_le_mono_nonneg_l; lia).
  assert (HD0 : (0 <= D)%Z) by lia.
  destruct (met_or_not log) as [Hg|Hg].
  - specialize (HD2 Hg). assert (Hrd : (Z.of_nat rd * (Z.of_N (round_time o l) + Z.of_N (l_report l) + Z.of_N (longest_pause o)) <= Z.of_nat rd * D)%Z) by (apply Z.mul_le_mono_nonneg_l; lia).
    assert (Hw : waiting (ss_ctl (td_session t)) <= 1) by (destruct (ss_ctl (td_session t)); cbn; lia).
    assert (Hs : (Z.of_N fh + Z.of_nat rd <= Z.of_nat rp + 1)%Z) by lia.
    assert (Hs2 : ((Z.of_N fh + Z.of_nat rd) * D <= (Z.of_nat rp + 1) * D)%Z) by (apply Z.mul_le_mono_nonneg_r; lia). lia.
  - destruct (C2 Hg) as [Hr0 Hctl]. rewrite Hr0 in *. destruct (ss_ctl (td_session t)) as [p| |p|e|d| |]; try done; cbn [may_stay waiting] in *.
    + destruct Ht as (n & Hl & Hu). pose proof (Speed_Props.patience_lasts _ _ _ Hl). assert (Z.of_N fh = Z.of_nat rp) as Ef by lia. rewrite Ef in *. lia.
    + assert (Z.of_N fh = Z.of_nat rp) as Ef by lia. rewrite Ef in *. lia.
Qed.
Print Assumptions C126_failures_reported.

(** ** C126, together: a peer with which a session has gained nothing for n + 3 rounds of failures, and whose errors were charged to its
    host, has been cut off, when n errors in such a time reach the threshold. *)
Theorem C126_cut_off_in_time : forall H ho o l id env t0 sched t D s host (m : N) (k n : nat) pre errors, (0 < H)%Z ->
  (forall n q, fits q (env n q)) -> truns o id env (timed_init o t0) sched = Some t -> prompt o id env l (timed_init o t0) t0 sched ->
  ss_cancelled (td_session t) = false -> ss_ctl (td_session t) <> Crashed -> ss_pend (td_session t) = [] -> nothing_gained (ss_log (td_session t)) ->
  (0 < D)%Z -> (Z.of_N (handshake_time o l) + Z.max 0 (po_retry o) <= D)%Z ->
  (AHandshake None ∈ ss_log (td_session t) -> Z.of_N (round_time o l) + Z.of_N (l_report l) + Z.of_N (longest_pause o) <= D)%Z ->
  (* the errors the session reported were charged to the host *)
  es_reach (decay_real H) ho s -> history ho s host = pre ++ touches_of_series errors -> in_order 0 (history ho s host) -> (total_charge (history ho s host) < two64)%N ->
  reports (ss_log (td_session t)) <= length errors -> between t0 (td_now t) errors -> Forall (fun x => (m <= x.2.2)%N /\ (length x.1 <= k)%nat) errors ->
  (* and the session has lasted long enough *)
  0 < n -> (NR (o_threshold ho) <= INR n * (NR m * left H ((Z.of_nat n + 4) * D) - INR k - 1))%R ->
  ((Z.of_nat n + 3) * D <= td_now t - t0 <= (Z.of_nat n + 4) * D)%Z -> cut_off s host.
Proof.
  intros H ho o l id env t0 sched t D s host m k n pre errors HH Hf Hr Hp Hc Hcr Hpend Hng HD0 HD1 HD2 Hes Eh Ho Htot Hcov Hb Hm Hn Hthr [Ht1 Ht2].
  pose proof (C126_failures_reported o l id env t0 sched t D Hf Hr Hp Hc Hcr Hpend Hng HD1 HD2) as Hrep.
  assert (Hlen : n <= length errors).
  { enough (Z.of_nat n <= Z.of_nat (reports (ss_log (td_session t))))%Z by lia. assert (Hle : ((Z.of_nat n + 3) * D <= (Z.of_nat (reports (ss_log (td_session t))) + 3) * D)%Z) by lia.
    apply Z.mul_le_mono_pos_r in Hle; lia. }
  apply (C126_errors_in_a_window H ho s host m k t0 (td_now t) pre errors HH Hes Eh Ho Htot ltac:(intros ->; cbn in Hlen; lia) Hb Hm).
  rewrite left_factor in * by done. pose proof (factor_mono H (td_now t - t0) ((Z.of_nat n + 4) * D) HH ltac:(lia)) as Hfm.
  pose proof (IZR_N_nonneg m) as M0. pose proof (IZR_N_nonneg (o_threshold ho)) as T0.
  assert (Hin : (INR n <= INR (length errors))%R) by (by apply le_INR). assert (Hn0 : (0 < INR n)%R) by (apply lt_0_INR; lia).
  set (x := (NR m * factor H ((Z.of_nat n + 4) * D) - INR k - 1)%R) in *. set (y := (NR m * factor H (td_now t - t0) - INR k - 1)%R).
  assert (Hxy : (x <= y)%R) by (unfold x, y; assert (NR m * factor H ((Z.of_nat n + 4) * D) <= NR m * factor H (td_now t - t0))%R by (by apply Rmult_le_compat_l); lra).
  assert (Hx0 : (0 <= x)%R) by (apply (Rmult_le_reg_l (INR n)); [done|lra]). 
  eapply Rle_trans; [exact Hthr|]. apply Rmult_le_compat; lra.
Qed.
Print Assumptions C126_cut_off_in_time.

(** With the default options, and calls that return by their time-outs: a peer with which every handshake fails, at 3500 a time or more
    (what a request that timed out costs), is cut off within twenty minutes. *)
Theorem C126_defaults : forall id env t0 sched t s host pre errors, let H := o_halflife eh_defaults in
  (forall n q, fits q (env n q)) -> truns pc_defaults id env (timed_init pc_defaults t0) sched = Some t ->
  prompt pc_defaults id env (by_timeouts pc_defaults) (timed_init pc_defaults t0) t0 sched ->
  ss_cancelled (td_session t) = false -> ss_ctl (td_session t) <> Crashed -> ss_pend (td_session t) = [] -> AHandshake None ∉ ss_log (td_session t) ->
  es_reach (decay_real H) eh_defaults s -> history eh_defaults s host = pre ++ touches_of_series errors -> in_order 0 (history eh_defaults s host) -> (total_charge (history eh_defaults s host) < two64)%N ->
  reports (ss_log (td_session t)) <= length errors -> between t0 (td_now t) errors -> Forall (fun x => (3500 <= x.2.2)%N /\ (length x.1 <= 1)%nat) errors ->
  (td_now t - t0 = 20 * minute)%Z -> cut_off s host.
Proof.
  intros id env t0 sched t s host pre errors H Hf Hr Hp Hc Hcr Hpend Hng Hes Eh Ho Htot Hcov Hb Hm Ht. assert (HH : (0 < H)%Z) by (vm_compute; done).
  destruct (counted_runs pc_defaults id env (timed_init pc_defaults t0) sched t (counted_init pc_defaults) Hr) as [_ C2]. destruct (C2 Hng) as [Hr0 _].
  apply (C126_cut_off_in_time H eh_defaults pc_defaults (by_timeouts pc_defaults) id env t0 sched t (24 * second) s host 3500 1 46 pre errors HH Hf Hr Hp Hc Hcr Hpend); try done.
  - unfold nothing_gained. intros Hin. clear -Hr0 Hin. induction (ss_log (td_session t)) as [|a log IH]; [by apply elem_of_nil in Hin|]. apply elem_of_cons in Hin as [<-|Hin]; [done|]. apply IH; [|done]. by destruct a.
  - lia.
  - change ((Z.of_nat 46 + 4) * (24 * second))%Z with (20 * minute)%Z. rewrite left_factor by done. set (q := factor H (20 * minute)).
    assert (Hq : (q ^ 3 = / 4)%R). { unfold q. rewrite factor_pow. change (Z.of_nat 3 * (20 * minute))%Z with (Z.of_nat 2 * H)%Z. rewrite factor_halflives by done. f_equal. cbn. lra. }
    assert (Hqp : (0 < q)%R) by apply factor_pos. assert (Hq2 : (629 / 1000 <= q)%R) by (apply (root_bound _ _ 3); [lra| |lra|done]; rewrite Hq; cbn; lra).
    change (NR (o_threshold eh_defaults)) with 100000%R. change (NR 3500) with 3500%R. rewrite INR_IZR_INZ. cbn [INR]. change (Z.of_nat 46) with 46%Z. lra.
  - rewrite Ht. vm_compute. split; discriminate.
Qed.
Print Assumptions C126_defaults.

(** The peer never answers what its head block is: every handshake takes the six seconds of the time-out, the next one begins six
    seconds later, and each costs 5000. *)
Local Definition silent : environment := fun _ q =>
  match q with
  | QVersion => ("1.0.0", None)
  | QLocalChainID _ => (Some (Some "koinos"), None)
  | QPeerChainID _ => (Some "koinos", None)
  | QPeerHead _ => (None, 0%N, Some (ESent ErrPeerRPC))
  | QPeerAncestor _ _ _ => (None, None)
  | QLib => None
  | QLocalBlocks _ _ => (None, None)
  | QPeerBlocks _ _ _ _ => ([], None)
  | QApply _ _ => None
  end.
Local Definition attempt : list tlabel :=
  [TDo (MStep true); TDo (MStep true); TDo (MStep true); TPass (6 * second); TDo (MStep true); TDo (MStep true); TDo (MDeliver 0); TPass (6 * second); TDo (MStep true)].
Local Definition attempts : list tlabel := mjoin (replicate 100 attempt).
Example C126_nonvacuous : exists t s errors, let H := o_halflife eh_defaults in
  (forall n q, fits q (silent n q)) /\ truns pc_defaults "p" silent (timed_init pc_defaults 0) attempts = Some t /\
  prompt pc_defaults "p" silent (by_timeouts pc_defaults) (timed_init pc_defaults 0) 0 attempts /\
  ss_cancelled (td_session t) = false /\ ss_ctl (td_session t) <> Crashed /\ ss_pend (td_session t) = [] /\ AHandshake None ∉ ss_log (td_session t) /\
  es_reach (decay_real H) eh_defaults s /\ history eh_defaults s "/ip4/1.1.1.1" = [] ++ touches_of_series errors /\ in_order 0 (history eh_defaults s "/ip4/1.1.1.1") /\
  (total_charge (history eh_defaults s "/ip4/1.1.1.1") < two64)%N /\ reports (ss_log (td_session t)) = 100 /\ length errors = 100 /\ between 0 (td_now t) errors /\
  Forall (fun x => (3500 <= x.2.2)%N /\ (length x.1 <= 1)%nat) errors /\ (td_now t - 0 = 20 * minute)%Z /\ cut_off s "/ip4/1.1.1.1".
Proof.
  destruct (truns pc_defaults "p" silent (timed_init pc_defaults 0) attempts) as [t|] eqn:Et; [|vm_compute in Et; discriminate Et].
  destruct (failures_served (decay_real (o_halflife eh_defaults)) eh_defaults (12 * second) 100) as (s & Hr & Es).
  exists t, s, (map (fun i => ([], (Z.of_nat i * (12 * second), 5000%N)))%Z (seq 1 100)).
  assert (Eh : history eh_defaults s "/ip4/1.1.1.1" = map (fun i => THit (Z.of_nat i * (12 * second)) 5000) (seq 1 100)) by (unfold history; rewrite Es; apply failing_history).
  assert (Hfits : forall n q, fits q (silent n q)) by (intros n q; destruct q; cbn; first [exact I|lia]).
  assert (Hprompt : prompt pc_defaults "p" silent (by_timeouts pc_defaults) (timed_init pc_defaults 0) 0 attempts) by (vm_compute; repeat split; discriminate).
  assert (Ew : (fun t => (ss_cancelled (td_session t), match ss_ctl (td_session t) with Crashed => true | _ => false end, ss_pend (td_session t),
    reports (ss_log (td_session t)), td_now t, existsb (fun a => match a with AHandshake None => true | _ => false end) (ss_log (td_session t))))
    <$> truns pc_defaults "p" silent (timed_init pc_defaults 0) attempts = Some (false, false, [], 100%nat, (20 * minute)%Z, false)) by (vm_compute; reflexivity).
  rewrite Et in Ew. cbn [fmap option_fmap option_map] in Ew. injection Ew as E1 E2 E3 E4 E5 E6.
  assert (Hcr : ss_ctl (td_session t) <> Crashed) by (intros X; rewrite X in E2; discriminate E2).
  assert (Hno : AHandshake None ∉ ss_log (td_session t)).
  { intros X. clear -X E6. induction (ss_log (td_session t)) as [|a log IH]; [by apply elem_of_nil in X|]. cbn [existsb] in E6. apply orb_false_iff in E6 as [E6 E7].
    apply elem_of_cons in X as [<-|X]; [discriminate E6|by apply IH]. }
  assert (Hord : in_order 0 (history eh_defaults s "/ip4/1.1.1.1")) by (rewrite Eh; apply failing_order; vm_compute; done).
  assert (Htot : (total_charge (history eh_defaults s "/ip4/1.1.1.1") < two64)%N) by (rewrite Eh; vm_compute; reflexivity).
  assert (Hb : between 0 (td_now t) (map (fun i => ([], (Z.of_nat i * (12 * second), 5000%N)))%Z (seq 1 100))).
  { rewrite E5. apply Forall_forall. intros x Hx. apply elem_of_list_fmap in Hx as (i & -> & Hi). apply elem_of_seq in Hi. cbn [fst snd]. unfold minute, second. lia. }
  assert (Hm : Forall (fun x : list Z * (Z * N) => (3500 <= x.2.2)%N /\ (length x.1 <= 1)%nat) (map (fun i => ([], (Z.of_nat i * (12 * second), 5000%N)))%Z (seq 1 100))).
  { apply Forall_forall. intros x Hx. apply elem_of_list_fmap in Hx as (i & -> & _). cbn. lia. }
  assert (Ehs : history eh_defaults s "/ip4/1.1.1.1" = [] ++ touches_of_series (map (fun i => ([], (Z.of_nat i * (12 * second), 5000%N)))%Z (seq 1 100))) by (rewrite Eh; apply failing_series).
  assert (Hcut : cut_off s "/ip4/1.1.1.1").
  { apply (C126_defaults "p" silent 0%Z attempts t s _ [] _ Hfits Et Hprompt E1 Hcr E3 Hno Hr Ehs Hord Htot); [rewrite E4; exact (Nat.le_refl 100)|exact Hb|exact Hm|rewrite E5; reflexivity]. }
  cbv zeta. rewrite E4, E5 in *. do 16 (split; [first [eassumption|reflexivity]|]). exact Hcut.
Qed.
