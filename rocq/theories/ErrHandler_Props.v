(** Property theorems C07-C13 about peer error scores. *)
From Coq Require Import Reals Lra.
From Flocq Require Import Core.
From Verif Require Import GoBase Util ErrHandler_Model ErrHandler_Spec ErrHandler_Proofs ErrDecay_Model ErrDecay_Proofs.

(** Demo data: a decay that halves once a second, and three hosts. *)
Definition demo_decay (s : N) (dt : Z) : N := (s / 2 ^ Z.to_N (dt / second))%N.
Definition host1 : maddr := Maddr "/ip4/1.1.1.1" ["/tcp/1"].
Definition host1b : maddr := Maddr "/ip4/1.1.1.1" ["/tcp/2"].
Definition host2 : maddr := Maddr "/ip4/2.2.2.2" ["/tcp/1"].
Definition demo_events : list eh_event :=
  [EvError 0 "p" (Some host1) (EWrap (ESent ErrChainIDMismatch));
   EvError 0 "q" (Some host2) (ESent ErrPeerRPC);
   EvError 0 "r" None (ESent ErrForkBomb);
   EvCanConnect (1 * second) host1b; EvGetScore (2 * second) host1; EvCanConnect (3 * second) host1;
   EvCanConnect (3 * second) host2]%Z.
Example demo_run : snd (eh_run demo_decay eh_defaults ∅ demo_events) =
  [OutDisconnect (Some "p"); OutDisconnect None; OutDisconnect None;
   OutCan false; OutScore 50000; OutCan true; OutCan true].
Proof. vm_compute. reflexivity. Qed.

(** C07.  The answer to an error event at any point of any history. *)
Theorem C07_disconnect_exactly_at_threshold : forall decay o hist now id a e later,
  let l := ledger_of decay (touches o (ma_first a) hist) in
  let score := match look decay now l with
               | Some (_, s) => add64 s (expected_score o e)
               | None => expected_score o e
               end in
  snd (eh_run decay o ∅ (hist ++ EvError now id (Some a) e :: later)) !! length hist =
  Some (OutDisconnect (if bool_decide (o_threshold o <= score)%N then Some id else None)).
Proof.
  intros decay o hist now id a e later. cbv zeta. rewrite run_answer. simpl. do 3 f_equal.
  unfold hit. destruct (look decay now _) as [[t s]|]; done.
Qed.
Print Assumptions C07_disconnect_exactly_at_threshold.
Theorem C07_unknown_address_changes_nothing : forall decay o st now id e,
  eh_step decay o st (EvError now id None e) = (st, OutDisconnect None).
Proof. reflexivity. Qed.
Print Assumptions C07_unknown_address_changes_nothing.
(** GetPeerErrorScore at any point of any history tells what the host has been charged, decayed to now; 0 if nothing, or if the
    peer's address is not known. *)
Theorem C07_score_told : forall decay o hist now a,
  let st := fst (eh_run decay o ∅ hist) in
  snd (eh_get_score_peer decay now (Some a) st) =
    match look decay now (ledger_of decay (touches o (ma_first a) hist)) with Some (_, s) => s | None => 0%N end /\
  snd (eh_get_score_peer decay now None st) = 0%N.
Proof.
  intros decay o hist now a st. split; [|done]. pose proof (step_answer decay o st (EvGetScore now a)) as Hs. simpl in Hs.
  unfold st in Hs at 2. rewrite run_ledger in Hs. cbn [eh_get_score_peer].
  destruct (eh_get_score decay now a st) as [s' n]. simpl in *. injection Hs as ->. by destruct (look decay now _) as [[t s]|].
Qed.
Print Assumptions C07_score_told.

(** C08.  The answer to a connection query at any point of any history. *)
Theorem C08_gate_exactly_at_reconnect_threshold : forall decay o hist now a,
  let st := fst (eh_run decay o ∅ hist) in
  let ok := match look decay now (ledger_of decay (touches o (ma_first a) hist)) with
            | Some (_, s) => bool_decide (s < o_reconnect o)%N
            | None => true
            end in
  snd (eh_can_connect decay o now a st) = ok /\
  snd (eh_intercept_addr_dial decay o now a st) = ok /\
  snd (eh_intercept_accept decay o now a st) = ok /\
  snd (eh_intercept_secured decay o now a st) = ok /\
  snd (eh_can_connect_peer decay o now (Some a) st) = ok /\
  snd (eh_can_connect_peer decay o now None st) = true /\
  snd (eh_intercept_peer_dial decay o now (Some a) st) = ok /\
  snd (eh_intercept_peer_dial decay o now None st) = true /\
  eh_intercept_upgraded = true.
Proof.
  intros decay o hist now a st ok.
  assert (H : snd (eh_can_connect decay o now a st) = ok).
  { pose proof (step_answer decay o st (EvCanConnect now a)) as Hs. simpl in Hs.
    unfold st in Hs at 2. rewrite run_ledger in Hs.
    destruct (eh_can_connect decay o now a st) as [s' b]. simpl in *. injection Hs as ->. reflexivity. }
  repeat split; exact H.
Qed.
Print Assumptions C08_gate_exactly_at_reconnect_threshold.
(** A host that was never charged is always allowed. *)
Theorem C08_uncharged_host_allowed : forall decay o hist now a,
  (forall t id b e, EvError t id (Some b) e ∈ hist -> ma_first b <> ma_first a) ->
  snd (eh_can_connect decay o now a (fst (eh_run decay o ∅ hist))) = true.
Proof.
  intros decay o hist now a Hno. destruct (C08_gate_exactly_at_reconnect_threshold decay o hist now a) as [-> _].
  assert (Hn : ledger_of decay (touches o (ma_first a) hist) = None); [|rewrite Hn; reflexivity].
  assert (Hall : forall t, t ∈ touches o (ma_first a) hist -> exists u, t = TLook u).
  { intros t Ht. unfold touches in Ht. apply elem_of_list_omap in Ht as (ev & Hin & He).
    destruct ev as [u id [b|] e|u b|u b]; simpl in He; try case_bool_decide; try done; injection He as <-; eauto.
    exfalso. eapply Hno; eauto. }
  unfold ledger_of. revert Hall. generalize (touches o (ma_first a) hist). intros ts.
  induction ts as [|t ts IH]; intros Hall; [done|]. destruct (Hall t) as [u ->]; [set_solver|].
  simpl. apply IH. intros x Hx. apply Hall. set_solver.
Qed.
Print Assumptions C08_uncharged_host_allowed.

(** C09.  Deleting everything about other hosts changes no answer about a host. *)
Theorem C09_hosts_independent : forall decay o host hist ev later,
  event_host ev = Some host ->
  snd (eh_run decay o ∅ (hist ++ ev :: later)) !! length hist =
  snd (eh_run decay o ∅ (filter (fun x => event_host x = Some host) hist ++ [ev]))
    !! length (filter (fun x => event_host x = Some host) hist).
Proof. exact noninterference. Qed.
Print Assumptions C09_hosts_independent.
(** Addresses with the same first component are indistinguishable. *)
Theorem C09_same_host_same_answer : forall decay o st now a b,
  ma_first a = ma_first b ->
  eh_can_connect decay o now a st = eh_can_connect decay o now b st /\
  eh_get_score decay now a st = eh_get_score decay now b st /\
  forall e, eh_error decay o now (Some a) e st = eh_error decay o now (Some b) e st.
Proof.
  intros decay o st now a b H. unfold eh_can_connect, eh_get_score, eh_error, host_of. rewrite H. auto.
Qed.
Print Assumptions C09_same_host_same_answer.
Example C09_nonvacuous :
  filter (fun x => event_host x = Some (ma_first host1)) demo_events =
  [EvError 0 "p" (Some host1) (EWrap (ESent ErrChainIDMismatch));
   EvCanConnect (1 * second) host1b; EvGetScore (2 * second) host1; EvCanConnect (3 * second) host1]%Z.
Proof. vm_compute. reflexivity. Qed.

(** C10.  float64 semantics: [gexp dt] is what math.Exp returns for the elapsed time, any value in
    [0,1] (it is exp of a non-positive number), and exactly 1 for no elapsed time.  Between two
    score queries of a host with no error of that host in between, the score does not rise. *)
Theorem C10_score_never_rises_without_error :
  forall (gexp : Z -> R) o hist t1 a mid t2 b n1 n2,
  (forall dt, (0 <= dt)%Z -> (0 <= gexp dt <= 1)%R) ->
  ma_first b = ma_first a ->
  (forall t id c e, EvError t id (Some c) e ∈ mid -> ma_first c <> ma_first a) ->
  (* the clock does not run backwards from the first query on *)
  (forall i j x y, i <= j ->
     (TLook t1 :: touches o (ma_first a) mid ++ [TLook t2]) !! i = Some x ->
     (TLook t1 :: touches o (ma_first a) mid ++ [TLook t2]) !! j = Some y -> (touch_time x <= touch_time y)%Z) ->
  let out := snd (eh_run (decay_float gexp) o ∅ (hist ++ [EvGetScore t1 a] ++ mid ++ [EvGetScore t2 b])) in
  out !! length hist = Some (OutScore n1) ->
  out !! (length hist + 1 + length mid) = Some (OutScore n2) ->
  (n1 <= 2 ^ 53)%N -> (n2 <= n1)%N.
Proof.
  intros gexp o hist t1 a mid t2 b n1 n2 Hexp Hb Hmid Hmono out H1 H2 Hn1.
  unfold out in H1, H2. simpl app in H1.
  rewrite run_answer in H1. simpl in H1. injection H1 as H1.
  assert (H2' : snd (eh_run (decay_float gexp) o ∅ ((hist ++ [EvGetScore t1 a] ++ mid) ++ [EvGetScore t2 b]))
                !! length (hist ++ [EvGetScore t1 a] ++ mid) = Some (OutScore n2)).
  { rewrite <- H2. rewrite <- !app_assoc. f_equal. rewrite !app_length. simpl. lia. }
  rewrite run_answer in H2'. simpl in H2'. injection H2' as H2'. rewrite Hb in H2'.
  rewrite touches_app, touches_cons in H2'. cbn [touch_of] in H2'. rewrite bool_decide_eq_true_2 in H2' by done.
  unfold ledger_of in H1, H2'. rewrite fold_left_app in H2'. cbn [fold_left] in H2'.
  set (l := fold_left (touch1 (decay_float gexp)) (touches o (ma_first a) hist) None) in *.
  cbn [touch1] in H2'.
  assert (Hlook : forall x, x ∈ touches o (ma_first a) mid -> exists u, x = TLook u).
  { intros x Hx. unfold touches in Hx. apply elem_of_list_omap in Hx as (ev & Hin & He).
    destruct ev as [u id [c|] e|u c|u c]; simpl in He; try case_bool_decide; try done; injection He as <-; eauto.
    exfalso. eapply Hmid; eauto. }
  destruct (look (decay_float gexp) t1 l) as [[t s]|] eqn:Hl.
  - simpl in H1. subst n1. assert (t = t1) as ->.
    { unfold look in Hl. destruct l as [[? ?]|]; [|done]. congruence. }
    destruct (looks_decrease (decay_float gexp) (2 ^ 53) (touches o (ma_first a) mid ++ [TLook t2])) with (t := t1) (s := s)
      as (t' & s' & Hf & Hle); auto.
    + intros x dt Hx Hdt. apply decay_float_le; auto.
    + intros x Hx. apply elem_of_app in Hx as [Hx|Hx]; [auto|]. apply elem_of_list_singleton in Hx as ->. eauto.
    + intros i j x y Hij Hi Hj. apply (Hmono (S i) (S j)); auto. lia.
    + intros x Hx. apply (Hmono 0 1 (TLook t1) x); auto.
    + rewrite fold_left_app in Hf. cbn [fold_left touch1] in Hf.
      rewrite Hf in H2'. simpl in H2'. subst n2. done.
  - assert (Hnone : fold_left (touch1 (decay_float gexp)) (touches o (ma_first a) mid) None = None).
    { revert Hlook. generalize (touches o (ma_first a) mid). intros ts.
      induction ts as [|x ts IH]; intros Hx; [done|]. destruct (Hx x) as [u ->]; [set_solver|].
      simpl. apply IH. intros y Hy. apply Hx. set_solver. }
    rewrite Hnone in H2'. simpl in H2'. lia.
Qed.
Print Assumptions C10_score_never_rises_without_error.
Theorem C10_no_time_no_change : forall (gexp : Z -> R) s,
  gexp 0%Z = 1%R -> (s <= 2 ^ 53)%N -> decay_float gexp s 0 = s.
Proof. intros gexp s H Hs. apply decay_float_one; done. Qed.
Print Assumptions C10_no_time_no_change.
(** The bound matters: above 2^53 the conversion to float64 may round up. *)
Theorem C10_bound_is_needed : forall (gexp : Z -> R), gexp 0%Z = 1%R ->
  decay_float gexp (2 ^ 53 + 3) 0 = (2 ^ 53 + 4)%N.
Proof.
  intros gexp H. unfold decay_float. rewrite H, Rmult_1_r.
  assert (Hf : generic_format radix2 fexp (IZR (2 ^ 53 + 4))).
  { replace (IZR (2 ^ 53 + 4)) with (IZR (2 ^ 51 + 1) * bpow radix2 2)%R
      by (rewrite <- (IZR_Zpower radix2 2) by lia; rewrite <- mult_IZR; reflexivity).
    apply format_scaled; lia. }
  assert (Hr : fl (IZR (Z.of_N (2 ^ 53 + 3))) = IZR (2 ^ 53 + 4)).
  { unfold fl. apply Rle_antisym.
    - rewrite <- (fl_exact _ Hf). apply fl_mono. apply IZR_le. lia.
    - (* 2^53+2 and 2^53+4 are neighbours; the midpoint rounds to the even mantissa 2^52+2 *)
      unfold round, F2R, scaled_mantissa, cexp.
      assert (Hmag : mag radix2 (IZR (Z.of_N (2 ^ 53 + 3))) = 54%Z :> Z).
      { apply mag_unique. rewrite Rabs_pos_eq by (apply IZR_le; lia).
        rewrite <- (IZR_Zpower radix2 (54 - 1)), <- (IZR_Zpower radix2 54) by lia. split; [apply IZR_le|apply IZR_lt]; simpl; lia. }
      rewrite Hmag. change (fexp 54) with 1%Z. cbn [Fnum Fexp]. change (Z.opp 1%Z) with (-1)%Z.
      assert (Hz : ZnearestE (IZR (Z.of_N (2 ^ 53 + 3)) * bpow radix2 (-1)) = (2 ^ 52 + 2)%Z).
      { replace (IZR (Z.of_N (2 ^ 53 + 3)) * bpow radix2 (-1))%R with (IZR (2 ^ 52 + 1) + / 2)%R.
        2: { simpl (bpow radix2 (-1)). replace (Z.of_N (2 ^ 53 + 3)) with (2 * (2 ^ 52 + 1) + 1)%Z by lia.
             rewrite (plus_IZR (2 * (2 ^ 52 + 1)) 1), (mult_IZR 2 (2 ^ 52 + 1)). lra. }
        unfold Znearest.
        assert (Hfl : Zfloor (IZR (2 ^ 52 + 1) + / 2) = (2 ^ 52 + 1)%Z).
        { apply Zfloor_imp. rewrite (plus_IZR (2 ^ 52 + 1) 1). lra. }
        rewrite Hfl. rewrite Rcompare_Eq by lra.
        change (negb (Z.even (2 ^ 52 + 1))) with true. cbv iota.
        apply Zceil_imp. replace (2 ^ 52 + 2 - 1)%Z with (2 ^ 52 + 1)%Z by lia.
        replace (2 ^ 52 + 2)%Z with ((2 ^ 52 + 1) + 1)%Z by lia. rewrite (plus_IZR (2 ^ 52 + 1) 1). lra. }
      rewrite Hz. rewrite <- (IZR_Zpower radix2 1) by lia. rewrite <- mult_IZR. apply IZR_le. simpl. lia. }
  rewrite Hr, (fl_exact _ Hf), Zfloor_IZR. reflexivity.
Qed.
Print Assumptions C10_bound_is_needed.
Example C10_nonvacuous : (forall dt, (0 <= dt)%Z -> (0 <= factor (30 * minute) dt <= 1)%R) /\ factor (30 * minute) 0 = 1%R.
Proof.
  split; [|apply factor_zero]. intros dt Hdt. split; [left; apply factor_pos|].
  apply factor_le1; [unfold minute, second; lia|done].
Qed.

(** C11.  In exact arithmetic the score after k half-lives of silence is the score divided by 2^k,
    and a connection query then is answered by comparing that with the reconnect threshold. *)
Theorem C11_halflife : forall H o hist a t s (k : nat),
  (0 < H)%Z -> (Z.of_nat k * H <= max_i64)%Z ->
  ledger_of (decay_real H) (touches o (ma_first a) hist) = Some (t, s) ->
  let now := (t + Z.of_nat k * H)%Z in
  let st := fst (eh_run (decay_real H) o ∅ hist) in
  snd (eh_get_score (decay_real H) now a st) = (s / 2 ^ N.of_nat k)%N /\
  snd (eh_can_connect (decay_real H) o now a st) = bool_decide (s / 2 ^ N.of_nat k < o_reconnect o)%N.
Proof.
  intros H o hist a t s k HH Hk Hl now st.
  assert (Hd : decay_real H s (time_sub now t) = (s / 2 ^ N.of_nat k)%N).
  { rewrite <- (decay_real_halflives H) by done. f_equal. unfold now, time_sub, min_i64, max_i64 in *. lia. }
  split.
  - pose proof (step_answer (decay_real H) o st (EvGetScore now a)) as Hs. simpl in Hs.
    unfold st in Hs at 2. rewrite run_ledger, Hl in Hs. simpl in Hs. rewrite Hd in Hs.
    destruct (eh_get_score (decay_real H) now a st). simpl in *. congruence.
  - destruct (C08_gate_exactly_at_reconnect_threshold (decay_real H) o hist now a) as [Hc _].
    fold st in Hc. rewrite Hc, Hl. simpl. rewrite Hd. done.
Qed.
Print Assumptions C11_halflife.
Example C11_nonvacuous : (0 < 30 * minute)%Z /\ (Z.of_nat 2 * (30 * minute) <= max_i64)%Z /\
  ledger_of (decay_real (30 * minute)) (touches eh_defaults (ma_first host1) [EvError 7 "p" (Some host1) (ESent ErrForkBomb)])
   = Some (7, 200000%N)%Z.
Proof. split; [unfold minute, second; lia|]. split; [unfold minute, second, max_i64; lia|]. vm_compute. reflexivity. Qed.

(** C11, the last part ("the number of times the score is read makes no difference") is false: *)
Definition C11_reads_statement : Prop :=
  forall (H : Z) (s : N) (dts : list Z), (0 < H)%Z -> Forall (fun d => (0 < d)%Z) dts ->
  dts <> [] -> reads (decay_real H) s dts = decay_real H s (total dts).
Theorem C11_reads_change_the_score_refuted : ~ C11_reads_statement.
Proof.
  intros Hst. assert (HH : (0 < 30 * minute)%Z) by (unfold minute, second; lia).
  specialize (Hst (30 * minute)%Z 200000%N [1; 1]%Z HH).
  assert (Hr : (reads (decay_real (30 * minute)) 200000 [1; 1]%Z <= 200000 - N.of_nat 2)%N).
  { apply (reads_lose (30 * minute) [1; 1]%Z HH). repeat constructor; lia. }
  rewrite Hst in Hr by (try discriminate; repeat constructor; lia). change (total [1; 1]%Z) with 2%Z in Hr.
  assert (Hlo : (199999 <= decay_real (30 * minute) 200000 2)%N); [|lia].
  rewrite decay_real_factor.
  assert (Hf : (1 - / 200000 <= factor (30 * minute) 2)%R).
  { unfold factor. set (x := (-1 * (ln 2 / IZR (30 * minute)) * IZR 2)%R).
    pose proof (exp_ineq1_le x). assert (Hx : (- / 200000 <= x)%R); [|lra].
    assert (Hln : (ln 2 < 1)%R).
    { rewrite <- (ln_exp 1). apply ln_increasing; [lra|]. pose proof (exp_ineq1 1). lra. }
    pose proof ln2_pos. assert (Hm : (IZR (30 * minute) = 1800000000000)%R) by (unfold minute, second; apply f_equal; reflexivity).
    unfold x. rewrite Hm. lra. }
  assert (Hg : (199999 <= IZR (Z.of_N 200000) * factor (30 * minute) 2)%R).
  { change (Z.of_N 200000) with 200000%Z. lra. }
  apply Zfloor_le in Hg. rewrite (Zfloor_IZR 199999) in Hg. lia.
Qed.
Print Assumptions C11_reads_change_the_score_refuted.
(** In fact every read at a later instant costs at least one point, so [s] queries, however close
    together, clear any ban: n queries one nanosecond apart (exact and float64 arithmetic). *)
Definition ns_queries (t : Z) (a : maddr) (n : nat) : list eh_event :=
  map (fun i => EvCanConnect (t + Z.of_nat i) a) (seq 1 n).
Lemma ns_queries_touches o t a n : touches o (ma_first a) (ns_queries t a n) = look_times t (repeat 1%Z n).
Proof.
  unfold ns_queries. assert (Hgen : forall k, touches o (ma_first a) (map (fun i => EvCanConnect (t + Z.of_nat i) a) (seq (S k) n))
    = look_times (t + Z.of_nat k) (repeat 1%Z n)).
  { induction n as [|n IH]; intros k; [done|]. cbn [seq map repeat look_times]. rewrite touches_cons. simpl touch_of.
    rewrite bool_decide_eq_true_2 by done. rewrite IH. f_equal; [f_equal; lia|]. f_equal. lia. }
  rewrite (Hgen 0). f_equal. lia.
Qed.
Lemma ns_total n : total (repeat 1%Z n) = Z.of_nat n.
Proof. induction n as [|n IH]; [done|]. cbn [repeat total fold_right]. fold (total (repeat 1%Z n)). lia. Qed.
Lemma ns_ban_cleared decay o hist a t s n :
  (reads decay s (repeat 1%Z n) <= s - N.of_nat n)%N ->
  ledger_of decay (touches o (ma_first a) hist) = Some (t, s) ->
  exists t' s', ledger_of decay (touches o (ma_first a) (hist ++ ns_queries t a n)) = Some (t', s') /\
    (s' <= s - N.of_nat n)%N.
Proof.
  intros Hr Hl. rewrite touches_app, ns_queries_touches.
  unfold ledger_of in *. rewrite fold_left_app, Hl. rewrite looks_reads.
  - eauto.
  - apply Forall_forall. intros x Hx. apply elem_of_list_In, repeat_spec in Hx. subst x. unfold in_dur, max_i64. lia.
Qed.
Theorem C11_queries_clear_a_ban_refuted : forall H o hist a t s n,
  (0 < H)%Z -> ledger_of (decay_real H) (touches o (ma_first a) hist) = Some (t, s) ->
  exists t' s', ledger_of (decay_real H) (touches o (ma_first a) (hist ++ ns_queries t a n)) = Some (t', s') /\
    (s' <= s - N.of_nat n)%N.
Proof.
  intros H o hist a t s n HH Hl. apply ns_ban_cleared; [|done].
  pose proof (reads_lose H (repeat 1%Z n) HH) as Hx. rewrite repeat_length in Hx. apply Hx.
  apply Forall_forall. intros x Hin. apply elem_of_list_In, repeat_spec in Hin. lia.
Qed.
Print Assumptions C11_queries_clear_a_ban_refuted.
Theorem C11_queries_clear_a_ban_float_refuted : forall gexp o hist a t s n,
  (0 <= gexp 1%Z <= 1 - bpow radix2 (-52))%R -> (s < 2 ^ 52)%N ->
  ledger_of (decay_float gexp) (touches o (ma_first a) hist) = Some (t, s) ->
  exists t' s', ledger_of (decay_float gexp) (touches o (ma_first a) (hist ++ ns_queries t a n)) = Some (t', s') /\
    (s' <= s - N.of_nat n)%N.
Proof.
  intros gexp o hist a t s n Hg Hs Hl. apply ns_ban_cleared; [|done].
  pose proof (reads_lose_float gexp (repeat 1%Z n)) as Hx. rewrite repeat_length in Hx. apply Hx; [|done].
  apply Forall_forall. intros x Hin. apply elem_of_list_In, repeat_spec in Hin. subst x. lra.
Qed.
Print Assumptions C11_queries_clear_a_ban_float_refuted.
(** With the default half-life the factor for one nanosecond is small enough (exactly: 1 - 3.85e-13). *)
Example C11_float_nonvacuous : (0 <= factor (30 * minute) 1 <= 1 - bpow radix2 (-52))%R.
Proof.
  split; [left; apply factor_pos|]. unfold factor.
  assert (Hm : (IZR (30 * minute) = 1800000000000)%R) by (unfold minute, second; apply f_equal; reflexivity).
  set (x := (ln 2 / IZR (30 * minute))%R). replace (-1 * x * IZR 1)%R with (- x)%R by (simpl; lra).
  assert (Hln : (/ 2 <= ln 2)%R).
  { rewrite <- (ln_exp (/ 2)). assert (Hle : (exp (/ 2) <= 2)%R).
    { assert (Hsq : (exp (/2) * exp (/2) <= 2 * 2)%R).
      { rewrite <- exp_plus. replace (/2 + /2)%R with 1%R by lra. pose proof exp_le_3. lra. }
      pose proof (exp_pos (/2)). nra. }
    destruct (Rle_lt_or_eq_dec _ _ Hle) as [Hlt|Heq]; [|rewrite Heq; lra].
    left. apply ln_increasing; [apply exp_pos|done]. }
  assert (Hx : (/ 3600000000000 <= x)%R) by (unfold x; rewrite Hm; lra).
  assert (Hx1 : (x <= 1)%R).
  { assert (Hln1 : (ln 2 < 1)%R).
    { rewrite <- (ln_exp 1). apply ln_increasing; [lra|]. pose proof (exp_ineq1 1). lra. }
    unfold x; rewrite Hm; lra. }
  (* exp(-x) = 1/exp x <= 1/(1+x) <= 1 - x/2 *)
  rewrite exp_Ropp. pose proof (exp_ineq1_le x).
  assert (Hinv : (/ exp x <= / (1 + x))%R) by (apply Rinv_le; lra).
  assert (Hfin : (/ (1 + x) <= 1 - x / 2)%R).
  { apply (Rmult_le_reg_l (1 + x)); [lra|]. rewrite Rinv_r by lra. nra. }
  assert (Hb : (bpow radix2 (-52) <= / 7200000000000)%R).
  { simpl. apply Rinv_le; [lra|]. apply IZR_le. lia. }
  lra.
Qed.
(** What remains true about reads: n reads lose less than n points compared with the undisturbed
    real value, and never gain.  Missing for C11: independence from reads. *)
Theorem C11_reads_lose_at_most_one_each_partial : forall H s (dts : list Z),
  (0 < H)%Z -> Forall (fun d => (0 <= d)%Z) dts ->
  (IZR (Z.of_N s) * exp (-1 * (ln 2 / IZR H) * IZR (total dts)) - INR (length dts)
   <= IZR (Z.of_N (reads (decay_real H) s dts))
   <= IZR (Z.of_N s) * exp (-1 * (ln 2 / IZR H) * IZR (total dts)))%R.
Proof. intros H s dts HH Hall. exact (reads_bounds H dts HH Hall s). Qed.
Print Assumptions C11_reads_lose_at_most_one_each_partial.

(** C12.  Every error value, however deeply wrapped, gets the score configured for its kind. *)
Theorem C12_score_by_kind : forall o e,
  eh_score o e = match root e with
                 | Some s => default (o_unknown o) (configured o s)
                 | None => o_unknown o
                 end.
Proof. exact eh_score_expected. Qed.
Print Assumptions C12_score_by_kind.
Theorem C12_wrapping_keeps_the_score : forall o e, eh_score o (EWrap e) = eh_score o e.
Proof. intros o e. rewrite !eh_score_expected. reflexivity. Qed.
Print Assumptions C12_wrapping_keeps_the_score.
(** With the default options one error disconnects a fresh host iff it is of a fatal kind. *)
Theorem C12_defaults_ban_exactly_fatal_kinds : forall decay now id a e,
  snd (eh_step decay eh_defaults ∅ (EvError now id (Some a) e)) = OutDisconnect (Some id) <->
  (exists s, root e = Some s /\
     (s = ErrChainIDMismatch \/ s = ErrChainNotConnected \/ s = ErrCheckpointMismatch \/
      s = ErrProtocolMismatch \/ s = ErrForkBomb)).
Proof.
  intros decay now id a e. simpl. rewrite lookup_empty, eh_score_expected. simpl. unfold expected_score.
  destruct (root e) as [s|].
  - destruct s; simpl; split; intros H;
      try (injection H; discriminate); try discriminate H; try reflexivity;
      try (eexists; split; [reflexivity|tauto]);
      destruct H as (s & [= <-] & H); repeat (destruct H as [H|H]; try discriminate H); discriminate H.
  - simpl. split; [discriminate|]. intros (s & H & _). discriminate H.
Qed.
Print Assumptions C12_defaults_ban_exactly_fatal_kinds.
(** Local faults and invalid nonces add nothing, at any score. *)
Theorem C12_local_faults_cost_nothing : forall e,
  (exists s, root e = Some s /\ (s = ErrLocalRPC \/ s = ErrLocalRPCTimeout \/ s = ErrSerialization \/
     s = ErrProcessRequestTimeout \/ s = ErrInvalidNonce)) ->
  eh_score eh_defaults e = 0%N.
Proof.
  intros e (s & Hr & Hs). rewrite eh_score_expected. unfold expected_score. rewrite Hr.
  destruct Hs as [->|[->|[->|[->| ->]]]]; reflexivity.
Qed.
Print Assumptions C12_local_faults_cost_nothing.
Example C12_nonvacuous : root (EWrap (EWrap (ESent ErrForkBomb))) = Some ErrForkBomb /\
  eh_score eh_defaults (EWrap (EWrap (ESent ErrForkBomb))) = 200000%N /\
  eh_score eh_defaults (EOther "boom") = 5000%N.
Proof. repeat split. Qed.

(** C13, full statement: an error never lowers the score it is added to. *)
Definition C13_statement : Prop := forall (s x : N), (s < two64)%N -> (x < two64)%N -> (s <= add64 s x)%N.
Theorem C13_score_wraps_refuted : ~ C13_statement /\
  forall decay o now id a e,
  (* an option value of 2^63, two errors at the same instant, a decay that changes nothing in no time *)
  decay (2 ^ 63)%N 0%Z = (2 ^ 63)%N -> (o_threshold o = 100000)%N -> expected_score o e = (2 ^ 63)%N ->
  snd (eh_run decay o ∅ [EvError now id (Some a) e; EvError now id (Some a) e]) =
    [OutDisconnect (Some id); OutDisconnect None] /\
  fst (eh_run decay o ∅ [EvError now id (Some a) e; EvError now id (Some a) e]) !! ma_first a =
    Some (EhRec now 0).
Proof.
  split.
  - intros H. specialize (H (2 ^ 63) (2 ^ 63))%N. vm_compute in H. apply H; reflexivity.
  - intros decay o now id a e Hd Ho He. simpl. unfold eh_error. rewrite lookup_empty.
    cbn [er_score]. rewrite lookup_insert. cbn [eh_decay er_score er_last]. rewrite eh_score_expected, He.
    assert (Ht : time_sub now now = 0%Z) by (unfold time_sub, min_i64, max_i64; lia). rewrite Ht, Hd, Ho.
    split; [reflexivity|]. cbn [fst]. rewrite lookup_insert. reflexivity.
Qed.
Print Assumptions C13_score_wraps_refuted.
Theorem C13_no_wrap_partial : forall s x, (s + x < two64)%N -> (s <= add64 s x)%N /\ add64 s x = (s + x)%N.
Proof. intros s x H. unfold add64. rewrite N.mod_small by done. lia. Qed.
Print Assumptions C13_no_wrap_partial.
(** Histories: as long as (number of touches of the host) x (largest score) is at most 2^53, with
    float64 decay, no addition wraps.  Missing for C13: larger options and histories. *)
Theorem C13_histories_do_not_wrap_partial : forall gexp (m : N) (ts : list touch) now x t s,
  (forall dt, (0 <= dt)%Z -> (0 <= gexp dt <= 1)%R) ->
  (forall i j y z, i <= j -> (ts ++ [THit now x]) !! i = Some y -> (ts ++ [THit now x]) !! j = Some z ->
     (touch_time y <= touch_time z)%Z) ->
  (forall u y, THit u y ∈ ts ++ [THit now x] -> (y <= m)%N) ->
  (N.of_nat (length (ts ++ [THit now x])) * m <= 2 ^ 53)%N ->
  look (decay_float gexp) now (ledger_of (decay_float gexp) ts) = Some (t, s) ->
  (s <= ledger_score (ledger_of (decay_float gexp) (ts ++ [THit now x])))%N.
Proof.
  intros gexp m ts now x t s Hexp Hmono Hm Hb Hl.
  assert (Hd : nonincreasing_upto (decay_float gexp) (2 ^ 53)).
  { intros y dt Hy Hdt. apply decay_float_le; auto. }
  assert (H64 : (2 ^ 53 < two64)%N) by (unfold two64; apply N.pow_lt_mono_r; lia).
  assert (Hl1 : (ledger_score (ledger_of (decay_float gexp) (ts ++ [TLook now])) <= N.of_nat (length (ts ++ [TLook now])) * m)%N).
  { assert (Hlk : forall i y, (ts ++ [TLook now]) !! i = Some y -> exists z, (ts ++ [THit now x]) !! i = Some z /\ touch_time z = touch_time y).
    { intros i y Hi. apply lookup_app_Some in Hi as [Hi|[Hge Hi]].
      - exists y. split; [apply lookup_app_l_Some; done|done].
      - apply list_lookup_singleton_Some in Hi as [Hi <-]. exists (THit now x).
        split; [|done]. rewrite lookup_app_r by done. rewrite Hi. done. }
    apply (ledger_bound (decay_float gexp) (2 ^ 53) m _ Hd); auto.
    - intros i j y z Hij Hi Hj. destruct (Hlk i y Hi) as (y' & Hi' & <-). destruct (Hlk j z Hj) as (z' & Hj' & <-).
      eapply Hmono; eauto.
    - intros u y Hy. apply (Hm u). apply elem_of_app in Hy as [Hy|Hy]; [set_solver|].
      apply elem_of_list_singleton in Hy. done.
    - rewrite app_length in *. simpl in *. done. }
  unfold ledger_of in *. rewrite fold_left_app in Hl1 |- *. cbn [fold_left touch1] in *.
  rewrite Hl in Hl1. unfold hit. rewrite Hl. simpl in *.
  assert (Hx : (x <= m)%N) by (apply (Hm now); set_solver).
  (* s is bounded by the number of earlier touches times m *)
  assert (Hs : (s <= N.of_nat (length ts) * m)%N).
  { assert (Hb2 : (ledger_score (ledger_of (decay_float gexp) ts) <= N.of_nat (length ts) * m)%N /\
      (forall t s x, ledger_of (decay_float gexp) ts = Some (t, s) -> last ts = Some x -> t = touch_time x)).
    { apply (ledger_bound (decay_float gexp) (2 ^ 53) m ts Hd); auto.
      - intros i j y z Hij Hi Hj. apply (Hmono i j); auto; apply lookup_app_l_Some; done.
      - intros u y Hy. apply (Hm u). set_solver.
      - rewrite app_length in Hb. simpl in Hb. lia. }
    destruct Hb2 as [Hb1 Hb2]. unfold ledger_of in *. unfold look in Hl.
    destruct (fold_left (touch1 (decay_float gexp)) ts None) as [[t0 s0]|] eqn:Hf; [|done].
    injection Hl as <- <-. simpl in Hb1. transitivity s0; [|done].
    apply Hd.
    - rewrite app_length in Hb. simpl in Hb. lia.
    - destruct (last ts) as [y|] eqn:Hlast.
      + specialize (Hb2 t0 s0 y eq_refl eq_refl). subst t0. rewrite last_lookup in Hlast.
        assert (Hle : (touch_time y <= touch_time (THit now x))%Z).
        { apply (Hmono (Nat.pred (length ts)) (length ts)); [lia| |].
          - apply lookup_app_l_Some. done.
          - apply list_lookup_middle. done. }
        simpl in Hle. unfold time_sub, min_i64, max_i64. lia.
      + apply last_None in Hlast. subst ts. done. }
  assert (Hmul : (N.of_nat (length (ts ++ [THit now x])) * m = N.of_nat (length ts) * m + m)%N).
  { rewrite app_length. simpl. lia. }
  rewrite Hmul in Hb. unfold add64. rewrite N.mod_small; lia.
Qed.
Print Assumptions C13_histories_do_not_wrap_partial.
