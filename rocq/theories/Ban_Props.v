(** C122: how long a ban lasts. *)
From Coq Require Import Reals Lra.
From Verif Require Import GoBase Util ErrHandler_Model ErrHandler_Spec ErrHandler_Proofs ErrHandler_Props ErrDecay_Model ErrDecay_Proofs EhSys_Model EhSys_Spec EhSys_Proofs EhSys_Props
  ConnMgr_Model ConnMgr_Spec Asm_Model Asm_Spec Asm_Proofs Cutoff_Model Cutoff_Spec Cutoff_Proofs Cutoff_Props Rate_Spec Rate_Proofs Rate_Props Ban_Proofs.
Local Open Scope R_scope.

Lemma gate_answer_at decay o s h1 now a h2 : es_reach decay o s -> served_events s = h1 ++ EvCanConnect now a :: h2 ->
  served_answers s !! length h1 = Some (OutCan (match ledger_of decay (touches o (ma_first a) h1 ++ [TLook now]) with Some (_, x) => bool_decide (x < o_reconnect o)%N | None => true end)).
Proof.
  intros Hr E. rewrite (served_answer decay o s _ _ _ Hr E). cbn [event_host ErrHandler_Proofs.answer]. rewrite ledger_app. cbn [fold_left touch1].
  destruct (ledger_of decay (touches o (ma_first a) h1)) as [[u x]|]; done.
Qed.

(** C122, the ban.  An error of a peer brings its host to the threshold (the handler asks for the disconnection).  A connection from the
    host that the gate is asked about at most D later is refused, if the threshold has not decayed below the reconnect threshold in the
    time D and a point less for each of the at most k requests about the host since then (the gate call itself included). *)
Theorem C122_refused : forall H D o s before t id a e between now a' after (k : nat), (0 < H)%Z -> es_reach (decay_real H) o s ->
  served_events s = before ++ EvError t id (Some a) e :: between ++ EvCanConnect now a' :: after ->
  served_answers s !! length before = Some (OutDisconnect (Some id)) -> ma_first a' = ma_first a ->
  in_order 0 (history o s (ma_first a)) -> (total_charge (history o s (ma_first a)) < two64)%N ->
  (now <= t + D)%Z -> (length (touches o (ma_first a) between) < k)%nat ->
  NR (o_reconnect o) <= NR (o_threshold o) * left H D - INR k ->
  served_answers s !! (length before + S (length between))%nat = Some (OutCan false).
Proof.
  intros H D o s before t id a e between now a' after k HH Hr E Hban Hh Ho Ht Hnow Hk Hthr. rewrite left_factor in Hthr by done.
  assert (E' : served_events s = (before ++ EvError t id (Some a) e :: between) ++ EvCanConnect now a' :: after) by (rewrite E; by rewrite <- app_assoc).
  pose proof (gate_answer_at _ _ _ _ _ _ _ Hr E') as Hans. rewrite app_length in Hans. cbn [length] in Hans. rewrite Hans. clear Hans. do 2 f_equal. rewrite Hh.
  unfold history in Ho, Ht. rewrite E, touches_app, touches_cons, touches_app, touches_cons in Ho, Ht. rewrite touches_app, touches_cons. cbn [touch_of] in *.
  rewrite (bool_decide_true (ma_first a = ma_first a)) in * by done. rewrite (bool_decide_true (ma_first a' = ma_first a)) in Ho, Ht by done.
  destruct (error_score _ _ s (length before) t id a e Hr) as (later & _ & Hsc); [rewrite E; by apply list_lookup_middle|]. rewrite E, take_app in Hsc.
  rewrite Hban in Hsc. injection Hsc as Hsc. set (pre := touches o (ma_first a) before) in *. set (bt := touches o (ma_first a) between) in *. set (x := expected_score o e) in *. set (aft := touches o (ma_first a) after) in *.
  assert (Hge : (o_threshold o <= ledger_score (ledger_of (decay_real H) (pre ++ [THit t x])))%N). { case_bool_decide; [done|discriminate Hsc]. }
  destruct (after_hit (decay_real H) pre t x) as [sc Hsc2]. rewrite Hsc2 in Hge. cbn [ledger_score] in Hge.
  change (pre ++ THit t x :: bt ++ TLook now :: aft) with (pre ++ THit t x :: bt ++ [TLook now] ++ aft) in Ho, Ht. rewrite (app_assoc bt) in Ho, Ht.
  assert (Ho1 : in_order 0 (pre ++ THit t x :: (bt ++ [TLook now]))) by (apply (in_order_app _ _ aft); rewrite <- app_assoc; exact Ho).
  assert (Ht1 : (total_charge (pre ++ [THit t x]) + total_charge (bt ++ [TLook now]) < two64)%N).
  { change (THit t x :: (bt ++ [TLook now]) ++ aft) with ([THit t x] ++ (bt ++ [TLook now]) ++ aft) in Ht. rewrite app_assoc, total_app, (total_app (bt ++ [TLook now])) in Ht. lia. }
  assert (Hsct : (sc <= total_charge (pre ++ [THit t x]))%N).
  { pose proof (at_most_charged H HH (pre ++ [THit t x])) as X. rewrite Hsc2 in X. apply X; [|lia]. apply (in_order_app _ _ (bt ++ [TLook now])). rewrite <- app_assoc. exact Ho1. }
  destruct (lower_fold H HH (bt ++ [TLook now]) t sc) as (u & s' & Ef & Eu & Hu & Hs').
  { exact (in_order_nonneg 0 pre (THit t x) _ ltac:(lia) Ho1). } { exact (in_order_mid _ _ _ _ Ho1). } { lia. }
  replace ((pre ++ THit t x :: bt) ++ [TLook now]) with ((pre ++ [THit t x]) ++ (bt ++ [TLook now])) by (by rewrite <- !app_assoc).
  rewrite ledger_app, Hsc2, Ef. apply bool_decide_false. rewrite last_snoc in Eu. cbn [time_of] in Eu. subst u.
  rewrite app_length, plus_INR in Hs'. cbn [length INR] in Hs'. apply lt_INR in Hk as Hk'. apply le_INR in Hk. rewrite S_INR in Hk.
  pose proof (factor_mono H (now - t) D HH ltac:(lia)). pose proof (NR_le _ _ Hge). pose proof (IZR_N_nonneg (o_threshold o)). pose proof (factor_pos H D).
  assert (NR (o_reconnect o) <= NR s') as HX by nra. apply le_IZR in HX. lia.
Qed.
Print Assumptions C122_refused.

(** C122, its end.  After the last error of a host, at time t with the score at most v, its next connections are let in by D later, if
    what is left of v is below the reconnect threshold, whatever was asked in between. *)
Theorem C122_let_in : forall H D o s before t id a e between now a' after (v : N), (0 < H)%Z -> es_reach (decay_real H) o s ->
  served_events s = before ++ EvError t id (Some a) e :: between ++ EvCanConnect now a' :: after -> ma_first a' = ma_first a ->
  in_order 0 (history o s (ma_first a)) -> (forall u q b e', EvError u q (Some b) e' ∈ between -> ma_first b <> ma_first a) ->
  (ledger_score (ledger_of (decay_real H) (touches o (ma_first a) (before ++ [EvError t id (Some a) e]))) <= v)%N ->
  (t + D <= now)%Z -> NR v * left H D < NR (o_reconnect o) ->
  served_answers s !! (length before + S (length between))%nat = Some (OutCan true).
Proof.
  intros H D o s before t id a e between now a' after v HH Hr E Hh Ho Hno Hv Hnow Hthr. rewrite left_factor in Hthr by done.
  assert (E' : served_events s = (before ++ EvError t id (Some a) e :: between) ++ EvCanConnect now a' :: after) by (rewrite E; by rewrite <- app_assoc).
  pose proof (gate_answer_at _ _ _ _ _ _ _ Hr E') as Hans. rewrite app_length in Hans. cbn [length] in Hans. rewrite Hans. clear Hans. do 2 f_equal. rewrite Hh.
  unfold history in Ho. rewrite E, touches_app, touches_cons, touches_app, touches_cons in Ho. rewrite touches_app, touches_cons. rewrite touches_app, touches_cons in Hv. cbn [touch_of touches omap list_omap] in *.
  rewrite (bool_decide_true (ma_first a = ma_first a)) in * by done. rewrite (bool_decide_true (ma_first a' = ma_first a)) in Ho by done.
  assert (Hl : Forall is_look (touches o (ma_first a) between)).
  { apply Forall_forall. intros y Hy. unfold touches in Hy. apply elem_of_list_omap in Hy as (ev & Hin & Hev). destruct ev as [u q [b|] e'|u b|u b]; cbn [touch_of] in Hev; try case_bool_decide; try discriminate Hev; injection Hev as <-; try done.
    by destruct (Hno _ _ _ _ Hin). }
  set (pre := touches o (ma_first a) before) in *. set (bt := touches o (ma_first a) between) in *. set (x := expected_score o e) in *. set (aft := touches o (ma_first a) after) in *.
  change (touches o (ma_first a) []) with (@nil touch) in Hv.
  destruct (after_hit (decay_real H) pre t x) as [sc Hsc2]. rewrite Hsc2 in Hv. cbn [ledger_score] in Hv.
  change (pre ++ THit t x :: bt ++ TLook now :: aft) with (pre ++ THit t x :: bt ++ [TLook now] ++ aft) in Ho. rewrite (app_assoc bt) in Ho.
  assert (Ho1 : in_order 0 (pre ++ THit t x :: (bt ++ [TLook now]))) by (apply (in_order_app _ _ aft); rewrite <- app_assoc; exact Ho).
  destruct (upper_fold H HH (bt ++ [TLook now]) t sc) as (u & s' & Ef & Eu & Hu & Hs').
  { exact (in_order_nonneg 0 pre (THit t x) _ ltac:(lia) Ho1). } { exact (in_order_mid _ _ _ _ Ho1). } { apply Forall_app. split; [done|]. by repeat constructor. }
  replace ((pre ++ THit t x :: bt) ++ [TLook now]) with ((pre ++ [THit t x]) ++ (bt ++ [TLook now])) by (by rewrite <- !app_assoc).
  rewrite ledger_app, Hsc2, Ef. apply bool_decide_true. rewrite last_snoc in Eu. cbn [time_of] in Eu. subst u.
  pose proof (factor_mono H D (now - t) HH ltac:(lia)). pose proof (NR_le _ _ Hv). pose proof (IZR_N_nonneg sc). pose proof (factor_pos H D). pose proof (factor_pos H (now - t)).
  assert (NR s' < NR (o_reconnect o)) as HX by nra. apply lt_IZR in HX. lia.
Qed.
Print Assumptions C122_let_in.

(** With the default options: from the ban on a host is refused for 29 minutes as long as there are at most a thousand requests about
    it; a host whose score was at most 200000 (one fatal error) at its last error is let in from 61 minutes after it. *)
Theorem C122_defaults : forall s before t id a e between now a' after, es_reach (decay_real (o_halflife eh_defaults)) eh_defaults s ->
  served_events s = before ++ EvError t id (Some a) e :: between ++ EvCanConnect now a' :: after -> ma_first a' = ma_first a ->
  in_order 0 (history eh_defaults s (ma_first a)) ->
  (served_answers s !! length before = Some (OutDisconnect (Some id)) -> (total_charge (history eh_defaults s (ma_first a)) < two64)%N ->
   (now <= t + 29 * minute)%Z -> (length (touches eh_defaults (ma_first a) between) < 1000)%nat ->
   served_answers s !! (length before + S (length between))%nat = Some (OutCan false)) /\
  ((forall u q b e', EvError u q (Some b) e' ∈ between -> ma_first b <> ma_first a) ->
   (ledger_score (ledger_of (decay_real (o_halflife eh_defaults)) (touches eh_defaults (ma_first a) (before ++ [EvError t id (Some a) e]))) <= 200000)%N ->
   (t + 61 * minute <= now)%Z -> served_answers s !! (length before + S (length between))%nat = Some (OutCan true)).
Proof.
  intros s before t id a e between now a' after Hr E Hh Ho. assert (HH : (0 < o_halflife eh_defaults)%Z) by (vm_compute; done). split.
  - intros Hban Ht Hnow Hk. eapply (C122_refused (o_halflife eh_defaults) (29 * minute) eh_defaults s before t id a e between now a' after 1000); try eassumption.
    rewrite left_factor by done. set (q := factor (o_halflife eh_defaults) (29 * minute)).
    assert (Hq : q ^ 30 = / 2 ^ 29). { unfold q. rewrite factor_pow. change (Z.of_nat 30 * (29 * minute))%Z with (Z.of_nat 29 * o_halflife eh_defaults)%Z. by rewrite factor_halflives. }
    assert (Hqp : 0 < q) by apply factor_pos. assert (Hq2 : 511 / 1000 <= q) by (apply (root_bound _ _ 30); [lra| |lra|done]; rewrite Hq; cbn; lra).
    replace (INR 1000) with 1000 by (rewrite INR_IZR_INZ; f_equal). change (NR (o_threshold eh_defaults)) with 100000. change (NR (o_reconnect eh_defaults)) with 50000. lra.
  - intros Hno Hv Hnow. eapply (C122_let_in (o_halflife eh_defaults) (61 * minute) eh_defaults s before t id a e between now a' after 200000); try eassumption.
    rewrite left_factor by done. set (q := factor (o_halflife eh_defaults) (61 * minute)).
    assert (Hq : q ^ 30 = / 2 ^ 61). { unfold q. rewrite factor_pow. change (Z.of_nat 30 * (61 * minute))%Z with (Z.of_nat 61 * o_halflife eh_defaults)%Z. by rewrite factor_halflives. }
    assert (Hqp : 0 < q) by apply factor_pos. assert (Hq2 : q <= 245 / 1000) by (apply (root_bound _ _ 30); [lra| |lra|done]; rewrite Hq; cbn; lra).
    change (NR 200000) with 200000. change (NR (o_reconnect eh_defaults)) with 50000. lra.
Qed.
Print Assumptions C122_defaults.

(** C122 in the network of C94.  From the ban on, and for D as long as at most k requests are made about the host, no connection
    from the host is opened whose gate call began after the ban, by any of its peers. *)
Theorem C122_no_connection : forall H D o initial s1 lab s2 sched s3 i q a' t p a e (k : nat), (0 < H)%Z -> nt_reach (decay_real H) o initial s1 ->
  bans (decay_real H) o s1 lab s2 p -> served_events (nt_eh s2) = served_events (nt_eh s1) ++ [EvError t p (Some a) e] -> nt_run (decay_real H) o s2 sched = Some s3 ->
  in_order 0 (history o (nt_eh s3) (ma_first a)) -> (total_charge (history o (nt_eh s3) (ma_first a)) < two64)%N ->
  let since := drop (length (history o (nt_eh s2) (ma_first a))) (history o (nt_eh s3) (ma_first a)) in
  Forall (fun x => (time_of x <= t + D)%Z) since -> (length since <= k)%nat -> NR (o_reconnect o) <= NR (o_threshold o) * left H D - INR k ->
  (length (es_calls (nt_eh s2)) <= i)%nat -> ma_first a' = ma_first a -> nt_step (decay_real H) o s3 (NOpen i q a') = None.
Proof.
  intros H D o initial s1 lab s2 sched s3 i q a' t p a e k HH Hre Hban Hev Hr Ho Ht since Htm Hk Hthr Hi Hh.
  destruct (nt_step (decay_real H) o s3 (NOpen i q a')) as [s4|] eqn:Hop; [exfalso|done].
  assert (Hre2 : nt_reach (decay_real H) o initial s2) by (eapply nt_reach_step; [exact Hre|apply Hban]). assert (Hre3 : nt_reach (decay_real H) o initial s3) by by eapply nt_reach_run.
  destruct (C96_gate_after_ban_partial (decay_real H) o initial s2 sched s3 i q a' s4 t p a e Hre2) as (hist & now & rest & E & [between Hpre] & Hsc);
    [rewrite Hev; apply elem_of_app; right; left|exact Hr|exact Hi|exact Hop|exact Hh|].
  destruct (proj_reach _ _ _ _ _ (as_reach_nt _ _ _ _ Hre3)) as [_ He3]. fold (nt_eh s3) in He3.
  destruct (proj_reach _ _ _ _ _ (as_reach_nt _ _ _ _ Hre)) as [_ He1]. fold (nt_eh s1) in He1.
  assert (Es : since = touches o (ma_first a) (between ++ EvCanConnect now a' :: rest)).
  { unfold since, history. rewrite E, Hpre, <- app_assoc, touches_app. by rewrite drop_app. }
  rewrite touches_app, touches_cons in Es. cbn [touch_of] in Es. rewrite (bool_decide_true (ma_first a' = ma_first a)) in Es by done.
  assert (Hlen : (length (touches o (ma_first a) between) < k)%nat). { rewrite Es, app_length in Hk. cbn [length] in Hk. lia. }
  assert (Hnow : (now <= t + D)%Z). { rewrite Es in Htm. apply Forall_app in Htm as [_ Htm]. apply Forall_cons in Htm as [Htm _]. exact Htm. }
  assert (E2 : served_events (nt_eh s3) = served_events (nt_eh s1) ++ EvError t p (Some a) e :: between ++ EvCanConnect now a' :: rest).
  { rewrite E, Hpre, Hev. by rewrite <- !app_assoc. }
  assert (Hb : served_answers (nt_eh s3) !! length (served_events (nt_eh s1)) = Some (OutDisconnect (Some p))).
  { destruct (nt_log_run _ _ _ _ _ Hr) as [tl Htl]. assert (Hans : served_answers (nt_eh s3) = served_answers (nt_eh s2) ++ map snd (rev tl)) by (unfold served_answers; by rewrite Htl, rev_app_distr, map_app).
    rewrite Hans, (proj2 Hban), <- app_assoc. replace (length (served_events (nt_eh s1))) with (length (served_answers (nt_eh s1))) by (unfold served_events, served_answers; by rewrite !map_length). by apply list_lookup_middle. }
  pose proof (C122_refused H D o (nt_eh s3) _ _ _ _ _ _ _ _ _ k HH He3 E2 Hb Hh Ho Ht Hnow Hlen Hthr) as Hf.
  assert (E' : served_events (nt_eh s3) = (served_events (nt_eh s1) ++ EvError t p (Some a) e :: between) ++ EvCanConnect now a' :: rest) by (rewrite E2; by rewrite <- app_assoc).
  pose proof (gate_answer_at _ _ _ _ _ _ _ He3 E') as Hans. rewrite app_length in Hans. cbn [length] in Hans. rewrite Hf in Hans. injection Hans as Hans.
  rewrite ledger_app in Hans. cbn [fold_left touch1] in Hans. unfold host_score in Hsc. rewrite Hpre, Hev, <- app_assoc in Hsc. cbn [app] in Hsc.
  destruct (look (decay_real H) now _) as [[u x]|]; cbn [ledger_score] in Hsc; [by rewrite bool_decide_true in Hans|discriminate Hans].
Qed.
Print Assumptions C122_no_connection.

(** A peer makes a fatal error at 0; its host asks 29 minutes later and 61 minutes later. *)
Definition banned_asks : list elabel := [XSetProvider; XStart; XReport "p" (ESent ErrChainIDMismatch); XTakeReport 0; XErrAddress 0 (Some host1);
  XCall (KCanAddr host1b); XSend 0; XServeCan (29 * minute); XReceive 0; XCall (KCanAddr host1b); XSend 1; XServeCan (61 * minute); XReceive 1].
Lemma banned_asks_run decay : exists s, es_reach decay eh_defaults s /\
  served_events s = [EvError 0 "p" (Some host1) (ESent ErrChainIDMismatch); EvCanConnect (29 * minute) host1b; EvCanConnect (61 * minute) host1b] /\
  served_answers s !! 0%nat = Some (OutDisconnect (Some "p")).
Proof.
  assert (E : (fun s => (served_events s, served_answers s !! 0%nat)) <$> es_run decay eh_defaults es_init banned_asks =
    Some ([EvError 0 "p" (Some host1) (ESent ErrChainIDMismatch); EvCanConnect (29 * minute) host1b; EvCanConnect (61 * minute) host1b], Some (OutDisconnect (Some "p")))) by (vm_compute; reflexivity).
  destruct (es_run decay eh_defaults es_init banned_asks) as [s|] eqn:Hs; [|discriminate E]. cbn [fmap option_fmap option_map] in E. injection E as E1 E2. exists s. split; [by exists banned_asks|]. by split.
Qed.
Example C122_nonvacuous : exists s, es_reach (decay_real (o_halflife eh_defaults)) eh_defaults s /\
  served_events s = [EvError 0 "p" (Some host1) (ESent ErrChainIDMismatch); EvCanConnect (29 * minute) host1b; EvCanConnect (61 * minute) host1b] /\
  served_answers s = [OutDisconnect (Some "p"); OutCan false; OutCan true].
Proof.
  destruct (banned_asks_run (decay_real (o_halflife eh_defaults))) as (s & Hr & Es & H0). exists s. split; [exact Hr|]. split; [exact Es|].
  assert (Eh : history eh_defaults s (ma_first host1) = [THit 0 200000; TLook (29 * minute); TLook (61 * minute)]) by (unfold history; rewrite Es; reflexivity).
  assert (Ho : in_order 0 (history eh_defaults s (ma_first host1))) by (rewrite Eh; vm_compute; intuition discriminate).
  assert (Ht : (total_charge (history eh_defaults s (ma_first host1)) < two64)%N) by (rewrite Eh; vm_compute; reflexivity).
  assert (H1 : served_answers s !! 1%nat = Some (OutCan false)).
  { apply (C122_defaults s [] 0 "p" host1 (ESent ErrChainIDMismatch) [] (29 * minute) host1b [EvCanConnect (61 * minute) host1b] Hr Es eq_refl Ho); [exact H0|exact Ht|vm_compute; discriminate|]. cbn. lia. }
  assert (H2 : served_answers s !! 2%nat = Some (OutCan true)).
  { apply (C122_defaults s [] 0 "p" host1 (ESent ErrChainIDMismatch) [EvCanConnect (29 * minute) host1b] (61 * minute) host1b [] Hr Es eq_refl Ho); [|vm_compute; discriminate|vm_compute; discriminate].
    intros u y b e' Hin. apply elem_of_list_singleton in Hin. discriminate Hin. }
  assert (Hl : length (served_answers s) = 3%nat) by (transitivity (length (served_events s)); [unfold served_answers, served_events; by rewrite !map_length|by rewrite Es]).
  destruct (served_answers s) as [|x0 [|x1 [|x2 [|? ?]]]]; try discriminate Hl. cbn in H0, H1, H2. injection H0 as ->. injection H1 as ->. injection H2 as ->. done.
Qed.
(** In the network: the peer is banned, its connection closed, and another peer of the host asks twenty minutes later. *)
Definition ban_before : list nlabel := nstart ++ nconnect 0 "p" host1 ++ nreport "p" 0.
Definition ban_after : list nlabel := ncut ++ [NAs (AEh (XCall (KCanAddr host1b))); NAs (AEh (XSend 1)); NAs (AEh (XServeCan (20 * minute))); NAs (AEh (XReceive 1))].
Example C122_net_nonvacuous : let H := o_halflife eh_defaults in
  exists s1 s2 s3, nt_reach (decay_real H) eh_defaults ["s"] s1 /\ bans (decay_real H) eh_defaults s1 (NAs (AErrAnswer 5)) s2 "p" /\
  served_events (nt_eh s2) = served_events (nt_eh s1) ++ [EvError 5 "p" (Some host1) (ESent ErrChainIDMismatch)] /\ nt_run (decay_real H) eh_defaults s2 ban_after = Some s3 /\
  in_order 0 (history eh_defaults (nt_eh s3) (ma_first host1)) /\ (total_charge (history eh_defaults (nt_eh s3) (ma_first host1)) < two64)%N /\
  drop (length (history eh_defaults (nt_eh s2) (ma_first host1))) (history eh_defaults (nt_eh s3) (ma_first host1)) = [TLook (20 * minute)] /\
  NR (o_reconnect eh_defaults) <= NR (o_threshold eh_defaults) * left H (20 * minute) - INR 1 /\ length (es_calls (nt_eh s2)) = 1%nat /\ length (es_calls (nt_eh s3)) = 2%nat /\
  nt_open s1 = [Conn "p" host1 0] /\ nt_open s3 = [] /\ nt_step (decay_real H) eh_defaults s3 (NOpen 1 "r" host1b) = None.
Proof.
  intros H. assert (HH : (0 < H)%Z) by (vm_compute; done). generalize (C122_no_connection H (20 * minute) eh_defaults ["s"]). generalize (decay_real H). intros decay Hno.
  assert (E1 : (fun s => (nt_open s, served_events (nt_eh s), served_answers (nt_eh s))) <$> nt_run decay eh_defaults (nt_init ["s"]) ban_before =
    Some ([Conn "p" host1 0], [EvCanConnect 0 host1], [OutCan true])) by (vm_compute; reflexivity).
  assert (E2 : (fun s => (served_events (nt_eh s), served_answers (nt_eh s), length (es_calls (nt_eh s)))) <$> nt_run decay eh_defaults (nt_init ["s"]) (ban_before ++ [NAs (AErrAnswer 5)]) =
    Some ([EvCanConnect 0 host1; EvError 5 "p" (Some host1) (ESent ErrChainIDMismatch)], [OutCan true; OutDisconnect (Some "p")], 1%nat)) by (vm_compute; reflexivity).
  assert (E3 : (fun s => (nt_open s, served_events (nt_eh s), length (es_calls (nt_eh s)))) <$> nt_run decay eh_defaults (nt_init ["s"]) ((ban_before ++ [NAs (AErrAnswer 5)]) ++ ban_after) =
    Some ([], [EvCanConnect 0 host1; EvError 5 "p" (Some host1) (ESent ErrChainIDMismatch); EvCanConnect (20 * minute) host1b], 2%nat)) by (vm_compute; reflexivity).
  rewrite nt_run_app in E3. rewrite nt_run_app in E2, E3. destruct (nt_run decay eh_defaults (nt_init ["s"]) ban_before) as [s1|] eqn:H1; [|discriminate E1].
  cbn [nt_run] in E2, E3. destruct (nt_step decay eh_defaults s1 (NAs (AErrAnswer 5))) as [s2|] eqn:H2; [|discriminate E2].
  destruct (nt_run decay eh_defaults s2 ban_after) as [s3|] eqn:H3; [|discriminate E3]. cbn [fmap option_fmap option_map] in E1, E2, E3. injection E1 as Eo Ev1 Ea1. injection E2 as Ev2 Ea2 Ec2. injection E3 as Eo3 Ev3 Ec3.
  assert (Hre : nt_reach decay eh_defaults ["s"] s1) by (by exists ban_before).
  assert (Hb : bans decay eh_defaults s1 (NAs (AErrAnswer 5)) s2 "p") by (split; [exact H2|by rewrite Ea1, Ea2]).
  assert (Hev : served_events (nt_eh s2) = served_events (nt_eh s1) ++ [EvError 5 "p" (Some host1) (ESent ErrChainIDMismatch)]) by (by rewrite Ev1, Ev2).
  assert (Eh3 : history eh_defaults (nt_eh s3) (ma_first host1) = [TLook 0; THit 5 200000; TLook (20 * minute)]) by (unfold history; rewrite Ev3; reflexivity).
  assert (Eh2 : history eh_defaults (nt_eh s2) (ma_first host1) = [TLook 0; THit 5 200000]) by (unfold history; rewrite Ev2; reflexivity).
  assert (Hthr : NR (o_reconnect eh_defaults) <= NR (o_threshold eh_defaults) * left H (20 * minute) - INR 1).
  { rewrite left_factor by exact HH. set (q := factor H (20 * minute)).
    assert (Hq : q ^ 3 = / 2 ^ 2). { unfold q. rewrite factor_pow. change (Z.of_nat 3 * (20 * minute))%Z with (Z.of_nat 2 * H)%Z. by rewrite factor_halflives. }
    assert (Hqp : 0 < q) by apply factor_pos. assert (Hq2 : 6 / 10 <= q) by (apply (root_bound _ _ 3); [lra| |lra|lia]; rewrite Hq; cbn; lra).
    change (INR 1) with 1. change (NR (o_threshold eh_defaults)) with 100000. change (NR (o_reconnect eh_defaults)) with 50000. lra. }
  exists s1, s2, s3. split; [exact Hre|]. split; [exact Hb|]. split; [exact Hev|]. split; [exact H3|].
  assert (Ho : in_order 0 (history eh_defaults (nt_eh s3) (ma_first host1))) by (rewrite Eh3; clear; vm_compute; intuition discriminate).
  assert (Ht : (total_charge (history eh_defaults (nt_eh s3) (ma_first host1)) < two64)%N) by (rewrite Eh3; clear; vm_compute; reflexivity).
  assert (Ed : drop (length (history eh_defaults (nt_eh s2) (ma_first host1))) (history eh_defaults (nt_eh s3) (ma_first host1)) = [TLook (20 * minute)]) by (rewrite Eh2, Eh3; reflexivity).
  split; [exact Ho|]. split; [exact Ht|]. split; [exact Ed|]. split; [exact Hthr|]. split; [exact Ec2|]. split; [exact Ec3|]. split; [exact Eo|]. split; [exact Eo3|].
  refine (Hno s1 _ s2 ban_after s3 1%nat "r" host1b 5%Z "p" host1 _ 1%nat HH Hre Hb Hev H3 Ho Ht _ _ Hthr _ eq_refl); [rewrite Ed; clear; repeat constructor; discriminate|rewrite Ed; clear; cbn; lia|rewrite Ec2; clear; lia].
Qed.

(** The number of requests matters: whatever the score of a host, n calls of the gate, a nanosecond after each other, take at least n
    points off it, so that the host is let in, microseconds after a ban if it asks often enough. *)
Lemma ask_more decay o a n : forall s t k, es_loop s = EServing -> es_canq s = [] -> es_panic s = false ->
  exists sched s', es_run decay o s sched = Some s' /\ served_events s' = served_events s ++ map (fun i => EvCanConnect (t + Z.of_nat i) a) (seq k n).
Proof.
  induction n as [|n IH]; intros s t k Hl Hc Hp; [exists [], s; cbn; by rewrite app_nil_r|].
  destruct s as [pr lo sc cq sq ca re di cn pa lg fo]. cbn in Hl, Hc, Hp. subst lo cq pa.
  destruct (eh_step decay o sc (EvCanConnect (t + Z.of_nat k) a)) as [st' out] eqn:Hst.
  destruct (IH (Ehs pr EServing st' [] sq (ca ++ [ECall (KCanAddr a) (PWait a) (Some out) false]) re di cn false ((Some (length ca), EvCanConnect (t + Z.of_nat k) a, out) :: lg) fo) t (S k)) as (sched & s' & Hs' & Es'); try done.
  exists (XCall (KCanAddr a) :: XSend (length ca) :: XServeCan (t + Z.of_nat k) :: sched), s'. split.
  - cbn [es_run es_step es_panic set_calls es_provider es_loop es_scores es_canq es_scoreq es_calls es_reports es_disc es_cancelled es_log es_found].
    rewrite list_lookup_middle by done. cbn [length app]. rewrite (proj2 (Nat.ltb_lt 0 queue_cap)) by (unfold queue_cap; lia). cbn [es_step es_panic es_loop es_canq es_scoreq].
    unfold serve. cbn [es_calls es_scores es_provider es_loop es_reports es_disc es_cancelled es_panic es_log es_found].
    rewrite insert_app_r_alt, Nat.sub_diag by lia. cbn [insert list_insert]. rewrite list_lookup_middle by done. rewrite Hst.
    rewrite insert_app_r_alt, Nat.sub_diag by lia. exact Hs'.
  - rewrite Es'. unfold served_events. cbn [es_log rev seq map]. rewrite map_app, <- app_assoc. done.
Qed.
Theorem C122_proviso_needed : forall H o s a t (sc : N) n, (0 < H)%Z -> es_reach (decay_real H) o s -> es_loop s = EServing -> es_canq s = [] -> es_panic s = false ->
  ledger_of (decay_real H) (touches o (ma_first a) (served_events s)) = Some (t, sc) -> (0 < o_reconnect o)%N -> (sc < o_reconnect o + N.of_nat n)%N -> (0 < n)%nat ->
  exists sched s', es_run (decay_real H) o s sched = Some s' /\ served_events s' = served_events s ++ ns_queries t a n /\ last (served_answers s') = Some (OutCan true).
Proof.
  intros H o s a t sc n HH [sched0 Hr] Hl Hc Hp Hled Hrc Hn Hpos. destruct (ask_more (decay_real H) o a n s t 1 Hl Hc Hp) as (sched & s' & Hs' & Es'). exists sched, s'.
  split; [exact Hs'|]. split; [exact Es'|].
  assert (Hre : es_reach (decay_real H) o s').
  { exists (sched0 ++ sched). clear -Hr Hs'. revert Hr. generalize es_init. induction sched0 as [|l sched0 IH]; intros x Hr; cbn [es_run app] in *; [by injection Hr as ->|]. destruct (es_step (decay_real H) o x l); [by apply IH|done]. }
  destruct (C11_queries_clear_a_ban_refuted H o (served_events s) a t sc n HH Hled) as (t' & sc' & Hq & Hle).
  destruct n as [|n]; [lia|]. assert (Eq : ns_queries t a (S n) = ns_queries t a n ++ [EvCanConnect (t + Z.of_nat (S n)) a]) by (unfold ns_queries; rewrite seq_S, map_app; done).
  assert (E : served_events s' = (served_events s ++ ns_queries t a n) ++ EvCanConnect (t + Z.of_nat (S n)) a :: []).
  { rewrite Es'. change (map (fun i => EvCanConnect (t + Z.of_nat i) a) (seq 1 (S n))) with (ns_queries t a (S n)). by rewrite Eq, app_assoc. }
  pose proof (gate_answer_at _ _ _ _ _ _ _ Hre E) as Hans.
  rewrite Eq, app_assoc, touches_app, touches_cons in Hq. cbn [touch_of] in Hq. rewrite bool_decide_true in Hq by done. change (touches o (ma_first a) []) with (@nil touch) in Hq. rewrite Hq in Hans.
  rewrite bool_decide_true in Hans by lia. rewrite last_lookup. replace (length (served_answers s')) with (length (served_events s')) by (unfold served_answers, served_events; by rewrite !map_length).
  rewrite E, app_length. cbn [length]. rewrite Nat.add_1_r. cbn [pred]. exact Hans.
Qed.
Print Assumptions C122_proviso_needed.
Example C122_proviso_nonvacuous : exists s, es_reach (decay_real (o_halflife eh_defaults)) eh_defaults s /\ es_loop s = EServing /\ es_canq s = [] /\ es_panic s = false /\
  ledger_of (decay_real (o_halflife eh_defaults)) (touches eh_defaults (ma_first host1) (served_events s)) = Some (0%Z, 200000%N) /\ served_answers s = [OutDisconnect (Some "p")].
Proof.
  generalize (decay_real (o_halflife eh_defaults)). intros decay. eexists. split; [exists [XSetProvider; XStart; XReport "p" (ESent ErrChainIDMismatch); XTakeReport 0; XErrAddress 0 (Some host1)]; vm_compute; reflexivity|].
  split_and!; vm_compute; reflexivity.
Qed.
