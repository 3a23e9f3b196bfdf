(** C121: the rate of errors decides. *)
From Coq Require Import Reals Lra.
From Flocq Require Import Core.
From Verif Require Import GoBase Util ErrHandler_Model ErrHandler_Spec ErrHandler_Proofs ErrDecay_Model ErrDecay_Proofs EhSys_Model EhSys_Spec EhSys_Proofs EhSys_Props Rate_Spec.
Local Open Scope R_scope.

Notation NR x := (IZR (Z.of_N x)).
Lemma left_factor H D : (0 < H)%Z -> left H D = factor H D.
Proof. intros HH. unfold left, factor, Rpower. f_equal. assert (IZR H <> 0) by (apply IZR_neq; lia). field. done. Qed.
Lemma factor_mono H a b : (0 < H)%Z -> (a <= b)%Z -> factor H b <= factor H a.
Proof.
  intros HH Hab. replace b with (a + (b - a))%Z by lia. rewrite factor_plus. pose proof (factor_pos H a). pose proof (factor_le1 H (b - a) HH ltac:(lia)). nra.
Qed.
Lemma add64_le a b : NR (add64 a b) <= NR a + NR b.
Proof. rewrite <- plus_IZR. apply IZR_le. unfold add64. pose proof (N.mod_le (a + b) two64 ltac:(done)). lia. Qed.
Lemma add64_exact a b : (a + b < two64)%N -> NR (add64 a b) = NR a + NR b.
Proof. intros H. rewrite <- plus_IZR. f_equal. unfold add64. rewrite N.mod_small by done. lia. Qed.
Lemma sub_exact t u : (0 <= t)%Z -> (t <= u <= max_i64)%Z -> time_sub u t = (u - t)%Z.
Proof. unfold time_sub, min_i64, max_i64. lia. Qed.

Lemma in_order_app t a b : in_order t (a ++ b) -> in_order t a.
Proof. revert t. induction a as [|x a IH]; intros t; [done|]. intros [H1 H2]. split; [done|]. by apply IH. Qed.
Lemma spaced_app D l a b : spaced D l (a ++ b) -> spaced D l a.
Proof. revert l. induction a as [|[now x|now] a IH]; intros l; [done| |]; cbn [app spaced]; [intros [H1 H2]; split; [done|]|]; apply IH || (intros H; by apply IH in H). exact H2. Qed.

(** ** Rare errors *)
Section rare.
Context (H D : Z) (m : N) (HH : (0 < H)%Z) (HD : (0 < D)%Z).
Let B : R := NR m / (1 - factor H D).
Lemma q_lt1 : factor H D < 1. Proof using HH HD. by apply factor_lt1. Qed.
Lemma B_fix : B * factor H D + NR m = B.
Proof using HH HD. pose proof q_lt1. unfold B. field. lra. Qed.
Lemma B_nonneg : 0 <= B.
Proof using HH HD. pose proof q_lt1. unfold B. apply Rmult_le_pos; [apply IZR_N_nonneg|]. left. apply Rinv_0_lt_compat. lra. Qed.
Definition rare_ok (last : option Z) (t : Z) (l : ledger) : Prop :=
  match l with None => True | Some (u, s) => exists te, last = Some te /\ (0 <= te <= u)%Z /\ (u = t)%Z /\ NR s <= B * factor H (u - te) end.
Lemma rare_fold ts : forall last t l, (0 <= t)%Z -> rare_ok last t l -> in_order t ts -> spaced D last ts -> Forall (fun x => (x <= m)%N) (charges ts) ->
  NR (ledger_score (fold_left (touch1 (decay_real H)) ts l)) <= B.
Proof using HH HD.
  induction ts as [|x ts IH]; intros last t l Ht Hok Ho Hs Hm; cbn [fold_left].
  - destruct l as [[u s]|]; cbn [ledger_score]; [|exact B_nonneg]. destruct Hok as (te & _ & Hte & _ & Hb). pose proof (factor_le1 H (u - te) HH ltac:(lia)). pose proof B_nonneg. nra.
  - destruct Ho as [Ht1 Ho]. destruct x as [now x|now]; cbn [time_of touch1 spaced] in *.
    + destruct Hs as [Hsp Hs]. change (charges (THit now x :: ts)) with (x :: charges ts) in Hm. apply Forall_cons in Hm as [Hx Hm].
      assert (Hxr : NR x <= NR m) by (apply IZR_le; lia).
      apply (IH (Some now) now); [lia| |done|done|done]. unfold hit. destruct l as [[u s]|]; cbn [look rare_ok].
      * destruct Hok as (te & -> & Hte & -> & Hb). exists now. split; [done|]. split; [lia|]. split; [done|]. rewrite Z.sub_diag, factor_zero, Rmult_1_r.
        rewrite sub_exact by lia. pose proof (add64_le (decay_real H s (now - t)) x). destruct (decay_real_bounds H s (now - t) HH ltac:(lia)) as [_ Hd].
        assert (Hc : NR s * factor H (now - t) <= B * factor H D).
        { pose proof (factor_pos H (now - t)). apply (Rle_trans _ (B * factor H (t - te) * factor H (now - t))); [nra|]. rewrite Rmult_assoc, <- factor_plus. replace (t - te + (now - t))%Z with (now - te)%Z by lia.
          pose proof (factor_mono H D (now - te) HH ltac:(lia)). pose proof B_nonneg. nra. }
        pose proof B_fix. lra.
      * exists now. split; [done|]. split; [lia|]. split; [done|]. rewrite Z.sub_diag, factor_zero, Rmult_1_r. pose proof B_fix. pose proof B_nonneg. pose proof (factor_pos H D). nra.
    + apply (IH last now); [lia| |done|done|exact Hm]. destruct l as [[u s]|]; cbn [look rare_ok]; [|done].
      destruct Hok as (te & -> & Hte & -> & Hb). exists te. split; [done|]. split; [lia|]. split; [done|]. rewrite sub_exact by lia.
      destruct (decay_real_bounds H s (now - t) HH ltac:(lia)) as [_ Hd]. pose proof (factor_pos H (now - t)).
      apply (Rle_trans _ (B * factor H (t - te) * factor H (now - t))); [nra|]. rewrite Rmult_assoc, <- factor_plus. replace (t - te + (now - t))%Z with (now - te)%Z by lia. lra.
Qed.
Lemma rare_score ts thr : in_order 0 ts -> spaced D None ts -> Forall (fun x => (x <= m)%N) (charges ts) -> NR m < NR thr * (1 - factor H D) ->
  (ledger_score (ledger_of (decay_real H) ts) < thr)%N.
Proof using HH HD.
  intros Ho Hs Hm Ht. pose proof (rare_fold ts None 0 None ltac:(lia) I Ho Hs Hm) as Hb. pose proof q_lt1.
  assert (B < NR thr). { unfold B. apply (Rmult_lt_reg_r (1 - factor H D)); [lra|]. unfold Rdiv. rewrite Rmult_assoc, Rinv_l by lra. lra. }
  assert (Hl : IZR (Z.of_N (ledger_score (ledger_of (decay_real H) ts))) < NR thr) by (unfold ledger_of; lra). apply lt_IZR in Hl. lia.
Qed.
End rare.

(** ** Few errors *)
Lemma few_score decay (thr : N) ts : (forall s dt, (s < thr)%N -> (0 <= dt)%Z -> (decay s dt <= s)%N) -> (thr <= two64)%N -> forall t l,
  (0 <= t)%Z -> (forall u s, l = Some (u, s) -> u = t) -> in_order t ts -> (ledger_score l + total_charge ts < thr)%N -> (ledger_score (fold_left (touch1 decay) ts l) <= ledger_score l + total_charge ts)%N.
Proof.
  intros Hd H64. induction ts as [|x ts IH]; intros t l Ht Hl Ho Hb; cbn [fold_left]; [unfold total_charge in *; cbn in *; lia|].
  destruct Ho as [Ht1 Ho]. destruct x as [now x|now]; cbn [time_of touch1] in *.
  - assert (E : total_charge (THit now x :: ts) = (x + total_charge ts)%N) by done. rewrite E in *.
    assert (Hs : (ledger_score (hit decay now x l) <= ledger_score l + x)%N).
    { unfold hit. destruct l as [[u s]|]; cbn [look ledger_score] in *; [|lia]. rewrite (Hl _ _ eq_refl), sub_exact by lia.
      pose proof (Hd s (now - t)%Z ltac:(lia) ltac:(lia)). unfold add64. pose proof (N.mod_le (decay s (now - t)%Z + x) two64 ltac:(done)). lia. }
    specialize (IH now (hit decay now x l) ltac:(lia)). etransitivity; [apply IH|]; [|done|lia|lia].
    intros u s. unfold hit, look. destruct l as [[u' s']|]; intros [= <- <-]; done.
  - assert (E : total_charge (TLook now :: ts) = total_charge ts) by done. rewrite E in *.
    assert (Hs : (ledger_score (look decay now l) <= ledger_score l)%N).
    { destruct l as [[u s]|]; cbn [look ledger_score] in *; [|lia]. rewrite (Hl _ _ eq_refl), sub_exact by lia. apply Hd; lia. }
    specialize (IH now (look decay now l) ltac:(lia)). etransitivity; [apply IH|]; [|done|lia|lia].
    intros u s. unfold look. destruct l as [[u' s']|]; intros E'; [|done]. by injection E' as <- <-.
Qed.

(** ** Frequent errors *)
Lemma total_app a b : total_charge (a ++ b) = (total_charge a + total_charge b)%N.
Proof. unfold total_charge, charges. rewrite omap_app. generalize (omap (fun t => match t with THit _ x => Some x | TLook _ => None end) a). intros l. induction l as [|x l IH]; cbn; [done|]. rewrite IH. lia. Qed.
Lemma total_looks L : total_charge (map TLook L) = 0%N.
Proof. unfold total_charge. induction L; done. Qed.
Lemma in_order_snd t a b : in_order t (a ++ b) -> in_order (match last a with Some x => time_of x | None => t end) b.
Proof.
  revert t. induction a as [|x a IH]; intros t; [done|]. intros [_ H2]. specialize (IH _ H2). destruct a as [|y a]; [done|]. rewrite last_cons_cons. assert (Hs : is_Some (last (y :: a))) by (by apply last_is_Some). destruct Hs as [z Hz]. rewrite Hz in *. exact IH.
Qed.
Lemma series_snoc r L t x : touches_of_series (r ++ [(L, (t, x))]) = touches_of_series r ++ map TLook L ++ [THit t x].
Proof.
  induction r as [|[L' [t' x']] r IH]; [unfold touches_of_series; cbn; by rewrite app_nil_r|].
  change (touches_of_series (((L', (t', x')) :: r) ++ [(L, (t, x))])) with ((map TLook L' ++ [THit t' x']) ++ touches_of_series (r ++ [(L, (t, x))])).
  change (touches_of_series ((L', (t', x')) :: r)) with ((map TLook L' ++ [THit t' x']) ++ touches_of_series r). by rewrite IH, <- !app_assoc.
Qed.
Section frequent.
Context (H D : Z) (m : N) (k : nat) (HH : (0 < H)%Z) (HD : (0 < D)%Z).
Let a : R := NR m - INR k - 1.
Let q : R := factor H D.
Let geo (n : nat) : R := a * (1 - q ^ n) / (1 - q).
Lemma geo_S n : geo (S n) = q * geo n + a.
Proof using HH HD. unfold geo. pose proof (factor_lt1 H D HH HD). change (q ^ S n) with (q * q ^ n). generalize (q ^ n). intros y. unfold q in *. field. lra. Qed.
Lemma looks_fold L : forall t s, (0 <= t)%Z -> in_order t (map TLook L) -> exists u s', fold_left (touch1 (decay_real H)) (map TLook L) (Some (t, s)) = Some (u, s') /\
  u = (match last (map TLook L) with Some x => time_of x | None => t end) /\ (t <= u)%Z /\ (s' <= s)%N /\ NR s * factor H (u - t) - INR (length L) <= NR s'.
Proof using HH.
  induction L as [|v L IH]; intros t s Ht Ho.
  - exists t, s. cbn. rewrite Z.sub_diag, factor_zero. split_and!; try done; try lia. lra.
  - destruct Ho as [Hv Ho]. cbn [time_of] in *. cbn [map fold_left touch1 look]. rewrite sub_exact by lia.
    destruct (IH v (decay_real H s (v - t)) ltac:(lia) Ho) as (u & s' & -> & Hu & Hvu & Hs' & Hb). exists u, s'. split; [done|].
    split; [rewrite Hu; destruct L as [|w L]; [done|]; cbn [map]; rewrite last_cons_cons; assert (Hs : is_Some (last (TLook w :: map TLook L))) by (by apply last_is_Some); destruct Hs as [z ->]; done|]. split; [lia|]. pose proof (decay_real_le H s (v - t) HH ltac:(lia)). split; [lia|].
    destruct (decay_real_bounds H s (v - t) HH ltac:(lia)) as [Hd _]. replace (u - t)%Z with (v - t + (u - v))%Z by lia. rewrite factor_plus. cbn [length]. rewrite S_INR.
    pose proof (factor_pos H (u - v)). pose proof (factor_le1 H (u - v) HH ltac:(lia)). nra.
Qed.
Lemma series_fold r : forall te s n, (0 <= te)%Z -> in_order te (touches_of_series r) -> close D (Some te) r -> (s + total_charge (touches_of_series r) < two64)%N ->
  Forall (fun x => (m <= x.2.2)%N /\ (length x.1 <= k)%nat) r -> geo n <= NR s ->
  exists u s', fold_left (touch1 (decay_real H)) (touches_of_series r) (Some (te, s)) = Some (u, s') /\ geo (n + length r) <= NR s'.
Proof using HH HD.
  induction r as [|[L [t x]] r IH]; intros te s n Hte Ho Hc Ht Hf Hg.
  - exists te, s. split; [done|]. by rewrite Nat.add_0_r.
  - apply Forall_cons in Hf as [[Hx HL] Hf]. cbn [fst snd] in Hx, HL. destruct Hc as [Hc1 Hc]. change (touches_of_series ((L, (t, x)) :: r)) with ((map TLook L ++ [THit t x]) ++ touches_of_series r) in *.
    rewrite <- app_assoc in *. rewrite fold_left_app. destruct (looks_fold L te s Hte (in_order_app _ _ _ Ho)) as (u & s1 & -> & Hu & Htu & Hs1 & Hb).
    apply in_order_snd in Ho. rewrite <- Hu in Ho. destruct Ho as [Hut Ho]. cbn [time_of] in *. rewrite !total_app, total_looks in Ht. assert (E : total_charge [THit t x] = x) by (unfold total_charge; cbn; lia). rewrite E in Ht.
    cbn [app fold_left touch1]. unfold hit, look. rewrite sub_exact by lia. pose proof (decay_real_le H s1 (t - u) HH ltac:(lia)) as Hle.
    destruct (decay_real_bounds H s1 (t - u) HH ltac:(lia)) as [Hd _]. pose proof (add64_exact (decay_real H s1 (t - u)) x ltac:(lia)) as Hadd.
    assert (Hlow : geo (S n) <= NR (add64 (decay_real H s1 (t - u)) x)).
    { rewrite Hadd, geo_S. assert (Hxr : NR m <= NR x) by (apply IZR_le; lia). assert (HLr : INR (length L) <= INR k) by (by apply le_INR).
      pose proof (factor_pos H (t - u)). pose proof (factor_le1 H (t - u) HH ltac:(lia)). pose proof (pos_INR (length L)).
      assert (Hq : q <= factor H (u - te) * factor H (t - u)). { rewrite <- factor_plus. apply factor_mono; [done|]. lia. }
      pose proof (IZR_N_nonneg s) as Hs0. assert (Hq0 : 0 < q) by apply factor_pos. unfold a.
      assert (Hstep : (NR s * factor H (u - te) - INR (length L)) * factor H (t - u) <= NR s1 * factor H (t - u)) by nra.
      assert (Hsq : q * NR s <= NR s * (factor H (u - te) * factor H (t - u))) by nra. nra. }
    assert (Hnw : (add64 (decay_real H s1 (t - u)) x = decay_real H s1 (t - u) + x)%N) by (unfold add64; rewrite N.mod_small by lia; done).
    destruct (IH t (add64 (decay_real H s1 (t - u)) x) (S n) ltac:(lia) Ho Hc ltac:(lia) Hf Hlow) as (u' & s' & -> & Hfin).
    exists u', s'. split; [done|]. cbn [length]. by rewrite Nat.add_succ_r.
Qed.
Lemma first_hit pre L t (x : N) : in_order 0 (pre ++ map TLook L ++ [THit t x]) -> (total_charge (pre ++ map TLook L ++ [THit t x]) < two64)%N ->
  exists s, fold_left (touch1 (decay_real H)) (pre ++ map TLook L ++ [THit t x]) None = Some (t, s) /\ (x <= s)%N /\ (s <= total_charge (pre ++ map TLook L ++ [THit t x]))%N /\ (0 <= t)%Z.
Proof using HH.
  intros Ho1 Ht.
  assert (Hfew : forall ts, in_order 0 ts -> (total_charge ts < two64)%N -> (ledger_score (fold_left (touch1 (decay_real H)) ts None) <= total_charge ts)%N).
  { intros ts Hts Htc. pose proof (few_score (decay_real H) two64 ts ltac:(intros; by apply decay_real_le) ltac:(done) 0%Z None ltac:(lia) ltac:(done) Hts) as X. cbn [ledger_score] in X. rewrite N.add_0_l in X. by apply X. }
  pose proof (Hfew _ Ho1 ltac:(lia)) as Hall.
  assert (Ht0 : (0 <= t)%Z).
  { clear -Ho1. rewrite app_assoc in Ho1. revert Ho1. assert (Hgen : forall ts t0, (0 <= t0)%Z -> in_order t0 (ts ++ [THit t x]) -> (0 <= t)%Z); [|by apply Hgen].
    induction ts as [|y ts IH]; intros t0 Ht0 [H1 H2]; cbn [time_of] in *; [lia|]. by apply (IH (time_of y)); [lia|]. }
  rewrite !app_assoc in Ho1, Hall, Ht |- *. rewrite fold_left_app in Hall |- *. cbn [fold_left touch1] in Hall |- *.
  assert (E : total_charge ((pre ++ map TLook L) ++ [THit t x]) = (total_charge (pre ++ map TLook L) + x)%N) by (rewrite total_app; f_equal; unfold total_charge; cbn; lia).
  pose proof (in_order_app _ _ _ Ho1) as Ho0. pose proof (Hfew _ Ho0 ltac:(lia)) as Hpre. pose proof (in_order_snd _ _ _ Ho1) as [Hlast _]. cbn [time_of] in Hlast.
  assert (Htime : forall ts t0 l, (forall u s, l = Some (u, s) -> u = t0) -> forall u s, fold_left (touch1 (decay_real H)) ts l = Some (u, s) -> u = match last ts with Some y => time_of y | None => t0 end).
  { clear. induction ts as [|y ts IH]; intros t0 l Hl u s Hf; cbn [fold_left] in Hf; [by eapply Hl|].
    assert (Hl1 : forall u s, touch1 (decay_real H) l y = Some (u, s) -> u = time_of y) by (intros u1 s1; destruct y; cbn; unfold hit, look; destruct l as [[? ?]|]; intros E; try discriminate E; by injection E as <- <-).
    specialize (IH (time_of y) _ Hl1 u s Hf). rewrite IH. destruct ts as [|z ts]; [done|]. rewrite last_cons_cons. assert (Hs : is_Some (last (z :: ts))) by (by apply last_is_Some). destruct Hs as [w ->]. done. }
  unfold hit, look in *. destruct (fold_left (touch1 (decay_real H)) (pre ++ map TLook L) None) as [[u s]|] eqn:El; cbn [ledger_score] in *.
  - eexists. split; [reflexivity|]. assert (Hu : (u <= t)%Z). { rewrite (Htime _ 0%Z None ltac:(done) _ _ El). apply Hlast. }
    assert (Hdec : (decay_real H s (time_sub t u) <= s)%N) by (apply decay_real_le; [done|unfold time_sub, min_i64, max_i64; lia]).
    unfold add64 in *. rewrite N.mod_small in * by lia. lia.
  - exists x. split; [done|]. lia.
Qed.
Lemma series_score pre r thr : in_order 0 (pre ++ touches_of_series r) -> (total_charge (pre ++ touches_of_series r) < two64)%N -> close D None r -> r <> [] ->
  Forall (fun x => (m <= x.2.2)%N /\ (length x.1 <= k)%nat) r -> NR thr * (1 - q) <= a * (1 - q ^ length r) ->
  (thr <= ledger_score (ledger_of (decay_real H) (pre ++ touches_of_series r)))%N.
Proof using HH HD.
  intros Ho Ht Hc Hne Hf Hthr. destruct r as [|[L [t x]] r]; [done|]. destruct Hc as [_ Hc]. apply Forall_cons in Hf as [[Hx HL] Hf]. cbn [fst snd] in Hx, HL.
  change (touches_of_series ((L, (t, x)) :: r)) with ((map TLook L ++ [THit t x]) ++ touches_of_series r) in *. unfold ledger_of. rewrite !app_assoc in *. rewrite <- (app_assoc pre) in *.
  rewrite fold_left_app. pose proof (in_order_snd _ _ _ Ho) as Ho2. rewrite app_assoc, last_snoc in Ho2. cbn [time_of] in Ho2.
  pose proof (in_order_app _ _ _ Ho) as Ho1. rewrite total_app in Ht.
  destruct (first_hit pre L t x Ho1 ltac:(lia)) as (s & -> & Hxs & Hst & Ht0). assert (Hms : (m <= s)%N) by lia.
  assert (Hg1 : geo 1 <= NR s). { unfold geo. assert (NR m <= NR s) by (apply IZR_le; lia). pose proof (factor_lt1 H D HH HD). pose proof (pos_INR k). replace (a * (1 - q ^ 1) / (1 - q)) with a by (rewrite pow_1; unfold q; field; lra). unfold a. lra. }
  destruct (series_fold r t s 1 Ht0 Ho2 Hc ltac:(lia) Hf Hg1) as (u & s' & -> & Hfin). cbn [ledger_score]. cbn [length] in Hthr. change (1 + length r)%nat with (S (length r)) in Hfin.
  assert (Hle : NR thr <= NR s'). { pose proof (factor_lt1 H D HH HD). apply (Rle_trans _ (geo (S (length r)))); [|done]. unfold geo. apply (Rmult_le_reg_r (1 - q)); [unfold q; lra|]. unfold Rdiv. rewrite Rmult_assoc, Rinv_l by (unfold q; lra). lra. }
  apply le_IZR in Hle. lia.
Qed.
End frequent.

(** ** What the handler answers *)
Lemma touches_split o host hist : forall l1 y l2, touches o host hist = l1 ++ y :: l2 ->
  exists h1 ev h2, hist = h1 ++ ev :: h2 /\ touch_of o host ev = Some y /\ touches o host h1 = l1.
Proof.
  induction hist as [|ev hist IH]; intros l1 y l2 E; [by destruct l1|]. rewrite touches_cons in E. destruct (touch_of o host ev) as [x|] eqn:Ex.
  - destruct l1 as [|z l1].
    + injection E as -> _. by exists [], ev, hist.
    + injection E as -> E. destruct (IH _ _ _ E) as (h1 & ev' & h2 & -> & Hy & <-). exists (ev :: h1), ev', h2. split; [done|]. split; [done|]. rewrite touches_cons. by rewrite Ex.
  - destruct (IH _ _ _ E) as (h1 & ev' & h2 & -> & Hy & <-). exists (ev :: h1), ev', h2. split; [done|]. split; [done|]. rewrite touches_cons. by rewrite Ex.
Qed.
Lemma served_answer decay o s h1 ev h2 : es_reach decay o s -> served_events s = h1 ++ ev :: h2 ->
  served_answers s !! length h1 = Some (answer decay o (match event_host ev with Some h => ledger_of decay (touches o h h1) | None => None end) ev).
Proof. intros Hr E. pose proof (C74_sequential decay o s Hr) as HS. rewrite E in HS. rewrite <- (run_answer decay o h1 ev h2), HS. done. Qed.
Lemma error_score decay o s n now id a e : es_reach decay o s -> served_events s !! n = Some (EvError now id (Some a) e) ->
  exists later, history o s (ma_first a) = touches o (ma_first a) (take n (served_events s)) ++ THit now (expected_score o e) :: later /\
  served_answers s !! n = Some (OutDisconnect (if bool_decide (o_threshold o <= ledger_score (ledger_of decay (touches o (ma_first a) (take n (served_events s)) ++ [THit now (expected_score o e)])))%N then Some id else None)).
Proof.
  intros Hr Hn. pose proof (take_drop_middle _ _ _ Hn) as E. symmetry in E. pose proof (served_answer decay o s _ _ _ Hr E) as Ha.
  rewrite take_length_le in Ha by (apply lookup_lt_Some in Hn; lia). exists (touches o (ma_first a) (drop (S n) (served_events s))). split.
  - unfold history. rewrite E at 1. rewrite touches_app, touches_cons. cbn [touch_of]. by rewrite bool_decide_true.
  - rewrite Ha. cbn [event_host fmap option_fmap option_map answer]. unfold ledger_of. by rewrite fold_left_app.
Qed.
Lemma gate_score decay o s n now a : es_reach decay o s -> served_events s !! n = Some (EvCanConnect now a) -> served_answers s !! n = Some (OutCan false) ->
  exists later, history o s (ma_first a) = (touches o (ma_first a) (take n (served_events s)) ++ [TLook now]) ++ later /\
  (o_reconnect o <= ledger_score (ledger_of decay (touches o (ma_first a) (take n (served_events s)) ++ [TLook now])))%N.
Proof.
  intros Hr Hn Hf. pose proof (take_drop_middle _ _ _ Hn) as E. symmetry in E. pose proof (served_answer decay o s _ _ _ Hr E) as Ha.
  rewrite take_length_le in Ha by (apply lookup_lt_Some in Hn; lia). exists (touches o (ma_first a) (drop (S n) (served_events s))). split.
  - unfold history. rewrite E at 1. rewrite touches_app, touches_cons. cbn [touch_of]. rewrite bool_decide_true by done. by rewrite <- app_assoc.
  - rewrite Hf in Ha. cbn [event_host answer] in Ha. unfold ledger_of in *. rewrite fold_left_app. cbn [fold_left touch1].
    destruct (look decay now (fold_left (touch1 decay) (touches o (ma_first a) (take n (served_events s))) None)) as [[u x]|]; [|discriminate Ha].
    cbn [ledger_score]. injection Ha as Ha. symmetry in Ha. apply bool_decide_eq_false in Ha. lia.
Qed.
