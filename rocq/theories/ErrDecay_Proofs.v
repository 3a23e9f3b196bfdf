From Coq Require Import Reals Lra.
From Flocq Require Import Core.
From Verif Require Import GoBase ErrHandler_Model ErrHandler_Spec ErrHandler_Proofs ErrDecay_Model.

Local Open Scope R_scope.
Notation fexp := (FLT_exp (-1074) 53).
Global Instance prec_gt_0_53 : Prec_gt_0 53 := ltac:(done).

Lemma fl_mono x y : x <= y -> fl x <= fl y.
Proof. apply round_le; [apply FLT_exp_valid; done|apply valid_rnd_N]. Qed.
Lemma fl_exact x : generic_format radix2 fexp x -> fl x = x.
Proof. apply round_generic. apply valid_rnd_N. Qed.

(** An integer multiple of 2^e with a 53-bit mantissa is a float64. *)
Lemma format_scaled (m e : Z) : (Z.abs m < 2 ^ 53)%Z -> (-1074 <= e)%Z ->
  generic_format radix2 fexp (IZR m * bpow radix2 e).
Proof.
  intros Hm He. apply generic_format_FLT. exists (Float radix2 m e); simpl; auto.
Qed.
Lemma format_int (z : Z) : (0 <= z <= 2 ^ 53)%Z -> generic_format radix2 fexp (IZR z).
Proof.
  intros Hz. destruct (Z.eq_dec z (2 ^ 53)) as [->|Hne].
  - apply generic_format_FLT. exists (Float radix2 1 53); simpl; auto; try lia.
    unfold F2R. simpl. lra.
  - replace (IZR z) with (IZR z * bpow radix2 0) by (simpl; ring). apply format_scaled; lia.
Qed.

Lemma IZR_N_nonneg s : 0 <= IZR (Z.of_N s).
Proof. apply IZR_le. lia. Qed.

Lemma floor_to_N (x : R) (n : N) : x <= IZR (Z.of_N n) -> (Z.to_N (Zfloor x) <= n)%N.
Proof.
  intros H. apply Zfloor_le in H. rewrite Zfloor_IZR in H. lia.
Qed.
Lemma floor_to_N_lt (x : R) (n : N) : (0 < n)%N -> x < IZR (Z.of_N n) -> (Z.to_N (Zfloor x) < n)%N.
Proof.
  intros Hn H. assert (Hf : IZR (Zfloor x) < IZR (Z.of_N n)) by (pose proof (Zfloor_lb x); lra).
  apply lt_IZR in Hf. lia.
Qed.

(** ** float64 *)
Lemma decay_float_le gexp s dt : (s <= 2 ^ 53)%N -> 0 <= gexp dt <= 1 -> (decay_float gexp s dt <= s)%N.
Proof.
  intros Hs He. unfold decay_float. apply floor_to_N.
  assert (Hf : generic_format radix2 fexp (IZR (Z.of_N s))) by (apply format_int; lia).
  rewrite (fl_exact _ Hf). rewrite <- (fl_exact _ Hf) at 2. apply fl_mono.
  pose proof (IZR_N_nonneg s). nra.
Qed.

Lemma decay_float_one gexp s dt : (s <= 2 ^ 53)%N -> gexp dt = 1 -> decay_float gexp s dt = s.
Proof.
  intros Hs He. unfold decay_float. rewrite He, Rmult_1_r.
  assert (Hf : generic_format radix2 fexp (IZR (Z.of_N s))) by (apply format_int; lia).
  rewrite !(fl_exact _ Hf), Zfloor_IZR. lia.
Qed.

(** A factor at most 1 - 2^-52 makes an integer score lose at least one point. *)
Lemma decay_float_lt gexp s dt : (0 < s < 2 ^ 52)%N -> gexp dt <= 1 - bpow radix2 (-52) ->
  (decay_float gexp s dt < s)%N.
Proof.
  intros Hs He. unfold decay_float.
  assert (Hf : generic_format radix2 fexp (IZR (Z.of_N s))) by (apply format_int; lia).
  rewrite (fl_exact _ Hf). apply floor_to_N_lt; [lia|].
  set (m := Z.log2 (Z.of_N s)).
  assert (Hm : (2 ^ m <= Z.of_N s < 2 ^ Z.succ m)%Z) by (apply Z.log2_spec; lia).
  assert (Hm0 : (0 <= m)%Z) by apply Z.log2_nonneg.
  assert (Hm1 : (m < 52)%Z).
  { apply Z.nle_gt. intros Hle.
    pose proof (Z.pow_le_mono_r 2 52 m ltac:(lia) Hle). lia. }
  (* the float just below s on the grid of its binade *)
  set (y := IZR (Z.of_N s) - bpow radix2 (m - 52)).
  assert (Hy : generic_format radix2 fexp y).
  { assert (Hye : y = IZR (Z.of_N s * 2 ^ (52 - m) - 1) * bpow radix2 (m - 52)).
    { unfold y. rewrite minus_IZR, mult_IZR. rewrite (IZR_Zpower radix2) by lia.
      rewrite Rmult_minus_distr_r, Rmult_assoc, <- bpow_plus.
      replace (52 - m + (m - 52))%Z with 0%Z by lia. simpl (bpow radix2 0). lra. }
    rewrite Hye. apply format_scaled; [|lia].
    assert (H2 : (Z.of_N s * 2 ^ (52 - m) < 2 ^ Z.succ m * 2 ^ (52 - m))%Z).
    { apply Z.mul_lt_mono_pos_r; [apply Z.pow_pos_nonneg; lia|lia]. }
    rewrite <- Z.pow_add_r in H2 by lia. replace (Z.succ m + (52 - m))%Z with 53%Z in H2 by lia.
    assert (0 < Z.of_N s * 2 ^ (52 - m))%Z by (apply Z.mul_pos_pos; [lia|apply Z.pow_pos_nonneg; lia]).
    lia. }
  assert (Hle : IZR (Z.of_N s) * gexp dt <= y).
  { assert (Hg : bpow radix2 (m - 52) <= IZR (Z.of_N s) * bpow radix2 (-52)).
    { replace (m - 52)%Z with (m + -52)%Z by lia. rewrite bpow_plus.
      apply Rmult_le_compat_r; [apply bpow_ge_0|].
      rewrite <- (IZR_Zpower radix2) by lia. apply IZR_le. simpl. lia. }
    pose proof (IZR_N_nonneg s). unfold y. nra. }
  apply Rle_lt_trans with y.
  - rewrite <- (fl_exact _ Hy). apply fl_mono. exact Hle.
  - unfold y. pose proof (bpow_gt_0 radix2 (m - 52)). lra.
Qed.

(** ** Real arithmetic *)
Lemma ln2_pos : 0 < ln 2.
Proof. rewrite <- ln_1. apply ln_increasing; lra. Qed.

Definition factor (H : Z) (dt : Z) : R := exp (-1 * (ln 2 / IZR H) * IZR dt).

Lemma factor_pos H dt : 0 < factor H dt.
Proof. apply exp_pos. Qed.
Lemma factor_plus H a b : factor H (a + b) = factor H a * factor H b.
Proof. unfold factor. rewrite <- exp_plus. f_equal. rewrite plus_IZR. ring. Qed.
Lemma factor_zero H : factor H 0 = 1.
Proof. unfold factor. rewrite Rmult_0_r. apply exp_0. Qed.
Lemma factor_lt1 H dt : (0 < H)%Z -> (0 < dt)%Z -> factor H dt < 1.
Proof.
  intros HH Hdt. unfold factor. rewrite <- exp_0. apply exp_increasing.
  assert (0 < IZR H) by (apply IZR_lt; lia). assert (0 < IZR dt) by (apply IZR_lt; lia).
  assert (0 < ln 2 / IZR H) by (apply Rdiv_lt_0_compat; [apply ln2_pos|done]). nra.
Qed.
Lemma factor_le1 H dt : (0 < H)%Z -> (0 <= dt)%Z -> factor H dt <= 1.
Proof.
  intros HH Hdt. destruct (Z.eq_dec dt 0) as [->|Hne]; [rewrite factor_zero; lra|].
  left. apply factor_lt1; lia.
Qed.
Lemma factor_halflives H (k : nat) : (0 < H)%Z -> factor H (Z.of_nat k * H) = / 2 ^ k.
Proof.
  intros HH. assert (Hr : IZR H <> 0) by (apply IZR_neq; lia).
  assert (H1 : factor H H = / 2).
  { unfold factor. replace (-1 * (ln 2 / IZR H) * IZR H) with (- ln 2) by (field; done).
    rewrite exp_Ropp, exp_ln by lra. done. }
  induction k as [|k IH].
  - simpl. rewrite Z.mul_0_l, factor_zero. lra.
  - replace (Z.of_nat (S k) * H)%Z with (H + Z.of_nat k * H)%Z by lia.
    rewrite factor_plus, IH, H1. simpl. rewrite Rinv_mult. done.
Qed.

Lemma decay_real_factor H s dt : decay_real H s dt = Z.to_N (Zfloor (IZR (Z.of_N s) * factor H dt)).
Proof. reflexivity. Qed.

Lemma decay_real_halflives H s (k : nat) : (0 < H)%Z ->
  decay_real H s (Z.of_nat k * H) = (s / 2 ^ N.of_nat k)%N.
Proof.
  intros HH. rewrite decay_real_factor, factor_halflives by done.
  assert (Hf : Zfloor (IZR (Z.of_N s) * / 2 ^ k) = (Z.of_N s / 2 ^ Z.of_nat k)%Z).
  { rewrite <- Zfloor_div by (apply Z.pow_nonzero; lia).
    f_equal. unfold Rdiv. f_equal. f_equal. rewrite <- pow_IZR. done. }
  rewrite Hf. rewrite <- (N2Z.id (s / 2 ^ N.of_nat k)). f_equal.
  rewrite N2Z.inj_div, N2Z.inj_pow. rewrite nat_N_Z. done.
Qed.

Lemma decay_real_bounds H s dt : (0 < H)%Z -> (0 <= dt)%Z ->
  IZR (Z.of_N s) * factor H dt - 1 < IZR (Z.of_N (decay_real H s dt)) <= IZR (Z.of_N s) * factor H dt.
Proof.
  intros HH Hdt. rewrite decay_real_factor.
  assert (H0 : 0 <= IZR (Z.of_N s) * factor H dt).
  { apply Rmult_le_pos; [apply IZR_N_nonneg|]. left. apply factor_pos. }
  rewrite Z2N.id by (rewrite <- (Zfloor_IZR 0); apply Zfloor_le; exact H0).
  pose proof (Zfloor_lb (IZR (Z.of_N s) * factor H dt)).
  pose proof (Zfloor_ub (IZR (Z.of_N s) * factor H dt)). lra.
Qed.

Lemma decay_real_lt H s dt : (0 < H)%Z -> (0 < dt)%Z -> (0 < s)%N -> (decay_real H s dt < s)%N.
Proof.
  intros HH Hdt Hs. rewrite decay_real_factor. apply floor_to_N_lt; [done|].
  assert (0 < IZR (Z.of_N s)) by (apply IZR_lt; lia).
  pose proof (factor_lt1 H dt HH Hdt). nra.
Qed.
Lemma decay_real_le H s dt : (0 < H)%Z -> (0 <= dt)%Z -> (decay_real H s dt <= s)%N.
Proof.
  intros HH Hdt. rewrite decay_real_factor. apply floor_to_N.
  pose proof (IZR_N_nonneg s). pose proof (factor_le1 H dt HH Hdt). pose proof (factor_pos H dt). nra.
Qed.

(** Reading the score after each of the elapsed times [dts]. *)
Fixpoint reads (decay : N -> Z -> N) (s : N) (dts : list Z) : N :=
  match dts with [] => s | d :: r => reads decay (decay s d) r end.
Definition total (dts : list Z) : Z := fold_right Z.add 0%Z dts.

Lemma reads_bounds H dts : (0 < H)%Z -> Forall (fun d => (0 <= d)%Z) dts -> forall s,
  IZR (Z.of_N s) * factor H (total dts) - INR (length dts) <= IZR (Z.of_N (reads (decay_real H) s dts))
  <= IZR (Z.of_N s) * factor H (total dts).
Proof.
  intros HH. induction dts as [|d dts IH]; intros Hall s.
  - simpl. rewrite factor_zero. lra.
  - inversion Hall as [|? ? Hd Hall']; subst. cbn [reads total fold_right length].
    fold (total dts). specialize (IH Hall' (decay_real H s d)).
    pose proof (decay_real_bounds H s d HH Hd) as [Hlo Hhi].
    assert (Ht : (0 <= total dts)%Z).
    { clear -Hall'. induction dts as [|x r IHr]; simpl; [lia|].
      inversion Hall'; subst. specialize (IHr H2). lia. }
    pose proof (factor_le1 H (total dts) HH Ht). pose proof (factor_pos H (total dts)).
    rewrite factor_plus, S_INR. split; nra.
Qed.

Lemma reads_lose H dts : (0 < H)%Z -> Forall (fun d => (0 < d)%Z) dts -> forall s,
  (reads (decay_real H) s dts <= s - N.of_nat (length dts))%N.
Proof.
  intros HH. induction dts as [|d dts IH]; intros Hall s; simpl; [lia|].
  inversion Hall as [|? ? Hd Hall']; subst. specialize (IH Hall' (decay_real H s d)).
  destruct (decide (s = 0%N)) as [->|Hs].
  - pose proof (decay_real_le H 0 d HH ltac:(lia)). lia.
  - pose proof (decay_real_lt H s d HH Hd ltac:(lia)). lia.
Qed.

Lemma reads_lose_float gexp dts :
  Forall (fun d => gexp d <= 1 - bpow radix2 (-52) /\ 0 <= gexp d) dts -> forall s, (s < 2 ^ 52)%N ->
  (reads (decay_float gexp) s dts <= s - N.of_nat (length dts))%N.
Proof.
  induction dts as [|d dts IH]; intros Hall s Hs; simpl; [lia|].
  inversion Hall as [|? ? [Hd Hd0] Hall']; subst. 
  assert (H1 : gexp d <= 1) by (pose proof (bpow_ge_0 radix2 (-52)); lra).
  pose proof (decay_float_le gexp s d ltac:(lia) (conj Hd0 H1)) as Hle.
  specialize (IH Hall' (decay_float gexp s d) ltac:(lia)).
  destruct (decide (s = 0%N)) as [->|Hs0]; [lia|].
  pose proof (decay_float_lt gexp s d ltac:(lia) Hd). lia.
Qed.

(** Looks at a ledger are reads. *)
Fixpoint look_times (t : Z) (dts : list Z) : list touch :=
  match dts with [] => [] | d :: r => TLook (t + d) :: look_times (t + d) r end.

Definition in_dur (d : Z) : Prop := (0 <= d <= max_i64)%Z.

Lemma looks_reads decay dts : Forall in_dur dts -> forall t s,
  fold_left (touch1 decay) (look_times t dts) (Some (t, s)) =
  Some ((t + total dts)%Z, reads decay s dts).
Proof.
  induction dts as [|d dts IH]; intros Hall t s; simpl.
  - rewrite Z.add_0_r. done.
  - inversion Hall as [|? ? Hd Hall']; subst. unfold in_dur in Hd.
    assert (Hts : time_sub (t + d) t = d) by (unfold time_sub, min_i64, max_i64 in *; lia).
    rewrite Hts, (IH Hall'). do 2 f_equal. fold (total dts). lia.
Qed.
