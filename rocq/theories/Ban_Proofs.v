(** Proofs for C122: bounds on the score of a host a while after an error. *)
From Coq Require Import Reals Lra.
From Verif Require Import GoBase Util ErrHandler_Model ErrHandler_Spec ErrHandler_Proofs ErrDecay_Model ErrDecay_Proofs EhSys_Model EhSys_Spec EhSys_Proofs EhSys_Props Rate_Spec Rate_Proofs Rate_Props.
Local Open Scope R_scope.

Definition is_look (x : touch) : Prop := match x with TLook _ => True | THit _ _ => False end.
Lemma NR_le a b : (a <= b)%N -> NR a <= NR b.
Proof. intros H. apply IZR_le. lia. Qed.
Section fold.
Context (H : Z) (HH : (0 < H)%Z).
(** From below: errors only add, and every touch costs at most one point. *)
Lemma lower_fold ts : forall t s, (0 <= t)%Z -> in_order t ts -> (s + total_charge ts < two64)%N ->
  exists u s', fold_left (touch1 (decay_real H)) ts (Some (t, s)) = Some (u, s') /\ u = (match last ts with Some x => time_of x | None => t end) /\ (t <= u)%Z /\
    NR s * factor H (u - t) - INR (length ts) <= NR s'.
Proof using HH.
  induction ts as [|x ts IH]; intros t s Ht Ho Hb.
  { exists t, s. cbn [fold_left last length INR]. rewrite Z.sub_diag, factor_zero. split_and!; try done; try lia. lra. }
  destruct Ho as [Hx Ho]. cbn [fold_left].
  assert (Hone : exists s1, touch1 (decay_real H) (Some (t, s)) x = Some (time_of x, s1) /\ NR s * factor H (time_of x - t) - 1 <= NR s1 /\ (s1 + total_charge ts < two64)%N).
  { destruct x as [now x|now]; cbn [touch1 hit look time_of] in *; rewrite sub_exact by lia; pose proof (decay_real_bounds H s (now - t) HH ltac:(lia)) as [Hlo Hhi];
      assert (Hle : (decay_real H s (now - t) <= s)%N) by (pose proof (factor_le1 H (now - t) HH ltac:(lia)); pose proof (IZR_N_nonneg s); assert (NR (decay_real H s (now - t)) <= NR s) as HX by nra; apply le_IZR in HX; lia).
    - change (total_charge (THit now x :: ts)) with (x + total_charge ts)%N in Hb. exists (add64 (decay_real H s (now - t)) x). split; [done|]. rewrite add64_exact by lia.
      pose proof (IZR_N_nonneg x). split; [lra|]. unfold add64. rewrite N.mod_small by lia. lia.
    - change (total_charge (TLook now :: ts)) with (total_charge ts) in Hb. exists (decay_real H s (now - t)). split; [done|]. split; [lra|lia]. }
  destruct Hone as (s1 & -> & Hs1 & Hb1). destruct (IH (time_of x) s1 ltac:(lia) Ho Hb1) as (u & s' & E & Eu & Hu & Hs'). exists u, s'. split; [exact E|]. split.
  { destruct ts as [|y ts]; [exact Eu|]. rewrite last_cons_cons. assert (Hs : is_Some (last (y :: ts))) by (by apply last_is_Some). destruct Hs as [z Hz]. rewrite Hz in *. exact Eu. }
  split; [lia|]. cbn [length]. rewrite S_INR. replace (u - t)%Z with ((time_of x - t) + (u - time_of x))%Z by lia. rewrite factor_plus.
  pose proof (factor_pos H (u - time_of x)). pose proof (factor_le1 H (u - time_of x) HH ltac:(lia)). nra.
Qed.
(** From above, when the host is only looked at. *)
Lemma upper_fold ts : forall t s, (0 <= t)%Z -> in_order t ts -> Forall is_look ts ->
  exists u s', fold_left (touch1 (decay_real H)) ts (Some (t, s)) = Some (u, s') /\ u = (match last ts with Some x => time_of x | None => t end) /\ (t <= u)%Z /\
    NR s' <= NR s * factor H (u - t).
Proof using HH.
  induction ts as [|x ts IH]; intros t s Ht Ho Hl.
  { exists t, s. cbn [fold_left last]. rewrite Z.sub_diag, factor_zero. split_and!; try done; try lia. lra. }
  destruct Ho as [Hx Ho]. apply Forall_cons in Hl as [Hl1 Hl]. destruct x as [now x|now]; [done|]. cbn [fold_left touch1 look time_of] in *. rewrite sub_exact by lia.
  pose proof (decay_real_bounds H s (now - t) HH ltac:(lia)) as [_ Hhi].
  destruct (IH now (decay_real H s (now - t)) ltac:(lia) Ho Hl) as (u & s' & E & Eu & Hu & Hs'). exists u, s'. split; [exact E|]. split.
  { destruct ts as [|y ts]; [exact Eu|]. rewrite last_cons_cons. assert (Hs : is_Some (last (y :: ts))) by (by apply last_is_Some). destruct Hs as [z Hz]. rewrite Hz in *. exact Eu. }
  split; [lia|]. replace (u - t)%Z with ((now - t) + (u - now))%Z by lia. rewrite factor_plus. pose proof (factor_pos H (u - now)). nra.
Qed.
(** The score never exceeds what was charged. *)
Lemma at_most_charged ts : in_order 0 ts -> (total_charge ts < two64)%N -> (ledger_score (ledger_of (decay_real H) ts) <= total_charge ts)%N.
Proof using HH.
  intros Ho Hb. pose proof (few_score (decay_real H) two64 ts) as X. unfold ledger_of. specialize (X) . assert (Hd : forall s dt, (s < two64)%N -> (0 <= dt)%Z -> (decay_real H s dt <= s)%N).
  { intros s dt _ Hdt. pose proof (decay_real_bounds H s dt HH Hdt) as [_ Hhi]. pose proof (factor_le1 H dt HH Hdt). pose proof (IZR_N_nonneg s). assert (NR (decay_real H s dt) <= NR s) as HX by nra. apply le_IZR in HX. lia. }
  specialize (X Hd ltac:(lia) 0%Z None ltac:(lia) ltac:(done) Ho). cbn [ledger_score] in X. specialize (X ltac:(lia)). lia.
Qed.
End fold.
(** The host's ledger after its last touch carries the time of that touch. *)
Lemma after_hit decay ts t x : exists s, ledger_of decay (ts ++ [THit t x]) = Some (t, s).
Proof. unfold ledger_of. rewrite fold_left_app. cbn [fold_left touch1]. unfold hit, look. destruct (fold_left (touch1 decay) ts None) as [[u s]|]; by eexists. Qed.
Lemma ledger_app decay a b : ledger_of decay (a ++ b) = fold_left (touch1 decay) b (ledger_of decay a).
Proof. unfold ledger_of. by rewrite fold_left_app. Qed.
Lemma in_order_mid t a x b : in_order t (a ++ x :: b) -> in_order (time_of x) b.
Proof. intros Hi. apply in_order_snd in Hi. by destruct Hi. Qed.
Lemma in_order_nonneg t a x b : (0 <= t)%Z -> in_order t (a ++ x :: b) -> (0 <= time_of x)%Z.
Proof. revert t. induction a as [|y a IH]; intros t Ht; cbn [app in_order]; [lia|]. intros [H1 H2]. apply (IH (time_of y)); [lia|done]. Qed.
