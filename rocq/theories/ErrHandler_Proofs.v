From Verif Require Import GoBase Util ErrHandler_Model ErrHandler_Spec.

Lemma is_err_root e s : is_err e s = bool_decide (root e = Some s).
Proof.
  induction e as [s'|e IH|m]; simpl.
  - apply bool_decide_ext. split; congruence.
  - exact IH.
  - done.
Qed.

Lemma eh_score_expected o e : eh_score o e = expected_score o e.
Proof.
  unfold eh_score, expected_score. rewrite !is_err_root.
  destruct (root e) as [s|]; [|reflexivity]. destruct s; reflexivity.
Qed.

Section proofs.
Context (decay : N -> Z -> N) (o : eh_opts).
Notation run := (eh_run decay o).
Notation step := (eh_step decay o).

Definition as_ledger (r : eh_rec) : Z * N := (er_last r, er_score r).

Lemma step_ledger st ev host :
  as_ledger <$> fst (step st ev) !! host =
  match touch_of o host ev with
  | Some t => touch1 decay (as_ledger <$> st !! host) t
  | None => as_ledger <$> st !! host
  end.
Proof.
  destruct ev as [now id [a|] e|now a|now a]; simpl; try done.
  - unfold eh_error. simpl. case_bool_decide as Hh; change (ma_first a) with (host_of a) in Hh.
    + subst host; change (ma_first a) with (host_of a). rewrite lookup_insert. simpl. rewrite eh_score_expected. unfold hit, look.
      destruct (st !! host_of a) as [r|]; done.
    + rewrite lookup_insert_ne by done. done.
  - unfold eh_can_connect. case_bool_decide as Hh; change (ma_first a) with (host_of a) in Hh.
    + subst host; change (ma_first a) with (host_of a). destruct (st !! host_of a) as [r|] eqn:Hr; simpl; [rewrite lookup_insert|rewrite Hr]; done.
    + destruct (st !! host_of a) as [r|] eqn:Hr; simpl; [rewrite lookup_insert_ne by done|]; done.
  - unfold eh_get_score. case_bool_decide as Hh; change (ma_first a) with (host_of a) in Hh.
    + subst host; change (ma_first a) with (host_of a). destruct (st !! host_of a) as [r|] eqn:Hr; simpl; [rewrite lookup_insert|rewrite Hr]; done.
    + destruct (st !! host_of a) as [r|] eqn:Hr; simpl; [rewrite lookup_insert_ne by done|]; done.
Qed.

Lemma run_fst_cons st ev evs : fst (run st (ev :: evs)) = fst (run (fst (step st ev)) evs).
Proof. simpl. destruct (step st ev) as [st' x]. simpl. destruct (run st' evs). done. Qed.

Lemma run_ledger_gen evs : forall st host,
  as_ledger <$> fst (run st evs) !! host =
  fold_left (touch1 decay) (touches o host evs) (as_ledger <$> st !! host).
Proof.
  induction evs as [|ev evs IH]; intros st host; [done|].
  rewrite run_fst_cons, IH, step_ledger. unfold touches. simpl.
  destruct (touch_of o host ev); done.
Qed.

Lemma run_ledger evs host :
  as_ledger <$> fst (run ∅ evs) !! host = ledger_of decay (touches o host evs).
Proof. rewrite run_ledger_gen, lookup_empty. done. Qed.

(** The answer of an event is a function of the ledger of its host. *)
Definition answer (l : ledger) (ev : eh_event) : eh_out :=
  match ev with
  | EvError now id (Some a) e =>
    OutDisconnect (if bool_decide (o_threshold o <= ledger_score (hit decay now (expected_score o e) l))%N then Some id else None)
  | EvError _ _ None _ => OutDisconnect None
  | EvCanConnect now a =>
    OutCan (match look decay now l with Some (_, s) => bool_decide (s < o_reconnect o)%N | None => true end)
  | EvGetScore now a => OutScore (ledger_score (look decay now l))
  end.

Lemma step_answer st ev : snd (step st ev) =
  answer (match event_host ev with Some h => as_ledger <$> st !! h | None => None end) ev.
Proof.
  destruct ev as [now id [a|] e|now a|now a]; simpl; try change (ma_first a) with (host_of a); try done.
  - unfold hit, look. rewrite eh_score_expected. destruct (st !! host_of a) as [r|]; done.
  - unfold eh_can_connect. destruct (st !! host_of a) as [r|]; done.
  - unfold eh_get_score. destruct (st !! host_of a) as [r|]; done.
Qed.

Lemma run_app st a b : run st (a ++ b) =
  (let '(s1, x1) := run st a in let '(s2, x2) := run s1 b in (s2, x1 ++ x2)).
Proof.
  revert st. induction a as [|ev a IH]; intros st; simpl.
  - destruct (run st b). done.
  - destruct (step st ev) as [s1 x1]. rewrite IH. destruct (run s1 a) as [s2 x2].
    destruct (run s2 b). done.
Qed.

Lemma run_length st evs : length (snd (run st evs)) = length evs.
Proof.
  revert st. induction evs as [|ev evs IH]; intros st; [done|]. simpl.
  destruct (step st ev) as [s1 x]. specialize (IH s1). destruct (run s1 evs). simpl in *. lia.
Qed.

Lemma run_answer hist ev later :
  snd (run ∅ (hist ++ ev :: later)) !! length hist =
  Some (answer (match event_host ev with Some h => ledger_of decay (touches o h hist) | None => None end) ev).
Proof.
  rewrite run_app. destruct (run ∅ hist) as [s1 x1] eqn:H1. simpl.
  pose proof (run_length ∅ hist) as Hl. rewrite H1 in Hl. simpl in Hl.
  pose proof (step_answer s1 ev) as Ha. destruct (step s1 ev) as [s2 x] eqn:H2.
  destruct (run s2 later) as [s3 x3]. simpl in *. rewrite list_lookup_middle by done. f_equal.
  rewrite Ha. destruct (event_host ev) as [h|]; [|done].
  pose proof (run_ledger hist h) as Hr. rewrite H1 in Hr. simpl in Hr. rewrite Hr. done.
Qed.

(** ** Non-interference between hosts *)
Definition about (host : string) (ev : eh_event) : Prop := event_host ev = Some host.
Global Instance about_dec host ev : Decision (about host ev).
Proof. unfold about. apply _. Defined.

Lemma touches_cons host ev hist : touches o host (ev :: hist) =
  match touch_of o host ev with Some t => t :: touches o host hist | None => touches o host hist end.
Proof. reflexivity. Qed.

Lemma touches_app host a b : touches o host (a ++ b) = touches o host a ++ touches o host b.
Proof. exact (omap_app _ a b). Qed.

Lemma touches_filter host hist : touches o host (filter (about host) hist) = touches o host hist.
Proof.
  induction hist as [|ev hist IH]; [done|].
  destruct (decide (about host ev)) as [Ha|Ha].
  - rewrite filter_cons_True by done. rewrite !touches_cons, IH. done.
  - rewrite filter_cons_False by done. rewrite IH, touches_cons.
    assert (touch_of o host ev = None) as ->; [|done].
    unfold about in Ha. destruct ev as [now id [a|] e|now a|now a]; simpl in *; try done;
      rewrite bool_decide_eq_false_2; congruence.
Qed.

Lemma noninterference host hist ev later :
  about host ev ->
  snd (run ∅ (hist ++ ev :: later)) !! length hist =
  snd (run ∅ (filter (about host) hist ++ [ev])) !! length (filter (about host) hist).
Proof.
  intros Ha. rewrite !run_answer. unfold about in Ha. rewrite Ha, touches_filter. done.
Qed.

(** ** Reads never raise the score, if decay does not *)
Definition nonincreasing_upto (b : N) : Prop := forall s dt, (s <= b)%N -> (0 <= dt)%Z -> (decay s dt <= s)%N.

Definition touch_time (t : touch) : Z := match t with THit now _ => now | TLook now => now end.

Lemma looks_decrease b (ts : list touch) : nonincreasing_upto b ->
  forall t s, (s <= b)%N ->
  (forall x, x ∈ ts -> exists u, x = TLook u) ->
  (forall i j x y, i <= j -> ts !! i = Some x -> ts !! j = Some y -> (touch_time x <= touch_time y)%Z) ->
  (forall x, ts !! 0 = Some x -> (t <= touch_time x)%Z) ->
  exists t' s', fold_left (touch1 decay) ts (Some (t, s)) = Some (t', s') /\ (s' <= s)%N.
Proof.
  intros Hd. induction ts as [|x ts IH]; intros t s Hs Hlook Hmono Hfst; simpl.
  - exists t, s. split; [done|lia].
  - destruct (Hlook x) as [u ->]; [set_solver|]. simpl.
    assert (Htu : (t <= u)%Z) by (apply (Hfst (TLook u)); done).
    assert (Hle : (decay s (time_sub u t) <= s)%N).
    { apply Hd; [done|]. unfold time_sub, min_i64, max_i64. lia. }
    destruct (IH u (decay s (time_sub u t))) as (t' & s' & -> & Hs').
    + lia.
    + intros y Hy. apply Hlook. set_solver.
    + intros i j y z Hij Hi Hj. apply (Hmono (S i) (S j)); auto. lia.
    + intros y Hy. apply (Hmono 0 1 (TLook u) y); auto.
    + exists t', s'. split; [done|lia].
Qed.

(** ** No wrap-around below the limit *)
Lemma ledger_bound b (m : N) (ts : list touch) : nonincreasing_upto b ->
  (forall i j x y, i <= j -> ts !! i = Some x -> ts !! j = Some y -> (touch_time x <= touch_time y)%Z) ->
  (forall now x, THit now x ∈ ts -> (x <= m)%N) ->
  (N.of_nat (length ts) * m <= b)%N -> (b < two64)%N ->
  (ledger_score (ledger_of decay ts) <= N.of_nat (length ts) * m)%N /\
  (forall t s x, ledger_of decay ts = Some (t, s) -> last ts = Some x -> t = touch_time x).
Proof.
  intros Hd. unfold ledger_of. induction ts as [|x ts IH] using rev_ind; intros Hmono Hm Hb H64.
  - simpl. split; [lia|done].
  - assert (Hb' : (N.of_nat (length ts) * m <= b)%N) by (rewrite app_length in Hb; simpl in Hb; lia).
    destruct IH as [IH1 IH2]; auto.
    { intros i j y z Hij Hi Hj. apply (Hmono i j); auto; apply lookup_app_l_Some; done. }
    { intros now y Hy. apply (Hm now y). set_solver. }
    rewrite fold_left_app. cbn [fold_left]. rewrite last_snoc.
    set (l := fold_left (touch1 decay) ts None) in *.
    assert (Hsc : (ledger_score (look decay (touch_time x) l) <= N.of_nat (length ts) * m)%N).
    { destruct l as [[t s]|] eqn:Hl; [|simpl; lia]. simpl. simpl in IH1.
      assert (Htx : (t <= touch_time x)%Z).
      { destruct (last ts) as [y|] eqn:Hlast.
        - rewrite (IH2 t s y eq_refl eq_refl). rewrite last_lookup in Hlast.
          assert (length ts <> 0) by (intros E; destruct ts; [done|simpl in E; lia]).
          apply (Hmono (Nat.pred (length ts)) (length ts)); [lia| |].
          + apply lookup_app_l_Some. done.
          + apply list_lookup_middle. done.
        - apply last_None in Hlast. subst ts. unfold l in *. done. }
      transitivity s; [|done]. apply Hd; [lia|]. unfold time_sub, min_i64, max_i64. lia. }
    rewrite app_length in Hb |- *. simpl (length [x]) in *.
    assert (Hmul : (N.of_nat (length ts + 1) * m = N.of_nat (length ts) * m + m)%N) by lia.
    rewrite Hmul in Hb |- *.
    destruct x as [now y|now]; simpl in *.
    + assert (Hy : (y <= m)%N) by (apply (Hm now); set_solver).
      split.
      * unfold hit. destruct (look decay now l) as [[t s]|]; simpl in *; [|lia].
        unfold add64. rewrite N.mod_small; lia.
      * intros t s z Ht [= <-]. simpl. unfold hit, look in Ht. destruct l as [[t0 s0]|]; simpl in *; congruence.
    + split; [lia|]. intros t s z Ht [= <-]. simpl. unfold look in Ht. destruct l as [[t0 s0]|]; simpl in *; congruence.
Qed.
End proofs.
