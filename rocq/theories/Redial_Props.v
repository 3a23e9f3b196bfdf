(** Property theorems C130: how soon a seed that is not connected is dialled. *)
From Verif Require Import GoBase ErrHandler_Model ConnMgr_Model ConnMgr_Spec ConnMgr_Proofs Redial_Model Redial_Spec.

Local Lemma log_grows s lab s' : cm_step s lab = Some s' -> exists new, cm_log s' = new ++ cm_log s.
Proof.
  destruct s as [sd st m pe nx bl ca se cc lg]. intros Hst. cm_cases Hst lab; subst;
    first [by exists []|by eexists [_]|by eexists [_; _]|by eexists [_; _; _]|idtac].
  eexists (_ ++ [_]). by rewrite <- app_assoc.
Qed.
Local Lemma log_run r : forall s s', cm_run s r = Some s' -> exists new, cm_log s' = new ++ cm_log s.
Proof.
  induction r as [|lab r IH]; intros s s' Hr; cbn [cm_run] in Hr; [injection Hr as <-; by exists []|].
  destruct (cm_step s lab) as [s1|] eqn:H1; [|done]. destruct (log_grows _ _ _ H1) as [n1 E1]. destruct (IH _ _ Hr) as [n2 E2].
  exists (n2 ++ n1). by rewrite E2, E1, app_assoc.
Qed.
Local Lemma away_none initial existing s p : cm_reach initial existing s -> away p s -> cm_peers s !! p = None.
Proof.
  intros Hr Ha. destruct (Inv1_reach _ _ _ Hr) as [H1 _]. unfold away in Ha. destruct (cm_manager s); try (by rewrite H1);
    specialize (H1 p); destruct (cm_peers s !! p) as [[? ?]|]; try done; by destruct H1.
Qed.

Local Lemma seed_moves s lab s' : cm_step s lab = Some s' -> cm_starter s = None -> cm_cancelled s = false -> lab <> LCancel ->
  (cm_seed s' = cm_seed s /\ forall q a, cm_manager s = MReplying BySeeds q a -> cm_manager s' = cm_manager s) \/
  (exists order, cm_seed s = SdPausing /\ cm_seed s' = SdNext order /\ NoDup order /\ forall x, x ∈ order <-> x ∈ cm_seeds s) \/
  (exists x todo, cm_seed s = SdNext (x :: todo) /\ cm_seed s' = SdSending x todo) \/
  (cm_seed s = SdNext [] /\ cm_seed s' = SdPausing) \/
  (exists x todo, cm_seed s = SdSending x todo /\ cm_seed s' = SdWaiting x todo /\ cm_manager s' = MReplying BySeeds (QIs x) (answer_to (cm_peers s) (QIs x))) \/
  (exists x todo q b, cm_seed s = SdWaiting x todo /\ cm_manager s = MReplying BySeeds q (AIs b) /\
     ((b = true /\ cm_seed s' = SdNext todo) \/ (b = false /\ cm_seed s' = SdDialing x todo /\ exists k, cm_log s' = GDial x :: k ++ cm_log s))) \/
  (exists x todo, cm_seed s = SdDialing x todo /\ cm_seed s' = SdNext todo).
Proof.
  destruct s as [sd st m pe nx bl ca se cc lg]. cbn [cm_seeds cm_starter cm_manager cm_peers cm_seed cm_cancelled]. intros Hst Est Ecc Hl.
  cm_cases Hst lab; subst; try done; try (left; split; [reflexivity|]; intros; first [reflexivity|discriminate]).
  - do 4 right. left. by eexists _, _.
  - do 5 right. left. eexists _, _, _, _. split; [done|]. split; [done|]. by left.
  - do 5 right. left. eexists _, _, _, _. split; [done|]. split; [done|]. right. split; [done|]. split; [done|]. by eexists [_; _].
  - right. left. eexists. split; [done|]. split; [done|].
    match goal with H : _ && _ = true |- _ => apply andb_true_iff in H as [G1 G2]; apply bool_decide_eq_true in G1, G2 end. split; [done|].
    intros x. rewrite <- !(elem_of_list_to_set (C := gset string)). by rewrite G2.
  - do 3 right. by left.
  - do 2 right. left. by eexists _, _.
  - do 6 right. by eexists _, _.
Qed.
Section redial.
Context (initial : list string) (existing : list conn) (Q D : Z) (HQ : (0 <= Q)%Z) (HD : (0 <= D)%Z) (p : string) (Hp : p ∈ initial).
Let V : Z := (3 * Q + D)%Z.
Let n : Z := Z.of_nat (length (remove_dups initial)).
Definition len (l : list string) : Z := Z.of_nat (length l).
(** what is left of the round, at most *)
Definition left_of (c : seed_ctl) : Z :=
  match c with
  | SdNext todo => len todo * V
  | SdSending _ todo => 2 * Q + D + len todo * V
  | SdWaiting _ todo => Q + D + len todo * V
  | SdDialing _ todo => D + len todo * V
  | SdPausing | SdNotStarted => 0
  end%Z.
(** [p] will be dialled in this round *)
Definition due (s : cm) : Prop :=
  match cm_seed s with
  | SdNext todo | SdDialing _ todo => p ∈ todo
  | SdSending x todo => x = p \/ p ∈ todo
  | SdWaiting x todo => (x = p /\ cm_manager s = MReplying BySeeds (QIs p) (AIs false)) \/ p ∈ todo
  | SdPausing | SdNotStarted => False
  end.
Definition owed (s : cm) (X : Z) : Prop :=
  match cm_seed s with
  | SdNotStarted => False
  | SdPausing => (10 * second + n * V <= X)%Z
  | c => (due s /\ (left_of c <= X)%Z) \/ (left_of c + Q + 10 * second + n * V <= X)%Z
  end.
Local Lemma order_len (order : list string) : NoDup order -> (forall x, x ∈ order -> x ∈ initial) -> (len order <= n)%Z.
Proof.
  intros H1 H2. unfold len, n. apply inj_le. apply submseteq_length, NoDup_submseteq; [done|]. intros x Hx. apply elem_of_remove_dups. by apply H2.
Qed.
Local Lemma order_len1 (order : list string) : NoDup order -> (forall x, x ∈ order -> x ∈ initial) -> p ∉ order -> (len order + 1 <= n)%Z.
Proof.
  intros H1 H2 H3. pose proof (order_len (p :: order)) as H. unfold len in *. cbn [length] in H. rewrite Nat2Z.inj_succ in H.
  assert (Z.succ (Z.of_nat (length order)) <= n)%Z; [|lia]. apply H; [by constructor|]. intros x [->|Hx]%elem_of_cons; [done|by apply H2].
Qed.
Local Lemma owed_step s t since lab s' X : cm_reach initial existing s -> away p s -> cm_cancelled s = false -> lab <> LCancel -> cm_step s lab = Some s' ->
  seed_may_last Q D (cm_seed s) (t - since) -> owed s X ->
  (exists k, cm_log s' = GDial p :: k ++ cm_log s) \/ (cm_seed s = cm_seed s' /\ owed s' X) \/ (cm_seed s <> cm_seed s' /\ owed s' (since + X - t)).
Proof.
  intros Hr Ha Hc Hl Hst Hm Ho. pose proof (away_none _ _ _ _ Hr Ha) as Hpe. pose proof (proj1 (Inv4_reach _ _ _ Hr)) as Hseeds. pose proof (Inv0_reach _ _ _ Hr) as H0.
  clear Hr Ha.
  assert (HV : (0 <= V)%Z) by (unfold V; lia). assert (Hn : (0 <= n * V)%Z) by (unfold n; lia).
  assert (Hst0 : cm_starter s = None). { unfold Inv0 in H0. destruct (cm_starter s); [|done]. destruct H0 as (_ & _ & H0 & _). unfold owed in Ho. by rewrite H0 in Ho. }
  clear H0. assert (Hlen : forall x (l : list string), len (x :: l) = (len l + 1)%Z) by (intros x l; unfold len; cbn [length]; lia).
  destruct (seed_moves s lab s' Hst Hst0 Hc Hl) as [[E1 E2]|[(order & E1 & E2 & E3 & E4)|[(x & todo & E1 & E2)|[(E1 & E2)|[(x & todo & E1 & E2 & E3)|[(x & todo & q & b & E1 & E2 & E3)|(x & todo & E1 & E2)]]]]]].
  - right. left. split; [done|]. unfold owed, due in *. rewrite E1. destruct (cm_seed s) as [|todo|x todo|x todo|x todo|]; try exact Ho.
    destruct Ho as [[[[-> Hm2]|Hin] Ho]|Ho]; [left; split; [|done]; left; split; [done|]; by rewrite (E2 _ _ Hm2)|left; split; [by right|done]|by right].
  - right. right. rewrite E1 in *. split; [by rewrite E2|]. unfold owed, due in *. rewrite E2. rewrite E1 in Ho. cbn [left_of seed_may_last] in *; unfold seed_pause in *. left.
    rewrite Hseeds in E4. split; [apply E4; by apply elem_of_remove_dups|].
    assert (len order <= n)%Z. { apply order_len; [done|]. intros y Hy. apply elem_of_remove_dups. by apply E4. }
    assert (len order * V <= n * V)%Z by (by apply Z.mul_le_mono_nonneg_r). lia.
  - right. right. rewrite E1 in *. split; [by rewrite E2|]. unfold owed, due in *. rewrite E2. rewrite E1 in Ho. cbn [left_of seed_may_last] in *; unfold seed_pause in *. rewrite Hlen in Ho.
    rewrite Z.mul_add_distr_r, Z.mul_1_l in Ho. assert (V = 3 * Q + D)%Z by done.
    destruct Ho as [[Hin Ho]|Ho]; [left; split; [apply elem_of_cons in Hin as [->|Hin]; auto|lia]|right; lia].
  - right. right. rewrite E1 in *. split; [by rewrite E2|]. unfold owed, due in *. rewrite E2. rewrite E1 in Ho. cbn [left_of seed_may_last] in *; unfold seed_pause in *.
    destruct Ho as [[Hin Ho]|Ho]; [by apply elem_of_nil in Hin|]. change (len []) with 0%Z in Ho. lia.
  - right. right. rewrite E1 in *. split; [by rewrite E2|]. unfold owed, due in *. rewrite E2. rewrite E1 in Ho. cbn [left_of seed_may_last] in *; unfold seed_pause in *.
    destruct Ho as [[Hin Ho]|Ho]; [left; split; [|lia]|right; lia]. destruct Hin as [->|Hin]; [left|by right]. split; [done|]. rewrite E3. cbn [answer_to]. by rewrite Hpe.
  - destruct (decide (b = false /\ x = p)) as [[-> ->]|Hnb]; [left; by destruct E3 as [[? _]|(_ & _ & ?)]|].
    right. right. rewrite E1 in *. unfold owed, due in *. rewrite E1 in Ho. cbn [left_of seed_may_last] in *; unfold seed_pause in *.
    assert (Hin : ((x = p /\ cm_manager s = MReplying BySeeds (QIs p) (AIs false)) \/ p ∈ todo) -> p ∈ todo).
    { intros [[-> G]|G]; [|done]. rewrite E2 in G. injection G as _ ->. by destruct Hnb. }
    destruct E3 as [[_ E3]|(_ & E3 & _)]; rewrite E3; (split; [done|]); (destruct Ho as [[Hi Ho]|Ho]; [left; split; [by apply Hin|cbn [left_of]; lia]|right; cbn [left_of]; lia]).
  - right. right. rewrite E1 in *. split; [by rewrite E2|]. unfold owed, due in *. rewrite E2. rewrite E1 in Ho. cbn [left_of seed_may_last] in *; unfold seed_pause in *.
    destruct Ho as [[Hin Ho]|Ho]; [left; split; [done|lia]|right; lia].
Qed.
Local Lemma redial r : forall now since s until s' X, cm_reach initial existing s -> cm_cancelled s = false -> LCancel ∉ map snd r -> cm_run s (map snd r) = Some s' ->
  seeds_in_time Q D s now since r until -> away_throughout p s (map snd r) -> owed s X -> (since + X < until)%Z -> dialled p s s'.
Proof.
  induction r as [|[t lab] r IH]; intros now since s until s' X Hr Hc Hl Hrun Hin Haw Ho Hun.
  - exfalso. destruct Hin as [_ Hm]. assert (HV : (0 <= V)%Z) by (unfold V; lia). assert (Hn : (0 <= n * V)%Z) by (unfold n; lia).
    assert (Hsec : (0 <= second)%Z) by done.
    unfold owed in Ho. destruct (cm_seed s) as [|todo|x todo|x todo|x todo|] eqn:Es; cbn [seed_may_last left_of] in *; unfold seed_pause in *; try done; [| | | |lia];
      (assert (0 <= len todo * V)%Z by (unfold len; lia)).
    + destruct Ho as [[Hi Ho]|Ho]; [|lia]. unfold due in Hi. rewrite Es in Hi. destruct todo as [|y todo]; [by apply elem_of_nil in Hi|].
      assert (len (y :: todo) * V = len todo * V + V)%Z by (unfold len; cbn [length]; lia). assert (0 <= len todo * V)%Z by (unfold len; lia). unfold V in *. lia.
    + destruct Ho as [[Hi Ho]|Ho]; lia.
    + destruct Ho as [[Hi Ho]|Ho]; lia.
    + destruct Ho as [[Hi Ho]|Ho]; lia.
  - cbn [map snd cm_run seeds_in_time away_throughout] in *. destruct (cm_step s lab) as [s1|] eqn:H1; [|done].
    apply not_elem_of_cons in Hl as [Hl1 Hl]. destruct Hin as (Hn & Hm & Hin). destruct Haw as (Ha & Haw).
    assert (Hr1 : cm_reach initial existing s1). { destruct Hr as [l Hr]. exists (l ++ [lab]). rewrite cm_run_app, Hr. cbn [cm_run]. by rewrite H1. }
    assert (Hc1 : cm_cancelled s1 = false).
    { clear -H1 Hc Hl1. destruct s as [sd st m pe nx bl ca se cc lg]. cbn [cm_cancelled] in Hc. cm_cases H1 lab; subst; done. }
    destruct (log_grows _ _ _ H1) as [new1 E1]. destruct (log_run _ _ _ Hrun) as [new2 E2].
    destruct (owed_step s t since lab s1 X Hr Ha Hc (not_eq_sym Hl1) H1 Hm Ho) as [Hd|[[E Ho1]|[E Ho1]]].
    + destruct Hd as [k Hd]. exists (new2 ++ GDial p :: k). split; [by rewrite E2, Hd, <- app_assoc|]. apply elem_of_app. right. left.
    + rewrite decide_True in Hin by done. destruct (IH t since s1 until s' X Hr1 Hc1 Hl Hrun Hin Haw Ho1 Hun) as (k & Ek & Hk). exists (k ++ new1).
      split; [by rewrite Ek, E1, app_assoc|]. apply elem_of_app. by left.
    + rewrite decide_False in Hin by done. destruct (IH t t s1 until s' (since + X - t)%Z Hr1 Hc1 Hl Hrun Hin Haw Ho1) as (k & Ek & Hk); [lia|]. exists (k ++ new1).
      split; [by rewrite Ek, E1, app_assoc|]. apply elem_of_app. by left.
Qed.
End redial.

(** ** C130: a configured peer that is not connected from [t0] on is dialled before ten seconds and two rounds have passed, whatever the
    other peers and callers do; as this holds for every [t0], again and again. *)
Theorem C130_redialled : forall initial existing Q D s t0 r until s' p, (0 <= Q)%Z -> (0 <= D)%Z -> cm_reach initial existing s -> p ∈ initial ->
  cm_seed s <> SdNotStarted -> cm_cancelled s = false -> LCancel ∉ map snd r -> cm_run s (map snd r) = Some s' -> seeds_in_time Q D s t0 t0 r until ->
  away_throughout p s (map snd r) -> (t0 + 10 * second + 2 * (Z.of_nat (length (remove_dups initial)) * (3 * Q + D)) < until)%Z -> dialled p s s'.
Proof.
  intros initial existing Q D s t0 r until s' p HQ HD Hr Hp Hns Hc Hl Hrun Hin Haw Hun.
  set (n := Z.of_nat (length (remove_dups initial))) in *. set (V := (3 * Q + D)%Z) in *.
  eapply (redial initial existing Q D HQ HD p Hp r t0 t0 s until s' (10 * second + 2 * (n * V))%Z Hr Hc Hl Hrun Hin Haw); [|lia].
  pose proof (proj2 (Inv4_reach _ _ _ Hr)) as HS. unfold owed, due. assert (HV : (0 <= V)%Z) by (unfold V; lia). assert (HVe : V = (3 * Q + D)%Z) by done.
  assert (Hsec : (0 <= second)%Z) by done. assert (Hn0 : (0 <= n * V)%Z) by (unfold n; lia). fold V n.
  assert (Hfull : forall l : list string, NoDup l -> (forall x, x ∈ l -> x ∈ initial) -> (len l * V <= n * V)%Z).
  { intros l H1 H2. apply Z.mul_le_mono_nonneg_r; [done|]. by apply order_len. }
  assert (Hless : forall l : list string, NoDup l -> (forall x, x ∈ l -> x ∈ initial) -> p ∉ l -> (len l * V + V <= n * V)%Z).
  { intros l H1 H2 H3. pose proof (order_len1 initial Q D p Hp l H1 H2 H3). assert ((len l + 1) * V <= n * V)%Z by (by apply Z.mul_le_mono_nonneg_r). lia. }
  assert (Hround : forall l (t : list obs), in_round initial l t -> NoDup l /\ forall x, x ∈ l -> x ∈ initial).
  { intros l t (vs & G1 & G2 & _). apply NoDup_app in G1 as (_ & _ & G1). split; [done|]. intros x Hx. apply G2, elem_of_app. by right. }
  assert (Hlen : forall x (l : list string), (len (x :: l) * V = len l * V + V)%Z) by (intros x l; unfold len; cbn [length]; lia).
  destruct (cm_seed s) as [|todo|x todo|x todo|x todo|]; cbn [round_state left_of] in *; fold V; [done| | | | |lia].
  - destruct HS as (rs & t & _ & HR & _). destruct (Hround _ _ HR) as [G1 G2]. destruct (decide (p ∈ todo)) as [Hi|Hi].
    + left. split; [done|]. specialize (Hfull _ G1 G2). lia.
    + right. specialize (Hless _ G1 G2 Hi). lia.
  - destruct HS as (rs & t & _ & HR & _). destruct (Hround _ _ HR) as [G1 G2]. specialize (Hfull _ G1 G2). rewrite Hlen in Hfull. destruct (decide (p ∈ x :: todo)) as [Hi|Hi].
    + left. split; [apply elem_of_cons in Hi as [->|Hi]; auto|]. lia.
    + right. specialize (Hless _ G1 G2 Hi). rewrite Hlen in Hless. lia.
  - destruct HS as (rs & t & _ & HR & _). destruct (Hround _ _ HR) as [G1 G2]. specialize (Hfull _ G1 G2). rewrite Hlen in Hfull. destruct (decide (p ∈ todo)) as [Hi|Hi].
    + left. split; [by right|]. lia.
    + right. lia.
  - destruct HS as (rs & t & _ & HR & _). destruct (Hround _ _ HR) as [G1 G2]. destruct (decide (p ∈ todo)) as [Hi|Hi].
    + left. split; [done|]. specialize (Hfull _ G1 G2).
      assert (V <= n * V)%Z. { rewrite <- (Z.mul_1_l V) at 1. apply Z.mul_le_mono_nonneg_r; [done|]. pose proof (order_len initial [p] (NoDup_singleton p)) as G. apply G. intros y Hy. by apply elem_of_list_singleton in Hy as ->. }
      lia.
    + right. specialize (Hless _ G1 G2 Hi). lia.
Qed.
Print Assumptions C130_redialled.

(** Non-vacuity: the question about [p] is answered just before [p] goes away, so this round leaves [p] out; dialling [q] takes five seconds,
    in this round and in the next, and only then [p] is dialled. *)
Local Definition gone : conn := Conn "p" (Maddr "/ip4/1.1.1.1" ["/tcp/1"]) 0.
Local Definition before : list cm_label :=
  [LStarted; LNotify (NConnected gone); LTakeEvent 0; LRound ["p"; "q"]; LSeedAsk; LTakeSeed; LNotify (NDisconnected gone); LReply; LTakeEvent 0].
Local Definition slow : csched :=
  [(0, LSeedAsk); (0, LTakeSeed); (1 * second, LReply); (6 * second, LDialed); (6 * second, LSeedAsk); (16 * second, LRound ["q"; "p"]);
   (16 * second, LSeedAsk); (16 * second, LTakeSeed); (16 * second, LReply); (21 * second, LDialed); (21 * second, LSeedAsk); (22 * second, LTakeSeed); (23 * second, LReply);
   (28 * second, LDialed); (29 * second, LSeedAsk); (38 * second, LRound ["p"; "q"]); (38 * second, LSeedAsk); (38 * second, LTakeSeed); (38 * second, LReply); (43 * second, LDialed)]%Z.
Local Definition run_to (s : cm) (l : list cm_label) : cm := default s (cm_run s l).
Example C130_nonvacuous : exists s s', cm_reach ["p"; "q"] [] s /\ "p" ∈ ["p"; "q"] /\ cm_seed s = SdNext ["q"] /\ cm_cancelled s = false /\ LCancel ∉ map snd slow /\
  cm_run s (map snd slow) = Some s' /\ seeds_in_time second (5 * second) s 0 0 slow (43 * second) /\ away_throughout "p" s (map snd slow) /\
  (0 + 10 * second + 2 * (Z.of_nat (length (remove_dups ["p"; "q"])) * (3 * second + 5 * second)) < 43 * second)%Z /\ dialled "p" s s' /\
  (exists s1, cm_run s (map snd (take 12 slow)) = Some s1 /\ cm_log s1 = [GDial "q"; GSeed "q" false; GAnswer BySeeds (QIs "q") (AIs false); GRound; GDial "q"; GSeed "q" false; GAnswer BySeeds (QIs "q") (AIs false)] ++ cm_log s).
Proof.
  exists (run_to (cm_init ["p"; "q"] []) before), (run_to (run_to (cm_init ["p"; "q"] []) before) (map snd slow)).
  split; [exists before; vm_compute; reflexivity|]. split; [left|]. split; [vm_compute; reflexivity|]. split; [vm_compute; reflexivity|].
  split; [intros H; unfold slow in H; cbn [map snd] in H; repeat (apply elem_of_cons in H as [H|H]; [discriminate H|]); exact (not_elem_of_nil _ H)|].
  split; [vm_compute; reflexivity|]. split; [vm_compute; repeat split; discriminate|]. split.
  { assert (G : forall r s, (fix chk s r := bool_decide (net_history (rev (cm_log s)) = [NConnected gone; NDisconnected gone]) &&
        match r with [] => true | lab :: r => match cm_step s lab with Some s' => chk s' r | None => false end end) s r = true -> away_throughout "p" s r).
    { induction r as [|lab r IH]; intros s H; apply andb_true_iff in H as [H1 H2]; apply bool_decide_eq_true in H1; cbn [away_throughout].
      - split; [|done]. unfold away. rewrite H1. intros (h1 & c & h2 & E & _ & HF). destruct h1 as [|? [|? [|]]]; try discriminate E.
        injection E as <- <-. apply Forall_cons in HF as [HF _]. by apply HF.
      - split; [|destruct (cm_step s lab); [by apply IH|done]]. unfold away. rewrite H1. intros (h1 & c & h2 & E & _ & HF). destruct h1 as [|? [|? [|]]]; try discriminate E.
        injection E as <- <-. apply Forall_cons in HF as [HF _]. by apply HF. }
    apply G. vm_compute. reflexivity. }
  split; [vm_compute; reflexivity|]. split; [|eexists; split; vm_compute; reflexivity].
  set (s' := run_to _ (map snd slow)). set (s := run_to _ before). exists (take (length (cm_log s') - length (cm_log s)) (cm_log s')).
  split; [vm_compute; reflexivity|]. apply elem_of_list_In. vm_compute. tauto.
Qed.

(** ** How often: C130 and C131 *)
Local Definition count (p : string) (s : cm) : nat := dials_of p (cm_log s).
Local Lemma dialled_count p s s' : dialled p s s' -> count p s < count p s'.
Proof.
  intros (new & E & Hin). unfold count, dials_of. rewrite E, List.filter_app, app_length. apply elem_of_list_In in Hin.
  assert (In (GDial p) (List.filter (fun x => match x with GDial q => bool_decide (q = p) | _ => false end) new)).
  { apply filter_In. split; [done|]. by apply bool_decide_eq_true. }
  destruct (List.filter _ new); [done|]. cbn [length]. lia.
Qed.

(** ... and how often: cut the time into pieces *)
Local Lemma may_last_mono Q D c d d' : seed_may_last Q D c d -> (d' <= d)%Z -> seed_may_last Q D c d'.
Proof. destruct c; cbn [seed_may_last]; lia || done. Qed.
Local Lemma later_since Q D r : forall s now since since' until, seeds_in_time Q D s now since r until -> (since <= since')%Z -> seeds_in_time Q D s now since' r until.
Proof.
  induction r as [|[t lab] r IH]; intros s now since since' until H Hle; cbn [seeds_in_time] in *.
  - destruct H as [H1 H2]. split; [done|]. eapply may_last_mono; [done|lia].
  - destruct H as (H1 & H2 & H3). split; [done|]. split; [eapply may_last_mono; [done|lia]|]. destruct (cm_step s lab) as [s1|]; [|done].
    eapply IH; [exact H3|]. destruct (decide _); lia.
Qed.
Local Lemma cut Q D r : forall s now since until mid, seeds_in_time Q D s now since r until -> (now <= mid <= until)%Z -> (since <= now)%Z ->
  exists r1 r2 s1, r = r1 ++ r2 /\ cm_run s (map snd r1) = Some s1 /\ seeds_in_time Q D s now since r1 mid /\ seeds_in_time Q D s1 mid mid r2 until.
Proof.
  induction r as [|[t lab] r IH]; intros s now since until mid H Hm Hs.
  - exists [], [], s. cbn [seeds_in_time map cm_run app] in *. destruct H as [H1 H2].
    repeat split; try done; try lia; eapply may_last_mono; try done; lia.
  - destruct (decide (mid < t)%Z) as [Hlt|Hlt].
    + exists [], ((t, lab) :: r), s. split; [done|]. split; [done|]. cbn [seeds_in_time] in *. destruct H as (H1 & H2 & H3).
      split; [split; [lia|]; eapply may_last_mono; [done|lia]|]. split; [lia|]. split; [eapply may_last_mono; [done|lia]|].
      destruct (cm_step s lab) as [s1|]; [|done]. eapply later_since; [exact H3|]. destruct (decide _); lia.
    + cbn [seeds_in_time] in H. destruct H as (H1 & H2 & H3). destruct (cm_step s lab) as [s1|] eqn:E; [|done].
      destruct (IH s1 t _ until mid H3) as (r1 & r2 & s2 & -> & G2 & G3 & G4); [lia|destruct (decide _); lia|].
      exists ((t, lab) :: r1), r2, s2. split; [done|]. cbn [map snd cm_run seeds_in_time]. rewrite E. done.
Qed.
Local Lemma away_cut p r1 : forall s r2 s1, away_throughout p s (r1 ++ r2) -> cm_run s r1 = Some s1 -> away_throughout p s r1 /\ away_throughout p s1 r2.
Proof.
  induction r1 as [|lab r1 IH]; intros s r2 s1 H Hr; cbn [app cm_run away_throughout] in *.
  - injection Hr as <-. split; [|done]. split; [|done]. by destruct r2; destruct H.
  - destruct H as [H1 H2]. destruct (cm_step s lab) as [s'|]; [|done]. destruct (IH _ _ _ H2 Hr) as [G1 G2]. done.
Qed.
Local Lemma goes_on r : forall s s', cm_run s r = Some s' -> LCancel ∉ r -> cm_cancelled s = false -> cm_seed s <> SdNotStarted -> cm_cancelled s' = false /\ cm_seed s' <> SdNotStarted.
Proof.
  induction r as [|lab r IH]; intros s s' Hr Hl Hc Hn; cbn [cm_run] in Hr; [by injection Hr as <-|].
  destruct (cm_step s lab) as [s1|] eqn:E; [|done]. apply not_elem_of_cons in Hl as [Hl1 Hl]. 
  assert (cm_cancelled s1 = false /\ cm_seed s1 <> SdNotStarted) as [G1 G2]; [|by eapply IH].
  clear -E Hc Hl1 Hn. destruct s as [sd st m pe nx bl ca se cc lg]. cbn [cm_cancelled cm_seed] in *. cm_cases E lab; subst; done.
Qed.
(** In [k] times the bound of C130, a peer that is not connected all that time is dialled at least [k] times. *)
Theorem C130_again_and_again : forall initial existing Q D k s t0 r until s' new p, (0 <= Q)%Z -> (0 <= D)%Z -> cm_reach initial existing s -> p ∈ initial ->
  cm_seed s <> SdNotStarted -> cm_cancelled s = false -> LCancel ∉ map snd r -> cm_run s (map snd r) = Some s' -> seeds_in_time Q D s t0 t0 r until ->
  away_throughout p s (map snd r) -> cm_log s' = new ++ cm_log s ->
  (t0 + Z.of_nat k * (10 * second + 2 * (Z.of_nat (length (remove_dups initial)) * (3 * Q + D)) + 1) <= until)%Z -> k <= dials_of p new.
Proof.
  intros initial existing Q D k. set (B := (10 * second + 2 * (Z.of_nat (length (remove_dups initial)) * (3 * Q + D)))%Z).
  intros s t0 r until s' new p HQ HD Hr Hp Hns Hc Hl Hrun Hin Haw Hnew Hun.
  assert (HB : (0 <= B)%Z). { unfold B. assert (Hsec : (0 <= second)%Z) by done. assert (0 <= Z.of_nat (length (remove_dups initial)) * (3 * Q + D))%Z by lia. lia. }
  assert (Hgo : count p s + k <= count p s').
  2: { unfold count, dials_of in *. rewrite Hnew, List.filter_app, app_length in Hgo. lia. }
  clear new Hnew. revert s t0 r Hr Hns Hc Hl Hrun Hin Haw Hun. induction k as [|k IH]; intros s t0 r Hr Hns Hc Hl Hrun Hin Haw Hun.
  - destruct (log_run _ _ _ Hrun) as [new E]. unfold count, dials_of. rewrite E, List.filter_app, app_length. lia.
  - destruct (cut Q D r s t0 t0 until (t0 + B + 1) Hin) as (r1 & r2 & s1 & -> & H1 & H2 & H3); [lia|lia|].
    rewrite map_app in *. rewrite cm_run_app, H1 in Hrun. destruct (away_cut _ _ _ _ _ Haw H1) as [Ha1 Ha2].
    apply not_elem_of_app in Hl as [Hl1 Hl2]. destruct (goes_on _ _ _ H1 Hl1 Hc Hns) as [Hc1 Hn1].
    pose proof (C130_redialled initial existing Q D s t0 r1 _ s1 p HQ HD Hr Hp Hns Hc Hl1 H1 H2 Ha1) as Hd. fold B in Hd. specialize (Hd ltac:(lia)). apply dialled_count in Hd.
    assert (Hr1 : cm_reach initial existing s1). { destruct Hr as [l Hr]. exists (l ++ map snd r1). by rewrite cm_run_app, Hr. }
    specialize (IH s1 _ r2 Hr1 Hn1 Hc1 Hl2 Hrun H3 Ha2 ltac:(lia)). lia.
Qed.
Print Assumptions C130_again_and_again.

Local Lemma count_step p s lab s' : cm_step s lab = Some s' -> cm_cancelled s = false ->
  count p s' = count p s \/ (count p s' = S (count p s) /\ exists todo, cm_seed s = SdWaiting p todo /\ cm_seed s' = SdDialing p todo).
Proof.
  intros Hst Hc. destruct s as [sd st m pe nx bl ca se cc lg]. unfold count, dials_of. cbn [cm_cancelled cm_log cm_seed] in *.
  cm_cases Hst lab; subst; cbn [List.filter length]; try (by left); try done.
  case_bool_decide as E; cbn [length]; [|by left]. subst. right. split; [done|]. by eexists.
Qed.
Local Lemma dial_step p s lab s' : cm_step s lab = Some s' -> cm_cancelled s = false -> dialled p s s' -> exists todo, cm_seed s = SdWaiting p todo /\ cm_seed s' = SdDialing p todo.
Proof. intros Hst Hc Hd%dialled_count. destruct (count_step p _ _ _ Hst Hc) as [E|[_ E]]; [lia|done]. Qed.
Definition to_visit (c : seed_ctl) : list string :=
  match c with SdNext todo | SdDialing _ todo => todo | SdSending x todo | SdWaiting x todo => x :: todo | SdPausing | SdNotStarted => [] end.
Local Lemma too_soon initial existing p t1 r : forall now since s t2 lab2 s2 s3, cm_reach initial existing s -> cm_cancelled s = false -> cm_starter s = None -> LCancel ∉ map snd r ->
  cm_run s (map snd r) = Some s2 -> cm_step s2 lab2 = Some s3 -> dialled p s2 s3 -> pauses_kept s now since (r ++ [(t2, lab2)]) ->
  (t1 + 10 * second <= now)%Z \/ (p ∉ to_visit (cm_seed s) /\ (t1 <= since)%Z /\ (t1 <= now)%Z) -> (t1 + 10 * second <= t2)%Z.
Proof.
  induction r as [|[t lab] r IH]; intros now since s t2 lab2 s2 s3 Hr Hc Hst0 Hl Hrun H2 Hd Hk HI.
  - cbn [map cm_run] in Hrun. injection Hrun as <-. cbn [app pauses_kept] in Hk. destruct Hk as (Hn & _ & _). destruct HI as [HI|(HI & _)]; [lia|].
    destruct (dial_step _ _ _ _ H2 Hc Hd) as (todo & E & _). rewrite E in HI. cbn [to_visit] in HI. destruct HI. left.
  - cbn [map snd cm_run app pauses_kept] in *. destruct (cm_step s lab) as [s1|] eqn:H1; [|done]. apply not_elem_of_cons in Hl as [Hl1 Hl]. destruct Hk as (Hn & Hp & Hk).
    assert (Hr1 : cm_reach initial existing s1). { destruct Hr as [l Hr]. exists (l ++ [lab]). rewrite cm_run_app, Hr. cbn [cm_run]. by rewrite H1. }
    assert (Hc1 : cm_cancelled s1 = false /\ cm_starter s1 = None).
    { clear -H1 Hc Hl1 Hst0. destruct s as [sd st m pe nx bl ca se cc lg]. cbn [cm_cancelled cm_starter] in *. cm_cases H1 lab; subst; done. }
    destruct Hc1 as [Hc1 Hst1]. eapply (IH t _ s1 t2 lab2 s2 s3 Hr1 Hc1 Hst1 Hl Hrun H2 Hd Hk).
    destruct HI as [HI|(HI & Hs & Hnow)]; [left; lia|].
    destruct (seed_moves s lab s1 H1 Hst0 Hc (not_eq_sym Hl1)) as [[E1 E2]|[(order & E1 & E2 & E3 & E4)|[(x & todo & E1 & E2)|[(E1 & E2)|[(x & todo & E1 & E2 & E3)|[(x & todo & q & b & E1 & E2 & E3)|(x & todo & E1 & E2)]]]]]].
    + right. rewrite E1. rewrite decide_True by done. split; [done|]. lia.
    + left. assert (exists order, lab = LRound order) as [o' Ho'].
      { clear -H1 E1 E2. destruct s as [sd st m pe nx bl ca se cc lg]. cbn [cm_seed] in E1. revert E1 E2. cm_cases H1 lab; subst; try done; intros E1 E2; first [by eexists|congruence]. }
      specialize (Hp _ Ho'). unfold seed_pause in Hp. lia.
    + right. rewrite E1 in *. rewrite E2. rewrite decide_False by done. split; [exact HI|]. lia.
    + right. rewrite E1 in *. rewrite E2. rewrite decide_False by done. split; [exact HI|]. lia.
    + right. rewrite E1 in *. rewrite E2. rewrite decide_False by done. split; [exact HI|]. lia.
    + right. rewrite E1 in *. cbn [to_visit] in HI. apply not_elem_of_cons in HI as [_ HI]. destruct E3 as [[_ E3]|(_ & E3 & _)]; rewrite E3; (rewrite decide_False by done); (split; [exact HI|lia]).
    + right. rewrite E1 in *. rewrite E2. rewrite decide_False by done. split; [exact HI|]. lia.
Qed.
(** While the node is not being stopped, ten seconds pass from one dial of a configured peer to the next. *)
Theorem C131_not_too_often : forall initial existing s lab1 s1 t1 r s2 lab2 t2 s3 p, cm_reach initial existing s -> cm_cancelled s = false -> LCancel ∉ map snd r -> lab1 <> LCancel ->
  cm_step s lab1 = Some s1 -> dialled p s s1 -> cm_run s1 (map snd r) = Some s2 -> cm_step s2 lab2 = Some s3 -> dialled p s2 s3 ->
  pauses_kept s1 t1 t1 (r ++ [(t2, lab2)]) -> (t1 + 10 * second <= t2)%Z.
Proof.
  intros initial existing s lab1 s1 t1 r s2 lab2 t2 s3 p Hr Hc Hl Hl1 H1 Hd1 Hrun H2 Hd2 Hk.
  destruct (dial_step _ _ _ _ H1 Hc Hd1) as (todo & E1 & E2). destruct (Inv4_reach _ _ _ Hr) as [_ HS]. rewrite E1 in HS. cbn [round_state] in HS.
  destruct HS as (rs & rr & _ & (vs & Hnd & _ & _) & _). apply NoDup_app in Hnd as (_ & _ & Hnd). apply NoDup_cons in Hnd as [Hnin _].
  assert (Hr1 : cm_reach initial existing s1). { destruct Hr as [l Hr]. exists (l ++ [lab1]). rewrite cm_run_app, Hr. cbn [cm_run]. by rewrite H1. }
  assert (Hst0 : cm_starter s1 = None). { pose proof (Inv0_reach _ _ _ Hr1) as H0. unfold Inv0 in H0. destruct (cm_starter s1); [|done]. destruct H0 as (_ & _ & H0 & _). by rewrite E2 in H0. }
  assert (Hc1 : cm_cancelled s1 = false).
  { clear -H1 Hc Hl1. destruct s as [sd st m pe nx bl ca se cc lg]. cbn [cm_cancelled] in Hc. cm_cases H1 lab1; subst; done. }
  eapply (too_soon initial existing p t1 r t1 t1 s1 t2 lab2 s2 s3 Hr1 Hc1 Hst0 Hl Hrun H2 Hd2 Hk). right. rewrite E2. cbn [to_visit]. split; [done|lia].
Qed.
Print Assumptions C131_not_too_often.
(** Not before this a dial of [p] can have used up ten seconds *)
Local Definition base (p : string) (c : seed_ctl) (now since : Z) : Z :=
  if decide (p ∈ to_visit c) then (now - 10 * second)%Z else match c with SdPausing => Z.max since (now - 10 * second) | _ => now end.
Local Lemma rate initial existing p until r : forall now since s s', cm_reach initial existing s -> cm_cancelled s = false -> cm_starter s = None -> LCancel ∉ map snd r ->
  cm_run s (map snd r) = Some s' -> pauses_kept s now since r -> Forall (fun x => (x.1 <= until)%Z) r -> (now <= until)%Z -> (since <= now)%Z ->
  (10 * second * (Z.of_nat (count p s') - Z.of_nat (count p s)) <= until - base p (cm_seed s) now since)%Z.
Proof.
  assert (Hsec : (0 <= second)%Z) by done.
  induction r as [|[t lab] r IH]; intros now since s s' Hr Hc Hst0 Hl Hrun Hk HF Hun Hsin.
  - cbn [map cm_run] in Hrun. injection Hrun as <-. rewrite Z.sub_diag, Z.mul_0_r. unfold base. destruct (decide _); [lia|]. destruct (cm_seed s); lia.
  - cbn [map snd cm_run app pauses_kept] in *. destruct (cm_step s lab) as [s1|] eqn:H1; [|done]. apply not_elem_of_cons in Hl as [Hl1 Hl]. destruct Hk as (Hn & Hp & Hk).
    apply Forall_cons in HF as [Ht HF]. cbn [fst] in Ht.
    assert (Hr1 : cm_reach initial existing s1). { destruct Hr as [l Hr]. exists (l ++ [lab]). rewrite cm_run_app, Hr. cbn [cm_run]. by rewrite H1. }
    assert (Hc1 : cm_cancelled s1 = false /\ cm_starter s1 = None).
    { clear -H1 Hc Hl1 Hst0. destruct s as [sd st m pe nx bl ca se cc lg]. cbn [cm_cancelled cm_starter] in *. cm_cases H1 lab; subst; done. }
    destruct Hc1 as [Hc1 Hst1].
    assert (Hsin1 : ((if decide (cm_seed s = cm_seed s1) then since else t) <= t)%Z) by (case_match; lia).
    specialize (IH t _ s1 s' Hr1 Hc1 Hst1 Hl Hrun Hk HF Ht Hsin1).
    assert (Hgo : (10 * second * (Z.of_nat (count p s1) - Z.of_nat (count p s)) + base p (cm_seed s) now since <= base p (cm_seed s1) t (if decide (cm_seed s = cm_seed s1) then since else t))%Z); [|lia].
    clear IH Hk Hrun HF Hl Hr1 Hc1 Hst1 Hsin1.
    destruct (count_step p _ _ _ H1 Hc) as [Ec|(Ec & todo & E1 & E2)].
    2: { destruct (Inv4_reach _ _ _ Hr) as [_ HS]. rewrite E1 in HS. cbn [round_state] in HS.
         destruct HS as (rs & rr & _ & (vs & Hnd & _ & _) & _). apply NoDup_app in Hnd as (_ & _ & Hnd). apply NoDup_cons in Hnd as [Hnin _].
         rewrite E1, E2, Ec. unfold base. cbn [to_visit]. rewrite (decide_True _ _ (elem_of_list_here p todo)), (decide_False _ _ Hnin). lia. }
    rewrite Ec, Z.sub_diag, Z.mul_0_r, Z.add_0_l. unfold base.
    destruct (seed_moves s lab s1 H1 Hst0 Hc (not_eq_sym Hl1)) as [[E1 E2]|[(order & E1 & E2 & E3 & E4)|[(x & todo & E1 & E2)|[(E1 & E2)|[(x & todo & E1 & E2 & E3)|[(x & todo & q & b & E1 & E2 & E3)|(x & todo & E1 & E2)]]]]]].
    + rewrite E1. rewrite (decide_True _ _ eq_refl). destruct (decide (p ∈ _)); [lia|]. destruct (cm_seed s); lia.
    + assert (exists order, lab = LRound order) as [o' Ho'].
      { clear -H1 E1 E2. destruct s as [sd st m pe nx bl ca se cc lg]. cbn [cm_seed] in E1. revert E1 E2. cm_cases H1 lab; subst; try done; intros E1 E2; first [by eexists|congruence]. }
      specialize (Hp _ Ho'). unfold seed_pause in Hp. rewrite E1, E2. cbn [to_visit]. rewrite (decide_False _ _ (not_elem_of_nil p)). destruct (decide _); lia.
    + rewrite E1, E2. cbn [to_visit]. destruct (decide (p ∈ _)); lia.
    + rewrite E1, E2. cbn [to_visit]. rewrite !(decide_False _ _ (not_elem_of_nil p)). rewrite decide_False by done. lia.
    + rewrite E1, E2. cbn [to_visit]. destruct (decide (p ∈ _)); lia.
    + assert (Hv : to_visit (cm_seed s1) = todo /\ cm_seed s1 <> SdPausing) by (by destruct E3 as [[_ E3]|(_ & E3 & _)]; rewrite E3).
      destruct Hv as [Hv Hnp]. rewrite Hv, E1. cbn [to_visit]. destruct (decide (p ∈ x :: todo)) as [H|H], (decide (p ∈ todo)) as [H'|H']; try lia.
      * destruct (cm_seed s1); lia || done.
      * exfalso. apply H. by right.
      * destruct (cm_seed s1); lia || done.
    + rewrite E1, E2. cbn [to_visit]. destruct (decide (p ∈ _)); lia.
Qed.
(** In any time, at most one dial more than the time has full ten seconds, wherever the seed loop is at the beginning ([since]: since when). *)
Theorem C131_rate : forall initial existing s t0 since r until s' new p, cm_reach initial existing s -> cm_cancelled s = false -> cm_seed s <> SdNotStarted -> LCancel ∉ map snd r ->
  cm_run s (map snd r) = Some s' -> pauses_kept s t0 since r -> (since <= t0 <= until)%Z -> Forall (fun x => (x.1 <= until)%Z) r -> cm_log s' = new ++ cm_log s ->
  (Z.of_nat (dials_of p new) <= (until - t0) / (10 * second) + 1)%Z.
Proof.
  intros initial existing s t0 since r until s' new p Hr Hc Hns Hl Hrun Hk [Hs Hu] HF Hnew.
  assert (Hst0 : cm_starter s = None). { pose proof (Inv0_reach _ _ _ Hr) as H0. unfold Inv0 in H0. destruct (cm_starter s); [|done]. by destruct H0 as (_ & _ & H0 & _). }
  pose proof (rate initial existing p until r t0 since s s' Hr Hc Hst0 Hl Hrun Hk HF Hu Hs) as H.
  assert (Hb : (t0 - 10 * second <= base p (cm_seed s) t0 since)%Z).
  { assert (Hsec : (0 <= second)%Z) by done. unfold base. destruct (decide _); [lia|]. destruct (cm_seed s); lia. }
  assert (Hd : (Z.of_nat (count p s') - Z.of_nat (count p s) = Z.of_nat (dials_of p new))%Z).
  { unfold count. rewrite Hnew. unfold dials_of. rewrite List.filter_app, app_length. lia. }
  rewrite Hd in H. assert (Hsec : (0 < 10 * second)%Z) by done.
  rewrite <- (Z.div_add (until - t0) 1 (10 * second)) by lia. apply Z.div_le_lower_bound; [done|]. lia.
Qed.
Print Assumptions C131_rate.
(** Non-vacuity: the only configured peer is dialled, and after a pause of exactly ten seconds again. *)
Example C131_nonvacuous : exists s s1 s2 s3, cm_run (cm_init ["p"] []) [LStarted; LRound ["p"]; LSeedAsk; LTakeSeed] = Some s /\ cm_cancelled s = false /\
  cm_step s LReply = Some s1 /\ dialled "p" s s1 /\
  let r := [(3, LDialed); (3, LSeedAsk); (3 + 10 * second, LRound ["p"]); (3 + 10 * second, LSeedAsk); (3 + 10 * second, LTakeSeed)]%Z in
  cm_run s1 (map snd r) = Some s2 /\ cm_step s2 LReply = Some s3 /\ dialled "p" s2 s3 /\ pauses_kept s1 3 3 (r ++ [(3 + 10 * second, LReply)%Z]).
Proof.
  eexists _, _, _, _. split; [vm_compute; reflexivity|]. split; [reflexivity|]. split; [vm_compute; reflexivity|].
  split; [eexists [_; _; _]; split; [reflexivity|left]|]. cbn zeta. split; [vm_compute; reflexivity|]. split; [vm_compute; reflexivity|].
  split; [eexists [_; _; _]; split; [reflexivity|left]|]. vm_compute. repeat split; try discriminate; intros order [= <-]; discriminate.
Qed.
(** ... and for the rate: in these ten seconds there are two dials, as many as C131_rate allows. *)
Example C131_rate_nonvacuous : exists s s', cm_run (cm_init ["p"] []) [LStarted] = Some s /\ cm_cancelled s = false /\ cm_seed s <> SdNotStarted /\
  let r := [(0, LRound ["p"]); (0, LSeedAsk); (0, LTakeSeed); (0, LReply); (0, LDialed); (0, LSeedAsk);
            (10 * second, LRound ["p"]); (10 * second, LSeedAsk); (10 * second, LTakeSeed); (10 * second, LReply)]%Z in
  cm_run s (map snd r) = Some s' /\ pauses_kept s 0 (- (10 * second)) r /\ Forall (fun x => (x.1 <= 10 * second)%Z) r /\
  exists new, cm_log s' = new ++ cm_log s /\ dials_of "p" new = 2 /\ ((10 * second - 0) / (10 * second) + 1 = 2)%Z.
Proof.
  eexists _, _. split; [vm_compute; reflexivity|]. split; [reflexivity|]. split; [discriminate|]. cbn zeta. split; [vm_compute; reflexivity|].
  split; [vm_compute; repeat split; try discriminate; intros order [= <-]; discriminate|].
  split; [repeat constructor; vm_compute; discriminate|].
  match goal with |- exists new, ?l = _ /\ _ => let l' := eval vm_compute in l in exists (take (length l' - 0) l') end.
  split; [reflexivity|]. split; reflexivity.
Qed.
(** ... and for C130_again_and_again, with two: a peer that never connects, in 37 seconds with a second for every step. *)
Definition vain : csched := flat_map (fun i => map (pair (i * (10 * second))%Z) [LRound ["p"]; LSeedAsk; LTakeSeed; LReply; LDialed; LSeedAsk]) [0; 1; 2; 3]%Z.
Example C130_again_nonvacuous : exists s s', cm_run (cm_init ["p"] []) [LStarted] = Some s /\ "p" ∈ ["p"] /\ cm_seed s <> SdNotStarted /\ cm_cancelled s = false /\
  LCancel ∉ map snd vain /\ cm_run s (map snd vain) = Some s' /\ seeds_in_time second second s 0 0 vain (37 * second) /\ away_throughout "p" s (map snd vain) /\
  (0 + Z.of_nat 2 * (10 * second + 2 * (Z.of_nat (length (remove_dups ["p"])) * (3 * second + second)) + 1) <= 37 * second)%Z.
Proof.
  exists (run_to (cm_init ["p"] []) [LStarted]), (run_to (run_to (cm_init ["p"] []) [LStarted]) (map snd vain)).
  split; [vm_compute; reflexivity|]. split; [left|]. split; [vm_compute; discriminate|]. split; [vm_compute; reflexivity|].
  split; [intros H; apply elem_of_list_In in H; vm_compute in H; repeat (destruct H as [H|H]; [discriminate H|]); exact H|].
  split; [vm_compute; reflexivity|]. split; [vm_compute; repeat split; discriminate|].
  split; [|vm_compute; discriminate].
  assert (G : forall r s, (fix chk s r := bool_decide (net_history (rev (cm_log s)) = []) &&
      match r with [] => true | lab :: r => match cm_step s lab with Some s' => chk s' r | None => false end end) s r = true -> away_throughout "p" s r).
  { induction r as [|lab r IH]; intros s H; apply andb_true_iff in H as [H1 H2]; apply bool_decide_eq_true in H1; cbn [away_throughout];
      (split; [unfold away; rewrite H1; intros ([|? h1] & c & h2 & E & _); discriminate E|]); [done|].
    destruct (cm_step s lab); [by apply IH|done]. }
  apply G. vm_compute. reflexivity.
Qed.
