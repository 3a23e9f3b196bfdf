(** Property theorems C128: gossip is switched on and off in time. *)
From Verif Require Import GoBase ConnMgr_Model ConnMgr_Spec ConnMgr_Proofs Toggle_Model Asm_Props Switch_Model Switch_Spec Switch_Proofs Switch_Props Punctual_Model Punctual_Spec.

Local Lemma log_step c l c' : cm_step c l = Some c' ->
  net_history (rev (cm_log c')) = net_history (rev (cm_log c)) \/ exists e, net_history (rev (cm_log c')) = net_history (rev (cm_log c)) ++ [e].
Proof.
  destruct c as [sd st m pe nx bl ca se cc lg]. intros Hst. cm_cases Hst l; subst; cbn [cm_log rev app] in *;
    rewrite ?rev_app_distr; cbn [rev app]; rewrite <- ?app_assoc, ?net_app; cbn [net_history omap list_omap app]; rewrite ?app_nil_r;
    try (by left); try (right; by eexists).
  left. change (omap _ (rev lg)) with (net_history (rev lg)). rewrite (net_plain (rev (map _ _))); [by rewrite ?app_nil_r|].
  apply Forall_rev, Forall_forall. intros x Hx. apply elem_of_list_fmap in Hx as (? & -> & _). done.
Qed.
Local Lemma seen_step o s lab s' : sw_step o s lab = Some s' -> seen s' = seen s \/ exists e, seen s' = seen s ++ [e].
Proof.
  intros Hst. unfold seen. pose proof Hst as Hst2. sw_destruct Hst lab; subst; try (by left).
  - by apply log_step in Hc.
  - left. repeat case_match; done.
  - left. unfold sw_step in Hst2. rewrite Hp, Ht in Hst2. apply bind_Some in Hst2 as (c & Hc & Hst2). apply bind_Some in Hst2 as (c' & Hc' & Hs2). injection Hs2 as <-.
    cbn. injection Hc as <-. destruct (sw_stopped s); [|by injection Hc' as <-]. cbn in Hc'. case_match; [|done]. case_match. by injection Hc' as <-.
  - left. cbn. by destruct (op_keeps _ _ _ _ _ Ho) as [-> _].
  - left. by destruct (ok && negb (topic_on t s)).
  - left. cbn. by destruct (op_keeps _ _ _ _ _ Ho) as [-> _].
  - left. unfold sw_step in Hst2. rewrite Hp in Hst2. cbn [cm_step mbind option_bind] in Hst2. apply bind_Some in Hst2 as (c' & Hc' & Hs2). injection Hs2 as <-.
    cbn. destruct (sw_tog s); try (by injection Hc' as <-). cbn in Hc'. case_match; [|done]. case_match. by injection Hc' as <-.
Qed.
(** A step other than of the toggle's loop leaves the toggle where it is; only WStore changes what IsEnabled says. *)
Local Lemma toggle_moves o s lab s' : automatic o -> sw_step o s lab = Some s' -> ticking s -> sw_stopped s = false -> lab <> WStop ->
  (sw_tog s' = sw_tog s /\ sw_enabled s' = sw_enabled s) \/
  (lab = WTick /\ sw_tog s = TIdle /\ sw_tog s' = TAsking (length (cm_callers (sw_cm s))) /\ sw_enabled s' = sw_enabled s) \/
  (exists j n, lab = WCount /\ sw_tog s = TAsking j /\ sw_tog s' = TCounted n /\ sw_enabled s' = sw_enabled s) \/
  (exists n now, lab = WDecide now /\ sw_tog s = TCounted n /\ sw_enabled s' = sw_enabled s /\
     (let b := decide_on n (sw_head s) now in (sw_tog s' = TIdle /\ b = sw_enabled s) \/ (b <> sw_enabled s /\ exists x, sw_tog s' = TCalling b x))) \/
  (exists b x, sw_tog s = TCalling b x /\ sw_enabled s' = sw_enabled s /\ (sw_tog s' = TStoring b \/ exists x', sw_tog s' = TCalling b x')) \/
  (exists b, sw_tog s = TStoring b /\ sw_tog s' = TIdle /\ sw_enabled s' = b).
Proof.
  intros [Ha1 Ha2] Hst [Hk1 Hk2] Hs0 Hl0. sw_destruct Hst lab; subst; try (by left); try congruence.
  - left. by rewrite Hs.
  - right. left. by rewrite Hs.
  - right. right. left. by exists j, n.
  - do 3 right. left. exists n, now. do 3 (split; [done|]). cbn. destruct (eqb (decide_on n (sw_head s) now) (sw_enabled s)) eqn:E.
    + left. split; [done|]. by apply eqb_prop.
    + right. split; [by apply eqb_false_iff|by eexists].
  - do 4 right. left. exists b, x. split; [done|]. destruct (op_keeps _ _ _ _ _ Ho) as (_ & _ & G3 & _). split; [by cbn|]. cbn. destruct r; [right; by eexists|by left].
  - do 5 right. exists b. cbn. by rewrite Ha1.
  - left. by destruct (ok && negb (topic_on t s)).
  - left. cbn. by destruct (op_keeps _ _ _ _ _ Ho) as (_ & -> & -> & _).
Qed.

Section switch.
Context (o : tg_opts) (Ha : automatic o) (initial : list string) (existing : list conn) (L : Z) (HL : (0 <= L)%Z) (b : bool) (C : list netev -> Prop) (R : Z -> sw -> Prop).
Context (Hkey : forall n h t s, right_answer h QNum (ANum n) -> C h -> R t s -> decide_on n (sw_head s) t = b).
(** In a tick that began in the window *)
Definition good_tick (s : sw) : Prop :=
  match sw_tog s with
  | TAsking _ | TCounted _ => exists s1, sw_reach o initial existing s1 /\ (exists lc, cm_run (sw_cm s1) lc = Some (sw_cm s)) /\ tick_inv s1 s /\
      forall h, seen s1 `prefix_of` h -> h `prefix_of` seen s -> C h
  | TCalling b' _ | TStoring b' => b' = b
  | _ => False
  end.
Definition stage (t0 : Z) (since : Z) (s : sw) : Prop :=
  (sw_tog s <> TIdle /\ since = t0) \/ (sw_tog s = TIdle /\ (since <= t0 + L)%Z) \/
  (good_tick s /\ (since <= t0 + L + second)%Z) \/
  (sw_enabled s = b /\ (good_tick s \/ sw_tog s = TIdle)).
Local Lemma good_same s lab s' : sw_reach o initial existing s -> sw_step o s lab = Some s' -> lab <> WTick -> C (seen s') -> sw_stopped s = false -> lab <> WStop -> ticking s -> sw_tog s' <> TIdle ->
  (forall n now, lab <> WDecide now \/ sw_tog s <> TCounted n) -> good_tick s -> good_tick s'.
Proof.
  intros Hr Hst Hl HC Hs0 Hl0 Hk Hni Hnd HG.
  assert (Hask : (exists s1, sw_reach o initial existing s1 /\ (exists lc, cm_run (sw_cm s1) lc = Some (sw_cm s)) /\ tick_inv s1 s /\ forall h, seen s1 `prefix_of` h -> h `prefix_of` seen s -> C h) ->
    exists s1, sw_reach o initial existing s1 /\ (exists lc, cm_run (sw_cm s1) lc = Some (sw_cm s')) /\ tick_inv s1 s' /\ forall h, seen s1 `prefix_of` h -> h `prefix_of` seen s' -> C h).
  { intros (s1 & Hr1 & Hlc & HI & HCs). exists s1. split; [done|]. split; [|split].
    - destruct Hlc as [lc Hlc]. destruct (cm_side _ _ _ _ Hst) as (lc2 & Hlc2 & _). exists (lc ++ lc2). by rewrite cm_run_app, Hlc.
    - eapply (tick_inv_step o initial existing s1 s lab s'); done.
    - intros h H1 H2. destruct (seen_step _ _ _ _ Hst) as [E|[e E]]; rewrite E in H2; [by apply HCs|].
      destruct H2 as [k Hk2]. destruct k as [|y k _] using rev_ind; [rewrite app_nil_r in Hk2; rewrite <- Hk2, <- E; exact HC|].
      rewrite app_assoc in Hk2. apply app_inj_tail in Hk2 as [Hk2 _]. apply HCs; [done|]. by exists k. }
  destruct (toggle_moves o s lab s' Ha Hst Hk Hs0 Hl0) as [[E1 E2]|[(E & _)|[(j & n & -> & E1 & E2 & E3)|[(n & now & -> & E1 & _)|[(b' & x & E1 & E2 & E3)|(b' & E1 & E2 & E3)]]]]].
  - unfold good_tick in *. rewrite E1. destruct (sw_tog s); try done; by apply Hask.
  - done.
  - unfold good_tick in *. rewrite E2. rewrite E1 in HG. by apply Hask.
  - by destruct (Hnd n now).
  - unfold good_tick in *. rewrite E1 in HG. destruct E3 as [->|[x' ->]]; done.
  - done.
Qed.
Local Lemma stage_step t0 now since s t lab s' : sw_reach o initial existing s -> sw_step o s lab = Some s' -> ticking s -> sw_stopped s = false -> lab <> WStop ->
  (t0 <= now)%Z -> (now <= t)%Z -> (t0 <= since)%Z -> may_last L (sw_tog s) (t - since) -> (forall x, lab = WDecide x -> x = t) -> R t s -> C (seen s) -> C (seen s') ->
  stage t0 since s -> stage t0 (if eqb (between_ticks s) (between_ticks s') then since else t) s'.
Proof.
  intros Hr Hst Hk Hs0 Hl0 Hnow Ht Hsin Hmay Hclk HR HCs HC HS.
  assert (Hidle : forall x : sw, sw_tog x = TIdle -> between_ticks x = true) by (intros x Hx; by apply bool_decide_eq_true).
  assert (Hbusy : forall x : sw, sw_tog x <> TIdle -> between_ticks x = false) by (intros x Hx; by apply bool_decide_eq_false).
  assert (Hbt : sw_tog s <> TIdle -> (t - since <= L)%Z) by (destruct Hk; destruct (sw_tog s); cbn in Hmay; done).
  assert (Hit : sw_tog s = TIdle -> (t - since <= second)%Z) by (intros E; by rewrite E in Hmay).
  assert (Htick : lab = WTick -> sw_tog s = TIdle -> good_tick s').
  { intros -> Hi. pose proof Hst as Hst2. apply sw_inv in Hst2 as [_ (_ & Hs & _)]. unfold good_tick. rewrite Hs. cbn [sw_tog with_tog]. exists s. split; [done|].
    rewrite <- Hs. split; [|split].
    - destruct (cm_side _ _ _ _ Hst) as (lc2 & Hlc2 & _). by exists lc2.
    - unfold tick_inv. by rewrite Hs.
    - intros h H1 H2. destruct (seen_step _ _ _ _ Hst) as [E|[e E]]; rewrite E in H2.
      + assert (h = seen s) as ->; [|done]. destruct H1 as [k1 H1], H2 as [k2 H2]. rewrite H1, <- app_assoc in H2. rewrite <- (app_nil_r (seen s)) in H2 at 1. apply app_inv_head in H2. symmetry in H2. apply app_eq_nil in H2 as [-> _]. by rewrite app_nil_r in H1.
      + destruct H2 as [k Hk2]. destruct k as [|y k _] using rev_ind; [rewrite app_nil_r in Hk2; rewrite <- Hk2, <- E; exact HC|].
        rewrite app_assoc in Hk2. apply app_inj_tail in Hk2 as [Hk2 _].
        assert (h = seen s) as ->; [|done]. destruct H1 as [k1 H1]. rewrite H1, <- app_assoc in Hk2. rewrite <- (app_nil_r (seen s)) in Hk2 at 1. apply app_inv_head in Hk2. symmetry in Hk2. apply app_eq_nil in Hk2 as [-> _]. by rewrite app_nil_r in H1. }
  assert (Hdec : forall n x, lab = WDecide x -> sw_tog s = TCounted n -> good_tick s -> decide_on n (sw_head s) x = b).
  { intros n x Hx Hn HG. rewrite (Hclk _ Hx). unfold good_tick in HG. rewrite Hn in HG. destruct HG as (s1 & _ & _ & HI & HCh). unfold tick_inv in HI. rewrite Hn in HI.
    destruct HI as [HI|(h & [H1 H2] & Hra)]; [congruence|]. eapply Hkey; [exact Hra|by apply HCh|done]. }
  (* the next stage of a good tick *)
  assert (Hgood : good_tick s -> (sw_tog s' <> TIdle /\ good_tick s') \/ (sw_tog s' = TIdle /\ sw_enabled s' = b)).
  { intros HG. destruct (toggle_moves o s lab s' Ha Hst Hk Hs0 Hl0) as [[E1 E2]|[(E & E1 & _)|[(j & n & E & E1 & E2 & E3)|[(n & x & E & E1 & E2 & E3)|[(b' & x & E1 & E2 & E3)|(b' & E1 & E2 & E3)]]]]].
    - assert (Hni : sw_tog s <> TIdle) by (intros Hi; unfold good_tick in HG; by rewrite Hi in HG).
      left. split; [by rewrite E1|].
      assert (Hnt : lab <> WTick). { intros ->. apply sw_inv in Hst as [_ (Hi & _)]. done. }
      eapply (good_same s lab s'); try done; [by rewrite E1|]. intros n x. destruct (decide (sw_tog s = TCounted n)) as [En|]; [|by right]. left. intros ->.
      apply sw_inv in Hst as [_ (n' & En' & Hs')]. rewrite Hs' in E1. cbn in E1. rewrite En' in E1. by case_match.
    - unfold good_tick in HG. by rewrite E1 in HG.
    - left. split; [by rewrite E2|]. eapply (good_same s lab s'); try done; [by rewrite E|by rewrite E2|]. intros ? ?. right. by rewrite E1.
    - pose proof (Hdec n x E E1 HG) as Hb. cbn zeta in E3. destruct E3 as [[E3 E4]|(E4 & y & E3)].
      + right. split; [done|]. congruence.
      + left. split; [by rewrite E3|]. unfold good_tick. by rewrite E3.
    - left. unfold good_tick in HG. rewrite E1 in HG. subst b'. destruct E3 as [E3|[x' E3]]; (split; [by rewrite E3|unfold good_tick; by rewrite E3]).
    - right. split; [done|]. unfold good_tick in HG. rewrite E1 in HG. congruence. }
  (* what IsEnabled says does not change except at the end of a tick *)
  destruct HS as [[Hb Hs]|[[Hi Hs]|[[HG Hs]|[He HG]]]].
  - subst since. pose proof (Hbt Hb) as Hlt. destruct (decide (sw_tog s' = TIdle)) as [Hi'|Hb'].
    + right. left. rewrite (Hbusy s Hb), (Hidle s' Hi'). cbn. split; [done|lia].
    + left. rewrite (Hbusy s Hb), (Hbusy s' Hb'). by cbn.
  - pose proof (Hit Hi) as Hlt. rewrite (Hidle s Hi).
    destruct (toggle_moves o s lab s' Ha Hst Hk Hs0 Hl0) as [[E1 E2]|[(E & E1 & E2 & E3)|[(j & n & E & E1 & _)|[(n & x & E & E1 & _)|[(b' & x & E1 & _)|(b' & E1 & _)]]]]]; try congruence.
    + right. left. rewrite (Hidle s' ltac:(by rewrite E1)). cbn. by rewrite E1.
    + right. right. left. rewrite (Hbusy s' ltac:(by rewrite E2)). cbn. split; [by apply Htick|lia].
  - destruct (Hgood HG) as [[Hb' HG']|[Hi' He']].
    + right. right. left. split; [done|]. rewrite (Hbusy s' Hb').
      assert (Hb : sw_tog s <> TIdle) by (intros Hi; unfold good_tick in HG; by rewrite Hi in HG). rewrite (Hbusy s Hb). by cbn.
    + right. right. right. split; [done|]. by right.
  - right. right. right. destruct HG as [HG|Hi].
    + destruct (Hgood HG) as [[Hb' HG']|[Hi' He']]; [|split; [done|by right]]. split; [|by left].
      destruct (toggle_moves o s lab s' Ha Hst Hk Hs0 Hl0) as [[E1 E2]|[(E & E1 & E2 & E3)|[(j & n & E & E1 & E2 & E3)|[(n & x & E & E1 & E2 & _)|[(b' & x & E1 & E2 & _)|(b' & E1 & E2 & _)]]]]]; congruence.
    + destruct (toggle_moves o s lab s' Ha Hst Hk Hs0 Hl0) as [[E1 E2]|[(E & E1 & E2 & E3)|[(j & n & E & E1 & _)|[(n & x & E & E1 & _)|[(b' & x & E1 & _)|(b' & E1 & _)]]]]]; try congruence.
      * split; [congruence|]. right. by rewrite E1.
      * split; [congruence|]. left. by apply Htick.
Qed.
Lemma switched r : forall t0 now since s until s', sw_reach o initial existing s -> ticking s -> sw_stopped s = false -> WStop ∉ map snd r ->
  (t0 <= now)%Z -> (t0 <= since)%Z -> in_time o L s now since r until -> throughout (fun t s => C (seen s) /\ R t s) o s now r until ->
  stage t0 since s -> sw_run o s (map snd r) = Some s' -> (t0 + 2 * L + second < until)%Z -> sw_enabled s' = b /\ (forall x, sw_tog s' <> TCalling (negb b) x) /\ sw_tog s' <> TStoring (negb b).
Proof.
  induction r as [|[t lab] r IH]; intros t0 now since s until s' Hr Hk Hs0 Hl0 Hnow Hsin Hin Hth HS Hrun Hun.
  - cbn [map sw_run] in Hrun. injection Hrun as <-. destruct Hin as [Hn Hmay]. destruct Hk as [Hk1 Hk2].
    destruct HS as [[Hb Hs]|[[Hi Hs]|[[HG Hs]|[He HG]]]].
    4: { split; [done|]. destruct HG as [HG|Hi]; [|by rewrite Hi]. unfold good_tick in HG.
         split; [intros x Hx|intros Hx]; rewrite Hx in HG; by destruct b. }
    + subst since. assert (until - t0 <= L)%Z by (destruct (sw_tog s); cbn in Hmay; done). unfold second in Hun. lia.
    + rewrite Hi in Hmay. cbn [may_last] in Hmay. unfold tick_time in Hmay. lia.
    + assert (Hb : sw_tog s <> TIdle) by (intros Hi; unfold good_tick in HG; by rewrite Hi in HG). assert (until - since <= L)%Z by (destruct (sw_tog s); cbn in Hmay; done). lia.
  - cbn [map snd sw_run] in Hrun, Hl0. cbn [in_time] in Hin. cbn [throughout] in Hth. destruct (sw_step o s lab) as [s1|] eqn:H1; [|done].
    apply not_elem_of_cons in Hl0 as [Hl1 Hl0]. destruct Hin as (Hn & Hmay & Hclk & Hin). destruct Hth as (HP0 & HP1 & Hth).
    assert (Hs1 : sw_stopped s1 = false). { destruct (cm_side _ _ _ _ H1) as (_ & _ & Hcc & _). unfold sw_stopped in *. rewrite Hcc; [done|]. congruence. }
    assert (HC1 : C (seen s1)) by (destruct r as [|[? ?] ?]; cbn [throughout] in Hth; apply Hth).
    eapply (IH t0 t _ s1 until s'); [by eapply sw_reach_step| |done|done|lia| |exact Hin|exact Hth| |exact Hrun|done].
    + eapply ticking_step; [exact Ha|exact H1|done|by left].
    + case_match; lia.
    + eapply (stage_step t0 now since s t lab s1); try done; [apply HP1|apply HP1].
Qed.
End switch.

(** Gossip is on, and the toggle is not about to switch it off *)
Lemma on_settled : forall o initial existing L s t0 r until s', automatic o -> (0 <= L)%Z -> sw_reach o initial existing s ->
  sw_tog s <> TNew -> sw_tog s <> TEnded -> sw_stopped s = false -> WStop ∉ map snd r -> sw_run o s (map snd r) = Some s' -> in_time o L s t0 t0 r until ->
  throughout (fun t s => someone s /\ sane_head s /\ (age t s <= 45 * second)%Z) o s t0 r until ->
  (t0 + 2 * L + second < until)%Z -> sw_enabled s' = true /\ (forall x, sw_tog s' <> TCalling false x) /\ sw_tog s' <> TStoring false.
Proof.
  intros o initial existing L s t0 r until s' Ha HL Hr Hn He Hs0 Hl0 Hrun Hin Hth Hun.
  eapply (switched o Ha initial existing L HL true (fun h => exists p, last_connected h p) (fun t s => sane_head s /\ (age t s <= 45 * second)%Z)) with (t0 := t0) (since := t0);
    [|exact Hr|by split|done|done|reflexivity|reflexivity|exact Hin|exact Hth| |exact Hrun|lia].
  - intros n h t x Hra HC [Hsane Hage]. apply (decide_right n h _ t Hra Hsane). by split.
  - destruct (decide (sw_tog s = TIdle)) as [Hi|Hb]; [right; left; split; [done|lia]|by left].
Qed.
(** ** C128, on.  The toggle is started, without flags, and the node is not being stopped.  If from [t0] on someone is connected and the
    head block is at most 45 seconds old, then gossip is on as soon as two ticks and a second have passed, and stays on as long as that
    is so. *)
Theorem C128_on_in_time : forall o initial existing L s t0 r until s', automatic o -> (0 <= L)%Z -> sw_reach o initial existing s ->
  sw_tog s <> TNew -> sw_tog s <> TEnded -> sw_stopped s = false -> WStop ∉ map snd r -> sw_run o s (map snd r) = Some s' -> in_time o L s t0 t0 r until ->
  throughout (fun t s => someone s /\ sane_head s /\ (age t s <= 45 * second)%Z) o s t0 r until ->
  (t0 + 2 * L + second < until)%Z -> sw_enabled s' = true.
Proof. intros o initial existing L s t0 r until s' Ha HL Hr Hn He Hs0 Hl0 Hrun Hin Hth Hun. by eapply on_settled. Qed.
Print Assumptions C128_on_in_time.
(** ** C128, off.  Likewise off, if nobody is connected or the head block is older all the time. *)
Theorem C128_off_in_time : forall o initial existing L s t0 r until s', automatic o -> (0 <= L)%Z -> sw_reach o initial existing s ->
  sw_tog s <> TNew -> sw_tog s <> TEnded -> sw_stopped s = false -> WStop ∉ map snd r -> sw_run o s (map snd r) = Some s' -> in_time o L s t0 t0 r until ->
  throughout (fun t s => ~ someone s) o s t0 r until \/ throughout (fun t s => sane_head s /\ (45 * second < age t s)%Z) o s t0 r until ->
  (t0 + 2 * L + second < until)%Z -> sw_enabled s' = false.
Proof.
  intros o initial existing L s t0 r until s' Ha HL Hr Hn He Hs0 Hl0 Hrun Hin Hth Hun.
  assert (Hweak : forall (P Q : Z -> sw -> Prop), (forall t s, P t s -> Q t s) -> forall r s now, throughout P o s now r until -> throughout Q o s now r until).
  { clear. intros P Q HPQ. induction r as [|[t lab] r IH]; intros s now; cbn [throughout]; [intros [H1 H2]; auto|].
    intros (H1 & H2 & H3). split; [auto|]. split; [auto|]. destruct (sw_step o s lab); [auto|done]. }
  assert (Hst : stage o initial existing L false (fun _ => True) t0 t0 s /\ stage o initial existing L false (fun h => ~ exists p, last_connected h p) t0 t0 s).
  { destruct (decide (sw_tog s = TIdle)) as [Hi|Hb]; [split; right; left; (split; [done|lia])|split; by left]. }
  destruct Hth as [Hth|Hth].
  - eapply proj1, (switched o Ha initial existing L HL false (fun h => ~ exists p, last_connected h p) (fun _ _ => True)) with (t0 := t0) (since := t0);
      [|exact Hr|by split|done|done|reflexivity|reflexivity|exact Hin| |apply Hst|exact Hrun|lia].
    + intros n h t x (l & _ & Hl & Hlen) HC _. unfold decide_on. destruct l as [|p l]; cbn in Hlen; subst n; [done|]. destruct HC. exists p. apply Hl. left.
    + eapply Hweak; [|exact Hth]. intros t x Hx. by split.
  - eapply proj1, (switched o Ha initial existing L HL false (fun _ => True) (fun t s => sane_head s /\ (45 * second < age t s)%Z)) with (t0 := t0) (since := t0);
      [|exact Hr|by split|done|done|reflexivity|reflexivity|exact Hin| |apply Hst|exact Hrun|lia].
    + intros n h t x Hra _ [Hsane Hage]. destruct (decide_on n (sw_head x) t) eqn:E; [|done]. apply (decide_right n h _ t Hra Hsane) in E as [_ E]. unfold age in Hage. lia.
    + eapply Hweak; [|exact Hth]. intros t x Hx. by split.
Qed.
Print Assumptions C128_off_in_time.

(** The bound cannot be improved: a tick that began before [t0] counted nobody and takes all its time; the next one comes a second later
    and takes all its time too. *)
Local Definition run_to (s : sw) (l : list slabel) : sw := default s (sw_run auto s l).
Local Definition late_sched : list slabel :=
  [WStart; WCm LStarted; WHead 1000; WTick; WCm (LTakeQuery 0); WCm LReply; WCount; WCm (LNotify (NConnected demo_conn)); WCm (LTakeEvent 0)].
Local Definition late_start : sw := run_to (sw_init ["s"] []) late_sched.
Local Definition late_tick : sw := run_to (with_tog TIdle late_start) [WTick; WCm (LTakeQuery 1); WCm LReply; WCount].
Local Definition late_run (L : Z) : tsched :=
  [(L, WDecide L); (L + second, WTick); (L + second, WCm (LTakeQuery 1)); (L + second, WCm LReply); (L + second, WCount); (L + second, WDecide (L + second))]%Z.
Local Lemma goes_on s n x : sw_panic s = false -> sw_tog s = TCounted n -> sw_enabled s = false -> decide_on n (sw_head s) x = true ->
  sw_step auto s (WDecide x) = Some (with_tog (TCalling true OStart) s).
Proof. intros H1 H2 H3 H4. unfold sw_step. rewrite H1, H2. cbn zeta. by rewrite H3, H4. Qed.
Local Lemma late_ok L t x : (0 <= L <= 20 * second)%Z -> seen x = [NConnected demo_conn] /\ sw_head x = 1000%N -> (t <= 2 * L + second)%Z ->
  someone x /\ sane_head x /\ (age t x <= 45 * second)%Z.
Proof.
  intros HL [H1 H2] Ht. split; [exists (cn_peer demo_conn); rewrite H1; by exists [], demo_conn, []|]. split; [unfold sane_head; by rewrite H2|].
  unfold age. rewrite H2. unfold second in *. lia.
Qed.
Theorem C128_bound_met : forall L, (0 <= L <= 20 * second)%Z -> exists s s', sw_reach auto ["s"] [] s /\ automatic auto /\ sw_tog s <> TNew /\ sw_tog s <> TEnded /\ sw_stopped s = false /\
  WStop ∉ map snd (late_run L) /\ sw_run auto s (map snd (late_run L)) = Some s' /\ in_time auto L s 0 0 (late_run L) (0 + 2 * L + second) /\
  throughout (fun t s => someone s /\ sane_head s /\ (age t s <= 45 * second)%Z) auto s 0 (late_run L) (0 + 2 * L + second) /\ sw_enabled s' = false.
Proof.
  intros L HL. exists late_start, (with_tog (TCalling true OStart) late_tick).
  assert (E1 : forall x, sw_step auto late_start (WDecide x) = Some (with_tog TIdle late_start)) by (intros x; vm_compute; reflexivity).
  assert (E2 : sw_step auto late_tick (WDecide (L + second)) = Some (with_tog (TCalling true OStart) late_tick)).
  { assert (Hd : decide_on 1 1000 (L + second) = true).
    { eapply (decide_right 1 [NConnected demo_conn]); [|done|].
      - exists [cn_peer demo_conn]. split; [apply NoDup_singleton|]. split; [|done]. intros p. rewrite elem_of_list_singleton. split.
        + intros ->. by exists [], demo_conn, [].
        + intros (h1 & c & h2 & H & <- & _). destruct h1 as [|? [|]]; [by injection H as ->|by destruct h2|done].
      - split; [exists (cn_peer demo_conn); by exists [], demo_conn, []|]. unfold second in *. lia. }
    apply (goes_on late_tick 1); [vm_compute; reflexivity|vm_compute; reflexivity|vm_compute; reflexivity|].
    replace (sw_head late_tick) with 1000%N by (vm_compute; reflexivity). exact Hd. }
  set (a1 := run_to (with_tog TIdle late_start) [WTick]). set (a2 := run_to a1 [WCm (LTakeQuery 1)]). set (a3 := run_to a2 [WCm LReply]).
  assert (F1 : sw_step auto (with_tog TIdle late_start) WTick = Some a1) by (vm_compute; reflexivity).
  assert (F2 : sw_step auto a1 (WCm (LTakeQuery 1)) = Some a2) by (vm_compute; reflexivity).
  assert (F3 : sw_step auto a2 (WCm LReply) = Some a3) by (vm_compute; reflexivity).
  assert (F4 : sw_step auto a3 WCount = Some late_tick) by (vm_compute; reflexivity).
  assert (K0 : seen late_start = [NConnected demo_conn] /\ sw_head late_start = 1000%N) by (split; vm_compute; reflexivity).
  assert (K1 : seen (with_tog TIdle late_start) = [NConnected demo_conn] /\ sw_head (with_tog TIdle late_start) = 1000%N) by (split; vm_compute; reflexivity).
  assert (K2 : seen a1 = [NConnected demo_conn] /\ sw_head a1 = 1000%N) by (split; vm_compute; reflexivity).
  assert (K3 : seen a2 = [NConnected demo_conn] /\ sw_head a2 = 1000%N) by (split; vm_compute; reflexivity).
  assert (K4 : seen a3 = [NConnected demo_conn] /\ sw_head a3 = 1000%N) by (split; vm_compute; reflexivity).
  assert (K5 : seen late_tick = [NConnected demo_conn] /\ sw_head late_tick = 1000%N) by (split; vm_compute; reflexivity).
  assert (K6 : seen (with_tog (TCalling true OStart) late_tick) = [NConnected demo_conn] /\ sw_head (with_tog (TCalling true OStart) late_tick) = 1000%N) by (split; vm_compute; reflexivity).
  split; [exists late_sched; vm_compute; reflexivity|]. split; [split; reflexivity|]. split; [vm_compute; discriminate|]. split; [vm_compute; discriminate|]. split; [vm_compute; reflexivity|].
  split; [|split; [|split; [|split]]].
  - unfold late_run. cbn [map snd]. intros H. repeat (apply elem_of_cons in H as [H|H]; [discriminate H|]). exact (not_elem_of_nil _ H).
  - unfold late_run. cbn [map snd sw_run]. rewrite E1, F1, F2, F3, F4, E2. reflexivity.
  - unfold late_run. cbn [in_time]. rewrite E1, F1, F2, F3, F4, E2. clear -HL. unfold second in *.
    assert (B0 : between_ticks late_start = false) by (vm_compute; reflexivity). assert (B1 : between_ticks (with_tog TIdle late_start) = true) by (vm_compute; reflexivity).
    assert (B2 : between_ticks a1 = false) by (vm_compute; reflexivity). assert (B3 : between_ticks a2 = false) by (vm_compute; reflexivity). assert (B4 : between_ticks a3 = false) by (vm_compute; reflexivity).
    assert (B5 : between_ticks late_tick = false) by (vm_compute; reflexivity). assert (B6 : between_ticks (with_tog (TCalling true OStart) late_tick) = false) by (vm_compute; reflexivity).
    rewrite B0, B1, B2, B3, B4, B5, B6. cbn [eqb].
    assert (T0 : sw_tog late_start = TCounted 0) by (vm_compute; reflexivity). assert (T2 : sw_tog a1 = TAsking 1) by (vm_compute; reflexivity). assert (T3 : sw_tog a2 = TAsking 1) by (vm_compute; reflexivity).
    assert (T4 : sw_tog a3 = TAsking 1) by (vm_compute; reflexivity). assert (T5 : sw_tog late_tick = TCounted 1) by (vm_compute; reflexivity).
    rewrite T0, T2, T3, T4, T5. cbn [sw_tog with_tog may_last]. unfold tick_time, second. repeat split; try lia; intros x [= <-]; lia.
  - unfold late_run. cbn [throughout]. rewrite E1, F1, F2, F3, F4, E2.
    pose proof (fun t x => late_ok L t x HL) as Hall.
    assert (HL2 : (0 <= L)%Z /\ (0 <= second)%Z) by (clear -HL; unfold second in *; lia). destruct HL2 as [HL2 HL3].
    split; [apply Hall; [exact K0|clear -HL2 HL3; lia]|].
    split; [apply Hall; [exact K0|clear -HL2 HL3; lia]|].
    split; [apply Hall; [exact K1|clear -HL2 HL3; lia]|].
    split; [apply Hall; [exact K1|clear -HL2 HL3; lia]|].
    split; [apply Hall; [exact K2|clear -HL2 HL3; lia]|].
    split; [apply Hall; [exact K2|clear -HL2 HL3; lia]|].
    split; [apply Hall; [exact K3|clear -HL2 HL3; lia]|].
    split; [apply Hall; [exact K3|clear -HL2 HL3; lia]|].
    split; [apply Hall; [exact K4|clear -HL2 HL3; lia]|].
    split; [apply Hall; [exact K4|clear -HL2 HL3; lia]|].
    split; [apply Hall; [exact K5|clear -HL2 HL3; lia]|].
    split; [apply Hall; [exact K5|clear -HL2 HL3; lia]|].
    split; [apply Hall; [exact K6|clear -HL2 HL3; lia]|].
    apply Hall; [exact K6|clear -HL2 HL3; lia].
  - vm_compute. reflexivity.
Qed.
Print Assumptions C128_bound_met.

(** Gossip goes on with the first tick, and off when the head block is older. *)
Local Fixpoint check (p : Z -> sw -> bool) (s : sw) (now : Z) (r : tsched) (until : Z) : bool :=
  p now s && match r with [] => p until s | (t, lab) :: r => p t s && match sw_step auto s lab with Some s' => check p s' t r until | None => false end end.
Local Lemma check_ok (P : Z -> sw -> Prop) p : (forall t s, p t s = true -> P t s) -> forall r s now until, check p s now r until = true -> throughout P auto s now r until.
Proof.
  intros Hp. induction r as [|[t lab] r IH]; intros s now until; cbn [check throughout]; rewrite ?andb_true_iff; [intros [H1 H2]; auto|].
  intros (H1 & H2 & H3). split; [auto|]. split; [auto|]. destruct (sw_step auto s lab); [auto|done].
Qed.
Local Definition on_run : tsched :=
  [(3 * second, WTick); (3 * second, WCm (LTakeQuery 0)); (3 * second, WCm LReply); (3 * second, WCount); (3 * second, WDecide (3 * second));
   (4 * second, WOp true); (4 * second, WOp true); (4 * second, WStore); (4 * second, WTick); (4 * second, WCm (LTakeQuery 1)); (4 * second, WCm LReply); (4 * second, WCount); (5 * second, WDecide (5 * second))]%Z.
Local Definition off_run : tsched :=
  [(60 * second, WTick); (60 * second, WCm (LTakeQuery 2)); (60 * second, WCm LReply); (60 * second, WCount); (60 * second, WDecide (60 * second)); (60 * second, WOp true);
   (60 * second, WOp true); (60 * second, WOp true); (60 * second, WOp true); (60 * second, WOp true); (60 * second, WOp true); (61 * second, WStore);
   (62 * second, WTick); (62 * second, WCm (LTakeQuery 3)); (62 * second, WCm LReply); (62 * second, WCount); (62 * second, WDecide (62 * second))]%Z.
Example C128_nonvacuous : exists s s' s2, sw_reach auto ["s"] [] s /\ automatic auto /\ sw_tog s = TIdle /\ sw_stopped s = false /\ sw_enabled s = false /\
  WStop ∉ map snd on_run /\ sw_run auto s (map snd on_run) = Some s' /\ in_time auto second s (2 * second) (2 * second) on_run (6 * second) /\
  throughout (fun t s => someone s /\ sane_head s /\ (age t s <= 45 * second)%Z) auto s (2 * second) on_run (6 * second) /\ (2 * second + 2 * second + second < 6 * second)%Z /\ sw_enabled s' = true /\
  WStop ∉ map snd off_run /\ sw_run auto s' (map snd off_run) = Some s2 /\ in_time auto second s' (59 * second) (59 * second) off_run (63 * second) /\
  throughout (fun t s => sane_head s /\ (45 * second < age t s)%Z) auto s' (59 * second) off_run (63 * second) /\ sw_enabled s2 = false.
Proof.
  exists (run_to (sw_init ["s"] []) sw_demo), (run_to (run_to (sw_init ["s"] []) sw_demo) (map snd on_run)), (run_to (run_to (run_to (sw_init ["s"] []) sw_demo) (map snd on_run)) (map snd off_run)).
  split; [exists sw_demo; vm_compute; reflexivity|]. split; [split; reflexivity|]. split; [vm_compute; reflexivity|]. split; [vm_compute; reflexivity|]. split; [vm_compute; reflexivity|].
  split; [intros H; unfold on_run in H; cbn [map snd] in H; repeat (apply elem_of_cons in H as [H|H]; [discriminate H|]); exact (not_elem_of_nil _ H)|].
  split; [vm_compute; reflexivity|]. split; [vm_compute; repeat split; try discriminate; intros x [= <-]; reflexivity|].
  split.
  { apply (check_ok _ (fun t s => bool_decide (seen s = [NConnected demo_conn]) && bool_decide (sw_head s = 1000%N) && Z.leb (t - 1000000000) (45 * second))); [|vm_compute; reflexivity].
    intros t s H. apply andb_true_iff in H as [H H3]. apply andb_true_iff in H as [H1 H2]. apply bool_decide_eq_true in H1, H2. apply Z.leb_le in H3.
    split; [exists (cn_peer demo_conn); rewrite H1; by exists [], demo_conn, []|]. split; [unfold sane_head; by rewrite H2|]. unfold age. rewrite H2. lia. }
  split; [reflexivity|]. split; [vm_compute; reflexivity|].
  split; [intros H; unfold off_run in H; cbn [map snd] in H; repeat (apply elem_of_cons in H as [H|H]; [discriminate H|]); exact (not_elem_of_nil _ H)|].
  split; [vm_compute; reflexivity|]. split; [vm_compute; repeat split; try discriminate; intros x [= <-]; reflexivity|].
  split; [|vm_compute; reflexivity].
  apply (check_ok _ (fun t s => bool_decide (sw_head s = 1000%N) && Z.ltb (45 * second) (t - 1000000000))); [|vm_compute; reflexivity].
  intros t s H. apply andb_true_iff in H as [H2 H3]. apply bool_decide_eq_true in H2. apply Z.ltb_lt in H3. split; [unfold sane_head; by rewrite H2|]. unfold age. rewrite H2. lia.
Qed.
