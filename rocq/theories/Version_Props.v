(** Property C58. *)
From Coq Require Import Ascii.
From Verif Require Import GoBase Version_Model Version_Spec.
Local Open Scope string_scope.

Lemma str_app_assoc (a b c : string) : (a ++ b) ++ c = a ++ b ++ c.
Proof. induction a as [|x a IH]; [done|]. change (String x ((a ++ b) ++ c) = String x (a ++ b ++ c)). by rewrite IH. Qed.
Lemma no_slash_cons a c : no_slash (String a c) <-> a <> "/"%char /\ no_slash c.
Proof.
  split.
  - intros H. split.
    + intros ->. by apply (H "" c).
    + intros x y ->. by apply (H (String a x) y).
  - intros [Ha Hc] [|b x] y He; injection He as He1 He2; [done|]. by apply (Hc x y).
Qed.
Lemma split_parts s : forall p ps, split_slash s = (p, ps) ->
  Forall no_slash (p :: ps) /\ s = fold_left (fun a b => a ++ "/" ++ b) ps p.
Proof.
  assert (Hf : forall ps a b, fold_left (fun a b => a ++ "/" ++ b) ps (a ++ b) = a ++ fold_left (fun a b => a ++ "/" ++ b) ps b).
  { induction ps as [|x ps IH]; intros a b; [done|]. cbn [fold_left]. rewrite <- IH. f_equal. by rewrite !str_app_assoc. }
  induction s as [|a s IH]; intros p ps H; cbn [split_slash] in H.
  - injection H as <- <-. split; [|done]. apply Forall_cons_2; [|apply Forall_nil_2]. intros x y Hx. by destruct x.
  - destruct (split_slash s) as [p1 ps1] eqn:E. destruct (IH _ _ eq_refl) as [H1 H2]. case_bool_decide as Ha; injection H as <- <-.
    + subst a. split; [apply Forall_cons_2; [|done]; intros x y Hx; by destruct x|]. cbn [fold_left].
      rewrite (Hf _ "/" p1). by rewrite <- H2.
    + apply Forall_cons in H1 as [H1 H3]. split; [apply Forall_cons_2; [by apply no_slash_cons|done]|].
      change (String a p1) with (String a "" ++ p1). rewrite Hf. by rewrite <- H2.
Qed.
Lemma last_part_spec s : last_component s (last_part s).
Proof.
  unfold last_part. destruct (split_slash s) as [p ps] eqn:E. destruct (split_parts _ _ _ E) as [H1 H2].
  destruct ps as [|x ps _] using rev_ind.
  - cbn. apply Forall_cons in H1 as [H1 _]. split; [done|]. by right.
  - rewrite last_last. apply Forall_cons in H1 as [_ H1]. apply Forall_app in H1 as [_ H1]. apply Forall_cons in H1 as [H1 _].
    split; [done|]. left. rewrite fold_left_app in H2. cbn [fold_left] in H2. by eexists.
Qed.
Lemma no_slash_app_l a b c d : no_slash c -> no_slash d -> a ++ "/" ++ c = b ++ "/" ++ d -> c = d.
Proof.
  intros Hc Hd. revert b. induction a as [|x a IH]; intros [|y b] He; cbn in He.
  - by injection He.
  - injection He as <- ->. exfalso. by apply (Hc b d).
  - injection He as -> <-. exfalso. by apply (Hd a c).
  - injection He as _ He. by apply (IH b).
Qed.
Lemma last_component_unique s c d : last_component s c -> last_component s d -> c = d.
Proof.
  intros [Hc [[a ->]|Hs]] [Hd [[b Hb]|Hs']].
  - by eapply no_slash_app_l.
  - exfalso. symmetry in Hs'. by apply (Hd a c).
  - subst s. exfalso. by apply (Hc b d).
  - congruence.
Qed.
Lemma has_prefix_spec p s : has_prefix p s = true <-> exists r, s = p ++ r.
Proof.
  revert s. induction p as [|a p IH]; intros s; cbn [has_prefix].
  - split; [intros _; by exists s|done].
  - destruct s as [|b s].
    + split; [done|]. intros [r Hr]. discriminate Hr.
    + rewrite andb_true_iff, bool_decide_eq_true, IH. split.
      * intros [-> [r ->]]. by exists r.
      * intros [r Hr]. injection Hr as -> ->. split; [done|]. by exists r.
Qed.

Section C58.
  Context {V : Type} (parse : string -> option V).
  Lemma read_decisive x r : read_version parse x = Some r <->
    decisive x /\ match r with
                  | FVersion v => exists s, x = StString s /\ names_version parse s v
                  | FMismatch => forall s v, x = StString s -> ~ names_version parse s v
                  | FMissing => False
                  end.
  Proof.
    destruct x as [|s|]; cbn [read_version decisive].
    - split; [done|by intros [? _]].
    - assert (Hlen : (0 <? String.length s)%nat = true <-> s <> "") by (destruct s; cbn; split; intros; done || discriminate).
      destruct (0 <? String.length s)%nat eqn:El.
      + assert (Hne : s <> "") by (by apply Hlen). destruct (has_prefix koinos_prefix s) eqn:Ep.
        * apply has_prefix_spec in Ep as [rest Hrest].
          destruct (parse (last_part s)) as [v|] eqn:Ev.
          -- split.
             ++ intros [= <-]. split; [done|]. exists s. split; [done|]. exists rest, (last_part s). split; [done|]. split; [apply last_part_spec|done].
             ++ intros [_ H]. destruct r as [w| |]; [|exfalso|done].
                ** destruct H as (s' & [= <-] & (r' & c & _ & Hc & Hp)). rewrite (last_component_unique _ _ _ Hc (last_part_spec s)) in Hp. congruence.
                ** apply (H s v eq_refl). exists rest, (last_part s). split; [done|]. split; [apply last_part_spec|done].
          -- split.
             ++ intros [= <-]. split; [done|]. intros s' v [= <-] (r' & c & _ & Hc & Hp).
                rewrite (last_component_unique _ _ _ Hc (last_part_spec s)) in Hp. congruence.
             ++ intros [_ H]. destruct r as [w| |]; [exfalso|done|done].
                destruct H as (s' & [= <-] & (r' & c & _ & Hc & Hp)). rewrite (last_component_unique _ _ _ Hc (last_part_spec s)) in Hp. congruence.
        * assert (Hnp : forall v, ~ names_version parse s v).
          { intros v (r' & c & -> & _). assert (Ht : has_prefix koinos_prefix ("koinos/p2p/" ++ r') = true) by (apply has_prefix_spec; by exists r'). congruence. }
          split.
          -- intros [= <-]. split; [done|]. intros s' v [= <-]. apply Hnp.
          -- intros [_ H]. destruct r as [w| |]; [exfalso|done|done]. destruct H as (s' & [= <-] & H). by apply (Hnp w).
      + split; [done|]. intros [Hne _]. apply Hlen in Hne. congruence.
    - split.
      + intros [= <-]. split; [done|]. intros s v Hs. discriminate Hs.
      + intros [_ H]. destruct r as [w| |]; [destruct H as (? & ? & _); discriminate|done|done].
  Qed.
  Lemma read_none x : read_version parse x = None <-> ~ decisive x.
  Proof.
    split.
    - intros H Hd. destruct x as [|s|]; cbn in *; [done| |discriminate H]. destruct s as [|a s]; [done|]. cbn [String.length Nat.ltb Nat.leb] in H.
      repeat case_match; discriminate H.
    - intros H. destruct (read_version parse x) as [r|] eqn:E; [|done]. apply read_decisive in E as [E _]. done.
  Qed.

  (** Whatever the store does over time, however late the process is scheduled: the outcome is decided by the
      value read at the moment of returning, and "missing" is returned only when the deadline has passed. *)
  Theorem C58_exact store o late t0 ctx_done r t :
    (0 <= o_version_retry o)%Z ->
    get_protocol_version parse store o late t0 ctx_done r t ->
    (t0 <= t)%Z /\
    match r with
    | FVersion v => exists s, store t = StString s /\ names_version parse s v
    | FMismatch => store t = StOther \/ exists s, store t = StString s /\ s <> "" /\ forall v, ~ names_version parse s v
    | FMissing => ((t0 + o_version_timeout o <= t)%Z \/ exists d, ctx_done = Some d /\ (d <= t)%Z) /\ ~ decisive (store t0)
    end.
  Proof.
    unfold get_protocol_version. intros Hretry H.
    remember (version_deadline o t0 ctx_done) as deadline eqn:Hdl.
    assert (Hd : forall u, (deadline <= u)%Z -> (t0 + o_version_timeout o <= u)%Z \/ exists d, ctx_done = Some d /\ (d <= u)%Z).
    { intros u Hu. subst deadline. unfold version_deadline in Hu. destruct ctx_done as [d|]; [|by left].
      destruct (Z.min_spec d (t0 + o_version_timeout o)) as [[_ Hm]|[_ Hm]]; rewrite Hm in Hu; [right; by exists d|by left]. }
    assert (HG : forall t1, lookup_from parse store (o_version_retry o) deadline late t1 r t -> (t1 <= t)%Z /\
      match r with
      | FVersion v => exists s, store t = StString s /\ names_version parse s v
      | FMismatch => store t = StOther \/ exists s, store t = StString s /\ s <> "" /\ forall v, ~ names_version parse s v
      | FMissing => (deadline <= t)%Z /\ ~ decisive (store t1)
      end).
    { clear H Hdl. intros t1 H. induction H as [t1 r Hr|t1 t2 r t' Hn Hw Hw2 H IH|t1 t' Hn H1 H2].
      - split; [lia|]. apply read_decisive in Hr as [Hdc Hr]. destruct r as [v| |]; [done| |done].
        destruct (store t1) as [|s|]; [done| |by left]. right. exists s. split; [done|]. split; [done|]. intros v. by apply Hr.
      - destruct IH as [IH1 IH2]. split; [lia|]. destruct r; [done|done|]. split; [apply IH2|by apply read_none].
      - split; [lia|]. split; [done|]. by apply read_none. }
    destruct (HG _ H) as [H1 H2]. split; [done|]. destruct r; [done|done|]. destruct H2 as [H2 H3]. split; [by apply Hd|done].
  Qed.

  (** A value that is there when the lookup starts decides at once ... *)
  Theorem C58_immediate store o late t0 ctx_done r t : decisive (store t0) ->
    get_protocol_version parse store o late t0 ctx_done r t -> t = t0.
  Proof.
    unfold get_protocol_version. generalize (version_deadline o t0 ctx_done). intros dl Hd H. inversion H as [u r' Hr|u t2 r' t' Hn _ _ _|u t' Hn _ _]; subst; [done| |]; exfalso; by apply read_none in Hn.
  Qed.
  (** ... and one that comes early enough before the deadline and stays is never missed. *)
  Theorem C58_not_missed store o late t0 ctx_done t t1 :
    (0 <= late)%Z -> (0 <= o_version_retry o)%Z ->
    (forall u, (t1 <= u)%Z -> decisive (store u)) ->
    (Z.max t0 t1 + o_version_retry o + late < t0 + o_version_timeout o)%Z ->
    (forall d, ctx_done = Some d -> Z.max t0 t1 + o_version_retry o + late < d)%Z ->
    ~ get_protocol_version parse store o late t0 ctx_done FMissing t.
  Proof.
    intros Hlate Hretry Hst Hlt1 Hlt2. assert (Hlt : (Z.max t0 t1 + o_version_retry o + late < version_deadline o t0 ctx_done)%Z).
    { unfold version_deadline. destruct ctx_done as [d|]; [specialize (Hlt2 d eq_refl)|]; lia. }
    revert Hlt. clear Hlt1 Hlt2. unfold get_protocol_version. generalize (version_deadline o t0 ctx_done). intros deadline Hlt H.
    assert (HG : forall u, lookup_from parse store (o_version_retry o) deadline late u FMissing t -> (u <= Z.max t0 (t1 + o_version_retry o + late))%Z -> False).
    { clear H. intros u H. remember FMissing as r eqn:Er. revert Er.
      induction H as [u r Hr|u u2 r t' Hn Hw Hw2 H IH|u t' Hn H1 H2]; intros Er Hu.
      - subst r. apply read_decisive in Hr as [_ Hr]. done.
      - apply IH; [done|]. assert (u < t1)%Z; [|lia]. destruct (Z.lt_ge_cases u t1) as [?|Hge]; [done|]. exfalso. by apply read_none in Hn; apply Hn, Hst.
      - assert (u < t1)%Z; [|lia]. destruct (Z.lt_ge_cases u t1) as [?|Hge]; [done|]. exfalso. by apply read_none in Hn; apply Hn, Hst. }
    apply (HG _ H). lia.
  Qed.
  (** The string this node announces names version 1.0.0. *)
  Theorem C58_announced v store o late t0 ctx_done r t : parse "1.0.0" = Some v -> store t0 = StString announced ->
    get_protocol_version parse store o late t0 ctx_done r t <-> r = FVersion v /\ t = t0.
  Proof.
    intros Hp Hs.
    assert (Hr : read_version parse (store t0) = Some (FVersion v)).
    { rewrite Hs. change (read_version parse (StString announced)) with (match parse "1.0.0" with Some v => Some (FVersion v) | None => Some FMismatch end). by rewrite Hp. }
    split.
    - unfold get_protocol_version. generalize (version_deadline o t0 ctx_done). intros dl H.
      inversion H as [u r' H'|u t2 r' t' Hn _ _ _|u t' Hn _ _]; subst; [|congruence|congruence]. split; [congruence|done].
    - intros [-> ->]. by apply LkRead.
  Qed.
End C58.

(** The hypotheses are met: a version that arrives after 120 ms, a node that never says anything. *)
Definition toy_parse (s : string) : option string := if bool_decide (s = "1.0.0") then Some s else None.
Example C58_nonvacuous :
  get_protocol_version toy_parse (fun t => if (t <? 120 * millisecond)%Z then StNone else StString announced) cm_defaults 0 0 None
    (FVersion "1.0.0") (150 * millisecond) /\
  (forall u, (120 * millisecond <= u)%Z -> decisive (if (u <? 120 * millisecond)%Z then StNone else StString announced)) /\
  get_protocol_version toy_parse (fun _ => StString "koinos/p2p/x/1.0") cm_defaults 0 0 None FMismatch 0 /\
  get_protocol_version toy_parse (fun _ => StString "") cm_defaults 0 0 (Some (10 * millisecond)%Z) FMissing (10 * millisecond) /\
  names_version toy_parse "koinos/p2p/anything/1.0.0" "1.0.0".
Proof.
  split; [|split; [|split; [|split]]].
  - apply (LkAgain _ _ _ _ _ _ (50 * millisecond)%Z); [reflexivity|vm_compute; discriminate|vm_compute; discriminate|].
    apply (LkAgain _ _ _ _ _ _ (100 * millisecond)%Z); [reflexivity|vm_compute; discriminate|vm_compute; discriminate|].
    apply (LkAgain _ _ _ _ _ _ (150 * millisecond)%Z); [reflexivity|vm_compute; discriminate|vm_compute; discriminate|].
    apply LkRead. reflexivity.
  - intros u Hu. destruct (Z.ltb_spec u (120 * millisecond)); [lia|]. done.
  - by apply LkRead.
  - apply LkDone; [reflexivity|vm_compute; discriminate|split; vm_compute; discriminate].
  - exists "anything/1.0.0", "1.0.0". split; [done|]. split; [|done]. split; [|left; by exists "koinos/p2p/anything"].
    intros a b H. repeat (destruct a as [|? a]; [discriminate H|injection H as _ H]). destruct a; discriminate H.
Qed.

Print Assumptions C58_exact.
Print Assumptions C58_immediate.
Print Assumptions C58_not_missed.
Print Assumptions C58_announced.
