(** C111: the node is started when its services answer, as configured; C112: waiting for them; C113: the signals that end the program; C116: the address
    that is logged. *)
From Verif Require Import GoBase PeerConn_Model Main_Model LocalRpc_Model Prog_Model Prog_Spec.

Section proofs.
Context {A : Type} (parse : string -> option A) (s : settings).
Notation prog := (prog A).
Notation run := (prog_run parse s).

Lemma prog_run_app (x : prog) l1 l2 : run x (l1 ++ l2) = match run x l1 with Some y => run y l2 | None => None end.
Proof. revert x. induction l1 as [|l r IH]; intros x; cbn [app prog_run]; [done|]. destruct (prog_step parse s x l); [apply IH|done]. Qed.

(** ** The configuration *)
Lemma parse_peers_ok l : forall ps, parse_peers parse l = Done ps <-> Forall2 (fun o a => parse o = Some a) l ps.
Proof.
  induction l as [|o r IH]; intros ps; cbn [parse_peers].
  - split; [intros [= <-]; constructor|inversion 1; done].
  - destruct (parse o) as [a|] eqn:Ho.
    + destruct (parse_peers parse r) as [l|] eqn:Hr; cbn [obind].
      * split; [intros [= <-]; constructor; [done|by apply IH]|]. inversion 1 as [|? b ? l' Hb Hl]; subst. apply IH in Hl. congruence.
      * split; [done|]. inversion 1 as [|? b ? l' Hb Hl]; subst. apply IH in Hl. congruence.
    + split; [done|]. inversion 1; congruence.
Qed.
Lemma parse_checkpoints_ok l : forall cps, parse_checkpoints l = Done cps <-> Forall2 (fun o cp => parse_checkpoint o = Done cp) l cps.
Proof.
  induction l as [|o r IH]; intros ps; cbn [parse_checkpoints].
  - split; [intros [= <-]; constructor|inversion 1; done].
  - destruct (parse_checkpoint o) as [a|] eqn:Ho; cbn [obind].
    + destruct (parse_checkpoints r) as [l|] eqn:Hr; cbn [obind].
      * split; [intros [= <-]; constructor; [done|by apply IH]|]. inversion 1 as [|? b ? l' Hb Hl]; subst. apply IH in Hl. congruence.
      * split; [done|]. inversion 1 as [|? b ? l' Hb Hl]; subst. apply IH in Hl. congruence.
    + split; [done|]. inversion 1; congruence.
Qed.
Lemma configure_wanted c : configure parse s = inl c <-> wanted parse s c.
Proof.
  unfold configure. split.
  - destruct (st_version s) eqn:E1; [done|]. destruct (st_basedir s) eqn:E2; [|done]. destruct (st_logger s) eqn:E3; [|done]. cbn [negb].
    destruct (Z.ltb_spec (st_jobs s) 1) as [|Hj]; [done|].
    destruct (parse_peers parse (st_peers s)) as [ps|] eqn:E4; [|done]. destruct (parse_checkpoints (st_checkpoints s)) as [cps|] eqn:E5; [|done].
    intros [= <-]. constructor; cbn; try done; [lia|by apply parse_peers_ok|by apply parse_checkpoints_ok].
  - intros [(-> & -> & ->) (Hj & Hj') Hp Hd He Hl Hc]. cbn [negb]. destruct (Z.ltb_spec (st_jobs s) 1) as [|_]; [lia|].
    apply parse_peers_ok in Hp. apply parse_checkpoints_ok in Hc. rewrite Hp, Hc. destruct c as [j ps d e l cps]; cbn in *. subst. do 2 f_equal. lia.
Qed.

(** ** What each sight has behind it *)
Definition both (h : list (sight A)) : Prop := exists h1, seen_after (VChain true) h1 h /\ VStore true ∈ h1.
Definition rule (v : sight A) (h : list (sight A)) : Prop :=
  match v with
  | VStore _ => VStore true ∉ h
  | VChain _ => VStore true ∈ h /\ VChain true ∉ h
  | VNode c => wanted parse s c /\ both h /\ forall c', VNode c' ∉ h
  | VServe j => (exists c, VNode c ∈ h /\ j = cf_jobs c) /\ forall j', VServe j' ∉ h
  | VStarted => (exists j, VServe j ∈ h) /\ VStarted ∉ h
  | VSignal => True
  | VClosed => (exists h1, seen_after VSignal h1 h /\ VStarted ∈ h1) /\ VClosed ∉ h
  | VAddr _ => VStarted ∈ h
  end.
Definition good (h : list (sight A)) : Prop := forall v h', seen_after v h' h -> rule v h'.
Lemma good_nil : good []. Proof. intros v h' [k Hk]. by destruct k. Qed.
Lemma good_cons v h : rule v h -> good h -> good (v :: h).
Proof. intros Hr Hg w h' [k Hk]. destruct k as [|u k]; cbn in Hk; [congruence|]. apply Hg. exists k. congruence. Qed.
Lemma seen_cons (v w : sight A) h' h : seen_after v h' h -> seen_after v h' (w :: h).
Proof. intros [k ->]. by exists (w :: k). Qed.
Lemma both_cons v h : both h -> both (v :: h).
Proof. intros (h1 & H1 & H2). exists h1. split; [by apply seen_cons|done]. Qed.

Record facts (h : list (sight A)) (st ch : bool) (nd sv : bool) (sd : bool) (cl : bool) : Prop := {
  fa_store : VStore true ∈ h <-> st = true;
  fa_chain : (VChain true ∈ h <-> ch = true) /\ (ch = true -> both h);
  fa_node : (exists c, VNode c ∈ h) <-> nd = true;
  fa_serve : (exists j, VServe j ∈ h) <-> sv = true;
  fa_started : VStarted ∈ h <-> sd = true;
  fa_closed : VClosed ∈ h <-> cl = true }.
Definition at_place (p : place A) (x : prog) : Prop :=
  match p with
  | PRead => pg_log x = [] /\ pg_contexts x = 0
  | PDial c => wanted parse s c /\ pg_log x = [] /\ pg_contexts x = 0
  | PStore c => wanted parse s c /\ facts (pg_log x) false false false false false false
  | PChain c => wanted parse s c /\ facts (pg_log x) true false false false false false
  | PMake c => wanted parse s c /\ facts (pg_log x) true true false false false false
  | PHandler c => VNode c ∈ pg_log x /\ facts (pg_log x) true true true false false false
  | PStart => facts (pg_log x) true true true true false false
  | PTell | PRegister => facts (pg_log x) true true true true true false
  | PWait => facts (pg_log x) true true true true true false /\ (pg_channel x = true -> exists h1, seen_after VSignal h1 (pg_log x) /\ VStarted ∈ h1)
  | PClose => facts (pg_log x) true true true true true false /\ (exists h1, seen_after VSignal h1 (pg_log x) /\ VStarted ∈ h1)
  | PReturn => facts (pg_log x) true true true true true true
  | POver (EndExit n) =>
    (configure parse s = inr (EndExit n) /\ pg_log x = [] /\ pg_contexts x = 0) \/ (n = 0%N /\ VClosed ∈ pg_log x /\ pg_contexts x = 0 /\ pg_root x = false)
  | POver EndPanic => (configure parse s = inr EndPanic /\ pg_log x = []) \/ (both (pg_log x) /\ forall c, VNode c ∉ pg_log x) \/ VStarted ∈ pg_log x
  | POver EndSignal => VSignal ∈ pg_log x /\ VClosed ∉ pg_log x
  end.
Definition asked_at (p : place A) : bool := match p with PWait | PClose | PReturn => true | _ => false end.
Definition over (p : place A) : bool := match p with POver _ => true | _ => false end.
Definition Inv (x : prog) : Prop :=
  good (pg_log x) /\ at_place (pg_at x) x /\ (over (pg_at x) = false -> pg_asked x = asked_at (pg_at x) /\ pg_contexts x = questions (pg_log x) /\ (pg_asked x = false -> pg_channel x = false)) /\
  (pg_contexts x <= questions (pg_log x)).
Lemma facts_nil : facts [] false false false false false false.
Proof.
  constructor; [split; [|done]|split; [split; [|done]|done]|split; [|done]|split; [|done]|split; [|done]|split; [|done]];
    try (intros H; by apply elem_of_nil in H); intros [c H]; by apply elem_of_nil in H.
Qed.
Lemma facts_cons v h a b c d e f : facts h a b c d e f ->
  (v = VChain true -> a = true) ->
  facts (v :: h) (a || match v with VStore y => y | _ => false end) (b || match v with VChain y => y | _ => false end)
    (c || match v with VNode _ => true | _ => false end) (d || match v with VServe _ => true | _ => false end)
    (e || match v with VStarted => true | _ => false end) (f || match v with VClosed => true | _ => false end).
Proof.
  intros [H1 [H2 H2'] H3 H4 H5 H6] Hv. constructor.
  - rewrite elem_of_cons, H1. destruct v as [[]| | | | | | |], a; cbn; split; try done; try (by right); try (by left); intros [?|?]; done.
  - split.
    + rewrite elem_of_cons, H2. destruct v as [|[]| | | | | |], b; cbn; split; try done; try (by right); try (by left); intros [?|?]; done.
    + intros Hb. destruct b; [apply both_cons; by apply H2'|]. destruct v as [|[]| | | | | |]; try done. exists h. split; [by exists []|]. apply H1. by apply Hv.
  - split.
    + intros [c' Hc]. apply elem_of_cons in Hc as [<-|Hc]; [by rewrite orb_true_r|]. rewrite (proj1 H3); [done|by exists c'].
    + intros Hc. apply orb_true_iff in Hc as [Hc|Hc]; [apply H3 in Hc as [c' Hc]; exists c'; by right|]. destruct v; try done. eexists. by left.
  - split.
    + intros [c' Hc]. apply elem_of_cons in Hc as [<-|Hc]; [by rewrite orb_true_r|]. rewrite (proj1 H4); [done|by exists c'].
    + intros Hc. apply orb_true_iff in Hc as [Hc|Hc]; [apply H4 in Hc as [c' Hc]; exists c'; by right|]. destruct v; try done. eexists. by left.
  - rewrite elem_of_cons, H5. destruct v, e; cbn; split; try done; try (by right); try (by left); intros [?|?]; done.
  - rewrite elem_of_cons, H6. destruct v, f; cbn; split; try done; try (by right); try (by left); intros [?|?]; done.
Qed.
Lemma no_elem (P : Prop) (b : bool) : (P <-> b = true) -> b = false -> ~ P.
Proof. intros H -> HP. by apply H in HP. Qed.
Lemma signal_after h : (exists h1, seen_after (A:=A) VSignal h1 h /\ VStarted ∈ h1) -> exists h1, seen_after (A:=A) VSignal h1 (VSignal :: h) /\ VStarted ∈ h1.
Proof. intros (h1 & H1 & H2). exists h1. split; [by apply seen_cons|done]. Qed.

Lemma addr_after a h : (exists h1, seen_after (A:=A) VSignal h1 h /\ VStarted ∈ h1) -> exists h1, seen_after (A:=A) VSignal h1 (VAddr a :: h) /\ VStarted ∈ h1.
Proof. intros (h1 & H1 & H2). exists h1. split; [by apply seen_cons|done]. Qed.
Lemma facts_addr a h f : facts h true true true true true f -> facts (VAddr a :: h) true true true true true f.
Proof. intros H. apply (facts_cons (VAddr a)) in H; [by rewrite !orb_false_r in H|done]. Qed.
(** The address is logged, or there is none. *)
Lemma Inv_tell x l p f : Inv x -> facts (pg_log x) true true true true true f -> logging (pg_at x) = true -> logging p = true ->
  (p = pg_at x \/ pg_at x = PTell /\ p = PRegister) -> Inv (tell x l p).
Proof.
  intros (Hg & Hp & Ho & Hn) Hf Hl Hlp Hcase. unfold tell. destruct l as [|a l]; cbn [get_address]; unfold move; cbn [app].
  - split; [exact Hg|]. split; [|split; [done|exact Hn]]. cbn. right. right. by apply (fa_started _ _ _ _ _ _ _ Hf).
  - assert (Hov : over (pg_at x) = false) by (by destruct (pg_at x)). destruct (Ho Hov) as (Ha & Hq & Hch).
    split; [apply good_cons; [by apply (fa_started _ _ _ _ _ _ _ Hf)|done]|]. split; [|split; [|done]].
    + destruct Hcase as [->|[Hx ->]].
      * cbn [pg_at]. destruct x as [q n r b ch h]; cbn [pg_at pg_log pg_channel] in *. destruct q; try done; cbn [at_place pg_log pg_channel] in *; try (by apply facts_addr).
        -- destruct Hp as [Hp Hc]. split; [by apply facts_addr|]. intros Hch'. apply addr_after. by apply Hc.
        -- destruct Hp as [Hp Hc]. split; [by apply facts_addr|]. by apply addr_after.
      * destruct x as [q n r b ch h]; cbn [pg_at pg_log pg_channel] in *. subst q. cbn. by apply facts_addr.
    + intros _. cbn [pg_asked pg_at pg_contexts pg_log pg_channel]. split; [|split; [exact Hq|exact Hch]].
      destruct Hcase as [->|[Hx ->]]; [done|]. by rewrite Hx in Ha.
Qed.

Lemma Inv_init : Inv prog_init.
Proof. split; [apply good_nil|]. split; [done|]. split; [done|]. cbn. lia. Qed.
Lemma Inv_step x l y : Inv x -> prog_step parse s x l = Some y -> Inv y.
Proof.
  destruct x as [p n r a ch h]. intros (Hg & Hp & Ho & Hn) Hs. cbn [pg_log pg_at pg_contexts pg_asked] in *.
  destruct l.
  - (* MGo *)
    destruct p; cbn [prog_step pg_at pg_channel] in Hs; try done; unfold move in Hs; cbn [pg_at pg_contexts pg_root pg_asked pg_channel pg_log app] in Hs;
      destruct (Ho eq_refl) as (Ha & Hq & Hch); cbn [asked_at pg_channel] in *; subst a.
    + destruct Hp as [Hl Hc]. cbn in Hl, Hc. subst h n. destruct (configure parse s) as [c|e] eqn:Hc; injection Hs as <-.
      * split; [apply good_nil|]. split; [split; [by apply configure_wanted|done]|]. split; [done|cbn; lia].
      * split; [apply good_nil|]. split; [|split; [done|cbn; lia]]. cbn [at_place pg_at pg_log pg_contexts].
        assert (He : e <> EndSignal); [|by destruct e; [left|left|]]. intros ->. clear - Hc. unfold configure in Hc.
        destruct (st_version s); [done|]. destruct (st_basedir s); [|done]. destruct (st_logger s); [|done]. cbn [negb] in Hc.
        destruct (st_jobs s <? 1)%Z; [done|]. destruct (parse_peers _ _); [|done]. destruct (parse_checkpoints _); done.
    + injection Hs as <-. destruct Hp as (Hw & Hl & Hc). cbn in Hl, Hc. subst h n. split; [apply good_nil|]. split; [split; [done|apply facts_nil]|]. split; [done|cbn; lia].
    + injection Hs as <-. destruct Hp as [Hw Hf]. cbn in Hf. split.
      * apply good_cons; [|done]. split; [done|]. split; [by apply (fa_chain _ _ _ _ _ _ _ Hf)|]. intros c' Hc'.
        eapply (no_elem _ _ (fa_node _ _ _ _ _ _ _ Hf)); [done|by exists c'].
      * split; [split; [by left|]|split; [done|done]]. apply (facts_cons (VNode c)) in Hf; [exact Hf|done].
    + injection Hs as <-. destruct Hp as [Hw Hf]. cbn in Hf. split.
      * apply good_cons; [|done]. split; [by exists c|]. intros c' Hc'.
        eapply (no_elem _ _ (fa_serve _ _ _ _ _ _ _ Hf)); [done|by exists c'].
      * split; [|split; [done|done]]. apply (facts_cons (VServe (cf_jobs c))) in Hf; [exact Hf|done].
    + injection Hs as <-. cbn in Hp. split.
      * apply good_cons; [|done]. split; [by apply (fa_serve _ _ _ _ _ _ _ Hp)|].
        eapply (no_elem _ _ (fa_started _ _ _ _ _ _ _ Hp)); done.
      * split; [|split; [done|done]]. apply (facts_cons VStarted) in Hp; [exact Hp|done].
    + injection Hs as <-. cbn in Hp. split; [done|]. split; [|done]. split; [done|]. cbn. intros ->.
      by specialize (Hch eq_refl).
    + destruct ch; [|done]. injection Hs as <-. destruct Hp as [Hf Hc]. split; [done|]. split; [|done]. split; [done|by apply Hc].
    + injection Hs as <-. destruct Hp as [Hf Hc]. cbn in Hf, Hc. split.
      * apply good_cons; [|done]. split; [done|]. eapply (no_elem _ _ (fa_closed _ _ _ _ _ _ _ Hf)); done.
      * split; [|split; [done|done]]. apply (facts_cons VClosed) in Hf; [exact Hf|done].
    + injection Hs as <-. cbn in Hp. split; [done|]. split; [|split; [done|cbn; lia]]. cbn. right. split; [done|]. split; [|done]. by apply (fa_closed _ _ _ _ _ _ _ Hp).
  - (* MAsk *)
    destruct p; cbn [prog_step pg_at] in Hs; try done; destruct (Ho eq_refl) as (Ha & Hq & Hch); cbn [asked_at pg_channel] in *; subst a;
      injection Hs as <-; destruct Hp as [Hw Hf]; cbn in Hf; unfold ask; cbn [pg_at pg_contexts pg_root pg_asked pg_channel pg_log].
    + set (b := yes _). assert (Hr : rule (VStore b) h) by (eapply (no_elem _ _ (fa_store _ _ _ _ _ _ _ Hf)); done).
      split; [by apply good_cons|]. apply (facts_cons (VStore b)) in Hf; [|done]. unfold Inv, questions in *.
      destruct b; (split; [split; [done|exact Hf]|]); (split; [intros _; split; [done|split; [cbn; lia|done]]|cbn; lia]).
    + set (b := yes _). assert (Hr : rule (VChain b) h).
      { split; [by apply (fa_store _ _ _ _ _ _ _ Hf)|]. eapply (no_elem _ _ (proj1 (fa_chain _ _ _ _ _ _ _ Hf))); done. }
      split; [by apply good_cons|]. apply (facts_cons (VChain b)) in Hf; [|done]. unfold Inv, questions in *.
      destruct b; (split; [split; [done|exact Hf]|]); (split; [intros _; split; [done|split; [cbn; lia|done]]|cbn; lia]).
  - (* MFail *)
    destruct p; cbn [prog_step pg_at] in Hs; try done. injection Hs as <-. destruct Hp as [Hw Hf]. cbn in Hf. split; [done|]. split; [|split; done].
    right. left. split; [by apply (fa_chain _ _ _ _ _ _ _ Hf)|]. intros c' Hc'. eapply (no_elem _ _ (fa_node _ _ _ _ _ _ _ Hf)); [done|by exists c'].
  - (* MSignal *)
    destruct (over p) eqn:Hov; [by destruct p|]. destruct (Ho eq_refl) as (Ha & Hq & Hch). cbn [pg_channel] in *.
    assert (Hstep : prog_step parse s (Prog p n r a ch h) MSignal = if a then Some (Prog p n r true true (VSignal :: h)) else Some (Prog (POver EndSignal) n r a ch (VSignal :: h)))
      by (by destruct p).
    rewrite Hs in Hstep. clear Hs. destruct a.
    + injection Hstep as ->. split; [by apply good_cons|].
      assert (Hf : forall f, facts h true true true true true f -> facts (VSignal :: h) true true true true true f)
        by (intros f H; apply (facts_cons VSignal) in H; [by rewrite !orb_false_r in H|done]).
      split; [|split; [intros _; split; [done|split; [done|done]]|done]].
      destruct p; cbn [asked_at] in Ha; try done; cbn [at_place pg_at pg_log pg_channel] in *.
      * destruct Hp as [Hp Hc]. split; [by apply Hf|]. intros _. exists h. split; [by exists []|]. by apply (fa_started _ _ _ _ _ _ _ Hp).
      * destruct Hp as [Hp Hc]. split; [by apply Hf|]. by apply signal_after.
      * by apply Hf.
    + injection Hstep as ->. split; [by apply good_cons|]. split; [|split; done]. cbn. split; [by left|]. intros Hin. apply elem_of_cons in Hin as [?|Hin]; [done|].
      clear - Hin Hp Ha Hov. destruct p; cbn [at_place asked_at pg_log over] in *; try done.
      * destruct Hp as [-> _]. by apply elem_of_nil in Hin.
      * destruct Hp as (_ & -> & _). by apply elem_of_nil in Hin.
      * destruct Hp as [_ Hf]. by apply (fa_closed _ _ _ _ _ _ _ Hf) in Hin.
      * destruct Hp as [_ Hf]. by apply (fa_closed _ _ _ _ _ _ _ Hf) in Hin.
      * destruct Hp as [_ Hf]. by apply (fa_closed _ _ _ _ _ _ _ Hf) in Hin.
      * destruct Hp as [_ Hf]. by apply (fa_closed _ _ _ _ _ _ _ Hf) in Hin.
      * by apply (fa_closed _ _ _ _ _ _ _ Hp) in Hin.
      * by apply (fa_closed _ _ _ _ _ _ _ Hp) in Hin.
      * by apply (fa_closed _ _ _ _ _ _ _ Hp) in Hin.
  - (* MLook *)
    destruct p; cbn [prog_step pg_at] in Hs; try done. injection Hs as <-. eapply Inv_tell; [split; [exact Hg|split; [exact Hp|split; [exact Ho|exact Hn]]]|exact Hp|done|done|by right].
  - (* MMinute *)
    destruct p; cbn [prog_step pg_at logging] in Hs; try done; injection Hs as <-;
      (eapply Inv_tell; [split; [exact Hg|split; [exact Hp|split; [exact Ho|exact Hn]]]|cbn in Hp; first [exact Hp|exact (proj1 Hp)]|done|done|by left]).
Qed.
Lemma Inv_run x ls y : Inv x -> run x ls = Some y -> Inv y.
Proof.
  revert x. induction ls as [|l r IH]; intros x Hi; cbn [prog_run]; [by intros [= <-]|].
  destruct (prog_step parse s x l) as [x'|] eqn:E; [|done]. intros H. eapply IH; [|exact H]. by eapply Inv_step.
Qed.
Lemma Inv_reach ls x : run prog_init ls = Some x -> Inv x.
Proof. intros H. eapply Inv_run; [apply Inv_init|exact H]. Qed.

(** While signals are not asked for none has come; while the program waits for one, one that came is in the channel. *)
Definition Sig (x : prog) : Prop :=
  (over (pg_at x) = false -> pg_asked x = false -> VSignal ∉ pg_log x) /\ (pg_at x = PWait -> VSignal ∈ pg_log x -> pg_channel x = true) /\
  (pg_asked x = true -> pg_at x <> POver EndSignal).
Lemma Sig_step x l y : Inv x -> Sig x -> prog_step parse s x l = Some y -> Sig y.
Proof.
  destruct x as [p n r a ch h]. intros (_ & _ & Ho & _) (H1 & H2 & H3) Hs. cbn [pg_log pg_at pg_contexts pg_asked pg_channel] in *.
  destruct (over p) eqn:Hov; [by destruct p, l|]. destruct (Ho eq_refl) as (Ha & _ & _). specialize (H1 eq_refl). clear Ho. subst a. cbn [pg_channel] in *.
  assert (Hc : forall (v : sight A), v <> VSignal -> VSignal ∉ h -> VSignal ∉ v :: h).
  { intros v Hv Hn Hin. apply elem_of_cons in Hin as [?|?]; [congruence|done]. }
  destruct l, p; cbn [prog_step pg_at pg_channel pg_asked asked_at] in *; try done;
    repeat match goal with
    | H : match configure _ _ with _ => _ end = Some _ |- _ => destruct (configure parse s)
    | H : (if ?b then _ else _) = Some _ |- _ => destruct b; try done
    | H : Some (tell _ ?l _) = Some _ |- _ => destruct l; unfold tell in H; cbn [get_address] in H
    end; injection Hs as <-; unfold ask, move; (split; [|split]); cbn [pg_at pg_log pg_asked pg_channel app over]; try done;
    try (intros E; first [apply H3|apply H2]; done);
    try (intros E Hin; apply elem_of_cons in Hin as [?|Hin]; [done|by apply H2]);
    try (intros _ _; apply Hc; [done|by apply H1]); try (intros _; exact H1); try (by destruct (yes _)); intros _ Hin; destruct (H1 eq_refl Hin).
Qed.
Lemma Sig_run x ls y : Inv x -> Sig x -> run x ls = Some y -> Sig y.
Proof.
  revert x. induction ls as [|l r IH]; intros x Hi Hx; cbn [prog_run]; [by intros [= <-]|].
  destruct (prog_step parse s x l) as [x'|] eqn:E; [|done]. intros H. eapply IH; [| |exact H]; [by eapply Inv_step|by eapply Sig_step].
Qed.
Lemma Sig_reach ls x : run prog_init ls = Some x -> Sig x.
Proof.
  intros H. eapply Sig_run; [apply Inv_init| |exact H]. split; [|split]; cbn; try done. intros _ _ Hin. by apply elem_of_nil in Hin.
Qed.
(** How the program ends by a panic. *)
Lemma panic_step x l y : prog_step parse s x l = Some y -> pg_at y = POver EndPanic ->
  (l = MGo /\ pg_at x = PRead /\ configure parse s = inr EndPanic) \/ (l = MFail /\ exists c, pg_at x = PMake c) \/ ~ has_address l.
Proof.
  destruct x as [p n r a ch h]. intros Hs Hy.
  destruct l as [| | | |l|l], p; cbn [prog_step pg_at pg_channel pg_asked logging] in *; try done;
    repeat match goal with
    | H : match configure _ _ with _ => _ end = Some _ |- _ => destruct (configure parse s) as [?|e] eqn:Hc
    | H : (if ?b then _ else _) = Some _ |- _ => destruct b; try done
    | H : Some (tell _ ?l _) = Some _ |- _ => destruct l; unfold tell in H; cbn [get_address] in H
    end; injection Hs as <-; unfold ask, move in Hy; cbn [pg_at] in Hy; try done; try (by destruct (yes _)).
  - left. injection Hy as ->. done.
  - right. left. split; [done|]. by exists c.
  - right. right. cbn. tauto.
  - right. right. cbn. tauto.
  - right. right. cbn. tauto.
  - right. right. cbn. tauto.
  - right. right. cbn. tauto.
  - right. right. cbn. tauto.
Qed.
Lemma snoc_run x ls l y : run x (ls ++ [l]) = Some y -> exists x', run x ls = Some x' /\ prog_step parse s x' l = Some y.
Proof. rewrite prog_run_app. destruct (run x ls) as [x'|]; [|done]. cbn [prog_run]. destruct (prog_step parse s x' l) eqn:E; [|done]. intros [= ->]. by exists x'. Qed.
Lemma panic_asked ls x : run prog_init ls = Some x -> Forall has_address ls -> pg_asked x = true -> pg_at x <> POver EndPanic.
Proof.
  destruct ls as [|l ls _] using rev_ind; [by intros [= <-]|]. intros (x' & Hr & Hs)%snoc_run [_ [Hl _]%Forall_cons]%Forall_app Ha Hp.
  pose proof (Inv_reach _ _ Hr) as (_ & _ & Ho & _). destruct (panic_step _ _ _ Hs Hp) as [(-> & Hx & _)|[(-> & c & Hx)|Hn]]; [| |exact (Hn Hl)];
    rewrite Hx in Ho; destruct (Ho eq_refl) as (Hax & _); destruct x' as [p n r a ch h]; cbn in Hx, Hax; subst p a; cbn in Hs.
  - destruct (configure parse s); injection Hs as <-; done.
  - injection Hs as <-. done.
Qed.
(** The log only grows. *)
Lemma log_step x l y : prog_step parse s x l = Some y -> (exists k, pg_log y = k ++ pg_log x) /\ (l = MSignal -> VSignal ∈ pg_log y) /\ (pg_asked x = true -> pg_asked y = true).
Proof.
  destruct x as [p n r a ch h]. intros Hs.
  destruct l, p; cbn [prog_step pg_at pg_channel pg_asked] in *; try done;
    repeat match goal with
    | H : match configure _ _ with _ => _ end = Some _ |- _ => destruct (configure parse s)
    | H : (if ?b then _ else _) = Some _ |- _ => destruct b; try done
    | H : Some (tell _ ?l _) = Some _ |- _ => destruct l; unfold tell in H; cbn [get_address] in H
    end; injection Hs as <-; unfold ask, move; cbn [pg_log pg_asked]; (split; [|split; try done]);
    try (exists []; reflexivity); try (eexists [_]; reflexivity); intros _; by left.
Qed.
Lemma log_run x ls y : run x ls = Some y -> (exists k, pg_log y = k ++ pg_log x) /\ (MSignal ∈ ls -> VSignal ∈ pg_log y) /\ (pg_asked x = true -> pg_asked y = true).
Proof.
  revert x. induction ls as [|l r IH]; intros x; cbn [prog_run].
  - intros [= <-]. split; [by exists []|]. split; [|done]. intros H. by apply elem_of_nil in H.
  - destruct (prog_step parse s x l) as [x'|] eqn:E; [|done]. intros H. apply IH in H as ([k Hk] & H2 & H3). apply log_step in E as ([k' Hk'] & H2' & H3').
    split; [exists (k ++ k'); by rewrite Hk, Hk', app_assoc|]. split; [|auto]. intros Hin. apply elem_of_cons in Hin as [<-|Hin]; [|by apply H2].
    rewrite Hk. apply elem_of_app. right. by apply H2'.
Qed.

(** * C111 *)
(** What is seen of the program is in order: the node is made, once, only after the block store and after it the chain has answered, and with
    the configuration asked for; then, once, requests are served, with the number of jobs asked for; then, once, the node is started. *)
Theorem C111_order ls x : run prog_init ls = Some x ->
  (forall c h, seen_after (VNode c) h (pg_log x) -> wanted parse s c /\ (exists h1, seen_after (VChain true) h1 h /\ VStore true ∈ h1) /\ forall c', VNode c' ∉ h) /\
  (forall j h, seen_after (VServe j) h (pg_log x) -> (1 <= j)%N /\ Z.of_N j = st_jobs s /\ (exists c, VNode c ∈ h) /\ forall j', VServe j' ∉ h) /\
  (forall h, seen_after VStarted h (pg_log x) -> (exists j, VServe j ∈ h) /\ VStarted ∉ h).
Proof.
  intros H. apply Inv_reach in H as (Hg & _). split; [|split].
  - intros c h Hs. by apply Hg in Hs.
  - intros j h Hs. pose proof (Hg _ _ Hs) as [(c & Hc & ->) Hn]. assert (Hc' : exists h1, seen_after (VNode c) h1 (pg_log x)).
    { destruct Hs as [k ->]. apply elem_of_list_split in Hc as (k1 & k2 & ->). exists k2. exists (k ++ VServe (cf_jobs c) :: k1). by rewrite <- app_assoc. }
    destruct Hc' as [h1 Hc']. apply Hg in Hc' as (Hw & _). pose proof (wt_jobs _ _ _ Hw). split; [lia|]. split; [lia|]. split; [by exists c|done].
  - intros h Hs. by apply Hg in Hs.
Qed.
(** A question counts as answered exactly if a reply came that can be read. *)
Lemma yes_store w : yes (is_connected_to_block_store w) = true <-> store_answers w.
Proof.
  unfold yes, is_connected_to_block_store, request, store_answers, check_message_size, block_store_rpc, max_message_size. rewrite bool_decide_eq_true. split.
  - destruct (w_marshal w (RStore SReserved)) as [data|]; [|done]. destruct (N.ltb_spec 536870912 (N.of_nat (Strings.String.length data))) as [|Hl]; [done|].
    cbn [fst snd]. destruct (w_mq w "block_store" data) as [reply|e] eqn:Em; [|done]. destruct (w_store w reply) as [r|] eqn:Er; [|done]. intros _. by exists data, reply, r.
  - intros (data & reply & r & -> & Hl & Hm & Hr). destruct (N.ltb_spec 536870912 (N.of_nat (Strings.String.length data))) as [|_]; [lia|]. cbn [fst snd]. by rewrite Hm, Hr.
Qed.
Lemma yes_chain w : yes (is_connected_to_chain w) = true <-> chain_answers w.
Proof.
  unfold yes, is_connected_to_chain, request, chain_answers, check_message_size, chain_rpc, max_message_size. rewrite bool_decide_eq_true. split.
  - destruct (w_marshal w (RChain CReserved)) as [data|]; [|done]. destruct (N.ltb_spec 536870912 (N.of_nat (Strings.String.length data))) as [|Hl]; [done|].
    cbn [fst snd]. destruct (w_mq w "chain" data) as [reply|e] eqn:Em; [|done]. destruct (w_chain w reply) as [r|] eqn:Er; [|done]. intros _. by exists data, reply, r.
  - intros (data & reply & r & -> & Hl & Hm & Hr). destruct (N.ltb_spec 536870912 (N.of_nat (Strings.String.length data))) as [|_]; [lia|]. cbn [fst snd]. by rewrite Hm, Hr.
Qed.
(** In whatever state, until it waits for a signal after it has started the node, the program goes on: it asks the block store until that answers,
    then the chain until that answers, and then neither any more. *)
Theorem C111_goes_on ls x c : run prog_init ls = Some x -> wanted parse s c -> VSignal ∉ pg_log x -> VStarted ∉ pg_log x -> pg_at x <> POver EndPanic ->
  (exists y, prog_step parse s x MGo = Some y) \/
  (VStore true ∉ pg_log x /\ forall w, exists y b, prog_step parse s x (MAsk w) = Some y /\ pg_log y = VStore b :: pg_log x /\ (b = true <-> store_answers w)) \/
  (VStore true ∈ pg_log x /\ VChain true ∉ pg_log x /\
   forall w, exists y b, prog_step parse s x (MAsk w) = Some y /\ pg_log y = VChain b :: pg_log x /\ (b = true <-> chain_answers w)).
Proof.
  intros H Hw Hns Hnt Hnp. pose proof (Inv_reach _ _ H) as (Hg & Hp & Ho & _). pose proof (Sig_reach _ _ H) as (HS & _).
  assert (Hc : configure parse s = inl c) by (by apply configure_wanted).
  destruct x as [p n r a ch h]. cbn [pg_log pg_at pg_asked pg_contexts pg_channel] in *. destruct p; cbn [prog_step pg_at at_place pg_log] in *.
  - left. rewrite Hc. eauto.
  - left. eauto.
  - right; left. destruct Hp as [_ Hf]. split; [eapply (no_elem _ _ (fa_store _ _ _ _ _ _ _ Hf)); done|]. intros w. eexists _, _. split; [reflexivity|].
    split; [reflexivity|apply yes_store].
  - right; right. destruct Hp as [_ Hf]. split; [by apply (fa_store _ _ _ _ _ _ _ Hf)|]. split; [eapply (no_elem _ _ (proj1 (fa_chain _ _ _ _ _ _ _ Hf))); done|].
    intros w. eexists _, _. split; [reflexivity|]. split; [reflexivity|apply yes_chain].
  - left. eauto.
  - left. eauto.
  - left. eauto.
  - destruct Hnt. by apply (fa_started _ _ _ _ _ _ _ Hp).
  - left. eauto.
  - destruct Hnt. by apply (fa_started _ _ _ _ _ _ _ (proj1 Hp)).
  - left. eauto.
  - left. eauto.
  - exfalso. destruct e; [destruct Hp as [[Hp _]|(_ & Hp & _)]| |].
    + congruence.
    + apply elem_of_list_split in Hp as (k1 & k2 & ->). destruct (Hg VClosed k2) as [(h1 & [k3 ->] & _) _]; [by exists k1|].
      apply Hns. apply elem_of_app. right. right. apply elem_of_app. right. by left.
    + done.
    + by apply (Hns (proj1 Hp)).
Qed.
(** Settings that cannot be followed end the program before it asks anything: with code 0 if only the version was wanted, with code 1
    if the directory, the logger or the number of jobs is at fault, and with a panic if a peer or a checkpoint is. *)
Theorem C111_misconfigured ls x : run prog_init ls = Some x -> (forall c, ~ wanted parse s c) ->
  Forall (fun v => v = VSignal) (pg_log x) /\ (MGo ∈ ls -> exists e, pg_at x = POver e /\
    (st_version s = true -> e = EndExit 0) /\
    (st_version s = false -> st_basedir s = false \/ st_logger s = false \/ (st_jobs s < 1)%Z -> e = EndExit 1) /\
    (st_version s = false -> st_basedir s = true -> st_logger s = true -> (1 <= st_jobs s)%Z -> e = EndPanic)).
Proof.
  intros H Hw. destruct ls as [|l r]; [injection H as <-; split; [constructor|]; intros Hin; by apply elem_of_nil in Hin|].
  assert (Hc : exists e, configure parse s = inr e).
  { destruct (configure parse s) as [c|e] eqn:E; [|by exists e]. apply configure_wanted in E. by destruct (Hw c). }
  destruct Hc as [e He]. cbn [prog_run] in H. destruct (prog_step parse s prog_init l) as [x1|] eqn:E1; [|done].
  assert (Hx : (l = MGo /\ x1 = Prog (POver e) 0 false false false []) \/ (l = MSignal /\ x1 = Prog (POver EndSignal) 0 false false false [VSignal])).
  { destruct l; cbn in E1; try done; [rewrite He in E1; injection E1 as <-; by left|injection E1 as <-; by right]. }
  assert (Hr : r = []). { destruct r as [|l2 r]; [done|]. cbn [prog_run] in H. destruct Hx as [[_ ->]|[_ ->]]; by destruct l2. }
  subst r. cbn [prog_run] in H. injection H as <-. destruct Hx as [[-> ->]|[-> ->]]; cbn.
  - split; [constructor|]. intros _. exists e. split; [done|]. unfold configure in He. split_and!.
    + intros Hv. rewrite Hv in He. congruence.
    + intros Hv Hor. rewrite Hv in He. destruct (st_basedir s), (st_logger s); cbn [negb] in He; try congruence.
      destruct (Z.ltb_spec (st_jobs s) 1); [congruence|]. destruct Hor as [?|[?|?]]; [done|done|lia].
    + intros Hv Hb Hl Hj. rewrite Hv, Hb, Hl in He. cbn [negb] in He. destruct (Z.ltb_spec (st_jobs s) 1); [lia|].
      destruct (parse_peers _ _); [|congruence]. destruct (parse_checkpoints _); congruence.
  - split; [by repeat constructor|]. intros Hin. apply elem_of_cons in Hin as [?|Hin]; [done|by apply elem_of_nil in Hin].
Qed.

(** * C112 *)
(** Each question leaves a context behind, until main returns. *)
Theorem C112_one_each_partial ls x : run prog_init ls = Some x ->
  (pg_contexts x <= questions (pg_log x)) /\
  ((forall e, pg_at x <> POver e) -> pg_contexts x = questions (pg_log x)) /\
  (VClosed ∈ pg_log x -> forall n, pg_at x = POver (EndExit n) -> pg_contexts x = 0).
Proof.
  intros H. pose proof (Inv_reach _ _ H) as (Hg & Hp & Ho & Hn). split; [done|]. split.
  - intros He. destruct (over (pg_at x)) eqn:E; [|by apply Ho]. destruct (pg_at x) as [| | | | | | | | | | | |e]; try done. by destruct (He e).
  - intros Hc n He. rewrite He in Hp. cbn in Hp. destruct Hp as [(_ & _ & ?)|(_ & _ & ? & _)]; done.
Qed.
(** So there is no bound to the contexts that pile up while the block store, or the chain, does not answer. *)
Theorem C112_pile_refuted c w : wanted parse s c -> ~ store_answers w -> forall n, exists ls x,
  run prog_init ls = Some x /\ pg_contexts x = n /\ pg_root x = true /\ VStore true ∉ pg_log x /\ length ls = 2 + n.
Proof.
  intros Hw Ha n. apply configure_wanted in Hw. exists (MGo :: MGo :: replicate n (MAsk w)). exists (Prog (PStore c) n true false false (replicate n (VStore false))).
  assert (Hy : yes (is_connected_to_block_store w) = false). { destruct (yes _) eqn:E; [|done]. apply yes_store in E. done. }
  assert (Hn : forall n m (h : list (sight A)), run (Prog (PStore c) m true false false h) (replicate n (MAsk w)) = Some (Prog (PStore c) (n + m) true false false (replicate n (VStore false) ++ h))).
  { clear n. induction n as [|n IH]; intros m h; [done|]. cbn [replicate prog_run prog_step pg_at]. unfold ask. rewrite Hy. cbn [pg_contexts pg_root pg_asked pg_channel pg_log].
    rewrite IH. f_equal. f_equal; [lia|]. change (VStore false :: h) with (([VStore false] : list (sight A)) ++ h). rewrite app_assoc. f_equal.
    symmetry. apply (replicate_cons_app n (VStore false)). }
  split; [cbn [prog_run prog_step pg_at prog_init]; rewrite Hw; cbn [prog_run prog_step pg_at]; unfold move; cbn [pg_contexts pg_root pg_asked pg_channel pg_log app]; rewrite Hn, Nat.add_0_r, app_nil_r; done|].
  split; [done|]. split; [done|]. split; [|cbn; by rewrite replicate_length]. cbn. intros Hin. apply elem_of_replicate in Hin as [? _]. done.
Qed.

(** * C113 *)
(** Once the program has asked for signals: it never ends by one, nor by a panic of its own as long as the host has an address (C116); when
    one has come the program, left to itself, closes the node, once, and returns; and it returns only so. *)
Theorem C113_orderly_partial ls ls' x y : run prog_init ls = Some x -> pg_asked x = true -> run x ls' = Some y -> Forall has_address (ls ++ ls') ->
  pg_at y <> POver EndSignal /\ pg_at y <> POver EndPanic /\
  (MSignal ∈ ls' -> exists k z, k <= 3 /\ run y (replicate k MGo) = Some z /\ pg_at z = POver (EndExit 0) /\ pg_root z = false /\ pg_contexts z = 0 /\
    exists h, seen_after VClosed h (pg_log z) /\ VClosed ∉ h /\ VSignal ∈ h) /\
  (VClosed ∈ pg_log y -> exists h, seen_after VSignal h (pg_log y) /\ VStarted ∈ h).
Proof.
  intros H Ha H' Haddr. pose proof (log_run _ _ _ H') as (_ & Hs & Ha'). specialize (Ha' Ha).
  assert (Hr : run prog_init (ls ++ ls') = Some y) by (by rewrite prog_run_app, H).
  pose proof (Inv_reach _ _ Hr) as (Hg & Hp & Ho & _). pose proof (Sig_reach _ _ Hr) as (_ & HW & HE). pose proof (HE Ha') as H1.
  assert (H2 : pg_at y <> POver EndPanic) by (by eapply panic_asked).
  split; [done|]. split; [done|]. split.
  - intros Hin. specialize (Hs Hin). assert (Hi : Inv y) by (by eapply Inv_reach). clear HE H H' Hr Hin Ha Haddr x ls ls'.
    assert (Hend : forall z, Inv z -> forall n, pg_at z = POver (EndExit n) -> pg_asked z = true -> VSignal ∈ pg_log z -> pg_at z = POver (EndExit 0) /\ pg_root z = false /\ pg_contexts z = 0 /\
      exists h, seen_after VClosed h (pg_log z) /\ VClosed ∉ h /\ VSignal ∈ h).
    { intros z (Hgz & Hpz & _) n Hz _ Hsz. rewrite Hz in Hpz. cbn in Hpz. destruct Hpz as [(_ & Hl & _)|(-> & Hc & Hcz & Hrz)].
      - rewrite Hl in Hsz. by apply elem_of_nil in Hsz.
      - split; [done|]. split; [done|]. split; [done|]. apply elem_of_list_split in Hc as (k1 & k2 & Hk). exists k2. split; [by exists k1|].
        destruct (Hgz VClosed k2) as [(h1 & [k3 ->] & _) Hn]; [by exists k1|]. split; [done|]. apply elem_of_app. right. by left. }
    assert (Hgo : forall k z, run y (replicate k MGo) = Some z -> forall n, pg_at z = POver (EndExit n) ->
      pg_at z = POver (EndExit 0) /\ pg_root z = false /\ pg_contexts z = 0 /\ exists h, seen_after VClosed h (pg_log z) /\ VClosed ∉ h /\ VSignal ∈ h).
    { intros k z Hz n Hn. pose proof (log_run _ _ _ Hz) as ([kk Hk] & _ & Haz). eapply Hend; [by eapply Inv_run|exact Hn|by apply Haz|]. rewrite Hk. apply elem_of_app. by right. }
    destruct y as [p n r a ch h]. cbn [pg_at pg_asked pg_channel pg_log] in *. subst a.
    destruct (over p) eqn:Hov.
    { destruct p as [| | | | | | | | | | | |[m| |]]; try done. exists 0. eexists. split; [lia|]. split; [reflexivity|]. by eapply (Hgo 0). }
    destruct (Ho eq_refl) as (Hpl & _). destruct p; try done.
    + assert (ch = true) as -> by (by apply HW). exists 3. eexists. split; [lia|]. split; [reflexivity|]. by eapply (Hgo 3).
    + exists 2. eexists. split; [lia|]. split; [reflexivity|]. by eapply (Hgo 2).
    + exists 1. eexists. split; [lia|]. split; [reflexivity|]. by eapply (Hgo 1).
  - intros Hc. apply elem_of_list_split in Hc as (k1 & k2 & Hk). destruct (Hg VClosed k2) as [(h1 & [k3 ->] & Hst) _]; [by exists k1|].
    exists h1. split; [|done]. rewrite Hk. exists (k1 ++ VClosed :: k3). by rewrite <- app_assoc.
Qed.
(** Before, and so also while it starts the node and right after, a signal ends it at once: nothing is closed. *)
Theorem C113_early_refuted c w : wanted parse s c -> store_answers w -> chain_answers w -> exists ls x,
  run prog_init (ls ++ [MSignal]) = Some x /\ VStarted ∈ pg_log x /\ VClosed ∉ pg_log x /\ pg_at x = POver EndSignal /\ pg_root x = true /\ forall l, prog_step parse s x l = None.
Proof.
  intros Hw Hs Hc. apply configure_wanted in Hw. exists [MGo; MGo; MAsk w; MAsk w; MGo; MGo; MGo].
  exists (Prog (POver EndSignal) 2 true false false [VSignal; VStarted; VServe (cf_jobs c); VNode c; VChain true; VStore true]).
  apply yes_store in Hs. apply yes_chain in Hc. split.
  - cbn [app prog_run prog_step pg_at prog_init]. rewrite Hw. cbn [prog_run prog_step pg_at]. unfold ask, move. rewrite Hs. cbn [prog_run prog_step pg_at pg_log app]. unfold ask. rewrite Hc. reflexivity.
  - cbn. split; [right; by left|]. split; [|split; [done|split; [done|by intros []]]]. intros Hin. repeat (apply elem_of_cons in Hin as [?|Hin]; [done|]). by apply elem_of_nil in Hin.
Qed.
(** In general: whatever has happened before it asked for signals. *)
Theorem C113_early ls x : run prog_init ls = Some x -> pg_asked x = false -> (forall e, pg_at x <> POver e) ->
  exists y, prog_step parse s x MSignal = Some y /\ pg_at y = POver EndSignal /\ VClosed ∉ pg_log y.
Proof.
  intros H Ha He. destruct (prog_step parse s x MSignal) as [y|] eqn:E.
  - exists y. split; [done|]. assert (Hy : pg_at y = POver EndSignal).
    { destruct x as [p n r a ch h]. cbn in Ha, He. subst a. destruct p; cbn in E; try done; by injection E as <-. }
    split; [done|]. assert (Hi : Inv y) by (eapply Inv_step; [by eapply Inv_reach|exact E]). destruct Hi as (_ & Hp & _). rewrite Hy in Hp. apply Hp.
  - exfalso. destruct x as [p n r a ch h]. cbn in Ha, He. subst a. destruct p; cbn in E; try done. by destruct (He e).
Qed.

(** * C116 *)
(** The program does not panic once it could be configured and its node could be made, as long as the host has an address whenever it is asked. *)
Theorem C116_no_panic_partial ls x c : run prog_init ls = Some x -> wanted parse s c -> MFail ∉ ls -> Forall has_address ls -> pg_at x <> POver EndPanic.
Proof.
  destruct ls as [|l ls _] using rev_ind; [by intros [= <-]|]. intros (x' & Hr & Hs)%snoc_run Hw Hf [_ [Hl _]%Forall_cons]%Forall_app Hp.
  apply configure_wanted in Hw. destruct (panic_step _ _ _ Hs Hp) as [(-> & _ & Hc)|[(-> & _)|Hn]]; [congruence| |exact (Hn Hl)].
  apply Hf. apply elem_of_app. right. by left.
Qed.
(** The address it logs is the first of those it was given, and it logs one only after the node was started. *)
Theorem C116_address ls x l p : run prog_init ls = Some x -> (forall y, prog_step parse s x (MLook (p :: l)) = Some y \/ prog_step parse s x (MMinute (p :: l)) = Some y ->
    pg_log y = VAddr p :: pg_log x /\ VStarted ∈ pg_log x /\ forall e, pg_at y <> POver e).
Proof.
  intros Hr y Hst.
  assert (E : pg_log y = VAddr p :: pg_log x /\ forall e, pg_at y <> POver e).
  { destruct x as [q n r a ch h]. destruct Hst as [Hs|Hs]; destruct q; cbn [prog_step pg_at logging] in Hs; try done; injection Hs as <-; cbn; done. }
  destruct E as [El Ee]. split; [done|]. split; [|done].
  assert (Hi : Inv y) by (destruct Hst as [Hs|Hs]; (eapply Inv_step; [by eapply Inv_reach|exact Hs])).
  destruct Hi as (Hg & _). apply (Hg (VAddr p) (pg_log x)). exists []. done.
Qed.
(** Without an address the first look ends the program, and so does any later one, also while it is up and waits: without a signal, and nothing is closed. *)
Theorem C116_no_address_refuted c w a : wanted parse s c -> store_answers w -> chain_answers w ->
  (exists ls x, run prog_init (ls ++ [MLook []]) = Some x /\ VStarted ∈ pg_log x /\ VSignal ∉ pg_log x /\ VClosed ∉ pg_log x /\ pg_at x = POver EndPanic) /\
  (exists ls x y, run prog_init ls = Some x /\ pg_at x = PWait /\ Forall has_address ls /\ prog_step parse s x (MMinute []) = Some y /\
     VAddr a ∈ pg_log y /\ VSignal ∉ pg_log y /\ VClosed ∉ pg_log y /\ pg_at y = POver EndPanic /\ forall l, prog_step parse s y l = None).
Proof.
  intros Hw Hs Hc. apply configure_wanted in Hw. apply yes_store in Hs. apply yes_chain in Hc.
  assert (Hr : run prog_init [MGo; MGo; MAsk w; MAsk w; MGo; MGo; MGo] = Some (Prog PTell 2 true false false [VStarted; VServe (cf_jobs c); VNode c; VChain true; VStore true])).
  { cbn [app prog_run prog_step pg_at prog_init]. rewrite Hw. cbn [prog_run prog_step pg_at]. unfold ask, move. rewrite Hs. cbn [prog_run prog_step pg_at pg_log app]. unfold ask. rewrite Hc. reflexivity. }
  split.
  - exists [MGo; MGo; MAsk w; MAsk w; MGo; MGo; MGo]. eexists. rewrite prog_run_app, Hr. split; [reflexivity|]. cbn. split; [by left|].
    split; [|split; [|done]]; intros Hin; repeat (apply elem_of_cons in Hin as [?|Hin]; [done|]); by apply elem_of_nil in Hin.
  - exists ([MGo; MGo; MAsk w; MAsk w; MGo; MGo; MGo] ++ [MLook [a]; MGo]). eexists _, _. rewrite prog_run_app, Hr. split; [reflexivity|]. split; [done|]. split; [by repeat constructor|].
    split; [reflexivity|]. cbn. split; [by left|]. split; [|split; [|split; [done|by intros []]]]; intros Hin; repeat (apply elem_of_cons in Hin as [?|Hin]; [done|]); by apply elem_of_nil in Hin.
Qed.
End proofs.

(** A concrete case: settings that can be followed, replies that answer and replies that do not, a run that waits twice, starts and is ended by a signal. *)
Definition demo_settings : settings := Settings false true true 4 ["p"] ["7:0a"] false true false.
Definition demo_parse (p : string) : option string := if bool_decide (p = "p") then Some p else None.
Definition demo_config : config string := Config 4 ["p"] false true false [Checkpoint 7 (Some (string_of [Ascii.ascii_of_N 10]))].
Definition demo_wire : wire := Wire (fun _ => Some "?") (fun _ _ => inl "!") (fun _ => Some VOther) (fun _ => Some WError).
Definition dead_wire : wire := Wire (fun _ => Some "?") (fun _ _ => inr (ESent CtxDeadlineExceeded)) (fun _ => Some VOther) (fun _ => Some WError).
Example demo_wanted : wanted demo_parse demo_settings demo_config.
Proof. apply configure_wanted. vm_compute. reflexivity. Qed.
Example demo_answers : store_answers demo_wire /\ chain_answers demo_wire /\ ~ store_answers dead_wire.
Proof.
  split; [|split].
  - exists "?", "!", WError. repeat split; vm_compute; done.
  - exists "?", "!", VOther. repeat split; vm_compute; done.
  - intros H. apply yes_store in H. vm_compute in H. done.
Qed.
Definition demo_addrs : list string := ["/ip4/10.0.0.1/tcp/8888"; "/ip4/127.0.0.1/tcp/8888"].
Example C113_nonvacuous : exists x, prog_run demo_parse demo_settings prog_init
  [MGo; MGo; MAsk dead_wire; MAsk demo_wire; MAsk dead_wire; MAsk demo_wire; MGo; MGo; MGo; MLook demo_addrs; MGo; MSignal; MMinute demo_addrs; MSignal; MGo; MSignal; MGo; MGo] = Some x /\
  pg_log x = [VClosed; VSignal; VSignal; VAddr "/ip4/10.0.0.1/tcp/8888"; VSignal; VAddr "/ip4/10.0.0.1/tcp/8888"; VStarted; VServe 4; VNode demo_config; VChain true; VChain false; VStore true; VStore false] /\
  pg_at x = POver (EndExit 0).
Proof. eexists. split; [vm_compute; reflexivity|]. split; vm_compute; reflexivity. Qed.
Example C111_misconfigured_nonvacuous : forall c, ~ wanted demo_parse (Settings false true true 0 ["p"] [] false true false) c.
Proof. intros c Hw. pose proof (wt_jobs _ _ _ Hw) as [H _]. cbn in H. lia. Qed.

Print Assumptions C111_order.
Print Assumptions C111_goes_on.
Print Assumptions C111_misconfigured.
Print Assumptions C112_one_each_partial.
Print Assumptions C112_pile_refuted.
Print Assumptions C113_orderly_partial.
Print Assumptions C113_early_refuted.
Print Assumptions C113_early.
Print Assumptions C116_no_panic_partial.
Print Assumptions C116_address.
Print Assumptions C116_no_address_refuted.
