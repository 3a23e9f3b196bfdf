(** Proofs for C97. *)
From Verif Require Import GoBase ErrHandler_Spec LocalRpc_Model LocalRpc_Spec LocalRpc_Props PeerConn_Model PeerRpc_Model PeerRpc_Spec PeerRpc_Props Catchup_Spec Catchup_Proofs TwoNodes_Spec.

(** ** Number of requests *)
Lemma asked_app l1 l2 : asked (l1 ++ l2) = asked l2 ++ asked l1.
Proof. induction l1 as [|a l1 IH]; [by rewrite app_nil_r|]. destruct a as [[q r]| | | | | |]; cbn [app asked]; rewrite IH; by rewrite ?app_assoc. Qed.
(** A step answers at most one request, with the environment's answer to the request of this number. *)
Definition adds (env : environment) (n : nat) (add : list act) : Prop :=
  (Forall (fun a => forall e, a <> ACall e) add) \/ exists q, add = [ACall (Ev q (env n q))].
Lemma sstep_adds o id env s lab s' : sstep o id env s lab = Some s' ->
  exists add, ss_log s' = add ++ ss_log s /\ adds env (ss_calls s) add /\ ss_calls s' = ss_calls s + length (asked add).
Proof.
  destruct s as [ctl syn n pend x log]. intros H.
  destruct lab as [first|i|i|]; cbn in H.
  - destruct ctl as [[[e|]| |q k]| |[[[e|] syn']| |q k]|e|d| |]; cbn in H; try discriminate H.
    + injection H as <-. exists [APause (po_retry o); AHandshake (Some e)]. split; [done|]. split; [left; by repeat constructor|cbn; lia].
    + injection H as <-. exists [AHandshake None]. split; [done|]. split; [left; by repeat constructor|cbn; lia].
    + injection H as <-. exists []. split; [done|]. split; [left; by repeat constructor|cbn; lia].
    + injection H as <-. exists [ACall (Ev q (env n q))]. split; [done|]. split; [right; by exists q|cbn; lia].
    + destruct first; [destruct (wakes _ _) in H|destruct x]; try discriminate H; injection H as <-; exists []; (split; [done|]); (split; [left; by repeat constructor|cbn; lia]).
    + injection H as <-. exists [ASync (Some e)]. split; [done|]. split; [left; by repeat constructor|cbn; lia].
    + injection H as <-. exists [APause (pause_of o syn'); ASync None]. split; [done|]. split; [left; by repeat constructor|cbn; lia].
    + injection H as <-. exists []. split; [done|]. split; [left; by repeat constructor|cbn; lia].
    + injection H as <-. exists [ACall (Ev q (env n q))]. split; [done|]. split; [right; by exists q|cbn; lia].
    + destruct first; [|destruct x]; try discriminate H; injection H as <-; [exists [APause (pause_of o syn); AReport id e FromSync]|exists [ADrop e FromSync]];
        (split; [done|]); (split; [left; by repeat constructor|cbn; lia]).
    + destruct first; [destruct (wakes _ _) in H|destruct x]; try discriminate H; injection H as <-; exists []; (split; [done|]); (split; [left; by repeat constructor|cbn; lia]).
  - destruct (pend !! i) as [e|]; [|done]. injection H as <-. exists [AReport id e FromHandshake]. split; [done|]. split; [left; by repeat constructor|cbn; lia].
  - destruct (pend !! i) as [e|]; [|done]. destruct x; [|done]. injection H as <-. exists [ADrop e FromHandshake]. split; [done|]. split; [left; by repeat constructor|cbn; lia].
  - injection H as <-. exists [ACancel]. split; [done|]. split; [left; by repeat constructor|cbn; lia].
Qed.
Lemma asked_none add : Forall (fun a => forall e, a <> ACall e) add -> asked add = [].
Proof. induction 1 as [|a add Ha _ IH]; [done|]. destruct a; try done. exfalso. by eapply Ha. Qed.
Lemma honest_none c policy M w0 add log w : Forall (fun a => forall e, a <> ACall e) add -> honest c policy M w0 log w -> honest c policy M w0 (add ++ log) w.
Proof. induction 1 as [|a add Ha _ IH]; intros H; [done|]. cbn [app]. apply HonestOther; [by apply IH|done]. Qed.

Section nodes.
Context (c : onechain) (policy : N -> N) (M : place -> place -> Prop) (env : environment) (at_ : nat -> place) (o : pc_opts) (id : string).
(** If the environment answers honestly, request by request, the log is honest. *)
Lemma honest_run sched s : sruns o id env (session_init o) sched = Some s ->
  (forall n q, asked (ss_log s) !! n = Some q -> answered c (at_ n) q (env n q)) -> keeps_pace c policy M at_ (asked (ss_log s)) ->
  ss_calls s = length (asked (ss_log s)) /\ honest c policy M (at_ 0) (ss_log s) (at_ (ss_calls s)).
Proof.
  revert s. induction sched as [|lab sched IH] using rev_ind; intros s Hr Ha Hk.
  - injection Hr as <-. split; [done|]. constructor.
  - rewrite sruns_app in Hr. destruct (sruns o id env (session_init o) sched) as [s1|] eqn:H1; [|done]. cbn in Hr.
    destruct (sstep o id env s1 lab) as [s2|] eqn:H2; [|done]. injection Hr as <-.
    destruct (sstep_adds _ _ _ _ _ _ H2) as (add & Hl & Hadd & Hn). rewrite Hl, asked_app in Ha, Hk |- *.
    destruct (IH s1 eq_refl) as [IH1 IH2].
    { intros n q Hq. apply Ha. by apply lookup_app_l_Some. }
    { intros n q Hq. apply Hk. by apply lookup_app_l_Some. }
    rewrite app_length, Hn, IH1. split; [done|]. destruct Hadd as [Hadd|(q & ->)].
    + rewrite (asked_none _ Hadd). cbn [length]. rewrite Nat.add_0_r. apply honest_none; [done|]. by rewrite <- IH1.
    + cbn [asked app length] in *. assert (Hq : (asked (ss_log s1) ++ [q]) !! ss_calls s1 = Some q) by (rewrite IH1; by apply list_lookup_middle).
      pose proof (HonestCall c policy M (at_ 0) _ _ q _ IH2 (Ha _ _ Hq)) as Hh. rewrite <- IH1, Nat.add_1_r.
      destruct (Hk _ _ Hq) as [->|Hm]; [done|]. eapply HonestElse; [exact Hh|done].
Qed.
End nodes.

(** ** One request *)
Lemma is_block_same c h b b' : is_block c h b -> same_block b b' -> is_block c h b'.
Proof.
  intros (H1 & hd & H2 & H3) (E1 & E2 & _). split; [by rewrite <- E1|]. rewrite H2 in E2. inversion E2 as [? hd' (Hh & _)|]; subst. eexists. split; [done|]. congruence.
Qed.
Lemma fits_answered c mar unm w mine theirs net lib version app n q : codec_ok mar unm ->
  fits c mar w (mine n) (theirs n) (net n) (lib n) (version n) (app n) -> answered c w q (world mar unm mine theirs net lib version app n q).
Proof.
  intros Hc ((Hid & Hhd & Hst) & (Hmid & Hmb) & Hnet & Hlib & Hver & Happ).
  destruct q as [|t|t|t|t head h| |t ids|t head start k|t b]; cbn [world].
  - exact Hver.
  - destruct Hmid as (i & Hi & E). apply chain_id_answer in Hi. cbn [answered]. exists i. done.
  - destruct Hid as (i & Hi & E). cbn [answered]. exists i. split; [|done]. by apply C61_remote_chain_id.
  - cbn [answered]. by apply C61_remote_head.
  - cbn [answered]. intros k -> Hk Hh. destruct (Hst k h 1%N) as (items & Hs & Hf); [done|lia|done|]. change (N.to_nat 1) with 1 in Hf. cbn [seq] in Hf.
    destruct items as [|i [|i' items]]; [inversion Hf| |apply Forall2_length in Hf; cbn in Hf; lia].
    exists (bi_id i). split; [apply C61_remote_ancestor; split; [done|]; by exists i|].
    apply Forall2_cons in Hf as [[Hi _] _]. by rewrite N.add_0_r in Hi.
  - exact Hlib.
  - cbn [answered]. intros k -> Hk. destruct (Hmb k Hk) as (reply & i & H1 & H2 & H3).
    assert (E : snd (get_blocks_by_id (mine n) [id_at c k]) = (Some [i], None)) by (apply by_id_answer; by exists reply).
    rewrite E. cbn. by rewrite H3.
  - cbn [answered]. intros j -> Hj Hs Hn. destruct (Hst j start k) as (items & Hi & Hf); [done..|].
    assert (Hl : N.of_nat (length items) = k) by (apply Forall2_length in Hf; rewrite seq_length in Hf; lia).
    destruct (C61_remote_blocks_succeeds mar unm (theirs n) (id_at c j) start k items Hc Hi Hn Hl) as (bs & Hb & Ht).
    { intros i Hin. apply elem_of_list_lookup in Hin as [m Hm]. destruct (Forall2_lookup_r _ _ _ _ _ Hf Hm) as (x & _ & (_ & b & Eb & _ & ?)). by rewrite Eb. }
    exists bs. rewrite Hnet. split; [done|]. unfold blocks_at. clear -Hf Ht Hc.
    revert bs Ht. induction Hf as [|x i xs items (_ & b & Eb & Hb & _) _ IH]; intros bs Ht; inversion Ht as [|? b' ? bs' Hb' Hbs']; subst; constructor; [|by apply IH].
    eapply is_block_same; [exact Hb|]. unfold transferred in Hb'. rewrite Eb in Hb'. exact Hb'.
  - apply Happ.
Qed.
