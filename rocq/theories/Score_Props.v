(** Property theorem C66: the gossip score and the permission to connect. *)
From Coq Require Import Reals Lra.
From Flocq Require Import Core.
From Verif Require Import GoBase ErrHandler_Model ErrDecay_Model ErrDecay_Proofs Score_Model.
Local Open Scope R_scope.

Lemma fl_0 : fl 0 = 0.
Proof. apply fl_exact. apply generic_format_0. Qed.
(** Whatever the scores (all uint64 values, rounding included): a peer ignored by gossip may not connect. *)
Theorem C66_graylisted_may_not_connect : forall decay o now a st,
  graylisted (o_reconnect o) (snd (eh_get_score decay now a st)) -> snd (eh_can_connect decay o now a st) = false.
Proof.
  intros decay o now a st. unfold eh_get_score, eh_can_connect, graylisted, app_specific_score, graylist_threshold.
  assert (Hmono : forall s t : N, (s <= t)%N -> 0 <= fl (- fl (IZR (Z.of_N s)) + fl (IZR (Z.of_N t)))).
  { intros s t Hst. rewrite <- fl_0 at 1. apply fl_mono. assert (fl (IZR (Z.of_N s)) <= fl (IZR (Z.of_N t))) by (apply fl_mono, IZR_le; lia). lra. }
  destruct (st !! host_of a) as [r|]; cbn [snd]; intros Hg.
  - apply bool_decide_eq_false. intros Hlt. pose proof (Hmono _ _ (N.lt_le_incl _ _ Hlt)). lra.
  - pose proof (Hmono 0%N (o_reconnect o) ltac:(lia)). lra.
Qed.
(** With a reconnect threshold up to 2^52 a peer is ignored exactly if its score exceeds the threshold by more than one point. *)
Theorem C66_exactly : forall t s : N, (t <= 2 ^ 52)%N -> graylisted t s <-> (t + 1 < s)%N.
Proof.
  intros t s Ht. unfold graylisted, app_specific_score, graylist_threshold.
  assert (Ft : fl (IZR (Z.of_N t)) = IZR (Z.of_N t)) by (apply fl_exact, format_int; lia). rewrite Ft.
  destruct (N.le_gt_cases s (2 ^ 53)) as [Hs|Hs].
  - assert (Fs : fl (IZR (Z.of_N s)) = IZR (Z.of_N s)) by (apply fl_exact, format_int; lia). rewrite Fs.
    rewrite <- opp_IZR, <- plus_IZR.
    assert (Fd : fl (IZR (- Z.of_N s + Z.of_N t)) = IZR (- Z.of_N s + Z.of_N t)).
    { apply fl_exact. destruct (Z.le_gt_cases 0 (- Z.of_N s + Z.of_N t)).
      - apply format_int. lia.
      - replace (- Z.of_N s + Z.of_N t)%Z with (- (Z.of_N s - Z.of_N t))%Z by lia. rewrite opp_IZR. apply generic_format_opp. apply format_int. lia. }
    rewrite Fd. change (-1) with (IZR (-1)). split; [intros H; apply lt_IZR in H; lia|intros H; apply IZR_lt; lia].
  - split; [lia|]. intros _.
    assert (Hf : IZR (2 ^ 53) <= fl (IZR (Z.of_N s))).
    { rewrite <- (fl_exact (IZR (2 ^ 53))) by (apply format_int; lia). apply fl_mono, IZR_le. lia. }
    assert (Hd : - fl (IZR (Z.of_N s)) + IZR (Z.of_N t) <= IZR (- 2 ^ 52)).
    { assert (IZR (Z.of_N t) <= IZR (2 ^ 52)) by (apply IZR_le; lia). change (- 2 ^ 52)%Z with (- 2 ^ 53 + 2 ^ 52)%Z. rewrite plus_IZR.
      change (- 2 ^ 53)%Z with (Z.opp (2 ^ 53)). rewrite opp_IZR. lra. }
    apply fl_mono in Hd. eapply Rle_lt_trans; [exact Hd|].
    rewrite fl_exact; [apply IZR_lt; lia|]. change (- 2 ^ 52)%Z with (Z.opp (2 ^ 52)). rewrite opp_IZR. apply generic_format_opp. apply format_int. lia.
Qed.
(** Full statement: a peer that may not connect is ignored by gossip. *)
Definition C66_statement : Prop := forall decay o now a st, (o_reconnect o <= 2 ^ 52)%N ->
  snd (eh_can_connect decay o now a st) = false -> graylisted (o_reconnect o) (snd (eh_get_score decay now a st)).
(** Not so for a score equal to the threshold, or one above it. *)
Theorem C66_refused_peer_ignored_refuted : ~ C66_statement.
Proof.
  intros H. pose (a := Maddr "/ip4/1.2.3.4" []). specialize (H (fun s _ => s) eh_defaults 0%Z a {[ ma_first a := EhRec 0 (o_reconnect eh_defaults) ]}).
  unfold eh_can_connect, eh_get_score in H. rewrite lookup_singleton in H. cbn [snd eh_decay er_score] in H.
  specialize (H ltac:(vm_compute; done) ltac:(by apply bool_decide_eq_false; lia)).
  apply C66_exactly in H; [|vm_compute; done]. lia.
Qed.
(** ... but for every higher score. *)
Theorem C66_refused_peer_ignored_partial : forall decay o now a st, (o_reconnect o <= 2 ^ 52)%N ->
  snd (eh_can_connect decay o now a st) = false -> (snd (eh_get_score decay now a st) ∉ [o_reconnect o; o_reconnect o + 1])%N ->
  graylisted (o_reconnect o) (snd (eh_get_score decay now a st)).
Proof.
  intros decay o now a st Ho Hc Hs. apply C66_exactly; [done|]. unfold eh_can_connect, eh_get_score in *.
  destruct (st !! host_of a) as [r|]; cbn [snd] in *; [|done]. apply bool_decide_eq_false in Hc.
  assert (er_score (eh_decay decay now r) <> o_reconnect o /\ er_score (eh_decay decay now r) <> (o_reconnect o + 1)%N) by set_solver. lia.
Qed.
Print Assumptions C66_graylisted_may_not_connect.
Print Assumptions C66_exactly.
Print Assumptions C66_refused_peer_ignored_refuted.
Print Assumptions C66_refused_peer_ignored_partial.
(** A host with score 60000 is ignored and refused, one with 50001 is refused but not ignored. *)
Example C66_nonvacuous : let a := Maddr "/ip4/1.2.3.4" [] in let st := fun s : N => {[ ma_first a := EhRec 0 s ]} in
  graylisted (o_reconnect eh_defaults) (snd (eh_get_score (fun s _ => s) 0 a (st 60000%N))) /\
  snd (eh_can_connect (fun s _ => s) eh_defaults 0 a (st 60000%N)) = false /\
  snd (eh_can_connect (fun s _ => s) eh_defaults 0 a (st 50001%N)) = false /\
  ~ graylisted (o_reconnect eh_defaults) (snd (eh_get_score (fun s _ => s) 0 a (st 50001%N))).
Proof.
  intros a st. split; [apply C66_exactly; [vm_compute; done|vm_compute; done]|]. split; [vm_compute; done|]. split; [vm_compute; done|].
  intros H. apply C66_exactly in H; [|vm_compute; done]. vm_compute in H. done.
Qed.
