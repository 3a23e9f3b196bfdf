(** Property theorems C59 and C60: calls to the local node. *)
From Verif Require Import GoBase ErrHandler_Spec LocalRpc_Model LocalRpc_Spec.

Lemma size_ok d : check_message_size d = None <-> (N.of_nat (Strings.String.length d) <= 536870912)%N.
Proof. unfold check_message_size, max_message_size. destruct (N.ltb_spec 536870912 (N.of_nat (Strings.String.length d))); split; intros H'; try done; lia. Qed.
Lemma size_bad d e : check_message_size d = Some e -> (536870912 < N.of_nat (Strings.String.length d))%N /\ root e = None.
Proof. unfold check_message_size, max_message_size. destruct (N.ltb_spec 536870912 (N.of_nat (Strings.String.length d))); [|done]. by intros [= <-]. Qed.

(** The continuation [k] classifies replies as [m] says. *)
Definition reads {R} (m : string -> meaning R -> Prop) (k : string -> option R * option goerr) : Prop :=
  forall reply,
    (exists r, k reply = (Some r, None) /\ m reply (Answer r) /\ (forall r', m reply (Answer r') -> r' = r) /\ (forall x, ~ m reply (Refusal x)) /\ ~ m reply Garbage) \/
    (exists e x, k reply = (None, Some e) /\ root e = Some x /\ x <> ErrSerialization /\ x <> ErrLocalRPCTimeout /\ x <> ErrDeserialization /\
       m reply (Refusal x) /\ (forall x', m reply (Refusal x') -> x' = x) /\ (forall r, ~ m reply (Answer r)) /\ ~ m reply Garbage) \/
    (exists e, k reply = (None, Some e) /\ root e = Some ErrDeserialization /\ m reply Garbage /\ (forall r, ~ m reply (Answer r)) /\ (forall x, ~ m reply (Refusal x))).
Lemma request_classified {R} (w : wire) svc q (m : string -> meaning R -> Prop) (k : string -> option R * option goerr) :
  reads m k -> classified w svc q m (request w svc q k).
Proof.
  intros Hk. unfold classified, kind_of, request.
  destruct (w_marshal w q) as [d|] eqn:Hm.
  2:{ assert (Hnr : forall reply, ~ reached w svc q reply) by (intros reply (d & [H _] & _); congruence).
      assert (Hnf : forall e, ~ failed w svc q e) by (intros e (d & [H _] & _); congruence).
      assert (Hno : ~ oversized w q) by (intros (d & H & _); congruence).
      cbn. repeat split; intros; try done; try congruence; exfalso; naive_solver. }
  destruct (check_message_size d) as [e|] eqn:Hs.
  - destruct (size_bad d e Hs) as [Hbig Hroot].
    assert (Hnr : forall reply, ~ reached w svc q reply) by (intros reply (d' & [H H2] & _); replace d' with d in H2 by congruence; lia).
    assert (Hnf : forall e, ~ failed w svc q e) by (intros e' (d' & [H H2] & _); replace d' with d in H2 by congruence; lia).
    assert (Hno : oversized w q) by (by exists d).
    cbn. rewrite Hroot. repeat split; intros; try done; try congruence; exfalso; naive_solver.
  - apply size_ok in Hs. assert (Hno : ~ oversized w q) by (intros (d' & H & H2); replace d' with d in H2 by congruence; lia).
    destruct (w_mq w svc d) as [reply|e] eqn:Hq.
    + assert (Hr : reached w svc q reply) by (exists d; done).
      assert (Hru : forall reply', reached w svc q reply' -> reply' = reply) by (intros r' (d' & [H H2] & H3); replace d' with d in H3 by congruence; congruence).
      assert (Hnf : forall e, ~ failed w svc q e) by (intros e' (d' & [H H2] & H3); replace d' with d in H3 by congruence; congruence).
      destruct (Hk reply) as [(r & E & H1 & H2 & H3 & H4)|[(e & x & E & Hx & X1 & X2 & X3 & H1 & H2 & H3 & H4)|(e & E & Hx & H1 & H2 & H3)]]; rewrite E; cbn [fst snd fmap option_fmap option_map].
      * repeat split; intros; try done; try congruence.
        all: try (exfalso; naive_solver).
        -- injection H as <-. by exists reply.
        -- destruct H as (reply' & Hr' & Hm'). apply Hru in Hr' as ->. f_equal. f_equal. symmetry. by apply H2.
      * rewrite Hx.
        assert (Hw : forall y, (exists reply0, reached w svc q reply0 /\ m reply0 (Refusal y)) <-> y = x).
        { intros y. split; [intros (r' & Hr' & Hm'); apply Hru in Hr' as ->; by apply H2|intros ->; by exists reply]. }
        assert (Ha : forall r, ~ exists reply0, reached w svc q reply0 /\ m reply0 (Answer r)).
        { intros r (r' & Hr' & Hm'). apply Hru in Hr' as ->. by apply H3 in Hm'. }
        assert (Hg : ~ exists reply0, reached w svc q reply0 /\ m reply0 Garbage) by (intros (r' & Hr' & Hm'); by apply Hru in Hr' as ->).
        assert (Hfe : forall b, ~ exists e0, failed w svc q e0 /\ is_err e0 CtxDeadlineExceeded = b) by (intros b (e0 & Hf & _); by apply Hnf in Hf).
        split; [intros r; split; [done|intros H; by apply Ha in H]|]. split; [done|]. split; [split; [congruence|done]|]. split; [split; [congruence|done]|].
        split; [split; [congruence|intros H; by apply Hfe in H]|]. split; [split; [congruence|done]|].
        split; [split; [intros [= ->]; right; by apply Hw|intros [H|H]; [by apply Hfe in H|apply Hw in H; congruence]]|].
        intros y _ _ _ _. rewrite Hw. split; congruence.
      * rewrite Hx.
        assert (Hw : forall y, ~ exists reply0, reached w svc q reply0 /\ m reply0 (Refusal y)).
        { intros y (r' & Hr' & Hm'). apply Hru in Hr' as ->. by apply H3 in Hm'. }
        assert (Ha : forall r, ~ exists reply0, reached w svc q reply0 /\ m reply0 (Answer r)).
        { intros r (r' & Hr' & Hm'). apply Hru in Hr' as ->. by apply H2 in Hm'. }
        assert (Hfe : forall b, ~ exists e0, failed w svc q e0 /\ is_err e0 CtxDeadlineExceeded = b) by (intros b (e0 & Hf & _); by apply Hnf in Hf).
        split; [intros r; split; [done|intros H; by apply Ha in H]|]. split; [done|]. split; [done|]. split; [done|].
        split; [split; [done|intros H; by apply Hfe in H]|]. split; [split; [intros _; by exists reply|done]|].
        split; [split; [done|intros [H|H]; [by apply Hfe in H|by apply Hw in H]]|].
        intros y _ _ Hy _. split; [congruence|intros H; by apply Hw in H].
    + assert (Hf : failed w svc q e) by (exists d; done).
      assert (Hfu : forall e', failed w svc q e' -> e' = e) by (intros r' (d' & [H H2] & H3); replace d' with d in H3 by congruence; congruence).
      assert (Hnr : forall reply, ~ reached w svc q reply) by (intros e' (d' & [H H2] & H3); replace d' with d in H3 by congruence; congruence).
      cbn [fst snd fmap option_fmap option_map root].
      assert (Hw : forall x, ~ exists reply0, reached w svc q reply0 /\ m reply0 x) by (intros y (r' & Hr' & Hm'); by apply Hnr in Hr').
      assert (Hfe : forall b, (exists e0, failed w svc q e0 /\ is_err e0 CtxDeadlineExceeded = b) <-> is_err e CtxDeadlineExceeded = b).
      { intros b. split; [intros (e0 & Hf0 & <-); by apply Hfu in Hf0 as ->|intros <-; by exists e]. }
      split; [intros r; split; [done|intros H; by apply Hw in H]|]. split; [done|]. rewrite !Hfe.
      destruct (is_err e CtxDeadlineExceeded) eqn:He.
      * split; [done|]. split; [done|]. split; [done|]. split; [split; [done|intros H; by apply Hw in H]|].
        split; [split; [done|intros [H|H]; [done|by apply Hw in H]]|]. intros y _ Hy _ _. split; [congruence|intros H; by apply Hw in H].
      * split; [done|]. split; [done|]. split; [done|]. split; [split; [done|intros H; by apply Hw in H]|].
        split; [split; [intros _; by left|done]|]. intros y _ _ _ Hy. split; [congruence|intros H; by apply Hw in H].
Qed.

(** ** Details *)
Lemma mapped_decides m ds : match mapped m ds with
  | Some k => decides m ds k /\ forall k', decides m ds k' -> k' = k
  | None => decides m ds ErrLocalRPC /\ forall k', decides m ds k' -> k' = ErrLocalRPC end.
Proof.
  assert (Hsome : forall k, mapped m ds = Some k -> exists l1 c l2, ds = l1 ++ Some c :: l2 /\ m c = Some k /\ forall c', Some c' ∈ l1 -> m c' = None).
  { induction ds as [|[c|] ds IH]; intros k Hk; cbn [mapped] in Hk; [done| |].
    - destruct (m c) as [s|] eqn:Hc.
      + injection Hk as ->. exists [], c, ds. split; [done|]. split; [done|]. intros c' H. by apply elem_of_nil in H.
      + destruct (IH k Hk) as (l1 & c' & l2 & -> & H1 & H2). exists (Some c :: l1), c', l2. split; [done|]. split; [done|].
        intros c'' H. apply elem_of_cons in H as [H|H]; [injection H as ->; done|by apply H2].
    - destruct (IH k Hk) as (l1 & c' & l2 & -> & H1 & H2). exists (None :: l1), c', l2. split; [done|]. split; [done|].
      intros c'' H. apply elem_of_cons in H as [H|H]; [done|by apply H2]. }
  assert (Hnone : mapped m ds = None -> forall c, Some c ∈ ds -> m c = None).
  { clear Hsome. induction ds as [|[c|] ds IH]; intros Hk c' Hin; [by apply elem_of_nil in Hin| |].
    - cbn [mapped] in Hk. destruct (m c) as [s|] eqn:Hc; [done|]. apply elem_of_cons in Hin as [Hin|Hin]; [by injection Hin as ->|by apply IH].
    - apply elem_of_cons in Hin as [Hin|Hin]; [done|by apply IH]. }
  destruct (mapped m ds) as [k|].
  - destruct (Hsome k eq_refl) as (l1 & c & l2 & -> & H1 & H2). split; [left; by exists l1, c, l2|]. clear Hsome Hnone.
    intros k' [(l1' & c' & l2' & E & H1' & H2')|[Hall ->]].
    + revert l1' E H2 H2'. induction l1 as [|d l1 IH]; intros [|d' l1'] E H2 H2'; cbn [app] in E.
      * injection E as -> _. congruence.
      * injection E as <- _. rewrite H2' in H1 by left. done.
      * injection E as -> _. rewrite H2 in H1' by left. done.
      * injection E as _ E. apply (IH l1' E); intros c0 H0; [apply H2|apply H2']; by right.
    + rewrite Hall in H1; [done|]. apply elem_of_app. right. left.
  - split; [right; split; [by apply Hnone|done]|]. intros k' [(l1' & c' & l2' & -> & H1' & _)|[_ ->]]; [|done].
    rewrite Hnone in H1'; [done|done|]. apply elem_of_app. right. left.
Qed.
Lemma decides_ext m m' ds k : (forall c, m c = m' c) -> decides m ds k -> decides m' ds k.
Proof.
  intros Hm [(l1 & c & l2 & H1 & H2 & H3)|[H1 H2]]; [left|right].
  - exists l1, c, l2. split; [done|]. split; [by rewrite <- Hm|]. intros c' Hc. rewrite <- Hm. by apply H3.
  - split; [|done]. intros c Hc. rewrite <- Hm. by apply H1.
Qed.
Lemma mapped_kinds m ds s : (forall c, m c <> Some ErrSerialization /\ m c <> Some ErrLocalRPCTimeout /\ m c <> Some ErrDeserialization) ->
  mapped m ds = Some s -> s <> ErrSerialization /\ s <> ErrLocalRPCTimeout /\ s <> ErrDeserialization.
Proof.
  intros Hm. induction ds as [|[c|] ds IH]; cbn [mapped]; [done| |done]. destruct (m c) as [x|] eqn:Hc; [|done].
  intros [= <-]. destruct (Hm c) as (H1 & H2 & H3). rewrite Hc in *. repeat split; congruence.
Qed.

(** ** C59 *)
Ltac reads_chain :=
  intros reply; unfold chain_meaning, store_meaning, plain_refusal;
  match goal with |- context [match ?x with _ => _ end = _] => destruct x as [v|] eqn:Hv end; [|right; right; eexists; naive_solver].
Theorem C59_get_head_block : forall w, classified w "chain" (RChain CGetHeadInfo)
  (chain_meaning w (fun v h => v = VHeadInfo h) plain_refusal) (get_head_block w).
Proof.
  intros w. apply request_classified. reads_chain.
  destruct v; try (right; left; eexists _, _; split; [reflexivity|]; split; [reflexivity|]; naive_solver).
  left. eexists. split; [reflexivity|]. naive_solver.
Qed.
Theorem C59_apply_block : forall w b, classified w "chain" (RChain (CSubmitBlock b))
  (chain_meaning w (fun v _ => v = VSubmitBlock) (decides block_kind)) (apply_block w b).
Proof.
  intros w b. apply request_classified. reads_chain.
  destruct v as [h| | |id|lib heads|ds|]; try (right; left; eexists _, _; split; [reflexivity|]; split; [reflexivity|]; naive_solver).
  - left. exists tt. split; [reflexivity|]. repeat split; [naive_solver|by intros []|naive_solver|done].
  - right; left. pose proof (mapped_decides block_error_map ds) as Hd.
    assert (Hext : forall c, block_error_map c = block_kind c) by by intros [].
    destruct (mapped block_error_map ds) as [s|] eqn:Hmap; destruct Hd as [Hd1 Hd2].
    + destruct (mapped_kinds block_error_map ds s) as (X1 & X2 & X3); [by intros []|done|].
      exists (ESent s), s. split; [done|]. split; [done|]. split; [done|]. split; [done|]. split; [done|].
      split; [|split; [|split; [naive_solver|done]]].
      * eexists. split; [done|]. split; [naive_solver|]. by eapply decides_ext.
      * intros x' (v & [= <-] & _ & H). apply Hd2. eapply decides_ext; [|done]. by intros [].
    + eexists _, _. split; [reflexivity|]. split; [reflexivity|]. split; [done|]. split; [done|]. split; [done|].
      split; [|split; [|split; [naive_solver|done]]].
      * eexists. split; [done|]. split; [naive_solver|]. by eapply decides_ext.
      * intros x' (v & [= <-] & _ & H). apply Hd2. eapply decides_ext; [|done]. by intros [].
Qed.
Theorem C59_apply_transaction : forall w t, classified w "chain" (RChain (CSubmitTransaction t true))
  (chain_meaning w (fun v _ => v = VSubmitTransaction) (decides transaction_kind)) (apply_transaction w t).
Proof.
  intros w t. apply request_classified. reads_chain.
  destruct v as [h| | |id|lib heads|ds|]; try (right; left; eexists _, _; split; [reflexivity|]; split; [reflexivity|]; naive_solver).
  - left. exists tt. split; [reflexivity|]. repeat split; [naive_solver|by intros []|naive_solver|done].
  - right; left. pose proof (mapped_decides transaction_error_map ds) as Hd.
    assert (Hext : forall c, transaction_error_map c = transaction_kind c) by by intros [].
    destruct (mapped transaction_error_map ds) as [s|] eqn:Hmap; destruct Hd as [Hd1 Hd2].
    + destruct (mapped_kinds transaction_error_map ds s) as (X1 & X2 & X3); [by intros []|done|].
      exists (ESent s), s. split; [done|]. split; [done|]. split; [done|]. split; [done|]. split; [done|].
      split; [|split; [|split; [naive_solver|done]]].
      * eexists. split; [done|]. split; [naive_solver|]. by eapply decides_ext.
      * intros x' (v & [= <-] & _ & H). apply Hd2. eapply decides_ext; [|done]. by intros [].
    + eexists _, _. split; [reflexivity|]. split; [reflexivity|]. split; [done|]. split; [done|]. split; [done|].
      split; [|split; [|split; [naive_solver|done]]].
      * eexists. split; [done|]. split; [naive_solver|]. by eapply decides_ext.
      * intros x' (v & [= <-] & _ & H). apply Hd2. eapply decides_ext; [|done]. by intros [].
Qed.
Theorem C59_get_blocks_by_id : forall w ids, classified w "block_store" (RStore (SGetById ids true false))
  (store_meaning w (fun v l => v = WById l)) (get_blocks_by_id w ids).
Proof.
  intros w ids. apply request_classified. reads_chain.
  destruct v; try (right; left; eexists _, _; split; [reflexivity|]; split; [reflexivity|]; naive_solver).
  left. eexists. split; [reflexivity|]. naive_solver.
Qed.
Theorem C59_get_blocks_by_height : forall w head start num, classified w "block_store" (RStore (SGetByHeight head start num true false))
  (store_meaning w (fun v l => v = WByHeight l)) (get_blocks_by_height w head start num).
Proof.
  intros w head start num. apply request_classified. reads_chain.
  destruct v; try (right; left; eexists _, _; split; [reflexivity|]; split; [reflexivity|]; naive_solver).
  left. eexists. split; [reflexivity|]. naive_solver.
Qed.
Theorem C59_get_chain_id : forall w, classified w "chain" (RChain CGetChainId)
  (chain_meaning w (fun v id => v = VChainId id) plain_refusal) (get_chain_id w).
Proof.
  intros w. apply request_classified. reads_chain.
  destruct v; try (right; left; eexists _, _; split; [reflexivity|]; split; [reflexivity|]; naive_solver).
  left. eexists. split; [reflexivity|]. naive_solver.
Qed.
Theorem C59_get_fork_heads : forall w, classified w "chain" (RChain CGetForkHeads)
  (chain_meaning w (fun v x => v = VForkHeads (fst x) (snd x)) plain_refusal) (get_fork_heads w).
Proof.
  intros w. apply request_classified. reads_chain.
  destruct v as [h| | |id|lib heads|ds|]; try (right; left; eexists _, _; split; [reflexivity|]; split; [reflexivity|]; naive_solver).
  left. eexists. split; [reflexivity|]. split; [naive_solver|]. split; [|split; [|naive_solver]].
  2:{ intros x (v & [= <-] & H & _). by apply (H (lib, heads)). }
  intros [l h] (v & E1 & E2). injection E1 as <-. cbn [fst snd] in E2. by injection E2 as -> ->.
Qed.
(** Any decodable reply, also an error reply, counts as being connected. *)
Theorem C59_is_connected : forall w,
  classified w "block_store" (RStore SReserved) (store_meaning w (fun _ _ => True)) (is_connected_to_block_store w) /\
  classified w "chain" (RChain CReserved) (chain_meaning w (fun _ _ => True) plain_refusal) (is_connected_to_chain w).
Proof.
  intros w. split; apply request_classified; reads_chain; left; exists tt; (split; [reflexivity|]);
    (split; [naive_solver|]); (split; [by intros []|]); (split; [|done]); intros x (v' & _ & H & _); by apply (H tt).
Qed.
Print Assumptions C59_get_head_block.
Print Assumptions C59_apply_block.
Print Assumptions C59_apply_transaction.
Print Assumptions C59_get_blocks_by_id.
Print Assumptions C59_get_blocks_by_height.
Print Assumptions C59_get_chain_id.
Print Assumptions C59_get_fork_heads.
Print Assumptions C59_is_connected.

(** A queue that answers every submission with an error whose second detail is a known code *)
Definition demo_wire : wire := Wire (fun _ => Some "request") (fun svc _ => if bool_decide (svc = "chain") then inl "reply" else inr (EWrap (ESent CtxDeadlineExceeded)))
  (fun _ => Some (VError [None; Some (ECOther 7); Some ECPreIrreversibility; Some ECUnknownPrevious])) (fun _ => None).
Example C59_nonvacuous : apply_block demo_wire None = ([("chain", "request")], (None, Some (ESent ErrBlockIrreversibility))) /\
  kind_of (apply_transaction demo_wire None) = Some (Some ErrLocalRPC) /\ kind_of (get_blocks_by_id demo_wire []) = Some (Some ErrLocalRPCTimeout) /\
  is_connected_to_chain demo_wire = ([("chain", "request")], (Some tt, None)).
Proof. vm_compute. done. Qed.

(** ** C60 *)
Definition sends_only_small {R} (res : called R) : Prop := forall svc data, (svc, data) ∈ fst res -> (N.of_nat (Strings.String.length data) <= 536870912)%N.
Definition oversize_fails {R} (w : wire) (q : rpc_req) (res : called R) : Prop := oversized w q -> fst res = [] /\ fst (snd res) = None /\ snd (snd res) <> None.
Lemma request_small {R} w svc q (k : string -> option R * option goerr) : sends_only_small (request w svc q k) /\ oversize_fails w q (request w svc q k).
Proof.
  unfold request, sends_only_small, oversize_fails. destruct (w_marshal w q) as [d|] eqn:Hm.
  2:{ split; [intros svc' data H; by apply elem_of_nil in H|]. done. }
  destruct (check_message_size d) as [e|] eqn:Hs.
  - split; [intros svc' data H; by apply elem_of_nil in H|]. done.
  - apply size_ok in Hs. split.
    + intros svc' data H. cbn [fst] in H. apply elem_of_list_singleton in H. by injection H as -> ->.
    + intros (d' & H & H2). replace d' with d in H2 by congruence. lia.
Qed.
Theorem C60_no_oversized_request : forall w,
  sends_only_small (get_head_block w) /\ (forall b, sends_only_small (apply_block w b)) /\ (forall t, sends_only_small (apply_transaction w t)) /\
  (forall ids, sends_only_small (get_blocks_by_id w ids)) /\ (forall h s n, sends_only_small (get_blocks_by_height w h s n)) /\
  sends_only_small (get_chain_id w) /\ sends_only_small (get_fork_heads w) /\
  sends_only_small (is_connected_to_block_store w) /\ sends_only_small (is_connected_to_chain w).
Proof. intros w. repeat split; intros; apply request_small. Qed.
Print Assumptions C60_no_oversized_request.
Theorem C60_oversized_fails_unsent : forall w,
  (forall b, oversize_fails w (RChain (CSubmitBlock b)) (apply_block w b)) /\ (forall t, oversize_fails w (RChain (CSubmitTransaction t true)) (apply_transaction w t)) /\
  (forall ids, oversize_fails w (RStore (SGetById ids true false)) (get_blocks_by_id w ids)) /\
  (forall h s n, oversize_fails w (RStore (SGetByHeight h s n true false)) (get_blocks_by_height w h s n)).
Proof. intros w. split; [|split; [|split]]; intros; apply request_small. Qed.
Print Assumptions C60_oversized_fails_unsent.
(** Some requests are oversized: any encoding of the given length. *)
Fixpoint long (n : nat) : string := match n with O => EmptyString | S n => String.String (Ascii.Ascii false false false false false true true false) (long n) end.
Lemma long_length n : Strings.String.length (long n) = n.
Proof. induction n; [done|]. cbn. by f_equal. Qed.
Example C60_nonvacuous : forall b, let w := Wire (fun _ => Some (long (N.to_nat 536870913))) (fun _ _ => inl "") (fun _ => Some VSubmitBlock) (fun _ => None) in
  oversized w (RChain (CSubmitBlock b)).
Proof. intros b w. exists (long (N.to_nat 536870913)). split; [done|]. rewrite long_length. lia. Qed.
