(** C49, C50, C52, C71, C72 and the sync half of C25: flags, crashes, error kinds and deadlines of single rounds. *)
From Verif Require Import GoBase ErrHandler_Model PeerConn_Model PeerConn_Spec PeerConn_Proofs PeerConn_Props.

Lemma run_u64 {A} (env : environment) (p : prog A) : env_u64 env -> forall n, Forall event_u64 (run env n p).1.
Proof.
  intros Hu. induction p as [a| |q k IH]; intros n; cbn [run]; [constructor|constructor|].
  specialize (IH (env n q) (S n)). destruct (run env (S n) (k (env n q))) as [tr' out'].
  cbn [fst] in *. constructor; [apply Hu|exact IH].
Qed.
Lemma sub64_le a b : (b <= a)%N -> (a < two64)%N -> sub64 a b = (a - b)%N.
Proof.
  intros Hle Ha. unfold sub64. replace (a + two64 - b)%N with (a - b + 1 * two64)%N by lia.
  rewrite N.mod_add by done. apply N.mod_small. lia.
Qed.

(** ** C49, single rounds *)
(** Full statement: a round without error sets the flag exactly if there is a reason. *)
Definition C49_statement : Prop := forall (o : pc_opts) (env : environment) (n : nat) (syn : bool) tr syn',
  env_u64 env -> run env n (request_sync o syn) = (tr, Done (None, syn')) ->
  (syn' = true <-> round_synced o tr).

(** A peer that reports its head at height 9 and then sends a block at height 10 *)
Definition one_above (q : req) : resp q :=
  match q with
  | QPeerBlocks _ _ _ _ => ([demo_block "6" 6; demo_block "7" 7; demo_block "8" 8; demo_block "10" 10], None)
  | q => friendly (Some "five") q
  end.
Theorem C49_flag_refuted : ~ C49_statement.
Proof.
  intros H. specialize (H pc_defaults (fun _ => one_above) 0 false).
  edestruct H as [_ H2]; [|reflexivity|].
  - intros n q. destruct q; try done; repeat constructor.
  - cut (false = true); [done|]. apply H2. exists (Topology (Some "five") 5 (Some "four")), (Some "H"), 9%N.
    split; [by left|]. split; [by eexists; right; left|]. right; right.
    exists (Header 10 (Some "p") 0 (Some "s")). split; [|done]. by eexists.
Qed.

(** It holds as long as the last received block is not above the head the peer reported. *)
Theorem C49_flag_partial (o : pc_opts) (env : environment) (n : nat) (syn : bool) tr res syn' :
  env_u64 env -> run env n (request_sync o syn) = (tr, Done (res, syn')) ->
  (forall h head height, last_received tr h -> the_head tr head height -> (h_height h <= height)%N) ->
  (res = None -> (syn' = true <-> round_synced o tr)) /\ (res <> None -> syn' = syn).
Proof.
  intros Hu Hr Hle. pose proof (run_u64 env (request_sync o syn) Hu n) as Hu'. rewrite Hr in Hu'. cbn [fst] in Hu'.
  use_shape Hr. split.
  2: { intros Hres. inversion Hs; subst; done. }
  intros ->. clear Hr.
  inversion Hs as [| |lib head height Hl| | | |lib head height h Hlt Hh| | | | | | |lib head height pre bs dn b h Hc Ha Hl Hh]; subst.
  - split; [|done]. intros _. exists lib, head, height. split; [by left|]. split; [by eexists; right; left|]. by left.
  - split; [|done]. intros _. exists lib, head, height. split; [by left|]. split; [by eexists; right; left|]. right; left.
    exists h. split; [|done]. by eexists; right; right; left.
  - destruct (applied_round o lib head height pre bs dn Hc) as [_ Hrec].
    set (tr := pre ++ Ev (block_request o lib head height) (bs, None) :: map (apply_event o) dn) in *.
    assert (Hlast : last_received tr h). { exists b. rewrite Hrec. done. }
    assert (Hpre : the_lib tr lib /\ the_head tr head height /\ head_known_at tr head 0 /\ (tp_height lib < height)%N).
    { assert (Hin : the_lib pre lib /\ the_head pre head height /\ head_known_at pre head 0 /\ (tp_height lib < height)%N).
      { destruct Hc as [H1 H2 | id H1 H2 H3]; (split; [by left|]; split; [by eexists; right; left|]; split; [by eexists; right; right; left|done]). }
      destruct Hin as (Hi1 & (t1 & Hi2) & (t2 & Hi3) & Hlt).
      split; [by apply in_or_app; left|]. split; [by exists t1; apply in_or_app; left|].
      split; [by exists t2; apply in_or_app; left|]. done. }
    destruct Hpre as (Hlib & Hhead & Hunk & Hlt).
    (* the answers are unique *)
    assert (Huniq_rest : Forall (fun e => match e with Ev QLib _ | Ev (QPeerHead _) _ | Ev (QLocalBlocks _ _) _ => False | _ => True end)
                           (Ev (block_request o lib head height) (bs, None) :: map (apply_event o) dn)).
    { constructor; [done|]. apply Forall_forall. intros e He. apply elem_of_list_fmap in He as (x & -> & _). done. }
    assert (Hlib1 : forall l, the_lib tr l -> l = lib).
    { intros l Hin. apply in_app_or in Hin as [Hin|Hin].
      - destruct Hc; repeat (destruct Hin as [Hin|Hin]; try discriminate Hin; try done);
          apply (f_equal (fun e => match e with Ev QLib r => r | _ => None end)) in Hin; by injection Hin.
      - rewrite Forall_forall in Huniq_rest. apply elem_of_list_In in Hin. by apply Huniq_rest in Hin. }
    assert (Hhead1 : forall hd hg, the_head tr hd hg -> hd = head /\ hg = height).
    { intros hd hg (t & Hin). apply in_app_or in Hin as [Hin|Hin].
      - destruct Hc; repeat (destruct Hin as [Hin|Hin]; try discriminate Hin; try done);
          apply (f_equal (fun e => match e with Ev (QPeerHead _) r => (r : bytes * N * option goerr).1 | _ => (None, 0%N) end)) in Hin;
          simpl in Hin; by injection Hin.
      - rewrite Forall_forall in Huniq_rest. apply elem_of_list_In in Hin. by apply Huniq_rest in Hin. }
    assert (Hunk1 : forall hd x, head_known_at tr hd x -> x = 0%N).
    { intros hd x (t & Hin). apply in_app_or in Hin as [Hin|Hin].
      - destruct Hc; repeat (destruct Hin as [Hin|Hin]; try discriminate Hin; try done);
          apply (f_equal (fun e => match e with Ev (QLocalBlocks _ _) r => (r : option (list (option N)) * option goerr).1 | _ => None end)) in Hin;
          simpl in Hin; by injection Hin.
      - rewrite Forall_forall in Huniq_rest. apply elem_of_list_In in Hin. by apply Huniq_rest in Hin. }
    assert (Hh64 : (height < two64)%N).
    { destruct Hhead as (t & Hin). apply elem_of_list_In in Hin. rewrite Forall_forall in Hu'. by apply Hu' in Hin. }
    specialize (Hle h head height Hlast Hhead).
    rewrite sub64_le by done. rewrite bool_decide_eq_true. split.
    + intros Hd. exists lib, head, height. split; [done|]. split; [done|]. right; right. exists h. split; [done|]. lia.
    + intros (l & hd & hg & H1 & H2 & H3). apply Hlib1 in H1 as ->. apply Hhead1 in H2 as [-> ->].
      destruct H3 as [H3|[(x & H3 & H4)|(h' & H3 & H4)]]; [lia|by apply Hunk1 in H3|].
      destruct Hlast as (b1 & Hb1 & Hb2), H3 as (b2 & Hb3 & Hb4). assert (h' = h) as -> by congruence. lia.
Qed.
Example C49_nonvacuous : exists tr syn',
  run (fun _ => serving_peer four_blocks (fun _ => None)) 0 (request_sync pc_defaults false) = (tr, Done (None, syn')) /\
  syn' = true /\ round_synced pc_defaults tr /\
  exists tr2, run (fun _ => serving_peer (take 2 four_blocks) (fun _ => None)) 0 (request_sync (PcOpts [] 1 1 1 2 1 1 2 1) true) = (tr2, Done (None, false)).
Proof.
  eexists _, _. split; [reflexivity|]. split; [reflexivity|]. split.
  - exists (Topology (Some "five") 5 (Some "four")), (Some "H"), 9%N.
    split; [by left|]. split; [by eexists; right; left|]. right; right.
    exists (Header 9 (Some "p") 0 (Some "s")). split; [by eexists|done].
  - eexists. reflexivity.
Qed.

(** ** C50 *)
(** Full statement: with a well-behaved local node and the guarantees of the RPC client, no answer of the
    peer makes the handshake or a sync round panic. *)
Definition C50_statement : Prop := forall (env : environment) n syn,
  env_u64 env -> env_local_ok env -> env_counts_ok env ->
  (run env n (handshake pc_defaults)).2 <> Panic /\ (run env n (request_sync pc_defaults syn)).2 <> Panic.

(** A peer whose third block has no header.  Its answers have the right number of blocks. *)
Definition headless (q : req) : resp q :=
  match q with
  | QPeerBlocks _ _ _ num => (if bool_decide (num = 4%N) then
      [demo_block "6" 6; demo_block "7" 7; Block (Some "8") None [] ""; demo_block "9" 9] else [], if bool_decide (num = 4%N) then None else Some (ESent ErrPeerRPC))
  | q => friendly (Some "five") q
  end.
Lemma headless_ok : env_u64 (fun _ => headless) /\ env_local_ok (fun _ => headless) /\ env_counts_ok (fun _ => headless).
Proof.
  split; [|split].
  - intros n q. destruct q as [| | | | | |t ids|t hd st num|]; try done. simpl.
    destruct (bool_decide_reflect (num = 4%N)); repeat constructor.
  - intros n q. destruct q as [| | | | | |t ids|t hd st num|]; try done. simpl. eexists. split; [done|]. by repeat constructor.
  - intros n q. destruct q as [| | | | | |t ids|t hd st num|]; try done. simpl.
    destruct (bool_decide_reflect (num = 4%N)) as [->|]; done.
Qed.
Theorem C50_peer_can_crash_us_refuted : ~ C50_statement /\
  (run (fun _ => headless) 0 (request_sync pc_defaults false)).2 = Panic.
Proof.
  assert (Hp : (run (fun _ => headless) 0 (request_sync pc_defaults false)).2 = Panic) by (vm_compute; done).
  split; [|done]. intros H. destruct headless_ok as (H1 & H2 & H3).
  destruct (H _ 0 false H1 H2 H3) as [_ Hn]. done.
Qed.

Lemma run_local_ok {A} (env : environment) (p : prog A) (P : event -> Prop) :
  (forall n q, P (Ev q (env n q))) -> forall n, Forall P (run env n p).1.
Proof.
  intros Hu. induction p as [a| |q k IH]; intros n; cbn [run]; [constructor|constructor|].
  specialize (IH (env n q) (S n)). destruct (run env (S n) (k (env n q))) as [tr' out'].
  cbn [fst] in *. constructor; [apply Hu|exact IH].
Qed.

(** The only way to a panic is a block without a header. *)
Theorem C50_no_crash_partial (o : pc_opts) (env : environment) n syn :
  env_u64 env -> env_local_ok env -> env_counts_ok env -> env_headers_ok env ->
  (0 < po_batch o < two32)%N ->
  (run env n (handshake o)).2 <> Panic /\ (run env n (request_sync o syn)).2 <> Panic.
Proof.
  intros Hu Hl Hcn Hhd Hb. split.
  - rewrite handshake_play. { by destruct (play _). }
    intros Hn. unfold ans_local_chain in *. specialize (Hl (n + 1) (QLocalChainID (po_local_timeout o))).
    simpl in Hl. destruct (env (n + 1) (QLocalChainID (po_local_timeout o))) as [id [e|]]; [done|]. done.
  - pose proof (request_sync_shape o env n syn) as Hs.
    pose proof (run_local_ok env (request_sync o syn) event_u64 Hu n) as Hu'.
    pose proof (run_local_ok env (request_sync o syn) event_local_ok Hl n) as Hl'.
    pose proof (run_local_ok env (request_sync o syn) event_counts_ok Hcn n) as Hc'.
    pose proof (run_local_ok env (request_sync o syn) event_headers_ok Hhd n) as Hh'.
    destruct (run env n (request_sync o syn)) as [tr out]. cbn [fst snd] in *. intros ->.
    inversion Hs as [|hd hg| | |lib hd hg items Hlt Hi| | | | | | |lib hd hg pre bs dn Hc Ha|lib hd hg pre Hc|]; subst.
    + apply Forall_cons in Hl' as [H1 _]. done.
    + apply Forall_cons in Hl' as [_ Hl']. apply Forall_cons in Hl' as [_ Hl']. apply Forall_cons in Hl' as [Hl' _]. cbn in Hl'.
      destruct Hl' as (l & Hi1 & Hi2). destruct Hi as [Hi | Hi]; [congruence|].
      rewrite Hi in Hi1. injection Hi1 as <-. apply Forall_cons in Hi2 as [Hi2 _]. done.
    + apply Forall_app in Hh' as [_ Hh']. apply Forall_cons in Hh' as [H1 _]. cbn in H1.
      destruct Ha as (_ & b & rest & -> & Hb1 & _). apply Forall_app in H1 as [_ H1]. apply Forall_cons in H1 as [H1 _]. done.
    + apply Forall_app in Hc' as [_ Hc']. apply Forall_cons in Hc' as [H1 _]. cbn in H1.
      assert (Hlt : (tp_height lib < hg)%N) by (destruct Hc; done).
      assert (Hh64 : (hg < two64)%N).
      { destruct Hc; apply Forall_cons in Hu' as [_ Hu']; apply Forall_cons in Hu' as [Hu' _]; exact Hu'. }
      unfold request_size in H1. rewrite sub64_le in H1 by lia.
      destruct (bool_decide_reflect (po_batch o < hg - tp_height lib)%N); unfold to_u32 in H1;
        change (0 `mod` two32)%N with 0%N in H1; rewrite N.mod_small in H1 by lia; lia.
Qed.
Example C50_nonvacuous : 
  let env : environment := fun _ q => match q with QPeerBlocks _ _ _ num => ([], Some (ESent ErrPeerRPC)) | q => friendly (Some "five") q end in
  env_u64 env /\ env_local_ok env /\ env_counts_ok env /\ env_headers_ok env /\ (0 < po_batch pc_defaults < two32)%N.
Proof.
  split; [|split; [|split; [|split; [|done]]]]; intros n q; destruct q as [| | | | | |t ids|t hd st num|]; try done; simpl.
  - constructor.
  - eexists. split; [done|]. by repeat constructor.
Qed.

(** ** C52 *)
(** How a round that fails in the applicator reports it *)
Theorem C52_error_kinds (o : pc_opts) (env : environment) (n : nat) (syn : bool) tr e syn' pre b r :
  run env n (request_sync o syn) = (tr, Done (Some e, syn')) ->
  applied tr = pre ++ [(b, Some r)] ->
  is_err r ErrBlockIrreversibility = false /\
  (is_err r ErrLocalRPCTimeout = true \/ is_err r ErrForkBomb = true -> e = r) /\
  (is_err r ErrLocalRPCTimeout = false -> is_err r ErrForkBomb = false ->
     forall s, is_err e s = true <-> s = ErrBlockApplication).
Proof.
  intros Hr Hap. use_shape Hr. clear Hr.
  assert (Hz : forall l, applied l = [] -> applied l = pre ++ [(b, Some r)] -> False).
  { intros l Hl Heq. rewrite Hl in Heq. by destruct pre. }
  inversion Hs as [| | | | | | | | |lib hd hg p bs e' Hc|lib hd hg p bs dn e' Hc Ha| | |]; subst; try (exfalso; eapply Hz; [|exact Hap]; done).
  - exfalso. destruct (applied_cleared _ _ _ _ _ Hc) as [H1 _]. eapply Hz; [|exact Hap]. by rewrite applied_app, H1.
  - destruct (applied_round o lib hd hg p bs dn Hc) as [H1 _]. rewrite H1 in Hap. subst dn.
    destruct Ha as (_ & pr & b' & r' & rest & Heq & _ & _ & Hn & ->).
    apply app_inj_tail in Heq as [_ Heq]. injection Heq as <- <-.
    split.
    { destruct (is_err r ErrBlockIrreversibility) eqn:Hi; [|done]. exfalso. apply Hn. right. eauto. }
    unfold stop_error. split.
    + intros [-> | ->]; [done|]. by rewrite orb_true_r.
    + intros -> -> s. simpl. rewrite bool_decide_eq_true. intuition.
Qed.
(** Irreversible blocks never fail a round: an error from an application is never about an irreversible block,
    and blocks answered so are followed by the next one. *)
Theorem C52_irreversible_skipped (o : pc_opts) (env : environment) (n : nat) (syn : bool) tr res syn' pre b r post :
  run env n (request_sync o syn) = (tr, Done (res, syn')) ->
  applied tr = pre ++ (b, Some r) :: post -> is_err r ErrBlockIrreversibility = true ->
  forall b', received tr !! S (length pre) = Some b' -> exists r' post', post = (b', r') :: post'.
Proof.
  intros Hr Hap Hi b' Hb'. destruct (C48_in_order_until_failure _ _ _ _ _ _ Hr) as (Hpre & _ & Hok).
  assert (Hall : post <> [] -> exists r' post', post = (b', r') :: post').
  { intros Hne. destruct post as [|[b2 r2] post]; [done|]. exists r2, post. f_equal. f_equal.
    destruct Hpre as [k Hk]. rewrite Hk, Hap, map_app in Hb'. cbn [map] in Hb'.
    rewrite <- app_assoc in Hb'. rewrite lookup_app_r in Hb' by (rewrite map_length; lia).
    rewrite map_length in Hb'. replace (S (length pre) - length pre) with 1 in Hb' by lia. simpl in Hb'. congruence. }
  destruct post as [|x post]; [|by apply Hall]. exfalso.
  destruct res as [e|].
  - destruct (C52_error_kinds _ _ _ _ _ _ _ _ _ _ Hr Hap) as [H _]. congruence.
  - destruct (Hok syn' eq_refl) as [Heq _]. rewrite <- Heq, Hap, map_app in Hb'.
    rewrite lookup_app_r in Hb' by (rewrite map_length; lia). rewrite map_length in Hb'.
    replace (S (length pre) - length pre) with 1 in Hb' by lia. done.
Qed.
Example C52_nonvacuous :
  (let '(tr, out) := run (fun _ => serving_peer four_blocks (refuse_at "7" (EWrap (ESent ErrForkBomb)))) 0 (request_sync pc_defaults false) in
   applied tr = [(demo_block "6" 6, None); (demo_block "7" 7, Some (EWrap (ESent ErrForkBomb)))] /\ out = Done (Some (EWrap (ESent ErrForkBomb)), false)) /\
  (let '(tr, out) := run (fun _ => serving_peer four_blocks (refuse_at "7" (ESent ErrBlockIrreversibility))) 0 (request_sync pc_defaults false) in
   length (applied tr) = 4 /\ out = Done (None, true)).
Proof. vm_compute. done. Qed.

(** ** C25 on the sync path *)
(** REFUTED: a local RPC failure other than a timeout is charged to the peer that sent the block. *)
Theorem C25_sync_charges_local_failures_refuted :
  (forall (o : pc_opts) (env : environment) (n : nat) (syn : bool) tr e syn' pre b r,
     run env n (request_sync o syn) = (tr, Done (Some e, syn')) ->
     applied tr = pre ++ [(b, Some r)] ->
     is_err r ErrLocalRPC = true -> eh_score eh_defaults e = 5000%N) /\
  exists tr, run (fun _ => serving_peer four_blocks (refuse_at "7" (EWrap (ESent ErrLocalRPC)))) 0 (request_sync pc_defaults false)
    = (tr, Done (Some (EWrap (ESent ErrBlockApplication)), false)).
Proof.
  split.
  - intros o env n syn tr e syn' pre b r Hr Hap Hl. destruct (C52_error_kinds _ _ _ _ _ _ _ _ _ _ Hr Hap) as (_ & _ & H).
    assert (Hx : forall s, s <> ErrLocalRPC -> is_err r s = false).
    { intros s Hs. destruct (is_err r s) eqn:E; [|done]. exfalso. apply Hs. by eapply is_err_unique. }
    specialize (H (Hx ErrLocalRPCTimeout ltac:(discriminate)) (Hx ErrForkBomb ltac:(discriminate))).
    assert (Hy : forall s, s <> ErrBlockApplication -> is_err e s = false).
    { intros s Hs. destruct (is_err e s) eqn:E; [|done]. exfalso. apply Hs. by apply H. }
    unfold eh_score. repeat (rewrite Hy by discriminate).
    rewrite (proj2 (H ErrBlockApplication) eq_refl). reflexivity.
  - eexists. vm_compute. reflexivity.
Qed.
(** A local timeout of the applicator, and any failure of the local calls of the round itself, costs nothing. *)
Theorem C25_sync_timeouts_are_free_partial (o : pc_opts) (env : environment) (n : nat) (syn : bool) tr e syn' :
  run env n (request_sync o syn) = (tr, Done (Some e, syn')) ->
  (exists pre b r, applied tr = pre ++ [(b, Some r)] /\ is_err r ErrLocalRPCTimeout = true) \/
  (exists t ids items r, In (Ev (QLocalBlocks t ids) (items, Some r)) tr /\ (is_err r ErrLocalRPCTimeout = true \/ is_err r ErrLocalRPC = true)) ->
  eh_score eh_defaults e = 0%N.
Proof.
  intros Hr [(pre & b & r & Hap & Ht)|(t & ids & items & r & Hin & Hk)].
  - destruct (C52_error_kinds _ _ _ _ _ _ _ _ _ _ Hr Hap) as (_ & H & _). rewrite H by by left.
    assert (Hx : forall s, s <> ErrLocalRPCTimeout -> is_err r s = false).
    { intros s Hs. destruct (is_err r s) eqn:E; [|done]. exfalso. apply Hs. by eapply is_err_unique. }
    unfold eh_score. repeat (rewrite Hx by discriminate). rewrite Ht. reflexivity.
  - use_shape Hr.
    assert (e = r) as ->.
    { inversion Hs as [| | |lib hd hg its e' Hlt| | |lib hd hg hh Hlt Hh| | |lib hd hg p bs e' Hc|lib hd hg p bs dn e' Hc Ha| | |]; subst;
        repeat (destruct Hin as [Hin|Hin]; try discriminate Hin; try done);
        try (apply (f_equal (fun e => match e with Ev (QLocalBlocks _ _) r => (r : option (list (option N)) * option goerr).2 | _ => None end)) in Hin;
             simpl in Hin; (discriminate Hin || by injection Hin)).
      all: apply in_app_or in Hin as [Hin|Hin];
        [destruct Hc; repeat (destruct Hin as [Hin|Hin]; try discriminate Hin; try done);
         apply (f_equal (fun e => match e with Ev (QLocalBlocks _ _) r => (r : option (list (option N)) * option goerr).2 | _ => None end)) in Hin;
         discriminate Hin|].
      - destruct Hin as [Hin|[]]. discriminate Hin.
      - destruct Hin as [Hin|Hin]; [discriminate Hin|]. apply in_map_iff in Hin as (x & Hx & _). discriminate Hx. }
    destruct Hk as [Hk|Hk].
    + assert (Hx : forall s, s <> ErrLocalRPCTimeout -> is_err r s = false).
      { intros s Hs'. destruct (is_err r s) eqn:E; [|done]. exfalso. apply Hs'. by eapply is_err_unique. }
      unfold eh_score. repeat (rewrite Hx by discriminate). rewrite Hk. reflexivity.
    + assert (Hx : forall s, s <> ErrLocalRPC -> is_err r s = false).
      { intros s Hs'. destruct (is_err r s) eqn:E; [|done]. exfalso. apply Hs'. by eapply is_err_unique. }
      unfold eh_score. repeat (rewrite Hx by discriminate). rewrite Hk. reflexivity.
Qed.

(** ** C71 *)
Theorem C71_configured_deadlines (o : pc_opts) (env : environment) (n : nat) (syn : bool) :
  Forall (fun e => deadline e = configured o e) (run env n (request_sync o syn)).1 /\
  (local_chain_ok o env n -> Forall (fun e => deadline e = configured o e) (run env n (handshake o)).1).
Proof.
  split.
  - pose proof (request_sync_shape o env n syn) as Hs. destruct (run env n (request_sync o syn)) as [tr out]. cbn [fst].
    assert (Hd : forall dn, Forall (fun e => deadline e = configured o e) (map (apply_event o) dn)).
    { intros dn. apply Forall_forall. intros e He. apply elem_of_list_fmap in He as (x & -> & _). done. }
    assert (Hp : forall lib head height pre, cleared o lib head height pre -> Forall (fun e => deadline e = configured o e) pre).
    { intros lib head height pre []; repeat (apply Forall_cons_2; [done|]); apply Forall_nil_2. }
    destruct Hs; try (repeat (apply Forall_cons_2; [done|]); apply Forall_nil_2);
      (apply Forall_app; split; [by eapply Hp|]; apply Forall_cons_2; [done|]; first [apply Hd|apply Forall_nil_2]).
  - intros Hok. rewrite handshake_play by done.
    assert (Hpl : forall l, Forall (fun x : event * option goerr => deadline x.1 = configured o x.1) l ->
      Forall (fun e => deadline e = configured o e) (play l).1).
    { intros l Hl. induction Hl as [|[e [err|]] l He Hl IH]; simpl; [constructor| |].
      - by repeat constructor.
      - destruct (play l). cbn [fst] in *. by constructor. }
    specialize (Hpl (handshake_script o env n)). destruct (play (handshake_script o env n)) as [tr res]. cbn [fst] in *.
    apply Hpl. unfold handshake_script. apply Forall_app. split; [repeat (apply Forall_cons_2; [done|]); apply Forall_nil_2|].
    apply Forall_lookup. intros i x Hx. rewrite list_lookup_imap in Hx. destruct (po_checkpoints o !! i); [|done]. by injection Hx as <-.
Qed.

(** ** C72: instant bans *)
Lemma play_last (l : list (event * option goerr)) e : (play l).2 = Some e -> exists ev', last (play l).1 = Some ev' /\ In (ev', Some e) l.
Proof.
  induction l as [|[e' [err|]] l IH]; simpl; [done| |].
  - intros [= ->]. eexists. split; [done|]. by left.
  - destruct (play l) as [t r]. cbn [fst snd] in *. intros Hx. destruct (IH Hx) as (ev' & H1 & H2). exists ev'. split; [|by right].
    rewrite last_cons, H1. done.
Qed.
(** Full statement: a failed handshake bans a peer at once only if the peer gave a wrong answer. *)
Definition wrong_answer (o : pc_opts) (e : event) : Prop :=
  match e with
  | Ev (QPeerChainID _) (_, None) | Ev (QPeerAncestor _ _ _) (_, None) => True
  | Ev QVersion (_, Some e) => is_err e ErrProtocolMismatch = true
  | _ => False
  end.
Definition C72_statement : Prop := forall (env : environment) n tr e,
  local_chain_ok one_checkpoint env n ->
  run env n (handshake one_checkpoint) = (tr, Done (Some e)) ->
  (o_threshold eh_defaults <= eh_score eh_defaults e)%N ->
  exists ev, last tr = Some ev /\ wrong_answer one_checkpoint ev.
(** REFUTED: one failed or timed-out call for the chain id, or for the ancestor at a checkpoint, is enough. *)
Theorem C72_timeout_bans_refuted :
  ~ C72_statement /\
  (forall (o : pc_opts) (env : environment) n tr e ev,
     local_chain_ok o env n -> run env n (handshake o) = (tr, Done (Some e)) -> last tr = Some ev ->
     match ev with Ev (QPeerChainID _) (_, Some _) | Ev (QPeerAncestor _ _ _) (_, Some _) => True | _ => False end ->
     (o_threshold eh_defaults <= eh_score eh_defaults e)%N).
Proof.
  split.
  - intros H.
    set (env := (fun _ q => match q return resp q with QPeerChainID _ => (None, Some (EWrap (ESent ErrPeerRPCTimeout))) | q => friendly (Some "five") q end) : environment).
    destruct (H env 0 _ _ ltac:(intros _; discriminate) eq_refl) as (ev & Hl & Hw).
    + vm_compute. discriminate.
    + vm_compute in Hl. injection Hl as <-. exact Hw.
  - intros o env n tr e ev Hok Hr Hl Hev. pose proof (C45_first_failing_check o env n tr _ Hok Hr) as Hp.
    assert (Htr : tr = (play (handshake_script o env n)).1) by exact (f_equal fst Hp).
    assert (Hres : Some e = (play (handshake_script o env n)).2).
    { apply (f_equal snd) in Hp. cbn [snd] in Hp. congruence. }
    clear Hp.
    destruct (play_last (handshake_script o env n) e (eq_sym Hres)) as (ev' & H1 & H2).
    rewrite <- Htr, Hl in H1. injection H1 as <-.
    assert (Hb : e = ESent ErrChainIDMismatch \/ e = ESent ErrCheckpointMismatch).
    { unfold handshake_script in H2. apply in_app_or in H2 as [H2|H2].
      - destruct H2 as [H2|[H2|[H2|[H2|[]]]]]; inversion H2; subst; try done.
        left. unfold chain_check in H1. clear H2. destruct (ans_peer_chain o env n) as [x [y|]]; cbn in H1; [congruence|done].
      - apply elem_of_list_In, elem_of_list_lookup in H2 as (i & H2). rewrite list_lookup_imap in H2.
        destruct (po_checkpoints o !! i) as [cp|]; [|done]. cbn in H2.
        injection H2 as <- H2. right. unfold checkpoint_check in H2. 
        destruct (ans_checkpoint o env n i cp) as [x [y|]]; cbn in *; [congruence|done]. }
    destruct Hb as [-> | ->]; vm_compute; discriminate.
Qed.

(** A failed handshake bans at once only through the answer about the version, the chain id or a checkpoint;
    failures of the local node and of the call for the peer's head do not, if they are errors of the kinds the
    RPC layers produce. *)
Theorem C72_other_failures_do_not_ban_partial (o : pc_opts) (env : environment) n tr e ev :
  local_chain_ok o env n -> run env n (handshake o) = (tr, Done (Some e)) -> last tr = Some ev ->
  match ev with
  | Ev (QLocalChainID _) (_, Some r) => is_err r ErrLocalRPC = true \/ is_err r ErrLocalRPCTimeout = true
  | Ev (QPeerHead _) (_, _, Some r) => is_err r ErrPeerRPC = true \/ is_err r ErrPeerRPCTimeout = true
  | _ => True
  end ->
  (o_threshold eh_defaults <= eh_score eh_defaults e)%N ->
  match ev with Ev QVersion _ | Ev (QPeerChainID _) _ | Ev (QPeerAncestor _ _ _) _ => True | _ => False end.
Proof.
  intros Hok Hr Hl Hkind Hban. pose proof (C45_first_failing_check o env n tr _ Hok Hr) as Hp.
  assert (Htr : tr = (play (handshake_script o env n)).1) by exact (f_equal fst Hp).
  assert (Hres : Some e = (play (handshake_script o env n)).2).
  { apply (f_equal snd) in Hp. cbn [snd] in Hp. congruence. }
  clear Hp. destruct (play_last (handshake_script o env n) e (eq_sym Hres)) as (ev' & H1 & H2).
  rewrite <- Htr, Hl in H1. injection H1 as <-.
  assert (Hscore : forall r s v, is_err r s = true -> eh_score eh_defaults (ESent s) = v -> (v < o_threshold eh_defaults)%N ->
    eh_score eh_defaults r = eh_score eh_defaults (ESent s)).
  { intros r s v Hs _ _. unfold eh_score.
    assert (Hx : forall s', is_err r s' = is_err (ESent s) s').
    { intros s'. destruct (is_err r s') eqn:E1.
      - rewrite (is_err_unique _ _ _ E1 Hs). simpl. symmetry. by apply bool_decide_eq_true.
      - simpl. symmetry. apply bool_decide_eq_false. intros ->. congruence. }
    by rewrite !Hx. }
  unfold handshake_script in H2. apply in_app_or in H2 as [H2|H2].
  - destruct H2 as [H2|[H2|[H2|[H2|[]]]]].
    + apply (f_equal fst) in H2. cbn [fst] in H2. by subst ev.
    + assert (Hev := f_equal fst H2). apply (f_equal snd) in H2. cbn [fst snd] in Hev, H2. subst ev.
      unfold local_check in H2. destruct (ans_local_chain o env n) as [x [y|]]; cbn in *; [|discriminate H2].
      injection H2 as ->. exfalso. destruct Hkind as [Hk|Hk];
        rewrite (Hscore _ _ _ Hk eq_refl) in Hban by (vm_compute; done); vm_compute in Hban; by destruct Hban.
    + apply (f_equal fst) in H2. cbn [fst] in H2. by subst ev.
    + assert (Hev := f_equal fst H2). apply (f_equal snd) in H2. cbn [fst snd] in Hev, H2. subst ev.
      unfold head_check in H2. destruct (ans_head o env n) as [[x z] [y|]]; cbn in *; [|discriminate H2].
      injection H2 as ->. exfalso. destruct Hkind as [Hk|Hk];
        rewrite (Hscore _ _ _ Hk eq_refl) in Hban by (vm_compute; done); vm_compute in Hban; by destruct Hban.
  - apply elem_of_list_In, elem_of_list_lookup in H2 as (i & H2). rewrite list_lookup_imap in H2.
    destruct (po_checkpoints o !! i) as [cp|]; [|done]. cbn in H2. apply (f_equal (fun x => match x with Some y => fst y | None => ev end)) in H2. cbn in H2. by subst ev.
Qed.
Example C72_nonvacuous : exists tr (e : goerr) (ev : event),
  run (fun _ => friendly (Some "six")) 0 (handshake one_checkpoint) = (tr, Done (Some e)) /\ last tr = Some ev /\ (o_threshold eh_defaults <= eh_score eh_defaults e)%N /\ wrong_answer one_checkpoint ev.
Proof. eexists _, _, _. split; [reflexivity|]. split; [reflexivity|]. vm_compute. split; [discriminate|done]. Qed.
Print Assumptions C49_flag_refuted.
Print Assumptions C49_flag_partial.
Print Assumptions C50_peer_can_crash_us_refuted.
Print Assumptions C50_no_crash_partial.
Print Assumptions C52_error_kinds.
Print Assumptions C52_irreversible_skipped.
Print Assumptions C25_sync_charges_local_failures_refuted.
Print Assumptions C25_sync_timeouts_are_free_partial.
Print Assumptions C71_configured_deadlines.
Print Assumptions C72_timeout_bans_refuted.
Print Assumptions C72_other_failures_do_not_ban_partial.
