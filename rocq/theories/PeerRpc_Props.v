(** Property theorems C61 (peer RPC) and C77 (a sync round end to end). *)
From Verif Require Import GoBase ErrHandler_Spec LocalRpc_Model LocalRpc_Spec LocalRpc_Props PeerConn_Model PeerConn_Spec PeerConn_Proofs PeerConn_Props PeerConn_Props2 PeerRpc_Model PeerRpc_Spec.

(** ** What the local calls return *)
Lemma classified_answer {R} w svc q m (res : called R) r : classified w svc q m res ->
  snd res = (Some r, None) <-> exists reply, reached w svc q reply /\ m reply (Answer r).
Proof. intros H. apply H. Qed.
Lemma classified_cases {R} w svc q m (res : called R) : classified w svc q m res ->
  (exists r, snd res = (Some r, None)) \/ (exists e, snd res = (None, Some e)).
Proof.
  intros (_ & H & _). destruct (snd res) as [[r|] [e|]]; cbn [fst snd] in H.
  - destruct H as [_ H]. by discriminate H.
  - left. by exists r.
  - right. by exists e.
  - destruct H as [H _]. by destruct H.
Qed.
Lemma by_height_answer w head start num items :
  snd (get_blocks_by_height w head start num) = (Some items, None) <-> store_has w head start num items.
Proof.
  rewrite (classified_answer _ _ _ _ _ _ (C59_get_blocks_by_height w head start num)). unfold store_has, store_meaning.
  split; intros (reply & H1 & H2); exists reply; (split; [done|]); [destruct H2 as (v & H2 & ->); done|by exists (WByHeight items)].
Qed.
Lemma chain_id_answer w id : snd (get_chain_id w) = (Some id, None) <-> chain_has_id w id.
Proof.
  rewrite (classified_answer _ _ _ _ _ _ (C59_get_chain_id w)). unfold chain_has_id, chain_meaning.
  split; intros (reply & H1 & H2); exists reply; (split; [done|]); [destruct H2 as (v & H2 & ->); done|by exists (VChainId id)].
Qed.
Lemma head_answer w h : snd (get_head_block w) = (Some h, None) <-> exists reply, reached w "chain" (RChain CGetHeadInfo) reply /\ w_chain w reply = Some (VHeadInfo h).
Proof.
  rewrite (classified_answer _ _ _ _ _ _ (C59_get_head_block w)). unfold chain_meaning.
  split; intros (reply & H1 & H2); exists reply; (split; [done|]); [destruct H2 as (v & H2 & ->); done|by exists (VHeadInfo h)].
Qed.
Lemma by_id_answer w ids items :
  snd (get_blocks_by_id w ids) = (Some items, None) <-> exists reply, reached w "block_store" (RStore (SGetById ids true false)) reply /\ w_store w reply = Some (WById items).
Proof.
  rewrite (classified_answer _ _ _ _ _ _ (C59_get_blocks_by_id w ids)). unfold store_meaning.
  split; intros (reply & H1 & H2); exists reply; (split; [done|]); [destruct H2 as (v & H2 & ->); done|by exists (WById items)].
Qed.

(** ** C61: GetBlocks *)
Lemma decode_forall2 unm raw bs : decode_blocks unm raw = Some bs <-> Forall2 (fun d b => unm (str d) = Some b) raw bs.
Proof.
  revert bs. induction raw as [|d raw IH]; intros bs; cbn [decode_blocks].
  - split; [intros [= <-]; constructor|intros H; by inversion H].
  - split.
    + destruct (unm (str d)) as [b|] eqn:Hd; [|done]. destruct (decode_blocks unm raw) as [bs'|]; [|done].
      intros [= <-]. constructor; [done|]. by apply IH.
    + intros H. inversion H as [|? b ? bs' H1 H2]; subst. rewrite H1. apply IH in H2 as ->. done.
Qed.
(** GetBlocks succeeds exactly if the call succeeded, the number of blocks modulo 2^32 is the requested one and every block decodes;
    it returns these blocks in order. *)
Theorem C61_blocks_all_decode : forall unm num r bs,
  client_blocks unm num r = (bs, None) <->
  snd r = None /\ (N.of_nat (length (fst r)) mod 2 ^ 32 = num)%N /\ Forall2 (fun d b => unm (str d) = Some b) (fst r) bs.
Proof.
  intros unm num [raw err] bs. unfold client_blocks. cbn [fst snd]. rewrite <- decode_forall2. unfold to_u32. change two32 with (2 ^ 32)%N.
  destruct err as [e|]; [split; [done|by intros []]|].
  destruct (bool_decide_reflect (N.of_nat (length raw) mod 2 ^ 32 = num)%N) as [Hn|Hn]; [|split; [done|by intros (_ & ? & _)]].
  destruct (decode_blocks unm raw) as [bs'|]; [|split; [done|by intros (_ & _ & ?)]].
  split; [by intros [= ->]|]. by intros (_ & _ & [= ->]).
Qed.
Print Assumptions C61_blocks_all_decode.
(** Full statement of the count *)
Definition C61_count_statement : Prop := forall unm num r bs,
  (num < 2 ^ 32)%N -> client_blocks unm num r = (bs, None) -> N.of_nat (length bs) = num.
(** 2^32 blocks pass for none: the length is cut to 32 bits before it is compared. *)
Theorem C61_count_refuted : ~ C61_count_statement.
Proof.
  intros H. pose (raw := replicate (N.to_nat (2 ^ 32)) (None : bytes)). pose (bs := replicate (N.to_nat (2 ^ 32)) empty_block).
  assert (Hl : N.of_nat (length raw) = (2 ^ 32)%N) by (unfold raw; rewrite replicate_length; lia).
  assert (Hb : N.of_nat (length bs) = (2 ^ 32)%N) by (unfold bs; rewrite replicate_length; lia).
  specialize (H (fun _ => Some empty_block) 0%N (raw, None) bs).
  rewrite Hb in H. enough ((2 ^ 32)%N = 0%N) by done. apply H; [done|]. apply C61_blocks_all_decode. cbn [fst snd].
  split; [done|]. split; [by rewrite Hl|]. unfold raw, bs. generalize (N.to_nat (2 ^ 32)). intros n. induction n; cbn [replicate]; by constructor.
Qed.
Print Assumptions C61_count_refuted.
Theorem C61_count_partial : forall unm num r bs,
  (N.of_nat (length (fst r)) < 2 ^ 32)%N -> client_blocks unm num r = (bs, None) ->
  N.of_nat (length bs) = num /\ N.of_nat (length (fst r)) = num.
Proof.
  intros unm num r bs Hl H. apply C61_blocks_all_decode in H as (_ & Hn & Hf). apply Forall2_length in Hf.
  rewrite N.mod_small in Hn by done. split; [by rewrite <- Hf|done].
Qed.
Print Assumptions C61_count_partial.
Example C61_count_nonvacuous : let unm := fun s : string => if bool_decide (s = "bad") then None else Some (Block (Some s) None [] "") in
  client_blocks unm 2 ([Some "x"; Some "y"], None) = ([Block (Some "x") None [] ""; Block (Some "y") None [] ""], None) /\
  (client_blocks unm 3 ([Some "x"; Some "y"], None)).2 = Some (EWrap (ESent ErrPeerRPC)) /\
  (client_blocks unm 2 ([Some "x"; Some "bad"], None)).2 = Some (EWrap (ESent ErrDeserialization)).
Proof. vm_compute. done. Qed.

(** *** Composed with the service of the peer *)
Lemma encode_forall2 mar items ds : encode_blocks mar items = Some ds <-> Forall2 (fun i d => d <> None /\ mar (bi_block i) = d) items ds.
Proof.
  revert ds. induction items as [|i items IH]; intros ds; cbn [encode_blocks].
  - split; [intros [= <-]; constructor|intros H; by inversion H].
  - split.
    + destruct (mar (bi_block i)) as [b|] eqn:Hd; [|done]. destruct (encode_blocks mar items) as [bs'|]; [|done].
      intros [= <-]. constructor; [done|]. by apply IH.
    + intros H. inversion H as [|? b ? bs' [H0 H1] H2]; subst. apply IH in H2 as ->. by destruct (mar (bi_block i)).
Qed.
Definition transferred (i : block_item) (b : block) : Prop := same_block (default empty_block (bi_block i)) b.
Theorem C61_remote_blocks : forall mar unm w net head start num bs, codec_ok mar unm ->
  remote_blocks mar unm w net head start num = (bs, None) ->
  net = None /\ exists items, store_has w head start num items /\ Forall2 transferred items bs.
Proof.
  intros mar unm w net head start num bs Hc H. unfold remote_blocks in H. apply C61_blocks_all_decode in H as (He & _ & Hf).
  destruct net as [e|]; [done|]. split; [done|]. cbn [over_stream] in He, Hf.
  destruct (classified_cases _ _ _ _ _ (C59_get_blocks_by_height w head start num)) as [[items Hi]|[e Hi]]; rewrite Hi in He, Hf; cbn [serve_blocks] in He, Hf; [|done].
  exists items. split; [by apply by_height_answer|].
  destruct (encode_blocks mar items) as [ds|] eqn:Hd; [|done]. cbn [fst] in Hf. apply encode_forall2 in Hd. clear Hi He.
  revert bs Hf. induction Hd as [|i d items ds [H0 H1] _ IH]; intros bs Hf; inversion Hf as [|? b ? bs' H2 H3]; subst; constructor; [|by apply IH].
  destruct (mar (bi_block i)) as [s|] eqn:Hm; [|done]. destruct (Hc _ _ Hm) as (b' & Hu & Hs). change (str (Some s)) with s in H2.
  rewrite Hu in H2. by injection H2 as ->.
Qed.
Print Assumptions C61_remote_blocks.
(** ... and such a transfer succeeds if the store has as many blocks as asked for and they can be encoded. *)
Theorem C61_remote_blocks_succeeds : forall mar unm w head start num items, codec_ok mar unm ->
  store_has w head start num items -> (num < 2 ^ 32)%N -> N.of_nat (length items) = num -> (forall i, i ∈ items -> mar (bi_block i) <> None) ->
  exists bs, remote_blocks mar unm w None head start num = (bs, None) /\ Forall2 transferred items bs.
Proof.
  intros mar unm w head start num items Hc Hs Hn Hl Hm. unfold remote_blocks. apply by_height_answer in Hs as Hs'. rewrite Hs'. cbn [serve_blocks over_stream].
  assert (Hd : exists ds, encode_blocks mar items = Some ds).
  { clear Hl Hs Hs'. induction items as [|i items IH]; [by eexists|]. cbn [encode_blocks]. destruct (mar (bi_block i)) as [d|] eqn:Hd; [|exfalso; apply (Hm i); [left|done]].
    destruct IH as [ds ->]; [|by eexists]. intros i' Hi. apply Hm. by right. }
  destruct Hd as [ds Hd]. rewrite Hd. apply encode_forall2 in Hd.
  assert (Hb : exists bs, Forall2 (fun d b => unm (str d) = Some b) ds bs).
  { clear -Hd Hc. induction Hd as [|i d items ds [H0 H1] _ [bs IH]]; [by exists []|]. destruct d as [s|]; [|done].
    destruct (Hc _ _ H1) as (b & Hb & _). exists (b :: bs). by constructor. }
  destruct Hb as [bs Hb]. exists bs.
  assert (Hok : client_blocks unm num (ds, None) = (bs, None)).
  { apply C61_blocks_all_decode. cbn [fst snd]. split; [done|]. split; [|done]. assert (Hlen : length items = length ds) by (exact (Forall2_length _ _ _ Hd)). rewrite <- Hl, Hlen. apply N.mod_small. rewrite <- Hlen, Hl. done. }
  split; [done|]. pose proof (C61_remote_blocks mar unm w None head start num bs Hc) as H. unfold remote_blocks in H. rewrite Hs' in H. cbn [serve_blocks over_stream] in H.
  apply encode_forall2 in Hd. rewrite Hd in H. destruct (H Hok) as (_ & items' & Hs2 & Hf). apply by_height_answer in Hs2. rewrite Hs' in Hs2. by injection Hs2 as <-.
Qed.
Print Assumptions C61_remote_blocks_succeeds.

(** *** The other calls: a result without error is the peer's *)
Theorem C61_remote_ancestor : forall w net parent height id,
  remote_ancestor w net parent height = (id, None) <-> net = None /\ exists i, store_has w parent height 1 [i] /\ bi_id i = id.
Proof.
  intros w net parent height id. unfold remote_ancestor, client_ancestor.
  destruct net as [e|]; [split; [done|by intros []]|].
  destruct (classified_cases _ _ _ _ _ (C59_get_blocks_by_height w parent height 1)) as [[items Hi]|[e Hi]]; rewrite Hi; cbn [serve_ancestor over_stream].
  - apply by_height_answer in Hi as Hs. destruct items as [|i [|i' items]].
    + split; [done|]. intros (_ & i & H & _). apply by_height_answer in H. congruence.
    + split; [intros [= <-]; split; [done|]; by exists i|]. intros (_ & i' & H & <-). apply by_height_answer in H. rewrite Hi in H. by injection H as ->.
    + split; [done|]. intros (_ & j & H & _). apply by_height_answer in H. congruence.
  - split; [done|]. intros (_ & j & H & _). apply by_height_answer in H. congruence.
Qed.
Theorem C61_remote_chain_id : forall w net id, remote_chain_id w net = (id, None) <-> net = None /\ chain_has_id w id.
Proof.
  intros w net id. unfold remote_chain_id, client_chain_id.
  destruct net as [e|]; [split; [done|by intros []]|]. rewrite <- chain_id_answer.
  destruct (classified_cases _ _ _ _ _ (C59_get_chain_id w)) as [[i Hi]|[e Hi]]; rewrite Hi; cbn.
  - split; [by intros [= ->]|]. by intros (_ & [= ->]).
  - split; [done|by intros (_ & ?)].
Qed.
Theorem C61_remote_head : forall w net id height, remote_head_block w net = ((id, height), None) <-> net = None /\ chain_has_head w id height.
Proof.
  intros w net id height. unfold remote_head_block, client_head_block.
  assert (Hh : chain_has_head w id height <-> exists h t, snd (get_head_block w) = (Some h, None) /\ hi_topology h = Some t /\ tp_id t = id /\ tp_height t = height).
  { unfold chain_has_head. split.
    - intros (reply & h & t & H1 & H2 & H3). exists h, t. split; [apply head_answer; by exists reply|done].
    - intros (h & t & H1 & H3). apply head_answer in H1 as (reply & H1 & H2). by exists reply, h, t. }
  destruct net as [e|]; [split; [done|by intros []]|]. rewrite Hh.
  destruct (classified_cases _ _ _ _ _ (C59_get_head_block w)) as [[h Hi]|[e Hi]]; rewrite Hi; cbn [serve_head_block over_stream].
  - destruct (hi_topology h) as [t|] eqn:Ht; cbn.
    + split; [intros [= <- <-]; split; [done|]; by exists h, t|]. intros (_ & h' & t' & [= <-] & E & <- & <-). rewrite Ht in E. by injection E as ->.
    + split; [done|]. intros (_ & h' & t' & [= <-] & E & _). congruence.
  - split; [done|by intros (_ & h' & t' & [=] & _)].
Qed.
Print Assumptions C61_remote_ancestor.
Print Assumptions C61_remote_chain_id.
Print Assumptions C61_remote_head.

(** *** Error kinds: a deadline of the call is a peer RPC timeout, every other failure a peer RPC error; undecodable blocks are a
    deserialization error. *)
Definition peer_kind {R} (res : call_result R) (allowed : list sentinel) (late : Prop) : Prop :=
  (forall e, snd res = Some e -> exists k, root e = Some k /\ k ∈ ErrPeerRPC :: ErrPeerRPCTimeout :: allowed) /\
  ((root <$> snd res) = Some (Some ErrPeerRPCTimeout) <-> late).
Definition late (net : option goerr) : Prop := exists e, net = Some e /\ is_err e CtxDeadlineExceeded = true.
Lemma kind_plain {R} (zero : R) net served (f : call_result R -> call_result R) :
  (forall r, snd (f r) = peer_error <$> snd r) -> peer_kind (f (over_stream zero net served)) [] (late net).
Proof.
  intros Hf. unfold peer_kind, late. rewrite Hf. destruct net as [e|]; cbn [over_stream snd fmap option_fmap option_map].
  - unfold peer_error. split.
    + intros e' [= <-]. cbn [root]. destruct (is_err e CtxDeadlineExceeded); eexists; (split; [done|]); set_solver.
    + cbn [root]. destruct (is_err e CtxDeadlineExceeded) eqn:He; split; try done; [by exists e|]. intros (e' & [= <-] & H). congruence.
  - assert (Hno : ~ exists e, None = Some e /\ is_err e CtxDeadlineExceeded = true) by (by intros (e & ? & _)).
    destruct served as [[r [e|]]|]; cbn [snd fmap option_fmap option_map]; (split; [|by split]); intros e' H; try done; injection H as <-; exists ErrPeerRPC; (split; [done|left]).
Qed.
Theorem C61_error_kinds : forall mar unm w net,
  peer_kind (remote_chain_id w net) [] (late net) /\ peer_kind (remote_head_block w net) [] (late net) /\
  (forall parent height, peer_kind (remote_ancestor w net parent height) [] (late net)) /\
  (forall head start num, peer_kind (remote_blocks mar unm w net head start num) [ErrDeserialization] (late net)).
Proof.
  intros mar unm w net. split; [|split; [|split]].
  - by apply (kind_plain None net _ client_chain_id).
  - by apply (kind_plain (None, 0%N) net _ client_head_block).
  - intros. by apply (kind_plain None net _ client_ancestor).
  - intros head start num. unfold remote_blocks, client_blocks, peer_kind, late.
    destruct net as [e|]; cbn [over_stream snd fst].
    + unfold peer_error. split.
      * intros e' [= <-]. cbn [root]. destruct (is_err e CtxDeadlineExceeded); eexists; (split; [done|]); set_solver.
      * cbn. destruct (is_err e CtxDeadlineExceeded) eqn:He; split; try done; [by exists e|]. intros (e' & [= <-] & H). congruence.
    + assert (Hno : ~ exists e, None = Some e /\ is_err e CtxDeadlineExceeded = true) by (by intros (e & ? & _)).
      destruct (serve_blocks mar _) as [[r [e|]]|]; cbn [snd fst].
      * split; [intros e' [= <-]; exists ErrPeerRPC; split; [done|left]|]. by split.
      * case_bool_decide; [destruct (decode_blocks unm r)|]; cbn [snd fst]; (split; [|by split]); intros e' H'; try done; injection H' as <-; eexists; (split; [done|]); set_solver.
      * split; [intros e' [= <-]; exists ErrPeerRPC; split; [done|left]|]. by split.
Qed.
Print Assumptions C61_error_kinds.

(** ** The requirements of C50 on the RPC clients hold *)
Section world.
Context (mar : option block -> option string) (unm : string -> option block) (mine theirs : nat -> wire) (net : nat -> option goerr)
  (lib : nat -> option topology) (version : nat -> string * option goerr) (app : nat -> block -> option goerr).
Notation env := (world mar unm mine theirs net lib version app).
Lemma world_counts_ok : env_counts_ok env.
Proof.
  intros n q. destruct q as [| | | | | | |t head start num|]; try done. cbn [world event_counts_ok].
  destruct (remote_blocks mar unm (theirs n) (net n) head start num) as [bs [e|]] eqn:Hr; [done|].
  unfold remote_blocks in Hr. apply C61_blocks_all_decode in Hr as (_ & H1 & H2). unfold to_u32. change two32 with (2 ^ 32)%N.
  by rewrite <- (Forall2_length _ _ _ H2).
Qed.
Lemma world_local_ok : (forall n, lib n <> None) -> env_local_ok env.
Proof.
  intros Hlib n q. destruct q as [|t| | | | |t ids| |]; try done.
  - cbn [world event_local_ok]. destruct (classified_cases _ _ _ _ _ (C59_get_chain_id (mine n))) as [[i ->]|[e ->]]; done.
  - exact (Hlib n).
  - cbn [world event_local_ok]. destruct (classified_cases _ _ _ _ _ (C59_get_blocks_by_id (mine n) ids)) as [[i ->]|[e ->]]; [|done].
    cbn. exists (map (Some ∘ bi_height) i). split; [done|]. apply Forall_forall. intros x Hx. apply elem_of_list_fmap in Hx as (y & -> & _). done.
Qed.
(** With the actual RPC clients, whatever the message queue, the network and the peer answer, only a block without a header (or an
    unknown LIB) can make the handshake or a sync round panic. *)
Theorem C50_with_rpc_clients_partial (o : pc_opts) n syn :
  (forall n, lib n <> None) -> env_u64 env -> env_headers_ok env -> (0 < po_batch o < two32)%N ->
  (run env n (handshake o)).2 <> Panic /\ (run env n (request_sync o syn)).2 <> Panic.
Proof. intros H1 H2 H3 H4. apply C50_no_crash_partial; [done|by apply world_local_ok|apply world_counts_ok|done|done]. Qed.
End world.
Print Assumptions C50_with_rpc_clients_partial.

(** ** C77: a sync round with a healthy peer transfers exactly the next blocks *)
Theorem C77_healthy_round : forall (o : pc_opts) mar unm mine theirs lib version app n syn head height items,
  codec_ok mar unm -> (0 < po_batch o < 2 ^ 32)%N -> (height < 2 ^ 64)%N ->
  (* the peer's head is ahead of our LIB, we do not have it, and our LIB is on the peer's chain *)
  chain_has_head theirs head height -> (tp_height lib < height)%N -> store_lacks mine head ->
  ((0 < tp_height lib)%N -> exists i, store_has theirs head (tp_height lib) 1 [i] /\ str (bi_id i) = str (tp_id lib)) ->
  (* the peer's store has the next blocks, at most a batch of them *)
  store_has theirs head (tp_height lib + 1) (po_batch o `min` (height - tp_height lib)) items ->
  N.of_nat (length items) = (po_batch o `min` (height - tp_height lib))%N ->
  (forall i, i ∈ items -> mar (bi_block i) <> None /\ exists b, bi_block i = Some b /\ b_header b <> None) ->
  (* our node accepts what it is given *)
  (forall n b, harmless (app n b)) ->
  let env := world mar unm (fun _ => mine) (fun _ => theirs) (fun _ => None) (fun _ => Some lib) version app in
  exists tr flag, run env n (request_sync o syn) = (tr, Done (None, flag)) /\ Forall2 transferred items (map fst (applied tr)).
Proof.
  intros o mar unm mine theirs lib version app n syn head height items Hc Hb Hh64 Hhead Hlt Hlack Hanc Hst Hlen Hbl Happ env.
  assert (E2 : remote_head_block theirs None = ((head, height), None)) by (by apply C61_remote_head).
  assert (E3 : exists i, snd (get_blocks_by_id mine [head]) = (Some [i], None) /\ bi_height i = 0%N).
  { destruct Hlack as (reply & i & H1 & H2 & H3). exists i. split; [|done]. apply by_id_answer. by exists reply. }
  destruct E3 as (it & E3 & Hit).
  assert (Hk : request_size o (tp_height lib) height = (po_batch o `min` (height - tp_height lib))%N).
  { unfold request_size. rewrite sub64_le; [|lia|exact Hh64]. unfold to_u32. change two32 with (2 ^ 32)%N.
    case_bool_decide; rewrite N.mod_small; lia. }
  destruct (C61_remote_blocks_succeeds mar unm theirs head (tp_height lib + 1) (po_batch o `min` (height - tp_height lib)) items Hc Hst) as (bs & E5 & Hbs); [lia|done|intros i Hi; by apply Hbl|].
  assert (Hne : bs <> []).
  { intros ->. apply Forall2_length in Hbs. rewrite Hbs in Hlen. cbn in Hlen. lia. }
  assert (Hhd : Forall (fun b => b_header b <> None) bs).
  { clear -Hbs Hbl. induction Hbs as [|i b items bs H1 _ IH]; constructor.
    - destruct (Hbl i) as (_ & b' & Hb' & Hh); [left|]. unfold transferred in H1. rewrite Hb' in H1. cbn in H1. destruct H1 as (_ & H1 & _).
      destruct (b_header b'), (b_header b); by inversion H1.
    - apply IH. intros i' Hi. apply Hbl. by right. }
  assert (A1 : forall m, env m QLib = Some lib) by done.
  assert (A2 : forall m t, env m (QPeerHead t) = ((head, height), None)) by (intros; exact E2).
  assert (A3 : forall m t, env m (QLocalBlocks t [head]) = (Some [Some 0%N], None)).
  { intros m t. unfold env. cbn [world]. rewrite E3. cbn. by rewrite Hit. }
  assert (A5 : forall m t, env m (QPeerBlocks t head (tp_height lib + 1) (po_batch o `min` (height - tp_height lib))) = (bs, None)) by (intros; exact E5).
  (* fetching *)
  assert (Hf : forall m, exists tr flag, run env m (fetch o (tp_height lib) head height syn) = (tr, Done (None, flag)) /\ map fst (applied tr) = bs).
  { intros m. unfold fetch. cbn [run].
    change (to_u32 (if bool_decide (po_batch o < sub64 height (tp_height lib))%N then po_batch o else sub64 height (tp_height lib))) with (request_size o (tp_height lib) height).
    rewrite Hk. assert (Ha : add64 (tp_height lib) 1 = (tp_height lib + 1)%N).
    { unfold add64. apply N.mod_small. change two64 with (2 ^ 64)%N. lia. }
    rewrite Ha, !A5. rewrite run_bind.
    destruct (apply_blocks_run o env bs (S m)) as (dn & out & Hrun & Hap).
    pose proof (run_local_ok env (apply_blocks o bs) (fun e => match e with Ev (QApply _ _) r => harmless r | _ => True end)) as Hok.
    specialize (Hok ltac:(intros k q; destruct q; try done; apply Happ) (S m)).
    rewrite Hrun in *. cbn [fst] in Hok. destruct Hap as [_ Hap]. destruct out as [[e|]|].
    - destruct Hap as (pre & b & r & rest & -> & _ & _ & Hn & _). rewrite map_app in Hok. apply Forall_app in Hok as [_ Hok].
      apply Forall_cons in Hok as [Hok _]. done.
    - destruct Hap as [Hd _]. assert (exists b, last bs = Some b) as [b Hl].
      { destruct (last bs) eqn:E; [by eexists|]. by apply last_None in E. }
      rewrite Hl. assert (Hbh : b_header b <> None).
      { rewrite last_lookup in Hl. apply elem_of_list_lookup_2 in Hl. rewrite Forall_forall in Hhd. by apply Hhd. }
      destruct (b_header b) as [h|] eqn:Hbh'; [|done]. cbn [run]. eexists _, _. split; [reflexivity|]. rewrite app_nil_r. cbn [applied omap list_omap].
      rewrite <- Hd. clear. induction dn as [|[b r] dn IH]; [done|]. cbn. f_equal. exact IH.
    - destruct Hap as (b & rest & -> & Hb' & _). apply Forall_app in Hhd as [_ Hhd]. apply Forall_cons in Hhd as [Hhd _]. done. }
  unfold request_sync. cbn [run]. rewrite !A1, !A2. rewrite bool_decide_false by lia. cbn [run]. rewrite !A3.
  rewrite bool_decide_false by (by intros ?).
  destruct (bool_decide_reflect (0 < tp_height lib)%N) as [Hl|Hl].
  - destruct (Hanc Hl) as (i & Hi1 & Hi2). cbn [run].
    assert (A4 : forall m t, env m (QPeerAncestor t head (tp_height lib)) = (bi_id i, None)).
    { intros. unfold env. cbn [world]. apply C61_remote_ancestor. split; [done|by exists i]. }
    rewrite !A4. unfold bytes_equal. rewrite bool_decide_true by done.
    destruct (Hf (S (S (S (S n))))) as (tr & flag & -> & Htr). eexists _, _. split; [reflexivity|]. change (Forall2 transferred items (map fst (applied tr))). by rewrite Htr.
  - destruct (Hf (S (S (S n)))) as (tr & flag & -> & Htr). eexists _, _. split; [reflexivity|]. change (Forall2 transferred items (map fst (applied tr))). by rewrite Htr.
Qed.
Print Assumptions C77_healthy_round.

(** A peer with head 7, our LIB at 5: two blocks are transferred. *)
Definition tiny_mar (b : option block) : option string :=
  match b with
  | None => Some ""
  | Some b => if bool_decide (b = demo_block "6" 6) then Some "six" else if bool_decide (b = demo_block "7" 7) then Some "seven" else None
  end.
Definition tiny_unm (s : string) : option block :=
  if bool_decide (s = "six") then Some (demo_block "6" 6) else if bool_decide (s = "seven") then Some (demo_block "7" 7)
  else if bool_decide (s = "") then Some empty_block else None.
Definition echo (_ data : string) : string + goerr := inl data.
Definition tiny_request (q : rpc_req) : option string :=
  match q with
  | RChain CGetHeadInfo => Some "head"
  | RStore (SGetById _ _ _) => Some "by id"
  | RStore (SGetByHeight _ start _ _ _) => Some (if bool_decide (start = 5%N) then "lib" else "blocks")
  | _ => None
  end.
Definition tiny_theirs : wire := Wire tiny_request echo
  (fun s => if bool_decide (s = "head") then Some (VHeadInfo (HeadInfo (Some (Topology (Some "seven") 7 (Some "six"))) 0)) else None)
  (fun s => if bool_decide (s = "lib") then Some (WByHeight [BlockItem (Some "five") 5 None])
            else Some (WByHeight [BlockItem (Some "6") 6 (Some (demo_block "6" 6)); BlockItem (Some "7") 7 (Some (demo_block "7" 7))])).
Definition tiny_mine : wire := Wire tiny_request echo (fun _ => None) (fun _ => Some (WById [BlockItem None 0 None])).
Lemma same_block_refl b : same_block b b.
Proof.
  unfold same_block. split; [done|]. split; [|split; [|done]].
  - destruct (b_header b); constructor. done.
  - induction (b_txs b); constructor; done.
Qed.
Lemma tiny_codec : codec_ok tiny_mar tiny_unm.
Proof.
  intros b d H. unfold tiny_mar in H. destruct b as [b|].
  - case_bool_decide; [|case_bool_decide; [|done]]; injection H as <-; eexists; (split; [vm_compute; reflexivity|]); subst b; apply same_block_refl.
  - injection H as <-. eexists. split; [vm_compute; reflexivity|]. apply same_block_refl.
Qed.
Example C77_nonvacuous : let lib := Topology (Some "five") 5 (Some "four") in let o := pc_defaults in
  let items := [BlockItem (Some "6") 6 (Some (demo_block "6" 6)); BlockItem (Some "7") 7 (Some (demo_block "7" 7))] in
  codec_ok tiny_mar tiny_unm /\ chain_has_head tiny_theirs (Some "seven") 7 /\ store_lacks tiny_mine (Some "seven") /\
  (exists i, store_has tiny_theirs (Some "seven") (tp_height lib) 1 [i] /\ str (bi_id i) = str (tp_id lib)) /\
  store_has tiny_theirs (Some "seven") (tp_height lib + 1) (po_batch o `min` (7 - tp_height lib)) items /\
  N.of_nat (length items) = (po_batch o `min` (7 - tp_height lib))%N /\
  (forall i, i ∈ items -> tiny_mar (bi_block i) <> None /\ exists b, bi_block i = Some b /\ b_header b <> None).
Proof.
  intros lib o items. assert (Hr : forall w svc q d, w_marshal w q = Some d -> w_mq w = echo -> (N.of_nat (Strings.String.length d) <= 536870912)%N -> reached w svc q d).
  { intros w svc q d H1 H2 H3. exists d. split; [done|]. by rewrite H2. }
  split; [exact tiny_codec|]. split; [|split; [|split; [|split; [|split]]]].
  - exists "head", (HeadInfo (Some (Topology (Some "seven") 7 (Some "six"))) 0), (Topology (Some "seven") 7 (Some "six")). split; [apply Hr; done|]. vm_compute. done.
  - exists "by id", (BlockItem None 0 None). split; [apply Hr; done|]. vm_compute. done.
  - exists (BlockItem (Some "five") 5 None). split; [|done]. exists "lib". split; [apply Hr; done|]. vm_compute. done.
  - exists "blocks". split; [apply Hr; done|]. vm_compute. done.
  - vm_compute. done.
  - intros i Hi. repeat (apply elem_of_cons in Hi as [->|Hi]); [vm_compute; split; [done|by eexists]| |by apply elem_of_nil in Hi]. vm_compute; split; [done|by eexists].
Qed.
(** The same peer with a store item that carries no block: our round panics. *)
Example C50_missing_block_panics : let lib := Topology (Some "five") 5 (Some "four") in
  let theirs := Wire tiny_request echo (w_chain tiny_theirs)
    (fun s => if bool_decide (s = "lib") then Some (WByHeight [BlockItem (Some "five") 5 None]) else Some (WByHeight [BlockItem (Some "6") 6 (Some (demo_block "6" 6)); BlockItem (Some "7") 7 None])) in
  (run (world tiny_mar tiny_unm (fun _ => tiny_mine) (fun _ => theirs) (fun _ => None) (fun _ => Some lib) (fun _ => ("", None)) (fun _ _ => None)) 0 (request_sync pc_defaults false)).2 = Panic.
Proof. vm_compute. done. Qed.
