(** Property theorems C123: what remote peers can make the local services do, and whether they can crash the service. *)
From Verif Require Import GoBase LocalRpc_Model PeerConn_Model PeerRpc_Model LocalRpc_Spec LocalRpc_Props Serve_Model Serve_Spec.

(** The request that serving [q] puts to a local service *)
Local Definition asks (q : peer_req) : rpc_req :=
  match q with
  | PChainID => RChain CGetChainId
  | PHeadBlock => RChain CGetHeadInfo
  | PAncestor parent height => RStore (SGetByHeight parent height 1 true false)
  | PBlocks head start num => RStore (SGetByHeight head start num true false)
  end.

Local Lemma request_sent {R} w service q (k : string -> option R * option goerr) :
  (request w service q k).1 = [] \/ exists data, w_marshal w q = Some data /\ (request w service q k).1 = [(service, data)].
Proof.
  unfold request. destruct (w_marshal w q) as [data|]; [|by left].
  destruct (check_message_size data); [by left|]. right. by exists data.
Qed.
Local Lemma one_sent mar w q :
  (serve_one mar w q).1 = [] \/ exists m, encodes w (asks q) m /\ (serve_one mar w q).1 = [m].
Proof.
  assert (G : forall R service q' (k : string -> option R * option goerr), service = addressee q' ->
    (request w service q' k).1 = [] \/ exists m, encodes w q' m /\ (request w service q' k).1 = [m]).
  { intros R service q' k Hs. destruct (request_sent w service q' k) as [?|(data & Hm & E)]; [by left|]. right. by exists (service, data). }
  destruct q; cbn [serve_one fst asks]; by apply G.
Qed.
Local Lemma all_sent mar vs m : m ∈ (serve_all mar vs).1 -> exists v, v ∈ vs /\ encodes (v_wire v) (asks (v_req v)) m.
Proof.
  induction vs as [|v vs IH]; cbn [serve_all]; [by intros ?%elem_of_nil|].
  pose proof (one_sent mar (v_wire v) (v_req v)) as Ho.
  destruct (serve_one mar (v_wire v) (v_req v)) as [ms [a|]]; cbn [fst] in Ho.
  - destruct (serve_all mar vs) as [ms' rs]. cbn [fst] in IH |- *. intros [Hm|Hm]%elem_of_app.
    + destruct Ho as [->|(m' & He & ->)]; [by apply elem_of_nil in Hm|]. apply elem_of_list_singleton in Hm as ->. exists v. split; [left|done].
    + destruct (IH Hm) as (v' & Hv & He). exists v'. split; [by right|done].
  - cbn [fst]. intros Hm. destruct Ho as [->|(m' & He & ->)]; [by apply elem_of_nil in Hm|]. apply elem_of_list_singleton in Hm as ->. exists v. split; [left|done].
Qed.

(** ** C123: whatever peers ask, the local services are only read from, with at most one message per request. *)
Theorem C123_only_reads : forall mar vs,
  length (serve_all mar vs).1 <= length vs /\
  forall m, m ∈ (serve_all mar vs).1 -> exists v q, v ∈ vs /\ reads q /\ encodes (v_wire v) q m.
Proof.
  intros mar vs. split.
  - induction vs as [|v vs IH]; cbn [serve_all]; [done|].
    pose proof (one_sent mar (v_wire v) (v_req v)) as Ho.
    destruct (serve_one mar (v_wire v) (v_req v)) as [ms [a|]]; cbn [fst] in Ho.
    + destruct (serve_all mar vs) as [ms' rs]. cbn [fst length] in IH |- *. rewrite app_length.
      destruct Ho as [->|(m' & _ & ->)]; cbn [length]; lia.
    + cbn [fst]. destruct Ho as [->|(m' & _ & ->)]; cbn [length]; lia.
  - intros m Hm. destruct (all_sent mar vs m Hm) as (v & Hv & He). exists v, (asks (v_req v)). split; [done|]. split; [|done].
    by destruct (v_req v).
Qed.
Print Assumptions C123_only_reads.
(** So, with an encoding that tells requests apart and does not change, no peer gets a block or a transaction submitted this way. *)
Theorem C123_never_submits : forall mar vs w, encoding_unambiguous w -> (forall v, v ∈ vs -> w_marshal (v_wire v) = w_marshal w) ->
  forall m q, m ∈ (serve_all mar vs).1 -> submits q -> ~ encodes w q m.
Proof.
  intros mar vs w Hu Hw m q Hm Hq [_ Hd]. destruct (all_sent mar vs m Hm) as (v & Hv & _ & He).
  rewrite (Hw v Hv) in He. rewrite (Hu _ _ _ Hd He) in Hq. by destruct (v_req v).
Qed.
Print Assumptions C123_never_submits.

(** ** C123: the only crash is over head info without a topology, on a request for the head. *)
Local Lemma one_crash mar w q : (serve_one mar w q).2 = Panic <-> q = PHeadBlock /\ headless w.
Proof.
  destruct q; cbn [serve_one snd].
  - split; [|by intros [? _]]. intros H. exfalso. unfold get_chain_id, request in H.
    destruct (w_marshal w _); [|done]. destruct (check_message_size _); [done|]. destruct (w_mq w _ _); [|done]. cbn [snd] in H.
    destruct (w_chain w _) as [[]|]; done.
  - unfold get_head_block, request, headless, check_message_size. split.
    + intros H. split; [done|]. destruct (w_marshal w _) as [data|]; [|done].
      destruct (N.ltb_spec max_message_size (N.of_nat (Strings.String.length data))) as [|Hs]; [done|].
      destruct (w_mq w chain_rpc data) as [reply|] eqn:Hq; [|done]. cbn [snd] in H.
      destruct (w_chain w reply) as [[[t time]| | | | | | ]|] eqn:Hc; try done. destruct t as [t|]; [done|].
      exists data, reply, time. done.
    + intros (_ & data & reply & time & Hm & Hs & Hq & Hc). rewrite Hm.
      destruct (N.ltb_spec max_message_size (N.of_nat (Strings.String.length data))) as [Hs'|_]; [unfold max_message_size in Hs'; lia|].
      change chain_rpc with "chain". rewrite Hq. cbn [snd]. by rewrite Hc.
  - split; [|by intros [? _]]. intros H. exfalso. unfold get_blocks_by_height, request in H.
    destruct (w_marshal w _); [|done]. destruct (check_message_size _); [done|]. destruct (w_mq w _ _); [|done]. cbn [snd] in H.
    destruct (w_store w _) as [[|items| |]|]; try done. by destruct items as [|i [|]].
  - split; [|by intros [? _]]. intros H. exfalso. unfold get_blocks_by_height, request in H.
    destruct (w_marshal w _); [|done]. destruct (check_message_size _); [done|]. destruct (w_mq w _ _); [|done]. cbn [snd] in H.
    destruct (w_store w _) as [[|items| |]|]; try done. unfold serve_blocks in H. by destruct (encode_blocks mar items).
Qed.
Definition C123_no_crash_statement : Prop := forall mar vs, Panic ∉ (serve_all mar vs).2.
Theorem C123_no_crash_refuted : ~ C123_no_crash_statement.
Proof.
  intros H. apply (H (fun _ => Some "") [Visit "peer" (Wire (fun _ => Some "request") (fun _ _ => inl "reply") (fun _ => Some (VHeadInfo (HeadInfo None 0))) (fun _ => None)) PHeadBlock]).
  cbn. left.
Qed.
Print Assumptions C123_no_crash_refuted.
(** Every request is answered, in order, as it would be alone, as long as the chain names its head when asked. *)
Theorem C123_no_crash_partial : forall mar vs,
  (Panic ∈ (serve_all mar vs).2 <-> exists v, v ∈ vs /\ v_req v = PHeadBlock /\ headless (v_wire v)) /\
  ((forall v, v ∈ vs -> v_req v = PHeadBlock -> ~ headless (v_wire v)) ->
   (serve_all mar vs).2 = map (fun v => (serve_one mar (v_wire v) (v_req v)).2) vs /\ length (serve_all mar vs).2 = length vs).
Proof.
  intros mar vs. split.
  - induction vs as [|v vs IH]; cbn [serve_all].
    { cbn [snd]. split; [by intros ?%elem_of_nil|by intros (v & ?%elem_of_nil & _)]. }
    pose proof (one_crash mar (v_wire v) (v_req v)) as Hc.
    destruct (serve_one mar (v_wire v) (v_req v)) as [ms [a|]]; cbn [snd] in Hc.
    + destruct (serve_all mar vs) as [ms' rs]. cbn [snd] in IH |- *. rewrite elem_of_cons, IH. split.
      * intros [?|(v' & Hv & Hr)]; [done|]. exists v'. split; [by right|done].
      * intros (v' & [->|Hv]%elem_of_cons & Hr); [exfalso; by apply Hc in Hr|]. right. by exists v'.
    + cbn [snd]. split; [intros _|intros _; left]. exists v. split; [left|]. by apply Hc.
  - intros Hh. enough (E : (serve_all mar vs).2 = map (fun v => (serve_one mar (v_wire v) (v_req v)).2) vs) by (split; [done|]; by rewrite E, map_length).
    induction vs as [|v vs IH]; cbn [serve_all map]; [done|].
    pose proof (one_crash mar (v_wire v) (v_req v)) as Hc.
    specialize (IH (fun v' Hv => Hh v' (elem_of_list_further _ _ _ Hv))).
    destruct (serve_one mar (v_wire v) (v_req v)) as [ms [a|]]; cbn [snd] in Hc.
    + destruct (serve_all mar vs) as [ms' rs]. cbn [snd] in IH |- *. by rewrite IH.
    + exfalso. destruct Hc as [Hc _]. destruct (Hc eq_refl) as [Hq Hl]. exact (Hh v (elem_of_list_here _ _) Hq Hl).
Qed.
Print Assumptions C123_no_crash_partial.

(** ** C123: there is no bound on the blocks that a peer can have the node read at once. *)
Definition C123_bounded_reads_statement (limit : N) : Prop := forall mar vs m v q, (forall v, v ∈ vs -> sendable (v_req v)) ->
  m ∈ (serve_all mar vs).1 -> v ∈ vs -> encoding_unambiguous (v_wire v) -> (forall v', v' ∈ vs -> w_marshal (v_wire v') = w_marshal (v_wire v)) ->
  encodes (v_wire v) q m -> (blocks_asked q <= limit)%N.
(** An encoding that tells requests apart: it encodes a single one *)
Local Definition single (q : rpc_req) : option string :=
  match q with RStore (SGetByHeight None 0 n true false) => if decide (n = (2 ^ 32 - 1)%N) then Some "x" else None | _ => None end.
Theorem C123_bounded_reads_refuted : forall limit, (limit < 2 ^ 32 - 1)%N -> ~ C123_bounded_reads_statement limit.
Proof.
  intros limit Hl H.
  set (w := Wire single (fun _ _ => inl "") (fun _ => None) (fun _ => None)).
  enough (E : (blocks_asked (RStore (SGetByHeight None 0 (2 ^ 32 - 1) true false)) <= limit)%N) by (cbn [blocks_asked] in E; lia).
  apply (H (fun _ => None) [Visit "peer" w (PBlocks None 0 (2 ^ 32 - 1))] ("block_store", "x") (Visit "peer" w (PBlocks None 0 (2 ^ 32 - 1)))).
  - intros v ->%elem_of_list_singleton. cbn [v_req sendable]. done.
  - cbn [serve_all serve_one v_req v_wire]. unfold get_blocks_by_height, request. cbn. left.
  - left.
  - intros q q' data. cbn [w_marshal v_wire w].
    assert (I : forall q data, single q = Some data -> q = RStore (SGetByHeight None 0 (2 ^ 32 - 1) true false)).
    { clear. intros q data. destruct q as [|[|[?|] [|?] n [|] [|]|]]; cbn [single]; try done. by destruct (decide (n = (2 ^ 32 - 1)%N)) as [->|]. }
    intros H1 H2. rewrite (I _ _ H1), (I _ _ H2). done.
  - intros v ->%elem_of_list_singleton. done.
  - split; [done|]. cbn [w_marshal v_wire w single]. by rewrite decide_True.
Qed.
Print Assumptions C123_bounded_reads_refuted.
(** What is true: the number that goes to the block store is the one the peer asked for, and one for an ancestor. *)
Theorem C123_bounded_reads_partial : forall mar vs m, m ∈ (serve_all mar vs).1 -> (forall v, v ∈ vs -> sendable (v_req v)) ->
  exists v q, v ∈ vs /\ encodes (v_wire v) q m /\ (blocks_asked q < 2 ^ 32)%N /\
    match v_req v with PBlocks _ _ num => blocks_asked q = num | PAncestor _ _ => blocks_asked q = 1%N | _ => blocks_asked q = 0%N end.
Proof.
  intros mar vs m Hm Hs. destruct (all_sent mar vs m Hm) as (v & Hv & He). exists v, (asks (v_req v)). split; [done|]. split; [done|].
  specialize (Hs v Hv). by destruct (v_req v); cbn [asks blocks_asked sendable] in *.
Qed.
Print Assumptions C123_bounded_reads_partial.

(** Three peers ask a node whose services answer: a chain id, two blocks and the head, which the chain does not name. *)
Example C123_nonvacuous :
  let w := Wire (fun q => match q with RChain CGetChainId => Some "id?" | RChain CGetHeadInfo => Some "head?" | RStore (SGetByHeight _ _ _ _ _) => Some "blocks?" | _ => None end)
    (fun service data => if bool_decide (service = "chain" /\ data = "id?") then inl "id" else if bool_decide (service = "chain") then inl "head" else inl "blocks")
    (fun reply => if bool_decide (reply = "id") then Some (VChainId (Some "koinos")) else Some (VHeadInfo (HeadInfo None 7)))
    (fun _ => Some (WByHeight [BlockItem (Some "a") 5 None; BlockItem (Some "b") 6 None])) in
  let vs := [Visit "p" w PChainID; Visit "q" w (PBlocks (Some "h") 5 2); Visit "q" w (PAncestor (Some "h") 5); Visit "r" w PHeadBlock; Visit "p" w PChainID] in
  serve_all (fun _ => Some "block") vs =
    ([("chain", "id?"); ("block_store", "blocks?"); ("block_store", "blocks?"); ("chain", "head?")],
     [Done (inl (AChainID (Some "koinos"))); Done (inl (ABlocks [Some "block"; Some "block"]));
      Done (inr (EOther "unexpected number of blocks returned")); Panic]) /\
  headless w.
Proof. split; [reflexivity|]. exists "head?", "head", 7%N. cbn. repeat split; lia. Qed.
