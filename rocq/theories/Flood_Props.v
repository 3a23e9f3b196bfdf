(** Property theorems: C109, a network of nodes in gossip mode. *)
From stdpp Require Import pretty.
From Verif Require Import GoBase Util Gossip_Model Gossip_Spec TxCache_Model TxCache_Spec TxCache_Proofs Watchdog_Model
  Applicator_Model Applicator_Spec Applicator_Core Applicator_Sys Applicator_Inv Applicator_Inv2 Applicator_Inv3 Applicator_Inv4
  Applicator_Inv5 Applicator_Inv6 Applicator_Inv7 Applicator_Props Applicator_Props2 Deliver_Spec Deliver_Proofs Deliver_Props Rest_Spec Rest_Proofs
  Honest_Spec Honest_Proofs Honest_Proofs2 Honest_Props Round_Spec Round_Proofs Round_Props Relay_Spec Relay_Proofs Relay_Props Flood_Spec Flood_Proofs.

(** C109.  Blocks [ks] on top of [parent] that all chains accept.  When nothing is left to do in the network, every node of an area has
    them if each of them was accepted by some node from which the node can be reached over links of the area, in whatever order and
    wherever they came up.  Full statement: without [well false], that is, also when the deadline of a validator passes; it is refuted
    below. *)
Theorem C109_spreads_partial : forall encode decode_block id_of_key su links parent h ks (young : nat -> blk -> Prop) sched x (area : nat -> Prop),
  common encode decode_block su parent h ks ->
  nruns encode decode_block id_of_key su links (well decode_block id_of_key su parent h ks young false) (net_init su) sched x -> quiet decode_block id_of_key su x ->
  (forall n k, k ∈ ks -> young n k -> recent (su_opts (su n)) (s_now (w_s (world_of (nt_node x n)))) k) ->
  (forall q, area q -> parent ∈ w_chain (world_of (nt_node x q))) ->
  (forall k q, k ∈ ks -> area q -> exists src, k_id k ∈ w_chain (world_of (nt_node x src)) /\ k_id k ∉ su_root (su src) /\ rtc (within links area) src q) ->
  forall k q, k ∈ ks -> area q -> k_id k ∈ w_chain (world_of (nt_node x q)).
Proof.
  intros encode decode_block id_of_key su links parent h ks young sched x area HC Hr Hq Hy Hpar Hsrc.
  eapply (spread encode decode_block id_of_key su links parent h ks young HC x area); try done.
  eapply (NI_run encode decode_block id_of_key su links parent h ks young HC); [|exact Hr]. by apply NI_init.
Qed.
Print Assumptions C109_spreads_partial.
(** No node charges another one for such a block, at any time: every validator that is over has accepted the message, and if it is not
    a message of the node's own the chain has the block. *)
Theorem C109_nobody_charged : forall encode decode_block id_of_key su links parent h ks (young : nat -> blk -> Prop) sched x n k v call r,
  common encode decode_block su parent h ks ->
  nruns encode decode_block id_of_key su links (well decode_block id_of_key su parent h ks young false) (net_init su) sched x ->
  k ∈ ks -> v ∈ rl_vals (pn_relay (nt_node x n)) -> decode_block (m_data (va_msg v)) = Some (k_src k) -> va_phase v = VOver call r ->
  v_ok r = true /\ v_reported r = [] /\ (m_from (va_msg v) <> su_name (su n) -> k_id k ∈ w_chain (world_of (nt_node x n))).
Proof.
  intros encode decode_block id_of_key su links parent h ks young sched x n k v call r HC Hr Hk Hv Hd Hph.
  assert (HI : NI encode decode_block id_of_key su links parent h ks young x).
  { eapply (NI_run encode decode_block id_of_key su links parent h ks young HC); [|exact Hr]. by apply NI_init. }
  pose proof (ni_node _ _ _ _ _ _ _ _ _ _ HI n) as HN.
  destruct (decide (m_from (va_msg v) = su_name (su n))) as [Ho|Hf]; [by destruct (own_good _ _ _ _ _ _ _ _ _ v call r (k_src k) HN Hv Hph Ho Hd)|].
  destruct (nd_good _ _ _ _ _ _ _ _ _ HN v Hv k Hk Hd Hf) as (c & cl & _ & _ & [Hx|(r' & Hx & H1 & H2 & H3)]); [congruence|]. assert (r' = r) as -> by congruence.
  split_and!; [done|done|]. intros _. by apply (cm_applied _ _ _ _ _ _ _ _ _ _ (nd_calm _ _ _ _ _ _ _ _ _ HN)).
Qed.
Print Assumptions C109_nobody_charged.

(** ** Concrete runs: three nodes in a line *)
Fixpoint name (n : nat) : string := match n with O => "" | S n => String Ascii.zero (name n) end.
Lemma name_inj n : forall q, name n = name q -> n = q.
Proof. induction n as [|n IH]; intros [|q] E; cbn in E; try done. injection E as E. f_equal. by apply IH. Qed.
Definition encode2 (b : block) : option string := if bool_decide (str (b_id b) = "11"%string) then Some "eleven"%string else if bool_decide (str (b_id b) = "12"%string) then Some "twelve"%string else None.
Definition line (n : nat) : list nat := match n with 0 => [1] | 1 => [0; 2] | 2 => [1] | _ => [] end.
Definition su3 (n : nat) : setup := Setup (name n) has_bad roomy (list_to_set ["10"%string]) 10 10 five_min five.
Definition all_young (n : nat) (k : blk) : Prop := True.
Lemma common3 : common encode2 decode2 su3 "10" 10 two.
Proof.
  assert (Htwo : forall k, k ∈ two -> k = nth_block 11 \/ k = nth_block 12) by (intros k Hk; unfold two in Hk; rewrite !elem_of_cons, elem_of_nil in Hk; tauto).
  split.
  - intros n. split; vm_compute; [discriminate|reflexivity].
  - intros n. split; [reflexivity|reflexivity|reflexivity|]. intros k [->| ->]%Htwo; (split; [vm_compute; reflexivity|]; split; [reflexivity|]; intros Hx; vm_compute in Hx; by destruct Hx).
  - split_and!; [reflexivity|reflexivity|split_and!; [vm_compute; reflexivity|reflexivity|exact I]].
  - intros n. split; [intros _; cbn; lia|]. intros k [->| ->]%Htwo; (split; [vm_compute; reflexivity|]); intros Hx; apply (bool_decide_eq_true_2 _) in Hx; vm_compute in Hx; discriminate.
  - intros k [->| ->]%Htwo; (split; [split; [done|by eexists]|]); [exists "eleven"%string|exists "twelve"%string]; (split_and!; [vm_compute; reflexivity|vm_compute; reflexivity|]);
      intros b; unfold encode2; repeat case_bool_decide; try done; (intros _; vm_compute; congruence) || (intros HH; discriminate HH).
  - intros n q. apply name_inj.
Qed.
(** The conditions, as a check *)
Definition undisturbed_b (w : world) (l : wlabel) : bool := open_b w l && match l with WApp (LForkHeads _ _) => false | _ => true end.
Definition heard_b (n : nat) (w : world) (m : message) (lib : N) : bool :=
  bool_decide (lib <= 10)%N && match offered decode2 id_of2 (name n) m lib with
  | Some b => undisturbed_b w (WApp (LCall b)) && match wd_add (s_wd (w_s w)) b with Done (_, Some _) => false | _ => true end
  | None => true
  end.
Definition well_b (hasty : bool) (x : net) (lab : nlabel) : bool :=
  match lab with
  | NLocal n l => undisturbed_b (world_of (nt_node x n)) l && (hasty || match l with WApp (LTimeout _) => false | _ => true end)
  | NAnnounce n j _ => undisturbed_b (world_of (nt_node x n)) (WAnnounce j)
  | NReturn _ _ => true
  | NDeliver a lib _ => match nt_air x !! a with Some (n, m) => heard_b n (world_of (nt_node x n)) m lib | None => false end
  | NStranger n m lib _ => heard_b n (world_of (nt_node x n)) m lib && (bool_decide (m_from m = "producer"%string) || bool_decide (m_from m = name 0 /\ m_data m ∈ pn_seen (nt_node x 0)))
  end.
Definition target (x : net) (lab : nlabel) : nat :=
  match lab with NLocal n _ | NAnnounce n _ _ | NReturn n _ | NStranger n _ _ _ => n | NDeliver a _ _ => match nt_air x !! a with Some (n, _) => n | None => 0 end end.
Notation nstep3 := (nstep encode2 decode2 id_of2 su3 line).
Notation well3 := (well decode2 id_of2 su3 "10" 10 two all_young).
Fixpoint nrun (hasty : bool) (x : net) (sched : list nlabel) : option net :=
  match sched with
  | [] => Some x
  | lab :: r => if well_b hasty x lab && bool_decide (target x lab < 3) then match nstep3 x lab with Some x' => nrun hasty x' r | None => None end else None
  end.
Lemma undisturbed_check n w l : undisturbed_b w l = true -> undisturbed su3 "10" 10 two all_young n w l.
Proof.
  unfold undisturbed_b, open_b. intros [[[H1 H2]%andb_true_iff H3]%andb_true_iff H4]%andb_true_iff. split; [split_and!; [by apply wu64_one|by apply wcomplete_one|by apply welcome_check]|]. split; [by left|].
  destruct l as [l| | |]; try done. by destruct l.
Qed.
Lemma heard_check n w m lib : heard_b n w m lib = true -> heard decode2 id_of2 su3 "10" 10 two all_young n w m lib.
Proof.
  unfold heard_b. intros [H1 H2]%andb_true_iff. apply bool_decide_eq_true in H1. split.
  - intros k Hk. unfold two in Hk. rewrite !elem_of_cons, elem_of_nil in Hk. destruct Hk as [->|[->|[]]]; cbn; lia.
  - cbn [su_name su3]. intros b Hb. rewrite Hb in H2. apply andb_true_iff in H2 as [H2 H3]. split; [by apply undisturbed_check|]. intros k Hk -> wd e E. by rewrite E in H3.
Qed.
Lemma well_check hasty x lab : well_b hasty x lab = true -> well3 hasty x lab.
Proof.
  destruct lab as [n l|n j again|n i|a lib again|n m lib again]; cbn [well_b well].
  - intros [H1 H2]%andb_true_iff. split; [by apply undisturbed_check|]. intros ->. unfold patient. destruct l as [l| | |]; try done. by destruct l.
  - apply undisturbed_check.
  - done.
  - destruct (nt_air x !! a) as [[n m]|]; [|done]. intros Hh n' m' [= <- <-]. by apply heard_check.
  - intros [H1 H2]%andb_true_iff. split; [by apply heard_check|]. intros q E. apply orb_true_iff in H2 as [H2|H2]; apply bool_decide_eq_true in H2; [rewrite H2 in E; by destruct q|].
    destruct H2 as [H2 H3]. rewrite H2 in E. apply name_inj in E as <-. exact H3.
Qed.
Lemma receive_other x n m lib again x' q : receive decode2 id_of2 su3 line x n m lib again = Some x' -> q <> n -> nt_node x' q = nt_node x q.
Proof. unfold receive. destruct (bool_decide _ && _); [by intros [= <-]|]. destruct (gstep _ _ _ _ _ _ _); [|done]. intros [= <-] Hq. cbn. by apply upd_other. Qed.
Lemma nstep_other x lab x' q : nstep3 x lab = Some x' -> q <> target x lab -> nt_node x' q = nt_node x q.
Proof.
  destruct lab as [n l|n j again|n i|a lib again|n m lib again]; cbn [nstep target].
  - assert (Hg : (fun g => Net (upd (nt_node x) n (PNode g (pn_seen (nt_node x n)))) (nt_air x)) <$> gstep decode2 id_of2 (su_name (su3 n)) (su_judge (su3 n)) (su_opts (su3 n)) (pn_relay (nt_node x n)) (GWorld l) = Some x' -> q <> n -> nt_node x' q = nt_node x q).
    { destruct (gstep _ _ _ _ _ _ _); [|done]. intros [= <-] Hq. cbn. by apply upd_other. }
    destruct l; try exact Hg. done.
  - destruct (w_owed _ !! j) as [b|]; [|done]. destruct (gstep _ _ _ _ _ _ _); [|done]. intros [= <-] Hq. unfold publish_block, publish. destruct (encode2 b); cbn; [|by apply upd_other].
    unfold publish_one. cbn. destruct (bool_decide _ && _); cbn; by rewrite !upd_other.
  - destruct (gstep _ _ _ _ _ _ _); [|done]. intros [= <-] Hq. cbn. by apply upd_other.
  - destruct (nt_air x !! a) as [[n m]|]; [|done]. intros Hr Hq. by eapply receive_other in Hr.
  - apply receive_other.
Qed.
Lemma nrun_runs hasty sched : forall x x', nrun hasty x sched = Some x' -> nruns encode2 decode2 id_of2 su3 line (well3 hasty) x sched x' /\ forall q, 3 <= q -> nt_node x' q = nt_node x q.
Proof.
  induction sched as [|lab r IH]; intros x x'; cbn [nrun nruns]; [by intros [= <-]|]. destruct (well_b hasty x lab) eqn:Ew; [|done]. case_bool_decide as Ht; [|done]. cbn.
  destruct (nstep3 x lab) as [x1|] eqn:E1; [|done]. intros Hr. destruct (IH _ _ Hr) as [H1 H2]. split; [split; [by apply well_check|eauto]|].
  intros q Hq. rewrite H2 by done. eapply nstep_other; [exact E1|lia].
Qed.
Definition nfinal {A} (hasty : bool) (f : net -> A) (sched : list nlabel) : option A := f <$> nrun hasty (net_init su3) sched.
Lemma nfinal_run {A} hasty (f : net -> A) sched a : nfinal hasty f sched = Some a -> exists x, nrun hasty (net_init su3) sched = Some x /\ f x = a.
Proof. unfold nfinal. destruct (nrun hasty (net_init su3) sched) as [x|]; [|done]. intros [= <-]. eauto. Qed.
Definition here (n : nat) (l : list label) : list nlabel := map (fun x => NLocal n (WApp x)) l.
(** The first node's chain gets blocks 11 and 12 and announces them in the wrong order. *)
Definition made : list nlabel :=
  [NLocal 0 (WElse (k_src (nth_block 11))); NLocal 0 (WElse (k_src (nth_block 12))); NAnnounce 0 1 false; NAnnounce 0 0 false] ++ here 0 [LBroadcast 0; LBroadcast 0].
(** A node gets block 12 and then block 11 (at the places [a] and [b] on their way). *)
Definition gets (n a b : nat) : list nlabel :=
  [NDeliver a 10 false] ++ here n [LSend 0; LNew none_lost] ++ [NDeliver b 10 false] ++ here n ([LSend 1; LNew none_lost] ++ attempt_at 0 0) ++
  [NLocal n (WAnswer 0); NAnnounce n 0 false] ++ here n [LBroadcast 0; LStatus 0 none_lost; LRet 1] ++ [NReturn n 1] ++
  here n (attempt_at 0 1 ++ [LTry 0]) ++ [NLocal n (WAnswer 1); NAnnounce n 0 false] ++ here n [LBroadcast 0; LStatus 1 none_lost; LRet 0] ++ [NReturn n 0] ++
  here n ([LTick 50000000] ++ attempt_at 0 2) ++ [NLocal n (WAnswer 2); NLocal n (WApp (LStatus 2 none_lost))].
Definition whole_line : list nlabel := made ++ gets 1 0 0 ++ gets 2 3 1 ++ [NDeliver 0 10 false; NDeliver 0 10 false; NDeliver 0 10 false; NDeliver 0 10 false] ++
  [NStranger 0 (Message "eleven" (name 0) "eve" "") 10 true; NDeliver 0 10 false] ++
  [NStranger 2 (Message "eleven" (name 0) "eve" "") 10 true] ++ here 2 ([LSend 2; LNew none_lost] ++ attempt_at 0 3) ++ [NLocal 2 (WAnswer 3)] ++ here 2 [LStatus 3 none_lost; LRet 2] ++ [NReturn 2 2; NDeliver 0 10 false] ++
  [NStranger 2 (Message "junk" "producer" "eve" "") 10 false].
(** Block 11 reaches the second node first, and its chain takes longer than the deadline of the validator. *)
Definition late_line : list nlabel :=
  made ++ [NDeliver 1 10 false] ++ here 1 ([LSend 0; LNew none_lost] ++ attempt_at 0 0 ++ [LTick 3000000000; LTimeout 0]) ++ [NReturn 1 0; NLocal 1 (WAnswer 0); NAnnounce 1 0 false] ++ here 1 [LBroadcast 0; LStatus 0 none_lost] ++
  [NDeliver 0 10 false] ++ here 1 ([LSend 1; LNew none_lost] ++ attempt_at 0 1) ++ [NLocal 1 (WAnswer 1); NAnnounce 1 0 false] ++ here 1 [LBroadcast 0; LStatus 1 none_lost; LRet 1] ++ [NReturn 1 1] ++
  [NDeliver 0 10 false; NDeliver 0 10 false] ++ here 2 [LSend 0; LNew none_lost].
Definition over_or_held (x : net) (n : nat) : bool :=
  forallb (fun v => match va_phase v with
    | VOver _ _ => true
    | VWait c => match s_calls (w_s (world_of (nt_node x n))) !! c with Some (Call _ (CRet _) _) => false | _ => true end end) (rl_vals (pn_relay (nt_node x n))).
Lemma node_quiet x n : s_cancelled (w_s (world_of (nt_node x n))) = false -> s_panic (w_s (world_of (nt_node x n))) = false -> s_hang (w_s (world_of (nt_node x n))) = false ->
  rest_b (world_of (nt_node x n)) = true -> over_or_held x n = true ->
  running (w_s (world_of (nt_node x n))) /\ wrest (world_of (nt_node x n)) /\ forall i, gstep decode2 id_of2 (su_name (su3 n)) (su_judge (su3 n)) (su_opts (su3 n)) (pn_relay (nt_node x n)) (GBack i) = None.
Proof.
  unfold over_or_held. intros H1 H2 H3 H4 H5. split; [by split_and!|]. split; [by apply rest_check|]. intros i. destruct (pn_relay (nt_node x n)) as [vs w]. cbn [gstep rl_vals rl_world] in *.
  destruct (vs !! i) as [[m l ph]|] eqn:Ei; [|done]. rewrite forallb_forall in H5. specialize (H5 _ ltac:(apply elem_of_list_In; by eapply elem_of_list_lookup_2)). cbn in H5.
  destruct ph as [c|]; [|done]. destruct (s_calls (w_s w) !! c) as [[k p bf]|]; [|done]. by destruct p.
Qed.
Lemma quiet_check x : nt_air x = [] -> (forall q, 3 <= q -> nt_node x q = nt_node (net_init su3) q) ->
  forallb (fun n => let w := world_of (nt_node x n) in negb (s_cancelled (w_s w)) && negb (s_panic (w_s w)) && negb (s_hang (w_s w)) && rest_b w && over_or_held x n) [0; 1; 2] = true -> quiet decode2 id_of2 su3 x.
Proof.
  intros Ha Hq Hf. split; [done|]. intros n. cbv zeta. destruct (le_lt_dec 3 n) as [Hn|Hn].
  - assert (E : nt_node x n = nt_node (net_init su3) n) by (by apply Hq). apply node_quiet; rewrite ?E; try reflexivity. unfold over_or_held. rewrite E. reflexivity.
  - rewrite forallb_forall in Hf. specialize (Hf n). cbv zeta in Hf. assert (Hin : In n [0; 1; 2]) by (cbn; lia).
    specialize (Hf Hin). apply andb_true_iff in Hf as [[[[H1 H2]%andb_true_iff H3]%andb_true_iff H4]%andb_true_iff H5].
    apply negb_true_iff in H1, H2, H3. by apply node_quiet.
Qed.
Definition quiet_obs (x : net) : bool := forallb (fun n => let w := world_of (nt_node x n) in negb (s_cancelled (w_s w)) && negb (s_panic (w_s w)) && negb (s_hang (w_s w)) && rest_b w && over_or_held x n) [0; 1; 2].
(** Times: at most ten seconds have passed in each node. *)
Lemma young_check x : (forall q, 3 <= q -> nt_node x q = nt_node (net_init su3) q) -> forallb (fun n => bool_decide (s_now (w_s (world_of (nt_node x n))) <= five + 10 * second)%Z) [0; 1; 2] = true ->
  forall n k, k ∈ two -> all_young n k -> recent (su_opts (su3 n)) (s_now (w_s (world_of (nt_node x n)))) k.
Proof.
  intros Hq Hf n k Hk _. assert (Hnow : (s_now (w_s (world_of (nt_node x n))) <= five + 10 * second)%Z).
  { destruct (le_lt_dec 3 n) as [Hn|Hn]; [rewrite (Hq n Hn); vm_compute; discriminate|]. rewrite forallb_forall in Hf. specialize (Hf n ltac:(cbn; lia)). by apply bool_decide_eq_true in Hf. }
  clear Hf Hq. generalize dependent (s_now (w_s (world_of (nt_node x n)))). intros t Ht. unfold five, second in Ht.
  assert (Ei : timestamp_instant k = 5000000000%Z /\ (k_time k < 2 ^ 63)%N).
  { unfold two in Hk. rewrite !elem_of_cons, elem_of_nil in Hk. destruct Hk as [->|[->|[]]]; split; vm_compute; reflexivity. }
  destruct Ei as [Ei Et]. unfold recent. rewrite Ei. cbn. split_and!; [done|vm_compute; reflexivity| |]; unfold minute, second, max_i64; lia.
Qed.

(** Blocks 11 and 12 come up at the first node of a line of three.  They travel in the wrong order, and all three nodes have them in the end,
    although the first and the third are not linked.  Then pubsub has forgotten block 11 in the first and in the third node, and a stranger
    sends the message once more: the first node accepts it as its own, the third one asks its chain again.  A stranger's junk is refused. *)
Example C109_nonvacuous : exists x, let area := fun n => n < 3 in
  common encode2 decode2 su3 "10" 10 two /\
  nruns encode2 decode2 id_of2 su3 line (well3 false) (net_init su3) whole_line x /\ quiet decode2 id_of2 su3 x /\
  (forall n k, k ∈ two -> all_young n k -> recent (su_opts (su3 n)) (s_now (w_s (world_of (nt_node x n)))) k) /\
  (forall q, area q -> "10"%string ∈ w_chain (world_of (nt_node x q))) /\
  (forall k q, k ∈ two -> area q -> exists src, k_id k ∈ w_chain (world_of (nt_node x src)) /\ k_id k ∉ su_root (su3 src) /\ rtc (within line area) src q) /\
  (forall k, k ∈ two -> k_id k ∉ su_root (su3 2)) /\ 0 ∉ line 2 /\
  map (fun v => match va_phase v with VOver _ r => Some (m_data (va_msg v), v_ok r, v_reported r) | _ => None end) (rl_vals (pn_relay (nt_node x 2))) =
    [Some ("twelve", true, []); Some ("eleven", true, []); Some ("eleven", true, []); Some ("junk", false, [("eve", EWrap (ESent ErrDeserialization))])]%string.
Proof.
  destruct (nfinal_run false (fun x => (bool_decide (nt_air x = []), quiet_obs x, forallb (fun n => bool_decide (s_now (w_s (world_of (nt_node x n))) <= five + 10 * second)%Z) [0; 1; 2],
      map (fun n => map (fun i => bool_decide (i ∈ w_chain (world_of (nt_node x n)))) ["10"; "11"; "12"]%string) [0; 1; 2],
      map (fun v => match va_phase v with VOver _ r => Some (m_data (va_msg v), v_ok r, v_reported r) | _ => None end) (rl_vals (pn_relay (nt_node x 2))))) whole_line
    (true, true, true, [[true; true; true]; [true; true; true]; [true; true; true]], [Some ("twelve", true, []); Some ("eleven", true, []); Some ("eleven", true, []); Some ("junk", false, [("eve", EWrap (ESent ErrDeserialization))])]%string))
    as (x & Hx & E); [vm_compute; reflexivity|].
  apply nrun_runs in Hx as [Hx Hq]. exists x. cbv zeta. set (A := bool_decide (nt_air x = [])) in E. set (B := quiet_obs x) in E. set (T := forallb _ [0; 1; 2]) in E. set (V := map _ (rl_vals _)) in E.
  injection E as EA EB ET C1 C2 C3 C4 C5 C6 C7 C8 C9 EV. apply bool_decide_eq_true in EA, C1, C2, C3, C4, C5, C6, C7, C8, C9.
  split; [exact common3|]. split; [done|]. clear Hx. split; [by apply quiet_check|]. split; [by apply young_check|]. split.
  { intros q Hl. destruct q as [|[|[|q]]]; try done. lia. }
  split.
  { intros k q Hk Hl. exists 0. split; [|split].
    - unfold two in Hk. rewrite !elem_of_cons, elem_of_nil in Hk. destruct Hk as [->|[->|[]]]; done.
    - unfold two in Hk. rewrite !elem_of_cons, elem_of_nil in Hk. destruct Hk as [->|[->|[]]]; apply (bool_decide_eq_false_1 _); vm_compute; reflexivity.
    - assert (H01 : within line (fun n => n < 3) 0 1) by (split_and!; [lia|lia|cbn; left]). assert (H12 : within line (fun n => n < 3) 1 2) by (split_and!; [lia|lia|cbn; right; left]).
      destruct q as [|[|[|q]]]; [done|by apply rtc_once|eapply rtc_l; [exact H01|by apply rtc_once]|lia]. }
  split; [|split; [cbn; by rewrite elem_of_list_singleton|done]].
  intros k Hk. unfold two in Hk. rewrite !elem_of_cons, elem_of_nil in Hk. destruct Hk as [->|[->|[]]]; apply (bool_decide_eq_false_1 _); vm_compute; reflexivity.
Qed.

(** C109 as stated is refuted.  The second node's chain takes longer than the validator's deadline with block 11.  The message is not
    sent on, and the node charges the first node for it.  When the chain has accepted the block and announces it, the node's own
    publication has the id of a message it has seen and is dropped.  All is quiet, and the third node never gets block 11; block 12,
    which it gets, waits there for its parent. *)
Theorem C109_late_block_refuted : exists x,
  common encode2 decode2 su3 "10" 10 two /\
  nruns encode2 decode2 id_of2 su3 line (well3 true) (net_init su3) late_line x /\ quiet decode2 id_of2 su3 x /\
  (forall n k, k ∈ two -> all_young n k -> recent (su_opts (su3 n)) (s_now (w_s (world_of (nt_node x n)))) k) /\
  (forall q, q < 3 -> "10"%string ∈ w_chain (world_of (nt_node x q))) /\
  (forall k q, k ∈ two -> q < 2 -> k_id k ∈ w_chain (world_of (nt_node x q)) /\ k_id k ∉ su_root (su3 q)) /\ 2 ∈ line 1 /\
  (forall k, k ∈ two -> k_id k ∉ w_chain (world_of (nt_node x 2))) /\
  map (fun v => match va_phase v with VOver _ r => Some (m_data (va_msg v), v_ok r, v_reported r) | _ => None end) (rl_vals (pn_relay (nt_node x 1))) =
    [Some ("eleven", false, [(su_name (su3 0), EWrap (ESent ErrBlockApplication))]); Some ("twelve", true, [])]%string.
Proof.
  destruct (nfinal_run true (fun x => (bool_decide (nt_air x = []), quiet_obs x, forallb (fun n => bool_decide (s_now (w_s (world_of (nt_node x n))) <= five + 10 * second)%Z) [0; 1; 2],
      map (fun n => map (fun i => bool_decide (i ∈ w_chain (world_of (nt_node x n)))) ["10"; "11"; "12"]%string) [0; 1; 2],
      map (fun v => match va_phase v with VOver _ r => Some (m_data (va_msg v), v_ok r, v_reported r) | _ => None end) (rl_vals (pn_relay (nt_node x 1))))) late_line
    (true, true, true, [[true; true; true]; [true; true; true]; [true; false; false]], [Some ("eleven", false, [(su_name (su3 0), EWrap (ESent ErrBlockApplication))]); Some ("twelve", true, [])]%string))
    as (x & Hx & E); [vm_compute; reflexivity|].
  apply nrun_runs in Hx as [Hx Hq]. exists x. set (A := bool_decide (nt_air x = [])) in E. set (B := quiet_obs x) in E. set (T := forallb _ [0; 1; 2]) in E. set (V := map _ (rl_vals _)) in E.
  injection E as EA EB ET C1 C2 C3 C4 C5 C6 C7 C8 C9 EV. apply bool_decide_eq_true in EA, C1, C2, C3, C4, C5, C6, C7. apply bool_decide_eq_false in C8, C9.
  split; [exact common3|]. split; [done|]. clear Hx. split; [by apply quiet_check|]. split; [by apply young_check|]. split.
  { intros q Hl. destruct q as [|[|[|q]]]; try done. lia. }
  split.
  { intros k q Hk Hl. unfold two in Hk. rewrite !elem_of_cons, elem_of_nil in Hk. destruct Hk as [->|[->|[]]]; (split; [destruct q as [|[|q]]; [done|done|lia]|apply (bool_decide_eq_false_1 _); vm_compute; reflexivity]). }
  split; [cbn; right; left|]. split; [|done].
  intros k Hk. unfold two in Hk. rewrite !elem_of_cons, elem_of_nil in Hk. destruct Hk as [->|[->|[]]]; done.
Qed.
Print Assumptions C109_late_block_refuted.
