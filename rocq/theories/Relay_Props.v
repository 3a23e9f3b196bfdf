(** Property theorems: C108, gossip of blocks on top of the applicator and a chain service that works. *)
From stdpp Require Import pretty.
From Verif Require Import GoBase Util Gossip_Model Gossip_Spec TxCache_Model TxCache_Spec TxCache_Proofs Watchdog_Model
  Applicator_Model Applicator_Spec Applicator_Core Applicator_Sys Applicator_Inv Applicator_Inv2 Applicator_Inv3 Applicator_Inv4
  Applicator_Inv5 Applicator_Inv6 Applicator_Inv7 Applicator_Props Applicator_Props2 Deliver_Spec Deliver_Proofs Deliver_Props Rest_Spec Rest_Proofs
  Honest_Spec Honest_Proofs Honest_Proofs2 Honest_Props Round_Spec Round_Proofs Round_Props Relay_Spec Relay_Proofs.

Lemma decide_recent o now k : recent o now k \/ ~ recent o now k.
Proof. unfold recent. destruct (decide ((k_time k < 2 ^ 63)%N /\ (min_i64 < ao_force_threshold o)%Z /\ (now - timestamp_instant k < ao_force_threshold o)%Z /\ (now - timestamp_instant k <= max_i64)%Z)); [by left|by right]. Qed.
Lemma gruns_mono decode_block id_of_key me judge o (P Q : world -> wlabel -> Prop) sched : (forall w l, P w l -> Q w l) -> forall g g',
  gruns decode_block id_of_key me judge o P g sched g' -> gruns decode_block id_of_key me judge o Q g sched g'.
Proof. intros Hq. induction sched as [|lab r IH]; intros g g'; cbn; [done|]. intros (H1 & g1 & H2 & H3). split; [intros l Hl; by apply Hq, H1|]. exists g1. split; [done|by apply IH]. Qed.
Section theorems.
Context (decode_block : string -> option block) (id_of_key : string -> outcome string) (me : string).
Context (judge : blk -> option goerr) (o : ap_opts) (root : gset string) (head lib : N) (dur now : Z) (parent : string) (h : N) (ks : list blk).
Notation carries := (carries decode_block me).
Notation gruns := (gruns decode_block id_of_key me judge o).
Notation gstep := (gstep decode_block id_of_key me judge o).
Notation start := (Relay [] (world_init root head lib dur now)).

Lemma relay_inv sched g : good_dur dur -> valid_blocks judge o root head lib ks -> gruns (open o head parent h ks) start sched g ->
  GI decode_block id_of_key me g /\ Fair o head lib dur now (rl_world g) /\ Calm o root head lib dur now parent h ks (rl_world g) /\
  exists ws, wreaches judge o root head lib dur now ws (rl_world g) /\ along judge o (welcome o head parent h ks) (world_init root head lib dur now) ws.
Proof.
  intros Hd [V1 V2 V3 V4] Hr.
  destruct (GI_run decode_block id_of_key me judge o head lib dur now Hd (open o head parent h ks) sched) with (g := start) (g' := g) as [HG HF]; try done.
  { intros w l (? & ? & _). done. }
  { by apply Fair_init. }
  { unfold GI. cbn. by apply Forall_nil. }
  destruct (gruns_world decode_block id_of_key me judge o _ _ _ _ Hr) as (ws & Hw & Ha). cbn [rl_world] in Hw, Ha.
  assert (Hu : Forall wu64 ws) by (eapply (along_Forall judge o _ (open o head parent h ks)); [|exact Hw|exact Ha]; by intros w l (? & _)).
  assert (Hc : Forall wcomplete ws) by (eapply (along_Forall judge o _ (open o head parent h ks)); [|exact Hw|exact Ha]; by intros w l (_ & ? & _)).
  assert (Hwel : along judge o (welcome o head parent h ks) (world_init root head lib dur now) ws) by (eapply (along_mono judge o (open o head parent h ks)); [|exact Ha]; by intros w l (_ & _ & ?)).
  split_and!; [done|done| |exists ws; split; [done|done]].
  assert (HF0 : Fair o head lib dur now (world_init root head lib dur now)) by (by apply Fair_init).
  eapply (Calm_run judge o root head lib dur now parent h ks); try done.
  all: try (intros k Hk; by apply V4). apply Calm_init; [|done]. intros k Hk. by apply V4.
Qed.

(** A message with a valid block is accepted without a charge, and the chain has the block then; or it is dropped without a
    charge, for a height below the last irreversible block that the validator saw; or its sender is charged with a block
    application error, and then the call of ApplyBlock was refused by the fork watchdog, or ran into its deadline, or the block
    was at or below the last irreversible block. *)
Theorem C108_relayed : forall sched g k v call r,
  good_dur dur -> valid_blocks judge o root head lib ks -> gruns (open o head parent h ks) start sched g ->
  k ∈ ks -> v ∈ rl_vals g -> carries (va_msg v) k -> va_phase v = VOver call r ->
  (v_ok r = true /\ v_reported r = [] /\ k_id k ∈ w_chain (rl_world g)) \/
  (v_ok r = false /\ v_reported r = [] /\ (k_height k < va_lib v)%N) \/
  (v_ok r = false /\ v_reported r = [(m_received (va_msg v), EWrap (ESent ErrBlockApplication))] /\ (va_lib v <= k_height k)%N /\
    exists e, OReturn call (k_src k) (Some e) ∈ s_log (w_s (rl_world g)) /\
      (call = None \/ e = ESent ErrBlockApplicationTimeout \/ (e = ESent ErrBlockIrreversibility /\ irreversible lib (s_log (w_s (rl_world g))) (k_height k)))).
Proof.
  intros sched g k v call r Hd HV Hr Hk Hv Hcar Hph. destruct (relay_inv sched g Hd HV Hr) as (HG & HF & HC & _).
  pose proof (proj1 (Forall_forall _ _) HG v Hv) as Hok. unfold val_ok in Hok. rewrite Hph in Hok.
  destruct HV as [V1 V2 V3 V4]. destruct (V4 k Hk) as (_ & Hhd & _).
  assert (Eh : block_height (k_src k) = k_height k) by (unfold block_height; by rewrite Hhd).
  destruct (carried _ id_of_key _ _ _ Hcar (va_lib v)) as [(Hlt & Ho & Hval)|(Hle & Ho & Hval & Herr)]; rewrite Eh in *.
  - right. left. assert (r = ValResult false [] []) as ->; [|done].
    destruct call as [c|]; [destruct Hok as (b & res & Hb & _)|destruct Hok as [(_ & Hb)|(b & e & Hb & _)]]; try congruence. rewrite Hval in Hb. congruence.
  - destruct call as [c|].
    + destruct Hok as (b & res & Hb & Hin & Hres). assert (b = k_src k) as -> by congruence.
      destruct (fa_reach _ _ _ _ _ _ HF) as (sc & Hre & _). pose proof (reaches_inv _ _ _ _ _ _ _ Hre) as HI.
      destruct (j_ret _ _ (v_just _ _ _ _ HI) _ _ _ Hin) as (cl & Hcl & Hp & Ek).
      assert (Ekk : cl_blk cl = k).
      { pose proof (reach_hdrs _ _ _ _ _ _ _ (cl_blk cl) Hre ltac:(by exists c, cl)) as Hx. rewrite <- Ek, Hhd in Hx. destruct (cl_blk cl), k. cbn in *. congruence. }
      destruct (reach_ret _ _ _ _ _ _ _ Hre c cl res Hcl Hp) as [Hbuf| ->].
      * destruct (calm_returned judge o root head lib dur now parent h ks (rl_world g) c cl k res HF HC Hk Hcl Ekk) as [(-> & Hap)|(-> & Hirr)]; [intros r' Hr'; congruence|done| |].
        -- left. rewrite Hval in Hres. injection Hres as <-. split_and!; [done|done|]. by apply (cm_applied _ _ _ _ _ _ _ _ _ _ HC).
        -- right. right. unfold irr in *. rewrite Herr in Hres. injection Hres as <-. split_and!; [done|done|done|]. eexists. split; [exact Hin|]. right. right. done.
      * right. right. unfold timed_out in *. rewrite Herr in Hres. injection Hres as <-. split_and!; [done|done|done|]. eexists. split; [exact Hin|]. right. by left.
    + destruct Hok as [(Hb & _)|(b & e & Hb & Hin & Hres)]; [congruence|]. assert (b = k_src k) as -> by congruence. rewrite Herr in Hres. injection Hres as <-.
      right. right. split_and!; [done|done|done|]. exists e. split; [done|by left].
Qed.

(** When nothing is left to do, all the blocks are in the chain if each was handed over by a gossip message or by others, whatever
    the order; and every message with one of them has been dealt with. *)
Theorem C108_spread : forall sched g,
  good_dur dur -> valid_blocks judge o root head lib ks ->
  gruns (fun w l => open o head parent h ks w l /\ forall k, k ∈ ks -> ~ recent o (s_now (w_s (rl_world g))) k -> after_parent root k w l) start sched g ->
  running (w_s (rl_world g)) -> wrest (rl_world g) -> (forall i, gstep g (GBack i) = None) ->
  successors parent h ks -> parent ∈ w_chain (rl_world g) -> (parent ∈ root -> (h <= head)%N) -> (forall k, k ∈ ks -> k_id k ∈ root -> (k_height k <= head)%N) ->
  (forall k, k ∈ ks -> passed (w_s (rl_world g)) k \/ exists v, v ∈ rl_vals g /\ carries (va_msg v) k /\ taken v) ->
  forall k, k ∈ ks -> k_id k ∈ w_chain (rl_world g) /\ forall v, v ∈ rl_vals g -> carries (va_msg v) k -> exists call r, va_phase v = VOver call r.
Proof.
  intros sched g Hd HV Hr Hrun Hrest Hback Hsucc Hpar Hh Hroot Hgiven k Hk.
  assert (Hr1 : gruns (open o head parent h ks) start sched g) by (eapply gruns_mono; [|exact Hr]; by intros w l [? _]).
  destruct (relay_inv sched g Hd HV Hr1) as (HG & HF & HC & _).
  destruct (gruns_world decode_block id_of_key me judge o _ _ _ _ Hr) as (ws & Hw & Ha). cbn [rl_world] in Hw, Ha.
  assert (Hu : Forall wu64 ws) by (eapply (along_Forall judge o); [|exact Hw|exact Ha]; by intros w l [(? & _) _]).
  assert (Hc : Forall wcomplete ws) by (eapply (along_Forall judge o); [|exact Hw|exact Ha]; by intros w l [(_ & ? & _) _]).
  assert (Hwel : along judge o (welcome o head parent h ks) (world_init root head lib dur now) ws) by (eapply (along_mono judge o); [|exact Ha]; by intros w l [(_ & _ & ?) _]).
  destruct HV as [V1 V2 V3 V4].
  assert (Hwhole : forall v k', v ∈ rl_vals g -> k' ∈ ks -> carries (va_msg v) k' -> forall c, (va_phase v = VWait c \/ exists r, va_phase v = VOver (Some c) r) -> exists cl, s_calls (w_s (rl_world g)) !! c = Some cl /\ cl_blk cl = k').
  { intros v k' Hv Hk' Hcar c Hph. pose proof (proj1 (Forall_forall _ _) HG v Hv) as Hok. unfold val_ok in Hok. destruct (fa_reach _ _ _ _ _ _ HF) as (sc & Hre & _). pose proof (reaches_inv _ _ _ _ _ _ _ Hre) as HI.
    assert (Hcl : exists cl, s_calls (w_s (rl_world g)) !! c = Some cl /\ k_src (cl_blk cl) = k_src k').
    { destruct Hph as [Hph|(r & Hph)]; rewrite Hph in Hok.
      - destruct Hok as (cl & Hcl & Ho). exists cl. split; [done|]. apply offered_some in Ho as (Ho & _). destruct Hcar as (Hd' & _). congruence.
      - destruct Hok as (b & res & Ho & Hin & _). destruct (j_ret _ _ (v_just _ _ _ _ HI) _ _ _ Hin) as (cl & Hcl & _ & Eb). exists cl. split; [done|]. apply offered_some in Ho as (Ho & _). destruct Hcar as (Hd' & _). congruence. }
    destruct Hcl as (cl & Hcl & Es). exists cl. split; [done|]. pose proof (reach_hdrs _ _ _ _ _ _ _ (cl_blk cl) Hre ltac:(by exists c, cl)) as Hx. destruct (V4 k' Hk') as (_ & Hy & _).
    rewrite Es, Hy in Hx. destruct (cl_blk cl), k'. cbn in *. congruence. }
  assert (Hpassed : forall k', k' ∈ ks -> passed (w_s (rl_world g)) k').
  { intros k' Hk'. destruct (Hgiven k' Hk') as [?|(v & Hv & Hcar & c & Ht)]; [done|]. destruct (Hwhole v k' Hv Hk' Hcar c Ht) as (cl & ? & ?). by exists c, cl. }
  destruct (C99_chain_delivered_partial judge o root head lib dur now ws (rl_world g) parent h ks Hd) with (k := k) as (D1 & D2 & D3); try done.
  { intros k' Hk'. destruct (V4 k' Hk') as (? & ? & ?). split_and!; auto. destruct (decide_recent o (s_now (w_s (rl_world g))) k') as [?|Hn]; [by left|right]. eapply (along_mono judge o); [|exact Ha]. intros w l [_ Hx]. by apply Hx. }
  split; [done|]. intros v Hv Hcar. destruct (va_phase v) as [c|call r] eqn:Hph; [|by exists call, r]. exfalso.
  destruct (Hwhole v k Hv Hk Hcar c) as (cl & Hcl & Eb); [by left|].
  apply elem_of_list_lookup_1 in Hv as (i & Hi). specialize (Hback i). destruct g as [vs w]. cbn [Relay_Spec.gstep rl_vals rl_world] in *. destruct v as [m l ph]. cbn in Hph. subst ph. rewrite Hi, Hcl in Hback.
  assert (Hret : exists res, cl_phase cl = CRet res) by (destruct (D3 c cl Hcl Eb) as [?|[?|[? _]]]; eauto). destruct Hret as (res & Hret). rewrite Hret in Hback.
  unfold ended in Hback. destruct (validate_block _ _ _ l (fun _ => res) m) as [vr|] eqn:Ev; [done|].
  destruct (carried _ id_of_key _ _ _ Hcar l) as [(_ & _ & Hx)|(_ & _ & Hx & Hy)]; cbn in Hx; [by rewrite Hx in Ev|]. destruct res as [e|]; [by rewrite Hy in Ev|by rewrite Hx in Ev].
Qed.
End theorems.
Print Assumptions C108_relayed.
Print Assumptions C108_spread.

(** ** A concrete run *)
Definition two : list blk := [nth_block 11; nth_block 12].
Definition decode2 (s : string) : option block := if bool_decide (s = "eleven"%string) then Some (k_src (nth_block 11)) else if bool_decide (s = "twelve"%string) then Some (k_src (nth_block 12)) else None.
Definition id_of2 (s : string) : outcome string := Done s.
Definition from (who data : string) : message := Message data "producer" who "".
Definition open_b (w : world) (lab : wlabel) : bool := wu64_b lab && wcomplete_b lab && welcome_b roomy 10 "10" 10 two w lab.
Fixpoint grun (g : relay) (sched : list glabel) : option relay :=
  match sched with
  | [] => Some g
  | lab :: r =>
    if match world_label decode2 id_of2 "me" lab with Some l => open_b (rl_world g) l | None => true end
    then match gstep decode2 id_of2 "me" has_bad roomy g lab with Some g1 => grun g1 r | None => None end else None
  end.
Lemma grun_runs sched : forall g g', grun g sched = Some g' -> gruns decode2 id_of2 "me" has_bad roomy (open roomy 10 "10" 10 two) g sched g'.
Proof.
  induction sched as [|lab r IH]; intros g g'; cbn [grun gruns]; [intros [= <-]; done|].
  destruct (world_label decode2 id_of2 "me" lab) as [l|] eqn:El.
  - destruct (open_b (rl_world g) l) eqn:Eo; [|done]. destruct (gstep _ _ _ _ _ g lab) as [g1|]; [|done]. intros H. split; [|exists g1; split; [done|by apply IH]].
    intros l' [= <-]. unfold open_b in Eo. apply andb_true_iff in Eo as [[H1 H2]%andb_true_iff H3]. split_and!; [by apply wu64_one|by apply wcomplete_one|by apply welcome_check].
  - destruct (gstep _ _ _ _ _ g lab) as [g1|]; [|done]. intros H. split; [done|exists g1; split; [done|by apply IH]].
Qed.
Definition gapps (l : list label) : list glabel := map (fun x => GWorld (WApp x)) l.
Definition gossip_run : list glabel :=
  [GMsg (from "ann" "twelve") 10] ++ gapps [LSend 0; LNew none_lost] ++
  [GMsg (from "bob" "eleven") 10; GMsg (from "cat" "junk") 10] ++ gapps ([LSend 1; LNew none_lost] ++ attempt_at 0 0) ++
  [GWorld (WAnswer 0); GWorld (WAnnounce 0)] ++ gapps [LBroadcast 0; LStatus 0 none_lost; LRet 1] ++ [GBack 1].
Definition gfinal {A} (f : relay -> A) g sched := match grun g sched with Some g' => Some (f g') | None => None end.
Definition verdicts (g : relay) := map (fun v => (m_received (va_msg v), match va_phase v with VWait c => None | VOver _ r => Some (v_ok r, v_reported r) end)) (rl_vals g).
Definition gossip_more : list glabel :=
  gapps (attempt_at 0 1 ++ [LTry 0]) ++ [GWorld (WAnswer 1); GWorld (WAnnounce 0)] ++ gapps [LBroadcast 0; LStatus 1 none_lost; LRet 0] ++ [GBack 0] ++
  gapps ([LTick 50000000] ++ attempt_at 0 2) ++ [GWorld (WAnswer 2); GWorld (WApp (LStatus 2 none_lost))] ++
  gapps [LAnnounce (ForkHeads (Some 11%N) ["12"%string]); LForkHeads 0 none_lost] ++
  [GMsg (from "dan" "eleven") 11] ++ gapps [LSend 2; LNew none_lost; LRet 2] ++ [GBack 3; GMsg (from "eve" "eleven") 12].
Lemma gfinal_run {A} (f : relay -> A) g sched a : gfinal f g sched = Some a -> exists g', grun g sched = Some g' /\ f g' = a.
Proof. unfold gfinal. destruct (grun g sched) as [g'|]; [|done]. intros [= <-]. eauto. Qed.
Definition taken_b (k : blk) (v : validation) : bool :=
  bool_decide (decode2 (m_data (va_msg v)) = Some (k_src k)) && bool_decide (m_from (va_msg v) <> "me"%string) && match va_phase v with VWait _ | VOver (Some _) _ => true | _ => false end.
Lemma taken_check k v : k ∈ two -> taken_b k v = true -> carries decode2 "me" (va_msg v) k /\ taken v.
Proof.
  intros Hk H. unfold taken_b in H. apply andb_true_iff in H as [[H1 H2]%andb_true_iff H3]. apply bool_decide_eq_true in H1, H2.
  split; [split_and!; [done|done|]|destruct v as [m l [c|[c|] r]]; try done; exists c; [by left|right; by exists r]].
  unfold two in Hk. rewrite !elem_of_cons, elem_of_nil in Hk. destruct Hk as [->|[->|[]]]; (split; [done|]; by eexists).
Qed.
(** Block 12 arrives before block 11, from different peers, and a message that is no block in between; both blocks are accepted.
    Then irreversibility reaches block 11.  A peer that relays block 11 now is charged if the validator sees that height as the last
    irreversible block, and not if it sees a greater one. *)
Example C108_nonvacuous : exists g, let s := gossip_run ++ gossip_more in
  good_dur five_min /\ valid_blocks has_bad roomy (list_to_set ["10"%string]) 10 10 two /\
  gruns decode2 id_of2 "me" has_bad roomy (fun w l => open roomy 10 "10" 10 two w l /\ forall k, k ∈ two -> ~ recent roomy (s_now (w_s (rl_world g))) k -> after_parent (list_to_set ["10"%string]) k w l)
    (Relay [] ten) s g /\
  running (w_s (rl_world g)) /\ wrest (rl_world g) /\ (forall i, gstep decode2 id_of2 "me" has_bad roomy g (GBack i) = None) /\
  successors "10" 10 two /\ "10"%string ∈ w_chain (rl_world g) /\ (forall k, k ∈ two -> k_id k ∉ w_chain ten) /\
  (forall k, k ∈ two -> exists v, v ∈ rl_vals g /\ carries decode2 "me" (va_msg v) k /\ taken v) /\
  verdicts g = [("ann", Some (true, [])); ("bob", Some (true, [])); ("cat", Some (false, [("cat", EWrap (ESent ErrDeserialization))]));
    ("dan", Some (false, [("dan", EWrap (ESent ErrBlockApplication))])); ("eve", Some (false, []))]%string.
Proof.
  destruct (gfinal_run (fun g => (verdicts g, rest_b (rl_world g), (s_cancelled (w_s (rl_world g)), s_panic (w_s (rl_world g)), s_hang (w_s (rl_world g))), s_now (w_s (rl_world g)), elements (w_chain (rl_world g)),
      forallb (fun v => match va_phase v with VOver _ _ => true | _ => false end) (rl_vals g), forallb (fun k => existsb (taken_b k) (rl_vals g)) two)) (Relay [] ten) (gossip_run ++ gossip_more)
    ([("ann", Some (true, [])); ("bob", Some (true, [])); ("cat", Some (false, [("cat", EWrap (ESent ErrDeserialization))]));
      ("dan", Some (false, [("dan", EWrap (ESent ErrBlockApplication))])); ("eve", Some (false, []))]%string, true, (false, false, false), later, ["10"; "12"; "11"]%string, true, true)) as (g & Hg & E); [vm_compute; reflexivity|].
  apply grun_runs in Hg. injection E as E1 E2 E3 E4 E5 E6 E7 E8 E9. exists g. cbv zeta.
  assert (Hrec : forall k, k ∈ two -> recent roomy later k).
  { intros k Hk. unfold two in Hk. rewrite !elem_of_cons, elem_of_nil in Hk. destruct Hk as [->|[->|[]]]; (repeat split; vm_compute; try reflexivity; discriminate). }
  split; [split; vm_compute; [discriminate|reflexivity]|]. split.
  { split; [reflexivity|reflexivity|reflexivity|]. intros k Hk. unfold two in Hk. rewrite !elem_of_cons, elem_of_nil in Hk.
    destruct Hk as [->|[->|[]]]; (split; [vm_compute; reflexivity|]; split; [reflexivity|]; intros Hx; vm_compute in Hx; by destruct Hx). }
  split. { eapply gruns_mono; [|exact Hg]. intros w l Ho. split; [done|]. intros k Hk Hn. destruct Hn. rewrite E6. by apply Hrec. }
  clear Hg. split; [by split_and!|]. split; [by apply rest_check|]. split.
  { intros i. destruct g as [vs w]. cbn [Relay_Spec.gstep rl_vals] in *. destruct (vs !! i) as [[m l ph]|] eqn:Ei; [|done]. rewrite forallb_forall in E8.
    specialize (E8 _ ltac:(apply elem_of_list_In; by eapply elem_of_list_lookup_2)). by destruct ph. }
  split; [split_and!; [reflexivity|reflexivity|split_and!; [vm_compute; reflexivity|reflexivity|exact I]]|].
  split; [rewrite <- elem_of_elements, E7; by left|]. split.
  { intros k Hk. unfold two in Hk. rewrite !elem_of_cons, elem_of_nil in Hk. destruct Hk as [->|[->|[]]]; apply (bool_decide_eq_false_1 _); vm_compute; reflexivity. }
  split; [|done]. intros k Hk. change (forallb (fun k => existsb (taken_b k) (rl_vals g)) two = true) in E9. rewrite forallb_forall in E9. specialize (E9 k ltac:(by apply elem_of_list_In)). apply existsb_exists in E9 as (v & Hv & Ht). exists v. split; [by apply elem_of_list_In|by apply taken_check].
Qed.
