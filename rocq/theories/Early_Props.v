(** Property theorems: C118, blocks that come in by gossip ahead of their time. *)
From stdpp Require Import pretty.
From Verif Require Import GoBase Util Gossip_Model Gossip_Spec TxCache_Model TxCache_Spec TxCache_Proofs Watchdog_Model
  Applicator_Model Applicator_Spec Applicator_Core Applicator_Sys Applicator_Inv Applicator_Inv2 Applicator_Inv3 Applicator_Inv4
  Applicator_Inv5 Applicator_Inv6 Applicator_Inv7 Applicator_Props Applicator_Props2 Deliver_Spec Deliver_Proofs Deliver_Props Rest_Spec Rest_Proofs
  Honest_Spec Honest_Proofs Honest_Proofs2 Honest_Props Round_Spec Round_Proofs Round_Props Relay_Spec Relay_Proofs Relay_Props Early_Spec Early_Proofs.

Section theorems.
Context (decode_block : string -> option block) (id_of_key : string -> outcome string) (me : string).
Context (judge : blk -> option goerr) (o : ap_opts) (root : gset string) (head lib : N) (dur now : Z).
Notation carries := (carries decode_block me).
Notation truns := (truns decode_block id_of_key me judge o).
Notation start := (Timed (Relay [] (world_init root head lib dur now)) []).

(** Whatever the chain says of the block and whatever else goes on: a message whose block is further ahead of
    its time than DelayThreshold plus the time that the validator has (plus up to a second, see C41) is not accepted, and its
    sender is charged with a block application error, unless the block is below the last irreversible one. *)
Theorem C118_early_is_charged : forall T t1 sched x k i v a,
  good_dur dur -> (lib < two64)%N -> (0 <= ao_delay_threshold o)%Z -> (0 <= T)%Z -> b_header (k_src k) = Some (k_hdr k) ->
  truns (fun w l => usual now l /\ not_before k t1 w l) T start sched x ->
  rl_vals (td_relay x) !! i = Some v -> td_arrived x !! i = Some a -> carries (va_msg v) k ->
  (a + T + ao_delay_threshold o <= timestamp_instant k - second)%Z -> (a + T < t1 + ao_delay_timeout o)%Z -> (a + T < td_now x)%Z ->
  exists call r, va_phase v = VOver call r /\ v_ok r = false /\
    v_reported r = if bool_decide (k_height k < va_lib v)%N then [] else [(m_received (va_msg v), EWrap (ESent ErrBlockApplication))].
Proof.
  intros T t1 sched x k i v a Hd Hl Hth HT Hk Hr Hi Ha Hcar He Hto Hnow.
  assert (HI : TI decode_block id_of_key me o head lib dur now k t1 T x) by (eapply TI_runs; [done|done|done|done| |exact Hr]; by apply TI_init).
  destruct (va_phase v) as [c|call r] eqn:Hph. { pose proof (ti_punct _ _ _ _ _ _ _ _ _ _ _ _ HI i v c a Hi Hph Ha). lia. }
  exists call, r. split; [done|].
  destruct (ti_over _ _ _ _ _ _ _ _ _ _ _ _ HI i v a call r Hi Ha Hph) as (w & HK & Hok & Hle).
  assert (Eh : block_height (k_src k) = k_height k) by (unfold block_height; by rewrite Hk).
  assert (Hno : forall c', OReturn c' (k_src k) None ∉ s_log (w_s w)) by (intros c'; eapply no_success; [exact HK|lia|lia]).
  unfold val_ok in Hok. rewrite Hph in Hok.
  destruct (carried _ id_of_key _ _ _ Hcar (va_lib v)) as [(Hlt & Ho & Hval)|(Hge & Ho & Hval & Herr)]; rewrite Eh in *.
  - rewrite bool_decide_eq_true_2 by done. assert (r = ValResult false [] []) as ->; [|done].
    destruct call as [c|]; [destruct Hok as (b & res & Hb & _)|destruct Hok as [(_ & Hb)|(b & e & Hb & _)]]; try congruence. rewrite Hval in Hb. congruence.
  - rewrite bool_decide_eq_false_2 by lia.
    assert (Hfin : forall e, validate_block decode_block id_of_key me (va_lib v) (fun _ => Some e) (va_msg v) = Done r -> v_ok r = false /\ v_reported r = [(m_received (va_msg v), EWrap (ESent ErrBlockApplication))]).
    { intros e Hx. rewrite Herr in Hx. by injection Hx as <-. }
    destruct call as [c|].
    + destruct Hok as (b & [e|] & Hb & Hin & Hres); [by eapply Hfin|]. assert (b = k_src k) as -> by congruence. by destruct (Hno (Some c)).
    + destruct Hok as [(Hb & _)|(b & e & Hb & Hin & Hres)]; [congruence|]. by eapply Hfin.
Qed.

(** What holds: when the block is handed over only when its time is no more than DelayThreshold away, no attempt at it runs into
    the delay timeout, and its validator accepts it only when the chain has accepted it. *)
Theorem C118_in_time_partial : forall T t1 sched x k v call r,
  good_dur dur -> (lib < two64)%N -> (0 <= ao_delay_threshold o)%Z -> (0 <= T)%Z -> b_header (k_src k) = Some (k_hdr k) ->
  truns (fun w l => usual now l /\ not_before k t1 w l) T start sched x ->
  (timestamp_instant k <= t1 + ao_delay_threshold o)%Z ->
  v ∈ rl_vals (td_relay x) -> carries (va_msg v) k -> va_phase v = VOver call r -> v_ok r = true ->
  exists i t, OSubmit i k t ∈ s_log (w_s (rl_world (td_relay x))) /\ OResult i k None ∈ s_log (w_s (rl_world (td_relay x))).
Proof.
  intros T t1 sched x k v call r Hd Hl Hth HT Hk Hr Hin Hv Hcar Hph Hok.
  assert (HI : TI decode_block id_of_key me o head lib dur now k t1 T x) by (eapply TI_runs; [done|done|done|done| |exact Hr]; by apply TI_init).
  pose proof (ti_ki _ _ _ _ _ _ _ _ _ _ _ _ HI) as [K1 K2 K3 K4 K5].
  pose proof (proj1 (Forall_forall _ _) (ti_gi _ _ _ _ _ _ _ _ _ _ _ _ HI) v Hv) as Hvo. unfold val_ok in Hvo. rewrite Hph in Hvo.
  assert (Eh : block_height (k_src k) = k_height k) by (unfold block_height; by rewrite Hk).
  assert (Hret : exists c, OReturn c (k_src k) None ∈ s_log (w_s (rl_world (td_relay x)))).
  { destruct (carried _ id_of_key _ _ _ Hcar (va_lib v)) as [(Hlt & Ho & Hval)|(Hge & Ho & Hval & Herr)]; rewrite Eh in *.
    - exfalso. assert (r = ValResult false [] []) as ->; [|done].
      destruct call as [c|]; [destruct Hvo as (b & res & Hb & _)|destruct Hvo as [(_ & Hb)|(b & e & Hb & _)]]; try congruence. rewrite Hval in Hb. congruence.
    - destruct call as [c|].
      + destruct Hvo as (b & [e|] & Hb & Hx & Hres); [rewrite Herr in Hres; by injection Hres as <-|]. assert (b = k_src k) as -> by congruence. eauto.
      + destruct Hvo as [(Hb & _)|(b & e & Hb & Hx & Hres)]; [congruence|]. rewrite Herr in Hres. by injection Hres as <-. }
  destruct Hret as (c & Hret). destruct (fa_reach _ _ _ _ _ _ K1) as (sc & Hre & _). apply elem_of_list_split in Hret as (l1 & l2 & Hlog).
  destruct (C33_success_partial _ _ _ _ _ _ _ Hre _ _ _ _ Hlog) as (i & k' & Hid & [(Hres & t & Hsub)|Hx]).
  - pose proof (lt_sub _ _ _ _ K5 _ _ _ Hsub Hid) as ->. exists i, t. split; [done|]. rewrite Hlog. apply elem_of_app. right. by right.
  - exfalso. destruct (lt_log _ _ _ _ K5 i k') as [_ Hlt]; [rewrite Hlog; apply elem_of_app; right; by right|done|].
    pose proof (instant_lower (k_time k)). unfold timestamp_instant in Hin. lia.
Qed.
End theorems.
Print Assumptions C118_early_is_charged.
Print Assumptions C118_in_time_partial.

(** ** C118, REFUTED as stated *)
(** Block 11 carries the time 20 s; the node's clock is at 5 s. *)
Definition soon : blk := Blk (mk "11" 11 "10" 20000 "") (hdr 11 "10" 20000).
Definition decode_soon (s : string) : option block := if bool_decide (s = "eleven"%string) then Some (k_src soon) else None.
Definition usual_b (now : Z) (lab : wlabel) : bool :=
  wu64_b lab && wcomplete_b lab &&
  match lab with
  | WApp (LCall b) => match b_header b with Some h => bool_decide (Z.of_N (h_timestamp h) * millisecond <= now + max_i64)%Z | None => true end
  | WApp LCancel => false
  | _ => true
  end.
Lemma usual_check now lab : usual_b now lab = true -> usual now lab.
Proof.
  intros [[H1 H2]%andb_true_iff H3]%andb_true_iff. split_and!; [by apply wu64_one|by apply wcomplete_one|]. destruct lab as [l| | |]; try done.
  destruct l; try (split; done). split; [|done]. cbn in *. intros h Hh. rewrite Hh in H3. by apply bool_decide_eq_true in H3.
Qed.
Definition not_before_b (k : blk) (t1 : Z) (w : world) (lab : wlabel) : bool :=
  match lab with WApp (LCall b) => bool_decide (str (b_id b) <> k_id k) || (bool_decide (b = k_src k) && bool_decide (t1 <= s_now (w_s w))%Z) | _ => true end.
Lemma not_before_check k t1 w lab : not_before_b k t1 w lab = true -> not_before k t1 w lab.
Proof.
  destruct lab as [l| | |]; try done. destruct l; try done. cbn. intros [H|[H1 H2]%andb_true_iff]%orb_true_iff Hid; [by apply bool_decide_eq_true in H|].
  by apply bool_decide_eq_true in H1, H2.
Qed.
Definition punctual_b (T : Z) (x : timed) : bool :=
  forallb (fun p => match va_phase (fst p) with VWait _ => bool_decide (td_now x <= snd p + T)%Z | _ => true end) (zip (rl_vals (td_relay x)) (td_arrived x)).
Lemma punctual_check T x : punctual_b T x = true -> punctual T x.
Proof.
  intros H i v c a Hv Hp Ha. unfold punctual_b in H. rewrite forallb_forall in H. specialize (H (v, a)). cbn in H. rewrite Hp in H.
  apply (bool_decide_eq_true _), H, elem_of_list_In, elem_of_list_lookup. exists i. by apply lookup_zip_with_Some; eauto 10.
Qed.
Fixpoint trun (T t1 : Z) (x : timed) (sched : list glabel) : option timed :=
  match sched with
  | [] => Some x
  | lab :: r =>
    if match world_label decode_soon id_of2 "me" lab with Some l => usual_b five l && not_before_b soon t1 (rl_world (td_relay x)) l | None => true end
    then match gstep decode_soon id_of2 "me" has_bad roomy (td_relay x) lab with
         | Some g1 => let x1 := Timed g1 (td_arrived x ++ arrives x lab) in if punctual_b T x1 then trun T t1 x1 r else None
         | None => None
         end
    else None
  end.
Lemma trun_runs T t1 sched : forall x x', trun T t1 x sched = Some x' ->
  truns decode_soon id_of2 "me" has_bad roomy (fun w l => usual five l /\ not_before soon t1 w l) T x sched x'.
Proof.
  induction sched as [|lab r IH]; intros x x'; cbn [trun truns]; [intros [= <-]; done|].
  assert (Hgo : forall g1, gstep decode_soon id_of2 "me" has_bad roomy (td_relay x) lab = Some g1 ->
    (let x1 := Timed g1 (td_arrived x ++ arrives x lab) in if punctual_b T x1 then trun T t1 x1 r else None) = Some x' ->
    exists g1, gstep decode_soon id_of2 "me" has_bad roomy (td_relay x) lab = Some g1 /\ punctual T (Timed g1 (td_arrived x ++ arrives x lab)) /\
      truns decode_soon id_of2 "me" has_bad roomy (fun w l => usual five l /\ not_before soon t1 w l) T (Timed g1 (td_arrived x ++ arrives x lab)) r x').
  { intros g1 Hg. cbv zeta. destruct (punctual_b T _) eqn:Ep; [|done]. intros Hr. exists g1. split; [done|]. split; [by apply punctual_check|by apply IH]. }
  destruct (world_label decode_soon id_of2 "me" lab) as [l|] eqn:El.
  - destruct (usual_b five l && not_before_b soon t1 (rl_world (td_relay x)) l) eqn:Eo; [|done]. destruct (gstep _ _ _ _ _ _ lab) as [g1|] eqn:Eg; [|done]. intros H.
    split; [|by eapply Hgo]. intros l' [= <-]. apply andb_true_iff in Eo as [H1 H2]. split; [by apply usual_check|by apply not_before_check].
  - destruct (gstep _ _ _ _ _ _ lab) as [g1|] eqn:Eg; [|done]. intros H. split; [done|by eapply Hgo].
Qed.
Definition tfinal {A} (f : timed -> A) T t1 x sched := match trun T t1 x sched with Some x' => Some (f x') | None => None end.
Lemma tfinal_run {A} (f : timed -> A) T t1 x sched a : tfinal f T t1 x sched = Some a -> exists x', trun T t1 x sched = Some x' /\ f x' = a.
Proof. unfold tfinal. destruct (trun T t1 x sched) as [x'|]; [|done]. intros [= <-]. eauto. Qed.
(** The block comes in 15 s ahead of its time.  Its validator gives up after 3 s (BlockTimeout).  4 s before its time the block goes to the
    chain, which accepts it. *)
Definition too_soon : list glabel :=
  [GMsg (from "ann" "eleven") 10] ++ gapps [LSend 0; LNew none_lost; LTry 0; LAttStart 0; LTick 3000000000; LTimeout 0] ++ [GBack 0] ++
  gapps [LTick 8000000000; LAttWake 0; LTake 0; LSubmit 0] ++ [GWorld (WAnswer 0); GWorld (WAnnounce 0)] ++ gapps [LBroadcast 0; LStatus 0 none_lost].
(** The sender is charged for a block that the chain accepts when its time comes. *)
Theorem C118_early_costs_nothing_refuted : exists T t1 sched x v r,
  truns decode_soon id_of2 "me" has_bad roomy (fun w l => usual five l /\ not_before soon t1 w l) T (Timed (Relay [] ten) []) sched x /\
  T = (3 * second)%Z /\ rl_vals (td_relay x) = [v] /\ carries decode_soon "me" (va_msg v) soon /\ has_bad soon = None /\
  va_phase v = VOver (Some 0) r /\ v_ok r = false /\ v_reported r = [("ann"%string, EWrap (ESent ErrBlockApplication))] /\
  k_id soon ∈ w_chain (rl_world (td_relay x)) /\
  (exists t, OSubmit 0 soon t ∈ s_log (w_s (rl_world (td_relay x))) /\ OResult 0 soon None ∈ s_log (w_s (rl_world (td_relay x)))) /\
  td_arrived x = [five] /\ (five + T + ao_delay_threshold roomy <= timestamp_instant soon - second)%Z /\ (five + T < t1 + ao_delay_timeout roomy)%Z /\ (five + T < td_now x)%Z.
Proof.
  destruct (tfinal_run (fun x => (rl_vals (td_relay x), elements (w_chain (rl_world (td_relay x))), s_log (w_s (rl_world (td_relay x))), td_arrived x, td_now x))
    (3 * second)%Z five (Timed (Relay [] ten) []) too_soon
    ([Validation (from "ann" "eleven") 10 (VOver (Some 0) (ValResult false [k_src soon] [("ann"%string, EWrap (ESent ErrBlockApplication))]))],
     ["10"; "11"]%string,
     [OAnswer 0 None; OStatus 0 soon None; OAccepted (k_src soon) 16000000000; OResult 0 soon None; OSubmit 0 soon 16000000000; OTake 0 soon 10;
      OReturn (Some 0) (k_src soon) (Some (ESent ErrBlockApplicationTimeout))], [five], 16000000000%Z)) as (x & Hx & E); [vm_compute; reflexivity|].
  apply trun_runs in Hx. injection E as E1 E2 E3 E4 E5. eexists _, _, _, x, _, _. split; [exact Hx|]. clear Hx.
  split; [reflexivity|]. split; [exact E1|]. split; [split; [reflexivity|]; split; [discriminate|]; split; [done|by eexists]|]. split; [vm_compute; reflexivity|].
  split; [reflexivity|]. split; [reflexivity|]. split; [reflexivity|]. split; [rewrite <- elem_of_elements, E2; right; left|].
  split; [exists 16000000000%Z; rewrite E3; split; [do 4 right; left|do 3 right; left]|].
  split; [exact E4|]. rewrite E5. split_and!; vm_compute; [discriminate|reflexivity|reflexivity].
Qed.
Print Assumptions C118_early_costs_nothing_refuted.
(** The same block, when its time is 4 s away, is accepted without a charge. *)
Definition soon_enough : list glabel :=
  gapps [LTick 11000000000] ++ [GMsg (from "ann" "eleven") 10] ++ gapps ([LSend 0; LNew none_lost] ++ attempt_at 0 0) ++
  [GWorld (WAnswer 0); GWorld (WAnnounce 0)] ++ gapps [LBroadcast 0; LStatus 0 none_lost; LRet 0] ++ [GBack 0].
Example C118_nonvacuous : exists x v r, let t1 := (16 * second)%Z in
  truns decode_soon id_of2 "me" has_bad roomy (fun w l => usual five l /\ not_before soon t1 w l) (3 * second)%Z (Timed (Relay [] ten) []) soon_enough x /\
  (timestamp_instant soon <= t1 + ao_delay_threshold roomy)%Z /\ rl_vals (td_relay x) = [v] /\ carries decode_soon "me" (va_msg v) soon /\
  va_phase v = VOver (Some 0) r /\ v_ok r = true /\ v_reported r = [].
Proof.
  destruct (tfinal_run (fun x => rl_vals (td_relay x)) (3 * second)%Z (16 * second)%Z (Timed (Relay [] ten) []) soon_enough
    [Validation (from "ann" "eleven") 10 (VOver (Some 0) (ValResult true [k_src soon] []))]) as (x & Hx & E); [vm_compute; reflexivity|].
  apply trun_runs in Hx. eexists x, _, _. cbv zeta. split; [exact Hx|]. clear Hx. split; [vm_compute; discriminate|]. split; [exact E|].
  split; [split; [reflexivity|]; split; [discriminate|]; split; [done|by eexists]|]. split; [reflexivity|]. split; reflexivity.
Qed.
