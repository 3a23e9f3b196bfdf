(** C117: gossip of blocks and sync sessions at the same time: a peer that behaves is not charged. *)
From stdpp Require Import pretty.
From Verif Require Import GoBase Util Gossip_Model Gossip_Spec PeerConn_Model Catchup_Spec Catchup_Proofs Catchup_Props TxCache_Model TxCache_Spec TxCache_Proofs Watchdog_Model
  Applicator_Model Applicator_Spec Applicator_Core Applicator_Sys Applicator_Inv Applicator_Inv2 Applicator_Inv3 Applicator_Inv4
  Applicator_Inv5 Applicator_Inv6 Applicator_Inv7 Applicator_Props Applicator_Props2 Deliver_Spec Deliver_Proofs Deliver_Props Rest_Spec Rest_Proofs
  Honest_Spec Honest_Proofs Honest_Proofs2 Honest_Props Round_Spec Round_Proofs Round_Props Relay_Spec Relay_Proofs Relay_Props Flood_Spec Flood_Proofs
  Follow_Spec Follow_Proofs Follow_Props Both_Spec Both_Proofs.

Section theorems.
Context (decode_block : string -> option block) (id_of_key : string -> outcome string) (me : string).
Context (judge : blk -> option goerr) (o : ap_opts) (po : pc_opts) (id : string) (root : gset string) (head lib top : N) (cid : bytes) (ch : N -> blk) (young : blk -> Prop)
  (dur now : Z) (had peer : N).
(** The setting ... *)
Context (Hdur : good_dur dur) (HS : sound_setting judge o po root head lib top ch had) (Hpeer : (peer <= top)%N).
Let runs := bruns decode_block id_of_key me judge o po id (behaved decode_block id_of_key me o po id root head lib top cid ch young).
Notation start := (both_init po root head lib dur now peer).
Notation ks := (the_blocks lib top ch).
(** ... and a run since the program started; the peer has the blocks of the checkpoints when its first session begins. *)
Context (Hcps : checked po ch (bo_comp start)) (sched : list blabel) (x : both) (Hrun : runs start sched x).

Lemma whole_inv : BI decode_block id_of_key me o po id root head lib top ch young dur now x.
Proof. eapply (BI_runs decode_block id_of_key me judge o po id root head lib top cid ch young dur now had Hdur HS); [exact Hrun|]. by eapply BI_init. Qed.

(** The node never holds anything against the peer. *)
Theorem C117_never_charged : ~ charged id x.
Proof.
  pose proof whole_inv as [B1 B2 B3 B4 B5]. intros [(v & call & r & e & Hv & Hph & Hin)|Hses].
  - pose proof (proj1 (Forall_forall _ _) B2 v Hv) as Hok. unfold val_ok in Hok. rewrite Hph in Hok.
    assert (Hval : exists res, validate_block decode_block id_of_key me (va_lib v) (fun _ => res) (va_msg v) = Done r).
    { destruct call as [c|]; [destruct Hok as (b & res & _ & _ & ?); eauto|destruct Hok as [(_ & ?)|(b & e' & _ & _ & ?)]; eauto]. }
    destruct Hval as (res & Hval). pose proof (reports_name _ _ _ _ _ _ _ _ _ Hval Hin) as Ei. destruct (B5 v Hv (eq_sym Ei)) as (k & Hk & Hd & Hc).
    assert (Hnil : v_reported r = []).
    { destruct (decide (m_from (va_msg v) = me)) as [Hf|Hf]; [exact (own_message _ _ _ _ _ _ _ _ Hd Hf Hval)|]. destruct (B4 v Hv k Hk ltac:(done) call r Hph) as [? _]. done. }
    rewrite Hnil in Hin. by apply elem_of_nil in Hin.
  - destruct (last_session decode_block id_of_key me judge o po id root head lib top cid ch young _ _ _ Hrun eq_refl Hcps) as (l1 & x1 & l2 & _ & R1 & Hs & Hc & R2 & Hno).
    destruct (lower_runs _ _ _ _ _ _ _ _ _ _ _ _ _ _ _ _ _ R1) as (cl1 & C1 & _). destruct (lower_runs _ _ _ _ _ _ _ _ _ _ _ _ _ _ _ _ _ R2) as (cl2 & C2 & _ & Hno2).
    destruct (C107_no_failure judge o po id root head lib top cid ch young dur now had peer Hdur HS Hpeer cl1 (bo_comp x1) C1 Hs Hc cl2 (bo_comp x) C2 (Hno2 Hno)) as (Hlog & _ & Hpend).
    destruct Hses as [(a & Ha & Hf)|Hne]; [|by apply Hne]. exact (proj1 (Forall_forall _ _) Hlog a Ha Hf).
Qed.
(** A message with a block of the chain is accepted, and the chain has the block; or the block is below the last irreversible one. *)
Theorem C117_relayed : forall v k call r, v ∈ bo_vals x -> k ∈ ks -> carries decode_block me (va_msg v) k -> va_phase v = VOver call r ->
  v_reported r = [] /\ ((v_ok r = true /\ k_id k ∈ w_chain (cp_world (bo_comp x))) \/ (v_ok r = false /\ (k_height k < va_lib v)%N)).
Proof.
  intros v k call r Hv Hk Hc Hph. pose proof whole_inv as [B1 _ _ B4 _]. destruct (B4 v Hv k Hk Hc call r Hph) as (H1 & H2). split; [done|]. destruct H2 as [[H2 H3]|H2]; [left|by right].
  split; [done|]. eapply cm_applied; [by eapply calm_of|done].
Qed.
(** When nothing is left to do for the applicator and the chain, the session does not wait for ApplyBlock, and no validator does
    whose block extends the chain. *)
Theorem C117_nobody_waits : let w := cp_world (bo_comp x) in
  running (w_s w) -> wrest w -> (forall k, k ∈ ks -> young k -> recent o (s_now (w_s w)) k) ->
  ~ session_waits (bo_comp x) /\
  forall v k c, v ∈ bo_vals x -> k ∈ ks -> carries decode_block me (va_msg v) k -> k_prev k ∈ w_chain w -> va_phase v = VWait c -> exists cl res, s_calls (w_s w) !! c = Some cl /\ cl_phase cl = CRet res.
Proof.
  cbv zeta. intros Hgo Hrest Hy. pose proof whole_inv as [B1 B2 B3 B4 B5]. split; [eapply rest_waits; [exact HS|exact B1|done|done|done]|].
  intros v k c Hv Hk Hcar Hpar Hph. pose proof (proj1 (Forall_forall _ _) B2 v Hv) as Hok. unfold val_ok in Hok. rewrite Hph in Hok. destruct Hok as (cl & Hc & Ho). cbn [rl_world] in Hc. exists cl.
  pose proof Hrest as [Hr _]. destruct Hr as (_ & _ & _ & Hcalls). destruct (Hcalls c cl Hc) as [(r & Hx)|(_ & Hheld)]; [by exists r|exfalso].
  pose proof (offered_some _ _ _ _ _ _ Ho) as (Hd & _). pose proof Hcar as (Hd' & _). assert (Es : k_src (cl_blk cl) = k_src k) by congruence.
  destruct (ks_h judge o po root head lib top ch had HS k Hk) as (h & -> & Hh & _). assert (Eid : k_id (cl_blk cl) = k_id (ch h)) by (unfold k_id; by rewrite Es). rewrite Eid in Hheld.
  revert Hheld. replace h with (lib + N.of_nat (N.to_nat (h - lib)))%N by lia. eapply (not_held judge o po root head lib top ch young dur now had HS); [apply (ci_w _ _ _ _ _ _ _ _ _ _ _ B1)|done|done|done|lia|right].
  replace (lib + N.of_nat (N.to_nat (h - lib)) - 1)%N with (h - 1)%N by lia. by rewrite <- (prev_at judge o po root head lib top ch had HS) by lia.
Qed.
(** When a session that began in [x] has run often enough, the chain has every block that the peer had at the session's start. *)
Theorem C117_catches_up : forall sched' x', cp_ses (bo_comp x) = session_init po -> checked po ch (bo_comp x) -> runs x sched' x' -> Forall (fun lab => lab <> BComp CConnect) sched' ->
  let c1 := bo_comp x in 6 + length (po_checkpoints po) + (N.to_nat (cp_peer c1 - cp_lib c1) + 2) * (N.to_nat (po_batch po) + 7) <= ran sched' ->
  forall h, (lib <= h <= cp_peer c1)%N -> k_id (ch h) ∈ w_chain (cp_world (bo_comp x')).
Proof.
  cbv zeta. intros sched' x' Hs Hc R2 Hno Hn h Hh.
  destruct (lower_runs _ _ _ _ _ _ _ _ _ _ _ _ _ _ _ _ _ Hrun) as (cl1 & C1 & _). destruct (lower_runs _ _ _ _ _ _ _ _ _ _ _ _ _ _ _ _ _ R2) as (cl2 & C2 & En & Hno2).
  rewrite <- En in Hn. exact (C107_catches_up judge o po id root head lib top cid ch young dur now had peer Hdur HS Hpeer cl1 (bo_comp x) C1 Hs Hc cl2 (bo_comp x') C2 (Hno2 Hno) Hn h Hh).
Qed.
End theorems.
Print Assumptions C117_never_charged.
Print Assumptions C117_relayed.
Print Assumptions C117_nobody_waits.
Print Assumptions C117_catches_up.

(** ** A concrete run *)
Inductive zlabel := ZMsg (m : message) | ZBack (i : nat) | ZY (y : ylabel).
Notation gstep3 := (gstep decode2 id_of2 "me" has_bad roomy).
Definition zstep (x : both) (z : zlabel) : option (blabel * both) :=
  let '(Both vs c) := x in
  match z with
  | ZMsg m => match gstep3 (Relay vs (cp_world c)) (GMsg m (cp_lib c)) with Some (Relay vs' w') => Some (BMsg m, Both vs' (with_world c w')) | None => None end
  | ZBack i => match gstep3 (Relay vs (cp_world c)) (GBack i) with Some (Relay vs' w') => Some (BBack i, Both vs' (with_world c w')) | None => None end
  | ZY y => match ystep has_bad roomy small_batches "p" right c y with Some (lab, c') => Some (BComp lab, Both vs c') | None => None end
  end.
Definition all_blocks_young (k : blk) : Prop := True.
Notation nice3 := (nice roomy small_batches at_ten 10 10 13 the_cid nth_block all_blocks_young).
Notation behaved3 := (behaved decode2 id_of2 "me" roomy small_batches "p" at_ten 10 10 13 the_cid nth_block all_blocks_young).
(** The conditions, decided *)
Definition calls_b (c : comp) (b : block) (c' : comp) : bool :=
  in_reach_b c' && wu64_b (WApp (LCall b)) && wcomplete_b (WApp (LCall b)) && welcome_b roomy 10 "10" 10 next_three (cp_world c) (WApp (LCall b)).
Definition above_b (w : world) (h : N) : bool := bool_decide (10 < h)%N && forallb (fun e => match e with OLib l => bool_decide (l < h)%N | _ => true end) (s_log (w_s w)).
Definition behaved_b (x : both) (z : zlabel) (x' : both) : bool :=
  let c := bo_comp x in
  match z with
  | ZMsg m => (bool_decide (m_received m <> "p"%string) || bool_decide (m_data m = "eleven"%string) || bool_decide (m_data m = "twelve"%string)) &&
      match offered decode2 id_of2 "me" m (cp_lib c) with
      | Some b => calls_b c b (bo_comp x') && match wd_add (s_wd (w_s (cp_world c))) b with Done (_, Some _) => false | _ => true end
      | None => true
      end
  | ZBack i => match bo_vals x !! i with Some v => forallb (fun k => bool_decide (decode2 (m_data (va_msg v)) <> Some (k_src k)) || above_b (cp_world c) (k_height k)) next_three | None => true end
  | ZY y => nice_b c y (bo_comp x') && match y with YConnect => bool_decide (10 <= cp_peer c)%N | _ => true end
  end.
Fixpoint zrun (x : both) (zs : list zlabel) : option (list blabel * both) :=
  match zs with
  | [] => Some ([], x)
  | z :: rest => match zstep x z with
    | Some (lab, x1) => if behaved_b x z x1 then match zrun x1 rest with Some (l, x2) => Some (lab :: l, x2) | None => None end else None
    | None => None
    end
  end.
Definition zy (l : list ylabel) : list zlabel := map ZY l.
Definition first_both : both := both_init small_batches at_ten 10 10 five_min five 12.
Definition give_up_first : list zlabel := zy given_up.
Definition both_ways : list zlabel :=
  zy (repeat YGo 11) ++ [ZMsg (from "p" "twelve")] ++ zy (yapps [LSend 0; LNew none_lost]) ++ [ZMsg (from "cat" "junk")] ++
  zy (hand_through 1 0 ++ [YLib 11; YHand] ++ yapps ([LSend 2; LNew none_lost] ++ attempt_at 0 1 ++ [LTry 0]) ++ [YWorld (WAnswer 1); YWorld (WAnnounce 0)] ++
    yapps [LBroadcast 0; LStatus 1 none_lost; LRet 0; LRet 2]) ++ [ZBack 0] ++ zy [YBack] ++
  zy (yapps ([LTick 50000000] ++ attempt_at 0 2) ++ [YWorld (WAnswer 2); YWorld (WApp (LStatus 2 none_lost))] ++ yapps (attempt_at 0 3) ++ [YWorld (WAnswer 3); YWorld (WApp (LStatus 3 none_lost))]) ++
  [ZMsg (from "p" "eleven")] ++ zy (yapps ([LSend 3; LNew none_lost] ++ attempt_at 0 4) ++ [YWorld (WAnswer 4)] ++ yapps [LStatus 4 none_lost; LRet 3]) ++ [ZBack 2] ++
  zy [YLib 12] ++ [ZMsg (from "p" "eleven")] ++ zy (repeat YGo 30).
Definition zfinal {A} (f : list blabel -> both -> list blabel -> both -> A) := match zrun first_both give_up_first with
  | Some (l1, x1) => match zrun x1 both_ways with Some (l2, x2) => Some (f l1 x1 l2 x2) | None => None end
  | None => None
  end.
Lemma next_three_blocks : the_blocks 10 13 nth_block = next_three.
Proof. reflexivity. Qed.
Lemma nice_young c lab c' : nice roomy small_batches at_ten 10 10 13 the_cid nth_block (fun _ => False) c lab c' -> nice3 c lab c'.
Proof. intros [H1 H2]. split; [exact H1|]. destruct lab; try exact H2. destruct H2 as (? & ? & ? & ? & ? & _). repeat (split; [assumption|]). intros k _. by left. Qed.
Lemma reach_check c : in_reach_b c = true -> in_reach small_batches 10 13 nth_block c.
Proof.
  intros H1 h Hh Hin. unfold in_reach_b in H1. rewrite forallb_forall in H1. specialize (H1 (k_id (nth_block h)) ltac:(apply elem_of_list_In; by apply elem_of_elements)).
  apply orb_true_iff in H1 as [H1|H1]; [apply bool_decide_eq_true in H1; apply (nth_ids h 10) in H1; lia|]. apply existsb_exists in H1 as (h' & Hin' & [E1 E2]%andb_true_iff). apply bool_decide_eq_true in E1, E2.
  apply nth_ids in E1. subst h'. split; [|done]. cbn in Hin'. lia.
Qed.
Lemma calls_check c b c' : calls_b c b c' = true -> nice3 c (CWorld (WApp (LCall b))) c'.
Proof.
  unfold calls_b. intros [[[H1 H2]%andb_true_iff H3]%andb_true_iff H4]%andb_true_iff. split; [by apply reach_check|]. split; [by apply wu64_one|]. split; [by apply wcomplete_one|]. split; [by apply welcome_check|].
  split; [exact I|]. split; [exact I|]. intros k _. by left.
Qed.
Lemma above_check w h : above_b w h = true -> ~ irreversible 10 (s_log (w_s w)) h.
Proof.
  unfold above_b. intros [H1 H2]%andb_true_iff. apply bool_decide_eq_true in H1. intros [Hi|(l & Hl & Hle)]; [lia|]. rewrite forallb_forall in H2. specialize (H2 _ ltac:(by apply elem_of_list_In)). cbn in H2. apply bool_decide_eq_true in H2. lia.
Qed.
Lemma zrun_runs zs : forall x l x', zrun x zs = Some (l, x') -> bruns decode2 id_of2 "me" has_bad roomy small_batches "p" behaved3 x l x'.
Proof.
  induction zs as [|z zs IH]; intros x l x' H; cbn [zrun] in H; [injection H as <- <-; constructor|]. destruct (zstep x z) as [[lab x1]|] eqn:Ez; [|discriminate H]. destruct (behaved_b x z x1) eqn:Eb; [|discriminate H].
  destruct (zrun x1 zs) as [[l2 x2]|] eqn:Er; [|discriminate H]. injection H as <- <-. pose proof (IH _ _ _ Er) as Hr. clear IH Er. eapply br_cons; [| |exact Hr]; clear Hr.
  - destruct x as [vs c]. destruct z as [m|i|y]; cbn [zstep] in Ez.
    + destruct (gstep3 _ _) as [[vs' w']|] eqn:E; [|discriminate Ez]. injection Ez as <- <-. by apply bs_msg.
    + destruct (gstep3 _ _) as [[vs' w']|] eqn:E; [|discriminate Ez]. injection Ez as <- <-. by apply bs_back.
    + destruct (ystep _ _ _ _ _ c y) as [[lab' c']|] eqn:E; [|discriminate Ez]. injection Ez as <- <-. apply bs_comp. by eapply ystep_cstep.
  - destruct x as [vs c]. destruct z as [m|i|y]; cbn [zstep] in Ez.
    + destruct (gstep3 _ _) as [[vs' w']|] eqn:E; [|discriminate Ez]. injection Ez as <- <-. cbn [behaved_b bo_comp] in Eb. apply andb_true_iff in Eb as [H1 H2]. split.
      * intros Hp. apply orb_true_iff in H1 as [[H1|H1]%orb_true_iff|H1]; apply bool_decide_eq_true in H1; [done| |].
        -- exists (nth_block 11). split; [rewrite next_three_blocks; left|]. rewrite H1. split; [reflexivity|]. split; [done|by eexists].
        -- exists (nth_block 12). split; [rewrite next_three_blocks; right; left|]. rewrite H1. split; [reflexivity|]. split; [done|by eexists].
      * intros b Ho. cbn [bo_comp] in Ho. rewrite Ho in H2. apply andb_true_iff in H2 as [H2 H3]. split; [by apply calls_check|]. intros k _ _ wd e Hw. cbn [bo_comp] in Hw. by rewrite Hw in H3.
    + destruct (gstep3 _ _) as [[vs' w']|] eqn:E; [|discriminate Ez]. injection Ez as <- <-. cbn [behaved_b bo_comp bo_vals] in Eb. intros v k Hv Hk Hc. cbn [bo_vals bo_comp] in *. rewrite Hv in Eb. rewrite next_three_blocks in Hk.
      rewrite forallb_forall in Eb. specialize (Eb k ltac:(by apply elem_of_list_In)). apply orb_true_iff in Eb as [Eb|Eb]; [apply bool_decide_eq_true in Eb; by destruct Hc as (Hd & _)|by apply above_check].
    + destruct (ystep _ _ _ _ _ c y) as [[lab' c']|] eqn:E; [|discriminate Ez]. injection Ez as <- <-. cbn [behaved_b bo_comp] in Eb. apply andb_true_iff in Eb as [H1 H2]. split; [apply nice_young; by eapply nice_check|].
      destruct c as [s wait w p l]. cbn [bo_comp]. destruct y as [a| | | | | |]; cbn [ystep] in E.
      * assert (Hl : (forall n, a <> WApp (LTimeout n)) /\ lab' = CWorld a). { destruct a as [b| | |]; [destruct b| | |]; try discriminate E; (destruct (wstep has_bad roomy w _); [|discriminate E]); injection E as <- _; by split. }
        destruct Hl as [Hl ->]. destruct a as [b| | |]; [destruct b| | |]; try exact I. by destruct (Hl c).
      * by injection E as <- _.
      * by injection E as <- _.
      * injection E as <- _. apply bool_decide_eq_true in H2. apply Forall_cons. split; [|by apply Forall_nil]. split; [reflexivity|exact H2].
      * destruct (request s) as [q|]; [destruct q, wait|]; try discriminate E; (destruct (sstep small_batches "p" _ s (MStep true)); [|discriminate E]); by injection E as <- _.
      * destruct (request s) as [q|]; [destruct q, wait|]; try discriminate E; (destruct (wstep has_bad roomy w _); [|discriminate E]; case_bool_decide; [|discriminate E]); by injection E as <- _.
      * destruct (request s) as [q|]; [destruct q, wait|]; try discriminate E. destruct (s_calls (w_s w) !! _) as [cl|]; [|discriminate E]. destruct (cl_phase cl); try discriminate E. destruct (sstep small_batches "p" _ s (MStep true)); [|discriminate E]. by injection E as <- _.
Qed.
Lemma zno_connect zs : forall x l x', zrun x zs = Some (l, x') -> forallb (fun z => match z with ZY YConnect => false | _ => true end) zs = true -> Forall (fun lab => lab <> BComp CConnect) l.
Proof.
  induction zs as [|z zs IH]; intros x l x' H Hno; cbn [zrun] in H; [injection H as <- _; constructor|]. cbn [forallb] in Hno. apply andb_true_iff in Hno as [Hz Hno].
  destruct (zstep x z) as [[lab x1]|] eqn:Ez; [|discriminate H]. destruct (behaved_b x z x1); [|discriminate H]. destruct (zrun x1 zs) as [[l2 x2]|] eqn:Er; [|discriminate H]. injection H as <- _. constructor; [|by eapply IH].
  clear Er IH. intros ->. destruct x as [vs c]. destruct z as [m|i|y]; cbn [zstep] in Ez.
  - destruct (gstep3 _ _) as [[vs' w']|]; discriminate Ez.
  - destruct (gstep3 _ _) as [[vs' w']|]; discriminate Ez.
  - destruct (ystep _ _ _ _ _ c y) as [[lab' c']|] eqn:E; [|discriminate Ez]. injection Ez as -> _. destruct c as [s wait w p l]. destruct y as [a| | | | | |]; cbn [ystep] in E; try discriminate E; try discriminate Hz.
    + destruct a as [b| | |]; [destruct b| | |]; try discriminate E; (destruct (wstep has_bad roomy w _); discriminate E).
    + destruct (request s) as [q|]; [destruct q, wait|]; try discriminate E; (destruct (sstep small_batches "p" _ s (MStep true)); discriminate E).
    + destruct (request s) as [q|]; [destruct q, wait|]; try discriminate E; (destruct (wstep has_bad roomy w _); [|discriminate E]; case_bool_decide; discriminate E).
    + destruct (request s) as [q|]; [destruct q, wait|]; try discriminate E. destruct (s_calls (w_s w) !! _) as [cl|]; [|discriminate E]. destruct (cl_phase cl); try discriminate E. destruct (sstep small_batches "p" _ s (MStep true)); discriminate E.
Qed.
Lemma after_give_up l x : zrun first_both give_up_first = Some (l, x) -> cp_ses (bo_comp x) = session_init small_batches.
Proof.
  unfold give_up_first, given_up. cbn [zy map zrun]. destruct (zstep first_both (ZY YGo)) as [[la xa]|]; [|discriminate]. destruct (behaved_b first_both (ZY YGo) xa); [|discriminate].
  destruct (zstep xa (ZY YGo)) as [[lb xb]|]; [|discriminate]. destruct (behaved_b xa (ZY YGo) xb); [|discriminate]. destruct xb as [vs [s wait w p l0]]. cbn [zstep ystep].
  destruct (behaved_b _ (ZY YConnect) _); [|discriminate]. intros H. injection H as _ <-. reflexivity.
Qed.
Definition told (x : both) := map (fun v => (m_received (va_msg v), m_data (va_msg v), match va_phase v with VWait c => None | VOver _ r => Some (v_ok r, v_reported r) end)) (bo_vals x).
(** The peer "p" answers a session that fetches the blocks 11 and 12.  Its message with block 12 arrives before the session hands over
    block 11, another peer sends junk, and later "p" sends block 11 twice: again, and when it is below the last irreversible
    block. *)
Example C117_nonvacuous : exists l1 x1 l2 x2, let runs := bruns decode2 id_of2 "me" has_bad roomy small_batches "p" behaved3 in
  good_dur five_min /\ sound_setting has_bad roomy small_batches at_ten 10 10 13 nth_block 10 /\ checked small_batches nth_block (bo_comp first_both) /\
  runs first_both l1 x1 /\ cp_ses (bo_comp x1) = session_init small_batches /\ checked small_batches nth_block (bo_comp x1) /\
  runs x1 l2 x2 /\ Forall (fun lab => lab <> BComp CConnect) l2 /\
  (let c1 := bo_comp x1 in 6 + length (po_checkpoints small_batches) + (N.to_nat (cp_peer c1 - cp_lib c1) + 2) * (N.to_nat (po_batch small_batches) + 7) <= ran l2) /\
  running (w_s (cp_world (bo_comp x2))) /\ wrest (cp_world (bo_comp x2)) /\ (forall k, k ∈ next_three -> recent roomy (s_now (w_s (cp_world (bo_comp x2)))) k) /\
  elements (w_chain (cp_world (bo_comp x1))) = ["10"%string] /\ elements (w_chain (cp_world (bo_comp x2))) = ["10"; "12"; "11"]%string /\
  told x2 = [("p", "twelve", Some (true, [])); ("cat", "junk", Some (false, [("cat", EWrap (ESent ErrDeserialization))])); ("p", "eleven", Some (true, [])); ("p", "eleven", Some (false, []))]%string.
Proof.
  assert (Hc : zfinal (fun l1 x1 l2 x2 => (cobs (bo_comp x1), ran l2, cobs (bo_comp x2), told x2, s_now (w_s (cp_world (bo_comp x2))))) = Some ((false, false, false), ["10"%string], true, [], 12%N, 10%N, 43,
    ((false, false, false), ["10"; "12"; "11"]%string, true, [CRet None; CRet None; CRet None; CRet None], 12%N, 12%N),
    [("p", "twelve", Some (true, [])); ("cat", "junk", Some (false, [("cat", EWrap (ESent ErrDeserialization))])); ("p", "eleven", Some (true, [])); ("p", "eleven", Some (false, []))]%string, later)) by (vm_compute; reflexivity).
  unfold zfinal in Hc. destruct (zrun first_both give_up_first) as [[l1 x1]|] eqn:E1; [|discriminate Hc]. destruct (zrun x1 both_ways) as [[l2 x2]|] eqn:E2; [|discriminate Hc].
  assert (Hses : cp_ses (bo_comp x1) = session_init small_batches) by exact (after_give_up _ _ E1).
  assert (Hl2 : Forall (fun lab => lab <> BComp CConnect) l2) by (eapply zno_connect; [exact E2|vm_compute; reflexivity]).
  assert (R1 := zrun_runs _ _ _ _ E1). assert (R2 := zrun_runs _ _ _ _ E2). clear E1 E2. remember (told x2) as T eqn:ET.
  unfold cobs in Hc. injection Hc as O1 O2 O3 O4 O5 O6 O7 O8 O9 P1 P2 P3 P4 P5 P6 P7 P8 P9 P10.
  exists l1, x1, l2, x2. cbv zeta. unfold checked. rewrite <- ET, O7, O8, O9, O4, P4, P9, P10. split; [split; vm_compute; [discriminate|reflexivity]|]. split; [apply small_setting|].
  split; [apply Forall_cons; split; [split; [reflexivity|vm_compute; discriminate]|by apply Forall_nil]|]. split; [exact R1|]. split; [exact Hses|].
  split; [apply Forall_cons; split; [split; [reflexivity|vm_compute; discriminate]|by apply Forall_nil]|]. split; [exact R2|]. clear R1 R2 Hses. split; [exact Hl2|]. split; [vm_compute; lia|].
  split; [split; [exact P1|split; [exact P2|exact P3]]|]. split; [apply rest_check; exact P5|].
  split; [|split; [reflexivity|split; reflexivity]]. intros k Hk. unfold next_three in Hk. rewrite !elem_of_cons, elem_of_nil in Hk. destruct Hk as [->|[->|[->|[]]]]; (repeat split; vm_compute; try reflexivity; discriminate).
Qed.
Print Assumptions C117_nonvacuous.
