(** Property theorems: C99. *)
From Verif Require Import GoBase Util TxCache_Model TxCache_Spec TxCache_Proofs Watchdog_Model
  Applicator_Model Applicator_Spec Applicator_Core Applicator_Sys Applicator_Inv Applicator_Inv2 Applicator_Inv3 Applicator_Inv4
  Applicator_Inv5 Applicator_Inv6 Applicator_Inv7 Applicator_Props Deliver_Spec Deliver_Proofs Deliver_Props Rest_Spec Rest_Proofs Honest_Spec Honest_Proofs Honest_Proofs2.

Lemma successors_linked parent h ks : successors parent h ks -> linked parent ks.
Proof. revert parent h. induction ks as [|k r IH]; intros parent h; [done|]. intros (H1 & H2 & H3). split; [done|by eapply IH]. Qed.
Lemma successors_prev parent h ks k : successors parent h ks -> k ∈ ks ->
  (k_prev k = parent /\ k_height k = (h + 1)%N) \/ exists k', k' ∈ ks /\ k_prev k = k_id k' /\ k_height k = (k_height k' + 1)%N.
Proof.
  revert parent h. induction ks as [|k0 r IH]; intros parent h Hs Hin; [by apply elem_of_nil in Hin|]. destruct Hs as (H1 & H2 & H3).
  apply elem_of_cons in Hin as [->|Hin]; [by left|]. right. destruct (IH _ _ H3 Hin) as [(E1 & E2)|(k' & Hk' & E1 & E2)].
  - exists k0. split_and!; [left|done|by rewrite H2].
  - exists k'. split_and!; [by right|done|done].
Qed.

(** C99, first part.  Left alone with a chain service that works, the node comes to rest: in every run only finitely much
    happens other than waiting, while something is left to do something can happen, and so rest can be reached. *)
Theorem C99_never_stuck : forall judge o root head lib dur now sched w,
  good_dur dur -> 0 < ao_jobs o -> (forall k, is_err_opt (judge k) ErrBlockState = false) ->
  wreaches judge o root head lib dur now sched w -> running (w_s w) -> no_final_lib (w_s w) ->
  wrest w \/ exists d lab w', wrun judge o w [WApp (LTick d); lab] = Some w' /\ wown lab /\ ~ wwaits w lab.
Proof.
  intros judge o root head lib dur now sched w Hd Hj Hjudge Hr (Hc & _ & Hh) Hf. pose proof (wreaches_fair _ _ _ _ _ _ _ _ _ Hr) as [(sc & Hre & HC) Ho].
  eapply wprogress; [exact Hd|exact Hj|exact Hjudge|]. split; [exists sc; by split|done].
Qed.
Print Assumptions C99_never_stuck.
Theorem C99_no_circles : forall judge o root head lib dur now sched (worlds : nat -> world) (labels : nat -> wlabel),
  good_dur dur -> (forall k, is_err_opt (judge k) ErrBlockState = false) ->
  wreaches judge o root head lib dur now sched (worlds 0) -> running (w_s (worlds 0)) -> no_final_lib (w_s (worlds 0)) ->
  (forall n, wown (labels n) /\ wstep judge o (worlds n) (labels n) = Some (worlds (S n))) ->
  ~ (forall n, exists m, n <= m /\ ~ wwaits (worlds m) (labels m)).
Proof.
  intros judge o root head lib dur now sched f labs Hd Hjudge Hr (Hc & _ & Hh) Hf Hst Hinf.
  pose proof (wreaches_fair _ _ _ _ _ _ _ _ _ Hr) as [(sc & Hre & HC) Ho].
  assert (HL : forall n, WLeft o head lib dur now (f n)).
  { induction n as [|n IH]; [split; [exists sc; by split|done]|]. destruct (Hst n) as [Hw Hs]. by apply (wleft_step judge o head lib dur now Hd Hjudge _ _ _ IH Hw Hs). }
  assert (Hstep : forall n, (wwaits (f n) (labs n) /\ wrank (f (S n)) = wrank (f n)) \/ wlt (wrank (f (S n))) (wrank (f n))).
  { intros n. destruct (Hst n) as [Hw Hs]. by apply (wleft_step judge o head lib dur now Hd Hjudge _ _ _ (HL n) Hw Hs). }
  assert (Hle : forall n m, n <= m -> wrank (f m) = wrank (f n) \/ wlt (wrank (f m)) (wrank (f n))).
  { intros n m Hnm. induction Hnm as [|m Hnm IH]; [by left|]. destruct (Hstep m) as [[_ E]|Hl], IH as [E'|Hl'].
    - left. congruence. - right. by rewrite E. - right. by rewrite <- E'. - right. by eapply wlt_trans. }
  assert (Hacc : forall r n, wrank (f n) = r -> False).
  { intros r. induction (wlt_wf r) as [r _ IH]. intros n En. destruct (Hinf n) as (m & Hm & Hw). destruct (Hstep m) as [[? _]|Hlt]; [done|].
    eapply (IH (wrank (f (S m)))); [|reflexivity]. destruct (Hle n m Hm) as [E|Hl]; [by rewrite <- En, <- E|]. rewrite <- En. by eapply wlt_trans. }
  by apply (Hacc _ 0 eq_refl).
Qed.
Print Assumptions C99_no_circles.
Theorem C99_comes_to_rest : forall judge o root head lib dur now sched w,
  good_dur dur -> 0 < ao_jobs o -> (forall k, is_err_opt (judge k) ErrBlockState = false) ->
  wreaches judge o root head lib dur now sched w -> running (w_s w) -> no_final_lib (w_s w) ->
  exists more w', Forall wown more /\ wrun judge o w more = Some w' /\ running (w_s w') /\ wrest w'.
Proof.
  intros judge o root head lib dur now sched w Hd Hj Hjudge Hr (Hc & _ & Hh) Hf. pose proof (wreaches_fair _ _ _ _ _ _ _ _ _ Hr) as [(sc & Hre & HC) Ho].
  destruct (wrests judge o head lib dur now Hd Hj Hjudge _ w eq_refl) as (more & w' & H1 & H2 & [(sc' & H3) _] & H4); [split; [exists sc; by split|done]|].
  exists more, w'. split_and!; try done. by eapply left_running.
Qed.
Print Assumptions C99_comes_to_rest.

(** The state at the end of such a run. *)
Lemma delivered_at o root head lib dur now w parent h ks :
  Fair o head lib dur now w -> Calm o root head lib dur now parent h ks w -> running (w_s w) -> wrest w -> (head + ao_max_delta o + 1 < two64)%N ->
  successors parent h ks -> parent ∈ w_chain w -> (parent ∈ root -> (h <= head)%N) ->
  (forall k, k ∈ ks -> passed (w_s w) k /\ (k_id k ∈ root -> (k_height k <= head)%N) /\ (recent o (s_now (w_s w)) k \/ Ordered root k w)) ->
  forall k, k ∈ ks -> k_id k ∈ w_chain w /\ k_id k ∉ held_ids (w_s w) /\
    forall c cl, s_calls (w_s w) !! c = Some cl -> cl_blk cl = k -> cl_phase cl = CRet None \/ cl_phase cl = CRet (Some (ESent ErrBlockApplicationTimeout)) \/
      (cl_phase cl = CRet (Some (ESent ErrBlockIrreversibility)) /\ irreversible lib (s_log (w_s w)) (k_height k)).
Proof.
  intros HF HCalm Hrun [Hrest Howed] Hlow Hsucc Hpar Hh Hks. clear HF.
  destruct (cm_kept _ _ _ _ _ _ _ _ _ _ HCalm) as (sc & Hre & Hkept).
  assert (Hwf : forall k, k ∈ ks -> b_header (k_src k) = Some (k_hdr k)). { intros k Hk. eapply reach_hdrs; [exact Hre|]. by apply Hks. }
  pose proof (reaches_inv _ _ _ _ _ _ _ Hre) as HI.
  destruct Hrest as (Hset & Hfh & Htx & Hcalls).
  assert (Hann : forall id, id ∈ w_chain w -> announced root (s_log (w_s w)) id).
  { intros id Hid. destruct (cm_conv _ _ _ _ _ _ _ _ _ _ HCalm id Hid) as [?|(b & [Hb|[Hb|(t & Hb)]] & E)]; [by left| | |right; eauto].
    - rewrite Howed in Hb. by apply elem_of_nil in Hb.
    - destruct Hset as (_ & _ & _ & _ & Hbc). rewrite Hbc in Hb. by apply elem_of_nil in Hb. }
  assert (Hfam : forall k, passed (w_s w) k -> fam parent ks (k_id k) -> k ∈ ks).
  { intros k Hp Hf. eapply (fam_in o head lib dur now parent h ks); [exact Hwf|exact Hre|exact (cm_s _ _ _ _ _ _ _ _ _ _ HCalm)|exact Hp|exact Hf]. }
  assert (Hirr : forall c cl e, s_calls (w_s w) !! c = Some cl -> fam parent ks (k_id (cl_blk cl)) -> OAnswer c (Some e) ∈ s_log (w_s w) ->
    Some e = Some (ESent ErrBlockIrreversibility) /\ irreversible lib (s_log (w_s w)) (k_height (cl_blk cl))) by apply HCalm.
  assert (Hdel : forall k, k ∈ ks -> announced root (s_log (w_s w)) (k_id k) /\ k_id k ∉ held_ids (w_s w) /\
    forall c cl, s_calls (w_s w) !! c = Some cl -> cl_blk cl = k ->
      (OAnswer c None ∈ s_log (w_s w) /\ applied (s_log (w_s w)) (k_id k)) \/ exists e, OAnswer c (Some e) ∈ s_log (w_s w)).
  { eapply (chain_settled (fam parent ks) o root head lib dur now sc (w_s w) ks); try done; [split; [done|apply truthful_check; apply HCalm|apply HCalm| |]|..].
    - intros k k' Hf Hp Hp' E. pose proof (Hfam k Hp Hf) as H1. assert (H2 : k' ∈ ks) by (apply Hfam; [done|by rewrite <- E]).
      destruct (cs_calls _ _ _ _ _ _ _ (cm_s _ _ _ _ _ _ _ _ _ _ HCalm) k Hp) as ((_ & Hid) & _). specialize (Hid k' H2 E).
      pose proof (Hwf _ H1). pose proof (Hwf _ H2). destruct k, k'. cbn in *. congruence.
    - pose proof (cm_max _ _ _ _ _ _ _ _ _ Hlow _ HCalm). lia.
    - intros id _ Hap. apply Hann. by apply (cm_applied _ _ _ _ _ _ _ _ _ _ HCalm).
    - intros c cl e Hc Hf Hin. destruct (Hirr c cl e Hc Hf Hin) as [_ Hi]. apply Hann. apply (cm_lib _ _ _ _ _ _ _ _ _ _ HCalm); [|done]. apply Hfam; [by exists c, cl|done].
    - by eapply successors_linked.
    - by left.
    - by apply Hann.
    - intros Hin. unfold held_ids in Hin. apply elem_of_dom in Hin as (en & He). pose proof (pv_byid _ (v_prov _ _ _ _ HI) _ _ He) as Hp.
      pose proof (ok_id _ (a_ok _ (v_acc _ _ _ _ HI)) _ _ He) as E. destruct (cs_calls _ _ _ _ _ _ _ (cm_s _ _ _ _ _ _ _ _ _ _ HCalm) _ Hp) as (_ & _ & Hn & _). by apply Hn.
    - intros k Hk. destruct (Hks k Hk) as (Hp & Hro & Hro2). split_and!; [right; eauto|done| |].
      + destruct Hro2 as [?|Hal]; [by left|right]. apply in_order_check. apply Hal.
      + split.
        * destruct (successors_prev _ _ _ _ Hsucc Hk) as [(E & ->)|(k' & Hk' & -> & ->)]; [rewrite E; intros Hx; specialize (Hh Hx); lia|]. intros Hin. destruct (Hks k' Hk') as (_ & Hx & _). specialize (Hx Hin). lia.
        * intros b t Hin E. destruct (cm_told _ _ _ _ _ _ _ _ _ _ HCalm b) as (_ & (Hn & Hid) & _); [right; right; eauto|].
          destruct (successors_prev _ _ _ _ Hsucc Hk) as [(E2 & ->)|(k' & Hk' & E2 & ->)]; [destruct (Hn ltac:(congruence)) as (hd & H1 & H2); exists hd; split; [done|lia]|].
          rewrite (Hid k' Hk' ltac:(congruence)). exists (k_hdr k'). split; [by apply Hwf|]. unfold k_height. lia. }
  intros k Hk. destruct (Hdel k Hk) as (D1 & D2 & D3). split_and!; [|done|].
  { apply (cm_has _ _ _ _ _ _ _ _ _ _ _ HCalm). by left. }
  intros c cl Hcc Eb.
  assert (Hans : OAnswer c None ∈ s_log (w_s w) \/ (OAnswer c (Some (ESent ErrBlockIrreversibility)) ∈ s_log (w_s w) /\ irreversible lib (s_log (w_s w)) (k_height k))).
  { destruct (D3 c cl Hcc Eb) as [[? _]|(e & He)]; [by left|right]. destruct (Hirr c cl e Hcc) as [E Hi]; [rewrite Eb; right; eauto|done|]. rewrite Eb in Hi. split; [congruence|done]. }
  destruct (Hcalls c cl Hcc) as [(r & Hph)|(_ & Hheld)]; [|by rewrite Eb in Hheld].
  destruct (reach_ret _ _ _ _ _ _ _ Hre c cl r Hcc Hph) as [E| ->]; [|by right; left].
  destruct Hans as [Ha|[Ha Hi]]; apply (a_log _ (v_acc _ _ _ _ HI)) in Ha as (cl' & Hcc' & Hbuf); rewrite Hcc in Hcc'; injection Hcc' as <-; [left|right; right]; rewrite Hph; [|split; [|done]]; congruence.
Qed.

(** C99, second part.  Whatever else happened in the run (blocks refused, orphans, timeouts of callers, blocks the chain got
    from elsewhere): a chain of valid blocks, each passed to ApplyBlock at least once, in whatever order, is in the chain
    when the node has come to rest; none of its blocks is kept, and every call with one of them has returned nil or its
    own timeout, or the refusal of a block at or below the last irreversible block.  Irreversibility may reach blocks of the
    chain once the chain service has them and the applicator is done with them. *)
Theorem C99_chain_delivered_partial : forall judge o root head lib dur now sched w parent h ks,
  good_dur dur -> wreaches judge o root head lib dur now sched w -> running (w_s w) -> wrest w ->
  (head + ao_max_delta o + 1 < two64)%N -> (ao_max_pending o < 2 ^ 63)%N ->
  successors parent h ks -> parent ∈ w_chain w -> (parent ∈ root -> (h <= head)%N) ->
  along judge o (welcome o head parent h ks) (world_init root head lib dur now) sched ->
  (forall k, k ∈ ks -> passed (w_s w) k /\ judge k = None /\ ((k_height k <= lib)%N -> k_id k ∈ root) /\ (k_id k ∈ root -> (k_height k <= head)%N) /\
     (recent o (s_now (w_s w)) k \/ along judge o (after_parent root k) (world_init root head lib dur now) sched)) ->
  forall k, k ∈ ks -> k_id k ∈ w_chain w /\ k_id k ∉ held_ids (w_s w) /\
    forall c cl, s_calls (w_s w) !! c = Some cl -> cl_blk cl = k -> cl_phase cl = CRet None \/ cl_phase cl = CRet (Some (ESent ErrBlockApplicationTimeout)) \/
      (cl_phase cl = CRet (Some (ESent ErrBlockIrreversibility)) /\ irreversible lib (s_log (w_s w)) (k_height k)).
Proof.
  intros judge o root head lib dur now sched w parent h ks Hd Hr Hrun Hrest Hlow Hpend Hsucc Hpar Hh Hwel Hks.
  pose proof (wreaches_fair _ _ _ _ _ _ _ _ _ Hr) as HF. destruct HF as [(sc & Hre & HCo) Ho]. destruct Hr as (Hl & Hu & Hc & Hw).
  assert (Hwf : forall k, k ∈ ks -> b_header (k_src k) = Some (k_hdr k)). { intros k Hk. eapply reach_hdrs; [exact Hre|]. by apply Hks. }
  assert (HF0 : Fair o head lib dur now (world_init root head lib dur now)) by (by apply Fair_init).
  assert (HCalm : Calm o root head lib dur now parent h ks w).
  { eapply (Calm_run judge o root head lib dur now parent h ks); try done.
    all: try (intros k Hk; by apply Hks). apply Calm_init; [|done]. intros k Hk. by apply Hks. }
  apply (delivered_at o root head lib dur now w parent h ks); try done; [by split; [exists sc|]|].
  intros k Hk. destruct (Hks k Hk) as (H1 & H2 & _ & H4 & [H5|H5]); split_and!; try done; [by left|right].
  eapply (Ordered_run judge o root head lib dur now k sched); try done. split; cbn; [|done]. by intros (c & cl & Hx & _).
Qed.
Print Assumptions C99_chain_delivered_partial.

(** ** A node left alone *)
Lemma wrun_app judge o w sched more : wrun judge o w (sched ++ more) = match wrun judge o w sched with Some w1 => wrun judge o w1 more | None => None end.
Proof. revert w. induction sched as [|lab r IH]; intros w; [done|]. cbn. destruct (wstep judge o w lab); [apply IH|done]. Qed.
Lemma along_app judge o P w sched w1 more : wrun judge o w sched = Some w1 -> along judge o P w sched -> along judge o P w1 more -> along judge o P w (sched ++ more).
Proof.
  revert w. induction sched as [|lab r IH]; intros w Hr Ha Hm; cbn in *; [by injection Hr as <-|]. destruct Ha as [H1 H2]. split; [done|].
  destruct (wstep judge o w lab) as [w2|]; [by apply IH|done].
Qed.
Lemma list_to_set_size (l : list string) : size (list_to_set l : gset string) <= length l.
Proof. induction l as [|x l IH]; cbn [list_to_set length]; [done|]. pose proof (size_union_alt {[x]} (list_to_set l : gset string)) as H. rewrite H, size_singleton.
  assert (size (list_to_set l ∖ {[x]} : gset string) <= size (list_to_set l : gset string)) by (apply subseteq_size; set_solver). lia. Qed.
Lemma held_calls o head lib dur now sched s : reaches o head lib dur now sched s -> size (held_ids s) <= length (s_calls s).
Proof.
  intros Hr. pose proof (reaches_inv _ _ _ _ _ _ _ Hr) as HI. transitivity (size (pids s)).
  - apply subseteq_size. intros id Hin. unfold held_ids in Hin. apply elem_of_dom in Hin as (en & He). apply elem_pids. exists (e_blk en).
    split; [apply (pv_byid _ (v_prov _ _ _ _ HI) _ _ He)|apply (ok_id _ (a_ok _ (v_acc _ _ _ _ HI)) _ _ He)].
  - unfold pids. etransitivity; [apply list_to_set_size|]. by rewrite map_length.
Qed.
Lemma calls_length o s lab s' : Step o s lab s' -> (forall b, lab <> LCall b) -> length (s_calls s') = length (s_calls s).
Proof.
  intros H Hn. assert (H1 : forall c, is_Some (s_calls s' !! c) <-> is_Some (s_calls s !! c)).
  { intros c. split; intros [cl Hc].
    - destruct (calls_back _ _ _ _ _ _ H Hc) as [(cl0 & H0 & _)|(b & h & -> & _)]; [by eexists|by destruct (Hn b)].
    - destruct (call_step _ _ _ _ _ _ H Hc) as (cl' & ? & _). by eexists. }
  assert (H2 : forall c, c < length (s_calls s') <-> c < length (s_calls s)) by (intros c; by rewrite <- !lookup_lt_is_Some).
  pose proof (H2 (length (s_calls s))). pose proof (H2 (length (s_calls s'))). lia.
Qed.
Lemma fh_shrinks o s lab s' fh : Step o s lab s' -> (forall fh, lab <> LAnnounce fh) -> fh ∈ s_fh s' -> fh ∈ s_fh s.
Proof.
  intros H Hn Hin. destruct H; try exact Hin; try (match goal with _ : context [do_effs ?l ?e ?x] |- _ => rewrite !(se_fh _ _ _ (do_effs_same l e x)) in Hin; cbn in Hin end);
    try exact Hin; try (apply elem_of_delete in Hin; exact Hin).
  match goal with _ : context [LAnnounce ?f] |- _ => destruct (Hn f eq_refl) end.
Qed.
Lemma wown_complete lab : wown lab -> wu64 lab /\ wcomplete lab.
Proof. destruct lab as [l| | |]; try done. intros H. destruct (own_complete _ H). done. Qed.

(** C99, third part.  A node that was passed such a chain of blocks and is left alone delivers it: whenever it comes to rest
    (and by the first part it can, and does unless it only waits for ever). *)
Theorem C99_left_alone_partial : forall judge o root head lib dur now sched w more w' parent h ks,
  good_dur dur -> 0 < ao_jobs o -> (forall k, is_err_opt (judge k) ErrBlockState = false) ->
  (head + ao_max_delta o + 1 < two64)%N -> (ao_max_pending o < 2 ^ 63)%N ->
  wreaches judge o root head lib dur now sched w -> running (w_s w) -> no_final_lib (w_s w) ->
  (forall fh l k, fh ∈ s_fh (w_s w) -> fh_lib fh = Some l -> k ∈ ks -> (l < k_height k)%N) ->
  successors parent h ks -> parent ∈ w_chain w' -> (parent ∈ root -> (h <= head)%N) ->
  along judge o (welcome o head parent h ks) (world_init root head lib dur now) sched -> (N.of_nat (length (s_calls (w_s w))) < ao_max_pending o)%N ->
  (forall k, k ∈ ks -> passed (w_s w) k /\ judge k = None /\ ((k_height k <= lib)%N -> k_id k ∈ root) /\ (k_id k ∈ root -> (k_height k <= head)%N)) ->
  Forall wown more -> wrun judge o w more = Some w' -> wrest w' ->
  (forall k, k ∈ ks -> recent o (s_now (w_s w')) k \/ along judge o (after_parent root k) (world_init root head lib dur now) sched) ->
  forall k, k ∈ ks -> k_id k ∈ w_chain w' /\ k_id k ∉ held_ids (w_s w') /\
    forall c cl, s_calls (w_s w') !! c = Some cl -> cl_blk cl = k -> cl_phase cl = CRet None \/ cl_phase cl = CRet (Some (ESent ErrBlockApplicationTimeout)) \/
      (cl_phase cl = CRet (Some (ESent ErrBlockIrreversibility)) /\ irreversible lib (s_log (w_s w')) (k_height k)).
Proof.
  intros judge o root head lib dur now sched w more w' parent h ks Hd Hj Hjudge Hlow Hpend Hr Hrun Hf Hfh Hsucc Hpar Hh Hwel Hlen Hks Hown Hmore Hrest Hrec.
  pose proof (wreaches_fair _ _ _ _ _ _ _ _ _ Hr) as [(sc & Hre & HC) Ho]. destruct Hr as (Hl & Hu & Hc & Hw).
  assert (HL : WLeft o head lib dur now w) by (destruct Hrun as (? & _ & ?); split; [exists sc; by split|done]).
  assert (Hall : WLeft o head lib dur now w' /\ (forall k, passed (w_s w) k -> passed (w_s w') k) /\ along judge o (welcome o head parent h ks) w more /\
    forall k, along judge o (after_parent root k) w more).
  { clear Hw Hwel Hrec Hrest Hks Hrun Hf Hre Ho. revert w Hfh Hlen HL Hown Hmore. induction more as [|lab r IH]; intros w Hfh Hlen HL Hown Hmore; cbn in Hmore.
    - injection Hmore as ->. by split_and!.
    - apply Forall_cons in Hown as [Ho1 Ho2]. destruct (wstep judge o w lab) as [w1|] eqn:H1; [|done].
      destruct (wleft_step judge o head lib dur now Hd Hjudge _ _ _ HL Ho1 H1) as [HL1 _].
      assert (Hst : exists l, Step o (w_s w) l (w_s w1) /\ (forall b, l <> LCall b) /\ forall fh, l <> LAnnounce fh).
      { pose proof H1 as Hx. apply wstep_inv in Hx. destruct lab as [l|i|j|b].
        - destruct Hx as (_ & Hx & _). apply step_Step in Hx as [_ Hx]. exists l. split_and!; [done|intros b ->; done|intros fh ->; done].
        - destruct Hx as (k & _ & Hx & _). apply step_Step in Hx as [_ Hx]. eexists. split_and!; [exact Hx|done|done].
        - destruct Hx as (b & _ & Hx & _). apply step_Step in Hx as [_ Hx]. eexists. split_and!; [exact Hx|done|done].
        - done. }
      destruct Hst as (l & Hst & Hn & Hna). destruct (IH w1) as (I1 & I2 & I3 & I4); [intros fh x k Hin; apply Hfh; by eapply fh_shrinks|by rewrite (calls_length _ _ _ _ Hst Hn)|done|done|done|]. cbn. rewrite H1. split_and!.
      + done.
      + intros k Hk. apply I2. by eapply known_step.
      + destruct lab as [l0| | |]; try done. destruct l0; try done; cbn.
        * destruct HL as [(sc' & HL') _]. pose proof (held_calls _ _ _ _ _ _ _ (lf_reach _ _ _ _ _ _ _ HL')). lia.
        * intros fh x k Hi Hx Hk Hle. apply elem_of_list_lookup_2 in Hi. specialize (Hfh _ _ _ Hi Hx Hk). lia.
      + done.
      + intros k. split; [|apply I4]. intros b ->. done. }
  destruct Hall as ([(sc' & HL') _] & Hpass & Hwel' & Hord).
  apply (C99_chain_delivered_partial judge o root head lib dur now (sched ++ more) w' parent h ks); try done.
  - split_and!; [done| | |by rewrite wrun_app, Hw]; apply Forall_app; (split; [done|]); eapply Forall_impl; [exact Hown| |exact Hown|]; intros x Hx; by apply wown_complete.
  - by eapply left_running.
  - by eapply along_app.
  - intros k Hk. destruct (Hks k Hk) as (H1 & H2 & H3 & H4). split_and!; try done; [by apply Hpass|]. destruct (Hrec k Hk) as [?|?]; [by left|right]. by eapply along_app.
Qed.
Print Assumptions C99_left_alone_partial.

(** ** Concrete runs *)
Fixpoint along_b (judge : blk -> option goerr) (o : ap_opts) (f : world -> wlabel -> bool) (w : world) (sched : list wlabel) : bool :=
  match sched with [] => true | lab :: r => f w lab && match wstep judge o w lab with Some w' => along_b judge o f w' r | None => true end end.
Lemma along_check judge o (P : world -> wlabel -> Prop) f sched : (forall w lab, f w lab = true -> P w lab) -> forall w, along_b judge o f w sched = true -> along judge o P w sched.
Proof.
  intros Hf. induction sched as [|lab r IH]; intros w H; cbn in *; [done|]. apply andb_true_iff in H as [H1 H2]. split; [by apply Hf|].
  destruct (wstep judge o w lab); [by apply IH|done].
Qed.
Definition low_b (o : ap_opts) (b : block) : bool := match b_header b with Some h => bool_decide (h_height h + ao_max_delta o + 1 < two64)%N | None => true end.
Definition identified_b (parent : string) (h : N) (ks : list blk) (b : block) : bool :=
  (bool_decide (str (b_id b) <> parent) || match b_header b with Some hd => bool_decide (h_height hd = h) | None => false end) && forallb (fun k => bool_decide (str (b_id b) <> k_id k) || bool_decide (b = k_src k)) ks.
Definition idle_b (s : sys) (id : string) : bool :=
  bool_decide (id ∉ held_ids s) && forallb (fun x => bool_decide (k_id x.1.1 <> id)) (s_try s) &&
  forallb (fun a => bool_decide (k_id (at_blk a) <> id) || match at_phase a with PDone => true | _ => false end) (s_att s).
Definition welcome_b (o : ap_opts) (head : N) (parent : string) (h : N) (ks : list blk) (w : world) (lab : wlabel) : bool :=
  match lab with
  | WApp (LCall b) => low_b o b && identified_b parent h ks b && bool_decide (str (b_id b) <> parent) && forallb (fun k => bool_decide (b <> k_src k) ||
      (bool_decide (k_height k <= max_accepted head (s_log (w_s w)) + ao_max_delta o)%N && bool_decide (block_instant (k_time k) <= s_now (w_s w) + ao_delay_threshold o)%Z)) ks
  | WApp (LNew _) => bool_decide (N.of_nat (size (held_ids (w_s w))) < ao_max_pending o)%N
  | WApp (LForkHeads i _) => match s_fh (w_s w) !! i with
      | Some fh => match fh_lib fh with Some l => forallb (fun k => bool_decide (l < k_height k)%N || (bool_decide (k_id k ∈ w_chain w) && idle_b (w_s w) (k_id k))) ks | None => true end
      | None => true
      end
  | WElse b => low_b o b && identified_b parent h ks b
  | _ => true
  end.
Lemma low_check o b : low_b o b = true -> low o b.
Proof. unfold low_b. intros H h Hh. rewrite Hh in H. by apply bool_decide_eq_true in H. Qed.
Lemma identified_check parent h ks b : identified_b parent h ks b = true -> identified parent h ks b.
Proof.
  unfold identified_b. intros [H1 H2]%andb_true_iff. split.
  { intros E. apply orb_true_iff in H1 as [H1|H1]; [by apply bool_decide_eq_true in H1|]. destruct (b_header b) as [hd|]; [|done]. apply bool_decide_eq_true in H1. eauto. } intros k Hk E. rewrite forallb_forall in H2.
  specialize (H2 k ltac:(by apply elem_of_list_In)). apply orb_true_iff in H2 as [H2|H2]; apply bool_decide_eq_true in H2; done.
Qed.
Lemma idle_check s id : idle_b s id = true -> idle s id.
Proof.
  unfold idle_b. intros [[H1 H2]%andb_true_iff H3]%andb_true_iff. rewrite forallb_forall in H2, H3. split_and!.
  - by apply bool_decide_eq_true in H1.
  - intros k f t Hin. specialize (H2 _ ltac:(by apply elem_of_list_In)). by apply bool_decide_eq_true in H2.
  - intros i k p Hi E. specialize (H3 _ ltac:(apply elem_of_list_In; by eapply elem_of_list_lookup_2)). cbn in H3. apply orb_true_iff in H3 as [H3|H3]; [by apply bool_decide_eq_true in H3|]. by destruct p.
Qed.
Lemma welcome_check o head parent h ks w lab : welcome_b o head parent h ks w lab = true -> welcome o head parent h ks w lab.
Proof.
  destruct lab as [l| | |b]; try done; [destruct l; try done|].
  - cbn [welcome_b welcome]. intros [[[H1 H2]%andb_true_iff H0]%andb_true_iff H3]%andb_true_iff. split_and!; [by apply low_check|by apply identified_check|by apply bool_decide_eq_true in H0|].
    intros k Hk ->. rewrite forallb_forall in H3. specialize (H3 k ltac:(by apply elem_of_list_In)). apply orb_true_iff in H3 as [H3|H3]; [by apply bool_decide_eq_true in H3|].
    apply andb_true_iff in H3 as [H3 H4]. apply bool_decide_eq_true in H3, H4. done.
  - cbn [welcome_b welcome]. intros H. by apply bool_decide_eq_true in H.
  - cbn [welcome_b welcome]. intros H fh l k Hfh Hl Hk Hle. rewrite Hfh, Hl, forallb_forall in H. specialize (H k ltac:(by apply elem_of_list_In)).
    apply orb_true_iff in H as [H|H]; [apply bool_decide_eq_true in H; lia|]. apply andb_true_iff in H as [H1 H2]. apply bool_decide_eq_true in H1. split; [done|by apply idle_check].
  - cbn [welcome_b welcome]. intros [H1 H2]%andb_true_iff. split; [by apply low_check|by apply identified_check].
Qed.
Definition accepts (bad : list string) (k : blk) : option goerr := if bool_decide (k_id k ∈ bad) then Some (EOther "bad merkle root") else None.
Definition apps (l : list label) : list wlabel := map WApp l.
Lemma wu64_checks sched : forallb (fun lab => match lab with WApp l => u64_check l | WElse b => u64_check (LAccept b) | _ => true end) sched = true -> Forall wu64 sched.
Proof.
  intros H. rewrite forallb_forall in H. apply Forall_forall. intros lab Hin. specialize (H lab ltac:(by apply elem_of_list_In)).
  destruct lab as [l| | |b]; try done.
  - assert (Hu : Forall u64_label [l]) by (apply u64_checks; cbn [forallb]; by rewrite H). by apply Forall_cons in Hu as [? _].
  - assert (Hu : Forall u64_label [LAccept b]) by (apply u64_checks; cbn [forallb]; by rewrite H). by apply Forall_cons in Hu as [? _].
Qed.
Definition rest_b (w : world) : bool :=
  let s := w_s w in
  match s_new s, s_try s, s_bc s, s_fh s, s_txs s, w_owed w with [], [], [], [], [], [] => true | _, _, _, _, _, _ => false end &&
  forallb (fun a => match at_phase a with PDone => true | _ => false end) (s_att s) &&
  forallb (fun cl => match cl_phase cl with CRet _ => true | CWait => bool_decide (cl_buf cl = None) && bool_decide (k_id (cl_blk cl) ∈ held_ids s) | CSend => false end) (s_calls s).
Lemma rest_check w : rest_b w = true -> wrest w.
Proof.
  unfold rest_b. intros [[H1 H2]%andb_true_iff H3]%andb_true_iff. rewrite forallb_forall in H2, H3.
  destruct (s_new (w_s w)) eqn:E1, (s_try (w_s w)) eqn:E2, (s_bc (w_s w)) eqn:E3, (s_fh (w_s w)) eqn:E4, (s_txs (w_s w)) eqn:E5, (w_owed w) eqn:E6; try done.
  assert (Hc : forall c cl, s_calls (w_s w) !! c = Some cl -> (exists r, cl_phase cl = CRet r) \/ cl_phase cl <> CSend /\ cl_buf cl = None /\ k_id (cl_blk cl) ∈ held_ids (w_s w)).
  { intros c cl Hc. specialize (H3 cl ltac:(apply elem_of_list_In; by eapply elem_of_list_lookup_2)). destruct (cl_phase cl) eqn:Ep; [done| |eauto].
    apply andb_true_iff in H3 as [H3 H4]. apply bool_decide_eq_true in H3, H4. by right. }
  split; [|done]. split_and!; try done.
  - split_and!; try done.
    + intros c cl Hcl. destruct (Hc c cl Hcl) as [(r & ->)|(? & _)]; done.
    + intros i a Hi. specialize (H2 a ltac:(apply elem_of_list_In; by eapply elem_of_list_lookup_2)). by destruct (at_phase a).
  - intros i p Hi. by rewrite E5 in Hi.
  - intros c cl Hcl. destruct (Hc c cl Hcl) as [?|(_ & ? & ?)]; [by left|by right].
Qed.
Definition wfinal {A} (f : world -> A) judge o w sched : option A := match wrun judge o w sched with Some w' => Some (f w') | None => None end.
Lemma wfinal_run {A} (f : world -> A) judge o w sched a : wfinal f judge o w sched = Some a -> exists w', wrun judge o w sched = Some w' /\ f w' = a.
Proof. unfold wfinal. destruct (wrun judge o w sched) as [w'|]; [|done]. intros [= <-]. eauto. Qed.

(** The three blocks of a chain are passed in in reverse order, with an orphan and an invalid block in between; the chain gets
    a block from elsewhere, and the caller with the second block gives up. *)
Definition side : block := mk "side" 11 "root" 5000 "".
Definition has_bad : blk -> option goerr := accepts ["bad"%string].
Lemma has_bad_state k : is_err_opt (has_bad k) ErrBlockState = false.
Proof. unfold has_bad, accepts. by case_bool_decide. Qed.
Definition start : world := world_init {["root"%string]} 10 5 five_min five.
Definition handed_in : list wlabel :=
  apps (submit_call 0 b3 ++ submit_call 1 b2 ++ submit_call 2 orphan ++ submit_call 3 b1 ++ attempt_at 0 0) ++
  [WAnswer 0; WApp (LStatus 0 none_lost); WElse side; WApp (LTimeout 1)] ++ apps (submit_call 4 bad).
Definition worked_off : list wlabel :=
  apps (attempt_at 0 1) ++ [WAnswer 1; WApp (LStatus 1 none_lost); WApp (LRet 3); WAnnounce 1; WApp (LBroadcast 0); WAnnounce 0; WApp (LBroadcast 0)] ++
  apps (attempt_at 0 2) ++ apps (attempt_at 0 3) ++
  [WApp (LTry 0); WApp (LTry 0); WAnswer 3; WApp (LStatus 3 none_lost); WAnswer 2; WApp (LStatus 2 none_lost); WApp (LRet 4); WAnnounce 0; WApp (LBroadcast 0)] ++
  apps (attempt_at 2 4) ++ [WApp (LTick 50000000)] ++ apps (attempt_at 0 5) ++
  [WAnswer 4; WApp (LStatus 4 none_lost); WAnnounce 0; WAnswer 5; WApp (LBroadcast 0); WApp (LStatus 5 none_lost); WApp (LRet 0)] ++
  apps (attempt_at 0 6) ++ apps (attempt_at 0 7) ++ [WAnswer 7; WApp (LStatus 7 none_lost); WAnswer 6; WApp (LStatus 6 none_lost)].
(** Every hypothesis of the second and of the third part is met by this run, which ends at rest with the orphan kept, the
    invalid block refused and one caller timed out. *)
Example C99_nonvacuous : exists w w', good_dur five_min /\ 0 < ao_jobs roomy /\ (forall k, is_err_opt (has_bad k) ErrBlockState = false) /\
  (10 + ao_max_delta roomy + 1 < two64)%N /\ (ao_max_pending roomy < 2 ^ 63)%N /\
  wreaches has_bad roomy {["root"%string]} 10 5 five_min five handed_in w /\ running (w_s w) /\ no_final_lib (w_s w) /\ ~ wrest w /\
  (forall fh l k, fh ∈ s_fh (w_s w) -> fh_lib fh = Some l -> k ∈ [k1; k2; k3] -> (l < k_height k)%N) /\
  successors "root" 10 [k1; k2; k3] /\
  along has_bad roomy (welcome roomy 10 "root" 10 [k1; k2; k3]) start (handed_in ++ worked_off) /\ (N.of_nat (length (s_calls (w_s w))) < ao_max_pending roomy)%N /\
  (forall k, k ∈ [k1; k2; k3] -> passed (w_s w) k /\ has_bad k = None /\ (5 < k_height k)%N /\ (k_id k ∈ ({["root"%string]} : gset string) -> (k_height k <= 10)%N)) /\
  (forall k, k ∈ [k1; k2; k3] -> k_id k ∉ w_chain w) /\
  Forall wown worked_off /\ wrun has_bad roomy w worked_off = Some w' /\ wrest w' /\ running (w_s w') /\
  wreaches has_bad roomy {["root"%string]} 10 5 five_min five (handed_in ++ worked_off) w' /\
  (forall k, k ∈ [k1; k2; k3] -> passed (w_s w') k /\ recent roomy (s_now (w_s w')) k) /\
  map cl_phase (s_calls (w_s w')) = [CRet None; CRet (Some (ESent ErrBlockApplicationTimeout)); CWait; CRet None; CRet (Some (EOther "bad merkle root"))] /\
  held_ids (w_s w') = {["orphan"%string]} /\ "root"%string ∈ w_chain w'.
Proof.
  set (f := fun w => ((s_cancelled (w_s w), s_panic (w_s w), s_hang (w_s w)), s_fh (w_s w), map cl_blk (s_calls (w_s w)), s_now (w_s w),
    map cl_phase (s_calls (w_s w)), rest_b w, bool_decide (held_ids (w_s w) = {["orphan"%string]}), map (fun k => bool_decide (k_id k ∈ w_chain w)) [k1; k2; k3], length (w_owed w), bool_decide ("root"%string ∈ w_chain w))).
  destruct (wfinal_run f has_bad roomy start handed_in
    ((false, false, false), [], [k3; k2; ko; k1; kb], five, [CWait; CRet (Some (ESent ErrBlockApplicationTimeout)); CWait; CWait; CWait], false, false, [false; false; false], 1, true)) as (w & Hw & E); [vm_compute; reflexivity|].
  destruct (wfinal_run f has_bad roomy start (handed_in ++ worked_off)
    ((false, false, false), [], [k3; k2; ko; k1; kb], later, [CRet None; CRet (Some (ESent ErrBlockApplicationTimeout)); CWait; CRet None; CRet (Some (EOther "bad merkle root"))],
     true, true, [true; true; true], 0, true)) as (w' & Hw' & E'); [vm_compute; reflexivity|].
  assert (Hmore : wrun has_bad roomy w worked_off = Some w') by (rewrite wrun_app, Hw in Hw'; exact Hw').
  assert (Hr : wreaches has_bad roomy {["root"%string]} 10 5 five_min five handed_in w).
  { split; [vm_compute; reflexivity|]. split; [apply wu64_checks; vm_compute; reflexivity|]. split; [|exact Hw]. repeat (apply Forall_cons; split; [first [exact I|discriminate]|]). apply Forall_nil. exact I. }
  assert (Hr' : wreaches has_bad roomy {["root"%string]} 10 5 five_min five (handed_in ++ worked_off) w').
  { split; [vm_compute; reflexivity|]. split; [apply wu64_checks; vm_compute; reflexivity|]. split; [|exact Hw']. repeat (apply Forall_cons; split; [first [exact I|discriminate]|]). apply Forall_nil. exact I. }
  clear Hw Hw'. unfold f in E, E'. injection E as E1 E2 E3 E4 E5 E6 E7 E8 E9 E10 E11 E12 E13 E14. injection E' as F1 F2 F3 F4 F5 F6 F7 F8 F9 F10 F11 F12 F13 F14.
  assert (Hcase : forall k, k ∈ [k1; k2; k3] -> k = k1 \/ k = k2 \/ k = k3) by (intros k Hk; rewrite !elem_of_cons, elem_of_nil in Hk; tauto).
  assert (Hpass : forall (x : world), map cl_blk (s_calls (w_s x)) = [k3; k2; ko; k1; kb] -> forall k, k ∈ [k1; k2; k3] -> passed (w_s x) k).
  { intros x Hx k Hk. assert (Hin : k ∈ map cl_blk (s_calls (w_s x))). { rewrite Hx. apply Hcase in Hk as [->|[->| ->]]; [apply (elem_of_list_lookup_2 _ 3)|apply (elem_of_list_lookup_2 _ 1)|apply (elem_of_list_lookup_2 _ 0)]; reflexivity. }
    apply elem_of_list_fmap in Hin as (cl & -> & Hin). apply elem_of_list_lookup in Hin as (c & Hc). by exists c, cl. }
  exists w, w'. split_and!.
  - done.
  - cbn. lia.
  - apply has_bad_state.
  - vm_compute; reflexivity.
  - vm_compute; reflexivity.
  - exact Hr.
  - split; [exact E1|]. split; [exact E2|exact E3].
  - intros fh Hfh. rewrite E4 in Hfh. by apply elem_of_nil in Hfh.
  - intros [_ Hx]. by rewrite Hx in E13.
  - intros fh l k Hfh. rewrite E4 in Hfh. by apply elem_of_nil in Hfh.
  - by split_and!.
  - apply (along_check _ _ _ _ _ (welcome_check _ _ _ _ _)). vm_compute. reflexivity.
  - assert (Hlen : length (s_calls (w_s w)) = 5) by (by rewrite <- (map_length cl_phase), E7). rewrite Hlen. vm_compute; reflexivity.
  - intros k Hk. split; [by apply Hpass|]. apply Hcase in Hk as [->|[->| ->]]; (split; [vm_compute; reflexivity|]); (split; [vm_compute; reflexivity|]); intros Hx%elem_of_singleton; discriminate Hx.
  - apply bool_decide_eq_false in E10, E11, E12. intros k Hk. by apply Hcase in Hk as [->|[->| ->]].
  - repeat (apply Forall_cons; split; [exact I|]). apply Forall_nil. exact I.
  - exact Hmore.
  - by apply rest_check.
  - split; [exact F1|]. split; [exact F2|exact F3].
  - exact Hr'.
  - intros k Hk. split; [by apply Hpass|]. rewrite F6. apply Hcase in Hk as [->|[->| ->]]; by split_and!.
  - exact F7.
  - by apply bool_decide_eq_true in F9.
  - by apply bool_decide_eq_true in F14.
Qed.

(** Blocks ten minutes old, each handed over when the chain has said that it has the parent, as in synchronisation with a
    peer. *)
Definition after_parent_b (root : list string) (k : blk) (w : world) (lab : wlabel) : bool :=
  match lab with
  | WApp (LCall b) => bool_decide (str (b_id b) <> k_id k) || bool_decide (k_prev k ∈ root) ||
      existsb (fun e => match e with OAccepted b' _ => bool_decide (str (b_id b') = k_prev k) | _ => false end) (s_log (w_s w))
  | _ => true
  end.
Lemma after_parent_check root k w lab : after_parent_b root k w lab = true -> after_parent (list_to_set root) k w lab.
Proof.
  intros H b -> E. cbn [after_parent_b] in H. apply orb_true_iff in H as [[H|H]%orb_true_iff|H].
  - by apply bool_decide_eq_true in H.
  - apply bool_decide_eq_true in H. left. left. by apply elem_of_list_to_set.
  - apply existsb_exists in H as (e & Hin & He). destruct e; try done. apply bool_decide_eq_true in He. left. right. exists b0, now. split; [by apply elem_of_list_In|done].
Qed.
Definition one_by_one : list wlabel :=
  apps (submit_call 0 b1 ++ attempt_at 0 0) ++ [WAnswer 0; WApp (LStatus 0 none_lost); WApp (LRet 0); WAnnounce 0; WApp (LBroadcast 0)] ++
  apps (submit_call 1 b2 ++ attempt_at 0 1) ++ [WAnswer 1; WApp (LStatus 1 none_lost); WApp (LRet 1); WAnnounce 0; WApp (LBroadcast 0)].
Example C99_nonvacuous_in_order : exists w, good_dur five_min /\ wreaches has_bad roomy (list_to_set ["root"%string]) 10 5 five_min ten_min one_by_one w /\ running (w_s w) /\ wrest w /\
  successors "root" 10 [k1; k2] /\
  along has_bad roomy (welcome roomy 10 "root" 10 [k1; k2]) (world_init (list_to_set ["root"%string]) 10 5 five_min ten_min) one_by_one /\
  (forall k, k ∈ [k1; k2] -> passed (w_s w) k /\ has_bad k = None /\ (5 < k_height k)%N /\ (k_id k ∈ (list_to_set ["root"%string] : gset string) -> (k_height k <= 10)%N) /\
     along has_bad roomy (after_parent (list_to_set ["root"%string]) k) (world_init (list_to_set ["root"%string]) 10 5 five_min ten_min) one_by_one /\ ~ recent roomy (s_now (w_s w)) k).
Proof.
  destruct (wfinal_run (fun w => ((s_cancelled (w_s w), s_panic (w_s w), s_hang (w_s w)), map cl_blk (s_calls (w_s w)), s_now (w_s w), rest_b w))
    has_bad roomy (world_init (list_to_set ["root"%string]) 10 5 five_min ten_min) one_by_one ((false, false, false), [k1; k2], ten_min, true)) as (w & Hw & E); [vm_compute; reflexivity|].
  assert (Hr : wreaches has_bad roomy (list_to_set ["root"%string]) 10 5 five_min ten_min one_by_one w).
  { split; [vm_compute; reflexivity|]. split; [apply wu64_checks; vm_compute; reflexivity|]. split; [|exact Hw]. repeat (apply Forall_cons; split; [first [exact I|discriminate]|]). apply Forall_nil. exact I. }
  clear Hw. injection E as E1 E2 E3 E4 E5 E6.
  assert (Hcase : forall k, k ∈ [k1; k2] -> k = k1 \/ k = k2) by (intros k Hk; rewrite !elem_of_cons, elem_of_nil in Hk; tauto).
  exists w. split_and!.
  - done.
  - exact Hr.
  - split; [exact E1|]. split; [exact E2|exact E3].
  - by apply rest_check.
  - by split_and!.
  - apply (along_check _ _ _ _ _ (welcome_check _ _ _ _ _)). vm_compute. reflexivity.
  - intros k Hk. split.
    { assert (Hin : k ∈ map cl_blk (s_calls (w_s w))) by (by rewrite E4). apply elem_of_list_fmap in Hin as (cl & -> & Hin). apply elem_of_list_lookup in Hin as (c & Hc). by exists c, cl. }
    split; [apply Hcase in Hk as [->| ->]; vm_compute; reflexivity|]. split; [apply Hcase in Hk as [->| ->]; vm_compute; reflexivity|].
    split; [apply Hcase in Hk as [->| ->]; intros Hx%elem_of_list_to_set%elem_of_list_singleton; discriminate Hx|].
    split; [apply (along_check _ _ _ _ _ (after_parent_check _ _)); apply Hcase in Hk as [->| ->]; vm_compute; reflexivity|].
    rewrite E5. intros (_ & _ & Hx & _). by apply Hcase in Hk as [->| ->].
Qed.

(** Irreversibility reaches the first block, which the chain has, while the second one is under way: the second one is
    applied, and the first one, passed in again, is refused. *)
Definition overtaken : list wlabel :=
  apps (submit_call 0 b2 ++ submit_call 1 b1 ++ attempt_at 0 0) ++ [WAnswer 0; WApp (LStatus 0 none_lost); WApp (LRet 1); WAnnounce 0; WApp (LBroadcast 0)] ++
  apps (attempt_at 0 1) ++ apps [LTry 0; LAnnounce (ForkHeads (Some 11%N) ["b1"%string]); LForkHeads 0 none_lost] ++ apps (submit_call 2 b1) ++
  [WApp (LRet 2); WAnswer 1; WApp (LStatus 1 none_lost); WApp (LRet 0); WAnnounce 0; WApp (LBroadcast 0); WApp (LTick 50000000)] ++
  apps (attempt_at 0 2) ++ [WAnswer 2; WApp (LStatus 2 none_lost)] ++ apps (attempt_at 0 3) ++ [WAnswer 3; WApp (LStatus 3 none_lost)].
Example C99_nonvacuous_moving_lib : exists w, good_dur five_min /\ wreaches has_bad roomy {["root"%string]} 10 5 five_min five overtaken w /\ running (w_s w) /\ wrest w /\ successors "root" 10 [k1; k2] /\ along has_bad roomy (welcome roomy 10 "root" 10 [k1; k2]) start overtaken /\ (forall k, k ∈ [k1; k2] -> passed (w_s w) k /\ has_bad k = None /\ ((k_height k <= 5)%N -> k_id k ∈ ({["root"%string]} : gset string)) /\    (k_id k ∈ ({["root"%string]} : gset string) -> (k_height k <= 10)%N) /\ recent roomy (s_now (w_s w)) k) /\ irreversible 5 (s_log (w_s w)) (k_height k1) /\ map cl_phase (s_calls (w_s w)) = [CRet None; CRet None; CRet (Some (ESent ErrBlockIrreversibility))].
Proof.
  destruct (wfinal_run (fun w => ((s_cancelled (w_s w), s_panic (w_s w), s_hang (w_s w)), map cl_blk (s_calls (w_s w)), s_now (w_s w), rest_b w, map cl_phase (s_calls (w_s w)),
      existsb (fun e => match e with OLib l => bool_decide (l = 11%N) | _ => false end) (s_log (w_s w))))
    has_bad roomy start overtaken ((false, false, false), [k2; k1; k1], later, true, [CRet None; CRet None; CRet (Some (ESent ErrBlockIrreversibility))], true)) as (w & Hw & E); [vm_compute; reflexivity|].
  assert (Hr : wreaches has_bad roomy {["root"%string]} 10 5 five_min five overtaken w).
  { split; [vm_compute; reflexivity|]. split; [apply wu64_checks; vm_compute; reflexivity|]. split; [|exact Hw]. repeat (apply Forall_cons; split; [first [exact I|discriminate]|]). apply Forall_nil. exact I. }
  clear Hw. injection E as E1 E2 E3 E4 E5 E6 E7 E8.
  assert (Hcase : forall k, k ∈ [k1; k2] -> k = k1 \/ k = k2) by (intros k Hk; rewrite !elem_of_cons, elem_of_nil in Hk; tauto).
  exists w. split_and!.
  - done.
  - exact Hr.
  - split; [exact E1|]. split; [exact E2|exact E3].
  - by apply rest_check.
  - by split_and!.
  - apply (along_check _ _ _ _ _ (welcome_check _ _ _ _ _)). vm_compute. reflexivity.
  - intros k Hk. split.
    { assert (Hin : k ∈ map cl_blk (s_calls (w_s w))) by (rewrite E4; apply Hcase in Hk as [->| ->]; [right; left|left]). apply elem_of_list_fmap in Hin as (cl & -> & Hin). apply elem_of_list_lookup in Hin as (c & Hc). by exists c, cl. }
    rewrite E5. apply Hcase in Hk as [->| ->]; (split; [vm_compute; reflexivity|]); (split; [by vm_compute|]); (split; [by intros Hx%elem_of_singleton|]); by split_and!.
  - apply existsb_exists in E8 as (e & Hin & He). destruct e; try done. apply bool_decide_eq_true in He as ->. right. exists 11%N. split; [by apply elem_of_list_In|done].
  - exact E7.
Qed.

(** ** C99, REFUTED without the proviso on the age and the order *)
Lemma quiet_step o s lab s' : settled s -> s_fh s = [] -> (forall c cl, s_calls s !! c = Some cl -> cl_phase cl = CWait -> cl_buf cl = None) -> own lab -> Step o s lab s' ->
  settled s' /\ s_fh s' = [] /\ s_calls s' = s_calls s /\ s_core s' = s_core s /\ s_att s' = s_att s.
Proof.
  intros Hset Hfh Hcalls Hown H. pose proof Hset as (H1 & H2 & H3 & H4 & H5).
  assert (Hatt : forall i k p, s_att s !! i = Some (Attempt k p) -> p = PDone) by (intros i k p Hi; apply (H4 _ _ Hi)).
  destruct H; cbn in Hown; try done;
    try (exfalso; match goal with Hi : s_att s !! _ = Some (Attempt _ _) |- _ => by apply Hatt in Hi end);
    try (exfalso; match goal with Hi : s_try s !! _ = Some _ |- _ => by rewrite H3 in Hi end);
    try (exfalso; match goal with Hi : s_fh s !! _ = Some _ |- _ => by rewrite Hfh in Hi end);
    try (exfalso; match goal with Hi : s_bc s !! _ = Some _ |- _ => by rewrite H5 in Hi end).
  - exfalso. by apply (H1 _ _ H).
  - exfalso. by specialize (Hcalls _ _ H eq_refl).
  - exfalso. by rewrite H2 in H0.
Qed.
(** Once at rest, a node that nothing comes to from outside stays as it is. *)
Lemma rest_stays judge o w more w' : wrest w -> Forall wown more -> wrun judge o w more = Some w' -> w_chain w' = w_chain w /\ s_core (w_s w') = s_core (w_s w).
Proof.
  intros [(Hset & Hfh & _ & Hcalls) Howed].
  assert (Hc : forall c cl, s_calls (w_s w) !! c = Some cl -> cl_phase cl = CWait -> cl_buf cl = None) by (intros c cl Hc Hp; destruct (Hcalls c cl Hc) as [(r & ?)|(? & _)]; congruence).
  clear Hcalls. revert w Hset Hfh Hc Howed. induction more as [|lab more IH]; intros w Hset Hfh Hc Howed Hown Hrun; cbn in Hrun; [by injection Hrun as <-|].
  apply Forall_cons in Hown as [Ho1 Ho2]. destruct (wstep judge o w lab) as [w1|] eqn:H1; [|done].
  apply wstep_inv in H1. destruct lab as [l|i|j|b]; [| | |done].
  - destruct H1 as (_ & Hs & Ec & Eo). apply step_Step in Hs as [_ Hs]. destruct (quiet_step _ _ _ _ Hset Hfh Hc Ho1 Hs) as (Q1 & Q2 & Q3 & Q4 & Q5).
    rewrite <- Ec, <- Q4. apply IH; try done; [by rewrite Q3|by rewrite Eo].
  - destruct H1 as (k & Hi & _). destruct Hset as (_ & _ & _ & H4 & _). by specialize (H4 _ _ Hi).
  - destruct H1 as (b & Hb & _). by rewrite Howed in Hb.
Qed.
(** The head is another child of the parent of [b1], so that [b2] is submitted as soon as it is passed in; the chain does not
    have [b1] yet.  Before this answer is processed, [b1] is passed in, submitted, accepted and announced; its child [b2] is
    old, so its new attempt is not forced, and is skipped since the attempt is still pending.  Nobody looks at [b2] again:
    it stays in the pool although the chain has its parent and would accept it. *)
Definition old_child : list wlabel :=
  apps (submit_call 0 b2 ++ attempt_at 0 0) ++ [WAnswer 0] ++ apps (submit_call 1 b1 ++ attempt_at 0 1) ++
  [WAnswer 1; WApp (LStatus 1 none_lost); WApp (LRet 1); WAnnounce 0; WApp (LBroadcast 0); WApp (LTry 0); WApp (LTry 0); WApp (LStatus 0 none_lost)].
Theorem C99_old_child_refuted : exists judge o root head lib dur now sched w parent h ks k,
  good_dur dur /\ 0 < ao_jobs o /\ wreaches judge o root head lib dur now sched w /\ running (w_s w) /\ wrest w /\
  (head + ao_max_delta o + 1 < two64)%N /\ (ao_max_pending o < 2 ^ 63)%N /\ successors parent h ks /\ parent ∈ root /\ (h <= head)%N /\
  along judge o (welcome o head parent h ks) (world_init root head lib dur now) sched /\
  (forall k, k ∈ ks -> passed (w_s w) k /\ judge k = None /\ (lib < k_height k)%N /\ (k_id k ∈ root -> (k_height k <= head)%N)) /\
  k ∈ ks /\ k_prev k ∈ w_chain w /\
  forall more w', Forall wown more -> wrun judge o w more = Some w' -> k_id k ∉ w_chain w' /\ k_id k ∈ held_ids (w_s w').
Proof.
  destruct (wfinal_run (fun w => ((s_cancelled (w_s w), s_panic (w_s w), s_hang (w_s w)), map cl_blk (s_calls (w_s w)), rest_b w, bool_decide ("b2"%string ∈ w_chain w), bool_decide ("b2"%string ∈ held_ids (w_s w)),
      bool_decide ("b1"%string ∈ w_chain w)))
    has_bad roomy (world_init {["root"; "side"]}%string 11 5 five_min ten_min) old_child ((false, false, false), [k2; k1], true, false, true, true)) as (w & Hw & E); [vm_compute; reflexivity|].
  assert (Hr : wreaches has_bad roomy {["root"; "side"]}%string 11 5 five_min ten_min old_child w).
  { split; [vm_compute; reflexivity|]. split; [apply wu64_checks; vm_compute; reflexivity|]. split; [|exact Hw]. repeat (apply Forall_cons; split; [first [exact I|discriminate]|]). apply Forall_nil. exact I. }
  clear Hw. injection E as E1 E2 E3 E4 E5 E6 E7 E8.
  assert (Hcase : forall k, k ∈ [k1; k2] -> k = k1 \/ k = k2) by (intros k Hk; rewrite !elem_of_cons, elem_of_nil in Hk; tauto).
  exists has_bad, roomy, {["root"; "side"]}%string, 11%N, 5%N, five_min, ten_min, old_child, w, "root"%string, 10%N, [k1; k2], k2. split_and!.
  - done.
  - cbn. lia.
  - exact Hr.
  - split; [exact E1|]. split; [exact E2|exact E3].
  - by apply rest_check.
  - vm_compute; reflexivity.
  - vm_compute; reflexivity.
  - by split_and!.
  - set_solver.
  - done.
  - apply (along_check _ _ _ _ _ (welcome_check _ _ _ _ _)). vm_compute. reflexivity.
  - intros k Hk. split.
    { assert (Hin : k ∈ map cl_blk (s_calls (w_s w))) by (rewrite E4; apply Hcase in Hk as [->| ->]; [right; left|left]).
      apply elem_of_list_fmap in Hin as (cl & -> & Hin). apply elem_of_list_lookup in Hin as (c & Hc). by exists c, cl. }
    split; [apply Hcase in Hk as [->| ->]; vm_compute; reflexivity|]. split; [apply Hcase in Hk as [->| ->]; vm_compute; reflexivity|].
    apply Hcase in Hk as [->| ->]; intros [Hx|Hx]%elem_of_union; apply elem_of_singleton in Hx; discriminate Hx.
  - right; left.
  - by apply bool_decide_eq_true in E8.
  - apply bool_decide_eq_false in E6. apply bool_decide_eq_true in E7. apply rest_check in E5.
    intros more w' Hown Hrun. destruct (rest_stays _ _ _ _ _ E5 Hown Hrun) as (-> & Hcore). split; [done|]. unfold held_ids in *. by rewrite Hcore.
Qed.
Print Assumptions C99_old_child_refuted.
