(** Proofs: with a chain service that works and blocks that are welcome, nothing goes wrong. *)
From Verif Require Import GoBase Util TxCache_Model TxCache_Spec TxCache_Proofs Watchdog_Model
  Applicator_Model Applicator_Spec Applicator_Core Applicator_Sys Applicator_Inv Applicator_Inv2 Applicator_Inv3 Applicator_Inv4
  Applicator_Inv5 Applicator_Inv6 Applicator_Inv7 Applicator_Props Deliver_Spec Deliver_Proofs Deliver_Props Rest_Spec Rest_Proofs Honest_Spec Honest_Proofs.

(** ** What a call returns *)
Definition timed_out : option goerr := Some (ESent ErrBlockApplicationTimeout).
Definition RetOk (s : sys) : Prop := forall c cl r, s_calls s !! c = Some cl -> cl_phase cl = CRet r -> cl_buf cl = Some r \/ r = timed_out.
Lemma RetOk_step o s lab s' : Acc s -> Acc s' -> RetOk s -> Step o s lab s' -> RetOk s'.
Proof.
  intros HA HA' HR H.
  assert (Heffs : forall l e x, s_calls x = s_calls s -> (exists new, s_log x = new ++ s_log s) -> Acc (do_effs l e x) -> RetOk (do_effs l e x)).
  { intros l e x Ex (new & El) Hx c cl r Hc Hph. pose proof (do_effs_same l e x) as HS.
    destruct (se_blk _ _ _ HS _ _ Hc) as (cl0 & H0 & _ & Ep). rewrite Ex in H0. destruct (HR c cl0 r H0 ltac:(congruence)) as [Hb|]; [left|by right].
    assert (Hin : OAnswer c r ∈ s_log (do_effs l e x)).
    { destruct (se_log _ _ _ HS) as (new2 & -> & _). rewrite El. apply elem_of_app. right. apply elem_of_app. right. apply (a_log s HA). eauto. }
    apply (a_log _ Hx) in Hin as (cl1 & H1 & ?). congruence. }
  assert (Hins : forall (c : nat) cl', (forall r, cl_phase cl' = CRet r -> cl_buf cl' = Some r \/ r = timed_out) -> forall c0 cl0 r, <[c := cl']> (s_calls s) !! c0 = Some cl0 -> cl_phase cl0 = CRet r -> cl_buf cl0 = Some r \/ r = timed_out).
  { intros c cl' Hcl c0 cl0 r H0 Hph. destruct (decide (c = c0)) as [->|].
    - destruct (lt_dec c0 (length (s_calls s))) as [Hlt|Hge]; [rewrite list_lookup_insert in H0 by done; injection H0 as <-; auto|].
      rewrite list_insert_ge in H0 by lia. by eapply HR.
    - rewrite list_lookup_insert_ne in H0 by done. by eapply HR. }
  destruct H; try exact HR; try (apply Heffs; [done|first [by exists []|by eexists [_]]|done]).
  - intros c cl r [Hc|(_ & Hc)]%lookup_app_Some Hph; [by eapply HR|]. apply list_lookup_singleton_Some in Hc as [_ <-]. done.
  - intros c0 cl0 r0. apply Hins. done.
  - intros c0 cl0 r0. apply Hins. cbn. intros ? [= <-]. by left.
  - intros c0 cl0 r0. apply Hins. cbn. intros ? [= <-]. by right.
Qed.
Lemma reach_ret o head lib dur now sched s : reaches o head lib dur now sched s -> RetOk s.
Proof.
  intros (Hl & HW & Hr). cut (Inv o head lib s /\ RetOk s); [tauto|].
  eapply (run_indW o u64_label (fun s => Inv o head lib s /\ RetOk s)); [|done| |exact Hr].
  - intros s1 lab s2 Hu (HI & HR) Hp Hst. pose proof (Inv_step _ _ _ _ _ _ Hu HI Hp Hst) as HI'. split; [done|]. eapply RetOk_step; [apply HI|apply HI'|done|done].
  - split; [by apply Inv_init|]. by intros c cl r Hc.
Qed.

(** ** Which events a step adds, and why *)
Definition cause (o : ap_opts) (s : sys) (lab : label) (new : list event) (e : event) : Prop :=
  match e with
  | OAnswer c r =>
    (exists lose rest cl x, lab = LNew lose /\ s_new s = c :: rest /\ s_calls s !! c = Some cl /\ new_refusal o (cl_blk cl) (s_core s) x /\ r = Some x) \/
    (exists i k en, s_att s !! i = Some (Attempt k (PStatus r)) /\ ~ transient r /\ c_byid (s_core s) !! k_id k = Some en /\ c ∈ e_chans en) \/
    (exists i lose fh l id en, lab = LForkHeads i lose /\ s_fh s !! i = Some fh /\ fh_lib fh = Some l /\ c_byid (s_core s) !! id = Some en /\ c ∈ e_chans en /\ (k_height (e_blk en) <= l)%N)
  | OStatus i k r => s_att s !! i = Some (Attempt k (PStatus r))
  | ODelayTimeout i k r => exists w t, s_att s !! i = Some (Attempt k (PDelay w t))
  | OAccepted b t => b ∈ s_bc s
  | OLib l => exists i lose fh, lab = LForkHeads i lose /\ s_fh s !! i = Some fh /\ fh_lib fh = Some l
  | OResult i k r => new = [OResult i k r] /\ lab = LRpcDone i r /\ s_att s !! i = Some (Attempt k PRpc)
  | OSubmit i k t => new = [OSubmit i k t] /\ exists p, s_att s !! i = Some (Attempt k p)
  | _ => True
  end.
Lemma events o head lib0 s lab s' : Inv o head lib0 s -> Step o s lab s' -> exists new, s_log s' = new ++ s_log s /\ forall e, e ∈ new -> cause o s lab new e.
Proof.
  intros HI H.
  assert (Hnil : exists new : list event, s_log s = new ++ s_log s /\ forall e, e ∈ new -> cause o s lab new e) by (exists []; split; [done|]; intros e He; by apply elem_of_nil in He).
  assert (Hone : forall x, cause o s lab [x] x -> exists new, x :: s_log s = new ++ s_log s /\ forall e, e ∈ new -> cause o s lab new e).
  { intros x Hx. exists [x]. split; [done|]. intros e ->%elem_of_list_singleton. done. }
  destruct H; try exact Hnil; try (apply Hone; exact I).
  - (* new *) destruct (se_log _ _ _ (do_effs_same lose effs (set_core core' (set_new rest s)))) as (new & El & Hn). exists new. split; [done|].
    intros e He. destruct (Hn e He) as (ch & res & -> & Ha). left.
    apply handle_new_cases in H2 as [(x & Hx & _ & ->)|[_ Hadd]].
    + apply elem_of_map in Ha as (ch' & [= -> ->] & ->%elem_of_list_singleton). by exists lose, rest, cl, x.
    + exfalso. unfold add_entry in Hadd. injection Hadd as _ <-. repeat case_bool_decide; try (by apply elem_of_nil in Ha). by apply elem_of_list_singleton in Ha.
  - apply Hone. cbn. eauto.
  - apply Hone. cbn. eauto.
  - apply Hone. cbn. eauto.
  - (* status *) destruct (se_log _ _ _ (do_effs_same lose effs (add_log (OStatus i k res) (set_core core' (set_phase i PDone s))))) as (new & El & Hn).
    exists (new ++ [OStatus i k res]). split; [rewrite El; by rewrite <- (assoc_L (++))|]. intros e [He|He]%elem_of_app.
    2:{ apply elem_of_list_singleton in He as ->. done. }
    destruct (Hn e He) as (ch & r & -> & Ha). right; left.
    apply handle_status_cases in H1 as [(_ & _ & ->)|[(_ & _ & _ & ->)|(Hb & Hu & ans & Hsh & ->)]].
    + by apply elem_of_list_singleton in Ha.
    + by apply elem_of_nil in Ha.
    + apply elem_of_app in Ha as [Ha|Ha].
      * destruct res; [by apply elem_of_nil in Ha|]. destruct (children_only_spawn _ _ _ _ _ Ha) as (? & ? & ? & ?). done.
      * destruct (sh_effs _ _ _ _ _ Hsh _ Ha) as (ch' & id & en & [= -> ->] & -> & He' & Hc). exists i, k, en. split_and!; try done.
        unfold transient. rewrite Hb, Hu. by intros [?|?].
  - (* the endless loop *) apply Hone. cbn. eauto 8.
  - (* fork heads *) match goal with |- context [do_effs ?l ?e ?x] => destruct (se_log _ _ _ (do_effs_same l e x)) as (new & El & Hn) end.
    exists (new ++ [OLib (c_lib core')]). split; [rewrite El; by rewrite <- (assoc_L (++))|]. intros e [He|He]%elem_of_app.
    2:{ apply elem_of_list_singleton in He as ->. cbn. destruct (handle_lib_fork_heads _ _ _ _ _ _ _ H1 H3) as (-> & _). eauto 8. }
    destruct (Hn e He) as (ch & r & -> & Ha). right; right.
    assert (Hlt : (lib < two64)%N) by (eapply (lb_fh s (v_libs _ _ _ _ HI) fh); [by eapply elem_of_list_lookup_2|done]).
    assert (Hlt' : (lib < max_u64)%N) by (unfold max_u64 in *; lia).
    destruct (handle_fork_heads_cases _ _ _ _ _ _ _ (a_ok s (v_acc _ _ _ _ HI)) H1 Hlt' (lb_lib s (v_libs _ _ _ _ HI)) H3) as (ans & -> & Hsh).
    apply elem_of_app in Ha as [Ha|Ha].
    + apply elem_of_list_join in Ha as (l & Hl2 & Hl3). apply elem_of_map in Hl3 as (x & -> & _). destruct (children_only_spawn _ _ _ _ _ Hl2) as (? & ? & ? & ?). done.
    + destruct (sh_effs _ _ _ _ _ Hsh _ Ha) as (ch' & id & en & [= -> ->] & (e2 & He2 & Hr) & He' & Hc). cbn in He'. rewrite He2 in He'. injection He' as ->.
      exists i, lose, fh, lib, id, en. split_and!; try done. lia.
  - (* broadcast *) match goal with |- context [do_effs ?l ?e ?x] => destruct (se_log _ _ _ (do_effs_same l e x)) as (new & El & Hn) end.
    exists (new ++ [OAccepted b (s_now s)]). split; [rewrite El; by rewrite <- (assoc_L (++))|]. intros e [He|He]%elem_of_app.
    2:{ apply elem_of_list_singleton in He as ->. cbn. by eapply elem_of_list_lookup_2. }
    destruct (Hn e He) as (ch & r & -> & Ha). exfalso. injection H3 as _ <-. destruct (children_only_spawn _ _ _ _ _ Ha) as (? & ? & ? & ?). done.
Qed.
Definition spoken (s : sys) (b : block) : Prop := b ∈ s_bc s \/ exists t, OAccepted b t ∈ s_log s.
Lemma spoken_step o head lib0 s lab s' b : Inv o head lib0 s -> Step o s lab s' -> s_panic s' = false -> spoken s' b <-> spoken s b \/ lab = LAccept b.
Proof.
  intros HI H Hp. destruct (events _ _ _ _ _ _ HI H) as (new & El & Hn). destruct (step_log_grows _ _ _ _ H) as (new2 & El2). split.
  - intros [Hb|(t & Ht)].
    + destruct H; try (left; left; exact Hb); try (match goal with _ : context [do_effs ?l ?e ?x] |- _ => rewrite (se_bc _ _ _ (do_effs_same l e x)) in Hb; cbn in Hb end);
        try (left; left; exact Hb); try (left; left; apply elem_of_delete in Hb; exact Hb).
      cbn in Hb. apply elem_of_app in Hb as [Hb| ->%elem_of_list_singleton]; [left; by left|by right].
    + rewrite El in Ht. apply elem_of_app in Ht as [Ht|Ht]; [left; left; by apply Hn in Ht|left; right; eauto].
  - assert (Hlog : (exists t, OAccepted b t ∈ s_log s) -> spoken s' b).
    { intros (t & Ht). right. exists t. rewrite El. apply elem_of_app. by right. }
    intros [[Hb|Ht]| ->]; [|by apply Hlog|].
    + destruct H; try (left; exact Hb); try (match goal with |- spoken (do_effs ?l ?e ?x) _ => left; rewrite (se_bc _ _ _ (do_effs_same l e x)); exact Hb end); try done.
      * left. cbn. apply elem_of_app. by left.
      * match goal with |- spoken (do_effs ?l ?e ?x) _ => pose proof (do_effs_same l e x) as HS end.
        destruct (elem_delete_or _ _ _ _ Hb H0) as [->|Hd]; [right; exists (s_now s)|left; rewrite (se_bc _ _ _ HS); exact Hd].
        destruct (se_log _ _ _ HS) as (n3 & -> & _). apply elem_of_app. right. left.
    + inversion H; subst. left. cbn. apply elem_of_app. right. left.
Qed.
Lemma lib_or o head lib0 s lab s' : Inv o head lib0 s -> Step o s lab s' -> c_lib (s_core s') = c_lib (s_core s) \/
  exists i lose fh, lab = LForkHeads i lose /\ s_fh s !! i = Some fh /\ fh_lib fh = Some (c_lib (s_core s')).
Proof.
  intros HI H. destruct H; try (by left); try (match goal with |- context [do_effs ?l ?e ?x] => rewrite !(se_core _ _ _ (do_effs_same l e x)); cbn [s_core set_core add_log] end).
  - left. by apply handle_lib_new in H2 as (? & _).
  - left. by apply handle_lib_status in H1 as (? & _).
  - right. by exists i, lose, fh.
  - right. exists i, lose, fh. split_and!; [done|done|]. destruct (handle_lib_fork_heads _ _ _ _ _ _ _ H1 H3) as (-> & _). done.
  - left. by apply handle_lib_broadcast in H3 as (? & _).
Qed.
(** A block the applicator is done with, and that is irreversible, stays so. *)
Lemma idle_step o head lib0 s lab s' id : Inv o head lib0 s -> s_panic s = false -> Step o s lab s' -> idle s id ->
  (forall lose c rest cl, lab = LNew lose -> s_new s = c :: rest -> s_calls s !! c = Some cl -> k_id (cl_blk cl) = id -> (k_height (cl_blk cl) <= c_lib (s_core s))%N) -> idle s' id.
Proof.
  intros HI Hp Hst (Hheld & Htry & Hatt) Hnew.
  assert (Hh : id ∉ held_ids s').
  { intros Hin. unfold held_ids in Hin. apply elem_of_dom in Hin as ([k cs] & He).
    destruct (held_new _ _ _ _ _ _ _ _ _ HI Hp Hst He) as [(cs0 & H0)|(Hnh & -> & lose & c & rest & cl & core' & effs & -> & Hn & Hc & <- & _ & _)].
    - apply Hheld. unfold held_ids. apply elem_of_dom. eauto.
    - specialize (Hnew _ _ _ _ eq_refl Hn Hc eq_refl). unfold held_ids in Hnh.
      inversion Hst; subst; try congruence.
      match goal with X : s_new s = _ :: _, Y : s_calls s !! _ = Some _, Z : handle_new _ _ _ _ _ = _ |- _ => rename X into Hn'; rename Y into Hc'; rename Z into Hhn end.
      rewrite Hn in Hn'. injection Hn' as <- <-. rewrite Hc in Hc'. injection Hc' as <-.
      rewrite (se_core _ _ _ (do_effs_same _ _ _)) in He. cbn [s_core set_core] in He.
      apply handle_new_cases in Hhn as [(x & _ & -> & _)|[(_ & _ & Hlt) _]]; [|lia]. apply Hnh. apply elem_of_dom. eauto. }
  split_and!; [done| |].
  - intros k f t Hin E. destruct (spawned _ _ _ _ _ _ _ _ _ HI Hp Hst Hin) as [(f' & t' & Hin')|[(id' & cs & He)|[(i & p & Hi & Hnp)|Hx]]].
    + by eapply Htry.
    + apply Hheld. pose proof (ok_id _ (a_ok s (v_acc _ _ _ _ HI)) id' _ He) as Eid. cbn [e_blk] in Eid. unfold held_ids. apply elem_of_dom. rewrite <- E, Eid. eauto.
    + apply Hnp. by eapply Hatt.
    + apply Hh. by rewrite <- E.
  - intros i k p Hi E. assert (p = PDone \/ p <> PDone) as [?|Hnp] by (destruct p; auto); [done|]. apply (att_back _ _ _ _ _ _ _ Hst Hi) in Hnp as [(p0 & Hi0 & Hn0)|(_ & f & t & Hin)]; exfalso.
    + apply Hn0. exact (Hatt i k p0 Hi0 E).
    + exact (Htry _ _ _ Hin E).
Qed.
(** How attempts go on. *)
Lemma att_cases o s lab s' i k p' : Step o s lab s' -> s_att s' !! i = Some (Attempt k p') ->
  s_att s !! i = Some (Attempt k p') \/ (p' = PStart /\ exists f t, (k, f, t) ∈ s_try s) \/
  (exists p, s_att s !! i = Some (Attempt k p) /\
    match p' with
    | PDelay _ _ => p' = start_phase o (s_now s) k
    | PStatus r => (exists w t, p = PDelay w t) \/ (p = PQueued /\ r = irr /\ (k_height k <= c_lib (s_core s))%N) \/ (lab = LRpcDone i r /\ p = PRpc)
    | _ => True
    end).
Proof.
  intros H Hi.
  assert (Halt : forall j q q0 k0, s_att s !! j = Some (Attempt k0 q0) -> alter (fun a => Attempt (at_blk a) q) j (s_att s) !! i = Some (Attempt k p') ->
    s_att s !! i = Some (Attempt k p') \/ (j = i /\ k0 = k /\ p' = q)).
  { intros j q q0 k0 Hj E. apply alter_lookup_phase in E as [(-> & a0 & Ha & Heq)|(_ & ?)]; [|by left].
    rewrite Hj in Ha. injection Ha as <-. injection Heq as -> ->. by right. }
  destruct H; try (by left); try (match goal with _ : context [do_effs ?l ?e ?x] |- _ => rewrite !(se_att _ _ _ (do_effs_same l e x)) in Hi; cbn in Hi end); try (by left).
  - cbn in Hi. apply lookup_app_Some in Hi as [?|(_ & Hi)]; [by left|]. apply list_lookup_singleton_Some in Hi as [_ Heq]. injection Heq as <- <-.
    right; left. split; [done|]. exists f, t. by eapply elem_of_list_lookup_2.
  - destruct (Halt _ _ _ _ H Hi) as [?|(-> & -> & ->)]; [by left|]. right; right. exists PStart. split; [done|]. unfold start_phase. by case_bool_decide.
  - destruct (Halt _ _ _ _ H Hi) as [?|(-> & -> & ->)]; [by left|]. right; right. by exists (PDelay w t).
  - destruct (Halt _ _ _ _ H Hi) as [?|(-> & -> & ->)]; [by left|]. right; right. exists (PDelay w t). split; [done|]. left. eauto.
  - destruct (Halt _ _ _ _ H0 Hi) as [?|(-> & -> & ->)]; [by left|]. right; right. by exists p.
  - destruct (Halt _ _ _ _ H Hi) as [?|(-> & -> & ->)]; [by left|]. right; right. exists PQueued. split; [done|]. right; left. done.
  - destruct (Halt _ _ _ _ H Hi) as [?|(-> & -> & ->)]; [by left|]. right; right. by exists PQueued.
  - destruct (Halt _ _ _ _ H Hi) as [?|(-> & -> & ->)]; [by left|]. right; right. by exists (PChecked lib).
  - destruct (Halt _ _ _ _ H Hi) as [?|(-> & -> & ->)]; [by left|]. right; right. exists PRpc. split; [done|]. right; right. done.
  - destruct (Halt _ _ _ _ H0 Hi) as [?|(-> & -> & ->)]; [by left|]. right; right. by exists (PStatus res).
Qed.

(** ** Nothing goes wrong *)
Lemma size_held s : size (held_ids s) = size (c_byid (s_core s)).
Proof. unfold held_ids. by rewrite size_dom. Qed.
Section calm.
Context (judge : blk -> option goerr) (o : ap_opts) (root : gset string) (head lib : N) (dur now : Z) (parent : string) (hp : N) (ks : list blk).
Context (Hdur : good_dur dur) (Hjudge : forall k, k ∈ ks -> judge k = None) (Hlow : (head + ao_max_delta o + 1 < two64)%N) (Hpend : (ao_max_pending o < 2 ^ 63)%N)
  (Hwf : forall k, k ∈ ks -> b_header (k_src k) = Some (k_hdr k)) (Hlib : forall k, k ∈ ks -> (k_height k <= lib)%N -> k_id k ∈ root).
Definition fam (id : string) : Prop := id = parent \/ exists k, k ∈ ks /\ k_id k = id.
Definition fits (s : sys) (k : blk) : Prop :=
  (k_height k <= max_accepted head (s_log s) + ao_max_delta o)%N /\ (block_instant (k_time k) <= s_now s + ao_delay_threshold o)%Z.
Record CalmS (s : sys) : Prop := {
  cs_calls : forall k, passed s k -> identified parent hp ks (k_src k) /\ low o (k_src k) /\ k_id k <> parent /\ (k ∈ ks -> fits s k);
  cs_idle : forall k, k ∈ ks -> (k_height k <= c_lib (s_core s))%N -> idle s (k_id k);
  cs_att : forall i k p, s_att s !! i = Some (Attempt k p) -> fam (k_id k) ->
    match p with PDelay _ _ => False | PStatus r => r = None \/ r = Some (ESent ErrUnknownPreviousBlock) | _ => True end;
  cs_ref : untroubled fam s;
  cs_ans : forall c cl e, s_calls s !! c = Some cl -> fam (k_id (cl_blk cl)) -> OAnswer c (Some e) ∈ s_log s -> Some e = irr /\ irreversible lib (s_log s) (k_height (cl_blk cl)) }.
Lemma fam_in sched s k : reaches o head lib dur now sched s -> CalmS s -> passed s k -> fam (k_id k) -> k ∈ ks.
Proof.
  intros Hr HC Hk [E|(k' & Hin & E)].
  - exfalso. destruct (cs_calls s HC k Hk) as (_ & _ & Hn & _). by apply Hn.
  - destruct (cs_calls s HC k Hk) as ((_ & Hid) & _). specialize (Hid k' Hin (eq_sym E)).
    pose proof (reach_hdrs _ _ _ _ _ _ _ _ Hr Hk) as H1. pose proof (Hwf _ Hin) as H2. destruct k as [b h], k' as [b' h']. cbn in *. subst b'. congruence.
Qed.
Lemma fam_same sched s k k' : reaches o head lib dur now sched s -> CalmS s -> passed s k -> k' ∈ ks -> k_id k = k_id k' -> k = k'.
Proof.
  intros Hr HC Hk Hin E. destruct (cs_calls s HC k Hk) as ((_ & Hid) & _). specialize (Hid k' Hin E).
  pose proof (reach_hdrs _ _ _ _ _ _ _ _ Hr Hk) as H1. pose proof (Hwf _ Hin) as H2. destruct k as [b h], k' as [b' h']. cbn in *. subst b'. congruence.
Qed.
(** What a step must fulfil. *)
Definition kind (w : world) (lab : label) : Prop :=
  match lab with
  | LRpcDone i r => exists k, s_att (w_s w) !! i = Some (Attempt k PRpc) /\ r = verdict judge (w_chain w) k
  | LAccept b => b ∈ w_owed w
  | _ => welcome o head parent hp ks w (WApp lab)
  end.
Lemma CalmS_step sched w lab s' : reaches o head lib dur now sched (w_s w) -> (max_accepted head (s_log (w_s w)) + ao_max_delta o + 1 < two64)%N ->
  kind w lab -> CalmS (w_s w) -> s_panic (w_s w) = false -> Step o (w_s w) lab s' -> CalmS s'.
Proof.
  intros Hr Hmax Hk HC Hpan Hst. set (s := w_s w) in *. pose proof (reaches_inv _ _ _ _ _ _ _ Hr) as HI.
  destruct (events _ _ _ _ _ _ HI Hst) as (new & El & Hn). pose proof (now_step _ _ _ _ Hst) as Hnow.
  assert (Hfam : forall k, passed s k -> fam (k_id k) -> k ∈ ks) by (intros; by eapply fam_in).
  assert (Hatt : forall i k p, s_att s !! i = Some (Attempt k p) -> passed s k) by (intros i k p Hi; apply (pv_att s (v_prov _ _ _ _ HI) _ _ Hi)).
  assert (Hfits : forall k, fits s k -> fits s' k).
  { intros k [F1 F2]. split; [|lia]. rewrite El. pose proof (max_accepted_back head new (s_log s)). lia. }
  assert (HA := cs_att s HC).
  assert (Hlibs : forall h, irreversible lib (s_log s) h -> irreversible lib (s_log s') h).
  { intros h [?|(l & Hin & Hle)]; [by left|right]. exists l. split; [|done]. rewrite El. apply elem_of_app. by right. }
  split.
  - intros k (c & cl & Hc & <-). destruct (calls_back _ _ _ _ _ _ Hst Hc) as [(cl0 & H0 & ->)|(b & h & -> & Hb & ->)].
    + destruct (cs_calls s HC (cl_blk cl0)) as (H1 & H2 & H3 & H4); [by exists c, cl0|]. split_and!; auto.
    + destruct Hk as (Hk1 & Hk2 & Hk4 & Hk3). cbn [k_src]. split_and!; [done|done|done|]. intros Hin. apply Hfits. destruct (Hk3 _ Hin eq_refl). by split.
  - intros k Hin Hle.
    assert (Hidle : idle s (k_id k) /\ ((exists lose, lab = LNew lose) -> (k_height k <= c_lib (s_core s))%N)).
    { destruct (lib_or _ _ _ _ _ _ HI Hst) as [E|(i & lose & fh & -> & Hfh & Hl)].
      - rewrite E in Hle. split; [by apply (cs_idle s HC)|done].
      - destruct (Hk fh _ k Hfh Hl Hin Hle) as [_ ?]. split; [done|]. by intros (? & ?). }
    destruct Hidle as [Hidle Hnew]. eapply idle_step; [exact HI|done|exact Hst|done|]. intros lose c rest cl -> _ Hc E.
    assert (cl_blk cl = k) as ->; [|eauto]. eapply fam_same; [exact Hr|exact HC|by exists c, cl|done|done].
  - intros i k p Hi Hf. destruct (att_cases _ _ _ _ _ _ _ Hst Hi) as [Hi'|[(-> & _)|(p0 & Hi' & Hc)]]; [by eapply HA|done|].
    pose proof (Hfam k (Hatt _ _ _ Hi') Hf) as Hks. pose proof (HA _ _ _ Hi' Hf) as Hp0. destruct p as [|w0 t0| | | |r|]; try done.
    + (* no delay *) unfold start_phase in Hc. case_bool_decide as Hd; [|done]. destruct (cs_calls s HC k (Hatt _ _ _ Hi')) as (_ & _ & _ & H3). destruct (H3 Hks) as [_ ?]. lia.
    + destruct Hc as [(w0 & t0 & ->)|[(-> & _ & Hle)|(-> & ->)]]; [done| |].
      * destruct (cs_idle s HC k Hks Hle) as (_ & _ & Hd). by specialize (Hd _ _ _ Hi' eq_refl).
      * destruct Hk as (k2 & Hi2 & ->). fold s in Hi2. rewrite Hi' in Hi2. injection Hi2 as <-. unfold verdict. rewrite (Hjudge _ Hks). repeat case_bool_decide; auto.
  - destruct (cs_ref s HC) as (R2 & R3). split.
    + intros i k e Hf. rewrite El. intros [Hin|Hin]%elem_of_app; [|by eapply R2]. apply Hn in Hin. destruct (HA _ _ _ Hin Hf) as [?|E]; [done|]. injection E as ->. by right.
    + intros i k r Hf. rewrite El. intros [Hin|Hin]%elem_of_app; [|by eapply R3]. apply Hn in Hin as (w0 & t0 & Hi). by apply (HA _ _ _ Hi Hf).
  - intros c cl e Hc Hf Hin. rewrite El in Hin. apply elem_of_app in Hin as [Hin|Hin].
    2:{ pose proof Hin as Hin2. apply (a_log s (v_acc _ _ _ _ HI)) in Hin as (cl0 & H0 & _). destruct (call_step _ _ _ _ _ _ Hst H0) as (cl1 & H1 & Eb). rewrite Hc in H1. injection H1 as <-.
        rewrite Eb in Hf |- *. destruct (cs_ans s HC _ _ _ H0 Hf Hin2). auto. }
    apply Hn in Hin as [(lose & rest & cl0 & x & -> & Hnew & H0 & Hx & E)|[(i & k & en & Hi & Ht & He & Hch)|(i & lose & fh & l & id & en & -> & Hfh & Hl & He & Hch & Hle)]].
    + injection E as <-. destruct (call_step _ _ _ _ _ _ Hst H0) as (cl1 & H1 & Eb). rewrite Hc in H1. injection H1 as <-. rewrite Eb in Hf |- *.
      assert (Hp : passed s (cl_blk cl0)) by (by exists c, cl0). pose proof (Hfam _ Hp Hf) as Hks. destruct (cs_calls s HC _ Hp) as (_ & _ & _ & H3). destruct (H3 Hks) as [F1 _].
      cbn in Hk. fold s in Hk. rewrite size_held in Hk.
      rewrite <- (v_high _ _ _ _ HI) in F1, Hmax. destruct Hx as [(_ & Hx)|[(_ & _ & Hx)|(-> & Hx & _)]].
      * exfalso. unfold add64 in Hx. rewrite N.mod_small in Hx by lia. lia.
      * exfalso. rewrite wrap_small in Hx by lia. lia.
      * split; [done|]. apply Hlibs. rewrite (j_lib _ _ (v_just _ _ _ _ HI)) in Hx. destruct (last_lib_seen lib (s_log s)) as [Hs|Hs]; [rewrite Hs in Hx; by left|right; eauto].
    + exfalso. destruct (a_ids s (v_acc _ _ _ _ HI) _ _ _ He Hch) as (cl0 & H0 & E0). destruct (call_step _ _ _ _ _ _ Hst H0) as (cl1 & H1 & Eb). rewrite Hc in H1. injection H1 as <-.
      rewrite Eb, E0 in Hf. destruct (HA _ _ _ Hi Hf) as [?|E]; [done|]. injection E as ->. apply Ht. by right.
    + exfalso. destruct (a_ids s (v_acc _ _ _ _ HI) _ _ _ He Hch) as (cl0 & H0 & E0). destruct (call_step _ _ _ _ _ _ Hst H0) as (cl1 & H1 & Eb). rewrite Hc in H1. injection H1 as <-.
      rewrite Eb, E0 in Hf. pose proof (ok_id _ (a_ok s (v_acc _ _ _ _ HI)) _ _ He) as Eid. rewrite <- Eid in Hf.
      pose proof (Hfam _ (pv_byid s (v_prov _ _ _ _ HI) _ _ He) Hf) as Hks.
      destruct (Hk fh l _ Hfh Hl Hks Hle) as [_ (Hnh & _)]. apply Hnh. unfold held_ids. apply elem_of_dom. rewrite Eid. eauto.
Qed.
(** What the chain has, and what it has said. *)
Definition told (w : world) (b : block) : Prop := b ∈ w_owed w \/ spoken (w_s w) b.
Definition Qt (e : event) (r : list event) : Prop :=
  match e with OResult i k (Some e) => fam (k_id k) -> has_block root r (k_prev k) \/ applied r (k_id k) -> is_err_opt (Some e) ErrUnknownPreviousBlock = false | _ => True end.
Record Calm (w : world) : Prop := {
  cm_s : CalmS (w_s w);
  cm_kept : exists sched, reaches o head lib dur now sched (w_s w) /\ kept fam o (sys_init head lib dur now) sched;
  cm_root : root ⊆ w_chain w;
  cm_lib : forall k, k ∈ ks -> irreversible lib (s_log (w_s w)) (k_height k) -> k_id k ∈ w_chain w;
  cm_applied : forall id, applied (s_log (w_s w)) id -> id ∈ w_chain w;
  cm_told : forall b, told w b -> low o b /\ identified parent hp ks b /\ str (b_id b) ∈ w_chain w;
  cm_conv : forall id, id ∈ w_chain w -> id ∈ root \/ exists b, told w b /\ str (b_id b) = id;
  cm_truth : Hist Qt (s_log (w_s w)) }.
Lemma cm_has w id : Calm w -> has_block root (s_log (w_s w)) id -> id ∈ w_chain w.
Proof.
  intros HC [[?|(b & t & Hin & <-)]|?]; [by apply (cm_root w HC)| |by apply (cm_applied w HC)]. apply (cm_told w HC). right. right. eauto.
Qed.
Lemma cm_max w : Calm w -> (max_accepted head (s_log (w_s w)) + ao_max_delta o + 1 < two64)%N.
Proof.
  clear Hdur Hjudge Hpend Hwf Hlib. intros HC. assert (H : forall b t, OAccepted b t ∈ s_log (w_s w) -> low o b) by (intros b t Hin; apply (cm_told w HC); right; right; eauto).
  induction (s_log (w_s w)) as [|e log IH]; [done|]. assert (IH' : (max_accepted head log + ao_max_delta o + 1 < two64)%N) by (apply IH; intros b t Hin; apply (H b t); by right).
  destruct e; try exact IH'. cbn [max_accepted]. destruct (b_header b) as [hd|] eqn:Hb; [|exact IH']. pose proof (H b now0 (elem_of_list_here _ _) hd Hb). lia.
Qed.
Lemma Calm_init : (lib < two64)%N -> Calm (world_init root head lib dur now).
Proof.
  clear Hdur Hjudge Hpend Hwf Hlow. intros Hl. split; cbn.
  - split; cbn; try done. + by intros k (c & cl & Hc & _). + intros k _ _. split_and!; cbn; try done; set_solver. + split; cbn; set_solver.
  - exists []. by split_and!.
  - done.
  - intros k Hk [?|(l & Hin & _)]; [by apply Hlib|]. by apply elem_of_nil in Hin.
  - intros id (i & k & Hin & _). by apply elem_of_nil in Hin.
  - intros b [Hb|[Hb|(t & Hb)]]; by apply elem_of_nil in Hb.
  - auto.
  - done.
Qed.
(** The applicator's part of a step. *)
Lemma kept_more s s1 lab s' sched : run o s sched = Some s1 -> kept fam o s sched -> step o s1 lab = Some s' -> keeps fam s1 lab s' -> kept fam o s (sched ++ [lab]).
Proof.
  revert s. induction sched as [|x r IH]; intros s Hr HK Hst Hkp; cbn in *; [injection Hr as ->; by rewrite Hst|]. destruct (step o s x) as [s2|]; [|done].
  destruct HK. split; [done|]. by apply IH.
Qed.
Lemma Calm_app sched w lab s' : reaches o head lib dur now sched (w_s w) -> s_panic s' = false -> kind w lab -> Calm w -> u64_label lab -> step o (w_s w) lab = Some s' ->
  CalmS s' /\ (exists sched, reaches o head lib dur now sched s' /\ kept fam o (sys_init head lib dur now) sched) /\
  (forall k, k ∈ ks -> irreversible lib (s_log s') (k_height k) -> k_id k ∈ w_chain w) /\ (forall id, applied (s_log s') id -> id ∈ w_chain w \/ exists i k, lab = LRpcDone i None /\ s_att (w_s w) !! i = Some (Attempt k PRpc) /\ id = k_id k) /\
  (forall b, spoken s' b <-> spoken (w_s w) b \/ lab = LAccept b) /\ Hist Qt (s_log s').
Proof.
  intros Hr Hp Hk HC Hu Hstep. pose proof Hstep as Hst. apply step_Step in Hst as [Hp0 Hst]. pose proof (reaches_inv _ _ _ _ _ _ _ Hr) as HI. destruct (events _ _ _ _ _ _ HI Hst) as (new & El & Hn). split_and!.
  - eapply CalmS_step; [exact Hr|by apply cm_max|exact Hk|apply HC|done|exact Hst].
  - destruct (cm_kept w HC) as (sc & Hsc & HK). exists (sc ++ [lab]). split.
    + destruct Hsc as (H1 & H2 & H3). split_and!; [done|apply Forall_app; split; [done|by apply Forall_singleton]|]. rewrite (run_app _ _ _ _ _ H3). cbn. by rewrite Hstep.
    + eapply kept_more; [by destruct Hsc as (_ & _ & ?)|done|exact Hstep|]. intros (i & lose & ->) id Hf Hin. destruct (decide (id ∈ held_ids s')) as [?|Hgone]; [done|exfalso].
      pose proof Hin as Hin0. unfold held_ids in Hin. apply elem_of_dom in Hin as ([k cs] & He).
      destruct (leaves_step _ _ _ _ _ _ _ _ _ HI Hstep He Hgone) as [(? & ? & ? & ? & ? & _)|(i' & lose' & fh & l & E & Hfh & Hl & Hle)]; [done|]. injection E as <- <-.
      pose proof (ok_id _ (a_ok _ (v_acc _ _ _ _ HI)) _ _ He) as Eid. cbn [e_blk] in Eid. subst id.
      assert (Hks : k ∈ ks) by (eapply fam_in; [exact Hr|apply HC|apply (pv_byid _ (v_prov _ _ _ _ HI) _ _ He)|done]).
      destruct (Hk fh l k Hfh Hl Hks Hle) as [_ (Hnh & _)]. by apply Hnh.
  - intros k Hks [?|(l & Hin & Hle)]; [apply (cm_lib w HC); [done|by left]|]. rewrite El in Hin. apply elem_of_app in Hin as [Hin|Hin]; [|apply (cm_lib w HC); [done|right; eauto]].
    apply Hn in Hin as (i & lose & fh & -> & Hfh & Hl). by destruct (Hk fh l k Hfh Hl Hks Hle) as [? _].
  - intros id (i & k & Hin & <-). rewrite El in Hin. apply elem_of_app in Hin as [Hin|Hin].
    + apply Hn in Hin as (_ & -> & Hi). right. by exists i, k.
    + left. apply (cm_applied w HC). by exists i, k.
  - intros b. by eapply spoken_step.
  - rewrite El. apply Hist_app; [apply HC|]. intros l1 e l2 Enew. assert (He : e ∈ new) by (rewrite Enew; apply elem_of_app; right; left).
    apply Hn in He. destruct e as [| | | |i k r| | | | | | | |]; try done. destruct r as [e|]; [|done]. destruct He as (E1 & -> & Hi). intros Hf Hor.
    assert (l2 = []) as ->. { rewrite E1 in Enew. destruct l1 as [|? [|? ?]]; by injection Enew. }
    cbn [app] in Hor. destruct Hk as (k' & Hi' & Ev). rewrite Hi in Hi'. injection Hi' as <-.
    assert (Hks : k ∈ ks). { eapply fam_in; [exact Hr|apply HC| |done]. apply (pv_att _ (v_prov _ _ _ _ HI) _ _ Hi). }
    exfalso. unfold verdict in Ev. rewrite (Hjudge _ Hks) in Ev. case_bool_decide as Hd1; [done|]. case_bool_decide as Hd2; [done|].
    destruct Hor as [Hh|Hap]; [apply Hd2; by eapply cm_has|apply Hd1; by apply (cm_applied w HC)].
Qed.
Lemma Calm_step w lab w' : wu64 lab -> wcomplete lab -> Fair o head lib dur now w -> welcome o head parent hp ks w lab -> Calm w -> wstep judge o w lab = Some w' -> Calm w'.
Proof.
  intros Hu Hc HF Hw HC Hstep. pose proof (Fair_step judge o head lib dur now w lab w' Hu Hc HF Hstep) as HF'.
  destruct (fa_reach _ _ _ _ _ _ HF) as (sched & Hr & _). destruct (fa_reach _ _ _ _ _ _ HF') as (sched' & Hr' & HC').
  pose proof (reaches_no_panic _ _ _ _ _ _ _ Hdur HC' Hr') as Hp'. apply wstep_inv in Hstep. destruct lab as [l|i|j|b].
  - destruct Hstep as (Hb & Hs & Ec & Eo).
    assert (Hk : kind w l) by (by destruct l). destruct (Calm_app _ _ _ _ Hr Hp' Hk HC Hu Hs) as (H1 & HK & HL & H2 & H3 & H4).
    assert (Ht : forall b, told w' b <-> told w b). { intros b. unfold told. rewrite Eo, H3. split; [intros [?|[?| ->]]; auto; done|tauto]. }
    split; [done|done|rewrite Ec; apply HC|by rewrite Ec| | | |done].
    + intros id Hid. rewrite Ec. destruct (H2 id Hid) as [?|(? & ? & -> & _)]; done.
    + intros b Hb'. rewrite Ec. apply (cm_told w HC). by apply Ht.
    + intros id. rewrite Ec. intros Hid. destruct (cm_conv w HC id Hid) as [?|(b & Hb' & E)]; [by left|right]. exists b. split; [by apply Ht|done].
  - destruct Hstep as (k & Hi & Hs & Hcase). pose proof (reaches_inv _ _ _ _ _ _ _ Hr) as HI.
    assert (Hk : kind w (LRpcDone i (verdict judge (w_chain w) k))) by (by exists k). destruct (Calm_app _ _ _ _ Hr Hp' Hk HC I Hs) as (H1 & HK & HL & H2 & H3 & H4).
    assert (Hpass : passed (w_s w) k) by (apply (pv_att _ (v_prov _ _ _ _ HI) _ _ Hi)). destruct (cs_calls _ (cm_s w HC) k Hpass) as (C1 & C2 & _).
    assert (Hsp : forall b, spoken (w_s w') b <-> spoken (w_s w) b). { intros b. rewrite H3. split; [intros [?|?]; done|tauto]. }
    destruct Hcase as [(Ev & Hnew & Ec & Eo)|(Hold & Ec & Eo)].
    + assert (Ht : forall b, told w' b <-> told w b \/ b = k_src k). { intros b. unfold told. rewrite Eo, Hsp, elem_of_app, elem_of_list_singleton. tauto. }
      split; [done|done|rewrite Ec; pose proof (cm_root w HC); set_solver|rewrite Ec; intros k' Hk' Hir; apply elem_of_union_r; by apply HL| | | |done].
      * intros id Hid. rewrite Ec. destruct (H2 id Hid) as [?|(i' & k' & E & Hi' & ->)]; [set_solver|]. injection E as <- _. rewrite Hi in Hi'. injection Hi' as <-. set_solver.
      * intros b Hb'. rewrite Ec. apply Ht in Hb' as [Hb'| ->]; [destruct (cm_told w HC b Hb') as (? & ? & ?); split_and!; [done|done|set_solver]|].
        split_and!; [done|done|]. apply elem_of_union_l, elem_of_singleton. done.
      * intros id. rewrite Ec. intros [->%elem_of_singleton|Hid]%elem_of_union.
        -- right. exists (k_src k). split; [apply Ht; by right|done].
        -- destruct (cm_conv w HC id Hid) as [?|(b & Hb' & E)]; [by left|right]. exists b. split; [apply Ht; by left|done].
    + assert (Ht : forall b, told w' b <-> told w b). { intros b. unfold told. by rewrite Eo, Hsp. }
      split; [done|done|rewrite Ec; apply HC|by rewrite Ec| | | |done].
      * intros id Hid. rewrite Ec. destruct (H2 id Hid) as [?|(i' & k' & E & Hi' & ->)]; [done|]. injection E as <- Ev. rewrite Hi in Hi'. injection Hi' as <-.
        destruct Hold as [Hx|?]; [by destruct (Hx (eq_sym Ev)) || by destruct Hx|done].
      * intros b Hb'. rewrite Ec. apply (cm_told w HC). by apply Ht.
      * intros id. rewrite Ec. intros Hid. destruct (cm_conv w HC id Hid) as [?|(b & Hb' & E)]; [by left|right]. exists b. split; [by apply Ht|done].
  - destruct Hstep as (b & Hb & Hs & Ec & Eo). apply elem_of_list_lookup_2 in Hb as Hin. destruct (fa_owed _ _ _ _ _ _ HF b Hin) as [Hub _].
    assert (Hk : kind w (LAccept b)) by done. destruct (Calm_app _ _ _ _ Hr Hp' Hk HC Hub Hs) as (H1 & HK & HL & H2 & H3 & H4).
    assert (Ht : forall b, told w' b <-> told w b).
    { intros b0. unfold told. rewrite Eo, H3. split.
      - intros [Hd|[?|[= ->]]]; [left; by eapply elem_of_delete|by right|by left].
      - intros [Hd|?]; [|by right; left]. destruct (elem_delete_or _ _ _ _ Hd Hb) as [->|?]; [by right; right|by left]. }
    split; [done|done|rewrite Ec; apply HC|by rewrite Ec| | | |done].
    + intros id Hid. rewrite Ec. destruct (H2 id Hid) as [?|(? & ? & ? & _)]; done.
    + intros b' Hb'. rewrite Ec. apply (cm_told w HC). by apply Ht.
    + intros id. rewrite Ec. intros Hid. destruct (cm_conv w HC id Hid) as [?|(b' & Hb' & E)]; [by left|right]. exists b'. split; [by apply Ht|done].
  - destruct Hstep as (Es & Ec & Eo). destruct Hw as [Hw1 Hw2].
    assert (Ht : forall b0, told w' b0 <-> told w b0 \/ b0 = b). { intros b0. unfold told. rewrite Eo, Es, elem_of_app, elem_of_list_singleton. tauto. }
    split; [rewrite Es; apply HC|rewrite Es; apply HC|rewrite Ec; pose proof (cm_root w HC); set_solver|rewrite Ec, Es; intros k Hk Hir; apply elem_of_union_r; by apply (cm_lib w HC)| | | |rewrite Es; apply HC].
    + intros id Hid. rewrite Ec. rewrite Es in Hid. apply (cm_applied w HC) in Hid. set_solver.
    + intros b' Hb'. rewrite Ec. apply Ht in Hb' as [Hb'| ->]; [destruct (cm_told w HC b' Hb') as (? & ? & ?); split_and!; [done|done|set_solver]|].
      split_and!; [done|done|]. by apply elem_of_union_l, elem_of_singleton.
    + intros id. rewrite Ec. intros [->%elem_of_singleton|Hid]%elem_of_union.
      * right. exists b. split; [apply Ht; by right|done].
      * destruct (cm_conv w HC id Hid) as [?|(b' & Hb' & E)]; [by left|right]. exists b'. split; [apply Ht; by left|done].
Qed.
Lemma Calm_run sched : forall w w', Forall wu64 sched -> Forall wcomplete sched -> Fair o head lib dur now w -> along judge o (welcome o head parent hp ks) w sched -> Calm w ->
  wrun judge o w sched = Some w' -> Calm w'.
Proof.
  induction sched as [|lab r IH]; intros w w' Hu Hc HF Ha HC Hr; cbn in Hr; [by injection Hr as <-|].
  apply Forall_cons in Hu as [Hu1 Hu2], Hc as [Hc1 Hc2]. cbn in Ha. destruct Ha as [Ha1 Ha2]. destruct (wstep judge o w lab) as [w1|] eqn:H1; [|done].
  apply (IH w1); try done; [by eapply Fair_step|by eapply Calm_step].
Qed.
(** Blocks handed over after their parent are submitted in order. *)
Definition Ordered (k : blk) (w : world) : Prop :=
  (passed (w_s w) k -> has_block root (s_log (w_s w)) (k_prev k)) /\
  Hist (fun e r => match e with OSubmit i k' t => k' = k -> has_block root r (k_prev k) | _ => True end) (s_log (w_s w)).
Lemma Ordered_app k sched w lab s' : reaches o head lib dur now sched (w_s w) -> after_parent root k w (WApp lab) -> Ordered k w -> Step o (w_s w) lab s' ->
  (passed s' k -> has_block root (s_log s') (k_prev k)) /\
  Hist (fun e r => match e with OSubmit i k' t => k' = k -> has_block root r (k_prev k) | _ => True end) (s_log s').
Proof.
  intros Hr Ha [H1 H2] Hst. pose proof (reaches_inv _ _ _ _ _ _ _ Hr) as HI. destruct (events _ _ _ _ _ _ HI Hst) as (new & El & Hn). rewrite El. split.
  - intros (c & cl & Hc & E). apply has_mono. destruct (calls_back _ _ _ _ _ _ Hst Hc) as [(cl0 & H0 & Eb)|(b & h & -> & Hb & Eb)].
    + apply H1. exists c, cl0. split; [done|]. congruence.
    + apply (Ha b eq_refl). by rewrite <- E, Eb.
  - apply Hist_app; [done|]. intros l1 e l2 Enew. assert (He : e ∈ new) by (rewrite Enew; apply elem_of_app; right; left).
    apply Hn in He. destruct e as [| | |i k' t| | | | | | | | |]; try done. destruct He as (E1 & p & Hi). intros ->.
    assert (l2 = []) as ->. { rewrite E1 in Enew. destruct l1 as [|? [|? ?]]; by injection Enew. }
    apply H1. apply (pv_att _ (v_prov _ _ _ _ HI) _ _ Hi).
Qed.
Lemma Ordered_step k w lab w' : Fair o head lib dur now w -> after_parent root k w lab -> Ordered k w -> wstep judge o w lab = Some w' -> Ordered k w'.
Proof.
  intros HF Ha HO Hstep. destruct (fa_reach _ _ _ _ _ _ HF) as (sched & Hr & _). apply wstep_inv in Hstep. destruct lab as [l|i|j|b].
  - destruct Hstep as (_ & Hs & _). apply step_Step in Hs as [_ Hs]. by eapply Ordered_app.
  - destruct Hstep as (k' & _ & Hs & _). apply step_Step in Hs as [_ Hs]. eapply Ordered_app; [exact Hr| |done|exact Hs]. by intros b.
  - destruct Hstep as (b & _ & Hs & _). apply step_Step in Hs as [_ Hs]. eapply Ordered_app; [exact Hr| |done|exact Hs]. by intros b'.
  - destruct Hstep as (Es & _). unfold Ordered. by rewrite Es.
Qed.
Lemma Ordered_run k sched : forall w w', Forall wu64 sched -> Forall wcomplete sched -> Fair o head lib dur now w -> along judge o (after_parent root k) w sched -> Ordered k w ->
  wrun judge o w sched = Some w' -> Ordered k w'.
Proof.
  induction sched as [|lab r IH]; intros w w' Hu Hc HF Ha HC Hr; cbn in Hr; [by injection Hr as <-|].
  apply Forall_cons in Hu as [Hu1 Hu2], Hc as [Hc1 Hc2]. cbn in Ha. destruct Ha as [Ha1 Ha2]. destruct (wstep judge o w lab) as [w1|] eqn:H1; [|done].
  apply (IH w1); try done; [by eapply Fair_step|by eapply Ordered_step].
Qed.
End calm.
