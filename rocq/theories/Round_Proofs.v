(** Proofs: a sync round on top of the applicator and a chain service that works. *)
From Verif Require Import GoBase Util PeerConn_Model TxCache_Model TxCache_Spec TxCache_Proofs Watchdog_Model
  Applicator_Model Applicator_Spec Applicator_Core Applicator_Sys Applicator_Inv Applicator_Inv2 Applicator_Inv3 Applicator_Inv4
  Applicator_Inv5 Applicator_Inv6 Applicator_Inv7 Applicator_Props Deliver_Spec Deliver_Proofs Deliver_Props Rest_Spec Rest_Proofs
  Honest_Spec Honest_Proofs Honest_Proofs2 Honest_Props Round_Spec.

Global Instance req_eq_dec : EqDecision req.
Proof. solve_decision. Defined.
Lemma call_inj {A} q (k k' : resp q -> prog A) : PeerConn_Model.Call q k = PeerConn_Model.Call q k' -> k = k'.
Proof. intros H. injection H as H. apply (Eqdep_dec.inj_pair2_eq_dec _ (fun x y => decide (x = y)) _ _ _ _ H). Qed.

(** ** Fewer blocks *)
Lemma kept_mono (D D' : string -> Prop) o sched : (forall id, D' id -> D id) -> forall s, kept D o s sched -> kept D' o s sched.
Proof.
  intros Hsub. induction sched as [|lab r IH]; intros s; cbn; [done|]. destruct (step o s lab) as [s1|]; [|done]. intros [H1 H2]. split; [|by apply IH].
  intros Hl id Hd Hin. apply H1; auto.
Qed.
Lemma Calm_mono o root head lib dur now parent h ks ks' w : ks' ⊆ ks -> Calm o root head lib dur now parent h ks w -> Calm o root head lib dur now parent h ks' w.
Proof.
  intros Hsub HC. assert (Hid : forall b, identified parent h ks b -> identified parent h ks' b) by (intros b [H1 H2]; split; [done|]; intros k Hk; apply H2; by apply Hsub).
  assert (Hf : forall id, fam parent ks' id -> fam parent ks id) by (intros id [?|(k & Hk & E)]; [by left|right; exists k; split; [by apply Hsub|done]]).
  destruct HC as [[C1 C2 C3 (R1 & R2) C4] (sc & K1 & K2) M1 M2 M3 M4 M5 M6]. split; try done.
  - split.
    + intros k Hk. destruct (C1 k Hk) as (? & ? & ? & H4). split_and!; auto.
    + auto.
    + intros i k p Hi Hk. eapply C3; [exact Hi|by apply Hf].
    + split; [intros i k e Hk; apply R1; by apply Hf|intros i k r Hk; apply R2; by apply Hf].
    + intros c cl e Hc Hk. apply C4; [done|by apply Hf].
  - exists sc. split; [done|]. by eapply kept_mono.
  - auto.
  - intros b Hb. destruct (M4 b Hb) as (? & ? & ?). auto.
  - revert M6. clear -Hf. induction (s_log (w_s w)) as [|e log IH]; [done|]. intros [H1 H2]. split; [|by apply IH].
    destruct e as [| | | |i k r| | | | | | | |]; try done. destruct r; [|done]. cbn in *. auto.
Qed.

(** ** The call that the round waits for *)
Definition answered_only (cl : call) : Prop := forall r, cl_phase cl = CRet r -> cl_buf cl = Some r.
Lemma own_call o s lab s' c cl : Acc s -> Acc s' -> Step o s lab s' -> lab <> LTimeout c -> s_calls s !! c = Some cl -> answered_only cl ->
  exists cl', s_calls s' !! c = Some cl' /\ cl_blk cl' = cl_blk cl /\ answered_only cl'.
Proof.
  intros HA HA' H Hn Hc Hok. destruct (call_step _ _ _ _ _ _ H Hc) as (cl' & Hc' & Eb). exists cl'. split_and!; [done|done|]. intros r Hph.
  assert (Heffs : forall l e x, s_calls x = s_calls s -> (exists new, s_log x = new ++ s_log s) -> Acc (do_effs l e x) -> s_calls (do_effs l e x) !! c = Some cl' -> cl_buf cl' = Some r).
  { intros l e x Ex (new & El) Hx Hcx. pose proof (do_effs_same l e x) as HS.
    destruct (se_blk _ _ _ HS _ _ Hcx) as (cl0 & H0 & _ & Ep). rewrite Ex, Hc in H0. injection H0 as <-.
    assert (Hin : OAnswer c r ∈ s_log (do_effs l e x)).
    { destruct (se_log _ _ _ HS) as (new2 & -> & _). rewrite El. apply elem_of_app. right. apply elem_of_app. right. apply (a_log s HA). exists cl. split; [done|]. apply Hok. congruence. }
    apply (a_log _ Hx) in Hin as (cl1 & H1 & ?). congruence. }
  assert (Hsame : s_calls s' = s_calls s -> cl_buf cl' = Some r) by (intros E; rewrite E, Hc in Hc'; injection Hc' as <-; by apply Hok).
  assert (Hins : forall (c0 : nat) cl0, s_calls s' = <[c0 := cl0]> (s_calls s) -> (c0 = c -> cl_phase cl0 = CRet r -> cl_buf cl0 = Some r) -> cl_buf cl' = Some r).
  { intros c0 cl0 E Hcl. rewrite E in Hc'. destruct (decide (c0 = c)) as [->|].
    - rewrite list_lookup_insert in Hc' by (by eapply lookup_lt_Some). injection Hc' as ->. by apply Hcl.
    - rewrite list_lookup_insert_ne in Hc' by done. rewrite Hc in Hc'. injection Hc' as <-. by apply Hok. }
  destruct H; try (by apply Hsame); try (eapply Heffs; [| |exact HA'|exact Hc']; [done|first [by exists []|by eexists [_]]]).
  - cbn in Hc'. rewrite lookup_app_l in Hc' by (by eapply lookup_lt_Some). rewrite Hc in Hc'. injection Hc' as <-. by apply Hok.
  - eapply Hins; [done|]. done.
  - eapply Hins; [done|]. cbn. intros _ [= <-]. done.
  - eapply Hins; [done|]. intros ->. done.
Qed.

(** ** The applicator and the chain while the round is under way *)
Section calm_world.
Context (judge : blk -> option goerr) (o : ap_opts) (root : gset string) (head lib0 : N) (dur now : Z) (parent : string) (h : N) (ks : list blk).
Context (Hdur : good_dur dur) (Hjudge : forall k, k ∈ ks -> judge k = None) (Hlow : (head + ao_max_delta o + 1 < two64)%N) (Hpend : (ao_max_pending o < 2 ^ 63)%N)
  (Hwf : forall k, k ∈ ks -> b_header (k_src k) = Some (k_hdr k)) (Hlib : forall k, k ∈ ks -> (k_height k <= lib0)%N -> k_id k ∈ root).
(** A step of the world. *)
Lemma calm_step w lab w' : wu64 lab -> wcomplete lab -> Fair o head lib0 dur now w -> welcome o head parent h ks w lab -> Calm o root head lib0 dur now parent h ks w ->
  wstep judge o w lab = Some w' ->
  Fair o head lib0 dur now w' /\ Calm o root head lib0 dur now parent h ks w' /\
  (forall k, passed (w_s w) k -> passed (w_s w') k) /\ (exists new, s_log (w_s w') = new ++ s_log (w_s w)) /\
  (forall c cl, lab <> WApp (LTimeout c) -> s_calls (w_s w) !! c = Some cl -> answered_only cl ->
     exists cl', s_calls (w_s w') !! c = Some cl' /\ cl_blk cl' = cl_blk cl /\ answered_only cl') /\
  (forall l, OLib l ∈ s_log (w_s w') -> OLib l ∈ s_log (w_s w) \/ exists i lose fh, lab = WApp (LForkHeads i lose) /\ s_fh (w_s w) !! i = Some fh /\ fh_lib fh = Some l).
Proof.
  intros Hu Hc HF Hw HC Hst. pose proof (Fair_step judge o head lib0 dur now w lab w' Hu Hc HF Hst) as HF'. split; [done|]. split.
  { exact (Calm_step judge o root head lib0 dur now parent h ks Hdur Hjudge Hlow Hpend Hwf Hlib w lab w' Hu Hc HF Hw HC Hst). }
  destruct (fa_reach _ _ _ _ _ _ HF) as (sc & Hr & _). destruct (fa_reach _ _ _ _ _ _ HF') as (sc' & Hr' & _).
  pose proof (v_acc _ _ _ _ (reaches_inv _ _ _ _ _ _ _ Hr)) as HA. pose proof (v_acc _ _ _ _ (reaches_inv _ _ _ _ _ _ _ Hr')) as HA'.
  assert (Hstep : (exists l, Step o (w_s w) l (w_s w') /\ (forall c, lab <> WApp (LTimeout c) -> l <> LTimeout c) /\ forall i lose, l = LForkHeads i lose -> lab = WApp l) \/ w_s w' = w_s w).
  { apply wstep_inv in Hst. destruct lab as [l|i|j|b].
    - destruct Hst as (_ & Hs & _). apply step_Step in Hs as [_ Hs]. left. exists l. split_and!; [done|congruence|done].
    - destruct Hst as (k & _ & Hs & _). apply step_Step in Hs as [_ Hs]. left. eexists. split_and!; [exact Hs|done|done].
    - destruct Hst as (k & _ & Hs & _). apply step_Step in Hs as [_ Hs]. left. eexists. split_and!; [exact Hs|done|done].
    - right. by destruct Hst. }
  destruct Hstep as [(l & Hs & Hl & Hfk)| ->]; [|split_and!; [done|by exists []|intros c cl _ ? ?; by exists cl|by left]].
  split_and!.
  - intros k (c & cl & Hcl & <-). destruct (call_step _ _ _ _ _ _ Hs Hcl) as (cl' & ? & ?). by exists c, cl'.
  - by destruct (step_log_grows _ _ _ _ Hs) as (new & ?); exists new.
  - intros c cl Hn Hcl Hok. eapply own_call; [exact HA|exact HA'|exact Hs|by apply Hl|done|done].
  - intros x Hin. destruct (events _ _ _ _ _ _ (reaches_inv _ _ _ _ _ _ _ Hr) Hs) as (new & El & Hn). rewrite El in Hin. apply elem_of_app in Hin as [Hin|Hin]; [right|by left].
    apply Hn in Hin as (i & lose & fh & E & Hfh & Hx). exists i, lose, fh. split_and!; [|done|done]. rewrite <- E. by eapply Hfk.
Qed.
(** What the call of a block of the chain has returned is success, and the chain has accepted the block, or the block is
    irreversible. *)
Lemma calm_returned w c cl k res : Fair o head lib0 dur now w -> Calm o root head lib0 dur now parent h ks w -> k ∈ ks ->
  s_calls (w_s w) !! c = Some cl -> cl_blk cl = k -> answered_only cl -> cl_phase cl = CRet res -> (res = None /\ applied (s_log (w_s w)) (k_id k)) \/ (res = irr /\ irreversible lib0 (s_log (w_s w)) (k_height k)).
Proof.
  clear Hdur Hjudge Hlow Hpend Hwf Hlib.
  intros HF HC Hk Hc Eb Hok Hph. destruct (fa_reach _ _ _ _ _ _ HF) as (sc & Hr & _). pose proof (reaches_inv _ _ _ _ _ _ _ Hr) as HI.
  pose proof (Hok _ Hph) as Hbuf. assert (Hfam : fam parent ks (k_id (cl_blk cl))) by (right; exists k; by rewrite Eb).
  destruct (cs_ref _ _ _ _ _ _ _ (cm_s _ _ _ _ _ _ _ _ _ _ HC)) as (_ & Hnd).
  assert (Hlog : OAnswer c res ∈ s_log (w_s w)) by (apply (a_log _ (v_acc _ _ _ _ HI)); eauto).
  destruct res as [e|]; [right; rewrite <- Eb; by apply (cs_ans _ _ _ _ _ _ _ (cm_s _ _ _ _ _ _ _ _ _ _ HC) _ _ _ Hc Hfam)|]. left. split; [done|].
  destruct (j_buf _ _ (v_just _ _ _ _ HI) c cl None Hc Hbuf) as [?|[?|[(? & _)|(i & k' & Hst & Eid & _)]]]; [done|done|done|].
  apply elem_of_list_split in Hst as (l1 & l2 & El).
  destruct (Hist_split _ _ _ _ _ (j_hist _ _ (v_just _ _ _ _ HI)) El) as [Hres|[Hd|(? & _)]]; [| |done].
  - exists i, k'. split; [|by rewrite Eid, Eb]. rewrite El. set_solver.
  - exfalso. apply (Hnd i k' None); [by rewrite Eid|]. rewrite El. set_solver.
Qed.
End calm_world.

(** ** Stretches of the chain *)
Lemma stretch_S ch start n : stretch ch start (S n) = ch start :: stretch ch (start + 1) n.
Proof.
  unfold stretch. cbn [seq map]. f_equal; [by rewrite N.add_0_r|]. rewrite <- seq_shift, map_map. apply map_ext. intros i. f_equal. lia.
Qed.
Lemma stretch_in ch start n k : k ∈ stretch ch start n <-> exists i, i < n /\ k = ch (start + N.of_nat i)%N.
Proof.
  unfold stretch. rewrite elem_of_list_In, in_map_iff. split.
  - intros (i & <- & Hi). apply in_seq in Hi. exists i. split; [lia|done].
  - intros (i & Hi & ->). exists i. split; [done|]. apply in_seq. lia.
Qed.
Lemma stretch_successors ch start n : is_chain ch -> successors (k_id (ch start)) start (stretch ch (start + 1) n).
Proof.
  intros Hch. revert start. induction n as [|n IH]; intros start; [done|]. rewrite stretch_S. cbn [successors]. destruct (Hch start) as (_ & H2 & _).
  destruct (Hch (start + 1)%N) as (H3 & _). split_and!; [done|done|]. apply IH.
Qed.
Lemma successors_app parent h l1 l2 : successors parent h (l1 ++ l2) -> successors parent h l1.
Proof. revert parent h. induction l1 as [|k r IH]; intros parent h; [done|]. cbn. intros (? & ? & ?). split_and!; [done|done|]. by eapply IH. Qed.
Lemma successors_next parent h l1 k l2 : successors parent h (l1 ++ k :: l2) -> k_prev k = parent /\ l1 = [] \/ exists k', k' ∈ l1 /\ k_prev k = k_id k'.
Proof.
  revert parent h. induction l1 as [|x r IH]; intros parent h; cbn; [intros (? & _); by left|]. intros (H1 & H2 & H3). right.
  destruct (IH _ _ H3) as [(E & _)|(k' & Hk & E)]; [exists x; split; [left|done]|exists k'; split; [by right|done]].
Qed.

(** ** The round *)
Section round.
Context (judge : blk -> option goerr) (o : ap_opts) (po : pc_opts) (root : gset string) (head lib0 : N) (dur now : Z)
  (ch : N -> blk) (peer lib known : N) (young : blk -> Prop).
Let ks : list blk := stretch ch (lib + 1) (asked_for po peer lib).
Context (Hdur : good_dur dur) (Hlow : (head + ao_max_delta o + 1 < two64)%N) (Hpend : (ao_max_pending o < 2 ^ 63)%N)
  (Hch : is_chain ch) (Hinj : forall h h', k_id (ch h) = k_id (ch h') -> h = h') (Hbehind : (lib < peer)%N) (Hpeer : (peer + ao_max_delta o + 1 < two64)%N)
  (Hbatch : (0 < po_batch po < two32)%N) (Hvalid : forall k, k ∈ ks -> judge k = None /\ u64_block (k_src k) /\ (k_id k ∈ root -> (k_height k <= head)%N))
  (Hlib0 : (lib0 <= lib)%N).

Lemma ks_heights k : k ∈ ks -> exists h, k = ch h /\ (lib < h <= peer)%N /\ k_height k = h /\ b_header (k_src k) = Some (k_hdr k).
Proof.
  clear Hvalid. intros Hk. apply stretch_in in Hk as (i & Hi & ->). eexists. split; [done|]. destruct (Hch (lib + 1 + N.of_nat i)%N) as (H1 & _ & H2).
  unfold asked_for in Hi. split_and!; [lia|lia|done|done].
Qed.
Lemma ks_nonempty : exists k r, ks = k :: r.
Proof.
  clear Hvalid. unfold ks. destruct (asked_for po peer lib) as [|n] eqn:E; [|rewrite stretch_S; eauto]. unfold asked_for in E. clear -E Hbehind Hbatch. lia.
Qed.
Lemma ks_identified k : k ∈ ks -> identified (k_id (ch lib)) lib ks (k_src k) /\ k_id k <> k_id (ch lib) /\ low o (k_src k).
Proof.
  clear Hvalid. intros Hk. destruct (ks_heights k Hk) as (h & -> & Hh & Eh & Hb). split_and!.
  - split.
    + intros E. apply Hinj in E. lia.
    + intros k' Hk' E. destruct (ks_heights k' Hk') as (h' & -> & _). apply Hinj in E. by subst.
  - intros E. apply Hinj in E. lia.
  - intros hd Hhd. rewrite Hb in Hhd. injection Hhd as <-. change (k_height (ch h) + ao_max_delta o + 1 < two64)%N. lia.
Qed.

(** What is left of the round, as long as it gets right answers. *)
Inductive asking : prog (option goerr * bool) -> Prop :=
| as_call q k : (forall t b, q <> QApply t b) -> (forall a, honest_answer ch peer lib known q a -> asking (k a)) -> asking (PeerConn_Model.Call q k)
| as_hand F f : known = 0%N -> F None = Ret (None, f) -> asking (bind (apply_blocks po (map k_src ks)) F)
| as_end : known <> 0%N -> asking (Ret (None, true)).
Lemma last_ks : exists b h, last (map k_src ks) = Some b /\ b_header b = Some h.
Proof.
  destruct ks_nonempty as (k & r & E). destruct (last (map k_src ks)) as [b|] eqn:El.
  - exists b. apply last_Some_elem_of in El. apply elem_of_list_fmap in El as (k' & -> & Hk). destruct (ks_heights k' Hk) as (? & _ & _ & _ & Hb). eauto.
  - apply last_None in El. by rewrite E in El.
Qed.
Lemma fetch_asking synced : known = 0%N -> asking (fetch po lib (b_id (k_src (ch peer))) peer synced).
Proof.
  intros Hkn. unfold fetch.
  assert (E : to_u32 (if bool_decide (po_batch po < sub64 peer lib)%N then po_batch po else sub64 peer lib) = N.min (po_batch po) (peer - lib)).
  { clear Hvalid ks. assert (Es : sub64 peer lib = (peer - lib)%N). { unfold sub64. replace (peer + two64 - lib)%N with ((peer - lib) + 1 * two64)%N by lia. rewrite N.mod_add by done. apply N.mod_small. lia. }
    rewrite Es. unfold to_u32. case_bool_decide; rewrite N.mod_small; lia. }
  rewrite E. apply as_call; [done|]. intros a Ha. cbn [honest_answer] in Ha.
  assert (Eadd : add64 lib 1 = (lib + 1)%N) by (unfold add64; apply N.mod_small; clear Hvalid ks; lia).
  rewrite Eadd in Ha. specialize (Ha eq_refl). rewrite Ha by (clear Hvalid ks E Ha; lia). cbv beta iota.
  change (asking (bind (apply_blocks po (map k_src ks)) (fun res => match res with
        | Some e => Ret (Some e, synced)
        | None => match last (map k_src ks) with
          | Some b => match b_header b with Some h => Ret (None, bool_decide (sub64 peer (h_height h) < po_delta po)%N) | None => Crash end
          | None => Crash end end))).
  destruct last_ks as (b & h & El & Eh). eapply as_hand; [done|]. cbv beta iota. by rewrite El, Eh.
Qed.
Lemma request_asking synced : asking (request_sync po synced).
Proof.
  unfold request_sync. apply as_call; [done|]. intros a (t & -> & Et & Eid). apply as_call; [done|]. intros a ->. cbv beta iota.
  rewrite bool_decide_eq_false_2 by (rewrite Et; lia). apply as_call; [done|]. intros a ->. cbv beta iota. case_bool_decide as Hkn; [by apply as_end|].
  assert (Hk0 : known = 0%N) by (destruct (decide (known = 0%N)); [done|]; by destruct Hkn).
  case_bool_decide as Hpos; [|rewrite Et; by apply fetch_asking]. apply as_call; [done|]. intros a Ha. cbn [honest_answer] in Ha.
  destruct (Ha eq_refl) as (id' & -> & E'); [rewrite Et; clear Hvalid ks; lia|]. cbv beta iota. rewrite Et in E' |- *.
  assert (Hbe : bytes_equal id' (tp_id t) = true). { unfold bytes_equal. apply bool_decide_eq_true. congruence. }
  rewrite Hbe. by apply fetch_asking.
Qed.

Definition stage (p : prog (option goerr * bool)) (wait : option nat) (w : world) : Prop :=
  (asking p /\ wait = None) \/
  (exists l1 l2 F f, known = 0%N /\ ks = l1 ++ l2 /\ F None = Ret (None, f) /\ p = bind (apply_blocks po (map k_src l2)) F /\
     (forall k, k ∈ l1 -> passed (w_s w) k /\ has_block root (s_log (w_s w)) (k_id k)) /\
     match wait with None => True | Some c => exists k l3 cl, l2 = k :: l3 /\ s_calls (w_s w) !! c = Some cl /\ cl_blk cl = k /\ answered_only cl end) \/
  (exists f, wait = None /\ p = Ret (None, f) /\ known <> 0%N).
Record RI (r : round) : Prop := {
  ri_fair : Fair o head lib0 dur now (rd_world r);
  ri_calm : Calm o root head lib0 dur now (k_id (ch lib)) lib ks (rd_world r);
  ri_par : has_block root (s_log (w_s (rd_world r))) (k_id (ch lib));
  ri_irr : forall k, k ∈ ks -> irreversible lib0 (s_log (w_s (rd_world r))) (k_height k) -> has_block root (s_log (w_s (rd_world r))) (k_id k);
  ri_ord : forall k, k ∈ ks -> young k \/ Ordered root k (rd_world r);
  ri_stage : stage (rd_prog r) (rd_wait r) (rd_world r) }.

(** A step of the world. *)
Lemma world_step w lab w' : wu64 lab -> wcomplete lab -> Fair o head lib0 dur now w -> welcome o head (k_id (ch lib)) lib ks w lab -> Calm o root head lib0 dur now (k_id (ch lib)) lib ks w ->
  wstep judge o w lab = Some w' ->
  Fair o head lib0 dur now w' /\ Calm o root head lib0 dur now (k_id (ch lib)) lib ks w' /\
  (forall k, passed (w_s w) k -> passed (w_s w') k) /\ (exists new, s_log (w_s w') = new ++ s_log (w_s w)) /\
  (forall c cl, lab <> WApp (LTimeout c) -> s_calls (w_s w) !! c = Some cl -> answered_only cl ->
     exists cl', s_calls (w_s w') !! c = Some cl' /\ cl_blk cl' = cl_blk cl /\ answered_only cl') /\
  (forall l, OLib l ∈ s_log (w_s w') -> OLib l ∈ s_log (w_s w) \/ exists i lose fh, lab = WApp (LForkHeads i lose) /\ s_fh (w_s w) !! i = Some fh /\ fh_lib fh = Some l).
Proof.
  apply calm_step; try done.
  - intros k Hk. by apply Hvalid.
  - intros k Hk. by destruct (ks_heights k Hk) as (? & _ & _ & _ & ?).
  - intros k Hk Hle. exfalso. destruct (ks_heights k Hk) as (? & _ & ? & ? & _). clear Hvalid. lia.
Qed.
Lemma stage_world p wait w w' : (forall k, passed (w_s w) k -> passed (w_s w') k) -> (exists new, s_log (w_s w') = new ++ s_log (w_s w)) ->
  (forall c cl, wait = Some c -> s_calls (w_s w) !! c = Some cl -> answered_only cl -> exists cl', s_calls (w_s w') !! c = Some cl' /\ cl_blk cl' = cl_blk cl /\ answered_only cl') ->
  stage p wait w -> stage p wait w'.
Proof.
  intros Hp (new & El) Hcl [?|[(l1 & l2 & F & f & H0 & H1 & H2 & H3 & H4 & H5)|?]]; [by left| |by right; right]. right. left. exists l1, l2, F, f. split_and!; try done.
  - intros k Hk. destruct (H4 k Hk). split; [by apply Hp|]. rewrite El. by apply has_mono.
  - destruct wait as [c|]; [|done]. destruct H5 as (k & l3 & cl & -> & Hc & Eb & Hok). destruct (Hcl c cl eq_refl Hc Hok) as (cl' & ? & ? & ?).
    exists k, l3, cl'. split_and!; [done|done|congruence|done].
Qed.
(** What the call of a block of the chain has returned is success, and the chain has accepted the block, or the block is
    irreversible. *)
Lemma returned w c cl k res : Fair o head lib0 dur now w -> Calm o root head lib0 dur now (k_id (ch lib)) lib ks w -> k ∈ ks ->
  s_calls (w_s w) !! c = Some cl -> cl_blk cl = k -> answered_only cl -> cl_phase cl = CRet res -> (res = None /\ applied (s_log (w_s w)) (k_id k)) \/ (res = irr /\ irreversible lib0 (s_log (w_s w)) (k_height k)).
Proof. intros ? ? ? ? ? ? ?. by eapply calm_returned. Qed.
Lemma handing {A} k l (F : option goerr -> prog A) : k ∈ ks -> bind (apply_blocks po (map k_src (k :: l))) F =
  PeerConn_Model.Call (QApply (po_app_timeout po) (k_src k)) (fun res => bind (match res with
        | None => apply_blocks po (map k_src l)
        | Some e =>
          if is_err e ErrLocalRPCTimeout then Ret (Some e)
          else if is_err e ErrForkBomb then Ret (Some e)
          else if is_err e ErrBlockIrreversibility then apply_blocks po (map k_src l)
          else Ret (Some (EWrap (ESent ErrBlockApplication)))
        end) F).
Proof. intros Hk. destruct (ks_heights k Hk) as (_ & _ & _ & _ & Hb). cbn [map apply_blocks]. by rewrite Hb. Qed.
Lemma stage_call p wait w q kk : stage p wait w -> p = PeerConn_Model.Call q kk -> (asking p /\ wait = None /\ (forall t b, q <> QApply t b)) \/
  exists l1 k l3 F f, known = 0%N /\ ks = l1 ++ k :: l3 /\ F None = Ret (None, f) /\ p = bind (apply_blocks po (map k_src (k :: l3))) F /\ k ∈ ks /\
    (forall k, k ∈ l1 -> passed (w_s w) k /\ has_block root (s_log (w_s w)) (k_id k)) /\ q = QApply (po_app_timeout po) (k_src k) /\
    match wait with None => True | Some c => exists cl, s_calls (w_s w) !! c = Some cl /\ cl_blk cl = k /\ answered_only cl end.
Proof.
  intros Hst ->.
  assert (Hsecond : forall l1 l2 F f, known = 0%N -> ks = l1 ++ l2 -> F None = Ret (None, f) -> PeerConn_Model.Call q kk = bind (apply_blocks po (map k_src l2)) F ->
    exists k l3, l2 = k :: l3 /\ k ∈ ks /\ q = QApply (po_app_timeout po) (k_src k)).
  { intros l1 l2 F f H0 H1 H2 H3. destruct l2 as [|k l3]; [cbn in H3; congruence|]. exists k, l3. assert (Hk : k ∈ ks) by (rewrite H1; apply elem_of_app; right; left).
    split_and!; [done|done|]. rewrite (handing _ _ _ Hk) in H3. by injection H3 as -> _. }
  destruct Hst as [(Ha & ->)|[(l1 & l2 & F & f & H0 & H1 & H2 & H3 & H4 & H5)|(f & _ & ? & _)]]; [| |done].
  - remember (PeerConn_Model.Call q kk) as p eqn:Ep. destruct Ha as [q' k' Hq Hn|F f H0 HF|]; [| |done].
    + left. split_and!; [by apply as_call|done|]. by injection Ep as <- _.
    + right. destruct (Hsecond [] ks F f H0 eq_refl HF eq_refl) as (k & l3 & E & Hk & ->). exists [], k, l3, F, f. split_and!; try done; [by rewrite E|intros k' Hk'; by apply elem_of_nil in Hk'].
  - right. destruct (Hsecond l1 l2 F f H0 H1 H2 H3) as (k & l3 & -> & Hk & ->). exists l1, k, l3, F, f. split_and!; try done.
    destruct wait as [c|]; [|done]. destruct H5 as (k2 & l4 & cl & E & ? & ? & ?). injection E as <- <-. by exists cl.
Qed.

Lemma RI_step r lab r' : RI r -> fine o root head ch peer lib known ks young r lab -> rstep judge o r lab r' -> RI r'.
Proof.
  intros HR Hfine Hst. destruct HR as [HF HC Hpar Hirr Hord Hstage]. destruct Hst as [p wait w lab w' Hw Hn|q k a w Hq|t b k w w' Hw Hlen|t b k w w' e Hw Hlog|t b k c cl res w Hc Hph|t b k c w w' Hw]; cbn [rd_world rd_prog rd_wait fine] in *.
  - destruct Hfine as (Hu & Hcm & Hwel & Hsaid & Hoth). destruct (world_step _ _ _ Hu Hcm HF Hwel HC Hw) as (HF' & HC' & Hp & Hlog & Hcl & Hli). split; cbn [rd_world rd_prog rd_wait].
    + done.
    + done.
    + destruct Hlog as (new & ->). by apply has_mono.
    + intros k Hk Hx. destruct Hlog as (new & El). destruct Hx as [?|(x & Hin & Hle)]; [rewrite El; apply has_mono, Hirr; [done|by left]|].
      rewrite El. apply has_mono. destruct (Hli x Hin) as [Hin'|(i & lose & fh & -> & Hfh & Hx)]; [apply Hirr; [done|right; eauto]|]. exact (Hsaid fh x k Hfh Hx Hk Hle).
    + intros k Hk. destruct (Hord k Hk) as [?|HO]; [by left|]. destruct (Hoth k Hk) as [?|Hap]; [by left|right]. eapply Ordered_step; [exact HF|exact Hap|exact HO|exact Hw].
    + eapply stage_world; [exact Hp|exact Hlog| |exact Hstage]. intros c cl E Hc Hok. eapply Hcl; [|exact Hc|exact Hok]. by apply Hn.
  - split; cbn [rd_world rd_prog rd_wait]; try done. destruct (stage_call _ _ _ _ _ Hstage eq_refl) as [(Ha & _ & _)|(l1 & k0 & l3 & F & f & _ & _ & _ & _ & _ & _ & Eq & _)]; [|by destruct (Hq _ _ Eq)].
    left. split; [|done]. remember (PeerConn_Model.Call q k) as p eqn:Ep. destruct Ha as [q' k' Hq' Hn|F f H0 HF0|]; [| |done].
    + injection Ep as Eq Ek. subst q'. apply (Eqdep_dec.inj_pair2_eq_dec _ (fun x y => decide (x = y))) in Ek. subst k'. by apply Hn.
    + exfalso. destruct ks_nonempty as (k1 & rr & E). assert (Hk1 : k1 ∈ ks) by (rewrite E; left). rewrite E, (handing _ _ _ Hk1) in Ep. injection Ep as Eq _. by apply (Hq (po_app_timeout po) (k_src k1)).
  - destruct (stage_call _ _ _ _ _ Hstage eq_refl) as [(_ & _ & Hq)|(l1 & k0 & l3 & F & f & H0 & E & HFn & Ep & Hk0 & Hl1 & Eq & _)]; [by destruct (Hq t b)|].
    injection Eq as -> ->. destruct (ks_heights k0 Hk0) as (h0 & Ek0 & Hh0 & Eh0 & Hb0). destruct (ks_identified k0 Hk0) as (Hid & Hnp & Hlo).
    assert (Hwel : welcome o head (k_id (ch lib)) lib ks w (WApp (LCall (k_src k0)))).
    { cbn. split_and!; try done. intros k1 Hk1 Esrc. destruct (ks_heights k1 Hk1) as (_ & _ & _ & _ & Hb1). rewrite Esrc in Hfine. destruct (Hfine _ Hb1). by split. }
    assert (Hu : wu64 (WApp (LCall (k_src k0)))) by (by apply Hvalid).
    assert (Hcm : wcomplete (WApp (LCall (k_src k0)))) by (cbn; by rewrite Hb0).
    destruct (world_step _ _ _ Hu Hcm HF Hwel HC Hw) as (HF' & HC' & Hp & Hlog & Hcl & Hli). split; cbn [rd_world rd_prog rd_wait].
    + done.
    + done.
    + destruct Hlog as (new & ->). by apply has_mono.
    + intros k1 Hk1 Hx. destruct Hlog as (new & El). rewrite El. apply has_mono, Hirr; [done|]. destruct Hx as [?|(x & Hin & Hle)]; [by left|right].
      destruct (Hli x Hin) as [?|(? & ? & ? & ? & _)]; [eauto|done].
    + intros k1 Hk1. destruct (Hord k1 Hk1) as [?|HO]; [by left|right]. eapply Ordered_step; [exact HF| |exact HO|exact Hw]. intros b Eb Eid. injection Eb as <-.
      destruct (ks_heights k1 Hk1) as (h1 & Ek1 & _). assert (k0 = k1) as <-. { subst k0 k1. apply Hinj in Eid. by subst. }
      destruct (successors_next (k_id (ch lib)) lib l1 k0 l3) as [(-> & _)|(k' & Hk' & ->)]; [rewrite <- E; by apply stretch_successors|done|]. by apply Hl1.
    + right. left. exists l1, (k0 :: l3), F, f. split_and!; try done.
      * intros k1 Hk1. destruct (Hl1 k1 Hk1). split; [by apply Hp|]. destruct Hlog as (new & ->). by apply has_mono.
      * apply wstep_inv in Hw as (_ & Hs & _). apply step_Step in Hs as [_ Hs]. clear -Hs Hlen Hb0. remember (LCall (k_src k0)) as lab eqn:El. remember (w_s w') as s' eqn:Es.
        destruct Hs; try done; injection El as ->; [|cbn in Hlen; lia|congruence].
        eexists k0, l3, _. split_and!; [done|cbn; rewrite lookup_app_r, Nat.sub_diag by done; done|cbn; destruct k0; cbn in *; congruence|]. by intros r Hr.
  - done.
  - destruct (stage_call _ _ _ _ _ Hstage eq_refl) as [(_ & ? & _)|(l1 & k0 & l3 & F & f & H0 & E & HFn & Ep & Hk0 & Hl1 & Eq & cl' & Hc' & Eb & Hok)]; [done|].
    rewrite Hc in Hc'. injection Hc' as <-. pose proof (returned w c cl k0 res HF HC Hk0 Hc Eb Hok Hph) as Hres.
    assert (Hap : has_block root (s_log (w_s w)) (k_id k0)) by (destruct Hres as [(_ & ?)|(_ & ?)]; [by right|by apply Hirr]). split; cbn [rd_world rd_prog rd_wait]; try done.
    right. left. exists (l1 ++ [k0]), l3, F, f. split_and!; try done.
    + by rewrite <- (assoc_L (++)).
    + rewrite (handing _ _ _ Hk0) in Ep. injection Eq as -> ->. apply call_inj in Ep. rewrite Ep. by destruct Hres as [(-> & _)|(-> & _)].
    + intros k1 [?|Hk1]%elem_of_app; [by apply Hl1|]. apply elem_of_list_singleton in Hk1 as ->. split; [by exists c, cl|done].
  - done.
Qed.
Lemma RI_runs r sched r' : RI r -> rruns judge o (fine o root head ch peer lib known ks young) r sched r' -> RI r'.
Proof. intros HR H. induction H as [|r lab r1 rest r2 Hp Hs _ IH]; [done|]. apply IH. by eapply RI_step. Qed.
Lemma RI_start w synced sched : wreaches judge o root head lib0 dur now sched w -> along judge o (welcome o head (k_id (ch lib)) lib ks) (world_init root head lib0 dur now) sched ->
  has_block root (s_log (w_s w)) (k_id (ch lib)) -> (forall k, k ∈ ks -> young k \/ along judge o (after_parent root k) (world_init root head lib0 dur now) sched) ->
  (forall k, k ∈ ks -> irreversible lib0 (s_log (w_s w)) (k_height k) -> has_block root (s_log (w_s w)) (k_id k)) ->
  RI (Round (request_sync po synced) None w).
Proof.
  intros Hr Hwel Hpar Hord Hirr. pose proof (wreaches_fair _ _ _ _ _ _ _ _ _ Hr) as HF. destruct Hr as (Hl & Hu & Hc & Hw).
  assert (Hlo : forall k, k ∈ ks -> (k_height k <= lib0)%N -> k_id k ∈ root) by (intros k Hk Hle; exfalso; destruct (ks_heights k Hk) as (? & _ & ? & ? & _); clear Hvalid; lia).
  assert (Hhd : forall k, k ∈ ks -> b_header (k_src k) = Some (k_hdr k)) by (intros k Hk; by destruct (ks_heights k Hk) as (? & _ & _ & _ & ?)).
  assert (Hju : forall k, k ∈ ks -> judge k = None) by (intros k Hk; by apply Hvalid).
  pose proof (Fair_init o root head lib0 dur now Hl) as HF0.
  split; cbn [rd_world rd_prog rd_wait]; try done.
  - refine (Calm_run judge o root head lib0 dur now (k_id (ch lib)) lib ks Hdur Hju Hlow Hpend Hhd Hlo sched _ w Hu Hc HF0 Hwel _ Hw). by apply Calm_init.
  - intros k Hk. destruct (Hord k Hk) as [?|Hal]; [by left|right]. eapply (Ordered_run judge o root head lib0 dur now k sched); try done. split; cbn; [|done]. by intros (c & cl & Hx & _).
  - left. split; [apply request_asking|done].
Qed.
(** ** What follows *)
Lemma RI_no_error r : RI r -> rd_prog r <> Crash /\ forall e f, rd_prog r <> Ret (Some e, f).
Proof.
  intros HR. pose proof (ri_stage r HR) as Hst. destruct (rd_prog r) as [[res f]| |q kk] eqn:Ep.
  - split; [done|]. intros e f' E. injection E as -> ->. destruct Hst as [(Ha & _)|[(l1 & l2 & F & f & H0 & H1 & H2 & H3 & _)|(f & _ & ? & _)]]; [| |done].
    + remember (Ret (Some e, f')) as p eqn:Eq. destruct Ha as [| F f H0 H1|]; [done| |done]. destruct ks_nonempty as (k1 & rr & E). assert (Hk1 : k1 ∈ ks) by (rewrite E; left). by rewrite E, (handing _ _ _ Hk1) in Eq.
    + destruct l2 as [|k l3]; [cbn in H3; congruence|]. assert (Hk : k ∈ ks) by (rewrite H1; apply elem_of_app; right; left). by rewrite (handing _ _ _ Hk) in H3.
  - exfalso. destruct Hst as [(Ha & _)|[(l1 & l2 & F & f & H0 & H1 & H2 & H3 & _)|(f & _ & ? & _)]]; [| |done].
    + remember Crash as p eqn:Eq. destruct Ha as [| F f H0 H1|]; [done| |done]. destruct ks_nonempty as (k1 & rr & E). assert (Hk1 : k1 ∈ ks) by (rewrite E; left). by rewrite E, (handing _ _ _ Hk1) in Eq.
    + destruct l2 as [|k l3]; [cbn in H3; congruence|]. assert (Hk : k ∈ ks) by (rewrite H1; apply elem_of_app; right; left). by rewrite (handing _ _ _ Hk) in H3.
  - done.
Qed.
Lemma RI_ended r res : RI r -> rd_prog r = Ret res -> known <> 0%N \/ forall k, k ∈ ks -> k_id k ∈ w_chain (rd_world r).
Proof.
  intros HR Ep. pose proof (ri_stage r HR) as Hst. rewrite Ep in Hst. destruct Hst as [(Ha & _)|[(l1 & l2 & F & f & H0 & H1 & H2 & H3 & H4 & _)|(f & _ & ? & ?)]]; [| |by left].
  - remember (Ret res) as p eqn:Eq. destruct Ha as [| F f H0 H1|]; [done| |by left]. destruct ks_nonempty as (k1 & rr & E). assert (Hk1 : k1 ∈ ks) by (rewrite E; left). by rewrite E, (handing _ _ _ Hk1) in Eq.
  - right. destruct l2 as [|k l3].
    + rewrite app_nil_r in H1. intros k Hk. eapply cm_has; [exact (ri_calm r HR)|]. apply H4. by rewrite <- H1.
    + exfalso. assert (Hk : k ∈ ks) by (rewrite H1; apply elem_of_app; right; left). by rewrite (handing _ _ _ Hk) in H3.
Qed.
Lemma RI_rest r : RI r -> running (w_s (rd_world r)) -> wrest (rd_world r) -> round_waits r -> (k_id (ch lib) ∈ root -> (lib <= head)%N) ->
  (forall k, k ∈ ks -> young k -> recent o (s_now (w_s (rd_world r))) k) -> exists f, rd_prog r = Ret (None, f).
Proof.
  intros HR Hrun Hrest Hwait Hph Hyoung. destruct (RI_no_error r HR) as [Hcr Herr]. unfold round_waits in Hwait.
  destruct (rd_prog r) as [[[e|] f]| |q kk] eqn:Ep; [by destruct (Herr e f)|by exists f|done|exfalso].
  destruct Hwait as (c & Ec & Hnot). destruct (stage_call _ _ _ _ _ (ri_stage r HR) Ep) as [(_ & E & _)|(l1 & k0 & l3 & F & f & H0 & E & HFn & Ep2 & Hk0 & Hl1 & Eq & Hw)]; [congruence|].
  rewrite Ec in Hw. destruct Hw as (cl & Hc & Eb & Hok).
  assert (Hsub : l1 ++ [k0] ⊆ ks). { rewrite E. intros x [?|Hx]%elem_of_app; apply elem_of_app; [by left|right]. apply elem_of_list_singleton in Hx as ->. left. }
  assert (Hcalm := Calm_mono _ _ _ _ _ _ _ _ _ _ _ Hsub (ri_calm r HR)).
  assert (Hdel := delivered_at o root head lib0 dur now (rd_world r) (k_id (ch lib)) lib (l1 ++ [k0]) (ri_fair r HR) Hcalm Hrun Hrest Hlow).
  destruct Hdel with (k := k0) as (_ & _ & Hret).
  - eapply successors_app. rewrite <- (assoc_L (++)). cbn [app]. rewrite <- E. by apply stretch_successors.
  - eapply cm_has; [exact (ri_calm r HR)|apply HR].
  - done.
  - intros k Hk. pose proof (Hsub k Hk) as Hk'. split_and!.
    + apply elem_of_app in Hk as [Hk|Hk]; [by apply Hl1|]. apply elem_of_list_singleton in Hk as ->. by exists c, cl.
    + by apply Hvalid.
    + destruct (ri_ord r HR k Hk') as [?|?]; [left; by apply Hyoung|by right].
  - apply elem_of_app. right. left.
  - destruct (Hret c cl Hc Eb) as [Hp|[Hp|(Hp & _)]]; by apply (Hnot cl _ Hc) in Hp.
Qed.
End round.
