(** Proofs: a session with an honest peer on top of the applicator and a chain service that works. *)
From Verif Require Import GoBase Util PeerConn_Model Catchup_Spec Catchup_Proofs Catchup_Props TxCache_Model TxCache_Spec TxCache_Proofs Watchdog_Model
  Applicator_Model Applicator_Spec Applicator_Core Applicator_Sys Applicator_Inv Applicator_Inv2 Applicator_Inv3 Applicator_Inv4
  Applicator_Inv5 Applicator_Inv6 Applicator_Inv7 Applicator_Props Deliver_Spec Deliver_Proofs Deliver_Props Rest_Spec Rest_Proofs
  Honest_Spec Honest_Proofs Honest_Proofs2 Honest_Props Round_Spec Round_Proofs Follow_Spec.

(** ** The answers given so far as an environment of the session *)
Section env.
Context (po : pc_opts) (id : string).
Lemma sstep_calls env s lab s' : sstep po id env s lab = Some s' -> ss_calls s <= ss_calls s'.
Proof.
  destruct s as [ctl sy n pend x log]. destruct lab as [f|i|i|]; cbn [sstep].
  - destruct ctl as [[[e|]| |q k]| |[[[e|] sy']| |q k]|e|d| |]; try destruct f; repeat case_match; intros HH; try discriminate HH; injection HH as <-; cbn; lia.
  - case_match; intros HH; [injection HH as <-; cbn; lia|done].
  - repeat case_match; intros HH; try discriminate HH; injection HH as <-; cbn; lia.
  - intros H; injection H as <-; cbn; lia.
Qed.
Lemma sstep_env env env' s lab : (request s = None \/ (forall f, lab <> MStep f)) \/ (forall q, env' (ss_calls s) q = env (ss_calls s) q) -> sstep po id env' s lab = sstep po id env s lab.
Proof.
  destruct s as [ctl sy n pend x log]. cbn [ss_calls]. intros H. destruct lab as [f|i|i|]; try reflexivity.
  assert (H' : request (Session ctl sy n pend x log) = None \/ forall q, env' n q = env n q) by (destruct H as [[?|H]|?]; [by left|by destruct (H f)|by right]).
  clear H. destruct ctl as [[[e|]| |q k]| |[[[e|] sy']| |q k]|e|d| |]; try reflexivity; cbn [sstep]; (destruct H' as [H|H]; [discriminate H|by rewrite !H]).
Qed.
Lemma sstep_request env s f s' q : request s = Some q -> sstep po id env s (MStep f) = Some s' -> ss_calls s' = S (ss_calls s) /\ ss_log s' = ACall (Ev q (env (ss_calls s) q)) :: ss_log s.
Proof.
  destruct s as [ctl sy n pend x log]. unfold request. cbn [ss_ctl ss_calls ss_log].
  destruct ctl as [[[e|]| |q' k]| |[[[e|] sy']| |q' k]|e|d| |]; intros H; try discriminate H; injection H as ->; cbn [sstep]; intros H; injection H as <-; by split.
Qed.
Lemma sstep_own env s lab s' : request s = None \/ (forall f, lab <> MStep f) -> sstep po id env s lab = Some s' ->
  exists new, ss_log s' = new ++ ss_log s /\ Forall (fun a => forall e, a <> ACall e) new.
Proof.
  destruct s as [ctl sy n pend x log]. intros Hq. destruct lab as [f|i|i|]; cbn [sstep].
  - destruct Hq as [Hq|Hq]; [|by destruct (Hq f)]. unfold request in Hq. cbn in Hq.
    destruct ctl as [[[e|]| |q k]| |[[[e|] sy']| |q k]|e|d| |]; try discriminate Hq; try destruct f; repeat case_match; intros HH; try discriminate HH; injection HH as <-; cbn [ss_log];
      first [by exists []|by eexists [_]; split; [done|]; repeat constructor|by eexists [_; _]; split; [done|]; repeat constructor].
  - case_match; intros HH; [|done]. injection HH as <-. eexists [_]. split; [done|]. by repeat constructor.
  - repeat case_match; intros HH; try discriminate HH. injection HH as <-. eexists [_]. split; [done|]. by repeat constructor.
  - intros H. injection H as <-. eexists [_]. split; [done|]. by repeat constructor.
Qed.
Lemma sruns_env env env' sched : forall s s', sruns po id env s sched = Some s' -> (forall n q, n < ss_calls s' -> env' n q = env n q) -> sruns po id env' s sched = Some s'.
Proof.
  induction sched as [|lab r IH]; intros s s' Hr He; [done|]. cbn in *. destruct (sstep po id env s lab) as [s1|] eqn:E; [|done].
  assert (Hm : ss_calls s1 <= ss_calls s').
  { clear -Hr. revert s1 Hr. induction r as [|lab r IH]; intros s1 Hr; cbn in Hr; [injection Hr as <-; done|]. destruct (sstep po id env s1 lab) as [s2|] eqn:E; [|done].
    apply IH in Hr. apply sstep_calls in E. lia. }
  rewrite (sstep_env env env'), E; [by apply IH|]. destruct (request s) as [q|] eqn:Eq; [|left; by left]. destruct lab as [f|i|i|]; try (left; right; done). right. intros q'. apply He.
  destruct (sstep_request _ _ _ _ _ Eq E) as [Ec _]. lia.
Qed.
(** One more step *)
Lemma sruns_more env sched s s' env1 lab : sruns po id env (session_init po) sched = Some s -> sstep po id env1 s lab = Some s' ->
  exists env', sruns po id env' (session_init po) (sched ++ [lab]) = Some s'.
Proof.
  intros Hr Hs. set (env' := fun n q => if decide (n = ss_calls s) then env1 n q else env n q). exists env'.
  rewrite sruns_app. rewrite (sruns_env env env' sched _ s Hr); [|intros n q Hn; unfold env'; rewrite decide_False by lia; done].
  cbn. rewrite (sstep_env env1 env'); [by rewrite Hs|]. right. intros q. unfold env'. by rewrite decide_True.
Qed.
End env.

(** ** Programs without ApplyBlock *)
Inductive no_apply {A} : prog A -> Prop :=
| na_ret a : no_apply (Ret a)
| na_crash : no_apply Crash
| na_call q k : (forall t b, q <> QApply t b) -> (forall a, no_apply (k a)) -> no_apply (PeerConn_Model.Call q k).
Lemma check_points_no_apply o hid cps : no_apply (check_points o hid cps).
Proof.
  induction cps as [|cp cps IH]; cbn [check_points]; [constructor|]. constructor; [done|]. intros [i err]. repeat case_match; try constructor; done.
Qed.
Lemma handshake_no_apply o : no_apply (handshake o).
Proof.
  assert (H : no_apply (handshake_chain o)).
  { unfold handshake_chain. constructor; [done|]. intros [i err]. destruct err; [constructor|]. constructor; [done|]. intros [i2 err2]. destruct err2; [constructor|]. destruct i; [|constructor].
    destruct (bytes_equal _ _); [|constructor]. constructor; [done|]. intros [[h hh] err3]. destruct err3; [constructor|]. apply check_points_no_apply. }
  unfold handshake. constructor; [done|]. intros [v err]. repeat case_match; try done; constructor.
Qed.

(** ** The composition *)
Section follow.
Context (judge : blk -> option goerr) (o : ap_opts) (po : pc_opts) (id : string) (root : gset string) (head lib top : N) (cid : bytes) (ch : N -> blk) (young : blk -> Prop)
  (dur now : Z) (had : N).
Context (Hdur : good_dur dur) (HS : sound_setting judge o po root head lib top ch had).
Notation ks := (the_blocks lib top ch).
Notation Calm := (Calm o root head lib dur now (k_id (ch lib)) lib ks).
Notation Fair := (Fair o head lib dur now).
Notation has w := (has_block root (s_log (w_s w))).
Notation oc := (the_chain cid ch).
(** Irreversibility is less than a batch behind. *)
Definition pol : N -> N := fun h => (h - (po_batch po - 1))%N.
Notation nice := (nice o po root head lib top cid ch young).
Notation in_reach := (in_reach po lib top ch).
Notation place_of := (place_of lib ch).

Lemma in_ks h : (lib < h <= top)%N -> ch h ∈ ks.
Proof. intros Hh. apply stretch_in. exists (N.to_nat (h - lib - 1)). split; [lia|]. f_equal. lia. Qed.
Lemma ks_h k : k ∈ ks -> exists h, k = ch h /\ (lib < h <= top)%N /\ k_height k = h /\ b_header (k_src k) = Some (k_hdr k).
Proof.
  intros Hk. apply stretch_in in Hk as (i & Hi & ->). eexists. split; [done|]. destruct (so_chain _ _ _ _ _ _ _ _ _ HS (lib + 1 + N.of_nat i)%N) as (H1 & _ & H2). split_and!; [lia|lia|done|done].
Qed.
Lemma ks_ident h : (lib < h <= top)%N -> identified (k_id (ch lib)) lib ks (k_src (ch h)) /\ k_id (ch h) <> k_id (ch lib) /\ low o (k_src (ch h)).
Proof.
  intros Hh. pose proof (so_ids _ _ _ _ _ _ _ _ _ HS) as Hinj. destruct (so_chain _ _ _ _ _ _ _ _ _ HS h) as (H1 & _ & H2). split_and!.
  - split; [intros E; apply Hinj in E; lia|]. intros k Hk E. destruct (ks_h k Hk) as (h' & -> & _). apply Hinj in E. by subst.
  - intros E. apply Hinj in E. lia.
  - intros hd Hhd. rewrite H2 in Hhd. injection Hhd as <-. change (k_height (ch h) + ao_max_delta o + 1 < two64)%N. rewrite H1. destruct (so_low _ _ _ _ _ _ _ _ _ HS). lia.
Qed.
Lemma prev_at h : (lib < h)%N -> k_prev (ch h) = k_id (ch (h - 1)).
Proof. intros Hh. destruct (so_chain _ _ _ _ _ _ _ _ _ HS (h - 1)%N) as (_ & H & _). by replace (h - 1 + 1)%N with h in H by lia. Qed.
Lemma Hjudge : forall k, k ∈ ks -> judge k = None.
Proof. intros k Hk. by apply (so_valid _ _ _ _ _ _ _ _ _ HS). Qed.
Lemma Hlow : (head + ao_max_delta o + 1 < two64)%N.
Proof. by destruct (so_low _ _ _ _ _ _ _ _ _ HS). Qed.
Lemma Hpend : (ao_max_pending o < 2 ^ 63)%N.
Proof. by destruct (so_opts _ _ _ _ _ _ _ _ _ HS). Qed.
Lemma Hwf : forall k, k ∈ ks -> b_header (k_src k) = Some (k_hdr k).
Proof. intros k Hk. by destruct (ks_h k Hk) as (? & _ & _ & _ & ?). Qed.
Lemma Hlibroot : forall k, k ∈ ks -> (k_height k <= lib)%N -> k_id k ∈ root.
Proof. intros k Hk Hle. exfalso. destruct (ks_h k Hk) as (h & -> & ? & ? & _). lia. Qed.

(** What is left of a round *)
Definition over {A} (p : prog A) : Prop := match p with PeerConn_Model.Call _ _ => False | _ => True end.
Definition handing_over (h : N) (m : nat) (p : prog (option goerr * bool)) : Prop :=
  exists F, (forall r, over (F r)) /\ p = bind (apply_blocks po (map k_src (stretch ch (h + 1) m))) F.
Inductive asks (l : N) : prog (option goerr * bool) -> Prop :=
| ak_over p : over p -> asks l p
| ak_call q k : (forall t b, q <> QApply t b) -> (forall t hd s n, q <> QPeerBlocks t hd s n) -> (forall a, asks l (k a)) -> asks l (PeerConn_Model.Call q k)
| ak_fetch t hd n k : (forall m err, over (k (map k_src (stretch ch (l + 1) m), err)) \/ handing_over l m (k (map k_src (stretch ch (l + 1) m), err))) ->
    asks l (PeerConn_Model.Call (QPeerBlocks t hd (l + 1) n) k).
Definition sstage (p : prog (option goerr * bool)) (wait : option nat) (w : world) : Prop :=
  (wait = None /\ ((exists sy, p = request_sync po sy) \/ exists l, (lib <= l <= top)%N /\ has w (k_id (ch l)) /\ asks l p)) \/
  exists h m, (lib <= h)%N /\ (h + N.of_nat m <= top)%N /\ has w (k_id (ch h)) /\ handing_over h m p /\
    match wait with None => True | Some c => 0 < m /\ exists cl, s_calls (w_s w) !! c = Some cl /\ cl_blk cl = ch (h + 1)%N /\ answered_only cl end.
Definition cstage (ctl : control) (wait : option nat) (w : world) : Prop :=
  match ctl with SyRun p => sstage p wait w | HsRun p => wait = None /\ no_apply p | _ => wait = None end.
(** What the chain has of the peer's chain is an initial part of it. *)
Lemma head_grows (chain : gset string) x H : (lib <= H)%N -> (forall h, (lib <= h)%N -> k_id (ch h) ∈ chain <-> (h <= H)%N) ->
  (forall h, (lib < h)%N -> x = k_id (ch h) -> k_id (ch (h - 1)) ∈ chain) ->
  exists H', (H <= H')%N /\ forall h, (lib <= h)%N -> k_id (ch h) ∈ ({[x]} ∪ chain) <-> (h <= H')%N.
Proof.
  intros HH Hc Hx. pose proof (so_ids _ _ _ _ _ _ _ _ _ HS) as Hinj. destruct (decide (x = k_id (ch (H + 1)%N))) as [E|E].
  - exists (H + 1)%N. split; [lia|]. intros h Hh. rewrite elem_of_union, elem_of_singleton, (Hc h Hh), E. split.
    + intros [E2|?]; [apply Hinj in E2; lia|lia].
    + intros Hle. destruct (decide (h = H + 1)%N) as [->|]; [by left|right; lia].
  - exists H. split; [lia|]. intros h Hh. rewrite elem_of_union, elem_of_singleton, (Hc h Hh). split; [|auto]. intros [E2|?]; [|done].
    destruct (decide (h = lib)) as [->|Hn]; [lia|]. assert (Hp : k_id (ch (h - 1)) ∈ chain) by (apply Hx; [lia|done]). apply Hc in Hp; [|lia].
    destruct (decide (h <= H)%N) as [|Hgt]; [done|]. exfalso. apply E. rewrite <- E2. do 2 f_equal. lia.
Qed.
Lemma head_step w lab w' H : Fair w -> Calm w -> wstep judge o w lab = Some w' -> on_top lib ch w lab -> (forall h, (lib < h)%N -> k_id (ch h) ∈ w_chain w' -> (h <= top)%N) ->
  (lib <= H)%N -> (forall h, (lib <= h)%N -> k_id (ch h) ∈ w_chain w <-> (h <= H)%N) ->
  exists H', (H <= H')%N /\ forall h, (lib <= h)%N -> k_id (ch h) ∈ w_chain w' <-> (h <= H')%N.
Proof.
  intros HF HC Hst Hon Htop HH Hc.
  assert (Hsame : w_chain w' = w_chain w -> exists H', (H <= H')%N /\ forall h, (lib <= h)%N -> k_id (ch h) ∈ w_chain w' <-> (h <= H')%N).
  { intros ->. exists H. split; [lia|done]. }
  destruct (fa_reach _ _ _ _ _ _ HF) as (sc & Hr & _). pose proof (reaches_inv _ _ _ _ _ _ _ Hr) as HI. apply wstep_inv in Hst. destruct lab as [l|i|j|b].
  - apply Hsame. apply Hst.
  - destruct Hst as (k & Hi & _ & [(Ev & Hnew & Ec & _)|(_ & Ec & _)]); [|by apply Hsame]. rewrite Ec in Htop |- *. apply head_grows; [done|done|]. intros h Hh Ex.
    assert (Hht : (h <= top)%N) by (apply Htop; [done|]; rewrite Ex; by apply elem_of_union_l, elem_of_singleton).
    assert (k = ch h) as ->.
    { eapply (fam_same o head lib dur now (k_id (ch lib)) lib ks Hwf); [exact Hr|apply HC|apply (pv_att _ (v_prov _ _ _ _ HI) _ _ Hi)|apply in_ks; lia|done]. }
    unfold verdict in Ev. rewrite bool_decide_eq_false_2 in Ev by done. case_bool_decide as Hp; [|done]. by rewrite prev_at in Hp.
  - apply Hsame. by destruct Hst as (? & _ & _ & ? & _).
  - destruct Hst as (_ & Ec & _). rewrite Ec. apply head_grows; [done|done|]. intros h Hh E. by apply Hon.
Qed.
(** The part of the invariant that does not concern the session *)
Record WI (w : world) (l : N) : Prop := {
  wi_fair : Fair w; wi_calm : Calm w;
  wi_irr : forall k, k ∈ ks -> irreversible lib (s_log (w_s w)) (k_height k) -> has w (k_id k);
  wi_ord : forall k, k ∈ ks -> young k \/ Ordered root k w;
  wi_lib : (lib <= l)%N /\ has w (k_id (ch l));
  wi_head : exists H, (lib <= H <= top)%N /\ (H < l + po_batch po)%N /\ forall h, (lib <= h)%N -> k_id (ch h) ∈ w_chain w <-> (h <= H)%N }.
Lemma world_nice w l lab w' : WI w l -> wstep judge o w lab = Some w' -> wu64 lab -> wcomplete lab -> welcome o head (k_id (ch lib)) lib ks w lab -> said_before root ks w lab ->
  on_top lib ch w lab -> (forall k, k ∈ ks -> young k \/ after_parent root k w lab) ->
  (forall h, (lib < h)%N -> k_id (ch h) ∈ w_chain w' -> (h <= top)%N /\ (h < l + po_batch po)%N) ->
  WI w' l /\ (forall k, has w k -> has w' k) /\
  (forall c cl, lab <> WApp (LTimeout c) -> s_calls (w_s w) !! c = Some cl -> answered_only cl -> exists cl', s_calls (w_s w') !! c = Some cl' /\ cl_blk cl' = cl_blk cl /\ answered_only cl') /\
  forall H, (lib <= H)%N -> (forall h, (lib <= h)%N -> k_id (ch h) ∈ w_chain w <-> (h <= H)%N) -> exists H', (H <= H')%N /\ forall h, (lib <= h)%N -> k_id (ch h) ∈ w_chain w' <-> (h <= H')%N.
Proof.
  intros [HF HC Hirr Hord Hli Hhd] Hst Hu Hc Hwel Hsaid Hon Hap Hin.
  destruct (calm_step judge o root head lib dur now (k_id (ch lib)) lib ks Hdur Hjudge Hlow Hpend Hwf Hlibroot w lab w' Hu Hc HF Hwel HC Hst) as (HF' & HC' & _ & (new & Elog) & Hcl & Hlb).
  assert (Hmono : forall k, has w k -> has w' k) by (intros k; rewrite Elog; apply has_mono).
  assert (Hheads : forall H, (lib <= H)%N -> (forall h, (lib <= h)%N -> k_id (ch h) ∈ w_chain w <-> (h <= H)%N) -> exists H', (H <= H')%N /\ forall h, (lib <= h)%N -> k_id (ch h) ∈ w_chain w' <-> (h <= H')%N).
  { intros H H1 H2. apply (head_step w lab w' H HF HC Hst Hon); [intros h Hh Hx; by apply Hin|done|done]. }
  split_and!; [|done|done|done]. split; try done.
  - intros k Hk [?|(x & Hx & Hle)]; [apply Hmono, Hirr; [done|by left]|]. apply Hmono. destruct (Hlb x Hx) as [?|(i & lose & fh & -> & Hfh & E)]; [apply Hirr; [done|right; eauto]|]. exact (Hsaid fh x k Hfh E Hk Hle).
  - intros k Hk. destruct (Hord k Hk) as [?|HO]; [by left|]. destruct (Hap k Hk) as [?|Hx]; [by left|right]. eapply Ordered_step; [exact HF|exact Hx|exact HO|exact Hst].
  - destruct Hli as [H1 H2]. split; [done|]. by apply Hmono.
  - destruct Hhd as (H & H1 & H2 & H3). destruct (Hheads H) as (H' & H4 & H5); [lia|done|]. exists H'.
    destruct (decide (H' = lib)) as [->|Hn]; [split_and!; [lia|lia|lia|done]|]. assert (Hx : k_id (ch H') ∈ w_chain w') by (apply H5; lia). apply Hin in Hx; [|lia]. split_and!; [lia|lia|lia|done].
Qed.
Record CI (c : comp) : Prop := {
  ci_w : WI (cp_world c) (cp_lib c);
  ci_peer : (cp_peer c <= top)%N;
  ci_stage : cstage (ss_ctl (cp_ses c)) (cp_wait c) (cp_world c) }.
Lemma head_unique c pl : CI c -> place_of c pl -> (lib <= pl_head pl <= top)%N /\ (pl_head pl < cp_lib c + po_batch po)%N.
Proof.
  intros HC (_ & _ & Hpl). destruct (wi_head _ _ (ci_w c HC)) as (H & [H1 H2] & H3 & H4).
  assert (E : pl_head pl = H). { pose proof (proj1 (Hpl H H1) (proj2 (H4 H H1) (N.le_refl _))) as Hle. apply N.le_antisymm; [|done]. apply (H4 (pl_head pl)); [lia|]. apply Hpl; lia. }
  rewrite E. lia.
Qed.
Lemma has_le c pl h : CI c -> place_of c pl -> (lib <= h)%N -> has (cp_world c) (k_id (ch h)) -> (h <= pl_head pl)%N.
Proof. intros HC (_ & _ & Hpl) Hh Hhas. apply Hpl; [done|]. by eapply cm_has; [apply HC|]. Qed.
Lemma place_consistent c pl : CI c -> place_of c pl -> consistent pol pl.
Proof.
  intros HC Hpl. pose proof (head_unique c pl HC Hpl) as [H1 H2]. destruct (wi_lib _ _ (ci_w c HC)) as [H3 H4]. pose proof (has_le c pl _ HC Hpl H3 H4) as H7. pose proof (ci_peer c HC) as H8. destruct Hpl as (E1 & E2 & _).
  destruct (so_low _ _ _ _ _ _ _ _ _ HS) as [H5 _]. destruct (so_opts _ _ _ _ _ _ _ _ _ HS) as [[H6 _] _]. unfold consistent, pol. rewrite E1, E2. split_and!; lia.
Qed.
Lemma place_exists c : CI c -> exists pl, place_of c pl.
Proof. intros HC. destruct (wi_head _ _ (ci_w c HC)) as (H & _ & _ & H4). exists (Place (cp_peer c) H (cp_lib c)). split_and!; done. Qed.

(** ** The round *)
Lemma fetch_asks l hd hh sy : (l + 1 < two64)%N -> asks l (fetch po l hd hh sy).
Proof.
  intros Hl. unfold fetch. replace (add64 l 1) with (l + 1)%N by (unfold add64; by rewrite N.mod_small). apply ak_fetch. intros m err. destruct err as [e|]; [by left|right].
  eexists. split; [|reflexivity]. intros [e|]; [done|]. repeat case_match; done.
Qed.
Lemma round_asks sy k t : request_sync po sy = PeerConn_Model.Call QLib k -> (tp_height t + 1 < two64)%N -> asks (tp_height t) (k (Some t)).
Proof.
  intros E Hl. unfold request_sync in E. apply call_inj in E. rewrite <- E. cbv beta. apply ak_call; [done|done|]. intros [[hd hh] err]. destruct err as [e|]; [by apply ak_over|]. cbv beta iota.
  case_bool_decide; [by apply ak_over|]. apply ak_call; [done|done|]. intros [items err]. destruct err as [e|]; [by apply ak_over|]. destruct items as [[|[h|] [|]]|]; try (by apply ak_over).
  case_bool_decide; [by apply ak_over|]. case_bool_decide; [|by apply fetch_asks]. apply ak_call; [done|done|]. intros [i err]. destruct err as [e|]; [by apply ak_over|].
  destruct (bytes_equal _ _); [by apply fetch_asks|by apply ak_over].
Qed.
Lemma handing_S h m p : (lib <= h)%N -> (h + N.of_nat (S m) <= top)%N -> handing_over h (S m) p ->
  exists k, p = PeerConn_Model.Call (QApply (po_app_timeout po) (k_src (ch (h + 1)%N))) k /\ handing_over (h + 1) m (k None) /\ handing_over (h + 1) m (k irr).
Proof.
  intros H1 H2 (F & HF & ->). rewrite stretch_S. cbn [map apply_blocks]. rewrite (Hwf (ch (h + 1)%N)) by (apply in_ks; lia). eexists. split; [reflexivity|]. split; exists F; by split.
Qed.
Lemma handing_call h m q k : (lib <= h)%N -> (h + N.of_nat m <= top)%N -> handing_over h m (PeerConn_Model.Call q k) -> exists m', m = S m' /\ q = QApply (po_app_timeout po) (k_src (ch (h + 1)%N)).
Proof.
  intros H1 H2 HH. destruct m as [|m]; [destruct HH as (F & HF & E); cbn in E; specialize (HF None); by rewrite <- E in HF|].
  destruct (handing_S _ _ _ H1 H2 HH) as (k' & E & _). exists m. split; [done|]. by injection E.
Qed.
Lemma stage_ask c q k (a : resp q) : CI c -> sstage (PeerConn_Model.Call q k) None (cp_world c) -> (forall t b, q <> QApply t b) -> right_answer lib top cid ch c q a ->
  sstage (k a) None (cp_world c).
Proof.
  intros HC Hst Hq [Ha Hb]. destruct (place_exists c HC) as (pl & Hpl). specialize (Ha pl Hpl). destruct (so_low _ _ _ _ _ _ _ _ _ HS) as [Hlo _].
  destruct Hst as [(_ & [(sy & E)|(l & Hl & Hhas & Has)])|(h & m & H1 & H2 & H3 & H4 & _)].
  - assert (q = QLib) as -> by (unfold request_sync in E; by injection E). left. split; [done|right]. cbn [answered] in Ha. destruct Ha as (t & -> & Et & _).
    destruct (wi_lib _ _ (ci_w c HC)) as [L1 L2]. pose proof (has_le c pl _ HC Hpl L1 L2) as L3. pose proof (head_unique c pl HC Hpl) as [L4 _]. destruct Hpl as (_ & E2 & _). rewrite E2 in Et.
    exists (cp_lib c). split_and!; [done|lia|done|]. rewrite <- Et. eapply round_asks; [symmetry; exact E|]. lia.
  - remember (PeerConn_Model.Call q k) as p eqn:Ep. destruct Has as [p Ho|q' k' Hq1 Hq2 Hk|t hd n k' Hk].
    + subst p. by destruct Ho.
    + injection Ep as Eq Ek. subst q'. apply (Eqdep_dec.inj_pair2_eq_dec _ (fun x y => decide (x = y))) in Ek. subst k'. left. split; [done|right]. eauto.
    + assert (q = QPeerBlocks t hd (l + 1) n) as -> by congruence. apply call_inj in Ep. subst k'. destruct Hb as (m & E & Hm). destruct a as [bs err]. cbn in E. subst bs.
      destruct (Hk m err) as [Ho|Hh]; [left; split; [done|right]; exists l; split; [done|]; split; [done|by apply ak_over]|].
      right. exists l, m. split_and!; [lia|lia|done|done|done].
  - destruct (handing_call _ _ _ _ H1 H2 H4) as (m' & _ & ->). by destruct (Hq (po_app_timeout po) (k_src (ch (h + 1)%N))).
Qed.
Lemma stage_over p wait w : sstage p wait w -> over p -> wait = None.
Proof.
  intros [(? & _)|(h & m & H1 & H2 & _ & H4 & H5)] Ho; [done|]. destruct wait as [c|]; [|done]. destruct H5 as [Hm _]. destruct m as [|m]; [lia|].
  destruct (handing_S _ _ _ H1 H2 H4) as (k & -> & _). by destruct Ho.
Qed.
Lemma cstage_world ctl wait w w' : (forall k, has w k -> has w' k) ->
  (forall c cl, wait = Some c -> s_calls (w_s w) !! c = Some cl -> answered_only cl -> exists cl', s_calls (w_s w') !! c = Some cl' /\ cl_blk cl' = cl_blk cl /\ answered_only cl') ->
  cstage ctl wait w -> cstage ctl wait w'.
Proof.
  intros Hm Hcl. destruct ctl as [| |p| | | |]; try done. intros [(E & [Hx|(l & ? & ? & ?)])|(h & m & H1 & H2 & H3 & H4 & H5)].
  - left. split; [done|by left].
  - left. split; [done|right]. exists l. auto.
  - right. exists h, m. split_and!; try done; [by apply Hm|]. destruct wait as [c|]; [|done]. destruct H5 as [? (cl & Hc & E & Hok)]. split; [done|].
    destruct (Hcl c cl eq_refl Hc Hok) as (cl' & ? & ? & ?). exists cl'. split_and!; [done|congruence|done].
Qed.
Lemma cstage_own env s lab s' wait w : request s = None \/ (forall f, lab <> MStep f) -> sstep po id env s lab = Some s' -> cstage (ss_ctl s) wait w -> cstage (ss_ctl s') wait w.
Proof.
  destruct s as [ctl sy n pend x log]. intros Hq. destruct lab as [f|i|i|]; cbn [sstep ss_ctl].
  - destruct Hq as [Hq|Hq]; [|by destruct (Hq f)]. unfold request in Hq. cbn in Hq.
    destruct ctl as [[[e|]| |q k]| |[[[e|] sy']| |q k]|e|d| |]; try discriminate Hq; try destruct f; repeat case_match; intros HH; try discriminate HH; injection HH as <-; cbn [ss_ctl cstage]; try done;
      try (by intros [-> _]); try (by intros Hst; apply (stage_over _ _ _ Hst)).
    all: first [intros [-> _]; left; split; [done|left]; by eexists|intros ->; split; [done|]; apply handshake_no_apply|intros ->; left; split; [done|left]; by eexists].
  - case_match; intros HH; [|done]. by injection HH as <-.
  - repeat case_match; intros HH; try discriminate HH. by injection HH as <-.
  - intros HH. by injection HH as <-.
Qed.
Lemma sstep_ctl env s f s' q : request s = Some q -> sstep po id env s (MStep f) = Some s' ->
  (exists k, ss_ctl s = HsRun (PeerConn_Model.Call q k) /\ ss_ctl s' = HsRun (k (env (ss_calls s) q))) \/
  (exists k, ss_ctl s = SyRun (PeerConn_Model.Call q k) /\ ss_ctl s' = SyRun (k (env (ss_calls s) q))).
Proof.
  destruct s as [ctl sy n pend x log]. unfold request. cbn [ss_ctl ss_calls].
  destruct ctl as [[[e|]| |q' k]| |[[[e|] sy']| |q' k]|e|d| |]; intros H; try discriminate H; injection H as ->; cbn [sstep]; intros H; injection H as <-; [left|right]; by exists k.
Qed.
(** The call of ApplyBlock that the session makes *)
Lemma stage_apply s wait w t b : request s = Some (QApply t b) -> cstage (ss_ctl s) wait w ->
  exists h m k, ss_ctl s = SyRun (PeerConn_Model.Call (QApply t b) k) /\ b = k_src (ch (h + 1)%N) /\ (lib <= h)%N /\ (h + N.of_nat (S m) <= top)%N /\ has w (k_id (ch h)) /\
    handing_over h (S m) (PeerConn_Model.Call (QApply t b) k) /\ handing_over (h + 1) m (k None) /\ handing_over (h + 1) m (k irr) /\
    match wait with None => True | Some c => exists cl, s_calls (w_s w) !! c = Some cl /\ cl_blk cl = ch (h + 1)%N /\ answered_only cl end.
Proof.
  intros Hq Hst. unfold request in Hq. destruct (ss_ctl s) as [[r| |q k]| |[r| |q k]|e|d| |] eqn:Ec; try discriminate Hq; injection Hq as ->.
  - exfalso. destruct Hst as [_ Hn]. remember (PeerConn_Model.Call (QApply t b) k) as p eqn:Ep. destruct Hn as [| |q' k' Hq _]; try done. assert (q' = QApply t b) as -> by congruence. by destruct (Hq t b).
  - destruct Hst as [(-> & [(sy & E)|(l & _ & _ & Has)])|(h & m & H1 & H2 & H3 & H4 & H5)].
    + done.
    + exfalso. remember (PeerConn_Model.Call (QApply t b) k) as p eqn:Ep. destruct Has as [p Ho|q' k' Hq _ _|]; [by subst p|assert (q' = QApply t b) as -> by congruence; by destruct (Hq t b)|done].
    + destruct (handing_call _ _ _ _ H1 H2 H4) as (m' & -> & E). injection E as -> ->. destruct (handing_S _ _ _ H1 H2 H4) as (k' & E & Hn & Hi). apply call_inj in E. subst k'.
      exists h, m', k. split_and!; try done. destruct wait as [c|]; [|done]. by destruct H5.
Qed.
(** ** Steps *)
Lemma in_reach_w c : in_reach c -> forall h, (lib < h)%N -> k_id (ch h) ∈ w_chain (cp_world c) -> (h <= top)%N /\ (h < cp_lib c + po_batch po)%N.
Proof. done. Qed.
Lemma hand_nice s w p l t b w' : CI (Comp s None w p l) -> request s = Some (QApply t b) -> wstep judge o w (WApp (LCall b)) = Some w' ->
  nice (Comp s None w p l) (CHand b) (Comp s (Some (length (s_calls (w_s w)))) w' p l) ->
  WI w' l /\ (forall k, has w k -> has w' k) /\
  forall H, (lib <= H)%N -> (forall h, (lib <= h)%N -> k_id (ch h) ∈ w_chain w <-> (h <= H)%N) -> exists H', (H <= H')%N /\ forall h, (lib <= h)%N -> k_id (ch h) ∈ w_chain w' <-> (h <= H')%N.
Proof.
  intros HC Hq Hw [Hin Hn]. destruct (stage_apply s None w t b Hq (ci_stage _ HC)) as (h & m & k & Ec & -> & H1 & H2 & H3 & _).
  destruct (ks_ident (h + 1)) as (Hid & Hne & Hlo); [lia|]. assert (Hks : ch (h + 1)%N ∈ ks) by (apply in_ks; lia). pose proof (Hwf _ Hks) as Hb.
  destruct (world_nice w l (WApp (LCall (k_src (ch (h + 1)%N)))) w' (ci_w _ HC) Hw) as (W1 & W2 & _ & W4); [..|by split_and!].
  - by apply (so_valid _ _ _ _ _ _ _ _ _ HS).
  - cbn. by rewrite Hb.
  - cbn. split_and!; try done. intros k1 Hk1 Esrc. rewrite Esrc in Hn. destruct (Hn _ (Hwf _ Hk1)). by split.
  - done.
  - done.
  - intros k1 Hk1. right. intros b Eb Eid. injection Eb as <-. destruct (ks_h k1 Hk1) as (h1 & -> & ? & _). apply (so_ids _ _ _ _ _ _ _ _ _ HS) in Eid. subst h1.
    rewrite prev_at by lia. by replace (h + 1 - 1)%N with h by lia.
  - exact Hin.
Qed.
Lemma back_result s c w p l t b cl res : CI (Comp s (Some c) w p l) -> request s = Some (QApply t b) -> s_calls (w_s w) !! c = Some cl -> cl_phase cl = CRet res ->
  exists h, (lib <= h)%N /\ (h < top)%N /\ b = k_src (ch (h + 1)%N) /\ (res = None \/ res = irr) /\ has w (k_id (ch (h + 1)%N)).
Proof.
  intros HC Hq Hc Hph. destruct (stage_apply s (Some c) w t b Hq (ci_stage _ HC)) as (h & m & k & Ec & -> & H1 & H2 & H3 & _ & _ & _ & cl' & Hc' & Eb & Hok). rewrite Hc in Hc'. injection Hc' as <-.
  assert (Hks : ch (h + 1)%N ∈ ks) by (apply in_ks; lia). exists h. split_and!; [done|lia|done|..];
    destruct (calm_returned judge o root head lib dur now (k_id (ch lib)) lib ks w c cl (ch (h + 1)%N) res (wi_fair _ _ (ci_w _ HC)) (wi_calm _ _ (ci_w _ HC)) Hks Hc Eb Hok Hph) as [(-> & ?)|(-> & Hi)]; auto.
  - by right.
  - by apply (wi_irr _ _ (ci_w _ HC)).
Qed.
Lemma place_moves s wait w p l s' wait' w' p' l' pl : CI (Comp s wait w p l) -> CI (Comp s' wait' w' p' l') -> (p <= p')%N -> (l <= l')%N ->
  (forall H, (lib <= H)%N -> (forall h, (lib <= h)%N -> k_id (ch h) ∈ w_chain w <-> (h <= H)%N) -> exists H', (H <= H')%N /\ forall h, (lib <= h)%N -> k_id (ch h) ∈ w_chain w' <-> (h <= H')%N) ->
  place_of (Comp s wait w p l) pl -> exists pl', place_of (Comp s' wait' w' p' l') pl' /\ moves_on pol pl pl'.
Proof.
  intros HC HC' Hp Hl Hh Hpl. pose proof (head_unique _ _ HC Hpl) as [Hx _]. destruct Hpl as (E1 & E2 & E3). destruct (Hh (pl_head pl)) as (H' & H1 & H2); [lia|exact E3|].
  exists (Place p' H' l'). assert (Hpl' : place_of (Comp s' wait' w' p' l') (Place p' H' l')) by (split_and!; done). split; [done|]. cbn in E1, E2. split_and!; cbn; [lia|lia|lia|by apply place_consistent in Hpl'].
Qed.
Lemma follow_step c lab c' : CI c -> cstep judge o po id c lab c' -> nice c lab c' -> CI c' /\ (forall pl, place_of c pl -> exists pl', place_of c' pl' /\ moves_on pol pl pl').
Proof.
  intros HC Hst Hnice. assert (Hkeep : forall w H, (lib <= H)%N -> (forall h, (lib <= h)%N -> k_id (ch h) ∈ w_chain w <-> (h <= H)%N) -> exists H', (H <= H')%N /\ forall h, (lib <= h)%N -> k_id (ch h) ∈ w_chain w <-> (h <= H')%N)
    by (intros w H _ HH; exists H; split; [lia|done]).
  destruct Hst as [s wait w p l lab w' Hw Hn|s wait w p l p'|s wait w p l l'|s wait w p l|s wait w p l lab s' env Hq Hs|s w p l q ans f s' Hq Hna Hs|s w p l t b w' Hq Hw Hlen|s w p l t b w' e ans f s' Hq Hw Hlog He Hs|s c w p l t b cl ans f s' Hq Hc Hph Hs|s c w p l w' Hw].
  - destruct Hnice as [Hin (N1 & N2 & N3 & N4 & N5 & N6)]. destruct (world_nice w l lab w' (ci_w _ HC) Hw N1 N2 N3 N4 N5 N6 Hin) as (W1 & W2 & W3 & W4).
    assert (HC' : CI (Comp s wait w' p l)).
    { split; [done|by apply (ci_peer _ HC)|]. eapply cstage_world; [exact W2| |apply (ci_stage _ HC)]. intros c cl E Hc Hok. eapply W3; [|exact Hc|exact Hok]. by apply Hn. }
    split; [done|]. intros pl Hpl. eapply place_moves; [exact HC|done|cbn; lia|cbn; lia|exact W4|done].
  - destruct Hnice as [Hin [N1 N2]]. cbn in N1. assert (HC' : CI (Comp s wait w p' l)) by (split; [apply (ci_w _ HC)|done|apply (ci_stage _ HC)]). split; [done|]. intros pl Hpl. eapply place_moves; [exact HC|done|done|cbn; lia|by apply Hkeep|done].
  - destruct Hnice as [Hin [N1 N2]]. cbn in N1, N2. destruct (ci_w _ HC) as [A1 A2 A3 A4 [A5 A6] (H & A7 & A8 & A9)]. cbn in *.
    assert (HC' : CI (Comp s wait w p l')).
    { split; [split; try done; cbn; [split; [lia|done]|exists H; split_and!; [lia|lia|lia|done]]|apply (ci_peer _ HC)|apply (ci_stage _ HC)]. }
    split; [done|]. intros pl Hpl. eapply place_moves; [exact HC|done|cbn; lia|done|by apply Hkeep|done].
  - assert (HC' : CI (Comp (session_init po) None w p l)) by (split; [apply (ci_w _ HC)|apply (ci_peer _ HC)|]; cbn; split; [done|]; apply handshake_no_apply).
    split; [done|]. intros pl Hpl. eapply place_moves; [exact HC|done|cbn; lia|cbn; lia|by apply Hkeep|done].
  - assert (HC' : CI (Comp s' wait w p l)) by (split; [apply (ci_w _ HC)|apply (ci_peer _ HC)|]; eapply cstage_own; [exact Hq|exact Hs|apply (ci_stage _ HC)]).
    split; [done|]. intros pl Hpl. eapply place_moves; [exact HC|done|cbn; lia|cbn; lia|by apply Hkeep|done].
  - assert (HC' : CI (Comp s' None w p l)).
    { split; [apply (ci_w _ HC)|apply (ci_peer _ HC)|]. pose proof (ci_stage _ HC) as Hst. cbn in Hst |- *. destruct (sstep_ctl _ _ _ _ _ Hq Hs) as [(k & E & ->)|(k & E & ->)]; rewrite E in Hst.
      - destruct Hst as [_ Hna2]. split; [done|]. remember (PeerConn_Model.Call q k) as pr eqn:Ep. destruct Hna2 as [| |q' k' _ Hk]; try done. injection Ep as Eq Ek. subst q'. apply (Eqdep_dec.inj_pair2_eq_dec _ (fun x y => decide (x = y))) in Ek. subst k'. apply Hk.
      - destruct Hnice as [_ Hra]. eapply (stage_ask (Comp s None w p l)); [exact HC|exact Hst|exact Hna|exact Hra]. }
    split; [done|]. intros pl Hpl. eapply place_moves; [exact HC|done|cbn; lia|cbn; lia|by apply Hkeep|done].
  - destruct (hand_nice s w p l t b w' HC Hq Hw Hnice) as (W1 & W2 & W3). assert (HC' : CI (Comp s (Some (length (s_calls (w_s w)))) w' p l)).
    { split; [done|by apply (ci_peer _ HC)|]. destruct (stage_apply s None w t b Hq (ci_stage _ HC)) as (h & m & k & Ec & -> & H1 & H2 & H3 & H4 & _).
      cbn. rewrite Ec. right. exists h, (S m). split_and!; [done|done|by apply W2|done|lia|]. assert (Hks : ch (h + 1)%N ∈ ks) by (apply in_ks; lia). pose proof (Hwf _ Hks) as Hb0.
      apply wstep_inv in Hw as (_ & Hs & _). apply step_Step in Hs as [_ Hs]. clear -Hs Hlen Hb0. remember (LCall (k_src (ch (h + 1)%N))) as lab eqn:El. remember (w_s w') as s' eqn:Es.
      destruct Hs; try done; injection El as ->; [|cbn in Hlen; lia|congruence].
      eexists _. split_and!; [cbn; rewrite lookup_app_r, Nat.sub_diag by done; done|cbn; destruct (ch (h + 1)%N); cbn in *; congruence|]. by intros r Hr. }
    split; [done|]. intros pl Hpl. eapply place_moves; [exact HC|done|cbn; lia|cbn; lia|exact W3|done].
  - by destruct Hnice as [_ []].
  - assert (HC' : CI (Comp s' None w p l)).
    { split; [apply (ci_w _ HC)|apply (ci_peer _ HC)|]. destruct (back_result s c w p l t b cl _ HC Hq Hc Hph) as (h0 & _ & _ & Eb & Hres & Hhas).
      destruct (stage_apply s (Some c) w t b Hq (ci_stage _ HC)) as (h & m & k & Ec & Eb2 & H1 & H2 & H3 & H4 & H5 & H6 & _).
      assert (E : (h0 + 1 = h + 1)%N). { apply (so_ids _ _ _ _ _ _ _ _ _ HS). unfold k_id. by rewrite <- Eb, Eb2. }
      rewrite E in Hhas. cbn. destruct (sstep_ctl _ _ _ _ _ Hq Hs) as [(k' & E1 & _)|(k' & E1 & ->)]; [congruence|]. rewrite Ec in E1. injection E1 as E1. apply (Eqdep_dec.inj_pair2_eq_dec _ (fun x y => decide (x = y))) in E1. subst k'.
      right. exists (h + 1)%N, m. split_and!; [lia|lia|done| |done]. by destruct Hres as [-> | ->]. }
    split; [done|]. intros pl Hpl. eapply place_moves; [exact HC|done|cbn; lia|cbn; lia|by apply Hkeep|done].
  - by destruct Hnice as [_ []].
Qed.
(** ** At rest *)
Lemma not_held w l : WI w l -> running (w_s w) -> wrest w -> (forall k, k ∈ ks -> young k -> recent o (s_now (w_s w)) k) ->
  forall n, let h := (lib + N.of_nat n)%N in (h <= top)%N -> (h = lib \/ k_id (ch (h - 1)) ∈ w_chain w) -> k_id (ch h) ∉ held_ids (w_s w).
Proof.
  intros [HF HCalm Hirr0 Hord Hli (H & [HH1 HH2] & HH3 & HH4)] Hrun [Hrest Howed] Hy.
  destruct (cm_kept _ _ _ _ _ _ _ _ _ _ HCalm) as (sc & Hre & Hkept). pose proof (reaches_inv _ _ _ _ _ _ _ Hre) as HI. destruct Hrest as (Hset & Hfh & Htx & Hcalls).
  assert (Hann : forall x, x ∈ w_chain w -> announced root (s_log (w_s w)) x).
  { intros x Hid. destruct (cm_conv _ _ _ _ _ _ _ _ _ _ HCalm x Hid) as [?|(b & [Hb|[Hb|(t & Hb)]] & E)]; [by left| | |right; eauto].
    - rewrite Howed in Hb. by apply elem_of_nil in Hb.
    - destruct Hset as (_ & _ & _ & _ & Hbc). rewrite Hbc in Hb. by apply elem_of_nil in Hb. }
  assert (Hfam : forall k, passed (w_s w) k -> fam (k_id (ch lib)) ks (k_id k) -> k ∈ ks).
  { intros k Hp Hf. eapply (fam_in o head lib dur now (k_id (ch lib)) lib ks); [exact Hwf|exact Hre|exact (cm_s _ _ _ _ _ _ _ _ _ _ HCalm)|exact Hp|exact Hf]. }
  assert (HE : Env (fam (k_id (ch lib)) ks) root head (w_s w)).
  { split; [done|apply truthful_check; apply HCalm|apply HCalm| |].
    - intros k k' Hf Hp Hp' E. pose proof (Hfam k Hp Hf) as H1. assert (H2 : k' ∈ ks) by (apply Hfam; [done|by rewrite <- E]).
      destruct (cs_calls _ _ _ _ _ _ _ (cm_s _ _ _ _ _ _ _ _ _ _ HCalm) k Hp) as ((_ & Hid) & _). specialize (Hid k' H2 E).
      pose proof (Hwf _ H1). pose proof (Hwf _ H2). destruct k, k'. cbn in *. congruence.
    - pose proof (cm_max _ _ _ _ _ _ _ _ _ Hlow _ HCalm). lia. }
  induction n as [|n IH]; intros h Hh Hor Hin; unfold held_ids in Hin; apply elem_of_dom in Hin as (en & He); pose proof (pv_byid _ (v_prov _ _ _ _ HI) _ _ He) as Hp;
    pose proof (ok_id _ (a_ok _ (v_acc _ _ _ _ HI)) _ _ He) as E.
  - destruct (cs_calls _ _ _ _ _ _ _ (cm_s _ _ _ _ _ _ _ _ _ _ HCalm) _ Hp) as (_ & _ & Hn & _). apply Hn. change (k_id (e_blk en) = k_id (ch lib)). rewrite E. f_equal. f_equal. unfold h. lia.
  - destruct Hor as [Hor|Hor]; [lia|]. assert (Hks : ch h ∈ ks) by (apply in_ks; lia).
    assert (Eb : e_blk en = ch h). { assert (Hk : e_blk en ∈ ks) by (apply Hfam; [done|right; eauto]). destruct (ks_h _ Hk) as (h' & E1 & _). rewrite E1 in E |- *. by apply (so_ids _ _ _ _ _ _ _ _ _ HS) in E as ->. }
    apply (IH ltac:(lia)).
    { destruct n as [|n]; [left; lia|right]. apply HH4; [lia|]. apply HH4 in Hor; lia. }
    replace (lib + N.of_nat n)%N with (h - 1)%N by lia. rewrite <- prev_at by lia. destruct en as [k1 cs]. cbn [e_blk] in Eb. subst k1.
    assert (Ha : announced root (s_log (w_s w)) (k_prev (ch h))) by (apply Hann; by rewrite prev_at by lia).
    eapply (settled_served (fam (k_id (ch lib)) ks)); [exact Hre|exact Hkept|exact HE|done|right; eauto| |exact He| | |exact Ha].
    + rewrite prev_at by lia. destruct n as [|n]; [left; do 2 f_equal; lia|right]. eexists. split; [|done]. apply in_ks. lia.
    + destruct (Hord _ Hks) as [?|Hal]; [left; by apply Hy|right]. apply in_order_check. apply Hal.
    + destruct (ks_h _ Hks) as (h' & E1 & _ & E2 & _). apply (f_equal k_id), (so_ids _ _ _ _ _ _ _ _ _ HS) in E1. subst h'. split.
      * rewrite E2, prev_at by lia. intros Hx. apply (so_root _ _ _ _ _ _ _ _ _ HS) in Hx; [|lia]. destruct (so_had _ _ _ _ _ _ _ _ _ HS) as ([? ?] & _). lia.
      * intros b t Hin E3. destruct (cm_told _ _ _ _ _ _ _ _ _ _ HCalm b) as (_ & (Hn & Hid) & _); [right; right; eauto|]. rewrite prev_at in E3 by lia. rewrite E2.
        destruct n as [|n]; [destruct (Hn ltac:(rewrite E3; do 2 f_equal; lia)) as (hd & H1 & H2); exists hd; split; [done|lia]|].
        assert (Hk' : ch (h - 1)%N ∈ ks) by (apply in_ks; lia). rewrite (Hid _ Hk' E3). exists (k_hdr (ch (h - 1)%N)). split; [by apply Hwf|].
        destruct (ks_h _ Hk') as (h' & E1 & _ & E4 & _). apply (f_equal k_id), (so_ids _ _ _ _ _ _ _ _ _ HS) in E1. subst h'. unfold k_height in E4. lia.
Qed.
Lemma rest_waits c : CI c -> running (w_s (cp_world c)) -> wrest (cp_world c) -> (forall k, k ∈ ks -> young k -> recent o (s_now (w_s (cp_world c))) k) -> ~ session_waits c.
Proof.
  intros HC Hrun Hrest Hy (n & Hn & Hno). destruct c as [s wait w p l]. cbn in *. subst wait. pose proof (ci_stage _ HC) as Hst. cbn in Hst.
  destruct (ss_ctl s) as [p1| |p1| | | |]; try discriminate Hst; [by destruct Hst|]. destruct Hst as [(Hx & _)|(h & m & H1 & H2 & H3 & H4 & Hm & cl & Hc & Eb & Hok)]; [discriminate Hx|].
  destruct Hrest as [Hrest Ho]. pose proof Hrest as (_ & _ & _ & Hcalls). destruct (Hcalls n cl Hc) as [(r & Hph)|(_ & Hheld)]; [by apply (Hno cl r)|].
  rewrite Eb in Hheld. revert Hheld. replace (h + 1)%N with (lib + N.of_nat (N.to_nat (h + 1 - lib)))%N by lia.
  apply (not_held w l (ci_w _ HC) Hrun (conj Hrest Ho) Hy); [lia|right]. replace (lib + N.of_nat (N.to_nat (h + 1 - lib)) - 1)%N with h by lia.
  eapply cm_has; [exact (wi_calm _ _ (ci_w _ HC))|exact H3].
Qed.
(** ** The start *)
Lemma CI_init peer : (peer <= top)%N -> CI (comp_init po root head lib dur now peer).
Proof.
  intros Hp. destruct (so_low _ _ _ _ _ _ _ _ _ HS) as [Hl _]. destruct (so_had _ _ _ _ _ _ _ _ _ HS) as ([Ha1 Ha2] & Ha3 & Ha4). assert (Hlib : (lib < two64)%N) by lia.
  assert (Hroot : k_id (ch lib) ∈ root) by (apply (so_root _ _ _ _ _ _ _ _ _ HS); lia). split; [split|done|].
  - by apply Fair_init.
  - apply Calm_init; [exact Hlibroot|done].
  - intros k Hk [Hx|(x & Hx & _)]; [left; left; by apply Hlibroot|by apply elem_of_nil in Hx].
  - intros k Hk. right. split; cbn; [|done]. by intros (c & cl & Hx & _).
  - split; [apply N.le_refl|by left; left].
  - exists had. split_and!; [done|done|done|]. apply (so_root _ _ _ _ _ _ _ _ _ HS).
  - split; [done|]. apply handshake_no_apply.
Qed.
(** ** The session in the composition is a session with an honest peer as in [Catchup_Spec]. *)
Definition Hon (w0 : place) (c : comp) (n : nat) : Prop := exists env sched pl,
  sruns po id env (session_init po) sched = Some (cp_ses c) /\ main_steps sched = n /\ place_of c pl /\ honest oc pol (moves_on pol) w0 (ss_log (cp_ses c)) pl.
Lemma honest_own w0 new log pl : Forall (fun a => forall e, a <> ACall e) new -> honest oc pol (moves_on pol) w0 log pl -> honest oc pol (moves_on pol) w0 (new ++ log) pl.
Proof. intros Hn Hh. induction Hn as [|a new Ha _ IH]; [done|]. by apply HonestOther. Qed.
Lemma Hon_move w0 s wait w p l s' wait' w' p' l' n : s' = s -> (forall pl, place_of (Comp s wait w p l) pl -> exists pl', place_of (Comp s' wait' w' p' l') pl' /\ moves_on pol pl pl') ->
  Hon w0 (Comp s wait w p l) n -> Hon w0 (Comp s' wait' w' p' l') n.
Proof.
  intros -> Hm (env & sched & pl & Hr & Hn & Hpl & Hh). destruct (Hm pl Hpl) as (pl' & H1 & H2). exists env, sched, pl'. split_and!; [done|done|done|]. eapply HonestElse; [exact Hh|exact H2].
Qed.
Lemma Hon_step w0 c lab c' n : CI c -> cstep judge o po id c lab c' -> nice c lab c' -> lab <> CConnect -> Hon w0 c n -> Hon w0 c' (session_steps [lab] + n).
Proof.
  intros HC Hst Hnice Hlab HH. pose proof (follow_step c lab c' HC Hst Hnice) as [HC' Hmv].
  destruct Hst as [s wait w p l lab w' Hw Hn|s wait w p l p'|s wait w p l l'|s wait w p l|s wait w p l lab s' env Hq Hs|s w p l q ans f s' Hq Hna Hs|s w p l t b w' Hq Hw Hlen|s w p l t b w' e ans f s' Hq Hw Hlog He Hs|s c w p l t b cl ans f s' Hq Hc Hph Hs|s c w p l w' Hw];
    try (by destruct Hnice as [_ []]).
  - by eapply Hon_move.
  - by eapply Hon_move.
  - by eapply Hon_move.
  - destruct HH as (env0 & sched & pl & Hr & Hn & Hpl & Hh). cbn in Hr, Hh. destruct (sruns_more _ _ _ _ _ _ _ _ Hr Hs) as (env1 & Hr1). exists env1, (sched ++ [lab]), pl.
    destruct (sstep_own _ _ _ _ _ _ Hq Hs) as (new & El & Hnew). split_and!; [done| |done|].
    + rewrite main_steps_app. destruct lab; cbn; lia.
    + cbn. rewrite El. by apply honest_own.
  - destruct HH as (env0 & sched & pl & Hr & Hn & Hpl & Hh). cbn in Hr, Hh. destruct (sruns_more _ _ _ _ _ _ _ _ Hr Hs) as (env1 & Hr1). exists env1, (sched ++ [MStep f]), pl.
    destruct (sstep_request _ _ _ _ _ _ _ Hq Hs) as [_ El]. split_and!; [done|rewrite main_steps_app; cbn; lia|done|]. cbn [cp_ses]. rewrite El.
    destruct Hnice as [_ [Hra _]]. specialize (Hra pl Hpl). pose proof (HonestCall oc pol (moves_on pol) w0 _ pl q _ Hh Hra) as Hnew.
    assert (Ee : effect oc pol pl q = pl) by (destruct q; try done; by destruct (Hna timeout b)). by rewrite Ee in Hnew.
  - by eapply Hon_move.
  - destruct HH as (env0 & sched & pl & Hr & Hn & Hpl & Hh). cbn in Hr, Hh. destruct (sruns_more _ _ _ _ _ _ _ _ Hr Hs) as (env1 & Hr1). exists env1, (sched ++ [MStep f]), pl.
    destruct (sstep_request _ _ _ _ _ _ _ Hq Hs) as [_ El]. split_and!; [done|rewrite main_steps_app; cbn; lia|done|]. cbn [cp_ses]. rewrite El.
    destruct (back_result _ _ _ _ _ _ _ _ _ HC Hq Hc Hph) as (h & H1 & H2 & Eb & Hres & Hhas).
    assert (Hle : (h + 1 <= pl_head pl)%N) by (eapply has_le; [exact HC|exact Hpl|lia|exact Hhas]).
    assert (Hbh : b_header b = Some (k_hdr (ch (h + 1)%N)) /\ h_height (k_hdr (ch (h + 1)%N)) = (h + 1)%N).
    { subst b. split; [apply Hwf, in_ks; lia|]. destruct (so_chain _ _ _ _ _ _ _ _ _ HS (h + 1)%N) as (Hx & _). exact Hx. }
    destruct Hbh as [Hb1 Hb2].
    assert (Hra : Catchup_Spec.answered oc pl (QApply t b) (ans (QApply t b))).
    { intros h' (_ & hd & E1 & E2) _. destruct Hres as [->|Hr2]; [by left|right]. rewrite Hb1 in E1. injection E1 as <-. split; [lia|]. rewrite Hr2. by eexists. }
    pose proof (HonestCall oc pol (moves_on pol) w0 _ pl (QApply t b) _ Hh Hra) as Hnew.
    assert (Ee : effect oc pol pl (QApply t b) = pl). { cbn [effect]. unfold block_height. rewrite Hb1, Hb2. rewrite bool_decide_eq_false_2 by lia. done. }
    by rewrite Ee in Hnew.
Qed.
Lemma session_steps_cons lab rest : session_steps (lab :: rest) = session_steps [lab] + session_steps rest.
Proof. destruct lab as [| | | |[]| | | | |]; done. Qed.
Lemma CI_runs c l c' : CI c -> cruns judge o po id nice c l c' -> CI c'.
Proof. intros HC Hr. induction Hr as [|c lab c1 rest c2 Hst Hni Hr IH]; [done|]. apply IH. by eapply follow_step. Qed.
Lemma Hon_runs w0 c l c' n : CI c -> cruns judge o po id nice c l c' -> Forall (fun lab => lab <> CConnect) l -> Hon w0 c n -> Hon w0 c' (session_steps l + n).
Proof.
  intros HC Hr. revert n. induction Hr as [|c lab c1 rest c2 Hst Hni Hr IH]; intros n Hl HH; [done|]. apply Forall_cons in Hl as [H1 H2]. rewrite session_steps_cons.
  replace (session_steps [lab] + session_steps rest + n) with (session_steps rest + (session_steps [lab] + n)) by lia. apply IH; [by eapply follow_step|done|]. by eapply Hon_step.
Qed.
Lemma pol_suited : suited pol po.
Proof.
  destruct (so_opts _ _ _ _ _ _ _ _ _ HS) as [[H1 H2] _]. split; [split; intros; unfold pol; lia|]. split; [done|]. intros h. unfold pol. lia.
Qed.
End follow.
