(** C107: a session with an honest peer, round after round, on top of the applicator and a chain service that works. *)
From stdpp Require Import pretty.
From Verif Require Import GoBase Util PeerConn_Model Catchup_Spec Catchup_Proofs Catchup_Props TxCache_Model TxCache_Spec TxCache_Proofs Watchdog_Model
  Applicator_Model Applicator_Spec Applicator_Core Applicator_Sys Applicator_Inv Applicator_Inv2 Applicator_Inv3 Applicator_Inv4
  Applicator_Inv5 Applicator_Inv6 Applicator_Inv7 Applicator_Props Applicator_Props2 Deliver_Spec Deliver_Proofs Deliver_Props Rest_Spec Rest_Proofs
  Honest_Spec Honest_Proofs Honest_Proofs2 Honest_Props Round_Spec Round_Proofs Round_Props Follow_Spec Follow_Proofs.

Section theorems.
Context (judge : blk -> option goerr) (o : ap_opts) (po : pc_opts) (id : string) (root : gset string) (head lib top : N) (cid : bytes) (ch : N -> blk) (young : blk -> Prop)
  (dur now : Z) (had peer : N).
(** The setting ... *)
Context (Hdur : good_dur dur) (HS : sound_setting judge o po root head lib top ch had) (Hpeer : (peer <= top)%N).
Let runs := cruns judge o po id (nice o po root head lib top cid ch young).
(** ... and a session that begins in [c1], whatever happened since the program started (sessions with the same peer, too);
    the checkpoints are blocks of the chain that the peer has by now. *)
Context (l1 : list clabel) (c1 : comp) (H1 : runs (comp_init po root head lib dur now peer) l1 c1) (Hses : cp_ses c1 = session_init po)
  (Hcps : Forall (fun cp => cp_id cp = b_id (k_src (ch (cp_height cp))) /\ (cp_height cp <= cp_peer c1)%N) (po_checkpoints po)).
Context (l2 : list clabel) (c2 : comp) (H2 : runs c1 l2 c2) (Hl2 : Forall (fun lab => lab <> CConnect) l2).

Lemma both_CI : CI o po root head lib top ch young dur now c1 /\ CI o po root head lib top ch young dur now c2.
Proof.
  assert (HC1 : CI o po root head lib top ch young dur now c1) by (eapply CI_runs; [exact Hdur|exact HS|by eapply CI_init|exact H1]).
  split; [done|]. eapply CI_runs; [exact Hdur|exact HS|exact HC1|exact H2].
Qed.
Lemma both_Hon : exists w0, place_of lib ch c1 w0 /\ consistent (pol po) w0 /\ checkpoints_met (the_chain cid ch) po w0 /\ Hon po id lib cid ch w0 c2 (session_steps l2).
Proof.
  destruct both_CI as [HC1 HC2]. destruct (place_exists _ _ _ _ _ _ _ _ _ _ _ HC1) as (w0 & Hw0). exists w0. split_and!; [done|eapply place_consistent; [exact HS|exact HC1|exact Hw0]| |].
  - destruct Hw0 as (E & _). unfold checkpoints_met. rewrite E. exact Hcps.
  - assert (HH : Hon po id lib cid ch w0 c1 0). { exists (fun _ => ex_answers w0), [], w0. rewrite Hses. split_and!; [done|done|done|constructor]. }
    assert (Hx := Hon_runs judge o po id root head lib top cid ch young dur now had Hdur HS w0 c1 l2 c2 0 HC1 H2 Hl2 HH). by rewrite Nat.add_0_r in Hx.
Qed.
(** Nothing fails, and nobody is charged. *)
Theorem C107_no_failure : Forall (fun a => ~ failure a) (ss_log (cp_ses c2)) /\ ss_ctl (cp_ses c2) <> Crashed /\ ss_pend (cp_ses c2) = [].
Proof.
  destruct both_Hon as (w0 & _ & Hcons & Hcp & env & sched & pl & Hr & _ & _ & Hh).
  destruct (C92_follows_partial (the_chain cid ch) (pol po) po (pol_suited _ _ _ _ _ _ _ _ _ HS) id env w0 Hcons Hcp [] (session_init po) w0 sched (cp_ses c2) (ss_log (cp_ses c2)) pl eq_refl (HonestStart _ _ _ _) Hr ltac:(by rewrite app_nil_r) Hh) as (? & ? & ? & _).
  done.
Qed.
(** When the session has run often enough, the chain has every block that the peer had at the session's start. *)
Theorem C107_catches_up :
  6 + length (po_checkpoints po) + (N.to_nat (cp_peer c1 - cp_lib c1) + 2) * (N.to_nat (po_batch po) + 7) <= session_steps l2 ->
  forall h, (lib <= h <= cp_peer c1)%N -> k_id (ch h) ∈ w_chain (cp_world c2).
Proof.
  intros Hn h Hh. destruct both_CI as [HC1 HC2]. destruct both_Hon as (w0 & Hw0 & Hcons & Hcp & env & sched & pl & Hr & Hm & Hpl & Hho).
  destruct Hw0 as (E1 & E2 & _). pose proof Hcons as (_ & Hle & _).
  assert (Hb : (pl_peer w0 <= pl_head pl)%N).
  { eapply (catches_up_by (the_chain cid ch) (pol po) po); [by eapply pol_suited|exact Hcons|exact Hcp|exact Hr|exact Hho|]. rewrite Hm, E1. etransitivity; [|exact Hn].
    apply Nat.add_le_mono_l, Nat.mul_le_mono_r. lia. }
  apply Hpl; lia.
Qed.
(** When nothing is left to do for the applicator and the chain, the session does not wait for ApplyBlock; [young]: blocks that
    others may hand over before their parents; they must not have timed out. *)
Theorem C107_never_waits : running (w_s (cp_world c2)) -> wrest (cp_world c2) ->
  (forall k, k ∈ the_blocks lib top ch -> young k -> recent o (s_now (w_s (cp_world c2))) k) -> ~ session_waits c2.
Proof. intros Hrun Hrest Hy. destruct both_CI as [_ HC2]. eapply rest_waits; [exact HS|exact HC2|done|done|done]. Qed.
(** When it does not wait, the session can go on until it is cancelled, whatever it is answered. *)
Theorem C107_goes_on : running (w_s (cp_world c2)) -> ~ session_waits c2 -> ss_cancelled (cp_ses c2) = false -> ss_ctl (cp_ses c2) <> Stopped -> forall ans : forall q, resp q,
  exists lab c3, cstep judge o po id c2 lab c3 /\
    match lab with COwn (MStep true) | CHand _ | CRefused _ | CBack => True | CAsk q a => a = ans q | _ => False end.
Proof.
  intros Hrun Hw Hx Hs ans. destruct both_CI as [_ HC2]. destruct C107_no_failure as (_ & Hcr & _). destruct c2 as [s wait w p l]. cbn [cp_ses] in *.
  assert (Hstep : forall env, exists s', sstep po id env s (MStep true) = Some s').
  { intros env. destruct s as [ctl syn n pend x log]. cbn in Hx, Hs, Hcr |- *. subst x. destruct ctl as [[[e|]| |q k]| |[[[e|] syn']| |q k]|e|d| |]; cbn; eauto; done. }
  destruct (request s) as [q|] eqn:Eq.
  - assert (Hd : (exists t b, q = QApply t b) \/ ~ exists t b, q = QApply t b) by (destruct q; try (right; intros (? & ? & ?); discriminate); left; eauto).
    destruct Hd as [Ha|Ha].
    + destruct Ha as (t & b & ->). destruct (stage_apply judge o po root head lib top ch had HS s wait w t b Eq (ci_stage _ _ _ _ _ _ _ _ _ _ _ HC2)) as (h & m & k & Ec & Eb & Hl & Ht & _ & _ & _ & _ & Hwt).
      destruct wait as [c|].
      * destruct Hwt as (cl & Hc & _). destruct (cl_phase cl) as [| |res] eqn:Eph.
        -- exfalso. apply Hw. exists c. split; [done|]. intros cl' res E. cbn in E. congruence.
        -- exfalso. apply Hw. exists c. split; [done|]. intros cl' res E. cbn in E. congruence.
        -- set (ans' := fun q => match q return resp q with QApply t b => res | q => ans q end). destruct (Hstep (fun _ => ans')) as (s' & Hs'). exists CBack. eexists. split; [|exact I]. by eapply (cs_back judge o po id s c w p l t b cl ans').
      * destruct (wstep judge o w (WApp (LCall b))) as [w'|] eqn:Ew; [|exfalso; destruct Hrun as (_ & Hp & _); cbn in Hp, Ew; unfold step in Ew; rewrite Hp in Ew; discriminate Ew]. pose proof Ew as Ew2. apply wstep_inv in Ew2 as (_ & Hst & _). apply step_Step in Hst as [_ Hst].
        assert (Hhd : b_header b = Some (k_hdr (ch (h + 1)%N))). { subst b. apply (Hwf judge o po root head lib top ch had HS). apply in_ks. lia. }
        remember (LCall b) as lab eqn:El. remember (w_s w') as s1 eqn:Es1. destruct Hst; try done; injection El as ->.
        -- exists (CHand b). eexists. split; [|exact I]. eapply cs_hand; [exact Eq|exact Ew|]. rewrite <- Es1. cbn. rewrite app_length. cbn. lia.
        -- set (ans' := fun q => match q return resp q with QApply t b => Some e | q => ans q end). destruct (Hstep (fun _ => ans')) as (s' & Hs'). exists (CRefused b). eexists. split; [|exact I].
           eapply (cs_refused judge o po id s w p l t b w' e ans'); [exact Eq|exact Ew|by rewrite <- Es1|done|exact Hs'].
        -- congruence.
    + assert (wait = None) as ->.
      { pose proof (ci_stage _ _ _ _ _ _ _ _ _ _ _ HC2) as Hst. cbn in Hst. unfold request in Eq. destruct (ss_ctl s) as [[r| |q1 k1]| |[r| |q1 k1]| | | |]; try done; [by destruct Hst|]. injection Eq as ->.
        destruct Hst as [(? & _)|(h & m & Hl & Ht & _ & Hh & _)]; [done|]. destruct (handing_call judge o po root head lib top ch had HS _ _ _ _ Hl Ht Hh) as (m' & _ & ->). exfalso. apply Ha. eauto. }
      destruct (Hstep (fun _ => ans)) as (s' & Hs'). exists (CAsk q (ans q)). eexists. split; [|done]. eapply cs_ask; [exact Eq| |exact Hs']. intros t b ->. apply Ha. eauto.
  - destruct (Hstep (fun _ => ans)) as (s' & Hs'). exists (COwn (MStep true)). eexists. split; [|exact I]. eapply cs_own; [by left|exact Hs'].
Qed.
End theorems.
Print Assumptions C107_no_failure.
Print Assumptions C107_catches_up.
Print Assumptions C107_never_waits.
Print Assumptions C107_goes_on.

(** ** Concrete runs *)
Inductive ylabel := YWorld (lab : wlabel) | YPeer (p : N) | YLib (l : N) | YConnect | YGo | YHand | YBack.
Section exec.
Context (judge : blk -> option goerr) (o : ap_opts) (po : pc_opts) (id : string) (ans : comp -> forall q, resp q).
Definition ystep (c : comp) (y : ylabel) : option (clabel * comp) :=
  let '(Comp s wait w p l) := c in
  match y with
  | YWorld (WApp (LTimeout _)) => None
  | YWorld lab => (fun w' => (CWorld lab, Comp s wait w' p l)) <$> wstep judge o w lab
  | YPeer p' => Some (CPeer p', Comp s wait w p' l)
  | YLib l' => Some (CLib l', Comp s wait w p l')
  | YConnect => Some (CConnect, Comp (session_init po) None w p l)
  | YGo =>
    match request s, wait with
    | Some (QApply _ _), _ => None
    | Some q, None => (fun s' => (CAsk q (ans c q), Comp s' None w p l)) <$> sstep po id (fun _ => ans c) s (MStep true)
    | Some _, Some _ => None
    | None, _ => (fun s' => (COwn (MStep true), Comp s' wait w p l)) <$> sstep po id (fun _ => ans c) s (MStep true)
    end
  | YHand =>
    match request s, wait with
    | Some (QApply t b), None =>
      match wstep judge o w (WApp (LCall b)) with
      | Some w' => if bool_decide (length (s_calls (w_s w')) = S (length (s_calls (w_s w)))) then Some (CHand b, Comp s (Some (length (s_calls (w_s w)))) w' p l) else None
      | None => None
      end
    | _, _ => None
    end
  | YBack =>
    match request s, wait with
    | Some (QApply t b), Some n =>
      match s_calls (w_s w) !! n with
      | Some cl => match cl_phase cl with
        | CRet res => (fun s' => (CBack, Comp s' None w p l)) <$> sstep po id (fun _ q => match q return resp q with QApply _ _ => res | q => ans c q end) s (MStep true)
        | _ => None
        end
      | None => None
      end
    | _, _ => None
    end
  end.
Lemma ystep_cstep c y lab c' : ystep c y = Some (lab, c') -> cstep judge o po id c lab c'.
Proof.
  destruct c as [s wait w p l]. destruct y as [a|p'|l'| | | |]; cbn [ystep].
  - destruct (wstep judge o w a) as [w'|] eqn:E.
    + intros H. assert (Hl : (forall c, a <> WApp (LTimeout c)) /\ lab = CWorld a /\ c' = Comp s wait w' p l).
      { destruct a as [b| | |]; [destruct b| | |]; try done; cbn in H; injection H as <- <-; by split_and!. }
      destruct Hl as (Hl & -> & ->). apply cs_world; [done|]. intros c _. apply Hl.
    + intros H. by destruct a as [b| | |]; [destruct b| | |].
  - intros [= <- <-]. apply cs_peer.
  - intros [= <- <-]. apply cs_lib.
  - intros [= <- <-]. apply cs_connect.
  - destruct (sstep po id _ s (MStep true)) as [s'|] eqn:E.
    + destruct (request s) as [q|] eqn:Eq.
      * intros H. assert (Hq : (forall t b, q <> QApply t b) /\ wait = None /\ lab = CAsk q (ans (Comp s wait w p l) q) /\ c' = Comp s' None w p l).
        { destruct q, wait; try done; injection H as <- <-; by split_and!. }
        destruct Hq as (Hq & -> & -> & ->). by eapply cs_ask.
      * intros [= <- <-]. eapply cs_own; [by left|exact E].
    + destruct (request s) as [q|]; [destruct q, wait|]; done.
  - destruct (request s) as [q|] eqn:Eq; [|done]. destruct q; try done. destruct wait; [done|]. destruct (wstep judge o w _) as [w'|] eqn:E; [|done]. case_bool_decide; [|done]. intros [= <- <-]. by eapply cs_hand.
  - destruct (request s) as [q|] eqn:Eq; [|done]. destruct q as [| | | | | | | |t b]; try done. destruct wait as [n|]; [|done]. destruct (s_calls (w_s w) !! n) as [cl|] eqn:E; [|done]. destruct (cl_phase cl) as [| |res] eqn:Ep; try done.
    destruct (sstep po id _ s (MStep true)) as [s'|] eqn:Es; [|done]. intros [= <- <-]. by eapply (cs_back judge o po id s n w p l t b cl (fun q => match q return resp q with QApply _ _ => res | q => ans (Comp s (Some n) w p l) q end)).
Qed.
(** [f] decides the conditions; the run is returned with the number of steps of the session and its labels. *)
Fixpoint yrun (f : comp -> ylabel -> comp -> bool) (c : comp) (ys : list ylabel) : option (list clabel * comp) :=
  match ys with
  | [] => Some ([], c)
  | y :: rest => match ystep c y with
    | Some (lab, c') => if f c y c' then match yrun f c' rest with Some (l, c2) => Some (lab :: l, c2) | None => None end else None
    | None => None
    end
  end.
Lemma yrun_runs (P : comp -> clabel -> comp -> Prop) f : (forall c y lab c', ystep c y = Some (lab, c') -> f c y c' = true -> P c lab c') ->
  forall ys c l c', yrun f c ys = Some (l, c') -> cruns judge o po id P c l c'.
Proof.
  intros Hf. induction ys as [|y rest IH]; intros c l c' H; cbn in H; [injection H as <- <-; constructor|].
  destruct (ystep c y) as [[lab c1]|] eqn:Ey; [|done]. destruct (f c y c1) eqn:Ef; [|done]. destruct (yrun f c1 rest) as [[l2 c2]|] eqn:Er; [|done]. injection H as <- <-.
  econstructor; [by eapply ystep_cstep|by eapply Hf|by apply IH].
Qed.
End exec.

(** The chain of [Round_Props]: block 10 is the last irreversible one, block 13 the peer's last one; batches of two. *)
Definition small_batches : pc_opts := PcOpts [Checkpoint 10 (b_id (k_src (nth_block 10)))] (6 * second) (12 * second) (6 * second) 2 (150 * second) (6 * second) 5 (10 * second).
Definition at_ten : gset string := list_to_set ["10"%string].
Definition the_cid : bytes := Some "chain"%string.
Definition height_of (i : bytes) : option N := List.find (fun k => bool_decide (i = b_id (k_src (nth_block k)))) (map N.of_nat (seq 0 14)).
Definition known_as (w : world) (ids : list bytes) : N :=
  match ids with
  | [i] => match height_of i with Some k => if bool_decide (k < 10)%N || bool_decide (k_id (nth_block k) ∈ w_chain w) then k else 0%N | None => 0%N end
  | _ => 0%N
  end.
Definition right (c : comp) (q : req) : resp q :=
  match q return resp q with
  | QVersion => ("1.0"%string, None)
  | QLocalChainID _ => (Some the_cid, None)
  | QPeerChainID _ => (the_cid, None)
  | QPeerHead _ => (b_id (k_src (nth_block (cp_peer c))), cp_peer c, None)
  | QPeerAncestor _ _ h => (b_id (k_src (nth_block h)), None)
  | QLib => Some (Topology (b_id (k_src (nth_block (cp_lib c)))) (cp_lib c) None)
  | QLocalBlocks _ ids => (Some [Some (known_as (cp_world c) ids)], None)
  | QPeerBlocks _ _ start n => (map k_src (stretch nth_block start (N.to_nat n)), None)
  | QApply _ _ => None
  end.
Lemma stretch_blocks start n : blocks_at (the_chain the_cid nth_block) start n (map k_src (stretch nth_block start n)).
Proof.
  unfold blocks_at, stretch. rewrite map_map. apply Forall2_fmap_r, Forall_Forall2_diag, Forall_forall. intros i _. split; [done|]. eexists. split; [reflexivity|]. done.
Qed.
Lemma height_of_at k : (k <= 13)%N -> height_of (b_id (k_src (nth_block k))) = Some k.
Proof.
  intros Hk. unfold height_of. destruct (List.find _ _) as [k'|] eqn:E.
  - apply find_some in E as [_ E]. apply bool_decide_eq_true in E. f_equal. symmetry. apply nth_ids. unfold k_id. by rewrite E.
  - exfalso. pose proof (find_none _ _ E k) as Hn. cbv beta in Hn. rewrite bool_decide_eq_true_2 in Hn by done. discriminate Hn. apply in_map_iff. exists (N.to_nat k). split; [lia|]. apply in_seq. lia.
Qed.
Lemma right_right c q : (forall t b, q <> QApply t b) -> (cp_peer c <= 13)%N -> k_id (nth_block 10) ∈ w_chain (cp_world c) ->
  match q with QPeerBlocks _ _ start n => (start + n <= 14)%N | _ => True end -> right_answer 10 13 the_cid nth_block c q (right c q).
Proof.
  intros Hq Hp Hten Hs. split.
  - intros pl (E1 & E2 & E3). assert (Hl : (10 <= pl_head pl)%N) by (apply E3; done). destruct q; cbn [Catchup_Spec.answered right].
    + by left.
    + by eexists.
    + by eexists.
    + by rewrite E1.
    + intros k -> _ _. by eexists.
    + eexists. split; [done|]. rewrite E2. done.
    + intros k -> Hk. unfold known_as. cbn [the_chain id_at]. rewrite height_of_at by lia.
      destruct (decide (k < 10)%N) as [H|H]; [rewrite (bool_decide_eq_true_2 (k < 10)%N), (bool_decide_eq_true_2 (k <= pl_head pl)%N) by lia; done|]. rewrite (bool_decide_eq_false_2 (k < 10)%N) by done. cbn [orb].
      rewrite (bool_decide_ext (k <= pl_head pl)%N (k_id (nth_block k) ∈ w_chain (cp_world c))); [done|]. symmetry. apply E3. lia.
    + intros k _ _ _ _. eexists. split; [reflexivity|]. apply stretch_blocks.
    + by destruct (Hq timeout b).
  - destruct q; try done. cbn [right]. exists (N.to_nat num). split; [done|]. lia.
Qed.
(** The conditions, decided; others do not hand over any of the three blocks. *)
Definition in_reach_b (c : comp) : bool :=
  forallb (fun x => bool_decide (x = "10"%string) || existsb (fun h => bool_decide (x = k_id (nth_block h)) && bool_decide (h < cp_lib c + 2)%N) [11; 12; 13]%N)
    (elements (w_chain (cp_world c))).
Definition nice_b (c : comp) (y : ylabel) (c' : comp) : bool :=
  in_reach_b c' && bool_decide (cp_peer c <= 13)%N && bool_decide (k_id (nth_block 10) ∈ w_chain (cp_world c)) &&
  match y with
  | YWorld lab => wu64_b lab && wcomplete_b lab && welcome_b roomy 10 "10" 10 next_three (cp_world c) lab &&
      match lab with
      | WApp (LCall b) => forallb (fun k => bool_decide (str (b_id b) <> k_id k)) next_three
      | WApp (LForkHeads i _) => match s_fh (w_s (cp_world c)) !! i with
          | Some fh => match fh_lib fh with Some l => forallb (fun k => bool_decide (l < k_height k)%N || said_b (cp_world c) k) next_three | None => true end
          | None => true
          end
      | WElse b => existsb (fun h => bool_decide (str (b_id b) = k_id (nth_block h)) && bool_decide (k_id (nth_block (h - 1)) ∈ w_chain (cp_world c))) [11; 12; 13]%N
      | _ => true
      end
  | YPeer p => bool_decide (cp_peer c <= p)%N && bool_decide (p <= 13)%N
  | YLib l => bool_decide (cp_lib c <= l)%N && said_b (cp_world c) (nth_block l)
  | YConnect | YBack => true
  | YGo => match request (cp_ses c) with Some (QPeerBlocks _ _ start n) => bool_decide (start + n <= 14)%N | _ => true end
  | YHand =>
    match request (cp_ses c) with
    | Some (QApply _ b) =>
      match b_header b with
      | Some hd => bool_decide (h_height hd <= max_accepted 10 (s_log (w_s (cp_world c))) + ao_max_delta roomy)%N &&
          bool_decide (block_instant (h_timestamp hd) <= s_now (w_s (cp_world c)) + ao_delay_threshold roomy)%Z
      | None => false
      end
    | _ => false
    end
  end.
Lemma nice_check c y lab c' : ystep has_bad roomy small_batches "p" right c y = Some (lab, c') -> nice_b c y c' = true ->
  nice roomy small_batches at_ten 10 10 13 the_cid nth_block (fun _ => False) c lab c'.
Proof.
  intros Hy H. unfold nice_b in H. apply andb_true_iff in H as [[[H1 H2]%andb_true_iff H3]%andb_true_iff H4]. apply bool_decide_eq_true in H2, H3. split.
  { intros h Hh Hin. unfold in_reach_b in H1. rewrite forallb_forall in H1. specialize (H1 (k_id (nth_block h)) ltac:(apply elem_of_list_In; by apply elem_of_elements)).
    apply orb_true_iff in H1 as [H1|H1]; [apply bool_decide_eq_true in H1; apply (nth_ids h 10) in H1; lia|]. apply existsb_exists in H1 as (h' & Hin' & [E1 E2]%andb_true_iff). apply bool_decide_eq_true in E1, E2.
    apply nth_ids in E1. subst h'. split; [|done]. cbn in Hin'. lia. }
  destruct c as [s wait w p l]. cbn [cp_ses cp_wait cp_world cp_peer cp_lib] in *. destruct y as [a|p'|l'| | | |]; cbn [ystep] in Hy.
  - assert (lab = CWorld a) as ->. { destruct a as [b| | |]; [destruct b| | |]; try done; (destruct (wstep has_bad roomy w _); [|done]); by injection Hy as <- _. }
    apply andb_true_iff in H4 as [[[H5 H6]%andb_true_iff H7]%andb_true_iff H8]. split_and!; [by apply wu64_one|by apply wcomplete_one|by apply welcome_check| | |].
    + destruct a as [b| | |]; [destruct b| | |]; try done. intros fh x k Hfh Hl Hk Hle. rewrite Hfh, Hl, forallb_forall in H8. specialize (H8 k ltac:(by apply elem_of_list_In)).
      apply orb_true_iff in H8 as [H8|H8]; [apply bool_decide_eq_true in H8; lia|by apply said_check].
    + destruct a as [b| | |b]; try done. intros h Hh E. apply existsb_exists in H8 as (h' & _ & [E1 E2]%andb_true_iff). apply bool_decide_eq_true in E1, E2. rewrite E in E1. apply nth_ids in E1. by subst h'.
    + intros k Hk. right. intros b -> E. rewrite forallb_forall in H8. specialize (H8 k ltac:(by apply elem_of_list_In)). by apply bool_decide_eq_true in H8.
  - injection Hy as <- _. apply andb_true_iff in H4 as [H5 H6]. apply bool_decide_eq_true in H5, H6. done.
  - injection Hy as <- _. apply andb_true_iff in H4 as [H5 H6]. apply bool_decide_eq_true in H5. split; [done|by apply said_check].
  - by injection Hy as <- _.
  - destruct (request s) as [q|] eqn:Eq.
    + assert (Hq : (forall t b, q <> QApply t b) /\ lab = CAsk q (right (Comp s wait w p l) q)) by (destruct q, wait; try done; (destruct (sstep small_batches "p" _ s (MStep true)); [|done]); by injection Hy as <- _).
      destruct Hq as [Hq ->]. apply right_right; [done|done|done|]. destruct q; try done. by apply bool_decide_eq_true in H4.
    + destruct (sstep small_batches "p" _ s (MStep true)); [|done]. by injection Hy as <- _.
  - destruct (request s) as [q|] eqn:Eq; [|done]. destruct q as [| | | | | | | |t b]; try done. assert (lab = CHand b) as ->.
    { destruct wait; [done|]. destruct (wstep has_bad roomy w _); [|done]. case_bool_decide; [|done]. by injection Hy as <- _. }
    destruct (b_header b) as [hd|] eqn:Eh; [|done]. apply andb_true_iff in H4 as [H5 H6]. apply bool_decide_eq_true in H5, H6. intros hd' E. injection E as <-. done.
  - destruct (request s) as [q|] eqn:Eq; [|done]. destruct q; try done. destruct wait as [n|]; [|done]. destruct (s_calls (w_s w) !! n) as [cl|]; [|done]. destruct (cl_phase cl); try done.
    destruct (sstep small_batches "p" _ s (MStep true)); [|done]. by injection Hy as <- _.
Qed.
Lemma small_setting : sound_setting has_bad roomy small_batches at_ten 10 10 13 nth_block 10.
Proof.
  split.
  - apply nth_chain.
  - apply nth_ids.
  - split; reflexivity.
  - split; [split|]; reflexivity.
  - intros k Hk. pose proof (hp_valid _ _ _ _ _ _ _ _ _ three_honest k Hk) as (? & ? & _). done.
  - intros h Hh. unfold at_ten. rewrite elem_of_list_to_set, elem_of_list_singleton. split; [intros E; apply (nth_ids h 10) in E; lia|]. intros Hle. by replace h with 10%N by lia.
  - split_and!; [done|done|done|done].
Qed.
Definition yapps (l : list label) : list ylabel := map (fun x => YWorld (WApp x)) l.
Definition hand_through (c i : nat) : list ylabel :=
  [YHand] ++ yapps ([LSend c; LNew none_lost] ++ attempt_at 0 i) ++ [YWorld (WAnswer i); YWorld (WAnnounce 0)] ++ yapps [LBroadcast 0; LStatus i none_lost; LRet c] ++ [YBack].
(** A session is given up during its handshake.  The next one fetches two blocks; meanwhile the peer gets another one, and
    block 11 becomes irreversible.  The second round fetches 12 again, which is irreversible by then, and 13.  Then the
    rounds find nothing new. *)
Definition given_up : list ylabel := [YGo; YGo; YConnect].
Definition two_rounds : list ylabel :=
  repeat YGo 6 ++ repeat YGo 5 ++ hand_through 0 0 ++ [YLib 11; YPeer 13] ++ hand_through 1 1 ++ [YGo; YGo] ++
  repeat YGo 5 ++ [YLib 12] ++ yapps [LAnnounce (ForkHeads (Some 12%N) ["12"%string]); LForkHeads 0 none_lost] ++ [YHand] ++ yapps [LSend 2; LNew none_lost; LRet 2] ++ [YBack] ++
  [YWorld (WElse (k_src (nth_block 13))); YWorld (WAnnounce 0)] ++ yapps [LBroadcast 0] ++ [YHand] ++ yapps ([LSend 3; LNew none_lost] ++ attempt_at 0 2) ++ [YWorld (WAnswer 2)] ++ yapps [LStatus 2 none_lost; LRet 3] ++ [YBack] ++ [YGo; YGo] ++
  repeat YGo 20.
Definition cobs (c : comp) := ((s_cancelled (w_s (cp_world c)), s_panic (w_s (cp_world c)), s_hang (w_s (cp_world c))), elements (w_chain (cp_world c)), rest_b (cp_world c), map cl_phase (s_calls (w_s (cp_world c))), cp_peer c, cp_lib c).
Definition first_part : comp := comp_init small_batches at_ten 10 10 five_min five 12.
Lemma after_connect c l c' : yrun has_bad roomy small_batches "p" right nice_b c given_up = Some (l, c') -> cp_ses c' = session_init small_batches.
Proof.
  unfold given_up. cbn [yrun]. destruct (ystep _ _ _ _ _ c YGo) as [[la ca]|]; [|discriminate]. destruct (nice_b c YGo ca); [|discriminate].
  destruct (ystep _ _ _ _ _ ca YGo) as [[lb cb]|]; [|discriminate]. destruct (nice_b ca YGo cb); [|discriminate]. destruct cb as [s wait w p l0]. cbn [ystep].
  destruct (nice_b _ YConnect _); [|discriminate]. intros H. injection H as _ <-. reflexivity.
Qed.
Lemma no_connect ys : forall c l c', yrun has_bad roomy small_batches "p" right nice_b c ys = Some (l, c') -> forallb (fun y => match y with YConnect => false | _ => true end) ys = true ->
  Forall (fun lab => lab <> CConnect) l.
Proof.
  induction ys as [|y ys IH]; intros c l c' H Hno; cbn [yrun] in H; [injection H as <- _; constructor|]. cbn [forallb] in Hno. apply andb_true_iff in Hno as [Hy Hno].
  destruct (ystep _ _ _ _ _ c y) as [[lab c1]|] eqn:Ey; [|discriminate H]. destruct (nice_b c y c1); [|discriminate H]. destruct (yrun _ _ _ _ _ _ c1 ys) as [[l2 c2]|] eqn:Er; [|discriminate H]. injection H as <- _. constructor; [|by eapply IH].
  clear Er IH. intros ->. destruct c as [s wait w p l0]. destruct y as [a| | | | | |]; cbn [ystep] in Ey; try discriminate Ey; try discriminate Hy.
  - destruct a as [b| | |]; [destruct b| | |]; try discriminate Ey; (destruct (wstep has_bad roomy w _); discriminate Ey).
  - destruct (request s) as [q|]; [destruct q, wait|]; try discriminate Ey; (destruct (sstep small_batches "p" _ s (MStep true)); discriminate Ey).
  - destruct (request s) as [q|]; [destruct q, wait|]; try discriminate Ey; (destruct (wstep has_bad roomy w _); [|discriminate Ey]; case_bool_decide; discriminate Ey).
  - destruct (request s) as [q|]; [destruct q, wait|]; try discriminate Ey. destruct (s_calls (w_s w) !! _) as [cl|]; [|discriminate Ey]. destruct (cl_phase cl); try discriminate Ey. destruct (sstep small_batches "p" _ s (MStep true)); discriminate Ey.
Qed.
Definition observed := match yrun has_bad roomy small_batches "p" right nice_b first_part given_up with
  | Some (l1, c1) => match yrun has_bad roomy small_batches "p" right nice_b c1 two_rounds with
    | Some (l2, c2) => Some (cobs c1, session_steps l2, cobs c2, rounds (ss_log (cp_ses c2)))
    | None => None
    end
  | None => None
  end.
Example C107_nonvacuous : exists l1 c1 l2 c2, let runs := cruns has_bad roomy small_batches "p" (nice roomy small_batches at_ten 10 10 13 the_cid nth_block (fun _ => False)) in
  good_dur five_min /\ sound_setting has_bad roomy small_batches at_ten 10 10 13 nth_block 10 /\ runs first_part l1 c1 /\ cp_ses c1 = session_init small_batches /\
  Forall (fun cp => cp_id cp = b_id (k_src (nth_block (cp_height cp))) /\ (cp_height cp <= cp_peer c1)%N) (po_checkpoints small_batches) /\
  runs c1 l2 c2 /\ Forall (fun lab => lab <> CConnect) l2 /\
  6 + length (po_checkpoints small_batches) + (N.to_nat (cp_peer c1 - cp_lib c1) + 2) * (N.to_nat (po_batch small_batches) + 7) <= session_steps l2 /\
  running (w_s (cp_world c2)) /\ wrest (cp_world c2) /\ rounds (ss_log (cp_ses c2)) = 6 /\ cp_peer c1 = 12%N /\ cp_lib c2 = 12%N /\
  elements (w_chain (cp_world c1)) = ["10"%string] /\ elements (w_chain (cp_world c2)) = ["10"; "12"; "11"; "13"]%string.
Proof.
  assert (Hc : observed = Some ((false, false, false), ["10"%string], true, [], 12%N, 10%N, 44, ((false, false, false), ["10"; "12"; "11"; "13"]%string, true, [CRet None; CRet None; CRet (Some (ESent ErrBlockIrreversibility)); CRet None], 13%N, 12%N), 6)) by (vm_compute; reflexivity).
  unfold observed in Hc. destruct (yrun has_bad roomy small_batches "p" right nice_b first_part given_up) as [[l1 c1]|] eqn:E1; [|discriminate Hc].
  destruct (yrun has_bad roomy small_batches "p" right nice_b c1 two_rounds) as [[l2 c2]|] eqn:E2; [|discriminate Hc].
  assert (Hses : cp_ses c1 = session_init small_batches) by exact (after_connect _ _ _ E1).
  assert (Hl2 : Forall (fun lab => lab <> CConnect) l2) by (eapply no_connect; [exact E2|vm_compute; reflexivity]).
  assert (R1 := yrun_runs _ _ _ _ _ _ _ nice_check _ _ _ _ E1). assert (R2 := yrun_runs _ _ _ _ _ _ _ nice_check _ _ _ _ E2). clear E1 E2.
  unfold cobs in Hc. injection Hc as O1 O2 O3 O4 O5 O6 O7 O8 O9 P1 P2 P3 P4 P5 P6 P7 P8 P9.
  exists l1, c1, l2, c2. cbv zeta. rewrite O7, O8, O9, P8, O4, P4. split; [split; vm_compute; [discriminate|reflexivity]|]. split; [apply small_setting|]. split; [exact R1|]. split; [exact Hses|].
  split; [apply Forall_singleton; split; [reflexivity|vm_compute; discriminate]|]. split; [exact R2|]. clear R1 R2 Hses. split; [exact Hl2|]. split; [vm_compute; lia|]. split; [split; [exact P1|split; [exact P2|exact P3]]|].
  split; [apply rest_check; exact P5|]. split; [exact P9|]. split_and!; reflexivity.
Qed.
