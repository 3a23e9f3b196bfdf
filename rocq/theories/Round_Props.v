(** C104: a sync round with an honest peer, on top of the applicator and a chain service that works. *)
From stdpp Require Import pretty.
From Verif Require Import GoBase Util PeerConn_Model TxCache_Model TxCache_Spec TxCache_Proofs Watchdog_Model
  Applicator_Model Applicator_Spec Applicator_Core Applicator_Sys Applicator_Inv Applicator_Inv2 Applicator_Inv3 Applicator_Inv4
  Applicator_Inv5 Applicator_Inv6 Applicator_Inv7 Applicator_Props Applicator_Props2 Deliver_Spec Deliver_Proofs Deliver_Props Rest_Spec Rest_Proofs
  Honest_Spec Honest_Proofs Honest_Proofs2 Honest_Props Round_Spec Round_Proofs.

Section theorems.
Context (judge : blk -> option goerr) (o : ap_opts) (po : pc_opts) (root : gset string) (head lib0 : N) (dur now : Z)
  (ch : N -> blk) (peer lib known : N) (young : blk -> Prop) (sched : list wlabel) (w : world) (synced : bool) (rsched : list rlabel) (r : round).
Let ks : list blk := stretch ch (lib + 1) (asked_for po peer lib).
Lemma RI_reached : honest_peer judge o po root head lib0 ch peer lib -> node_ready judge o root head lib0 dur now ch lib ks young sched w ->
  rruns judge o (fine o root head ch peer lib known ks young) (Round (request_sync po synced) None w) rsched r ->
  RI o po root head lib0 dur now ch peer lib known young r.
Proof.
  intros [H1 H2 H3 [H4 H5] [H6 H7] H8 [H9 H10]] [N1 N2 N3 N4 N6 N5] Hr. eapply RI_runs; [done..| |exact Hr]. by eapply RI_start.
Qed.
End theorems.

(** C104, partial: as long as nothing of [fine] is violated, the round does not fail ... *)
Theorem C104_no_error_partial : forall judge o po root head lib0 dur now ch peer lib known young sched w synced rsched r,
  honest_peer judge o po root head lib0 ch peer lib -> let ks := stretch ch (lib + 1) (asked_for po peer lib) in
  node_ready judge o root head lib0 dur now ch lib ks young sched w ->
  rruns judge o (fine o root head ch peer lib known ks young) (Round (request_sync po synced) None w) rsched r ->
  rd_prog r <> Crash /\ forall e f, rd_prog r <> Ret (Some e, f).
Proof.
  intros judge o po root head lib0 dur now ch peer lib known young sched w synced rsched r HP ks HN Hr. pose proof (RI_reached _ _ _ _ _ _ _ _ _ _ _ _ _ _ _ _ _ _ HP HN Hr) as HR.
  destruct HP as [H1 H2 H3 [H4 H5] [H6 H7] H8 [H9 H10]], HN as [N1 N2 N3 N4 N6 N5]. eapply (RI_no_error o po root head lib0 dur now ch peer lib known young); done.
Qed.
Print Assumptions C104_no_error_partial.
(** ... when it is over, and the peer's head was unknown at its start, the chain has all the blocks that it asked for ... *)
Theorem C104_complete_partial : forall judge o po root head lib0 dur now ch peer lib young sched w synced rsched r res,
  honest_peer judge o po root head lib0 ch peer lib -> let ks := stretch ch (lib + 1) (asked_for po peer lib) in
  node_ready judge o root head lib0 dur now ch lib ks young sched w ->
  rruns judge o (fine o root head ch peer lib 0 ks young) (Round (request_sync po synced) None w) rsched r -> rd_prog r = Ret res ->
  forall h, (lib < h <= peer)%N -> (h <= lib + po_batch po)%N -> k_id (ch h) ∈ w_chain (rd_world r).
Proof.
  intros judge o po root head lib0 dur now ch peer lib young sched w synced rsched r res HP ks HN Hr Hres h Hh Hb. pose proof (RI_reached _ _ _ _ _ _ _ _ _ _ _ _ _ _ _ _ _ _ HP HN Hr) as HR.
  destruct HP as [H1 H2 H3 [H4 H5] [H6 H7] H8 [H9 H10]], HN as [N1 N2 N3 N4 N6 N5].
  destruct (RI_ended o po root head lib0 dur now ch peer lib 0 young) with (r := r) (res := res) as [?|Hall]; try done.
  apply Hall. apply stretch_in. exists (N.to_nat (h - (lib + 1))). clear -Hh Hb. unfold asked_for. split; [lia|]. f_equal. lia.
Qed.
Print Assumptions C104_complete_partial.
(** ... and it is over whenever nothing is left to do. *)
Theorem C104_ends_partial : forall judge o po root head lib0 dur now ch peer lib known young sched w synced rsched r,
  honest_peer judge o po root head lib0 ch peer lib -> let ks := stretch ch (lib + 1) (asked_for po peer lib) in
  node_ready judge o root head lib0 dur now ch lib ks young sched w ->
  rruns judge o (fine o root head ch peer lib known ks young) (Round (request_sync po synced) None w) rsched r ->
  running (w_s (rd_world r)) -> wrest (rd_world r) -> round_waits r ->
  (forall k, k ∈ ks -> young k -> recent o (s_now (w_s (rd_world r))) k) ->
  exists f, rd_prog r = Ret (None, f).
Proof.
  intros judge o po root head lib0 dur now ch peer lib known young sched w synced rsched r HP ks HN Hr Hrun Hrest Hw Hy. pose proof (RI_reached _ _ _ _ _ _ _ _ _ _ _ _ _ _ _ _ _ _ HP HN Hr) as HR.
  destruct HP as [H1 H2 H3 [H4 H5] [H6 H7] H8 [H9 H10]], HN as [N1 N2 N3 N4 N6 N5]. eapply (RI_rest judge o po root head lib0 dur now ch peer lib known young); done.
Qed.
Print Assumptions C104_ends_partial.

(** ** Concrete runs *)
Inductive xlabel := XWorld (lab : wlabel) | XAsk | XHand | XBack | XGiveUp.
Definition answers (ch : N -> blk) (peer lib known : N) (q : req) : resp q :=
  match q return resp q with
  | QVersion => (""%string, None)
  | QLocalChainID _ => (None, None)
  | QPeerChainID _ => (None, None)
  | QPeerHead _ => (b_id (k_src (ch peer)), peer, None)
  | QPeerAncestor _ _ h => (b_id (k_src (ch h)), None)
  | QLib => Some (Topology (b_id (k_src (ch lib))) lib None)
  | QLocalBlocks _ _ => (Some [Some known], None)
  | QPeerBlocks _ _ start n => (map k_src (stretch ch start (N.to_nat n)), None)
  | QApply _ _ => None
  end.
Lemma answers_honest ch peer lib known q : honest_answer ch peer lib known q (answers ch peer lib known q).
Proof. destruct q; cbn; try done; [by eexists|]. eexists. by split_and!. Qed.
Section exec.
Context (judge : blk -> option goerr) (o : ap_opts) (ans : forall q, resp q).
Definition xstep (r : round) (x : xlabel) : option (rlabel * round) :=
  let '(Round p wait w) := r in
  match x with
  | XWorld (WApp (LTimeout _)) => None
  | XWorld lab => (fun w' => (RWorld lab, Round p wait w')) <$> wstep judge o w lab
  | XAsk =>
    match p, wait with
    | PeerConn_Model.Call (QApply _ _) _, _ => None
    | PeerConn_Model.Call q k, None => Some (RAsk q (ans q), Round (k (ans q)) None w)
    | _, _ => None
    end
  | XHand =>
    match p, wait with
    | PeerConn_Model.Call (QApply t b) k, None =>
      match wstep judge o w (WApp (LCall b)) with
      | Some w' => if bool_decide (length (s_calls (w_s w')) = S (length (s_calls (w_s w)))) then Some (RHand b, Round p (Some (length (s_calls (w_s w)))) w') else None
      | None => None
      end
    | _, _ => None
    end
  | XBack =>
    match p, wait with
    | PeerConn_Model.Call (QApply t b) k, Some c =>
      match s_calls (w_s w) !! c with Some cl => match cl_phase cl with CRet res => Some (RBack, Round (k res) None w) | _ => None end | None => None end
    | _, _ => None
    end
  | XGiveUp =>
    match p, wait with
    | PeerConn_Model.Call (QApply t b) k, Some c => (fun w' => (RGiveUp, Round p wait w')) <$> wstep judge o w (WApp (LTimeout c))
    | _, _ => None
    end
  end.
Fixpoint xrun (f : round -> xlabel -> bool) (r : round) (xs : list xlabel) : option round :=
  match xs with [] => Some r | x :: rest => if f r x then match xstep r x with Some (_, r') => xrun f r' rest | None => None end else None end.
Lemma xstep_rstep r x lab r' : xstep r x = Some (lab, r') -> rstep judge o r lab r'.
Proof.
  destruct r as [p wait w]. destruct x as [l| | | |]; cbn [xstep].
  - destruct (wstep judge o w l) as [w'|] eqn:E.
    + intros H. assert (Hl : (forall c, l <> WApp (LTimeout c)) /\ lab = RWorld l /\ r' = Round p wait w').
      { destruct l as [a| | |]; [destruct a| | |]; try done; cbn in H; injection H as <- <-; by split_and!. }
      destruct Hl as (Hl & -> & ->). by apply rs_world.
    + intros H. by destruct l as [a| | |]; [destruct a| | |].
  - destruct p as [| |q k]; try done. intros H. assert (Hq : (forall t b, q <> QApply t b) /\ wait = None /\ lab = RAsk q (ans q) /\ r' = Round (k (ans q)) None w).
    { destruct q, wait; try done; injection H as <- <-; by split_and!. }
    destruct Hq as (Hq & -> & -> & ->). by apply rs_ask.
  - destruct p as [| |q k]; try done. destruct q; try done. destruct wait; [done|]. destruct (wstep judge o w _) as [w'|] eqn:E; [|done]. case_bool_decide; [|done]. intros [= <- <-]. by apply rs_hand.
  - destruct p as [| |q k]; try done. destruct q; try done. destruct wait as [c|]; [|done]. destruct (s_calls (w_s w) !! c) as [cl|] eqn:E; [|done]. destruct (cl_phase cl) as [| |res] eqn:Ep; try done.
    intros [= <- <-]. by eapply rs_back.
  - destruct p as [| |q k]; try done. destruct q; try done. destruct wait as [c|]; [|done]. destruct (wstep judge o w _) as [w'|] eqn:E; [|done]. intros [= <- <-]. by apply rs_give_up.
Qed.
Lemma xrun_runs (P : round -> rlabel -> Prop) f : (forall r x lab r', xstep r x = Some (lab, r') -> f r x = true -> P r lab) ->
  forall xs r r', xrun f r xs = Some r' -> exists rsched, rruns judge o P r rsched r'.
Proof.
  intros Hf. induction xs as [|x rest IH]; intros r r' H; cbn in H; [injection H as <-; exists []; constructor|].
  destruct (f r x) eqn:Ef; [|done]. destruct (xstep r x) as [[lab r1]|] eqn:Ex; [|done]. destruct (IH _ _ H) as (rsched & Hr). exists (lab :: rsched).
  econstructor; [by eapply Hf|by eapply xstep_rstep|done].
Qed.
Definition xfinal {A} (g : round -> A) f r xs : option A := match xrun f r xs with Some r' => Some (g r') | None => None end.
Lemma xfinal_run {A} (g : round -> A) f r xs a : xfinal g f r xs = Some a -> exists r', xrun f r xs = Some r' /\ g r' = a.
Proof. unfold xfinal. destruct (xrun f r xs) as [r'|]; [|done]. intros [= <-]. eauto. Qed.
End exec.

(** Blocks named by their heights *)
Definition nth_block (h : N) : blk := Blk (mk (pretty h) h (pretty (h - 1)%N) 5000 "") (hdr h (pretty (h - 1)%N) 5000).
Lemma nth_chain : is_chain nth_block.
Proof. intros h. split_and!; [done| |done]. cbn. by rewrite N.add_sub. Qed.
Lemma nth_ids h h' : k_id (nth_block h) = k_id (nth_block h') -> h = h'.
Proof. cbn. apply pretty_N_inj. Qed.
Definition next_three : list blk := [nth_block 11; nth_block 12; nth_block 13].
Definition wu64_b (lab : wlabel) : bool := match lab with WApp l => u64_check l | WElse b => u64_check (LAccept b) | _ => true end.
Definition wcomplete_b (lab : wlabel) : bool :=
  match lab with WApp (LCall b) => bool_decide (is_Some (b_header b)) | WApp (LAccept b) => bool_decide (is_Some (b_header b)) | WElse b => bool_decide (is_Some (b_header b)) | WApp (LAnnounce fh) => bool_decide (is_Some (fh_lib fh)) | _ => true end.
Definition ask_all : list xlabel := [XAsk; XAsk; XAsk; XAsk; XAsk].
Definition xapps (l : list label) : list xlabel := map (fun x => XWorld (WApp x)) l.
Definition go_through (c i : nat) : list xlabel :=
  [XHand] ++ xapps ([LSend c; LNew none_lost] ++ attempt_at 0 i) ++ [XWorld (WAnswer i); XWorld (WAnnounce 0)] ++ xapps [LBroadcast 0; LStatus i none_lost; LRet c] ++ [XBack].
Definition before_round : list wlabel := apps (submit_call 0 orphan ++ attempt_at 0 0) ++ [WAnswer 0; WApp (LStatus 0 none_lost)].
Definition ten : world := world_init (list_to_set ["10"%string]) 10 10 five_min five.
Definition ans3 : forall q, resp q := answers nth_block 13 10 0.
Definition result (r : round) : option (option goerr * bool) := match rd_prog r with Ret x => Some x | _ => None end.
Definition seen (r : round) := (result r, (s_cancelled (w_s (rd_world r)), s_panic (w_s (rd_world r)), s_hang (w_s (rd_world r))), elements (w_chain (rd_world r)), rest_b (rd_world r)).
Definition said_b (w : world) (k : blk) : bool := existsb (fun e => match e with OAccepted b _ => bool_decide (str (b_id b) = k_id k) | _ => false end) (s_log (w_s w)).
Lemma said_check root w k : said_b w k = true -> has_block root (s_log (w_s w)) (k_id k).
Proof. intros H. apply existsb_exists in H as (e & Hin & He). destruct e; try done. apply bool_decide_eq_true in He. left. right. exists b, now. split; [by apply elem_of_list_In|done]. Qed.
(** Steps within [fine], decided; others do not hand over any of the three blocks. *)
Definition fine_b (r : round) (x : xlabel) : bool :=
  match x with
  | XWorld lab => wu64_b lab && wcomplete_b lab && welcome_b roomy 10 "10" 10 next_three (rd_world r) lab &&
      match lab with
      | WApp (LCall b) => forallb (fun k => bool_decide (str (b_id b) <> k_id k)) next_three
      | WApp (LForkHeads i _) => match s_fh (w_s (rd_world r)) !! i with
          | Some fh => match fh_lib fh with Some l => forallb (fun k => bool_decide (l < k_height k)%N || said_b (rd_world r) k) next_three | None => true end
          | None => true
          end
      | _ => true
      end
  | XHand =>
    match rd_prog r with
    | PeerConn_Model.Call (QApply _ b) _ =>
      match b_header b with
      | Some hd => bool_decide (h_height hd <= max_accepted 10 (s_log (w_s (rd_world r))) + ao_max_delta roomy)%N &&
          bool_decide (block_instant (h_timestamp hd) <= s_now (w_s (rd_world r)) + ao_delay_threshold roomy)%Z
      | None => false
      end
    | _ => false
    end
  | XAsk | XBack => true
  | XGiveUp => false
  end.
Lemma wu64_one lab : wu64_b lab = true -> wu64 lab.
Proof. intros H. assert (Hu : Forall wu64 [lab]) by (apply wu64_checks; cbn [forallb]; unfold wu64_b in H; by rewrite H). by apply Forall_cons in Hu as [? _]. Qed.
Lemma wcomplete_one lab : wcomplete_b lab = true -> wcomplete lab.
Proof. destruct lab as [l| | |b]; try done; [destruct l; try done|]; cbn; intros [x Hx]%bool_decide_eq_true; congruence. Qed.
Lemma fine_check root young r x lab r' : xstep has_bad roomy ans3 r x = Some (lab, r') -> fine_b r x = true -> fine roomy root 10 nth_block 13 10 0 next_three young r lab.
Proof.
  intros Hx H. destruct r as [p wait w]. destruct x as [l| | | |]; cbn [fine_b] in H.
  - apply andb_true_iff in H as [[[H1 H2]%andb_true_iff H3]%andb_true_iff H4].
    assert (lab = RWorld l) as ->. { cbn [xstep] in Hx. destruct l as [a| | |]; [destruct a| | |]; try done; (destruct (wstep has_bad roomy w _); [|done]); by injection Hx as <- _. }
    split_and!; [by apply wu64_one|by apply wcomplete_one|by apply welcome_check| |].
    { destruct l as [a| | |]; [destruct a| | |]; try done. intros fh x k Hfh Hl Hk Hle. rewrite Hfh, Hl, forallb_forall in H4. specialize (H4 k ltac:(by apply elem_of_list_In)).
      apply orb_true_iff in H4 as [H4|H4]; [apply bool_decide_eq_true in H4; lia|by apply said_check]. }
    intros k Hk. right. intros b -> E. rewrite forallb_forall in H4.
    specialize (H4 k ltac:(by apply elem_of_list_In)). by apply bool_decide_eq_true in H4.
  - cbn [xstep] in Hx. destruct p as [| |q k]; try done. assert (lab = RAsk q (ans3 q)) as ->; [|apply answers_honest]. destruct q, wait; try done; by injection Hx as <- _.
  - cbn [xstep rd_prog rd_world] in *. destruct p as [| |q k]; try done. destruct q as [| | | | | | | |t b]; try done. assert (lab = RHand b) as ->.
    { destruct wait; [done|]. destruct (wstep has_bad roomy w _); [|done]. case_bool_decide; [|done]. by injection Hx as <- _. }
    destruct (b_header b) as [hd|] eqn:Eh; [|done]. apply andb_true_iff in H as [H1 H2]. apply bool_decide_eq_true in H1, H2. intros hd' E. rewrite Eh in E. injection E as <-. done.
  - cbn [xstep] in Hx. destruct p as [| |q k]; try done. destruct q; try done. destruct wait as [c|]; [|done]. destruct (s_calls (w_s w) !! c) as [cl|]; [|done]. destruct (cl_phase cl); try done. by injection Hx as <- _.
  - done.
Qed.
Lemma three_honest : honest_peer has_bad roomy pc_defaults (list_to_set ["10"%string]) 10 10 nth_block 13 10.
Proof.
  split.
  - apply nth_chain.
  - apply nth_ids.
  - reflexivity.
  - split; reflexivity.
  - split; [split|]; reflexivity.
  - change (stretch nth_block (10 + 1) (asked_for pc_defaults 13 10)) with next_three. intros k Hk. unfold next_three in Hk. rewrite !elem_of_cons, elem_of_nil in Hk.
    assert (Hu : u64_block (k_src k) /\ has_bad k = None /\ bool_decide (k_id k ∈ (list_to_set ["10"%string] : gset string)) = false).
    { destruct Hk as [->|[->|[->|[]]]]; (split; [|split; vm_compute; reflexivity]);
        [assert (Hx : Forall u64_label [LAccept (k_src (nth_block 11))])|assert (Hx : Forall u64_label [LAccept (k_src (nth_block 12))])|assert (Hx : Forall u64_label [LAccept (k_src (nth_block 13))])];
        try (apply u64_checks; vm_compute; reflexivity); by apply Forall_cons in Hx as [? _]. }
    destruct Hu as (H1 & H2 & H3). split_and!; [done|done|]. by apply bool_decide_eq_false in H3.
  - split; [reflexivity|]. intros _. reflexivity.
Qed.
(** An orphan is handed over before; then a round takes in three blocks.  None of them is young: they are handed over in order. *)
Example C104_nonvacuous : exists w rsched r,
  honest_peer has_bad roomy pc_defaults (list_to_set ["10"%string]) 10 10 nth_block 13 10 /\
  stretch nth_block (10 + 1) (asked_for pc_defaults 13 10) = next_three /\
  node_ready has_bad roomy (list_to_set ["10"%string]) 10 10 five_min five nth_block 10 next_three (fun _ => False) before_round w /\
  rruns has_bad roomy (fine roomy (list_to_set ["10"%string]) 10 nth_block 13 10 0 next_three (fun _ => False)) (Round (request_sync pc_defaults false) None w) rsched r /\
  running (w_s (rd_world r)) /\ wrest (rd_world r) /\ round_waits r /\ rd_prog r = Ret (None, true) /\
  (forall k, k ∈ next_three -> k_id k ∉ w_chain w /\ k_id k ∈ w_chain (rd_world r)).
Proof.
  destruct (wfinal_run (fun w => (elements (w_chain w), forallb (fun e => match e with OLib _ => false | _ => true end) (s_log (w_s w)), xfinal has_bad roomy ans3 seen fine_b (Round (request_sync pc_defaults false) None w) (ask_all ++ go_through 1 1 ++ go_through 2 2 ++ go_through 3 3)))
    has_bad roomy ten before_round (["10"%string], true, Some (Some (None, true), (false, false, false), ["10"; "12"; "11"; "13"]%string, true))) as (w & Hw & E); [vm_compute; reflexivity|].
  injection E as E1 E3 E2. apply xfinal_run in E2 as (r & Hx & E2). injection E2 as R1 R2 R3 R4 R5 R6.
  destruct (xrun_runs has_bad roomy ans3 (fine roomy (list_to_set ["10"%string]) 10 nth_block 13 10 0 next_three (fun _ => False)) fine_b) with (2 := Hx) as (rsched & Hr);
    [intros; by eapply fine_check|]. clear Hx. exists w, rsched, r.
  assert (Hres : rd_prog r = Ret (None, true)) by (unfold result in R1; destruct (rd_prog r); try done; by injection R1 as ->).
  split; [apply three_honest|]. split; [vm_compute; reflexivity|]. split.
  { split.
    - split; vm_compute; [discriminate|reflexivity].
    - split; [reflexivity|]. split; [apply wu64_checks; vm_compute; reflexivity|]. split; [|exact Hw]. repeat (apply Forall_cons; split; [first [exact I|discriminate]|]). apply Forall_nil. exact I.
    - eapply along_check; [apply (welcome_check roomy 10 (k_id (nth_block 10)) 10 next_three)|]. vm_compute. reflexivity.
    - left. left. clear. apply elem_of_list_to_set. by left.
    - intros k Hk Hx. exfalso. unfold next_three in Hk. rewrite !elem_of_cons, elem_of_nil in Hk. destruct Hx as [Hx|(x & Hx & _)]; [destruct Hk as [->|[->|[->|[]]]]; by apply Hx|].
      rewrite forallb_forall in E3. by specialize (E3 _ ltac:(by apply elem_of_list_In)).
    - intros k Hk. right. apply (along_check has_bad roomy _ (fun w lab => match lab with WApp (LCall b) => forallb (fun k => bool_decide (str (b_id b) <> k_id k)) next_three | _ => true end)).
      + intros w1 lab Hf b -> Eid. rewrite forallb_forall in Hf. specialize (Hf k ltac:(by apply elem_of_list_In)). by apply bool_decide_eq_true in Hf.
      + vm_compute. reflexivity. }
  split; [exact Hr|]. clear Hr Hw. split; [by split_and!|]. split; [by apply rest_check|]. split; [unfold round_waits; by rewrite Hres|]. split; [done|].
  intros k Hk. rewrite <- !elem_of_elements, E1, R5. clear -Hk. unfold next_three in Hk. rewrite !elem_of_cons, elem_of_nil in Hk.
  destruct Hk as [->|[->|[->|[]]]]; (split; [apply (bool_decide_eq_false_1 _)|apply (bool_decide_eq_true_1 _)]; vm_compute; reflexivity).
Qed.

(** While the round asks its questions the chain gets the first of the blocks from elsewhere, and irreversibility reaches it:
    the call with it is refused, and the round goes on with the next one. *)
Definition lib_moves : list xlabel :=
  ask_all ++ [XWorld (WElse (k_src (nth_block 11))); XWorld (WAnnounce 0)] ++ xapps [LBroadcast 0; LAnnounce (ForkHeads (Some 11%N) ["11"%string]); LForkHeads 0 none_lost] ++
  [XHand] ++ xapps [LSend 0; LNew none_lost; LRet 0] ++ [XBack] ++ go_through 1 0 ++ go_through 2 1.
Example C104_nonvacuous_moving_lib : exists w rsched r,
  honest_peer has_bad roomy pc_defaults (list_to_set ["10"%string]) 10 10 nth_block 13 10 /\
  stretch nth_block (10 + 1) (asked_for pc_defaults 13 10) = next_three /\
  node_ready has_bad roomy (list_to_set ["10"%string]) 10 10 five_min five nth_block 10 next_three (fun _ => False) [] w /\
  rruns has_bad roomy (fine roomy (list_to_set ["10"%string]) 10 nth_block 13 10 0 next_three (fun _ => False)) (Round (request_sync pc_defaults false) None w) rsched r /\
  running (w_s (rd_world r)) /\ wrest (rd_world r) /\ round_waits r /\ rd_prog r = Ret (None, true) /\
  map cl_phase (s_calls (w_s (rd_world r))) = [CRet (Some (ESent ErrBlockIrreversibility)); CRet None; CRet None] /\
  (forall k, k ∈ next_three -> k_id k ∉ w_chain w /\ k_id k ∈ w_chain (rd_world r)).
Proof.
  destruct (xfinal_run has_bad roomy ans3 (fun r => (seen r, map cl_phase (s_calls (w_s (rd_world r))))) fine_b (Round (request_sync pc_defaults false) None ten) lib_moves
    ((Some (None, true), (false, false, false), ["10"; "12"; "11"; "13"]%string, true), [CRet (Some (ESent ErrBlockIrreversibility)); CRet None; CRet None])) as (r & Hx & E); [vm_compute; reflexivity|].
  injection E as R1 R2 R3 R4 R5 R6 R7.
  destruct (xrun_runs has_bad roomy ans3 (fine roomy (list_to_set ["10"%string]) 10 nth_block 13 10 0 next_three (fun _ => False)) fine_b) with (2 := Hx) as (rsched & Hr);
    [intros; by eapply fine_check|]. clear Hx. exists ten, rsched, r.
  assert (Hres : rd_prog r = Ret (None, true)) by (unfold result in R1; destruct (rd_prog r); try done; by injection R1 as ->).
  split; [apply three_honest|]. split; [vm_compute; reflexivity|]. split.
  { split.
    - split; vm_compute; [discriminate|reflexivity].
    - split; [reflexivity|]. split; [by apply Forall_nil|]. split; [by apply Forall_nil|reflexivity].
    - done.
    - left. left. clear. apply elem_of_list_to_set. by left.
    - intros k Hk [Hx|(x & Hx & _)]; [|by apply elem_of_nil in Hx]. unfold next_three in Hk. rewrite !elem_of_cons, elem_of_nil in Hk. destruct Hk as [->|[->|[->|[]]]]; by destruct Hx.
    - intros k Hk. by right. }
  split; [exact Hr|]. clear Hr. split; [by split_and!|]. split; [by apply rest_check|]. split; [unfold round_waits; by rewrite Hres|]. split; [done|]. split; [done|].
  intros k Hk. rewrite <- !elem_of_elements, R5. clear -Hk. unfold next_three in Hk. rewrite !elem_of_cons, elem_of_nil in Hk.
  destruct Hk as [->|[->|[->|[]]]]; (split; [apply (bool_decide_eq_false_1 _)|apply (bool_decide_eq_true_1 _)]; vm_compute; reflexivity).
Qed.

(** C104, REFUTED as stated.  The attempt at the first block of the batch waits for a free worker; meanwhile the chain gets the
    block from elsewhere, and the last irreversible block reaches it.  The round's call returns with "block irreversibility
    error", which the round takes for success; it hands over the second block, which waits for the attempt at the first one.
    That attempt ends as irreversible, and nobody looks at the children of its block.  The second block is never submitted; the
    deadline of ApplyBlock passes, the round ends with a block application error, and the honest peer is charged for it.
    [fine_but_lib]: everything is as in [fine], but the LIB may reach blocks that the chain has said it has and the applicator
    is not done with, and the deadline passes only when nothing is left to do. *)
Definition fine_but_lib (o : ap_opts) (root : gset string) (head : N) (ch : N -> blk) (peer lib known : N) (ks : list blk) (young : blk -> Prop) (r : round) (lab : rlabel) : Prop :=
  match lab with
  | RWorld (WApp (LForkHeads i lose)) => said_before root ks (rd_world r) (WApp (LForkHeads i lose))
  | RGiveUp => wrest (rd_world r) /\ running (w_s (rd_world r))
  | _ => fine o root head ch peer lib known ks young r lab
  end.
Definition fine_but_lib_b (r : round) (x : xlabel) : bool :=
  match x with
  | XWorld (WApp (LForkHeads i _)) => match s_fh (w_s (rd_world r)) !! i with
      | Some fh => match fh_lib fh with Some l => forallb (fun k => bool_decide (l < k_height k)%N || said_b (rd_world r) k) next_three | None => true end
      | None => true
      end
  | XGiveUp => rest_b (rd_world r) && negb (s_cancelled (w_s (rd_world r)) || s_panic (w_s (rd_world r)) || s_hang (w_s (rd_world r)))
  | _ => fine_b r x
  end.
Lemma fine_but_lib_check root young r x lab r' : xstep has_bad roomy ans3 r x = Some (lab, r') -> fine_but_lib_b r x = true ->
  fine_but_lib roomy root 10 nth_block 13 10 0 next_three young r lab.
Proof.
  intros Hx H. assert (Hor : fine_b r x = true /\ x <> XGiveUp \/ (exists i lose, x = XWorld (WApp (LForkHeads i lose))) \/ x = XGiveUp).
  { destruct x as [l| | | |]; [destruct l as [a| | |]; [destruct a| | |]| | | |]; eauto. }
  destruct Hor as [(Hf & Hg)|[(i & lose & ->)| ->]].
  - pose proof (fine_check root young r x lab r' Hx Hf) as HF. destruct lab as [l| | | | |]; try done. destruct l as [a| | |]; try done. destruct a; try done. apply HF.
  - destruct r as [p wait w]. cbn [xstep] in Hx. destruct (wstep has_bad roomy w _); [|done]. injection Hx as <- _. cbn [fine_but_lib fine_but_lib_b rd_world] in *.
    intros fh x k Hfh Hl Hk Hle. rewrite Hfh, Hl, forallb_forall in H. specialize (H k ltac:(by apply elem_of_list_In)).
    apply orb_true_iff in H as [H|H]; [apply bool_decide_eq_true in H; lia|by apply said_check].
  - destruct r as [p wait w]. cbn [xstep] in Hx. destruct p as [| |q k]; try done. destruct q; try done. destruct wait as [c|]; [|done]. destruct (wstep has_bad roomy w _); [|done]. injection Hx as <- _.
    cbn [fine_but_lib fine_but_lib_b rd_world] in *. apply andb_true_iff in H as [H1 H2]. split; [by apply rest_check|]. apply negb_true_iff in H2. apply orb_false_iff in H2 as [[? ?]%orb_false_iff ?]. done.
Qed.
Definition b12' : block := mk "12'" 12 "11" 5000 "".
Definition lib_overtakes : list xlabel :=
  ask_all ++ [XHand] ++ xapps [LSend 0; LNew none_lost; LTry 0; LAttStart 0] ++
  [XWorld (WElse (k_src (nth_block 11))); XWorld (WAnnounce 0)] ++ xapps [LBroadcast 0] ++
  [XWorld (WElse b12'); XWorld (WAnnounce 0)] ++ xapps [LBroadcast 0; LAnnounce (ForkHeads (Some 11%N) ["12'"%string]); LForkHeads 0 none_lost; LRet 0] ++
  [XBack; XHand] ++ xapps [LSend 1; LNew none_lost; LTake 0; LStatus 0 none_lost] ++ [XGiveUp; XBack].
Theorem C104_honest_peer_charged_refuted : exists judge o po root head lib0 dur now ch peer lib young w rsched r f,
  honest_peer judge o po root head lib0 ch peer lib /\ let ks := stretch ch (lib + 1) (asked_for po peer lib) in
  node_ready judge o root head lib0 dur now ch lib ks young [] w /\
  rruns judge o (fine_but_lib o root head ch peer lib 0 ks young) (Round (request_sync po false) None w) rsched r /\
  rd_prog r = Ret (Some (EWrap (ESent ErrBlockApplication)), f) /\
  k_id (ch (lib + 1)%N) ∈ w_chain (rd_world r) /\ k_id (ch (lib + 2)%N) ∉ w_chain (rd_world r) /\ forall i t, OSubmit i (ch (lib + 2)%N) t ∉ s_log (w_s (rd_world r)).
Proof.
  destruct (xfinal_run has_bad roomy ans3 (fun r => (result r, elements (w_chain (rd_world r)), forallb (fun e => match e with OSubmit _ _ _ => false | _ => true end) (s_log (w_s (rd_world r)))))
    fine_but_lib_b (Round (request_sync pc_defaults false) None ten) lib_overtakes (Some (Some (EWrap (ESent ErrBlockApplication)), false), ["10"; "12'"; "11"]%string, true)) as (r & Hx & E); [vm_compute; reflexivity|].
  injection E as R1 R2 R3.
  destruct (xrun_runs has_bad roomy ans3 (fine_but_lib roomy (list_to_set ["10"%string]) 10 nth_block 13 10 0 next_three (fun _ => False)) fine_but_lib_b) with (2 := Hx) as (rsched & Hr);
    [intros; by eapply fine_but_lib_check|]. clear Hx.
  exists has_bad, roomy, pc_defaults, (list_to_set ["10"%string]), 10%N, 10%N, five_min, five, nth_block, 13%N, 10%N, (fun _ => False), ten, rsched, r, false.
  split; [apply three_honest|]. cbv zeta. change (stretch nth_block (10 + 1) (asked_for pc_defaults 13 10)) with next_three. split.
  { split.
    - split; vm_compute; [discriminate|reflexivity].
    - split; [reflexivity|]. split; [by apply Forall_nil|]. split; [by apply Forall_nil|reflexivity].
    - done.
    - left. left. clear. apply elem_of_list_to_set. by left.
    - intros k Hk [Hx|(x & Hx & _)]; [|by apply elem_of_nil in Hx]. unfold next_three in Hk. rewrite !elem_of_cons, elem_of_nil in Hk. destruct Hk as [->|[->|[->|[]]]]; by destruct Hx.
    - intros k Hk. by right. }
  split; [exact Hr|]. clear Hr. split; [unfold result in R1; destruct (rd_prog r); try done; by injection R1 as ->|].
  split; [|split].
  - rewrite <- elem_of_elements, R2. apply (bool_decide_eq_true_1 _). vm_compute. reflexivity.
  - rewrite <- elem_of_elements, R2. apply (bool_decide_eq_false_1 _). vm_compute. reflexivity.
  - intros i t Hin. rewrite forallb_forall in R3. by specialize (R3 _ ltac:(by apply elem_of_list_In)).
Qed.
Print Assumptions C104_honest_peer_charged_refuted.
