(** C45-C50, C52, C71 and the sync half of C25: single handshakes and sync rounds. *)
From Verif Require Import GoBase PeerConn_Model PeerConn_Spec PeerConn_Proofs.

Ltac use_shape H :=
  match type of H with run ?env ?n (request_sync ?o ?syn) = _ =>
    let Hs := fresh "Hs" in pose proof (request_sync_shape o env n syn) as Hs; rewrite H in Hs; simpl in Hs end.

(** ** C45 *)
(** The handshake makes the requests of the script in order up to the first failing check and returns that
    check's error. *)
Theorem C45_first_failing_check (o : pc_opts) (env : environment) (n : nat) (tr : list event) (out : outcome (option goerr)) :
  local_chain_ok o env n ->
  run env n (handshake o) = (tr, out) ->
  (tr, out) = ((play (handshake_script o env n)).1, Done (play (handshake_script o env n)).2).
Proof.
  intros Hok Hr. rewrite handshake_play in Hr by done. by destruct (play (handshake_script o env n)).
Qed.

(** It succeeds exactly if all the conditions hold. *)
Theorem C45_passes_iff (o : pc_opts) (env : environment) (n : nat) :
  local_chain_ok o env n ->
  (run env n (handshake o)).2 = Done None <->
  ((ans_version env n).2 = None \/ is_err_opt (ans_version env n).2 ErrProtocolMissing = true) /\
  (exists mine theirs, ans_local_chain o env n = (Some mine, None) /\ ans_peer_chain o env n = (theirs, None) /\ str mine = str theirs) /\
  (ans_head o env n).2 = None /\
  (forall i cp, po_checkpoints o !! i = Some cp ->
     (ans_checkpoint o env n i cp).2 = None /\ str (ans_checkpoint o env n i cp).1 = str (cp_id cp)).
Proof.
  intros Hok. rewrite handshake_play by done.
  assert (Hp : forall l, (let '(tr, res) := play l in (tr, Done res)).2 = Done None <-> (play l).2 = None).
  { intros l. destruct (play l) as [tr res]. simpl. split; congruence. }
  rewrite Hp, play_None. unfold handshake_script. rewrite Forall_app.
  rewrite !Forall_cons, Forall_nil. cbn [snd].
  assert (Hv : version_check env n = None <-> (ans_version env n).2 = None \/ is_err_opt (ans_version env n).2 ErrProtocolMissing = true).
  { unfold version_check. destruct (ans_version env n).2 as [e|]; simpl; [|tauto].
    destruct (is_err e ErrProtocolMissing); intuition congruence. }
  assert (Hc : local_check o env n = None /\ chain_check o env n = None <->
    exists mine theirs, ans_local_chain o env n = (Some mine, None) /\ ans_peer_chain o env n = (theirs, None) /\ str mine = str theirs).
  { unfold local_check, chain_check, local_chain_ok in *.
    destruct (ans_local_chain o env n) as [mine e1], (ans_peer_chain o env n) as [theirs e2]. cbn [fst snd] in *. split.
    - intros [-> H]. destruct e2 as [e2|]; [done|]. destruct mine as [mine|]; [|by specialize (Hok eq_refl)].
      exists mine, theirs. split; [done|]. split; [done|]. simpl in H.
      by case_bool_decide.
    - intros (m & t & [= -> ->] & [= -> ->] & Heq). split; [done|]. simpl.
      rewrite bool_decide_true; done. }
  assert (Hk : Forall (fun x : event * option goerr => x.2 = None)
       (imap (fun i cp => (Ev (checkpoint_query o env n cp) (ans_checkpoint o env n i cp), checkpoint_check o env n i cp)) (po_checkpoints o))
     <-> forall i cp, po_checkpoints o !! i = Some cp ->
     (ans_checkpoint o env n i cp).2 = None /\ str (ans_checkpoint o env n i cp).1 = str (cp_id cp)).
  { assert (Hone : forall i cp, checkpoint_check o env n i cp = None <->
      (ans_checkpoint o env n i cp).2 = None /\ str (ans_checkpoint o env n i cp).1 = str (cp_id cp)).
    { intros i cp. unfold checkpoint_check. destruct (ans_checkpoint o env n i cp).2 as [e|]; [intuition congruence|].
      destruct (bool_decide_reflect (str (ans_checkpoint o env n i cp).1 = str (cp_id cp))); intuition congruence. }
    rewrite Forall_lookup. split.
    - intros H i cp Hi. apply Hone. specialize (H i). rewrite list_lookup_imap, Hi in H. by apply (H _ eq_refl).
    - intros H i x Hx. rewrite list_lookup_imap in Hx. destruct (po_checkpoints o !! i) as [cp|] eqn:Hi; [|done].
      injection Hx as <-. simpl. apply Hone. by apply H. }
  unfold head_check. rewrite Hk, Hv, <- Hc. tauto.
Qed.

(** Example material: a peer with chain id "chain", head "H" at height 9 and the given checkpoint answer. *)
Definition one_checkpoint : pc_opts :=
  PcOpts [Checkpoint 5 (Some "five")] (6 * second) (12 * second) (6 * second) 500 (150 * second) (6 * second) 5 (10 * second).
Definition friendly (cp : bytes) (q : req) : resp q :=
  match q with
  | QVersion => ("", Some (ESent ErrProtocolMissing))
  | QLocalChainID _ => (Some (Some "chain"), None)
  | QPeerChainID _ => (Some "chain", None)
  | QPeerHead _ => (Some "H", 9%N, None)
  | QPeerAncestor _ _ _ => (cp, None)
  | QLib => Some (Topology (Some "five") 5 (Some "four"))
  | QLocalBlocks _ _ => (Some [Some 0%N], None)
  | QPeerBlocks _ _ _ _ => ([], None)
  | QApply _ _ => None
  end.
Example C45_nonvacuous :
  local_chain_ok one_checkpoint (fun _ => friendly (Some "five")) 0 /\
  (run (fun _ => friendly (Some "five")) 0 (handshake one_checkpoint)).2 = Done None /\
  length (run (fun _ => friendly (Some "five")) 0 (handshake one_checkpoint)).1 = 5 /\
  (run (fun _ => friendly (Some "other")) 0 (handshake one_checkpoint)).2 = Done (Some (ESent ErrCheckpointMismatch)).
Proof. split; [intros _; discriminate|]. vm_compute. done. Qed.

(** ** C46 *)
Theorem C46_only_from_connected_chains (o : pc_opts) (env : environment) (n : nat) (syn : bool) tr out :
  run env n (request_sync o syn) = (tr, out) ->
  (forall pre t head start num r post, tr = pre ++ Ev (QPeerBlocks t head start num) r :: post ->
     exists lib height, the_lib pre lib /\ the_head pre head height /\
       ((0 < tp_height lib)%N -> exists t' id,
          In (Ev (QPeerAncestor t' head (tp_height lib)) (id, None)) pre /\ str id = str (tp_id lib))) /\
  (forall pre t b r post, tr = pre ++ Ev (QApply t b) r :: post -> In b (received pre)).
Proof.
  intros Hr. use_shape Hr.
  assert (Hnone : Forall (fun e => as_blocks e = None /\ as_apply e = None) tr ->
    (forall pre t head start num r post, tr = pre ++ Ev (QPeerBlocks t head start num) r :: post -> False) /\
    (forall pre t b r post, tr = pre ++ Ev (QApply t b) r :: post -> False)).
  { intros Hf. split.
    - intros pre t head start num r post ->. apply Forall_app in Hf as [_ Hf]. inversion Hf as [|? ? [H1 _] _]; done.
    - intros pre t b r post ->. apply Forall_app in Hf as [_ Hf]. inversion Hf as [|? ? [_ H1] _]; done. }
  assert (Hsome : forall lib head height pre ans dn,
    cleared o lib head height pre -> tr = pre ++ Ev (block_request o lib head height) ans :: map (apply_event o) dn ->
    (dn = [] \/ exists bs rest, ans = (bs, None) /\ bs = map fst dn ++ rest) ->
    (forall pre t head start num r post, tr = pre ++ Ev (QPeerBlocks t head start num) r :: post ->
     exists lib height, the_lib pre lib /\ the_head pre head height /\
       ((0 < tp_height lib)%N -> exists t' id,
          In (Ev (QPeerAncestor t' head (tp_height lib)) (id, None)) pre /\ str id = str (tp_id lib))) /\
  (forall pre t b r post, tr = pre ++ Ev (QApply t b) r :: post -> In b (received pre))).
  { intros lib head height pre ans dn Hc Htr Hd. split.
    - intros p t hd st nm r post Heq. rewrite Htr in Heq.
      destruct (blocks_at o lib head height pre _ ans dn p t hd st nm r post Hc eq_refl Heq) as (-> & Hev & _).
      apply (f_equal as_blocks) in Hev. simpl in Hev. injection Hev as _ -> _ _ _.
      exists lib, height. destruct Hc as [H1 H2 | id H1 H2 H3].
      + split; [by left|]. split; [by eexists; right; left|]. intros H. lia.
      + split; [by left|]. split; [by eexists; right; left|]. intros _. eexists _, id. split; [|exact H3].
        right; right; right; left. reflexivity.
    - intros p t b r post Heq. rewrite Htr in Heq.
      destruct (apply_at o lib head height pre _ ans dn p t b r post Hc eq_refl Heq) as (d1 & d2 & -> & ->).
      destruct Hd as [Hd | (bs & rest & -> & ->)]; [by destruct d1|].
      unfold received. rewrite flat_map_app.
      apply in_or_app. right. simpl. apply in_or_app. left. rewrite map_app. apply in_or_app. left. simpl.
      apply in_or_app. right. by left. }
  destruct Hs as [| | | | | | | | |lib head height pre bs e Hc|lib head height pre bs dn e Hc Ha|lib head height pre bs dn Hc Ha|lib head height pre Hc|lib head height pre bs dn b h Hc Ha].
  1-9: destruct Hnone as [Hx1 Hx2]; [repeat (apply Forall_cons_2; [done|]); apply Forall_nil_2 |
    split; intros; exfalso; eauto].
  - eapply (Hsome lib head height pre _ []); [done|reflexivity|by left].
  - eapply (Hsome lib head height pre _ dn); [done|reflexivity|]. right. destruct Ha as (_ & p & b & r & rest & _ & -> & _). eauto.
  - eapply (Hsome lib head height pre _ dn); [done|reflexivity|]. right. destruct Ha as (_ & b & rest & -> & _). eauto.
  - eapply (Hsome lib head height pre _ []); [done|reflexivity|by left].
  - eapply (Hsome lib head height pre _ dn); [done|reflexivity|]. right. destruct Ha as (_ & <- & _). exists (map fst dn), []. by rewrite app_nil_r.
Qed.

(** Every received block was applied, in a round that ends well. *)
Definition demo_block (id : string) (h : N) : block := Block (Some id) (Some (Header h (Some "p") 0 (Some "s"))) [] "".
(** A peer at height 9 whose blocks 6..9 are answered; the applicator answers by [res]. *)
Definition serving_peer (blocks : list block) (res : block -> option goerr) (q : req) : resp q :=
  match q with
  | QPeerBlocks _ _ _ _ => (blocks, None)
  | QApply _ b => res b
  | q => friendly (Some "five") q
  end.
Definition four_blocks : list block := [demo_block "6" 6; demo_block "7" 7; demo_block "8" 8; demo_block "9" 9].
Example C46_nonvacuous :
  let '(tr, out) := run (fun _ => serving_peer four_blocks (fun _ => None)) 0 (request_sync pc_defaults false) in
  length (List.filter is_block_request tr) = 1 /\ map fst (applied tr) = four_blocks /\ out = Done (None, true).
Proof. vm_compute. done. Qed.

(** ** C47 *)
Lemma filter_requests_apply (o : pc_opts) dn : List.filter is_block_request (map (apply_event o) dn) = [].
Proof. induction dn as [|x dn IH]; [done|]. simpl. exact IH. Qed.
Lemma filter_requests_cleared (o : pc_opts) lib head height pre : cleared o lib head height pre -> List.filter is_block_request pre = [].
Proof. by destruct 1. Qed.

(** The request, if any, is unique and has the right start and size; it is made only for a head above the
    LIB that the local block store does not know. *)
Theorem C47_right_range (o : pc_opts) (env : environment) (n : nat) (syn : bool) tr out :
  env_u64 env -> (po_batch o < two32)%N ->
  run env n (request_sync o syn) = (tr, out) ->
  length (List.filter is_block_request tr) <= 1 /\
  (forall t head start num r, In (Ev (QPeerBlocks t head start num) r) tr ->
     exists lib height, the_lib tr lib /\ the_head tr head height /\ head_known_at tr head 0 /\
       (tp_height lib < height)%N /\ start = (tp_height lib + 1)%N /\
       num = N.min (height - tp_height lib) (po_batch o)).
Proof.
  intros Hu Hb Hr. 
  assert (Hu' : Forall event_u64 tr).
  { clear Hb. revert n tr out Hr. generalize (request_sync o syn). intros p. induction p as [a| |q k IH]; intros n tr out Hr; cbn [run] in Hr.
    - injection Hr as <- _. constructor.
    - injection Hr as <- _. constructor.
    - destruct (run env (S n) (k (env n q))) as [tr' out'] eqn:Hk. injection Hr as <- _. constructor; [apply Hu|]. eapply IH; done. }
  use_shape Hr. clear Hr.
  assert (Hnone : Forall (fun e => as_blocks e = None) tr ->
    length (List.filter is_block_request tr) <= 1 /\ forall t head start num r, In (Ev (QPeerBlocks t head start num) r) tr -> False).
  { intros Hf. split.
    - clear -Hf. induction Hf as [|[q r] l He Hl IH]; simpl; [lia|]. destruct q; try done; exact IH.
    - intros t head start num r Hin. apply elem_of_list_In in Hin. rewrite Forall_forall in Hf. by apply Hf in Hin. }
  assert (Hsome : forall lib head height pre ans dn,
    cleared o lib head height pre -> tr = pre ++ Ev (block_request o lib head height) ans :: map (apply_event o) dn ->
    length (List.filter is_block_request tr) <= 1 /\
  (forall t head start num r, In (Ev (QPeerBlocks t head start num) r) tr ->
     exists lib height, the_lib tr lib /\ the_head tr head height /\ head_known_at tr head 0 /\
       (tp_height lib < height)%N /\ start = (tp_height lib + 1)%N /\
       num = N.min (height - tp_height lib) (po_batch o))).
  { intros lib head height pre ans dn Hc Htr. split.
    { rewrite Htr, List.filter_app. simpl. rewrite filter_requests_apply, (filter_requests_cleared _ _ _ _ _ Hc). simpl. lia. }
    intros t hd st nm r Hin. apply in_split in Hin as (p & post & Heq).
    assert (Heq2 := Heq). rewrite Htr in Heq2.
    destruct (blocks_at o lib head height pre _ ans dn p t hd st nm r post Hc eq_refl Heq2) as (-> & Hev & _).
    apply (f_equal as_blocks) in Hev. simpl in Hev. injection Hev as _ -> -> -> _.
    exists lib, height.
    assert (Hin : the_lib pre lib /\ the_head pre head height /\ head_known_at pre head 0 /\ (tp_height lib < height)%N).
    { destruct Hc as [H1 H2 | id H1 H2 H3]; (split; [by left|]; split; [by eexists; right; left|]; split; [by eexists; right; right; left|done]). }
    destruct Hin as (Hi1 & (t1 & Hi2) & (t2 & Hi3) & Hlt).
    assert (Hh : (height < two64)%N).
    { rewrite Htr in Hu'. apply Forall_app in Hu' as [Hu' _]. rewrite Forall_forall in Hu'.
      apply elem_of_list_In in Hi2. by apply Hu' in Hi2. }
    rewrite Htr. unfold the_lib, the_head, head_known_at.
    split; [by apply in_or_app; left|]. split; [exists t1; by apply in_or_app; left|].
    split; [exists t2; by apply in_or_app; left|]. split; [done|].
    assert (Hsub : sub64 height (tp_height lib) = (height - tp_height lib)%N).
    { unfold sub64. replace (height + two64 - tp_height lib)%N with (height - tp_height lib + 1 * two64)%N by lia.
      rewrite N.mod_add by done. apply N.mod_small. lia. }
    split.
    - unfold add64. apply N.mod_small. lia.
    - unfold request_size. rewrite Hsub. unfold to_u32.
      destruct (bool_decide_reflect (po_batch o < height - tp_height lib)%N); rewrite N.mod_small by lia; lia. }
  destruct Hs as [| | | | | | | | |lib head height pre bs e Hc|lib head height pre bs dn e Hc Ha|lib head height pre bs dn Hc Ha|lib head height pre Hc|lib head height pre bs dn b h Hc Ha].
  1-9: destruct Hnone as [Hx1 Hx2]; [repeat (apply Forall_cons_2; [done|]); apply Forall_nil_2 |
    split; [done|]; intros; exfalso; eauto].
  - by eapply (Hsome lib head height pre _ []).
  - by eapply (Hsome lib head height pre _ dn).
  - by eapply (Hsome lib head height pre _ dn).
  - by eapply (Hsome lib head height pre _ []).
  - by eapply (Hsome lib head height pre _ dn).
Qed.

(** A round without error made the request unless the peer is at or below our LIB or its head is known. *)
Theorem C47_requested_when_behind (o : pc_opts) (env : environment) (n : nat) (syn : bool) tr syn' :
  run env n (request_sync o syn) = (tr, Done (None, syn')) ->
  exists lib head height, the_lib tr lib /\ the_head tr head height /\
    ((height <= tp_height lib)%N
     \/ (exists h, head_known_at tr head h /\ h <> 0%N)
     \/ length (List.filter is_block_request tr) = 1).
Proof.
  intros Hr. use_shape Hr.
  inversion Hs as [| |lib head height Hle| | | |lib head height h Hlt Hh| | | | | | |lib head height pre bs dn b h Hc Ha Hl Hh]; subst.
  - exists lib, head, height. split; [by left|]. split; [by eexists; right; left|]. by left.
  - exists lib, head, height. split; [by left|]. split; [by eexists; right; left|]. right; left. exists h. split; [|done].
    by eexists; right; right; left.
  - exists lib, head, height.
    assert (Hin : the_lib pre lib /\ the_head pre head height).
    { destruct Hc as [H1 H2 | id H1 H2 H3]; (split; [by left|by eexists; right; left]). }
    destruct Hin as (Hi1 & (t1 & Hi2)).
    split; [by apply in_or_app; left|]. split; [by exists t1; apply in_or_app; left|]. right; right.
    rewrite List.filter_app. simpl. rewrite filter_requests_apply, (filter_requests_cleared _ _ _ _ _ Hc). done.
Qed.
Definition batch_of_two : pc_opts :=
  PcOpts [] (6 * second) (12 * second) (6 * second) 2 (150 * second) (6 * second) 5 (10 * second).
Example C47_nonvacuous :
  exists tr out t, run (fun _ => serving_peer four_blocks (fun _ => None)) 0 (request_sync batch_of_two false) = (tr, out) /\
    In (Ev (QPeerBlocks t (Some "H") 6 2) (four_blocks, None)) tr /\ (po_batch batch_of_two < two32)%N.
Proof. eexists _, _, _. split; [reflexivity|]. split; [right; right; right; right; left; reflexivity|reflexivity]. Qed.

(** ** C48 *)
Lemma applied_app l1 l2 : applied (l1 ++ l2) = applied l1 ++ applied l2.
Proof. apply omap_app. Qed.
Lemma received_app l1 l2 : received (l1 ++ l2) = received l1 ++ received l2.
Proof. apply flat_map_app. Qed.
Lemma applied_cleared (o : pc_opts) lib head height pre : cleared o lib head height pre -> applied pre = [] /\ received pre = [].
Proof. by destruct 1. Qed.
Lemma applied_events (o : pc_opts) dn : applied (map (apply_event o) dn) = dn /\ received (map (apply_event o) dn) = [].
Proof. split; induction dn as [|[b r] dn IH]; [done| |done|]; simpl; [by f_equal|done]. Qed.
Lemma applied_round (o : pc_opts) lib head height pre (bs : list block) dn :
  cleared o lib head height pre ->
  applied (pre ++ Ev (block_request o lib head height) (bs, None) :: map (apply_event o) dn) = dn /\
  received (pre ++ Ev (block_request o lib head height) (bs, None) :: map (apply_event o) dn) = bs.
Proof.
  intros Hc. destruct (applied_cleared _ _ _ _ _ Hc) as [H1 H2], (applied_events o dn) as [H3 H4].
  rewrite applied_app, received_app, H1, H2. cbn [app].
  change (applied (Ev (block_request o lib head height) (bs, None) :: map (apply_event o) dn)) with (applied (map (apply_event o) dn)).
  change (received (Ev (block_request o lib head height) (bs, None) :: map (apply_event o) dn)) with (bs ++ received (map (apply_event o) dn)).
  by rewrite H3, H4, app_nil_r.
Qed.

Theorem C48_in_order_until_failure (o : pc_opts) (env : environment) (n : nat) (syn : bool) tr out :
  run env n (request_sync o syn) = (tr, out) ->
  map fst (applied tr) `prefix_of` received tr /\
  (forall pre x post, applied tr = pre ++ x :: post -> Forall (fun y : block * option goerr => harmless y.2) pre) /\
  (forall syn', out = Done (None, syn') -> map fst (applied tr) = received tr /\
     Forall (fun y : block * option goerr => harmless y.2) (applied tr)).
Proof.
  intros Hr. use_shape Hr.
  assert (Hz : forall (l : list event), applied l = [] -> received l = [] -> 
    map fst (applied l) `prefix_of` received l /\
  (forall pre x post, applied l = pre ++ x :: post -> Forall (fun y : block * option goerr => harmless y.2) pre) /\
  (forall syn', out = Done (None, syn') -> map fst (applied l) = received l /\
     Forall (fun y : block * option goerr => harmless y.2) (applied l))).
  { intros l -> ->. split; [done|]. split; [|intros; split; [done|constructor]]. intros pre x post H. by destruct pre. }
  destruct Hs as [| | | | | | | | |lib head height pre bs e Hc|lib head height pre bs dn e Hc Ha|lib head height pre bs dn Hc Ha|lib head height pre Hc|lib head height pre bs dn b h Hc Ha Hl Hh].
  1-9: by apply Hz.
  - destruct (applied_cleared _ _ _ _ _ Hc) as [H1 H2]. apply Hz.
    + by rewrite applied_app, H1.
    + by rewrite received_app, H2.
  - destruct (applied_round o lib head height pre bs dn Hc) as [-> ->].
    destruct Ha as (_ & pr & b & r & rest & -> & -> & Hp & _). split; [by eexists|]. split; [|done].
    intros q x post Heq. assert (q `prefix_of` pr) as [k ->].
    { apply (f_equal (take (length q))) in Heq as Ht. rewrite (take_app q (x :: post)) in Ht.
      assert (length q <= length pr). { apply (f_equal length) in Heq. rewrite !app_length in Heq. simpl in Heq. lia. }
      rewrite take_app_le in Ht by done. exists (drop (length q) pr). rewrite <- Ht at 1. by rewrite take_drop. }
    by apply Forall_app in Hp as [Hp _].
  - destruct (applied_round o lib head height pre bs dn Hc) as [-> ->].
    destruct Ha as (_ & b & rest & -> & _ & Hp). split; [by eexists|]. split; [|done].
    intros q x post Heq. rewrite Heq in Hp. by apply Forall_app in Hp as [Hp _].
  - destruct (applied_cleared _ _ _ _ _ Hc) as [H1 H2]. apply Hz.
    + by rewrite applied_app, H1.
    + by rewrite received_app, H2.
  - destruct (applied_round o lib head height pre bs dn Hc) as [-> ->].
    destruct Ha as (_ & <- & Hp). split; [done|]. split; [|done].
    intros q x post Heq. rewrite Heq in Hp. by apply Forall_app in Hp as [Hp _].
Qed.
Definition refuse_at (id : string) (e : goerr) (b : block) : option goerr :=
  if bool_decide (str (b_id b) = id) then Some e else None.
Example C48_nonvacuous :
  let '(tr, out) := run (fun _ => serving_peer four_blocks (refuse_at "8" (EOther "invalid"))) 0 (request_sync pc_defaults false) in
  map fst (applied tr) = take 3 four_blocks /\ received tr = four_blocks /\ out = Done (Some (EWrap (ESent ErrBlockApplication)), false).
Proof. vm_compute. done. Qed.
Print Assumptions C45_first_failing_check.
Print Assumptions C45_passes_iff.
Print Assumptions C46_only_from_connected_chains.
Print Assumptions C47_right_range.
Print Assumptions C47_requested_when_behind.
Print Assumptions C48_in_order_until_failure.
