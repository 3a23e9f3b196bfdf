(** Property theorems C97: of two nodes that run this program and are on one chain, the one that is behind catches up. *)
From Verif Require Import GoBase ErrHandler_Spec LocalRpc_Model LocalRpc_Spec LocalRpc_Props PeerConn_Model PeerRpc_Model PeerRpc_Spec PeerRpc_Props Catchup_Spec Catchup_Proofs Catchup_Props TwoNodes_Spec TwoNodes_Proofs.

Section two_nodes.
Context (c : onechain) (policy : N -> N) (o : pc_opts) (id : string).
Context (mar : option block -> option string) (unm : string -> option block) (Hc : codec_ok mar unm).
(** What surrounds our session when it makes its [n]-th request, and the state [w n] then *)
Context (mine theirs : nat -> wire) (net : nat -> option goerr) (lib : nat -> option topology) (version : nat -> string * option goerr)
  (app : nat -> block -> option goerr) (w : nat -> place).
(** [s] is reached by our session, whose peer is a node that runs this program, both being on the chain [c]. *)
Definition joined (meanwhile : place -> place -> Prop) (sched : list slabel) (s : session) : Prop :=
  sruns o id (world mar unm mine theirs net lib version app) (session_init o) sched = Some s /\
  (forall n, n < ss_calls s -> fits c mar (w n) (mine n) (theirs n) (net n) (lib n) (version n) (app n)) /\
  keeps_pace c policy meanwhile w (asked (ss_log s)).

(** The program is an honest peer in the sense of C92. *)
Theorem C97_honest : forall meanwhile sched s, joined meanwhile sched s -> honest c policy meanwhile (w 0) (ss_log s) (w (ss_calls s)).
Proof.
  intros M sched s (Hr & Hf & Hk). refine (proj2 (honest_run c policy M _ w o id sched s Hr _ Hk)).
  intros n q Hq. apply fits_answered; [done|]. apply Hf.
  assert (Hn : ss_calls s = length (asked (ss_log s))).
  { clear -Hr. revert s Hr. induction sched as [|lab sched IH] using rev_ind; intros s Hr; [by injection Hr as <-|].
    rewrite sruns_app in Hr. destruct (sruns _ _ _ (session_init o) sched) as [s1|] eqn:H1; [|done]. cbn in Hr.
    destruct (sstep _ _ _ s1 lab) as [s2|] eqn:H2; [|done]. injection Hr as <-.
    destruct (sstep_adds _ _ _ _ _ _ H2) as (add & Hl & _ & Hn). rewrite Hl, asked_app, app_length, Hn, (IH s1 eq_refl). done. }
  rewrite Hn. by apply lookup_lt_Some in Hq.
Qed.
Context (Hs : suited policy o) (Hw : consistent policy (w 0)) (Hcp : checkpoints_met c o (w 0)).
(** Between two such nodes nothing fails and the peer is not charged, and every completed round but the first gives us at least one block or
    all the peer had. *)
Theorem C97_no_failure_partial : forall sched s, joined (moves_on policy) sched s ->
  Forall (fun a => ~ failure a) (ss_log s) /\ ss_ctl s <> Crashed /\ ss_pend s = [] /\
  (N.min (pl_peer (w 0)) (pl_head (w 0) + N.of_nat (rounds (ss_log s) - 1)) <= pl_head (w (ss_calls s)))%N.
Proof.
  intros sched s H. pose proof (C97_honest _ _ _ H) as Hh. destruct H as (Hr & _ & _).
  destruct (C92_follows_partial c policy o Hs id _ (w 0) Hw Hcp [] (session_init o) (w 0) sched s (ss_log s) (w (ss_calls s)) eq_refl (HonestStart _ _ _ _) Hr (eq_sym (app_nil_r _)) Hh)
    as (H1 & H2 & H3 & _ & H5). done.
Qed.
(** The node that is behind catches up. *)
Theorem C97_catches_up_partial : exists T, forall sched s, joined (moves_on policy) sched s -> T <= main_steps sched ->
  (pl_peer (w 0) <= pl_head (w (ss_calls s)))%N.
Proof.
  destruct (C92_catches_up_partial c policy o Hs id (world mar unm mine theirs net lib version app) (w 0) Hw Hcp) as [T HT].
  exists T. intros sched s H Hm. pose proof (C97_honest _ _ _ H) as Hh. destruct H as (Hr & _ & _). by eapply HT.
Qed.
End two_nodes.
Print Assumptions C97_honest.
Print Assumptions C97_no_failure_partial.
Print Assumptions C97_catches_up_partial.
(** The full claim asks for no relation between irreversibility and the batch size. *)
Definition C97_statement : Prop := forall c policy o w0, sound_policy policy -> consistent policy w0 -> checkpoints_met c o w0 -> (0 < po_batch o < two32)%N ->
  exists T, forall id mar unm mine theirs net lib version app w sched s, codec_ok mar unm -> w 0 = w0 ->
    joined c policy o id mar unm mine theirs net lib version app w (moves_on policy) sched s -> T <= main_steps sched -> (pl_peer w0 <= pl_head (w (ss_calls s)))%N.

(** ** Two concrete nodes on the chain of C92 *)
Definition ex_mar (b : option block) : option string :=
  match b with Some b => if bool_decide (b = ex_block (block_height b)) then Some (marks (N.to_nat (block_height b))) else None | None => None end.
Definition ex_unm (d : string) : option block := Some (ex_block (N.of_nat (String.length d))).
Lemma ex_codec : codec_ok ex_mar ex_unm.
Proof.
  intros [b|] d H; [|done]. cbn [ex_mar] in H. case_bool_decide as Hb; [|done]. injection H as <-. unfold ex_unm. rewrite marks_length, N2Nat.id, <- Hb.
  eexists. split; [done|]. apply same_block_refl.
Qed.
(** A request for blocks is encoded as "aa..abaa..a", one for a block as its identifier. *)
Fixpoint parse (s : string) : nat * nat :=
  match s with
  | EmptyString => (0, 0)
  | String x r => if bool_decide (String x EmptyString = "a"%string) then (S (parse r).1, (parse r).2) else (0, String.length r)
  end.
Lemma parse_marks a b : parse (marks a +:+ "b" +:+ marks b) = (a, b).
Proof.
  induction a as [|a IH].
  - change ((0, String.length (marks b)) = (0, b)). by rewrite marks_length.
  - change ((S (parse (marks a +:+ "b" +:+ marks b)).1, (parse (marks a +:+ "b" +:+ marks b)).2) = (S a, b)). by rewrite IH.
Qed.
Definition ex_request (q : rpc_req) : option string :=
  match q with
  | RChain CGetChainId => Some "id"%string
  | RChain CGetHeadInfo => Some "head"%string
  | RStore (SGetByHeight _ start num _ _) => Some (marks (N.to_nat start) +:+ "b" +:+ marks (N.to_nat num))
  | RStore (SGetById [id] _ _) => Some (str id)
  | _ => None
  end.
Definition ex_item (h : N) : block_item := BlockItem (id_at ex_chain h) h (Some (ex_block h)).
(** The chain service and the block store of a node with head [h] *)
Definition ex_service (h : N) (d : string) : option chain_resp :=
  if bool_decide (d = "id"%string) then Some (VChainId (oc_id ex_chain))
  else Some (VHeadInfo (HeadInfo (Some (Topology (id_at ex_chain h) h (id_at ex_chain (h - 1)))) 0)).
Definition ex_theirs (h : N) : wire := Wire ex_request (fun _ d => inl d) (ex_service h)
  (fun d => Some (WByHeight (map (fun i => ex_item (N.of_nat (parse d).1 + N.of_nat i)) (seq 0 (parse d).2)))).
Definition ex_mine (h : N) : wire := Wire ex_request (fun _ d => inl d) (ex_service h)
  (fun d => let k := N.of_nat (String.length d) in Some (WById [if bool_decide (k <= h)%N then ex_item k else BlockItem None 0 None])).
Definition ex_app (w : place) (b : block) : option goerr := ex_answers w (QApply 0 b).
Lemma append_length s t : String.length (s +:+ t) = String.length s + String.length t.
Proof. induction s as [|x s IH]; [done|]. change (S (String.length (s +:+ t)) = S (String.length s + String.length t)). by rewrite IH. Qed.
Lemma ex_fits w : (pl_peer w <= 100)%N ->
  fits ex_chain ex_mar w (ex_mine (pl_head w)) (ex_theirs (pl_peer w)) None (ex_answers w QLib) (ex_answers w QVersion) (ex_app w).
Proof.
  intros Hp. split; [|split; [|split; [done|]; split; [apply ex_answered|]; split; [apply ex_answered|]; intros t b; apply (ex_answered w (QApply t b))]].
  - split; [|split].
    + exists (oc_id ex_chain). split; [|done]. exists "id"%string. split; [|done]. exists "id"%string. by split; [split|].
    + exists "head"%string, (HeadInfo (Some (Topology (id_at ex_chain (pl_peer w)) (pl_peer w) (id_at ex_chain (pl_peer w - 1)))) 0), (Topology (id_at ex_chain (pl_peer w)) (pl_peer w) (id_at ex_chain (pl_peer w - 1))).
      split; [|done]. exists "head"%string. by split; [split|].
    + intros k start n Hk Hn _. exists (map (fun i => ex_item (start + N.of_nat i)) (seq 0 (N.to_nat n))). split.
      * exists (marks (N.to_nat start) +:+ "b" +:+ marks (N.to_nat n)). split.
        { exists (marks (N.to_nat start) +:+ "b" +:+ marks (N.to_nat n)). split; [split; [done|]|done]. rewrite !append_length, !marks_length. cbn [String.length]. lia. }
        cbn [ex_theirs w_store]. rewrite parse_marks. cbn [fst snd]. by rewrite N2Nat.id.
      * apply Forall2_fmap_r, Forall_Forall2_diag, Forall_forall. intros i _. split; [done|]. exists (ex_block (start + N.of_nat i)). split; [done|]. split; [apply ex_is_block|].
        cbn [ex_mar]. by rewrite bool_decide_eq_true_2.
  - split.
    + exists (oc_id ex_chain). split; [|done]. exists "id"%string. split; [|done]. exists "id"%string. by split; [split|].
    + intros k Hk. exists (marks (N.to_nat k)), (if bool_decide (k <= pl_head w)%N then ex_item k else BlockItem None 0 None). split.
      * exists (marks (N.to_nat k)). split; [split; [done|]|done]. rewrite marks_length. lia.
      * cbn [ex_mine w_store]. rewrite marks_length, N2Nat.id. split; [done|]. by case_bool_decide.
Qed.
(** The world of these two nodes when the states are [w] *)
Definition ex_joined (policy : N -> N) (w : nat -> place) := joined ex_chain policy ex_opts "p" ex_mar ex_unm (fun n => ex_mine (pl_head (w n))) (fun n => ex_theirs (pl_peer (w n)))
  (fun _ => None) (fun n => ex_answers (w n) QLib) (fun n => ex_answers (w n) QVersion) (fun n => ex_app (w n)) w.
Definition ex_world (w : nat -> place) : environment := world ex_mar ex_unm (fun n => ex_mine (pl_head (w n))) (fun n => ex_theirs (pl_peer (w n)))
  (fun _ => None) (fun n => ex_answers (w n) QLib) (fun n => ex_answers (w n) QVersion) (fun n => ex_app (w n)).

(** ** The claim as stated fails: two nodes on a chain that becomes irreversible too late *)
Definition stuck_at (_ : nat) : place := stuck.
Definition stays (q : req) : Prop := effect ex_chain late stuck q = stuck.
Lemma two_stuck_round n log : exists new, sruns ex_opts "p" (ex_world stuck_at) (paused n log) again = Some (paused (6 + n) (new ++ log)) /\ Forall stays (asked new).
Proof. eexists [_; _; _; _; _; _; _; _]. split; [vm_compute; reflexivity|]. cbn [asked app]. repeat constructor; vm_compute; reflexivity. Qed.
Lemma two_stuck_rounds k : exists sched s, ex_joined late stuck_at (moves_on late) sched s /\ k <= main_steps sched.
Proof.
  assert (H : exists sched n log, sruns ex_opts "p" (ex_world stuck_at) (session_init ex_opts) sched = Some (paused n log) /\ k <= main_steps sched /\ Forall stays (asked log)).
  { induction k as [|k (sched & n & log & Hr & Hk & H1)].
    - eexists (repeat (MStep true) 13), _, _. split; [vm_compute; reflexivity|]. split; [lia|]. cbn [asked app]. repeat constructor; vm_compute; reflexivity.
    - destruct (two_stuck_round n log) as (new & Hs & Hn). exists (sched ++ again), (6 + n), (new ++ log).
      rewrite sruns_app, Hr. split; [done|]. rewrite main_steps_app. split; [cbn; lia|]. rewrite asked_app. by apply Forall_app. }
  destruct H as (sched & n & log & Hr & Hk & H1). exists sched, (paused n log). split; [|done]. split; [exact Hr|]. split.
  - intros m _. apply (ex_fits stuck). by vm_compute.
  - intros m q Hq. left. rewrite Forall_lookup in H1. symmetry. exact (H1 _ _ Hq).
Qed.
Theorem C97_catches_up_refuted : ~ C97_statement.
Proof.
  intros H. destruct (H ex_chain late ex_opts stuck) as [T HT].
  - split; intros; unfold late; lia.
  - vm_compute. repeat split; discriminate.
  - apply Forall_singleton. split; [done|vm_compute; discriminate].
  - vm_compute. by split.
  - destruct (two_stuck_rounds T) as (sched & s & Hj & Hk). specialize (HT _ _ _ _ _ _ _ _ _ _ _ _ ex_codec eq_refl Hj Hk). by vm_compute in HT.
Qed.
Print Assumptions C97_catches_up_refuted.

(** ** Non-vacuity: three blocks to fetch, in batches of two *)
Definition ex_at (n : nat) : place :=
  if bool_decide (n <= 9) then Place 3 0 0 else if bool_decide (n <= 10) then Place 3 1 0 else if bool_decide (n <= 17) then Place 3 2 1 else Place 3 3 2.
Fixpoint paced (w : nat -> place) (policy : N -> N) (i : nat) (reqs : list req) : Prop :=
  match reqs with [] => True | q :: r => w (S i) = effect ex_chain policy (w i) q /\ paced w policy (S i) r end.
Lemma paced_keeps w policy M i reqs : paced w policy i reqs -> keeps_pace ex_chain policy M (fun n => w (i + n)) reqs.
Proof.
  revert i. induction reqs as [|q r IH]; intros i; [done|]. intros [H1 H2] [|n] q' Hq.
  - injection Hq as <-. left. by rewrite Nat.add_0_r, Nat.add_1_r.
  - cbn in Hq. specialize (IH _ H2 _ _ Hq). cbn beta in IH. by replace (i + S (S n)) with (S i + S n) by lia; replace (i + S n) with (S i + n) by lia.
Qed.
Example C97_nonvacuous : suited lag1 ex_opts /\ consistent lag1 (ex_at 0) /\ checkpoints_met ex_chain ex_opts (ex_at 0) /\ codec_ok ex_mar ex_unm /\
  exists s, ex_joined lag1 ex_at (moves_on lag1) (repeat (MStep true) 30) s /\ rounds (ss_log s) = 3 /\ pl_head (ex_at 0) = 0%N /\ pl_head (ex_at (ss_calls s)) = 3%N.
Proof.
  destruct C92_nonvacuous as (H1 & H2 & H3 & _). split; [exact H1|]. split; [exact H2|]. split; [exact H3|]. split; [exact ex_codec|].
  eexists. split; [|split; [|split]]; [split; [vm_compute; reflexivity|split]| | |].
  - intros n _. apply ex_fits. unfold ex_at. repeat case_bool_decide; by vm_compute.
  - apply (paced_keeps ex_at lag1 _ 0). cbn [ss_log asked app paced]. repeat (split; [vm_compute; reflexivity|]). exact I.
  - vm_compute; reflexivity.
  - vm_compute; reflexivity.
  - vm_compute; reflexivity.
Qed.
