(** Property theorems C119: a peer that behaves stays connected and is let in. *)
From Verif Require Import GoBase Gossip_Model PeerConn_Model Catchup_Spec Applicator_Model Applicator_Spec Honest_Spec Round_Spec Relay_Spec Follow_Spec Both_Spec TxCache_Proofs
  ErrHandler_Model ErrHandler_Spec ErrHandler_Proofs ErrHandler_Props EhSys_Model EhSys_Spec EhSys_Proofs EhSys_Props ConnMgr_Model ConnMgr_Spec ConnMgr_Proofs
  Applicator_Props Catchup_Props Deliver_Props Honest_Props Round_Props Relay_Props Follow_Props
  Asm_Model Asm_Spec Asm_Proofs Asm_Props Cutoff_Model Cutoff_Spec Cutoff_Proofs Cutoff_Props Both_Props Stay_Spec Stay_Proofs.

Section stays.
(** The node and its settings; the peer [id], the chain it serves, and the conditions of C117 ... *)
Context (decode_block : string -> option block) (id_of_key : string -> outcome string) (me : string).
Context (judge : blk -> option goerr) (o : ap_opts) (po : pc_opts) (id : string) (decay : N -> Z -> N) (eo : eh_opts).
Context (root : gset string) (head lib top : N) (cid : bytes) (ch : N -> blk) (young : blk -> Prop) (dur now : Z) (had peer : N) (initial : list string).
Context (Hdur : good_dur dur) (HS : sound_setting judge o po root head lib top ch had) (Hpeer : (peer <= top)%N).
Notation start := (both_init po root head lib dur now peer).
Notation nice_peer := (behaved decode_block id_of_key me o po id root head lib top cid ch young).
Notation bruns := (bruns decode_block id_of_key me judge o po id nice_peer).
Notation hstep := (hstep decode_block id_of_key me judge o po id decay eo).
Notation hruns := (hruns decode_block id_of_key me judge o po id decay eo nice_peer).
Context (Hcps : checked po ch (bo_comp start)).
(** ... and a run of the whole node since the program started. *)
Context (labs : list wholelabel) (x : both) (s : net) (Hrun : hruns (Whole start (nt_init initial)) labs (Whole x s)).

Lemma bruns_snoc x1 l x2 lab x3 : bruns x1 l x2 -> bstep decode_block id_of_key me judge o po id x2 lab x3 -> nice_peer x2 lab x3 -> bruns x1 (l ++ [lab]) x3.
Proof. induction 1 as [y|y lb y1 rest y2 Hs Hp Hr IH]; intros H1 H2; cbn [app]; [eapply br_cons; [done|done|constructor]|eapply br_cons; [done|done|by apply IH]]. Qed.
Lemma whole_run n n' l : hruns n l n' -> forall bl, bruns start bl (wh_both n) -> Spared id (wh_net n) -> nt_reach decay eo initial (wh_net n) ->
  (exists bl', bruns start bl' (wh_both n')) /\ Spared id (wh_net n') /\ nt_reach decay eo initial (wh_net n').
Proof.
  induction 1 as [n|n lab n1 rest n2 Hst HP Hr IH]; intros bl Hb Hsp Hre; [split; [by eexists|done]|]. destruct Hst as [y t lb y' Hst|y t lb t' Hst Hch]; cbn [wh_both wh_net] in *.
  - eapply IH; [eapply bruns_snoc; [exact Hb|exact Hst|exact HP]|done|done].
  - eapply IH; [exact Hb| |by eapply nt_reach_step]. eapply spared_step; [exact Hst| |exact Hsp]. intros e ->.
    exact (C117_never_charged decode_block id_of_key me judge o po id root head lib top cid ch young dur now had peer Hdur HS Hpeer Hcps _ _ Hb (Hch e eq_refl)).
Qed.
Lemma whole_ends : (exists bl, bruns start bl x) /\ Spared id s /\ nt_reach decay eo initial s.
Proof. apply (whole_run _ _ _ Hrun []); [constructor|apply spared_init|by exists []]. Qed.

(** Whatever other peers do, a connection with the peer ends only because the peer or the network ends it: it is not the node
    that closes it. *)
Theorem C119_not_closed : forall lab x' s' c, hstep (Whole x s) lab (Whole x' s') -> c ∈ nt_open s -> cn_peer c = id -> c ∉ nt_open s' ->
  exists k, lab = HNet (NHangUp k) /\ nt_open s !! k = Some c.
Proof.
  intros lab x' s' c Hst Hc Hp Hn. destruct whole_ends as (_ & Hsp & _). revert Hp. inversion Hst as [y t lb y' Hb|y t lb t' Hb Hch]; subst; [done|]. intros Hp.
  destruct (spared_open id decay eo _ _ _ _ Hb Hsp Hc Hp Hn) as (k & -> & Hk). by exists k.
Qed.

(** The error handler is never told about it, charges nothing to it and never asks to disconnect it. *)
Theorem C119_not_charged : (forall e, (id, e) ∉ es_reports (nt_eh s)) /\ (forall t a e, EvError t id a e ∉ served_events (nt_eh s)) /\ id ∉ es_disc (nt_eh s).
Proof. destruct whole_ends as (_ & [[H1 _ H3 H4] _] & _). done. Qed.

Lemma no_touch a hist t later : host_to_itself id a (nt_eh s) -> served_events (nt_eh s) = hist ++ t :: later -> ledger_of decay (touches eo (ma_first a) hist) = None.
Proof.
  intros Hh Hse. destruct whole_ends as (_ & [HC _] & _).
  assert (Hno : forall u q b e, EvError u q (Some b) e ∈ hist -> ma_first b <> ma_first a).
  { intros u q b e Hin. assert (Hin' : EvError u q (Some b) e ∈ served_events (nt_eh s)) by (rewrite Hse; apply elem_of_app; by left).
    destruct (decide (q = id)) as [->|Hq]; [by destruct (cl_served _ _ HC _ _ _ Hin')|by eapply Hh]. }
  assert (Hall : forall t, t ∈ touches eo (ma_first a) hist -> exists u, t = TLook u).
  { intros t' Ht. unfold touches in Ht. apply elem_of_list_omap in Ht as (ev & Hin & He).
    destruct ev as [u q [b|] e|u b|u b]; simpl in He; try case_bool_decide; try done; injection He as <-; eauto. exfalso. eapply Hno; eauto. }
  unfold ledger_of. revert Hall. generalize (touches eo (ma_first a) hist). intros ts. induction ts as [|t' ts IH]; intros Hall; [done|].
  destruct (Hall t') as [u ->]; [left|]. simpl. apply IH. intros y Hy. apply Hall. by right.
Qed.
(** And a connection from its host is let in, unless other peers were charged with errors at that host: the gate's answer to a
    question about an address of that host is yes. *)
Theorem C119_let_in : forall i a r b, es_calls (nt_eh s) !! i = Some (ECall (KCanAddr a) (PDone r) b false) -> host_to_itself id a (nt_eh s) -> r = OutCan true.
Proof.
  intros i a r b Hi Hh. destruct whole_ends as (_ & _ & Hre). destruct (proj_reach _ _ _ _ _ (as_reach_nt _ _ _ _ Hre)) as [_ He]. fold (nt_eh s) in He.
  destruct (C74_right_answers _ _ _ _ _ _ _ _ He Hi) as [(hist & t & a' & later & Ha & Hse & ->)|[[[(p & [?|?]) _] _]|[? _]]]; [|discriminate..]. cbn in Ha. subst a'.
  unfold gate_answer. by rewrite (no_touch _ _ _ _ Hh Hse).
Qed.
(** The score the node gives for it is zero, under the same condition for the addresses it was looked up with. *)
Theorem C119_no_score : forall i r b, es_calls (nt_eh s) !! i = Some (ECall (KScore id) (PDone r) b false) ->
  (forall a, (i, a) ∈ es_found (nt_eh s) -> host_to_itself id a (nt_eh s)) -> r = OutScore 0.
Proof.
  intros i r b Hi Hh. destruct whole_ends as (_ & _ & Hre). destruct (proj_reach _ _ _ _ _ (as_reach_nt _ _ _ _ Hre)) as [_ He]. fold (nt_eh s) in He.
  destruct (C74_right_answers _ _ _ _ _ _ _ _ He Hi) as [(hist & t & a' & later & Ha & Hse & ->)|[[[_ H] _]|[? _]]]; [|done|discriminate].
  unfold score_answer. by rewrite (no_touch _ _ _ _ (Hh _ Ha) Hse).
Qed.
End stays.
Print Assumptions C119_not_closed.
Print Assumptions C119_not_charged.
Print Assumptions C119_let_in.
Print Assumptions C119_no_score.

(** The peer "p" behaves as in the example of C117.  Another peer "q" at another host is reported and cut off; the connection
    of "p" stays, and its host is let in again. *)
Definition host2 : maddr := Maddr "/ip4/2.2.2.2" ["/tcp/1"].
Definition q_cut : list nlabel := nstart ++ nconnect 0 "p" host1 ++ nconnect 1 "q" host2 ++ nreport "q" 0 ++ [NAs (AErrAnswer 5)] ++ ncut ++ nask 2 host1b.
Section lift.
Context (decode_block : string -> option block) (id_of_key : string -> outcome string) (me : string).
Context (judge : blk -> option goerr) (o : ap_opts) (po : pc_opts) (id : string) (decay : N -> Z -> N) (eo : eh_opts) (P : both -> blabel -> both -> Prop).
Notation hruns := (hruns decode_block id_of_key me judge o po id decay eo P).
Lemma both_lift x l x' s : bruns decode_block id_of_key me judge o po id P x l x' -> hruns (Whole x s) (map HBoth l) (Whole x' s).
Proof. induction 1 as [y|y lb y1 rest y2 Hs Hp Hr IH]; cbn [map]; [constructor|]. eapply hr_cons; [by apply hs_both|exact Hp|exact IH]. Qed.
Definition silent_b (lab : nlabel) : bool := match lab with NAs (AEh (XReport p _)) => negb (bool_decide (p = id)) | _ => true end.
Lemma net_lift l : forall x s s', nt_run decay eo s l = Some s' -> forallb silent_b l = true -> hruns (Whole x s) (map HNet l) (Whole x s').
Proof.
  induction l as [|lab l IH]; intros x s s' H Hb; cbn [nt_run] in H; [injection H as <-; constructor|]. destruct (nt_step decay eo s lab) as [s1|] eqn:E; [|discriminate H].
  cbn [forallb] in Hb. apply andb_true_iff in Hb as [Hb1 Hb2]. cbn [map]. eapply hr_cons; [apply hs_net; [exact E|]|exact I|by apply IH].
  intros e ->. cbn [silent_b] in Hb1. by rewrite bool_decide_true in Hb1.
Qed.
Lemma hruns_app n1 l1 n2 l2 n3 : hruns n1 l1 n2 -> hruns n2 l2 n3 -> hruns n1 (l1 ++ l2) n3.
Proof. induction 1; cbn [app]; [done|]. intros H'. eapply hr_cons; [done|done|by apply IHhruns]. Qed.
End lift.
Example C119_nonvacuous : exists labs x s, let runs := hruns decode2 id_of2 "me" has_bad roomy small_batches "p" demo_decay eh_defaults behaved3 in
  good_dur five_min /\ sound_setting has_bad roomy small_batches at_ten 10 10 13 nth_block 10 /\ checked small_batches nth_block (bo_comp first_both) /\
  runs (Whole first_both (nt_init ["s"])) labs (Whole x s) /\
  told x = [("p", "twelve", Some (true, [])); ("cat", "junk", Some (false, [("cat", EWrap (ESent ErrDeserialization))])); ("p", "eleven", Some (true, [])); ("p", "eleven", Some (false, []))]%string /\
  nt_open s = [Conn "p" host1 0] /\ EvError 5 "q" (Some host2) (ESent ErrChainIDMismatch) ∈ served_events (nt_eh s) /\
  es_calls (nt_eh s) !! 2 = Some (ECall (KCanAddr host1b) (PDone (OutCan true)) (Some (OutCan true)) false) /\ host_to_itself "p" host1b (nt_eh s).
Proof.
  destruct C117_nonvacuous as (l1 & x1 & l2 & x2 & H1 & H2 & H3 & R1 & _ & _ & R2 & _ & _ & _ & _ & _ & _ & _ & Ht).
  assert (Hn : option_map (fun s => (nt_open s, served_events (nt_eh s), es_calls (nt_eh s) !! 2)) (nt_demo q_cut) =
    Some ([Conn "p" host1 0], [EvCanConnect 0 host1; EvCanConnect 0 host2; EvError 5 "q" (Some host2) (ESent ErrChainIDMismatch); EvCanConnect 0 host1b],
      Some (ECall (KCanAddr host1b) (PDone (OutCan true)) (Some (OutCan true)) false))) by (vm_compute; reflexivity).
  destruct (nt_demo q_cut) as [s|] eqn:En; [|discriminate Hn]. cbn [option_map] in Hn. injection Hn as N1 N2 N3.
  exists (map HBoth l1 ++ map HNet q_cut ++ map HBoth l2), x2, s. cbv zeta. split; [exact H1|]. split; [exact H2|]. split; [exact H3|]. split.
  { eapply hruns_app; [apply both_lift; exact R1|]. eapply hruns_app; [apply net_lift; [exact En|vm_compute; reflexivity]|]. apply both_lift. exact R2. }
  split; [exact Ht|]. split; [exact N1|]. split; [rewrite N2; right; right; left|]. split; [exact N3|].
  intros t q a' e Hin Hq. rewrite N2, !elem_of_cons, elem_of_nil in Hin. destruct Hin as [Hin|[Hin|[Hin|[Hin|[]]]]]; try discriminate Hin. injection Hin as _ _ -> _. discriminate.
Qed.
Print Assumptions C119_nonvacuous.
