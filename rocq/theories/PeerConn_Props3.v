(** C51, C70 and the pause half of C49: whole sessions with a peer, any number of rounds. *)
From Verif Require Import GoBase ErrHandler_Model PeerConn_Model PeerConn_Spec PeerConn_Proofs PeerConn_Props PeerConn_Props2 PeerConn_Sess.

(** ** C51, reports *)
(** Every failure is reported at most once, only failures are reported, only against this peer, and a failure
    that is not reported is still waiting to be or was dropped because the session was cancelled. *)
Theorem C51_exactly_once (o : pc_opts) (id : string) (env : environment) (s : session) : sreach o id env s ->
  let L := rev (ss_log s) in
  (exists waiting, failures L ≡ₚ map snd (reports L) ++ dropped L ++ waiting /\
     (waiting <> [] -> exists s' lab, lab <> MCancel /\ sstep o id env s lab = Some s' /\
        length (reports (rev (ss_log s'))) = S (length (reports L)))) /\
  (dropped L <> [] -> ss_cancelled s = true) /\
  Forall (fun r => fst r = id) (reports L).
Proof.
  intros Hr L. destruct (accounted_reach o id env s Hr) as (Hp & Hd & Hid). fold L in Hp, Hd, Hid.
  split; [|done]. exists (ss_pend s ++ ctl_err (ss_ctl s)). split; [exact Hp|].
  intros Hne. destruct s as [ctl syn n pend canc log]. cbn [ss_pend ss_ctl] in *.
  destruct pend as [|e pend].
  - destruct ctl as [| | |e| | |]; try done.
    eexists _, (MStep true). split; [done|]. split; [reflexivity|]. cbn [ss_log rev]. subst L. cbn [ss_log].
    rewrite !reports_app, !app_length. cbn. lia.
  - eexists _, (MDeliver 0). split; [done|]. split; [reflexivity|]. cbn [ss_log rev]. subst L. cbn [ss_log].
    rewrite !reports_app, !app_length. cbn. lia.
Qed.

(** Once nothing is waiting, an uncancelled session has reported exactly its failures. *)
Theorem C51_all_reported (o : pc_opts) (id : string) (env : environment) (s : session) : sreach o id env s ->
  ss_cancelled s = false -> ss_pend s = [] -> (forall e, ss_ctl s <> SyReport e) ->
  map snd (reports (rev (ss_log s))) ≡ₚ failures (rev (ss_log s)).
Proof.
  intros Hr Hc Hp Hs. destruct (accounted_reach o id env s Hr) as (Ha & Hd & _).
  rewrite Ha, Hp. assert (Hdr : dropped (rev (ss_log s)) = []).
  { destruct (dropped (rev (ss_log s))); [done|]. rewrite Hd in Hc by done. discriminate Hc. }
  rewrite Hdr. assert (Hce : ctl_err (ss_ctl s) = []). { destruct (ss_ctl s); try done. by destruct (Hs e). }
  by rewrite Hce, !app_nil_r.
Qed.

(** Full statement: the reports are the failures in the order in which they happened. *)
Definition C51_in_order_statement : Prop := forall (o : pc_opts) (id : string) (env : environment) (s : session), sreach o id env s ->
  ss_cancelled s = false -> ss_pend s = [] -> (forall e, ss_ctl s <> SyReport e) ->
  map snd (reports (rev (ss_log s))) = failures (rev (ss_log s)).

(** The first handshake fails because of the peer's protocol version, the second because of its chain id.  The
    two goroutines that report these errors are scheduled in the other order. *)
Definition two_reasons (n : nat) (q : req) : resp q :=
  match q with
  | QVersion => if bool_decide (n = 0) then (""%string, Some (ESent ErrProtocolMismatch)) else friendly (Some "five") QVersion
  | QPeerChainID t => (Some "other", None)
  | q => friendly (Some "five") q
  end.
Definition swapped_schedule : list slabel :=
  [MStep true; MStep true; MStep true; MStep true; MStep true; MStep true; MStep true; MDeliver 1; MDeliver 0].
Theorem C51_in_order_refuted : ~ C51_in_order_statement.
Proof.
  intros H.
  destruct (sruns pc_defaults "peer" two_reasons (session_init pc_defaults) swapped_schedule) as [s|] eqn:Hs; [|vm_compute in Hs; discriminate Hs].
  specialize (H pc_defaults "peer" two_reasons s (ex_intro _ _ Hs)).
  assert (Hf : ss_cancelled s = false /\ ss_pend s = [] /\ ss_ctl s = HsPause /\
    map snd (reports (rev (ss_log s))) <> failures (rev (ss_log s))).
  { vm_compute in Hs. injection Hs as <-. vm_compute. repeat (split; [done|]). discriminate. }
  destruct Hf as (H1 & H2 & H3 & H4). apply H4, H; [done..|]. intros e He. rewrite H3 in He. discriminate He.
Qed.

(** The failures of sync rounds are reported in order, each before the next round starts: at any time the
    reports are the failures so far, except for at most the latest one. *)
Theorem C51_sync_in_order_partial (o : pc_opts) (id : string) (env : environment) (s : session) : sreach o id env s ->
  let L := rev (ss_log s) in
  exists last, sync_failures L = map snd (sync_reports L) ++ last /\ length last <= 1 /\
    (last <> [] -> (exists e, ss_ctl s = SyReport e) \/ (ss_ctl s = Stopped)).
Proof.
  intros Hr L. destruct (ordered_reach o id env s Hr) as (Ho & Hd). fold L in Ho, Hd.
  destruct Hd as [(e & Hd & Hctl)|Hd].
  - exists [e]. rewrite Ho, Hctl, Hd. cbn [ctl_err]. rewrite app_nil_r. split; [done|]. split; [done|]. intros _. by right.
  - exists (ctl_err (ss_ctl s)). rewrite Ho, Hd. split; [done|].
    destruct (ss_ctl s) as [| | |e| | |]; cbn; (split; [lia|]); try done. intros _. left. by eexists.
Qed.

(** ** C51, order of rounds *)
Lemma chain_rounds (o : pc_opts) (env : environment) rs b : chain o env rs b -> rounds_in_order rs /\ Forall (genuine o env) rs.
Proof.
  induction 1 as [|rs b n tr res Hc [IH1 IH2] Hf Hrun|rs b n tr res b' Hc [IH1 IH2] Hprev Hrun].
  - split; [|constructor]. exists [], []. split; [done|]. split; [constructor|by left].
  - split.
    + destruct res as [e|].
      * exists (rs ++ [RHandshake tr (Some e)]), []. rewrite app_nil_r. split; [done|]. split; [|by left].
        apply Forall_app. split; [done|]. constructor; [by eexists _, _|constructor].
      * exists rs, [RHandshake tr None]. split; [done|]. split; [done|]. right. exists tr, []. done.
    + apply Forall_app. split; [done|]. constructor; [by exists n|constructor].
  - split.
    + destruct IH1 as (fails & rest & -> & Hf & [-> | (tr0 & syncs & -> & Hs)]).
      * exfalso. rewrite app_nil_r in Hprev.
        destruct Hprev as [(rs' & tr' & ->)|(rs' & tr' & res' & ->)]; apply Forall_app in Hf as [_ Hf];
          apply Forall_cons in Hf as [(? & ? & Hf) _]; discriminate Hf.
      * exists fails, (RHandshake tr0 None :: syncs ++ [RSync tr res]). rewrite <- app_assoc. split; [done|]. split; [done|].
        right. exists tr0, (syncs ++ [RSync tr res]). split; [done|]. apply Forall_app. split; [done|]. constructor; [by eexists _, _|constructor].
    + apply Forall_app. split; [done|]. constructor; [by exists n, b, b'|constructor].
Qed.
Theorem C51_sync_only_after_handshake (o : pc_opts) (id : string) (env : environment) (s : session) : sreach o id env s ->
  rounds_in_order (rounds [] (rev (ss_log s))) /\ Forall (genuine o env) (rounds [] (rev (ss_log s))).
Proof. intros Hr. destruct (chained_reach o id env s Hr) as [Hc _]. by eapply chain_rounds. Qed.

(** ** C51, cancellation *)
(** Full statement: after the cancellation the session sends no more requests and finishes no round. *)
Definition C51_cancel_statement : Prop := forall (o : pc_opts) (id : string) (env : environment) (s : session) l1 l2, sreach o id env s ->
  (0 < po_retry o)%Z -> (0 < po_sleep o)%Z ->
  rev (ss_log s) = l1 ++ ACancel :: l2 -> Forall (fun a => is_activity a = false) l2.
(** The context is not looked at between the successful handshake and the first sync round. *)
Theorem C51_cancel_refuted : ~ C51_cancel_statement.
Proof.
  intros H. pose (sched := [MStep true; MStep true; MStep true; MStep true; MStep true; MCancel; MStep true]).
  destruct (sruns pc_defaults "peer" (fun _ => friendly (Some "five")) (session_init pc_defaults) sched) as [s|] eqn:Hs; [|vm_compute in Hs; discriminate Hs].
  assert (Hx : exists l1 e, rev (ss_log s) = l1 ++ ACancel :: [ACall e]).
  { vm_compute in Hs. injection Hs as <-. vm_compute. eexists [_; _; _; _; _], _. reflexivity. }
  destruct Hx as (l1 & e & Hl).
  specialize (H pc_defaults "peer" _ s l1 _ (ex_intro _ _ Hs) eq_refl eq_refl Hl).
  apply Forall_cons in H as [H _]. discriminate H.
Qed.
(** At most the round in progress, or the first sync round after a handshake, is finished: once a handshake
    has failed or a sync round has ended after the cancellation, nothing more is requested. *)
Theorem C51_cancel_partial (o : pc_opts) (id : string) (env : environment) (s : session) l1 m1 a m2 : sreach o id env s ->
  (0 < po_retry o)%Z -> (0 < po_sleep o)%Z ->
  rev (ss_log s) = l1 ++ ACancel :: m1 ++ a :: m2 -> is_final_end a = true ->
  Forall (fun x => is_activity x = false) m2.
Proof. intros Hr H1 H2 Hl Ha. destruct (quiet_reach o id env s H1 H2 Hr) as [Hq _]. by eapply Hq. Qed.

(** A session with a failed handshake, a successful one, a failing sync round and a good one *)
Definition bumpy (n : nat) (q : req) : resp q :=
  match q with
  | QVersion => if bool_decide (n = 0) then (""%string, Some (ESent ErrProtocolMismatch)) else friendly (Some "five") QVersion
  | QPeerHead t => if bool_decide (n = 6) then (None, 0%N, Some (ESent ErrPeerRPC)) else friendly (Some "five") (QPeerHead t)
  | q => serving_peer four_blocks (fun _ => None) q
  end.
Example C51_nonvacuous : exists s, sreach pc_defaults "peer" bumpy s /\ ss_cancelled s = false /\ ss_pend s = [] /\
  length (failures (rev (ss_log s))) = 2 /\ map fst (reports (rev (ss_log s))) = ["peer"; "peer"] /\
  length (rounds [] (rev (ss_log s))) = 4 /\
  omap (fun a => match a with APause d => Some d | _ => None end) (rev (ss_log s)) = [po_retry pc_defaults; second; po_sleep pc_defaults].
Proof.
  destruct (sruns pc_defaults "peer" bumpy (session_init pc_defaults) (MStep true :: MStep true :: MDeliver 0 :: repeat (MStep true) 21)) as [s|] eqn:Hs;
    [|vm_compute in Hs; discriminate Hs].
  exists s. split; [by eexists|]. clear -Hs. vm_compute in Hs. injection Hs as <-. vm_compute.
  repeat (split; [reflexivity|]). reflexivity.
Qed.

(** ** C49, pauses *)
Lemma chain_synced (o : pc_opts) (env : environment) rs b : env_u64 env -> chain o env rs b -> heights_below_head rs ->
  (b = true <-> synced_now o rs).
Proof.
  intros Hu. induction 1 as [|rs b n tr res Hc IH Hf Hrun|rs b n tr res b' Hc IH Hprev Hrun]; intros Hh.
  - split; [done|]. intros (pre & tr & post & Heq & _). by destruct pre.
  - apply Forall_app in Hh as [Hh _]. rewrite (IH Hh). split; intros (pre & tr0 & post & Heq & Hpost & Hs).
    + exists pre, tr0, (post ++ [RHandshake tr res]). rewrite Heq, <- app_assoc. split; [done|]. split; [|done].
      apply Forall_app. split; [done|]. constructor; [done|constructor].
    + destruct post as [|x post _] using rev_ind.
      * apply app_inj_tail in Heq as [_ Heq]. discriminate Heq.
      * rewrite app_comm_cons, app_assoc in Heq. apply app_inj_tail in Heq as [-> _].
        apply Forall_app in Hpost as [Hpost _]. by exists pre, tr0, post.
  - apply Forall_app in Hh as [Hh Hlast]. apply Forall_cons in Hlast as [Hlast _].
    destruct (C49_flag_partial o env n b tr res b' Hu Hrun Hlast) as [H1 H2].
    destruct res as [e|].
    + rewrite (H2 ltac:(done)), (IH Hh). split; intros (pre & tr0 & post & Heq & Hpost & Hs).
      * exists pre, tr0, (post ++ [RSync tr (Some e)]). rewrite Heq, <- app_assoc. split; [done|]. split; [|done].
        apply Forall_app. split; [done|]. constructor; [done|constructor].
      * destruct post as [|x post _] using rev_ind.
        -- apply app_inj_tail in Heq as [_ Heq]. discriminate Heq.
        -- rewrite app_comm_cons, app_assoc in Heq. apply app_inj_tail in Heq as [-> _].
           apply Forall_app in Hpost as [Hpost _]. by exists pre, tr0, post.
    + rewrite (H1 eq_refl). split.
      * intros Hs. exists rs, tr, []. done.
      * intros (pre & tr0 & post & Heq & Hpost & Hs). destruct post as [|x post _] using rev_ind.
        -- apply app_inj_tail in Heq as [_ Heq]. by injection Heq as ->.
        -- rewrite app_comm_cons, app_assoc in Heq. apply app_inj_tail in Heq as [_ <-].
           apply Forall_app in Hpost as [_ Hpost]. apply Forall_cons in Hpost as [Hpost _]. by destruct (Hpost tr).
Qed.
(** After a sync round the pause is SyncedSleepTime if the latest successful sync round found us synced and
    one second otherwise; after a failed handshake it is HandshakeRetryTime. *)
Theorem C49_pause_partial (o : pc_opts) (id : string) (env : environment) (s : session) l1 d l2 : env_u64 env -> sreach o id env s ->
  rev (ss_log s) = l1 ++ APause d :: l2 -> heights_below_head (rounds [] l1) ->
  (d = po_retry o /\ exists rs tr e, rounds [] l1 = rs ++ [RHandshake tr (Some e)]) \/
  ((exists rs tr res, rounds [] l1 = rs ++ [RSync tr res]) /\
   (synced_now o (rounds [] l1) -> d = po_sleep o) /\ (~ synced_now o (rounds [] l1) -> d = second)).
Proof.
  intros Hu Hr Hl Hh. destruct (pauses_reach o id env s Hr l1 d l2 Hl) as [(Hd & rs & tr & res & Heq & Hok)|(b & Hc & He & Hd)].
  - left. split; [done|]. destruct res as [e|]; [by exists rs, tr, e|]. by discriminate (proj2 Hok eq_refl).
  - right. split; [done|]. pose proof (chain_synced o env _ b Hu Hc Hh) as Hb. subst d. split.
    + intros Hs. by rewrite (proj2 Hb Hs).
    + intros Hs. destruct b; [|done]. by destruct Hs; apply Hb.
Qed.

(** ** C70 *)
(** After the cancellation the session makes only finitely many steps, whatever is answered and in whatever
    order the goroutines run, and it can only come to rest stopped, with no reporter left over. *)
Theorem C70_cancelled_session_ends (o : pc_opts) (id : string) (env : environment) (s : session) : sreach o id env s ->
  (0 < po_retry o)%Z -> (0 < po_sleep o)%Z -> ss_cancelled s = true ->
  Acc (progress o id env) s /\
  ((forall s', ~ progress o id env s' s) -> (ss_ctl s = Stopped \/ ss_ctl s = Crashed) /\ ss_pend s = []).
Proof.
  intros Hr H1 H2 Hc. pose proof (chained_reach o id env s Hr) as [_ Hch].
  destruct s as [ctl syn n pend canc log]. cbn [ss_cancelled ss_ctl ss_pend ss_synced] in *. subst canc. split.
  - apply stops; [done..|]. intros d ->. destruct Hch as (_ & _ & ->). by apply pause_pos.
  - intros Hno. split.
    + assert (Hx : forall first, sstep o id env (Session ctl syn n pend true log) (MStep first) = None).
      { intros first. destruct (sstep o id env (Session ctl syn n pend true log) (MStep first)) as [s'|] eqn:Hst; [|done].
        destruct (Hno s'). by exists (MStep first). }
      specialize (Hx false). destruct ctl as [[[e|]| |q k]| |[[[e|] b]| |q k]|e|d| |]; try discriminate Hx; [by left|by right].
    + destruct pend as [|e pend]; [done|]. edestruct Hno. exists (MDeliver 0). split; [done|]. reflexivity.
Qed.
Example C70_nonvacuous : exists s, sreach pc_defaults "peer" bumpy s /\ ss_cancelled s = true /\ length (ss_pend s) = 1 /\
  (0 < po_retry pc_defaults)%Z /\ (0 < po_sleep pc_defaults)%Z /\ exists s', progress pc_defaults "peer" bumpy s' s.
Proof.
  destruct (sruns pc_defaults "peer" bumpy (session_init pc_defaults) [MStep true; MStep true; MStep true; MStep true; MCancel]) as [s|] eqn:Hs;
    [|vm_compute in Hs; discriminate Hs].
  exists s. split; [by eexists|]. cbn in Hs. injection Hs as <-. cbn. repeat (split; [done|]).
  eexists. exists (MDeliver 0). split; [done|]. reflexivity.
Qed.

(** A session dies with the node when the peer sends a block without a header. *)
Example session_can_crash : exists s, sreach pc_defaults "peer" (fun _ => headless) s /\ ss_ctl s = Crashed.
Proof.
  destruct (sruns pc_defaults "peer" (fun _ => headless) (session_init pc_defaults) (repeat (MStep true) 13)) as [s|] eqn:Hs;
    [|vm_compute in Hs; discriminate Hs].
  exists s. split; [by eexists|]. vm_compute in Hs. injection Hs as <-. reflexivity.
Qed.
Print Assumptions C51_exactly_once.
Print Assumptions C51_all_reported.
Print Assumptions C51_in_order_refuted.
Print Assumptions C51_sync_in_order_partial.
Print Assumptions C51_sync_only_after_handshake.
Print Assumptions C51_cancel_refuted.
Print Assumptions C51_cancel_partial.
Print Assumptions C49_pause_partial.
Print Assumptions C70_cancelled_session_ends.
