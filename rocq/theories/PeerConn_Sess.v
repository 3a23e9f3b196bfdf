(** Invariants of sessions. *)
From Verif Require Import GoBase PeerConn_Model PeerConn_Spec PeerConn_Proofs.
From stdpp Require Import sorting.

Section session.
Context (o : pc_opts) (id : string) (env : environment).

(** Induction over reachable states *)
Lemma sruns_app s sched1 sched2 :
  sruns o id env s (sched1 ++ sched2) = match sruns o id env s sched1 with Some s' => sruns o id env s' sched2 | None => None end.
Proof. revert s. induction sched1 as [|lab r IH]; intros s; simpl; [done|]. destruct (sstep o id env s lab); [apply IH|done]. Qed.
Lemma sreach_ind (P : session -> Prop) :
  P (session_init o) ->
  (forall s lab s', sreach o id env s -> P s -> sstep o id env s lab = Some s' -> P s') ->
  forall s, sreach o id env s -> P s.
Proof.
  intros H0 Hstep s [sched Hs]. revert s Hs. induction sched as [|lab r IH] using rev_ind; intros s Hs.
  - injection Hs as <-. done.
  - rewrite sruns_app in Hs. destruct (sruns o id env (session_init o) r) as [s1|] eqn:H1; [|done].
    simpl in Hs. destruct (sstep o id env s1 lab) as [s2|] eqn:H2; [|done]. injection Hs as <-.
    eapply Hstep; [by exists r| |exact H2]. by apply IH.
Qed.

(** ** Every failure is reported, pending or dropped *)
Definition ctl_err (c : control) : list goerr := match c with SyReport e => [e] | _ => [] end.
Definition accounted (s : session) : Prop :=
  let L := rev (ss_log s) in
  failures L ≡ₚ map snd (reports L) ++ dropped L ++ ss_pend s ++ ctl_err (ss_ctl s) /\
  (dropped L <> [] -> ss_cancelled s = true) /\
  Forall (fun r => r.1 = id) (reports L).
Lemma failures_app l1 l2 : failures (l1 ++ l2) = failures l1 ++ failures l2.
Proof. apply omap_app. Qed.
Lemma reports_app l1 l2 : reports (l1 ++ l2) = reports l1 ++ reports l2.
Proof. apply omap_app. Qed.
Lemma dropped_app l1 l2 : dropped (l1 ++ l2) = dropped l1 ++ dropped l2.
Proof. apply omap_app. Qed.
Lemma sync_failures_app l1 l2 : sync_failures (l1 ++ l2) = sync_failures l1 ++ sync_failures l2.
Proof. apply omap_app. Qed.
Lemma sync_reports_app l1 l2 : sync_reports (l1 ++ l2) = sync_reports l1 ++ sync_reports l2.
Proof. apply omap_app. Qed.

Ltac sess_step Hst :=
  cbn [sstep] in Hst;
  repeat match type of Hst with
  | context [match ?x with _ => _ end] =>
    lazymatch x with
    | context [match _ with _ => _ end] => fail
    | _ => let E := fresh "E" in destruct x eqn:E; try discriminate Hst
    end
  end;
  try (injection Hst as <-).

Lemma accounted_reach s : sreach o id env s -> accounted s.
Proof.
  apply sreach_ind; clear s.
  - split; [done|]. split; [done|]. constructor.
  - intros [ctl syn n pend canc log] lab s' _ (Hp & Hd & Hi) Hst. unfold accounted in *. cbn [ss_log ss_pend ss_ctl ss_cancelled] in *.
    assert (Hdel : forall i e, pend !! i = Some e -> pend ≡ₚ e :: delete i pend).
    { intros i e He. by apply delete_Permutation. }
    destruct lab as [first|i|i|]; cbn [sstep] in Hst.
    + destruct ctl as [[[e|]| |q k]| |[[[e|] b]| |q k]|e|d| |]; try discriminate Hst;
        try (destruct first; [|destruct canc; [|discriminate Hst]]);
        try (destruct (wakes canc _) eqn:Hw; [|discriminate Hst]);
        injection Hst as <-; cbn [ss_log ss_pend ss_ctl ss_cancelled rev ctl_err] in *;
        rewrite <- ?app_assoc, ?failures_app, ?reports_app, ?dropped_app; simpl;
        rewrite ?app_nil_r in *; try (split; [done|split; done]);
        rewrite ?map_app; simpl; (split; [|split; [try done|try done]]).
      all: try (rewrite Hp; rewrite ?app_assoc; done).
      all: try (rewrite <- ?app_assoc; simpl; rewrite Hp; solve_Permutation || idtac).
      all: try (intros _; done).
      all: try (apply Forall_app; split; [done|]; repeat constructor).
    + destruct (pend !! i) as [e|] eqn:He; [|discriminate Hst]. injection Hst as <-.
      cbn [ss_log ss_pend ss_ctl ss_cancelled rev] in *. rewrite failures_app, reports_app, dropped_app. simpl. rewrite !app_nil_r, map_app.
      split; [|split; [done|]].
      * specialize (Hdel i e He). revert Hdel. generalize (delete i pend). intros pend' Hdel. rewrite Hp, Hdel. simpl. solve_Permutation.
      * apply Forall_app; split; [done|]; repeat constructor.
    + destruct (pend !! i) as [e|] eqn:He; [|discriminate Hst]. destruct canc; [|discriminate Hst]. injection Hst as <-.
      cbn [ss_log ss_pend ss_ctl ss_cancelled rev] in *. rewrite failures_app, reports_app, dropped_app. simpl. rewrite !app_nil_r.
      split; [|split; [done|done]]. specialize (Hdel i e He). revert Hdel. generalize (delete i pend). intros pend' Hdel. rewrite Hp, Hdel. simpl. solve_Permutation.
    + injection Hst as <-. cbn [ss_log ss_pend ss_ctl ss_cancelled rev] in *. rewrite failures_app, reports_app, dropped_app. simpl. rewrite !app_nil_r.
      split; [done|split; [done|done]].
Qed.

(** All the ways a main step can go, as rewriting of the log *)
Ltac main_cases ctl first canc Hst Hw :=
  destruct ctl as [[[e|]| |q k]| |[[[e|] b]| |q k]|e|d| |]; try discriminate Hst;
    try (destruct first; [|destruct canc; [|discriminate Hst]]);
    try (destruct (wakes canc _) eqn:Hw; [|discriminate Hst]);
    injection Hst as <-.

(** ** Sync reports are in order *)
Definition sync_out (l : list act) : list goerr :=
  omap (fun a => match a with AReport _ e FromSync | ADrop e FromSync => Some e | _ => None end) l.
Lemma sync_out_app l1 l2 : sync_out (l1 ++ l2) = sync_out l1 ++ sync_out l2.
Proof. apply omap_app. Qed.
Definition ordered (s : session) : Prop :=
  let L := rev (ss_log s) in
  sync_failures L = sync_out L ++ ctl_err (ss_ctl s) /\
  ((exists e, sync_out L = map snd (sync_reports L) ++ [e] /\ ss_ctl s = Stopped) \/ sync_out L = map snd (sync_reports L)).
Lemma ordered_reach s : sreach o id env s -> ordered s.
Proof.
  apply sreach_ind; clear s.
  - split; [done|]. by right.
  - intros [ctl syn n pend canc log] lab s' _ (Ho & Hd) Hst. unfold ordered in *. cbn [ss_log ss_ctl] in *.
    destruct lab as [first|i|i|]; cbn [sstep] in Hst.
    + assert (Hr : sync_out (rev log) = map snd (sync_reports (rev log)) \/ ctl = Stopped).
      { destruct Hd as [(e & _ & Hd)|Hd]; [by right|by left]. }
      main_cases ctl first canc Hst Hw; cbn [ss_log ss_ctl rev ctl_err] in *;
        rewrite <- ?app_assoc, ?sync_failures_app, ?sync_out_app, ?sync_reports_app; simpl;
        rewrite ?app_nil_r in *; (destruct Hr as [Hr|Hr]; [|discriminate Hr]); rewrite ?map_app; simpl;
        (split; [rewrite ?Ho; done|]); try (right; by rewrite ?Hr).
      left. eexists. by rewrite Hr.
    + destruct (pend !! i) as [e|] eqn:He; [|discriminate Hst]. injection Hst as <-.
      cbn [ss_log ss_ctl rev] in *. rewrite sync_failures_app, sync_out_app, sync_reports_app. simpl. by rewrite !app_nil_r.
    + destruct (pend !! i) as [e|] eqn:He; [|discriminate Hst]. destruct canc; [|discriminate Hst]. injection Hst as <-.
      cbn [ss_log ss_ctl rev] in *. rewrite sync_failures_app, sync_out_app, sync_reports_app. simpl. by rewrite !app_nil_r.
    + injection Hst as <-. cbn [ss_log ss_ctl rev] in *. rewrite sync_failures_app, sync_out_app, sync_reports_app. simpl. by rewrite !app_nil_r.
Qed.

(** ** Rounds *)
Fixpoint open_calls (acc : list event) (l : list act) : list event :=
  match l with
  | [] => acc
  | ACall e :: r => open_calls (acc ++ [e]) r
  | AHandshake _ :: r | ASync _ :: r => open_calls [] r
  | _ :: r => open_calls acc r
  end.
Lemma rounds_app acc l1 l2 : rounds acc (l1 ++ l2) = rounds acc l1 ++ rounds (open_calls acc l1) l2.
Proof. revert acc. induction l1 as [|a l1 IH]; intros acc; [done|]. destruct a; simpl; rewrite ?IH; done. Qed.
Lemma open_calls_app acc l1 l2 : open_calls acc (l1 ++ l2) = open_calls (open_calls acc l1) l2.
Proof. revert acc. induction l1 as [|a l1 IH]; intros acc; [done|]. destruct a; simpl; rewrite ?IH; done. Qed.

(** The rounds so far and the flag they leave: each round is a conversation of its own. *)
Inductive chain : list round -> bool -> Prop :=
| chain_nil : chain [] false
| chain_handshake rs b n tr res : chain rs b -> Forall (fun r => exists tr e, r = RHandshake tr (Some e)) rs ->
    run env n (handshake o) = (tr, Done res) -> chain (rs ++ [RHandshake tr res]) b
| chain_sync rs b n tr res b' : chain rs b -> 
    (exists rs' tr', rs = rs' ++ [RHandshake tr' None]) \/ (exists rs' tr' res', rs = rs' ++ [RSync tr' res']) ->
    run env n (request_sync o b) = (tr, Done (res, b')) -> chain (rs ++ [RSync tr res]) b'.
Definition ends_sync (rs : list round) : Prop := exists rs' tr' res', rs = rs' ++ [RSync tr' res'].
Definition ends_hs (rs : list round) (ok : bool) : Prop :=
  exists rs' tr' res', rs = rs' ++ [RHandshake tr' res'] /\ (ok = true <-> res' = None).
(** handshakes come first: no sync round before *)
Definition only_failed (rs : list round) : Prop := Forall (fun r => exists tr e, r = RHandshake tr (Some e)) rs.
Definition chained (s : session) : Prop :=
  let L := rev (ss_log s) in
  chain (rounds [] L) (ss_synced s) /\
  match ss_ctl s with
  | HsRun p => only_failed (rounds [] L) /\ exists n0, 
      run env n0 (handshake o) = (open_calls [] L ++ (run env (ss_calls s) p).1, (run env (ss_calls s) p).2)
  | HsPause => only_failed (rounds [] L) /\ ends_hs (rounds [] L) false /\ open_calls [] L = []
  | SyRun p => (ends_hs (rounds [] L) true \/ ends_sync (rounds [] L)) /\ exists n0, 
      run env n0 (request_sync o (ss_synced s)) = (open_calls [] L ++ (run env (ss_calls s) p).1, (run env (ss_calls s) p).2)
  | SyReport _ => ends_sync (rounds [] L) /\ open_calls [] L = []
  | SyPause d => ends_sync (rounds [] L) /\ open_calls [] L = [] /\ d = pause_of o (ss_synced s)
  | Stopped | Crashed => True
  end.
Lemma chained_same s s' (l : list act) :
  ss_ctl s = ss_ctl s' -> ss_synced s = ss_synced s' -> ss_calls s = ss_calls s' -> ss_log s' = rev l ++ ss_log s ->
  Forall (fun a => is_activity a = false) l -> chained s -> chained s'.
Proof.
  intros H1 H2 H3 H4 Hl. unfold chained. rewrite <- H1, <- H2, <- H3, H4, rev_app_distr, rev_involutive.
  assert (Hx : forall acc, rounds acc l = [] /\ open_calls acc l = acc).
  { clear H4. induction Hl as [|a l Ha Hl IH]; intros acc; [done|]. destruct a; try discriminate Ha; apply IH. }
  rewrite rounds_app, open_calls_app. destruct (Hx (open_calls [] (rev (ss_log s)))) as [-> ->]. by rewrite app_nil_r.
Qed.

Lemma chained_reach s : sreach o id env s -> chained s.
Proof.
  apply sreach_ind; clear s.
  - split; [constructor|]. split; [constructor|]. exists 0. cbn [ss_log session_init rev open_calls app ss_calls]. by destruct (run env 0 (handshake o)).
  - intros [ctl syn n pend canc log] lab s' _ Hch Hst.
    destruct lab as [first|i|i|]; cbn [sstep] in Hst.
    + destruct Hch as (Hch & Hctl). cbn [ss_log ss_ctl ss_synced ss_calls] in *.
      main_cases ctl first canc Hst Hw; unfold chained; cbn [ss_log ss_ctl ss_synced ss_calls rev] in *;
        rewrite <- ?app_assoc, ?rounds_app, ?open_calls_app; cbn [app rounds open_calls]; rewrite ?app_nil_r.
      * destruct Hctl as (Hf & n0 & Hrun). cbn [run fst snd] in Hrun. rewrite app_nil_r in Hrun.
        split; [by econstructor|]. split; [apply Forall_app; split; [done|]; repeat constructor; eauto|].
        split; [|done]. eexists _, _, _. split; [done|]. done.
      * destruct Hctl as (Hf & n0 & Hrun). cbn [run fst snd] in Hrun. rewrite app_nil_r in Hrun.
        split; [by econstructor|]. split; [left; eexists _, _, _; split; [done|done]|]. exists n. by destruct (run env n (request_sync o syn)).
      * done.
      * split; [done|]. destruct Hctl as (Hf & n0 & Hrun). split; [done|]. exists n0. cbn [run] in Hrun.
        destruct (run env (S n) (k (env n q))) as [tr out]. cbn [fst snd] in *. rewrite <- app_assoc. exact Hrun.
      * split; [done|]. destruct Hctl as (Hf & _ & Hop). split; [done|]. exists n. rewrite Hop. by destruct (run env n (handshake o)).
      * done.
      * destruct Hctl as (Hf & n0 & Hrun). cbn [run fst snd] in Hrun. rewrite app_nil_r in Hrun.
        split; [|split; [eexists _, _, _; done|done]]. econstructor; [done| |done].
        destruct Hf as [(rs' & tr' & res' & -> & Hok)|Hf]; [left|by right]. rewrite (proj1 Hok eq_refl). eauto.
      * destruct Hctl as (Hf & n0 & Hrun). cbn [run fst snd] in Hrun. rewrite app_nil_r in Hrun.
        split; [|split; [eexists _, _, _; done|done]]. econstructor; [done| |done].
        destruct Hf as [(rs' & tr' & res' & -> & Hok)|Hf]; [left|by right]. rewrite (proj1 Hok eq_refl). eauto.
      * done.
      * split; [done|]. destruct Hctl as (Hf & n0 & Hrun). split; [done|]. exists n0. cbn [run] in Hrun.
        destruct (run env (S n) (k (env n q))) as [tr out]. cbn [fst snd] in *. rewrite <- app_assoc. exact Hrun.
      * destruct Hctl as (Hf & Hop). done.
      * done.
      * destruct Hctl as (Hf & Hop & _). split; [done|]. split; [by right|]. exists n. rewrite Hop. by destruct (run env n (request_sync o syn)).
      * done.
    + destruct (pend !! i) as [e|] eqn:He; [|discriminate Hst]. injection Hst as <-.
      eapply (chained_same _ _ [AReport id e FromHandshake]); [..|exact Hch]; [done..|by repeat constructor].
    + destruct (pend !! i) as [e|] eqn:He; [|discriminate Hst]. destruct canc; [|discriminate Hst]. injection Hst as <-.
      eapply (chained_same _ _ [ADrop e FromHandshake]); [..|exact Hch]; [done..|by repeat constructor].
    + injection Hst as <-. eapply (chained_same _ _ [ACancel]); [..|exact Hch]; [done..|by repeat constructor].
Qed.

(** ** Pauses *)
Definition pause_ok (l1 : list act) (d : Z) : Prop :=
  (d = po_retry o /\ ends_hs (rounds [] l1) false) \/
  (exists b, chain (rounds [] l1) b /\ ends_sync (rounds [] l1) /\ d = pause_of o b).
Definition pauses (s : session) : Prop :=
  forall l1 d l2, rev (ss_log s) = l1 ++ APause d :: l2 -> pause_ok l1 d.
Lemma snoc_split (l l1 l2 : list act) a x : l ++ [a] = l1 ++ x :: l2 ->
  (l2 = [] /\ l = l1 /\ a = x) \/ (exists l2', l2 = l2' ++ [a] /\ l = l1 ++ x :: l2').
Proof.
  destruct l2 as [|y l2 _] using rev_ind; intros H.
  - left. by apply app_inj_tail in H as [-> ->].
  - right. rewrite app_comm_cons, app_assoc in H. apply app_inj_tail in H as [-> ->]. eauto.
Qed.
Lemma pauses_reach s : sreach o id env s -> pauses s.
Proof.
  apply sreach_ind; clear s.
  - intros l1 d l2 H. by destruct l1.
  - intros s lab s' Hreach Hp Hst. pose proof (chained_reach s Hreach) as Hch.
    assert (Hch' : chained s').
    { apply chained_reach. destruct Hreach as [sched Hs]. exists (sched ++ [lab]). rewrite sruns_app, Hs. simpl. by rewrite Hst. }
    destruct s as [ctl syn n pend canc log].
    assert (Hplain : forall l, ss_log s' = rev l ++ log -> Forall (fun a => match a with APause _ => False | _ => True end) l -> pauses s').
    { intros l Hl Hf l1 d l2. rewrite Hl, rev_app_distr, rev_involutive. cbn [ss_log].
      clear Hl. revert l2. induction l as [|a l IH] using rev_ind; intros l2 H.
      - rewrite app_nil_r in H. by eapply Hp.
      - apply Forall_app in Hf as [Hf Ha]. rewrite app_assoc in H. apply snoc_split in H as [(_ & _ & ->)|(l2' & _ & H)].
        + apply Forall_cons in Ha as [[] _].
        + by eapply IH. }
    assert (Hpause : forall l d0, ss_log s' = APause d0 :: rev l ++ log -> Forall (fun a => match a with APause _ => False | _ => True end) l ->
      pause_ok (rev log ++ l) d0 -> pauses s').
    { intros l d0 Hl Hf Hok l1 d l2. rewrite Hl. cbn [rev]. rewrite rev_app_distr, rev_involutive.
      intros H. apply snoc_split in H as [(_ & <- & [= ->])|(l2' & _ & H)]; [done|].
      clear Hplain Hl Hok. revert l2' H. induction l as [|a l IH] using rev_ind; intros l2' H.
      - rewrite app_nil_r in H. by eapply Hp.
      - apply Forall_app in Hf as [Hf Ha]. rewrite app_assoc in H. apply snoc_split in H as [(_ & _ & ->)|(l3 & _ & H)].
        + apply Forall_cons in Ha as [[] _].
        + by eapply IH. }
    destruct lab as [first|i|i|]; cbn [sstep] in Hst.
    + main_cases ctl first canc Hst Hw; cbn [ss_log] in *;
        first [ by apply (Hplain []) | by eapply (Hplain [_]); [done|repeat constructor] | idtac ].
      * apply (Hpause [AHandshake (Some e)] (po_retry o)); [done|repeat constructor|].
        left. split; [done|]. rewrite rounds_app. cbn [rounds]. eexists _, _, _. split; [done|]. done.
      * apply (Hpause [ASync None] (pause_of o b)); [done|repeat constructor|].
        right. exists b. destruct Hch' as [Hch' (Hx & _)]. cbn [ss_log ss_synced ss_ctl rev] in *.
        rewrite <- ?app_assoc, rounds_app in *. cbn [app rounds] in *. done.
      * apply (Hpause [AReport id e FromSync] (pause_of o syn)); [done|repeat constructor|].
        right. exists syn. destruct Hch' as [Hch' (Hx & _)]. cbn [ss_log ss_synced ss_ctl rev] in *.
        rewrite <- ?app_assoc, rounds_app in *. cbn [app rounds] in *. done.
    + destruct (pend !! i) as [e|] eqn:He; [|discriminate Hst]. injection Hst as <-. by eapply (Hplain [_]); [done|repeat constructor].
    + destruct (pend !! i) as [e|] eqn:He; [|discriminate Hst]. destruct canc; [|discriminate Hst]. injection Hst as <-. by eapply (Hplain [_]); [done|repeat constructor].
    + injection Hst as <-. by eapply (Hplain [_]); [done|repeat constructor].
Qed.

(** ** After cancellation *)
Definition resting (c : control) : Prop :=
  match c with HsPause | SyReport _ | Stopped | Crashed => True | SyPause d => (0 < d)%Z | _ => False end.
Definition quiet (s : session) : Prop :=
  forall l1 m1 a m2, rev (ss_log s) = l1 ++ ACancel :: m1 ++ a :: m2 -> is_final_end a = true ->
    Forall (fun x => is_activity x = false) m2 /\ resting (ss_ctl s) /\ ss_cancelled s = true.
Lemma pause_pos b : (0 < po_sleep o)%Z -> (0 < pause_of o b)%Z.
Proof. destruct b; simpl; [done|]. intros _. done. Qed.
Lemma quiet_reach s : (0 < po_retry o)%Z -> (0 < po_sleep o)%Z -> sreach o id env s -> quiet s /\ (In ACancel (ss_log s) -> ss_cancelled s = true).
Proof.
  intros Hretry Hsleep. apply (sreach_ind (fun s => quiet s /\ (In ACancel (ss_log s) -> ss_cancelled s = true))); clear s.
  - split; [|done]. intros l1 m1 a m2 H. by destruct l1.
  - intros s lab s' _ [Hq Hcan] Hst. destruct s as [ctl syn n pend canc log]. unfold quiet in Hq. cbn [ss_log ss_ctl ss_cancelled] in *.
    (* the new entries of the log *)
    assert (Hgen : forall l, ss_log s' = rev l ++ log ->
      (ss_cancelled s' = canc \/ ss_cancelled s' = true) ->
      (resting ctl -> canc = true -> resting (ss_ctl s') /\ Forall (fun x => is_activity x = false) l) ->
      (forall p a q, l = p ++ a :: q -> is_final_end a = true -> resting (ss_ctl s') /\ Forall (fun x => is_activity x = false) q /\ Forall (fun x => x <> ACancel) l) ->
      quiet s').
    { intros l Hl Hcc Hrest Hnew l1 m1 a m2 Heq Ha. rewrite Hl, rev_app_distr, rev_involutive in Heq.
      (* where is [a]? *)
      rewrite app_comm_cons, app_assoc in Heq.
      destruct (decide (length (rev log) <= length (l1 ++ ACancel :: m1))) as [Hlen|Hlen].
      - assert (Hx : exists p, l1 ++ ACancel :: m1 = rev log ++ p /\ l = p ++ a :: m2).
        { exists (drop (length (rev log)) (l1 ++ ACancel :: m1)).
          assert (Ht : take (length (rev log)) (l1 ++ ACancel :: m1) = rev log).
          { apply (f_equal (take (length (rev log)))) in Heq. rewrite take_app in Heq.
            rewrite take_app_le in Heq by done. done. }
          split; [rewrite <- Ht at 1; by rewrite take_drop|].
          apply (f_equal (drop (length (rev log)))) in Heq. rewrite drop_app in Heq. rewrite drop_app_le in Heq by done. done. }
        destruct Hx as (p & Hp1 & Hp2). destruct (Hnew p a m2 Hp2 Ha) as (H1 & H2 & H3).
        split; [done|]. split; [done|].
        assert (Hcin : In ACancel (rev log)).
        { assert (In ACancel (l1 ++ ACancel :: m1)) as Hin by (apply in_or_app; right; by left). rewrite Hp1 in Hin.
          apply in_app_or in Hin as [Hin|Hin]; [done|]. exfalso. rewrite Hp2 in H3. apply Forall_app in H3 as [H3 _].
          rewrite Forall_forall in H3. apply elem_of_list_In in Hin. by apply (H3 _ Hin). }
        rewrite <- in_rev in Hcin. specialize (Hcan Hcin). destruct Hcc as [-> | ->]; done.
      - assert (Hx : exists q, m2 = q ++ l /\ rev log = (l1 ++ ACancel :: m1) ++ a :: q).
        { assert (Hlen2 : length ((l1 ++ ACancel :: m1) ++ [a]) <= length (rev log)) by (rewrite app_length; cbn [length]; lia).
          exists (drop (length ((l1 ++ ACancel :: m1) ++ [a])) (rev log)).
          replace ((l1 ++ ACancel :: m1) ++ a :: m2) with (((l1 ++ ACancel :: m1) ++ [a]) ++ m2) in Heq by (rewrite <- app_assoc; done).
          assert (Ht : take (length ((l1 ++ ACancel :: m1) ++ [a])) (rev log) = (l1 ++ ACancel :: m1) ++ [a]).
          { apply (f_equal (take (length ((l1 ++ ACancel :: m1) ++ [a])))) in Heq. rewrite take_app in Heq.
            rewrite take_app_le in Heq by done. done. }
          split.
          - apply (f_equal (drop (length ((l1 ++ ACancel :: m1) ++ [a])))) in Heq. rewrite drop_app in Heq.
            rewrite drop_app_le in Heq by done. done.
          - replace ((l1 ++ ACancel :: m1) ++ a :: drop (length ((l1 ++ ACancel :: m1) ++ [a])) (rev log))
              with (((l1 ++ ACancel :: m1) ++ [a]) ++ drop (length ((l1 ++ ACancel :: m1) ++ [a])) (rev log)) by (rewrite <- app_assoc; done).
            rewrite <- Ht at 1. by rewrite take_drop. }
        destruct Hx as (q & -> & Hq2). rewrite <- app_assoc in Hq2. cbn [app] in Hq2.
        destruct (Hq l1 m1 a q Hq2 Ha) as (H1 & H2 & H3). destruct (Hrest H2 H3) as [H4 H5].
        split; [by apply Forall_app|]. split; [done|]. destruct Hcc as [-> | ->]; done. }
    assert (Hone : forall (x : act) p a q, [x] = p ++ a :: q -> p = [] /\ x = a /\ q = []).
    { intros x p a q H. destruct p as [|y p]; [by injection H as -> ->|]. by destruct p. }
    assert (Htwo : forall (x y : act) p a q, [x; y] = p ++ a :: q -> (p = [] /\ x = a /\ q = [y]) \/ (p = [x] /\ y = a /\ q = [])).
    { intros x y p a q H. destruct p as [|z p]; [left; by injection H as -> ->|right].
      injection H as <- H. destruct p as [|z' p]; [by injection H as -> ->|]. by destruct p. }
    destruct lab as [first|i|i|]; cbn [sstep] in Hst.
    + split.
      2: { main_cases ctl first canc Hst Hw; cbn [ss_log ss_cancelled] in *; intros Hin; apply Hcan;
           repeat (destruct Hin as [Hin|Hin]; [discriminate Hin|]); done. }
      main_cases ctl first canc Hst Hw; cbn [ss_log ss_cancelled ss_ctl] in *.
      * apply (Hgen [AHandshake (Some e); APause (po_retry o)]); [done|by left|done|].
        intros p a q H Ha. split; [done|]. apply Htwo in H as [(-> & <- & ->)|(-> & <- & ->)]; [|discriminate Ha]. split; repeat constructor; done.
      * apply (Hgen [AHandshake None]); [done|by left|done|].
        intros p a q H Ha. apply Hone in H as (-> & <- & ->). discriminate Ha.
      * apply (Hgen []); [done|by left|done|]. intros p a q H. by destruct p.
      * apply (Hgen [ACall (Ev q (env n q))]); [done|by left|done|].
        intros p a q' H Ha. apply Hone in H as (-> & <- & ->). discriminate Ha.
      * apply (Hgen []); [done|by left| |intros p a q H; by destruct p].
        intros _ ->. unfold wakes in Hw. simpl in Hw. apply bool_decide_eq_true in Hw. lia.
      * apply (Hgen []); [done|by left|done|]. intros p a q H. by destruct p.
      * apply (Hgen [ASync (Some e)]); [done|by left|done|].
        intros p a q H Ha. apply Hone in H as (-> & <- & ->). split; [done|]. split; repeat constructor; done.
      * apply (Hgen [ASync None; APause (pause_of o b)]); [done|by left|done|].
        intros p a q H Ha. split; [by apply pause_pos|]. apply Htwo in H as [(-> & <- & ->)|(-> & <- & ->)]; [|discriminate Ha]. split; repeat constructor; done.
      * apply (Hgen []); [done|by left|done|]. intros p a q H. by destruct p.
      * apply (Hgen [ACall (Ev q (env n q))]); [done|by left|done|].
        intros p a q' H Ha. apply Hone in H as (-> & <- & ->). discriminate Ha.
      * apply (Hgen [AReport id e FromSync; APause (pause_of o syn)]); [done|by left| |].
        -- intros _ _. split; [by apply pause_pos|]. repeat constructor.
        -- intros p a q H Ha. apply Htwo in H as [(-> & <- & ->)|(-> & <- & ->)]; discriminate Ha.
      * apply (Hgen [ADrop e FromSync]); [done|by left| |].
        -- intros _ _. split; [done|]. repeat constructor.
        -- intros p a q H Ha. apply Hone in H as (-> & <- & ->). discriminate Ha.
      * apply (Hgen []); [done|by left| |intros p a q H; by destruct p].
        intros Hd ->. unfold wakes in Hw. simpl in Hw, Hd. apply bool_decide_eq_true in Hw. lia.
      * apply (Hgen []); [done|by left|done|]. intros p a q H. by destruct p.
    + destruct (pend !! i) as [e|] eqn:He; [|discriminate Hst]. injection Hst as <-. cbn [ss_log ss_cancelled ss_ctl] in *. split.
      * apply (Hgen [AReport id e FromHandshake]); [done|by left| |].
        -- intros H _. split; [done|]. repeat constructor.
        -- intros p a q H Ha. apply Hone in H as (-> & <- & ->). discriminate Ha.
      * intros [H|H]; [discriminate H|by apply Hcan].
    + destruct (pend !! i) as [e|] eqn:He; [|discriminate Hst]. destruct canc; [|discriminate Hst]. injection Hst as <-. cbn [ss_log ss_cancelled ss_ctl] in *. split; [|done].
      apply (Hgen [ADrop e FromHandshake]); [done|by left| |].
      * intros H _. split; [done|]. repeat constructor.
      * intros p a q H Ha. apply Hone in H as (-> & <- & ->). discriminate Ha.
    + injection Hst as <-. cbn [ss_log ss_cancelled ss_ctl] in *. split; [|done].
      apply (Hgen [ACancel]); [done|by right| |].
      * intros H _. split; [done|]. repeat constructor.
      * intros p a q H Ha. apply Hone in H as (-> & <- & ->). discriminate Ha.
Qed.

(** ** Termination after cancellation *)
Definition all_stop (c : control) : Prop := forall syn n pend log, Acc (progress o id env) (Session c syn n pend true log).
Lemma stop_lift (c : control) :
  (forall syn n pend log first s', sstep o id env (Session c syn n pend true log) (MStep first) = Some s' ->
     all_stop (ss_ctl s') /\ ss_cancelled s' = true) -> all_stop c.
Proof.
  intros Hm syn n pend. remember (length pend) as k eqn:Hk. revert pend Hk.
  induction k as [k IH] using lt_wf_ind. intros pend Hk log. constructor.
  intros s' (lab & Hne & Hst). destruct lab as [first|i|i|]; [| | |done].
  - destruct (Hm _ _ _ _ _ _ Hst) as [Ha Hc]. destruct s' as [c' syn' n' pend' canc' log']. cbn in *. subst canc'. apply Ha.
  - cbn [sstep] in Hst. destruct (pend !! i) as [e|] eqn:He; [|discriminate Hst]. injection Hst as <-.
    assert (Hlen : length (delete i pend) < k). { apply lookup_lt_Some in He as Hl. rewrite length_delete by eauto. lia. }
    by eapply IH.
  - cbn [sstep] in Hst. destruct (pend !! i) as [e|] eqn:He; [|discriminate Hst]. injection Hst as <-.
    assert (Hlen : length (delete i pend) < k). { apply lookup_lt_Some in He as Hl. rewrite length_delete by eauto. lia. }
    by eapply IH.
Qed.
Lemma stops : (0 < po_retry o)%Z -> (0 < po_sleep o)%Z ->
  forall c, (forall d, c = SyPause d -> (0 < d)%Z) -> all_stop c.
Proof.
  intros Hretry Hsleep.
  assert (H1 : all_stop Stopped) by (apply stop_lift; intros; discriminate).
  assert (H2 : all_stop Crashed) by (apply stop_lift; intros; discriminate).
  assert (Hw : forall d, (0 < d)%Z -> wakes true d = false).
  { intros d Hd. unfold wakes. simpl. apply bool_decide_eq_false. lia. }
  assert (H3 : forall d, (0 < d)%Z -> all_stop (SyPause d)).
  { intros d Hd. apply stop_lift. intros syn n pend log first s' Hst. cbn [sstep] in Hst. rewrite Hw in Hst by done.
    destruct first; [discriminate Hst|]. injection Hst as <-. done. }
  assert (H4 : forall e, all_stop (SyReport e)).
  { intros e. apply stop_lift. intros syn n pend log first s' Hst. cbn [sstep] in Hst.
    destruct first; injection Hst as <-; cbn; [|done]. split; [|done]. apply H3. by apply pause_pos. }
  assert (H5 : forall p, all_stop (SyRun p)).
  { induction p as [[[e|] b]| |q k IH]; apply stop_lift; intros syn n pend log first s' Hst; cbn [sstep] in Hst; injection Hst as <-; cbn.
    - done.
    - split; [|done]. apply H3. by apply pause_pos.
    - done.
    - split; [|done]. apply IH. }
  assert (H6 : all_stop HsPause).
  { apply stop_lift. intros syn n pend log first s' Hst. cbn [sstep] in Hst. rewrite Hw in Hst by done.
    destruct first; [discriminate Hst|]. injection Hst as <-. done. }
  assert (H7 : forall p, all_stop (HsRun p)).
  { induction p as [[e|]| |q k IH]; apply stop_lift; intros syn n pend log first s' Hst; cbn [sstep] in Hst; injection Hst as <-; cbn.
    - done.
    - done.
    - done.
    - split; [|done]. apply IH. }
  intros c Hc. destruct c; [apply H7|apply H6|apply H5|apply H4|apply H3; by apply Hc|apply H1|apply H2].
Qed.
End session.
