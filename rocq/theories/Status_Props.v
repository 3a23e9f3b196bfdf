(** Property theorems C127: what others learn about the node: the announcements of the gossip status, and the version. *)
From Verif Require Import GoBase ConnMgr_Model ConnMgr_Spec Toggle_Model Switch_Model Switch_Spec Switch_Proofs Switch_Props Node_Model Status_Model Status_Spec.

Local Lemma queue_statuses marshal decode calls : decodes marshal decode ->
  map fst (queue_after marshal calls) = replicate (length (queue_after marshal calls)) "koinos.gossip.status" /\
  map (fun m => decode (snd m)) (queue_after marshal calls) = map fst (List.filter snd (map (fun c => (fst c, call_ok marshal c)) calls)).
Proof.
  intros Hd. induction calls as [|[b e] calls [IH1 IH2]]; [done|]. cbn [queue_after map List.filter fst snd]. unfold call_ok, broadcast_gossip_status.
  cbn [fst snd]. destruct (Hd b) as (d & -> & Hb). cbn [snd]. destruct e as [e|]; [by split|]. cbn [app map fst snd length replicate].
  rewrite Hb. split; f_equal; done.
Qed.
(** ** C127, the messages.  Whatever the run, the queue and its answers: the messages on the queue are on the topic, and they say, in
    order, exactly the statuses announced for which the queue did not return an error. *)
Theorem C127_messages : forall o initial existing s marshal decode calls, sw_reach o initial existing s -> decodes marshal decode ->
  calls_of (call_ok marshal) s calls ->
  Forall (fun m => fst m = "koinos.gossip.status") (queue_after marshal calls) /\ map (fun m => decode (snd m)) (queue_after marshal calls) = delivered s.
Proof.
  intros o initial existing s marshal decode calls _ Hd Hc. destruct (queue_statuses marshal decode calls Hd) as [H1 H2]. split.
  - clear -H1. induction (queue_after marshal calls) as [|m l IH]; [done|]. cbn [map length replicate] in H1. injection H1 as E H1. constructor; [done|by apply IH].
  - rewrite H2. unfold calls_of in Hc. rewrite <- Hc. unfold delivered. clear. induction (sw_status s) as [|[b k] l IH]; [done|].
    cbn [rev List.filter snd]. rewrite List.filter_app, map_app, IH. cbn [List.filter snd]. destruct k; cbn [map rev fst]; [done|by rewrite app_nil_r].
Qed.
Print Assumptions C127_messages.

(** ** C127, two ways to ask.  As long as Close is not called and every announcement got through: between two ticks, a service that reads
    the announcements and one that asks over RPC learn the same. *)
Theorem C127_listener_agrees : forall o initial existing s marshal decode calls unm mar data, sw_reach o initial existing s -> decodes marshal decode ->
  calls_of (call_ok marshal) s calls -> sw_close s = CNotCalled -> sw_tog s = TIdle \/ sw_tog s = TEnded -> Forall (fun c => snd c = None) calls ->
  unm data = inl PGossipStatus ->
  handle_rpc unm mar (sw_enabled s) data = mar (PStatus (believes decode (queue_after marshal calls))).
Proof.
  intros o initial existing s marshal decode calls unm mar data Hr Hd Hc Hcl Ht Hall Hu. unfold handle_rpc. rewrite Hu. cbn [handle_request]. do 2 f_equal.
  destruct (C87_announcements_partial _ _ _ _ Hr Hcl) as [_ He]. rewrite (He Ht).
  destruct (C127_messages _ _ _ _ _ _ _ Hr Hd Hc) as [Hm Hs].
  assert (Ed : delivered s = announcements s).
  { unfold delivered, announcements. do 2 f_equal. assert (Hk : Forall (fun x => x.2 = true) (sw_status s)).
    { apply Forall_rev in Hall. apply Forall_forall. intros x Hx. unfold calls_of in Hc. assert (Hin : x ∈ rev (sw_status s)) by (by apply elem_of_list_In, in_rev; rewrite rev_involutive; apply elem_of_list_In).
      rewrite Hc in Hin. apply elem_of_list_fmap in Hin as (c & -> & Hin). cbn [snd]. rewrite Forall_forall in Hall. unfold call_ok, broadcast_gossip_status.
      destruct (Hd (fst c)) as (d & -> & _). cbn [snd]. rewrite (Hall c) by (by apply elem_of_list_In, in_rev; rewrite rev_involutive; apply elem_of_list_In). done. }
    clear -Hk. induction (sw_status s) as [|[b k] l IH]; [done|]. apply Forall_cons in Hk as [Hk Hl]. cbn in *. rewrite Hk. f_equal. by apply IH. }
  rewrite <- Ed, <- Hs. unfold believes.
  assert (Ef : List.filter (fun m => bool_decide (fst m = "koinos.gossip.status")) (queue_after marshal calls) = queue_after marshal calls).
  { clear -Hm. induction (queue_after marshal calls) as [|m l IH]; [done|]. apply Forall_cons in Hm as [Hm Hl]. cbn [List.filter]. rewrite bool_decide_true by done. f_equal. by apply IH. }
  rewrite Ef. clear. rewrite fmap_last. by destruct (last (queue_after marshal calls)).
Qed.
Print Assumptions C127_listener_agrees.

(** ** C127, the version.  The version string names the build: two builds show the same exactly if the first eight bytes of their commits
    are the same or both have fewer. *)
Local Lemma append_inj_l a b c : Strings.String.append a b = Strings.String.append a c -> b = c.
Proof. induction a as [|x a IH]; cbn; [done|]. intros [= H]. by apply IH. Qed.
Local Lemma append_inj_len a b c d : Strings.String.length a = Strings.String.length b -> Strings.String.append a c = Strings.String.append b d -> a = b /\ c = d.
Proof.
  revert b. induction a as [|x a IH]; intros [|y b]; cbn; try done. intros [= Hl] [= -> H]. destruct (IH _ Hl H) as [-> ->]. done.
Qed.
Local Lemma substring_length n s : n <= Strings.String.length s -> Strings.String.length (Strings.String.substring 0 n s) = n.
Proof. revert s. induction n as [|n IH]; intros [|x s]; cbn; try done; [lia|]. intros H. f_equal. apply IH. lia. Qed.
Theorem C127_version : forall c1 c2, version_string c1 = version_string c2 <-> short c1 = short c2.
Proof.
  intros c1 c2. unfold version_string, short. set (l1 := Nat.leb 8 _). set (l2 := Nat.leb 8 (Strings.String.length c2)).
  assert (H1 : l1 = true -> 8 <= Strings.String.length c1) by (apply Nat.leb_le). assert (H2 : l2 = true -> 8 <= Strings.String.length c2) by (apply Nat.leb_le).
  split.
  - intros E. do 4 apply append_inj_l in E. destruct l1, l2; try done. apply append_inj_l in E.
    destruct (append_inj_len (Strings.String.substring 0 8 c1) (Strings.String.substring 0 8 c2) ")" ")") as [-> _]; [|done|done].
    by rewrite !substring_length by auto.
  - destruct l1, l2; intros E; try done. by injection E as ->.
Qed.
Print Assumptions C127_version.

(** Gossip goes on and off again; the third announcement would be the next.  The encoding is the one of protobuf. *)
Local Definition pb (b : bool) : option string := Some (if b then String (Ascii.ascii_of_nat 8) (String (Ascii.ascii_of_nat 1) EmptyString) else EmptyString).
Local Definition unpb (d : string) : bool := negb (bool_decide (d = EmptyString)).
Example C127_nonvacuous : decodes pb unpb /\ exists s, sw_reach auto ["s"] [] s /\ sw_close s = CNotCalled /\ sw_tog s = TIdle /\
  calls_of (call_ok pb) s [(true, None); (false, None)] /\ length (queue_after pb [(true, None); (false, None)]) = 2 /\ believes unpb (queue_after pb [(true, None); (false, None)]) = false /\
  believes unpb (queue_after pb [(true, None)]) = true /\
  version_string "0123456789abcdef" = "Koinos P2P v1.2.0 (01234567)" /\ version_string "" = "Koinos P2P v1.2.0 " /\
  version_string "0123456789abcdef" <> version_string "1123456789abcdef".
Proof.
  split; [intros [|]; eexists; (split; [reflexivity|vm_compute; reflexivity])|].
  eexists. split; [exists (sw_demo ++ sw_tick 5 ++ sw_enable ++ [WTick; WCm (LTakeQuery 1); WCm LReply; WCount; WDecide 100000000000] ++ sw_off); vm_compute; reflexivity|].
  split; [reflexivity|]. split; [reflexivity|]. split; [vm_compute; reflexivity|]. split; [reflexivity|]. split; [vm_compute; reflexivity|]. split; [vm_compute; reflexivity|].
  split; [reflexivity|]. split; [reflexivity|]. vm_compute. discriminate.
Qed.
