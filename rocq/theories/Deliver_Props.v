(** Property theorems: C93. *)
From Verif Require Import GoBase Util TxCache_Model TxCache_Spec TxCache_Proofs Watchdog_Model
  Applicator_Model Applicator_Spec Applicator_Core Applicator_Sys Applicator_Inv Applicator_Inv2 Applicator_Inv3 Applicator_Inv4
  Applicator_Inv5 Applicator_Inv6 Applicator_Inv7 Applicator_Props Applicator_Props2 Deliver_Spec Deliver_Proofs.

Lemma no_refusal_kept D o head lib dur now sched s : reaches o head lib dur now sched s -> running s -> no_refusal D s -> kept D o (sys_init head lib dur now) sched.
Proof. intros (Hl & Hu & Hr) H1 H2. eapply refused_kept; [exact Hu|by apply (Inv_init o head lib dur now)| |exact Hr|done|done]. done. Qed.

(** C93, first part.  Take any set [D] of block ids that were not refused, for which the chain answers truthfully, and
    that identify blocks; nothing is assumed about other blocks.  Once nothing is under way, no block of [D] is held
    whose parent is in [D] and announced by the chain, unless that parent is itself still held.  The block is either
    recent, or was submitted only when the chain had its parent. *)
Theorem C93_nothing_left_waiting_partial : forall D o root head lib dur now sched s id k cs,
  reaches o head lib dur now sched s -> running s -> settled s -> truthful D root (s_log s) -> no_refusal D s -> ids_distinct D s ->
  (max_accepted head (s_log s) + 1 < two64)%N ->
  D (k_id k) -> D (k_prev k) -> held s id k cs -> recent o (s_now s) k \/ in_order root (s_log s) k -> follows_parent root head (s_log s) k ->
  announced root (s_log s) (k_prev k) ->
  k_prev k ∈ held_ids s.
Proof.
  intros D o root head lib dur now sched s id k cs Hr Hrun Hset Htr Href Hids Hmax. intros. eapply settled_served; eauto; [by eapply no_refusal_kept|]. split; try done. apply Href.
Qed.
Print Assumptions C93_nothing_left_waiting_partial.

(** C93, second part.  A chain of blocks on a block that the chain has, every one of them passed to ApplyBlock, in any
    order, any number of times and among any other calls, whatever becomes of those: once nothing is under way, and the
    chain has announced which of these blocks it accepted, every one of them was accepted by the chain and every call
    with one of them was answered with success.  Each block is either recent, or was submitted only when the chain had
    its parent. *)
Theorem C93_chain_applied_partial : forall D o root head lib dur now sched s parent ks,
  reaches o head lib dur now sched s -> running s -> settled s -> truthful D root (s_log s) -> no_refusal D s -> ids_distinct D s ->
  (max_accepted head (s_log s) + 1 < two64)%N ->
  (forall id, D id -> applied (s_log s) id -> announced root (s_log s) id) ->
  linked parent ks -> D parent -> announced root (s_log s) parent -> parent ∉ held_ids s ->
  (forall k, k ∈ ks -> D (k_id k) /\ passed s k /\ (recent o (s_now s) k \/ in_order root (s_log s) k) /\ follows_parent root head (s_log s) k) ->
  forall k, k ∈ ks -> applied (s_log s) (k_id k) /\ k_id k ∉ held_ids s /\
    forall c cl, s_calls s !! c = Some cl -> cl_blk cl = k -> OAnswer c None ∈ s_log s.
Proof.
  intros D o root head lib dur now sched s parent ks Hr Hrun Hset Htr Href Hids Hmax Hall Hlink HDp Hann Hnot Hks.
  assert (HE : Env D root head s) by (split; try done; apply Href).
  intros k Hk. destruct (Hks k Hk) as (HDk & (c0 & cl0 & Hc0 & Eb0) & _).
  destruct (chain_settled D o root head lib dur now sched s ks Hr) with (parent := parent) (k := k) as (_ & Hn & Hans); try done.
  - by eapply no_refusal_kept.
  - intros c cl e Hc HD Hin. destruct Href as (Hna & _). by apply (Hna c cl e Hc HD) in Hin.
  - assert (Hok : forall c cl, s_calls s !! c = Some cl -> cl_blk cl = k -> OAnswer c None ∈ s_log s /\ applied (s_log s) (k_id k)).
    { intros c cl Hc Eb. destruct (Hans c cl Hc Eb) as [?|(e & He)]; [done|]. destruct Href as (Hna & _). apply (Hna c cl e Hc) in He; [done|]. by rewrite Eb. }
    split_and!; [by apply (Hok c0 cl0)|done|]. intros c cl Hc Eb. by apply (Hok c cl).
Qed.
Print Assumptions C93_chain_applied_partial.

(** ** Concrete runs *)
(** What is read off the final state of a run. *)
Definition obs (s : sys) :=
  ((s_cancelled s, s_panic s, s_hang s), (s_calls s, s_new s, s_try s, map at_phase (s_att s), s_bc s), (s_now s, s_log s), map_to_list (c_byid (s_core s))).
(** Sufficient for [truthful]: "unknown previous block" is answered only while the chain does not have the parent at all. *)
Lemma truthful_check (D : string -> Prop) root log : Hist (fun e r => match e with
    | OResult i k (Some e) => D (k_id k) -> has_block root r (k_prev k) \/ applied r (k_id k) -> is_err_opt (Some e) ErrUnknownPreviousBlock = false
    | _ => True end) log -> truthful D root log.
Proof.
  intros H later i k r between t past HD -> Hor. apply (Hist_split _ _ later (OResult i k r) (between ++ OSubmit i k t :: past)) in H; [|done].
  destruct r as [e|]; [|done]. apply H; [done|]. change (between ++ OSubmit i k t :: past) with (between ++ [OSubmit i k t] ++ past).
  rewrite (assoc_L (++)). destruct Hor as [Ha|Ha]; [left; by apply has_mono|right; by apply applied_mono].
Qed.
Lemma no_refusal_check (D : string -> Prop) s : Forall (fun e => match e with
    | OAnswer c (Some _) => forall cl, s_calls s !! c = Some cl -> ~ D (k_id (cl_blk cl))
    | ODelayTimeout _ k _ => ~ D (k_id k) | OStatus _ k (Some e) => D (k_id k) -> transient (Some e) | _ => True end) (s_log s) -> no_refusal D s.
Proof.
  rewrite Forall_forall. intros H. split_and!.
  - intros c cl e Hc HD Hin. apply (H _ Hin cl Hc HD).
  - intros i k e HD Hin. apply (H _ Hin HD).
  - intros i k r HD Hin. apply (H _ Hin HD).
Qed.
Lemma distinct_check (D : string -> Prop) s : (forall i j x y, s_calls s !! i = Some x -> s_calls s !! j = Some y -> k_id (cl_blk x) = k_id (cl_blk y) -> cl_blk x = cl_blk y) -> ids_distinct D s.
Proof. intros H k k' _ (i & x & Hx & <-) (j & y & Hy & <-). by eapply H. Qed.

Definition roomy : ap_opts := ApOpts 100 60 (4 * second) (60 * second) 2 minute (50 * millisecond).
Definition b1 : block := mk "b1" 11 "root" 5000 "".
Definition b2 : block := mk "b2" 12 "b1" 5000 "".
Definition b3 : block := mk "b3" 13 "b2" 5000 "".
Definition orphan : block := mk "orphan" 11 "nobody" 5000 "".
(** The third block is passed in first, the first one last; a block with an unknown parent is in between. *)
Definition out_of_order : list label :=
  submit_call 0 b3 ++ submit_call 1 b2 ++ submit_call 2 orphan ++ submit_call 3 b1 ++
  attempt_at 0 0 ++ [LRpcDone 0 (Some (ESent ErrUnknownPreviousBlock)); LStatus 0 none_lost] ++      (* the orphan *)
  attempt_at 0 1 ++ [LRpcDone 1 None; LStatus 1 none_lost; LAccept b1; LBroadcast 0] ++               (* b1: b2 is scheduled twice *)
  attempt_at 0 2 ++ [LTry 0; LRpcDone 2 None; LStatus 2 none_lost; LAccept b2; LBroadcast 0] ++       (* b2: b3 is scheduled twice *)
  attempt_at 1 3 ++ [LRpcDone 3 None; LStatus 3 none_lost; LAccept b3; LBroadcast 0; LTick 50000000] ++ (* b3 *)
  attempt_at 0 4 ++ [LRpcDone 4 None; LStatus 4 none_lost] ++ attempt_at 0 5 ++ [LRpcDone 5 None; LStatus 5 none_lost]. (* the left-over requests *)
Definition k1 : blk := Blk b1 (hdr 11 "root" 5000).
Definition k2 : blk := Blk b2 (hdr 12 "b1" 5000).
Definition k3 : blk := Blk b3 (hdr 13 "b2" 5000).
Definition ko : blk := Blk orphan (hdr 11 "nobody" 5000).
(** An attempt from the take to the status, newest first. *)
Definition attempt_log (i : nat) (k : blk) (t : Z) (r : option goerr) : list event := [OStatus i k r; OResult i k r; OSubmit i k t; OTake i k 5].
Definition five : Z := 5 * second.
Definition later : Z := 5050 * millisecond.
Definition ooo_log : list event :=
  attempt_log 5 k3 later None ++ attempt_log 4 k2 later None ++
  OAccepted b3 five :: OAnswer 0 None :: attempt_log 3 k3 five None ++
  OAccepted b2 five :: OAnswer 1 None :: attempt_log 2 k2 five None ++
  OAccepted b1 five :: OAnswer 3 None :: attempt_log 1 k1 five None ++
  attempt_log 0 ko five (Some (ESent ErrUnknownPreviousBlock)).
Definition any (_ : string) : Prop := True.
(** Every hypothesis of the theorem about chains is met by this run, with the three blocks passed in in reverse order. *)
Example C93_nonvacuous : exists s, reaches roomy 10 5 five_min five out_of_order s /\ running s /\ settled s /\
  truthful any {["root"%string]} (s_log s) /\ no_refusal any s /\ ids_distinct any s /\ (max_accepted 10 (s_log s) + 1 < two64)%N /\
  (forall id, any id -> applied (s_log s) id -> announced {["root"%string]} (s_log s) id) /\
  linked "root" [k1; k2; k3] /\ any "root" /\ announced {["root"%string]} (s_log s) "root" /\ "root"%string ∉ held_ids s /\
  (forall k, k ∈ [k1; k2; k3] -> any (k_id k) /\ passed s k /\ (recent roomy (s_now s) k \/ in_order {["root"%string]} (s_log s) k) /\ follows_parent {["root"%string]} 10 (s_log s) k) /\
  s_calls s !! 0 = Some (Call k3 CWait (Some None)) /\ held_ids s = {["orphan"%string]}.
Proof.
  destruct (final_run obs roomy (sys_init 10 5 five_min five) out_of_order
    ((false, false, false), ([Call k3 CWait (Some None); Call k2 CWait (Some None); Call ko CWait None; Call k1 CWait (Some None)], [], [], [PDone; PDone; PDone; PDone; PDone; PDone], []),
     (later, ooo_log), [("orphan"%string, Entry ko [2])])) as (s & Hr & E); [vm_compute; reflexivity|].
  assert (Hreach : reaches roomy 10 5 five_min five out_of_order s) by (split; [vm_compute; reflexivity|]; split; [u64s|exact Hr]). clear Hr.
  injection E as E1 E2 E3 E4 E5 E6 E7 E8 E9 E10 E11.
  assert (Hheld : held_ids s = {["orphan"%string]}) by (unfold held_ids; rewrite <- (list_to_map_to_list (M := gmap string) (c_byid (s_core s))), E11; cbn [list_to_map foldr fst snd]; by rewrite dom_insert_L, dom_empty_L, union_empty_r_L).
  exists s. rewrite Hheld, E10, E9, E4. split_and!.
  - exact Hreach.
  - by split_and!.
  - split_and!; [|done|done| |done].
    + rewrite E4. intros [|[|[|[|c]]]] cl Hc; try (by injection Hc as <-); done.
    + intros i a Hi. assert (Hm : map at_phase (s_att s) !! i = Some (at_phase a)) by (by rewrite list_lookup_fmap, Hi).
      rewrite E7 in Hm. do 6 (destruct i as [|i]; [by injection Hm|]). done.
  - apply truthful_check. unfold ooo_log, attempt_log. cbn [app Hist]. repeat match goal with |- True /\ _ => split; [exact I|] end.
    split; [|repeat (split; [exact I|]); exact I].
    intros _ [[[Hx|(b & t & Hx & _)]|(i & k & Hx & _)]|(i & k & Hx & _)]; exfalso.
    + apply elem_of_singleton in Hx. discriminate Hx.
    + in_log Hx.
    + in_log Hx.
    + in_log Hx.
  - apply no_refusal_check. rewrite E10. unfold ooo_log, attempt_log. cbn [app]. repeat (apply Forall_cons; split); try done. intros _. by right.
  - apply distinct_check. rewrite E4. intros [|[|[|[|i]]]] [|[|[|[|j]]]] x y Hx Hy; try done; by injection Hx as <-; injection Hy as <-.
  - vm_compute. reflexivity.
  - intros id _ (i & k & Hin & <-). right. unfold ooo_log, attempt_log in Hin. cbn [app] in Hin.
    repeat (apply elem_of_cons in Hin as [Hin|Hin]; [try discriminate Hin; injection Hin as -> ->|]); [..|by apply elem_of_nil in Hin].
    all: first [exists b1, five; split; [apply (elem_of_list_lookup_2 _ 20); reflexivity|reflexivity] | exists b2, five; split; [apply (elem_of_list_lookup_2 _ 14); reflexivity|reflexivity]
               | exists b3, five; split; [apply (elem_of_list_lookup_2 _ 8); reflexivity|reflexivity]].
  - done.
  - done.
  - left. by apply elem_of_singleton.
  - by intros Hx%elem_of_singleton.
  - intros k Hk. assert (Hcase : k = k1 \/ k = k2 \/ k = k3) by (rewrite !elem_of_cons, elem_of_nil in Hk; tauto). split_and!.
    + done.
    + unfold passed. rewrite E4. destruct Hcase as [->|[->| ->]]; [exists 3|exists 1|exists 0]; eexists; done.
    + left. by destruct Hcase as [->|[->| ->]].
    + split.
      * destruct Hcase as [->|[->| ->]]; intros Hx%elem_of_singleton; done.
      * intros b t Hin Hb. unfold ooo_log, attempt_log in Hin. cbn [app] in Hin. in_log Hin; injection Hin as -> ->; eexists; (split; [reflexivity|]); destruct Hcase as [->|[->| ->]]; try done.
  - done.
  - done.
Qed.

(** Old blocks (ten minutes behind the clock, far more than ForceChildRequestThreshold), each passed in after its parent was
    applied, as in synchronisation with a peer; in between an invalid child of the first one, which the chain refuses.
    [D] leaves that one out. *)
Definition bad : block := mk "bad" 12 "b1" 5000 "".
Definition kb : blk := Blk bad (hdr 12 "b1" 5000).
Definition merkle : option goerr := Some (EOther "bad merkle root").
Definition in_turn : list label :=
  submit_call 0 b1 ++ attempt_at 0 0 ++ [LRpcDone 0 None; LStatus 0 none_lost; LAccept b1; LBroadcast 0] ++
  submit_call 1 bad ++ attempt_at 0 1 ++ [LRpcDone 1 merkle; LStatus 1 none_lost] ++
  submit_call 2 b2 ++ attempt_at 0 2 ++ [LRpcDone 2 None; LStatus 2 none_lost; LAccept b2; LBroadcast 0] ++
  submit_call 3 b3 ++ attempt_at 0 3 ++ [LRpcDone 3 None; LStatus 3 none_lost; LAccept b3; LBroadcast 0].
Definition ten_min : Z := 2 * five_min.
Definition in_turn_log : list event :=
  OAccepted b3 ten_min :: OAnswer 3 None :: attempt_log 3 k3 ten_min None ++
  OAccepted b2 ten_min :: OAnswer 2 None :: attempt_log 2 k2 ten_min None ++
  OAnswer 1 merkle :: attempt_log 1 kb ten_min merkle ++
  OAccepted b1 ten_min :: OAnswer 0 None :: attempt_log 0 k1 ten_min None.
Definition not_bad (id : string) : Prop := id <> "bad"%string.
Lemma in_order_check root k log : Hist (fun e r => match e with OSubmit i k' t => k' = k -> has_block root r (k_prev k) | _ => True end) log -> in_order root log k.
Proof. intros H later i t past ->. apply (Hist_split _ _ later (OSubmit i k t) past) in H; [|done]. by apply H. Qed.
Example C93_nonvacuous_in_order : exists s, reaches roomy 10 5 five_min ten_min in_turn s /\ running s /\ settled s /\
  truthful not_bad {["root"%string]} (s_log s) /\ no_refusal not_bad s /\ ids_distinct not_bad s /\ (max_accepted 10 (s_log s) + 1 < two64)%N /\
  (forall id, not_bad id -> applied (s_log s) id -> announced {["root"%string]} (s_log s) id) /\
  linked "root" [k1; k2; k3] /\ not_bad "root" /\ announced {["root"%string]} (s_log s) "root" /\ "root"%string ∉ held_ids s /\
  (forall k, k ∈ [k1; k2; k3] -> not_bad (k_id k) /\ passed s k /\ (recent roomy (s_now s) k \/ in_order {["root"%string]} (s_log s) k) /\ follows_parent {["root"%string]} 10 (s_log s) k) /\
  (forall k, k ∈ [k1; k2; k3] -> ~ recent roomy (s_now s) k) /\ OAnswer 1 merkle ∈ s_log s.
Proof.
  destruct (final_run obs roomy (sys_init 10 5 five_min ten_min) in_turn
    ((false, false, false), ([Call k1 CWait (Some None); Call kb CWait (Some merkle); Call k2 CWait (Some None); Call k3 CWait (Some None)], [], [], [PDone; PDone; PDone; PDone], []),
     (ten_min, in_turn_log), [])) as (s & Hr & E); [vm_compute; reflexivity|].
  assert (Hreach : reaches roomy 10 5 five_min ten_min in_turn s) by (split; [vm_compute; reflexivity|]; split; [u64s|exact Hr]). clear Hr.
  injection E as E1 E2 E3 E4 E5 E6 E7 E8 E9 E10 E11.
  assert (Hheld : held_ids s = ∅) by (unfold held_ids; apply map_to_list_empty_iff in E11; by rewrite E11, dom_empty_L).
  assert (Hcase : forall k, k ∈ [k1; k2; k3] -> k = k1 \/ k = k2 \/ k = k3) by (intros k Hk; rewrite !elem_of_cons, elem_of_nil in Hk; tauto).
  exists s. rewrite Hheld, E10, E9. split_and!.
  - exact Hreach.
  - by split_and!.
  - split_and!; [|done|done| |done].
    + rewrite E4. intros [|[|[|[|c]]]] cl Hc; try (by injection Hc as <-); done.
    + intros i a Hi. assert (Hm : map at_phase (s_att s) !! i = Some (at_phase a)) by (by rewrite list_lookup_fmap, Hi).
      rewrite E7 in Hm. do 4 (destruct i as [|i]; [by injection Hm|]). done.
  - apply truthful_check. unfold in_turn_log, attempt_log. cbn [app Hist merkle]. repeat (split; [first [exact I|done]|]). exact I.
  - apply no_refusal_check. rewrite E10. unfold in_turn_log, attempt_log. cbn [app merkle]. repeat (apply Forall_cons; split); try done.
    + rewrite E4. intros cl Hc. injection Hc as <-. intros Hx. by apply Hx.
    + intros Hx. by destruct Hx.
  - apply distinct_check. rewrite E4. intros [|[|[|[|i]]]] [|[|[|[|j]]]] x y Hx Hy; try done; by injection Hx as <-; injection Hy as <-.
  - vm_compute. reflexivity.
  - intros id _ (i & k & Hin & <-). right. unfold in_turn_log, attempt_log in Hin. cbn [app merkle] in Hin.
    repeat (apply elem_of_cons in Hin as [Hin|Hin]; [try discriminate Hin; injection Hin as -> ->|]); [..|by apply elem_of_nil in Hin].
    + exists b3, ten_min. split; [apply (elem_of_list_lookup_2 _ 0); reflexivity|reflexivity].
    + exists b2, ten_min. split; [apply (elem_of_list_lookup_2 _ 6); reflexivity|reflexivity].
    + exists b1, ten_min. split; [apply (elem_of_list_lookup_2 _ 17); reflexivity|reflexivity].
  - done.
  - done.
  - left. by apply elem_of_singleton.
  - by intros Hx%elem_of_empty.
  - intros k Hk. apply Hcase in Hk. split_and!.
    + by destruct Hk as [->|[->| ->]].
    + unfold passed. rewrite E4. destruct Hk as [->|[->| ->]]; [exists 0|exists 2|exists 3]; eexists; done.
    + right. apply in_order_check. unfold in_turn_log, attempt_log. cbn [app Hist merkle].
      repeat (split; [first [exact I|intros Ek]|]); try exact I;
        destruct Hk as [->|[->| ->]]; try discriminate Ek; left.
      * right. exists b2, ten_min. split; [apply (elem_of_list_lookup_2 _ 1); reflexivity|reflexivity].
      * right. exists b1, ten_min. split; [apply (elem_of_list_lookup_2 _ 6); reflexivity|reflexivity].
      * left. by apply elem_of_singleton.
    + split.
      * destruct Hk as [->|[->| ->]]; intros Hx%elem_of_singleton; done.
      * intros b t Hin Hb. unfold in_turn_log, attempt_log in Hin. cbn [app] in Hin. in_log Hin; injection Hin as -> ->; eexists; (split; [reflexivity|]); destruct Hk as [->|[->| ->]]; try done.
  - intros k Hk. apply Hcase in Hk. intros (_ & _ & Hx & _). by destruct Hk as [->|[->| ->]].
  - unfold in_turn_log. apply (elem_of_list_lookup_2 _ 12). reflexivity.
Qed.

(** C93, REFUTED as stated.  The first block's attempt waits for a free worker when the chain gets the block from
    elsewhere and announces it.  The second block arrives: its parent has an attempt pending, so it waits for that
    attempt.  The LIB then reaches the parent (the head is another child of it): the parent is dropped, its attempt ends
    as irreversible, and nobody looks at its children any more.  The second block is never submitted, although it is
    recent and its parent is in the chain. *)
Definition b2' : block := mk "b2'" 12 "b1" 5000 "".
Definition dropped_parent : list label :=
  submit_call 0 b1 ++ [LTry 0; LAttStart 0; LAccept b1; LBroadcast 0] ++ submit_call 1 b2 ++
  [LAccept b2'; LBroadcast 0; LAnnounce (ForkHeads (Some 11%N) ["b2'"%string]); LForkHeads 0 none_lost; LTake 0; LStatus 0 none_lost].
Theorem C93_nothing_left_waiting_refuted : exists o root head lib dur now sched s id k cs,
  reaches o head lib dur now sched s /\ running s /\ settled s /\ truthful any root (s_log s) /\ ids_distinct any s /\
  (max_accepted head (s_log s) + 1 < two64)%N /\
  held s id k cs /\ recent o (s_now s) k /\ follows_parent root head (s_log s) k /\ announced root (s_log s) (k_prev k) /\
  k_prev k ∉ held_ids s /\ (last_lib lib (s_log s) < k_height k)%N /\ (forall i t, OSubmit i k t ∉ s_log s).
Proof.
  destruct (final_run (fun s => (obs s, c_byid (s_core s) !! "b2"%string, bool_decide ("b1"%string ∈ held_ids s))) roomy (sys_init 10 5 five_min five) dropped_parent
    ((false, false, false), ([Call k1 CWait (Some (Some (ESent ErrBlockIrreversibility))); Call k2 CWait None], [], [], [PDone], []),
     (five, [OStatus 0 k1 (Some (ESent ErrBlockIrreversibility)); OTake 0 k1 11; OAnswer 0 (Some (ESent ErrBlockIrreversibility)); OLib 11; OAccepted b2' five; OAccepted b1 five]),
     [("b2"%string, Entry k2 [1])], Some (Entry k2 [1]), false)) as (s & Hr & E); [vm_compute; reflexivity|].
  assert (Hreach : reaches roomy 10 5 five_min five dropped_parent s) by (split; [vm_compute; reflexivity|]; split; [u64s|exact Hr]). clear Hr.
  injection E as E1 E2 E3 E4 E5 E6 E7 E8 E9 E10 E11 E12 E13.
  exists roomy, {["root"%string]}, 10%N, 5%N, five_min, five, dropped_parent, s, "b2"%string, k2, [1]. rewrite E10, E9. split_and!.
  - exact Hreach.
  - by split_and!.
  - split_and!; [|done|done| |done].
    + rewrite E4. intros [|[|c]] cl Hc; try (by injection Hc as <-); done.
    + intros i a Hi. assert (Hm : map at_phase (s_att s) !! i = Some (at_phase a)) by (by rewrite list_lookup_fmap, Hi).
      rewrite E7 in Hm. do 1 (destruct i as [|i]; [by injection Hm|]). done.
  - apply truthful_check. cbn [Hist]. repeat (split; [exact I|]). exact I.
  - apply distinct_check. rewrite E4. intros [|[|i]] [|[|j]] x y Hx Hy; try done; by injection Hx as <-; injection Hy as <-.
  - vm_compute. reflexivity.
  - exact E12.
  - by split_and!.
  - split; [by intros Hx%elem_of_singleton|]. intros b t Hin Hb. in_log Hin; injection Hin as -> ->; eexists; (split; [reflexivity|]); done.
  - right. exists b1, five. split; [|done]. apply (elem_of_list_lookup_2 _ 5). reflexivity.
  - by apply bool_decide_eq_false in E13.
  - vm_compute. reflexivity.
  - intros i t Hin. in_log Hin.
Qed.
Print Assumptions C93_nothing_left_waiting_refuted.
