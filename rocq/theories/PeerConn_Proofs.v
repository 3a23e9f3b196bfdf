(** Lemmas about peer connections. *)
From Verif Require Import GoBase PeerConn_Model PeerConn_Spec.

(** ** Conversations *)
Lemma run_bind {A B} (env : environment) (p : prog A) (f : A -> prog B) : forall n,
  run env n (bind p f) =
  match run env n p with
  | (tr, Panic) => (tr, Panic)
  | (tr, Done a) => let '(tr', out) := run env (n + length tr) (f a) in (tr ++ tr', out)
  end.
Proof.
  induction p as [a | | q k IH]; intros n; simpl.
  - rewrite Nat.add_0_r. destruct (run env n (f a)) as [tr out]. done.
  - done.
  - rewrite IH. destruct (run env (S n) (k (env n q))) as [tr out]. destruct out as [a|]; simpl; [|done].
    rewrite <- Nat.add_succ_r.
    destruct (run env (n + S (length tr)) (f a)); done.
Qed.

Lemma is_err_unique (e : goerr) s1 s2 : is_err e s1 = true -> is_err e s2 = true -> s1 = s2.
Proof.
  induction e as [s | e IH | m]; simpl; [|done|done].
  intros H1 H2. apply bool_decide_eq_true in H1, H2. congruence.
Qed.

(** ** The handshake *)
Lemma check_points_play (o : pc_opts) env n0 head : forall (cps : list checkpoint) n,
  head = peer_head o env n0 ->
  run env (n0 + 4 + n) (check_points o head cps) =
  let '(tr, res) := play (imap (fun i cp => (Ev (checkpoint_query o env n0 cp) (ans_checkpoint o env n0 (n + i) cp),
                                      checkpoint_check o env n0 (n + i) cp)) cps) in (tr, Done res).
Proof.
  induction cps as [|cp cps IH]; intros n Hh; [done|].
  cbn [check_points run imap]. subst head. unfold checkpoint_check, ans_checkpoint.
  rewrite Nat.add_0_r. 
  destruct (env (n0 + 4 + n) (QPeerAncestor (po_remote_timeout o) (peer_head o env n0) (cp_height cp))) as [id err] eqn:He.
  cbn [snd fst]. destruct err as [e|].
  - cbn [run]. cbn [play]. unfold checkpoint_query. done.
  - unfold bytes_equal. destruct (bool_decide_reflect (str id = str (cp_id cp))).
    + specialize (IH (S n) eq_refl). replace (n0 + 4 + S n) with (S (n0 + 4 + n)) in IH by lia. rewrite IH.
      cbn [play].
      match goal with |- context [play (imap (_ ∘ S) cps)] =>
        match goal with |- (let '(_, _) := (let '(_, _) := play ?a in _) in _) = (let '(_, _) := (let '(_, _) := play ?b in _) in _) =>
          assert (a = b) as -> end end.
      { apply imap_ext. intros i x _. unfold compose, checkpoint_check, ans_checkpoint.
        rewrite (Nat.add_succ_r n i). reflexivity. }
      match goal with |- context [play ?x] => destruct (play x) as [tr res] end. done.
    + cbn [run play]. done.
Qed.

Lemma play_pass (e : event) (r : list (event * option goerr)) :
  play ((e, None) :: r) = let '(tr, res) := play r in (e :: tr, res).
Proof. done. Qed.

Lemma handshake_play (o : pc_opts) env n :
  local_chain_ok o env n ->
  run env n (handshake o) = let '(tr, res) := play (handshake_script o env n) in (tr, Done res).
Proof.
  intros Hok. unfold local_chain_ok, ans_local_chain in Hok.
  unfold handshake, handshake_script. cbn [run]. unfold version_check, ans_version.
  destruct (env n QVersion) as [v err] eqn:H0. cbn [snd fst].
  assert (Hrest : run env (S n) (handshake_chain o) =
     let '(tr, res) := play ([(Ev (QLocalChainID (po_local_timeout o)) (ans_local_chain o env n), local_check o env n);
   (Ev (QPeerChainID (po_remote_timeout o)) (ans_peer_chain o env n), chain_check o env n);
   (Ev (QPeerHead (po_remote_timeout o)) (ans_head o env n), head_check o env n)]
  ++ imap (fun i cp => (Ev (checkpoint_query o env n cp) (ans_checkpoint o env n i cp), checkpoint_check o env n i cp)) (po_checkpoints o)) in
     (tr, Done res)).
  {    unfold handshake_chain. cbn [run app]. unfold local_check, ans_local_chain.
    rewrite Nat.add_1_r in *.
    destruct (env (S n) (QLocalChainID (po_local_timeout o))) as [mine err1] eqn:H1. cbn [snd fst] in *.
    destruct err1 as [e1|]; [done|]. cbn [run].
    unfold chain_check, ans_peer_chain, ans_local_chain.
    replace (n + 2) with (S (S n)) by lia. rewrite Nat.add_1_r, H1.
    destruct (env (S (S n)) (QPeerChainID (po_remote_timeout o))) as [theirs err2] eqn:H2. cbn [snd fst].
    destruct err2 as [e2|]; [done|].
    destruct mine as [id|]; [|by specialize (Hok eq_refl)]. cbn [default].
    unfold bytes_equal. change (Datatypes.id id) with id.
    destruct (bool_decide_reflect (str id = str theirs)); [|done]. cbn [run].
    unfold head_check, ans_head.
    replace (n + 3) with (S (S (S n))) by lia.
    destruct (env (S (S (S n))) (QPeerHead (po_remote_timeout o))) as [[head hh] err3] eqn:H3. cbn [snd fst].
    destruct err3 as [e3|]; [done|].
    assert (Hph : head = peer_head o env n).
    { unfold peer_head, ans_head. replace (n + 3) with (S (S (S n))) by lia. by rewrite H3. }
    pose proof (check_points_play o env n head (po_checkpoints o) 0 Hph) as Hcp.
    replace (n + 4 + 0) with (S (S (S (S n)))) in Hcp by lia. cbn [Nat.add] in Hcp.
    rewrite Hcp. cbn [play app].
    match goal with |- context [play ?x] => destruct (play x) as [tr res] end. done. }
  destruct err as [e|].
  - destruct (is_err e ErrProtocolMissing).
    + rewrite Hrest. cbn [app]. rewrite play_pass.
      match goal with |- context [play ?x] => destruct (play x) as [tr res] end. done.
    + done.
  - rewrite Hrest. cbn [app]. rewrite play_pass.
    match goal with |- context [play ?x] => destruct (play x) as [tr res] end. done.
Qed.

Lemma play_None (l : list (event * option goerr)) : (play l).2 = None <-> Forall (fun x => x.2 = None) l.
Proof.
  induction l as [|[e [err|]] l IH]; simpl.
  - split; [constructor|done].
  - split; [done|]. intros H. inversion H; done.
  - destruct (play l) as [tr res]. simpl in *. rewrite IH. split; [constructor; done|]. intros H. by inversion H.
Qed.

(** ** Applying the received blocks *)
Definition apply_event (o : pc_opts) (x : block * option goerr) : event := Ev (QApply (po_app_timeout o) x.1) x.2.
Definition stop_error (e : goerr) : goerr :=
  if is_err e ErrLocalRPCTimeout || is_err e ErrForkBomb then e else EWrap (ESent ErrBlockApplication).
Definition applying (bs : list block) (dn : list (block * option goerr)) (out : outcome (option goerr)) : Prop :=
  Forall (fun x : block * option goerr => b_header x.1 <> None) dn /\
  match out with
  | Done None => map fst dn = bs /\ Forall (fun x : block * option goerr => harmless x.2) dn
  | Done (Some e) => exists pre b r rest, dn = pre ++ [(b, Some r)] /\ bs = map fst dn ++ rest /\
      Forall (fun x : block * option goerr => harmless x.2) pre /\ ~ harmless (Some r) /\ e = stop_error r
  | Panic => exists b rest, bs = map fst dn ++ b :: rest /\ b_header b = None /\
      Forall (fun x : block * option goerr => harmless x.2) dn
  end.

Lemma apply_blocks_run (o : pc_opts) (env : environment) : forall (bs : list block) n,
  exists dn out, run env n (apply_blocks o bs) = (map (apply_event o) dn, out) /\ applying bs dn out.
Proof.
  induction bs as [|b bs IH]; intros n; cbn [apply_blocks run].
  - exists [], (Done None). split; [done|]. split; [constructor|]. split; [done|constructor].
  - destruct (b_header b) as [h|] eqn:Hh; cbn [run].
    2: { exists [], Panic. split; [done|]. split; [constructor|]. exists b, bs. split; [done|]. split; [done|]. constructor. }
    assert (Hgo : forall r, harmless r -> exists dn out,
      (let '(tr, out) := run env (S n) (apply_blocks o bs) in (Ev (QApply (po_app_timeout o) b) r :: tr, out))
        = (map (apply_event o) dn, out) /\ applying (b :: bs) dn out).
    { intros r Hr. destruct (IH (S n)) as (dn & out & Hrun & Hhd & Hap). rewrite Hrun.
      exists ((b, r) :: dn), out. split; [done|]. split; [constructor; [simpl; congruence|done]|].
      destruct out as [[e|]|].
      - destruct Hap as (pre & b' & r' & rest & -> & -> & H1 & H2 & H3).
        exists ((b, r) :: pre), b', r', rest. split; [done|]. split; [done|]. split; [constructor; done|]. done.
      - destruct Hap as (<- & H1). split; [done|]. constructor; done.
      - destruct Hap as (b' & rest & -> & H1 & H2). exists b', rest. split; [done|]. split; [done|]. constructor; done. }
    assert (Hstop : forall r, ~ harmless (Some r) -> forall e, e = stop_error r ->
      exists dn out, (let '(tr, out) := run env (S n) (Ret (Some e)) in (Ev (QApply (po_app_timeout o) b) (Some r) :: tr, out))
        = (map (apply_event o) dn, out) /\ applying (b :: bs) dn out).
    { intros r Hr e ->. exists [(b, Some r)], (Done (Some (stop_error r))). split; [done|].
      split; [constructor; [simpl; congruence|constructor]|]. exists [], b, r, bs. split; [done|]. split; [done|].
      split; [constructor|]. done. }
    assert (Hnot : forall r s, is_err r s = true -> s <> ErrBlockIrreversibility -> ~ harmless (Some r)).
    { intros r s Hs Hne [H|(e & [= <-] & H)]; [done|]. apply Hne. by eapply is_err_unique. }
    destruct (env n (QApply (po_app_timeout o) b)) as [r|] eqn:He.
    2: { apply Hgo. by left. }
    destruct (is_err r ErrLocalRPCTimeout) eqn:H1.
    { apply Hstop; [eapply Hnot; done|]. unfold stop_error. by rewrite H1. }
    destruct (is_err r ErrForkBomb) eqn:H2.
    { apply Hstop; [eapply Hnot; done|]. unfold stop_error. by rewrite H1, H2. }
    destruct (is_err r ErrBlockIrreversibility) eqn:H3.
    { apply Hgo. right. eauto. }
    apply Hstop; [|unfold stop_error; by rewrite H1, H2].
    intros [H|(e & [= <-] & H)]; congruence.
Qed.

(** ** The shape of a sync round *)
Definition request_size (o : pc_opts) (lib_height head_height : N) : N :=
  to_u32 (if bool_decide (po_batch o < sub64 head_height lib_height)%N then po_batch o else sub64 head_height lib_height).
(** the requests before the block request, when nothing speaks against making it *)
Inductive cleared (o : pc_opts) (lib : topology) (head : bytes) (height : N) : list event -> Prop :=
| cleared_genesis : (tp_height lib = 0)%N -> (tp_height lib < height)%N ->
    cleared o lib head height
      [Ev QLib (Some lib); Ev (QPeerHead (po_remote_timeout o)) (head, height, None);
       Ev (QLocalBlocks (po_local_timeout o) [head]) (Some [Some 0%N], None)]
| cleared_lib id : (0 < tp_height lib)%N -> (tp_height lib < height)%N -> str id = str (tp_id lib) ->
    cleared o lib head height
      [Ev QLib (Some lib); Ev (QPeerHead (po_remote_timeout o)) (head, height, None);
       Ev (QLocalBlocks (po_local_timeout o) [head]) (Some [Some 0%N], None);
       Ev (QPeerAncestor (po_remote_timeout o) head (tp_height lib)) (id, None)].
Definition block_request (o : pc_opts) (lib : topology) (head : bytes) (height : N) : req :=
  QPeerBlocks (po_block_timeout o) head (add64 (tp_height lib) 1) (request_size o (tp_height lib) height).
Inductive shape (o : pc_opts) (syn : bool) : list event -> outcome (option goerr * bool) -> Prop :=
| sh_head lib head height e :
    shape o syn [Ev QLib lib; Ev (QPeerHead (po_remote_timeout o)) (head, height, Some e)] (Done (Some e, syn))
| sh_nil_lib head height :
    shape o syn [Ev QLib None; Ev (QPeerHead (po_remote_timeout o)) (head, height, None)] Panic
| sh_behind lib head height : (height <= tp_height lib)%N ->
    shape o syn [Ev QLib (Some lib); Ev (QPeerHead (po_remote_timeout o)) (head, height, None)] (Done (None, true))
| sh_local lib head height items e : (tp_height lib < height)%N ->
    shape o syn [Ev QLib (Some lib); Ev (QPeerHead (po_remote_timeout o)) (head, height, None);
                 Ev (QLocalBlocks (po_local_timeout o) [head]) (items, Some e)] (Done (Some e, syn))
| sh_local_nil lib head height items : (tp_height lib < height)%N -> items = None \/ items = Some [None] ->
    shape o syn [Ev QLib (Some lib); Ev (QPeerHead (po_remote_timeout o)) (head, height, None);
                 Ev (QLocalBlocks (po_local_timeout o) [head]) (items, None)] Panic
| sh_local_count lib head height items : (tp_height lib < height)%N -> length items <> 1 ->
    shape o syn [Ev QLib (Some lib); Ev (QPeerHead (po_remote_timeout o)) (head, height, None);
                 Ev (QLocalBlocks (po_local_timeout o) [head]) (Some items, None)] (Done (Some (EWrap (ESent ErrLocalRPC)), syn))
| sh_known lib head height h : (tp_height lib < height)%N -> h <> 0%N ->
    shape o syn [Ev QLib (Some lib); Ev (QPeerHead (po_remote_timeout o)) (head, height, None);
                 Ev (QLocalBlocks (po_local_timeout o) [head]) (Some [Some h], None)] (Done (None, true))
| sh_ancestor lib head height id e : (tp_height lib < height)%N -> (0 < tp_height lib)%N ->
    shape o syn [Ev QLib (Some lib); Ev (QPeerHead (po_remote_timeout o)) (head, height, None);
                 Ev (QLocalBlocks (po_local_timeout o) [head]) (Some [Some 0%N], None);
                 Ev (QPeerAncestor (po_remote_timeout o) head (tp_height lib)) (id, Some e)] (Done (Some e, syn))
| sh_disconnected lib head height id : (tp_height lib < height)%N -> (0 < tp_height lib)%N -> str id <> str (tp_id lib) ->
    shape o syn [Ev QLib (Some lib); Ev (QPeerHead (po_remote_timeout o)) (head, height, None);
                 Ev (QLocalBlocks (po_local_timeout o) [head]) (Some [Some 0%N], None);
                 Ev (QPeerAncestor (po_remote_timeout o) head (tp_height lib)) (id, None)] (Done (Some (ESent ErrChainNotConnected), syn))
| sh_blocks_err lib head height pre bs e : cleared o lib head height pre ->
    shape o syn (pre ++ [Ev (block_request o lib head height) (bs, Some e)]) (Done (Some e, syn))
| sh_stop lib head height pre bs dn e : cleared o lib head height pre -> applying bs dn (Done (Some e)) ->
    shape o syn (pre ++ Ev (block_request o lib head height) (bs, None) :: map (apply_event o) dn) (Done (Some e, syn))
| sh_crash lib head height pre bs dn : cleared o lib head height pre -> applying bs dn Panic ->
    shape o syn (pre ++ Ev (block_request o lib head height) (bs, None) :: map (apply_event o) dn) Panic
| sh_empty lib head height pre : cleared o lib head height pre ->
    shape o syn (pre ++ [Ev (block_request o lib head height) ([], None)]) Panic
| sh_done lib head height pre bs dn b h : cleared o lib head height pre -> applying bs dn (Done None) ->
    last bs = Some b -> b_header b = Some h ->
    shape o syn (pre ++ Ev (block_request o lib head height) (bs, None) :: map (apply_event o) dn)
      (Done (None, bool_decide (sub64 height (h_height h) < po_delta o)%N)).

Lemma fetch_shape (o : pc_opts) env n lib head height syn pre :
  cleared o lib head height pre ->
  let '(tr, out) := run env n (fetch o (tp_height lib) head height syn) in shape o syn (pre ++ tr) out.
Proof.
  intros Hpre. unfold fetch. cbn [run].
  change (QPeerBlocks (po_block_timeout o) head (add64 (tp_height lib) 1)
     (to_u32 (if bool_decide (po_batch o < sub64 height (tp_height lib))%N then po_batch o else sub64 height (tp_height lib))))
    with (block_request o lib head height).
  destruct (env n (block_request o lib head height)) as [bs err] eqn:He.
  destruct err as [e|].
  { cbn [run]. by constructor. }
  rewrite run_bind. destruct (apply_blocks_run o env bs (S n)) as (dn & out & Hrun & Hap). rewrite Hrun.
  destruct out as [[e|]|].
  - cbn [run]. rewrite app_nil_r. by eapply sh_stop.
  - destruct (last bs) as [b|] eqn:Hl.
    + destruct (b_header b) as [h|] eqn:Hb.
      * cbn [run]. rewrite app_nil_r. by eapply sh_done.
      * exfalso. destruct Hap as (Hh & <- & _). rewrite last_lookup in Hl. apply elem_of_list_lookup_2 in Hl.
        apply elem_of_list_fmap in Hl as (x & -> & Hx). rewrite Forall_forall in Hh. by apply (Hh x).
    + cbn [run]. rewrite app_nil_r. apply last_None in Hl as ->. destruct Hap as (_ & Hd & _).
      apply map_eq_nil in Hd as ->. by eapply sh_empty.
  - by eapply sh_crash.
Qed.

Lemma request_sync_shape (o : pc_opts) env n syn :
  let '(tr, out) := run env n (request_sync o syn) in shape o syn tr out.
Proof.
  unfold request_sync. cbn [run].
  destruct (env n QLib) as [lib|] eqn:H0.
  2: { destruct (env (S n) (QPeerHead (po_remote_timeout o))) as [[head height] [e|]] eqn:H1; cbn [run]; constructor. }
  destruct (env (S n) (QPeerHead (po_remote_timeout o))) as [[head height] [e|]] eqn:H1; cbn [run]; [constructor|].
  destruct (bool_decide_reflect (height <= tp_height lib)%N) as [Hle|Hlt]; cbn [run]; [by constructor|].
  assert (Hh : (tp_height lib < height)%N) by lia.
  destruct (env (S (S n)) (QLocalBlocks (po_local_timeout o) [head])) as [items [e|]] eqn:H2; cbn [run]; [by constructor|].
  destruct items as [items|]; [|apply sh_local_nil; eauto].
  destruct items as [|item [|item' items]]; [by apply sh_local_count| |by apply sh_local_count].
  destruct item as [h|]; [|apply sh_local_nil; eauto].
  destruct (bool_decide_reflect (h <> 0)%N) as [Hk|Hk]; cbn [run]; [by apply sh_known|].
  assert (h = 0)%N as -> by lia.
  destruct (bool_decide_reflect (0 < tp_height lib)%N) as [Hl|Hl]; cbn [run].
  - destruct (env (S (S (S n))) (QPeerAncestor (po_remote_timeout o) head (tp_height lib))) as [id [e|]] eqn:H3; cbn [run].
    { by constructor. }
    unfold bytes_equal. destruct (bool_decide_reflect (str id = str (tp_id lib))) as [Hid|Hid]; cbn [run].
    + pose proof (fetch_shape o env (S (S (S (S n)))) lib head height syn _ (cleared_lib o lib head height id Hl Hh Hid)) as Hf.
      destruct (run env (S (S (S (S n)))) (fetch o (tp_height lib) head height syn)) as [tr out]. exact Hf.
    + by constructor.
  - pose proof (fetch_shape o env (S (S (S n))) lib head height syn _ (cleared_genesis o lib head height ltac:(lia) Hh)) as Hf.
    destruct (run env (S (S (S n))) (fetch o (tp_height lib) head height syn)) as [tr out]. exact Hf.
Qed.

(** ** Reading shapes *)
Definition as_blocks (e : event) : option (Z * bytes * N * N * (list block * option goerr)) :=
  match e with Ev (QPeerBlocks t head start num) r => Some (t, head, start, num, r) | _ => None end.
Definition as_apply (e : event) : option (Z * block * option goerr) :=
  match e with Ev (QApply t b) r => Some (t, b, r) | _ => None end.

Lemma as_blocks_apply (o : pc_opts) dn : Forall (fun e => as_blocks e = None) (map (apply_event o) dn).
Proof. apply Forall_forall. intros e He. apply elem_of_list_fmap in He as (x & -> & _). done. Qed.

Lemma cons_inv (x y : event) l l' : x :: l = y :: l' -> x = y /\ l = l'.
Proof. intros H. inversion H. done. Qed.

(** An occurrence of a block request in a trace of the form [pre ++ Ev (QPeerBlocks ..) :: applications] *)
Lemma blocks_at (o : pc_opts) lib head height pre q (ans : resp (block_request o lib head height)) dn p t hd st nm r post :
  cleared o lib head height pre -> q = Ev (block_request o lib head height) ans ->
  pre ++ q :: map (apply_event o) dn = p ++ Ev (QPeerBlocks t hd st nm) r :: post ->
  p = pre /\ Ev (QPeerBlocks t hd st nm) r = q /\ post = map (apply_event o) dn.
Proof.
  intros Hpre -> Heq.
  assert (Hnb : Forall (fun e => as_blocks e = None) pre) by (destruct Hpre; repeat constructor).
  clear Hpre. revert p Heq. induction Hnb as [|e pre He Hpre IH]; intros p Heq.
  - destruct p as [|e p]; [by apply cons_inv in Heq as [-> ->]|].
    apply cons_inv in Heq as [-> Heq]. pose proof (as_blocks_apply o dn) as Hf. rewrite Heq in Hf.
    apply Forall_app in Hf as [_ Hf]. inversion Hf; done.
  - destruct p as [|e' p].
    + apply cons_inv in Heq as [-> Heq]. done.
    + apply cons_inv in Heq as [-> Heq]. destruct (IH p Heq) as (-> & H2 & H3). done.
Qed.

Lemma apply_at (o : pc_opts) lib head height pre q (ans : resp (block_request o lib head height)) dn p t b r post :
  cleared o lib head height pre -> q = Ev (block_request o lib head height) ans ->
  pre ++ q :: map (apply_event o) dn = p ++ Ev (QApply t b) r :: post ->
  exists d1 d2, dn = d1 ++ (b, r) :: d2 /\ p = pre ++ q :: map (apply_event o) d1.
Proof.
  intros Hpre -> Heq.
  assert (Hnb : Forall (fun e => as_apply e = None) pre) by (destruct Hpre; repeat constructor).
  clear Hpre. revert p Heq. induction Hnb as [|e pre He Hpre IH]; intros p Heq.
  - destruct p as [|e p]; [by apply (f_equal (fun l => as_apply <$> list.head l)) in Heq|].
    apply cons_inv in Heq as [-> Heq]. revert p Heq. induction dn as [|x dn IH2]; intros p Heq; [by destruct p|].
    destruct p as [|e0 p].
    + exists [], dn. apply (f_equal (fun l => as_apply <$> list.head l)) in Heq. simpl in Heq.
      destruct x as [b' r']. injection Heq as _ -> ->. done.
    + apply cons_inv in Heq as [Hx Heq]. destruct (IH2 p Heq) as (d1 & d2 & -> & Hp). exists (x :: d1), d2.
      split; [done|]. cbn [app] in *. apply cons_inv in Hp as [_ ->]. by rewrite <- Hx.
  - destruct p as [|e' p].
    + apply cons_inv in Heq as [-> Heq]. done.
    + apply cons_inv in Heq as [-> Heq]. destruct (IH p Heq) as (d1 & d2 & H2 & H3). exists d1, d2. by rewrite H3.
Qed.
