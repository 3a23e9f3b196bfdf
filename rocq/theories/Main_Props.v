(** C67: checkpoint options are taken at face value; C81: malformed peer addresses. *)
From Verif Require Import GoBase PeerConn_Model PeerConn_Spec PeerConn_Proofs PeerConn_Props Main_Model Main_Spec.
Import Ascii.

Lemma dec_digit_spec c d : dec_digit c = Some d <-> decimal c d.
Proof. unfold dec_digit, decimal. cbv zeta. case_bool_decide; split; [intros [= <-]; lia|intros [? ?]; f_equal; lia|done|lia]. Qed.
Lemma dec_digit_None c : dec_digit c = None <-> ~ exists d, decimal c d.
Proof.
  split.
  - intros H [d Hd]. apply dec_digit_spec in Hd. congruence.
  - intros H. destruct (dec_digit c) as [d|] eqn:Hd; [|done]. destruct H. exists d. by apply dec_digit_spec.
Qed.
Lemma hex_digit_spec c d : hex_digit c = Some d <-> hexadecimal c d.
Proof.
  unfold hex_digit, hexadecimal. cbv zeta. repeat case_bool_decide; split;
    try (intros [= <-]; lia); try (intros ?; f_equal; lia); try done; lia.
Qed.
Lemma hexadecimal_bound c d : hexadecimal c d -> (d < 16)%N. Proof. unfold hexadecimal. lia. Qed.
Lemma hexadecimal_fun c d d' : hexadecimal c d -> hexadecimal c d' -> d = d'.
Proof. intros H H'. apply hex_digit_spec in H, H'. congruence. Qed.

(** The value of a digit string, from the left *)
Definition all_digits (s : chars) : Prop := Forall (fun c => exists d, decimal c d) s.
Fixpoint value_from (acc : N) (s : chars) : N := match s with [] => acc | c :: r => value_from (acc * 10 + default 0%N (dec_digit c)) r end.
Lemma value_from_app acc s t : value_from acc (s ++ t) = value_from (value_from acc s) t.
Proof. revert acc. induction s as [|c r IH]; intros acc; simpl; [done|apply IH]. Qed.
Lemma value_from_mono acc s : (acc <= value_from acc s)%N.
Proof. revert acc. induction s as [|c r IH]; intros acc; cbn [value_from]; [done|]. etrans; [|apply IH]. lia. Qed.
Lemma decimal_number_value s n : decimal_number s n <-> s <> [] /\ all_digits s /\ value_from 0 s = n.
Proof.
  split.
  - induction 1 as [c d Hd|s n c d Hs IH Hd].
    + split; [done|]. split; [constructor; [by exists d|constructor]|]. cbn [value_from]. apply dec_digit_spec in Hd. rewrite Hd. change (default 0%N (Some d)) with d. lia.
    + destruct IH as (Hne & Hall & Hv). split; [by destruct s|]. split.
      * apply Forall_app. split; [done|]. constructor; [by exists d|constructor].
      * rewrite value_from_app, Hv. cbn [value_from]. apply dec_digit_spec in Hd. rewrite Hd. change (default 0%N (Some d)) with d. lia.
  - intros (Hne & Hall & Hv). revert n Hne Hall Hv. induction s as [|c s IH] using rev_ind; [done|]. intros n _ Hall Hv.
    apply Forall_app in Hall as [Hs Hc]. apply Forall_inv in Hc as [d Hd].
    rewrite value_from_app in Hv. cbn [value_from] in Hv. pose proof Hd as Hd'. apply dec_digit_spec in Hd'. rewrite Hd' in Hv. change (default 0%N (Some d)) with d in Hv.
    destruct (decide (s = [])) as [->|Hne].
    + cbn [value_from] in Hv. rewrite app_nil_l. replace n with d by lia. by constructor.
    + replace n with (10 * value_from 0 s + d)%N by lia. constructor; [|done]. apply IH; done.
Qed.

Lemma max_u64_val : max_u64 = 18446744073709551615%N. Proof. vm_compute. done. Qed.
Lemma two64_val : two64 = 18446744073709551616%N. Proof. vm_compute. done. Qed.
Lemma cutoff_val : (max_u64 / 10 + 1)%N = 1844674407370955162%N. Proof. vm_compute. done. Qed.

Lemma parse_digits_ok acc s : (acc <= max_u64)%N ->
  (parse_digits acc s).2 = None -> all_digits s /\ (parse_digits acc s).1 = value_from acc s /\ (value_from acc s < two64)%N.
Proof.
  revert acc. induction s as [|c r IH]; intros acc Hacc; cbn [parse_digits value_from].
  - intros _. split; [constructor|]. split; [done|]. rewrite max_u64_val in Hacc. rewrite two64_val. lia.
  - destruct (dec_digit c) as [d|] eqn:Hd; [|done]. change (default 0%N (Some d)) with d. case_bool_decide as H1; [done|]. case_bool_decide as H2; [done|].
    intros H. apply IH in H as (Ha & Hv & Hb); [|lia]. split; [|done]. constructor; [|done]. exists d. by apply dec_digit_spec.
Qed.
Lemma parse_digits_complete acc s : all_digits s -> (value_from acc s < two64)%N -> parse_digits acc s = (value_from acc s, None).
Proof.
  revert acc. induction s as [|c r IH]; intros acc Ha Hv; cbn [parse_digits value_from] in *; [done|].
  apply Forall_cons in Ha as [[d Hd] Ha]. apply dec_digit_spec in Hd. rewrite Hd in *; change (default 0%N (Some d)) with d in *.
  pose proof (value_from_mono (acc * 10 + d) r) as Hm. rewrite two64_val in Hv.
  rewrite cutoff_val, max_u64_val. rewrite !bool_decide_false by lia. apply IH; [done|]. by rewrite two64_val.
Qed.
Lemma parse_digits_err acc s e : (parse_digits acc s).2 = Some e -> (parse_digits acc s).1 = match e with PSyntax => 0%N | PRange => max_u64 end.
Proof.
  revert acc. induction s as [|c r IH]; intros acc; cbn [parse_digits]; [done|].
  destruct (dec_digit c) as [d|]; [|by intros [= <-]]. do 2 (case_bool_decide; [by intros [= <-]|]). apply IH.
Qed.
(** ParseUint succeeds exactly on the decimal numbers of a uint64. *)
Lemma parse_uint_ok s n : parse_uint s = (n, None) <-> decimal_number s n /\ (n < two64)%N.
Proof.
  rewrite decimal_number_value. unfold parse_uint. split.
  - destruct s as [|c r]; [done|]. intros H. destruct (parse_digits_ok 0 (c :: r)) as (Ha & Hv & Hb); [rewrite max_u64_val; lia|by rewrite H|].
    rewrite H in Hv. cbn [fst] in Hv. subst n. done.
  - intros ((Hne & Ha & <-) & Hb). destruct s; [done|]. by apply parse_digits_complete.
Qed.
Lemma parse_uint_err s e : (parse_uint s).2 = Some e -> (parse_uint s).1 = match e with PSyntax => 0%N | PRange => max_u64 end.
Proof. destruct s; [by intros [= <-]|apply parse_digits_err]. Qed.

Lemma split_colon_spec s : match split_colon s with
  | (h, Some i) => s = h ++ colon :: i /\ colon ∉ h
  | (h, None) => h = s /\ colon ∉ s
  end.
Proof.
  induction s as [|c r IH]; cbn [split_colon]; [split; [done|apply not_elem_of_nil]|].
  case_bool_decide as Hc; [subst; split; [done|apply not_elem_of_nil]|].
  destruct (split_colon r) as [h [i|]]; destruct IH as [-> Hn]; (split; [done|]); apply not_elem_of_cons; split; congruence || done.
Qed.
Lemma split_colon_at h i : colon ∉ h -> split_colon (h ++ colon :: i) = (h, Some i).
Proof.
  induction h as [|c r IH]; intros Hn; cbn [split_colon app]; [by rewrite bool_decide_true|].
  apply not_elem_of_cons in Hn as [Hc Hn]. rewrite bool_decide_false by congruence. by rewrite IH.
Qed.
Lemma colon_not_digit h n : decimal_number h n -> colon ∉ h.
Proof.
  rewrite decimal_number_value. intros (_ & Ha & _) Hin. unfold all_digits in Ha. rewrite Forall_forall in Ha.
  destruct (Ha _ Hin) as (d & Hd & Heq). change (N_of_ascii colon) with 58%N in Heq. lia.
Qed.

(** Induction by pairs *)
Lemma pair_ind (P : chars -> Prop) : P [] -> (forall c, P [c]) -> (forall p q r, P r -> P (p :: q :: r)) -> forall s, P s.
Proof.
  intros H0 H1 H2 s. assert (H : P s /\ forall c, P (c :: s)); [|apply H]. induction s as [|c r [IH1 IH2]]; [done|]. split; [apply IH2|].
  intros c'. by apply H2.
Qed.
Lemma byte_value a b : (a < 16)%N -> (b < 16)%N -> N_of_ascii (ascii_of_N (a * 16 + b)) = (16 * a + b)%N.
Proof. intros Ha Hb. rewrite N_ascii_embedding by lia. lia. Qed.
Lemma hex_decode_ok s : forall t, hex_decode s = (t, false) <-> hex_text s t.
Proof.
  induction s as [|c|p q r IH] using pair_ind; intros t; cbn [hex_decode].
  - split; [intros [= <-]; constructor|by inversion 1].
  - split; [done|inversion 1].
  - split.
    + destruct (hex_digit p) as [a|] eqn:Ha; [|done]. destruct (hex_digit q) as [b|] eqn:Hb; [|done].
      apply hex_digit_spec in Ha, Hb. destruct (hex_decode r) as [d e]. intros [= <- ->].
      econstructor; [exact Ha|exact Hb| |by apply IH]. apply byte_value; by eapply hexadecimal_bound.
    + inversion 1 as [|? ? a b x ? t' Ha Hb Hx Ht]; subst. pose proof (hexadecimal_bound _ _ Ha). pose proof (hexadecimal_bound _ _ Hb).
      apply hex_digit_spec in Ha, Hb. rewrite Ha, Hb. apply IH in Ht. rewrite Ht. do 2 f_equal.
      rewrite <- (ascii_N_embedding x), Hx. f_equal. lia.
Qed.
(** The bytes kept when decoding fails: those of the longest prefix that is hexadecimal text. *)
Lemma hex_decode_prefix s : exists u v, s = u ++ v /\ hex_text u (hex_decode s).1 /\
  ((hex_decode s).2 = false -> v = []) /\ ((hex_decode s).2 = true -> ~ exists p q v' a b, v = p :: q :: v' /\ hexadecimal p a /\ hexadecimal q b).
Proof.
  induction s as [|c|p q r IH] using pair_ind; cbn [hex_decode].
  - exists [], []. split; [done|]. split; [constructor|]. done.
  - exists [], [c]. split; [done|]. split; [constructor|]. split; [done|]. intros _ (? & ? & ? & ? & ? & [=] & _).
  - destruct (hex_digit p) as [a|] eqn:Ha; [destruct (hex_digit q) as [b|] eqn:Hb|].
    + destruct (hex_decode r) as [d e]. cbn [fst snd] in *. destruct IH as (u & v & -> & Hu & Hf & Ht).
      apply hex_digit_spec in Ha, Hb. exists (p :: q :: u), v. split; [done|]. split; [|done].
      econstructor; [exact Ha|exact Hb| |done]. apply byte_value; by eapply hexadecimal_bound.
    + exists [], (p :: q :: r). split; [done|]. split; [constructor|]. split; [done|].
      intros _ (p' & q' & v' & a' & b' & [= <- <- <-] & _ & Hq). apply hex_digit_spec in Hq. congruence.
    + exists [], (p :: q :: r). split; [done|]. split; [constructor|]. split; [done|].
      intros _ (p' & q' & v' & a' & b' & [= <- <- <-] & Hp & _). apply hex_digit_spec in Hp. congruence.
Qed.

Lemma parse_face_value opt cp : face_value opt cp -> parse_checkpoint opt = Done cp.
Proof.
  intros (h & i & id & Hs & Hh & Hb & Hi & Hid). unfold parse_checkpoint, chars_of. rewrite Hs. change ":"%char with colon.
  rewrite split_colon_at by (by eapply colon_not_digit).
  assert (Hp : parse_uint h = (cp_height cp, None)) by (apply parse_uint_ok; done). apply hex_decode_ok in Hi. rewrite Hp, Hi.
  unfold string_of. cbn [fst]. rewrite Strings.String.string_of_list_ascii_of_string, <- Hid. by destruct cp.
Qed.

(** C67: well-formed options become, in order, exactly the checkpoints they denote. *)
Theorem C67_well_formed (opts : list string) (cps : list checkpoint) :
  Forall2 face_value opts cps -> parse_checkpoints opts = Done cps.
Proof. induction 1 as [|o cp os cs Ho _ IH]; [done|]. cbn [parse_checkpoints]. rewrite (parse_face_value _ _ Ho). simpl. by rewrite IH. Qed.

(** An option denotes at most one checkpoint. *)
Theorem C67_unambiguous (opt : string) (cp cp' : checkpoint) : face_value opt cp -> face_value opt cp' -> cp = cp'.
Proof. intros H H'. apply parse_face_value in H, H'. congruence. Qed.

(** C67 in full: when start-up gets past the options, each was well formed and denotes its checkpoint. *)
Definition taken_at_face_value : Prop := forall opts cps, parse_checkpoints opts = Done cps -> Forall2 face_value opts cps.

Definition is_bad (opt : string) : Prop := ~ well_formed opt.
Lemma bad_of_parse opt cp : parse_checkpoint opt = Done cp -> ~ face_value opt cp -> is_bad opt.
Proof. intros Hp Hn [cp' Hf]. pose proof (parse_face_value _ _ Hf). congruence. Qed.

(** REFUTED: a misspelt identifier becomes a checkpoint that demands another block, a misspelt height one at height 0, and a height too
    large one at the greatest height. *)
Theorem C67_face_value_refuted :
  ~ taken_at_face_value /\
  (is_bad "100:12zz" /\ parse_checkpoint "100:12zz" = Done (Checkpoint 100 (Some (string_of [ascii_of_N 18])))) /\
  (is_bad "1oo:1234" /\ parse_checkpoint "1oo:1234" = Done (Checkpoint 0 (Some (string_of [ascii_of_N 18; ascii_of_N 52])))) /\
  (is_bad "99999999999999999999:12" /\ parse_checkpoint "99999999999999999999:12" = Done (Checkpoint max_u64 (Some (string_of [ascii_of_N 18])))).
Proof.
  assert (Hbad : forall opt, (let '(h, i) := split_colon (chars_of opt) in
      match i with Some i => (parse_uint h).2 <> None \/ (hex_decode i).2 = true | None => True end) -> is_bad opt).
  { intros opt H [cp (h & i & id & Hs & Hh & Hb & Hi & Hid)]. unfold chars_of in H. rewrite Hs in H. change ":"%char with colon in H.
    rewrite split_colon_at in H by (by eapply colon_not_digit). apply hex_decode_ok in Hi. rewrite Hi in H.
    assert (Hp : parse_uint h = (cp_height cp, None)) by (apply parse_uint_ok; done). rewrite Hp in H. by destruct H. }
  assert (H1 : is_bad "100:12zz") by (apply Hbad; vm_compute; by right).
  split; [|split; [|split]].
  - intros H. specialize (H ["100:12zz"] [Checkpoint 100 (Some (string_of [ascii_of_N 18]))]).
    assert (Hf : parse_checkpoints ["100:12zz"] = Done [Checkpoint 100 (Some (string_of [ascii_of_N 18]))]) by (vm_compute; done).
    apply H in Hf. apply Forall2_cons_1 in Hf as [Hf _]. apply H1. by eexists.
  - split; [done|]. vm_compute; done.
  - split; [apply Hbad; vm_compute; by left|]. vm_compute; done.
  - split; [apply Hbad; vm_compute; by left|]. vm_compute; done.
Qed.

(** What every option becomes: without a colon the program stops; otherwise there is exactly one checkpoint, whose height is the number
    before the first colon if that is one, and otherwise 0 or the greatest uint64, and whose identifier is spelt by the longest
    hexadecimal prefix (of whole bytes) of what follows. *)
Theorem C67_every_option_partial (opt : string) :
  let s := Strings.String.list_ascii_of_string opt in
  (colon ∉ s /\ parse_checkpoint opt = Panic) \/
  (exists h u v cp id, s = h ++ colon :: u ++ v /\ colon ∉ h /\ parse_checkpoint opt = Done cp /\
    ((decimal_number h (cp_height cp) /\ (cp_height cp < two64)%N) \/
     ((~ exists n, decimal_number h n /\ (n < two64)%N) /\ (cp_height cp = 0%N \/ cp_height cp = max_u64))) /\
    cp_id cp = Some id /\ hex_text u (Strings.String.list_ascii_of_string id) /\
    ~ exists p q v' a b, v = p :: q :: v' /\ hexadecimal p a /\ hexadecimal q b).
Proof.
  intros s. unfold parse_checkpoint, chars_of. fold s. pose proof (split_colon_spec s) as Hs.
  destruct (split_colon s) as [h [i|]]; [|left; by destruct Hs]. right. destruct Hs as [-> Hn].
  destruct (hex_decode_prefix i) as (u & v & Hi & Hu & Hf & Ht). eexists h, u, v, _, _. split; [by rewrite Hi|]. split; [done|]. split; [done|].
  cbn [cp_height cp_id]. split; [|split; [done|split]].
  - destruct (parse_uint h) as [n [e|]] eqn:Hp.
    + right. split.
      * intros [m Hm]. apply parse_uint_ok in Hm. congruence.
      * pose proof (parse_uint_err h e) as He. rewrite Hp in He. specialize (He eq_refl). cbn [fst] in *. destruct e; auto.
    + left. by apply parse_uint_ok.
  - unfold string_of. by rewrite Strings.String.list_ascii_of_string_of_list_ascii.
  - destruct (hex_decode i).2; [by apply Ht|]. rewrite (Hf eq_refl). intros (? & ? & ? & ? & ? & [=] & _).
Qed.

Lemma parse_checkpoints_lookup opts cps i opt : parse_checkpoints opts = Done cps -> opts !! i = Some opt ->
  exists cp, cps !! i = Some cp /\ parse_checkpoint opt = Done cp.
Proof.
  revert cps i. induction opts as [|o os IH]; intros cps i; [done|]. cbn [parse_checkpoints].
  destruct (parse_checkpoint o) as [cp|] eqn:Hp; [|done]. cbn [obind]. destruct (parse_checkpoints os) as [cs|]; [|done]. cbn [obind].
  intros [= <-]. destruct i as [|i]; simpl; [intros [= <-]; by exists cp|]. by apply IH.
Qed.
Lemma hex_decode_stuck u t v : hex_text u t -> (~ exists p q v' a b, v = p :: q :: v' /\ hexadecimal p a /\ hexadecimal q b) ->
  (hex_decode (u ++ v)).1 = t.
Proof.
  intros Hu Hv. induction Hu as [|p q a b x s t Ha Hb Hx Hs IH]; cbn [app].
  - destruct v as [|p [|q r]]; [done..|]. cbn [hex_decode].
    destruct (hex_digit p) as [a|] eqn:Ha; [|done]. destruct (hex_digit q) as [b|] eqn:Hb; [|done].
    apply hex_digit_spec in Ha, Hb. destruct Hv. by exists p, q, r, a, b.
  - cbn [hex_decode]. apply hex_digit_spec in Ha, Hb. rewrite Ha, Hb. destruct (hex_decode (s ++ v)) as [d e]. cbn [fst] in *. subst d. f_equal.
    rewrite <- (ascii_N_embedding x), Hx. f_equal. lia.
Qed.

(** The consequence: with a misspelt identifier, only peers whose block at that height has as its identifier the bytes of the
    hexadecimal prefix [u] are accepted.  In particular no peer that has the intended, longer, identifier is. *)
Theorem C67_misspelt_refuses_peers (opts : list string) (o : pc_opts) (i : nat) (opt : string) (h u v : chars) (cp : checkpoint)
    (id : string) (env : environment) (n : nat) :
  parse_checkpoints opts = Done (po_checkpoints o) -> opts !! i = Some opt ->
  Strings.String.list_ascii_of_string opt = h ++ colon :: u ++ v -> colon ∉ h ->
  hex_text u (Strings.String.list_ascii_of_string id) ->
  (~ exists p q v' a b, v = p :: q :: v' /\ hexadecimal p a /\ hexadecimal q b) -> local_chain_ok o env n ->
  po_checkpoints o !! i = Some cp -> str (ans_checkpoint o env n i cp).1 <> id ->
  (run env n (handshake o)).2 <> Done None.
Proof.
  intros Hp Hi Hs Hn Hid Hv Hok Hlk Hne Hrun. apply (C45_passes_iff o env n Hok) in Hrun as (_ & _ & _ & Hcp).
  destruct (parse_checkpoints_lookup _ _ _ _ Hp Hi) as (cp' & Hlk' & Hpc). rewrite Hlk in Hlk'. injection Hlk' as <-.
  destruct (Hcp _ _ Hlk) as [_ Heq].
  unfold parse_checkpoint, chars_of in Hpc. rewrite Hs, split_colon_at in Hpc by done. injection Hpc as Hpc.
  apply Hne. rewrite Heq, <- Hpc. cbn [cp_id]. rewrite (hex_decode_stuck _ _ _ Hid Hv). unfold string_of. cbn [str].
  apply Strings.String.string_of_list_ascii_of_string.
Qed.

(** A checkpoint list that is taken at face value, and a misspelt one that parses. *)
Example C67_nonvacuous : face_value "100:12Ab" (Checkpoint 100 (Some (string_of [ascii_of_N 18; ascii_of_N 171]))) /\
  parse_checkpoints ["100:12Ab"; "7:"] = Done [Checkpoint 100 (Some (string_of [ascii_of_N 18; ascii_of_N 171])); Checkpoint 7 (Some "")].
Proof.
  split; [|vm_compute; done]. exists ["1"%char; "0"%char; "0"%char], ["1"%char; "2"%char; "A"%char; "b"%char], (string_of [ascii_of_N 18; ascii_of_N 171]).
  split; [done|]. split; [|split; [done|split; [|done]]].
  - apply (parse_uint_ok ["1"%char; "0"%char; "0"%char] 100). vm_compute. done.
  - apply hex_decode_ok. vm_compute. done.
Qed.
(** The hypotheses of [C67_misspelt_refuses_peers] for "100:12zz": the prefix "12", stuck at "zz". *)
Example C67_misspelt_nonvacuous : Strings.String.list_ascii_of_string "100:12zz" = ["1"; "0"; "0"]%char ++ colon :: ["1"; "2"]%char ++ ["z"; "z"]%char /\
  hex_text ["1"; "2"]%char (Strings.String.list_ascii_of_string (string_of [ascii_of_N 18])) /\
  ~ exists p q v' a b, ["z"; "z"]%char = p :: q :: v' /\ hexadecimal p a /\ hexadecimal q b.
Proof.
  split; [done|]. split; [apply hex_decode_ok; vm_compute; done|]. intros (p & q & v' & a & b & [= <- <- <-] & Hp & _).
  apply hex_digit_spec in Hp. vm_compute in Hp. done.
Qed.

(** C81: one malformed peer address does not keep the node from starting: the others are used. *)
Definition malformed_peers_skipped {A} (parse : string -> option A) : Prop :=
  forall opts, parse_peers parse opts = Done (omap parse opts).
(** REFUTED: it stops the program, whatever the other addresses are. *)
Theorem C81_malformed_peer_stops {A} (parse : string -> option A) (opts : list string) (bad : string) :
  parse bad = None -> bad ∈ opts -> parse_peers parse opts = Panic.
Proof.
  intros Hb. induction opts as [|o r IH]; [by intros ?%elem_of_nil|]. cbn [parse_peers]. rewrite elem_of_cons. intros [<-|Hin]; [by rewrite Hb|].
  destruct (parse o); [|done]. by rewrite IH.
Qed.
Theorem C81_malformed_peers_skipped_refuted {A} (parse : string -> option A) (bad : string) : parse bad = None -> ~ malformed_peers_skipped parse.
Proof. intros Hb H. specialize (H [bad]). rewrite (C81_malformed_peer_stops parse [bad] bad) in H; [done|done|apply elem_of_list_here]. Qed.
Theorem C81_peers_partial {A} (parse : string -> option A) (opts : list string) (l : list A) :
  parse_peers parse opts = Done l <-> Forall2 (fun o a => parse o = Some a) opts l.
Proof.
  split.
  - revert l. induction opts as [|o r IH]; intros l; cbn [parse_peers]; [intros [= <-]; constructor|].
    destruct (parse o) as [a|] eqn:Ha; [|done]. destruct (parse_peers parse r) as [l'|]; [|done]. intros [= <-]. constructor; [done|by apply IH].
  - induction 1 as [|o a r l Ha _ IH]; [done|]. cbn [parse_peers]. by rewrite Ha, IH.
Qed.
Example C81_nonvacuous : let parse := fun s : string => if bool_decide (s = "bad") then None else Some s in
  parse_peers parse ["a"; "b"] = Done ["a"; "b"] /\ parse_peers parse ["a"; "bad"; "b"] = Panic.
Proof. done. Qed.

Print Assumptions C67_well_formed. Print Assumptions C67_unambiguous. Print Assumptions C67_face_value_refuted.
Print Assumptions C67_every_option_partial. Print Assumptions C67_misspelt_refuses_peers.
Print Assumptions C81_malformed_peer_stops. Print Assumptions C81_malformed_peers_skipped_refuted. Print Assumptions C81_peers_partial.
