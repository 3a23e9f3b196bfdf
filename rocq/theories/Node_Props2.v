(** Property theorems C62 (RPC), C63 (message ids), C64 and C78 (identity). *)
From Verif Require Import GoBase Gossip_Model Toggle_Model Node_Model.
Import Ascii.

(** ** C62 *)
(** Whatever bytes arrive, the answer is the encoding of exactly one response: the gossip status if it was asked for, an error
    otherwise. [g] is the toggle, whose flag IsEnabled returns (gossip_toggle.go:30-34). *)
Theorem C62_one_response : forall unm mar g data,
  exists r, handle_rpc unm mar (tg_enabled g) data = mar r /\
    (forall b, r = PStatus b <-> unm data = inl PGossipStatus /\ b = tg_enabled g) /\
    ((exists msg, r = PError msg) <-> unm data <> inl PGossipStatus).
Proof.
  intros unm mar g data. unfold handle_rpc. eexists. split; [reflexivity|].
  destruct (unm data) as [[| |]|msg]; cbn [handle_request]; split; intros; split; intros; try naive_solver.
Qed.
Print Assumptions C62_one_response.
(** ... and it is sent, provided that responses can be encoded. *)
Theorem C62_always_answered : forall unm mar g data, (forall r, mar r <> None) -> handle_rpc unm mar (tg_enabled g) data <> None.
Proof. intros. unfold handle_rpc. done. Qed.
Print Assumptions C62_always_answered.
Example C62_nonvacuous :
  let unm := fun s => if bool_decide (s = "status") then inl PGossipStatus else if bool_decide (s = "") then inl PNone else inr "cannot parse" in
  let mar := fun r => match r with PStatus true => Some "on" | PStatus false => Some "off" | PError m => Some m end in
  handle_rpc unm mar (tg_enabled (tg_start (TgOpts true false) tg_new)) "status" = Some "on" /\
  handle_rpc unm mar (tg_enabled tg_new) "status" = Some "off" /\ handle_rpc unm mar true "" = Some "expected request was nil" /\
  handle_rpc unm mar true "x" = Some "cannot parse".
Proof. vm_compute. done. Qed.

(** ** C63 *)
(** Reading back a character of the base64 alphabet *)
Definition b64_val (c : ascii) : N := from_option N.of_nat 64%N (Strings.String.index 0 (Strings.String.String c Strings.String.EmptyString) b64_alphabet).
Lemma b64_val_char n : (n < 64)%N -> b64_val (b64_char n) = n.
Proof.
  intros Hn. assert (H : forallb (fun k => (b64_val (b64_char (N.of_nat k)) =? N.of_nat k)%N) (seq 0 64) = true) by (vm_compute; done).
  rewrite forallb_forall in H. specialize (H (N.to_nat n)). rewrite N2Nat.id in H. apply N.eqb_eq, H. apply in_seq. lia.
Qed.
Lemma b64_char_inj a b : (a < 64)%N -> (b < 64)%N -> b64_char a = b64_char b -> a = b.
Proof. intros Ha Hb H. rewrite <- (b64_val_char a Ha), <- (b64_val_char b Hb). by f_equal. Qed.
Lemma hi_lo (k a b : N) : (k <> 0 -> a / k = b / k -> a mod k = b mod k -> a = b)%N.
Proof. intros Hk H1 H2. rewrite (N.div_mod a k Hk), (N.div_mod b k Hk). by rewrite H1, H2. Qed.
Lemma glue (m a a' b b' : N) : (b < m -> b' < m -> a * m + b = a' * m + b' -> a = a' /\ b = b')%N.
Proof.
  intros Hb Hb' H. assert (Hm : m <> 0%N) by lia. split.
  - assert (E1 : ((a * m + b) / m)%N = a) by (rewrite N.div_add_l by done; rewrite (N.div_small b m Hb); lia).
    assert (E2 : ((a' * m + b') / m)%N = a') by (rewrite N.div_add_l by done; rewrite (N.div_small b' m Hb'); lia).
    congruence.
  - assert (E1 : ((a * m + b) mod m)%N = b) by (rewrite N.add_comm, N.mod_add by done; by apply N.mod_small).
    assert (E2 : ((a' * m + b') mod m)%N = b') by (rewrite N.add_comm, N.mod_add by done; by apply N.mod_small).
    congruence.
Qed.
Lemma div_bound (a k m : N) : (k <> 0 -> a < k * m -> a / k < m)%N.
Proof. intros Hk H. apply N.div_lt_upper_bound; lia. Qed.
Lemma b64_inj : forall (n : nat) (s t : list N), (length s <= n)%nat -> Forall (fun x => (x < 256)%N) s -> Forall (fun x => (x < 256)%N) t -> b64 s = b64 t -> s = t.
Proof.
  assert (Hq : forall a, (a < 256 -> a / 4 < 64)%N) by (intros; apply div_bound; lia).
  assert (Hm : forall a b, (a < 256 -> b < 256 -> (a mod 4) * 16 + b / 16 < 64)%N).
  { intros a b Ha Hb. pose proof (N.mod_lt a 4 ltac:(done)). assert (b / 16 < 16)%N by (apply div_bound; lia). lia. }
  assert (Hm' : forall b c, (b < 256 -> c < 256 -> (b mod 16) * 4 + c / 64 < 64)%N).
  { intros b c Hb Hc. pose proof (N.mod_lt b 16 ltac:(done)). assert (c / 64 < 4)%N by (apply div_bound; lia). lia. }
  assert (Hl : forall c, (c mod 64 < 64)%N) by (intros; by apply N.mod_lt).
  assert (H2 : forall a, ((a mod 4) * 16 < 64)%N) by (intros a; pose proof (N.mod_lt a 4 ltac:(done)); lia).
  assert (H3 : forall a, ((a mod 16) * 4 < 64)%N) by (intros a; pose proof (N.mod_lt a 16 ltac:(done)); lia).
  assert (D16 : forall b, (b < 256 -> b / 16 < 16)%N) by (intros; apply div_bound; lia).
  assert (D64 : forall b, (b < 256 -> b / 64 < 4)%N) by (intros; apply div_bound; lia).
  induction n as [|n IH]; intros s t Hlen Hs Ht He.
  { destruct s; [|cbn in Hlen; lia]. destruct t as [|a [|b [|c t]]]; done. }
  destruct s as [|a [|b [|c s]]], t as [|a' [|b' [|c' t]]]; cbn [b64] in He; try discriminate He; try done.
  - inversion Hs as [|? ? Ba _]; subst. inversion Ht as [|? ? Ba' _]; subst.
    injection He as E1 E2. apply b64_char_inj in E1; [|by apply Hq..]. apply b64_char_inj in E2; [|done..].
    f_equal. apply (hi_lo 4); [done|done|lia].
  - inversion Hs as [|? ? Ba Hs1]; subst. inversion Hs1 as [|? ? Bb _]; subst. inversion Ht as [|? ? Ba' Ht1]; subst. inversion Ht1 as [|? ? Bb' _]; subst.
    injection He as E1 E2 E3. apply b64_char_inj in E1; [|by apply Hq..]. apply b64_char_inj in E2; [|by apply Hm..]. apply b64_char_inj in E3; [|done..].
    apply glue in E2 as [E2 E4]; [|by apply D16..].
    f_equal; [by apply (hi_lo 4)|]. f_equal. apply (hi_lo 16); [done|done|lia].
  - inversion Hs as [|? ? Ba Hs1]; subst. inversion Hs1 as [|? ? Bb Hs2]; subst. inversion Hs2 as [|? ? Bc Hs3]; subst.
    inversion Ht as [|? ? Ba' Ht1]; subst. inversion Ht1 as [|? ? Bb' Ht2]; subst. inversion Ht2 as [|? ? Bc' Ht3]; subst.
    injection He as E1 E2 E3 E5 E6. apply b64_char_inj in E1; [|by apply Hq..]. apply b64_char_inj in E2; [|by apply Hm..].
    apply b64_char_inj in E3; [|by apply Hm'..]. apply b64_char_inj in E5; [|done..].
    apply glue in E2 as [E2 E7]; [|by apply D16..]. apply glue in E3 as [E3 E8]; [|by apply D64..].
    f_equal; [by apply (hi_lo 4)|]. f_equal; [by apply (hi_lo 16)|]. f_equal; [by apply (hi_lo 64)|].
    apply IH; [cbn in Hlen; lia|done|done|done].
Qed.
Lemma bytes_of_lt s : Forall (fun x => (x < 256)%N) (bytes_of s).
Proof.
  unfold bytes_of. apply Forall_forall. intros x Hx. apply elem_of_list_fmap in Hx as (c & -> & _). apply N_ascii_bounded.
Qed.
Lemma bytes_of_inj s t : bytes_of s = bytes_of t -> s = t.
Proof.
  unfold bytes_of. intros H.
  assert (E : Strings.String.list_ascii_of_string s = Strings.String.list_ascii_of_string t).
  { revert H. generalize (Strings.String.list_ascii_of_string s) (Strings.String.list_ascii_of_string t). intros l. induction l as [|a l IH]; intros [|b l'] H; try done.
    injection H as H1 H2. f_equal; [|by apply IH]. rewrite <- (ascii_N_embedding a), <- (ascii_N_embedding b). by f_equal. }
  rewrite <- (Strings.String.string_of_list_ascii_of_string s), <- (Strings.String.string_of_list_ascii_of_string t). by f_equal.
Qed.
Lemma b64_string_inj s t : b64_string s = b64_string t -> s = t.
Proof.
  unfold b64_string. intros H. apply bytes_of_inj.
  apply (b64_inj (length (bytes_of s))); [done|apply bytes_of_lt..|].
  rewrite <- (Strings.String.list_ascii_of_string_of_list_ascii (b64 (bytes_of s))), <- (Strings.String.list_ascii_of_string_of_list_ascii (b64 (bytes_of t))). by f_equal.
Qed.
(** The test vectors of RFC 4648, without padding *)
Example b64_examples : map b64_string [""; "f"; "fo"; "foo"; "foob"; "fooba"; "foobar"] = [""; "Zg"; "Zm8"; "Zm9v"; "Zm9vYg"; "Zm9vYmE"; "Zm9vYmFy"].
Proof. vm_compute. done. Qed.
(** Two messages of the block and transaction topics have the same id exactly if the hashes of their data are equal, whoever sent
    them; other topics use the default. *)
Theorem C63_content_ids : forall sha dflt m m' t t',
  pm_topic m = Some t -> pm_topic m' = Some t' -> t ∈ ["koinos.blocks"; "koinos.transactions"] -> t' ∈ ["koinos.blocks"; "koinos.transactions"] ->
  (generate_message_id sha dflt m = generate_message_id sha dflt m' <-> sha (pm_data m) = sha (pm_data m')) /\
  exists id, generate_message_id sha dflt m = Done id.
Proof.
  intros sha dflt m m' t t' Ht Ht' Hin Hin'. unfold generate_message_id. rewrite Ht, Ht'. unfold block_topic, tx_topic.
  assert (Hb : forall x : string, x ∈ ["koinos.blocks"; "koinos.transactions"] -> bool_decide (x = "koinos.blocks") || bool_decide (x = "koinos.transactions") = true).
  { intros x Hx. apply orb_true_iff. rewrite !bool_decide_eq_true. apply elem_of_cons in Hx as [->|Hx]; [by left|]. apply elem_of_list_singleton in Hx as ->. by right. }
  rewrite (Hb t Hin), (Hb t' Hin'). split; [|by eexists]. split; [|by intros ->]. intros [= H]. by apply b64_string_inj.
Qed.
Theorem C63_other_topics : forall sha dflt m t, pm_topic m = Some t -> t ∉ ["koinos.blocks"; "koinos.transactions"] -> generate_message_id sha dflt m = Done (dflt m).
Proof.
  intros sha dflt m t Ht Hin. unfold generate_message_id. rewrite Ht. unfold block_topic, tx_topic.
  rewrite !bool_decide_false; [done|set_solver|set_solver].
Qed.
Print Assumptions C63_content_ids.
Print Assumptions C63_other_topics.
Example C63_nonvacuous : let sha := fun s : string => s in let m := fun d f => PbMessage (Some "koinos.blocks") d f "1" in
  generate_message_id sha (fun _ => "") (m "foobar" "alice") = Done "Zm9vYmFy" /\
  generate_message_id sha (fun _ => "") (m "foobar" "alice") = generate_message_id sha (fun _ => "") (m "foobar" "bob") /\
  generate_message_id sha (fun _ => "") (m "foobar" "alice") <> generate_message_id sha (fun _ => "") (m "foobaz" "alice").
Proof. vm_compute. done. Qed.

(** ** C64 *)
Lemma big_endian_eq b0 b1 b2 b3 b4 b5 b6 b7 : big_endian [b0; b1; b2; b3; b4; b5; b6; b7] =
  (b0 * 2 ^ 56 + b1 * 2 ^ 48 + b2 * 2 ^ 40 + b3 * 2 ^ 32 + b4 * 2 ^ 24 + b5 * 2 ^ 16 + b6 * 2 ^ 8 + b7)%N.
Proof. unfold big_endian. cbn [fold_left]. lia. Qed.
(** The generator seed is the first eight bytes of the hash, read big-endian, as a signed 64-bit integer. *)
Theorem C64_generator_seed : forall sha seed b0 b1 b2 b3 b4 b5 b6 b7 rest,
  bytes_of (sha seed) = b0 :: b1 :: b2 :: b3 :: b4 :: b5 :: b6 :: b7 :: rest ->
  exists u, Z.of_N u = (Z.of_N b0 * 2 ^ 56 + Z.of_N b1 * 2 ^ 48 + Z.of_N b2 * 2 ^ 40 + Z.of_N b3 * 2 ^ 32 + Z.of_N b4 * 2 ^ 24 + Z.of_N b5 * 2 ^ 16 + Z.of_N b6 * 2 ^ 8 + Z.of_N b7)%Z /\
    (u < 2 ^ 64)%N /\ seed_to_int64 sha seed = if (u <? 2 ^ 63)%N then Z.of_N u else (Z.of_N u - 2 ^ 64)%Z.
Proof.
  intros sha seed b0 b1 b2 b3 b4 b5 b6 b7 rest H. exists (big_endian [b0; b1; b2; b3; b4; b5; b6; b7]).
  pose proof (bytes_of_lt (sha seed)) as Hlt. rewrite H in Hlt. repeat (apply Forall_cons in Hlt as [? Hlt]).
  assert (Hu : (big_endian [b0; b1; b2; b3; b4; b5; b6; b7] < 2 ^ 64)%N) by (rewrite big_endian_eq; lia).
  split; [rewrite big_endian_eq; lia|]. split; [done|]. unfold seed_to_int64. rewrite H.
  change (take 8 (b0 :: b1 :: b2 :: b3 :: b4 :: b5 :: b6 :: b7 :: rest)) with [b0; b1; b2; b3; b4; b5; b6; b7].
  revert Hu. generalize (big_endian [b0; b1; b2; b3; b4; b5; b6; b7]). intros u Hu. unfold wrap_i64.
  destruct (N.ltb_spec u (2 ^ 63)).
  - rewrite Z.mod_small by lia. lia.
  - replace (Z.of_N u + 2 ^ 63)%Z with (Z.of_N u - 2 ^ 63 + 1 * 2 ^ 64)%Z by lia. rewrite Z.mod_add by lia. rewrite Z.mod_small by lia. lia.
Qed.
(** Distinct prefixes give distinct generator seeds. *)
Lemma big_endian_inj_len : forall bs cs, length bs = length cs -> Forall (fun x => (x < 256)%N) bs -> Forall (fun x => (x < 256)%N) cs -> big_endian bs = big_endian cs -> bs = cs.
Proof.
  intros bs. induction bs as [|b bs IH] using rev_ind; intros cs Hl Hb Hc He.
  - by destruct cs.
  - destruct cs as [|c cs _] using rev_ind; [rewrite app_length in Hl; cbn in Hl; lia|].
    rewrite !app_length in Hl. cbn in Hl. apply Forall_app in Hb as [Hb Hb1]. apply Forall_app in Hc as [Hc Hc1].
    apply Forall_cons in Hb1 as [Hb1 _]. apply Forall_cons in Hc1 as [Hc1 _].
    unfold big_endian in He. rewrite !fold_left_app in He. cbn [fold_left] in He. fold (big_endian bs) in He. fold (big_endian cs) in He.
    apply glue in He as [E1 E2]; [|done..]. f_equal; [apply IH; [lia|done..]|]. by f_equal.
Qed.
Theorem C64_distinct_prefixes : forall sha seed seed', (8 <= length (bytes_of (sha seed)))%nat -> (8 <= length (bytes_of (sha seed')))%nat ->
  seed_to_int64 sha seed = seed_to_int64 sha seed' -> take 8 (bytes_of (sha seed)) = take 8 (bytes_of (sha seed')).
Proof.
  intros sha seed seed' Hl Hl' He. unfold seed_to_int64 in He.
  assert (Hb : forall s, (8 <= length (bytes_of s))%nat -> length (take 8 (bytes_of s)) = 8%nat /\ Forall (fun x => (x < 256)%N) (take 8 (bytes_of s)) /\ (big_endian (take 8 (bytes_of s)) < 2 ^ 64)%N).
  { intros s Hs. pose proof (bytes_of_lt s) as Hlt. assert (Hf : Forall (fun x => (x < 256)%N) (take 8 (bytes_of s))) by by apply Forall_take.
    assert (Hn : length (take 8 (bytes_of s)) = 8%nat) by (rewrite take_length; lia). split; [done|]. split; [done|].
    destruct (take 8 (bytes_of s)) as [|b0 [|b1 [|b2 [|b3 [|b4 [|b5 [|b6 [|b7 [|]]]]]]]]]; try (cbn in Hn; lia).
    repeat (apply Forall_cons in Hf as [? Hf]). rewrite big_endian_eq. lia. }
  destruct (Hb _ Hl) as (H1 & H2 & H3). destruct (Hb _ Hl') as (H1' & H2' & H3').
  apply big_endian_inj_len; [lia|done|done|]. revert He H3 H3'.
  generalize (big_endian (take 8 (bytes_of (sha seed)))) (big_endian (take 8 (bytes_of (sha seed')))). intros u v He Hu Hv. unfold wrap_i64 in He.
  assert (Hw : forall u : N, (u < 2 ^ 64)%N -> ((Z.of_N u + 2 ^ 63) `mod` 2 ^ 64)%Z = if (u <? 2 ^ 63)%N then (Z.of_N u + 2 ^ 63)%Z else (Z.of_N u - 2 ^ 63)%Z).
  { intros w Hw. destruct (N.ltb_spec w (2 ^ 63)); [apply Z.mod_small; lia|].
    replace (Z.of_N w + 2 ^ 63)%Z with (Z.of_N w - 2 ^ 63 + 1 * 2 ^ 64)%Z by lia. rewrite Z.mod_add by lia. apply Z.mod_small. lia. }
  rewrite (Hw u Hu), (Hw v Hv) in He. destruct (N.ltb_spec u (2 ^ 63)), (N.ltb_spec v (2 ^ 63)); lia.
Qed.
(** The identity is a function of a non-empty seed; an empty seed is replaced by the fresh one. *)
Theorem C64_identity : forall K sha (key : Z -> option K) fresh fresh' seed,
  (seed <> "" -> generate_private_key sha key fresh seed = generate_private_key sha key fresh' seed /\
     forall seed', seed' <> "" -> seed_to_int64 sha seed = seed_to_int64 sha seed' -> generate_private_key sha key fresh seed = generate_private_key sha key fresh' seed') /\
  (fresh <> "" -> generate_private_key sha key fresh "" = generate_private_key sha key fresh' fresh).
Proof.
  intros K sha key fresh fresh' seed. unfold generate_private_key. split.
  - intros Hs. rewrite bool_decide_false by done. split; [done|]. intros seed' Hs' ->. by rewrite bool_decide_false by done.
  - intros Hf. rewrite bool_decide_true by done. by rewrite bool_decide_false by done.
Qed.
Print Assumptions C64_generator_seed.
Print Assumptions C64_distinct_prefixes.
Print Assumptions C64_identity.
Example C64_nonvacuous : let sha := fun s : string => s in seed_to_int64 sha "abcdefghi" = 7017280452245743464%Z /\
  bytes_of "abcdefgh" = [97; 98; 99; 100; 101; 102; 103; 104]%N /\
  seed_to_int64 (fun _ => Strings.String.String (Ascii true true true true true true true true) "aaaaaaa") "x" = (-44647450423500447)%Z.
Proof. vm_compute. done. Qed.

(** ** C78: how many identities there are *)
(** Full statement: any collection of different seeds has different generators (up to collisions of the hash's first eight bytes). *)
Definition C78_statement : Prop := forall sha seed seed', (8 <= length (bytes_of (sha seed)))%nat -> (8 <= length (bytes_of (sha seed')))%nat ->
  take 8 (bytes_of (sha seed)) <> take 8 (bytes_of (sha seed')) -> rng_state (seed_to_int64 sha seed) <> rng_state (seed_to_int64 sha seed').
Lemma rng_state_range z : (1 <= rng_state z <= 2147483646)%Z.
Proof.
  unfold rng_state. pose proof (Z.rem_bound_abs z 2147483647 ltac:(lia)) as H. revert H. generalize (Z.rem z 2147483647). intros r H.
  destruct (Z.ltb_spec r 0).
  - destruct (Z.eqb_spec (r + 2147483647) 0); lia.
  - destruct (Z.eqb_spec r 0); lia.
Qed.
(** The seeded generator has at most 2^31 - 2 states, hence there are at most so many identities, whatever the seeds and the hash. *)
Theorem C78_few_identities : forall K sha (key : Z -> option K) fresh, exists keys : list (option K), N.of_nat (length keys) = (2 ^ 31 - 2)%N /\
  forall seed, generate_private_key sha key fresh seed ∈ keys.
Proof.
  intros K sha key fresh. exists (map (fun k => key (Z.of_nat k)) (seq 1 (N.to_nat (2 ^ 31 - 2)))). split.
  - rewrite map_length, seq_length. lia.
  - intros seed. unfold generate_private_key. apply elem_of_list_In, in_map_iff.
    pose proof (rng_state_range (seed_to_int64 sha (if bool_decide (seed = "") then fresh else seed))) as H.
    revert H. generalize (rng_state (seed_to_int64 sha (if bool_decide (seed = "") then fresh else seed))). intros z H.
    exists (Z.to_nat z). split; [by rewrite Z2Nat.id by lia|]. apply in_seq. lia.
Qed.
(** Two different prefixes, one key: the generator seeds 1 and 2147483648 *)
Theorem C78_distinct_identities_refuted : ~ C78_statement.
Proof.
  intros H. pose (zero := Ascii false false false false false false false false). pose (one := Ascii true false false false false false false false).
  pose (top := Ascii false false false false false false false true).
  pose (sha := fun s : string => if bool_decide (s = "a") then Strings.String.string_of_list_ascii [zero; zero; zero; zero; zero; zero; zero; one]
    else Strings.String.string_of_list_ascii [zero; zero; zero; zero; top; zero; zero; zero]).
  apply (H sha "a" "b"); vm_compute; try lia; done.
Qed.
(** Among more than 2^31 - 2 different seeds, two have the same identity. *)
Theorem C78_collision : forall K sha (key : Z -> option K) fresh (seeds : list string), NoDup seeds -> (2 ^ 31 - 2 < N.of_nat (length seeds))%N ->
  exists a b, a ∈ seeds /\ b ∈ seeds /\ a <> b /\ generate_private_key sha key fresh a = generate_private_key sha key fresh b.
Proof.
  intros K sha key fresh seeds Hnd Hlen.
  pose (f := fun seed : string => rng_state (seed_to_int64 sha (if bool_decide (seed = "") then fresh else seed))).
  enough (Hx : exists a b, a ∈ seeds /\ b ∈ seeds /\ a <> b /\ f a = f b).
  { destruct Hx as (a & b & H1 & H2 & H3 & H4). exists a, b. split; [done|]. split; [done|]. split; [done|].
    unfold generate_private_key. unfold f in H4. by rewrite H4. }
  destruct (decide (NoDup (map f seeds))) as [Hd|Hd].
  - exfalso. assert (Hincl : incl (map f seeds) (map Z.of_nat (seq 1 (N.to_nat (2 ^ 31 - 2))))).
    { intros x Hx. apply in_map_iff in Hx as (s & <- & _). pose proof (rng_state_range (seed_to_int64 sha (if bool_decide (s = "") then fresh else s))) as Hr.
      fold (f s) in Hr. apply in_map_iff. exists (Z.to_nat (f s)). split; [by rewrite Z2Nat.id by lia|]. apply in_seq. lia. }
    apply NoDup_incl_length in Hincl; [|by apply NoDup_ListNoDup]. rewrite !map_length, seq_length in Hincl. lia.
  - clear Hlen. induction seeds as [|s seeds IH]; [destruct Hd; constructor|].
    apply NoDup_cons in Hnd as [Hs Hnd]. cbn [map] in Hd.
    destruct (decide (f s ∈ map f seeds)) as [Hin|Hin].
    + apply elem_of_list_fmap in Hin as (b & Hb & Hbin). exists s, b. split; [left|]. split; [by right|]. split; [|done]. by intros ->.
    + destruct IH as (a & b & H1 & H2 & H3 & H4); [done| |].
      * intros Hnd'. apply Hd. by constructor.
      * exists a, b. split; [by right|]. split; [by right|]. done.
Qed.
Print Assumptions C78_few_identities.
Print Assumptions C78_distinct_identities_refuted.
Print Assumptions C78_collision.
(** There are so many different seeds. *)
Fixpoint repeat_a (n : nat) : string := match n with O => "" | S n => Strings.String.String "a" (repeat_a n) end.
Lemma many_seeds (n : nat) : exists seeds : list string, NoDup seeds /\ length seeds = n.
Proof.
  exists (map repeat_a (seq 0 n)). split; [|by rewrite map_length, seq_length].
  apply NoDup_fmap_2; [|apply NoDup_seq]. intros k. induction k as [|k IH]; intros [|m] H; try done. f_equal. apply IH. by injection H.
Qed.
Example C78_nonvacuous : exists seeds : list string, NoDup seeds /\ (2 ^ 31 - 2 < N.of_nat (length seeds))%N.
Proof. destruct (many_seeds (N.to_nat (2 ^ 31))) as (seeds & H1 & H2). exists seeds. split; [done|]. rewrite H2, N2Nat.id. done. Qed.
