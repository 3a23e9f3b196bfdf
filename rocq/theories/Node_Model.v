(** Model of internal/node/node.go: broadcast handlers, the RPC handler, the last irreversible block, message ids, the identity.
    proto.Unmarshal/Marshal, canonical.Marshal, SHA-256 and the key generation are arbitrary functions. *)
From Verif Require Import GoBase Gossip_Model.

(** ** 1. Broadcasts *)
(** broadcast.BlockAccepted and broadcast.ForkHeads, with the fields read in this repository *)
Record block_accepted := BlockAccepted { ba_block : option block; ba_head : bool }.
Record fork_update := ForkUpdate { fu_lib : option topology; fu_heads : list topology }.
(** proto.Unmarshal for the three broadcasts (None: error), canonical.Marshal for blocks and transactions *)
Record codecs := Codecs {
  cd_block : string -> option block_accepted; cd_tx : string -> option (option transaction); cd_forks : string -> option fork_update;
  cd_mar_block : option block -> option string; cd_mar_tx : option transaction -> option string }.

(** Goroutines started by the handlers: node.go:232-236, 238-240, 276-278 *)
Inductive goroutine := GHead (ba : block_accepted) | GBlock (ba : block_accepted) | GForks (fu : fork_update).
(** What the applicator was given (applicator.go:133-140) *)
Inductive app_msg := AmBlock (ba : block_accepted) | AmForks (fu : fork_update).
(** The parts of KoinosP2PNode the handlers use (node.go:44-60).  [n_heads]: the calls of GossipToggle.UpdateHeadTime, [n_app]: what was
    given to the applicator, both oldest first; [n_lib]: libValue, nothing stored yet or a possibly nil pointer. *)
Record node := Node {
  n_heads : list N; n_app : list app_msg; n_block_on : bool; n_tx_on : bool; n_block_pub : pub_state; n_tx_pub : pub_state;
  n_lib : option (option topology); n_go : list goroutine; n_panic : bool }.
Definition node_new : node := Node [] [] false false (PubState 0 []) (PubState 0 []) None [] false.
(** [NBlockMsg]: a koinos.block.accept broadcast arrives, etc.; [NRun i]: the [i]-th goroutine runs (it may have to wait for the
    applicator to receive); [NSetBlock], [NSetTx]: gossip of blocks / transactions is switched; [NStored fu]: Start stores the LIB of the
    answer it got from GetForkHeads (line 414). *)
Inductive nlabel := NBlockMsg (data : string) | NTxMsg (data : string) | NForkMsg (data : string) | NRun (i : nat)
| NSetBlock (b : bool) | NSetTx (b : bool) | NStored (fu : fork_update).

Section node.
Context (cd : codecs).
Definition add_go (gs : list goroutine) (n : node) : node :=
  Node (n_heads n) (n_app n) (n_block_on n) (n_tx_on n) (n_block_pub n) (n_tx_pub n) (n_lib n) (n_go n ++ gs) (n_panic n).
(** node.go:223-248 (gossip.go:268-284 for PublishBlock) *)
Definition handle_block_broadcast (data : string) (n : node) : node :=
  match cd_block cd data with
  | None => n
  | Some ba =>
    let n := add_go [GHead ba; GBlock ba] n in
    Node (n_heads n) (n_app n) (n_block_on n) (n_tx_on n) (fst (publish (n_block_on n) (cd_mar_block cd (ba_block ba)) (n_block_pub n))) (n_tx_pub n)
      (n_lib n) (n_go n) (n_panic n)
  end.
(** node.go:250-265 *)
Definition handle_transaction_broadcast (data : string) (n : node) : node :=
  match cd_tx cd data with
  | None => n
  | Some t =>
    Node (n_heads n) (n_app n) (n_block_on n) (n_tx_on n) (n_block_pub n) (fst (publish (n_tx_on n) (cd_mar_tx cd t) (n_tx_pub n)))
      (n_lib n) (n_go n) (n_panic n)
  end.
Definition set_lib (l : option topology) (n : node) : node :=
  Node (n_heads n) (n_app n) (n_block_on n) (n_tx_on n) (n_block_pub n) (n_tx_pub n) (Some l) (n_go n) (n_panic n).
(** node.go:267-281 *)
Definition handle_fork_update (data : string) (n : node) : node :=
  match cd_forks cd data with
  | None => n
  | Some fu => set_lib (fu_lib fu) (add_go [GForks fu] n)
  end.
(** A goroutine runs.  Head of a nil block or of a block without header is a nil dereference (line 234). *)
Definition run_go (g : goroutine) (n : node) : node :=
  match g with
  | GHead ba =>
    if negb (ba_head ba) then n else
    match ba_block ba ≫= b_header with
    | Some h => Node (n_heads n ++ [h_timestamp h]) (n_app n) (n_block_on n) (n_tx_on n) (n_block_pub n) (n_tx_pub n) (n_lib n) (n_go n) (n_panic n)
    | None => Node (n_heads n) (n_app n) (n_block_on n) (n_tx_on n) (n_block_pub n) (n_tx_pub n) (n_lib n) (n_go n) true
    end
  | GBlock ba => Node (n_heads n) (n_app n ++ [AmBlock ba]) (n_block_on n) (n_tx_on n) (n_block_pub n) (n_tx_pub n) (n_lib n) (n_go n) (n_panic n)
  | GForks fu => Node (n_heads n) (n_app n ++ [AmForks fu]) (n_block_on n) (n_tx_on n) (n_block_pub n) (n_tx_pub n) (n_lib n) (n_go n) (n_panic n)
  end.
Definition node_step (n : node) (l : nlabel) : option node :=
  if n_panic n then None else
  match l with
  | NBlockMsg data => Some (handle_block_broadcast data n)
  | NTxMsg data => Some (handle_transaction_broadcast data n)
  | NForkMsg data => Some (handle_fork_update data n)
  | NRun i =>
    match n_go n !! i with
    | Some g => Some (run_go g (Node (n_heads n) (n_app n) (n_block_on n) (n_tx_on n) (n_block_pub n) (n_tx_pub n) (n_lib n) (delete i (n_go n)) (n_panic n)))
    | None => None
    end
  | NSetBlock b => Some (Node (n_heads n) (n_app n) b (n_tx_on n) (n_block_pub n) (n_tx_pub n) (n_lib n) (n_go n) (n_panic n))
  | NSetTx b => Some (Node (n_heads n) (n_app n) (n_block_on n) b (n_block_pub n) (n_tx_pub n) (n_lib n) (n_go n) (n_panic n))
  | NStored fu => Some (set_lib (fu_lib fu) n)
  end.
Fixpoint node_run (n : node) (ls : list nlabel) : option node :=
  match ls with [] => Some n | l :: r => node_step n l ≫= fun n' => node_run n' r end.
End node.
(** node.go:369-371: the type assertion on an atomic.Value never stored panics *)
Definition get_lib (n : node) : outcome (option topology) := match n_lib n with Some l => Done l | None => Panic end.

(** ** 2. The RPC handler *)
(** P2PRequest.Request: none, GetGossipStatus, or anything else *)
Inductive p2p_request := PNone | PGossipStatus | PUnknown.
(** P2PResponse.Response: the status, or an error status with its message *)
Inductive p2p_response := PStatus (enabled : bool) | PError (msg : string).
(** node.go:304-328 *)
Definition handle_request (enabled : bool) (r : p2p_request) : p2p_response :=
  match r with PGossipStatus => PStatus enabled | PUnknown => PError "unknown request" | PNone => PError "expected request was nil" end.
(** node.go:283-302; [unm]: proto.Unmarshal (an error is its text), [mar]: proto.Marshal of the response *)
Definition handle_rpc (unm : string -> p2p_request + string) (mar : p2p_response -> option string) (enabled : bool) (data : string) : option string :=
  mar match unm data with inr msg => PError msg | inl r => handle_request enabled r end.

(** ** 3. Message ids *)
(** encoding/base64: the alphabet of StdEncoding, and RawStdEncoding (no padding) *)
Definition b64_alphabet : string := "ABCDEFGHIJKLMNOPQRSTUVWXYZabcdefghijklmnopqrstuvwxyz0123456789+/".
Definition b64_char (n : N) : Ascii.ascii := default Ascii.zero (Strings.String.get (N.to_nat n) b64_alphabet).
Fixpoint b64 (s : list N) : list Ascii.ascii :=
  match s with
  | a :: b :: c :: r =>
    b64_char (a / 4) :: b64_char ((a mod 4) * 16 + b / 16) :: b64_char ((b mod 16) * 4 + c / 64) :: b64_char (c mod 64) :: b64 r
  | [a; b] => [b64_char (a / 4); b64_char ((a mod 4) * 16 + b / 16); b64_char ((b mod 16) * 4)]
  | [a] => [b64_char (a / 4); b64_char ((a mod 4) * 16)]
  | [] => []
  end%N.
Definition bytes_of (s : string) : list N := map Ascii.N_of_ascii (Strings.String.list_ascii_of_string s).
Definition b64_string (s : string) : string := Strings.String.string_of_list_ascii (b64 (bytes_of s)).
(** pubsub.pb.Message *)
Record pb_message := PbMessage { pm_topic : option string; pm_data : string; pm_from : string; pm_seqno : string }.
(** gossip.go:28-29 *)
Definition block_topic := "koinos.blocks".
Definition tx_topic := "koinos.transactions".
(** node.go:476-491; a nil Topic is a nil dereference; [dflt]: pubsub.DefaultMsgIdFn *)
Definition generate_message_id (sha : string -> string) (dflt : pb_message -> string) (m : pb_message) : outcome string :=
  match pm_topic m with
  | None => Panic
  | Some t => Done (if bool_decide (t = block_topic) || bool_decide (t = tx_topic) then b64_string (sha (pm_data m)) else dflt m)
  end.

(** ** 4. The identity *)
(** binary.BigEndian.Uint64 of the first eight bytes *)
Definition big_endian (bs : list N) : N := fold_left (fun acc b => (acc * 256 + b)%N) bs 0%N.
(** node.go:439-446; int64 of a uint64 is its two's complement *)
Definition seed_to_int64 (sha : string -> string) (seed : string) : Z := wrap_i64 (Z.of_N (big_endian (take 8 (bytes_of (sha seed))))).
(** math/rand rngSource.Seed (Go standard library, rng.go): the state is a function of [seed % (1<<31 - 1)], made positive, 0 replaced. *)
Definition rng_state (seed : Z) : Z :=
  let s := Z.rem seed 2147483647 in
  let s := if (s <? 0)%Z then (s + 2147483647)%Z else s in
  if (s =? 0)%Z then 89482311%Z else s.
(** node.go:457-474; [fresh]: util.GenerateBase58ID(8), [key]: generateECDSAKeyPair reading from the generator in the given state *)
Definition generate_private_key {K} (sha : string -> string) (key : Z -> option K) (fresh seed : string) : option K :=
  let seed := if bool_decide (seed = "") then fresh else seed in
  key (rng_state (seed_to_int64 sha seed)).
