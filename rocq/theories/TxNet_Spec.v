(** A network of nodes that pass on transactions.  Every node is the validator of transactions of [Gossip_Model] (gossip.go:403-447)
    whose call of ApplyTransaction (line 437) is a call in the applicator's model (applicator.go:118-130, 382-390), next to all that
    the applicator does with blocks.  A transaction that the node's chain accepts, be it from this node or from a client, is announced
    (koinos.mempool.accept, node.go:139) and published (handleTransactionBroadcast, node.go:250-264; PublishTransaction,
    gossip.go:249-265).  This connects models, it is no new model of code.  The pubsub library between the nodes is taken as in
    [Flood_Spec]: a node ignores a message that it has seen (the id of a message is the hash of its payload, here the payload), unless
    it has forgotten that, which may happen at any time; it sends a message on to its peers if its validator accepts it, and links
    lose nothing. *)
From Verif Require Import GoBase Gossip_Model Gossip_Spec TxCache_Model Watchdog_Model Applicator_Model Applicator_Spec Deliver_Spec Rest_Spec.

(** What is fixed for a node: its id, its applicator's options and start *)
Record tsetup := TSetup { ts_name : string; ts_opts : ap_opts; ts_head : N; ts_lib : N; ts_dur : Z; ts_now : Z }.
(** The validator of one message waits for its call of ApplyTransaction, or it is over. *)
Inductive tphase := TWait (call : nat) | TOver (r : val_result transaction).
Record tvalidation := TValidation { tv_msg : message; tv_phase : tphase }.
(** A node: the applicator; the validators; the transactions its chain has accepted, and those of them not announced yet; the ids of
    the messages it has ever seen *)
Record tnode := TNode { tn_app : sys; tn_vals : list tvalidation; tn_pool : list transaction; tn_owed : list transaction; tn_seen : gset string }.
Record tnet := TNet { tt_node : nat -> tnode; tt_air : list (nat * message) }.
Inductive tlabel :=
| TLocal (n : nat) (l : label)           (* node [n]: the applicator, other callers of ApplyBlock, the chain's answers, the clock, deadlines *)
| TClient (n : nat) (t : transaction)    (* a client hands a transaction to the chain of node [n], which accepts it *)
(* [again]: pubsub has forgotten that the node has seen the message *)
| TAnnounce (n j : nat) (again : bool)   (* the chain of node [n] announces a transaction *)
| TReturn (n i : nat)                    (* node [n]: a call of ApplyTransaction returns to its validator *)
| TDeliver (a : nat) (again : bool)      (* a message arrives *)
| TStranger (n : nat) (m : message) (again : bool). (* node [n] gets a message from a peer outside *)

Section network.
Context (encode : transaction -> option string) (decode_tx : string -> option transaction).
Context (su : nat -> tsetup) (links : nat -> list nat).
Definition tupd (f : nat -> tnode) (n : nat) (p : tnode) : nat -> tnode := fun q => if decide (q = n) then p else f q.
(** The message goes to the peers linked to [n]. *)
Definition tsend (n : nat) (m : message) : list (nat * message) := map (fun q => (q, Message (m_data m) (m_from m) (ts_name (su n)) (m_key m))) (links n).
(** ... if the validator has accepted it. *)
Definition tsent_on (n : nat) (v : tvalidation) : list (nat * message) :=
  match tv_phase v with TOver r => if v_ok r then tsend n (tv_msg v) else [] | TWait _ => [] end.
(** What the validator hands to ApplyTransaction, and how it ends *)
Definition toffered (n : nat) (m : message) : option transaction := head (v_applied (validate_tx decode_tx (ts_name (su n)) (fun _ => None) m)).
Definition tended (n : nat) (m : message) (res : option goerr) : tvalidation := TValidation m (TOver (validate_tx decode_tx (ts_name (su n)) (fun _ => res) m)).
(** Node [n] gets a message: its validator runs until it is over or waits. *)
Definition treceive (x : tnet) (n : nat) (m : message) (again : bool) : option tnet :=
  let '(TNode s vs pool owed seen) := tt_node x n in
  if bool_decide (m_data m ∈ seen) && negb again then Some x
  else match toffered n m with
       | None => Some (TNet (tupd (tt_node x) n (TNode s (vs ++ [tended n m None]) pool owed ({[m_data m]} ∪ seen))) (tt_air x ++ tsent_on n (tended n m None)))
       | Some t =>
         match step (ts_opts (su n)) s (LTxCall t) with
         | Some s' => Some (TNet (tupd (tt_node x) n (TNode s' (vs ++ [TValidation m (TWait (length (s_txs s)))]) pool owed ({[m_data m]} ∪ seen))) (tt_air x))
         | None => None
         end
       end.
(** Node [n] publishes (gossip is enabled; what cannot be encoded is not published). *)
Definition tpublish_one (n : nat) (again : bool) (x : tnet) (data : string) : tnet :=
  let '(TNode s vs pool owed seen) := tt_node x n in
  if bool_decide (data ∈ seen) && negb again then x
  else TNet (tupd (tt_node x) n (TNode s vs pool owed ({[data]} ∪ seen))) (tt_air x ++ tsend n (Message data (ts_name (su n)) (ts_name (su n)) "")).
Definition tpublish (x : tnet) (n : nat) (t : transaction) (again : bool) : tnet := foldl (tpublish_one n again) x (ps_sent (publish true (encode t) (PubState 0 [])).1).
(** The chain accepts a transaction. *)
Definition taccepted (l : label) (s : sys) : list transaction :=
  match l with LTxDone i None => match s_txs s !! i with Some p => [tp_tx p] | None => [] end | _ => [] end.
Definition tstep (x : tnet) (lab : tlabel) : option tnet :=
  match lab with
  | TLocal n l =>
    let '(TNode s vs pool owed seen) := tt_node x n in
    match l with
    | LTxCall _ => None   (* ApplyTransaction is called by the validator only *)
    | _ => (fun s' => TNet (tupd (tt_node x) n (TNode s' vs (pool ++ taccepted l s) (owed ++ taccepted l s) seen)) (tt_air x)) <$> step (ts_opts (su n)) s l
    end
  | TClient n t =>
    let '(TNode s vs pool owed seen) := tt_node x n in
    Some (TNet (tupd (tt_node x) n (TNode s vs (pool ++ [t]) (owed ++ [t]) seen)) (tt_air x))
  | TAnnounce n j again =>
    let '(TNode s vs pool owed seen) := tt_node x n in
    match owed !! j with
    | Some t => Some (tpublish (TNet (tupd (tt_node x) n (TNode s vs pool (delete j owed) seen)) (tt_air x)) n t again)
    | None => None
    end
  | TReturn n i =>
    let '(TNode s vs pool owed seen) := tt_node x n in
    match vs !! i with
    | Some (TValidation m (TWait c)) =>
      match s_txs s !! c with
      | Some p =>
        match tp_ret p with
        | Some res => Some (TNet (tupd (tt_node x) n (TNode s (<[i := tended n m res]> vs) pool owed seen)) (tt_air x ++ tsent_on n (tended n m res)))
        | None => None
        end
      | None => None
      end
    | _ => None
    end
  | TDeliver a again => match tt_air x !! a with Some (n, m) => treceive (TNet (tt_node x) (delete a (tt_air x))) n m again | None => None end
  | TStranger n m again => treceive x n m again
  end.
(** A run in which [P] holds at each step *)
Fixpoint truns (P : tnet -> tlabel -> Prop) (x : tnet) (sched : list tlabel) (x' : tnet) : Prop :=
  match sched with [] => x' = x | lab :: r => P x lab /\ exists x1, tstep x lab = Some x1 /\ truns P x1 r x' end.
Definition tnet_init : tnet := TNet (fun n => TNode (sys_init (ts_head (su n)) (ts_lib (su n)) (ts_dur (su n)) (ts_now (su n))) [] [] [] ∅) [].
(** Nothing is left to do anywhere. *)
Definition tquiet (x : tnet) : Prop :=
  tt_air x = [] /\ forall n, at_rest (tn_app (tt_node x n)) /\ tn_owed (tt_node x n) = [] /\ forall i, tstep x (TReturn n i) = None.
(** A link between nodes of an area of the network *)
Definition twithin (area : nat -> Prop) (n q : nat) : Prop := area n /\ area q /\ q ∈ links n.
(** The node's chain has the transaction: it has accepted it, or a block that contains it. *)
Definition has_tx (p : tnode) (t : transaction) : Prop := t ∈ tn_pool p \/ exists b now, OAccepted b now ∈ s_log (tn_app p) /\ t ∈ b_txs b.

(** ** Conditions *)
Section conditions.
Context (t : transaction).
(** Whatever has the id of [t] is [t]. *)
Definition genuine (u : transaction) : Prop := str (t_id u) = str (t_id t) -> u = t.
(** [twins]: other transactions with the same id may be around.  [hasty]: deadlines of calls with [t] may pass.
    The chains accept [t] whenever it is handed to them. *)
Definition twell (twins hasty : bool) (x : tnet) (lab : tlabel) : Prop :=
  match lab with
  | TLocal n l =>
    let s := tn_app (tt_node x n) in
    match l with
    | LTxDone i res => forall p, s_txs s !! i = Some p -> tp_tx p = t -> res = None
    | LTxTimeout i _ => hasty = false -> forall p, s_txs s !! i = Some p -> tp_tx p <> t
    | LAccept b => twins = false -> Forall genuine (b_txs b)
    | _ => True
    end
  | TClient _ u => twins = false -> genuine u
  | TStranger n m _ =>
    (twins = false -> forall u, decode_tx (m_data m) = Some u -> genuine u) /\
    forall q, m_from m = ts_name (su q) -> m_data m ∈ tn_seen (tt_node x q)  (* signatures *)
  | _ => True
  end.
(** The setting: [t] has an id and is encoded faithfully; the encoding keeps ids; nodes have different names. *)
Record tcommon : Prop := {
  tc_id : is_Some (t_id t);
  tc_code : exists data, encode t = Some data /\ decode_tx data = Some t;
  tc_ids : forall u data u', encode u = Some data -> decode_tx data = Some u' -> str (t_id u') = str (t_id u);
  tc_names : forall n q, ts_name (su n) = ts_name (su q) -> n = q }.
End conditions.
End network.
