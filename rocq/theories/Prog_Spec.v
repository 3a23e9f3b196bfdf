(** What C111, C112, C113 and C116 say, in terms of what can be seen of the program. *)
From Verif Require Import GoBase PeerConn_Model Main_Model LocalRpc_Model Prog_Model.

Section spec.
Context {A : Type}.
Implicit Types h : list (sight A).   (* newest first *)
(** [v] was seen, and before it everything in [h'] *)
Definition seen_after (v : sight A) h' h : Prop := exists k, h = k ++ v :: h'.
(** The settings are such that the program can go on, and this is what they ask for. *)
Record wanted (parse : string -> option A) (s : settings) (c : config A) : Prop := {
  wt_run : st_version s = false /\ st_basedir s = true /\ st_logger s = true;
  wt_jobs : (1 <= st_jobs s)%Z /\ Z.of_N (cf_jobs c) = st_jobs s;
  wt_peers : Forall2 (fun o a => parse o = Some a) (st_peers s) (cf_peers c);
  wt_disable : cf_always_disable c = st_disable s;
  wt_enable : cf_always_enable c = st_force s;
  wt_local : cf_local c = st_local s;
  wt_checkpoints : Forall2 (fun o cp => parse_checkpoint o = Done cp) (st_checkpoints s) (cf_checkpoints c) }.
(** The number of questions put to the two services *)
Definition question (v : sight A) : bool := match v with VStore _ | VChain _ => true | _ => false end.
Definition questions h : nat := length (List.filter question h).
End spec.
(** Whenever the host is asked for its addresses it has one. *)
Definition has_address (l : plabel) : Prop := match l with MLook l | MMinute l => l <> [] | _ => True end.
(** A service answers: the request can be sent and the reply, whatever it says, be read. *)
Definition store_answers (w : wire) : Prop :=
  exists data reply r, w_marshal w (RStore SReserved) = Some data /\ (N.of_nat (Strings.String.length data) <= 536870912)%N /\
    w_mq w "block_store" data = inl reply /\ w_store w reply = Some r.
Definition chain_answers (w : wire) : Prop :=
  exists data reply r, w_marshal w (RChain CReserved) = Some data /\ (N.of_nat (Strings.String.length data) <= 536870912)%N /\
    w_mq w "chain" data = inl reply /\ w_chain w reply = Some r.
