(** Model of the main function, cmd/koinos-p2p/main.go:76-243 (makeVersionString is in Status_Model), beside the replies of the
    message queue and the signals the process gets.
    The flags and the YAML file are read by libraries: [settings] has what they give.  NewKoinosP2PNode, Start and Close are one step each
    here (their parts are in Node_Model, Boot_Model and Switch_Model); they may take any time, during which signals may arrive. *)
From Verif Require Import GoBase PeerConn_Model Main_Model LocalRpc_Model.

(** ** The settings and the configuration *)
(** main.go:84-140: what flag.Parse, InitBaseDir, InitYamlConfig, the Get...Option functions and InitLogger give *)
Record settings := Settings { st_version : bool; st_basedir : bool; st_logger : bool; st_jobs : Z; st_peers : list string;
  st_checkpoints : list string; st_disable : bool; st_force : bool; st_local : bool }.
(** The configuration: config of main.go:149-193 and the number of jobs of line 147 *)
Record config (A : Type) := Config { cf_jobs : N; cf_peers : list A; cf_always_disable : bool; cf_always_enable : bool; cf_local : bool;
  cf_checkpoints : list checkpoint }.
Arguments Config {A} _ _ _ _ _ _.
Arguments cf_jobs {A} _. Arguments cf_peers {A} _. Arguments cf_always_disable {A} _. Arguments cf_always_enable {A} _.
Arguments cf_local {A} _. Arguments cf_checkpoints {A} _.
(** How the process ends: os.Exit or the return of main, a panic, or a signal nobody asked for (os/signal: SIGINT and SIGTERM
    cause the program to exit; deferred calls do not run) *)
Inductive ending := EndExit (code : N) | EndPanic | EndSignal.
Global Instance ending_eq_dec : EqDecision ending. Proof. solve_decision. Defined.

(** main.go:84-193, up to the making of the context.  [parse]: NewMultiaddr and AddrInfoFromP2pAddr.  uint(jobs) of a positive int is
    that number.  NewClient and NewRequestHandler (147-148) only make objects. *)
Definition configure {A} (parse : string -> option A) (s : settings) : config A + ending :=
  if st_version s then inr (EndExit 0)                              (* 102-105 *)
  else if negb (st_basedir s) then inr (EndExit 1)                  (* 107-111 *)
  else if negb (st_logger s) then inr (EndExit 1)                   (* 134-138 *)
  else if (st_jobs s <? 1)%Z then inr (EndExit 1)                   (* 142-145 *)
  else
    match parse_peers parse (st_peers s) with                       (* 151-164 *)
    | Panic => inr EndPanic
    | Done peers =>
      match parse_checkpoints (st_checkpoints s) with               (* 176-193 *)
      | Panic => inr EndPanic
      | Done cps => inl (Config (Z.to_N (st_jobs s)) peers (st_disable s) (st_force s) (st_local s) cps)   (* 166-174 *)
      end
    end.

(** ** The run of the program *)
Inductive place (A : Type) :=
| PRead                      (* before the settings are read *)
| PDial (c : config A)       (* 198: client.Start *)
| PStore (c : config A)      (* 203-211 *)
| PChain (c : config A)      (* 214-222 *)
| PMake (c : config A)       (* 224 *)
| PHandler (c : config A)    (* 229 *)
| PStart                     (* 231 *)
| PTell                      (* 233 *)
| PRegister                  (* 236-237 *)
| PWait                      (* 238 *)
| PClose                     (* 241 *)
| PReturn                    (* the end of main and its deferred calls *)
| POver (e : ending).
Arguments PRead {A}. Arguments PDial {A} _. Arguments PStore {A} _. Arguments PChain {A} _. Arguments PMake {A} _. Arguments PHandler {A} _.
Arguments PStart {A}. Arguments PTell {A}. Arguments PRegister {A}. Arguments PWait {A}. Arguments PClose {A}. Arguments PReturn {A}. Arguments POver {A} _.
(** What can be seen of it: a question to a service and whether it counts as answered, the node being made with a configuration, the
    request handler starting with a number of jobs, the node being started, Close having returned, and an address being logged *)
Inductive sight (A : Type) :=
| VStore (yes : bool) | VChain (yes : bool) | VNode (c : config A) | VServe (jobs : N) | VStarted | VSignal | VClosed | VAddr (a : string).
Arguments VStore {A} _. Arguments VChain {A} _. Arguments VNode {A} _. Arguments VServe {A} _. Arguments VStarted {A}. Arguments VSignal {A}. Arguments VClosed {A}. Arguments VAddr {A} _.
(** [pg_contexts]: the contexts derived in the two loops (lines 204, 215) and not cancelled; [pg_root]: whether the context of line 195
    is alive; [pg_asked]: whether signals go to the channel (line 237); [pg_channel]: whether its one place is taken; [pg_log]:
    newest first *)
Record prog (A : Type) := Prog { pg_at : place A; pg_contexts : nat; pg_root : bool; pg_asked : bool; pg_channel : bool; pg_log : list (sight A) }.
Arguments Prog {A} _ _ _ _ _ _. Arguments pg_at {A} _. Arguments pg_contexts {A} _. Arguments pg_root {A} _. Arguments pg_asked {A} _.
Arguments pg_channel {A} _. Arguments pg_log {A} _.
Definition prog_init {A} : prog A := Prog PRead 0 false false false [].

Inductive plabel :=
| MGo                    (* the main goroutine goes on *)
| MAsk (w : wire)        (* it asks a service, with these replies of the queue *)
| MFail                  (* NewKoinosP2PNode returns an error *)
| MSignal                (* SIGINT or SIGTERM *)
| MLook (l : list string)    (* the main goroutine asks the host for its addresses, and these are they *)
| MMinute (l : list string). (* so does the goroutine of logConnectionsLoop, node.go:383-388 *)
Section prog.
Context {A : Type} (parse : string -> option A) (s : settings).
Definition move (x : prog A) (p : place A) (l : list (sight A)) : prog A :=
  Prog p (pg_contexts x) (pg_root x) (pg_asked x) (pg_channel x) (l ++ pg_log x).
(** koinos_rpc.go:439-509: true is the first result exactly if the call succeeded *)
Definition yes (r : called unit) : bool := bool_decide (fst (snd r) = Some tt).
(** One turn of a loop of 203-222: a context is derived from the root and the call cancelling it deferred to the end of main *)
Definition ask (x : prog A) (r : called unit) (see : bool -> sight A) (here next : place A) : prog A :=
  Prog (if yes r then next else here) (S (pg_contexts x)) (pg_root x) (pg_asked x) (pg_channel x) (see (yes r) :: pg_log x).
(** node.go:363-366 GetAddress, beside GetAddressInfo (355-360): the first of the host's addresses, with the peer id appended to each by a
    library (an error of which is dropped; the list is then nil).  An index out of range panics, in whatever goroutine, and that ends the
    process. *)
Definition get_address (l : list string) : outcome string := match l with [] => Panic | a :: _ => Done a end.
Definition tell (x : prog A) (l : list string) (next : place A) : prog A :=
  match get_address l with Panic => move x (POver EndPanic) [] | Done a => move x next [VAddr a] end.
(** node.go:417, 383-401: the goroutine that logs runs from Start until the root context ends *)
Definition logging (p : place A) : bool := match p with PTell | PRegister | PWait | PClose | PReturn => true | _ => false end.
Definition prog_step (x : prog A) (l : plabel) : option (prog A) :=
  match l, pg_at x with
  | _, POver _ => None
  | MSignal, _ =>
    if pg_asked x then Some (Prog (pg_at x) (pg_contexts x) (pg_root x) true true (VSignal :: pg_log x))   (* a full channel drops it *)
    else Some (move x (POver EndSignal) [VSignal])
  | MGo, PRead =>
    match configure parse s with
    | inr e => Some (move x (POver e) [])
    | inl c => Some (Prog (PDial c) 0 true (pg_asked x) (pg_channel x) (pg_log x))   (* 195-196 *)
    end
  | MGo, PDial c => Some (move x (PStore c) [])
  | MAsk w, PStore c => Some (ask x (is_connected_to_block_store w) VStore (PStore c) (PChain c))
  | MAsk w, PChain c => Some (ask x (is_connected_to_chain w) VChain (PChain c) (PMake c))
  | MFail, PMake c => Some (move x (POver EndPanic) [])                              (* 225-227 *)
  | MGo, PMake c => Some (move x (PHandler c) [VNode c])
  | MGo, PHandler c => Some (move x PStart [VServe (cf_jobs c)])
  | MGo, PStart => Some (move x PTell [VStarted])
  | MLook l, PTell => Some (tell x l PRegister)
  | MMinute l, p => if logging p then Some (tell x l p) else None
  | MGo, PRegister => Some (Prog PWait (pg_contexts x) (pg_root x) true (pg_channel x) (pg_log x))
  | MGo, PWait => if pg_channel x then Some (Prog PClose (pg_contexts x) (pg_root x) (pg_asked x) false (pg_log x)) else None
  | MGo, PClose => Some (move x PReturn [VClosed])                                   (* its error is dropped *)
  | MGo, PReturn => Some (Prog (POver (EndExit 0)) 0 false (pg_asked x) (pg_channel x) (pg_log x))
  | _, _ => None
  end.
Fixpoint prog_run (x : prog A) (ls : list plabel) : option (prog A) :=
  match ls with [] => Some x | l :: r => match prog_step x l with Some x' => prog_run x' r | None => None end end.
End prog.
