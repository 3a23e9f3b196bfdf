(** Model of the last part of the start of the program, from the making of the applicator to the end of Start, in
    cmd/koinos-p2p/main.go and internal/node/node.go, beside a chain that goes on working and announcing, and of the list of
    connections that is logged.  The applicator is that of Applicator_Model with the chain service of
    Honest_Spec. *)
From Verif Require Import GoBase TxCache_Model Watchdog_Model Applicator_Model Applicator_Spec Deliver_Spec Rest_Spec Honest_Spec.

(** ** The start *)
(** What the main goroutine does, in order.  main.go:224-231, node.go:182-191, 405-421.  The rest of NewKoinosP2PNode, Notify
    (line 406) and the goroutines of lines 417 and 423-432 neither read the LIB nor touch the applicator. *)
Inductive act :=
| ANew         (* node.go:182-191, applicator.go:70-96: GetHeadBlock, and the applicator is made from the answer *)
| ASubscribe   (* main.go:229: from now on broadcasts are received *)
| AAsk         (* node.go:408-412: GetForkHeads, until it succeeds *)
| AStore       (* node.go:414 *)
| AErrors      (* node.go:418 *)
| AToggle      (* node.go:419 *)
| AManager     (* node.go:420 *)
| AApplicator. (* node.go:421 *)
Global Instance act_eq_dec : EqDecision act. Proof. solve_decision. Defined.
Definition program : list act := [ANew; ASubscribe; AAsk; AStore; AErrors; AToggle; AManager; AApplicator].
(** [bo_todo]: what is still to do; [bo_chain], [bo_head]: the chain's blocks and the height of its head, until the applicator is made
    (afterwards [bo_world] has the chain); [bo_lib]: its last irreversible block, [None] if its messages lack one; [bo_lib0]: the LIB the applicator was
    made with; [bo_missed]: the blocks the chain got after the applicator was made and before broadcasts were received; [bo_answer]:
    what GetForkHeads answered; [bo_value]: libValue (node.go:53), nothing stored yet or a possibly nil pointer. *)
Record boot := Boot { bo_todo : list act; bo_chain : gset string; bo_head : N; bo_lib : option N; bo_lib0 : N; bo_world : option world; bo_missed : list block;
  bo_answer : option N; bo_value : option (option N); bo_crash : bool }.
Definition boot_init (root : gset string) (head : N) (lib : option N) : boot := Boot program root head lib 0 None [] None None false.
Inductive blabel :=
| BMain                 (* the main goroutine goes on *)
| BFail                 (* GetForkHeads fails *)
| BBlock (b : block)    (* the chain gets a block *)
| BForks (fh : fork_heads) (* the chain announces its LIB and fork heads *)
| BReadLib              (* a validator (gossip.go:362) or a session (peer_connection.go:94-105) reads the LIB *)
| BWorld (lab : wlabel). (* the applicator, its callers, the clock, the chain's answers and the arrival of announcements *)
Definition header_height (b : block) : N := match b_header b with Some h => h_height h | None => 0 end.
(** Validators run once the toggle has enabled gossip, sessions once the manager runs. *)
Definition users (todo : list act) : bool := bool_decide (AToggle ∉ todo) || bool_decide (AManager ∉ todo).
(** Who may act: callers of the applicator once there are validators or sessions, the applicator's own goroutines once it was
    started, the clock and arriving announcements always.  What the chain gets and says on its own has labels of its own. *)
Definition may (todo : list act) (lab : wlabel) : bool :=
  match lab with
  | WElse _ | WApp (LAnnounce _) => false
  | WAnnounce _ | WApp (LTick _) => true
  | WApp (LCall _) | WApp (LSend _) | WApp (LRet _) | WApp (LTimeout _) | WApp (LTxCall _) | WApp (LTxSend _) | WApp (LTxRet _) | WApp (LTxTimeout _ _) => users todo
  | _ => bool_decide (AApplicator ∉ todo)
  end.
Section boot.
Context (judge : blk -> option goerr) (o : ap_opts) (dur now : Z).
Definition set_world (w : world) (x : boot) : boot :=
  Boot (bo_todo x) (bo_chain x) (bo_head x) (bo_lib x) (bo_lib0 x) (Some w) (bo_missed x) (bo_answer x) (bo_value x) (bo_crash x).
Definition set_todo (r : list act) (x : boot) : boot :=
  Boot r (bo_chain x) (bo_head x) (bo_lib x) (bo_lib0 x) (bo_world x) (bo_missed x) (bo_answer x) (bo_value x) (bo_crash x).
Definition crash (x : boot) : boot :=
  Boot (bo_todo x) (bo_chain x) (bo_head x) (bo_lib x) (bo_lib0 x) (bo_world x) (bo_missed x) (bo_answer x) (bo_value x) true.
(** The label of the world that a label of the start amounts to. *)
Definition as_world (x : boot) (l : blabel) : option wlabel :=
  match l with
  | BBlock b => if bool_decide (ASubscribe ∉ bo_todo x) then Some (WElse b) else None
  | BForks fh => if bool_decide (ASubscribe ∉ bo_todo x) then Some (WApp (LAnnounce fh)) else None
  | BWorld lab => Some lab
  | _ => None
  end.
Definition boot_step (x : boot) (l : blabel) : option boot :=
  if bo_crash x then None else
  match l with
  | BMain =>
    match bo_todo x with
    | [] => None
    | ANew :: r =>
      let lib := default 0%N (bo_lib x) in
      Some (Boot r (bo_chain x) (bo_head x) (bo_lib x) lib (Some (world_init (bo_chain x) (bo_head x) lib dur now)) (bo_missed x) (bo_answer x) (bo_value x) (bo_crash x))
    | AAsk :: r => Some (Boot r (bo_chain x) (bo_head x) (bo_lib x) (bo_lib0 x) (bo_world x) (bo_missed x) (bo_lib x) (bo_value x) (bo_crash x))
    | AStore :: r => Some (Boot r (bo_chain x) (bo_head x) (bo_lib x) (bo_lib0 x) (bo_world x) (bo_missed x) (bo_answer x) (Some (bo_answer x)) (bo_crash x))
    | _ :: r => Some (set_todo r x)
    end
  (* Start asks again.  When the node cannot be made the program ends (main.go:225-227), which is not followed here. *)
  | BFail => match bo_todo x with AAsk :: _ => Some x | _ => None end
  | BBlock b =>
    match bo_world x with
    | None => Some (Boot (bo_todo x) ({[str (b_id b)]} ∪ bo_chain x) (N.max (bo_head x) (header_height b)) (bo_lib x) (bo_lib0 x) None (bo_missed x) (bo_answer x) (bo_value x) (bo_crash x))
    | Some w =>
      if bool_decide (ASubscribe ∉ bo_todo x) then (fun w' => set_world w' x) <$> wstep judge o w (WElse b)
      else Some (Boot (bo_todo x) (bo_chain x) (bo_head x) (bo_lib x) (bo_lib0 x) (Some (World (w_s w) ({[str (b_id b)]} ∪ w_chain w) (w_owed w)))
                   (bo_missed x ++ [b]) (bo_answer x) (bo_value x) (bo_crash x))
    end
  (* node.go:267-281 *)
  | BForks fh =>
    let y := Boot (bo_todo x) (bo_chain x) (bo_head x) (fh_lib fh) (bo_lib0 x) (bo_world x) (bo_missed x) (bo_answer x) (bo_value x) (bo_crash x) in
    match bo_world x with
    | Some w =>
      if bool_decide (ASubscribe ∉ bo_todo x) then
        (fun w' => Boot (bo_todo x) (bo_chain x) (bo_head x) (fh_lib fh) (bo_lib0 x) (Some w') (bo_missed x) (bo_answer x) (Some (fh_lib fh)) (bo_crash x))
          <$> wstep judge o w (WApp (LAnnounce fh))
      else Some y
    | None => Some y
    end
  (* node.go:369-371: nothing stored panics; both readers dereference the pointer *)
  | BReadLib => if users (bo_todo x) then match bo_value x with Some (Some _) => Some x | _ => Some (crash x) end else None
  | BWorld lab =>
    match bo_world x with
    | Some w => if may (bo_todo x) lab then (fun w' => set_world w' x) <$> wstep judge o w lab else None
    | None => None
    end
  end.
Fixpoint boot_run (x : boot) (ls : list blabel) : option boot :=
  match ls with [] => Some x | l :: r => match boot_step x l with Some y => boot_run y r | None => None end end.
(** What happened to the applicator and its chain service during a run of the start. *)
Fixpoint heard (x : boot) (ls : list blabel) : list wlabel :=
  match ls with
  | [] => []
  | l :: r => match boot_step x l with Some y => match as_world x l with Some lab => lab :: heard y r | None => heard y r end | None => [] end
  end.
End boot.

(** ** What is logged about the node *)
(** node.go:384-402, the lines about connections: the connections listed, and the number in the line "and _ more".  [conns]: the answer of
    GetConnections in line 391, [later]: the length of its answer in line 394. *)
Inductive conn_line (C : Type) := LineConn (c : C) | LineMore (n : Z).
Arguments LineConn {C} c. Arguments LineMore {C} n.
Fixpoint log_from {C} (i : nat) (conns : list C) (later : nat) : list (conn_line C) :=
  match conns with
  | [] => []
  | c :: r => LineConn c :: (if bool_decide (10 < i) then [LineMore (Z.of_nat later - Z.of_nat i)] else log_from (S i) r later)
  end.
Definition log_connections {C} (conns : list C) (later : nat) : list (conn_line C) := log_from 0 conns later.
