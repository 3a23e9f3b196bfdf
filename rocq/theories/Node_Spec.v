(** Vocabulary for the node's handlers (C62-C65, C78-C80), in terms of the messages received. *)
From Verif Require Import GoBase Gossip_Model Node_Model.

Section node.
Context (cd : codecs).
(** the decodable broadcasts among what arrived, in order *)
Definition blocks_received (ls : list nlabel) : list block_accepted :=
  omap (fun l => match l with NBlockMsg d => cd_block cd d | _ => None end) ls.
Definition forks_received (ls : list nlabel) : list fork_update :=
  omap (fun l => match l with NForkMsg d => cd_forks cd d | _ => None end) ls.
(** the head times announced *)
Definition head_time (ba : block_accepted) : option N := if ba_head ba then h_timestamp <$> (ba_block ba ≫= b_header) else None.
(** A head announcement without the header the time is in *)
Definition headless (ba : block_accepted) : Prop := ba_head ba = true /\ (ba_block ba ≫= b_header) = None.
(** what is to be published: the encodings of the blocks (transactions) announced while gossip is on *)
Fixpoint blocks_to_publish (on : bool) (ls : list nlabel) : list string :=
  match ls with
  | [] => []
  | NSetBlock b :: r => blocks_to_publish b r
  | NBlockMsg d :: r => (if on then option_list (cd_block cd d ≫= fun ba => cd_mar_block cd (ba_block ba)) else []) ++ blocks_to_publish on r
  | _ :: r => blocks_to_publish on r
  end.
Fixpoint txs_to_publish (on : bool) (ls : list nlabel) : list string :=
  match ls with
  | [] => []
  | NSetTx b :: r => txs_to_publish b r
  | NTxMsg d :: r => (if on then option_list (cd_tx cd d ≫= fun t => cd_mar_tx cd t) else []) ++ txs_to_publish on r
  | _ :: r => txs_to_publish on r
  end.
(** the last irreversible blocks announced by fork updates and by the answer at start-up, in order *)
Definition libs_received (ls : list nlabel) : list (option topology) :=
  omap (fun l => match l with NForkMsg d => fu_lib <$> cd_forks cd d | NStored fu => Some (fu_lib fu) | _ => None end) ls.
End node.

(** what reached the applicator, and what is still on its way *)
Definition app_blocks (l : list app_msg) : list block_accepted := omap (fun m => match m with AmBlock b => Some b | _ => None end) l.
Definition app_forks (l : list app_msg) : list fork_update := omap (fun m => match m with AmForks f => Some f | _ => None end) l.
Definition pending_blocks (gs : list goroutine) : list block_accepted := omap (fun g => match g with GBlock b => Some b | _ => None end) gs.
Definition pending_forks (gs : list goroutine) : list fork_update := omap (fun g => match g with GForks f => Some f | _ => None end) gs.
Definition pending_heads (gs : list goroutine) : list block_accepted := omap (fun g => match g with GHead b => Some b | _ => None end) gs.
