(** What the last head time of a history is. *)
From Verif Require Import GoBase Toggle_Model.

(** The last head time in a history. *)
Definition head_after (before : list N) (evs : list tg_event) : N :=
  fold_left (fun h e => match e with TgUpdate t => t | _ => h end) evs (List.last before 0%N).

