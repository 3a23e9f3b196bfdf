(** Model of internal/p2p/gossip_toggle.go and internal/options/gossip_toggle_options.go. *)
From Verif Require Import GoBase.

(** gossip_toggle_options.go:9-12 *)
Record tg_opts := TgOpts { tg_always_enable : bool; tg_always_disable : bool }.
(** gossip_toggle_options.go:3-6, 15-20 *)
Definition tg_default : tg_opts := TgOpts false false.
(** cmd/koinos-p2p/main.go:166-171: how the command line flags --disable-gossip and --force-gossip
    set the options *)
Definition tg_of_flags (disable_gossip force_gossip : bool) : tg_opts :=
  let o := tg_default in
  let o := if disable_gossip then TgOpts (tg_always_enable o) true else o in
  if force_gossip then TgOpts true (tg_always_disable o) else o.

(** gossip_toggle.go:18-27 GossipToggle, with the log of EnableGossip calls it made ([tg_calls],
    latest last) and [tg_loop]: whether the ticking loop of Start is running. *)
Record toggle := Toggle { tg_enabled : bool; tg_head : N; tg_loop : bool; tg_calls : list bool }.

(** gossip_toggle.go:106-114 NewGossipToggle *)
Definition tg_new : toggle := Toggle false 0 false [].

(** gossip_toggle.go:37-41 UpdateHeadTime *)
Definition tg_update (g : toggle) (t : N) : toggle :=
  Toggle (tg_enabled g) t (tg_loop g) (tg_calls g).

(** The triple "EnableGossip(b); lock; enabled = b; unlock" (lines 48-51, 73-76, 86-89, 94-97), as one step. *)
Definition tg_set (g : toggle) (b : bool) : toggle :=
  Toggle b (tg_head g) (tg_loop g) (tg_calls g ++ [b]).

(** gossip_toggle.go:44-61: what the goroutine of Start does before its loop *)
Definition tg_start (o : tg_opts) (g : toggle) : toggle :=
  if tg_always_enable o then tg_set g true
  else if tg_always_disable o then Toggle false (tg_head g) false (tg_calls g)
  else Toggle (tg_enabled g) (tg_head g) true (tg_calls g).

(** gossip_toggle.go:80: time.Unix(0, int64(headTime)*int64(1000000)) *)
Definition tg_head_instant (head : N) : Z := wrap_i64 (wrap_i64 (Z.of_N head) * 1000000).

(** gossip_toggle.go:65-101, one iteration of the loop: a tick, with the number of connections and
    the wall clock it observes *)
Definition tg_tick (g : toggle) (conns : nat) (now : Z) : toggle :=
  if negb (tg_loop g) then g
  else if bool_decide (conns = 0) then (if tg_enabled g then tg_set g false else g)
  else if bool_decide (time_sub now (tg_head_instant (tg_head g)) <= 45 * second)%Z
  then (if negb (tg_enabled g) then tg_set g true else g)
  else (if tg_enabled g then tg_set g false else g).

(** gossip_toggle.go:66-68: ctx.Done ends the loop *)
Definition tg_cancel (g : toggle) : toggle := Toggle (tg_enabled g) (tg_head g) false (tg_calls g).

Inductive tg_event := TgUpdate (t : N) | TgTick (conns : nat) (now : Z) | TgCancel.
Definition tg_step (g : toggle) (e : tg_event) : toggle :=
  match e with
  | TgUpdate t => tg_update g t
  | TgTick conns now => tg_tick g conns now
  | TgCancel => tg_cancel g
  end.
(** UpdateHeadTime may be called before Start ([before]); afterwards anything happens in any order. *)
Definition tg_run (o : tg_opts) (before : list N) (evs : list tg_event) : toggle :=
  fold_left tg_step evs (tg_start o (fold_left tg_update before tg_new)).
