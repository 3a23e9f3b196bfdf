(** Model of GetProtocolVersion and readProtocolVersion, internal/p2p/connection_manager.go:182-226, of
    internal/p2p/protocol_version.go and of internal/options/connection_manager_options.go. *)
From stdpp Require Import pretty.
From Coq Require Import Ascii.
From Verif Require Import GoBase.

(** What the peerstore has under "ProtocolVersion": nothing (Get fails, line 183-186), a string (line 189) or
    a value of another type (line 191). *)
Inductive stored := StNone | StString (s : string) | StOther.

(** The three ways to return, lines 203, 208, 214 / 217 / 223.  semver.NewVersion is the parameter [parse]. *)
Inductive found {V : Type} := FVersion (v : V) | FMismatch | FMissing.
Arguments found : clear implicits.

(** protocol_version.go:5-12 *)
Definition koinos_prefix : string := "koinos/p2p/".
Definition version_major : N := 1.
Definition version_minor : N := 0.
Definition version_patch : N := 0.
Definition version_prerelease : string := "".
Definition version_metadata : string := "".
(** semver.Version.String (Masterminds/semver v3, version.go): major.minor.patch[-prerelease][+metadata] *)
Definition semver_string (major minor patch : N) (pre meta : string) : string :=
  (pretty major +:+ "." +:+ pretty minor +:+ "." +:+ pretty patch +:+
   (if bool_decide (pre = "") then "" else "-" +:+ pre) +:+ (if bool_decide (meta = "") then "" else "+" +:+ meta))%string.
(** protocol_version.go:18-28 KoinosProtocolVersion, KoinosProtocolVersionString *)
Definition announced : string :=
  koinos_prefix +:+ semver_string version_major version_minor version_patch version_prerelease version_metadata.

(** strings.HasPrefix *)
Fixpoint has_prefix (p s : string) : bool :=
  match p, s with
  | EmptyString, _ => true
  | String a p, String b s => bool_decide (a = b) && has_prefix p s
  | String _ _, EmptyString => false
  end.
(** strings.Split(s, "/"); the result is never empty: first part and the others *)
Fixpoint split_slash (s : string) : string * list string :=
  match s with
  | EmptyString => ("", [])
  | String a s =>
    let '(p, ps) := split_slash s in
    if bool_decide (a = "/"%char) then ("", p :: ps) else (String a p, ps)
  end.
(** parts[len(parts)-1], line 212 *)
Definition last_part (s : string) : string := let '(p, ps) := split_slash s in List.last ps p.

Section Lookup.
  Context {V : Type} (parse : string -> option V).
  (** connection_manager.go:200-218: one pass of the loop; [None]: go on to the select *)
  Definition read_version (x : stored) : option (found V) :=
    match x with
    | StNone => None
    | StOther => Some FMismatch
    | StString s =>
      if (0 <? String.length s)%nat then
        if has_prefix koinos_prefix s then
          match parse (last_part s) with Some v => Some (FVersion v) | None => Some FMismatch end
        else Some FMismatch
      else None
    end.
  (** connection_manager.go:196-226.  [store t] is what the peerstore has at time t; the context of the call is
      done from [deadline] on, which is the earlier of the call's time plus the timeout and the end of the caller's
      context.  [lookup_from t r t']: an execution that reads at time t returns r at t'.  The select is left at
      any time of at least the retry time (first branch) or the deadline (second branch), at most [late] after the
      earlier of the two; any [late] is allowed. *)
  Context (store : Z -> stored) (retry deadline late : Z).
  Inductive lookup_from : Z -> found V -> Z -> Prop :=
  | LkRead t r : read_version (store t) = Some r -> lookup_from t r t
  | LkAgain t t1 r t' : read_version (store t) = None -> (t + retry <= t1)%Z -> (t1 <= Z.max t (Z.min (t + retry) deadline) + late)%Z ->
      lookup_from t1 r t' -> lookup_from t r t'
  | LkDone t t' : read_version (store t) = None -> (deadline <= t')%Z -> (t <= t' <= Z.max t (Z.min (t + retry) deadline) + late)%Z ->
      lookup_from t FMissing t'.
End Lookup.

(** internal/options/connection_manager_options.go:5-23 *)
Record cm_opts := CmOpts { o_version_retry : Z; o_version_timeout : Z }.
Definition cm_defaults : cm_opts := CmOpts (50 * millisecond) (5 * second).
(** connection_manager.go:197-198: a call at time [t0] whose own context is done at [ctx_done], if ever *)
Definition version_deadline (o : cm_opts) (t0 : Z) (ctx_done : option Z) : Z :=
  match ctx_done with Some d => Z.min d (t0 + o_version_timeout o) | None => t0 + o_version_timeout o end.
Definition get_protocol_version {V} (parse : string -> option V) (store : Z -> stored) (o : cm_opts) (late t0 : Z) (ctx_done : option Z)
    (r : found V) (t : Z) : Prop :=
  lookup_from parse store (o_version_retry o) (version_deadline o t0 ctx_done) late t0 r t.
