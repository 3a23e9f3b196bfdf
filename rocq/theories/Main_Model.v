(** Model of the option parsing in cmd/koinos-p2p/main.go:151-193 with strings.SplitN, strconv.ParseUint and hex.DecodeString. *)
From Verif Require Import GoBase PeerConn_Model.
Import Ascii.

(** Strings as lists of bytes *)
Notation chars := (list ascii).
Definition chars_of (s : string) : chars := Strings.String.list_ascii_of_string s.
Definition string_of (l : chars) : string := Strings.String.string_of_list_ascii l.
Definition colon : ascii := ":"%char.

(** strings.SplitN(s, ":", 2): before and after the first colon; [None]: there is none, the result has one element *)
Fixpoint split_colon (s : chars) : chars * option chars :=
  match s with
  | [] => ([], None)
  | c :: r => if bool_decide (c = colon) then ([], Some r) else let '(a, b) := split_colon r in (c :: a, b)
  end.

(** strconv.ParseUint(s, 10, 64) (Go standard library, atoi.go): the value returned also in case of an error *)
Inductive parse_error := PSyntax | PRange.
Definition dec_digit (c : ascii) : option N :=
  let n := N_of_ascii c in if bool_decide (48 <= n <= 57)%N then Some (n - 48)%N else None.
Fixpoint parse_digits (acc : N) (s : chars) : N * option parse_error :=
  match s with
  | [] => (acc, None)
  | c :: r =>
    match dec_digit c with
    | None => (0%N, Some PSyntax)
    | Some d =>
      if bool_decide (max_u64 / 10 + 1 <= acc)%N then (max_u64, Some PRange)
      else if bool_decide (max_u64 < acc * 10 + d)%N then (max_u64, Some PRange)   (* n1 < n || n1 > maxVal *)
      else parse_digits (acc * 10 + d) r
    end
  end.
Definition parse_uint (s : chars) : N * option parse_error := match s with [] => (0%N, Some PSyntax) | _ => parse_digits 0 s end.

(** hex.DecodeString (Go standard library, hex.go): the bytes decoded before an error are returned too; [true]: error *)
Definition hex_digit (c : ascii) : option N :=
  let n := N_of_ascii c in
  if bool_decide (48 <= n <= 57)%N then Some (n - 48)%N
  else if bool_decide (97 <= n <= 102)%N then Some (n - 87)%N
  else if bool_decide (65 <= n <= 70)%N then Some (n - 55)%N else None.
Fixpoint hex_decode (s : chars) : chars * bool :=
  match s with
  | [] => ([], false)
  | [_] => ([], true)
  | p :: q :: r =>
    match hex_digit p, hex_digit q with
    | Some a, Some b => let '(d, e) := hex_decode r in (ascii_of_N (a * 16 + b) :: d, e)
    | _, _ => ([], true)
    end
  end.

(** main.go:176-193: one checkpoint option; errors are only logged.  parts[1] of a one-element slice panics (line 188). *)
Definition parse_checkpoint (opt : string) : outcome checkpoint :=
  match split_colon (chars_of opt) with
  | (_, None) => Panic
  | (h, Some i) => Done (Checkpoint (fst (parse_uint h)) (Some (string_of (fst (hex_decode i)))))
  end.
Fixpoint parse_checkpoints (opts : list string) : outcome (list checkpoint) :=
  match opts with [] => Done [] | o :: r => obind (parse_checkpoint o) (fun cp => obind (parse_checkpoints r) (fun cps => Done (cp :: cps))) end.
(** main.go:151-164: the peer addresses; [parse]: NewMultiaddr and AddrInfoFromP2pAddr (None: an error, and a nil *AddrInfo, which is
    dereferenced in line 163). *)
Fixpoint parse_peers {A} (parse : string -> option A) (opts : list string) : outcome (list A) :=
  match opts with
  | [] => Done []
  | o :: r => match parse o with None => Panic | Some a => obind (parse_peers parse r) (fun l => Done (a :: l)) end
  end.
