(** Model of the formula in error_handler.go:203-208 decayErrorScore:
      score = uint64(float64(score) * math.Exp(-1 * (math.Log(2)/float64(halflife)) * float64(dt))). *)
From Coq Require Import Reals.
From Flocq Require Import Core.
From Verif Require Import GoBase.

(** float64 rounding to nearest even, without the overflow case (all values here are below 2^65). *)
Definition fl (x : R) : R := round radix2 (FLT_exp (-1074) 53) ZnearestE x.

(** error_handler.go:206 with float64 semantics; [gexp dt] is the value math.Exp returns for elapsed
    time [dt] (any function; the theorems say what they need of it).  [uint64(f)] truncates. *)
Definition decay_float (gexp : Z -> R) (s : N) (dt : Z) : N :=
  Z.to_N (Zfloor (fl (fl (IZR (Z.of_N s)) * gexp dt))).

(** error_handler.go:204-206 in exact real arithmetic, rounding only in the final uint64 conversion. *)
Definition decay_real (halflife : Z) (s : N) (dt : Z) : N :=
  Z.to_N (Zfloor (IZR (Z.of_N s) * exp (-1 * (ln 2 / IZR halflife) * IZR dt))).
