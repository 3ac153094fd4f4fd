(** Model_LogQuot: math.log(n, base) as it is calculated, as the rounded quotient of two natural logarithms, and the functions that use it.
    Floating point numbers are real numbers; [flog] is math.log for floating point numbers, what is known about it is part of the
    theorems.  Arguments are integers below 2 ^ 1023, so there is no overflow.  No proofs in this file. *)

From Coq Require Import ZArith Reals.
From Flocq Require Import Core.
From Verif Require Import Model_Base.
Local Open Scope R_scope.

(* rounding to the nearest double, ties to even *)
Definition rnd (x : R) : R := round radix2 (FLT_exp (-1074) 53) ZnearestE x.

Section Log.
Variable flog : R -> R.

(* CPython Modules/mathmodule.c, math_log: both arguments are converted to double, the logarithms are divided *)
Definition log_base (n base : Z) : R := rnd (flog (rnd (IZR n)) / flog (rnd (IZR base))).

(* a/decimal_length/__init__.py:6-13 for integers *)
Definition decimal_length (n : Z) : res Z :=
  guard Z.leb 0 n else ArgValueError ;;
  if Z.eqb n 0 then Ok 0%Z else Ok (Zfloor (log_base n 10) + 1)%Z.

(* binv/a/binary_length/__init__.py:6-13 for integers *)
Definition binary_length (n : Z) : res Z :=
  guard Z.leb 0 n else ArgValueError ;;
  if Z.eqb n 0 then Ok 0%Z else Ok (Zfloor (log_base n 2) + 1)%Z.

(* a/is_power_of_two/__init__.py:6-15 for integers; is_natural (a/is_natural/__init__.py:1-6) of a floating point number *)
Definition natural_r (x : R) : bool := andb (Rle_bool 0 x) (Req_bool x (IZR (Zfloor x))).
Definition is_power_of_two (n : Z) : bool :=
  if Z.eqb n 0 then false
  else if negb (Z.leb 0 n) then false
  else natural_r (log_base n 2).
End Log.
