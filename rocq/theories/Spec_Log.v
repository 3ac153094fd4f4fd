(** Spec_Log: what is asked of a floating point logarithm.  The true logarithm to base 2 is compared with fractions by
    comparing powers of integers, so no real numbers are needed. *)

From Coq Require Import ZArith.
From Verif Require Import Model_Log.
Open Scope Z_scope.

(** 53 bits for the digits; the exponents of floating point numbers are limited, but that does not matter here *)
Definition is_double (d : double) : Prop := 0 <= mant d < 2 ^ 53 /\ 0 <= scale d.
Definition less (d1 d2 : double) : Prop := mant d1 * 2 ^ scale d2 < mant d2 * 2 ^ scale d1.
(** the fraction a / 2 ^ j is at most (at least) the logarithm of x *)
Definition below_log (a j x : Z) : Prop := 2 ^ a <= x ^ (2 ^ j).
Definition above_log (a j x : Z) : Prop := x ^ (2 ^ j) <= 2 ^ a.

(** no floating point number is between the result and the true logarithm, nor equal to the latter, unless it is the
    result; this is asked only for numbers with less than 2 ^ 52 binary digits *)
Definition faithful (log2 : Z -> double) : Prop := forall x, 1 <= x -> Z.log2 x < 2 ^ 52 ->
  is_double (log2 x) /\ forall d, is_double d ->
    ~ (less (log2 x) d /\ below_log (mant d) (scale d) x) /\ ~ (above_log (mant d) (scale d) x /\ less d (log2 x)).

(** the result is a nearest floating point number: the true logarithm is not beyond the middle of the result and any
    other floating point number *)
Definition nearest (log2 : Z -> double) : Prop := forall x, 1 <= x -> Z.log2 x < 2 ^ 52 ->
  is_double (log2 x) /\ forall d, is_double d ->
    let middle := mant d * 2 ^ scale (log2 x) + mant (log2 x) * 2 ^ scale d in
    let s := scale d + scale (log2 x) + 1 in
    (less d (log2 x) -> below_log middle s x) /\ (less (log2 x) d -> above_log middle s x).

(** what CPython does before any logarithm: an integer becomes the nearest floating point number, so the integers just
    below a power of two give the same result as that power *)
Definition rounds_argument (log2 : Z -> double) : Prop := forall k x, 54 <= k -> 2 ^ k - 2 ^ (k - 54) <= x <= 2 ^ k -> log2 x = log2 (2 ^ k).
(** the integer part is never too small for powers of two; it is right for all numbers below [N] *)
Definition never_low (log2 : Z -> double) : Prop := forall k, 0 <= k -> k <= floor_d (log2 (2 ^ k)).
Definition right_below (N : Z) (log2 : Z -> double) : Prop := forall x k, 0 <= k -> 2 ^ k <= x < 2 ^ (k + 1) -> x < N -> floor_d (log2 x) = k.
(** the result for powers of two is exact *)
Definition right_powers (log2 : Z -> double) : Prop := forall k, 0 <= k -> mant (log2 (2 ^ k)) = k * 2 ^ scale (log2 (2 ^ k)) /\ 0 <= scale (log2 (2 ^ k)).

(** the smallest number of atoms for a truth table with this number *)
Definition least_arity (x a : Z) : Prop := 0 <= a /\ x < 2 ^ 2 ^ a /\ forall b, 0 <= b -> x < 2 ^ 2 ^ b -> a <= b.
