(** Spec_LogQuot: what may be known about math.log. *)

From Coq Require Import ZArith Reals.
From Flocq Require Import Core.
Local Open Scope R_scope.

(* the double next to the logarithm *)
Definition correctly_rounded (flog : R -> R) : Prop :=
  forall n : Z, (1 <= n)%Z -> flog (IZR n) = round radix2 (FLT_exp (-1074) 53) ZnearestE (ln (IZR n)).
(* a relative error of at most 2 ^ -52 *)
Definition accurate (flog : R -> R) : Prop :=
  forall n : Z, (1 <= n)%Z -> Rabs (flog (IZR n) - ln (IZR n)) <= bpow radix2 (-52) * ln (IZR n).
