(** Spec_Determinant: what a determinant is, independently of the code.  The determinant is
    mathcomp's [\det] (the Leibniz sum over all permutations) of a matrix over mathcomp's
    integers; [zi] is the embedding of Coq's [Z]. *)

From Coq Require Import List ZArith.
From mathcomp Require Import ssreflect ssrfun ssrbool eqtype ssrnat seq choice fintype
  bigop finfun perm fingroup ssralg zmodp matrix ssrint.
Local Open Scope ring_scope.

Definition zi (z : Z) : int :=
  match z with
  | Z0 => 0
  | Zpos p => Posz (Pos.to_nat p)
  | Zneg p => - Posz (Pos.to_nat p)
  end.

(* entry (j, k) of a list of rows *)
Definition entry (mat : list (list Z)) (j k : nat) : Z := List.nth k (List.nth j mat nil) Z0.

(* the n x n matrix of a list of rows *)
Definition mx_of (n : nat) (mat : list (list Z)) : 'M[int]_n := \matrix_(j, k) zi (entry mat j k).

(* the determinant as an element of [Z]; [zi] is injective *)
Definition is_det (n : nat) (mat : list (list Z)) (d : Z) : Prop := zi d = \det (mx_of n mat).
