(** Model_SigMatrix: matrix_to_sequence with its argument [inverse]; for [inverse=False] see Model_SigPerm. *)

From Coq Require Import List ZArith.
From Verif Require Import Model_Base Model_SigPerm.

(* sig_perm/a/matrix_to_sequence/__init__.py:6-23; the shape is checked (10) before the matrix is transposed (12-13) *)
Definition matrix_to_sequence_arg (mat : list (list Z)) (inverse : bool) : res (list Z) :=
  let size := length mat in
  guard forallb (fun row => Nat.eqb (length row) size) mat else ValueErr ;;
  matrix_to_sequence (if inverse then transpose_matrix size mat else mat).
