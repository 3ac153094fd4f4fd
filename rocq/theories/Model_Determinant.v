(** Model_Determinant: a/integer_determinant (fraction-free elimination) and the attribute
    [determinant] of WalshPerm.  No proofs in this file.

    Simplification: matrix entries are integers (bool entries are the integers 0 and 1, as
    made by [int(_)] in line 13), so [is_integer_matrix] finds [entry % 1 > 0] for none of
    them; float entries are not modelled. *)

From Coq Require Import List Arith ZArith Bool.
From Verif Require Import Model_Base Model_SigPerm Model_WalshPerm.
Import ListNotations.
Open Scope nat_scope.

(* a/is_integer_matrix/__init__.py:1-6 *)
Definition is_integer_matrix (matrix : list (list Z)) : bool :=
  forallb (forallb (fun entry => negb (Z.ltb 0 (entry mod 1)))) matrix.

(* Python [mat[j][k]] *)
Definition mget (mat : list (list Z)) (j k : nat) : res Z := let* row := lget mat j in lget row k.

(* Python [mat[j][k] = x]; the code has just read [mat[j][k]] *)
Definition mset (mat : list (list Z)) (j k : nat) (x : Z) : list (list Z) :=
  lset mat j (lset (nth j mat []) k x).

(* Python [l[-1]] *)
Definition last_item {A} (l : list A) : res A := lget l (length l - 1).

(* a/integer_determinant/__init__.py:20  [next((j for j in range(i + 1, n) if mat[j][i] != 0), None)] *)
Fixpoint first_nonzero (mat : list (list Z)) (i : nat) (js : list nat) : res (option nat) :=
  match js with
  | [] => Ok None
  | j :: js' =>
      let* x := mget mat j i in
      if negb (Z.eqb x 0) then Ok (Some j) else first_nonzero mat i js'
  end.

(* 26-28: the body for one [j] and one [k]; [%] and [//] by zero raise ZeroDivisionError *)
Definition det_cell (i : nat) (prev : Z) (j : nat) (mat : list (list Z)) (k : nat) : res (list (list Z)) :=
  let* jk := mget mat j k in
  let* ii := mget mat i i in
  let* ji := mget mat j i in
  let* ik := mget mat i k in
  guard negb (Z.eqb prev 0) else ZeroDivErr ;;
  guard Z.eqb ((jk * ii - ji * ik) mod prev) 0 else AssertErr ;;               (* 27 *)
  Ok (mset mat j k ((jk * ii - ji * ik) / prev)%Z).                              (* 28 *)

(* 25-28 *)
Definition det_eliminate (n i : nat) (prev : Z) (mat : list (list Z)) : res (list (list Z)) :=
  foldM (fun m j => foldM (det_cell i prev j) (range2 (i + 1) n) m) (range2 (i + 1) n) mat.

(* 23: swap two rows *)
Definition det_swap (mat : list (list Z)) (i j : nat) : res (list (list Z)) :=
  let* row_j := lget mat j in
  let* row_i := lget mat i in
  Ok (lset (lset mat i row_j) j row_i).

(* 17-32, the loop over [i] with the early [return 0] *)
Fixpoint det_loop (n : nat) (is : list nat) (mat : list (list Z)) (sign prev : Z) : res Z :=
  match is with
  | [] => let* row := last_item mat in let* x := last_item row in Ok (sign * x)%Z          (* 32 *)
  | i :: is' =>
      let continue mat sign :=
        let* mat := det_eliminate n i prev mat in                                (* 25-28 *)
        let* prev := mget mat i i in                                             (* 30 *)
        det_loop n is' mat sign prev in
      let* ii := mget mat i i in
      if Z.eqb ii 0 then                                                         (* 19 *)
        let* swapto := first_nonzero mat i (range2 (i + 1) n) in
        match swapto with
        | None => Ok 0%Z                                                         (* 21-22 *)
        | Some j => let* mat := det_swap mat i j in continue mat (- sign)%Z      (* 23 *)
        end
      else continue mat sign
  end.

(* a/integer_determinant/__init__.py:4-32 *)
Definition integer_determinant (mat : list (list Z)) : res Z :=
  if Nat.eqb (length mat) 0 then Ok 1%Z
  else
    guard is_integer_matrix mat else TypeErr ;;
    det_loop (length mat) (range (length mat - 1)) mat 1 1.

(* walsh_perm/metributes/determinant/__init__.py:6-11 *)
Definition walsh_determinant (w : walsh) : res Z := integer_determinant (w_matrix w).
