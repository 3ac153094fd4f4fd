(** Model_Log: logarithms in floating point (a/_log), and the arity of a Zhegalkin number that is calculated with them.
    math.log2 and math.log are parameters of the definitions; what is known about them is part of the theorems.  No
    proofs in this file.  In all other files these functions are modelled with exact logarithms. *)

From Coq Require Import ZArith Bool.
From Verif Require Import Model_Base Model_Binary Model_Twin Model_Boolf.
Open Scope Z_scope.

(* a floating point number that is not negative: [mant / 2 ^ scale] *)
Record double := mkDouble { mant : Z; scale : Z }.
(* math.floor, math.ceil, and is_natural (a/is_natural/__init__.py:1-6) for these numbers *)
Definition floor_d (d : double) : Z := mant d / 2 ^ scale d.
Definition ceil_d (d : double) : Z := - ((- mant d) / 2 ^ scale d).
Definition natural_d (d : double) : bool := Z.eqb (mant d mod 2 ^ scale d) 0.

Section Log2.
Variable log2 : Z -> double.

(* a/_log/log_floor/__init__.py:6-10 for integers *)
Definition log_floor (x : Z) : res Z :=
  guard Z.leb 0 (x - 1) else ArgValueError ;; Ok (floor_d (log2 x)).
(* a/_log/log_ceil/__init__.py:6-10 for integers *)
Definition log_ceil (x : Z) : res Z :=
  guard Z.leb 0 (x - 1) else ArgValueError ;; Ok (ceil_d (log2 x)).
(* a/_log/log_int/__init__.py:6-17 for integers *)
Definition log_int_d (x : Z) : res Z :=
  guard Z.leb 0 (x - 1) else ArgValueError ;;
  let result := log2 x in
  if natural_d result then Ok (floor_d result) else Err ArgValueError.

(* boolf/a/intval_to_arity/__init__.py:6-13 *)
Definition intval_to_arity_d (x : Z) : res Z :=
  guard Z.leb 0 x else ArgValueError ;;
  if Z.eqb x 0 || Z.eqb x 1 then Ok 0
  else
    let* a := log_floor x in
    let* b := log_floor a in
    Ok (b + 1).
(* boolf/a/intval_to_arity/__init__.py:16-20 *)
Definition intval_to_tt_length_d (x : Z) : res Z :=
  let* exponent := intval_to_arity_d x in Ok (Z.shiftl 1 exponent).

End Log2.

Section BinaryLength.
(* math.log(n, 2), the quotient of two natural logarithms *)
Variable log_2 : Z -> double.

(* binv/a/binary_length/__init__.py:6-13 for natural numbers *)
Definition binary_length_d (n : nat) : nat :=
  if Nat.eqb n 0 then 0%nat else Z.to_nat (floor_d (log_2 (Z.of_nat n)) + 1).

(* boolf/subinit_methods/tt/__init__.py:32-67  [Boolf(n, arity=arity)], with binv/__init__.py:56 *)
Definition Boolf_int_d (n arity : nat) : res boolf :=
  let* binv := Binv_with binary_length_d None (Some (Z.of_nat n)) None (Some (2 ^ arity)%nat) None in
  tt_deflated binv None.

(* boolf/subinit_methods/zhe/__init__.py:9-23 *)
Definition subinit_zhe_d (log2 : Z -> double) (zhe : Z) : res boolf :=
  let* arity := intval_to_arity_d log2 zhe in
  let* t := twin_int (Z.to_nat zhe) (Z.to_nat arity) in
  Boolf_int_d t (Z.to_nat arity).
End BinaryLength.
