(** Model_Int64: least common multiples as numpy calculates them, with integers of 64 bits.  (In
    Model_Perm they are unbounded.)  No proofs in this file. *)

From Coq Require Import List Arith ZArith Bool.
From Verif Require Import Model_Base Model_Perm Model_SetPart.
Import ListNotations.
Open Scope Z_scope.

(* the number between -2 ^ 63 and 2 ^ 63 - 1 with the same last 64 binary digits *)
Definition wrap64 (z : Z) : Z :=
  let r := z mod 2 ^ 64 in
  if Z.ltb r (2 ^ 63) then r else r - 2 ^ 64.

(* numpy.lcm of two int64 values (npy_lcmll): absolute values as unsigned integers, [a / gcd * b] *)
Definition np_lcm (a b : Z) : Z :=
  let g := Z.gcd a b in
  if Z.eqb g 0 then 0 else wrap64 (Z.abs a / g * Z.abs b).

(* numpy.lcm.reduce of a list of Python integers below 2 ^ 63; numpy.lcm has no identity *)
Definition np_lcm_reduce (l : list Z) : res Z :=
  match l with
  | [] => Err ValueErr
  | x :: l' => Ok (fold_left np_lcm l' x)
  end.

(* perm/metributes/order.py:7-17  order *)
Definition porder64 (p : perm) : res Z :=
  if neutral p then Ok 1
  else
    let* cs := pcycles p in
    let cycle_lengths := map (fun c => Z.of_nat (length c)) cs in
    np_lcm_reduce cycle_lengths.

(* perm/a/broaden_moved/__init__.py:19-26  sub; the range of a negative number is empty *)
Definition broaden_sub64 (small_set : list Z) (peri repetitions : Z) : list Z :=
  flat_map (fun i => map (fun x => Z.of_nat i * peri + x) small_set) (seq 0 (Z.to_nat repetitions)).

(* perm/a/broaden_moved/__init__.py:4-16  broaden_moved *)
Definition broaden_moved64 (a_len b_len : Z) (a_moved b_moved : list Z) : Z * list Z :=
  let big_len := np_lcm a_len b_len in
  (big_len, zunion (broaden_sub64 a_moved a_len (big_len / a_len)) (broaden_sub64 b_moved b_len (big_len / b_len))).
