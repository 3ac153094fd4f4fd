(** Model_Rest: single functions of several modules: inversion vectors, the foible "solid", the
    block with the label of an element, the number of affected elements. *)

From Coq Require Import List Arith ZArith Bool.
From Verif Require Import Model_Base Model_Binary Model_Twin Model_Boolf Model_BoolfMore Model_SetPart Model_SetPartComp Model_Perm.
Import ListNotations.
Local Open Scope nat_scope.

(* perm/a/inversion_related_vectors/__init__.py:25-34  inversion_vector  (entries are naturals) *)
Definition inversion_vector (p : list nat) : res (list nat) :=
  let n := length p in
  foldM (fun v i =>
           let count := length (filter (fun k => Nat.ltb (nth i p 0) (nth k p 0)) (range i)) in
           guard Nat.ltb (nth i p 0) n else IndexErr ;;
           Ok (lset v (nth i p 0) count))
        (range n) (repeat 0 n).

(* boolf/methods/_foibles/__init__.py:26-36.  For arity 0 the shift is by -1.5, which is a
   TypeError; for arity 1 it is by -1, which is a ValueError. *)
Definition is_solid (f : boolf) (arity : nat) : res nat :=
  let* ij := hasse_matrix_coordinates f (TtArity arity) in
  match arity with
  | 0 => Err TypeErr
  | S junarity =>
      let coordinate_length := 2 ^ junarity in
      guard Nat.leb 2 coordinate_length else ValueErr ;;
      let shift_length := coordinate_length - 2 in
      let shifted_i := Nat.shiftr (fst ij) shift_length in
      let shifted_j := Nat.shiftr (snd ij) shift_length in
      Ok (int_to_weight (Nat.lxor shifted_i shifted_j) mod 2)
  end.

(* set_part/methods/block_labels/__init__.py:65-67 *)
Definition get_block_from_element (s : setpart) (element : Z) : option (list Z) :=
  match get_label_from_element s element with
  | Some label => get_block_from_label s label
  | None => None                       (* there is no label None *)
  end.

(* set_part_comp/__init__.py:101-102 *)
Definition number_of_affected_elements order (s : spc) : res nat :=
  let* l := affected_elements order s in Ok (length l).
