(** Model_HyperInt: hyperfissions with dimensions that are any integers (Model_Layers has those
    with natural numbers). *)

From Coq Require Import List Arith ZArith Bool.
From Verif Require Import Model_Base Model_Binary Model_WalshPerm Model_Splits Model_Perm Model_SetPart Model_Boolf Model_BoolfMore Model_MinRep Model_Helpers Model_Layers.
Import ListNotations.
Open Scope nat_scope.

(* boolf/a/atom_indices_to_sequence/__init__.py:4-25 for integers.  Line 11: max of an empty list
   raises ValueError.  Line 12: 2 ** arity with a negative exponent is a float, and the product of
   a list with it in line 13 raises TypeError.  Line 16 checks each index when it is reached. *)
Definition atom_indices_to_sequence_int (exposet : list Z) (target_length : option nat) : res (list nat) :=
  guard Nat.eqb (length (znodup exposet)) (length exposet) else AssertErr ;;
  let* m := zmax exposet in
  let arity := (m + 1)%Z in
  guard Z.leb 0 arity else TypeErr ;;
  let len := 2 ^ Z.to_nat arity in
  let* result :=
    foldM (fun result (ia : nat * Z) =>
             guard Z.leb 0 (snd ia) else AssertErr ;;
             let boolf := set_unary (snd ia) in
             let place_value := 2 ^ fst ia in
             foldM (fun result j =>
                      let* b := boolf_get boolf j in
                      if b then let* x := lget result j in Ok (lset result j (x + place_value)) else Ok result)
                   (range len) result)
          (enumerate exposet) (repeat 0 len) in
  match target_length with None => Ok result | Some t => repeat_sequence result t end.

(* Python [l[i]], negative indices count from the end *)
Definition list_at {A} (l : list A) (i : Z) : res A :=
  if Z.leb 0 i then lget l (Z.to_nat i)
  else if Z.leb (- Z.of_nat (length l)) i then lget l (Z.to_nat (Z.of_nat (length l) + i)) else Err IndexErr.

(* boolf/methods/_hyperfission/hyperfission/__init__.py:5-14 *)
Definition hyperfission_int (f : boolf) (dimensions : list Z) : res (list (list bool)) :=
  match dimensions with
  | [] => let* tt := boolf_tt f TtDefault in Ok [tt]
  | [d] => let* fs := fissions f in let* ab := list_at fs d in Ok [fst ab; snd ab]
  | _ =>
      let* sequence := atom_indices_to_sequence_int dimensions (Some (2 ^ adicity f)) in
      let* tt := boolf_tt f TtDefault in
      vector_zip_apart tt sequence
  end.

(* boolf/methods/_hyperfission/hyperfission_walsh_spectra/__init__.py:4-13 *)
Definition hyperfission_walsh_spectra_int (f : boolf) (dimensions : list Z) : res (list (list Z)) :=
  let* parts := hyperfission_int f dimensions in Ok (map (fun v => fwht (map z_of_bool v)) parts).

(* boolf/methods/_hyperfission/hyperfission_walsh_spectra_zipped/__init__.py:5-14 *)
Definition hyperfission_walsh_spectra_zipped_int (f : boolf) (dimensions : list Z) : res (list Z) :=
  let* walsh_spectra := hyperfission_walsh_spectra_int f dimensions in
  match dimensions with
  | [] => lget walsh_spectra 0
  | _ =>
      let* sequence := atom_indices_to_sequence_int dimensions (Some (2 ^ adicity f)) in
      vector_zip_together walsh_spectra sequence
  end.

(* boolf/methods/_hyperfission/hyperfission_walsh_spectra_abs/__init__.py:1-9,
   hyperfission_walsh_spectra_layered_abs/__init__.py:4-12 *)
Definition hyperfission_walsh_spectra_abs_int (f : boolf) (dimensions : list Z) : res (list (list Z)) :=
  let* ws := hyperfission_walsh_spectra_int f dimensions in Ok (map (map Z.abs) ws).
Definition hyperfission_walsh_spectra_layered_abs_int (f : boolf) (dimensions : list Z) : res (list (list (list Z))) :=
  let* ws := hyperfission_walsh_spectra_abs_int f dimensions in mapM flat_to_layered ws.

(* boolf/methods/_hyperfission/hyperfission_walsh_spectra_labeled/__init__.py:4-29 *)
Definition hyperfission_walsh_spectra_labeled_int (f : boolf) (dimensions : list Z)
  : res (list Z + list (list (option nat) * list Z)) :=
  let* walsh_spectra := hyperfission_walsh_spectra_int f dimensions in
  match dimensions with
  | [] => let* ws := lget walsh_spectra 0 in Ok (inl ws)
  | _ =>
      let sequence_length := 2 ^ adicity f in
      let* sequence := atom_indices_to_sequence_int dimensions (Some sequence_length) in
      let entry_counts := sequence_to_entry_counts sequence in
      let outer_length := length walsh_spectra in
      let* first := lget walsh_spectra 0 in
      let inner_length := length first in
      let* labels := foldM (fun labels i =>
                        let* outer_index := lget sequence i in
                        let* inner_index := lget entry_counts i in
                        let* row := lget labels outer_index in
                        let* row := list_assign row inner_index (Some i) in
                        list_assign labels outer_index row)
                      (range sequence_length) (repeat (repeat None inner_length) outer_length) in
      let* result := foldM (fun result (iw : nat * list Z) =>
                        let* label := lget labels (fst iw) in Ok (label_put result label (snd iw)))
                      (enumerate walsh_spectra) [] in
      Ok (inr result)
  end.
