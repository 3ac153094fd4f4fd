(** Model_LoopHyper: the function [loop_hypersplits], which adds to a collection of segments the
    cores that hypersplits must have.  (Its call in find_segments is commented out.)  No proofs
    in this file. *)

From Coq Require Import List Arith ZArith Bool Lia.
From Verif Require Import Model_Base Model_Binary Model_Splits Model_Boolf Model_Segments Model_Hyper.
Import ListNotations.
Open Scope nat_scope.

(* boolf/methods/find_segments/a/classes/collection_of_segments/__init__.py:27-29; no segment is
   deeper than 3 ^ valency *)
Definition demand (valency : nat) (c : collection) (vector : list Z) : res collection :=
  if inquire c vector then Ok c else add (S (3 ^ valency)) valency c vector.

(* boolf/methods/find_segments/a/functions/loop_hypersplits/__init__.py:21-32: one turn of the
   inner loop *)
Definition core_step (valency : nat) (c : collection) (pc : core) : res collection :=
  let one_core_found := existsb (inquire c) (c_vectors pc) in
  if negb one_core_found then
    if negb (nonempty (c_free pc)) then
      let* unique_core_vector := lget (c_vectors pc) 0 in
      demand valency c unique_core_vector
    else Ok c
  else Ok c.

(* Boolf(fullspots=spots, atomvals=atomvals, skip_deflation=True) *)
Definition spots_args (spots atoms : list nat) : bargs :=
  mkArgs None (Some (map Z.of_nat atoms)) None None (Some (map Z.of_nat spots)) None None None None None None true.

(* boolf/methods/find_segments/a/functions/loop_hypersplits/__init__.py:1-32.  [order] is the
   iteration order of the set comp_pairs (as in Model_Blight), [f] is collection.boolf. *)
Definition loop_hypersplits (order : list (Z * Z) -> list (Z * Z)) (f : boolf) (c : collection) : res collection :=
  let* g := Boolf 1 (spots_args (get_spots c) (atomvals f)) in
  let* cores := hypersplits_potential_cores order g in
  foldM (fun c (nl : nat * list core) => foldM (core_step (valency f)) (snd nl) c) cores c.
