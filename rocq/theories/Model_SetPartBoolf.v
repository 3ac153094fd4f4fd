(** Model_SetPartBoolf: the method [boolf] of the class SetPartComp
    (discretehelpers/set_part_comp/methods/boolf).  No proofs in this file. *)

From Coq Require Import List Arith ZArith Bool Lia.
From Verif Require Import Model_Base Model_Binary Model_SetPart Model_SetPartComp Model_Boolf.
Import ListNotations.

(* set_part_comp/methods/boolf/__init__.py:8, 10  [boolf_object & Boolf('1001', [a, b])] *)
Definition and_table (v : list bool) (boolf_object : boolf) (a b : Z) : res boolf :=
  let* g := tt_deflated v (Some [a; b]) in boolf_and boolf_object g.

(* set_part_comp/methods/boolf/__init__.py:1-11; [order] is the iteration order of the set
   comp_pairs *)
Definition spc_boolf (order : list (Z * Z) -> list (Z * Z)) (s : spc) : res boolf :=
  let boolf_object := set_constant true in                              (* 4 *)
  let* boolf_object :=
    foldM (fun bo equality_block =>                                     (* 5-8 *)
             foldM (fun bo i => and_table [true; false; false; true] bo (nth i equality_block 0%Z) (nth (S i) equality_block 0%Z))
                   (range (length equality_block - 1)) bo)
          (sp_blocks (equal_part s)) boolf_object in
  foldM (fun bo ab => and_table [false; true; true; false] bo (fst ab) (snd ab)) (order (comp_pairs s)) boolf_object.  (* 9-10 *)
