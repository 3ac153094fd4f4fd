(** Checks of the model against the test files of discretehelpers/boolf/test (see Conf_Base).
    The assertions were translated mechanically; for each file of tests, those about what the model covers. *)
From Coq Require Import String List Arith ZArith Bool QArith.
From Verif Require Import Model_Base Model_Binary Model_SigPerm Model_SetPart Model_SetPartComp Model_Splits Model_Perm Model_Boolf Model_Twin Model_Blight Model_BoolfMore Model_Helpers
  Model_MinRep Model_Misc Model_Ec Model_King Model_Segments Model_Str Model_Layers Model_Hyper Model_Pretty Model_SetPartBoolf Conf_Base Conf_Examples Conf_BoolfM.
Import ListNotations.
Local Open Scope string_scope.
Local Open Scope nat_scope.
Local Open Scope list_scope.

Definition of_binv (sd : bool) (v : res (list bool)) (av : option (list nat)) : res boolf :=
  let* v := v in
  Boolf 1 (mkArgs (Some (TtVector (map (fun b : bool => if b then 1%Z else 0%Z) v))) (match av with Some l => Some (zl l) | None => None end) None None None None None None None None None sd).
Definition bfsai (l av : list nat) : res boolf := Boolf 1 (mkArgs None (Some (zl av)) None None (Some (zl l)) None None None None None None true).
(* == of values that are not functions *)
Definition same {A} (eqb : A -> A -> bool) (a b : res A) : res bool := let* x := a in let* y := b in Ok (eqb x y).
Definition same2 {A} (eqb : A -> A -> res bool) (a b : res A) : res bool := let* x := a in let* y := b in eqb x y.
Fixpoint sameseq {A} (eqb : A -> A -> bool) (l m : list A) : bool :=
  match l, m with [], [] => true | x :: l', y :: m' => eqb x y && sameseq eqb l' m' | _, _ => false end.
Definition sameset {A} (eqb : A -> A -> bool) (l m : list A) : bool :=
  Nat.eqb (length l) (length m) && forallb (fun x => existsb (eqb x) m) l && forallb (fun y => existsb (fun x => eqb x y) l) m.
Definition splits_same (l m : list (list nat * list nat)) : bool := sameseq (fun a b => nsame (fst a) (fst b) && nsame (snd a) (snd b)) l m.
Definition blocks_same := sameseq list_eqb.
Definition pdnat_eqb (a b : (nat * nat) * nat) := Model_Splits.pair_eqb (fst a) (fst b) && Nat.eqb (snd a) (snd b).
Definition pdbool_eqb (a b : (nat * nat) * bool) := Model_Splits.pair_eqb (fst a) (fst b) && Bool.eqb (snd a) (snd b).
Definition nl_eqb (a b : nat * list nat) := Nat.eqb (fst a) (fst b) && list_eqb (snd a) (snd b).
Definition nb_eqb (a b : nat * bool) := Nat.eqb (fst a) (fst b) && Bool.eqb (snd a) (snd b).
Definition pairs_same := sameseq Model_Splits.pair_eqb.
Definition boc_eqb (a b : list nat * (list (nat * nat) * list (nat * nat))) := list_eqb (fst a) (fst b) && pairs_same (fst (snd a)) (fst (snd b)) && pairs_same (snd (snd a)) (snd (snd b)).
Definition hsp_eqb (a b : nat * list (list (text * list nat))) :=
  Nat.eqb (fst a) (fst b) && sameseq (sameset (fun x y : text * list nat => list_eqb (fst x) (fst y) && nsame (snd x) (snd y))) (snd a) (snd b).
Definition name_eqb (a b : name) := match a, b with Txt s, Txt t => list_eqb s t | Num m, Num n => Nat.eqb m n | _, _ => false end.
Definition fpp_eqb (a b : text * list (name * name)) := list_eqb (fst a) (fst b) && sameseq (fun x y => name_eqb (fst x) (fst y) && name_eqb (snd x) (snd y)) (snd a) (snd b).
Definition glove_eqb (a b : option (list (list nat))) := match a, b with Some l, Some m => blocks_same l m | None, None => true | _, _ => false end.
Definition oblock_eqb (a b : option (list Z)) := match a, b with Some l, Some m => zlist_eqb l m | None, None => true | _, _ => false end.
Definition bgp_same (a : res (list (list nat * setpart))) (b : list (list nat * res setpart)) : res bool :=
  let* l := a in
  let* m := mapM (fun kv : list nat * res setpart => let* s := snd kv in Ok (fst kv, s)) b in
  let* e := forallM (fun xy : (list nat * setpart) * (list nat * setpart) => let* s := sp_eq (snd (fst xy)) (snd (snd xy)) in Ok (list_eqb (fst (fst xy)) (fst (snd xy)) && s)) (combine l m) in
  Ok (Nat.eqb (length l) (length m) && e).
(* the blocks and labels of an equivalence class; the elements are numbered in their order *)
Definition labels_same (a : res ec) (b : list (list Z * res boolf)) : res bool :=
  let* c := a in
  let* m := mapM (fun kv : list Z * res boolf => let* g := snd kv in Ok (fst kv, g)) b in
  Ok (Nat.eqb (length (sp_labels (ec_part c))) (length m) &&
      forallb (fun kv : list Z * boolf => match ec_block c (snd kv) with Some bl => zlist_eqb bl (fst kv) | None => false end) m).

Definition both_empty {A B} (a : res (list A)) (b : res (list B)) : res bool := let* x := a in let* y := b in Ok (match x, y with [], [] => true | _, _ => false end).
(* a block of a clan, given as pairs (negation, permutation); the number of elements gives the arity *)
Definition pair_numbers (c : ec) (l : list (nat * nat)) : list Z :=
  let total := length (flat_map fst (sp_labels (ec_part c))) in
  let n := match find (fun n => Nat.eqb (2 ^ n * fact n) total) (range 6) with Some n => n | None => 0 end in
  map (fun p : nat * nat => Z.of_nat (fst p * fact n + snd p)) l.
Definition block_pairs (c : res ec) (g : res boolf) (l : list (nat * nat)) : res bool :=
  let* c := c in let* g := g in Ok (oblock_eqb (ec_block c g) (Some (pair_numbers c l))).

