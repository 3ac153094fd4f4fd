(** Model_InvSet: inversion_set_to_count with both variants, and its dictionary.  (Model_Perm has
    the left variant as a map.) *)

From Coq Require Import List Arith Bool.
From Verif Require Import Model_Base Model_Perm.
Import ListNotations.
Local Open Scope nat_scope.

(* perm/a/inversion_related_vectors/__init__.py:64-69  one pair: the length and the defaultdict
   key_to_count *)
Definition count_step (variant_left : bool) (st : nat * dict) (ab : nat * nat) : nat * dict :=
  let len := Nat.max (fst st) (Nat.max (fst ab + 1) (snd ab + 1)) in
  let key := if variant_left then snd ab else fst ab in
  let old := match dget (snd st) key with Some c => c | None => 0 end in
  (len, dset (snd st) key (old + 1)).

(* perm/a/inversion_related_vectors/__init__.py:60-73 *)
Definition set_to_count (pairs : list (nat * nat)) (variant_left : bool) : res (list nat) :=
  let st := fold_left (count_step variant_left) pairs (0, []) in
  foldM (fun vector (kc : nat * nat) =>
           guard Nat.ltb (fst kc) (length vector) else IndexErr ;;
           Ok (lset vector (fst kc) (snd kc)))
        (snd st) (repeat 0 (fst st)).

(* perm/a/inversion_related_vectors/__init__.py:76-77 *)
Definition set_to_permutation (pairs : list (nat * nat)) : res (list nat) :=
  let* vector := set_to_count pairs true in left_inversion_count_to_permutation vector.
