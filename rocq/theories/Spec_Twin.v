(** Spec_Twin: the Moebius transform of truth tables given as functions of the place.
    Independent of the algorithms of the model. *)

From Coq Require Import List Arith ZArith Bool.
From Verif Require Import Model_Base Model_Boolf Spec_Bits Spec_Boolf.
Import ListNotations.
Open Scope nat_scope.

(** XOR of the entries at all places whose one bits are among those of [j] *)
Definition moebius (n : nat) (F : nat -> bool) (j : nat) : bool :=
  xor_all (map F (filter (fun k => Nat.eqb (Nat.land k j) k) (seq 0 (2 ^ n)))).

(** the table with the number [t] is its own transform *)
Definition own_twin (n t : nat) : Prop := forall j, j < 2 ^ n -> Nat.testbit t j = moebius n (Nat.testbit t) j.

(** all atoms of the object are below [n] *)
Definition within (n : nat) (f : boolf) : Prop := forall a, In a (atomvals f) -> a < n.

(** the value at a place: atom k has the value of bit k of the place *)
Definition value (f : boolf) (i : nat) : bool := sem f (Nat.testbit i).

(** the value at a place is the value at the mirrored place *)
Definition palindrome (n s : nat) : Prop := forall k, k < 2 ^ n -> Nat.testbit s k = Nat.testbit s (2 ^ n - 1 - k).

(** bitwise XOR of a list of numbers *)
Definition lxor_all (l : list nat) : nat := fold_right Nat.lxor 0 l.

(** signs and sums for Walsh spectra *)
Definition sgn (b : bool) : Z := if b then (-1)%Z else 1%Z.
Definition zsum (F : nat -> Z) (n : nat) : Z := fold_right Z.add 0%Z (map F (seq 0 n)).
