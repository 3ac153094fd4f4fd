(** Spec_Cayley: products of numbered permutations and signed permutations, said with the lists of values and the
    binary digits of the numbers. *)

From Coq Require Import List Arith Bool Factorial.
From Verif Require Import Model_Base Model_Perm.
Import ListNotations.
Open Scope nat_scope.

(** value at [x] of the permutation with number [r] in the list of the permutations of n things in reverse
    colexicographic order (that order: C05) *)
Definition listed (n r x : nat) : nat := nth x (nth r (rev_colex_perms n) []) 0.

(** [p] is the number of the product of the permutations with the numbers [a] and [b]: first [b], then [a] *)
Definition perm_product (n a b p : nat) : Prop :=
  p < fact n /\ forall x, x < n -> listed n p x = listed n a (listed n b x).

(** the same with signs: (m, r) negates the value y when digit y of m is 1; [b] acts first *)
Definition signed_product (n : nat) (a b p : nat * nat) : Prop :=
  fst p < 2 ^ n /\ perm_product n (snd a) (snd b) (snd p) /\
  forall x, x < n ->
    Nat.testbit (fst p) (listed n (snd p) x) =
    xorb (Nat.testbit (fst a) (listed n (snd p) x)) (Nat.testbit (fst b) (listed n (snd b) x)).
