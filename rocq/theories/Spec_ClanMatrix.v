(** Spec_ClanMatrix: negations and symmetries of the functions in the matrix of a clan.
    Independent of the algorithms of the model. *)

From Coq Require Import List Arith ZArith Bool Sorted Permutation.
From Verif Require Import Model_Base Model_Boolf Spec_Bits Spec_Boolf Spec_MinRep Spec_Ec.
Import ListNotations.
Open Scope nat_scope.

(** the atoms at the places of the bits of [k] are negated *)
Definition negate_by (k : nat) (F : assignment -> bool) : assignment -> bool := fun e => F (fun a => xorb (e a) (Nat.testbit k a)).

(** the atom [a] is replaced by the one at place [a] of the list *)
Definition permute_by (p : list nat) (F : assignment -> bool) : assignment -> bool := fun e => F (fun a => e (nth a p a)).

(** the places below [2^n] have the same orbits under the permutations that do not change the function *)
Definition same_orbits (n : nat) (F G : assignment -> bool) : Prop :=
  forall x y, x < 2 ^ n -> y < 2 ^ n -> (perm_orbit n F x y <-> perm_orbit n G x y).

(** Zhegalkin numbers, place by place with the same orbits; the same after a permutation *)
Definition aligned (n : nat) : list nat -> list nat -> Prop := Forall2 (fun y z => same_orbits n (zhegalkin y) (zhegalkin z)).
Definition matching (n : nat) (l m : list nat) : Prop := exists m', Permutation m m' /\ aligned n l m'.

(** the order of tuples of three numbers *)
Definition triple_lt (a b : nat * nat * nat) : Prop :=
  let '(a1, a2, a3) := a in let '(b1, b2, b3) := b in a1 < b1 \/ (a1 = b1 /\ (a2 < b2 \/ (a2 = b2 /\ a3 < b3))).

(** the keys of the dictionary are those with [D], ascending; their values are the ascending lists of what is related to them by [Q] *)
Definition listing {A} (lt_A : A -> A -> Prop) (D : nat -> Prop) (Q : nat -> A -> Prop) (d : list (nat * list A)) : Prop :=
  StronglySorted lt (map fst d) /\ (forall k, In k (map fst d) <-> D k) /\
  forall k l, In (k, l) d -> StronglySorted lt_A l /\ forall x, In x l <-> Q k x.

(** the function with number [z] is [F] after a signed permutation of the atoms: [p] is the permutation, [m] has the negations of
    its results, [k] those of its arguments *)
Definition signed_perm_gives (n : nat) (F : assignment -> bool) (p : list nat) (k m z : nat) : Prop :=
  k < 2 ^ n /\ m < 2 ^ n /\ (forall a, a < n -> Nat.testbit k a = Nat.testbit m (nth a p a)) /\
  forall e, zhegalkin z e = F (fun a => xorb (e (nth a p a)) (Nat.testbit m (nth a p a))).
