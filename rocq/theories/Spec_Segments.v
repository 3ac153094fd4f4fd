(** Spec_Segments: cubes of places, and connectedness. *)

From Coq Require Import List Arith ZArith Bool Relations.
From Verif Require Import Model_Base Model_Boolf Spec_Boolf Spec_Splits.
Import ListNotations.
Open Scope nat_scope.

(** vectors of -1, 0, 1 *)
Definition ternary (n : nat) (w : list Z) : Prop := length w = n /\ forall x, In x w -> x = (-1)%Z \/ x = 0%Z \/ x = 1%Z.

(** the assignment has the signs of the vector (1 for true, -1 for false, 0 for both) *)
Definition agrees (f : boolf) (w : list Z) (e : assignment) : Prop :=
  forall k, k < length w -> (nth k w 0%Z = 1%Z -> e (nth_atom f k) = true) /\ (nth k w 0%Z = (-1)%Z -> e (nth_atom f k) = false).

(** all assignments with these signs satisfy the function *)
Definition implicant (f : boolf) (w : list Z) : Prop := ternary (valency f) w /\ forall e, agrees f w e -> sem f e = true.

(** the place belongs to the cube *)
Definition in_cube (w : list Z) (n : nat) : Prop :=
  n < 2 ^ length w /\ forall k, k < length w -> (nth k w 0%Z = 1%Z -> Nat.testbit n k = true) /\ (nth k w 0%Z = (-1)%Z -> Nat.testbit n k = false).

(** every two elements are joined by a path *)
Definition connected {A} (P : A -> Prop) (R : A -> A -> Prop) : Prop :=
  forall x y, P x -> P y -> clos_refl_sym_trans A R x y.

(** the true places of a function *)
Definition full (f : boolf) (n : nat) : Prop := nth n (root f) false = true.
(** two true places that differ in bit k *)
Definition link (f : boolf) (k : nat) (p : nat * nat) : Prop :=
  full f (fst p) /\ full f (snd p) /\ Nat.testbit (fst p) k = false /\ snd p = fst p + 2 ^ k.
(** two links in the same direction that differ in another bit *)
Definition square (f : boolf) (k : nat) (p q : nat * nat) : Prop :=
  link f k p /\ link f k q /\ exists j, j <> k /\ Nat.testbit (fst p) j = false /\ fst q = fst p + 2 ^ j.
