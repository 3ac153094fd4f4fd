(** Spec_Blight: what the satisfying assignments have in common. *)

From Coq Require Import List Arith ZArith Bool Relations.
From Verif Require Import Model_Base Model_Boolf Spec_Boolf Spec_Splits.
Import ListNotations.
Open Scope nat_scope.

(** in all satisfying assignments the atoms with keys [a] and [b] are equal ([c] = false), or
    complements ([c] = true) *)
Definition linked (f : boolf) (a b : nat) (c : bool) : Prop :=
  forall e, sem f e = true -> xorb (e (nth_atom f a)) (e (nth_atom f b)) = c.

(** in all satisfying assignments the atom with key [a] has the value [q] *)
Definition fixed (f : boolf) (a : nat) (q : bool) : Prop := forall e, sem f e = true -> e (nth_atom f a) = q.

(** the assignment has these links and fixed values *)
Definition keeps_links (f : boolf) (e : assignment) : Prop :=
  forall a b c, a < valency f -> b < valency f -> linked f a b c -> xorb (e (nth_atom f a)) (e (nth_atom f b)) = c.
Definition keeps_fixed (f : boolf) (e : assignment) : Prop :=
  forall a q, a < valency f -> fixed f a q -> e (nth_atom f a) = q.

(** no two atoms are linked; no atom is fixed *)
Definition no_links (f : boolf) : Prop := forall a b c, a < b < valency f -> ~ linked f a b c.
Definition none_fixed (f : boolf) : Prop := forall a q, a < valency f -> ~ fixed f a q.

(** the classes of an equivalence relation on 0 ... n - 1 *)
Definition classes (n : nat) (E : nat -> nat -> Prop) (blocks : list (list nat)) : Prop :=
  (forall b, In b blocks -> b <> [] /\ ascending b /\ forall x, In x b -> x < n /\ forall y, In y b <-> y < n /\ E x y) /\
  (forall x, x < n -> exists b, In b blocks /\ In x b) /\ NoDup blocks.

(** the first one of the table *)
Definition first_spot (f : boolf) (n : nat) : Prop :=
  nth n (root f) false = true /\ forall m, m < n -> nth m (root f) false = false.

(** the preferred side of a block of tied keys: none, if all keys are equal; otherwise the first
    key whose atom is true in the first spot *)
Definition preferred (f : boolf) (block : list nat) (side : option nat) : Prop :=
  match side with
  | None => forall x y, In x block -> In y block -> linked f x y false
  | Some k => In k block /\ (exists y, In y block /\ linked f k y true) /\
      (forall n, first_spot f n -> Nat.testbit n k = true) /\ forall y, In y block -> linked f k y false -> k <= y
  end.

(** the representative of a block *)
Definition representative (bp : list nat * option nat) : nat :=
  match snd bp with Some k => k | None => hd 0 (fst bp) end.

(** the spot has the links of the function *)
Definition spot_keeps_links (f : boolf) (n : nat) : Prop :=
  forall a b c, a < valency f -> b < valency f -> linked f a b c -> xorb (Nat.testbit n a) (Nat.testbit n b) = c.
Definition spot_keeps_fixed (f : boolf) (n : nat) : Prop :=
  forall a q, a < valency f -> fixed f a q -> Nat.testbit n a = q.

(** some satisfying assignment agrees with [e] on the atoms with these keys *)
Definition extends (f : boolf) (keys : list nat) (e : assignment) : Prop :=
  exists e', (forall k, In k keys -> e' (nth_atom f k) = e (nth_atom f k)) /\ sem f e' = true.

(** the two atoms are independent: all pairs of values occur *)
Definition crossing (f : boolf) (a b : nat) : Prop :=
  a < valency f /\ b < valency f /\ forall p q, occurs f a b p q.

(** connected by a chain of such pairs *)
Definition chained (f : boolf) : nat -> nat -> Prop := clos_refl_sym_trans nat (crossing f).

(** three of the four pairs of values occur; both keys are in [block] *)
Definition gap_in (f : boolf) (block : list nat) (a b : nat) : Prop :=
  In a block /\ In b block /\ a < b < valency f /\ combos f a b 3.

(** two numbers are keys of linked atoms *)
Definition linked_keys (f : boolf) (x y : Z) (c : bool) : Prop :=
  exists a b, x = Z.of_nat a /\ y = Z.of_nat b /\ a < valency f /\ b < valency f /\ linked f a b c.

(** a number stands for a fixed value: the key of a fixed atom, or -1 for true *)
Definition fixed_key (f : boolf) (x : Z) (q : bool) : Prop :=
  (x = (-1)%Z /\ q = true) \/ exists a, x = Z.of_nat a /\ a < valency f /\ fixed f a q.
