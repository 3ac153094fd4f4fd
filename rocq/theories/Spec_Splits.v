(** Spec_Splits: what the set of satisfying assignments says about one or two atoms. *)

From Coq Require Import List Arith Bool.
From Verif Require Import Model_Base Model_Boolf Spec_Boolf.
Import ListNotations.
Open Scope nat_scope.

(** the atom with the key [k] *)
Definition nth_atom (f : boolf) (k : nat) : nat := nth k (atomvals f) 0.

(** some satisfying assignment gives the atoms with keys [a] and [b] the values [p] and [q] *)
Definition occurs (f : boolf) (a b : nat) (p q : bool) : Prop :=
  exists e, sem f e = true /\ e (nth_atom f a) = p /\ e (nth_atom f b) = q.

(** all satisfying assignments give the atom with key [k] the same value *)
Definition one_sided (f : boolf) (k : nat) : Prop :=
  exists q, forall e, sem f e = true -> e (nth_atom f k) = q.

(** in all satisfying assignments the two atoms are equal, or in all of them they differ *)
Definition tied (f : boolf) (a b : nat) : Prop :=
  exists c, forall e, sem f e = true -> xorb (e (nth_atom f a)) (e (nth_atom f b)) = c.

(** the four digits tell which pairs of values occur; digit k belongs to the values (bit 0 of k,
    bit 1 of k) *)
Definition tells (f : boolf) (a b : nat) (s : list bool) : Prop :=
  length s = 4 /\ forall p q, nth (b2n [p; q]) s false = true <-> occurs f a b p q.

(** there are exactly [n] pairs of values that occur *)
Definition combos (f : boolf) (a b n : nat) : Prop :=
  exists l, NoDup l /\ length l = n /\ forall p q, In (p, q) l <-> occurs f a b p q.

(** some assignment satisfies the function *)
Definition satisfiable (f : boolf) : Prop := exists e, sem f e = true.
