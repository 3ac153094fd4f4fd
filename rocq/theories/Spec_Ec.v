(** Spec_Ec: what a labelled partition of indices says, and the symmetries of a function.
    Independent of the algorithms of the model. *)

From Coq Require Import List Arith ZArith Bool Sorted.
From Verif Require Import Model_Base Model_SetPart Model_Boolf Model_Ec Spec_Bits Spec_Boolf Spec_SetPart Spec_MinRep.
Import ListNotations.
Open Scope nat_scope.

(** all readings of the labelled partition [c] agree with the relation "the element [x] has the
    label [g]": the label of an element, the elements with a label (ascending), the blocks, the
    labels (each one once); an object that equals no label has no block *)
Record shows (c : ec) (domain : list Z) (L : Z -> boolf -> Prop) : Prop := mk_shows {
  shows_domain : sp_domain (ec_part c) = DomSet domain;
  shows_label : forall x g, ec_label c x = Some g <-> L x g;
  shows_together : forall x y, x <> y -> (together (sp_blocks (ec_part c)) x y <-> exists g, L x g /\ L y g);
  shows_members : forall g, In g (ec_members c) <-> exists x, L x g;
  shows_once : NoDup (ec_members c);
  shows_block : forall g b, reduced g -> (ec_block c g = Some b <-> b <> [] /\ StronglySorted Z.lt b /\ forall x, In x b <-> L x g);
  shows_stranger : forall g, (forall x h, L x h -> root h <> root g \/ atomvals h <> atomvals g) -> ec_block c g = None
}.

(** [pi] and [m]: the atom [a] is replaced by the atom [pi a], negated where [m] is true *)
Definition replaced (F : assignment -> bool) (pi : nat -> nat) (m : assignment) : assignment -> bool :=
  fun e => F (fun a => xorb (e (pi a)) (m a)).

(** bits of a number are moved and negated: the bit at place [a] is found at place [pi a], negated where [m] is true *)
Definition moved (pi : nat -> nat) (m : assignment) (x y : nat) : Prop :=
  forall a, Nat.testbit y (pi a) = xorb (Nat.testbit x a) (m a).

(** the value depends on the first [n] atoms only *)
Definition local (n : nat) (F : assignment -> bool) : Prop := forall e e', (forall a, a < n -> e a = e' a) -> F e = F e'.

(** [d] has the functions with [P] in groups: two of them are in the same group when they are
    related by [C].  The functions are given by their Zhegalkin numbers, the lists are ascending,
    the keys are the smallest entries. *)
Definition groups (C : (assignment -> bool) -> (assignment -> bool) -> Prop) (P : (assignment -> bool) -> Prop) (d : list (nat * list nat)) : Prop :=
  NoDup (map fst d) /\
  (forall z, P (zhegalkin z) -> exists k l, In (k, l) d /\ In z l) /\
  (forall k l, In (k, l) d -> StronglySorted lt l /\ In k l /\ (forall z, In z l -> k <= z) /\
     forall z, In z l <-> P (zhegalkin z) /\ C (zhegalkin k) (zhegalkin z)).

(** [pi] and [m] are a symmetry of [F] on the atoms below [n] *)
Definition symmetry (n : nat) (F : assignment -> bool) (pi : nat -> nat) (m : assignment) : Prop :=
  bijection pi /\ (forall a, n <= a -> pi a = a /\ m a = false) /\ forall e, replaced F pi m e = F e.

(** two places are in the same orbit of the symmetries; without negations *)
Definition orbit (n : nat) (F : assignment -> bool) (x y : nat) : Prop := exists pi m, symmetry n F pi m /\ moved pi m x y.
Definition perm_orbit (n : nat) (F : assignment -> bool) (x y : nat) : Prop := exists pi, symmetry n F pi (fun _ => false) /\ moved pi (fun _ => false) x y.

(** the atoms at the places of the bits of [i] *)
Definition atoms_at_bits (av : list nat) (i : nat) : assignment := fun a => existsb (fun k => Nat.testbit i k && Nat.eqb (nth k av 0) a) (seq 0 (length av)).

(** all labels have equally many elements of [N] *)
Definition equal_shares (c : ec) (N : nat) : Prop :=
  exists k, N = k * length (ec_members c) /\ forall g, In g (ec_members c) -> exists b, ec_block c g = Some b /\ length b = k.
