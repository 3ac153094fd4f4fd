(** Spec_MinRep: classes of Boolean functions and their smallest members.
    Independent of the algorithms of the model. *)

From Coq Require Import List Arith ZArith Bool.
From Verif Require Import Model_Base Model_Boolf Spec_Bits Spec_Boolf.
Import ListNotations.
Open Scope nat_scope.

(** a permutation of all atoms *)
Definition bijection (pi : nat -> nat) : Prop := exists inv : nat -> nat, forall a, inv (pi a) = a /\ pi (inv a) = a.

(** some atoms are negated (family), the atoms are permuted (faction), both (clan) *)
Definition family_class (F H : assignment -> bool) : Prop := exists m : assignment, forall e, H e = F (fun a => xorb (e a) (m a)).
Definition faction_class (F H : assignment -> bool) : Prop := exists pi, bijection pi /\ forall e, H e = F (fun a => e (pi a)).
Definition clan_class (F H : assignment -> bool) : Prop :=
  exists pi (m : assignment), bijection pi /\ forall e, H e = F (fun a => xorb (e (pi a)) (m a)).

(** [g] is the member of the class with the smallest Zhegalkin number *)
Definition smallest (C : (assignment -> bool) -> Prop) (g : assignment -> bool) : Prop :=
  C g /\ exists z, (forall e, zhegalkin z e = g e) /\ forall h y, C h -> (forall e, zhegalkin y e = h e) -> z <= y.
