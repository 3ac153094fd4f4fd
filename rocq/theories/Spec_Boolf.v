(** Spec_Boolf: Boolean functions of infinitely many atoms as predicates on assignments.
    Independent of the algorithms of the model. *)

From Coq Require Import List Arith ZArith Bool Lia Sorted.
From Verif Require Import Model_Base Model_Boolf Spec_Bits Spec_SigPerm.
Import ListNotations.
Open Scope nat_scope.

(** an assignment gives every atom a truth value *)
Definition assignment := nat -> bool.

(** the entry of the table [t] selected by the values of the atoms [av]: bit k of the place is
    the value of the k-th atom *)
Definition table (t : list bool) (av : list nat) (e : assignment) : bool := nth (b2n (map e av)) t false.

(** the Boolean function an object stands for *)
Definition sem (f : boolf) : assignment -> bool := table (root f) (atomvals f).

Definition upd (e : assignment) (a : nat) (q : bool) : assignment := fun x => if Nat.eqb x a then q else e x.

(** the value of a literal: an atom or its negation *)
Definition litval (e : assignment) (z : Z) : bool := xorb (e (atom z)) (negated z).

(** the value depends on the atom *)
Definition essential (F : assignment -> bool) (a : nat) : Prop := exists e, F (upd e a true) <> F (upd e a false).

Definition ascending (l : list nat) : Prop := StronglySorted lt l.

(** table and atoms fit together *)
Definition fitting (f : boolf) : Prop := ascending (atomvals f) /\ length (root f) = 2 ^ length (atomvals f).

(** no redundant atoms *)
Definition reduced (f : boolf) : Prop :=
  fitting f /\ (forall a, In a (atomvals f) -> essential (sem f) a) /\
  is_inflated f = false /\ (is_constant f = true <-> atomvals f = []).

(** the places of the one bits of a number *)
Definition ones (n : nat) : list nat := filter (Nat.testbit n) (seq 0 n).

(** Zhegalkin polynomial: bit k of the number [z] tells whether the monomial with the atoms
    [ones k] occurs in the sum *)
Definition monomial (k : nat) (e : assignment) : bool := forallb e (ones k).
Definition zhegalkin (z : nat) (e : assignment) : bool := xor_all (map (fun k => monomial k e) (ones z)).

(** the entries of the arguments multi_and, multi_or, multi_xor, multi_xand *)
Definition entries (a : bargs) : list mu_entry :=
  let l (o : option (list mu_entry)) := match o with Some l => l | None => [] end in
  l (a_mu_a a) ++ l (a_mu_o a) ++ l (a_mu_xo a) ++ l (a_mu_xa a).

(** the objects the constructor returns; without [inflating], skip_deflation is never used *)
Inductive made (inflating : bool) : boolf -> Prop :=
| made_by n a f : (a_sd a = true -> inflating = true) ->
    (forall g, In (MuBoolf g) (entries a) -> made inflating g) ->
    Boolf n a = Ok f -> made inflating f.

(** the combinations of arguments one of the subinit methods is responsible for *)
Definition only (a : bargs) (ks : list akey) : Prop := forall k, present a k = true -> In k ks.
Definition supported (a : bargs) : Prop :=
  (only a [K_atom] /\ present a K_atom = true) \/
  (only a [K_tt; K_av; K_arity] /\ present a K_tt = true) \/
  (only a [K_fs; K_av; K_arity] /\ present a K_fs = true) \/
  (only a [K_zhe] /\ present a K_zhe = true) \/
  (only a [K_ws] /\ present a K_ws = true) \/
  only a [K_mu_a; K_mu_o; K_mu_xo; K_mu_xa].
