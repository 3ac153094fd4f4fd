(** Spec_Hyper: sets of independent atoms of a Boolean function. *)

From Coq Require Import List Arith ZArith Bool Sorted.
From Verif Require Import Model_Base Model_Boolf Spec_Boolf Spec_Splits Spec_Blight.
Import ListNotations.
Open Scope nat_scope.

(** the satisfying assignments give the atoms with these keys all combinations of values *)
Definition shattered (f : boolf) (keys : list nat) : Prop :=
  forall b : nat -> bool, exists e, sem f e = true /\ forall k, In k keys -> e (nth_atom f k) = b k.

(** a set of n keys *)
Definition key_set (f : boolf) (n : nat) (keys : list nat) : Prop :=
  ascending keys /\ length keys = n /\ forall k, In k keys -> k < valency f.

(** a true place of the table *)
Definition spot (f : boolf) (s : nat) : Prop := nth s (root f) false = true.

(** two elements are true places, in which the atoms with these keys have the same values *)
Definition alike (f : boolf) (keys : list nat) (x y : Z) : Prop :=
  exists s t, x = Z.of_nat s /\ y = Z.of_nat t /\ spot f s /\ spot f t /\ forall k, In k keys -> Nat.testbit s k = Nat.testbit t k.

(** the border of the atom with key [j] is inside ([q] = true) or outside ([q] = false) of the
    atom with key [k]: the latter has the value [q] together with both values of the former, but
    not all four pairs of values occur *)
Definition border_at (f : boolf) (j k : nat) (q : bool) : Prop :=
  occurs f j k true q /\ occurs f j k false q /\ ~ crossing f j k.

(** the classes of the true places, in increasing order *)
Definition spot_blocks (f : boolf) (keys : list nat) (blocks : list (list Z)) : Prop :=
  (forall b, In b blocks -> b <> [] /\ StronglySorted Z.lt b /\ forall x, In x b -> forall y, In y b <-> alike f keys x y) /\
  (forall s, spot f s -> exists b, In b blocks /\ In (Z.of_nat s) b) /\
  StronglySorted (fun b c => (hd 0 b < hd 0 c)%Z) blocks.

(** a side as a sign: 1 for inside, -1 for outside *)
Definition sg (q : bool) : Z := if q then 1%Z else (-1)%Z.
