(** Spec_Layers: Boolean functions and the number of true atoms; parts of a function where some
    atoms are fixed. *)

From Coq Require Import List Arith ZArith Bool Sorted.
From Verif Require Import Model_Base Model_Boolf Spec_Bits Spec_Boolf.
Import ListNotations.
Open Scope nat_scope.

(** the number of atoms of the function that are true in an assignment *)
Definition true_atoms (f : boolf) (e : assignment) : nat := length (filter e (atomvals f)).

(** the value depends only on the number of true atoms *)
Definition counting (f : boolf) : Prop := forall e e', true_atoms f e = true_atoms f e' -> sem f e = sem f e'.

(** permutations of the atoms do not change the function *)
Definition permutable (f : boolf) : Prop :=
  forall pi : nat -> nat, (forall a, In a (atomvals f) -> In (pi a) (atomvals f)) ->
    (forall a b, In a (atomvals f) -> In b (atomvals f) -> pi a = pi b -> a = b) ->
    forall e, sem f (fun a => e (pi a)) = sem f e.

(** two places of which the second has one more true atom: an edge of the hypercube *)
Definition edge_up (a b : nat) : Prop := exists k, Nat.testbit a k = false /\ b = a + 2 ^ k.

(** lexicographic order of pairs *)
Definition pair_lt (p q : nat * nat) : Prop := fst p < fst q \/ (fst p = fst q /\ snd p < snd q).

(** the numbers below n that are not in the list, in increasing order *)
Definition others (n : nat) (dims : list nat) : list nat := filter (fun k => negb (existsb (Nat.eqb k) dims)) (seq 0 n).

(** [j] has the bits of [p] at the places [keys] *)
Definition bits_at (keys : list nat) (p j : nat) : Prop :=
  j < 2 ^ length keys /\ forall t, t < length keys -> Nat.testbit j t = Nat.testbit p (nth t keys 0).

(** the places that agree with [p] in the places [dims] *)
Definition same_at (dims : list nat) (p q : nat) : bool := forallb (fun d => Bool.eqb (Nat.testbit p d) (Nat.testbit q d)) dims.

(** the sum of an integer for each place *)
Definition sum_places (n : nat) (F : nat -> Z) : Z := fold_right Z.add 0%Z (map F (seq 0 (2 ^ n))).

(** the sign of the inner product of two places, without the bits [dims] *)
Definition sign_outside (n : nat) (dims : list nat) (p q : nat) : Z :=
  if Nat.odd (length (filter (fun k => Nat.testbit p k && Nat.testbit q k) (others n dims))) then (-1)%Z else 1%Z.

(** the bits of [p] at the places [dims] form the number [i] *)
Definition in_part (dims : list nat) (i p : nat) : bool :=
  forallb (fun t => Bool.eqb (Nat.testbit i t) (Nat.testbit p (nth t dims 0))) (seq 0 (length dims)).

(** the places of a part in increasing order, and those with [w] ones apart from [dims] *)
Definition places (n : nat) (dims : list nat) (i : nat) : list nat := filter (in_part dims i) (seq 0 (2 ^ n)).
Definition ones_at (keys : list nat) (p : nat) : nat := length (filter (Nat.testbit p) keys).
Definition layer (n : nat) (dims : list nat) (i w : nat) : list nat :=
  filter (fun p => Nat.eqb (ones_at (others n dims) p) w) (places n dims i).

(** the Walsh spectrum of the part that contains [p], at the place of [p] *)
Definition part_spectrum (n : nat) (F : nat -> bool) (dims : list nat) (p : nat) : Z :=
  sum_places n (fun q => if same_at dims p q then (sign_outside n dims p q * (if F q then 1 else 0))%Z else 0%Z).
