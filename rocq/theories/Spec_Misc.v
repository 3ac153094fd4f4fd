(** Spec_Misc: fractions of true places, tables as infinite digit sequences, Pascal's triangle,
    orders on lists. *)

From Coq Require Import List Arith ZArith QArith Bool.
From Verif Require Import Model_Base Model_Boolf Spec_Bits Spec_Boolf Spec_Twin.
Import ListNotations.
Open Scope nat_scope.

(** the number of true places at an arity *)
Definition true_places (n : nat) (f : boolf) : nat := length (filter (value f) (seq 0 (2 ^ n))).

(** a quotient of natural numbers *)
Definition quotient (a b : nat) : Q := Z.of_nat a # Pos.of_nat b.

(** the truth tables as infinite sequences: f is smaller at the first difference *)
Definition first_smaller (f g : boolf) : Prop :=
  exists p, value f p = false /\ value g p = true /\ forall q, q < p -> value f q = value g q.

(** Pascal's triangle *)
Fixpoint pascal (n k : nat) : nat :=
  match n, k with
  | _, 0 => 1
  | 0, S _ => 0
  | S n', S k' => pascal n' k' + pascal n' k
  end.

(** a three-way comparison that is a total order *)
Definition total_order {A} (cmp : A -> A -> comparison) : Prop :=
  (forall a b, cmp a b = Eq <-> a = b) /\ (forall a b, cmp b a = CompOpp (cmp a b)) /\
  (forall a b c, cmp a b = Lt -> cmp b c = Lt -> cmp a c = Lt).

(** lexicographic order: a proper prefix, or smaller at the first difference *)
Definition lex_less {A} (less : A -> A -> Prop) (l m : list A) : Prop :=
  (exists s, s <> [] /\ m = l ++ s) \/ (exists p a b s t, l = p ++ a :: s /\ m = p ++ b :: t /\ less a b).
(** colexicographic order: a proper suffix, or smaller at the last difference *)
Definition colex_less {A} (less : A -> A -> Prop) (l m : list A) : Prop :=
  (exists s, s <> [] /\ m = s ++ l) \/ (exists s t p a b, l = s ++ a :: p /\ m = t ++ b :: p /\ less a b).

(** the true places of the root of each weight, their numbers, and the truth table *)
Definition root_layers (f : boolf) : list (list bool) :=
  map (fun w => map (fun k => nth k (root f) false) (filter (fun k => Nat.eqb (count_ones k) w) (seq 0 (2 ^ length (atomvals f))))) (seq 0 (S (length (atomvals f)))).
Definition layer_sizes (f : boolf) : list nat := map (fun l => length (filter (fun b => b) l)) (root_layers f).
Definition truth_table (f : boolf) : list bool := map (value f) (seq 0 (2 ^ adicity f)).
Definition bit_less (a b : bool) : Prop := a = false /\ b = true.

(** first the numbers of true places in the layers, then the layers, then the truth tables;
    for the other kind of representative everything but the truth table is reflected *)
Definition swan_less (verophile : bool) (f g : boolf) : Prop :=
  let sizes h := if verophile then layer_sizes h else rev (layer_sizes h) in
  let layers h := if verophile then root_layers h else map (@rev bool) (rev (root_layers h)) in
  lex_less lt (sizes f) (sizes g) \/
  sizes f = sizes g /\
    (lex_less (lex_less bit_less) (layers f) (layers g) \/
     layers f = layers g /\ lex_less bit_less (truth_table f) (truth_table g)).

(** the truth table at an arity, as a number whose greatest digit is the first *)
Definition table_number (n : nat) (f : boolf) : nat :=
  fold_right Nat.add 0 (map (fun p => if value f p then 2 ^ (2 ^ n - 1 - p) else 0) (seq 0 (2 ^ n))).
