(** Spec_Bits: binary digits through the standard library's [Nat.testbit], parity, submasks,
    divisibility.  Independent of the algorithms of the model. *)

From Coq Require Import List Arith Bool Lia.
Import ListNotations.

(** number of one bits of [n] (bit [i] is zero for [i >= n]) *)
Definition count_ones (n : nat) : nat := length (filter (Nat.testbit n) (seq 0 n)).
Definition evil (n : nat) : Prop := Nat.even (count_ones n) = true.
Definition odious (n : nat) : Prop := Nat.odd (count_ones n) = true.

(** all one bits of [k] are one bits of [n] *)
Definition submask (k n : nat) : Prop := forall i, Nat.testbit k i = true -> Nat.testbit n i = true.

Definition divides (d n : nat) : Prop := exists c, n = c * d.
Definition prime (p : nat) : Prop := 2 <= p /\ forall d, divides d p -> d = 1 \/ d = p.

(** k-subsets of {0, ..., n-1} as increasing lists *)
Fixpoint subsets (k n : nat) : list (list nat) :=
  match k, n with
  | 0, _ => [[]]
  | S _, 0 => []
  | S k', S n' => subsets k n' ++ map (fun s => s ++ [n']) (subsets k' n')
  end.

(** parity (XOR) of a list of bits *)
Definition xor_all (l : list bool) : bool := fold_right xorb false l.
(** scalar product modulo two of the binary digits of two numbers below 2^n *)
Definition dot (n a b : nat) : bool :=
  xor_all (map (fun i => Nat.testbit a i && Nat.testbit b i) (seq 0 n)).
