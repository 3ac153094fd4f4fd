(** Spec_WalshPerm: matrices modulo two and the maps of natural numbers they describe.
    Independent of the algorithms of the model. *)

From Coq Require Import List Arith ZArith Bool Lia.
From Verif Require Import Model_Base Model_Perm Model_WalshPerm Spec_Bits Spec_Perm.
Import ListNotations.
Open Scope nat_scope.

(** entries of a matrix modulo two *)
Definition bit_entry (m : zmat) (i j : nat) : bool := Z.odd (nth j (nth i m []) 0%Z).

Definition binary_matrix (n : nat) (m : zmat) : Prop :=
  length m = n /\ forall row, In row m -> length row = n /\ forall z, In z row -> z = 0%Z \/ z = 1%Z.

(** products modulo two of size [n] *)
Definition mat_vec (n : nat) (b : nat -> nat -> bool) (x : nat -> bool) (i : nat) : bool :=
  xor_all (map (fun j => b i j && x j) (seq 0 n)).
Definition mat_mat (n : nat) (a b : nat -> nat -> bool) (i j : nat) : bool :=
  mat_vec n a (fun k => b k j) i.

Definition invertible (n : nat) (b : nat -> nat -> bool) : Prop :=
  exists c, forall i j, i < n -> j < n ->
    mat_mat n b c i j = Nat.eqb i j /\ mat_mat n c b i j = Nat.eqb i j.

(** [f] multiplies the lowest [n] bits of its argument by [b] and keeps the others *)
Definition acts_as (n : nat) (b : nat -> nat -> bool) (f : nat -> nat) : Prop :=
  forall x i, Nat.testbit (f x) i =
    if Nat.ltb i n then mat_vec n b (Nat.testbit x) i else Nat.testbit x i.

Definition linear (f : nat -> nat) : Prop := forall x y, f (Nat.lxor x y) = Nat.lxor (f x) (f y).

(** the object [w] is the map [f] *)
Definition is_map (w : walsh) (f : nat -> nat) : Prop := forall x, walsh_get w x = Ok (f x).

(** numpy.linalg.inv returns the inverse if that is an integer matrix *)
Definition int_product_is_one (n : nat) (a b : zmat) : Prop :=
  forall i j, i < n -> j < n ->
    fold_right Z.add 0%Z (map (fun k => (nth k (nth i a []) 0 * nth j (nth k b []) 0)%Z) (seq 0 n))
    = if Nat.eqb i j then 1%Z else 0%Z.
Definition square (n : nat) (m : zmat) : Prop := length m = n /\ forall row, In row m -> length row = n.
Definition exact_inverse (linalg_inv : zmat -> res (option zmat)) : Prop :=
  forall n m, binary_matrix n m -> invertible n (bit_entry m) ->
    exists o, linalg_inv m = Ok o /\
      match o with
      | Some b => square n b /\ int_product_is_one n m b
      | None => forall b, square n b -> ~ int_product_is_one n m b
      end.

(** every WalshPerm object a user can obtain without [trust]; matrices are square with
    entries 0 and 1, permutations are Perm objects or arbitrary lists *)
Inductive is_Walsh (linalg_inv : zmat -> res (option zmat)) : walsh -> Prop :=
| walsh_none w : WalshPerm None None None false = Ok w -> is_Walsh linalg_inv w
| walsh_vec l w : WalshPerm (Some l) None None false = Ok w -> is_Walsh linalg_inv w
| walsh_mat n m w : binary_matrix n m -> WalshPerm None (Some m) None false = Ok w -> is_Walsh linalg_inv w
| walsh_seq l w : WalshPerm None None (Some (WSeq l)) false = Ok w -> is_Walsh linalg_inv w
| walsh_of_perm p w : is_Perm p -> WalshPerm None None (Some (WPerm p)) false = Ok w -> is_Walsh linalg_inv w
| walsh_product a b w : is_Walsh linalg_inv a -> is_Walsh linalg_inv b -> walsh_mul a b = Ok w -> is_Walsh linalg_inv w
| walsh_inv a w : is_Walsh linalg_inv a -> walsh_inverse linalg_inv a = Ok w -> is_Walsh linalg_inv w
| walsh_tr a w : is_Walsh linalg_inv a -> walsh_transposed a = Ok w -> is_Walsh linalg_inv w
| walsh_power a k w : is_Walsh linalg_inv a -> walsh_pow linalg_inv a k = Ok w -> is_Walsh linalg_inv w.

(** [v] is the table of the Walsh function with index [w]: entry i is the parity of the
    bits of i selected by w *)
Definition walsh_row (n w : nat) (v : list bool) : Prop :=
  length v = 2 ^ n /\ forall i, i < 2 ^ n -> nth i v false = dot n w i.

(** the list is linear for XOR on the numbers below 2^k *)
Definition linear_on (k : nat) (l : list nat) : Prop :=
  forall i j, i < 2 ^ k -> j < 2 ^ k -> nth (Nat.lxor i j) l 0 = Nat.lxor (nth i l 0) (nth j l 0).
