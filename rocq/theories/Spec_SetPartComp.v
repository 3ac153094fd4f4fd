(** Spec_SetPartComp: statements "x equals y" and "x is the complement of y" and what
    follows from them. *)

From Coq Require Import List ZArith Bool.
Import ListNotations.
Open Scope Z_scope.

(** (a, b, false): a equals b; (a, b, true): a is the complement of b *)
Definition statement := (Z * Z * bool)%type.

(** chains of statements: [forced st x y c] with [c] the parity of the complements passed *)
Inductive forced (st : list statement) : Z -> Z -> bool -> Prop :=
| forced_refl x : forced st x x false
| forced_step a b p : In (a, b, p) st -> forced st a b p
| forced_sym x y c : forced st x y c -> forced st y x c
| forced_trans x y z c d : forced st x y c -> forced st y z d -> forced st x z (xorb c d).

(** assignments that fulfil the statements *)
Definition models (v : Z -> bool) (st : list statement) : Prop :=
  forall a b p, In (a, b, p) st -> xorb (v a) (v b) = p.

(** the bits of a natural number, 0 at negative places *)
Definition zbit (n : nat) (x : Z) : bool := if Z.leb 0 x then Nat.testbit n (Z.to_nat x) else false.

(** the statements made by blocks and complementary pairs *)
Fixpoint pairs_of_list (l : list Z) : list (Z * Z) :=
  match l with [] => [] | x :: l' => map (pair x) l' ++ pairs_of_list l' end.
Definition given (blocks : list (list Z)) (pairs : list (Z * Z)) : list statement :=
  map (fun ab => (fst ab, snd ab, false)) (flat_map pairs_of_list blocks) ++
  map (fun ab => (fst ab, snd ab, true)) pairs.

(** semantic consequence *)
Definition entails (st : list statement) (x y : Z) (c : bool) : Prop :=
  forall v, models v st -> xorb (v x) (v y) = c.
