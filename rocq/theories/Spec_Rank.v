(** Spec_Rank: lexicographic order of lists and the number of inversions of a function.
    Independent of the algorithms of the model. *)

From Coq Require Import List Arith Lia.
Import ListNotations.

(** strict lexicographic order of lists of equal length *)
Inductive lexlt : list nat -> list nat -> Prop :=
| lex_here x y a b : x < y -> lexlt (x :: a) (y :: b)
| lex_next x a b : lexlt a b -> lexlt (x :: a) (x :: b).

(** strict reverse-colexicographic order: compare from the right end, larger entry first *)
Definition rev_colex_lt (a b : list nat) : Prop := lexlt (rev b) (rev a).
