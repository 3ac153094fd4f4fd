(** Spec_Str: reading texts.  What a decimal numeral, a list of numerals and the text of an object mean;
    independent of how the model writes them. *)

From Coq Require Import String Ascii List Arith ZArith Bool.
From Verif Require Import Model_Base Model_Splits Model_Perm Model_Boolf Model_Str.
Import ListNotations.
Open Scope nat_scope.

(** the decimal numeral of a natural number: digits 0 ... 9 (48 ... 57) without surplus zeros *)
Definition numeral (s : text) (n : nat) : Prop :=
  s <> [] /\ Forall (fun c => 48 <= c <= 57) s /\ (hd 48 s = 48 -> s = [48]) /\ fold_left (fun v c => 10 * v + (c - 48)) s 0 = n.
(** numerals separated by a comma and a space *)
Inductive listed : text -> list nat -> Prop :=
| listed_none : listed [] []
| listed_last s n : numeral s n -> listed s [n]
| listed_more s n t l : numeral s n -> listed t l -> l <> [] -> listed (s ++ lit ", " ++ t) (n :: l).
(** digits 0 and 1 with spaces anywhere *)
Inductive spaced : text -> list bool -> Prop :=
| spaced_none : spaced [] []
| spaced_space s v : spaced s v -> spaced (32 :: s) v
| spaced_digit (b : bool) s v : spaced s v -> spaced ((if b then 49 else 48) :: s) (b :: v).

(** the object a text of the form Boolf(...) or ~Boolf(...) evaluates to (the constructor ignores the
    spaces of a table given as a text) *)
Inductive denotes : text -> boolf -> Prop :=
| den_table p v f : spaced p v -> Boolf_root v = Ok f -> denotes (lit "Boolf('" ++ p ++ lit "')") f
| den_table_atoms p v s l f : spaced p v -> listed s l -> Boolf_vec v l = Ok f ->
    denotes (lit "Boolf('" ++ p ++ lit "', [" ++ s ++ lit "])") f
| den_spots s l t n f : listed s l -> numeral t n -> subinit_fs (map Z.of_nat l) None (Some n) false = Ok f ->
    denotes (lit "Boolf(fullspots=[" ++ s ++ lit "], arity=" ++ t ++ lit ")") f
| den_spots_atoms s l t m f : listed s l -> listed t m -> subinit_fs (map Z.of_nat l) (Some (map Z.of_nat m)) None false = Ok f ->
    denotes (lit "Boolf(fullspots=[" ++ s ++ lit "], atomvals=[" ++ t ++ lit "])") f
| den_not t f g : denotes t f -> boolf_not f = Ok g -> denotes (lit "~" ++ t) g.
