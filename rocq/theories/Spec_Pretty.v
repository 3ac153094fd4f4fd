(** Spec_Pretty: the words for the relation of two atoms, in terms of the pairs of values they have where the function
    is true. *)

From Coq Require Import String Ascii List Arith ZArith Bool.
From Verif Require Import Model_Base Model_Boolf Model_Str Model_Pretty Spec_Boolf Spec_Splits.
Import ListNotations Model_Str.
Open Scope nat_scope.
Open Scope bool_scope.

(** exactly these pairs of values of the atoms with keys a and b occur where the function is true *)
Definition exactly (f : boolf) (a b : nat) (l : list (bool * bool)) : Prop := forall p q, occurs f a b p q <-> In (p, q) l.

Inductive relation := Crossing | Disjoint | Universal | Subset | Equal | Complementary | Other (neither only_a only_b both : bool).

(** the pairs of values that occur *)
Definition possible (r : relation) : list (bool * bool) :=
  match r with
  | Crossing => [(false, false); (true, false); (false, true); (true, true)]
  | Disjoint => [(false, false); (true, false); (false, true)]
  | Universal => [(true, false); (false, true); (true, true)]
  | Subset => [(false, false); (false, true); (true, true)]
  | Equal => [(false, false); (true, true)]
  | Complementary => [(true, false); (false, true)]
  | Other n a b c => filter (fun pq => match pq with (false, false) => n | (true, false) => a | (false, true) => b | (true, true) => c end)
                            [(false, false); (true, false); (false, true); (true, true)]
  end.
(** the key in the dictionary: a word, or four digits when there is no word for the relation or its converse *)
Definition digit (b : bool) : nat := if b then 49 else 48.
Definition shown (r : relation) : text :=
  match r with
  | Crossing => lit "crossing" | Disjoint => lit "disjoint" | Universal => lit "universal"
  | Subset => lit "subset" | Equal => lit "equal" | Complementary => lit "complementary"
  | Other n a b c => [digit n; digit a; digit b; digit c]
  end.
Definition has_word (l : list (bool * bool)) : Prop :=
  exists r, match r with Other _ _ _ _ => False | _ => True end /\
    ((forall pq, In pq l <-> In pq (possible r)) \/ (forall p q, In (p, q) l <-> In (q, p) (possible r))).

(** the relation holds between the atoms with keys a and b; only the subset relation is shown with a before b although
    a is behind b *)
Definition related (f : boolf) (r : relation) (a b : nat) : Prop :=
  a < valency f /\ b < valency f /\ exactly f a b (possible r) /\
  match r with Subset => a <> b | Other _ _ _ _ => a < b /\ ~ has_word (possible r) | _ => a < b end.

(** the names of the atoms: those given, if the number of different ones is the valency; otherwise capital letters, or
    the numbers of the atoms, if there is one above 25 *)
Inductive names_of (f : boolf) : option (list text) -> list name -> Prop :=
| given_names l kinds : NoDup kinds -> (forall t, In t kinds <-> In t l) -> length kinds = valency f -> names_of f (Some l) (map Txt l)
| letters : atomvals f <> [] -> (forall a, In a (atomvals f) -> a < 26) -> names_of f None (map (fun a => Txt [65 + a]) (atomvals f))
| numbers a : In a (atomvals f) -> 26 <= a -> names_of f None (map Num (atomvals f)).

(** texts with spaces in between *)
Fixpoint spaced (l : list text) : text := match l with [] => [] | [t] => t | t :: l' => t ++ 32 :: spaced l' end.
(** a plus sign or a minus sign (U+2212) *)
Definition sign_char (b : bool) : text := if b then [43] else [34 * 256 + 18].
(** the sign of an element of a vector with 0, 1 and -1 *)
Definition trit_char (z : Z) : text := match z with Z0 => [48] | Zpos _ => [43] | Zneg _ => [34 * 256 + 18] end.
