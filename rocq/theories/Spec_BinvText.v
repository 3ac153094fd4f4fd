(** Spec_BinvText: nested containers with signs before all integers, and their layout. *)

From Coq Require Import String Ascii List Arith ZArith Bool.
From Verif Require Import Model_Str Model_BinvText.
Import ListNotations Model_Str.
Local Open Scope nat_scope.

(** int() of the ten figures *)
Definition ascii_digits (digit : nat -> option nat) : Prop := forall d, d < 10 -> digit (48 + d) = Some d.
(** the characters that are not spaces *)
Definition unspaced (s : text) : text := filter (fun c => negb (Nat.eqb c 32)) s.

(** integers have a sign or a space; truth values are circles *)
Definition signed_int (z : Z) : text := (if Z.ltb z 0 then lit "-" else lit " ") ++ str_nat (Z.abs_nat z).
Fixpoint signed_nested (t : nested) : text :=
  match t with
  | NInt z => signed_int z
  | NBool b => if b then [96 * 100 + 79] else [96 * 100 + 75]
  | NNone => lit "None"
  | NList l => str_list (map signed_nested l)
  | NTuple [e] => lit "(" ++ signed_nested e ++ lit ",)"
  | NTuple l => lit "(" ++ join_texts (map signed_nested l) ++ lit ")"
  | NDict l => lit "{" ++ join_texts (map (fun kv => signed_nested (fst kv) ++ lit ": " ++ signed_nested (snd kv)) l) ++ lit "}"
  end.

(** the same containers with integers of the same number of figures *)
Inductive same_layout : nested -> nested -> Prop :=
| same_int a b : length (str_nat (Z.abs_nat a)) = length (str_nat (Z.abs_nat b)) -> same_layout (NInt a) (NInt b)
| same_bool a b : same_layout (NBool a) (NBool b)
| same_none : same_layout NNone NNone
| same_list l m : Forall2 same_layout l m -> same_layout (NList l) (NList m)
| same_tuple l m : Forall2 same_layout l m -> same_layout (NTuple l) (NTuple m)
| same_dict l m : Forall2 (fun a b => same_layout (fst a) (fst b) /\ same_layout (snd a) (snd b)) l m -> same_layout (NDict l) (NDict m).

(** what is found in nested dicts at the end of a path of keys *)
Fixpoint at_path {K A} (eqb : K -> K -> bool) (path : list K) (d : value K A) : option A :=
  match path, d with
  | [], Other a => Some a
  | k :: path', Default items | k :: path', Regular items =>
      match find (fun kv => eqb k (fst kv)) items with Some kv => at_path eqb path' (snd kv) | None => None end
  | _, _ => None
  end.
(** nested defaultdicts; nested dicts *)
Inductive only_default {K A} : value K A -> Prop :=
| od_other a : only_default (Other a)
| od_dict items : Forall (fun kv => only_default (snd kv)) items -> only_default (Default items).
Inductive only_regular {K A} : value K A -> Prop :=
| or_other a : only_regular (Other a)
| or_dict items : Forall (fun kv => only_regular (snd kv)) items -> only_regular (Regular items).
