(** Model_BinvText: binary vectors from texts, their partition, [pretty_signs] and some small helpers.
    No proofs in this file. *)

From Coq Require Import String Ascii List Arith ZArith Bool.
From Verif Require Import Model_Base Model_Binary Model_Perm Model_SetPart Model_Misc Model_Str.
Import ListNotations Model_Str.
Local Open Scope nat_scope.

(** * Texts as arguments *)

(* str.replace(old, new) for a text [old] that is not empty: occurrences from the left that do not overlap; [skip] characters
   belong to the last occurrence *)
Fixpoint prefix (old s : text) : bool :=
  match old, s with
  | [], _ => true
  | c :: old', d :: s' => Nat.eqb c d && prefix old' s'
  | _ :: _, [] => false
  end.
Fixpoint replace_from (old new : text) (skip : nat) (s : text) : text :=
  match s with
  | [] => []
  | c :: s' =>
      match skip with
      | S k => replace_from old new k s'
      | O => if prefix old s then new ++ replace_from old new (length old - 1) s' else c :: replace_from old new 0 s'
      end
  end.
Definition replace (old new s : text) : text := replace_from old new 0 s.

Section Digits.
(* int() of a text of one character: the value of the decimal digits of Unicode, nothing for other characters *)
Variable digit : nat -> option nat.

(* binv/__init__.py:27-44, 82 for a text.  The empty text returns early (31-33), with the same vector *)
Definition Binv_text (s : text) : res (list bool) :=
  match s with
  | [] => Ok []
  | _ =>
      let s := replace (lit " ") [] s in                                    (* 36 *)
      let* es := mapM (fun c => match digit c with Some d => Ok (Z.of_nat d) | None => Err VectorEntryError end) s in   (* 43 *)
      Binv_vector es                                                        (* 44, 82 *)
  end.

(* binv/a/to_pretty_string/__init__.py:6-23 for a text; [int(digit)] of other characters is a ValueError *)
Definition to_pretty_text (s : text) : res text :=
  let s := replace (lit " ") [] s in
  let len := length s in
  guard memb len (map (fun i => 2 ^ i) (range 7)) else ValueErr ;;
  let* parts := mapM (fun id : nat * nat =>
    let* d := match digit (snd id) with Some d => Ok d | None => Err ValueErr end in
    Ok (str_nat d ++
        (if negb (Nat.eqb (fst id + 1) len) && Nat.eqb ((fst id + 1) mod 4) 0
         then if Nat.eqb ((fst id + 1) mod 16) 0 then lit "  " else lit " "
         else []))) (enumerate s) in
  Ok (concat parts).
End Digits.

(* binv/metributes/string.py:6-11 *)
Definition binv_string (v : list bool) : text := to_string v.
(* binv/metributes/pretty.py:6-11 *)
Definition binv_pretty (v : list bool) : res text := let* s := to_pretty_string v in Ok (map char_code s).
(* binv/metributes/reverse.py:4-9 with binv/__init__.py:109-110; the constructor sees the entries as integers *)
Definition binv_reverse_made (v : list bool) : res (list bool) := Binv_vector (map (fun b : bool => if b then 1%Z else 0%Z) (rev v)).
(* binv/metributes/set_part.py:4-15; the domain is the default one, 'N' *)
Definition binv_set_part (v : list bool) : res setpart :=
  let true_block := map Z.of_nat (binv_exposet v) in
  let universe := map Z.of_nat (range (length v)) in
  let false_block := filter (fun x => negb (existsb (Z.eqb x) true_block)) universe in
  SetPart (Some [true_block; false_block]) DomN.

(** * pretty_signs *)

(* str() of nested containers of integers, truth values and None *)
Inductive nested :=
| NInt (z : Z) | NBool (b : bool) | NNone
| NList (l : list nested) | NTuple (l : list nested) | NDict (l : list (nested * nested)).
Fixpoint str_nested (t : nested) : text :=
  match t with
  | NInt z => str_int z
  | NBool b => if b then lit "True" else lit "False"
  | NNone => lit "None"
  | NList l => str_list (map str_nested l)
  | NTuple [e] => lit "(" ++ str_nested e ++ lit ",)"
  | NTuple l => lit "(" ++ join_texts (map str_nested l) ++ lit ")"
  | NDict l => lit "{" ++ join_texts (map (fun kv => str_nested (fst kv) ++ lit ": " ++ str_nested (snd kv)) l) ++ lit "}"
  end.
(* a/pretty_signs/__init__.py:1 *)
Definition figure (c : nat) : bool := Nat.leb 48 c && Nat.leb c 57.
(* a/pretty_signs/__init__.py:10-16 *)
Fixpoint signs_loop (last_char : nat) (s : text) : text :=
  match s with
  | [] => []
  | char :: s' =>
      (if figure char && (negb (figure last_char) && negb (Nat.eqb last_char 45)) then lit " " else []) ++ char :: signs_loop char s'
  end.
(* the code points of the two circles *)
Definition black_circle : nat := 96 * 100 + 79.
Definition white_circle : nat := 96 * 100 + 75.
(* a/pretty_signs/__init__.py:4-18 *)
Definition pretty_signs_text (s : text) : text :=
  signs_loop 32 (replace (lit "False") [white_circle] (replace (lit "True") [black_circle] s)).
Definition pretty_signs (arg : nested) : text := pretty_signs_text (str_nested arg).

(** * small helpers *)

(* a/have_only/__init__.py:4-18; an argument that is not None is Some; [count(None)] of arguments whose [__eq__] returns *)
Definition have_only {A} (check_args all_args : list (option A)) : res bool :=
  if existsb (fun a => match a with None => true | Some _ => false end) check_args then Ok false
  else
    let number_of_expected_none_args := (Z.of_nat (length all_args) - Z.of_nat (length check_args))%Z in
    let number_of_none_args := length (filter (fun a : option A => match a with None => true | Some _ => false end) all_args) in
    guard negb (Z.ltb (Z.of_nat number_of_none_args) number_of_expected_none_args) else ArgComboError ;;
    Ok true.

(* a/default_to_regular_dict/__init__.py:9-12: values that are defaultdicts, dicts or others *)
Inductive value (K A : Type) :=
| Other (a : A) | Default (items : list (K * value K A)) | Regular (items : list (K * value K A)).
Arguments Other {K A}. Arguments Default {K A}. Arguments Regular {K A}.
Fixpoint default_to_regular_dict {K A} (d : value K A) : value K A :=
  match d with
  | Default items => Regular (map (fun kv => (fst kv, default_to_regular_dict (snd kv))) items)
  | _ => d
  end.
