(** Model_Values: what the checks of types do with Python values (a/is_natural, a/type_like_int,
    a/type_clean_int), exceptions that are replaced (a/try_except), the concatenation of Binvs,
    and the texts of negated literals.  No proofs in this file. *)

From Coq Require Import String Ascii List Arith ZArith Bool.
From Verif Require Import Model_Base Model_Binary Model_Perm Model_SigPerm Model_Str.
Import ListNotations Model_Str.
Open Scope Z_scope.

(** * Values *)

(* A float is [m * 2 ^ e], an infinity or not a number.  A text is described by the outcome of
   [text % 1], which is a text, TypeError or ValueError.  [VOther] is any object without the
   operator % that is not a number (None, a list, a set, a dict, a function). *)
Inductive float_val := Finite (m e : Z) | Infinite (negative : bool) | NotANumber.
Inductive pyval :=
  | VInt (z : Z) | VBool (b : bool) | VFloat (x : float_val) | VFraction (n : Z) (d : positive)
  | VComplex | VText (percent : res text) | VOther.

(* isinstance(arg, numbers.Number) *)
Definition is_number (v : pyval) : bool :=
  match v with VInt _ | VBool _ | VFloat _ | VFraction _ _ | VComplex => true | VText _ | VOther => false end.

(* [arg % 1 == 0]; the remainder of floats is exact (C's fmod) or, for negative ones, rounded
   after adding 1, which does not give 0; infinities and NaN have the remainder NaN *)
Definition mod1_is_0 (v : pyval) : res bool :=
  match v with
  | VInt z => Ok (Z.eqb (z mod 1) 0)
  | VBool b => Ok (Z.eqb ((if b then 1 else 0) mod 1) 0)
  | VFloat (Finite m e) => Ok (Z.leb 0 e || Z.eqb (m mod 2 ^ (- e)) 0)
  | VFloat _ => Ok false
  | VFraction n d => Ok (Z.eqb (n mod Zpos d) 0)
  | VComplex => Err TypeErr
  | VText (Ok _) => Ok false
  | VText (Err e) => Err e
  | VOther => Err TypeErr
  end.

(* [arg >= 0] for the values that get there *)
Definition at_least_0 (v : pyval) : res bool :=
  match v with
  | VInt z => Ok (Z.leb 0 z)
  | VBool _ => Ok true
  | VFloat (Finite m _) => Ok (Z.leb 0 m)
  | VFloat (Infinite negative) => Ok (negb negative)
  | VFloat NotANumber => Ok false
  | VFraction n _ => Ok (Z.leb 0 n)
  | VComplex | VText _ | VOther => Err TypeErr
  end.

(* a/is_natural/__init__.py:1-6 *)
Definition is_natural (candidate : pyval) : res bool :=
  match mod1_is_0 candidate with
  | Err TypeErr => Ok false
  | Err e => Err e
  | Ok behaves_like_integer => if behaves_like_integer then at_least_0 candidate else Ok false
  end.

(* a/type_like_int/__init__.py:4-9 *)
Definition type_like_int (arg : pyval) : res bool :=
  if negb (is_number arg) then Ok false else mod1_is_0 arg.

(* int(arg): the fractional part is dropped.  (The kinds of the errors are not right for infinities
   and texts; type_clean_int does not get there.) *)
Definition int_of (v : pyval) : res Z :=
  match v with
  | VInt z => Ok z
  | VBool b => Ok (if b then 1 else 0)
  | VFloat (Finite m e) => Ok (if Z.leb 0 e then m * 2 ^ e else Z.quot m (2 ^ (- e)))
  | VFloat (Infinite _) => Err ValueErr
  | VFloat NotANumber => Err ValueErr
  | VFraction n d => Ok (Z.quot n (Zpos d))
  | VComplex => Err TypeErr
  | VText _ => Err ValueErr
  | VOther => Err TypeErr
  end.

(* a/type_clean_int/__init__.py:4-8 *)
Definition type_clean_int (arg : pyval) : res Z :=
  let* like_int := type_like_int arg in
  guard like_int else AssertErr ;;
  int_of arg.

(** * Exceptions *)

(* a/try_except/__init__.py:1-11.  [attempt] is the outcome of calling the first argument (None
   can not be called), [if_raised] the exceptions of the given classes; [raise None] is a TypeError. *)
Definition try_except {A} (attempt : option (res A)) (do_raise : option exn) (if_raised : option (exn -> bool)) : res unit :=
  let outcome := match attempt with Some r => r | None => Err TypeErr end in
  let raised := match do_raise with Some e => e | None => TypeErr end in
  match if_raised with
  | Some matching => match outcome with Ok _ => Ok tt | Err e => if matching e then Err raised else Err e end
  | None => match outcome with Ok _ => Ok tt | Err _ => Err raised end
  end.

(** * Binv *)

(* binv/__init__.py:112-114 *)
Definition binv_add (a b : list bool) : res (list bool) := Binv_vector (map (fun x : bool => if x then 1 else 0) (a ++ b)).

(** * Texts of negated literals *)

(* a/logic_negate/__init__.py:6-14 with want_string *)
Definition logic_negate_str (value : Z) (do_it : bool) : text :=
  let result_value := logic_negate value do_it in
  let a := logic_abs result_value in
  if Z.ltb result_value 0 then lit "~" ++ str_nat a else str_nat a.

(* a/logic_negate/__init__.py:30-42, case 'where' with want_string *)
Definition logic_negate_where_str (values : list Z) (wher : list bool) : res text :=
  guard Nat.eqb (length values) (length wher) else ArgMismatchError ;;
  let list_of_strings := map (fun vw : Z * bool => if snd vw then logic_negate_str (fst vw) true else logic_negate_str (fst vw) false) (combine values wher) in
  Ok (lit "[" ++ join_texts list_of_strings ++ lit "]").

(* a/logic_negate/__init__.py:43-57, case 'which' with want_string ([which] holds naturals) *)
Definition logic_negate_which_str (values : list Z) (which : list nat) : res text :=
  let abs_values := logic_abs_vector values in
  guard forallb (fun w => memb w abs_values) which else ArgMismatchError ;;
  let list_of_strings := map (fun v => logic_negate_str v (memb (logic_abs v) which)) values in
  Ok (lit "[" ++ join_texts list_of_strings ++ lit "]").
