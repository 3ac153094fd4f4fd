(** Model_OtherEntry: a/other_entry_in_pair with all its outcomes.  Model_Splits has the special case that the code
    of the metribute atom_to_crossing_atoms calls; here the argument is anything, and the entry need not be in it. *)

From Coq Require Import List ZArith Bool Arith.
Import ListNotations.

(* a/other_entry_in_pair/ex.py:2-7, and Python's IndexError *)
Inductive pair_exn := WrongTypeError | WrongLengthError | PairIndexError.

(* a/other_entry_in_pair/__init__.py:8  what can be passed: a list, a tuple, a set, or an object of another type.
   Simplified: the entries are integers.  A set is a list of its entries; its length counts equal entries once. *)
Inductive pair_arg := PList (l : list Z) | PTuple (l : list Z) | PSet (l : list Z) | POther.

(* the builtin set(...) of a list: every entry once *)
Definition entries_once (l : list Z) : list Z := nodup Z.eq_dec l.

(* the builtin len *)
Definition pair_len (p : pair_arg) : nat :=
  match p with
  | PList l | PTuple l => length l
  | PSet l => length (entries_once l)
  | POther => 0
  end.

(* the entries of the argument, as set(pair) sees them *)
Definition pair_entries (p : pair_arg) : list Z :=
  match p with PList l | PTuple l | PSet l => l | POther => [] end.

(* a/other_entry_in_pair/__init__.py:6-13.  The order in which Python lists a set is the parameter [order]. *)
Definition other_entry (order : list Z -> list Z) (pair : pair_arg) (entry : Z) : Z + pair_exn :=
  match pair with
  | POther => inr WrongTypeError                                                        (* 8 *)
  | _ =>
    if Nat.eqb (pair_len pair) 2 then                                                   (* 9 *)
      match order (filter (fun x => negb (Z.eqb x entry)) (entries_once (pair_entries pair))) with
      | [] => inr PairIndexError                                                        (* 11-13 *)
      | x :: _ => inl x
      end
    else inr WrongLengthError
  end.
