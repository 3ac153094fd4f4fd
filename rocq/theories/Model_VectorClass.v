(** Model_VectorClass: the class Vector of walsh_perm (walsh_perm/a/vector_class): vectors of naturals whose entry
    with the index k is 2^k if nothing else is said.  The object is its attribute [mapping] (see Model_WalshPerm, where
    [Vector], [Vector_length], [Vector_get] and [extend_to_length] are). *)

From Coq Require Import String List Arith ZArith Bool.
From Verif Require Import Model_Base Model_Binary Model_SigPerm Model_SetPart Model_SetPartComp Model_Splits Model_Perm Model_WalshPerm Model_Helpers Model_Str.
Import ListNotations.
Local Open Scope string_scope.
Local Open Scope list_scope.
Local Open Scope nat_scope.

(* walsh_perm/a/vector_class/__init__.py:10-28  the argument is a dict of naturals or missing *)
Definition Vector_of_dict (arg : option dict) : dict :=
  match arg with
  | None => []
  | Some d => filter (fun kv => negb (Nat.eqb (2 ^ fst kv) (snd kv))) d
  end.

(* walsh_perm/a/vector_class/__init__.py:30-37  __getitem__ with an integer, and with a slice; a negative index gives None *)
Definition Vector_item (v : dict) (arg : Z) : option nat :=
  if (arg <? 0)%Z then None else Some (Vector_get v (Z.to_nat arg)).
Definition Vector_slice (v : dict) (s_start s_stop s_step : option Z) : res (list (option nat)) :=
  let* l := slice_to_range s_start s_stop s_step (Some (Z.of_nat (Vector_length v))) in
  Ok (map (Vector_item v) l).

(* str() of a tuple of naturals *)
Definition str_tuple (l : list nat) : text :=
  lit "(" ++ join_texts (map str_nat l) ++ (match l with [_] => lit "," | _ => [] end) ++ lit ")".

(* walsh_perm/a/vector_class/__init__.py:39-43  __eq__, __str__ *)
Definition Vector_eqb (u v : dict) : bool := dict_eqb u v.
Definition Vector_str (v : dict) : res text := let* t := extend_to_length v (Vector_length v) in Ok (str_tuple t).
