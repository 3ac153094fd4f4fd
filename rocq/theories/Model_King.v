(** Model_King: kings, the least royals of their factions. *)

From Coq Require Import List Arith ZArith Bool.
From Verif Require Import Model_Base Model_Binary Model_Twin Model_Boolf Model_BoolfMore Model_MinRep.
Import ListNotations.
Local Open Scope nat_scope.

(* boolf/a/_noble/__init__.py:88-96  ([None.tt] is an AttributeError) *)
Definition noble_to_king_and_quadrant (noble_int arity : nat) : res (nat * nat) :=
  let* rq := noble_to_royal_and_quadrant noble_int arity in
  let* royal_boolf := Boolf_int (fst rq) arity in
  let* king := faction_minrep royal_boolf in
  match king with
  | None => Err AttributeErr
  | Some king_boolf =>
      let* tt := boolf_tt king_boolf (TtArity arity) in
      Ok (binv_intval tt, snd rq)
  end.

(* boolf/a/_noble/__init__.py:99-102 *)
Definition noble_to_king_index_and_quadrant (noble_int arity : nat) : res (nat * nat) :=
  let* kq := noble_to_king_and_quadrant noble_int arity in
  let* king_index := noble_to_index (fst kq) arity false in
  Ok (king_index, snd kq).

(* boolf/methods/_patron/__init__.py:29-31 *)
Definition patron_king_index_and_quadrant (f : boolf) (arity : nat) : res (nat * nat) :=
  let* p := patron_int f arity in noble_to_king_index_and_quadrant p arity.
