(** Model_Twin: generators of simple truth tables and the Zhegalkin transform of truth tables
    (boolf/a/simple_gens, boolf/a/twin_misc, boolf/a/praetor_int).  No proofs in this file.

    A Python generator is the list of the values it yields; a generator that raises is an
    [Err], so the values yielded before an exception are not part of the model. *)

From Coq Require Import List Arith ZArith Bool Lia.
From Verif Require Import Model_Base Model_Binary Model_WalshPerm.
Import ListNotations.
Open Scope nat_scope.

(* Python [zip] applied to a list of lists of booleans: the tuples, as many as the shortest list has *)
Definition zip_star (ls : list (list bool)) : list (list bool) :=
  match ls with
  | [] => []
  | l0 :: rest =>
      map (fun i => map (fun l => nth i l false) ls)
          (range (fold_right Nat.min (length l0) (map (@length bool) rest)))
  end.

(* sum of a tuple of booleans *)
Definition bsum (bt : list bool) : nat := list_sum_nat (map Nat.b2n bt).

(* boolf/a/simple_gens/__init__.py:4-17 *)
Definition g_and (bt : list bool) : bool := forallb (fun b => b) bt.
Definition g_or (bt : list bool) : bool := existsb (fun b => b) bt.
Definition g_sand (bt : list bool) (av : list nat) : bool := Nat.eqb (bsum bt + 1) (length av).
Definition g_gand (bt : list bool) (av : list nat) : bool := g_and bt || g_sand bt av.

(* boolf/a/simple_gens/__init__.py:21-59 *)
Inductive operator := AND | XAND | OR | XOR | EQ | SAND | GAND | ESAND | OSAND.
Definition op_default (o : operator) : bool :=
  match o with AND | XAND | GAND | ESAND => true | OR | XOR | EQ | SAND | OSAND => false end.
Definition op_criterion (o : operator) (bt : list bool) (av : list nat) : bool :=
  match o with
  | AND => g_and bt
  | XAND => Nat.eqb (bsum bt mod 2) (length av mod 2)
  | OR => g_or bt
  | XOR => negb (Nat.eqb (bsum bt mod 2) 0)
  | EQ => negb (g_or bt) || g_and bt
  | SAND => g_sand bt av
  | GAND => g_gand bt av
  | ESAND => if Nat.eqb (length av mod 2) 0 then g_gand bt av else g_sand bt av
  | OSAND => if Nat.eqb (length av mod 2) 0 then g_sand bt av else g_gand bt av
  end.

(* boolf/a/simple_gens/__init__.py:62-73  (after the loop for an empty list the zip of no
   generators yields nothing) *)
Definition raw_gen (atomvals : list nat) (arity : nat) (o : operator) : res (list bool) :=
  match atomvals with
  | [] => Ok (repeat (op_default o) (2 ^ arity))
  | _ :: _ =>
      let* atom_gens := mapM (fun atomval => make_atompattern (Z.of_nat atomval) arity false) atomvals in
      Ok (map (fun bt => op_criterion o bt atomvals) (zip_star atom_gens))
  end.

(* boolf/a/simple_gens/__init__.py:79-84 *)
Definition atoms_to_and_gen (atomvals : list nat) (arity : nat) : res (list bool) := raw_gen atomvals arity AND.
Definition atoms_to_xand_gen (atomvals : list nat) (arity : nat) : res (list bool) := raw_gen atomvals arity XAND.

(* boolf/a/twin_misc/__init__.py:14-25  (argument a vector) *)
Definition raw_tt_gen (tt : list bool) (conju_gen : list nat -> nat -> res (list bool)) (arity : nat)
  : res (list bool) :=
  guard Nat.eqb (length tt) (2 ^ arity) else AssertErr ;;
  if Nat.eqb (bsum tt) 0 then Ok (map (fun _ => false) tt)
  else
    let* conjus := mapM (fun k => conju_gen (int_to_exposet k) arity) (binv_exposet tt) in
    Ok (map (fun bt => Nat.odd (bsum bt)) (zip_star conjus)).

(* boolf/a/twin_misc/__init__.py:28-33 *)
Definition raw_exposet_gen (exposet : list nat) (conju_gen : list nat -> nat -> res (list bool)) (arity : nat)
  : res (list nat) :=
  let* conjus := mapM (fun green_place => conju_gen (int_to_exposet green_place) arity) exposet in
  Ok (binv_exposet (map (fun bt => Nat.odd (bsum bt)) (zip_star conjus))).

(* boolf/a/twin_misc/__init__.py:38-49 *)
Definition vector_to_twin_gen (tt : list bool) (arity : nat) : res (list bool) :=
  raw_tt_gen tt atoms_to_and_gen arity.
Definition exposet_to_twin_gen (exposet : list nat) (arity : nat) : res (list nat) :=
  raw_exposet_gen exposet atoms_to_and_gen arity.
Definition twin_int (i arity : nat) : res nat :=
  let* exposet_result := exposet_to_twin_gen (int_to_exposet i) arity in
  Ok (exposet_to_int exposet_result).

(* boolf/a/twin_misc/__init__.py:54-66  ([Binv(list(...))] of a list of bits) *)
Definition zhe_vector_to_prefect_gen (tt : list bool) (arity : nat) : res (list bool) :=
  raw_tt_gen tt atoms_to_xand_gen arity.
Definition zhe_exposet_to_prefect_gen (exposet : list nat) (arity : nat) : res (list nat) :=
  raw_exposet_gen exposet atoms_to_xand_gen arity.
Definition zhe_to_prefect (n arity : nat) : res (nat * bool) :=
  let* binv := Binv_intval n (Some (2 ^ arity)) in
  let* v := zhe_vector_to_prefect_gen binv arity in
  linear_to_walsh_and_oddness v false.

(* boolf/a/praetor_int/__init__.py:8-25 *)
Definition praetor_int (intval arity : nat) : res nat :=
  guard Nat.ltb 0 arity else ArgTooSmallError ;;
  let len := 2 ^ arity in
  guard Nat.ltb intval (2 ^ len) else ArgTooBigError ;;
  let half_length := len / 2 in
  let* tt := Binv_intval intval (Some len) in
  let left := binv_intval (firstn half_length tt) in
  let right := binv_intval (skipn half_length tt) in
  Ok (Nat.lxor left right).
