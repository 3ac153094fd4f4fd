(** Model_SetPartComp: the class [SetPartComp] (discretehelpers/set_part_comp) without the
    method [boolf] (see Model_SetPartBoolf).  No proofs in this file.

    [order] stands for the iteration order of the Python set [comp_pairs].  A SetPart
    object that is passed to the constructor is shared by the code; here it is copied. *)

From Coq Require Import List Arith ZArith Bool Lia.
From Verif Require Import Model_Base Model_Binary Model_SetPart.
Import ListNotations.
Open Scope Z_scope.

Record spc := mkSPC { equal_part : setpart; comp_pairs : list (Z * Z) }.

(* set_part_comp/helpers.py:12-13, 26-27 (blocks are not empty) *)
Definition spc_repr (s : spc) (a : Z) : Z :=
  match element_to_block (equal_part s) a with [] => a | x :: l => zmin_list x l end.
Definition pair_sorted (a b : Z) : Z * Z := if Z.leb a b then (a, b) else (b, a).

Definition pair_eqb (x y : Z * Z) : bool := Z.eqb (fst x) (fst y) && Z.eqb (snd x) (snd y).
(* set.add, set.remove *)
Definition pairs_add (l : list (Z * Z)) (p : Z * Z) : list (Z * Z) := if pair_memb p l then l else l ++ [p].
Definition pairs_remove (l : list (Z * Z)) (p : Z * Z) : res (list (Z * Z)) :=
  if pair_memb p l then Ok (filter (fun x => negb (pair_eqb p x)) l) else Err KeyErr.

(* set_part_comp/__init__.py:12-38 with a list of blocks (16-18) or none (22) *)
Definition SetPartComp (blocks : option (list (list Z))) (pairs : option (list (Z * Z))) : res spc :=
  guard (match blocks, pairs with None, Some _ => false | _, _ => true end) else CompWithoutPartError ;;
  let* part := SetPart (Some (match blocks with Some bs => bs | None => [] end)) DomZ in
  let cps :=
    match pairs with
    | Some ps =>
        let s := mkSPC part [] in
        fold_left (fun acc ab => pairs_add acc (pair_sorted (spc_repr s (fst ab)) (spc_repr s (snd ab)))) ps []
    | None => []
    end in
  guard forallb (fun p => negb (pair_in_same_block part (fst p) (snd p))) cps else PartCompMismatchError ;;
  Ok (mkSPC part cps).

(* set_part_comp/__init__.py:42-46 *)
Definition are_equal (s : spc) (a b : Z) : bool :=
  match sp_block_index (equal_part s) a, sp_block_index (equal_part s) b with
  | Some i, Some j => Nat.eqb i j
  | _, _ => false
  end.

(* set_part_comp/__init__.py:48-50 *)
Definition are_comp (s : spc) (a b : Z) : bool :=
  pair_memb (pair_sorted (spc_repr s a) (spc_repr s b)) (comp_pairs s).

(* set_part_comp/helpers.py:20-23 *)
Definition other_element_in_pair (pair : Z * Z) (element : Z) : Z :=
  if Z.eqb (fst pair) element then snd pair else fst pair.

(* set_part_comp/__init__.py:52-58 *)
Fixpoint get_comp_loop (s : spc) (element : Z) (candidates : list ((Z * Z) * Z)) : option Z :=
  match candidates with
  | [] => None
  | (some_pair, some_elm) :: l =>
      if zmemb element (element_to_block (equal_part s) some_elm)
      then Some (other_element_in_pair some_pair some_elm)
      else get_comp_loop s element l
  end.
Definition get_comp (order : list (Z * Z) -> list (Z * Z)) (s : spc) (element : Z) : option Z :=
  get_comp_loop s element (flat_map (fun p => [(p, fst p); (p, snd p)]) (order (comp_pairs s))).

(* set_part_comp/__init__.py:60-64, 66-67 *)
Definition get_block (s : spc) (element : Z) : list Z :=
  if zmemb element (sp_non_singletons (equal_part s)) then element_to_block (equal_part s) element else [element].
Definition get_repr (s : spc) (element : Z) : Z :=
  match get_block s element with [] => element | x :: l => zmin_list x l end.

(** ** Methods that change the object: a state and an optional exception, as in SetPart *)

Definition spc_do (s : spc) (acts : list (spc -> spc * option exn)) : spc * option exn :=
  fold_left (fun st act => match st with (s, None) => act s | _ => st end) acts (s, None).

Definition act_remove (p : Z * Z) (s : spc) : spc * option exn :=
  match pairs_remove (comp_pairs s) p with
  | Ok l => (mkSPC (equal_part s) l, None)
  | Err e => (s, Some e)
  end.
Definition act_merge (a b : Z) (s : spc) : spc * option exn :=
  let (p, e) := merge_pair (equal_part s) a b in (mkSPC p (comp_pairs s), e).
Definition act_add (a b : Z) (s : spc) : spc * option exn :=
  (mkSPC (equal_part s) (pairs_add (comp_pairs s) (pair_sorted (spc_repr s a) (spc_repr s b))), None).

(* set_part_comp/methods/set_equal/__init__.py:24-25, 28-34, 37-49 *)
Definition set_equal_no_comp (s : spc) (a b : Z) := spc_do s [act_merge a b].
Definition set_equal_first_comp (s : spc) (a b a_comp : Z) :=
  spc_do s [act_remove (pair_sorted (spc_repr s a) a_comp); act_merge a b; act_add a a_comp].
Definition set_equal_both_comp (s : spc) (a b a_comp b_comp : Z) :=
  spc_do s [act_remove (pair_sorted (spc_repr s a) a_comp); act_remove (pair_sorted (spc_repr s b) b_comp);
            act_merge a b; act_merge a_comp b_comp; act_add a a_comp].

(* set_part_comp/methods/set_equal/__init__.py:7-21 *)
Definition set_equal (order : list (Z * Z) -> list (Z * Z)) (s : spc) (a b : Z) : spc * option exn :=
  if are_comp s a b then (s, Some SetEqualComplementsError)
  else if are_equal s a b then (s, None)
  else match get_comp order s a, get_comp order s b with
       | None, None => set_equal_no_comp s a b
       | None, Some b_comp => set_equal_first_comp s b a b_comp
       | Some a_comp, None => set_equal_first_comp s a b a_comp
       | Some a_comp, Some b_comp => set_equal_both_comp s a b a_comp b_comp
       end.

(* set_part_comp/methods/set_comp/__init__.py:24-26, 29-34, 37-49 *)
Definition set_comp_no_comp (s : spc) (a b : Z) := spc_do s [act_add a b].
Definition set_comp_first_comp (s : spc) (a b a_comp : Z) :=
  spc_do s [act_remove (pair_sorted (spc_repr s a) a_comp); act_merge a_comp b; act_add a b].
Definition set_comp_both_comp (s : spc) (a b a_comp b_comp : Z) :=
  spc_do s [act_remove (pair_sorted (spc_repr s a) a_comp); act_remove (pair_sorted (spc_repr s b) b_comp);
            act_merge a b_comp; act_merge b a_comp; act_add a a_comp].

(* set_part_comp/methods/set_comp/__init__.py:7-21 *)
Definition set_comp (order : list (Z * Z) -> list (Z * Z)) (s : spc) (a b : Z) : spc * option exn :=
  if are_equal s a b then (s, Some SetCompEqualsError)
  else if are_comp s a b then (s, None)
  else match get_comp order s a, get_comp order s b with
       | None, None => set_comp_no_comp s a b
       | None, Some b_comp => set_comp_first_comp s b a b_comp
       | Some a_comp, None => set_comp_first_comp s a b a_comp
       | Some a_comp, Some b_comp => set_comp_both_comp s a b a_comp b_comp
       end.

(** ** Derived values *)

(* set_part_comp/__init__.py:69-70 *)
Definition spc_eq (s o : spc) : res bool :=
  let* e := sp_eq (equal_part s) (equal_part o) in
  Ok (e && forallb (fun p => pair_memb p (comp_pairs o)) (comp_pairs s)
        && forallb (fun p => pair_memb p (comp_pairs s)) (comp_pairs o)).

(* set_part_comp/__init__.py:83-87, 89-90, 92-93, 95-99 *)
Definition related_part (order : list (Z * Z) -> list (Z * Z)) (s : spc) : res setpart :=
  let* part := SetPart (Some (sp_blocks (equal_part s))) DomZ in
  match iterate (fun s ab => merge_pair s (fst ab) (snd ab)) (order (comp_pairs s)) part with
  | (p, None) => Ok p
  | (_, Some e) => Err e
  end.
Definition number_of_related_blocks order (s : spc) : res nat :=
  let* p := related_part order s in Ok (length (sp_blocks p)).
Definition spc_length order (s : spc) : res Z :=
  let* p := related_part order s in
  match sp_non_singletons p with [] => Err ValueErr | x :: l => Ok (zmax_list x l + 1) end.
Definition affected_elements order (s : spc) : res (list Z) :=
  let* p := related_part order s in Ok (zsort (znodup (concat (sp_blocks p)))).

(* set_part_comp/methods/all_complement_pairs/__init__.py:1-15 *)
Definition all_complement_pairs (s : spc) : list (Z * Z) :=
  fold_left pairs_add
    (flat_map (fun ab => flat_map (fun x => map (fun y => pair_sorted x y) (get_block s (snd ab)))
                                  (get_block s (fst ab))) (comp_pairs s)) [].

(* set_part_comp/methods/int_matches/__init__.py:5-22.  [bl] is the floating point
   binary_length; has_index of a negative number is false. *)
Definition zhas_index (v : list bool) (x : Z) : bool :=
  if Z.leb 0 x then binv_has_index v (Z.to_nat x) else false.
Definition one_value (l : list bool) : bool :=
  match l with [] => false | b :: l' => forallb (Bool.eqb b) l' end.
Definition int_matches (bl : nat -> nat) (order : list (Z * Z) -> list (Z * Z)) (s : spc) (intval : nat) : res bool :=
  let intval_length := bl intval in
  let* min_length := number_of_related_blocks order s in
  let length := if Nat.ltb min_length intval_length then intval_length else min_length in
  let* binv := Binv_with bl None (Some (Z.of_nat intval)) None (Some length) None in
  Ok (forallb (fun block => one_value (map (zhas_index binv) block)) (sp_blocks (equal_part s)) &&
      forallb (fun p => negb (Bool.eqb (zhas_index binv (fst p)) (zhas_index binv (snd p)))) (comp_pairs s)).
