(** Model_Shared: programs with several SetPart and SetPartComp objects, where a SetPart that is
    passed to the constructor of SetPartComp is not copied.  No proofs in this file.

    Model_SetPartComp has one object that owns its SetPart.  Here the SetParts are in a list, and a
    SetPartComp refers to its SetPart by the place in this list. *)

From Coq Require Import List Arith ZArith Bool.
From Verif Require Import Model_Base Model_Binary Model_SetPart Model_SetPartComp.
Import ListNotations.
Open Scope Z_scope.

Record world := mkW { parts : list setpart; comps : list (nat * list (Z * Z)) }.
Definition no_objects : world := mkW [] [].

(* the object [comps[i]] with the present state of its SetPart *)
Definition view (w : world) (i : nat) : option spc :=
  match nth_error (comps w) i with
  | Some (p, pairs) => match nth_error (parts w) p with Some part => Some (mkSPC part pairs) | None => None end
  | None => None
  end.

(* set_part_comp/__init__.py:24-38: complementary pairs and the check, for a given part *)
Definition comp_pairs_of (part : setpart) (pairs : option (list (Z * Z))) : res (list (Z * Z)) :=
  let cps :=
    match pairs with
    | Some ps =>
        let s := mkSPC part [] in
        fold_left (fun acc ab => pairs_add acc (pair_sorted (spc_repr s (fst ab)) (spc_repr s (snd ab)))) ps []
    | None => []
    end in
  guard forallb (fun p => negb (pair_in_same_block part (fst p) (snd p))) cps else PartCompMismatchError ;;
  Ok cps.

Inductive command :=
  | NewPart (blocks : list (list Z)) (dom : domain)                              (* SetPart(blocks, dom) *)
  | NewComp (blocks : list (list Z)) (pairs : option (list (Z * Z)))              (* SetPartComp(blocks, pairs) *)
  | NewCompOf (p : nat) (pairs : option (list (Z * Z)))                           (* SetPartComp(parts[p], pairs) *)
  | SayEqual (order : list (Z * Z) -> list (Z * Z)) (i : nat) (a b : Z)           (* comps[i].set_equal(a, b) *)
  | SayComp (order : list (Z * Z) -> list (Z * Z)) (i : nat) (a b : Z)            (* comps[i].set_comp(a, b) *)
  | Merge (p : nat) (a b : Z).                                                    (* parts[p].merge_pair(a, b) *)

(* a method of [comps[i]] changes the list of pairs of this object and the SetPart it refers to *)
Definition call (w : world) (i : nat) (method : spc -> spc * option exn) : world * option exn :=
  match nth_error (comps w) i, view w i with
  | Some (p, _), Some s =>
      let (s', e) := method s in
      (mkW (lset (parts w) p (equal_part s')) (lset (comps w) i (p, comp_pairs s')), e)
  | _, _ => (w, Some IndexErr)
  end.

(* an object is not added if its constructor raises *)
Definition exec (w : world) (c : command) : world * option exn :=
  match c with
  | NewPart blocks dom =>
      match SetPart (Some blocks) dom with
      | Ok part => (mkW (parts w ++ [part]) (comps w), None)
      | Err e => (w, Some e)
      end
  | NewComp blocks pairs =>                                  (* set_part_comp/__init__.py:12-18, 24-38 *)
      match (let* part := SetPart (Some blocks) DomZ in let* cps := comp_pairs_of part pairs in Ok (part, cps)) with
      | Ok (part, cps) => (mkW (parts w ++ [part]) (comps w ++ [(length (parts w), cps)]), None)
      | Err e => (w, Some e)
      end
  | NewCompOf p pairs =>                                     (* set_part_comp/__init__.py:12-15, 19-20, 24-38 *)
      match nth_error (parts w) p with
      | Some part => match comp_pairs_of part pairs with
                     | Ok cps => (mkW (parts w) (comps w ++ [(p, cps)]), None)
                     | Err e => (w, Some e)
                     end
      | None => (w, Some IndexErr)
      end
  | SayEqual order i a b => call w i (fun s => set_equal order s a b)
  | SayComp order i a b => call w i (fun s => set_comp order s a b)
  | Merge p a b =>
      match nth_error (parts w) p with
      | Some part => let (part', e) := merge_pair part a b in (mkW (lset (parts w) p part') (comps w), e)
      | None => (w, Some IndexErr)
      end
  end.
