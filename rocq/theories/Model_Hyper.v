(** Model_Hyper: the hypersplits of a [Boolf], their labelled blocks and potential cores, and
    the combination of some of its splits.  No proofs in this file.

    [order] is the iteration order of the Python set comp_pairs of a SetPartComp (as in
    Model_Blight).  The elements of the set partitions are the true places of the table; as
    entries of a [setpart] they are of type [Z]. *)

From Coq Require Import List Arith ZArith Bool Lia.
From Verif Require Import Model_Base Model_Binary Model_Splits Model_Perm Model_SetPart Model_Boolf Model_Blight.
Import ListNotations.
Open Scope nat_scope.

Definition zs (l : list nat) : list Z := map Z.of_nat l.

(** * Hypersplits *)

(* SetPart(split): the domain is 'N' *)
Definition part_of_split (s : split) : res setpart := SetPart (Some [zs (fst s); zs (snd s)]) DomN.

(* {'atomkeys': [...], 'setpart': SetPart} *)
Definition hyper := (list nat * setpart)%type.

(* equality of two such dictionaries; the entries are compared in the order of insertion *)
Definition hyper_eqb (a b : hyper) : res bool :=
  if list_eqb (fst a) (fst b) then sp_eq (snd a) (snd b) else Ok false.

(* boolf/metributes/hypersplits/__init__.py:28-44: one turn of the inner loop *)
Definition hyper_turn (f : boolf) (n : nat) (new_split_dicts : list hyper) (olds : hyper * hyper) : res (list hyper) :=
  let (old_1, old_2) := olds in
  let candidate_atomkeys := sort_nat (set_union (fst old_1) (fst old_2)) in
  let* candidate_part := meet (snd old_1) (snd old_2) in
  let* candidate_blocks := blocks_with_singletons candidate_part (BwsElements (zs (fullspots f))) in
  if Nat.eqb (length candidate_atomkeys) n && Nat.eqb (length candidate_blocks) (2 ^ n) then
    let new_split_dict := (candidate_atomkeys, candidate_part) in
    let* equal := mapM (fun already_there => hyper_eqb already_there new_split_dict) new_split_dicts in
    Ok (if existsb (fun b => b) equal then new_split_dicts else new_split_dicts ++ [new_split_dict])
  else Ok new_split_dicts.

(* boolf/metributes/hypersplits/__init__.py:24-53: the while loop *)
Fixpoint hyper_loop (fuel : nat) (f : boolf) (n : nat) (old_split_dicts : list hyper) (result : list (nat * list hyper))
  : res (list (nat * list hyper)) :=
  match fuel with
  | 0 => Err OutOfFuel
  | S fuel' =>
      if Nat.ltb 1 (length old_split_dicts) then
        let* new_split_dicts := foldM (hyper_turn f n) (combinations2 old_split_dicts) [] in
        if nonempty new_split_dicts then hyper_loop fuel' f (n + 1) new_split_dicts (result ++ [(n, new_split_dicts)])
        else Ok result
      else Ok result
  end.

(* boolf/metributes/hypersplits/__init__.py:10-53; a dictionary from dimensions to lists *)
Definition hypersplits (order : list (Z * Z) -> list (Z * Z)) (f : boolf) : res (list (nat * list hyper)) :=
  let* b := is_blightless order f in
  guard b else NotBlightlessError ;;
  let* sp := splits f in
  let* first := mapM (fun ks : nat * split => let* part := part_of_split (snd ks) in Ok ([fst ks], part)) (enumerate sp) in
  hyper_loop (valency f + 1) f 2 first [(1, first)].

(** * Labelled blocks *)

(* boolf/metributes/hypersplits_detailed/__init__.py:18-28.  The strings are kept as vectors; a
   label is the vector of the length n with the integer value block_index, so that no label
   comes twice. *)
Definition labeled_blocks (f : boolf) (n : nat) (atomkeys : list nat) : res (list (list bool * list nat)) :=
  mapM (fun block_index =>
          let* block_binv := Binv_intval block_index (Some n) in
          let* block_set :=
            foldM (fun block_set place =>
                     let* atomkey := lget atomkeys place in
                     let* bit := lget block_binv place in
                     let* sp := splits f in
                     let* s := lget sp atomkey in
                     Ok (filter (fun x => memb x (if bit : bool then fst s else snd s)) block_set))
                  (range n) (fullspots f) in
          Ok (block_binv, sort_nat block_set))
       (range (2 ^ n)).

(* boolf/metributes/hypersplits_detailed/__init__.py:6-36 *)
Definition hypersplits_detailed order (f : boolf) : res (list (nat * list (list nat * list (list bool * list nat)))) :=
  let* h := hypersplits order f in
  mapM (fun nl : nat * list hyper =>
          let* l := mapM (fun d : hyper => let* b := labeled_blocks f (fst nl) (fst d) in Ok (fst d, b)) (snd nl) in
          Ok (fst nl, l))
       h.

(** * Potential cores *)

(* d[k] = v and d.get(k) for a dictionary with entries of any type *)
Fixpoint dput {A} (d : list (nat * A)) (k : nat) (v : A) : list (nat * A) :=
  match d with
  | [] => [(k, v)]
  | (k', v') :: d' => if Nat.eqb k k' then (k, v) :: d' else (k', v') :: dput d' k v
  end.
Fixpoint dfind {A} (d : list (nat * A)) (k : nat) : option A :=
  match d with [] => None | (k', v) :: d' => if Nat.eqb k k' then Some v else dfind d' k end.

(* l.remove(x), if x is in the list *)
Fixpoint remove_first (x : nat) (l : list nat) : list nat :=
  match l with [] => [] | y :: l' => if Nat.eqb x y then l' else y :: remove_first x l' end.

(* boolf/metributes/hypersplits_potential_cores/__init__.py:26-29 and 31-34 *)
Definition determine (st : list nat * list (nat * Z)) (free : nat) (v : Z) : res (list nat * list (nat * Z)) :=
  let (free_atomkeys, determined) := st in
  guard (match dfind determined free with None => true | Some w => Z.eqb w v end) else AssertErr ;;
  Ok (remove_first free free_atomkeys, dput determined free v).

(* boolf/metributes/hypersplits_potential_cores/__init__.py:21-36: one turn of the loop *)
Definition core_turn (f : boolf) (st : list nat * list (nat * Z)) (pair : nat * nat) : res (list nat * list (nat * Z)) :=
  let (fixed, free) := pair in
  let* filtrate := filtrated_pair f fixed free in
  if bvec_eqb filtrate [true; true; true; true] then Ok st
  else if bvec_eqb filtrate [false; true; true; true] || bvec_eqb filtrate [true; false; true; true] then determine st free 1
  else if bvec_eqb filtrate [true; true; false; true] || bvec_eqb filtrate [true; true; true; false] then determine st free (-1)
  else Err RuntimeErr.

(* itertools.product([-1, 1], repeat=n) *)
Fixpoint signs (n : nat) : list (list Z) :=
  match n with
  | 0 => [[]]
  | S n' => map (cons (-1)%Z) (signs n') ++ map (cons 1%Z) (signs n')
  end.

(* {'fixed': ..., 'free': ..., 'determined': ..., 'vectors': ...} *)
Record core := mkCore { c_fixed : list nat; c_free : list nat; c_determined : list (nat * Z); c_vectors : list (list Z) }.

(* boolf/metributes/hypersplits_potential_cores/__init__.py:17-58.  itertools.product takes a
   copy of free_atomkeys when it is called, so that the removals do not change the loop. *)
Definition potential_core (f : boolf) (fixed_atomkeys : list nat) : res core :=
  let free_atomkeys := sort_nat (filter (fun k => negb (memb k fixed_atomkeys)) (range (valency f))) in
  let* st := foldM (core_turn f) (list_prod fixed_atomkeys free_atomkeys) (free_atomkeys, []) in
  let (free_atomkeys, determined) := st in
  let* raw_vector := foldM (fun v (kv : nat * Z) => list_assign v (fst kv) (snd kv)) determined (repeat 0%Z (valency f)) in
  let* vectors :=
    mapM (fun free_tuple =>
            foldM (fun v (iv : nat * Z) => let* atomkey := lget free_atomkeys (fst iv) in list_assign v atomkey (snd iv))
                  (enumerate free_tuple) raw_vector)
         (signs (length free_atomkeys)) in
  Ok (mkCore fixed_atomkeys free_atomkeys determined vectors).

(* boolf/metributes/hypersplits_potential_cores/__init__.py:6-62 *)
Definition hypersplits_potential_cores order (f : boolf) : res (list (nat * list core)) :=
  let* b := is_blightless order f in
  guard b else AssertErr ;;
  let* h := hypersplits order f in
  mapM (fun nl : nat * list hyper =>
          let* l := mapM (fun d : hyper => potential_core f (fst d)) (snd nl) in Ok (fst nl, l)) h.

(** * Combined splits *)

(* boolf/methods/splits_combined/__init__.py:4-16 (atomkeys are naturals) *)
Definition splits_combined (f : boolf) (atomkeys : list nat) : res (list (list Z)) :=
  match atomkeys with
  | [] => Ok []
  | k :: rest =>
      let* sp := splits f in
      let* s := lget sp k in
      let* combined_part := part_of_split s in
      let* combined_part :=
        foldM (fun combined_part atomkey =>
                 let* s := lget sp atomkey in
                 let* atom_part := part_of_split s in
                 meet combined_part atom_part)
              rest combined_part in
      blocks_with_singletons combined_part (BwsElements (zs (fullspots f)))
  end.
