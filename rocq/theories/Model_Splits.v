(** Model_Splits: filtrates, splits, overlap counts and one-sided atoms of a [Boolf].
    No proofs in this file. *)

From Coq Require Import List Arith ZArith Bool Lia.
From Verif Require Import Model_Base Model_Binary Model_SetPart Model_Boolf.
Import ListNotations.
Open Scope nat_scope.

(** * Filtrates *)

(* boolf/methods/filtrated_boolf/__init__.py:9-38; small_atomvals is a list of naturals; the
   numpy matrix is the list of its rows, [long_matrix[:, n]] takes the n-th entry of each *)
Definition filtrated_boolf (f : boolf) (small_atomvals : list nat) : res boolf :=
  let big_atomvals := atomvals f in
  guard forallb (fun a => memb a big_atomvals) small_atomvals else AtomvalsMismatchError ;;
  let big_valency := valency f in
  let big_length := 2 ^ big_valency in
  let* small_atomkeys := mapM (fun a => index_of a big_atomvals) small_atomvals in
  let small_length := 2 ^ length small_atomvals in
  let small_truthtable := repeat false small_length in
  let* patterns := mapM (fun k => make_atompattern (Z.of_nat k) big_valency false) small_atomkeys in
  let* long_sequence :=
    mapM (fun n => let* column := mapM (fun p => lget p n) patterns in Ok (binv_intval column))
         (range big_length) in
  let* small_truthtable :=
    foldM (fun small (bs : nat * nat) =>
             let* old := lget small (snd bs) in
             let* new := lget (root f) (fst bs) in
             Ok (lset small (snd bs) (old || new)))
          (combine (range big_length) long_sequence) small_truthtable in
  Boolf_vec small_truthtable small_atomvals.

(* boolf/metributes/_basics/filtrated_pairs/__init__.py:7-19; the strings are kept as vectors *)
Definition filtrated_pairs (f : boolf) : res (list ((nat * nat) * list bool)) :=
  mapM (fun ab : nat * nat =>
          let* x := lget (atomvals f) (fst ab) in
          let* y := lget (atomvals f) (snd ab) in
          let* g := filtrated_boolf f [x; y] in
          let* t := boolf_tt g (TtAtoms [x; y]) in
          Ok (ab, t))
       (combinations2 (range (valency f))).

(* dict lookup, key a pair of naturals *)
Definition pair_eqb (p q : nat * nat) : bool := Nat.eqb (fst p) (fst q) && Nat.eqb (snd p) (snd q).
Definition pget {A} (d : list ((nat * nat) * A)) (k : nat * nat) : res A :=
  match find (fun kv => pair_eqb (fst kv) k) d with Some kv => Ok (snd kv) | None => Err KeyErr end.

(* boolf/methods/filtrated_pair/__init__.py:1-16 (atom keys are naturals) *)
Definition filtrated_pair (f : boolf) (a b : nat) : res (list bool) :=
  guard Nat.ltb a (valency f) && Nat.ltb b (valency f) else AssertErr ;;
  let* pairs := filtrated_pairs f in
  if Nat.ltb a b then pget pairs (a, b)
  else
    let* raw_result := pget pairs (b, a) in
    if bvec_eqb raw_result [true; false; true; true] || bvec_eqb raw_result [true; true; false; true]
    then Ok (rev raw_result) else Ok raw_result.

(* boolf/methods/atom_pair_crossing/__init__.py:6-10, atom_pair_intersect/__init__.py:6-10,
   atom_pair_subset/__init__.py:6-10 *)
Definition atom_pair_is (wanted : list bool) (f : boolf) (a b : nat) : res bool :=
  guard negb (Nat.eqb a b) && Nat.ltb a (valency f) && Nat.ltb b (valency f) else NotPairOfAtomKeysError ;;
  let* s := filtrated_pair f a b in Ok (bvec_eqb s wanted).
Definition atom_pair_crossing := atom_pair_is [true; true; true; true].
Definition atom_pair_intersect := atom_pair_is [false; true; true; true].
Definition atom_pair_subset := atom_pair_is [true; false; true; true].

(* boolf/methods/atom_border_in_atom_side/__init__.py:7-12 *)
Definition atom_border_in_atom_side (f : boolf) (a b : nat) : res bool :=
  guard negb (Nat.eqb a b) && Nat.ltb a (valency f) && Nat.ltb b (valency f) else NotPairOfAtomKeysError ;;
  let* crossing := atom_pair_crossing f a b in
  guard negb crossing else BordersCrossingError ;;
  let* subset := atom_pair_subset f a b in
  if subset then Ok true else atom_pair_intersect f a b.

(* boolf/metributes/atom_to_crossing_atoms/__init__.py:7-23, a/other_entry_in_pair.  The set of
   pairs is kept as a list in insertion order; its order does not matter, because every list
   made from it is sorted. *)
Definition other_entry_in_pair (pair : nat * nat) (entry : nat) : nat :=
  if Nat.eqb (fst pair) entry then snd pair else fst pair.
Definition atom_to_crossing_atoms (f : boolf) : res (list (nat * list nat)) :=
  let* pairs := filtrated_pairs f in
  let crossing_pairs := map fst (filter (fun kv => bvec_eqb (snd kv) [true; true; true; true]) pairs) in
  Ok (map (fun atomkey =>
             (atomkey, sort_nat (map (fun p => other_entry_in_pair p atomkey)
                (filter (fun p : nat * nat => Nat.eqb atomkey (fst p) || Nat.eqb atomkey (snd p)) crossing_pairs))))
          (range (valency f))).

(** * Splits *)

(* boolf/metributes/fullspots/__init__.py:5-7 *)
Definition fullspots (f : boolf) : list nat := binv_exposet (root f).

(* boolf/a/spotints_to_splits/__init__.py:6-19; a set of places is its increasing list *)
Definition split := (list nat * list nat)%type.
Definition spotints_to_splits (spotints : list nat) (valency : nat) : res (list split) :=
  let* binv := Binv_exposet spotints (Some (2 ^ valency)) in
  mapM (fun atomkey =>
          let* p := make_atompattern (Z.of_nat atomkey) valency false in
          let* recto_binv := binv_bitwise andb binv p in
          let* n := make_atompattern (Z.lnot (Z.of_nat atomkey)) valency false in
          let* verso_binv := binv_bitwise andb binv n in
          Ok (binv_exposet recto_binv, binv_exposet verso_binv))
       (range valency).

(* boolf/metributes/_splits/splits/__init__.py:7-9 *)
Definition splits (f : boolf) : res (list split) := spotints_to_splits (fullspots f) (valency f).

(* boolf/a/count_split_regions/__init__.py:1-9 *)
Definition meets (a b : list nat) : bool := existsb (fun x => memb x b) a.
Definition count_split_regions (split1 split2 : split) : nat :=
  let (recto1, verso1) := split1 in
  let (recto2, verso2) := split2 in
  list_sum_nat (map Nat.b2n [meets recto1 recto2; meets recto1 verso2; meets verso1 recto2; meets verso1 verso2]).

(* boolf/metributes/_splits/splits_overlap_counts/__init__.py:9-15 *)
Definition splits_overlap_counts (f : boolf) : res (list ((nat * nat) * nat)) :=
  let* sp := splits f in
  mapM (fun ab : nat * nat =>
          let* x := lget sp (fst ab) in
          let* y := lget sp (snd ab) in
          Ok (ab, count_split_regions x y))
       (combinations2 (range (valency f))).

(* boolf/metributes/_splits/split_pairs_with_3_overlaps/__init__.py:5-12 *)
Definition split_pairs_with_3_overlaps (f : boolf) : res (list (nat * nat)) :=
  let* counts := splits_overlap_counts f in
  Ok (map fst (filter (fun kv => Nat.eqb (snd kv) 3) counts)).

(* l[i] = x *)
Definition list_assign {A} (l : list A) (i : nat) (x : A) : res (list A) := let* _ := lget l i in Ok (lset l i x).

(* sum([bool(recto), bool(verso)]) == 1, splits_equal_and_onesided/__init__.py:72 *)
Definition exactly_one_side (s : split) : bool :=
  Nat.eqb (list_sum_nat (map Nat.b2n [nonempty (fst s); nonempty (snd s)])) 1.

(* boolf/metributes/_splits/splits_equal_and_onesided/__init__.py:45-79: the dictionary
   splits_equal and the list splits_onesided *)
Definition equal_and_onesided (f : boolf) : res (list ((nat * nat) * bool) * list bool) :=
  match valency f with
  | 0 => Ok ([], [])
  | 1 => Ok ([], [true])
  | v =>
      let* sp := splits f in
      let* counts := splits_overlap_counts f in
      foldM (fun (acc : list ((nat * nat) * bool) * list bool) (kv : (nat * nat) * nat) =>
               let index1 := fst (fst kv) in
               let index2 := snd (fst kv) in
               let (equal_dict, onesided_list) := acc in
               match snd kv with
               | 1 =>
                   let* l := list_assign onesided_list index2 true in
                   let* l := list_assign l index1 true in
                   Ok (equal_dict ++ [(fst kv, true)], l)
               | 2 =>
                   let* s1 := lget sp index1 in
                   let* s2 := lget sp index2 in
                   let uni1 := exactly_one_side s1 in
                   let uni2 := exactly_one_side s2 in
                   let* l := list_assign onesided_list index1 uni1 in
                   let* l := list_assign l index2 uni2 in
                   Ok (equal_dict ++ [(fst kv, negb uni1 && negb uni2)], l)
               | _ => Ok (equal_dict ++ [(fst kv, false)], onesided_list)
               end)
            counts ([], repeat false v)
  end.
Definition splits_equal (f : boolf) := let* eo := equal_and_onesided f in Ok (fst eo).
Definition splits_onesided (f : boolf) := let* eo := equal_and_onesided f in Ok (snd eo).

(* boolf/metributes/onesided_atomkeys/__init__.py:5-12 *)
Definition onesided_atomkeys (f : boolf) : res (list nat) :=
  let* l := splits_onesided f in
  Ok (map fst (filter (fun kb : nat * bool => snd kb) (combine (range (length l)) l))).

(* boolf/metributes/onesided_is_universe/__init__.py:5-12 *)
Definition onesided_is_universe (f : boolf) : res (list (nat * bool)) :=
  let* keys := onesided_atomkeys f in
  let* sp := splits f in
  mapM (fun k => let* s := lget sp k in Ok (k, Nat.ltb 0 (length (fst s)))) keys.
