(** Model_Blight: equal, complementary and one-sided atoms of a [Boolf], the functions without
    them, the gapless function and the bundles.  No proofs in this file.

    [order] is the iteration order of the Python set comp_pairs of a SetPartComp.  Attributes
    that the code stores (functools.cached_property, splits_eq_blocks_and_pref_side:7-43) are
    computed anew in the model. *)

From Coq Require Import List Arith ZArith Bool Lia.
From Verif Require Import Model_Base Model_Binary Model_Splits Model_Perm Model_SetPart Model_SetPartComp Model_Boolf Model_SetPartBoolf.
Import ListNotations.
Open Scope nat_scope.

(* a statement that changes an object: the new object, or the exception *)
Definition done {S} (r : S * option exn) : res S :=
  match r with (s, None) => Ok s | (_, Some e) => Err e end.

Definition split_eqb (x y : split) : bool := list_eqb (fst x) (fst y) && list_eqb (snd x) (snd y).

(* min of a list that is not empty *)
Definition list_min_nat (l : list nat) : nat := match l with [] => 0 | x :: l' => fold_left Nat.min l' x end.

(** * Relations between the atoms *)

(* boolf/metributes/_blight/bloat/__init__.py:7-18 *)
Definition bloat (order : list (Z * Z) -> list (Z * Z)) (f : boolf) : res spc :=
  let* result := SetPartComp None None in
  let* equal := splits_equal f in
  let* sp := splits f in
  foldM (fun result (kv : (nat * nat) * bool) =>
           let a := fst (fst kv) in
           let b := snd (fst kv) in
           if snd kv then
             let* x := lget sp a in
             let* y := lget sp b in
             if split_eqb x y then done (set_equal order result (Z.of_nat a) (Z.of_nat b))
             else done (set_comp order result (Z.of_nat a) (Z.of_nat b))
           else Ok result)
        equal result.

(* boolf/metributes/_blight/blot/__init__.py:11-16 = blight/__init__.py:11-16 *)
Definition add_onesided (order : list (Z * Z) -> list (Z * Z)) (f : boolf) (result : spc) : res spc :=
  let* keys := onesided_atomkeys f in
  let* sp := splits f in
  foldM (fun result atomkey =>
           let* s := lget sp atomkey in
           if negb (nonempty (fst s)) then done (set_comp order result (Z.of_nat atomkey) (-1))
           else done (set_equal order result (Z.of_nat atomkey) (-1)))
        keys result.

(* boolf/metributes/_blight/blot/__init__.py:7-18 *)
Definition blot order (f : boolf) : res spc := let* result := SetPartComp None None in add_onesided order f result.

(* boolf/metributes/_blight/blight/__init__.py:7-18 *)
Definition blight order (f : boolf) : res spc := let* result := bloat order f in add_onesided order f result.

(* boolf/metributes/_blight/is_bloatless/__init__.py:5-9, is_blotless/__init__.py:5-7,
   is_blightless/__init__.py:5-7 *)
Definition is_bloatless order (f : boolf) : res bool :=
  let* b := bloat order f in let* e := SetPartComp None None in spc_eq b e.
Definition is_blotless (f : boolf) : res bool := let* keys := onesided_atomkeys f in Ok (Nat.eqb (length keys) 0).
Definition is_blightless order (f : boolf) : res bool :=
  let* b := is_bloatless order f in if b then is_blotless f else Ok false.

(** * The relations as functions *)

(* boolf/metributes/_blight/bloat_boolf/__init__.py:9-15 *)
Definition bloat_boolf order (f : boolf) : res boolf :=
  let* s := bloat order f in
  let* b := spc_boolf order s in
  let* selection := mapM (fun k => lget (atomvals f) k) (atomvals b) in
  Boolf_vec (root b) selection.

(* boolf/metributes/_blight/blot_boolf/__init__.py:9-21; d[k] of a dictionary *)
Definition dget {A} (d : list (nat * A)) (k : nat) : res A :=
  match find (fun kv => Nat.eqb (fst kv) k) d with Some kv => Ok (snd kv) | None => Err KeyErr end.
Definition blot_boolf (f : boolf) : res boolf :=
  let* keys := onesided_atomkeys f in
  let* universe := onesided_is_universe f in
  foldM (fun result atomkey =>
           let* is_universe := dget universe atomkey in
           let tt := if is_universe then [false; true] else [true; false] in
           let* atomval := lget (atomvals f) atomkey in
           let* g := Boolf_vec tt [atomval] in
           boolf_and result g)
        keys (set_constant true).

(* boolf/metributes/_blight/blight_boolf/__init__.py:5-9 *)
Definition blight_boolf order (f : boolf) : res boolf :=
  let* b := bloat_boolf order f in let* o := blot_boolf f in boolf_and b o.

(** * Equality blocks *)

(* boolf/metributes/_splits/splits_eq_blocks_and_pref_side/__init__.py:64-92: the preferred
   side of a block *)
Definition preferred_side order (f : boolf) (block : list nat) : res (option nat) :=
  match block with
  | [] => Err IndexErr
  | [_] => Ok None
  | recto_atomkey :: _ =>
      let* b := bloat order f in
      match get_comp order b (Z.of_nat recto_atomkey) with
      | None => Ok None
      | Some verso =>
          let verso_atomkey := Z.to_nat verso in
          let* sp := splits f in
          let* s := lget sp recto_atomkey in
          let* prefer_recto :=
            if negb (nonempty (fst s)) || negb (nonempty (snd s)) then Ok (negb (nonempty (snd s)))
            else Ok (Nat.ltb (list_min_nat (fst s)) (list_min_nat (snd s))) in
          Ok (Some (if prefer_recto then recto_atomkey else verso_atomkey))
      end
  end.

(* splits_eq_blocks_and_pref_side/__init__.py:97-106.  sort_together sorts pairs; the first
   entries (the representatives) are all different, so that only these are compared here *)
Definition sort_by {A} (keys : list nat) (l : list A) : list A :=
  map snd (isort (fun x y : nat * A => Nat.leb (fst x) (fst y)) (combine keys l)).

(* splits_eq_blocks_and_pref_side/__init__.py:47-109 (some_magic): the attributes
   splits_equality_blocks and splits_preferred_side *)
Definition blocks_and_sides order (f : boolf) : res (list (list nat) * list (option nat)) :=
  if is_constant f then Ok ([], [])
  else
    let* equality_partition := SetPart None DomN in
    let* equal := splits_equal f in
    let* equality_partition :=
      done (iterate (fun s (ab : nat * nat) => merge_pair s (Z.of_nat (fst ab)) (Z.of_nat (snd ab)))
                    (map fst (filter (fun kv : (nat * nat) * bool => snd kv) equal)) equality_partition) in
    let* zblocks := blocks_with_singletons equality_partition (BwsLength (Z.of_nat (valency f))) in
    let equality_blocks := map (map Z.to_nat) zblocks in
    let* preferred_sides := mapM (preferred_side order f) equality_blocks in
    let* representative_atomkeys :=
      mapM (fun bp : list nat * option nat => match snd bp with Some p => Ok p | None => lget (fst bp) 0 end)
           (combine equality_blocks preferred_sides) in
    Ok (sort_by representative_atomkeys equality_blocks, sort_by representative_atomkeys preferred_sides).

(* boolf/metributes/_splits/number_of_distinct_splits/__init__.py:5-7 *)
Definition number_of_distinct_splits order (f : boolf) : res nat :=
  let* bs := blocks_and_sides order f in Ok (length (fst bs)).

(* boolf/metributes/_blight/bloatless_atomkeys_undeflated/__init__.py:7-19 *)
Definition bloatless_atomkeys_undeflated order (f : boolf) : res (list nat) :=
  let* bs := blocks_and_sides order f in
  mapM (fun ib : nat * list nat =>
          let* pref := lget (snd bs) (fst ib) in
          match pref with
          | Some p => let* b := bloat order f in Ok (Z.to_nat (get_repr b (Z.of_nat p)))
          | None => match snd ib with [] => Err ValueErr | l => Ok (list_min_nat l) end
          end)
       (enumerate (fst bs)).

(* boolf/methods/bloatless_spotint/__init__.py:13-42 (the spot is a natural; blocks are disjoint,
   so that no key of map_dict is overwritten) *)
Definition bloatless_spotint order (f : boolf) (spotint : nat) : res nat :=
  if is_constant f then let* b := lget (root f) 0 in Ok (Nat.b2n b)
  else
    guard Nat.ltb spotint (2 ^ valency f) else TooBigError ;;
    let* major_binv := Binv_intval spotint (Some (valency f)) in
    let* b := bloat order f in
    let* matches := int_matches binary_length order b spotint in
    guard matches else BloatMismatchError ;;
    let* bs := blocks_and_sides order f in
    let map_dict := flat_map (fun ib : nat * list nat => map (fun e => (e, fst ib)) (snd ib)) (enumerate (fst bs)) in
    let* distinct := number_of_distinct_splits order f in
    let minor_places_to_do := range distinct in
    let* minor_exposet :=
      foldM (fun minor_exposet major_place =>
               let* minor_place := dget map_dict major_place in
               if memb minor_place minor_places_to_do then
                 let* pref := lget (snd bs) minor_place in
                 let used_major_place := match pref with Some p => p | None => major_place end in
                 let* digit := lget major_binv used_major_place in
                 Ok (if digit then set_union minor_exposet [minor_place] else minor_exposet)
               else Ok minor_exposet)
            (range (length major_binv)) [] in
    let* r := Binv_exposet minor_exposet None in
    Ok (binv_intval r).

(* boolf/metributes/_blight/bloatless_boolf/__init__.py:5-20 *)
Definition bloatless_boolf order (f : boolf) : res boolf :=
  if is_constant f then Ok f
  else
    let* bb := bloat_boolf order f in
    if boolf_eqb bb f then Ok (set_constant true)
    else
      let* minor_fullspots := mapM (bloatless_spotint order f) (binv_exposet (root f)) in
      let* distinct := number_of_distinct_splits order f in
      let* minor_binv := Binv_exposet minor_fullspots (Some (2 ^ distinct)) in
      let* keys := bloatless_atomkeys_undeflated order f in
      let* minor_atomvals := mapM (fun k => lget (atomvals f) k) keys in
      Boolf_vec minor_binv minor_atomvals.

(* boolf/metributes/_blight/bloatless_atomkeys_deflated/__init__.py:5-10 *)
Definition bloatless_atomkeys_deflated order (f : boolf) : res (list nat) :=
  let* g := bloatless_boolf order f in
  Ok (map fst (filter (fun kv : nat * nat => memb (snd kv) (atomvals g)) (enumerate (atomvals f)))).

(* boolf/metributes/_blight/blightless_atomkeys/__init__.py:5-12 *)
Definition blightless_atomkeys order (f : boolf) : res (list nat) :=
  let* keys := bloatless_atomkeys_deflated order f in
  let* onesided := onesided_atomkeys f in
  Ok (sort_nat (filter (fun k => negb (memb k onesided)) keys)).

(* boolf/metributes/_blight/blightless_boolf/__init__.py:5-14 *)
Definition blightless_boolf order (f : boolf) : res boolf :=
  if is_constant f then Ok f
  else
    let* bb := blight_boolf order f in
    if boolf_eqb bb f then Ok (set_constant true)
    else
      let* keys := blightless_atomkeys order f in
      let* blightless_atomvals := mapM (fun k => lget (atomvals f) k) keys in
      let* g := bloatless_boolf order f in
      filtrated_boolf g blightless_atomvals.

(* boolf/methods/blightless_spotint/__init__.py:8-28 *)
Definition blightless_spotint order (f : boolf) (spotint : nat) : res nat :=
  let* n := bloatless_spotint order f spotint in
  let* undeflated := bloatless_atomkeys_undeflated order f in
  let bloatless_valency := length undeflated in
  let* bloatless_vector := Binv_intval n (Some bloatless_valency) in
  let* blightless_vector :=
    foldM (fun v i =>
             let* atomkey := lget undeflated i in
             let* truth_value := lget bloatless_vector i in
             let* keys := blightless_atomkeys order f in
             if memb atomkey keys then Ok (v ++ [truth_value])
             else
               let* onesided := onesided_atomkeys f in
               if memb atomkey onesided then
                 let* b := blight order f in
                 guard Bool.eqb (are_equal b (-1) (Z.of_nat atomkey)) truth_value else BlightMismatchError ;;
                 Ok v
               else Ok v)
          (range bloatless_valency) [] in
  Ok (binv_intval blightless_vector).

(** * The gapless function *)

(* boolf/metributes/gapless_boolf/__init__.py:10-43 *)
Definition gapless_boolf order (f : boolf) : res boolf :=
  let* ok := is_blightless order f in
  guard ok else BoolfNotBlightlessError ;;
  let* pairs := split_pairs_with_3_overlaps f in
  let* sp := splits f in
  let* result :=
    foldM (fun result (ab : nat * nat) =>
             let* atomval_a := lget (atomvals f) (fst ab) in
             let* atomval_b := lget (atomvals f) (snd ab) in
             let* x := lget sp (fst ab) in
             let* y := lget sp (snd ab) in
             let (set_a, comp_a) := x in
             let (set_b, comp_b) := y in
             let* tt :=
               if negb (meets comp_a comp_b) then Ok [false; true; true; true]
               else if negb (meets set_a comp_b) then Ok [true; false; true; true]
               else if negb (meets comp_a set_b) then Ok [true; true; false; true]
               else if negb (meets set_a set_b) then Ok [true; true; true; false]
               else Err TooManyOverlapsERROR in
             let* g := Boolf_vec tt [atomval_a; atomval_b] in
             boolf_and result g)
          pairs (set_constant true) in
  let* ge := bitwise_ge result f in
  guard ge else SmallerThanSelfERROR ;;
  Ok result.

(** * Bundles *)

(* boolf/metributes/_bundle/bundles/__init__.py:10-20 *)
Definition bundles order (f : boolf) : res (list (list nat)) :=
  let* g := bloatless_boolf order f in
  guard boolf_eqb f g else BoolfNotBlightlessError ;;
  let* bundle_part := SetPart None DomN in
  let* counts := splits_overlap_counts f in
  let* bundle_part :=
    done (iterate (fun s (ab : nat * nat) => merge_pair s (Z.of_nat (fst ab)) (Z.of_nat (snd ab)))
                  (map fst (filter (fun kv : (nat * nat) * nat => Nat.eqb (snd kv) 4) counts)) bundle_part) in
  let* zblocks := blocks_with_singletons bundle_part (BwsLength (Z.of_nat (valency f))) in
  Ok (map (map Z.to_nat) zblocks).

(* boolf/metributes/_bundle/is_bundle/__init__.py:5-7 *)
Definition is_bundle order (f : boolf) : res bool := let* l := bundles order f in Ok (Nat.eqb (length l) 1).

(* boolf/metributes/_bundle/bundle_overlap_counts/__init__.py:9-29; the dictionary {3: [], 4: []}
   of a bundle is the pair of its lists *)
Definition bundle_overlap_counts order (f : boolf)
  : res (list (list nat * (list (nat * nat) * list (nat * nat)))) :=
  let* g := bloatless_boolf order f in
  guard boolf_eqb f g else BoolfNotBlightlessError ;;
  let* counts := splits_overlap_counts f in
  let* bundles := bundles order f in
  foldM (fun result (kv : (nat * nat) * nat) =>
           mapM (fun bd : list nat * (list (nat * nat) * list (nat * nat)) =>
                   let (bundle, d) := bd in
                   if memb (fst (fst kv)) bundle && memb (snd (fst kv)) bundle then
                     match snd kv with
                     | 3 => Ok (bundle, (fst d ++ [fst kv], snd d))
                     | 4 => Ok (bundle, (fst d, snd d ++ [fst kv]))
                     | _ => Err KeyErr
                     end
                   else Ok bd)
                result)
        counts (map (fun bundle => (bundle, ([], []))) bundles).

(* boolf/metributes/_bundle/bundle_grid_partitions/__init__.py:10-25 *)
Definition bundle_grid_partitions order (f : boolf) : res (list (list nat * setpart)) :=
  let* ok := is_blightless order f in
  guard ok else BoolfNotBlightlessError ;;
  let* bundles := bundles order f in
  let* counts := bundle_overlap_counts order f in
  mapM (fun bundle =>
          match find (fun kv => list_eqb (fst kv) bundle) counts with
          | None => Err KeyErr
          | Some kv =>
              let* partition := SetPart None DomN in
              let* partition :=
                done (iterate (fun s (ab : nat * nat) => merge_pair s (Z.of_nat (fst ab)) (Z.of_nat (snd ab)))
                              (fst (snd kv)) partition) in
              Ok (bundle, partition)
          end)
       bundles.
