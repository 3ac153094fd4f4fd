(** Model_MinRep: the minimal representatives of the families, factions and clans of Boolf
    (boolf/metributes/_ec_reps) and the helpers they use (boolf/a/flat_to_layered,
    boolf/a/sierpinski_partition, boolf/a/sierpinski_twin, a/schoute_coset_gen).
    No proofs in this file.

    Parameters: [oz] is the order in which [SetPart.join] iterates a set of elements (as in
    Model_SetPart), [on] the order in which [int_to_sierpinski_row] iterates a set of
    exponents (as in Model_Binary).  Sets of row and column indices are duplicate-free lists;
    the order in which they are iterated decides only which of several equal functions is
    taken.  A method that ends without a return statement gives [Ok None]. *)

From Coq Require Import List Arith ZArith Bool Lia Factorial.
From Verif Require Import Model_Base Model_Perm Model_Binary Model_SigPerm Model_SetPart Model_Boolf Model_Twin Model_BoolfMore Model_Splits.
Import ListNotations.
Open Scope nat_scope.

(* boolf/a/flat_to_layered/__init__.py:5-21 (false_and_true_places not set): for each weight
   the entries at the places of that weight *)
Definition flat_to_layered {A} (vector : list A) : res (list (list A)) :=
  let* arity := log_int (length vector) in                             (* 10 *)
  foldM (fun result kv =>                                              (* 17-19 *)
           let weight := int_to_weight (fst kv) in
           let* layer := lget result weight in
           list_assign result weight (layer ++ [snd kv]))
        (enumerate vector) (repeat [] (arity + 1)).

(* boolf/a/flat_to_layered/__init__.py:5-10, 23-32 (false_and_true_places set): for each
   weight the false and the true places.  The keys of the dictionary are 0 ... arity. *)
Definition flat_to_places (vector : list bool) : res (list (list nat * list nat)) :=
  let* arity := log_int (length vector) in
  foldM (fun result kv =>                                              (* 28-30 *)
           let weight := int_to_weight (fst kv) in
           let* layer := lget result weight in
           list_assign result weight
             (if snd kv : bool then (fst layer, snd layer ++ [fst kv]) else (fst layer ++ [fst kv], snd layer)))
        (enumerate vector) (repeat ([], []) (arity + 1)).

(* boolf/a/sierpinski_partition/atom_partition.py:5-17 *)
Definition atom_partition (atomval arity : nat) : res setpart :=
  let addend := 2 ^ atomval in
  let* gen := make_atompattern (Z.of_nat atomval) arity true in
  let blocks := flat_map (fun kv => if snd kv : bool then [[Z.of_nat (fst kv); Z.of_nat (fst kv + addend)]] else [])
                         (enumerate gen) in
  SetPart (Some blocks) DomN.

(* boolf/a/sierpinski_partition/__init__.py:7-18 *)
Definition sierpinski_partition (oz : list Z -> list Z) (n arity : nat) : res setpart :=
  let* start := SetPart None DomN in
  foldM (fun result atomval => let* p := atom_partition atomval arity in join oz result p)
        (int_to_exposet n) start.

(* boolf/a/sierpinski_twin/__init__.py:5-31.  A string as first argument (7-8) is not
   modelled; the entries are booleans; the elements of the blocks are naturals. *)
Definition sierpinski_twin (oz : list Z -> list Z) (small_tt : list bool) (sierpinski_index big_arity : nat)
  : res (list bool) :=
  let weight := int_to_weight sierpinski_index in                      (* 10 *)
  let* small_arity := log_int (length small_tt) in                     (* 11 *)
  guard Nat.eqb (weight + small_arity) big_arity else AssertErr ;;     (* 12 *)
  let* small_twin := vector_to_twin_gen small_tt small_arity in        (* 14 *)
  if Nat.eqb sierpinski_index 0 then Ok small_twin                     (* 16-17 *)
  else
    let* partition := sierpinski_partition oz sierpinski_index big_arity in   (* 19 *)
    let blocks := sp_blocks partition in
    guard (Nat.eqb (length blocks) (length small_twin) && Nat.eqb (length small_twin) (length small_tt))
      else AssertErr ;;                                                (* 21 *)
    foldM (fun big_twin kv =>                                          (* 26-29 *)
             let* block := lget blocks (fst kv) in
             foldM (fun big_twin big_key => list_assign big_twin (Z.to_nat big_key) (snd kv)) block big_twin)
          (enumerate small_twin) (repeat false (2 ^ big_arity)).

(* itertools.permutations(l): the arrangements of the entries of [l], the first entry in the
   order of the list *)
Fixpoint selections {A} (l : list A) : list (A * list A) :=
  match l with
  | [] => []
  | x :: l' => (x, l') :: map (fun p => (fst p, x :: snd p)) (selections l')
  end.
Fixpoint permutations_fuel {A} (n : nat) (l : list A) : list (list A) :=
  match n with
  | 0 => [[]]
  | S n' => flat_map (fun p => map (cons (fst p)) (permutations_fuel n' (snd p))) (selections l)
  end.
Definition permutations {A} (l : list A) : list (list A) := permutations_fuel (length l) l.

(* a/schoute_coset_gen/__init__.py:24-31 *)
Definition write_at (keys vals : list nat) (perm : list nat) : res (list nat) :=
  foldM (fun perm iv => let* key := lget keys (fst iv) in list_assign perm key (snd iv)) (enumerate vals) perm.

(* a/schoute_coset_gen/__init__.py:7-32, the list of the values yielded *)
Definition schoute_coset (key_int val_int arity : nat) : res (list nat) :=
  let pow_arity := 2 ^ arity in
  guard Nat.ltb key_int pow_arity else AssertErr ;;                    (* 10 *)
  guard Nat.ltb val_int pow_arity else AssertErr ;;                    (* 11 *)
  let universe := range arity in
  let recto_keys := int_to_exposet key_int in                          (* 15-19 *)
  let verso_keys := filter (fun k => negb (memb k recto_keys)) universe in
  let recto_vals := int_to_exposet val_int in
  let verso_vals := filter (fun k => negb (memb k recto_vals)) universe in
  mapM (fun rv =>                                                      (* 24-32 *)
          let* perm := write_at recto_keys (fst rv) (repeat 0 arity) in
          let* perm := write_at verso_keys (snd rv) perm in
          Ok (from_factoradic (left_inversion_count perm)))
       (list_prod (permutations recto_vals) (permutations verso_vals)).

(* [self.apply_sigperm(SigPerm(pair=...))] for the candidates in turn, the results gathered in
   the set [reps]: [Ok None] as soon as two of them differ (finished = False), otherwise the
   element that is popped (KeyError for the empty set).
   family_minrep:57-68, faction_minrep:58-69, clan_minrep variant_1:91-102, variant_0:79-90 *)
Fixpoint rep_candidate (f : boolf) (pairs : list (nat * nat)) (reps : list boolf) : res (option boolf) :=
  match pairs with
  | [] => match reps with [] => Err KeyErr | g :: _ => Ok (Some g) end
  | c :: pairs' =>
      let* sigperm := SigPerm_pair (fst c) (snd c) in
      let* g := apply_sigperm f sigperm in
      let reps := if existsb (boolf_eqb g) reps then reps else reps ++ [g] in
      if Nat.ltb 1 (length reps) then Ok None else rep_candidate f pairs' reps
  end.

(* [all_candidates] narrowed by [step_candidates]; [None]: nothing to do (continue).
   family_minrep:48-55, faction_minrep:49-56 *)
Definition narrow (all_candidates : option (list nat)) (step_candidates : list nat) : option (list nat) :=
  match all_candidates with
  | None => Some step_candidates
  | Some c => match filter (fun x => memb x step_candidates) c with [] => None | i => Some i end
  end.

(* family_minrep/__init__.py:29-68  one round for each [right_index], then the end of the method *)
Fixpoint family_loop (oz : list Z -> list Z) (on : list nat -> list nat) (f : boolf) (arity : nat)
    (base_row : list bool) (rights : list nat) (snooze : bool) (all_candidates : option (list nat))
  : res (option boolf) :=
  match rights with
  | [] => Ok None
  | right_index :: rights' =>
      let left_index := 2 ^ arity - right_index - 1 in                 (* 31 *)
      let* awake := if snooze then lget base_row left_index else Ok true in   (* 33-37 *)
      if negb awake then family_loop oz on f arity base_row rights' true all_candidates
      else
        let places := int_to_sierpinski_row on right_index in          (* 39 *)
        let* small_tt := mapM (fun place => lget base_row (left_index + place)) places in   (* 40 *)
        if negb (existsb (fun b => b) (tl small_tt))                   (* 42-43 *)
        then family_loop oz on f arity base_row rights' false all_candidates
        else
          let* green_column := sierpinski_twin oz small_tt left_index arity in   (* 45 *)
          let step_candidates := map fst (filter (fun kv => negb (snd kv)) (enumerate green_column)) in   (* 46 *)
          match narrow all_candidates step_candidates with
          | None => family_loop oz on f arity base_row rights' false all_candidates
          | Some candidates =>
              let* r := rep_candidate f (map (fun c => (c, 0)) candidates) [] in   (* 57-68 *)
              match r with
              | Some rep => Ok (Some rep)
              | None => family_loop oz on f arity base_row rights' false (Some candidates)
              end
          end
  end.

(* boolf/metributes/_ec_reps/minimal/family_minrep/__init__.py:9-68 *)
Definition family_minrep (oz : list Z -> list Z) (on : list nat -> list nat) (f : boolf) : res (option boolf) :=
  if is_constant f then Ok (Some f)                                    (* 11-12 *)
  else
    let arity := adicity f in                                          (* 14 *)
    let* t := boolf_twin f None in
    let* base_row := boolf_tt t (TtArity arity) in                     (* 17 *)
    family_loop oz on f arity base_row (range (2 ^ arity)) true None.

(* The ratio of a layer is a float in Python (true_length / (false_length + true_length)); the
   comparisons with 0, 1 and .5 are done with integers here: no rounding *)
Definition ratio_is_0_or_1 (layer : list nat * list nat) : bool :=
  Nat.eqb (length (snd layer)) 0 || Nat.eqb (length (fst layer)) 0.
Definition ratio_below_half (layer : list nat * list nat) : bool :=
  Nat.ltb (2 * length (snd layer)) (length (fst layer) + length (snd layer)).
Definition ratio_above_half (layer : list nat * list nat) : bool :=
  Nat.ltb (length (fst layer) + length (snd layer)) (2 * length (snd layer)).

(* the loops of the two schoute_wrapper: all indices found for the needles, as a set *)
Definition find_needles (needles : list nat) (haystack_index arity : nat) : res (list nat) :=
  let* found := mapM (fun needle => schoute_coset needle haystack_index arity) needles in
  Ok (nodup Nat.eq_dec (concat found)).

(* set(range(cardinality)).difference(found_set) *)
Definition complement_below (n : nat) (found : list nat) : list nat :=
  filter (fun k => negb (memb k found)) (range n).

(* faction_minrep/schoute_wrapper/__init__.py:4-25 *)
Definition faction_wrapper (haystack_index arity : nat) (layer : list nat * list nat) : res (list nat) :=
  let do_complement := ratio_below_half layer in
  let needles := if do_complement then snd layer else fst layer in
  let* found_set := find_needles needles haystack_index arity in
  Ok (if do_complement then complement_below (fact arity) found_set else found_set).

(* faction_minrep/__init__.py:39-69 *)
Fixpoint faction_loop (f : boolf) (arity : nat) (layers : list (list nat * list nat)) (rights : list nat)
    (all_candidates : option (list nat)) : res (option boolf) :=
  match rights with
  | [] => Ok None
  | right_index :: rights' =>
      let left_index := 2 ^ arity - right_index - 1 in                 (* 41 *)
      let layer_index := int_to_weight left_index in                   (* 42 *)
      let* layer := lget layers layer_index in
      if ratio_is_0_or_1 layer then faction_loop f arity layers rights' all_candidates   (* 44-45 *)
      else
        let* step_candidates := faction_wrapper left_index arity layer in   (* 47 *)
        match narrow all_candidates step_candidates with
        | None => faction_loop f arity layers rights' all_candidates
        | Some candidates =>
            let* r := rep_candidate f (map (fun c => (0, c)) candidates) [] in   (* 58-69 *)
            match r with
            | Some rep => Ok (Some rep)
            | None => faction_loop f arity layers rights' (Some candidates)
            end
        end
  end.

(* boolf/metributes/_ec_reps/minimal/faction_minrep/__init__.py:10-69 *)
Definition faction_minrep (f : boolf) : res (option boolf) :=
  if is_constant f then Ok (Some f)                                    (* 12-13 *)
  else
    let arity := adicity f in                                          (* 15 *)
    let* twin_boolf := boolf_twin f None in
    let* row := boolf_tt twin_boolf (TtArity arity) in
    let* layers := flat_to_places row in                               (* 18-19 *)
    if forallb ratio_is_0_or_1 layers then Ok (Some f)                 (* 20-29 *)
    else faction_loop f arity layers (range2 1 (2 ^ arity)) None.

(* clan_minrep/schoute_wrapper/__init__.py:4-29 *)
Definition clan_wrapper (haystack_index arity : nat) (layers : list (list nat * list nat)) : res (list nat) :=
  let layer_index := int_to_weight haystack_index in
  let* layer := lget layers layer_index in
  let do_complement := ratio_above_half layer in
  let needles := if do_complement then fst layer else snd layer in
  let* found_set := find_needles needles haystack_index arity in
  Ok (if do_complement then complement_below (fact arity) found_set else found_set).

(* [small[0] = not small[0]] *)
Definition negate_first (small : list bool) : res (list bool) :=
  let* b := lget small 0 in list_assign small 0 (negb b).

(* clan_minrep/variant_1_production.py:43-74: the set of applicants for one left index.
   [dict_of_blue_rows] keeps the rows already calculated, [small_to_col_indices] and
   [small_to_big] group the columns with the same [small]: both only avoid repeated work and
   are left out, [rows] and [big] are calculated each time. *)
Definition clan_applicants (oz : list Z -> list Z) (blue_keys : list nat) (arity left_index : nat)
    (layers : list (list nat * list nat)) : res (list (nat * nat)) :=
  let* rows := mapM (fun blue_key => clan_wrapper blue_key arity layers) blue_keys in   (* 50-53 *)
  let* columns :=
    mapM (fun col_index =>                                             (* 61-67 *)
            let small := map (fun row => memb col_index row) rows in
            let* comp_small := negate_first small in
            let* big := sierpinski_twin oz comp_small left_index arity in
            Ok (map (fun row_index => (row_index, col_index))          (* 69-74 *)
                    (map fst (filter (fun kv => snd kv) (enumerate big)))))
         (range (fact arity)) in
  Ok (concat columns).

(* clan_minrep/variant_1_production.py:39-102 *)
Fixpoint clan_loop (oz : list Z -> list Z) (on : list nat -> list nat) (f : boolf) (arity : nat)
    (layers : list (list nat * list nat)) (rights : list nat) (set_of_candidates : option (list (nat * nat)))
  : res (option boolf) :=
  match rights with
  | [] => Ok None
  | right_index :: rights' =>
      let left_index := 2 ^ arity - right_index - 1 in                 (* 41 *)
      let blue_indices := int_to_sierpinski_row on right_index in      (* 45 *)
      let blue_keys := map (fun i => Nat.lxor i left_index) blue_indices in   (* 46 *)
      guard list_eqb blue_keys (sort_nat blue_keys) else AssertErr ;;  (* 47 *)
      let* set_of_applicants := clan_applicants oz blue_keys arity left_index layers in
      let candidates :=                                                (* 76-89 *)
        match set_of_applicants with
        | [] => None
        | _ :: _ =>
            match set_of_candidates with
            | None => Some set_of_applicants
            | Some c => match filter (fun p => existsb (pair_eqb p) set_of_applicants) c with [] => None | i => Some i end
            end
        end in
      match candidates with
      | None => clan_loop oz on f arity layers rights' set_of_candidates
      | Some pairs =>
          let* r := rep_candidate f pairs [] in                        (* 91-102 *)
          match r with
          | Some rep => Ok (Some rep)
          | None => clan_loop oz on f arity layers rights' (Some pairs)
          end
      end
  end.

(* boolf/metributes/_ec_reps/minimal/clan_minrep/variant_1_production.py:13-102 *)
Definition clan_minrep (oz : list Z -> list Z) (on : list nat -> list nat) (f : boolf) : res (option boolf) :=
  if is_constant f then Ok (Some f)                                    (* 15-16 *)
  else
    let arity := adicity f in                                          (* 18 *)
    let* twin_boolf := boolf_twin f None in
    let* row := boolf_tt twin_boolf (TtArity arity) in
    let* layers := flat_to_places row in                               (* 22-27 *)
    clan_loop oz on f arity layers (range2 1 (2 ^ arity)) None.

(* clan_minrep/variant_0_prototype.py:37-90.  The boolean matrix of candidates is the list of
   its true entries, row by row (the order of np.nonzero); the blue rows and the columns of the
   matrix of applicants are calculated each time. *)
Fixpoint clan_prototype_loop (oz : list Z -> list Z) (on : list nat -> list nat) (f : boolf) (arity : nat)
    (layers : list (list nat * list nat)) (rights : list nat) (matrix_of_candidates : list (nat * nat))
  : res (option boolf) :=
  match rights with
  | [] => Ok None
  | right_index :: rights' =>
      let left_index := 2 ^ arity - right_index - 1 in                 (* 39 *)
      let blue_keys := map (fun i => Nat.lxor i left_index) (int_to_sierpinski_row on right_index) in   (* 41-42 *)
      let* matrix_of_applicants := clan_applicants oz blue_keys arity left_index layers in   (* 44-70 *)
      match filter (fun p => existsb (pair_eqb p) matrix_of_applicants) matrix_of_candidates with   (* 72-77 *)
      | [] => clan_prototype_loop oz on f arity layers rights' matrix_of_candidates
      | pairs =>
          let* r := rep_candidate f pairs [] in                        (* 79-90 *)
          match r with
          | Some rep => Ok (Some rep)
          | None => clan_prototype_loop oz on f arity layers rights' pairs
          end
      end
  end.

(* boolf/metributes/_ec_reps/minimal/clan_minrep/variant_0_prototype.py:12-90 *)
Definition clan_minrep_prototype (oz : list Z -> list Z) (on : list nat -> list nat) (f : boolf) : res (option boolf) :=
  if is_constant f then Ok (Some f)
  else
    let arity := adicity f in
    let* twin_boolf := boolf_twin f None in
    let* row := boolf_tt twin_boolf (TtArity arity) in
    let* layers := flat_to_places row in
    clan_prototype_loop oz on f arity layers (range2 1 (2 ^ arity))
      (list_prod (range (2 ^ arity)) (range (fact arity))).

(* boolf/metributes/is_root/__init__.py:5-7, root_boolf/__init__.py:5-12 *)
Definition is_root (f : boolf) : bool := Nat.eqb (adicity f) (valency f).
Definition root_boolf (f : boolf) : res boolf :=
  if is_root f then Ok f else subinit_fs (map Z.of_nat (binv_exposet (root f))) (Some (map Z.of_nat (range (valency f)))) None false.

(* boolf/metributes/_ec_reps/fast/family_malerep/__init__.py:9-26 *)
Definition family_malerep (f : boolf) : res boolf :=
  guard is_male f else ValueErr ;;                                     (* 11 *)
  if is_constant f then Ok f                                           (* 13-14 *)
  else
    let* b := root_boolf f in                                          (* 16 *)
    let* m := consul b TtDefault in                                    (* 18 *)
    let* sigperm := SigPerm_pair m 0 in                                (* 19 *)
    let* rep := apply_sigperm b sigperm in                             (* 20 *)
    if is_root f then Ok rep                                           (* 22-23 *)
    else Boolf_vec (root rep) (atomvals f).                            (* 25-26 *)
