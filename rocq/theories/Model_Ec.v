(** Model_Ec: equivalence classes of Boolean functions as labelled set partitions
    (boolf/methods/_ec), and the symmetry partitions derived from them.
    No proofs in this file.

    Representation of labels.  The labels are Boolf objects, kept in a bidict, so they are
    compared with [__eq__] and [__hash__] (boolf/__init__.py:168-169, methods/str/__init__.py:31-32;
    equal objects have equal strings and hence equal hashes).  Here a label is an integer: the
    position of the first equal function among the functions in the order of the loop
    ([ec_functions]).

    Representation of elements.  The pairs and triples among the elements are numbered in
    lexicographic order, which is the order in which Python sorts them. *)

From Coq Require Import List Arith ZArith Bool Lia Factorial.
From Verif Require Import Model_Base Model_Splits Model_Perm Model_Binary Model_SigPerm Model_SetPart Model_Boolf
  Model_BoolfMore Model_MinRep Model_Helpers.
Import ListNotations.
Open Scope nat_scope.

Record ec := mkEc {
  ec_part : setpart;                         (* the SetPart, with integers as labels *)
  ec_functions : list boolf;                 (* the label [k] stands for the function at place [k] *)
  ec_glove : option (list (list nat))        (* the attribute glove_compartment *)
}.

(* the first place with an equal function (the length, if there is none) *)
Fixpoint boolf_position (fs : list boolf) (g : boolf) : nat :=
  match fs with
  | [] => 0
  | h :: fs' => if boolf_eqb h g then 0 else S (boolf_position fs' g)
  end.

(* get_label_from_element, get_block_from_label, block_labels.values()
   (set_part/methods/block_labels/__init__.py:46-60) *)
Definition ec_label (c : ec) (element : Z) : option boolf :=
  match get_label_from_element (ec_part c) element with
  | Some l => nth_error (ec_functions c) (Z.to_nat l)
  | None => None
  end.
Definition ec_block (c : ec) (g : boolf) : option (list Z) :=
  get_block_from_label (ec_part c) (Z.of_nat (boolf_position (ec_functions c) g)).
Definition ec_members (c : ec) : list boolf :=
  flat_map (fun bl : list Z * Z => match nth_error (ec_functions c) (Z.to_nat (snd bl)) with Some g => [g] | None => [] end)
           (sp_labels (ec_part c)).

(* the common part of the loops:  part = SetPart(blocks=[], domain=domain), and then
   part.add_label_to_element(element, boolf)  for each element.  Simplification: in the code the
   functions are calculated one by one inside of the loop, here all of them before it; this would
   only matter for the choice between two exceptions. *)
Definition label_all (domain : list Z) (items : list (Z * boolf)) (glove : option (list (list nat))) : res ec :=
  let fs := map snd items in
  let* part := inventory_partition_items domain
                 (map (fun it : Z * boolf => (fst it, Z.of_nat (boolf_position fs (snd it)))) items) in
  Ok (mkEc part fs glove).

(* SetPart(blocks=[block], domain=block) with one label at the element 0 *)
Definition label_one_block (block : list Z) (g : boolf) : res ec :=
  let* part := SetPart (Some [block]) (DomSet block) in
  match add_label_to_element part 0%Z 0%Z with
  | (part', None) => Ok (mkEc part' [g] None)
  | (_, Some e) => Err e
  end.

Definition znat_range (n : nat) : list Z := map Z.of_nat (range n).

(* boolf/methods/_ec/ec_family/__init__.py:22-25 *)
Definition family_member_at (f : boolf) (i : nat) : res boolf :=
  let* binv := Binv None (Some (Z.of_nat i)) None (Some (valency f)) None in
  let* negpat := mapM (fun k => lget (atomvals f) k) (binv_exposet binv) in
  let* signed_atomvals := logic_negate_which (map Z.of_nat (atomvals f)) negpat in
  boolf_apply f signed_atomvals.

(* boolf/methods/_ec/ec_family/__init__.py:8-28 *)
Definition ec_family (f : boolf) : res ec :=
  if is_constant f then label_all [0%Z] [(0%Z, f)] None                (* 10-13 *)
  else
    guard Nat.leb (adicity f) 10 else ArgNotFeasibleError ;;           (* 15 *)
    let* items := mapM (fun i => let* g := family_member_at f i in Ok (Z.of_nat i, g))
                       (range (2 ^ valency f)) in                      (* 21-26 *)
    label_all (znat_range (2 ^ valency f)) items None.

(* boolf/methods/_ec/ec_faction/__init__.py:28-31, ec_clan/__init__.py:30-33 *)
Definition ec_arity (f : boolf) (arity : option nat) : res nat :=
  match arity with
  | None => Ok (adicity f)
  | Some n => guard Nat.leb (adicity f) n else ArgTooSmallError ;; Ok n
  end.

(* boolf/methods/_ec/ec_faction/__init__.py:11-71.  The element [(n, c)] of the case 'long' has the
   number [n * arity_choose_valency + c]. *)
Definition ec_faction (f : boolf) (arity : option nat) (suppress_abbreviation : bool) : res ec :=
  if is_constant f then
    let arity := match arity with None => 0 | Some n => n end in       (* 14-15 *)
    if suppress_abbreviation && Nat.ltb 0 arity
    then label_one_block (znat_range (fact arity)) f                   (* 16-20 *)
    else label_one_block [0%Z] f                                       (* 21-24 *)
  else
    guard Nat.leb (adicity f) 5 else ArgNotFeasibleError ;;            (* 26 *)
    let* arity := ec_arity f arity in                                  (* 28-31 *)
    if Nat.eqb arity (valency f) || suppress_abbreviation then         (* 33-39, 43-49 *)
      let perms := rev_colex_perms arity in
      let* items := mapM (fun np : nat * list nat =>
                            let* g := apply_sigperm_list f (map Z.of_nat (snd np)) in Ok (Z.of_nat (fst np), g))
                         (enumerate perms) in
      label_all (znat_range (fact arity)) items None
    else                                                               (* 53-69 *)
      let combos := combinations (range arity) (valency f) in
      let arity_choose_valency := length combos in
      let perms := rev_colex_perms (valency f) in
      let* items := mapM (fun cn : (nat * list nat) * (nat * list nat) =>
                            let '((c, combo), (n, p)) := cn in
                            let* q := Perm (ArgSeq p) None in
                            let* variation := papply q combo in
                            let* g := boolf_apply f (map Z.of_nat variation) in
                            Ok (Z.of_nat (n * arity_choose_valency + c), g))
                         (list_prod (enumerate combos) (enumerate perms)) in
      label_all (znat_range (fact (valency f) * arity_choose_valency)) items (Some combos).

(* boolf/methods/_ec/ec_clan/__init__.py:28-86, for functions that are not constant.  The
   element [(m, n)] of the case 'redundant' has the number [m * arity! + n], the element
   [(m, n, c)] of the case 'abbreviated' the number [(m * valency! + n) * arity_choose_valency + c]. *)
Definition ec_clan_variable (f : boolf) (arity : option nat) (suppress_abbreviation : bool) : res ec :=
  guard Nat.leb (adicity f) 5 else ArgNotFeasibleError ;;              (* 28 *)
  let* arity := ec_arity f arity in                                    (* 30-33 *)
  if Nat.eqb arity (valency f) || suppress_abbreviation then           (* 35-41, 45-59 *)
    let perms_raw := rev_colex_perms arity in
    let* perms := mapM (fun p => Perm (ArgSeq p) None) perms_raw in
    let* binvs := mapM (fun k => Binv None (Some (Z.of_nat k)) None None None) (range (2 ^ arity)) in
    let* items := mapM (fun mn : (nat * list bool) * (nat * perm) =>
                          let '((m, binv), (n, p)) := mn in
                          let* sigperm := SigPerm_valneg (NegBinv binv) (SrcPerm p) in
                          let* g := apply_sigperm f sigperm in
                          Ok (Z.of_nat (m * fact arity + n), g))
                       (list_prod (enumerate binvs) (enumerate perms)) in
    label_all (znat_range (2 ^ arity * fact arity)) items None
  else                                                                 (* 63-84 *)
    let combos := combinations (range arity) (valency f) in
    let arity_choose_valency := length combos in
    let perms_raw := rev_colex_perms (valency f) in
    let* perms := mapM (fun p => Perm (ArgSeq p) None) perms_raw in
    let* binvs := mapM (fun k => Binv None (Some (Z.of_nat k)) None None None) (range (2 ^ valency f)) in
    let* items := mapM (fun cmn : (nat * list nat) * ((nat * list bool) * (nat * perm)) =>
                          let '((c, combo), ((m, binv), (n, p))) := cmn in
                          let* sigperm := SigPerm_valneg (NegBinv binv) (SrcPerm p) in
                          let* signed_variation := sg_apply sigperm (map Z.of_nat combo) in
                          let* g := boolf_apply f signed_variation in
                          Ok (Z.of_nat ((m * fact (valency f) + n) * arity_choose_valency + c), g))
                       (list_prod (enumerate combos) (list_prod (enumerate binvs) (enumerate perms))) in
    label_all (znat_range (2 ^ valency f * fact (valency f) * arity_choose_valency)) items (Some combos).

(* boolf/methods/_ec/ec_clan/__init__.py:13-86.  [depth]: how many nested calls the interpreter
   allows; one more is a RecursionError (a RuntimeError). *)
Fixpoint ec_clan (depth : nat) (f : boolf) (arity : option nat) (suppress_abbreviation : bool) : res ec :=
  match depth with
  | 0 => Err RuntimeErr
  | S depth' =>
      if is_constant f then                                            (* 15-26 *)
        if negb suppress_abbreviation then label_all [0%Z] [(0%Z, f)] None
        else
          match arity with
          | None => Err TypeErr                                        (* 23, 24: 2 ** None, range(None) *)
          | Some n =>
              let fullspots := if nth 0 (root f) false then znat_range (2 ^ n) else [] in
              let* boolf := subinit_fs fullspots (Some (znat_range n)) None true in
              ec_clan depth' boolf arity suppress_abbreviation
          end
      else ec_clan_variable f arity suppress_abbreviation
  end.

(** * Splinters and factions *)

(* Python dict from naturals to lists of naturals, in insertion order *)
Definition ldict := list (nat * list nat).
Fixpoint ldget (d : ldict) (k : nat) : option (list nat) :=
  match d with
  | [] => None
  | (k', v) :: d' => if Nat.eqb k k' then Some v else ldget d' k
  end.
Fixpoint ldset (d : ldict) (k : nat) (v : list nat) : ldict :=
  match d with
  | [] => [(k, v)]
  | (k', v') :: d' => if Nat.eqb k k' then (k, v) :: d' else (k', v') :: ldset d' k v
  end.
Definition ldlookup (d : ldict) (k : nat) : res (list nat) :=
  match ldget d k with Some v => Ok v | None => Err KeyErr end.

(* a function's faction_minrep.zhe (ec_family_splinters/__init__.py:11, ec_clan_factions/__init__.py:11);
   [None] has no attribute zhe *)
Definition faction_rep_zhe (g : boolf) : res nat :=
  let* rep := faction_minrep g in
  match rep with None => Err AttributeErr | Some r => boolf_zhe r end.

(* raw_result (a defaultdict of lists) in both functions: lines 8-12 *)
Definition by_faction_rep (members : list boolf) : res (ldict) :=
  foldM (fun raw_result g =>
           let* faction_rep := faction_rep_zhe g in
           let* zhe := boolf_zhe g in
           Ok (ldset raw_result faction_rep
                 (match ldget raw_result faction_rep with Some l => l ++ [zhe] | None => [zhe] end)))
        members [].

(* min of a list of naturals (ValueError for an empty one) *)
Definition nmin (l : list nat) : res nat :=
  match l with [] => Err ValueErr | x :: l' => Ok (fold_left Nat.min l' x) end.

(* boolf/methods/_ec/ec_family_splinters/__init__.py:4-21 *)
Definition ec_family_splinters (f : boolf) : res (ldict) :=
  let* family := ec_family f in
  let* raw_result := by_faction_rep (ec_members family) in
  foldM (fun result faction_rep =>
           let* l := ldlookup raw_result faction_rep in
           let splinter_zhes := sort_nat l in
           let* splinter_rep := nmin splinter_zhes in
           Ok (ldset result splinter_rep splinter_zhes))
        (sort_nat (map fst raw_result)) [].

(* boolf/methods/_ec/ec_clan_factions/__init__.py:4-21 *)
Definition ec_clan_factions (depth : nat) (f : boolf) (arity : option nat) : res (ldict) :=
  let* clan := ec_clan depth f arity false in
  let* raw_result := by_faction_rep (ec_members clan) in
  foldM (fun result faction_rep =>
           let* l := ldlookup raw_result faction_rep in
           let faction_zhes := sort_nat l in
           let* m := nmin faction_zhes in
           guard Nat.eqb faction_rep m else AssertErr ;;
           Ok (ldset result faction_rep faction_zhes))
        (sort_nat (map fst raw_result)) [].

(** * The clan partitioned into factions and families *)

(* boolf/methods/_ec/ec_clan_partitioned/__init__.py:12-21 and 23-32.  [class_of]: ec_faction or
   ec_family; [srt]: the function sorted(), for Boolf objects (by their strings); [set_of_tuples]: a
   set, as a list without repetition. *)
Fixpoint tuple_eqb (a b : list boolf) : bool :=
  match a, b with
  | [], [] => true
  | x :: a', y :: b' => boolf_eqb x y && tuple_eqb a' b'
  | _, _ => false
  end.
Fixpoint collect_tuples (srt : list boolf -> list boolf) (class_of : boolf -> res ec) (cardinality : nat)
    (todo : list boolf) (sum : nat) (set_of_tuples : list (list boolf)) : res (list (list boolf)) :=
  match todo with
  | [] => Ok set_of_tuples
  | g :: todo' =>
      let* c := class_of g in
      let tuple := srt (ec_members c) in
      if existsb (tuple_eqb tuple) set_of_tuples
      then collect_tuples srt class_of cardinality todo' sum set_of_tuples
      else
        let sum' := sum + length tuple in
        if Nat.eqb sum' cardinality then Ok (set_of_tuples ++ [tuple])
        else collect_tuples srt class_of cardinality todo' sum' (set_of_tuples ++ [tuple])
  end.

(* 36-48  the sets of Zhegalkin numbers, under their smallest elements *)
Definition min_to_set (tuples : list (list boolf)) : res (ldict) :=
  foldM (fun d tuple =>
           let* zhes := mapM boolf_zhe tuple in
           let zhe_set := nodup Nat.eq_dec zhes in
           let* m := nmin zhe_set in
           Ok (ldset d m zhe_set))
        tuples [].

(* boolf/methods/_ec/ec_clan_partitioned/__init__.py:4-70.  [oc]: the order of the set negperm_set (the
   same in both loops); [ot]: the order of a set of tuples. *)
Definition ec_clan_partitioned (depth : nat) (srt : list boolf -> list boolf) (oc : list boolf -> list boolf)
    (ot : list (list boolf) -> list (list boolf)) (f : boolf)
    : res (list nat * list nat * ldict * ldict * list ((nat * nat) * list nat)) :=
  let* negperm := ec_clan depth f None false in
  let negperm_set := ec_members negperm in       (* the labels of a bidict are unique *)
  let cardinality := length negperm_set in
  let* set_of_perm_tuples := collect_tuples srt (fun g => ec_faction g None false) cardinality (oc negperm_set) 0 [] in
  let* set_of_neg_tuples := collect_tuples srt ec_family cardinality (oc negperm_set) 0 [] in
  let* perm_min_to_set := min_to_set (ot set_of_perm_tuples) in
  let* neg_min_to_set := min_to_set (ot set_of_neg_tuples) in
  let faction_reps := sort_nat (map fst perm_min_to_set) in
  let family_reps := sort_nat (map fst neg_min_to_set) in
  let* splinter_dict :=
    mapM (fun pn : nat * nat =>
            let* perm_set := ldlookup perm_min_to_set (fst pn) in
            let* neg_set := ldlookup neg_min_to_set (snd pn) in
            Ok (pn, sort_nat (filter (fun z => memb z neg_set) perm_set)))
         (list_prod faction_reps family_reps) in
  let* faction_dict := mapM (fun m => let* l := ldlookup perm_min_to_set m in Ok (m, sort_nat l)) faction_reps in
  let* family_dict := mapM (fun m => let* l := ldlookup neg_min_to_set m in Ok (m, sort_nat l)) family_reps in
  Ok (faction_reps, family_reps, faction_dict, family_dict, splinter_dict).

(** * Symmetries *)

(* a loop of merge_pair *)
Definition merge_all (pairs : list (Z * Z)) (s : setpart) : res setpart :=
  match iterate (fun s ab => merge_pair s (fst ab) (snd ab)) pairs s with
  | (s', None) => Ok s'
  | (_, Some e) => Err e
  end.

(* boolf/metributes/perm_symmetry_partition/__init__.py:7-27.  [bl]: the floating point
   binary_length.  The merges follow after all calculations.  When the root function [b] has gaps
   between its atoms, the elements of the block are pairs, and SigPerm(pair=(0, perm_index))
   refuses the first one (a/int_to_perm/__init__.py:9). *)
Definition perm_symmetry_partition (bl : nat -> nat) (f : boolf) : res setpart :=
  let* b := root_boolf f in
  let* tt := boolf_tt b (TtArity (adicity f)) in
  let* setpart := SetPart (Some []) (DomSet (znat_range (2 ^ adicity f))) in
  let* faction := ec_faction b None false in
  match ec_block faction b with
  | None => Err TypeErr
  | Some block =>
      guard is_root b else ValueErr ;;
      let* pairs :=
        mapM (fun ip : Z * nat =>
                let* sig_perm := SigPerm_pair 0 (Z.to_nat (fst ip)) in
                let* post_place := sg_apply_natural bl sig_perm (snd ip) in
                let* x := lget tt post_place in
                let* y := lget tt (snd ip) in
                Ok (if Bool.eqb x y then [(Z.of_nat (snd ip), Z.of_nat post_place)] else []))
             (list_prod block (range (2 ^ adicity f))) in
      merge_all (concat pairs) setpart
  end.

(* boolf/metributes/symmetric_spots/__init__.py:7-25; boolf.fullspots is root.exposet.  The pair
   with the number [k] is [(k / arity!, k mod arity!)].  When the root function [b] has gaps between
   its atoms, the elements of the block are triples, and SigPerm(pair=pair) can not unpack the
   first one (sig_perm/__init__.py:48). *)
Definition symmetric_spots (depth : nat) (bl : nat -> nat) (f : boolf) : res setpart :=
  let* b := root_boolf f in
  let spots := binv_exposet (root b) in
  let* result := SetPart (Some []) (DomSet (map Z.of_nat spots)) in
  let* clan := ec_clan depth b None false in
  match ec_block clan b with
  | None => Err TypeErr
  | Some block =>
      guard is_root b else ValueErr ;;
      let* pairs :=
        mapM (fun ks : Z * nat =>
                let k := Z.to_nat (fst ks) in
                let* sig_perm := SigPerm_pair (k / fact (adicity b)) (k mod fact (adicity b)) in
                let* symmetric_spot := sg_apply_natural bl sig_perm (snd ks) in
                Ok (Z.of_nat (snd ks), Z.of_nat symmetric_spot))
             (list_prod block spots) in
      merge_all pairs result
  end.

(* boolf/metributes/family_is_self_complementary/__init__.py:4-10 (weight == length / 2) *)
Definition family_is_self_complementary (oz : list Z -> list Z) (on : list nat -> list nat) (f : boolf) : res bool :=
  if Nat.eqb (2 * binv_weight (root f)) (length (root f)) then
    let* a := family_minrep oz on f in
    let* c := boolf_not f in
    let* b := family_minrep oz on c in
    match a, b with
    | Some a, Some b => Ok (boolf_eqb a b)
    | None, None => Ok true
    | _, _ => Err AttributeErr
    end
  else Ok false.

(* boolf/methods/_quadrant_extensions/__init__.py:4-25 *)
Definition weight_quadrant (f : boolf) (arity : option nat) : res nat :=
  let arity := match arity with None => adicity f | Some n => n end in
  let* q := is_rough f arity in Ok (Nat.b2n q + 2 * Nat.b2n (is_odious f)).
Definition acute_quadrant (f : boolf) (arity : option nat) : res nat :=
  let arity := match arity with None => adicity f | Some n => n end in
  let* q := is_acute f arity in Ok (Nat.b2n (is_ugly f) + 2 * Nat.b2n q).
Definition octant (f : boolf) (arity : option nat) : res nat :=
  let arity := match arity with None => adicity f | Some n => n end in
  let* q := is_acute f arity in Ok (quadrant f + 4 * Nat.b2n q).
