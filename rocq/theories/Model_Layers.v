(** Model_Layers: true places and truth values by weight (boolf/metributes/_basics/
    fullspots_by_weight, fullspotlinks_by_weight, _layered, is_symmetric), fissions
    (boolf/metributes/_fissions) and hyperfissions (boolf/methods/_hyperfission).
    Boolf objects do not change, so the caching properties are functions of the object. *)

From Coq Require Import List Arith ZArith Bool.
From Verif Require Import Model_Base Model_Binary Model_Determinant Model_WalshPerm Model_Splits Model_Perm Model_Boolf Model_BoolfMore Model_MinRep Model_Segments Model_Helpers Model_Hyper.
Import ListNotations.
Open Scope nat_scope.

(* boolf/metributes/_basics/fullspots_by_weight/__init__.py:67-86: the dictionary
   fullspots_by_weight, the lists layered_fullspots and fullspot_weights.  The set fullspots is
   iterated in some [order]. *)
Record by_weight := mkByWeight { bw_detailed : list (nat * list (nat * list nat)); bw_simple : list (list nat); bw_weights : list nat }.
Definition fullspots_by_weight (order : list nat -> list nat) (f : boolf) : res by_weight :=
  let* spots := fullspot_atoms order f in
  let raw := fold_left (fun (st : list (nat * list (nat * list nat)) * list (nat * list nat)) (sa : nat * list nat) =>   (* 71-74 *)
                 let weight := length (snd sa) in
                 let inner := match dfind (fst st) weight with Some d => d | None => [] end in
                 let simple := match dfind (snd st) weight with Some l => l | None => [] end in
                 (dput (fst st) weight (dput inner (fst sa) (snd sa)), dput (snd st) weight (simple ++ [fst sa])))
               spots ([], []) in
  Ok (mkByWeight (fst raw)
        (map (fun weight => sort_nat (match dfind (snd raw) weight with Some l => l | None => [] end)) (range (valency f + 1)))   (* 76-79 *)
        (sort_nat (map fst (fst raw)))).                                                                                        (* 82 *)

(* boolf/metributes/_basics/fullspotlinks_by_weight/__init__.py:47-80: the dictionary
   fullspotlinks_by_weight and number_of_fullspotlinks *)
Definition fullspotlinks_by_weight (order : list nat -> list nat) (f : boolf) : res (list (nat * list (nat * nat)) * nat) :=
  let* bw := fullspots_by_weight order f in
  let weights := bw_weights bw in
  foldM (fun (st : list (nat * list (nat * nat)) * nat) i =>
           let* upper := lget weights (i + 1) in
           let* lower_weight := lget weights i in
           if Nat.eqb upper (lower_weight + 1) then
             let upper_weight := lower_weight + 1 in
             let* lower_dict := match dfind (bw_detailed bw) lower_weight with Some d => Ok d | None => Err KeyErr end in
             let* upper_dict := match dfind (bw_detailed bw) upper_weight with Some d => Ok d | None => Err KeyErr end in
             let actual_pairs :=
               map (fun p : (nat * list nat) * (nat * list nat) => (fst (fst p), fst (snd p)))
                 (filter (fun p : (nat * list nat) * (nat * list nat) => forallb (fun k => memb k (snd (snd p))) (snd (fst p)))
                    (list_prod lower_dict upper_dict)) in
             Ok (dput (fst st) lower_weight (isort pair_leb actual_pairs), snd st + length actual_pairs)
           else Ok st)
        (range (length weights - 1)) ([], 0).

(* boolf/metributes/_layered/__init__.py:45-48 *)
Definition layered_tt (f : boolf) : res (list (list nat)) := flat_to_layered (map Nat.b2n (root f)).
(* boolf/metributes/_layered/__init__.py:49 *)
Definition layered_weight (f : boolf) : res (list nat) :=
  let* layers := layered_tt f in Ok (map list_sum_nat layers).

(* boolf/metributes/is_symmetric/__init__.py:5-13 *)
Definition is_symmetric (f : boolf) : res bool :=
  let* layers := layered_tt f in
  Ok (forallb (fun layer => negb (Nat.ltb 1 (length (nodupb layer)))) layers).

(* boolf/metributes/_fissions/fissions/work.py:5-25: fissions *)
Definition fissions (f : boolf) : res (list (list bool * list bool)) :=
  let n := adicity f in
  guard Nat.ltb 0 n else AssertErr ;;
  let* atompatterns := make_atompatterns n in
  let* tt := boolf_tt f TtDefault in
  guard Nat.eqb (length tt) (2 ^ n) else AssertErr ;;
  mapM (fun atompattern =>
          let* parts := vector_zip_apart tt (map Nat.b2n atompattern) in
          match parts with
          | [a; b] => Ok (a, b)
          | _ => Err ValueErr                                          (* 18: unpacking *)
          end)
       atompatterns.
(* work.py:20-23: fissions_layered *)
Definition fissions_layered (f : boolf) : res (list (list (list nat) * list (list nat))) :=
  let* fs := fissions f in
  mapM (fun ab : list bool * list bool =>
          let* la := flat_to_layered (map Nat.b2n (fst ab)) in
          let* lb := flat_to_layered (map Nat.b2n (snd ab)) in
          Ok (la, lb)) fs.

(* boolf/metributes/_fissions/fissions_weight/work.py:1-15: fissions_weight_layered *)
Definition fissions_weight_layered (f : boolf) : res (list (list nat * list nat)) :=
  let* fl := fissions_layered f in
  Ok (map (fun ab => (map list_sum_nat (fst ab), map list_sum_nat (snd ab))) fl).
(* fissions_weight/work.py:12-13: fissions_weight *)
Definition fissions_weight (f : boolf) : res (list (nat * nat)) :=
  let* l := fissions_weight_layered f in
  Ok (map (fun ab => (list_sum_nat (fst ab), list_sum_nat (snd ab))) l).

(* boolf/metributes/_fissions/fission_walsh_spectra/work.py:6-39: the flat spectra (signed and
   absolute) *)
Definition fission_walsh_spectra (f : boolf) : res (list (list Z * list Z)) :=
  let* fs := fissions f in
  Ok (map (fun ab => (fwht (map z_of_bool (fst ab)), fwht (map z_of_bool (snd ab)))) fs).
Definition fission_walsh_spectra_abs (f : boolf) : res (list (list Z * list Z)) :=
  let* ws := fission_walsh_spectra f in
  Ok (map (fun ab => (map Z.abs (fst ab), map Z.abs (snd ab))) ws).
(* fission_walsh_spectra/work.py:31-32: the layered spectra *)
Definition layered_pairs (l : list (list Z * list Z)) : res (list (list (list Z) * list (list Z))) :=
  mapM (fun ab : list Z * list Z => let* la := flat_to_layered (fst ab) in let* lb := flat_to_layered (snd ab) in Ok (la, lb)) l.
Definition fission_walsh_spectra_layered (f : boolf) : res (list (list (list Z) * list (list Z))) :=
  let* ws := fission_walsh_spectra f in layered_pairs ws.
Definition fission_walsh_spectra_layered_abs (f : boolf) : res (list (list (list Z) * list (list Z))) :=
  let* ws := fission_walsh_spectra_abs f in layered_pairs ws.

(* boolf/metributes/_fissions/fission_walsh_spectra_zipped/work.py:4-24 *)
Definition fission_walsh_spectra_zipped (f : boolf) : res (list (list Z)) :=
  let* atompatterns := make_atompatterns (adicity f) in
  mapM (fun i =>
          let* atompattern := lget atompatterns i in
          let* ws := fission_walsh_spectra f in
          let* ab := lget ws i in
          vector_zip_together [fst ab; snd ab] (map Nat.b2n atompattern))
       (range (adicity f)).
Definition fission_walsh_spectra_abs_zipped (f : boolf) : res (list (list Z)) :=
  let* z := fission_walsh_spectra_zipped f in Ok (map (map Z.abs) z).

(* boolf/methods/_hyperfission/hyperfission/__init__.py:5-14 (dimensions that are natural
   numbers) *)
Definition hyperfission (f : boolf) (dimensions : list nat) : res (list (list bool)) :=
  match dimensions with
  | [] => let* tt := boolf_tt f TtDefault in Ok [tt]
  | [d] => let* fs := fissions f in let* ab := lget fs d in Ok [fst ab; snd ab]
  | _ =>
      let* sequence := atom_indices_to_sequence dimensions (Some (2 ^ adicity f)) in
      let* tt := boolf_tt f TtDefault in
      vector_zip_apart tt sequence
  end.

(* boolf/methods/_hyperfission/hyperfission_walsh_spectra/__init__.py:4-13,
   hyperfission_walsh_spectra_abs/__init__.py:1-9,
   hyperfission_walsh_spectra_layered_abs/__init__.py:4-12 *)
Definition hyperfission_walsh_spectra (f : boolf) (dimensions : list nat) : res (list (list Z)) :=
  let* parts := hyperfission f dimensions in Ok (map (fun v => fwht (map z_of_bool v)) parts).
Definition hyperfission_walsh_spectra_abs (f : boolf) (dimensions : list nat) : res (list (list Z)) :=
  let* ws := hyperfission_walsh_spectra f dimensions in Ok (map (map Z.abs) ws).
Definition hyperfission_walsh_spectra_layered_abs (f : boolf) (dimensions : list nat) : res (list (list (list Z))) :=
  let* ws := hyperfission_walsh_spectra_abs f dimensions in mapM flat_to_layered ws.

(* boolf/methods/_hyperfission/hyperfission_walsh_spectra_zipped/__init__.py:5-14 *)
Definition hyperfission_walsh_spectra_zipped (f : boolf) (dimensions : list nat) : res (list Z) :=
  let* walsh_spectra := hyperfission_walsh_spectra f dimensions in
  match dimensions with
  | [] => lget walsh_spectra 0
  | _ =>
      let* sequence := atom_indices_to_sequence dimensions (Some (2 ^ adicity f)) in
      vector_zip_together walsh_spectra sequence
  end.

(* dictionary with tuples of places as keys: d[label] = v *)
Definition place_eqb (a b : option nat) : bool :=
  match a, b with Some a, Some b => Nat.eqb a b | None, None => true | _, _ => false end.
Fixpoint label_put (d : list (list (option nat) * list Z)) (label : list (option nat)) (v : list Z) :=
  match d with
  | [] => [(label, v)]
  | (label', v') :: d' => if lists_eqb place_eqb label label' then (label', v) :: d' else (label', v') :: label_put d' label v
  end.

(* boolf/methods/_hyperfission/hyperfission_walsh_spectra_labeled/__init__.py:4-29; without
   dimensions the result is the spectrum itself.  Places of [labels] that are never assigned
   would hold None. *)
Definition hyperfission_walsh_spectra_labeled (f : boolf) (dimensions : list nat)
  : res (list Z + list (list (option nat) * list Z)) :=
  let* walsh_spectra := hyperfission_walsh_spectra f dimensions in
  match dimensions with
  | [] => let* ws := lget walsh_spectra 0 in Ok (inl ws)
  | _ =>
      let sequence_length := 2 ^ adicity f in
      let* sequence := atom_indices_to_sequence dimensions (Some sequence_length) in
      let entry_counts := sequence_to_entry_counts sequence in
      let outer_length := length walsh_spectra in
      let* first := lget walsh_spectra 0 in
      let inner_length := length first in
      let* labels := foldM (fun labels i =>
                        let* outer_index := lget sequence i in
                        let* inner_index := lget entry_counts i in
                        let* row := lget labels outer_index in
                        let* row := list_assign row inner_index (Some i) in
                        list_assign labels outer_index row)
                      (range sequence_length) (repeat (repeat None inner_length) outer_length) in
      let* result := foldM (fun result (iw : nat * list Z) =>
                        let* label := lget labels (fst iw) in Ok (label_put result label (snd iw)))
                      (enumerate walsh_spectra) [] in
      Ok (inr result)
  end.
