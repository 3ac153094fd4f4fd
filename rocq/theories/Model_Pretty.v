(** Model_Pretty: results with names of atoms in the place of their keys (boolf/methods/_pretty).  The argument
    [print_only] is taken to be False.  No proofs in this file. *)

From Coq Require Import String Ascii List Arith ZArith Bool.
From Verif Require Import Model_Base Model_Binary Model_Splits Model_Perm Model_Boolf Model_Segments Model_Blight Model_Hyper Model_ClanMatrix
  Model_Misc Model_Str.
Import ListNotations Model_Str.
Open Scope nat_scope.

(* the name of an atom; numbers only appear in the place of names when none are given and there is an atom above 25 *)
Inductive name := Txt (t : text) | Num (n : nat).

Definition alphabet : text := lit "ABCDEFGHIJKLMNOPQRSTUVWXYZ".
(* a/alphabet_subset/__init__.py:5-22; max of an empty list is a ValueError *)
Definition alphabet_subset (exposet : list nat) : res (list name) :=
  match exposet with
  | [] => Err ValueErr
  | _ => if Nat.ltb (fold_left Nat.max exposet 0) 26
         then mapM (fun i => let* c := lget alphabet i in Ok (Txt [c])) exposet
         else Ok (map Num exposet)
  end.

Definition text_eqb : text -> text -> bool := list_eqb.
(* the different entries of a list of texts *)
Fixpoint text_set (l : list text) : list text :=
  match l with [] => [] | t :: l' => if existsb (text_eqb t) l' then text_set l' else t :: text_set l' end.

(* lines 7-10 of boolf/methods/_pretty/bundles_pretty/__init__.py, which all methods have.  The names given are texts here. *)
Definition chosen_names (f : boolf) (atomnames : option (list text)) : res (list name) :=
  match atomnames with
  | Some l => guard Nat.eqb (length (text_set l)) (valency f) else ArgMismatchError ;; Ok (map Txt l)
  | None => alphabet_subset (atomvals f)
  end.

(* boolf/methods/_pretty/bundles_pretty/__init__.py:5-12 *)
Definition bundles_pretty order (f : boolf) (given : option (list text)) : res (list (list name)) :=
  let* atomnames := chosen_names f given in
  let* b := bundles order f in
  mapM (fun bundle => mapM (fun atomkey => lget atomnames atomkey) bundle) b.

(* boolf/methods/_pretty/fullspot_atoms_pretty/__init__.py:5-21 (the keys of the dictionary are different ones) *)
Definition fullspot_atoms_pretty order (f : boolf) (given : option (list text)) : res (list (nat * list name)) :=
  let* atomnames := chosen_names f given in
  let* unpretty := fullspot_atoms order f in
  mapM (fun kv : nat * list nat =>
          let* list_of_atomnames := mapM (fun atomkey => lget atomnames atomkey) (snd kv) in
          Ok (fst kv, list_of_atomnames))
       unpretty.

(* boolf/methods/_pretty/fullspotlinks_by_atom_pretty/__init__.py:5-29; Boolf has no attribute fullspotlinks_by_atom *)
Definition fullspotlinks_by_atom_pretty (f : boolf) (given : option (list text)) : res (list (name * list (nat * nat))) :=
  let* _ := chosen_names f given in
  Err AttributeErr.

(** * Pairs *)

(* comparison of names by < of Python; names of both kinds do not occur together *)
Definition name_compare (a b : name) : comparison :=
  match a, b with
  | Txt x, Txt y => lex_compare Nat.compare x y
  | Num x, Num y => Nat.compare x y
  | Txt _, Num _ => Gt
  | Num _, Txt _ => Lt
  end.
Definition pair_compare (p q : name * name) : comparison :=
  match name_compare (fst p) (fst q) with Eq => name_compare (snd p) (snd q) | c => c end.
Definition bool_compare (a b : bool) : comparison := Nat.compare (Nat.b2n a) (Nat.b2n b).

(* the different patterns; their order as a set is a parameter of the next definition *)
Fixpoint pattern_set (l : list (list bool)) : list (list bool) :=
  match l with [] => [] | v :: l' => if existsb (bvec_eqb v) l' then pattern_set l' else v :: pattern_set l' end.

(* boolf/methods/_pretty/filtrated_pairs_pretty/__init__.py:18-24; the strings of zeros and ones are kept as vectors *)
Definition pairs_by_pattern (order : list (list bool) -> list (list bool)) (atomnames : list name) (unpretty : list ((nat * nat) * list bool))
  : res (list (list bool * list (name * name))) :=
  let rel_patterns := sorted_colex bool_compare (order (pattern_set (map snd unpretty))) in
  let intermediate := fold_left (fun d rel_pattern => dstore bvec_eqb d rel_pattern []) rel_patterns [] in
  foldM (fun d (kv : (nat * nat) * list bool) =>
           let* a := lget atomnames (fst (fst kv)) in
           let* b := lget atomnames (snd (fst kv)) in
           let* l := dlook bvec_eqb d (snd kv) in
           Ok (dstore bvec_eqb d (snd kv) (l ++ [(a, b)])))
        unpretty intermediate.

(* boolf/methods/_pretty/filtrated_pairs_pretty/__init__.py:33-52: one turn of the loop *)
Definition sort_pattern (st : list (text * list (name * name)) * list (name * name)) (kv : list bool * list (name * name)) :=
  let (pretty_pre, subset) := st in
  let (rel_pattern, pairs) := kv in
  let put key := (dstore text_eqb pretty_pre key pairs, subset) in
  let is p := bvec_eqb rel_pattern p in
  if is [true; true; true; true] then put (lit "crossing")
  else if is [true; true; true; false] then put (lit "disjoint")
  else if is [false; true; true; true] then put (lit "universal")
  else if is [false; true; true; false] then put (lit "complementary")
  else if is [true; false; false; true] then put (lit "equal")
  else if is [true; false; true; true] then (pretty_pre, subset ++ pairs)
  else if is [true; true; false; true] then (pretty_pre, subset ++ map (fun ab => (snd ab, fst ab)) pairs)
  else put (to_string rel_pattern).

(* boolf/methods/_pretty/filtrated_pairs_pretty/__init__.py:60 *)
Definition key_words : list text := [lit "crossing"; lit "disjoint"; lit "universal"; lit "subset"; lit "equal"; lit "complementary"].

(* boolf/methods/_pretty/filtrated_pairs_pretty/__init__.py:60-69 *)
Definition in_order (pretty_pre : list (text * list (name * name))) : list (text * list (name * name)) :=
  let step pretty key := match dlook text_eqb pretty_pre key with Ok l => dstore text_eqb pretty key l | Err _ => pretty end in
  let pretty := fold_left step key_words [] in
  fold_left step (filter (fun key => negb (existsb (text_eqb key) key_words)) (map fst pretty_pre)) pretty.

(* boolf/methods/_pretty/filtrated_pairs_pretty/__init__.py:5-71 *)
Definition filtrated_pairs_pretty (order : list (list bool) -> list (list bool)) (f : boolf) (given : option (list text))
  : res (list (text * list (name * name))) :=
  let* atomnames := chosen_names f given in
  let* unpretty := filtrated_pairs f in
  let* intermediate := pairs_by_pattern order atomnames unpretty in
  let (pretty_pre, subset) := fold_left sort_pattern intermediate ([], []) in
  let pretty_pre := if match subset with [] => false | _ => true end
                    then dstore text_eqb pretty_pre (lit "subset") (isort (leb_of pair_compare) subset) else pretty_pre in
  Ok (in_order pretty_pre).

(** * Hypersplits *)

(* the minus sign, U+2212 *)
Definition minus_sign : text := [34 * 256 + 18].
(* + of a text and a name, ''.join: a number is a TypeError *)
Definition name_text (a : name) : res text := match a with Txt t => Ok t | Num _ => Err TypeErr end.
(* ' '.join(entries) *)
Fixpoint join_space (entries : list text) : text :=
  match entries with [] => [] | [e] => e | e :: rest => e ++ lit " " ++ join_space rest end.

(* boolf/methods/_pretty/hypersplits_pretty/__init__.py:26-31 *)
Definition block_label (new_molecule : list name) (label : list bool) : res text :=
  let* parts := mapM (fun pd : nat * bool =>
                        let* atomname := lget new_molecule (fst pd) in
                        let* t := name_text atomname in
                        Ok ((if snd pd then lit "+" else minus_sign) ++ t))
                     (enumerate label) in
  Ok (join_space parts).
(* boolf/methods/_pretty/hypersplits_pretty/__init__.py:21-34 *)
Definition pretty_hypersplit (atomnames : list name) (d : list nat * list (list bool * list nat)) : res (list (text * list nat)) :=
  let* new_molecule := mapM (fun atomkey => lget atomnames atomkey) (fst d) in
  foldM (fun new_setpart (lb : list bool * list nat) =>
           let* label := block_label new_molecule (fst lb) in
           Ok (dstore text_eqb new_setpart label (snd lb)))
        (snd d) [].
(* boolf/methods/_pretty/hypersplits_pretty/__init__.py:5-43 *)
Definition hypersplits_pretty order (f : boolf) (given : option (list text)) : res (list (nat * list (list (text * list nat)))) :=
  let* atomnames := chosen_names f given in
  let* h := hypersplits_detailed order f in
  mapM (fun nl : nat * list (list nat * list (list bool * list nat)) =>
          let* l := mapM (pretty_hypersplit atomnames) (snd nl) in Ok (fst nl, l))
       h.

(* a/balanced_ternary_vector_to_string/__init__.py:1-11 *)
Definition balanced_ternary_vector_to_string (vector : list Z) : res text :=
  let* chars := mapM (fun e => if Z.eqb e (-1) then Ok minus_sign else if Z.eqb e 0 then Ok (lit "0") else if Z.eqb e 1 then Ok (lit "+") else Err KeyErr) vector in
  Ok (concat chars).

(* {'fixed': ..., 'free': ..., 'determined': ..., 'vectors': ...} with texts *)
Record pretty_core := mkPrettyCore { pc_fixed : text; pc_free : text; pc_determined : text; pc_vectors : list text }.

(* boolf/methods/_pretty/hypersplits_potential_cores_pretty/__init__.py:21-36 *)
Definition pretty_potential_core (atomnames : list name) (c : core) : res pretty_core :=
  let texts keys := mapM (fun atomkey => let* a := lget atomnames atomkey in name_text a) keys in
  let* new_fixed := texts (c_fixed c) in
  let* new_free := texts (c_free c) in
  let* new_determined :=
    mapM (fun kv : nat * Z =>
            let* atomname := lget atomnames (fst kv) in
            let* str_val := if Z.eqb (snd kv) (-1) then Ok minus_sign else if Z.eqb (snd kv) 1 then Ok (lit "+") else Err KeyErr in
            let* t := name_text atomname in
            Ok (t ++ str_val))
         (c_determined c) in
  let* new_vectors := mapM balanced_ternary_vector_to_string (c_vectors c) in
  Ok (mkPrettyCore (concat new_fixed) (concat new_free) (join_space new_determined) new_vectors).
(* boolf/methods/_pretty/hypersplits_potential_cores_pretty/__init__.py:5-46 *)
Definition hypersplits_potential_cores_pretty order (f : boolf) (given : option (list text)) : res (list (nat * list pretty_core)) :=
  let* atomnames := chosen_names f given in
  let* h := hypersplits_potential_cores order f in
  mapM (fun nl : nat * list core => let* l := mapM (pretty_potential_core atomnames) (snd nl) in Ok (fst nl, l)) h.
