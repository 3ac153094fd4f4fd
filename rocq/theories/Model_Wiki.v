(** Model_Wiki: the tables for wiki pages (boolf/methods/wiki_table_row, boolf/methods/_ec/ec_clan_matrix_wiki).
    Texts are lists of code points.  No proofs in this file. *)

From Coq Require Import String Ascii.
From Coq Require Import List Arith ZArith QArith Bool.
From Verif Require Import Model_Base Model_Splits Model_Perm Model_Binary Model_SigPerm Model_SetPart Model_Boolf
  Model_BoolfMore Model_MinRep Model_Helpers Model_Segments Model_Misc Model_Blight Model_Ec Model_ClanMatrix Model_Str.
Import ListNotations.
Open Scope nat_scope.

(** * One row of a table of functions *)

(* boolf/methods/wiki_table_row/ex.py:1-10; other exceptions *)
Inductive row_exn := BlightError | SpreadError | VFractError | Other (e : exn).
Definition lift_res {A} (m : res A) : row_exn + A := match m with Ok a => inr a | Err e => inl (Other e) end.
Definition rbind {A B} (m : row_exn + A) (k : A -> row_exn + B) : row_exn + B := match m with inl e => inl e | inr a => k a end.

(* wiki_table_row/__init__.py:70-82  the dictionary *)
Record wiki_values := mkWiki {
  w_zhegalkin : nat;
  w_zhegalkin_oddness : text;
  w_zhegalkin_font_size : text;
  w_vnum : nat; w_vden : nat; w_vdec : text; w_vinterval : text;
  w_wnum : nat; w_wden : nat; w_wdec : text; w_winterval : text;
  w_wnum_big : nat; w_wden_big : nat;
  w_valency : nat;
  w_fraction_font_size : text;
  w_names_cell : text;
  w_number_of_bundles : nat;
  w_unibundle_class : text
}.

Section Row.
(* [dlen] is decimal_length (a/decimal_length/__init__.py:6-13, with a floating point logarithm);
   [vdec], [wdec] are the formatted quotients of lines 55, 56 (floating point) *)
Variable dlen : nat -> nat.
Variable vdec wdec : nat -> nat -> text.
(* the iteration order of sets, as in Model_Blight *)
Variable order : list (Z * Z) -> list (Z * Z).

(* wiki_table_row/__init__.py:18-82.  [int(wnum * (length / wden))] is calculated without
   floating point; the denominator divides the length. *)
Definition wiki_values_of (f : boolf) (names_cell : text) : row_exn + wiki_values :=
  rbind (lift_res (is_blightless order f)) (fun blightless =>
  if negb blightless then inl BlightError                                    (* 18 *)
  else if negb (is_root f) then inl SpreadError                              (* 19 *)
  else
  rbind (lift_res (value_fract f)) (fun vfract =>
  rbind (lift_res (weight_fract f)) (fun wfract =>
  let vinterval := match Qcompare vfract (1 # 2) with Lt => lit "below-half" | _ => lit "above-half" end in
  match Qcompare vfract (1 # 2) with
  | Eq => inl VFractError                                                    (* 25 *)
  | _ =>
  let winterval := match Qcompare wfract (1 # 2) with
                   | Lt => lit "below-half" | Eq => lit "exactly-half" | Gt => lit "above-half"
                   end in
  let vnum := Z.to_nat (Qnum vfract) in
  let vden := Pos.to_nat (Qden vfract) in
  let vnum_len := dlen vnum in
  let vden_len := dlen vden in
  let fraction_font_size := if Nat.ltb 30 vnum_len || Nat.ltb 30 vden_len then lit "smaller"
                            else if Nat.ltb 15 vnum_len || Nat.ltb 15 vden_len then lit "small" else [] in
  let wnum := Z.to_nat (Qnum wfract) in
  let wden := Pos.to_nat (Qden wfract) in
  let len := 2 ^ valency f in
  let wnum_big := wnum * (len / wden) in                                     (* 50-53 *)
  rbind (lift_res (boolf_zhe f)) (fun zhegalkin =>
  let zhegalkin_len := dlen zhegalkin in
  let zhegalkin_oddness := if Nat.eqb (zhegalkin mod 2) 0 then lit "even" else lit "odd" in
  let zhegalkin_font_size := if Nat.ltb 30 zhegalkin_len then lit "smaller"
                             else if Nat.ltb 15 zhegalkin_len then lit "small" else [] in
  rbind (lift_res (bundles order f)) (fun b =>
  inr (mkWiki zhegalkin zhegalkin_oddness zhegalkin_font_size vnum vden (vdec vnum vden) vinterval
              wnum wden (wdec wnum wden) winterval wnum_big len (valency f) fraction_font_size names_cell
              (List.length b) (if Nat.eqb (List.length b) 1 then lit " uni" else []))))
  end))).

Definition quote : text := [34].
Definition newline : text := [10].
(* a line of wiki_table_row/string.txt:3-14: |class="..."| ... *)
Definition cell (classes content : text) : text := lit "|class=" ++ quote ++ classes ++ quote ++ lit "| " ++ content.

(* wiki_table_row/string.txt:1-14, wiki_table_row/__init__.py:84-87 *)
Definition wiki_text (w : wiki_values) : text :=
  newline ++ lit "|-" ++
  newline ++ cell (lit "zhegalkin " ++ w_zhegalkin_oddness w ++ lit " " ++ w_zhegalkin_font_size w) (str_nat (w_zhegalkin w)) ++
  newline ++ cell (lit "fraction num " ++ w_fraction_font_size w) (str_nat (w_vnum w)) ++
  newline ++ cell (lit "fraction den " ++ w_fraction_font_size w) (str_nat (w_vden w)) ++
  newline ++ cell (lit "fraction dec " ++ w_vinterval w) (w_vdec w) ++
  newline ++ cell (lit "weight num reduced") (str_nat (w_wnum w)) ++
  newline ++ cell (lit "weight den reduced") (str_nat (w_wden w)) ++
  newline ++ cell (lit "weight dec " ++ w_winterval w) (w_wdec w) ++
  newline ++ cell (lit "weight num unreduced") (str_nat (w_wnum_big w)) ++
  newline ++ cell (lit "weight den unreduced") (str_nat (w_wden_big w)) ++
  newline ++ cell (lit "arity") (str_nat (w_valency w)) ++
  newline ++ cell (lit "bundles" ++ w_unibundle_class w) (str_nat (w_number_of_bundles w)) ++
  newline ++ cell (lit "names") (w_names_cell w).
Definition wiki_table_row (f : boolf) (names_cell : text) : row_exn + text :=
  rbind (wiki_values_of f names_cell) (fun w => inr (wiki_text w)).
End Row.

(** * The table of a clan.  The parts of the printed text that vary are values here. *)

(* ec_clan_matrix_wiki/__init__.py:18-30  the places where the weight changes *)
Definition border_step (s : list nat * option nat) (iw : nat * nat) : list nat * option nat :=
  let (result, last_weight) := s in
  let (i, weight) := iw in
  (match last_weight with
   | Some w => if Nat.eqb weight w then result else result ++ [i]
   | None => result
   end, Some weight).
Definition borders (weights : list nat) : list nat := fst (fold_left border_step (enumerate weights) ([], None)).

(* the table in a cell: the negations with the information whether there is a border, and for each
   pair of them the permutations and the sequences of the signed permutations *)
Record neg_table := mkNeg {
  n_cols : list (nat * bool);                       (* 49-58 *)
  n_rows : list (nat * bool * list (option (list (nat * list Z))))   (* 60-84 *)
}.

(* 34-45  matrix[i, j] is None or a set; it is indexed by pairs *)
Fixpoint mat_add (d : list ((nat * nat) * list nat)) (k : nat * nat) (x : nat) : list ((nat * nat) * list nat) :=
  match d with
  | [] => [(k, [x])]
  | (k', s) :: d' => if npair_eqb k' k then (k', if memb x s then s else s ++ [x]) :: d' else (k', s) :: mat_add d' k x
  end.
Definition mat_at (d : list ((nat * nat) * list nat)) (k : nat * nat) : option (list nat) :=
  match find (fun kv => npair_eqb (fst kv) k) d with Some kv => Some (snd kv) | None => None end.

Definition sorted_by_weight (l : list nat) : res (list nat * list nat) :=
  let* weights := mapM (fun k => let* b := Binv_intval k None in Ok (binv_weight b)) l in
  match l with [] => Err ValueErr | _ => sort_together weights l end.       (* unpacking an empty tuple *)

(* ec_clan_matrix_wiki/__init__.py:9-87 *)
Definition index_triples_to_valneg_html (keyneg_exposet valneg_exposet : list nat) (index_triples : list triple)
    (arity : nat) : res neg_table :=
  let* kw := sorted_by_weight keyneg_exposet in
  let* vw := sorted_by_weight valneg_exposet in
  let (keyneg_weights, keyneg_exposet) := kw : list nat * list nat in
  let (valneg_weights, valneg_exposet) := vw : list nat * list nat in
  let rows_with_border := borders keyneg_weights in
  let cols_with_border := borders valneg_weights in
  let* matrix :=
    foldM (fun matrix (t : triple) =>
             let '(keyneg_index, perm_index, valneg_index) := t in
             let* i := index_of keyneg_index keyneg_exposet in
             let* j := index_of valneg_index valneg_exposet in
             Ok (mat_add matrix (i, j) perm_index)) index_triples [] in
  let cols := map (fun jv : nat * nat => (snd jv, memb (fst jv) cols_with_border)) (enumerate valneg_exposet) in
  let* rows :=
    mapM (fun ik : nat * nat =>
            let* entries :=
              mapM (fun jv : nat * nat =>
                      match mat_at matrix (fst ik, fst jv) with
                      | None => Ok None
                      | Some s =>
                          let* perms :=
                            mapM (fun perm_index =>
                                    let* sg := SigPerm_pair (snd jv) perm_index in
                                    let* sequence := sg_sequence sg (Some arity) in
                                    Ok (perm_index, sequence)) (sort_nat s) in
                          Ok (Some perms)
                      end) (enumerate valneg_exposet) in
            Ok (snd ik, memb (fst ik) rows_with_border, entries)) (enumerate keyneg_exposet) in
  Ok (mkNeg cols rows).

(* 95-115  the negations of a row of the table, by weight *)
Definition keyneg_table (keyneg_exposet : list nat) : res (list (nat * list nat)) :=
  let* weight_to_exposet :=
    foldM (fun d keyneg_index =>
             let* b := Binv_intval keyneg_index None in
             Ok (dd_add Nat.eqb d (binv_weight b) keyneg_index)) keyneg_exposet [] in
  let weights := sort_nat (map fst weight_to_exposet) in
  mapM (fun weight => let* s := dlook Nat.eqb weight_to_exposet weight in Ok (weight, sort_nat s)) weights.

Record wiki_cell := mkCell {
  c_colspan : nat;
  c_border : bool;
  c_base : bool;
  c_zhe : nat;
  c_is_family_rep : bool;
  c_is_faction_rep : bool;
  c_zhe_binary : list bool;
  c_tt_binary : list bool;
  c_negations : neg_table
}.
(* 119-151.  Boolf(zhe=_zhe) with an exact arity, see Model_Log *)
Definition print_cell (f : boolf) (cm : clan_matrix) (faction_rep zhe : nat) (cell_has_border : bool) : res wiki_cell :=
  let* zhe_binary := Binv_intval zhe (Some (2 ^ valency f)) in
  let* b := subinit_zhe (Z.of_nat zhe) in
  let* tt_binary := boolf_tt b TtDefault in
  let x := cm_exposets cm in
  let* index_triples := dlook Nat.eqb (x_zhe_triples x) zhe in
  let cell_is_base := existsb (triple_eqb (0, 0, 0)) index_triples in
  let* splinter_size := dlook Nat.eqb (cm_sizes cm) faction_rep in
  let colspan := cm_lcm cm / splinter_size in
  let* keyneg_exposet := dlook Nat.eqb (x_zhe_keyneg x) zhe in
  let* valneg_exposet := dlook Nat.eqb (x_zhe_valneg x) zhe in
  let* negations := index_triples_to_valneg_html keyneg_exposet valneg_exposet index_triples (adicity f) in
  Ok (mkCell colspan cell_has_border cell_is_base zhe (memb zhe (cm_families cm)) (memb zhe (cm_factions cm))
             zhe_binary tt_binary negations).

Record wiki_line := mkLine {
  l_weight : option nat;
  l_cardinality : nat;
  l_faction_rep : nat;
  l_keyneg_table : list (nat * list nat);
  l_cells : list wiki_cell
}.
Record wiki_clan := mkClan {
  k_header : list (nat * list nat * nat);          (* 169-175: colspan, permutations, family_rep *)
  k_lines : list wiki_line                          (* 177-188 *)
}.
(* 155-194; [bl], [srt], [oc], [ot] and [depth] as in ec_clan_matrix *)
Definition ec_clan_matrix_wiki (depth : nat) (bl : nat -> nat) (srt : list boolf -> list boolf) (oc : list boolf -> list boolf)
    (ot : list (list boolf) -> list (list boolf)) (f : boolf) : res wiki_clan :=
  let* cm := ec_clan_matrix depth bl srt oc ot f in
  let x := cm_exposets cm in
  let* header := mapM (fun family_rep =>
                         let* perm_exposet := dlook Nat.eqb (x_family_perm x) family_rep in
                         Ok (cm_lcm cm, perm_exposet, family_rep)) (cm_families cm) in
  let* lines :=
    mapM (fun faction_rep =>
            let* size := dlook Nat.eqb (cm_sizes cm) faction_rep in
            let cardinality := size * List.length (cm_families cm) in
            let* weight := dlook Nat.eqb (cm_weights cm) faction_rep in
            let* keyneg_exposet := dlook Nat.eqb (x_faction_keyneg x) faction_rep in
            let* table := keyneg_table keyneg_exposet in
            let* cells :=
              mapM (fun family_rep =>
                      let* splinter := dlook npair_eqb (cm_splinters cm) (faction_rep, family_rep) in
                      mapM (fun iz : nat * nat =>
                              print_cell f cm faction_rep (snd iz) (Nat.eqb (fst iz) (List.length splinter - 1)))
                           (enumerate splinter)) (cm_families cm) in
            Ok (mkLine weight cardinality faction_rep table (List.concat cells))) (cm_factions cm) in
  Ok (mkClan header lines).
