(** Model_Misc: fractions of Boolean functions, layered Walsh spectra, diagonals, Sierpinski
    matrices, representatives by layered weight (swans) and permuted truth tables.
    A [Fraction] of Python is always reduced; it is a reduced rational number here. *)

From Coq Require Import List Arith ZArith QArith Bool.
From Verif Require Import Model_Base Model_Binary Model_WalshPerm Model_Splits Model_Perm Model_Boolf Model_Twin Model_BoolfMore Model_MinRep Model_Helpers Model_Layers.
Import ListNotations.
Open Scope nat_scope.

(* Fraction(num, den), where den is not 0 *)
Definition Fraction (num den : nat) : res Q :=
  match den with
  | 0 => Err ZeroDivErr
  | S _ => Ok (Qred (Z.of_nat num # Pos.of_nat den))
  end.

(* boolf/metributes/weight_fract/__init__.py:7-11 *)
Definition weight_fract (f : boolf) : res Q := Fraction (binv_weight (root f)) (length (root f)).

(* int(string, 2): the first digit has the greatest place value *)
Definition int_big_endian (digits : list bool) : nat := fold_left (fun n b => 2 * n + Nat.b2n b) digits 0.
(* boolf/methods/value_fract/__init__.py:4-8 (the string of the table has the digits 0 and 1) *)
Definition value_fract (f : boolf) : res Q :=
  let* tt := boolf_tt f TtDefault in
  Fraction (int_big_endian tt) (2 ^ (2 ^ adicity f) - 1).

(* boolf/metributes/spread_vector/__init__.py:4-7 (atoms are ascending, so no entry is negative) *)
Definition spread_vector (f : boolf) : list nat := map (fun i => nth i (atomvals f) 0 - i) (range (valency f)).

(* boolf/methods/inflated_fullspots/__init__.py:6-10 (atomvals is a collection) *)
Definition inflated_fullspots (f : boolf) (atomvals : list nat) : res (list nat) :=
  let* tt := boolf_tt f (TtAtoms atomvals) in Ok (binv_exposet tt).

(* boolf/methods/walsh_spectrum/__init__.py:11-13, 19-26 *)
Definition walsh_spectrum_abs (f : boolf) (arg : tt_arg) : res (list Z) :=
  let* ws := walsh_spectrum f arg in Ok (map Z.abs ws).
Definition walsh_spectrum_layered (f : boolf) (arg : tt_arg) : res (list (list Z)) :=
  let* ws := walsh_spectrum f arg in flat_to_layered ws.
Definition walsh_spectrum_abs_layered (f : boolf) (arg : tt_arg) : res (list (list Z)) :=
  let* ws := walsh_spectrum_abs f arg in flat_to_layered ws.

(* boolf/methods/diagonal_adjacency_matrix/__init__.py:8-25; combinations(range(2 ** valency), 2)
   in the order of itertools *)
Definition matrix_put (m : list (list Z)) (i j : nat) (z : Z) : res (list (list Z)) :=
  let* row := lget m i in
  let* row := list_assign row j z in
  list_assign m i row.
Definition combinations_of_range (n : nat) : list (nat * nat) :=
  flat_map (fun a => map (fun b => (a, b)) (range2 (a + 1) n)) (range n).
Definition diagonal_adjacency_matrix (f : boolf) (minus_places : list bool) : res (list (list Z)) :=
  let vertices := sort_nat (fullspots f) in
  let size := length vertices in
  foldM (fun matrix (ab : nat * nat) =>
           let* ta := lget (root f) (fst ab) in
           let* t := (if ta then lget (root f) (snd ab) else Ok false) in
           if t : bool then
             let* d := Binv_intval (Nat.lxor (fst ab) (snd ab)) None in
             let i := binv_weight d - 1 in
             let* a_index := index_of (fst ab) vertices in
             let* b_index := index_of (snd ab) vertices in
             let* minus := lget minus_places i in
             let entry := if minus : bool then (-1)%Z else 1%Z in
             let* matrix := matrix_put matrix a_index b_index entry in
             matrix_put matrix b_index a_index entry
           else Ok matrix)
        (combinations_of_range (2 ^ valency f)) (repeat (repeat 0%Z size) size).

(* a/sierpinski/__init__.py:10-49; the orientation is one of four strings *)
Inductive orientation := TL | TR | BL | BR.
Definition sierpinski (o : orientation) (degree size : option nat) : res (list (list bool)) :=
  let* ds :=
    match degree, size with
    | Some d, None => guard Nat.ltb 0 d else ArgValueError ;; Ok (d, 2 ^ d)             (* 23-25 *)
    | None, Some s => guard Nat.leb 2 s else ArgTooSmallError ;; let* d := log_int s in Ok (d, s)
    | _, _ => Err ArgComboError                                                          (* 18-21 *)
    end in
  let degree := fst ds in
  let size := snd ds in
  let max_index := size - 1 in
  foldM (fun result i =>
           let* row_gen := atoms_to_and_gen (int_to_exposet i) degree in
           match o with
           | TR => list_assign result i row_gen
           | TL => list_assign result i (rev row_gen)
           | BR => list_assign result (max_index - i) row_gen
           | BL => list_assign result (max_index - i) (rev row_gen)
           end)
        (range size) (repeat (repeat false size) size).

(* lexicographic comparison of lists, as Python's < and == *)
Fixpoint lex_compare {A} (cmp : A -> A -> comparison) (l m : list A) : comparison :=
  match l, m with
  | [], [] => Eq
  | [], _ => Lt
  | _, [] => Gt
  | a :: l', b :: m' => match cmp a b with Eq => lex_compare cmp l' m' | c => c end
  end.
Definition leb_of {A} (cmp : A -> A -> comparison) (a b : A) : bool := match cmp a b with Gt => false | _ => true end.

(* a/sorted_colex/__init__.py:1-4 *)
Definition sorted_colex {A} (cmp : A -> A -> comparison) (unordered : list (list A)) : list (list A) :=
  map (@rev A) (isort (leb_of (lex_compare cmp)) (map (@rev A) unordered)).

(* binv/a/to_pretty_string/__init__.py:6-23; the string is a list of characters *)
Inductive pretty_char := Space | Digit (b : bool).
Definition to_pretty_string (vector : list bool) : res (list pretty_char) :=
  let len := length vector in
  guard memb len (map (fun i => 2 ^ i) (range 7)) else ValueErr ;;     (* 12: PrettyLengthError *)
  Ok (flat_map (fun id : nat * bool =>
        Digit (snd id) ::
        (if negb (Nat.eqb (fst id + 1) len) && Nat.eqb ((fst id + 1) mod 4) 0
         then if Nat.eqb ((fst id + 1) mod 16) 0 then [Space; Space] else [Space]
         else []))
      (enumerate vector)).
(* the vector of Binv(string): binv/__init__.py removes the spaces *)
Definition digits_of (s : list pretty_char) : list bool :=
  flat_map (fun c => match c with Space => [] | Digit b => [b] end) s.
(* order of the characters ' ', '0', '1' *)
Definition char_code (c : pretty_char) : nat := match c with Space => 32 | Digit false => 48 | Digit true => 49 end.
Definition char_compare (a b : pretty_char) : comparison := Nat.compare (char_code a) (char_code b).

(* boolf/a/boolfs_to_swan/__init__.py:1-38 (without printing).  A row is compared by its entries
   from left to right; the further entries of the falsophobe rows follow from the first two. *)
Definition swan_row := (list nat * list (list nat) * list pretty_char)%type.
Definition swan_compare (r s : swan_row) : comparison :=
  match lex_compare Nat.compare (fst (fst r)) (fst (fst s)) with
  | Eq => match lex_compare (lex_compare Nat.compare) (snd (fst r)) (snd (fst s)) with
          | Eq => lex_compare char_compare (snd r) (snd s)
          | c => c
          end
  | c => c
  end.
Definition swan_entry (verophile : bool) (f : boolf) : res swan_row :=
  let* lw := layered_weight f in
  let* lt := layered_tt f in
  let* tt := boolf_tt f TtDefault in
  let* s := to_pretty_string tt in
  if verophile then Ok (lw, lt, s) else Ok (rev lw, map (@rev nat) (rev lt), s).
Definition boolfs_to_swan (boolfs : list boolf) (verophile : bool) : res boolf :=
  let* rows := mapM (swan_entry verophile) boolfs in
  let sorted := isort (leb_of swan_compare) rows in
  guard negb (Nat.eqb (length sorted) 0) else IndexErr ;;
  let* row := lget sorted (if verophile then length sorted - 1 else 0) in
  Boolf_root (digits_of (snd row)).

(* boolf/a/_mod_tt/mod_tt_perm/__init__.py:5-13, with apply_on_vector of perm/__init__.py:174-177 *)
Definition mod_tt_perm (linalg_inv : zmat -> res (option zmat)) (tt : list bool) (perm : list nat) : res (list bool) :=
  let* w := WalshPerm (Some (map (fun i => 2 ^ i) perm)) None None false in
  let* wp := walsh_inverse linalg_inv w in
  let* inv := walsh_inverse linalg_inv wp in
  mapM (fun i => let* k := walsh_get inv i in lget tt k) (range (length tt)).
