(** Model_Helpers: further helper functions of discretehelpers/a and boolf/a.  No proofs in this
    file. *)

From Coq Require Import List Arith ZArith Bool Lia.
From Verif Require Import Model_Base Model_Binary Model_Perm Model_SetPart Model_SigPerm Model_Boolf Model_BoolfMore.
Import ListNotations.
Open Scope nat_scope.

(** * Hasse matrix *)

(* an entry of a matrix, kept as the list of its rows *)
Definition entry (m : list (list nat)) (i j : nat) : nat := nth j (nth i m []) 0.
Definition matrix_sum (m : list (list nat)) : nat := list_sum_nat (map list_sum_nat m).
Definition matrix_map (f : nat -> nat) (m : list (list nat)) : list (list nat) := map (map f) m.

(* a/create_hasse_matrix/__init__.py:9-17 *)
Definition hasse_start {A} (list_of_nodes : list A) (is_under : A -> A -> bool) : list (list nat) :=
  map (fun ia : nat * A =>
         map (fun jb : nat * A =>
                if Nat.eqb (fst ia) (fst jb) then 0 else if is_under (snd ia) (snd jb) then 1 else 0)
             (enumerate list_of_nodes))
      (enumerate list_of_nodes).

(* a/create_hasse_matrix/__init__.py:25-32; an entry of new_matrix is written from itself and
   from old_matrix, so that the two outer loops are maps *)
Definition hasse_pass (n : nat) (old_matrix new_matrix : list (list nat)) : list (list nat) :=
  map (fun i =>
         map (fun j =>
                if Nat.eqb (entry new_matrix i j) 1 then
                  fold_left (fun e k => if Nat.eqb (entry old_matrix i k) 1 && Nat.eqb (entry old_matrix k j) 1 then 2 else e)
                            (range n) (entry new_matrix i j)
                else entry new_matrix i j)
             (range n))
      (range n).

(* a/create_hasse_matrix/__init__.py:24-37 *)
Fixpoint hasse_loop (fuel n : nat) (old_matrix new_matrix : list (list nat)) (last_sum : nat) : res (list (list nat)) :=
  match fuel with
  | 0 => Err OutOfFuel
  | S fuel' =>
      let new_matrix := hasse_pass n old_matrix new_matrix in
      let current_sum := matrix_sum (matrix_map (fun x => x mod 2) new_matrix) in
      if Nat.eqb current_sum last_sum then Ok new_matrix
      else hasse_loop fuel' n old_matrix new_matrix current_sum
  end.

(* a/create_hasse_matrix/__init__.py:4-39; without nodes sum(new_matrix) in line 23 is the number 0,
   whose sum raises TypeError *)
Definition create_hasse_matrix {A} (list_of_nodes : list A) (is_under : A -> A -> bool) (with_indirect_edges : bool)
  : res (list (list nat)) :=
  let n := length list_of_nodes in
  guard negb (Nat.eqb n 0) else TypeErr ;;
  let old_matrix := hasse_start list_of_nodes is_under in
  let* new_matrix := hasse_loop (S (S (n * n))) n old_matrix old_matrix (matrix_sum old_matrix) in
  Ok (if with_indirect_edges then new_matrix else matrix_map (fun x => x mod 2) new_matrix).

(** * Nested containers *)

(* an object is a list, a dictionary, or something else; the keys of dictionaries are naturals
   here *)
Inductive item := Other | Lst (l : list item) | Dct (l : list (nat * item)).

(* a/key_tuples/__init__.py:6-35.  The try block catches the two exceptions that the nested call
   raises for [val] itself. *)
Fixpoint key_tuples (container : item) (recursive : bool) {struct container} : res (list (list nat)) :=
  let step key nested :=
    match nested with
    | Ok nested_tuples => Ok (map (fun nested_tuple => key :: nested_tuple) nested_tuples)
    | Err ItemNotContainerFail | Err ItemEmptyContainerFail => Ok [[key]]
    | Err e => Err e
    end in
  match container with
  | Other => Err (if recursive then ItemNotContainerFail else ArgNotContainerError)
  | Lst [] | Dct [] => if recursive then Err ItemEmptyContainerFail else Ok []
  | Lst l =>
      (fix go (key : nat) (l : list item) : res (list (list nat)) :=
         match l with
         | [] => Ok []
         | val :: l' =>
             let* tuples := step key (key_tuples val true) in
             let* rest := go (S key) l' in
             Ok (tuples ++ rest)
         end) 0 l
  | Dct l =>
      (fix go (l : list (nat * item)) : res (list (list nat)) :=
         match l with
         | [] => Ok []
         | (key, val) :: l' =>
             let* tuples := step key (key_tuples val true) in
             let* rest := go l' in
             Ok (tuples ++ rest)
         end) l
  end.

(* a/flatten/__init__.py:1-11; a list (or tuple) of elements that are values or lists *)
Inductive nested (A : Type) := Val (a : A) | Seq (l : list (nested A)).
Arguments Val {A} a.
Arguments Seq {A} l.
Fixpoint flatten_element {A} (element : nested A) : list A :=
  match element with
  | Val a => [a]
  | Seq l =>
      (fix flatten (container : list (nested A)) : list A :=
         match container with [] => [] | element :: l' => flatten_element element ++ flatten l' end) l
  end.
Definition flatten {A} (container : list (nested A)) : list A := flat_map flatten_element container.

(** * Lists, sets and dictionaries *)

(* Python range(start, stop, step) *)
Definition py_range (start stop step : Z) : res (list Z) :=
  if Z.eqb step 0 then Err ValueErr
  else
    let count :=
      if (0 <? step)%Z then ((stop - start + step - 1) / step)%Z else ((start - stop - step - 1) / - step)%Z in
    Ok (map (fun i => (start + Z.of_nat i * step)%Z) (range (Z.to_nat count))).

(* a/slice_to_range/__init__.py:6-14 *)
Definition slice_to_range (s_start s_stop s_step : option Z) (stop : option Z) : res (list Z) :=
  let start := match s_start with Some x => x | None => 0%Z end in
  let stop := match s_stop with Some x => Some x | None => stop end in
  let step := match s_step with Some x => x | None => 1%Z end in
  match stop with None => Err StopMissingError | Some stop => py_range start stop step end.

(* perm/__init__.py:94-95: __getitem__ with a slice; a negative index gives None *)
Definition pslice (p : perm) (s_start s_stop s_step : option Z) : res (list (option nat)) :=
  let* l := slice_to_range s_start s_stop s_step (Some (Z.of_nat (plength p))) in
  Ok (map (fun i => if (i <? 0)%Z then None else Some (pget p (Z.to_nat i))) l).

(* a/is_multisubset/__init__.py:1-11; the counts are naturals *)
Definition is_multisubset (a b : dict) : bool :=
  forallb (fun p : nat * nat =>
             if Nat.ltb 0 (snd p) then match dget b (fst p) with Some count_b => negb (Nat.ltb count_b (snd p)) | None => false end
             else true) a.

(* a/is_multisubset/__init__.py:14-22 *)
Definition multiset_to_distri (multiset : dict) (values : list nat) : res (list nat) :=
  if forallb (fun k => memb k values) (dkeys multiset) then
    Ok (map (fun value => match dget multiset value with Some c => c | None => 0 end) values)
  else Err AssertErr.

(* a/multigrade_bitwise/__init__.py:6-30: an integer, or the list itself; the operator as in
   lines 10-17 *)
Inductive bit_op := OpAnd | OpOr | OpXor.
Definition apply_bit_op (op : bit_op) : nat -> nat -> nat :=
  match op with OpAnd => Nat.land | OpOr => Nat.lor | OpXor => Nat.lxor end.
Definition multigrade_bitwise (integers : list nat) (operator : bit_op) : nat + list nat :=
  match integers with
  | [] | [_] => inr integers
  | current :: rest => inl (fold_left (apply_bit_op operator) rest current)
  end.

(* a/inverse_cartesian_product/__init__.py:4-15; sorted(product(...)) and sorted(pairs) are
   sorted lists of pairs *)
Fixpoint pairs_eqb (a b : list (nat * nat)) : bool :=
  match a, b with
  | [], [] => true
  | (x, y) :: a', (u, v) :: b' => Nat.eqb x u && Nat.eqb y v && pairs_eqb a' b'
  | _, _ => false
  end.
Definition inverse_cartesian_product (pairs : list (nat * nat)) : res (list nat * list nat) :=
  let left_set := nodupb (map fst pairs) in
  let right_set := nodupb (map snd pairs) in
  if pairs_eqb (isort pair_leb (list_prod left_set right_set)) (isort pair_leb pairs) then
    Ok (sort_nat left_set, sort_nat right_set)
  else Err AssertErr.

(* a/make_transposition/__init__.py:5-15 *)
Definition make_transposition (a b : Z) (length : nat) : res (list Z) :=
  guard negb (Z.eqb a b) else ArgValueError ;;
  guard (a <? Z.of_nat length)%Z && (b <? Z.of_nat length)%Z else ArgValueError ;;
  let sequence := map Z.of_nat (range length) in
  let* sequence := zset sequence a b in
  zset sequence b a.

(* a/repeat_sequence/__init__.py:4-20 (target_length % 0 raises ZeroDivisionError) *)
Definition repeat_sequence {A} (short_sequence : list A) (target_length : nat) : res (list A) :=
  let short_length := length short_sequence in
  if Nat.eqb short_length 0 then Err ZeroDivErr
  else if Nat.eqb (target_length mod short_length) 0 then
    Ok (concat (repeat short_sequence (target_length / short_length)))
  else Err AssertErr.

(* a/swap_matrix_rows/__init__.py:5-19 (row numbers are naturals; a matrix is the list of its
   rows) *)
Definition swap_matrix_rows {A} (matrix : list (list A)) (a b : nat) : res (list (list A)) :=
  let height := length matrix in
  guard Nat.ltb a height && Nat.ltb b height else ArgMismatchError ;;
  let* row_b := lget matrix b in
  let* row_a := lget matrix a in
  Ok (lset (lset matrix a row_b) b row_a).

(* a/sequence_element_counts/__init__.py:4-13 = boolf/a/sequence_to_entry_counts/__init__.py:4-13 *)
Definition sequence_to_entry_counts (sequence : list nat) : list nat :=
  snd (fold_left (fun (st : dict * list nat) element =>
                    let count := match dget (fst st) element with Some c => c | None => 0 end in
                    (dset (fst st) element (count + 1), snd st ++ [count]))
                 sequence ([], [])).

(* a/subdict/__init__.py:4-20; [order] is the iteration order of the set of kept keys *)
Definition subdict (order : list nat -> list nat) (original : dict) (drop : option (list nat)) (fresh : option dict) : res dict :=
  let kept_keys := nodupb (dkeys original) in
  let kept_keys := match drop with Some d => filter (fun k => negb (memb k d)) kept_keys | None => kept_keys end in
  let kept_keys := match fresh with Some d => filter (fun k => negb (memb k (dkeys d))) kept_keys | None => kept_keys end in
  let* result :=
    foldM (fun result key => let* v := dlookup original key in Ok (dset result key v)) (order kept_keys) [] in
  match fresh with
  | None => Err AttributeErr
  | Some d => Ok (fold_left (fun result (kv : nat * nat) => dset result (fst kv) (snd kv)) d result)
  end.

(* itertools.combinations(l, r): in the order of positions *)
Fixpoint combinations {A} (l : list A) (r : nat) : list (list A) :=
  match r, l with
  | 0, _ => [[]]
  | S _, [] => []
  | S r', x :: l' => map (cons x) (combinations l' r') ++ combinations l' r
  end.
(* a/powerset/__init__.py:4-7 *)
Definition powerset {A} (l : list A) : list (list A) :=
  flat_map (combinations l) (range (length l + 1)).

(** * Literals and linear functions *)

(* a/logic_abs_increase/__init__.py:6-19 without strings *)
Definition logic_abs_increase (a b : Z) : res Z :=
  let result_abs := (Z.of_nat (logic_abs a) + b)%Z in
  guard (0 <=? result_abs)%Z else ArgValueError ;;
  Ok (if (a <? 0)%Z then tilde result_abs else result_abs).

(* a/logic_abs_increase/__init__.py:22-35 without strings *)
Definition logic_abs_increase_vector (a b : list Z) : res (list Z) :=
  guard Nat.eqb (length a) (length b) else ArgValueError ;;
  mapM (fun ab : Z * Z => logic_abs_increase (fst ab) (snd ab)) (combine a b).

(* boolf/a/spread_sigperm_to_sigvar/__init__.py:6-13 *)
Definition spread_sigperm_to_sigvar (sigperm spread : list Z) : res (list Z) :=
  guard Nat.eqb (length sigperm) (length spread) else ArgValueError ;;
  let perm := logic_abs_vector sigperm in
  mapM (fun i =>
          let* s := lget sigperm i in
          let* p := lget perm i in
          let* d := lget spread p in
          logic_abs_increase s d)
       (range (length sigperm)).

(* a/make_linear_boolf/__init__.py:4-30 (walsh and quadrant are naturals) *)
Definition make_linear_boolf (walsh : option nat) (parity : option bool) (leader : option Z) (quadrant : option nat) : res boolf :=
  let* wi_odd :=
    match walsh with
    | Some w =>
        let is_odd := match parity with Some p => p | None => false end in
        guard negb (have leader) && negb (have quadrant) else ArgComboError ;;
        Ok (w, is_odd)
    | None =>
        match leader, quadrant with
        | Some l, Some q =>
            guard Nat.ltb q 4 else ArgValueError ;;
            guard negb (have parity) else ArgComboError ;;
            let* w := if Nat.eqb q 0 || Nat.eqb q 3 then index_to_evil l else index_to_odious l in
            Ok (w, Nat.eqb q 1 || Nat.eqb q 3)
        | _, _ => Err ArgComboError
        end
    end in
  let* v := Binv_intval (fst wi_odd) None in
  let exposet := map (fun i => MuInt (Z.of_nat i)) (binv_exposet v) in
  let* f := Boolf 1 (mkArgs None None None None None None None (Some exposet) None None None false) in
  if snd wi_odd then boolf_not f else Ok f.

(** * Layers and sequences *)

(* Python a < b for two lists *)
Fixpoint lex_ltb {A} (eqb ltb : A -> A -> bool) (a b : list A) : bool :=
  match a, b with
  | [], _ :: _ => true
  | _, [] => false
  | x :: a', y :: b' => if eqb x y then lex_ltb eqb ltb a' b' else ltb x y
  end.
Fixpoint lists_eqb {A} (eqb : A -> A -> bool) (a b : list A) : bool :=
  match a, b with
  | [], [] => true
  | x :: a', y :: b' => eqb x y && lists_eqb eqb a' b'
  | _, _ => false
  end.
Definition layers := list (list Z).
Definition layers_eqb : layers -> layers -> bool := lists_eqb (lists_eqb Z.eqb).
Definition layers_ltb : layers -> layers -> bool := lex_ltb (lists_eqb Z.eqb) (lex_ltb Z.eqb Z.ltb).
Definition zsum (l : list Z) : Z := fold_right Z.add 0%Z l.

(* boolf/a/layered_is_greater/__init__.py:4-21; sort_together sorts the triples (a_sum, a_sums, a)
   and (b_sum, b_sums, b) *)
Definition layered_is_greater (a b : layers) : bool :=
  if layers_eqb a b then false
  else
    let a_sums := map zsum a in
    let b_sums := map zsum b in
    let a_sum := zsum a_sums in
    let b_sum := zsum b_sums in
    let swap :=
      if Z.eqb b_sum a_sum then
        if lists_eqb Z.eqb b_sums a_sums then layers_ltb b a else lex_ltb Z.eqb Z.ltb b_sums a_sums
      else Z.ltb b_sum a_sum in
    layers_eqb (if swap then a else b) a.

(* boolf/a/int_to_rcv/__init__.py:10-19 *)
Fixpoint rcv_loop (fuel : nat) (old rcv : list nat) : res (list nat) :=
  match fuel with
  | 0 => Err OutOfFuel
  | S fuel' =>
      let* new := foldM (fun new e => let* v := Binv_intval e None in Ok (new ++ binv_exposet v)) old [] in
      let rcv := rcv ++ [length old] in
      if Nat.eqb (length old) 0 then Ok rcv else rcv_loop fuel' new rcv
  end.
(* boolf/a/int_to_rcv/__init__.py:8-29 *)
Definition int_to_rcv (n : nat) (len : option nat) : res (list nat) :=
  let* rcv := rcv_loop (n + 2) [n] [] in
  let result := removelast (tl rcv) in
  match len with
  | None => Ok result
  | Some len =>
      let nonzero_length := length result in
      guard Nat.leb nonzero_length len else SpecifiedLengthTooShortError ;;
      Ok (result ++ repeat 0 (len - nonzero_length))
  end.

(* boolf/a/atom_indices_to_sequence/__init__.py:4-25 *)
Definition atom_indices_to_sequence (exposet : list nat) (target_length : option nat) : res (list nat) :=
  guard Nat.eqb (length (nodupb exposet)) (length exposet) else AssertErr ;;
  match exposet with
  | [] => Err ValueErr
  | _ =>
      let arity := list_max_nat exposet + 1 in
      let len := 2 ^ arity in
      let* result :=
        foldM (fun result (ia : nat * nat) =>
                 let boolf := set_unary (Z.of_nat (snd ia)) in
                 let place_value := 2 ^ fst ia in
                 foldM (fun result j =>
                          let* b := boolf_get boolf j in
                          if b then let* x := lget result j in Ok (lset result j (x + place_value)) else Ok result)
                       (range len) result)
              (enumerate exposet) (repeat 0 len) in
      match target_length with None => Ok result | Some t => repeat_sequence result t end
  end.

(* itertools.product(l, repeat=n) *)
Fixpoint product_repeat {A} (l : list A) (n : nat) : list (list A) :=
  match n with 0 => [[]] | S n' => flat_map (fun x => map (cons x) (product_repeat l n')) l end.
Definition zdot (u v : list Z) : Z := zsum (map (fun p : Z * Z => (fst p * snd p)%Z) (combine u v)).
(* a/balanced_ternary_walsh_matrix/__init__.py:5-21: both matrices *)
Definition balanced_ternary_walsh_matrix (n : nat) : list (list Z) * list (list Z) :=
  let vectors_matrix := map (@rev Z) (product_repeat [-1; 0; 1]%Z n) in
  let result_matrix_natural := map (fun u => map (zdot u) vectors_matrix) vectors_matrix in
  let result_matrix := map (map (fun x => let r := (x mod 3)%Z in if Z.eqb r 2 then (-1)%Z else r)) result_matrix_natural in
  (result_matrix, vectors_matrix).

(* boolf/a/_mod_tt/mod_tt_neg/__init__.py:4-16; Binv has no attribute "index" *)
Inductive signet_arg := SignetInt (n : nat) | SignetList (l : list bool) | SignetBinv (v : list bool).
Definition mod_tt_neg (tt : list bool) (signet : signet_arg) : res (list bool) :=
  match signet with
  | SignetInt signet_index =>
      let perm := map (fun i => Nat.lxor i signet_index) (range (length tt)) in
      mapM (lget tt) perm
  | SignetList _ | SignetBinv _ => Err AttributeErr
  end.

(** * Sorting matrices *)

Definition zmatrix := list (list Z).
Definition zrows_leb (a b : list (list Z)) : bool := negb (lex_ltb (lists_eqb Z.eqb) (lex_ltb Z.eqb Z.ltb) b a).

(* a/sort_rows_together/__init__.py:7-25; a tuple of matrices without rows gives the empty tuple *)
Definition sort_rows_together (args : list zmatrix) : res (list zmatrix) :=
  match args with
  | [] => Err IndexErr
  | first :: _ =>
      let height := length first in
      guard forallb (fun arg : zmatrix => Nat.eqb (length arg) height) args else ArgMismatchError ;;
      let zipped := map (fun i => map (fun arg : zmatrix => nth i arg []) args) (range height) in
      let sorted_zipped := isort zrows_leb zipped in
      Ok (match sorted_zipped with
          | [] => []
          | _ => map (fun k => map (fun t => nth k t []) sorted_zipped) (range (length args))
          end)
  end.

(* numpy: arg.T for a matrix with w columns *)
Definition ztranspose (w : nat) (m : zmatrix) : zmatrix := map (fun j => map (fun row => nth j row 0%Z) m) (range w).
(* numpy: fliplr *)
Definition fliplr (m : zmatrix) : zmatrix := map (@rev Z) m.

(* a/sort_cols_together/__init__.py:7-28 for matrices with at least one row (the width of a matrix
   is the length of its first row) *)
Definition zwidth (m : zmatrix) : nat := length (nth 0 m []).
Definition sort_cols_together (args : list zmatrix) (small_on_top : bool) : res (list zmatrix) :=
  match args with
  | [] => Err IndexErr
  | first :: _ =>
      let width := zwidth first in
      guard forallb (fun arg : zmatrix => Nat.eqb (zwidth arg) width) args else ArgMismatchError ;;
      let turned_matrices :=
        map (fun arg : zmatrix => let t := ztranspose width arg in if small_on_top then fliplr t else t) args in
      let* sorted_turned_matrices := sort_rows_together turned_matrices in
      Ok (map (fun matrix => ztranspose (zwidth matrix) (if small_on_top then fliplr matrix else matrix)) sorted_turned_matrices)
  end.

(* boolf/a/sort_each_layer/__init__.py:1-5 *)
Definition sort_each_layer (layered : layers) : layers := map (isort Z.leb) layered.

(** * Colours and cycles *)

(* boolf/a/apply_sigperm_to_colors/__init__.py:5-24 for a SigPerm; the dictionary of colours to
   spots as a list of pairs *)
Fixpoint color_add (d : list (nat * list nat)) (color key : nat) : list (nat * list nat) :=
  match d with
  | [] => [(color, [key])]
  | (c, l) :: d' => if Nat.eqb c color then (c, l ++ [key]) :: d' else (c, l) :: color_add d' color key
  end.
Definition apply_sigperm_to_colors (color_to_fullspots : list (nat * list nat)) (arity : nat) (s : sigperm)
  : res (list (nat * list nat)) :=
  let vector := repeat (@None nat) (2 ^ arity) in
  let* vector :=
    foldM (fun vector (cf : nat * list nat) =>
             foldM (fun vector fullspot => zset vector (Z.of_nat fullspot) (Some (fst cf))) (snd cf) vector)
          color_to_fullspots vector in
  let* p := sg_schoute s in
  let* result_vector := papply p vector in
  Ok (fold_left (fun d (kv : nat * option nat) =>
                   match snd kv with Some val => color_add d val (fst kv) | None => d end)
                (enumerate result_vector) []).

(* perm/metributes/cycle_partition/__init__.py:4-12 *)
Definition cycle_partition (p : perm) : res setpart :=
  if neutral p then SetPart (Some []) DomN
  else let* c := pcycles p in SetPart (Some (map (map Z.of_nat) c)) DomN.
