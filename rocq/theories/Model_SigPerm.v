(** Model_SigPerm: literals (discretehelpers/a/logic_abs, a/logic_negate), Schoute permutations
    (discretehelpers/perm/metributes/schoute_perm) and the class [SigPerm]
    (discretehelpers/sig_perm).  No proofs in this file.

    A literal is an integer: [k] is the atom k, [~k = -k-1] its negation.  A numpy matrix
    is the list of its rows; an empty matrix is the empty list. *)

From Coq Require Import List Arith ZArith Bool Lia.
From Verif Require Import Model_Base Model_Perm Model_Binary.
Import ListNotations.
Open Scope Z_scope.

(* Python's ~n *)
Definition tilde (n : Z) : Z := - n - 1.

(* a/logic_abs/__init__.py:1-5, 8-9 *)
Definition logic_abs (n : Z) : nat := Z.to_nat (if Z.ltb n 0 then tilde n else n).
Definition logic_abs_vector (vector : list Z) : list nat := map logic_abs vector.

(* a/logic_negate/__init__.py:6-10 (without strings) *)
Definition logic_negate (value : Z) (do_it : bool) : Z := if do_it then tilde value else value.

(* a/logic_negate/__init__.py:17-34, case 'where' (without strings) *)
Definition logic_negate_where (values : list Z) (wher : list bool) : res (list Z) :=
  guard Nat.eqb (length values) (length wher) else ArgMismatchError ;;
  Ok (map (fun vw => if snd vw : bool then tilde (fst vw) else fst vw) (combine values wher)).

(* a/logic_negate/__init__.py:43-49, case 'which' (without strings; [which] holds naturals) *)
Definition logic_negate_which (values : list Z) (which : list nat) : res (list Z) :=
  let abs_values := logic_abs_vector values in
  guard forallb (fun w => memb w abs_values) which else ArgMismatchError ;;
  Ok (map (fun v => if memb (logic_abs v) which then tilde v else v) values).

(* sig_perm/a/matrix_to_sequence/__init__.py:6-23 (inverse=False); matrices are numpy
   arrays (an empty Python list would raise ValueError, a 0x0 array does not); the shape is
   square iff all rows are as long as the list of rows *)
Definition mat_entry (mat : list (list Z)) (m n : nat) : Z := nth n (nth m mat []) 0.
Definition matrix_to_sequence (mat : list (list Z)) : res (list Z) :=
  let size := length mat in
  guard forallb (fun row => Nat.eqb (length row) size) mat else ValueErr ;;
  Ok (flat_map (fun n =>
        flat_map (fun m =>
          if Z.eqb (mat_entry mat m n) 1 then [Z.of_nat m]
          else if Z.eqb (mat_entry mat m n) (-1) then [tilde (Z.of_nat m)]
          else []) (range size)) (range size)).

Definition transpose_matrix (size : nat) (mat : list (list Z)) : list (list Z) :=
  map (fun m => map (fun n => mat_entry mat n m) (range size)) (range size).

(* sig_perm/a/sequence_to_matrix/__init__.py:6-19: the entry is set for each column in
   turn; an index outside the matrix raises IndexError *)
Definition mat_set (mat : list (list Z)) (m n : nat) (x : Z) : res (list (list Z)) :=
  let* row := lget mat m in Ok (lset mat m (lset row n x)).
Definition sequence_to_matrix (sequence : list Z) (inverse : bool) : res (list (list Z)) :=
  let size := length sequence in
  let* mat := foldM (fun mat cs =>
                mat_set mat (logic_abs (snd cs)) (fst cs) (if Z.ltb (snd cs) 0 then -1 else 1))
              (enumerate sequence) (repeat (repeat 0 size) size) in
  Ok (if inverse then transpose_matrix size mat else mat).

(* numpy.dot of square matrices *)
Definition mat_dot (size : nat) (a b : list (list Z)) : list (list Z) :=
  map (fun m => map (fun n => fold_left (fun acc k => acc + mat_entry a m k * mat_entry b k n) (range size) 0)
                    (range size)) (range size).

(* sig_perm/__init__.py:97, 106-112  the attributes *)
Record sigperm := mkSig { sg_perm : perm; sg_binv : list bool; sg_length : nat }.
Definition sg_unsigned (s : sigperm) : bool := Nat.eqb (binv_intval (sg_binv s)) 0.
Definition sg_neutral (s : sigperm) : bool := sg_unsigned s && neutral (sg_perm s).

(* sig_perm/__init__.py:31-45  arguments that describe a negator, a permutation *)
Inductive neg_arg := NegVector (v : list Z) | NegSet (l : list Z) | NegBinv (b : list bool).
Inductive perm_src := SrcArg (a : perm_arg) | SrcPerm (p : perm).

Definition neg_binv (a : neg_arg) : res (list bool) :=
  match a with
  | NegVector v => Binv_vector v
  | NegSet l => Binv None None (Some l) None None
  | NegBinv b => Ok b
  end.
Definition src_perm (a : perm_src) : res perm :=
  match a with SrcArg x => Perm x None | SrcPerm p => Ok p end.
Definition optM {A B} (f : A -> res B) (o : option A) : res (option B) :=
  match o with None => Ok None | Some a => let* b := f a in Ok (Some b) end.

(* sig_perm/__init__.py:97, 106-112; [Binv] of a list of booleans keeps the list *)
Definition sig_finish (raw_binv : list bool) (p : perm) : sigperm :=
  let len := Nat.max (binv_required_length raw_binv) (plength p) in
  mkSig p (raw_binv ++ repeat false (len - length raw_binv)) len.

(* sig_perm/__init__.py:99-108, case 'sequence' *)
Definition sig_of_sequence (sequence : list Z) : res sigperm :=
  let natural_sequence := logic_abs_vector sequence in
  let* p := Perm (ArgSeq natural_sequence) None in
  let negator_exposet := map tilde (filter (fun z => Z.ltb z 0) sequence) in
  let* raw_binv := Binv None None (Some negator_exposet) None None in
  Ok (sig_finish raw_binv p).

(* sig_perm/__init__.py:64-72 *)
Definition keyneg_sequence (keyneg : list bool) (p : perm) : list Z :=
  map (fun key => logic_negate (Z.of_nat (pget p key)) (binv_has_index keyneg key))
      (range (Nat.max (binv_required_length keyneg) (plength p))).

(* sig_perm/__init__.py:16-112  SigPerm.__init__ without the argument schoute_perm (see
   Model_Schoute).  A list of cycles or a sequence for [perm] is a [perm_arg]; a dict
   for [perm] is not modelled. *)
Definition SigPerm (valneg : option neg_arg) (valneg_index : option nat)
    (keyneg : option neg_arg) (keyneg_index : option nat)
    (pm : option perm_src) (perm_index : option nat) (pair : option (nat * nat))
    (sequence : option (list Z)) (matrix : option (list (list Z))) : res sigperm :=
  let* keyneg := optM neg_binv keyneg in                             (* 31-35 *)
  let* valneg' := optM neg_binv valneg in                            (* 37-41 *)
  let* pm' := optM src_perm pm in                                    (* 43-45 *)
  guard (match pair, valneg, valneg_index, keyneg, keyneg_index with  (* 47, have_only *)
         | Some _, None, None, None, None =>
             match pm, perm_index, sequence, matrix with None, None, None, None => true | _, _, _, _ => false end
         | Some _, _, _, _, _ => false
         | None, _, _, _, _ => true
         end) else ArgComboError ;;
  let valneg_index := match pair with Some vp => Some (fst vp) | None => valneg_index end in
  let perm_index := match pair with Some vp => Some (snd vp) | None => perm_index end in
  let* valneg := match valneg_index with                              (* 50-51 *)
                 | Some i => let* b := Binv_intval i None in Ok (Some b)
                 | None => Ok valneg' end in
  let* keyneg := match keyneg_index with                              (* 53-54 *)
                 | Some i => let* b := Binv_intval i None in Ok (Some b)
                 | None => Ok keyneg end in
  let* pm := match perm_index with                                    (* 56-58 *)
             | Some i => let* p := int_to_perm i in Ok (Some p)
             | None => Ok pm' end in
  match valneg, keyneg, pm, sequence, matrix with
  | Some v, _, Some p, _, _ => Ok (sig_finish v p)                    (* 62-63, 88-97 *)
  | None, Some k, Some p, _, _ => sig_of_sequence (keyneg_sequence k p)   (* 64-72 *)
  | _, _, _, Some l, _ => sig_of_sequence l                           (* 73-74 *)
  | _, _, _, None, Some m => let* l := matrix_to_sequence m in sig_of_sequence l   (* 75-77 *)
  | _, _, _, None, None => Err ArgComboError                          (* 83-84 *)
  end.

(* the forms with one or two arguments *)
Definition SigPerm_valneg v p := SigPerm (Some v) None None None (Some p) None None None None.
Definition SigPerm_keyneg k p := SigPerm None None (Some k) None (Some p) None None None None.
Definition SigPerm_pair v p := SigPerm None None None None None None (Some (v, p)) None None.
Definition SigPerm_sequence l := SigPerm None None None None None None None (Some l) None.
Definition SigPerm_matrix m := SigPerm None None None None None None None None (Some m).

(* sig_perm/metributes/sequence_minimal.py:6-14 *)
Definition sg_sequence_minimal (s : sigperm) : res (list Z) :=
  let* l := psequence (sg_perm s) (Some (sg_length s)) in
  logic_negate_which (map Z.of_nat l) (binv_exposet (sg_binv s)).

(* sig_perm/__init__.py:148-153 *)
Definition sg_sequence (s : sigperm) (len : option nat) : res (list Z) :=
  let* len := match len with
              | Some l => guard Nat.leb (sg_length s) l else ValueErr ;; Ok l
              | None => Ok (sg_length s)
              end in
  let* l := sg_sequence_minimal s in
  Ok (l ++ map Z.of_nat (range2 (sg_length s) len)).

(* sig_perm/__init__.py:167-172 *)
Definition sg_matrix (s : sigperm) (size : option nat) : res (list (list Z)) :=
  let* size := match size with
               | Some l => guard Nat.leb (sg_length s) l else ValueErr ;; Ok l
               | None => Ok (sg_length s)
               end in
  let* l := sg_sequence s (Some size) in
  sequence_to_matrix l false.

(* sig_perm/__init__.py:114-115  __getitem__ with a natural argument *)
Definition sg_get (s : sigperm) (i : nat) : res Z := let* l := sg_sequence_minimal s in lget l i.

(* sig_perm/__init__.py:117-126  __eq__ with a SigPerm, with a Perm *)
Definition sg_eqb (a b : sigperm) : bool :=
  if sg_neutral a && sg_neutral b then true
  else perm_eqb (sg_perm a) (sg_perm b) && bvec_eqb (sg_binv a) (sg_binv b).
Definition sg_eqb_perm (a : sigperm) (b : perm) : bool :=
  if sg_neutral a && neutral b then true
  else if negb (Nat.eqb (binv_intval (sg_binv a)) 0) then false
  else perm_eqb (sg_perm a) b.

(* sig_perm/__init__.py:137-140 *)
Definition sg_mul (a b : sigperm) : res sigperm :=
  let size := Nat.max (sg_length a) (sg_length b) in
  let* ma := sg_matrix a (Some size) in
  let* mb := sg_matrix b (Some size) in
  SigPerm_matrix (mat_dot size ma mb).

(* sig_perm/metributes/inverse.py:4-12 *)
Definition sg_inv (s : sigperm) : res sigperm :=
  let* m := sg_matrix s None in
  SigPerm_matrix (transpose_matrix (sg_length s) m).

(* sig_perm/metributes/_indices *)
Definition sg_keyneg_index (s : sigperm) : res nat :=
  let* l := sg_sequence s None in
  Ok (fold_left (fun (acc : nat) kv => if Z.ltb (snd kv) 0 then (acc + 2 ^ (fst kv))%nat else acc) (enumerate l) 0%nat).
Definition sg_valneg_index (s : sigperm) : nat := binv_intval (sg_binv s).
Definition sg_perm_index (s : sigperm) : res nat := left_rank (sg_perm s).
Definition sg_pair (s : sigperm) : res (nat * nat) :=
  let* i := sg_perm_index s in Ok (sg_valneg_index s, i).

(* sig_perm/__init__.py:174-184  apply_on_vector (a list of integers) *)
Definition sg_apply (s : sigperm) (vector : list Z) : res (list Z) :=
  let* inv := sg_inv s in
  let* inverse_sequence := sg_sequence inv (Some (length vector)) in
  mapM (fun signed_entry =>
          let* v_raw := lget vector (logic_abs signed_entry) in
          Ok (if Z.ltb signed_entry 0 then tilde v_raw else v_raw)) inverse_sequence.

(* sig_perm/__init__.py:186-190; [True] and [False] are the integers 1 and 0; [bl] is the
   floating point binary_length *)
Definition sg_apply_natural (bl : nat -> nat) (s : sigperm) (n : nat) : res nat :=
  let* old_vector := Binv_with bl None (Some (Z.of_nat n)) None None (Some (sg_length s)) in
  let* r := sg_apply s (map (fun b : bool => if b then 1 else 0) old_vector) in
  let* new := Binv_vector (map (fun z => z mod 2) r) in
  Ok (binv_intval new).

(* perm/metributes/schoute_perm/__init__.py:8-27, from the attributes [length] and
   [inverse.sequence()] of a Perm or SigPerm.  All-zero matrices have no columns to fill if
   the length is zero. *)
Definition schoute_of (minor : nat) (inverse_sequence : list Z) : res perm :=
  let major := (2 ^ minor)%nat in
  let* long_matrix := mapM (fun signed_int => make_atompattern signed_int minor false) inverse_sequence in
  let long_sequence :=
    map (fun colnum => binv_intval (map (fun row => nth colnum row false) long_matrix)) (range major) in
  Perm (ArgSeq long_sequence) (Some major).
Definition perm_schoute (p : perm) : res perm :=
  let* inv := pinv p in
  let* l := psequence inv None in
  schoute_of (plength p) (map Z.of_nat l).
Definition sg_schoute (s : sigperm) : res perm :=
  let* inv := sg_inv s in
  let* l := sg_sequence inv None in
  schoute_of (sg_length s) l.
