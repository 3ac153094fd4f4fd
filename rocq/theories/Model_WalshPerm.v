(** Model_WalshPerm: the class [WalshPerm] (discretehelpers/walsh_perm) and the recognition
    of Walsh functions (a/walsh_function_to_index, a/_linear_to_index_pair).  No proofs in
    this file.

    A numpy matrix is the list of its rows; matrices are rectangular.  Entries of vectors
    are natural numbers (negative ones are rejected by [Binv] in the code).  Logarithms of
    powers of two are exact in the model; the floating point logarithm of the code is not
    integral for 2^29 and some greater powers, so lists of such lengths are rejected. *)

From Coq Require Import List Arith ZArith Bool Lia.
From Verif Require Import Model_Base Model_Perm Model_Binary Model_SigPerm.
Import ListNotations.
Open Scope nat_scope.

Definition zmat := list (list Z).
Definition z_of_bool (b : bool) : Z := if b then 1%Z else 0%Z.

(* matrix[:, i] *)
Definition mat_col (matrix : zmat) (i : nat) : list Z := map (fun row => nth i row 0%Z) matrix.

(* the matrix with the given columns (of length [size]) *)
Definition of_columns (size : nat) (cols : list (list bool)) : zmat :=
  map (fun m => map (fun col => z_of_bool (nth m col false)) cols) (range size).

(* walsh_perm/a/matrix_to_vector/__init__.py:4-16 *)
Definition matrix_to_vector (matrix : zmat) (by_row : bool) : res (list nat) :=
  mapM (fun i => let* b := Binv_vector (if by_row : bool then nth i matrix [] else mat_col matrix i) in
                 Ok (binv_intval b))
       (range (length matrix)).

(* walsh_perm/a/vector_to_matrix/__init__.py:9-20 *)
Definition vector_to_matrix (vector : list nat) : res zmat :=
  guard negb (list_eqb vector [] || list_eqb vector [1]) else IsNeutralFail ;;
  let degree := length vector in
  let* cols := mapM (fun n => Binv_intval n (Some degree)) vector in
  Ok (of_columns degree cols).

(* sum(l) *)
Definition zsum (l : list Z) : Z := fold_left Z.add l 0%Z.

(* walsh_perm/a/shrink_matrix/__init__.py:18-29  the loop *)
Fixpoint shrink_loop (degree : nat) (matrix : zmat) : res (zmat * nat) :=
  match degree with
  | S (S _ as last) =>
      let corner := nth last (nth last matrix []) 0%Z in
      if Z.eqb (zsum (nth last matrix [])) (zsum (mat_col matrix last)) &&
         Z.eqb (zsum (mat_col matrix last)) corner && Z.eqb corner 1
      then shrink_loop last (map (@removelast Z) (removelast matrix))
      else Ok (matrix, degree)
  | _ => Err IsNeutralFail                                             (* 19-20 *)
  end.

(* walsh_perm/a/shrink_matrix/__init__.py:9-29 *)
Definition shrink_matrix (matrix : zmat) : res (zmat * nat) :=
  guard Nat.ltb 1 (length matrix * length (hd [] matrix)) else IsNeutralFail ;;     (* 13 *)
  guard forallb (fun row => Nat.eqb (length row) (length matrix)) matrix else NotSquareError ;;
  shrink_loop (length matrix) matrix.

(* walsh_perm/a/vector_class/__init__.py:8-28  the attributes mapping and length (the
   argument is a list) *)
Definition Vector (arg : list nat) : dict :=
  filter (fun kv => negb (Nat.eqb (2 ^ fst kv) (snd kv))) (enumerate arg).
Definition Vector_length (v : dict) : nat :=
  match v with [] => 0 | _ => list_max_nat (dkeys v) + 1 end.

(* walsh_perm/a/vector_class/__init__.py:30-35, 45-47 *)
Definition Vector_get (v : dict) (arg : nat) : nat :=
  match dget v arg with Some x => x | None => 2 ^ arg end.
Definition extend_to_length (v : dict) (len : nat) : res (list nat) :=
  guard Nat.leb (Vector_length v) len else ExtendedLengthTooSmallError ;;
  Ok (map (Vector_get v) (range len)).

(* walsh_perm/__init__.py:38-46  the attributes; [mapping], [moved] and the others are
   computed from them on demand *)
Record walsh := mkWalsh {
  w_neutral : bool;
  w_degree : nat;
  w_matrix : zmat;        (* matrix_minimal *)
  w_vector : dict;        (* vector_object *)
  w_transpose : dict      (* transpose_vector_object *)
}.

(* walsh_perm/__init__.py:51-55 *)
Definition walsh_neutral : walsh := mkWalsh true 0 [] [] [].

(* walsh_perm/metributes/mapping/__init__.py:14-32 *)
Definition walsh_mapping (w : walsh) : res dict :=
  if w_neutral w then Ok []
  else
    let degree := w_degree w in
    let* rows := mapM (fun m => make_linear_binv (Some (Vector_get (w_transpose w) m)) degree None None None)
                      (range degree) in
    let* sequence := mapM (fun key =>
          let* b := Binv_vector (map (fun row => z_of_bool (nth key row false)) rows) in
          Ok (binv_intval b)) (range (2 ^ degree)) in
    guard list_eqb (sort_nat sequence) (range (2 ^ degree)) else InvalidMatrixError ;;
    Ok (filter (fun kv => negb (Nat.eqb (snd kv) (fst kv))) (enumerate sequence)).

(* walsh_perm/__init__.py:28-35, 37-41  [except IsNeutralFail: self.set_neutral()] *)
Definition or_neutral {A} (m : res A) (k : A -> res walsh) : res walsh :=
  match m with
  | Ok a => k a
  | Err IsNeutralFail => Ok walsh_neutral
  | Err e => Err e
  end.

(* walsh_perm/__init__.py:37-49 *)
Definition walsh_of_matrix (matrix : zmat) (trust : bool) : res walsh :=
  or_neutral (shrink_matrix matrix) (fun md =>
    let* v := matrix_to_vector matrix false in
    let* t := matrix_to_vector matrix true in
    let w := mkWalsh false (snd md) (fst md) (Vector v) (Vector t) in
    if trust then Ok w else let* _ := walsh_mapping w in Ok w).

Definition walsh_of_vector (vector : list nat) (trust : bool) : res walsh :=
  or_neutral (vector_to_matrix vector) (fun matrix => walsh_of_matrix matrix trust).

(* The inherited attributes of Perm: a WalshPerm that is not neutral has the mapping above
   and the period length 2^degree (46).  It has no attribute [length]; the methods of Perm
   that need it raise AttributeError for a WalshPerm and are not applied to [walsh_perm]. *)
Definition walsh_perm (w : walsh) : res perm :=
  if w_neutral w then Ok neutral_perm
  else let* m := walsh_mapping w in Ok (mkPerm false m (Some (2 ^ w_degree w)) (2 ^ w_degree w)).

(* perm/__init__.py:79-93 *)
Definition walsh_get (w : walsh) (arg : nat) : res nat :=
  let* p := walsh_perm w in Ok (pget p arg).

(* a/is_power_of_two/__init__.py:6-14 *)
Definition is_power_of_two (n : nat) : bool := Nat.ltb 0 n && Nat.eqb (2 ^ Nat.log2 n) n.

(* a/walsh_function_to_index/__init__.py:35  e.g. [8, 12, 6, 3] for degree 4 *)
Definition gray_vector (degree : nat) : list nat :=
  2 ^ (degree - 1) :: map (fun i => 2 ^ (degree - i - 1) * 3) (range2 1 degree).

(* a/walsh_function_to_index/__init__.py:8-45.  For the table [1] of length one the vector
   is [0.5], which [Binv] rejects. *)
Definition walsh_function_to_index (vector : list bool) (trust : bool) : res nat :=
  if bvec_eqb vector [false] then Ok 0                               (* 16-17 *)
  else
    guard is_power_of_two (length vector) else ValueErr ;;             (* 22 *)
    let degree := Nat.log2 (length vector) in
    if trust then                                                      (* 25-28 *)
      let* short_vector := mapM (fun k => lget vector (2 ^ k)) (range degree) in
      Ok (binv_intval short_vector)
    else if Nat.eqb degree 0 then Err IntvalError
    else
      let* wp := walsh_of_vector (gray_vector degree) false in         (* 36 *)
      let* row_index := walsh_get wp (binv_changes vector) in          (* 38 *)
      let* row := make_linear_binv (Some row_index) degree None None None in
      guard bvec_eqb vector row else NotWalshRowError ;;               (* 40-43 *)
      Ok row_index.

(* a/_linear_to_index_pair/__init__.py:6-25  (argument a Binv) *)
Definition linear_to_walsh_and_oddness (binv : list bool) (trust : bool) : res (nat * bool) :=
  let* is_odd := lget binv 0 in
  let even_binv := if is_odd : bool then binv_complement binv else binv in
  let* walsh_index := walsh_function_to_index even_binv trust in
  Ok (walsh_index, is_odd).

(* a/_linear_to_index_pair/__init__.py:28-40 *)
Definition linear_to_leader_and_quadrant (binv : list bool) (trust : bool) : res (nat * nat) :=
  let* wo := linear_to_walsh_and_oddness binv trust in
  let walsh_index_is_odious := Nat.odd (int_to_weight (fst wo)) in
  let is_odious := xorb walsh_index_is_odious (snd wo) in
  let* leader_index := if walsh_index_is_odious then odious_to_index (Z.of_nat (fst wo))
                       else evil_to_index (Z.of_nat (fst wo)) in
  Ok (leader_index, Nat.b2n (snd wo) + 2 * Nat.b2n is_odious).

(* the argument [perm]: a Perm object or a list *)
Inductive walsh_src := WPerm (p : perm) | WSeq (l : list nat).

(* walsh_perm/a/perm_to_matrix/__init__.py:14-48; log(0, 2) raises ValueError *)
Definition perm_to_matrix (src : walsh_src) (trust : bool) : res zmat :=
  let* sequence := match src with
                   | WPerm p => psequence p None                       (* 17-18 *)
                   | WSeq l => guard list_eqb (sort_nat l) (range (length l)) else NotEvenPermutationError ;; Ok l
                   end in
  let perilen := length sequence in
  guard negb (Nat.eqb perilen 0) else ValueErr ;;                      (* 24 *)
  guard is_power_of_two perilen else PermLengthError ;;                (* 25 *)
  let degree := Nat.log2 perilen in
  guard negb (list_eqb sequence [0] || list_eqb sequence [0; 1]) else IsNeutralFail ;;   (* 28-29 *)
  let* cols := mapM (fun v => Binv_intval v (Some degree)) sequence in (* 31-33 *)
  let* transpose := mapM (fun m =>                                     (* 35-42 *)
        match walsh_function_to_index (map (fun col => nth m col false) cols) trust with
        | Err NotWalshRowError => Err InvalidPermError
        | r => r
        end) (range degree) in
  mapM (fun t => let* b := Binv_intval t (Some degree) in Ok (map z_of_bool b)) transpose.  (* 44-46 *)

(* walsh_perm/__init__.py:15-49  WalshPerm.__init__ *)
Definition WalshPerm (vector : option (list nat)) (matrix : option zmat) (src : option walsh_src)
    (trust : bool) : res walsh :=
  match vector, matrix, src with
  | None, None, None => Ok walsh_neutral
  | Some v, None, None => walsh_of_vector v trust
  | None, Some m, None => walsh_of_matrix m trust
  | None, None, Some s => or_neutral (perm_to_matrix s trust) (fun matrix => walsh_of_matrix matrix trust)
  | _, _, _ => Err TooManyArgumentsError
  end.

(* walsh_perm/methods/matrix/__init__.py:8-17 *)
Definition walsh_matrix (w : walsh) (size : option nat) : res zmat :=
  let size := match size with Some s => s | None => w_degree w end in
  guard Nat.leb (w_degree w) size else RequestedDegreeSmallerActualDegreeError ;;
  Ok (map (fun m => map (fun n =>
        if Nat.ltb m (w_degree w) && Nat.ltb n (w_degree w) then nth n (nth m (w_matrix w) []) 0%Z
        else if Nat.eqb m n then 1%Z else 0%Z) (range size)) (range size)).

(* walsh_perm/methods/vector/__init__.py:6-13, transpose_vector/__init__.py:6-13 *)
Definition walsh_extend (w : walsh) (v : dict) (len : option nat) : res (list nat) :=
  let len := match len with Some l => l | None => w_degree w end in
  guard Nat.leb (w_degree w) len else RequestedDegreeSmallerActualDegreeError ;;
  extend_to_length v len.
Definition walsh_vector (w : walsh) (len : option nat) : res (list nat) := walsh_extend w (w_vector w) len.
Definition walsh_transpose_vector (w : walsh) (len : option nat) : res (list nat) := walsh_extend w (w_transpose w) len.

(* walsh_perm/__init__.py:69-75  __eq__ with a WalshPerm, with a Perm *)
Definition walsh_eqb (a b : walsh) : bool :=
  if w_neutral a && w_neutral b then true else dict_eqb (w_vector a) (w_vector b).
Definition walsh_eqb_perm (a : walsh) (b : perm) : res bool :=
  let* p := walsh_perm a in Ok (perm_eqb p b).

(* walsh_perm/__init__.py:77-84  __mul__ with a WalshPerm, with a Perm *)
Definition walsh_mul (a b : walsh) : res walsh :=
  let degree := Nat.max (w_degree a) (w_degree b) in
  let* mat_self := walsh_matrix a (Some degree) in
  let* mat_other := walsh_matrix b (Some degree) in
  walsh_of_matrix (map (map (fun z => (z mod 2)%Z)) (mat_dot degree mat_self mat_other)) false.
Definition walsh_mul_perm (a : walsh) (b : perm) : res perm :=
  let* p := walsh_perm a in pmul p b.

(* walsh_perm/metributes/inverse/__init__.py:9-28.  [linalg_inv] is what numpy.linalg.inv
   returns for matrix_minimal: [Ok (Some m)] for an integer matrix m, [Ok None] for a matrix
   with a fractional entry.  [_ % 2] of the rows; for the neutral element the matrix has no
   rows. *)
Definition walsh_inverse (linalg_inv : zmat -> res (option zmat)) (w : walsh) : res walsh :=
  let* inv_mat_real := linalg_inv (w_matrix w) in
  match inv_mat_real with
  | Some m => walsh_of_matrix (map (map (fun z => (z mod 2)%Z)) m) true          (* 15-18 *)
  | None =>                                                                     (* 20-26 *)
      let* self := walsh_perm w in
      let* cycles := pcycles self in
      let* p := Perm (ArgCycles cycles) (perilen self) in
      let* inv_perm := pinv p in
      WalshPerm None None (Some (WPerm inv_perm)) true
  end.

(* walsh_perm/metributes/transpose/__init__.py:5-11 *)
Definition walsh_transposed (w : walsh) : res walsh :=
  let* v := walsh_transpose_vector w None in walsh_of_vector v false.

(* perm/__init__.py:153-156, 158-162 with [walsh_mul] *)
Fixpoint walsh_mul_times (n : nat) (result base : walsh) : res walsh :=
  match n with
  | 0 => Ok result
  | S n' => let* r := walsh_mul result base in walsh_mul_times n' r base
  end.

(* walsh_perm/__init__.py:86-90, perm/__init__.py:143-162  __pow__ *)
Definition walsh_pow (linalg_inv : zmat -> res (option zmat)) (w : walsh) (exponent : Z) : res walsh :=
  if Z.eqb exponent 0 then Ok walsh_neutral
  else if Z.eqb exponent 1 then Ok w
  else if Z.eqb exponent (-1) then walsh_inverse linalg_inv w
  else if Z.ltb 1 exponent then walsh_mul_times (Z.to_nat (exponent - 1)) w w
  else let* i := walsh_inverse linalg_inv w in walsh_mul_times (Z.to_nat (- exponent - 1)) i i.

(* walsh_perm/__init__.py:92-100, perm/__init__.py:164-172  sequence.  For the neutral
   element [length >= None] raises TypeError (96). *)
Definition walsh_sequence (w : walsh) (len degree : option nat) : res (list nat) :=
  let* len :=
    match len, degree with
    | Some _, Some _ => Err RedundantParametersError
    | Some l, None =>
        guard is_power_of_two l else NotPowerOfTwoError ;;
        guard negb (w_neutral w) else TypeErr ;;
        guard Nat.leb (2 ^ w_degree w) l else RequestedDegreeSmallerActualDegreeError ;;
        Ok (Some l)
    | None, Some d =>
        guard Nat.leb (w_degree w) d else RequestedDegreeSmallerActualDegreeError ;;
        Ok (Some (2 ^ d))
    | None, None => Ok None
    end in
  let* p := walsh_perm w in psequence p len.

(* walsh_perm/metributes/complement_distance/__init__.py:5-15 *)
Definition complement_distance (w : walsh) : res nat :=
  if w_neutral w then Ok 0
  else
    let* sequence := walsh_sequence w None None in
    let highest_element := 2 ^ w_degree w - 1 in
    let* complement_pattern := index_of highest_element sequence in
    Ok (highest_element - complement_pattern).

(* walsh_perm/methods/complement_pattern/__init__.py:6-10 *)
Definition complement_pattern (w : walsh) (degree : nat) : res nat :=
  guard Nat.leb (w_degree w) degree else RequestedDegreeSmallerActualDegreeError ;;
  let* d := complement_distance w in Ok (2 ^ degree - 1 - d).
