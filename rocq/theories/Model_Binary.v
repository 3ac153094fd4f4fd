(** Model_Binary: binary helpers of discretehelpers/a and the class [Binv]
    (discretehelpers/binv).  No proofs in this file.

    A Binv object is its attribute [vector] ([list bool]); the other attributes are
    cached functions of it, and no method changes [vector] after construction. *)

From Coq Require Import List Arith ZArith Bool Lia.
From Verif Require Import Model_Base.
Import ListNotations.

(* a/_binary/__init__.py:1-10  int_to_exposet; fuel: n itself *)
Fixpoint int_to_exposet_loop (fuel n count : nat) : list nat :=
  match fuel with
  | 0 => []
  | S fuel' =>
      if Nat.ltb 0 n
      then (if Nat.eqb (n mod 2) 0 then [] else [count]) ++
           int_to_exposet_loop fuel' (n / 2) (S count)
      else []
  end.
Definition int_to_exposet (n : nat) : list nat := int_to_exposet_loop n n 0.

(* a/_binary/__init__.py:13-15  exposet_to_int *)
Definition exposet_to_int (exposet : list nat) : nat :=
  list_sum_nat (map (fun e => 2 ^ e) exposet).

(* a/_binary/__init__.py:18-26  vector_to_int *)
Definition vector_to_int (vector : list bool) : nat :=
  fst (fold_left (fun (rp : nat * nat) (digit : bool) =>
                    let (result, place) := rp in
                    ((if digit then result + 2 ^ place else result), S place))
                 vector (0, 0)).

(* Python's ["{0:b}".format(n)[::-1]] and [bin(n)[2:][::-1]]: the binary digits, least
   significant first; one digit 0 for zero *)
Definition bin_digits (n : nat) : list bool := n2b (S (Nat.log2 n)) n.

(* a/_binary/__init__.py:29-30  int_to_weight *)
Definition int_to_weight (n : nat) : nat := length (filter (fun b => b) (bin_digits n)).

(* a/evil_odious/__init__.py:6-9, 12-16, 19-22, 25-28.  The arguments are integers; the
   first line of each function rejects the negative ones. *)
Definition index_to_evil (i : Z) : res nat :=
  guard Z.leb 0 i else ArgValueError ;;
  let i := Z.to_nat i in
  let index_depravity := int_to_weight i mod 2 in
  Ok (2 * i + index_depravity).
Definition index_to_odious (i : Z) : res nat :=
  guard Z.leb 0 i else ArgValueError ;;
  let i := Z.to_nat i in
  let index_depravity := int_to_weight i mod 2 in
  let negated_index_depravity := if Nat.eqb index_depravity 0 then 1 else 0 in
  Ok (2 * i + negated_index_depravity).
Definition evil_to_index (evil : Z) : res nat :=
  guard Z.leb 0 evil else ArgValueError ;;
  let evil := Z.to_nat evil in
  guard Nat.eqb (int_to_weight evil mod 2) 0 else ArgValueError ;;
  Ok (evil / 2).
Definition odious_to_index (odious : Z) : res nat :=
  guard Z.leb 0 odious else ArgValueError ;;
  let odious := Z.to_nat odious in
  guard Nat.eqb (int_to_weight odious mod 2) 1 else ArgValueError ;;
  Ok (odious / 2).

(* binv/a/binary_length/__init__.py:6-13  binary_length with an exact logarithm.  The
   code computes [floor(log(n, 2)) + 1] in floating point; see [Binv] below. *)
Definition binary_length (n : nat) : nat :=
  if Nat.eqb n 0 then 0 else Nat.log2 n + 1.

(* Python [l[i] = x], negative indices count from the end *)
Definition zset {A} (l : list A) (i : Z) (x : A) : res (list A) :=
  if Z.leb 0 i && Z.ltb i (Z.of_nat (length l)) then Ok (lset l (Z.to_nat i) x)
  else if Z.leb (- Z.of_nat (length l)) i && Z.ltb i 0
       then Ok (lset l (Z.to_nat (Z.of_nat (length l) + i)) x)
       else Err IndexErr.

(* max(l) of a list of integers *)
Definition zmax (l : list Z) : res Z :=
  match l with
  | [] => Err ValueErr
  | x :: l' => Ok (fold_left Z.max l' x)
  end.

(* str.zfill on reversed strings: pad at the end *)
Definition zfill (len : nat) (digits : list bool) : list bool :=
  digits ++ repeat false (len - length digits).

(* binv/__init__.py:11-84  Binv.__init__.  [vector]: the entries after [int(e)], so
   entries that [int] rejects are outside the model.  The parameter [bl] stands for the
   floating point [binary_length]; [Binv] below takes the exact one. *)
Definition Binv_with (bl : nat -> nat) (vector : option (list Z)) (intval : option Z)
    (exposet : option (list Z)) (len minimal_length : option nat) : res (list bool) :=
  match vector, intval, exposet with
  | Some v, None, None =>                                       (* 13, 27-44, 82 *)
      match len with
      | Some _ => Err BinvArgumentError                         (* 23 *)
      | None =>
          guard forallb (fun e => Z.eqb e 0 || Z.eqb e 1) v else VectorEntryError ;;
          Ok (map (fun e => negb (Z.eqb e 0)) v)
      end
  | None, Some n, None =>                                       (* 15-17, 46-59 *)
      guard Z.leb 0 n else IntvalError ;;
      let n := Z.to_nat n in
      match len, minimal_length with
      | None, None => if Nat.eqb n 0 then Ok [] else Ok (bin_digits n)
      | Some l, _ => guard Nat.leb (bl n) l else BinvLengthError ;; Ok (zfill l (bin_digits n))
      | None, Some l => Ok (zfill (Nat.max l (bl n)) (bin_digits n))
      end
  | None, None, Some s =>                                       (* 19-21, 61-80 *)
      let* l :=
        match len, minimal_length with
        | None, None =>
            match s with
            | [] => Ok 0%Z                                       (* 67-69 *)
            | _ :: _ => let* m := zmax s in Ok (m + 1)%Z         (* 71 *)
            end
        | Some l, _ =>
            match s with
            | [] => Ok (Z.of_nat l)
            | _ :: _ => let* m := zmax s in
                        guard Z.ltb m (Z.of_nat l) else BinvLengthError ;; Ok (Z.of_nat l)
            end
        | None, Some l => let* m := zmax s in Ok (Z.max (Z.of_nat l) (m + 1))   (* 77 *)
        end in
      foldM (fun v i => zset v i true) s (repeat false (Z.to_nat l))   (* 78-80 *)
  | _, _, _ => Err BinvArgumentError                            (* 23 *)
  end.
Definition Binv := Binv_with binary_length.

(* the three usual forms *)
Definition Binv_vector (v : list Z) : res (list bool) := Binv (Some v) None None None None.
Definition Binv_intval (n : nat) (len : option nat) : res (list bool) :=
  Binv None (Some (Z.of_nat n)) None len None.
Definition Binv_exposet (s : list nat) (len : option nat) : res (list bool) :=
  Binv None None (Some (map Z.of_nat s)) len None.

(* binv/metributes/intval.py:4-12 (with string.py:7-11): [int(string[::-1], 2)] *)
Definition binv_intval (v : list bool) : nat :=
  fold_left (fun acc (d : bool) => 2 * acc + Nat.b2n d) (rev v) 0.

(* binv/metributes/exposet.py:4-9 (the set in increasing order; the order in which the
   code iterates over it is unspecified) *)
Definition binv_exposet (v : list bool) : list nat :=
  map fst (filter (fun kv : nat * bool => snd kv) (combine (seq 0 (length v)) v)).

(* binv/__init__.py:84  required_length *)
Definition binv_required_length (v : list bool) : nat :=
  match binv_exposet v with [] => 0 | e => list_max_nat e + 1 end.

(* binv/metributes/weight.py:4-9 *)
Definition binv_weight (v : list bool) : nat := list_sum_nat (map Nat.b2n v).

(* binv/metributes/changes.py:4-17 *)
Definition binv_changes (v : list bool) : nat :=
  if Nat.ltb (length v) 2 then 0
  else fold_left (fun result i =>
         if Bool.eqb (nth (i - 1) v false) (nth i v false) then result else S result)
       (range2 1 (length v)) 0.

(* binv/metributes/complement.py:4-11, reverse.py:4-9 *)
Definition binv_complement (v : list bool) : list bool := map negb v.
Definition binv_reverse (v : list bool) : list bool := rev v.

(* binv/__init__.py:98-102  flip_bit (natural positions) *)
Definition binv_flip_bit (v : list bool) (position : nat) : res (list bool) :=
  guard Nat.ltb position (length v) else AssertErr ;;
  Ok (lset v position (negb (nth position v false))).

(* binv/__init__.py:106-107  has_index *)
Definition binv_has_index (v : list bool) (key : nat) : bool := memb key (binv_exposet v).

(* binv/methods/bitwise.py:4-15, 25-34: [op(self[i], other[i])] for i in range(len(self)) *)
Definition binv_bitwise (op : bool -> bool -> bool) (a b : list bool) : res (list bool) :=
  mapM (fun i => let* x := lget a i in let* y := lget b i in Ok (op x y)) (range (length a)).

(* binv/methods/bitwise.py:16-22, 37-38  bitwise_smaller *)
Definition binv_bitwise_smaller (a b : list bool) : res bool :=
  if bvec_eqb a b then Ok false
  else forallM (fun i => let* x := lget a i in let* y := lget b i in Ok (negb (x && negb y)))
               (range (length a)).

(* binv/methods/comparisons.py:1-14: comparison of lists of booleans *)
Fixpoint binv_lt (a b : list bool) : bool :=
  match a, b with
  | [], [] => false
  | [], _ :: _ => true
  | _ :: _, [] => false
  | x :: a', y :: b' => if Bool.eqb x y then binv_lt a' b' else negb x && y
  end.
Definition binv_le (a b : list bool) : bool := bvec_eqb a b || binv_lt a b.

(* a/int_to_sierpinski_row/__init__.py:24-33  the loops over a list of exponents *)
Definition sierpinski_of (exposet : list nat) : list nat :=
  match exposet with
  | [] => [0]                                                   (* 16-17, 21-22 *)
  | _ :: _ =>
      let addends := map (fun i => 2 ^ i) exposet in
      let short := length addends in
      map (fun i =>
             let i_bin := n2b short i in
             fold_left (fun acc j => if nth j i_bin false then acc + nth j addends 0 else acc)
                       (range short) 0)
          (range (2 ^ short))
  end.
(* a/int_to_sierpinski_row/__init__.py:7-33.  With an integer argument the exponents
   come from a Python set; [order] is the order in which it is iterated. *)
Definition int_to_sierpinski_row (order : list nat -> list nat) (n : nat) : list nat :=
  sierpinski_of (order (binv_exposet (bin_digits n))).

(* a/vector_zip_apart/__init__.py:6-27 (entries of any type; [max] of an empty pattern
   raises ValueError) *)
Definition vector_zip_apart {A} (vector : list A) (pattern : list nat) : res (list (list A)) :=
  guard Nat.eqb (length vector) (length pattern) else ZipLengthError ;;
  match pattern with
  | [] => Err ValueErr
  | _ :: _ =>
      let result_length := list_max_nat pattern + 1 in
      foldM (fun result i =>
               let* x := lget vector i in
               let* k := lget pattern i in
               let* row := lget result k in
               Ok (lset result k (row ++ [x])))
            (range (length vector)) (repeat [] result_length)
  end.

(* a/vector_zip_together/__init__.py:1-29 *)
Definition vector_zip_together {A} (short_vectors : list (list A)) (pattern : list nat)
  : res (list A) :=
  guard Nat.eqb (length pattern) (list_sum_nat (map (@length A) short_vectors)) else AssertErr ;;
  let* rs := foldM (fun (rs : list A * list (list A)) i =>
               let* row := lget (snd rs) i in
               match row with
               | [] => Err IndexErr                             (* pop from empty list *)
               | x :: row' => Ok (fst rs ++ [x], lset (snd rs) i row')
               end)
             pattern ([], short_vectors) in
  match short_vectors with
  | [] => Err IndexErr                                          (* 26 *)
  | _ :: _ => Ok (fst rs)
  end.

(* a/prime_factors/__init__.py:16-24; fuel: every round raises d or lowers n *)
Fixpoint prime_factors_loop (fuel n d : nat) (factors : list nat) : res (list nat * nat) :=
  match fuel with
  | 0 => Err OutOfFuel
  | S fuel' =>
      if Nat.leb (d * d) n then
        if Nat.eqb (n mod d) 0
        then prime_factors_loop fuel' (n / d) d (factors ++ [d])      (* 19-21 *)
        else prime_factors_loop fuel' n (S d) factors                 (* 22 *)
      else Ok (factors, n)
  end.
Definition prime_factor_list (n : nat) : res (list nat) :=
  let* fn := prime_factors_loop (2 * n + 2) n 2 [] in
  Ok (if Nat.ltb 1 (snd fn) then fst fn ++ [snd fn] else fst fn).     (* 23-24 *)

(* a/inventory_dict/__init__.py:15-21 (list of naturals) *)
Definition count_nat (l : list nat) (x : nat) : nat := length (filter (Nat.eqb x) l).
Definition inventory_dict (l : list nat) : dict :=
  map (fun value => (value, count_nat l value)) (sort_nat (nodupb l)).

(* a/prime_factors/__init__.py:6-41 *)
Definition prime_factors (n : nat) : res dict :=
  let* factors := prime_factor_list n in Ok (inventory_dict factors).
Definition prime_exponents (n : nat) (expected_factors : list nat) : res (list nat) :=
  let* d := prime_factors n in
  guard forallb (fun f => memb f expected_factors) (dkeys d) else UnexpectedFactorError ;;
  Ok (map (fun f => match dget d f with Some e => e | None => 0 end)
          (sort_nat (nodupb expected_factors))).

(* a/multi_lcm/__init__.py:10-11  (reduce of an empty list raises TypeError; gcd(0, 0) is
   zero) *)
Definition multi_lcm (integers : list nat) : res nat :=
  match integers with
  | [] => Err TypeErr
  | x :: l => foldM (fun a b => if Nat.eqb (Nat.gcd a b) 0 then Err ZeroDivErr
                                else Ok (a * b / Nat.gcd a b)) l x
  end.

(* a/binom/__init__.py:8-9  (factorial of a negative number raises ValueError) *)
Definition binom (n k : nat) : res nat :=
  guard Nat.leb k n else ValueErr ;;
  Ok (fact n / (fact k * fact (n - k))).

(* a/_atompatterns/__init__.py:1-13  make_atompattern_gen *)
Definition make_atompattern (signed_atomval : Z) (arity : nat) (negate : bool) : res (list bool) :=
  let negated_with_tilda := Z.ltb signed_atomval 0 in
  let abs_atomval := Z.to_nat (if negated_with_tilda then - signed_atomval - 1 else signed_atomval) in
  guard Nat.ltb abs_atomval arity else AssertErr ;;
  let len := 2 ^ arity in
  let half_period_length := 2 ^ abs_atomval in
  let period_length := half_period_length * 2 in
  Ok (map (fun i => if xorb negate negated_with_tilda
                    then Nat.ltb (i mod period_length) half_period_length
                    else Nat.leb half_period_length (i mod period_length))
          (range len)).

(* a/_atompatterns/__init__.py:21-32  make_atompatterns with an integer argument *)
Definition make_atompatterns (arity : nat) : res (list (list bool)) :=
  guard Nat.ltb 0 arity else AssertErr ;;
  mapM (fun atom => make_atompattern (Z.of_nat atom) arity false) (range arity).

(* a/make_linear_binv/__init__.py:38-46  the loop and the final complement *)
Definition linear_binv_loop (atom_patterns : list (list bool)) (walsh_index arity : nat)
    (is_odd : bool) : res (list bool) :=
  let* binv := foldM (fun binv n =>
                 if Nat.testbit walsh_index n
                 then let* p := lget atom_patterns n in binv_bitwise xorb binv p
                 else Ok binv)
               (range arity) (repeat false (2 ^ arity)) in
  Ok (if is_odd then binv_complement binv else binv).

(* a/make_linear_binv/__init__.py:6-46 (without prefab patterns, which are by
   arity_to_walsh_matrix:16-20 the same patterns) *)
Definition make_linear_binv (walsh : option nat) (arity : nat) (parity : option bool)
    (leader quadrant : option nat) : res (list bool) :=
  guard Nat.ltb 0 arity else ArgValueError ;;                   (* 13 *)
  let* iw :=
    match walsh, leader, quadrant with
    | Some w, None, None => Ok (match parity with Some p => p | None => false end, w)   (* 15-19 *)
    | Some _, _, _ => Err ArgComboError
    | None, Some l, Some q =>                                    (* 20-24 *)
        guard Nat.ltb q 4 else ArgValueError ;;
        guard (match parity with None => true | Some _ => false end) else ArgComboError ;;
        let* w := if Nat.eqb q 0 || Nat.eqb q 3 then index_to_evil (Z.of_nat l)
                  else index_to_odious (Z.of_nat l) in
        Ok (Nat.eqb q 1 || Nat.eqb q 3, w)
    | _, _, _ => Err ArgComboError                               (* 26 *)
    end in
  guard Nat.ltb (snd iw) (2 ^ arity) else ArgTooBigError ;;      (* 30 *)
  let* atom_patterns := make_atompatterns arity in
  linear_binv_loop atom_patterns (snd iw) arity (fst iw).

(* a/arity_to_walsh_matrix/__init__.py:5-21 *)
Definition arity_to_walsh_matrix (arity : nat) (negate : bool) : res (list (list bool)) :=
  if Nat.eqb arity 0 then Ok [[negate]]
  else mapM (fun i => make_linear_binv (Some i) arity (Some negate) None None) (range (2 ^ arity)).

(* a/hypercube_edges/__init__.py:6-17.  [sorted] of pairs: lexicographic. *)
Definition pair_leb (a b : nat * nat) : bool :=
  Nat.ltb (fst a) (fst b) || (Nat.eqb (fst a) (fst b) && Nat.leb (snd a) (snd b)).
Fixpoint hypercube_edges (n : nat) : list (nat * nat) :=
  match n with
  | 0 => []
  | S m =>
      match m with
      | 0 => [(0, 1)]
      | S _ =>
          let addend := 2 ^ m in
          let old_half := hypercube_edges m in
          let new_half := map (fun ab => (fst ab + addend, snd ab + addend)) old_half in
          let connections := map (fun i => (i, i + addend)) (range addend) in
          isort pair_leb (old_half ++ new_half ++ connections)
      end
  end.

(* a/find_integer_partitions/__init__.py:1-7 (a set of tuples: the model keeps the list
   of insertions without repetition).  Fuel: the argument. *)
Fixpoint tuple_memb (x : list nat) (l : list (list nat)) : bool :=
  match l with [] => false | y :: l' => list_eqb x y || tuple_memb x l' end.
Definition tuple_add (s : list (list nat)) (x : list nat) : list (list nat) :=
  if tuple_memb x s then s else s ++ [x].
Fixpoint integer_partitions_fuel (fuel n : nat) : list (list nat) :=
  match fuel with
  | 0 => []
  | S fuel' =>
      fold_left (fun result x =>
        fold_left (fun result y => tuple_add result (sort_nat (x :: y)))
                  (integer_partitions_fuel fuel' (n - x)) result)
        (range2 1 n) [[n]]
  end.
Definition find_integer_partitions (n : nat) : list (list nat) := integer_partitions_fuel (S n) n.
