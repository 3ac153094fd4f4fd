(** Model_BoolfMore: methods and cached properties of [Boolf] around the Zhegalkin transform:
    zhe, twin, nobles, patrons, quadrants, leader, reverse, foibles, consul, prefect, Walsh
    spectra.  No proofs in this file. *)

From Coq Require Import List Arith ZArith Bool Lia.
From Verif Require Import Model_Base Model_Binary Model_WalshPerm Model_Twin Model_Boolf.
Import ListNotations.
Open Scope nat_scope.

(* boolf/metributes/zhe/__init__.py:9-13 *)
Definition boolf_zhe (f : boolf) : res nat :=
  let* tt := boolf_tt f TtDefault in
  let* twin := vector_to_twin_gen tt (adicity f) in
  Ok (vector_to_int twin).

(* boolf/methods/twin/__init__.py:5-18 *)
Definition boolf_twin (f : boolf) (arity : option nat) : res boolf :=
  let* arity := match arity with
                | None => Ok (adicity f)
                | Some n => guard Nat.leb (adicity f) n else AssertErr ;; Ok n
                end in
  let* tt := boolf_tt f (TtArity arity) in
  let* twin := vector_to_twin_gen tt arity in
  Boolf_root twin.

(* boolf/methods/is_noble/__init__.py:4-9 *)
Definition is_noble (f : boolf) (arity : option nat) : res bool :=
  let arity := match arity with None => adicity f | Some n => n end in
  let* g := boolf_twin f (Some arity) in
  Ok (boolf_eqb f g).

(* boolf/a/_noble/__init__.py:5-19 *)
Definition index_to_noble (i arity : nat) : res nat :=
  match arity with
  | 0 => guard Nat.eqb i 0 else ArgTooBigError ;; Ok 0
  | S junarity =>
      let row_length := 2 ^ 2 ^ junarity in
      guard Nat.ltb i row_length else ArgTooBigError ;;
      let* i_twin := twin_int i junarity in
      Ok (Nat.lxor i_twin i + row_length * i)
  end.

(* boolf/a/_noble/__init__.py:22-40 *)
Definition noble_to_index (noble arity : nat) (trust : bool) : res nat :=
  match arity with
  | 0 => guard Nat.eqb noble 0 else ArgTooBigError ;; Ok 0
  | S junarity =>
      let max_noble := 2 ^ 2 ^ arity - 2 in
      guard Nat.leb noble max_noble else ArgTooBigError ;;
      let* _ := if trust then Ok tt
                else let* f := Boolf_int noble arity in
                     let* q := is_noble f (Some arity) in
                     guard q else ArgValueError ;; Ok tt in
      let* praetor := praetor_int noble arity in
      twin_int praetor junarity
  end.

(* boolf/metributes/_foibles/__init__.py:4-21; [root[0]], [root[-1]]: the root is not empty *)
Definition is_odd (f : boolf) : bool := nth 0 (root f) false.
Definition is_odious (f : boolf) : bool := last (root f) false.
Definition is_ugly (f : boolf) : bool := xorb (is_odd f) (is_odious f).
Definition is_male (f : boolf) : bool := Nat.eqb (binv_weight (root f) mod 2) 1.

(* boolf/metributes/quadrant/__init__.py:4-7 *)
Definition quadrant (f : boolf) : nat := Nat.b2n (is_odd f) + Nat.b2n (is_odious f) * 2.

(* boolf/metributes/reverse/__init__.py:4-12 *)
Definition reverse (f : boolf) : res boolf := Boolf_vec (rev (root f)) (atomvals f).

(* boolf/methods/_foibles/__init__.py:4-21 *)
Definition is_sharp (f : boolf) (arity : nat) : res bool :=
  let* tt := boolf_tt f (TtArity arity) in Ok (Nat.eqb (binv_weight tt mod 2) 1).
Definition is_acute (f : boolf) (arity : nat) : res bool := let* q := is_sharp f arity in Ok (xorb (is_ugly f) q).
Definition is_rude (f : boolf) (arity : nat) : res bool := let* q := is_sharp f arity in Ok (xorb (is_odd f) q).
Definition is_rough (f : boolf) (arity : nat) : res bool := let* q := is_sharp f arity in Ok (xorb (is_odious f) q).

(* boolf/methods/leader/__init__.py:4-18 *)
Definition leader (f : boolf) (arity : option nat) : res boolf :=
  let arity := match arity with None => adicity f | Some n => n end in
  match quadrant f with
  | 0 => Ok f
  | 1 => let* g := boolf_twin f (Some arity) in let* h := boolf_not g in boolf_twin h (Some arity)
  | 2 => let* n := boolf_not f in
         let* g := boolf_twin n (Some arity) in let* h := boolf_not g in boolf_twin h (Some arity)
  | _ => boolf_not f
  end.

(* boolf/a/_noble/__init__.py:45-56 *)
Definition noble_to_quadrant (noble_int arity : nat) : res nat :=
  match arity with
  | 0 => guard Nat.eqb noble_int 0 else ArgTooBigError ;; Ok 0
  | S junarity =>
      let* noble_index := noble_to_index noble_int arity false in
      let* f := Boolf_int noble_index junarity in
      Ok (quadrant f)
  end.

(* boolf/a/_noble/__init__.py:59-85 *)
Definition noble_to_royal_and_quadrant (noble_int arity : nat) : res (nat * nat) :=
  match arity with
  | 0 => guard Nat.eqb noble_int 0 else ArgTooBigError ;; Ok (0, 0)
  | S _ =>
      let* q := noble_to_quadrant noble_int arity in
      let p := 2 ^ (2 ^ arity - 1) in
      let r := 2 ^ 2 ^ arity - 2 in
      match q with
      | 0 => Ok (noble_int, q)
      | 1 => Ok (Nat.lxor (Nat.lxor noble_int p) r, q)
      | 2 => Ok (Nat.lxor noble_int p, q)
      | _ => Ok (Nat.lxor noble_int r, q)
      end
  end.
Definition noble_to_royal (noble_int arity : nat) : res nat :=
  let* rq := noble_to_royal_and_quadrant noble_int arity in Ok (fst rq).

(* boolf/methods/noble_quadrant/__init__.py:4-14 *)
Definition noble_quadrant (f : boolf) (arity : option nat) : res nat :=
  let arity := match arity with None => adicity f | Some n => n end in
  let* q := is_noble f (Some arity) in
  guard q else ValueErr ;;
  let* tt := boolf_tt f (TtArity arity) in
  let* is_strong := lget tt 1 in
  Ok (Nat.b2n is_strong + Nat.b2n (is_odious f) * 2).

(* boolf/methods/_patron/__init__.py:4-24 *)
Definition patron_int (f : boolf) (arity : nat) : res nat :=
  let* tt := boolf_tt f (TtArity arity) in
  let* zhe := boolf_zhe f in
  Ok (Nat.lxor (binv_intval tt) zhe).
Definition patron_index (f : boolf) (arity : nat) : res nat :=
  let* p := patron_int f arity in noble_to_index p arity false.
Definition patron_boolf (f : boolf) (arity : nat) : res boolf :=
  let* g := boolf_twin f (Some arity) in boolf_xor f g.
Definition patron_royal (f : boolf) (arity : nat) : res nat :=
  let* p := patron_int f arity in noble_to_royal p arity.
Definition patron_quadrant (f : boolf) (arity : nat) : res nat :=
  let* p := patron_int f arity in noble_to_quadrant p arity.

(* boolf/methods/consul/__init__.py:5-18 *)
Definition consul (f : boolf) (arg : tt_arg) : res nat :=
  let* tt := boolf_tt f arg in
  Ok (fold_left (fun result kv => if snd kv : bool then Nat.lxor result (fst kv) else result) (combine (range (length tt)) tt) 0).
Definition consul_weight (f : boolf) (arity : nat) : res nat :=
  let* c := consul f (TtArity arity) in Ok (int_to_weight c).

(* boolf/methods/consul/__init__.py:21-41  (without a prefabricated matrix; the products of
   [np.dot] are sums of bits) *)
Definition consul_slow (f : boolf) (arity : nat) : res nat :=
  let* tt := boolf_tt f (TtArity arity) in
  let* l := log_int (length tt) in
  guard Nat.eqb l arity else AssertErr ;;
  let* matrix := arity_to_walsh_matrix arity false in
  let walsh_tt := map (fun j => Nat.odd (list_sum_nat (map (fun i => Nat.b2n (nth i tt false && nth j (nth i matrix []) false))
                                                       (range (length tt))))) (range (2 ^ arity)) in
  walsh_function_to_index walsh_tt false.

(* boolf/metributes/_prefect/__init__.py:8-40 *)
Definition prefect_tt (f : boolf) : res (list bool) :=
  let* tt := boolf_tt f TtDefault in
  let* twin_tt := vector_to_twin_gen tt (adicity f) in
  zhe_vector_to_prefect_gen twin_tt (adicity f).
Definition prefect_boolf (f : boolf) : res boolf := let* tt := prefect_tt f in Boolf_root tt.
Definition prefect_walsh_and_oddness (f : boolf) : res (nat * bool) :=
  let* tt := prefect_tt f in linear_to_walsh_and_oddness tt false.
Definition prefect_leader_and_quadrant (f : boolf) : res (nat * nat) :=
  let* tt := prefect_tt f in linear_to_leader_and_quadrant tt false.

(* boolf/methods/walsh_spectrum/__init__.py:5-8 *)
Definition walsh_spectrum (f : boolf) (arg : tt_arg) : res (list Z) :=
  let* tt := boolf_tt f arg in Ok (fwht (map z_of_bool tt)).

(* boolf/methods/walsh_distances/__init__.py:4-20 *)
Definition walsh_distances (f : boolf) (arg : tt_arg) : res (list nat) :=
  let* tt := boolf_tt f arg in
  let len := length tt in
  let degree := Nat.log2 len in
  let* walsh_matrix := arity_to_walsh_matrix degree false in
  mapM (fun i => let* row := lget walsh_matrix i in
                 let* x := binv_bitwise xorb tt row in Ok (binv_weight x)) (range len).

(* boolf/metributes/is_linear/__init__.py:7-14; other exceptions are not caught *)
Definition is_linear (f : boolf) : res bool :=
  match linear_to_walsh_and_oddness (root f) false with
  | Ok _ => Ok true
  | Err NotWalshRowError => Ok false
  | Err e => Err e
  end.

(* boolf/methods/hasse_matrix_coordinates/__init__.py:4-14 *)
Definition hasse_matrix_coordinates (f : boolf) (arg : tt_arg) : res (nat * nat) :=
  let* tt := boolf_tt f arg in
  let half_length := length tt / 2 in
  Ok (binv_intval (firstn half_length tt), binv_intval (rev (skipn half_length tt))).
(* boolf/a/hasse_matrix_coordinates_to_tt/__init__.py:4-12 *)
Definition hasse_matrix_coordinates_to_tt (i j arity : nat) : res (list bool) :=
  let half_length := 2 ^ arity / 2 in
  let* left := Binv_intval i (Some half_length) in
  let* right := Binv_intval j (Some half_length) in
  Ok (left ++ rev right).

(* boolf/a/symmetric_to_index/__init__.py:7-24 *)
Definition symmetric_to_index (symmetric_int arity : nat) : res nat :=
  match arity with
  | 0 => guard Nat.leb symmetric_int 1 else ArgTooBigError ;; Ok symmetric_int
  | S _ =>
      let len := 2 ^ arity in
      guard Nat.ltb symmetric_int (2 ^ len) else ArgTooBigError ;;
      let* v := Binv_intval symmetric_int (Some len) in
      let left := firstn (len / 2) v in
      let right := skipn (len / 2) v in
      guard bvec_eqb left (rev right) else ArgValueError ;;
      Ok (binv_intval right)
  end.
