(** Checks of the model against the test files of discretehelpers/a and discretehelpers/binv.  Assertions about texts as arguments of
    functions that the model has for lists, about arguments of a wrong type, and about numbers too big for unary numerals are left out. *)
From Coq Require Import String List Arith ZArith Bool.
From Verif Require Import Model_Base Model_Binary Model_Str Model_BinvText Model_Splits Model_Perm Model_SigPerm Model_WalshPerm Model_SetPart Model_Boolf
  Model_Helpers Model_Schoute Model_Misc Model_MinRep Model_Values Model_Pretty Model_Log Conf_Base.
Import ListNotations.
Local Open Scope string_scope.
Local Open Scope nat_scope.
Local Open Scope list_scope.

(** * binv/_test.py *)
Definition digit (c : nat) : option nat := if Nat.leb 48 c && Nat.leb c 57 then Some (c - 48) else None.
Example binv_vector_variants : let b := bv "01" in
  Binv_vector [0; 1]%Z = Ok b /\ Binv_text digit (lit "01") = Ok b /\ Binv_text digit (lit "0 1") = Ok b /\ b = [false; true] /\
  binv_string b = lit "01" /\ binv_pretty b = Ok (lit "01") /\ binv_exposet b = [1] /\ binv_intval b = 2 /\ binv_complement b = bv "10" /\
  length b = 2 /\ binv_weight b = 1 /\ map (binv_has_index b) (range 3) = [false; true; false] /\ binv_reverse (bv "0001") = bv "1000".
Proof. tests. Qed.
Example binv_methods : let b := bv "0101" in
  binv_intval b = 10 /\ binv_exposet b = [1; 3] /\ binv_complement b = bv "1010" /\ length b = 4 /\ binv_weight b = 2 /\
  map (binv_has_index b) (range 6) = [false; true; false; true; false; false] /\ binv_flip_bit (bv "0001") 1 = Ok (bv "0101") /\
  binv_add (bv "01") (bv "10") = Ok (bv "0110").
Proof. tests. Qed.
Example binv_raise :
  errs BinvArgumentError [Binv (Some [0; 1]%Z) None None (Some 2) None; Binv (Some [0; 1]%Z) (Some 1%Z) None None None; Binv None None None None None] /\
  errs BinvLengthError [Binv None (Some 10%Z) None (Some 3) None; Binv None (Some 1%Z) None (Some 0) None; Binv None None (Some [0; 1; 2]%Z) (Some 2) None] /\
  errs VectorEntryError [Binv_vector [0; 1; 2]%Z; Binv_vector [-1]%Z; Binv_text digit (lit "012"); Binv_text digit (lit "-")] /\
  errs IntvalError [Binv None (Some (-5)%Z) None None None].
Proof. tests. Qed.
Example binv_intval_to_vector :
  Binv_intval 10 None = Ok (bv "0101") /\ Binv_intval 10 (Some 4) = Ok (bv "0101") /\ Binv_intval 10 (Some 6) = Ok (bv "010100") /\
  Binv None (Some 10%Z) None None (Some 3) = Ok (bv "0101") /\ Binv None (Some 3%Z) None None (Some 3) = Ok (bv "110").
Proof. tests. Qed.
Example binv_to_exposet :
  mapM (fun i => let* b := Binv_intval i None in Ok (binv_intval b, binv_exposet b)) (range 17) =
  Ok (combine (range 17) [[]; [0]; [1]; [0; 1]; [2]; [0; 2]; [1; 2]; [0; 1; 2]; [3]; [0; 3]; [1; 3]; [0; 1; 3]; [2; 3]; [0; 2; 3]; [1; 2; 3]; [0; 1; 2; 3]; [4]]).
Proof. tests. Qed.
Example binv_from_exposet :
  Binv_exposet [0; 2; 3] None = Binv_intval 13 None /\ Binv_exposet [0; 2; 3] (Some 6) = Ok (bv "101100") /\ Binv_exposet [] None = Ok (bv "") /\
  Binv_exposet [] (Some 5) = Ok (bv "00000") /\ Binv_exposet [1; 3] (Some 6) = Ok (bv "010100") /\
  Binv None None (Some [1; 3]%Z) None (Some 3) = Ok (bv "0101") /\ Binv None None (Some [0; 1]%Z) None (Some 3) = Ok (bv "110").
Proof. tests. Qed.
Example binv_eq : Binv_intval 0 None = Ok [] /\ Binv_vector [] = Ok [] /\ Binv_text digit [] = Ok [] /\ Binv_intval 13 None = Ok (bv "1011") /\
  Binv_intval 13 (Some 6) = Ok (bv "101100").
Proof. tests. Qed.
Example binv_pretty_test :
  errs ValueErr [binv_pretty (bv "101"); binv_pretty (bv "10101")] /\ (let* b := Binv_intval 10 (Some 4) in binv_pretty b) = Ok (lit "0101") /\
  (let* b := Binv_intval 128 (Some 8) in binv_pretty b) = Ok (lit "0000 0001") /\ (let* b := Binv_text digit (lit " 00 00 00 01 ") in binv_pretty b) = Ok (lit "0000 0001").
Proof. tests. Qed.
Example binv_changes_test : binv_changes (bv "0011001") = 3 /\ binv_changes [false; true] = 1.
Proof. tests. Qed.
Example binv_bitwise_test :
  binv_bitwise andb (bv "0101") (bv "0011") = Ok (bv "0001") /\ binv_bitwise orb (bv "0101") (bv "0011") = Ok (bv "0111") /\
  binv_bitwise xorb (bv "0101") (bv "0011") = Ok (bv "0110") /\ binv_bitwise_smaller (bv "0") (bv "1") = Ok true /\
  binv_bitwise_smaller (bv "0") (bv "0") = Ok false.
Proof. tests. Qed.
Example binv_str_short : Forall (fun s => binv_string (bv s) = lit s /\ binv_str (bv s) = lit ("Binv('" ++ s ++ "')"))
  [""; "0"; "1"; "01"; "0110101"; "0000111100001111"].
Proof. repeat constructor. Qed.
Example binv_str_long :
  map (fun s => binv_required_length (bv s)) ["00000 01010 00011 10000"; "0110 0000 0000 1111  1111 0000 0100 0000";
    "0110 0000 0000 1111  1111 0000 0100 0000  0000 1111 0000 0000  1010 0101 1010 0000"] = [16; 26; 59].
Proof. tests. Qed.
Example binv_str_explicit : let b := bv "0000 1111 1111 0000  0000 0000 0000 1111" in
  binv_str b = lit "Binv(exposet=[4, 5, 6, 7, 8, 9, 10, 11, 28, 29, 30, 31], length=32)" /\
  binv_str (binv_complement b) = lit "~Binv(exposet=[4, 5, 6, 7, 8, 9, 10, 11, 28, 29, 30, 31], length=32)".
Proof. tests. Qed.
Example binv_set_part_test :
  (let* s := binv_set_part (bv "0101") in let* t := SetPart (Some [[0; 2]; [1; 3]]%Z) DomN in sp_eq s t) = Ok true /\
  (let* s := binv_set_part (bv "1010") in let* t := SetPart (Some [[0; 2]; [1; 3]]%Z) DomN in sp_eq s t) = Ok true /\
  (let* s := binv_set_part (bv "01010") in let* t := SetPart (Some [[0; 2; 4]; [1; 3]]%Z) DomN in sp_eq s t) = Ok true /\
  (let* s := binv_set_part (bv "10101") in let* t := SetPart (Some [[0; 2; 4]; [1; 3]]%Z) DomN in sp_eq s t) = Ok true.
Proof. tests. Qed.

(** binv/a/to_pretty_string/_test.py *)
Example to_pretty_string_test :
  binv_pretty [true] = Ok (lit "1") /\ binv_pretty [false; true] = Ok (lit "01") /\ to_pretty_text digit (lit "0101") = Ok (lit "0101") /\
  to_pretty_text digit (lit "01010110") = Ok (lit "0101 0110") /\ to_pretty_text digit (lit "0101000001101111") = Ok (lit "0101 0000 0110 1111") /\
  to_pretty_text digit (lit " 0  1 010 0000 1101 1 1 1 ") = Ok (lit "0101 0000 0110 1111") /\
  to_pretty_text digit (lit "01010000011011110101000001101111") = Ok (lit "0101 0000 0110 1111  0101 0000 0110 1111") /\
  to_pretty_text digit (lit "0101000001101111010100000110111101010000011011110101000001101111") =
    Ok (lit "0101 0000 0110 1111  0101 0000 0110 1111  0101 0000 0110 1111  0101 0000 0110 1111") /\
  errs ValueErr [to_pretty_text digit (lit "101"); to_pretty_text digit (lit "01010")].
Proof. tests. Qed.

(** binv/a/binary_length/_test.py *)
Example binary_length_test : map Model_Binary.binary_length [0; 1; 2; 3; 4; 5; 6; 7; 8; 9; 15; 16; 17] = [0; 1; 2; 2; 3; 3; 3; 3; 4; 4; 4; 5; 5].
Proof. tests. Qed.

(** * a/_atompatterns/_test.py *)
Example atompattern_generator :
  make_atompattern 0 2 false = Ok (bv "0101") /\ make_atompattern (nt 0) 2 true = Ok (bv "0101") /\ make_atompattern (nt 0) 2 false = Ok (bv "1010") /\
  make_atompattern 0 2 true = Ok (bv "1010") /\ make_atompattern 0 3 false = Ok (bv "01010101") /\ make_atompattern 3 4 false = Ok (bv "0000000011111111").
Proof. tests. Qed.
Example atompattern_singular :
  make_atompattern 0 1 false = Ok (bv "01") /\ make_atompattern (nt 0) 1 false = Ok (bv "10") /\ make_atompattern 1 2 false = Ok (bv "0011") /\
  make_atompattern (nt 1) 2 true = Ok (bv "0011") /\ make_atompattern (nt 1) 2 false = Ok (bv "1100") /\ make_atompattern 1 2 true = Ok (bv "1100") /\
  make_atompattern 1 3 false = Ok (bv "0011 0011") /\ make_atompattern 2 3 false = Ok (bv "0000 1111") /\ make_atompattern (nt 0) 3 false = Ok (bv "1010 1010") /\
  make_atompattern (nt 1) 3 false = Ok (bv "1100 1100") /\ make_atompattern (nt 2) 3 false = Ok (bv "1111 0000").
Proof. tests. Qed.
Example atompattern_plural :
  make_atompatterns 1 = Ok [bv "01"] /\ make_atompatterns_list [0]%Z = Ok [bv "01"] /\
  make_atompatterns 3 = Ok [bv "0101 0101"; bv "0011 0011"; bv "0000 1111"] /\ make_atompatterns_list [0; 1; 2]%Z = make_atompatterns 3 /\
  make_atompatterns_list [1; nt 0; 2]%Z = Ok [bv "0011 0011"; bv "1010 1010"; bv "0000 1111"] /\
  make_atompatterns_list [nt 3; nt 2; 1; 0]%Z = Ok [bv "1111 1111 0000 0000"; bv "1111 0000 1111 0000"; bv "0011 0011 0011 0011"; bv "0101 0101 0101 0101"].
Proof. tests. Qed.
Example atompattern_raise :
  errs AssertErr [make_atompattern 0 0 false; make_atompattern 1 1 false; make_atompattern 2 2 false] /\ make_atompatterns 0 = Err AssertErr /\
  errs AssertErr [atompattern_to_signed_index (bv "0"); atompattern_to_signed_index (bv "0110 1001")].
Proof. tests. Qed.
Example atompattern_signed_index :
  map (fun s => atompattern_to_signed_index (bv s)) ["01"; "0101"; "0101 0101"; "10"; "1010"; "1010 1010"; "0011"; "0011 0011"; "1100"; "1100 1100"] =
  map Ok [(0, false); (0, false); (0, false); (0, true); (0, true); (0, true); (1, false); (1, false); (1, true); (1, true)].
Proof. tests. Qed.

(** a/_binary, a/_linear_to_index_pair, a/_log *)
Example binary_test : vector_to_int (b01 [1; 1; 0; 0; 0; 0; 0; 1]%Z) = 131 /\
  map int_to_weight (range 16) = [0; 1; 1; 2; 1; 2; 2; 3; 1; 2; 2; 3; 2; 3; 3; 4].
Proof. tests. Qed.
Example linear_to_index_pair_test :
  map (fun s => linear_to_walsh_and_oddness (bv s) false) ["0"; "00"; "1"; "11"; "0110 0110"; "1001 1001"; "1001 0110 0110 1001"] =
  map Ok [(0, false); (0, false); (0, true); (0, true); (3, false); (3, true); (15, true)] /\
  errs NotWalshRowError [linear_to_walsh_and_oddness (bv "1011") false; linear_to_walsh_and_oddness (bv "1000 0001") false] /\
  errs NotWalshRowError [linear_to_leader_and_quadrant (bv "1011") false; linear_to_leader_and_quadrant (bv "1000 0001") false].
Proof. tests. Qed.
Example linear_leader_quadrant :
  Forall (fun odd : bool => mapM (fun w => let* b := make_linear_binv (Some w) 5 (Some odd) None None in linear_to_leader_and_quadrant b false) (range 32) =
    Ok (map (fun w => (w / 2, Nat.b2n odd + 2 * Nat.b2n (xorb (Nat.odd (int_to_weight w)) odd))) (range 32))) [false; true].
Proof. repeat apply Forall_cons; try apply Forall_nil; vm_compute; reflexivity. Qed.
Example log_int_test : map log_int (map (fun i => 2 ^ i) (range 5)) = map Ok (range 5) /\ errs ArgValueError [log_int 0; log_int 3; log_int 5].
Proof. tests. Qed.

(** a/arity_to_walsh_matrix, a/binom, a/evil_odious, a/find_integer_partitions, a/flatten, a/have_only, a/hypercube_edges *)
Example walsh_matrix_test :
  arity_to_walsh_matrix 1 false = Ok (map bv ["00"; "01"]) /\ arity_to_walsh_matrix 2 false = Ok (map bv ["0000"; "0101"; "0011"; "0110"]) /\
  arity_to_walsh_matrix 3 false = Ok (map bv ["00000000"; "01010101"; "00110011"; "01100110"; "00001111"; "01011010"; "00111100"; "01101001"]).
Proof. tests. Qed.
Example binom_test : map (binom 4) (range 5) = map Ok [1; 4; 6; 4; 1] /\ map (binom 5) (range 6) = map Ok [1; 5; 10; 10; 5; 1].
Proof. tests. Qed.
Example evil_odious_test : let evil := [0; 3; 5; 6; 9; 10; 12; 15; 17; 18; 20; 23; 24; 27; 29; 30] in
  let odious := [1; 2; 4; 7; 8; 11; 13; 14; 16; 19; 21; 22; 25; 26; 28; 31] in
  map (fun i => index_to_evil (Z.of_nat i)) (range 16) = map Ok evil /\ map (fun e => evil_to_index (Z.of_nat e)) evil = map Ok (range 16) /\
  map (fun i => index_to_odious (Z.of_nat i)) (range 16) = map Ok odious /\ map (fun e => odious_to_index (Z.of_nat e)) odious = map Ok (range 16) /\
  errs ArgValueError [odious_to_index 0; evil_to_index 1; evil_to_index (-3)].
Proof. tests. Qed.
Definition same_set (l m : list (list nat)) : bool := forallb (fun x => tuple_memb x m) l && forallb (fun x => tuple_memb x l) m.
Example integer_partitions_test :
  same_set (find_integer_partitions 4) [[4]; [1; 1; 2]; [2; 2]; [1; 3]; [1; 1; 1; 1]] = true /\
  same_set (find_integer_partitions 5) [[5]; [1; 1; 3]; [1; 4]; [2; 3]; [1; 2; 2]; [1; 1; 1; 2]; [1; 1; 1; 1; 1]] = true.
Proof. tests. Qed.
Example flatten_test : flatten [Val 1] = [1] /\ flatten [Seq [Val 1; Val 2]; Seq [Val 3; Val 4]] = [1; 2; 3; 4] /\
  flatten [Seq [Val 1; Val 2]; Seq [Val 3; Seq [Val 4; Val 5]]] = [1; 2; 3; 4; 5].
Proof. tests. Qed.
Example have_only_test : let all := [Some 1; Some 2; None; None] in
  have_only [Some 1; Some 2] all = Ok true /\ have_only [Some 1; Some 2; None] all = Ok false /\ have_only [Some 1] all = Err ArgComboError.
Proof. tests. Qed.
Example hypercube_edges_test : hypercube_edges 0 = [] /\ hypercube_edges 1 = [(0, 1)] /\
  hypercube_edges 3 = [(0, 1); (0, 2); (0, 4); (1, 3); (1, 5); (2, 3); (2, 6); (3, 7); (4, 5); (4, 6); (5, 7); (6, 7)] /\
  hypercube_edges 4 = [(0, 1); (0, 2); (0, 4); (0, 8); (1, 3); (1, 5); (1, 9); (2, 3); (2, 6); (2, 10); (3, 7); (3, 11); (4, 5); (4, 6); (4, 12); (5, 7);
    (5, 13); (6, 7); (6, 14); (7, 15); (8, 9); (8, 10); (8, 12); (9, 11); (9, 13); (10, 11); (10, 14); (11, 15); (12, 13); (12, 14); (13, 15); (14, 15)].
Proof. tests. Qed.

(** a/int_to_factoradic, a/int_to_perm, a/int_to_sierpinski_row *)
Example factoradic_test : map int_to_factoradic (range 24) =
  [[]; [0; 1]; [0; 0; 1]; [0; 1; 1]; [0; 0; 2]; [0; 1; 2]; [0; 0; 0; 1]; [0; 1; 0; 1]; [0; 0; 1; 1]; [0; 1; 1; 1]; [0; 0; 2; 1]; [0; 1; 2; 1]; [0; 0; 0; 2];
   [0; 1; 0; 2]; [0; 0; 1; 2]; [0; 1; 1; 2]; [0; 0; 2; 2]; [0; 1; 2; 2]; [0; 0; 0; 3]; [0; 1; 0; 3]; [0; 0; 1; 3]; [0; 1; 1; 3]; [0; 0; 2; 3]; [0; 1; 2; 3]] /\
  int_to_factoradic 3989 = [0; 1; 2; 0; 1; 3; 5].
Proof. tests. Qed.
Example int_to_perm_test : int_to_perm 0 = Ok neutral_perm /\ int_to_perm 1 = Perm (ArgSeq [1; 0]) None /\ int_to_perm 9 = Perm (ArgSeq [3; 0; 1; 2]) None /\
  int_to_perm 119 = Perm (ArgSeq [4; 3; 2; 1; 0]) None.
Proof. tests. Qed.
Example sierpinski_row_test : map (int_to_sierpinski_row sort_nat) [0; 1; 2; 3; 4; 5; 6; 7; 11; 15; 18] =
  [[0]; [0; 1]; [0; 2]; [0; 1; 2; 3]; [0; 4]; [0; 1; 4; 5]; [0; 2; 4; 6]; range 8; [0; 1; 2; 3; 8; 9; 10; 11]; range 16; [0; 2; 16; 18]].
Proof. tests. Qed.

(** a/inventory_dict, a/inventory_partition, a/inverse_cartesian_product, a/is_multisubset, a/is_power_of_two *)
Example inventory_dict_test : inventory_dict [2; 1; 2; 30; 2; 7; 30] = [(1, 1); (2, 3); (7, 1); (30, 2)].
Proof. tests. Qed.
Example inventory_partition_test :
  (let* s := inventory_partition [2; 1; 2; 30; 2; 7; 30]%Z in let* t := SetPart (Some [[0; 2; 4]; [3; 6]]%Z) (DomSet [0; 1; 2; 3; 4; 5; 6]%Z) in
   let* e := sp_eq s t in Ok (e, map (get_label_from_block s) [[1]; [0; 2; 4]; [5]; [3; 6]]%Z)) = Ok (true, [Some 1; Some 2; Some 7; Some 30]%Z) /\
  (let* s := inventory_partition_dict [(55, 5); (77, 7); (555, 5); (777, 7); (7777, 7)]%Z in
   let* t := SetPart (Some [[55; 555]; [77; 777; 7777]]%Z) (DomSet [55; 77; 555; 777; 7777]%Z) in
   let* e := sp_eq s t in Ok (e, map (get_label_from_block s) [[55; 555]; [77; 777; 7777]]%Z)) = Ok (true, [Some 5; Some 7]%Z).
Proof. tests. Qed.
Example inverse_cartesian_product_test : let pairs := [(0, 0); (0, 1); (0, 6); (0, 7); (3, 0); (3, 1); (3, 6); (3, 7)] in
  inverse_cartesian_product pairs = Ok ([0; 3], [0; 1; 6; 7]) /\ inverse_cartesian_product [] = Ok ([], []) /\
  errs AssertErr [inverse_cartesian_product [(0, 1); (1, 0)]; inverse_cartesian_product (pairs ++ [(3, 8)])].
Proof. tests. Qed.
Example is_multisubset_test :
  is_multisubset [(0, 123); (1, 99)] [(0, 123); (1, 99)] = true /\ is_multisubset [(0, 123); (1, 99)] [(0, 123); (1, 100)] = true /\
  is_multisubset [(0, 123); (1, 100)] [(0, 123); (1, 99)] = false /\ is_multisubset [(0, 123)] [(0, 123); (1, 99)] = true /\
  is_multisubset [(0, 123); (1, 99)] [(0, 123)] = false /\ multiset_to_distri [(1, 4); (2, 3); (5, 1)] [5; 2; 1] = Ok [1; 3; 4] /\
  multiset_to_distri [(5, 3)] [5; 2; 1] = Ok [3; 0; 0].
Proof. tests. Qed.

(** a/key_tuples (the texts a, b, … as keys are numbers here) *)
Definition triple_of := Lst [Other; Other; Other].
Definition example1 := [Lst [Other; Other; Other; Other; Other]; triple_of; Lst [Lst [Other; Other; Other; Other]; triple_of; Lst [triple_of; Lst [Other; Other]]]].
Definition expected1 := [[0; 0]; [0; 1]; [0; 2]; [0; 3]; [0; 4]; [1; 0]; [1; 1]; [1; 2]; [2; 0; 0]; [2; 0; 1]; [2; 0; 2]; [2; 0; 3]; [2; 1; 0]; [2; 1; 1];
  [2; 1; 2]; [2; 2; 0; 0]; [2; 2; 0; 1]; [2; 2; 0; 2]; [2; 2; 1; 0]; [2; 2; 1; 1]].
Definition example2 := Dct [(10, triple_of); (11, Dct [(20, Other); (21, Other); (22, Lst [Other; Other]); (23, Lst [Lst []; Dct []])])].
Definition expected2 := [[10; 0]; [10; 1]; [10; 2]; [11; 20]; [11; 21]; [11; 22; 0]; [11; 22; 1]; [11; 23; 0]; [11; 23; 1]].
Example key_tuples_test :
  key_tuples (Lst []) false = Ok [] /\ key_tuples (Dct []) false = Ok [] /\ key_tuples (Lst [Other; Lst []]) false = Ok [[0]; [1]] /\
  key_tuples triple_of false = Ok [[0]; [1]; [2]] /\ key_tuples (Dct [(0, Other); (1, Other); (2, Other)]) false = Ok [[0]; [1]; [2]] /\
  key_tuples (Dct [(10, Other); (11, Lst []); (12, Dct []); (13, Other); (14, Dct [(20, triple_of); (21, Other); (22, Other)])]) false =
    Ok [[10]; [11]; [12]; [13]; [14; 20; 0]; [14; 20; 1]; [14; 20; 2]; [14; 21]; [14; 22]] /\
  key_tuples (Lst [triple_of; Lst [Other; Other]]) false = Ok [[0; 0]; [0; 1]; [0; 2]; [1; 0]; [1; 1]] /\
  key_tuples (Lst [triple_of; Dct [(10, Other); (11, Dct [(20, Other); (21, Other)])]]) false = Ok [[0; 0]; [0; 1]; [0; 2]; [1; 10]; [1; 11; 20]; [1; 11; 21]] /\
  key_tuples (Lst example1) false = Ok expected1 /\ key_tuples example2 false = Ok expected2 /\
  key_tuples (Lst (example1 ++ [example2])) false = Ok (expected1 ++ map (cons 3) expected2) /\ key_tuples Other false = Err ArgNotContainerError /\
  key_tuples (Dct [(3, triple_of); (5, triple_of); (7, Lst [Other; Other])]) false = Ok [[3; 0]; [3; 1]; [3; 2]; [5; 0]; [5; 1]; [5; 2]; [7; 0]; [7; 1]].
Proof. tests. Qed.

(** a/logic_abs, a/logic_abs_increase, a/logic_negate, a/logic_str *)
Example logic_abs_test : map logic_abs [0; nt 0; 1; nt 1; 2; nt 2]%Z = [0; 0; 1; 1; 2; 2] /\ logic_abs_vector [3; nt 1; 0; 99]%Z = [3; 1; 0; 99] /\
  logic_abs_vector [nt 3; 1; nt 0; nt 99]%Z = [3; 1; 0; 99] /\ logic_abs_vector [] = [].
Proof. tests. Qed.
Example logic_abs_increase_test :
  map (fun ab : Z * Z => logic_abs_increase (fst ab) (snd ab)) [(nt 0, 0); (nt 0, 1); (0, 0); (0, 1); (1, 0); (1, 1); (5, 1); (5, -1); (nt 5, 1); (nt 5, -1)]%Z =
  map Ok [nt 0; nt 1; 0; 1; 1; 2; 6; 4; nt 6; nt 4]%Z /\ logic_abs_increase_vector [5; 5; nt 5; nt 5]%Z [1; -1; 1; -1]%Z = Ok [6; 4; nt 6; nt 4]%Z /\
  errs ArgValueError [logic_abs_increase 0 (-1); logic_abs_increase (nt 0) (-1)] /\ logic_abs_increase_vector [1; 2; 3]%Z [1; 2]%Z = Err ArgValueError.
Proof. tests. Qed.
Example logic_negate_test :
  map (fun n => logic_negate n true) [nt 1; nt 0; 0; 1; 2]%Z = [1; 0; nt 0; nt 1; nt 2]%Z /\
  map (fun n => logic_negate n false) [1; 0; nt 0; nt 1; nt 2]%Z = [1; 0; nt 0; nt 1; nt 2]%Z /\
  map (fun n => logic_negate_str n true) [nt 1; nt 0; 0; 1; 2]%Z = map lit ["1"; "0"; "~0"; "~1"; "~2"] /\
  logic_negate_where [0; 1; 2; 3]%Z (bv "0011") = Ok [0; 1; nt 2; nt 3]%Z /\ logic_negate_where [11; 22; nt 33; nt 44]%Z (bv "0101") = Ok [11; nt 22; nt 33; 44]%Z /\
  logic_negate_where_str [11; 22; nt 33; nt 44]%Z (bv "0101") = Ok (lit "[11, ~22, ~33, 44]") /\ logic_negate_which [0; 1; 2; 3]%Z [2; 3] = Ok [0; 1; nt 2; nt 3]%Z /\
  logic_negate_which [0; nt 1; 2; nt 3]%Z [2; 3] = Ok [0; nt 1; nt 2; 3]%Z /\ logic_negate_which [11; 22; nt 33; nt 44]%Z [22; 44] = Ok [11; nt 22; nt 33; 44]%Z /\
  logic_negate_which_str [11; 22; nt 33; nt 44]%Z [22; 44] = Ok (lit "[11, ~22, ~33, 44]").
Proof. tests. Qed.
Example logic_str_test : map logic_str [nt 1; nt 0; 0; 1]%Z = map lit ["~1"; "~0"; "0"; "1"] /\ logic_str_vector [nt 1; nt 0; 0; 1]%Z = lit "[~1, ~0, 0, 1]".
Proof. tests. Qed.

(** a/make_linear_binv, a/make_linear_boolf *)
Example make_linear_binv_test :
  map (fun x : nat * nat * option bool => make_linear_binv (Some (fst (fst x))) (snd (fst x)) (snd x) None None)
    [(0, 1, None); (1, 1, None); (3, 2, Some false); (3, 2, Some true); (3, 3, None); (3, 4, None); (10, 4, None); (15, 4, None); (15, 4, Some true);
     (0, 4, Some false); (0, 4, Some true); (7, 4, Some false); (7, 4, Some true); (12, 4, Some false); (12, 4, Some true)] =
  map (fun s => Ok (bv s)) ["00"; "01"; "0110"; "1001"; "0110 0110"; "0110 0110 0110 0110"; "0011 0011 1100 1100"; "0110 1001 1001 0110"; "1001 0110 0110 1001";
     "0000 0000 0000 0000"; "1111 1111 1111 1111"; "0110 1001 0110 1001"; "1001 0110 1001 0110"; "0000 1111 1111 0000"; "1111 0000 0000 1111"] /\
  map (fun q => map (fun l => make_linear_binv None 3 None (Some l) (Some q)) (range 4)) (range 4) =
  map (map (fun s => Ok (bv s))) [["0000 0000"; "0110 0110"; "0101 1010"; "0011 1100"]; ["1010 1010"; "1100 1100"; "1111 0000"; "1001 0110"];
     ["0101 0101"; "0011 0011"; "0000 1111"; "0110 1001"]; ["1111 1111"; "1001 1001"; "1010 0101"; "1100 0011"]] /\
  errs ArgValueError [make_linear_binv (Some 0) 0 None None None; make_linear_binv (Some 1) 0 None None None] /\
  errs ArgTooBigError [make_linear_binv (Some 2) 1 None None None; make_linear_binv (Some 16) 4 None None None].
Proof. tests. Qed.
Example make_linear_boolf_test :
  map (fun x : nat * option bool => make_linear_boolf (Some (fst x)) (snd x) None None)
    [(0, Some false); (0, None); (0, Some true); (7, Some false); (7, None); (7, Some true); (12, Some false); (12, None); (12, Some true)] =
  map (fun x : string * list nat => Boolf_vec (bv (fst x)) (snd x))
    [("00", [0]); ("00", [0]); ("11", [0]); ("0110 1001", [0; 1; 2]); ("0110 1001", [0; 1; 2]); ("1001 0110", [0; 1; 2]); ("0110", [2; 3]); ("0110", [2; 3]);
     ("1001", [2; 3])] /\
  map (fun q => map (fun l => make_linear_boolf None None (Some l) (Some q)) [0; 1; 2; 3]%Z) (range 4) =
  map (map (fun s => Boolf_root (bv s))) [["00"; "0110"; "0101 1010"; "0011 1100"]; ["1010"; "1100"; "1111 0000"; "1001 0110"];
     ["0101"; "0011"; "0000 1111"; "0110 1001"]; ["11"; "1001"; "1010 0101"; "1100 0011"]] /\
  make_linear_boolf None None (Some 1%Z) (Some 4) = Err ArgValueError /\
  errs ArgComboError [make_linear_boolf (Some 1) None None (Some 1); make_linear_boolf None (Some true) (Some 1%Z) None; make_linear_boolf None None (Some 1%Z) None].
Proof. tests. Qed.

(** a/make_transposition, a/multi_lcm, a/powerset, a/repeat_sequence, a/rev_colex_perms, a/schoute_coset_gen *)
Example make_transposition_test : make_transposition 0 1 2 = Ok [1; 0]%Z /\ make_transposition 0 1 3 = Ok [1; 0; 2]%Z /\
  make_transposition 0 3 4 = Ok [3; 1; 2; 0]%Z /\ errs ArgValueError [make_transposition 1 1 2; make_transposition 0 1 1].
Proof. tests. Qed.
Example multi_lcm_test : map multi_lcm [[2; 5]; [2; 7; 5]; [2; 14; 5]; [14; 5]; [2; 4; 3]] = map Ok [10; 70; 70; 70; 12].
Proof. tests. Qed.
Example powerset_test : powerset [10; 11; 12] = [[]; [10]; [11]; [12]; [10; 11]; [10; 12]; [11; 12]; [10; 11; 12]].
Proof. tests. Qed.
Example repeat_sequence_test : repeat_sequence [10; 11] 6 = Ok [10; 11; 10; 11; 10; 11] /\ repeat_sequence [9; 99; 999] 6 = Ok [9; 99; 999; 9; 99; 999] /\
  repeat_sequence [9; 99; 999] 5 = Err AssertErr.
Proof. tests. Qed.
Example rev_colex_perms_test : rev_colex_perms 4 =
  [[0; 1; 2; 3]; [1; 0; 2; 3]; [0; 2; 1; 3]; [2; 0; 1; 3]; [1; 2; 0; 3]; [2; 1; 0; 3]; [0; 1; 3; 2]; [1; 0; 3; 2]; [0; 3; 1; 2]; [3; 0; 1; 2]; [1; 3; 0; 2]; [3; 1; 0; 2];
   [0; 2; 3; 1]; [2; 0; 3; 1]; [0; 3; 2; 1]; [3; 0; 2; 1]; [2; 3; 0; 1]; [3; 2; 0; 1]; [1; 2; 3; 0]; [2; 1; 3; 0]; [1; 3; 2; 0]; [3; 1; 2; 0]; [2; 3; 1; 0]; [3; 2; 1; 0]].
Proof. tests. Qed.
Example schoute_coset_test :
  map (fun x : nat * nat => let* l := schoute_coset (fst x) (snd x) 4 in Ok (sort_nat l)) [(4, 2); (11, 13); (6, 12); (9, 3)] =
  map Ok [[2; 3; 8; 9; 22; 23]; [2; 3; 8; 9; 22; 23]; [12; 14; 18; 20]; [12; 14; 18; 20]].
Proof. tests. Qed.

(** a/sierpinski, a/slice_to_range, a/sort_*, a/sorted_colex, a/subdict, a/swap_matrix_rows, a/vector_zip_*, a/walsh_function_to_index *)
Example sierpinski_test : sierpinski TR (Some 1) None = Ok (map bv ["11"; "01"]) /\ sierpinski TR None (Some 2) = Ok (map bv ["11"; "01"]) /\
  sierpinski TL None (Some 4) = Ok (map bv ["1111"; "1010"; "1100"; "1000"]) /\
  sierpinski BR (Some 3) None = Ok (map bv ["00000001"; "00000011"; "00000101"; "00001111"; "00010001"; "00110011"; "01010101"; "11111111"]).
Proof. tests. Qed.
Example slice_to_range_test : let up n := map Z.of_nat (range n) in
  slice_to_range None (Some 10%Z) None None = Ok (up 10) /\ slice_to_range (Some 3%Z) (Some 10%Z) None None = Ok [3; 4; 5; 6; 7; 8; 9]%Z /\
  slice_to_range (Some 3%Z) (Some 10%Z) (Some 2%Z) None = Ok [3; 5; 7; 9]%Z /\ slice_to_range None None None None = Err StopMissingError /\
  slice_to_range None None None (Some 20%Z) = Ok (up 20) /\ slice_to_range None None (Some 5%Z) (Some 20%Z) = Ok [0; 5; 10; 15]%Z /\
  slice_to_range None (Some 10%Z) None (Some 20%Z) = Ok (up 10) /\ slice_to_range (Some 3%Z) (Some 10%Z) None (Some 20%Z) = Ok [3; 4; 5; 6; 7; 8; 9]%Z /\
  slice_to_range (Some 3%Z) (Some 10%Z) (Some 2%Z) (Some 20%Z) = Ok [3; 5; 7; 9]%Z.
Proof. tests. Qed.
Example sort_cols_together_test : let a := [[5; 1; 2]; [3; 1; 5]; [2; 2; 1]]%Z in let b := [[22; 11; 33]; [99; 77; 44]]%Z in
  sort_cols_together [a; b] true = Ok [[[2; 1; 5]; [5; 1; 3]; [1; 2; 2]]; [[33; 11; 22]; [44; 77; 99]]]%Z /\
  sort_cols_together [a; b] false = Ok [[[1; 2; 5]; [1; 5; 3]; [2; 1; 2]]; [[11; 33; 22]; [77; 44; 99]]]%Z.
Proof. tests. Qed.
Example sort_rows_together_test : sort_rows_together [[[5; 1; 2]; [3; 1; 5]; [2; 2; 1]]; [[1; 2]; [1; 5]; [2; 1]]]%Z =
  Ok [[[2; 2; 1]; [3; 1; 5]; [5; 1; 2]]; [[2; 1]; [1; 5]; [1; 2]]]%Z.
Proof. tests. Qed.
Example sort_together_test : sort_together [2; 0; 1] [0; 1; 2] = Ok ([0; 1; 2], [1; 2; 0]).
Proof. tests. Qed.
Example sorted_colex_test :
  sorted_colex Nat.compare (product_repeat [0; 1; 2] 3) = map (@rev nat) (product_repeat [0; 1; 2] 3) /\
  sorted_colex Nat.compare (product_repeat [0; 1; 2] 2) = [[0; 0]; [1; 0]; [2; 0]; [0; 1]; [1; 1]; [2; 1]; [0; 2]; [1; 2]; [2; 2]] /\
  sorted_colex Nat.compare (product_repeat [0; 1] 4) =
    [[0; 0; 0; 0]; [1; 0; 0; 0]; [0; 1; 0; 0]; [1; 1; 0; 0]; [0; 0; 1; 0]; [1; 0; 1; 0]; [0; 1; 1; 0]; [1; 1; 1; 0]; [0; 0; 0; 1]; [1; 0; 0; 1]; [0; 1; 0; 1];
     [1; 1; 0; 1]; [0; 0; 1; 1]; [1; 0; 1; 1]; [0; 1; 1; 1]; [1; 1; 1; 1]].
Proof. tests. Qed.
Example subdict_test : (let* d := subdict asis [(1, 11); (2, 22); (4, 44)] (Some [1]) (Some [(2, 222); (6, 666)]) in Ok (dict_eqb d [(2, 222); (4, 44); (6, 666)])) = Ok true.
Proof. tests. Qed.
Example swap_matrix_rows_test : swap_matrix_rows [[1; 2; 3]; [4; 5; 6]; [7; 8; 9]] 1 2 = Ok [[1; 2; 3]; [7; 8; 9]; [4; 5; 6]].
Proof. tests. Qed.
Example vector_zip_test :
  vector_zip_apart [10; 11; 12; 13; 14; 15] [0; 1; 0; 1; 0; 2] = Ok [[10; 12; 14]; [11; 13]; [15]] /\ vector_zip_apart [10; 11; 12] [0; 1; 0] = Ok [[10; 12]; [11]] /\
  vector_zip_apart (bv "0110 0101") [0; 0; 0; 0; 1; 1; 1; 1] = Ok [bv "0110"; bv "0101"] /\
  errs ZipLengthError [vector_zip_apart [10] [0; 1]; vector_zip_apart [10; 11] [0]; vector_zip_apart [10] []] /\
  vector_zip_together [[10; 12; 14]; [11; 13]; [15]] [0; 1; 0; 1; 0; 2] = Ok [10; 11; 12; 13; 14; 15] /\
  vector_zip_together [[10; 12]; [11]] [0; 1; 0] = Ok [10; 11; 12].
Proof. tests. Qed.
Example walsh_function_to_index_test :
  mapM (fun i => let* r := make_linear_binv (Some i) 3 None None None in walsh_function_to_index r false) (range 8) = Ok (range 8) /\
  mapM (fun i => let* r := make_linear_binv (Some i) 4 None None None in walsh_function_to_index r false) (range 16) = Ok (range 16) /\
  map (fun s => walsh_function_to_index (bv s) false) ["0"; "00"; "0011 0011"; "0000 1111 1111 0000"] = map Ok [0; 0; 2; 12] /\
  walsh_function_to_index (bv "0101 0011") false = Err NotWalshRowError.
Proof. tests. Qed.

(** a/alphabet_subset, a/balanced_ternary_vector_to_string, a/balanced_ternary_walsh_matrix, a/is_natural, a/try_except *)
Example alphabet_subset_test : map alphabet_subset [[0; 1; 2]; [1; 3; 5; 7]; [0; 26]] =
  map Ok [map (fun s => Txt (lit s)) ["A"; "B"; "C"]; map (fun s => Txt (lit s)) ["B"; "D"; "F"; "H"]; [Num 0; Num 26]].
Proof. tests. Qed.
Example balanced_ternary_string_test : balanced_ternary_vector_to_string [-1; 0; 1; 0]%Z = Ok (8722 :: lit "0+0").
Proof. tests. Qed.
Example balanced_ternary_walsh_test : fst (balanced_ternary_walsh_matrix 2) =
  [[-1;  1;  0;  1;  0; -1;  0; -1;  1]; [ 1;  1;  1;  0;  0;  0; -1; -1; -1]; [ 0;  1; -1; -1;  0;  1;  1; -1;  0]; [ 1;  0; -1;  1;  0; -1;  1;  0; -1];
   [ 0;  0;  0;  0;  0;  0;  0;  0;  0]; [-1;  0;  1; -1;  0;  1; -1;  0;  1]; [ 0; -1;  1;  1;  0; -1; -1;  1;  0]; [-1; -1; -1;  0;  0;  0;  1;  1;  1];
   [ 1; -1;  0; -1;  0;  1;  0;  1; -1]]%Z.
Proof. tests. Qed.
Example is_natural_test : map is_natural [VInt 0; VInt 1; VFloat (Finite 3 (-1)); VInt (-1)] = map Ok [true; true; false; false].
Proof. tests. Qed.
Example try_except_test :
  errs ArgValueError [@try_except nat (Some (Err ZeroDivErr)) (Some ArgValueError) (Some (fun e => match e with ZeroDivErr => true | _ => false end));
                      @try_except nat (Some (Err ZeroDivErr)) (Some ArgValueError) None].
Proof. tests. Qed.
