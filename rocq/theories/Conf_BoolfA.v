(** Checks of the model against the test files of discretehelpers/boolf/a and boolf/subinit_methods (see Conf_Base). *)
From Coq Require Import String List Arith ZArith Bool.
From Verif Require Import Model_Base Model_Binary Model_SigPerm Model_SetPart Model_Splits Model_Perm Model_Boolf Model_Twin Model_BoolfMore Model_Helpers
  Model_MinRep Model_Misc Model_King Model_Segments Conf_Base Conf_Perm Conf_Examples.
Import ListNotations.
Local Open Scope string_scope.
Local Open Scope nat_scope.
Local Open Scope list_scope.

Example mod_tt : let b := bv "0110 0000 0110 0000" in let d := bv "1111 1010 1000 1000" in
  mod_tt_neg b (SignetInt 1) = Ok (bv "1001 0000 1001 0000") /\ mod_tt_neg b (SignetInt 7) = Ok (bv "0000 0110 0000 0110") /\
  mod_tt_perm inv d [3; 1; 0; 2] = Ok (bv "1110 1010 1110 0000") /\ mod_tt_perm inv d [3; 2; 0; 1] = Ok (bv "1111 1000 1010 1000").
Proof. tests. Qed.

Definition nobles (arity : nat) : list nat :=
  nth arity [[0]; [0; 2]; [0; 6; 8; 14]; [0; 30; 40; 54; 72; 86; 96; 126; 128; 158; 168; 182; 200; 214; 224; 254]] [].
Example noble_index : Forall (fun a => mapM (fun i => index_to_noble i a) (range (length (nobles a))) = Ok (nobles a) /\
  mapM (fun n => noble_to_index n a false) (nobles a) = Ok (range (length (nobles a)))) [0; 1; 2; 3].
Proof. repeat apply Forall_cons; try apply Forall_nil; tests. Qed.
Definition rk a n := let* r := noble_to_royal_and_quadrant n a in let* k := noble_to_king_index_and_quadrant n a in Ok (r, k).
Example noble_royal_king :
  mapM (rk 0) (nobles 0) = Ok [((0, 0), (0, 0))] /\ mapM (rk 1) (nobles 1) = Ok [((0, 0), (0, 0)); ((0, 3), (0, 3))] /\
  mapM (rk 2) (nobles 2) = Ok [((0, 0), (0, 0)); ((0, 1), (0, 1)); ((0, 2), (0, 2)); ((0, 3), (0, 3))] /\
  mapM (rk 3) (nobles 3) = Ok [((0, 0), (0, 0)); ((96, 1), (2, 1)); ((40, 0), (2, 0)); ((72, 1), (2, 1)); ((72, 0), (2, 0)); ((40, 1), (2, 1)); ((96, 0), (2, 0)); ((0, 1), (0, 1));
    ((0, 2), (0, 2)); ((96, 3), (2, 3)); ((40, 2), (2, 2)); ((72, 3), (2, 3)); ((72, 2), (2, 2)); ((40, 3), (2, 3)); ((96, 2), (2, 2)); ((0, 3), (0, 3))].
Proof. tests. Qed.
Example noble_raise :
  errs ArgTooBigError [index_to_noble 2 1; index_to_noble 4 2; index_to_noble 16 3; noble_to_index 3 1 false; noble_to_index 15 2 false; noble_to_index 255 3 false; noble_to_royal 15 2;
    noble_to_quadrant 15 2; noble_to_royal 255 3; noble_to_quadrant 255 3] /\
  errs ArgValueError [noble_to_index 1 1 false; noble_to_index 12 2 false; noble_to_index 123 3 false; noble_to_royal 1 1; noble_to_royal 12 2; noble_to_royal 123 3; noble_to_quadrant 1 1;
    noble_to_quadrant 12 2; noble_to_quadrant 123 3].
Proof. tests. Qed.
Example apply_sigperm_to_colors_test :
  (let* s := SigPerm_sequence [0; nt 1; nt 2; 3]%Z in let* d := apply_sigperm_to_colors [(0, [6; 7; 10; 11]); (1, [4; 5; 8; 9]); (2, [1; 12])] 4 s in
   mapM (fun c => let* l := Model_Blight.dget d c in Ok (sort_nat l)) [0; 1; 2]) = Ok [[0; 1; 12; 13]; [2; 3; 14; 15]; [7; 10]].
Proof. tests. Qed.
Example atom_indices_to_sequence_test :
  mapM (fun l => atom_indices_to_sequence l None) [[2]; [0; 1; 2]; [0; 3]; [1; 3]] =
    Ok [[0; 0; 0; 0; 1; 1; 1; 1]; [0; 1; 2; 3; 4; 5; 6; 7]; [0; 1; 0; 1; 0; 1; 0; 1; 2; 3; 2; 3; 2; 3; 2; 3]; [0; 0; 1; 1; 0; 0; 1; 1; 2; 2; 3; 3; 2; 2; 3; 3]] /\
  atom_indices_to_sequence [0; 1; 2] (Some 16) = Ok [0; 1; 2; 3; 4; 5; 6; 7; 0; 1; 2; 3; 4; 5; 6; 7].
Proof. tests. Qed.
Example count_split_regions_test : count_split_regions ([1; 3], [0; 8; 6]) ([3; 6], [0; 1; 8]) = 4 /\ count_split_regions ([1; 3], [0; 8; 6]) ([6], [0; 1; 3; 8]) = 3.
Proof. tests. Qed.
Example deflate_test :
  map (fun x : string * list nat => deflate (bv (fst x)) (snd x))
    [("1", []); ("1111", [77; 99]); ("0000 0000", [1; 3; 5]); ("1010", [0; 1]); ("1100", [0; 1]); ("0101 1010", [0; 1; 2]); ("0011 0011", [100; 300; 500]); ("0000 0000 0000 1111", [0; 1; 2; 3]);
     ("0001 1000 0001 1000", [2; 5; 8; 99])] =
  map (fun x : string * list nat => Ok (bv (fst x), snd x))
    [("1", []); ("1", []); ("0", []); ("10", [0]); ("10", [1]); ("0110", [0; 2]); ("01", [300]); ("0001", [2; 3]); ("0001 1000", [2; 5; 8])].
Proof. tests. Qed.
Example inflate_and_deflate : let s := [2; 3; 6; 7; 8; 9; 12; 13; 16; 17; 18; 19; 20; 21; 22; 23; 26; 27; 30; 31] in let b := bv "0011 0011 1100 1100 1111 1111 0011 0011" in
  (let* l := of (bfa "0110 1101" [3; 7; 9]) (fun f => inflated_fullspots f [1; 3; 5; 7; 9]) in Ok (nsame l s)) = Ok true /\ Binv_exposet s (Some 32) = Ok b /\
  deflate b [1; 3; 5; 7; 9] = Ok (bv "0110 1101", [3; 7; 9]).
Proof. tests. Qed.
Example flat_to_layered_test : flat_to_layered [0; 1; 1; 1] = Ok [[0]; [1; 1]; [1]] /\
  flat_to_layered (range 16) = Ok [[0]; [1; 2; 4; 8]; [3; 5; 6; 9; 10; 12]; [7; 11; 13; 14]; [15]] /\
  flat_to_places (bv "0111") = Ok [([0], []); ([], [1; 2]); ([], [3])] /\
  (let* t := of kagusi (fun f => boolf_tt f TtDefault) in flat_to_places t) = Ok [([0], []); ([4], [1; 2; 8]); ([5; 6; 9; 10], [3; 12]); ([7; 11; 14], [13]); ([15], [])] /\
  (let* t := of subaru (fun f => boolf_tt f TtDefault) in flat_to_places t) = Ok [([], [0]); ([1], [2; 4; 8]); ([9], [3; 5; 6; 10; 12]); ([14], [7; 11; 13]); ([15], [])].
Proof. tests. Qed.
Example hasse_coordinates_test : hasse_matrix_coordinates_to_tt 1 1 3 = Ok (bv "1000 0001") /\ hasse_matrix_coordinates_to_tt 3 3 3 = Ok (bv "1100 0011") /\
  hasse_matrix_coordinates_to_tt 3 5 3 = Ok (bv "1100 0101").
Proof. tests. Qed.
Example int_to_rcv_test : mapM (fun n => int_to_rcv n None) [0; 1; 2; 4; 16; 576] = Ok [[]; [1]; [1; 1]; [1; 1; 1]; [1; 1; 1; 1]; [2; 4; 4; 2]] /\
  errs SpecifiedLengthTooShortError [int_to_rcv 1 (Some 0); int_to_rcv 9 (Some 2)] /\ mapM (fun n => int_to_rcv n (Some 1)) [0; 1] = Ok [[0]; [1]] /\
  mapM (fun n => int_to_rcv n (Some 2)) (range 4) = Ok [[0; 0]; [1; 0]; [1; 1]; [2; 1]] /\
  mapM (fun n => int_to_rcv n (Some 3)) (range 16) = Ok [[0; 0; 0]; [1; 0; 0]; [1; 1; 0]; [2; 1; 0]; [1; 1; 1]; [2; 1; 1]; [2; 2; 1]; [3; 2; 1]; [1; 2; 1]; [2; 2; 1]; [2; 3; 1]; [3; 3; 1];
    [2; 3; 2]; [3; 3; 2]; [3; 4; 2]; [4; 4; 2]].
Proof. tests. Qed.
Example intval_to_arity_test : map intval_to_arity [0; 1; 2; 3; 4; 15; 16; 255; 256] = [0; 0; 1; 1; 2; 2; 3; 3; 4].
Proof. tests. Qed.
Example layered_is_greater_test : let g a b := layered_is_greater a b in
  [g [[2; 0]; [0; 2]] [[0; 1]; [0; 3]]; g [[0; 2]; [0; 1]] [[0; 1]; [0; 2]]; g [[0; 2]; [0; 1]] [[0; 1]; [0; 3]]; g [[1]; [1]] [[0]; [3]]; g [[1; 0]; [0; 2]] [[0; 1]; [1; 1]];
   g [[1; 0]; [0; 2]] [[0; 1]; [1; 2]]]%Z = [true; true; false; false; true; false].
Proof. tests. Qed.
Example praetor_int_test : mapM (fun i => praetor_int i 1) (range 4) = Ok [0; 1; 1; 0] /\
  mapM (fun i => praetor_int i 2) (range 16) = Ok [0; 1; 2; 3; 1; 0; 3; 2; 2; 3; 0; 1; 3; 2; 1; 0] /\
  mapM (fun i => praetor_int i 3) (range 256) = Ok (concat (map (fun r => map (fun c => Nat.lxor r c) (range 16)) (range 16))) /\
  praetor_int 123 0 = Err ArgTooSmallError /\ errs ArgTooBigError [praetor_int 4 1; praetor_int 16 2; praetor_int 256 3].
Proof. tests. Qed.
Example reorder_test : let r v a := reorder_if_atomvals_not_asc (bv v) a in
  r "0010" [3; 4] = Ok (bv "0010", [3; 4]) /\ r "0100" [1; 0] = Ok (bv "0010", [0; 1]) /\ r "0100" [5; 2] = Ok (bv "0010", [2; 5]) /\
  r "0100 1011" [2; 0; 1] = Ok (bv "0110 0101", [0; 1; 2]) /\ r "0100 1011" [5; 1; 3] = Ok (bv "0110 0101", [1; 3; 5]).
Proof. tests. Qed.
Example segment_to_adjacent_spots_test : segment_to_adjacent_spots [-1; 1; 0; 0]%Z = Ok [2; 6; 10; 14].
Proof. tests. Qed.
Example sequence_to_entry_counts_test : map sequence_to_entry_counts [[0; 1; 2; 0; 1; 2; 0; 1; 2]; [1; 2; 1; 3; 1; 1]] = [[0; 0; 0; 1; 1; 1; 2; 2; 2]; [0; 0; 1; 0; 2; 3]].
Proof. tests. Qed.
Example sierpinski_partition_test : let b p := let* p := p in Ok (sp_blocks p) in let r l := map (map Z.of_nat) l in
  b (atom_partition 0 3) = Ok (r [[0; 1]; [2; 3]; [4; 5]; [6; 7]]) /\ b (sierpinski_partition asis 1 3) = Ok (r [[0; 1]; [2; 3]; [4; 5]; [6; 7]]) /\
  b (atom_partition 3 4) = Ok (r (map (fun i => [i; i + 8]) (range 8))) /\ b (sierpinski_partition asis 8 4) = Ok (r (map (fun i => [i; i + 8]) (range 8))) /\
  b (sierpinski_partition asis 3 4) = Ok (r [[0; 1; 2; 3]; [4; 5; 6; 7]; [8; 9; 10; 11]; [12; 13; 14; 15]]) /\ b (sierpinski_partition asis 7 4) = Ok (r [range 8; range2 8 16]) /\
  b (sierpinski_partition asis 15 4) = Ok (r [range 16]).
Proof. tests. Qed.
Example sierpinski_twin_test : let st s i := sierpinski_twin asis (bv s) i 4 in let vt s := vector_to_twin_gen (bv s) 4 in
  st "1001 0001 0000 0100" 0 = Ok (bv "1110 1111 1110 1010") /\ vt "1001 0001 0000 0100" = Ok (bv "1110 1111 1110 1010") /\
  st "1100" 3 = Ok (bv "1111 0000 1111 0000") /\ vt "1000 1000 0000 0000" = Ok (bv "1111 0000 1111 0000") /\
  st "0000 0100" 8 = Ok (bv "0000 0101 0000 0101") /\ vt "0000 0100 0000 0000" = Ok (bv "0000 0101 0000 0101") /\
  st "10" 13 = Ok (bv "1111 1111 1111 1111") /\ vt "1000 0000 0000 0000" = Ok (bv "1111 1111 1111 1111").
Proof. tests. Qed.
Example simple_gens_test : let g o l := mapM (fun i => raw_gen (int_to_exposet i) 3 o) (range 8) = Ok (map bv l) in
  g AND ["11111111"; "01010101"; "00110011"; "00010001"; "00001111"; "00000101"; "00000011"; "00000001"] /\
  g XAND ["11111111"; "01010101"; "00110011"; "10011001"; "00001111"; "10100101"; "11000011"; "01101001"] /\
  g OR ["00000000"; "01010101"; "00110011"; "01110111"; "00001111"; "01011111"; "00111111"; "01111111"] /\
  g XOR ["00000000"; "01010101"; "00110011"; "01100110"; "00001111"; "01011010"; "00111100"; "01101001"] /\
  g EQ ["00000000"; "11111111"; "11111111"; "10011001"; "11111111"; "10100101"; "11000011"; "10000001"] /\
  g SAND ["00000000"; "10101010"; "11001100"; "01100110"; "11110000"; "01011010"; "00111100"; "00010110"] /\
  g GAND ["11111111"; "11111111"; "11111111"; "01110111"; "11111111"; "01011111"; "00111111"; "00010111"] /\
  g ESAND ["11111111"; "10101010"; "11001100"; "01110111"; "11110000"; "01011111"; "00111111"; "00010110"] /\
  g OSAND ["00000000"; "11111111"; "11111111"; "01100110"; "11111111"; "01011010"; "00111100"; "00010111"].
Proof. tests. Qed.
Example sort_each_layer_test : sort_each_layer [[3; 2; 1]; [2; 4; 2]]%Z = [[1; 2; 3]; [2; 2; 4]]%Z.
Proof. tests. Qed.
Example spread_test : mapM (fun s => spread_sigperm_to_sigvar s [0; 0; 5; 5]%Z)
    [[0; 1; 2; 3]; [0; 1; nt 2; 3]; [nt 0; 1; nt 2; 3]; [1; 3; 0; 2]; [1; nt 3; 0; 2]]%Z =
  Ok [[0; 1; 7; 8]; [0; 1; nt 7; 8]; [nt 0; 1; nt 7; 8]; [1; 8; 0; 7]; [1; nt 8; 0; 7]]%Z.
Proof. tests. Qed.
Example symmetric_to_index_test : Forall (fun x : nat * list nat => mapM (fun n => symmetric_to_index n (fst x)) (snd x) = Ok (range (length (snd x))))
    [(0, [0; 1]); (1, [0; 3]); (2, [0; 6; 9; 15]); (3, [0; 24; 36; 60; 66; 90; 102; 126; 129; 153; 165; 189; 195; 219; 231; 255])] /\
  errs ArgTooBigError [symmetric_to_index 2 0; symmetric_to_index 4 1; symmetric_to_index 16 2; symmetric_to_index 256 3] /\
  errs ArgValueError [symmetric_to_index 1 1; symmetric_to_index 12 2; symmetric_to_index 123 3].
Proof. tests. Qed.
Example twin_misc : let g := bv "1101 1110" in let r := bv "1011 0010" in let ge := [0; 1; 3; 4; 5; 6] in let same x l := let* x := x in Ok (nsame x l) in
  vector_to_twin_gen g 3 = Ok r /\ vector_to_twin_gen (bv "0000") 2 = Ok (bv "0000") /\ vector_to_twin_gen (bv "1000") 2 = Ok (bv "1111") /\
  same (exposet_to_twin_gen ge 3) [0; 2; 3; 6] = Ok true /\ exposet_to_twin_gen [] 2 = Ok [] /\ same (exposet_to_twin_gen [0] 2) [0; 1; 2; 3] = Ok true /\
  twin_int 77 3 = Ok 123 /\ twin_int 123 3 = Ok 77 /\ mapM (fun n => twin_int n 1) (range 4) = Ok [0; 3; 2; 1] /\
  mapM (fun n => twin_int n 2) (range 16) = Ok [0; 15; 10; 5; 12; 3; 6; 9; 8; 7; 2; 13; 4; 11; 14; 1] /\
  zhe_vector_to_prefect_gen g 3 = Ok (bv "0101 1010") /\ zhe_vector_to_prefect_gen (bv "0000") 2 = Ok (bv "0000") /\ zhe_vector_to_prefect_gen (bv "1000") 2 = Ok (bv "1111") /\
  same (zhe_exposet_to_prefect_gen ge 3) [1; 3; 4; 6] = Ok true /\ zhe_exposet_to_prefect_gen [] 2 = Ok [] /\ same (zhe_exposet_to_prefect_gen [0] 2) [0; 1; 2; 3] = Ok true /\
  zhe_to_prefect 123 3 = Ok (5, false) /\ mapM (fun n => zhe_to_prefect n 1) (range 4) = Ok [(0, false); (0, true); (1, false); (1, true)] /\
  mapM (fun n => zhe_to_prefect n 2) (range 16) = Ok [(0, false); (0, true); (1, false); (1, true); (2, false); (2, true); (3, false); (3, true); (3, true); (3, false); (2, true); (2, false);
    (1, true); (1, false); (0, true); (0, false)].
Proof. tests. Qed.

(** * subinit_methods *)
Example init_atom : allok [beq (batom 123) (bfa "01" [123]); beq (batom (nt 123)) (bfa "10" [123])].
Proof. oks. Qed.
Example init_fs : let f := bf "0" in let t := bf "1" in let r := "0101 0100" in
  allok [beq (bfs [] 0) f; beq (bfs [] 1) f; beq (bfs [] 2) f; beq (bfsa [] []) f; beq (bfsa [] [123]) f; beq (bfsa [] [123; 456]) f; beq (bfsa [0] []) t; beq (bfsa [0; 1] [1]) t;
         beq (bfsa [0; 1; 2; 3] [0; 1]) t; beq (bfsa (range 8) [123; 456; 789]) t; beq (bfsa [1; 3; 5] [0; 1; 2]) (bf r); beq (bfs [1; 3; 5] 3) (bf r);
         beq (bfsa [1; 3; 5] [77; 88; 99]) (bfa r [77; 88; 99]); beq (bfs [1; 3; 5] 4) (bf "0101 0100 0000 0000")] /\
  Boolf 1 (mkArgs None (Some [3; 4; 5]%Z) None (Some 123) (Some [123; 456]%Z) None None None None None None false) = Err ArgComboError /\ bfsa [123] [] = Err ArgMismatchError.
Proof. cbv zeta. split; [oks | tests]. Qed.
Example init_multi : let l := [11; 22; 33; 44] in let il := ints (zl l) in let a := mand (ints [nt 0; nt 1; nt 2]) in let b := mand (ints [0; 1; 2]%Z) in
  allok [beq (mand []) (bf "1"); beq (mxand []) (bf "1"); beq (mor []) (bf "0"); beq (mxor []) (bf "0"); beq (mand il) (bfa "0000 0000 0000 0001" l);
         beq (mor il) (bfa "0111 1111 1111 1111" l); beq (mxor il) (bfa "0110 1001 1001 0110" l); beq (mxand il) (bfa "1001 0110 0110 1001" l); beq (mand (ints [0; 1]%Z)) (bf "0001");
         beq (mand (ints [0; 1; nt 2]%Z)) (bf "0001 0000"); beq (mor (ints [5; 7]%Z)) (bfa "0111" [5; 7]); beq (mor (ints [5; 7; nt 9]%Z)) (bfa "1111 0111" [5; 7; 9]);
         beq a (bf "1000 0000"); beq b (bf "0000 0001"); beq (let* a := a in let* b := b in mor [MuBoolf a; MuBoolf b]) (bf "1000 0001");
         beq (let* a := a in let* b := b in mor [MuBoolf a; MuBoolf b; MuInt 3]) (bf "1000 0001 1111 1111")].
Proof. oks. Qed.
Definition btt t := Boolf 1 (mkArgs (Some t) None None None None None None None None None None false).
Example init_tt :
  allok [beq (btt (TtBool false)) (bf "0"); beq (btt (TtBool true)) (bf "1"); beq (bf "0000") (bf "0"); beq (bf "1111") (bf "1"); beq (bfa "0011 0011" [77; 88; 99]) (bfa "01" [88]);
         beq (bf "0110 0110") (bf "0110"); beq (bfn 1 0) (bf "1"); beq (bfn 1 1) (bf "10"); beq (bfn 1 2) (bf "1000"); beq (bfn 1 3) (bf "1000 0000"); beq (bfn 6 2) (bf "0110");
         beq (bfn 102 3) (bf "0110"); beq (bfn 123 3) (bf "1101 1110")] /\
  (let* f := bfi "1111" in Ok (atomvals f, root f, fullspots f, is_inflated f, is_constant f)) = Ok ([0; 1], bv "1111", [0; 1; 2; 3], true, false) /\
  (let* f := bfi "0110 0110" in Ok (root f, atomvals f, is_inflated f)) = Ok (bv "0110 0110", [0; 1; 2], true) /\
  (let* f := bfai "0110 0110" [77; 88; 99] in Ok (atomvals f, is_inflated f)) = Ok ([77; 88; 99], true) /\
  btt (TtInt 123) = Err ArgTypeError /\ bf "" = Err ArgValueError /\ Boolf 1 none_given = Err ArgComboError.
Proof. cbv zeta. split; [oks | tests]. Qed.
Example init_ws_zhe :
  allok [beq (bws [0]%Z) (bf "0"); beq (bws [1]%Z) (bf "1"); beq (bws [2; 0; 2; 0]%Z) (bf "1100"); beq (bws [5; -3; 1; 1; -1; -1; -1; -1]%Z) (bf "0101 1101"); beq (bzhe 0) (bf "0");
         beq (bzhe 1) (bf "1"); beq (bzhe 2) (bf "01"); beq (bzhe 3) (bf "10"); beq (bzhe 4) (bfa "01" [1]); beq (bzhe 5) (bfa "10" [1]); beq (bzhe 123) (bf "1011 0010")].
Proof. oks. Qed.
