(** More checks of the model against the test files of discretehelpers/boolf/methods and boolf/metributes (see Conf_Base and Conf_BoolfM). *)
From Coq Require Import String List Arith ZArith Bool QArith.
From Verif Require Import Model_Base Model_Binary Model_SigPerm Model_SetPart Model_SetPartComp Model_Splits Model_Perm Model_Boolf Model_Twin Model_Blight Model_BoolfMore Model_Helpers
  Model_MinRep Model_Misc Model_Ec Model_King Model_Segments Model_Str Model_Layers Model_Hyper Model_Pretty Model_SetPartBoolf Conf_Base Conf_Examples Conf_BoolfM.
Import ListNotations.
Local Open Scope string_scope.
Local Open Scope nat_scope.
Local Open Scope list_scope.

Definition kovane_hyperfission : Prop := Eval vm_compute in (
  of kovane (fun f => hyperfission f [1; 2]) = Ok [bv "0011"; bv "0110"; bv "0110"; bv "1100"] /\
  of kovane (fun f => hyperfission_walsh_spectra f [1; 2]) = Ok [[2; 0; -2; 0]; [2; 0; 0; -2]; [2; 0; 0; -2]; [2; 0; 2; 0]]%Z /\
  of kovane (fun f => hyperfission_walsh_spectra_abs f [1; 2]) = Ok [[2; 0; 2; 0]; [2; 0; 0; 2]; [2; 0; 0; 2]; [2; 0; 2; 0]]%Z /\
  of kovane (fun f => hyperfission_walsh_spectra_layered_abs f [1; 2]) = Ok [[[2]; [0; 2]; [0]]; [[2]; [0; 0]; [2]]; [[2]; [0; 0]; [2]]; [[2]; [0; 2]; [0]]]%Z /\
  of kovane (fun f => hyperfission_walsh_spectra_zipped f [1; 2]) = Ok [2; 0; 2; 0; 2; 0; 2; 0; -2; 0; 0; -2; 0; -2; 2; 0]%Z).
Example kovane_hyperfission_holds : kovane_hyperfission.
Proof. unfold kovane_hyperfission. many. Qed.
Definition patron_168 : Prop := Eval vm_compute in (
  mapM (fun z => of (bzhe z) (fun f => patron_int f 3)) [2; 28; 42; 52; 74; 84; 98; 124; 130; 156; 170; 180; 202; 212; 226; 252]%Z = Ok (repeat 168 16) /\
  of (bzhe 168) (fun f => patron_int f 3) = Ok 0 /\ of (bzhe 168) (fun f => patron_index f 3) = Ok 0 /\ beq (of (bzhe 168) (fun f => patron_boolf f 3)) (bf "0") = Ok true /\
  of (of (bzhe 168) (fun f => patron_boolf f 3)) prefect_walsh_and_oddness = Ok (0, false)).
Example patron_168_holds : patron_168.
Proof. unfold patron_168. many. Qed.
Definition patron_constants : Prop := Eval vm_compute in (
  map (fun a => (of (bf "0") (fun f => patron_int f a), beq (of (bf "0") (fun f => patron_boolf f a)) (bf "0"),
    of (bf "1") (fun f => patron_int f a), beq (of (bf "1") (fun f => patron_boolf f a)) (bfn (2 ^ 2 ^ a - 2) a))) [0; 1; 2; 3] =
  map (fun a => (Ok 0, Ok true, Ok (2 ^ 2 ^ a - 2), Ok true)) [0; 1; 2; 3]).
Example patron_constants_holds : patron_constants.
Proof. unfold patron_constants. many. Qed.
Definition tokosi_filtrated_pairs_pretty : Prop := Eval vm_compute in (
  of tokosi (fun f => filtrated_pairs_pretty asis f (Some (nm ["red"; "green"; "blue"; "brown"; "orange"]))) =
  Ok [(lit "crossing", [tp "red" "green"; tp "red" "blue"; tp "red" "brown"; tp "red" "orange"; tp "green" "blue"; tp "blue" "brown"; tp "blue" "orange"]);
      (lit "equal", [tp "brown" "orange"]); (lit "complementary", [tp "green" "brown"; tp "green" "orange"])]).
Example tokosi_filtrated_pairs_pretty_holds : tokosi_filtrated_pairs_pretty.
Proof. unfold tokosi_filtrated_pairs_pretty. many. Qed.
Definition consul_sequence : Prop := Eval vm_compute in (
  map (fun a => (mapM (fun i => of (bfn i a) (fun f => consul f (TtArity a))) (range (2 ^ 2 ^ a)), mapM (fun i => of (bfn i a) (fun f => consul_slow f a)) (range (2 ^ 2 ^ a)))) [0; 1; 2] =
  map (fun a => (Ok (firstn (2 ^ 2 ^ a) [0; 0; 1; 1; 2; 2; 3; 3; 3; 3; 2; 2; 1; 1; 0; 0]), Ok (firstn (2 ^ 2 ^ a) [0; 0; 1; 1; 2; 2; 3; 3; 3; 3; 2; 2; 1; 1; 0; 0]))) [0; 1; 2]).
Example consul_sequence_holds : consul_sequence.
Proof. unfold consul_sequence. many. Qed.
Definition consul_test : Prop := Eval vm_compute in (
  consuls bamako [4; 5; 6] = Ok [(0, 0); (16, 16); (0, 0)] /\ weights bamako [4; 5; 6] = Ok [0; 1; 0] /\
  consuls (bf "1001 0100") [3; 4; 5; 6] = Ok [(6, 6); (8, 8); (0, 0); (0, 0)] /\ weights (bf "1001 0100") [3; 4; 5; 6] = Ok [2; 1; 0; 0] /\
  consuls (bf "1010 0000") [3; 4; 5] = Ok [(2, 2); (0, 0); (0, 0)] /\ weights (bf "1010 0000") [3; 4; 5] = Ok [1; 0; 0] /\
  consuls (bf "0001") [2; 3; 4; 5] = Ok [(3, 3); (4, 4); (0, 0); (0, 0)] /\ weights (bf "0001") [2; 3; 4; 5] = Ok [2; 1; 0; 0] /\
  of (bf "0") (fun f => consul f TtDefault) = Ok 0 /\ of (bf "1") (fun f => consul f TtDefault) = Ok 0).
Example consul_test_holds : consul_test.
Proof. unfold consul_test. many. Qed.
Definition filtrated_tomute_darimi : Prop := Eval vm_compute in (
  yes [beq (fil tomute [0; 1; 2; 3]) vanatu; beq (fil tomute [1; 2; 3; 4]) darimi; beq (fil darimi [1; 2]) (bf "1"); beq (fil darimi [2; 4]) (bfa "1101" [2; 4]);
       beq (fil darimi [1; 2; 4]) (bfa "1101" [2; 4]); beq (fil darimi [3; 4]) (bfa "1101" [3; 4]); beq (fil darimi [1; 2; 3]) (bfa "1111 0111" [1; 2; 3]);
       beq (fil darimi [1; 3; 4]) (bfa "1101 0011" [1; 3; 4]); beq (fil darimi [2; 3; 4]) (bfa "1110 0001" [2; 3; 4])]).
Example filtrated_tomute_darimi_holds : filtrated_tomute_darimi.
Proof. unfold filtrated_tomute_darimi. many. Qed.
Definition twin_test : Prop := Eval vm_compute in (
  yes [tw (bf "1") None "1"; tw (bf "1") (Some 0) "1"; tw (bf "1") (Some 1) "10"; tw (bf "1") (Some 2) "1000"; tw (bf "1") (Some 3) "1000 0000"; tw (bf "1000 1001") None "1111 0001";
       tw (bf "1000 1001") (Some 3) "1111 0001"; tw (bf "1000 1001") (Some 4) "1111 0001 0000 0000"; tw (bf "1001") None "1110"; tw (bf "1001") (Some 2) "1110"; tw (bf "1001") (Some 3) "1110 0000";
       tw (bf "1001") (Some 4) "1110 0000 0000 0000"]).
Example twin_test_holds : twin_test.
Proof. unfold twin_test. many. Qed.
Definition gilipi_spectrum : Prop := Eval vm_compute in (
  wsp gilipi TtDefault = Ok [4; 2; 0; -2; 0; 2; 0; 2]%Z /\ of gilipi (fun f => walsh_spectrum_abs f TtDefault) = Ok [4; 2; 0; 2; 0; 2; 0; 2]%Z /\
  of gilipi (fun f => walsh_spectrum_layered f TtDefault) = Ok [[4]; [2; 0; 0]; [-2; 2; 0]; [2]]%Z /\ of gilipi (fun f => walsh_spectrum_abs_layered f TtDefault) = Ok [[4]; [2; 0; 0]; [2; 2; 0]; [2]]%Z /\
  wsp gilipi (TtArity 4) = Ok [8; 4; 0; -4; 0; 4; 0; 4; 0; 0; 0; 0; 0; 0; 0; 0]%Z /\
  of gilipi (fun f => walsh_spectrum_layered f (TtArity 4)) = Ok [[8]; [4; 0; 0; 0]; [-4; 4; 0; 0; 0; 0]; [4; 0; 0; 0]; [0]]%Z /\
  wsp gilipi (TtArity 2) = Err ArgTooSmallError /\ of gilipi (fun f => walsh_spectrum_layered f (TtArity 2)) = Err ArgTooSmallError).
Example gilipi_spectrum_holds : gilipi_spectrum.
Proof. unfold gilipi_spectrum. many. Qed.
Definition dukeli_spectrum : Prop := Eval vm_compute in (
  wsp dukeli TtDefault = Ok [8; 4; 2; 2; 2; -2; 0; 0; 4; 0; -2; -2; 2; -2; 0; 0]%Z /\
  of dukeli (fun f => walsh_spectrum_layered f TtDefault) = Ok [[8]; [4; 2; 2; 4]; [2; -2; 0; 0; -2; 2]; [0; -2; -2; 0]; [0]]%Z /\
  of dukeli (fun f => walsh_spectrum_abs f TtDefault) = Ok [8; 4; 2; 2; 2; 2; 0; 0; 4; 0; 2; 2; 2; 2; 0; 0]%Z /\
  of dukeli (fun f => walsh_spectrum_abs_layered f TtDefault) = Ok [[8]; [4; 2; 2; 4]; [2; 2; 0; 0; 2; 2]; [0; 2; 2; 0]; [0]]%Z /\
  wsp (bf "0") TtDefault = Ok [0]%Z /\ wsp (bf "1") TtDefault = Ok [1]%Z /\ wsp (batom 1) TtDefault = Ok [2; 0; -2; 0]%Z /\ wsp (batom 2) TtDefault = Ok [4; 0; 0; 0; -4; 0; 0; 0]%Z /\
  wsp (batom 3) TtDefault = Ok [8; 0; 0; 0; 0; 0; 0; 0; -8; 0; 0; 0; 0; 0; 0; 0]%Z).
Example dukeli_spectrum_holds : dukeli_spectrum.
Proof. unfold dukeli_spectrum. many. Qed.
Definition bareto_test : Prop := Eval vm_compute in (
  (let* a := of bareto (bloat asis) in let* b := SetPartComp (Some []) (Some [(1, 2)%Z]) in spc_eq a b) = Ok true /\ beq (of bareto (bloat_boolf asis)) (bfa "0110" [1; 2]) = Ok true /\
  yes (map (fun s => let* l := of bareto splits in split_is s l) [(0, ([3; 5], [2; 10; 4; 12])); (1, ([10; 2; 3], [12; 4; 5])); (2, ([12; 4; 5], [10; 2; 3])); (3, ([10; 12], [2; 3; 4; 5]))]) /\
  of bareto (blocks_and_sides asis) = Ok ([[0]; [1; 2]; [3]], [None; Some 1; None]) /\ of bareto (bloatless_atomkeys_undeflated asis) = Ok [0; 1; 3] /\
  of bareto (bloatless_atomkeys_deflated asis) = Ok [0; 3] /\ beq (of bareto (bloatless_boolf asis)) barogi = Ok true /\
  beq (of bareto (bloatless_boolf asis)) (bfsa [0; 1; 2; 3; 4; 6] [0; 1; 3]) = Ok true).
Example bareto_test_holds : bareto_test.
Proof. unfold bareto_test. many. Qed.
Definition foibles : Prop := Eval vm_compute in (
  no (map (get is_odd) [bf "0"; bfa "01" [999]; bfa "0111" [88; 99]]) /\ yes (map (get is_odd) [bf "1"; bfa "10" [999]; bfa "1001" [88; 99]]) /\
  mapM (fun i => get is_odd (bzhe (Z.of_nat i))) (range 256) = Ok (map Nat.odd (range 256)) /\ mapM (fun i => get is_odd (bfn i 3)) (range 256) = Ok (map Nat.odd (range 256)) /\
  no (map (get is_odious) [bf "0"; bfa "10" [999]; bfa "1110" [88; 99]]) /\ yes (map (get is_odious) [bf "1"; bfa "01" [999]; bfa "1001" [88; 99]]) /\
  mapM (fun i => get is_odious (bzhe (Z.of_nat i))) (range 256) = Ok (map (fun i => Nat.odd (int_to_weight i)) (range 256)) /\
  map (fun s => get is_ugly (bf s)) ["0"; "1"; "01"; "0110"; "0001"; "0111"] = [Ok false; Ok false; Ok true; Ok false; Ok true; Ok true] /\
  no (map (get is_male) [bf "0"; bfa "1001" [88; 99]; bfa "0101 0011" [77; 88; 99]]) /\ yes (map (get is_male) [bf "1"; bfa "1011" [88; 99]; bfa "0101 0111" [77; 88; 99]])).
Example foibles_holds : foibles.
Proof. unfold foibles. many. Qed.
Definition layered_tt_test : Prop := Eval vm_compute in (
  of medusa layered_tt = Ok [[1]; [1; 1; 1; 1]; [1; 1; 1; 1; 1; 1]; [1; 0; 0; 1]; [0]] /\ of sapigi layered_tt = Ok [[0]; [1; 0; 0; 1]; [1; 1; 0; 1; 1; 1]; [1; 0; 0; 1]; [0]] /\
  (let* l := of sarina layered_tt in Ok (map (map (fun n => Nat.eqb n 1)) l)) =
    Ok (map bv ["1"; "11110000"; "1010100001000000000000000000"; "00000000100000000000000000000000000000000000000000000000"; "0000000000000000000000000000010000000000000000000000000000010000000000";
                "00000000000000000000000000000000000000000000000000000000"; "0000000000000000000000000000"; "00000000"; "0"]) /\
  map (fun f => of f layered_weight) [medusa; sapigi; sarina; bnot sarina] = [Ok [1; 4; 6; 2; 0]; Ok [0; 2; 5; 2; 0]; Ok [1; 4; 4; 1; 2; 0; 0; 0; 0]; Ok [0; 4; 24; 55; 68; 56; 28; 8; 1]]).
Example layered_tt_test_holds : layered_tt_test.
Proof. unfold layered_tt_test. many. Qed.
Definition splits_equal_onesided : Prop := Eval vm_compute in (
  eqs [] (bf "0") /\ eqs [] (bf "1") /\ eqs [] (bfa "01" [5]) /\ eqs [] (bfa "10" [5]) /\ eqs [((0, 1), true)] (bfa "0001" [3; 5]) /\ eqs [((0, 1), false)] (bfa "0111" [3; 5]) /\
  eqs [((0, 1), true)] (bfa "0110" [3; 5]) /\ ones [] (bf "0") /\ ones [] (bf "1") /\ ones [true] (bfa "01" [5]) /\ ones [true] (bfa "10" [5]) /\ ones [true; true] (bfa "0001" [3; 5]) /\
  ones [false; false] (bfa "0111" [3; 5]) /\ ones [false; false] (bfa "0110" [3; 5])).
Example splits_equal_onesided_holds : splits_equal_onesided.
Proof. unfold splits_equal_onesided. many. Qed.
Definition crossing_atoms : Prop := Eval vm_compute in (
  of bunese atom_to_crossing_atoms = Ok [(0, [1; 2]); (1, [0; 2]); (2, [0; 1])] /\ of darimi atom_to_crossing_atoms = Ok [(0, [1; 2; 3]); (1, [0; 2]); (2, [0; 1]); (3, [0])] /\
  of vumali atom_to_crossing_atoms = Ok [(0, [1; 2]); (1, [0; 3; 4]); (2, [0; 3]); (3, [1; 2]); (4, [1]); (5, [6]); (6, [5]); (7, [])] /\
  of sapigi atom_to_crossing_atoms = Ok [(0, [1; 2]); (1, [0; 2; 3]); (2, [0; 1; 3]); (3, [1; 2])] /\
  map (fun f => of f atom_to_crossing_atoms) [medusa; farofe; niliko; rudege] = repeat (Ok [(0, [1; 2; 3]); (1, [0; 2; 3]); (2, [0; 1; 3]); (3, [0; 1; 2])]) 4).
Example crossing_atoms_holds : crossing_atoms.
Proof. unfold crossing_atoms. many. Qed.
Definition spread_vector_test : Prop := Eval vm_compute in (
  mapM (get spread_vector) [bf "0"; bf "1"; bf "10"; bfa "10" [1]; bfa "10" [2]; bfa "1000" [0; 2]; bfa "1001" [10; 20]; bfa "0101 1100" [10; 20; 30]; bfsa [3; 20; 5; 31] [0; 4; 5; 6; 7]] =
    Ok [[]; []; [0]; [1]; [2]; [0; 1]; [10; 19]; [10; 19; 28]; [0; 3; 3; 3; 3]]).
Example spread_vector_test_holds : spread_vector_test.
Proof. unfold spread_vector_test. many. Qed.
Definition symmetric_spots_test : Prop := Eval vm_compute in (
  yes [spots_part niliko [[0; 12]; [1; 14]; [5; 6]; [9; 10]] [0; 1; 4; 5; 6; 7; 8; 9; 10; 12; 14];
       spots_part tabita [[2; 4; 8]; [3; 5; 9]; [6; 10; 12]; [7; 11; 13]] [0; 2; 3; 4; 5; 6; 7; 8; 9; 10; 11; 12; 13];
       spots_part levana [[0; 1]; [2; 3]; [4; 9]; [5; 8]; [7; 10]] [0; 1; 2; 3; 4; 5; 7; 8; 9; 10]; spots_part dukeli [[1; 8]; [2; 4]; [3; 12]] [0; 1; 2; 3; 4; 6; 8; 12]] /\
  (let* a := of dukeli (symmetric_spots 3 binary_length) in blocks_with_singletons a BwsNone) = Ok (map zl [[0]; [1; 8]; [2; 4]; [3; 12]; [6]])).
Example symmetric_spots_test_holds : symmetric_spots_test.
Proof. unfold symmetric_spots_test. many. Qed.
