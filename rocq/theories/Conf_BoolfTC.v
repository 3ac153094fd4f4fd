(** Checks of the model against the files boolf/test/11 to 17 (see Conf_Base and Conf_BoolfT). 
    The values are computed when the file is compiled ([Eval vm_compute]), because the conversion of coqchk, which does not use the virtual machine, is too slow for them;
    the kernel sees only the results. *)
From Coq Require Import String List Arith ZArith Bool QArith.
From Verif Require Import Model_Base Model_Binary Model_SigPerm Model_SetPart Model_SetPartComp Model_Splits Model_Perm Model_Boolf Model_Twin Model_Blight Model_BoolfMore Model_Helpers
  Model_MinRep Model_Misc Model_Ec Model_King Model_Segments Model_Str Model_Layers Model_Hyper Model_Pretty Model_SetPartBoolf Conf_Base Conf_Examples Conf_BoolfM Conf_BoolfT.
Import ListNotations.
Local Open Scope string_scope.
Local Open Scope nat_scope.
Local Open Scope list_scope.

(* boolf/test/11_bec/blightless/arity_4/uni-bundle/test_321_sopuki.py *)
Definition test_321_sopuki_test_sopuki : list (res bool) := Eval vm_compute in [
  same nsame ((let* f := sopuki in Ok (fullspots f))) ((Ok ([0; 1; 2; 3; 4; 5; 6; 7; 8; 15] : list nat)))].
Example test_321_sopuki_test_sopuki_yes : yes test_321_sopuki_test_sopuki.
Proof. unfold test_321_sopuki_test_sopuki. many. Qed.
(* boolf/test/11_bec/blightless/arity_4/uni-bundle/test_374_serabe.py *)
Definition test_374_serabe_test_serabe : list (res bool) := Eval vm_compute in [
  same (sameset fpp_eqb) ((of (serabe) (fun f => filtrated_pairs_pretty asis f (Some [lit "A"; lit "B"; lit "C"; lit "D"])))) ((Ok [(lit "crossing", [(Txt (lit "A"), Txt (lit "B")); (Txt (lit "A"), Txt (lit "C")); (Txt (lit "A"), Txt (lit "D")); (Txt (lit "B"), Txt (lit "C")); (Txt (lit "B"), Txt (lit "D")); (Txt (lit "C"), Txt (lit "D"))])]));
  same (sameset nl_eqb) ((of (serabe) (atom_to_crossing_atoms))) ((Ok [(0, [1; 2; 3]); (1, [0; 2; 3]); (2, [0; 1; 3]); (3, [0; 1; 2])]))].
Example test_374_serabe_test_serabe_yes : yes test_374_serabe_test_serabe.
Proof. unfold test_374_serabe_test_serabe. many. Qed.
(* boolf/test/13_gap_variants_medusa/boolf_13_test.py *)
Definition boolf_13_test_test_kusiga : list (res bool) := Eval vm_compute in [
  same (sameset pdnat_eqb) ((of (kusiga) (splits_overlap_counts))) ((of (medusa) (splits_overlap_counts)))].
Example boolf_13_test_test_kusiga_yes : yes boolf_13_test_test_kusiga.
Proof. unfold boolf_13_test_test_kusiga. many. Qed.
(* boolf/test/13_gap_variants_medusa/boolf_13_test.py *)
Definition boolf_13_test_test_nosafu : list (res bool) := Eval vm_compute in [
  same (sameset pdnat_eqb) ((of (nosafu) (splits_overlap_counts))) ((of (medusa) (splits_overlap_counts)))].
Example boolf_13_test_test_nosafu_yes : yes boolf_13_test_test_nosafu.
Proof. unfold boolf_13_test_test_nosafu. many. Qed.
(* boolf/test/13_gap_variants_medusa/boolf_13_test.py *)
Definition boolf_13_test_test_rudege : list (res bool) := Eval vm_compute in [
  same (sameset pdnat_eqb) ((of (rudege) (splits_overlap_counts))) ((of (kusiga) (splits_overlap_counts)))].
Example boolf_13_test_test_rudege_yes : yes boolf_13_test_test_rudege.
Proof. unfold boolf_13_test_test_rudege. many. Qed.
(* boolf/test/13_gap_variants_medusa/boolf_13_test.py *)
Definition boolf_13_test_test_farofe : list (res bool) := Eval vm_compute in [
  same (sameset pdnat_eqb) ((of (farofe) (splits_overlap_counts))) ((of (medusa) (splits_overlap_counts)))].
Example boolf_13_test_test_farofe_yes : yes boolf_13_test_test_farofe.
Proof. unfold boolf_13_test_test_farofe. many. Qed.
(* boolf/test/13_gap_variants_medusa/boolf_13_test.py *)
Definition boolf_13_test_test_niliko : list (res bool) := Eval vm_compute in [
  same (sameset pdnat_eqb) ((of (niliko) (splits_overlap_counts))) ((of (medusa) (splits_overlap_counts)))].
Example boolf_13_test_test_niliko_yes : yes boolf_13_test_test_niliko.
Proof. unfold boolf_13_test_test_niliko. many. Qed.
(* boolf/test/13_gap_variants_medusa/boolf_13_test.py *)
Definition boolf_13_test_test_sapigi : list (res bool) := Eval vm_compute in [
  same (sameset pdnat_eqb) ((of (sapigi) (splits_overlap_counts))) ((Ok [((0, 1), 4); ((0, 2), 4); ((0, 3), 3); ((1, 2), 4); ((1, 3), 4); ((2, 3), 4)]))].
Example boolf_13_test_test_sapigi_yes : yes boolf_13_test_test_sapigi.
Proof. unfold boolf_13_test_test_sapigi. many. Qed.
(* boolf/test/15_conversions/barita_filtrates/gepofu_sedofu_test.py *)
Definition gepofu_sedofu_test_test_all : list (res bool) := Eval vm_compute in [
  block_pairs ((of (gepofu) (fun f => ec_clan 3 f None false))) ((of (sedofu) (root_boolf))) [(0, 3); (0, 5); (0, 9); (0, 11); (0, 12); (0, 14); (0, 18); (0, 20)];
  block_pairs ((of ((of (sedofu) (root_boolf))) (fun f => ec_clan 3 f None false))) (gepofu) [(0, 4); (0, 5); (0, 8); (0, 9); (0, 14); (0, 15); (0, 18); (0, 19)];
  same list_eqb ((let* f := sedofu in Ok (spread_vector f))) ((Ok ([1; 1; 2; 2] : list nat)))].
Example gepofu_sedofu_test_test_all_yes : yes gepofu_sedofu_test_test_all.
Proof. unfold gepofu_sedofu_test_test_all. many. Qed.
(* boolf/test/15_conversions/barita_filtrates/gepofu_sedofu_test.py *)
Definition gepofu_sedofu_test_test_samples : list (res bool) := Eval vm_compute in [
  beq ((of (gepofu) (fun f => boolf_apply f [4; 1; 2; 5]%Z))) ((of (gepofu) (fun f => boolf_apply f [2; 5; 4; 1]%Z)));
  beq ((of (gepofu) (fun f => boolf_apply f [4; 1; 2; 5]%Z))) (sedofu);
  beq ((of (sedofu) (fun f => boolf_apply f [1; 2; 0; 3]%Z))) ((of (sedofu) (fun f => boolf_apply f [2; 1; 3; 0]%Z)));
  beq ((of (sedofu) (fun f => boolf_apply f [1; 2; 0; 3]%Z))) (gepofu)].
Example gepofu_sedofu_test_test_samples_yes : yes gepofu_sedofu_test_test_samples.
Proof. unfold gepofu_sedofu_test_test_samples. many. Qed.
(* boolf/test/15_conversions/barita_filtrates/miniri_sediri_test.py *)
Definition miniri_sediri_test_test_samples : list (res bool) := Eval vm_compute in [
  beq ((of (miniri) (fun f => boolf_apply f [0; 4; 5; 3; 2]%Z))) ((of (miniri) (fun f => boolf_apply f [3; 4; 5; 0; 2]%Z)));
  beq ((of (miniri) (fun f => boolf_apply f [0; 4; 5; 3; 2]%Z))) (sediri);
  beq ((of (sediri) (fun f => boolf_apply f [0; 4; 3; 1; 2]%Z))) ((of (sediri) (fun f => boolf_apply f [3; 4; 0; 2; 1]%Z)));
  beq ((of (sediri) (fun f => boolf_apply f [0; 4; 3; 1; 2]%Z))) (miniri)].
Example miniri_sediri_test_test_samples_yes : yes miniri_sediri_test_test_samples.
Proof. unfold miniri_sediri_test_test_samples. many. Qed.
(* boolf/test/15_conversions/barita_filtrates/putuki_seduki_test.py *)
Definition putuki_seduki_test_test_all : list (res bool) := Eval vm_compute in [
  same oblock_eqb ((let* c := (of (putuki) (fun f => ec_clan 3 f None false)) in let* g := (of (seduki) (root_boolf)) in Ok (ec_block c g))) ((let* c := (of ((of (seduki) (root_boolf))) (fun f => ec_clan 3 f None false)) in let* g := putuki in Ok (ec_block c g)));
  block_pairs ((of (putuki) (fun f => ec_clan 3 f None false))) ((of (seduki) (root_boolf))) [(0, 0); (0, 5); (0, 7); (0, 9); (0, 14); (0, 16); (0, 18); (0, 23)];
  same list_eqb ((let* f := seduki in Ok (spread_vector f))) ((Ok ([0; 1; 1; 2] : list nat)))].
Example putuki_seduki_test_test_all_yes : yes putuki_seduki_test_test_all.
Proof. unfold putuki_seduki_test_test_all. many. Qed.
(* boolf/test/15_conversions/barita_filtrates/putuki_seduki_test.py *)
Definition putuki_seduki_test_test_samples : list (res bool) := Eval vm_compute in [
  beq ((of (putuki) (fun f => boolf_apply f [0; 2; 3; 5]%Z))) ((of (putuki) (fun f => boolf_apply f [3; 5; 0; 2]%Z)));
  beq ((of (putuki) (fun f => boolf_apply f [0; 2; 3; 5]%Z))) (seduki);
  beq ((of (seduki) (fun f => boolf_apply f [0; 1; 2; 3]%Z))) ((of (seduki) (fun f => boolf_apply f [2; 3; 0; 1]%Z)));
  beq ((of (seduki) (fun f => boolf_apply f [0; 1; 2; 3]%Z))) (putuki)].
Example putuki_seduki_test_test_samples_yes : yes putuki_seduki_test_test_samples.
Proof. unfold putuki_seduki_test_test_samples. many. Qed.
(* boolf/test/15_conversions/bloatless_alternatives/demole_test.py *)
Definition demole_test_test_all : list (res bool) := Eval vm_compute in [
  same list_eqb ((let* f := (of (demole) (bloatless_boolf asis)) in Ok (atomvals f))) ((Ok ([1; 2; 3] : list nat)));
  same list_eqb ((let* f := (of (demole) (fun f => filtrated_boolf f [0; 1; 3])) in Ok (atomvals f))) ((Ok ([0; 1; 3] : list nat)));
  block_pairs ((of ((of ((of (demole) (bloatless_boolf asis))) (root_boolf))) (fun f => ec_clan 3 f None false))) ((of ((of (demole) (fun f => filtrated_boolf f [0; 1; 3]))) (root_boolf))) [(1, 1); (1, 3); (2, 0); (2, 5); (4, 2); (4, 4)];
  block_pairs ((of ((of ((of (demole) (fun f => filtrated_boolf f [0; 1; 3]))) (root_boolf))) (fun f => ec_clan 3 f None false))) ((of ((of (demole) (bloatless_boolf asis))) (root_boolf))) [(2, 0); (2, 1); (2, 2); (2, 3); (2, 4); (2, 5)];
  same list_eqb ((let* f := (of (demole) (bloatless_boolf asis)) in Ok (spread_vector f))) ((Ok ([1; 1; 1] : list nat)));
  same list_eqb ((let* f := (of (demole) (fun f => filtrated_boolf f [0; 1; 3])) in Ok (spread_vector f))) ((Ok ([0; 0; 1] : list nat)))].
Example demole_test_test_all_yes : yes demole_test_test_all.
Proof. unfold demole_test_test_all. many. Qed.
(* boolf/test/15_conversions/bloatless_alternatives/demole_test.py *)
Definition demole_test_test_samples : list (res bool) := Eval vm_compute in [
  beq ((of ((of (demole) (bloatless_boolf asis))) (fun f => boolf_apply f [1; (-1); 3]%Z))) ((of ((of (demole) (bloatless_boolf asis))) (fun f => boolf_apply f [0; (-4); 1]%Z)));
  beq ((of ((of (demole) (bloatless_boolf asis))) (fun f => boolf_apply f [1; (-1); 3]%Z))) ((of (demole) (fun f => filtrated_boolf f [0; 1; 3])));
  beq ((of ((of (demole) (fun f => filtrated_boolf f [0; 1; 3]))) (fun f => boolf_apply f [1; (-3); 3]%Z))) ((of ((of (demole) (fun f => filtrated_boolf f [0; 1; 3]))) (fun f => boolf_apply f [3; 1; (-3)]%Z)));
  beq ((of ((of (demole) (fun f => filtrated_boolf f [0; 1; 3]))) (fun f => boolf_apply f [1; (-3); 3]%Z))) ((of (demole) (bloatless_boolf asis)))].
Example demole_test_test_samples_yes : yes demole_test_test_samples.
Proof. unfold demole_test_test_samples. many. Qed.
(* boolf/test/15_conversions/bloatless_alternatives/futare_test.py *)
Definition futare_test_test_samples : list (res bool) := Eval vm_compute in [
  beq ((of ((of (futare) (bloatless_boolf asis))) (fun f => boolf_apply f [4; (-1); 5; 6; 7]%Z))) ((of ((of (futare) (bloatless_boolf asis))) (fun f => boolf_apply f [7; (-6); 0; (-7); 4]%Z)));
  beq ((of ((of (futare) (bloatless_boolf asis))) (fun f => boolf_apply f [4; (-1); 5; 6; 7]%Z))) ((of (futare) (fun f => filtrated_boolf f [0; 4; 5; 6; 7])));
  beq ((of ((of (futare) (fun f => filtrated_boolf f [0; 4; 5; 6; 7]))) (fun f => boolf_apply f [0; (-2); 5; 6; 7]%Z))) ((of ((of (futare) (fun f => filtrated_boolf f [0; 4; 5; 6; 7]))) (fun f => boolf_apply f [7; 5; 0; (-7); (-2)]%Z)));
  beq ((of ((of (futare) (fun f => filtrated_boolf f [0; 4; 5; 6; 7]))) (fun f => boolf_apply f [0; (-2); 5; 6; 7]%Z))) ((of (futare) (bloatless_boolf asis)))].
Example futare_test_test_samples_yes : yes futare_test_test_samples.
Proof. unfold futare_test_test_samples. many. Qed.
(* boolf/test/15_conversions/dagoro_darimi_test.py *)
Definition dagoro_darimi_test_test : list (res bool) := Eval vm_compute in [
  same glove_eqb ((let* c := (of (dagoro) (fun f => ec_clan 3 f (Some 5) false)) in Ok (ec_glove c))) ((let* c := (of (darimi) (fun f => ec_clan 3 f None false)) in Ok (ec_glove c)));
  same glove_eqb ((let* c := (of (dagoro) (fun f => ec_clan 3 f (Some 5) false)) in Ok (ec_glove c))) ((Ok (Some [[0; 1; 2; 3]; [0; 1; 2; 4]; [0; 1; 3; 4]; [0; 2; 3; 4]; [1; 2; 3; 4]])))].
Example dagoro_darimi_test_test_yes : yes dagoro_darimi_test_test.
Proof. unfold dagoro_darimi_test_test. many. Qed.
(* boolf/test/15_conversions/dobare_dobipi_test.py *)
Definition dobare_dobipi_test_test : list (res bool) := Eval vm_compute in [
  same oblock_eqb ((let* c := (of (dobare) ec_family) in let* g := dobipi in Ok (ec_block c g))) ((let* c := (of (dobipi) ec_family) in let* g := dobare in Ok (ec_block c g)));
  same oblock_eqb (let* c := (of (dobare) ec_family) in let* g := dobipi in Ok (ec_block c g)) (Ok (Some [1]%Z));
  beq ((of (dobare) (fun f => boolf_apply f [(-1); 1; 2]%Z))) (dobipi);
  beq ((of (dobipi) (fun f => boolf_apply f [(-1); 1; 2]%Z))) (dobare)].
Example dobare_dobipi_test_test_yes : yes dobare_dobipi_test_test.
Proof. unfold dobare_dobipi_test_test. many. Qed.
(* boolf/test/15_conversions/dukeli_dukove_test.py *)
Definition dukeli_dukove_test_test : list (res bool) := Eval vm_compute in [
  block_pairs ((of (dukeli) (fun f => ec_clan 3 f None false))) (dukove) [(0, 3); (0, 11)];
  block_pairs ((of (dukove) (fun f => ec_clan 3 f None false))) (dukeli) [(0, 4); (0, 19)];
  same zlist_eqb ((let* p := (SigPerm_pair 0 3) in sg_sequence p (Some 4))) ((Ok [2; 0; 1; 3]%Z));
  same zlist_eqb ((let* p := (SigPerm_pair 0 11) in sg_sequence p (Some 4))) ((Ok [3; 1; 0; 2]%Z));
  same zlist_eqb ((let* p := (SigPerm_pair 0 4) in sg_sequence p (Some 4))) ((Ok [1; 2; 0; 3]%Z));
  same zlist_eqb ((let* p := (SigPerm_pair 0 19) in sg_sequence p (Some 4))) ((Ok [2; 1; 3; 0]%Z));
  beq ((of (dukeli) (fun f => boolf_apply f [2; 0; 1; 3]%Z))) ((of (dukeli) (fun f => boolf_apply f [3; 1; 0; 2]%Z)));
  beq ((of (dukeli) (fun f => boolf_apply f [2; 0; 1; 3]%Z))) (dukove);
  beq ((of (dukove) (fun f => boolf_apply f [1; 2; 0; 3]%Z))) ((of (dukove) (fun f => boolf_apply f [2; 1; 3; 0]%Z)));
  beq ((of (dukove) (fun f => boolf_apply f [1; 2; 0; 3]%Z))) (dukeli)].
Example dukeli_dukove_test_test_yes : yes dukeli_dukove_test_test.
Proof. unfold dukeli_dukove_test_test. many. Qed.
(* boolf/test/15_conversions/potero_givero_test.py *)
Definition potero_givero_test_test : list (res bool) := Eval vm_compute in [
  block_pairs ((of (potero) (fun f => ec_clan 3 f None false))) (givero) [(1, 4); (6, 2)];
  block_pairs ((of (givero) (fun f => ec_clan 3 f None false))) (potero) [(4, 3); (6, 2)];
  same zlist_eqb ((let* p := (SigPerm_pair 1 4) in sg_sequence p (Some 3))) ((Ok [1; 2; (-1)]%Z));
  same zlist_eqb ((let* p := (SigPerm_pair 6 2) in sg_sequence p (Some 3))) ((Ok [0; (-3); (-2)]%Z));
  same zlist_eqb ((let* p := (SigPerm_pair 4 3) in sg_sequence p (Some 3))) ((Ok [(-3); 0; 1]%Z));
  same zlist_eqb ((let* p := (SigPerm_pair 6 2) in sg_sequence p (Some 3))) ((Ok [0; (-3); (-2)]%Z));
  beq ((of (potero) (fun f => boolf_apply f [1; 2; (-1)]%Z))) ((of (potero) (fun f => boolf_apply f [0; (-3); (-2)]%Z)));
  beq ((of (potero) (fun f => boolf_apply f [1; 2; (-1)]%Z))) (givero);
  beq ((of (givero) (fun f => boolf_apply f [(-3); 0; 1]%Z))) ((of (givero) (fun f => boolf_apply f [0; (-3); (-2)]%Z)));
  beq ((of (givero) (fun f => boolf_apply f [(-3); 0; 1]%Z))) (potero)].
Example potero_givero_test_test_yes : yes potero_givero_test_test.
Proof. unfold potero_givero_test_test. many. Qed.
(* boolf/test/15_conversions/potula_basori_test.py *)
Definition potula_basori_test_test : list (res bool) := Eval vm_compute in [
  same glove_eqb ((let* c := (of (potula) (fun f => ec_clan 3 f (Some 5) false)) in Ok (ec_glove c))) ((let* c := (of (basori) (fun f => ec_clan 3 f None false)) in Ok (ec_glove c)));
  same glove_eqb ((let* c := (of (potula) (fun f => ec_clan 3 f (Some 5) false)) in Ok (ec_glove c))) ((Ok (Some [[0; 1; 2]; [0; 1; 3]; [0; 1; 4]; [0; 2; 3]; [0; 2; 4]; [0; 3; 4]; [1; 2; 3]; [1; 2; 4]; [1; 3; 4]; [2; 3; 4]])))].
Example potula_basori_test_test_yes : yes potula_basori_test_test.
Proof. unfold potula_basori_test_test. many. Qed.
(* boolf/test/15_conversions/putuki_badugo_test.py *)
Definition putuki_badugo_test_test_all : list (res bool) := Eval vm_compute in [
  block_pairs ((of (putuki) (fun f => ec_clan 3 f None false))) (badugo) [(1, 0); (1, 5); (1, 7); (1, 9); (1, 14); (1, 16); (1, 18); (1, 23)];
  block_pairs ((of (badugo) (fun f => ec_clan 3 f None false))) (putuki) [(1, 0); (1, 14); (2, 7); (2, 18); (4, 5); (4, 16); (8, 9); (8, 23)];
  same zlist_eqb ((let* p := (SigPerm_pair 1 0) in sg_sequence p (Some 4))) ((Ok [(-1); 1; 2; 3]%Z));
  same zlist_eqb ((let* p := (SigPerm_pair 1 5) in sg_sequence p (Some 4))) ((Ok [2; 1; (-1); 3]%Z));
  same zlist_eqb ((let* p := (SigPerm_pair 1 7) in sg_sequence p (Some 4))) ((Ok [1; (-1); 3; 2]%Z));
  same zlist_eqb ((let* p := (SigPerm_pair 1 9) in sg_sequence p (Some 4))) ((Ok [3; (-1); 1; 2]%Z));
  same zlist_eqb ((let* p := (SigPerm_pair 1 14) in sg_sequence p (Some 4))) ((Ok [(-1); 3; 2; 1]%Z));
  same zlist_eqb ((let* p := (SigPerm_pair 1 16) in sg_sequence p (Some 4))) ((Ok [2; 3; (-1); 1]%Z));
  same zlist_eqb ((let* p := (SigPerm_pair 1 18) in sg_sequence p (Some 4))) ((Ok [1; 2; 3; (-1)]%Z));
  same zlist_eqb ((let* p := (SigPerm_pair 1 23) in sg_sequence p (Some 4))) ((Ok [3; 2; 1; (-1)]%Z));
  same zlist_eqb ((let* p := (SigPerm_pair 1 0) in sg_sequence p (Some 4))) ((Ok [(-1); 1; 2; 3]%Z));
  same zlist_eqb ((let* p := (SigPerm_pair 1 14) in sg_sequence p (Some 4))) ((Ok [(-1); 3; 2; 1]%Z));
  same zlist_eqb ((let* p := (SigPerm_pair 2 7) in sg_sequence p (Some 4))) ((Ok [(-2); 0; 3; 2]%Z));
  same zlist_eqb ((let* p := (SigPerm_pair 2 18) in sg_sequence p (Some 4))) ((Ok [(-2); 2; 3; 0]%Z));
  same zlist_eqb ((let* p := (SigPerm_pair 4 5) in sg_sequence p (Some 4))) ((Ok [(-3); 1; 0; 3]%Z));
  same zlist_eqb ((let* p := (SigPerm_pair 4 16) in sg_sequence p (Some 4))) ((Ok [(-3); 3; 0; 1]%Z));
  same zlist_eqb ((let* p := (SigPerm_pair 8 9) in sg_sequence p (Some 4))) ((Ok [(-4); 0; 1; 2]%Z));
  same zlist_eqb ((let* p := (SigPerm_pair 8 23) in sg_sequence p (Some 4))) ((Ok [(-4); 2; 1; 0]%Z));
  beq ((of (putuki) (fun f => boolf_apply f [(-1); 1; 2; 3]%Z))) (badugo);
  beq ((of (badugo) (fun f => boolf_apply f [(-1); 1; 2; 3]%Z))) (putuki);
  beq ((of (putuki) (fun f => boolf_apply f [2; 1; (-1); 3]%Z))) (badugo);
  beq ((of (badugo) (fun f => boolf_apply f [(-1); 3; 2; 1]%Z))) (putuki);
  beq ((of (putuki) (fun f => boolf_apply f [1; (-1); 3; 2]%Z))) (badugo);
  beq ((of (badugo) (fun f => boolf_apply f [(-2); 0; 3; 2]%Z))) (putuki);
  beq ((of (putuki) (fun f => boolf_apply f [3; (-1); 1; 2]%Z))) (badugo);
  beq ((of (badugo) (fun f => boolf_apply f [(-2); 2; 3; 0]%Z))) (putuki);
  beq ((of (putuki) (fun f => boolf_apply f [(-1); 3; 2; 1]%Z))) (badugo);
  beq ((of (badugo) (fun f => boolf_apply f [(-3); 1; 0; 3]%Z))) (putuki);
  beq ((of (putuki) (fun f => boolf_apply f [2; 3; (-1); 1]%Z))) (badugo);
  beq ((of (badugo) (fun f => boolf_apply f [(-3); 3; 0; 1]%Z))) (putuki);
  beq ((of (putuki) (fun f => boolf_apply f [1; 2; 3; (-1)]%Z))) (badugo);
  beq ((of (badugo) (fun f => boolf_apply f [(-4); 0; 1; 2]%Z))) (putuki);
  beq ((of (putuki) (fun f => boolf_apply f [3; 2; 1; (-1)]%Z))) (badugo);
  beq ((of (badugo) (fun f => boolf_apply f [(-4); 2; 1; 0]%Z))) (putuki)].
Example putuki_badugo_test_test_all_yes : yes putuki_badugo_test_test_all.
Proof. unfold putuki_badugo_test_test_all. many. Qed.
(* boolf/test/15_conversions/putuki_badugo_test.py *)
Definition putuki_badugo_test_test_samples : list (res bool) := Eval vm_compute in [
  beq ((of (putuki) (fun f => boolf_apply f [(-1); 1; 2; 3]%Z))) ((of (putuki) (fun f => boolf_apply f [3; 2; 1; (-1)]%Z)));
  beq ((of (putuki) (fun f => boolf_apply f [(-1); 1; 2; 3]%Z))) (badugo);
  beq ((of (badugo) (fun f => boolf_apply f [(-1); 1; 2; 3]%Z))) ((of (badugo) (fun f => boolf_apply f [(-4); 2; 1; 0]%Z)));
  beq ((of (badugo) (fun f => boolf_apply f [(-1); 1; 2; 3]%Z))) (putuki)].
Example putuki_badugo_test_test_samples_yes : yes putuki_badugo_test_test_samples.
Proof. unfold putuki_badugo_test_test_samples. many. Qed.
(* boolf/test/16_skip_deflation/boolf_16_test.py *)
Definition boolf_16_test_test_sapigi : list (res bool) := Eval vm_compute in [
  same nsame ((let* f := bfsai [1; 3; 5; 7; 8; 9; 10; 11; 12; 13; 14; 15] [0; 1; 2; 3] in Ok (fullspots f))) ((Ok ([1; 3; 5; 7; 8; 9; 10; 11; 12; 13; 14; 15] : list nat)));
  same list_eqb ((let* f := bfsai [1; 3; 5; 7; 8; 9; 10; 11; 12; 13; 14; 15] [0; 1; 2; 3] in Ok (atomvals f))) ((Ok ([0; 1; 2; 3] : list nat)));
  (of (bfsai [1; 3; 5; 7; 8; 9; 10; 11; 12; 13; 14; 15] [0; 1; 2; 3]) (is_blightless asis));
  same (sameset hsp_eqb) ((of (bfsai [1; 3; 5; 7; 8; 9; 10; 11; 12; 13; 14; 15] [0; 1; 2; 3]) (fun f => hypersplits_pretty asis f None))) ((Ok [(1, [[(tx "~A", [8; 10; 12; 14]); (tx "+A", [1; 3; 5; 7; 9; 11; 13; 15])]; [(tx "~B", [1; 5; 8; 9; 12; 13]); (tx "+B", [3; 7; 10; 11; 14; 15])]; [(tx "~C", [1; 3; 8; 9; 10; 11]); (tx "+C", [5; 7; 12; 13; 14; 15])]; [(tx "~D", [1; 3; 5; 7]); (tx "+D", [8; 9; 10; 11; 12; 13; 14; 15])]]); (2, [[(tx "~A ~B", [8; 12]); (tx "+A ~B", [1; 5; 9; 13]); (tx "~A +B", [10; 14]); (tx "+A +B", [3; 7; 11; 15])]; [(tx "~A ~C", [8; 10]); (tx "+A ~C", [1; 3; 9; 11]); (tx "~A +C", [12; 14]); (tx "+A +C", [5; 7; 13; 15])]; [(tx "~B ~C", [1; 8; 9]); (tx "+B ~C", [3; 10; 11]); (tx "~B +C", [5; 12; 13]); (tx "+B +C", [7; 14; 15])]; [(tx "~B ~D", [1; 5]); (tx "+B ~D", [3; 7]); (tx "~B +D", [8; 9; 12; 13]); (tx "+B +D", [10; 11; 14; 15])]; [(tx "~C ~D", [1; 3]); (tx "+C ~D", [5; 7]); (tx "~C +D", [8; 9; 10; 11]); (tx "+C +D", [12; 13; 14; 15])]]); (3, [[(tx "~A ~B ~C", [8]); (tx "+A ~B ~C", [1; 9]); (tx "~A +B ~C", [10]); (tx "+A +B ~C", [3; 11]); (tx "~A ~B +C", [12]); (tx "+A ~B +C", [5; 13]); (tx "~A +B +C", [14]); (tx "+A +B +C", [7; 15])]; [(tx "~B ~C ~D", [1]); (tx "+B ~C ~D", [3]); (tx "~B +C ~D", [5]); (tx "+B +C ~D", [7]); (tx "~B ~C +D", [8; 9]); (tx "+B ~C +D", [10; 11]); (tx "~B +C +D", [12; 13]); (tx "+B +C +D", [14; 15])]])]))].
Example boolf_16_test_test_sapigi_yes : yes boolf_16_test_test_sapigi.
Proof. unfold boolf_16_test_test_sapigi. many. Qed.
(* boolf/test/16_skip_deflation/boolf_16_test.py *)
Definition boolf_16_test_test_true : list (res bool) := Eval vm_compute in [
  same nsame ((let* f := bfi "1111 1111" in Ok (fullspots f))) ((Ok ([0; 1; 2; 3; 4; 5; 6; 7] : list nat)));
  same list_eqb ((let* f := bfi "1111 1111" in Ok (atomvals f))) ((Ok ([0; 1; 2] : list nat)));
  same (sameset hsp_eqb) ((of (bfi "1111 1111") (fun f => hypersplits_pretty asis f None))) ((Ok [(1, [[(tx "~A", [0; 2; 4; 6]); (tx "+A", [1; 3; 5; 7])]; [(tx "~B", [0; 1; 4; 5]); (tx "+B", [2; 3; 6; 7])]; [(tx "~C", [0; 1; 2; 3]); (tx "+C", [4; 5; 6; 7])]]); (2, [[(tx "~A ~B", [0; 4]); (tx "+A ~B", [1; 5]); (tx "~A +B", [2; 6]); (tx "+A +B", [3; 7])]; [(tx "~A ~C", [0; 2]); (tx "+A ~C", [1; 3]); (tx "~A +C", [4; 6]); (tx "+A +C", [5; 7])]; [(tx "~B ~C", [0; 1]); (tx "+B ~C", [2; 3]); (tx "~B +C", [4; 5]); (tx "+B +C", [6; 7])]]); (3, [[(tx "~A ~B ~C", [0]); (tx "+A ~B ~C", [1]); (tx "~A +B ~C", [2]); (tx "+A +B ~C", [3]); (tx "~A ~B +C", [4]); (tx "+A ~B +C", [5]); (tx "~A +B +C", [6]); (tx "+A +B +C", [7])]])]))].
Example boolf_16_test_test_true_yes : yes boolf_16_test_test_true.
Proof. unfold boolf_16_test_test_true. many. Qed.
(* boolf/test/16_skip_deflation/boolf_16_test.py *)
Definition boolf_16_test_test_false : list (res bool) := Eval vm_compute in [
  same nsame ((let* f := bfi "0000 0000" in Ok (fullspots f))) ((Ok ([] : list nat)));
  same list_eqb ((let* f := bfi "0000 0000" in Ok (atomvals f))) ((Ok ([0; 1; 2] : list nat)));
  same (sameset hsp_eqb) ((of (bfi "0000 0000") (fun f => hypersplits_pretty asis f None))) ((Ok [(1, [[(tx "~A", []); (tx "+A", [])]; [(tx "~B", []); (tx "+B", [])]; [(tx "~C", []); (tx "+C", [])]])]))].
Example boolf_16_test_test_false_yes : yes boolf_16_test_test_false.
Proof. unfold boolf_16_test_test_false. many. Qed.
(* boolf/test/16_skip_deflation/boolf_16_test.py *)
Definition boolf_16_test_test_atom : list (res bool) := Eval vm_compute in [
  same nsame ((let* f := bfi "0011 0011" in Ok (fullspots f))) ((Ok ([2; 3; 6; 7] : list nat)));
  same list_eqb ((let* f := bfi "0011 0011" in Ok (atomvals f))) ((Ok ([0; 1; 2] : list nat)));
  same splits_same ((of (bfi "0011 0011") (splits))) ((Ok [([3; 7], [2; 6]); ([2; 3; 6; 7], []); ([6; 7], [2; 3])]))].
Example boolf_16_test_test_atom_yes : yes boolf_16_test_test_atom.
Proof. unfold boolf_16_test_test_atom. many. Qed.
(* boolf/test/17_zhegalkin/boolf_17_test.py *)
Definition boolf_17_test_test : list (res bool) := Eval vm_compute in [
  beq (bzhe 321) (bfa "1110 0001" [1; 2; 3]);
  same Nat.eqb ((of (bfa "1110 0001" [1; 2; 3]) (boolf_zhe))) ((Ok (N.to_nat 321%N)));
  beq (bzhe 1234) (bf "0101 1000 0110 1011");
  same Nat.eqb ((of (bf "0101 1000 0110 1011") (boolf_zhe))) ((Ok (N.to_nat 1234%N)))].
Example boolf_17_test_test_yes : yes boolf_17_test_test.
Proof. unfold boolf_17_test_test. many. Qed.
