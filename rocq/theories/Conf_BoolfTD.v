(** Checks of the model against the files boolf/test/01 to 09, second part (see Conf_Base and Conf_BoolfT). 
    The values are computed when the file is compiled ([Eval vm_compute]), because the conversion of coqchk, which does not use the virtual machine, is too slow for them;
    the kernel sees only the results. *)
From Coq Require Import String List Arith ZArith Bool QArith.
From Verif Require Import Model_Base Model_Binary Model_SigPerm Model_SetPart Model_SetPartComp Model_Splits Model_Perm Model_Boolf Model_Twin Model_Blight Model_BoolfMore Model_Helpers
  Model_MinRep Model_Misc Model_Ec Model_King Model_Segments Model_Str Model_Layers Model_Hyper Model_Pretty Model_SetPartBoolf Conf_Base Conf_Examples Conf_BoolfM Conf_BoolfT.
Import ListNotations.
Local Open Scope string_scope.
Local Open Scope nat_scope.
Local Open Scope list_scope.

(* boolf/test/07_examples/test_medusa.py *)
Definition test_medusa_test : list (res bool) := Eval vm_compute in [
  same splits_same ((of (medusa) (splits))) ((Ok [([1; 3; 5; 7; 9], [0; 2; 4; 6; 8; 10; 12; 14]); ([2; 3; 6; 7; 10; 14], [0; 1; 4; 5; 8; 9; 12]); ([4; 5; 6; 7; 12; 14], [0; 1; 2; 3; 8; 9; 10]); ([8; 9; 10; 12; 14], [0; 1; 2; 3; 4; 5; 6; 7])]));
  same (sameset pdnat_eqb) ((of (medusa) (splits_overlap_counts))) ((Ok [((0, 1), 4); ((0, 2), 4); ((0, 3), 4); ((1, 2), 4); ((1, 3), 4); ((2, 3), 4)]));
  same blocks_same ((of (medusa) (bundles asis))) ((Ok [[0; 1; 2; 3]]));
  same bvec_eqb ((of (medusa) (splits_onesided))) ((Ok [false; false; false; false]));
  same (sameseq place_eqb) ((let* b := of (medusa) (blocks_and_sides asis) in Ok (snd b))) ((Ok [None; None; None; None]));
  beq ((of (medusa) (gapless_boolf asis))) (bf "1")].
Example test_medusa_test_yes : yes test_medusa_test.
Proof. unfold test_medusa_test. many. Qed.
(* boolf/test/07_examples/test_putuki.py *)
Definition test_putuki_test : list (res bool) := Eval vm_compute in [
  beq (putuki) (bf "1111 1010 1100 1000");
  same nsame ((let* f := putuki in Ok (fullspots f))) ((Ok ([0; 1; 2; 3; 4; 6; 8; 9; 12] : list nat)));
  same splits_same ((of (putuki) (splits))) ((Ok [([1; 3; 9], [0; 2; 4; 6; 8; 12]); ([2; 3; 6], [0; 1; 4; 8; 9; 12]); ([4; 6; 12], [0; 1; 2; 3; 8; 9]); ([8; 9; 12], [0; 1; 2; 3; 4; 6])]));
  same (sameset pdnat_eqb) ((of (putuki) (splits_overlap_counts))) ((Ok [((0, 1), 4); ((0, 2), 3); ((0, 3), 4); ((1, 2), 4); ((1, 3), 3); ((2, 3), 4)]));
  same blocks_same ((of (putuki) (bundles asis))) ((Ok [[0; 1; 2; 3]]));
  same (sameset boc_eqb) ((of (putuki) (bundle_overlap_counts asis))) ((Ok [([0; 1; 2; 3], ([(0, 2); (1, 3)], [(0, 1); (0, 3); (1, 2); (2, 3)]))]));
  bgp_same (of (putuki) (bundle_grid_partitions asis)) [([0; 1; 2; 3], (SetPart (Some [[0; 2]%Z; [1; 3]%Z]) DomN))];
  beq ((of (putuki) (gapless_boolf asis))) (putuki)].
Example test_putuki_test_yes : yes test_putuki_test.
Proof. unfold test_putuki_test. many. Qed.
(* boolf/test/08_gap_variants_3221/boolf_8_test.py *)
Definition boolf_8_test_test_kusaru : list (res bool) := Eval vm_compute in [
  same nsame ((let* f := kusaru in Ok (fullspots f))) ((Ok ([0; 1; 2; 3; 4; 5; 6; 7; 8; 16; 24; 32; 64; 96; 128] : list nat)));
  same splits_same ((of (kusaru) (splits))) ((Ok [([1; 3; 5; 7], [0; 2; 4; 6; 8; 16; 24; 32; 64; 96; 128]); ([2; 3; 6; 7], [0; 1; 4; 5; 8; 16; 24; 32; 64; 96; 128]); ([4; 5; 6; 7], [0; 1; 2; 3; 8; 16; 24; 32; 64; 96; 128]); ([8; 24], [0; 1; 2; 3; 4; 5; 6; 7; 16; 32; 64; 96; 128]); ([16; 24], [0; 1; 2; 3; 4; 5; 6; 7; 8; 32; 64; 96; 128]); ([32; 96], [0; 1; 2; 3; 4; 5; 6; 7; 8; 16; 24; 64; 128]); ([64; 96], [0; 1; 2; 3; 4; 5; 6; 7; 8; 16; 24; 32; 128]); ([128], [0; 1; 2; 3; 4; 5; 6; 7; 8; 16; 24; 32; 64; 96])]))].
Example boolf_8_test_test_kusaru_yes : yes boolf_8_test_test_kusaru.
Proof. unfold boolf_8_test_test_kusaru. many. Qed.
(* boolf/test/08_gap_variants_3221/boolf_8_test.py *)
Definition boolf_8_test_test_sasunu : list (res bool) := Eval vm_compute in [
  same nsame ((let* f := sasunu in Ok (fullspots f))) ((Ok ([1; 2; 3; 4; 5; 6; 7; 8; 16; 24; 32; 64; 96; 128] : list nat)));
  same splits_same ((of (sasunu) (splits))) ((Ok [([1; 3; 5; 7], [2; 4; 6; 8; 16; 24; 32; 64; 96; 128]); ([2; 3; 6; 7], [1; 4; 5; 8; 16; 24; 32; 64; 96; 128]); ([4; 5; 6; 7], [1; 2; 3; 8; 16; 24; 32; 64; 96; 128]); ([8; 24], [1; 2; 3; 4; 5; 6; 7; 16; 32; 64; 96; 128]); ([16; 24], [1; 2; 3; 4; 5; 6; 7; 8; 32; 64; 96; 128]); ([32; 96], [1; 2; 3; 4; 5; 6; 7; 8; 16; 24; 64; 128]); ([64; 96], [1; 2; 3; 4; 5; 6; 7; 8; 16; 24; 32; 128]); ([128], [1; 2; 3; 4; 5; 6; 7; 8; 16; 24; 32; 64; 96])]))].
Example boolf_8_test_test_sasunu_yes : yes boolf_8_test_test_sasunu.
Proof. unfold boolf_8_test_test_sasunu. many. Qed.
(* boolf/test/08_gap_variants_3221/boolf_8_test.py *)
Definition boolf_8_test_test_banatu : list (res bool) := Eval vm_compute in [
  same nsame ((let* f := banatu in Ok (fullspots f))) ((Ok ([0; 1; 2; 4; 7; 8; 16; 24; 32; 64; 96; 128] : list nat)));
  same splits_same ((of (banatu) (splits))) ((Ok [([1; 7], [0; 2; 4; 8; 16; 24; 32; 64; 96; 128]); ([2; 7], [0; 1; 4; 8; 16; 24; 32; 64; 96; 128]); ([4; 7], [0; 1; 2; 8; 16; 24; 32; 64; 96; 128]); ([8; 24], [0; 1; 2; 4; 7; 16; 32; 64; 96; 128]); ([16; 24], [0; 1; 2; 4; 7; 8; 32; 64; 96; 128]); ([32; 96], [0; 1; 2; 4; 7; 8; 16; 24; 64; 128]); ([64; 96], [0; 1; 2; 4; 7; 8; 16; 24; 32; 128]); ([128], [0; 1; 2; 4; 7; 8; 16; 24; 32; 64; 96])]))].
Example boolf_8_test_test_banatu_yes : yes boolf_8_test_test_banatu.
Proof. unfold boolf_8_test_test_banatu. many. Qed.
(* boolf/test/08_gap_variants_3221/boolf_8_test.py *)
Definition boolf_8_test_test_lekate : list (res bool) := Eval vm_compute in [
  same nsame ((let* f := lekate in Ok (fullspots f))) ((Ok ([0; 1; 2; 3; 4; 5; 6; 7; 38; 70; 102; 130; 138; 146; 154] : list nat)));
  same splits_same ((of (lekate) (splits))) ((Ok [([1; 3; 5; 7], [0; 2; 4; 6; 38; 70; 102; 130; 138; 146; 154]); ([2; 3; 6; 7; 38; 70; 102; 130; 138; 146; 154], [0; 1; 4; 5]); ([4; 5; 6; 7; 38; 70; 102], [0; 1; 2; 3; 130; 138; 146; 154]); ([138; 154], [0; 1; 2; 3; 4; 5; 6; 7; 38; 70; 102; 130; 146]); ([146; 154], [0; 1; 2; 3; 4; 5; 6; 7; 38; 70; 102; 130; 138]); ([38; 102], [0; 1; 2; 3; 4; 5; 6; 7; 70; 130; 138; 146; 154]); ([70; 102], [0; 1; 2; 3; 4; 5; 6; 7; 38; 130; 138; 146; 154]); ([130; 138; 146; 154], [0; 1; 2; 3; 4; 5; 6; 7; 38; 70; 102])]))].
Example boolf_8_test_test_lekate_yes : yes boolf_8_test_test_lekate.
Proof. unfold boolf_8_test_test_lekate. many. Qed.
(* boolf/test/08_gap_variants_3221/boolf_8_test.py *)
Definition boolf_8_test_test_vepane : list (res bool) := Eval vm_compute in [
  same nsame ((let* f := vepane in Ok (fullspots f))) ((Ok ([0; 1; 2; 3; 4; 5; 38; 70; 102; 138; 146; 154] : list nat)));
  same splits_same ((of (vepane) (splits))) ((Ok [([1; 3; 5], [0; 2; 4; 38; 70; 102; 138; 146; 154]); ([2; 3; 38; 70; 102; 138; 146; 154], [0; 1; 4; 5]); ([4; 5; 38; 70; 102], [0; 1; 2; 3; 138; 146; 154]); ([138; 154], [0; 1; 2; 3; 4; 5; 38; 70; 102; 146]); ([146; 154], [0; 1; 2; 3; 4; 5; 38; 70; 102; 138]); ([38; 102], [0; 1; 2; 3; 4; 5; 70; 138; 146; 154]); ([70; 102], [0; 1; 2; 3; 4; 5; 38; 138; 146; 154]); ([138; 146; 154], [0; 1; 2; 3; 4; 5; 38; 70; 102])]))].
Example boolf_8_test_test_vepane_yes : yes boolf_8_test_test_vepane.
Proof. unfold boolf_8_test_test_vepane. many. Qed.
(* boolf/test/08_gap_variants_3221/boolf_8_test.py *)
Definition boolf_8_test_test_nutite : list (res bool) := Eval vm_compute in [
  same nsame ((let* f := nutite in Ok (fullspots f))) ((Ok ([0; 1; 3; 4; 5; 6; 7; 38; 70; 102; 138; 146; 154] : list nat)));
  same splits_same ((of (nutite) (splits))) ((Ok [([1; 3; 5; 7], [0; 4; 6; 38; 70; 102; 138; 146; 154]); ([3; 6; 7; 38; 70; 102; 138; 146; 154], [0; 1; 4; 5]); ([4; 5; 6; 7; 38; 70; 102], [0; 1; 3; 138; 146; 154]); ([138; 154], [0; 1; 3; 4; 5; 6; 7; 38; 70; 102; 146]); ([146; 154], [0; 1; 3; 4; 5; 6; 7; 38; 70; 102; 138]); ([38; 102], [0; 1; 3; 4; 5; 6; 7; 70; 138; 146; 154]); ([70; 102], [0; 1; 3; 4; 5; 6; 7; 38; 138; 146; 154]); ([138; 146; 154], [0; 1; 3; 4; 5; 6; 7; 38; 70; 102])]))].
Example boolf_8_test_test_nutite_yes : yes boolf_8_test_test_nutite.
Proof. unfold boolf_8_test_test_nutite. many. Qed.
(* boolf/test/08_gap_variants_3221/boolf_8_test.py *)
Definition boolf_8_test_test_lobeva : list (res bool) := Eval vm_compute in [
  same nsame ((let* f := lobeva in Ok (fullspots f))) ((Ok ([0; 128; 160; 161; 162; 163; 164; 165; 166; 167; 192; 200; 208; 216; 224] : list nat)));
  same splits_same ((of (lobeva) (splits))) ((Ok [([161; 163; 165; 167], [0; 128; 160; 162; 164; 166; 192; 200; 208; 216; 224]); ([162; 163; 166; 167], [0; 128; 160; 161; 164; 165; 192; 200; 208; 216; 224]); ([164; 165; 166; 167], [0; 128; 160; 161; 162; 163; 192; 200; 208; 216; 224]); ([200; 216], [0; 128; 160; 161; 162; 163; 164; 165; 166; 167; 192; 208; 224]); ([208; 216], [0; 128; 160; 161; 162; 163; 164; 165; 166; 167; 192; 200; 224]); ([160; 161; 162; 163; 164; 165; 166; 167; 224], [0; 128; 192; 200; 208; 216]); ([192; 200; 208; 216; 224], [0; 128; 160; 161; 162; 163; 164; 165; 166; 167]); ([128; 160; 161; 162; 163; 164; 165; 166; 167; 192; 200; 208; 216; 224], [0])]));
  same bvec_eqb ((of (lobeva) (splits_onesided))) ((Ok [false; false; false; false; false; false; false; false]))].
Example boolf_8_test_test_lobeva_yes : yes boolf_8_test_test_lobeva.
Proof. unfold boolf_8_test_test_lobeva. many. Qed.
(* boolf/test/08_gap_variants_3221/boolf_8_test.py *)
Definition boolf_8_test_test_tigola : list (res bool) := Eval vm_compute in [
  same nsame ((let* f := tigola in Ok (fullspots f))) ((Ok ([0; 128; 161; 162; 163; 164; 165; 166; 200; 208; 216; 224] : list nat)));
  same splits_same ((of (tigola) (splits))) ((Ok [([161; 163; 165], [0; 128; 162; 164; 166; 200; 208; 216; 224]); ([162; 163; 166], [0; 128; 161; 164; 165; 200; 208; 216; 224]); ([164; 165; 166], [0; 128; 161; 162; 163; 200; 208; 216; 224]); ([200; 216], [0; 128; 161; 162; 163; 164; 165; 166; 208; 224]); ([208; 216], [0; 128; 161; 162; 163; 164; 165; 166; 200; 224]); ([161; 162; 163; 164; 165; 166; 224], [0; 128; 200; 208; 216]); ([200; 208; 216; 224], [0; 128; 161; 162; 163; 164; 165; 166]); ([128; 161; 162; 163; 164; 165; 166; 200; 208; 216; 224], [0])]));
  same bvec_eqb ((of (tigola) (splits_onesided))) ((Ok [false; false; false; false; false; false; false; false]))].
Example boolf_8_test_test_tigola_yes : yes boolf_8_test_test_tigola.
Proof. unfold boolf_8_test_test_tigola. many. Qed.
(* boolf/test/08_gap_variants_3221/boolf_8_test.py *)
Definition boolf_8_test_test_karato : list (res bool) := Eval vm_compute in [
  same nsame ((let* f := karato in Ok (fullspots f))) ((Ok ([0; 128; 160; 161; 163; 167; 192; 200; 216] : list nat)));
  same splits_same ((of (karato) (splits))) ((Ok [([161; 163; 167], [0; 128; 160; 192; 200; 216]); ([163; 167], [0; 128; 160; 161; 192; 200; 216]); ([167], [0; 128; 160; 161; 163; 192; 200; 216]); ([200; 216], [0; 128; 160; 161; 163; 167; 192]); ([216], [0; 128; 160; 161; 163; 167; 192; 200]); ([160; 161; 163; 167], [0; 128; 192; 200; 216]); ([192; 200; 216], [0; 128; 160; 161; 163; 167]); ([128; 160; 161; 163; 167; 192; 200; 216], [0])]));
  same (sameset pdnat_eqb) ((of (karato) (splits_overlap_counts))) ((Ok [((0, 1), 3); ((0, 2), 3); ((0, 3), 3); ((0, 4), 3); ((0, 5), 3); ((0, 6), 3); ((0, 7), 3); ((1, 2), 3); ((1, 3), 3); ((1, 4), 3); ((1, 5), 3); ((1, 6), 3); ((1, 7), 3); ((2, 3), 3); ((2, 4), 3); ((2, 5), 3); ((2, 6), 3); ((2, 7), 3); ((3, 4), 3); ((3, 5), 3); ((3, 6), 3); ((3, 7), 3); ((4, 5), 3); ((4, 6), 3); ((4, 7), 3); ((5, 6), 3); ((5, 7), 3); ((6, 7), 3)]));
  same (sameset Model_Splits.pair_eqb) ((of (karato) (split_pairs_with_3_overlaps))) ((Ok [(0, 1); (0, 2); (0, 3); (0, 4); (0, 5); (0, 6); (0, 7); (1, 2); (1, 3); (1, 4); (1, 5); (1, 6); (1, 7); (2, 3); (2, 4); (2, 5); (2, 6); (2, 7); (3, 4); (3, 5); (3, 6); (3, 7); (4, 5); (4, 6); (4, 7); (5, 6); (5, 7); (6, 7)]));
  same blocks_same ((of (karato) (bundles asis))) ((Ok [[0]; [1]; [2]; [3]; [4]; [5]; [6]; [7]]));
  same (sameset boc_eqb) ((of (karato) (bundle_overlap_counts asis))) ((Ok [([0], ([], [])); ([1], ([], [])); ([2], ([], [])); ([3], ([], [])); ([4], ([], [])); ([5], ([], [])); ([6], ([], [])); ([7], ([], []))]))].
Example boolf_8_test_test_karato_yes : yes boolf_8_test_test_karato.
Proof. unfold boolf_8_test_test_karato. many. Qed.
(* boolf/test/08_gap_variants_3221/boolf_8_test.py *)
Definition boolf_8_test_test_karafa : list (res bool) := Eval vm_compute in [
  same nsame ((let* f := karafa in Ok (fullspots f))) ((Ok ([0; 160; 161; 162; 167; 192; 208; 216] : list nat)));
  same splits_same ((of (karafa) (splits))) ((Ok [([161; 167], [0; 160; 162; 192; 208; 216]); ([162; 167], [0; 160; 161; 192; 208; 216]); ([167], [0; 160; 161; 162; 192; 208; 216]); ([216], [0; 160; 161; 162; 167; 192; 208]); ([208; 216], [0; 160; 161; 162; 167; 192]); ([160; 161; 162; 167], [0; 192; 208; 216]); ([192; 208; 216], [0; 160; 161; 162; 167]); ([160; 161; 162; 167; 192; 208; 216], [0])]));
  same (sameset pdnat_eqb) ((of (karafa) (splits_overlap_counts))) ((Ok [((0, 1), 4); ((0, 2), 3); ((0, 3), 3); ((0, 4), 3); ((0, 5), 3); ((0, 6), 3); ((0, 7), 3); ((1, 2), 3); ((1, 3), 3); ((1, 4), 3); ((1, 5), 3); ((1, 6), 3); ((1, 7), 3); ((2, 3), 3); ((2, 4), 3); ((2, 5), 3); ((2, 6), 3); ((2, 7), 3); ((3, 4), 3); ((3, 5), 3); ((3, 6), 3); ((3, 7), 3); ((4, 5), 3); ((4, 6), 3); ((4, 7), 3); ((5, 6), 3); ((5, 7), 3); ((6, 7), 3)]));
  same (sameset Model_Splits.pair_eqb) ((of (karafa) (split_pairs_with_3_overlaps))) ((Ok [(0, 2); (0, 3); (0, 4); (0, 5); (0, 6); (0, 7); (1, 2); (1, 3); (1, 4); (1, 5); (1, 6); (1, 7); (2, 3); (2, 4); (2, 5); (2, 6); (2, 7); (3, 4); (3, 5); (3, 6); (3, 7); (4, 5); (4, 6); (4, 7); (5, 6); (5, 7); (6, 7)]));
  same blocks_same ((of (karafa) (bundles asis))) ((Ok [[0; 1]; [2]; [3]; [4]; [5]; [6]; [7]]));
  same (sameset boc_eqb) ((of (karafa) (bundle_overlap_counts asis))) ((Ok [([0; 1], ([], [(0, 1)])); ([2], ([], [])); ([3], ([], [])); ([4], ([], [])); ([5], ([], [])); ([6], ([], [])); ([7], ([], []))]))].
Example boolf_8_test_test_karafa_yes : yes boolf_8_test_test_karafa.
Proof. unfold boolf_8_test_test_karafa. many. Qed.
(* boolf/test/08_gap_variants_3221/boolf_8_test.py *)
Definition boolf_8_test_test_todeda : list (res bool) := Eval vm_compute in [
  same nsame ((let* f := todeda in Ok (fullspots f))) ((Ok ([160; 162; 163; 165; 167; 192; 200; 216; 224] : list nat)));
  same splits_same ((of (todeda) (splits))) ((Ok [([163; 165; 167], [160; 162; 192; 200; 216; 224]); ([162; 163; 167], [160; 165; 192; 200; 216; 224]); ([165; 167], [160; 162; 163; 192; 200; 216; 224]); ([200; 216], [160; 162; 163; 165; 167; 192; 224]); ([216], [160; 162; 163; 165; 167; 192; 200; 224]); ([160; 162; 163; 165; 167; 224], [192; 200; 216]); ([192; 200; 216; 224], [160; 162; 163; 165; 167]); ([160; 162; 163; 165; 167; 192; 200; 216; 224], [])]));
  same (sameset pdnat_eqb) ((of (todeda) (splits_overlap_counts))) ((Ok [((0, 1), 4); ((0, 2), 3); ((0, 3), 3); ((0, 4), 3); ((0, 5), 3); ((0, 6), 3); ((0, 7), 2); ((1, 2), 4); ((1, 3), 3); ((1, 4), 3); ((1, 5), 3); ((1, 6), 3); ((1, 7), 2); ((2, 3), 3); ((2, 4), 3); ((2, 5), 3); ((2, 6), 3); ((2, 7), 2); ((3, 4), 3); ((3, 5), 3); ((3, 6), 3); ((3, 7), 2); ((4, 5), 3); ((4, 6), 3); ((4, 7), 2); ((5, 6), 3); ((5, 7), 2); ((6, 7), 2)]));
  same bvec_eqb ((of (todeda) (splits_onesided))) ((Ok [false; false; false; false; false; false; false; true]));
  same (sameset Model_Splits.pair_eqb) ((of (todeda) (split_pairs_with_3_overlaps))) ((Ok [(0, 2); (0, 3); (0, 4); (0, 5); (0, 6); (1, 3); (1, 4); (1, 5); (1, 6); (2, 3); (2, 4); (2, 5); (2, 6); (3, 4); (3, 5); (3, 6); (4, 5); (4, 6); (5, 6)]));
  same blocks_same ((of (todeda) (bundles asis))) ((Ok [[0; 1; 2]; [3]; [4]; [5]; [6]; [7]]));
  same (sameset boc_eqb) ((of (todeda) (bundle_overlap_counts asis))) ((Ok [([0; 1; 2], ([(0, 2)], [(0, 1); (1, 2)])); ([3], ([], [])); ([4], ([], [])); ([5], ([], [])); ([6], ([], [])); ([7], ([], []))]))].
Example boolf_8_test_test_todeda_yes : yes boolf_8_test_test_todeda.
Proof. unfold boolf_8_test_test_todeda. many. Qed.
(* boolf/test/08_gap_variants_3221/boolf_8_test.py *)
Definition boolf_8_test_test_todeda_blightless : list (res bool) := Eval vm_compute in [
  beq (todeda_blightless) (bfs [32; 64; 34; 35; 96; 37; 39; 72; 88] 7);
  same splits_same ((of (todeda_blightless) (splits))) ((Ok [([35; 37; 39], [32; 34; 64; 72; 88; 96]); ([34; 35; 39], [32; 37; 64; 72; 88; 96]); ([37; 39], [32; 34; 35; 64; 72; 88; 96]); ([72; 88], [32; 34; 35; 37; 39; 64; 96]); ([88], [32; 34; 35; 37; 39; 64; 72; 96]); ([32; 34; 35; 37; 39; 96], [64; 72; 88]); ([64; 72; 88; 96], [32; 34; 35; 37; 39])]));
  same (sameset pdnat_eqb) ((of (todeda_blightless) (splits_overlap_counts))) ((Ok [((0, 1), 4); ((0, 2), 3); ((0, 3), 3); ((0, 4), 3); ((0, 5), 3); ((0, 6), 3); ((1, 2), 4); ((1, 3), 3); ((1, 4), 3); ((1, 5), 3); ((1, 6), 3); ((2, 3), 3); ((2, 4), 3); ((2, 5), 3); ((2, 6), 3); ((3, 4), 3); ((3, 5), 3); ((3, 6), 3); ((4, 5), 3); ((4, 6), 3); ((5, 6), 3)]));
  same (sameset Model_Splits.pair_eqb) ((of (todeda_blightless) (split_pairs_with_3_overlaps))) ((of (todeda) (split_pairs_with_3_overlaps)));
  same blocks_same ((of (todeda_blightless) (bundles asis))) ((Ok [[0; 1; 2]; [3]; [4]; [5]; [6]]));
  same (sameset boc_eqb) ((of (todeda_blightless) (bundle_overlap_counts asis))) ((Ok [([0; 1; 2], ([(0, 2)], [(0, 1); (1, 2)])); ([3], ([], [])); ([4], ([], [])); ([5], ([], [])); ([6], ([], []))]))].
Example boolf_8_test_test_todeda_blightless_yes : yes boolf_8_test_test_todeda_blightless.
Proof. unfold boolf_8_test_test_todeda_blightless. many. Qed.
(* boolf/test/08_gap_variants_3221/boolf_8_test.py *)
Definition boolf_8_test_test_lapava : list (res bool) := Eval vm_compute in [
  same nsame ((let* f := lapava in Ok (fullspots f))) ((Ok ([128; 161; 162; 163; 164; 165; 166; 167; 200; 208; 216; 224] : list nat)));
  same splits_same ((of (lapava) (splits))) ((Ok [([161; 163; 165; 167], [128; 162; 164; 166; 200; 208; 216; 224]); ([162; 163; 166; 167], [128; 161; 164; 165; 200; 208; 216; 224]); ([164; 165; 166; 167], [128; 161; 162; 163; 200; 208; 216; 224]); ([200; 216], [128; 161; 162; 163; 164; 165; 166; 167; 208; 224]); ([208; 216], [128; 161; 162; 163; 164; 165; 166; 167; 200; 224]); ([161; 162; 163; 164; 165; 166; 167; 224], [128; 200; 208; 216]); ([200; 208; 216; 224], [128; 161; 162; 163; 164; 165; 166; 167]); ([128; 161; 162; 163; 164; 165; 166; 167; 200; 208; 216; 224], [])]));
  same (sameset pdnat_eqb) ((of (lapava) (splits_overlap_counts))) ((Ok [((0, 1), 4); ((0, 2), 4); ((0, 3), 3); ((0, 4), 3); ((0, 5), 3); ((0, 6), 3); ((0, 7), 2); ((1, 2), 4); ((1, 3), 3); ((1, 4), 3); ((1, 5), 3); ((1, 6), 3); ((1, 7), 2); ((2, 3), 3); ((2, 4), 3); ((2, 5), 3); ((2, 6), 3); ((2, 7), 2); ((3, 4), 4); ((3, 5), 3); ((3, 6), 3); ((3, 7), 2); ((4, 5), 3); ((4, 6), 3); ((4, 7), 2); ((5, 6), 4); ((5, 7), 2); ((6, 7), 2)]));
  same bvec_eqb ((of (lapava) (splits_onesided))) ((Ok [false; false; false; false; false; false; false; true]));
  same (sameset Model_Splits.pair_eqb) ((of (lapava) (split_pairs_with_3_overlaps))) ((Ok [(0, 3); (0, 4); (0, 5); (0, 6); (1, 3); (1, 4); (1, 5); (1, 6); (2, 3); (2, 4); (2, 5); (2, 6); (3, 5); (3, 6); (4, 5); (4, 6)]));
  same blocks_same ((of (lapava) (bundles asis))) ((Ok [[0; 1; 2]; [3; 4]; [5; 6]; [7]]));
  same (sameset boc_eqb) ((of (lapava) (bundle_overlap_counts asis))) ((Ok [([0; 1; 2], ([], [(0, 1); (0, 2); (1, 2)])); ([3; 4], ([], [(3, 4)])); ([5; 6], ([], [(5, 6)])); ([7], ([], []))]))].
Example boolf_8_test_test_lapava_yes : yes boolf_8_test_test_lapava.
Proof. unfold boolf_8_test_test_lapava. many. Qed.
(* boolf/test/08_gap_variants_3221/boolf_8_test.py *)
Definition boolf_8_test_test_lapava_blightless : list (res bool) := Eval vm_compute in [
  beq (lapava_blightless) (bfs [0; 33; 34; 35; 36; 37; 38; 39; 72; 96; 80; 88] 7);
  same splits_same ((of (lapava_blightless) (splits))) ((Ok [([33; 35; 37; 39], [0; 34; 36; 38; 72; 80; 88; 96]); ([34; 35; 38; 39], [0; 33; 36; 37; 72; 80; 88; 96]); ([36; 37; 38; 39], [0; 33; 34; 35; 72; 80; 88; 96]); ([72; 88], [0; 33; 34; 35; 36; 37; 38; 39; 80; 96]); ([80; 88], [0; 33; 34; 35; 36; 37; 38; 39; 72; 96]); ([33; 34; 35; 36; 37; 38; 39; 96], [0; 72; 80; 88]); ([72; 80; 88; 96], [0; 33; 34; 35; 36; 37; 38; 39])]));
  same (sameset pdnat_eqb) ((of (lapava_blightless) (splits_overlap_counts))) ((Ok [((0, 1), 4); ((0, 2), 4); ((0, 3), 3); ((0, 4), 3); ((0, 5), 3); ((0, 6), 3); ((1, 2), 4); ((1, 3), 3); ((1, 4), 3); ((1, 5), 3); ((1, 6), 3); ((2, 3), 3); ((2, 4), 3); ((2, 5), 3); ((2, 6), 3); ((3, 4), 4); ((3, 5), 3); ((3, 6), 3); ((4, 5), 3); ((4, 6), 3); ((5, 6), 4)]));
  same (sameset Model_Splits.pair_eqb) ((of (lapava_blightless) (split_pairs_with_3_overlaps))) ((of (lapava) (split_pairs_with_3_overlaps)));
  same blocks_same ((of (lapava_blightless) (bundles asis))) ((Ok [[0; 1; 2]; [3; 4]; [5; 6]]));
  same (sameset boc_eqb) ((of (lapava_blightless) (bundle_overlap_counts asis))) ((Ok [([0; 1; 2], ([], [(0, 1); (0, 2); (1, 2)])); ([3; 4], ([], [(3, 4)])); ([5; 6], ([], [(5, 6)]))]))].
Example boolf_8_test_test_lapava_blightless_yes : yes boolf_8_test_test_lapava_blightless.
Proof. unfold boolf_8_test_test_lapava_blightless. many. Qed.
(* boolf/test/09_gap_variants_grids/changed_54/test_bokivi.py *)
Definition test_bokivi_test_bokivi : list (res bool) := Eval vm_compute in [
  same nsame ((let* f := bokivi in Ok (fullspots f))) ((let* f := bokivi in Ok (fullspots f)));
  same splits_same ((of (bokivi) (splits))) ((Ok [([11; 123], [0; 8; 10; 24; 28; 56; 120; 122; 124]); ([10; 11; 122; 123], [0; 8; 24; 28; 56; 120; 124]); ([28; 124], [0; 8; 10; 11; 24; 56; 120; 122; 123]); ([8; 10; 11; 24; 28; 56; 120; 122; 123; 124], [0]); ([24; 28; 56; 120; 122; 123; 124], [0; 8; 10; 11]); ([56; 120; 122; 123; 124], [0; 8; 10; 11; 24; 28]); ([120; 122; 123; 124], [0; 8; 10; 11; 24; 28; 56])]))].
Example test_bokivi_test_bokivi_yes : yes test_bokivi_test_bokivi.
Proof. unfold test_bokivi_test_bokivi. many. Qed.
(* boolf/test/09_gap_variants_grids/changed_54/test_gufaro.py *)
Definition test_gufaro_test_gufaro : list (res bool) := Eval vm_compute in [
  same nsame ((let* f := gufaro in Ok (fullspots f))) ((Ok ([2; 10; 11; 12; 24; 27; 28; 56; 58; 59] : list nat)));
  same splits_same ((of (gufaro) (splits))) ((Ok [([11; 27; 59], [2; 10; 12; 24; 28; 56; 58]); ([2; 10; 11; 27; 58; 59], [12; 24; 28; 56]); ([12; 28], [2; 10; 11; 24; 27; 56; 58; 59]); ([10; 11; 12; 24; 27; 28; 56; 58; 59], [2]); ([24; 27; 28; 56; 58; 59], [2; 10; 11; 12]); ([56; 58; 59], [2; 10; 11; 12; 24; 27; 28]); ([], [2; 10; 11; 12; 24; 27; 28; 56; 58; 59])]));
  same2 spc_eq ((of (gufaro) (bloat asis))) ((SetPartComp (Some []) None));
  same2 spc_eq ((of (gufaro) (blight asis))) ((SetPartComp (Some []) (Some [(-1, 6)%Z])));
  beq ((of (gufaro) (bloat_boolf asis))) (bf "1");
  beq ((of (gufaro) (blight_boolf asis))) (bfa "10" [7]);
  beq ((of (gufaro) (bloatless_boolf asis))) (bfsa [2; 56; 27; 10; 11; 12; 24; 58; 59; 28] [0; 1; 3; 4; 5; 6; 7]);
  beq ((of (gufaro) (bloatless_boolf asis))) (gufaro);
  beq ((of (gufaro) (blightless_boolf asis))) (bfsa [2; 56; 27; 10; 11; 12; 24; 58; 59; 28] [0; 1; 3; 4; 5; 6]);
  beq (gufaro) ((band ((of (gufaro) (blight_boolf asis))) ((of (gufaro) (blightless_boolf asis)))));
  same list_eqb ((of (gufaro) (onesided_atomkeys))) ((Ok ([6] : list nat)));
  same (sameset nb_eqb) ((of (gufaro) (onesided_is_universe))) ((Ok [(6, false)]))].
Example test_gufaro_test_gufaro_yes : yes test_gufaro_test_gufaro.
Proof. unfold test_gufaro_test_gufaro. many. Qed.
(* boolf/test/09_gap_variants_grids/changed_54/test_karifu.py *)
Definition test_karifu_test_karifu : list (res bool) := Eval vm_compute in [
  same nsame ((let* f := karifu in Ok (fullspots f))) ((Ok ([2; 4; 8; 11; 26; 28; 56; 59; 122; 124] : list nat)));
  same splits_same ((of (karifu) (splits))) ((Ok [([11; 59], [2; 4; 8; 26; 28; 56; 122; 124]); ([2; 11; 26; 59; 122], [4; 8; 28; 56; 124]); ([4; 28; 124], [2; 8; 11; 26; 56; 59; 122]); ([8; 11; 26; 28; 56; 59; 122; 124], [2; 4]); ([26; 28; 56; 59; 122; 124], [2; 4; 8; 11]); ([56; 59; 122; 124], [2; 4; 8; 11; 26; 28]); ([122; 124], [2; 4; 8; 11; 26; 28; 56; 59])]))].
Example test_karifu_test_karifu_yes : yes test_karifu_test_karifu.
Proof. unfold test_karifu_test_karifu. many. Qed.
(* boolf/test/09_gap_variants_grids/changed_54/test_linaki.py *)
Definition test_linaki_test_linaki : list (res bool) := Eval vm_compute in [
  same nsame ((let* f := linaki in Ok (fullspots f))) ((let* f := linaki in Ok (fullspots f)));
  same splits_same ((of (linaki) (splits))) ((Ok [([3; 27; 123], [0; 10; 12; 24; 58; 60; 120]); ([3; 10; 27; 58; 123], [0; 12; 24; 60; 120]); ([12; 60], [0; 3; 10; 24; 27; 58; 120; 123]); ([10; 12; 24; 27; 58; 60; 120; 123], [0; 3]); ([24; 27; 58; 60; 120; 123], [0; 3; 10; 12]); ([58; 60; 120; 123], [0; 3; 10; 12; 24; 27]); ([120; 123], [0; 3; 10; 12; 24; 27; 58; 60])]))].
Example test_linaki_test_linaki_yes : yes test_linaki_test_linaki.
Proof. unfold test_linaki_test_linaki. many. Qed.
(* boolf/test/09_gap_variants_grids/changed_54/test_nitevu.py *)
Definition test_nitevu_test_nitevu : list (res bool) := Eval vm_compute in [
  same nsame ((let* f := nitevu in Ok (fullspots f))) ((Ok ([0; 10; 11; 26; 27; 58; 59; 60; 124] : list nat)));
  same splits_same ((of (nitevu) (splits))) ((Ok [([11; 27; 59], [0; 10; 26; 58; 60; 124]); ([10; 11; 26; 27; 58; 59], [0; 60; 124]); ([60; 124], [0; 10; 11; 26; 27; 58; 59]); ([10; 11; 26; 27; 58; 59; 60; 124], [0]); ([26; 27; 58; 59; 60; 124], [0; 10; 11]); ([58; 59; 60; 124], [0; 10; 11; 26; 27]); ([124], [0; 10; 11; 26; 27; 58; 59; 60])]))].
Example test_nitevu_test_nitevu_yes : yes test_nitevu_test_nitevu.
Proof. unfold test_nitevu_test_nitevu. many. Qed.
(* boolf/test/09_gap_variants_grids/changed_54/test_nogoka.py *)
Definition test_nogoka_test_nogoka : list (res bool) := Eval vm_compute in [
  same nsame ((let* f := nogoka in Ok (fullspots f))) ((Ok ([2; 10; 11; 12; 24; 27; 28; 56; 58; 59; 122] : list nat)));
  same splits_same ((of (nogoka) (splits))) ((Ok [([11; 27; 59], [2; 10; 12; 24; 28; 56; 58; 122]); ([2; 10; 11; 27; 58; 59; 122], [12; 24; 28; 56]); ([12; 28], [2; 10; 11; 24; 27; 56; 58; 59; 122]); ([10; 11; 12; 24; 27; 28; 56; 58; 59; 122], [2]); ([24; 27; 28; 56; 58; 59; 122], [2; 10; 11; 12]); ([56; 58; 59; 122], [2; 10; 11; 12; 24; 27; 28]); ([122], [2; 10; 11; 12; 24; 27; 28; 56; 58; 59])]))].
Example test_nogoka_test_nogoka_yes : yes test_nogoka_test_nogoka.
Proof. unfold test_nogoka_test_nogoka. many. Qed.
