(** Checks of the model against the files boolf/test/01 to 09, third part (see Conf_Base and Conf_BoolfT). 
    The values are computed when the file is compiled ([Eval vm_compute]), because the conversion of coqchk, which does not use the virtual machine, is too slow for them;
    the kernel sees only the results. *)
From Coq Require Import String List Arith ZArith Bool QArith.
From Verif Require Import Model_Base Model_Binary Model_SigPerm Model_SetPart Model_SetPartComp Model_Splits Model_Perm Model_Boolf Model_Twin Model_Blight Model_BoolfMore Model_Helpers
  Model_MinRep Model_Misc Model_Ec Model_King Model_Segments Model_Str Model_Layers Model_Hyper Model_Pretty Model_SetPartBoolf Conf_Base Conf_Examples Conf_BoolfM Conf_BoolfT.
Import ListNotations.
Local Open Scope string_scope.
Local Open Scope nat_scope.
Local Open Scope list_scope.

(* boolf/test/09_gap_variants_grids/changed_54/test_numado.py *)
Definition test_numado_test_numado : list (res bool) := Eval vm_compute in [
  same nsame ((let* f := numado in Ok (fullspots f))) ((let* f := numado in Ok (fullspots f)));
  same splits_same ((of (numado) (splits))) ((Ok [([3; 11; 27; 59; 123], [0; 2; 8; 24; 28; 60; 120; 122; 124]); ([2; 3; 11; 27; 59; 122; 123], [0; 8; 24; 28; 60; 120; 124]); ([28; 60; 124], [0; 2; 3; 8; 11; 24; 27; 59; 120; 122; 123]); ([8; 11; 24; 27; 28; 59; 60; 120; 122; 123; 124], [0; 2; 3]); ([24; 27; 28; 59; 60; 120; 122; 123; 124], [0; 2; 3; 8; 11]); ([59; 60; 120; 122; 123; 124], [0; 2; 3; 8; 11; 24; 27; 28]); ([120; 122; 123; 124], [0; 2; 3; 8; 11; 24; 27; 28; 59; 60])]))].
Example test_numado_test_numado_yes : yes test_numado_test_numado.
Proof. unfold test_numado_test_numado. many. Qed.
(* boolf/test/09_gap_variants_grids/changed_54/test_nusure.py *)
Definition test_nusure_test_nusure : list (res bool) := Eval vm_compute in [
  same nsame ((let* f := nusure in Ok (fullspots f))) ((Ok ([2; 10; 11; 12; 24; 27; 28; 56; 58; 59; 120] : list nat)));
  same splits_same ((of (nusure) (splits))) ((Ok [([11; 27; 59], [2; 10; 12; 24; 28; 56; 58; 120]); ([2; 10; 11; 27; 58; 59], [12; 24; 28; 56; 120]); ([12; 28], [2; 10; 11; 24; 27; 56; 58; 59; 120]); ([10; 11; 12; 24; 27; 28; 56; 58; 59; 120], [2]); ([24; 27; 28; 56; 58; 59; 120], [2; 10; 11; 12]); ([56; 58; 59; 120], [2; 10; 11; 12; 24; 27; 28]); ([120], [2; 10; 11; 12; 24; 27; 28; 56; 58; 59])]))].
Example test_nusure_test_nusure_yes : yes test_nusure_test_nusure.
Proof. unfold test_nusure_test_nusure. many. Qed.
(* boolf/test/09_gap_variants_grids/changed_54/test_sigovu.py *)
Definition test_sigovu_test_sigovu : list (res bool) := Eval vm_compute in [
  same nsame ((let* f := sigovu in Ok (fullspots f))) ((Ok ([2; 12; 24; 26; 27; 60; 120; 122; 123] : list nat)));
  same splits_same ((of (sigovu) (splits))) ((Ok [([27; 123], [2; 12; 24; 26; 60; 120; 122]); ([2; 26; 27; 122; 123], [12; 24; 60; 120]); ([12; 60], [2; 24; 26; 27; 120; 122; 123]); ([12; 24; 26; 27; 60; 120; 122; 123], [2]); ([24; 26; 27; 60; 120; 122; 123], [2; 12]); ([60; 120; 122; 123], [2; 12; 24; 26; 27]); ([120; 122; 123], [2; 12; 24; 26; 27; 60])]))].
Example test_sigovu_test_sigovu_yes : yes test_sigovu_test_sigovu.
Proof. unfold test_sigovu_test_sigovu. many. Qed.
(* boolf/test/09_gap_variants_grids/changed_54/test_temapi.py *)
Definition test_temapi_test_temapi : list (res bool) := Eval vm_compute in [
  same nsame ((let* f := temapi in Ok (fullspots f))) ((Ok ([8; 24; 56; 120] : list nat)));
  same splits_same ((of (temapi) (splits))) ((Ok [([], [8; 24; 56; 120]); ([], [8; 24; 56; 120]); ([], [8; 24; 56; 120]); ([8; 24; 56; 120], []); ([24; 56; 120], [8]); ([56; 120], [8; 24]); ([120], [8; 24; 56])]));
  same2 spc_eq ((of (temapi) (bloat asis))) ((SetPartComp (Some [[0; 1; 2]%Z]) (Some [(0, 3)%Z])));
  same2 spc_eq ((of (temapi) (blight asis))) ((SetPartComp (Some [[(-1); 3]%Z; [0; 1; 2]%Z]) (Some [(-1, 0)%Z])));
  beq ((of (temapi) (bloat_boolf asis))) (bfa "0000 0001 1000 0000" [0; 1; 3; 4]);
  beq ((of (temapi) (blight_boolf asis))) (bfa "0000 0000 1000 0000" [0; 1; 3; 4]);
  beq ((of (temapi) (bloatless_boolf asis))) (bfa "0101 0001 0000 0001" [4; 5; 6; 7]);
  beq ((of (temapi) (blightless_boolf asis))) (bfa "1101 0001" [5; 6; 7]);
  beq (temapi) ((band ((of (temapi) (bloat_boolf asis))) ((of (temapi) (bloatless_boolf asis)))));
  beq (temapi) ((band ((of (temapi) (blight_boolf asis))) ((of (temapi) (blightless_boolf asis)))));
  same list_eqb ((of (temapi) (onesided_atomkeys))) ((Ok ([0; 1; 2; 3] : list nat)));
  same (sameset nb_eqb) ((of (temapi) (onesided_is_universe))) ((Ok [(0, false); (1, false); (2, false); (3, true)]))].
Example test_temapi_test_temapi_yes : yes test_temapi_test_temapi.
Proof. unfold test_temapi_test_temapi. many. Qed.
(* boolf/test/09_gap_variants_grids/changed_55/test_bukoru.py *)
Definition test_bukoru_test_bukoru : list (res bool) := Eval vm_compute in [
  same nsame ((let* f := bukoru in Ok (fullspots f))) ((Ok ([2; 12; 16; 20; 50; 112; 115; 116; 240; 242; 243] : list nat)));
  same splits_same ((of (bukoru) (splits))) ((Ok [([115; 243], [2; 12; 16; 20; 50; 112; 116; 240; 242]); ([2; 50; 115; 242; 243], [12; 16; 20; 112; 116; 240]); ([12; 20; 116], [2; 16; 50; 112; 115; 240; 242; 243]); ([12], [2; 16; 20; 50; 112; 115; 116; 240; 242; 243]); ([16; 20; 50; 112; 115; 116; 240; 242; 243], [2; 12]); ([50; 112; 115; 116; 240; 242; 243], [2; 12; 16; 20]); ([112; 115; 116; 240; 242; 243], [2; 12; 16; 20; 50]); ([240; 242; 243], [2; 12; 16; 20; 50; 112; 115; 116])]))].
Example test_bukoru_test_bukoru_yes : yes test_bukoru_test_bukoru.
Proof. unfold test_bukoru_test_bukoru. many. Qed.
(* boolf/test/09_gap_variants_grids/changed_55/test_dukamu.py *)
Definition test_dukamu_test_dukamu : list (res bool) := Eval vm_compute in [
  same nsame ((let* f := dukamu in Ok (fullspots f))) ((let* f := dukamu in Ok (fullspots f)));
  same splits_same ((of (dukamu) (splits))) ((Ok [([3; 19; 51; 115], [0; 2; 4; 16; 18; 20; 28; 50; 52; 60; 112; 114; 116; 240; 244; 252]); ([2; 3; 18; 19; 50; 51; 114; 115], [0; 4; 16; 20; 28; 52; 60; 112; 116; 240; 244; 252]); ([4; 20; 28; 52; 60; 116; 244; 252], [0; 2; 3; 16; 18; 19; 50; 51; 112; 114; 115; 240]); ([28; 60; 252], [0; 2; 3; 4; 16; 18; 19; 20; 50; 51; 52; 112; 114; 115; 116; 240; 244]); ([16; 18; 19; 20; 28; 50; 51; 52; 60; 112; 114; 115; 116; 240; 244; 252], [0; 2; 3; 4]); ([50; 51; 52; 60; 112; 114; 115; 116; 240; 244; 252], [0; 2; 3; 4; 16; 18; 19; 20; 28]); ([112; 114; 115; 116; 240; 244; 252], [0; 2; 3; 4; 16; 18; 19; 20; 28; 50; 51; 52; 60]); ([240; 244; 252], [0; 2; 3; 4; 16; 18; 19; 20; 28; 50; 51; 52; 60; 112; 114; 115; 116])]))].
Example test_dukamu_test_dukamu_yes : yes test_dukamu_test_dukamu.
Proof. unfold test_dukamu_test_dukamu. many. Qed.
(* boolf/test/09_gap_variants_grids/changed_55/test_filege.py *)
Definition test_filege_test_filege : list (res bool) := Eval vm_compute in [
  same nsame ((let* f := filege in Ok (fullspots f))) ((Ok ([2; 12; 18; 20; 48; 50; 51; 60; 112; 115; 116; 124; 242; 252] : list nat)));
  same splits_same ((of (filege) (splits))) ((Ok [([51; 115], [2; 12; 18; 20; 48; 50; 60; 112; 116; 124; 242; 252]); ([2; 18; 50; 51; 115; 242], [12; 20; 48; 60; 112; 116; 124; 252]); ([12; 20; 60; 116; 124; 252], [2; 18; 48; 50; 51; 112; 115; 242]); ([12; 60; 124; 252], [2; 18; 20; 48; 50; 51; 112; 115; 116; 242]); ([18; 20; 48; 50; 51; 60; 112; 115; 116; 124; 242; 252], [2; 12]); ([48; 50; 51; 60; 112; 115; 116; 124; 242; 252], [2; 12; 18; 20]); ([112; 115; 116; 124; 242; 252], [2; 12; 18; 20; 48; 50; 51; 60]); ([242; 252], [2; 12; 18; 20; 48; 50; 51; 60; 112; 115; 116; 124])]))].
Example test_filege_test_filege_yes : yes test_filege_test_filege.
Proof. unfold test_filege_test_filege. many. Qed.
(* boolf/test/09_gap_variants_grids/changed_55/test_gatade.py *)
Definition test_gatade_test_gatade : list (res bool) := Eval vm_compute in [
  same nsame ((let* f := gatade in Ok (fullspots f))) ((let* f := gatade in Ok (fullspots f)));
  same splits_same ((of (gatade) (splits))) ((Ok [([3], [0; 2; 16; 20; 28; 48; 52; 60; 112; 116; 124; 240; 244; 252]); ([2; 3], [0; 16; 20; 28; 48; 52; 60; 112; 116; 124; 240; 244; 252]); ([20; 28; 52; 60; 116; 124; 244; 252], [0; 2; 3; 16; 48; 112; 240]); ([28; 60; 124; 252], [0; 2; 3; 16; 20; 48; 52; 112; 116; 240; 244]); ([16; 20; 28; 48; 52; 60; 112; 116; 124; 240; 244; 252], [0; 2; 3]); ([48; 52; 60; 112; 116; 124; 240; 244; 252], [0; 2; 3; 16; 20; 28]); ([112; 116; 124; 240; 244; 252], [0; 2; 3; 16; 20; 28; 48; 52; 60]); ([240; 244; 252], [0; 2; 3; 16; 20; 28; 48; 52; 60; 112; 116; 124])]))].
Example test_gatade_test_gatade_yes : yes test_gatade_test_gatade.
Proof. unfold test_gatade_test_gatade. many. Qed.
(* boolf/test/09_gap_variants_grids/changed_55/test_gulivu.py *)
Definition test_gulivu_test_gulivu : list (res bool) := Eval vm_compute in [
  same nsame ((let* f := gulivu in Ok (fullspots f))) ((Ok ([0; 16; 20; 50; 51; 52; 112; 114; 116; 243; 252] : list nat)));
  same splits_same ((of (gulivu) (splits))) ((Ok [([51; 243], [0; 16; 20; 50; 52; 112; 114; 116; 252]); ([50; 51; 114; 243], [0; 16; 20; 52; 112; 116; 252]); ([20; 52; 116; 252], [0; 16; 50; 51; 112; 114; 243]); ([252], [0; 16; 20; 50; 51; 52; 112; 114; 116; 243]); ([16; 20; 50; 51; 52; 112; 114; 116; 243; 252], [0]); ([50; 51; 52; 112; 114; 116; 243; 252], [0; 16; 20]); ([112; 114; 116; 243; 252], [0; 16; 20; 50; 51; 52]); ([243; 252], [0; 16; 20; 50; 51; 52; 112; 114; 116])]))].
Example test_gulivu_test_gulivu_yes : yes test_gulivu_test_gulivu.
Proof. unfold test_gulivu_test_gulivu. many. Qed.
(* boolf/test/09_gap_variants_grids/changed_55/test_ligoba.py *)
Definition test_ligoba_test_ligoba : list (res bool) := Eval vm_compute in [
  same nsame ((let* f := ligoba in Ok (fullspots f))) ((let* f := ligoba in Ok (fullspots f)));
  same splits_same ((of (ligoba) (splits))) ((Ok [([115; 243], [2; 4; 16; 18; 20; 50; 52; 112; 114; 124; 240; 242; 244; 252]); ([2; 18; 50; 114; 115; 242; 243], [4; 16; 20; 52; 112; 124; 240; 244; 252]); ([4; 20; 52; 124; 244; 252], [2; 16; 18; 50; 112; 114; 115; 240; 242; 243]); ([124; 252], [2; 4; 16; 18; 20; 50; 52; 112; 114; 115; 240; 242; 243; 244]); ([16; 18; 20; 50; 52; 112; 114; 115; 124; 240; 242; 243; 244; 252], [2; 4]); ([50; 52; 112; 114; 115; 124; 240; 242; 243; 244; 252], [2; 4; 16; 18; 20]); ([112; 114; 115; 124; 240; 242; 243; 244; 252], [2; 4; 16; 18; 20; 50; 52]); ([240; 242; 243; 244; 252], [2; 4; 16; 18; 20; 50; 52; 112; 114; 115; 124])]))].
Example test_ligoba_test_ligoba_yes : yes test_ligoba_test_ligoba.
Proof. unfold test_ligoba_test_ligoba. many. Qed.
(* boolf/test/09_gap_variants_grids/changed_55/test_pirake.py *)
Definition test_pirake_test_pirake : list (res bool) := Eval vm_compute in [
  same nsame ((let* f := pirake in Ok (fullspots f))) ((Ok ([4; 12; 16; 19; 50; 51; 60; 114; 244] : list nat)));
  same splits_same ((of (pirake) (splits))) ((Ok [([19; 51], [4; 12; 16; 50; 60; 114; 244]); ([19; 50; 51; 114], [4; 12; 16; 60; 244]); ([4; 12; 60; 244], [16; 19; 50; 51; 114]); ([12; 60], [4; 16; 19; 50; 51; 114; 244]); ([16; 19; 50; 51; 60; 114; 244], [4; 12]); ([50; 51; 60; 114; 244], [4; 12; 16; 19]); ([114; 244], [4; 12; 16; 19; 50; 51; 60]); ([244], [4; 12; 16; 19; 50; 51; 60; 114])]))].
Example test_pirake_test_pirake_yes : yes test_pirake_test_pirake.
Proof. unfold test_pirake_test_pirake. many. Qed.
(* boolf/test/09_gap_variants_grids/changed_55/test_pomote.py *)
Definition test_pomote_test_pomote : list (res bool) := Eval vm_compute in [
  same nsame ((let* f := pomote in Ok (fullspots f))) ((let* f := pomote in Ok (fullspots f)));
  same splits_same ((of (pomote) (splits))) ((Ok [([19; 115], [2; 4; 16; 28; 50; 52; 112; 124; 242; 244]); ([2; 19; 50; 115; 242], [4; 16; 28; 52; 112; 124; 244]); ([4; 28; 52; 124; 244], [2; 16; 19; 50; 112; 115; 242]); ([28; 124], [2; 4; 16; 19; 50; 52; 112; 115; 242; 244]); ([16; 19; 28; 50; 52; 112; 115; 124; 242; 244], [2; 4]); ([50; 52; 112; 115; 124; 242; 244], [2; 4; 16; 19; 28]); ([112; 115; 124; 242; 244], [2; 4; 16; 19; 28; 50; 52]); ([242; 244], [2; 4; 16; 19; 28; 50; 52; 112; 115; 124])]))].
Example test_pomote_test_pomote_yes : yes test_pomote_test_pomote.
Proof. unfold test_pomote_test_pomote. many. Qed.
(* boolf/test/09_gap_variants_grids/changed_55/test_tinefa.py *)
Definition test_tinefa_test_tinefa : list (res bool) := Eval vm_compute in [
  same nsame ((let* f := tinefa in Ok (fullspots f))) ((Ok ([16; 18; 19; 48; 51; 52; 112; 114; 115] : list nat)));
  same splits_same ((of (tinefa) (splits))) ((Ok [([19; 51; 115], [16; 18; 48; 52; 112; 114]); ([18; 19; 51; 114; 115], [16; 48; 52; 112]); ([52], [16; 18; 19; 48; 51; 112; 114; 115]); ([], [16; 18; 19; 48; 51; 52; 112; 114; 115]); ([16; 18; 19; 48; 51; 52; 112; 114; 115], []); ([48; 51; 52; 112; 114; 115], [16; 18; 19]); ([112; 114; 115], [16; 18; 19; 48; 51; 52]); ([], [16; 18; 19; 48; 51; 52; 112; 114; 115])]));
  same2 spc_eq ((of (tinefa) (bloat asis))) ((SetPartComp (Some [[3; 7]%Z]) (Some [(3, 4)%Z])));
  same2 spc_eq ((of (tinefa) (blight asis))) ((SetPartComp (Some [[(-1); 4]%Z; [3; 7]%Z]) (Some [(-1, 3)%Z])));
  beq ((of (tinefa) (bloat_boolf asis))) (bfa "0010 0100" [3; 4; 7]);
  beq ((of (tinefa) (blight_boolf asis))) (bfa "0010 0000" [3; 4; 7]);
  beq ((of (tinefa) (bloatless_boolf asis))) (bfsa [58; 8; 59; 10; 11; 24; 56; 27; 28] [0; 1; 2; 4; 5; 6]);
  beq ((of (tinefa) (blightless_boolf asis))) (bfsa [0; 2; 3; 8; 11; 12; 24; 26; 27] [0; 1; 2; 5; 6]);
  beq (tinefa) ((band ((of (tinefa) (bloat_boolf asis))) ((of (tinefa) (bloatless_boolf asis)))));
  beq (tinefa) ((band ((of (tinefa) (blight_boolf asis))) ((of (tinefa) (blightless_boolf asis)))));
  same list_eqb ((of (tinefa) (onesided_atomkeys))) ((Ok ([3; 4; 7] : list nat)));
  same (sameset nb_eqb) ((of (tinefa) (onesided_is_universe))) ((Ok [(3, false); (4, true); (7, false)]))].
Example test_tinefa_test_tinefa_yes : yes test_tinefa_test_tinefa.
Proof. unfold test_tinefa_test_tinefa. many. Qed.
(* boolf/test/09_gap_variants_grids/gapless/test_54_manila.py *)
Definition test_54_manila_test_manila : list (res bool) := Eval vm_compute in [
  beq (manila) ((of (manila_bloated) (bloatless_boolf asis)));
  beq (manila) ((band (t9_grid_boolf_abd) (t9_grid_boolf_efgh)));
  same nsame ((let* f := manila in Ok (fullspots f))) ((Ok ([0; 2; 3; 4; 8; 10; 11; 12; 24; 26; 27; 28; 56; 58; 59; 60; 120; 122; 123; 124] : list nat)));
  same splits_same ((of (manila) (splits))) ((Ok [([3; 11; 27; 59; 123], [0; 2; 4; 8; 10; 12; 24; 26; 28; 56; 58; 60; 120; 122; 124]); ([2; 3; 10; 11; 26; 27; 58; 59; 122; 123], [0; 4; 8; 12; 24; 28; 56; 60; 120; 124]); ([4; 12; 28; 60; 124], [0; 2; 3; 8; 10; 11; 24; 26; 27; 56; 58; 59; 120; 122; 123]); ([8; 10; 11; 12; 24; 26; 27; 28; 56; 58; 59; 60; 120; 122; 123; 124], [0; 2; 3; 4]); ([24; 26; 27; 28; 56; 58; 59; 60; 120; 122; 123; 124], [0; 2; 3; 4; 8; 10; 11; 12]); ([56; 58; 59; 60; 120; 122; 123; 124], [0; 2; 3; 4; 8; 10; 11; 12; 24; 26; 27; 28]); ([120; 122; 123; 124], [0; 2; 3; 4; 8; 10; 11; 12; 24; 26; 27; 28; 56; 58; 59; 60])]))].
Example test_54_manila_test_manila_yes : yes test_54_manila_test_manila.
Proof. unfold test_54_manila_test_manila. many. Qed.
(* boolf/test/09_gap_variants_grids/gapless/test_54_manila_bloated.py *)
Definition test_54_manila_bloated_test_manila_bloated : list (res bool) := Eval vm_compute in [
  same nsame ((let* f := manila_bloated in Ok (fullspots f))) ((let* f := manila_bloated in Ok (fullspots f)));
  same splits_same ((of (manila_bloated) (splits))) ((Ok [([3; 19; 51; 115; 243], [2; 4; 12; 18; 20; 28; 50; 52; 60; 114; 116; 124; 242; 244; 252]); ([2; 3; 18; 19; 50; 51; 114; 115; 242; 243], [4; 12; 20; 28; 52; 60; 116; 124; 244; 252]); ([4; 12; 20; 28; 52; 60; 116; 124; 244; 252], [2; 3; 18; 19; 50; 51; 114; 115; 242; 243]); ([12; 28; 60; 124; 252], [2; 3; 4; 18; 19; 20; 50; 51; 52; 114; 115; 116; 242; 243; 244]); ([18; 19; 20; 28; 50; 51; 52; 60; 114; 115; 116; 124; 242; 243; 244; 252], [2; 3; 4; 12]); ([50; 51; 52; 60; 114; 115; 116; 124; 242; 243; 244; 252], [2; 3; 4; 12; 18; 19; 20; 28]); ([114; 115; 116; 124; 242; 243; 244; 252], [2; 3; 4; 12; 18; 19; 20; 28; 50; 51; 52; 60]); ([242; 243; 244; 252], [2; 3; 4; 12; 18; 19; 20; 28; 50; 51; 52; 60; 114; 115; 116; 124])]));
  same list_eqb ((let* f := manila_bloated in Ok (atomvals f))) ((Ok ([0; 1; 2; 3; 4; 5; 6; 7] : list nat)));
  same list_eqb ((of (manila_bloated) (bloatless_atomkeys_undeflated asis))) ((Ok ([0; 1; 3; 4; 5; 6; 7] : list nat)));
  same2 spc_eq ((of (manila_bloated) (bloat asis))) ((SetPartComp (Some []) (Some [(1, 2)%Z])));
  beq ((of (manila_bloated) (bloat_boolf asis))) (bfa "0110" [1; 2])].
Example test_54_manila_bloated_test_manila_bloated_yes : yes test_54_manila_bloated_test_manila_bloated.
Proof. unfold test_54_manila_bloated_test_manila_bloated. many. Qed.
(* boolf/test/09_gap_variants_grids/gapless/test_55_medina.py *)
Definition test_55_medina_test_medusa : list (res bool) := Eval vm_compute in [
  beq (medina) ((band (t9_grid_boolf_abcd) (t9_grid_boolf_efgh)));
  same nsame ((let* f := medina in Ok (fullspots f))) ((Ok ([0; 2; 3; 4; 12; 16; 18; 19; 20; 28; 48; 50; 51; 52; 60; 112; 114; 115; 116; 124; 240; 242; 243; 244; 252] : list nat)));
  same splits_same ((of (medina) (splits))) ((Ok [([3; 19; 51; 115; 243], [0; 2; 4; 12; 16; 18; 20; 28; 48; 50; 52; 60; 112; 114; 116; 124; 240; 242; 244; 252]); ([2; 3; 18; 19; 50; 51; 114; 115; 242; 243], [0; 4; 12; 16; 20; 28; 48; 52; 60; 112; 116; 124; 240; 244; 252]); ([4; 12; 20; 28; 52; 60; 116; 124; 244; 252], [0; 2; 3; 16; 18; 19; 48; 50; 51; 112; 114; 115; 240; 242; 243]); ([12; 28; 60; 124; 252], [0; 2; 3; 4; 16; 18; 19; 20; 48; 50; 51; 52; 112; 114; 115; 116; 240; 242; 243; 244]); ([16; 18; 19; 20; 28; 48; 50; 51; 52; 60; 112; 114; 115; 116; 124; 240; 242; 243; 244; 252], [0; 2; 3; 4; 12]); ([48; 50; 51; 52; 60; 112; 114; 115; 116; 124; 240; 242; 243; 244; 252], [0; 2; 3; 4; 12; 16; 18; 19; 20; 28]); ([112; 114; 115; 116; 124; 240; 242; 243; 244; 252], [0; 2; 3; 4; 12; 16; 18; 19; 20; 28; 48; 50; 51; 52; 60]); ([240; 242; 243; 244; 252], [0; 2; 3; 4; 12; 16; 18; 19; 20; 28; 48; 50; 51; 52; 60; 112; 114; 115; 116; 124])]))].
Example test_55_medina_test_medusa_yes : yes test_55_medina_test_medusa.
Proof. unfold test_55_medina_test_medusa. many. Qed.
(* boolf/test/09_gap_variants_grids/test_multiple.py *)
Definition test_multiple_test_bundle_overlap_counts : list (res bool) := Eval vm_compute in [
  same (sameset boc_eqb) ((of (medina) (bundle_overlap_counts asis))) ((Ok [([0; 1; 2; 3; 4; 5; 6; 7], ([(0, 1); (0, 2); (0, 3); (1, 2); (1, 3); (2, 3); (4, 5); (4, 6); (4, 7); (5, 6); (5, 7); (6, 7)], [(0, 4); (0, 5); (0, 6); (0, 7); (1, 4); (1, 5); (1, 6); (1, 7); (2, 4); (2, 5); (2, 6); (2, 7); (3, 4); (3, 5); (3, 6); (3, 7)]))]));
  same (sameset boc_eqb) ((of (gunumi) (bundle_overlap_counts asis))) ((Ok [([0; 1; 2; 3; 4; 5; 6; 7], ([(0, 1); (0, 2); (0, 3); (1, 2); (1, 3); (2, 3); (4, 5); (4, 6); (4, 7); (5, 6); (5, 7); (6, 7)], [(0, 4); (0, 5); (0, 6); (0, 7); (1, 4); (1, 5); (1, 6); (1, 7); (2, 4); (2, 5); (2, 6); (2, 7); (3, 4); (3, 5); (3, 6); (3, 7)]))]));
  same (sameset boc_eqb) ((of (deginu) (bundle_overlap_counts asis))) ((Ok [([0; 1; 2; 3; 4; 5; 6; 7], ([(0, 1); (0, 2); (0, 3); (1, 2); (1, 3); (2, 3); (4, 5); (4, 6); (4, 7); (5, 6); (5, 7); (6, 7)], [(0, 4); (0, 5); (0, 6); (0, 7); (1, 4); (1, 5); (1, 6); (1, 7); (2, 4); (2, 5); (2, 6); (2, 7); (3, 4); (3, 5); (3, 6); (3, 7)]))]));
  same (sameset boc_eqb) ((of (manila) (bundle_overlap_counts asis))) ((Ok [([0; 1; 2; 3; 4; 5; 6], ([(0, 1); (0, 2); (1, 2); (3, 4); (3, 5); (3, 6); (4, 5); (4, 6); (5, 6)], [(0, 3); (0, 4); (0, 5); (0, 6); (1, 3); (1, 4); (1, 5); (1, 6); (2, 3); (2, 4); (2, 5); (2, 6)]))]));
  same (sameset boc_eqb) ((of (nafega) (bundle_overlap_counts asis))) ((Ok [([0; 1; 2; 3; 4; 5; 6], ([(0, 1); (0, 2); (1, 2); (3, 4); (3, 5); (3, 6); (4, 5); (4, 6); (5, 6)], [(0, 3); (0, 4); (0, 5); (0, 6); (1, 3); (1, 4); (1, 5); (1, 6); (2, 3); (2, 4); (2, 5); (2, 6)]))]));
  same (sameset boc_eqb) ((of (takeli) (bundle_overlap_counts asis))) ((Ok [([0; 1; 2; 3; 4; 5; 6], ([(0, 1); (0, 2); (1, 2); (3, 4); (3, 5); (3, 6); (4, 5); (4, 6); (5, 6)], [(0, 3); (0, 4); (0, 5); (0, 6); (1, 3); (1, 4); (1, 5); (1, 6); (2, 3); (2, 4); (2, 5); (2, 6)]))]));
  same (sameset boc_eqb) ((of (tevoga) (bundle_overlap_counts asis))) ((Ok [([0; 1; 2; 3; 4; 5; 6], ([(0, 1); (0, 2); (1, 2); (3, 4); (3, 5); (3, 6); (4, 5); (4, 6); (5, 6)], [(0, 3); (0, 4); (0, 5); (0, 6); (1, 3); (1, 4); (1, 5); (1, 6); (2, 3); (2, 4); (2, 5); (2, 6)]))]));
  same (sameset boc_eqb) ((of (luvati) (bundle_overlap_counts asis))) ((Ok [([0; 1; 2; 3; 4; 5; 6], ([(0, 1); (0, 2); (1, 2); (3, 4); (3, 5); (3, 6); (4, 5); (4, 6); (5, 6)], [(0, 3); (0, 4); (0, 5); (0, 6); (1, 3); (1, 4); (1, 5); (1, 6); (2, 3); (2, 4); (2, 5); (2, 6)]))]))].
Example test_multiple_test_bundle_overlap_counts_yes : yes test_multiple_test_bundle_overlap_counts.
Proof. unfold test_multiple_test_bundle_overlap_counts. many. Qed.
(* boolf/test/09_gap_variants_grids/unchanged_54/test_luvati.py *)
Definition test_luvati_test_luvati : list (res bool) := Eval vm_compute in [
  same nsame ((let* f := luvati in Ok (fullspots f))) ((let* f := luvati in Ok (fullspots f)));
  same splits_same ((of (luvati) (splits))) ((Ok [([3; 11; 27; 59; 123], [0; 2; 4; 8; 24; 28; 60; 120; 122; 124]); ([2; 3; 11; 27; 59; 122; 123], [0; 4; 8; 24; 28; 60; 120; 124]); ([4; 28; 60; 124], [0; 2; 3; 8; 11; 24; 27; 59; 120; 122; 123]); ([8; 11; 24; 27; 28; 59; 60; 120; 122; 123; 124], [0; 2; 3; 4]); ([24; 27; 28; 59; 60; 120; 122; 123; 124], [0; 2; 3; 4; 8; 11]); ([59; 60; 120; 122; 123; 124], [0; 2; 3; 4; 8; 11; 24; 27; 28]); ([120; 122; 123; 124], [0; 2; 3; 4; 8; 11; 24; 27; 28; 59; 60])]))].
Example test_luvati_test_luvati_yes : yes test_luvati_test_luvati.
Proof. unfold test_luvati_test_luvati. many. Qed.
(* boolf/test/09_gap_variants_grids/unchanged_54/test_nafega.py *)
Definition test_nafega_test_nafega : list (res bool) := Eval vm_compute in [
  same nsame ((let* f := nafega in Ok (fullspots f))) ((Ok ([2; 3; 4; 8; 24; 56; 122; 123; 124] : list nat)));
  same splits_same ((of (nafega) (splits))) ((Ok [([3; 123], [2; 4; 8; 24; 56; 122; 124]); ([2; 3; 122; 123], [4; 8; 24; 56; 124]); ([4; 124], [2; 3; 8; 24; 56; 122; 123]); ([8; 24; 56; 122; 123; 124], [2; 3; 4]); ([24; 56; 122; 123; 124], [2; 3; 4; 8]); ([56; 122; 123; 124], [2; 3; 4; 8; 24]); ([122; 123; 124], [2; 3; 4; 8; 24; 56])]))].
Example test_nafega_test_nafega_yes : yes test_nafega_test_nafega.
Proof. unfold test_nafega_test_nafega. many. Qed.
(* boolf/test/09_gap_variants_grids/unchanged_54/test_takeli.py *)
Definition test_takeli_test_takeli : list (res bool) := Eval vm_compute in [
  same nsame ((let* f := takeli in Ok (fullspots f))) ((let* f := takeli in Ok (fullspots f)));
  same splits_same ((of (takeli) (splits))) ((Ok [([3; 11; 27; 59; 123], [0; 2; 4; 10; 12; 26; 28; 58; 60; 122; 124]); ([2; 3; 10; 11; 26; 27; 58; 59; 122; 123], [0; 4; 12; 28; 60; 124]); ([4; 12; 28; 60; 124], [0; 2; 3; 10; 11; 26; 27; 58; 59; 122; 123]); ([10; 11; 12; 26; 27; 28; 58; 59; 60; 122; 123; 124], [0; 2; 3; 4]); ([26; 27; 28; 58; 59; 60; 122; 123; 124], [0; 2; 3; 4; 10; 11; 12]); ([58; 59; 60; 122; 123; 124], [0; 2; 3; 4; 10; 11; 12; 26; 27; 28]); ([122; 123; 124], [0; 2; 3; 4; 10; 11; 12; 26; 27; 28; 58; 59; 60])]))].
Example test_takeli_test_takeli_yes : yes test_takeli_test_takeli.
Proof. unfold test_takeli_test_takeli. many. Qed.
(* boolf/test/09_gap_variants_grids/unchanged_54/test_tevoga.py *)
Definition test_tevoga_test_tevoga : list (res bool) := Eval vm_compute in [
  same nsame ((let* f := tevoga in Ok (fullspots f))) ((Ok ([3; 4; 11; 12; 27; 28; 59; 60; 120; 122; 123; 124] : list nat)));
  same splits_same ((of (tevoga) (splits))) ((Ok [([3; 11; 27; 59; 123], [4; 12; 28; 60; 120; 122; 124]); ([3; 11; 27; 59; 122; 123], [4; 12; 28; 60; 120; 124]); ([4; 12; 28; 60; 124], [3; 11; 27; 59; 120; 122; 123]); ([11; 12; 27; 28; 59; 60; 120; 122; 123; 124], [3; 4]); ([27; 28; 59; 60; 120; 122; 123; 124], [3; 4; 11; 12]); ([59; 60; 120; 122; 123; 124], [3; 4; 11; 12; 27; 28]); ([120; 122; 123; 124], [3; 4; 11; 12; 27; 28; 59; 60])]))].
Example test_tevoga_test_tevoga_yes : yes test_tevoga_test_tevoga.
Proof. unfold test_tevoga_test_tevoga. many. Qed.
(* boolf/test/09_gap_variants_grids/unchanged_55/test_deginu.py *)
Definition test_deginu_test_deginu : list (res bool) := Eval vm_compute in [
  same nsame ((let* f := deginu in Ok (fullspots f))) ((Ok ([0; 2; 3; 12; 19; 20; 51; 52; 115; 116; 240; 242; 243; 252] : list nat)));
  same splits_same ((of (deginu) (splits))) ((Ok [([3; 19; 51; 115; 243], [0; 2; 12; 20; 52; 116; 240; 242; 252]); ([2; 3; 19; 51; 115; 242; 243], [0; 12; 20; 52; 116; 240; 252]); ([12; 20; 52; 116; 252], [0; 2; 3; 19; 51; 115; 240; 242; 243]); ([12; 252], [0; 2; 3; 19; 20; 51; 52; 115; 116; 240; 242; 243]); ([19; 20; 51; 52; 115; 116; 240; 242; 243; 252], [0; 2; 3; 12]); ([51; 52; 115; 116; 240; 242; 243; 252], [0; 2; 3; 12; 19; 20]); ([115; 116; 240; 242; 243; 252], [0; 2; 3; 12; 19; 20; 51; 52]); ([240; 242; 243; 252], [0; 2; 3; 12; 19; 20; 51; 52; 115; 116])]))].
Example test_deginu_test_deginu_yes : yes test_deginu_test_deginu.
Proof. unfold test_deginu_test_deginu. many. Qed.
(* boolf/test/09_gap_variants_grids/unchanged_55/test_gunumi.py *)
Definition test_gunumi_test_gunumi : list (res bool) := Eval vm_compute in [
  same nsame ((let* f := gunumi in Ok (fullspots f))) ((Ok ([0; 3; 12; 18; 20; 48; 51; 60; 114; 116; 240; 243; 252] : list nat)));
  same splits_same ((of (gunumi) (splits))) ((Ok [([3; 51; 243], [0; 12; 18; 20; 48; 60; 114; 116; 240; 252]); ([3; 18; 51; 114; 243], [0; 12; 20; 48; 60; 116; 240; 252]); ([12; 20; 60; 116; 252], [0; 3; 18; 48; 51; 114; 240; 243]); ([12; 60; 252], [0; 3; 18; 20; 48; 51; 114; 116; 240; 243]); ([18; 20; 48; 51; 60; 114; 116; 240; 243; 252], [0; 3; 12]); ([48; 51; 60; 114; 116; 240; 243; 252], [0; 3; 12; 18; 20]); ([114; 116; 240; 243; 252], [0; 3; 12; 18; 20; 48; 51; 60]); ([240; 243; 252], [0; 3; 12; 18; 20; 48; 51; 60; 114; 116])]))].
Example test_gunumi_test_gunumi_yes : yes test_gunumi_test_gunumi.
Proof. unfold test_gunumi_test_gunumi. many. Qed.
