(** Checks of the model against the files boolf/test/10 (see Conf_Base and Conf_BoolfT). 
    The values are computed when the file is compiled ([Eval vm_compute]), because the conversion of coqchk, which does not use the virtual machine, is too slow for them;
    the kernel sees only the results. *)
From Coq Require Import String List Arith ZArith Bool QArith.
From Verif Require Import Model_Base Model_Binary Model_SigPerm Model_SetPart Model_SetPartComp Model_Splits Model_Perm Model_Boolf Model_Twin Model_Blight Model_BoolfMore Model_Helpers
  Model_MinRep Model_Misc Model_Ec Model_King Model_Segments Model_Str Model_Layers Model_Hyper Model_Pretty Model_SetPartBoolf Conf_Base Conf_Examples Conf_BoolfM Conf_BoolfT.
Import ListNotations.
Local Open Scope string_scope.
Local Open Scope nat_scope.
Local Open Scope list_scope.

(* boolf/test/10_gap_variants_basiga/blighted/test_bitada.py *)
Definition test_bitada_test_bitada : list (res bool) := Eval vm_compute in [
  same2 spc_eq ((of (bitada) (bloat asis))) ((SetPartComp (Some [[0; 2]%Z]) (Some [(1, 5)%Z])));
  same2 spc_eq ((of (bitada) (blight asis))) ((SetPartComp (Some [[(-1); 1]%Z; [0; 2]%Z]) (Some [(-1, 5)%Z])));
  same blocks_same ((let* b := of (bitada) (blocks_and_sides asis) in Ok (fst b))) ((Ok [[0; 2]; [1; 5]; [3]; [4]; [6]; [7]]));
  same (sameseq place_eqb) ((let* b := of (bitada) (blocks_and_sides asis) in Ok (snd b))) ((Ok [None; Some 1; None; None; None; None]));
  beq (bitada_blightless) (bfsa [0; 1; 2; 6; 10; 18] [0; 3; 4; 6; 7]);
  same splits_same ((of (bitada_blightless) (splits))) ((Ok [([1], [0; 2; 6; 10; 18]); ([2; 6; 10; 18], [0; 1]); ([6], [0; 1; 2; 10; 18]); ([10], [0; 1; 2; 6; 18]); ([18], [0; 1; 2; 6; 10])]));
  same (sameset fpp_eqb) ((of (bitada_blightless) (fun f => filtrated_pairs_pretty asis f (Some [lit "A"; lit "D"; lit "E"; lit "G"; lit "H"])))) ((Ok [(lit "disjoint", [(Txt (lit "A"), Txt (lit "D")); (Txt (lit "A"), Txt (lit "E")); (Txt (lit "A"), Txt (lit "G")); (Txt (lit "A"), Txt (lit "H")); (Txt (lit "E"), Txt (lit "G")); (Txt (lit "E"), Txt (lit "H")); (Txt (lit "G"), Txt (lit "H"))]); (lit "subset", [(Txt (lit "E"), Txt (lit "D")); (Txt (lit "G"), Txt (lit "D")); (Txt (lit "H"), Txt (lit "D"))])]))].
Example test_bitada_test_bitada_yes : yes test_bitada_test_bitada.
Proof. unfold test_bitada_test_bitada. many. Qed.
(* boolf/test/10_gap_variants_basiga/blighted/test_duvola.py *)
Definition test_duvola_test_duvola : list (res bool) := Eval vm_compute in [
  same2 spc_eq ((of (duvola) (bloat asis))) ((SetPartComp (Some [[0; 2]%Z]) (Some [(0, 3)%Z; (1, 5)%Z])));
  same2 spc_eq ((of (duvola) (blight asis))) ((SetPartComp (Some [[(-1); 1]%Z; [0; 2]%Z]) (Some [(-1, 5)%Z; (0, 3)%Z])));
  same blocks_same ((let* b := of (duvola) (blocks_and_sides asis) in Ok (fst b))) ((Ok [[0; 2; 3]; [1; 5]; [4]; [6]; [7]]));
  same (sameseq place_eqb) ((let* b := of (duvola) (blocks_and_sides asis) in Ok (snd b))) ((Ok [Some 0; Some 1; None; None; None]));
  beq (duvola_blightless) (bfsa [0; 1; 2; 4; 8] [0; 4; 6; 7]);
  same splits_same ((of (duvola_blightless) (splits))) ((Ok [([1], [0; 2; 4; 8]); ([2], [0; 1; 4; 8]); ([4], [0; 1; 2; 8]); ([8], [0; 1; 2; 4])]));
  same (sameset fpp_eqb) ((of (duvola_blightless) (fun f => filtrated_pairs_pretty asis f (Some [lit "A"; lit "E"; lit "G"; lit "H"])))) ((Ok [(lit "disjoint", [(Txt (lit "A"), Txt (lit "E")); (Txt (lit "A"), Txt (lit "G")); (Txt (lit "A"), Txt (lit "H")); (Txt (lit "E"), Txt (lit "G")); (Txt (lit "E"), Txt (lit "H")); (Txt (lit "G"), Txt (lit "H"))])]))].
Example test_duvola_test_duvola_yes : yes test_duvola_test_duvola.
Proof. unfold test_duvola_test_duvola. many. Qed.
(* boolf/test/10_gap_variants_basiga/blighted/test_futare.py *)
Definition test_futare_test_futare : list (res bool) := Eval vm_compute in [
  same2 spc_eq ((of (futare) (bloat asis))) ((of (futare) (blight asis)));
  same2 spc_eq ((of (futare) (bloat asis))) ((SetPartComp (Some [[0; 2]%Z]) (Some [(0, 3)%Z; (1, 4)%Z])));
  same blocks_same ((let* b := of (futare) (blocks_and_sides asis) in Ok (fst b))) ((Ok [[0; 2; 3]; [1; 4]; [5]; [6]; [7]]));
  same (sameseq place_eqb) ((let* b := of (futare) (blocks_and_sides asis) in Ok (snd b))) ((Ok [Some 0; Some 1; None; None; None]));
  same (sameset fpp_eqb) ((of (futare) (fun f => filtrated_pairs_pretty asis f (Some [lit "A"; lit "B"; lit "C"; lit "D"; lit "E"; lit "F"; lit "G"; lit "H"])))) ((Ok [(lit "disjoint", [(Txt (lit "A"), Txt (lit "E")); (Txt (lit "A"), Txt (lit "F")); (Txt (lit "A"), Txt (lit "G")); (Txt (lit "A"), Txt (lit "H")); (Txt (lit "C"), Txt (lit "E")); (Txt (lit "C"), Txt (lit "F")); (Txt (lit "C"), Txt (lit "G")); (Txt (lit "C"), Txt (lit "H")); (Txt (lit "E"), Txt (lit "F")); (Txt (lit "E"), Txt (lit "G")); (Txt (lit "E"), Txt (lit "H")); (Txt (lit "F"), Txt (lit "H"))]); (lit "universal", [(Txt (lit "B"), Txt (lit "D"))]); (lit "subset", [(Txt (lit "A"), Txt (lit "B")); (Txt (lit "C"), Txt (lit "B")); (Txt (lit "E"), Txt (lit "D")); (Txt (lit "F"), Txt (lit "B")); (Txt (lit "F"), Txt (lit "D")); (Txt (lit "F"), Txt (lit "G")); (Txt (lit "G"), Txt (lit "B")); (Txt (lit "G"), Txt (lit "D")); (Txt (lit "H"), Txt (lit "B")); (Txt (lit "H"), Txt (lit "D")); (Txt (lit "H"), Txt (lit "G"))]); (lit "equal", [(Txt (lit "A"), Txt (lit "C"))]); (lit "complementary", [(Txt (lit "A"), Txt (lit "D")); (Txt (lit "B"), Txt (lit "E")); (Txt (lit "C"), Txt (lit "D"))])]));
  beq (futare_bloatless) (bfsa [0; 26; 3; 14] [0; 1; 5; 6; 7]);
  same splits_same ((of (futare_bloatless) (splits))) ((Ok [([3], [0; 14; 26]); ([3; 14; 26], [0]); ([14], [0; 3; 26]); ([14; 26], [0; 3]); ([26], [0; 3; 14])]));
  same (sameset fpp_eqb) ((of (futare_bloatless) (fun f => filtrated_pairs_pretty asis f (Some [lit "A"; lit "B"; lit "F"; lit "G"; lit "H"])))) ((Ok [(lit "disjoint", [(Txt (lit "A"), Txt (lit "F")); (Txt (lit "A"), Txt (lit "G")); (Txt (lit "A"), Txt (lit "H")); (Txt (lit "F"), Txt (lit "H"))]); (lit "subset", [(Txt (lit "A"), Txt (lit "B")); (Txt (lit "F"), Txt (lit "B")); (Txt (lit "F"), Txt (lit "G")); (Txt (lit "G"), Txt (lit "B")); (Txt (lit "H"), Txt (lit "B")); (Txt (lit "H"), Txt (lit "G"))])]));
  beq ((of (futare) (fun f => filtrated_boolf f [0; 4; 5; 6; 7]))) ((of ((of (futare) (fun f => filtrated_boolf f [0; 4; 5; 6; 7]))) (bloatless_boolf asis)));
  same splits_same ((of ((of (futare) (fun f => filtrated_boolf f [0; 4; 5; 6; 7]))) (splits))) ((Ok [([1], [2; 12; 24]); ([2], [1; 12; 24]); ([12], [1; 2; 24]); ([12; 24], [1; 2]); ([24], [1; 2; 12])]));
  same (sameset fpp_eqb) ((of ((of (futare) (fun f => filtrated_boolf f [0; 4; 5; 6; 7]))) (fun f => filtrated_pairs_pretty asis f (Some [lit "A"; lit "E"; lit "F"; lit "G"; lit "H"])))) ((Ok [(lit "disjoint", [(Txt (lit "A"), Txt (lit "E")); (Txt (lit "A"), Txt (lit "F")); (Txt (lit "A"), Txt (lit "G")); (Txt (lit "A"), Txt (lit "H")); (Txt (lit "E"), Txt (lit "F")); (Txt (lit "E"), Txt (lit "G")); (Txt (lit "E"), Txt (lit "H")); (Txt (lit "F"), Txt (lit "H"))]); (lit "subset", [(Txt (lit "F"), Txt (lit "G")); (Txt (lit "H"), Txt (lit "G"))])]))].
Example test_futare_test_futare_yes : yes test_futare_test_futare.
Proof. unfold test_futare_test_futare. many. Qed.
(* boolf/test/10_gap_variants_basiga/blighted/test_geteso.py *)
Definition test_geteso_test_geteso : list (res bool) := Eval vm_compute in [
  same2 spc_eq ((of (geteso) (bloat asis))) ((SetPartComp (Some [[6; 7]%Z]) (Some [(0, 1)%Z])));
  same2 spc_eq ((of (geteso) (blight asis))) ((SetPartComp (Some [[6; 7]%Z]) (Some [(0, 1)%Z])));
  same blocks_same ((let* b := of (geteso) (blocks_and_sides asis) in Ok (fst b))) ((Ok [[0; 1]; [2]; [3]; [4]; [5]; [6; 7]]));
  same (sameseq place_eqb) ((let* b := of (geteso) (blocks_and_sides asis) in Ok (snd b))) ((Ok [Some 1; None; None; None; None; None]));
  beq (geteso_bloatless) (bfsa [1; 2; 3; 37; 15; 21] [1; 2; 3; 4; 5; 6]);
  same splits_same ((of (geteso_bloatless) (splits))) ((Ok [([1; 3; 15; 21; 37], [2]); ([2; 3; 15], [1; 21; 37]); ([15; 21; 37], [1; 2; 3]); ([15], [1; 2; 3; 21; 37]); ([21], [1; 2; 3; 15; 37]); ([37], [1; 2; 3; 15; 21])]));
  same (sameset fpp_eqb) ((of (geteso_bloatless) (fun f => filtrated_pairs_pretty asis f (Some [lit "B"; lit "C"; lit "D"; lit "E"; lit "F"; lit "G"])))) ((Ok [(lit "crossing", [(Txt (lit "C"), Txt (lit "D"))]); (lit "disjoint", [(Txt (lit "C"), Txt (lit "F")); (Txt (lit "C"), Txt (lit "G")); (Txt (lit "E"), Txt (lit "F")); (Txt (lit "E"), Txt (lit "G")); (Txt (lit "F"), Txt (lit "G"))]); (lit "universal", [(Txt (lit "B"), Txt (lit "C"))]); (lit "subset", [(Txt (lit "D"), Txt (lit "B")); (Txt (lit "E"), Txt (lit "B")); (Txt (lit "E"), Txt (lit "C")); (Txt (lit "E"), Txt (lit "D")); (Txt (lit "F"), Txt (lit "B")); (Txt (lit "F"), Txt (lit "D")); (Txt (lit "G"), Txt (lit "B")); (Txt (lit "G"), Txt (lit "D"))])]))].
Example test_geteso_test_geteso_yes : yes test_geteso_test_geteso.
Proof. unfold test_geteso_test_geteso. many. Qed.
(* boolf/test/10_gap_variants_basiga/blightless/test_dinado.py *)
Definition test_dinado_test_dinado : list (res bool) := Eval vm_compute in [
  same splits_same ((of (dinado) (splits))) ((Ok [([1; 7], [0; 2; 8; 12; 14; 24; 26; 28; 74; 106; 138; 202]); ([2; 7; 14; 26; 74; 106; 138; 202], [0; 1; 8; 12; 24; 28]); ([7; 12; 14; 28], [0; 1; 2; 8; 24; 26; 74; 106; 138; 202]); ([8; 12; 14; 24; 26; 28; 74; 106; 138; 202], [0; 1; 2; 7]); ([24; 26; 28], [0; 1; 2; 7; 8; 12; 14; 74; 106; 138; 202]); ([106], [0; 1; 2; 7; 8; 12; 14; 24; 26; 28; 74; 138; 202]); ([74; 106; 202], [0; 1; 2; 7; 8; 12; 14; 24; 26; 28; 138]); ([138; 202], [0; 1; 2; 7; 8; 12; 14; 24; 26; 28; 74; 106])]));
  same (sameset fpp_eqb) ((of (dinado) (fun f => filtrated_pairs_pretty asis f (Some [lit "A"; lit "B"; lit "C"; lit "D"; lit "E"; lit "F"; lit "G"; lit "H"])))) ((Ok [(lit "crossing", [(Txt (lit "A"), Txt (lit "B")); (Txt (lit "A"), Txt (lit "C")); (Txt (lit "B"), Txt (lit "C")); (Txt (lit "B"), Txt (lit "D")); (Txt (lit "B"), Txt (lit "E")); (Txt (lit "C"), Txt (lit "D")); (Txt (lit "C"), Txt (lit "E")); (Txt (lit "G"), Txt (lit "H"))]); (lit "disjoint", [(Txt (lit "A"), Txt (lit "D")); (Txt (lit "A"), Txt (lit "E")); (Txt (lit "A"), Txt (lit "F")); (Txt (lit "A"), Txt (lit "G")); (Txt (lit "A"), Txt (lit "H")); (Txt (lit "C"), Txt (lit "F")); (Txt (lit "C"), Txt (lit "G")); (Txt (lit "C"), Txt (lit "H")); (Txt (lit "E"), Txt (lit "F")); (Txt (lit "E"), Txt (lit "G")); (Txt (lit "E"), Txt (lit "H")); (Txt (lit "F"), Txt (lit "H"))]); (lit "subset", [(Txt (lit "E"), Txt (lit "D")); (Txt (lit "F"), Txt (lit "B")); (Txt (lit "F"), Txt (lit "D")); (Txt (lit "F"), Txt (lit "G")); (Txt (lit "G"), Txt (lit "B")); (Txt (lit "G"), Txt (lit "D")); (Txt (lit "H"), Txt (lit "B")); (Txt (lit "H"), Txt (lit "D"))])]))].
Example test_dinado_test_dinado_yes : yes test_dinado_test_dinado.
Proof. unfold test_dinado_test_dinado. many. Qed.
(* boolf/test/10_gap_variants_basiga/blightless/test_doguva.py *)
Definition test_doguva_test_doguva : list (res bool) := Eval vm_compute in [
  beq ((of (doguva) (gapless_boolf asis))) (basiga);
  same splits_same ((of (doguva) (splits))) ((Ok [([1; 3; 5], [0; 2; 4; 6; 8; 12; 14; 24; 28; 30; 42; 74; 106; 138; 202]); ([2; 3; 6; 14; 30; 42; 74; 106; 138; 202], [0; 1; 4; 5; 8; 12; 24; 28]); ([4; 5; 6; 12; 14; 28; 30], [0; 1; 2; 3; 8; 24; 42; 74; 106; 138; 202]); ([8; 12; 14; 24; 28; 30; 42; 74; 106; 138; 202], [0; 1; 2; 3; 4; 5; 6]); ([24; 28; 30], [0; 1; 2; 3; 4; 5; 6; 8; 12; 14; 42; 74; 106; 138; 202]); ([42; 106], [0; 1; 2; 3; 4; 5; 6; 8; 12; 14; 24; 28; 30; 74; 138; 202]); ([74; 106; 202], [0; 1; 2; 3; 4; 5; 6; 8; 12; 14; 24; 28; 30; 42; 138]); ([138; 202], [0; 1; 2; 3; 4; 5; 6; 8; 12; 14; 24; 28; 30; 42; 74; 106])]));
  same (sameset fpp_eqb) ((of (doguva) (fun f => filtrated_pairs_pretty asis f (Some [lit "A"; lit "B"; lit "C"; lit "D"; lit "E"; lit "F"; lit "G"; lit "H"])))) ((Ok [(lit "crossing", [(Txt (lit "A"), Txt (lit "B")); (Txt (lit "A"), Txt (lit "C")); (Txt (lit "B"), Txt (lit "C")); (Txt (lit "B"), Txt (lit "D")); (Txt (lit "B"), Txt (lit "E")); (Txt (lit "C"), Txt (lit "D")); (Txt (lit "C"), Txt (lit "E")); (Txt (lit "F"), Txt (lit "G")); (Txt (lit "G"), Txt (lit "H"))]); (lit "disjoint", [(Txt (lit "A"), Txt (lit "D")); (Txt (lit "A"), Txt (lit "E")); (Txt (lit "A"), Txt (lit "F")); (Txt (lit "A"), Txt (lit "G")); (Txt (lit "A"), Txt (lit "H")); (Txt (lit "C"), Txt (lit "F")); (Txt (lit "C"), Txt (lit "G")); (Txt (lit "C"), Txt (lit "H")); (Txt (lit "E"), Txt (lit "F")); (Txt (lit "E"), Txt (lit "G")); (Txt (lit "E"), Txt (lit "H")); (Txt (lit "F"), Txt (lit "H"))]); (lit "subset", [(Txt (lit "E"), Txt (lit "D")); (Txt (lit "F"), Txt (lit "B")); (Txt (lit "F"), Txt (lit "D")); (Txt (lit "G"), Txt (lit "B")); (Txt (lit "G"), Txt (lit "D")); (Txt (lit "H"), Txt (lit "B")); (Txt (lit "H"), Txt (lit "D"))])]))].
Example test_doguva_test_doguva_yes : yes test_doguva_test_doguva.
Proof. unfold test_doguva_test_doguva. many. Qed.
(* boolf/test/10_gap_variants_basiga/blightless/test_giteli.py *)
Definition test_giteli_test_giteli : list (res bool) := Eval vm_compute in [
  same splits_same ((of (giteli) (splits))) ((Ok [([1; 3; 5], [0; 2; 4; 8; 10; 12; 24; 26; 28; 42; 74; 106; 138; 202]); ([2; 3; 10; 26; 42; 74; 106; 138; 202], [0; 1; 4; 5; 8; 12; 24; 28]); ([4; 5; 12; 28], [0; 1; 2; 3; 8; 10; 24; 26; 42; 74; 106; 138; 202]); ([8; 10; 12; 24; 26; 28; 42; 74; 106; 138; 202], [0; 1; 2; 3; 4; 5]); ([24; 26; 28], [0; 1; 2; 3; 4; 5; 8; 10; 12; 42; 74; 106; 138; 202]); ([42; 106], [0; 1; 2; 3; 4; 5; 8; 10; 12; 24; 26; 28; 74; 138; 202]); ([74; 106; 202], [0; 1; 2; 3; 4; 5; 8; 10; 12; 24; 26; 28; 42; 138]); ([138; 202], [0; 1; 2; 3; 4; 5; 8; 10; 12; 24; 26; 28; 42; 74; 106])]));
  same (sameset fpp_eqb) ((of (giteli) (fun f => filtrated_pairs_pretty asis f (Some [lit "A"; lit "B"; lit "C"; lit "D"; lit "E"; lit "F"; lit "G"; lit "H"])))) ((Ok [(lit "crossing", [(Txt (lit "A"), Txt (lit "B")); (Txt (lit "A"), Txt (lit "C")); (Txt (lit "B"), Txt (lit "D")); (Txt (lit "B"), Txt (lit "E")); (Txt (lit "C"), Txt (lit "D")); (Txt (lit "C"), Txt (lit "E")); (Txt (lit "F"), Txt (lit "G")); (Txt (lit "G"), Txt (lit "H"))]); (lit "disjoint", [(Txt (lit "A"), Txt (lit "D")); (Txt (lit "A"), Txt (lit "E")); (Txt (lit "A"), Txt (lit "F")); (Txt (lit "A"), Txt (lit "G")); (Txt (lit "A"), Txt (lit "H")); (Txt (lit "B"), Txt (lit "C")); (Txt (lit "C"), Txt (lit "F")); (Txt (lit "C"), Txt (lit "G")); (Txt (lit "C"), Txt (lit "H")); (Txt (lit "E"), Txt (lit "F")); (Txt (lit "E"), Txt (lit "G")); (Txt (lit "E"), Txt (lit "H")); (Txt (lit "F"), Txt (lit "H"))]); (lit "subset", [(Txt (lit "E"), Txt (lit "D")); (Txt (lit "F"), Txt (lit "B")); (Txt (lit "F"), Txt (lit "D")); (Txt (lit "G"), Txt (lit "B")); (Txt (lit "G"), Txt (lit "D")); (Txt (lit "H"), Txt (lit "B")); (Txt (lit "H"), Txt (lit "D"))])]))].
Example test_giteli_test_giteli_yes : yes test_giteli_test_giteli.
Proof. unfold test_giteli_test_giteli. many. Qed.
(* boolf/test/10_gap_variants_basiga/blightless/test_kokabi.py *)
Definition test_kokabi_test_kokabi : list (res bool) := Eval vm_compute in [
  same splits_same ((of (kokabi) (splits))) ((Ok [([5; 7], [0; 2; 6; 14; 26; 28; 30; 42; 74; 202]); ([2; 6; 7; 14; 26; 30; 42; 74; 202], [0; 5; 28]); ([5; 6; 7; 14; 28; 30], [0; 2; 26; 42; 74; 202]); ([14; 26; 28; 30; 42; 74; 202], [0; 2; 5; 6; 7]); ([26; 28; 30], [0; 2; 5; 6; 7; 14; 42; 74; 202]); ([42], [0; 2; 5; 6; 7; 14; 26; 28; 30; 74; 202]); ([74; 202], [0; 2; 5; 6; 7; 14; 26; 28; 30; 42]); ([202], [0; 2; 5; 6; 7; 14; 26; 28; 30; 42; 74])]));
  same (sameset fpp_eqb) ((of (kokabi) (fun f => filtrated_pairs_pretty asis f (Some [lit "A"; lit "B"; lit "C"; lit "D"; lit "E"; lit "F"; lit "G"; lit "H"])))) ((Ok [(lit "crossing", [(Txt (lit "A"), Txt (lit "B")); (Txt (lit "B"), Txt (lit "C")); (Txt (lit "B"), Txt (lit "D")); (Txt (lit "B"), Txt (lit "E")); (Txt (lit "C"), Txt (lit "D")); (Txt (lit "C"), Txt (lit "E"))]); (lit "disjoint", [(Txt (lit "A"), Txt (lit "D")); (Txt (lit "A"), Txt (lit "E")); (Txt (lit "A"), Txt (lit "F")); (Txt (lit "A"), Txt (lit "G")); (Txt (lit "A"), Txt (lit "H")); (Txt (lit "C"), Txt (lit "F")); (Txt (lit "C"), Txt (lit "G")); (Txt (lit "C"), Txt (lit "H")); (Txt (lit "E"), Txt (lit "F")); (Txt (lit "E"), Txt (lit "G")); (Txt (lit "E"), Txt (lit "H")); (Txt (lit "F"), Txt (lit "G")); (Txt (lit "F"), Txt (lit "H"))]); (lit "subset", [(Txt (lit "A"), Txt (lit "C")); (Txt (lit "E"), Txt (lit "D")); (Txt (lit "F"), Txt (lit "B")); (Txt (lit "F"), Txt (lit "D")); (Txt (lit "G"), Txt (lit "B")); (Txt (lit "G"), Txt (lit "D")); (Txt (lit "H"), Txt (lit "B")); (Txt (lit "H"), Txt (lit "D")); (Txt (lit "H"), Txt (lit "G"))])]))].
Example test_kokabi_test_kokabi_yes : yes test_kokabi_test_kokabi.
Proof. unfold test_kokabi_test_kokabi. many. Qed.
(* boolf/test/10_gap_variants_basiga/blightless/test_kulika.py *)
Definition test_kulika_test_kulika : list (res bool) := Eval vm_compute in [
  same splits_same ((of (kulika) (splits))) ((Ok [([3; 5], [0; 6; 10; 12; 24; 30; 106; 202]); ([3; 6; 10; 30; 106; 202], [0; 5; 12; 24]); ([5; 6; 12; 30], [0; 3; 10; 24; 106; 202]); ([10; 12; 24; 30; 106; 202], [0; 3; 5; 6]); ([24; 30], [0; 3; 5; 6; 10; 12; 106; 202]); ([106], [0; 3; 5; 6; 10; 12; 24; 30; 202]); ([106; 202], [0; 3; 5; 6; 10; 12; 24; 30]); ([202], [0; 3; 5; 6; 10; 12; 24; 30; 106])]));
  same (sameset fpp_eqb) ((of (kulika) (fun f => filtrated_pairs_pretty asis f (Some [lit "A"; lit "B"; lit "C"; lit "D"; lit "E"; lit "F"; lit "G"; lit "H"])))) ((Ok [(lit "crossing", [(Txt (lit "A"), Txt (lit "B")); (Txt (lit "A"), Txt (lit "C")); (Txt (lit "B"), Txt (lit "C")); (Txt (lit "B"), Txt (lit "D")); (Txt (lit "B"), Txt (lit "E")); (Txt (lit "C"), Txt (lit "D")); (Txt (lit "C"), Txt (lit "E"))]); (lit "disjoint", [(Txt (lit "A"), Txt (lit "D")); (Txt (lit "A"), Txt (lit "E")); (Txt (lit "A"), Txt (lit "F")); (Txt (lit "A"), Txt (lit "G")); (Txt (lit "A"), Txt (lit "H")); (Txt (lit "C"), Txt (lit "F")); (Txt (lit "C"), Txt (lit "G")); (Txt (lit "C"), Txt (lit "H")); (Txt (lit "E"), Txt (lit "F")); (Txt (lit "E"), Txt (lit "G")); (Txt (lit "E"), Txt (lit "H")); (Txt (lit "F"), Txt (lit "H"))]); (lit "subset", [(Txt (lit "E"), Txt (lit "D")); (Txt (lit "F"), Txt (lit "B")); (Txt (lit "F"), Txt (lit "D")); (Txt (lit "F"), Txt (lit "G")); (Txt (lit "G"), Txt (lit "B")); (Txt (lit "G"), Txt (lit "D")); (Txt (lit "H"), Txt (lit "B")); (Txt (lit "H"), Txt (lit "D")); (Txt (lit "H"), Txt (lit "G"))])]))].
Example test_kulika_test_kulika_yes : yes test_kulika_test_kulika.
Proof. unfold test_kulika_test_kulika. many. Qed.
(* boolf/test/10_gap_variants_basiga/blightless/test_lenevu.py *)
Definition test_lenevu_test_lenevu : list (res bool) := Eval vm_compute in [
  same splits_same ((of (torova) (splits))) ((Ok [([1; 7], [2; 4; 8; 14; 26; 28; 42; 74; 138]); ([2; 7; 14; 26; 42; 74; 138], [1; 4; 8; 28]); ([4; 7; 14; 28], [1; 2; 8; 26; 42; 74; 138]); ([8; 14; 26; 28; 42; 74; 138], [1; 2; 4; 7]); ([26; 28], [1; 2; 4; 7; 8; 14; 42; 74; 138]); ([42], [1; 2; 4; 7; 8; 14; 26; 28; 74; 138]); ([74], [1; 2; 4; 7; 8; 14; 26; 28; 42; 138]); ([138], [1; 2; 4; 7; 8; 14; 26; 28; 42; 74])]));
  same (sameset fpp_eqb) ((of (torova) (fun f => filtrated_pairs_pretty asis f (Some [lit "A"; lit "B"; lit "C"; lit "D"; lit "E"; lit "F"; lit "G"; lit "H"])))) ((Ok [(lit "crossing", [(Txt (lit "A"), Txt (lit "B")); (Txt (lit "A"), Txt (lit "C")); (Txt (lit "B"), Txt (lit "C")); (Txt (lit "B"), Txt (lit "D")); (Txt (lit "B"), Txt (lit "E")); (Txt (lit "C"), Txt (lit "D")); (Txt (lit "C"), Txt (lit "E"))]); (lit "disjoint", [(Txt (lit "A"), Txt (lit "D")); (Txt (lit "A"), Txt (lit "E")); (Txt (lit "A"), Txt (lit "F")); (Txt (lit "A"), Txt (lit "G")); (Txt (lit "A"), Txt (lit "H")); (Txt (lit "C"), Txt (lit "F")); (Txt (lit "C"), Txt (lit "G")); (Txt (lit "C"), Txt (lit "H")); (Txt (lit "E"), Txt (lit "F")); (Txt (lit "E"), Txt (lit "G")); (Txt (lit "E"), Txt (lit "H")); (Txt (lit "F"), Txt (lit "G")); (Txt (lit "F"), Txt (lit "H")); (Txt (lit "G"), Txt (lit "H"))]); (lit "subset", [(Txt (lit "E"), Txt (lit "D")); (Txt (lit "F"), Txt (lit "B")); (Txt (lit "F"), Txt (lit "D")); (Txt (lit "G"), Txt (lit "B")); (Txt (lit "G"), Txt (lit "D")); (Txt (lit "H"), Txt (lit "B")); (Txt (lit "H"), Txt (lit "D"))])]))].
Example test_lenevu_test_lenevu_yes : yes test_lenevu_test_lenevu.
Proof. unfold test_lenevu_test_lenevu. many. Qed.
(* boolf/test/10_gap_variants_basiga/blightless/test_pamoda.py *)
Definition test_pamoda_test_pamoda : list (res bool) := Eval vm_compute in [
  same splits_same ((of (pamoda) (splits))) ((Ok [([1; 5], [0; 2; 4; 6; 8; 26; 28; 30; 74; 106; 138]); ([2; 6; 26; 30; 74; 106; 138], [0; 1; 4; 5; 8; 28]); ([4; 5; 6; 28; 30], [0; 1; 2; 8; 26; 74; 106; 138]); ([8; 26; 28; 30; 74; 106; 138], [0; 1; 2; 4; 5; 6]); ([26; 28; 30], [0; 1; 2; 4; 5; 6; 8; 74; 106; 138]); ([106], [0; 1; 2; 4; 5; 6; 8; 26; 28; 30; 74; 138]); ([74; 106], [0; 1; 2; 4; 5; 6; 8; 26; 28; 30; 138]); ([138], [0; 1; 2; 4; 5; 6; 8; 26; 28; 30; 74; 106])]));
  same (sameset fpp_eqb) ((of (pamoda) (fun f => filtrated_pairs_pretty asis f (Some [lit "A"; lit "B"; lit "C"; lit "D"; lit "E"; lit "F"; lit "G"; lit "H"])))) ((Ok [(lit "crossing", [(Txt (lit "A"), Txt (lit "C")); (Txt (lit "B"), Txt (lit "C")); (Txt (lit "B"), Txt (lit "D")); (Txt (lit "B"), Txt (lit "E")); (Txt (lit "C"), Txt (lit "D")); (Txt (lit "C"), Txt (lit "E"))]); (lit "disjoint", [(Txt (lit "A"), Txt (lit "B")); (Txt (lit "A"), Txt (lit "D")); (Txt (lit "A"), Txt (lit "E")); (Txt (lit "A"), Txt (lit "F")); (Txt (lit "A"), Txt (lit "G")); (Txt (lit "A"), Txt (lit "H")); (Txt (lit "C"), Txt (lit "F")); (Txt (lit "C"), Txt (lit "G")); (Txt (lit "C"), Txt (lit "H")); (Txt (lit "E"), Txt (lit "F")); (Txt (lit "E"), Txt (lit "G")); (Txt (lit "E"), Txt (lit "H")); (Txt (lit "F"), Txt (lit "H")); (Txt (lit "G"), Txt (lit "H"))]); (lit "subset", [(Txt (lit "E"), Txt (lit "D")); (Txt (lit "F"), Txt (lit "B")); (Txt (lit "F"), Txt (lit "D")); (Txt (lit "F"), Txt (lit "G")); (Txt (lit "G"), Txt (lit "B")); (Txt (lit "G"), Txt (lit "D")); (Txt (lit "H"), Txt (lit "B")); (Txt (lit "H"), Txt (lit "D"))])]))].
Example test_pamoda_test_pamoda_yes : yes test_pamoda_test_pamoda.
Proof. unfold test_pamoda_test_pamoda. many. Qed.
(* boolf/test/10_gap_variants_basiga/blightless/test_sarina.py *)
Definition test_sarina_test_sarina : list (res bool) := Eval vm_compute in [
  same splits_same ((of (sarina) (splits))) ((Ok [([1; 3], [0; 2; 4; 6; 8; 10; 24; 26; 106; 202]); ([2; 3; 6; 10; 26; 106; 202], [0; 1; 4; 8; 24]); ([4; 6], [0; 1; 2; 3; 8; 10; 24; 26; 106; 202]); ([8; 10; 24; 26; 106; 202], [0; 1; 2; 3; 4; 6]); ([24; 26], [0; 1; 2; 3; 4; 6; 8; 10; 106; 202]); ([106], [0; 1; 2; 3; 4; 6; 8; 10; 24; 26; 202]); ([106; 202], [0; 1; 2; 3; 4; 6; 8; 10; 24; 26]); ([202], [0; 1; 2; 3; 4; 6; 8; 10; 24; 26; 106])]));
  same (sameset fpp_eqb) ((of (sarina) (fun f => filtrated_pairs_pretty asis f (Some [lit "A"; lit "B"; lit "C"; lit "D"; lit "E"; lit "F"; lit "G"; lit "H"])))) ((Ok [(lit "crossing", [(Txt (lit "A"), Txt (lit "B")); (Txt (lit "B"), Txt (lit "C")); (Txt (lit "B"), Txt (lit "D")); (Txt (lit "B"), Txt (lit "E"))]); (lit "disjoint", [(Txt (lit "A"), Txt (lit "C")); (Txt (lit "A"), Txt (lit "D")); (Txt (lit "A"), Txt (lit "E")); (Txt (lit "A"), Txt (lit "F")); (Txt (lit "A"), Txt (lit "G")); (Txt (lit "A"), Txt (lit "H")); (Txt (lit "C"), Txt (lit "D")); (Txt (lit "C"), Txt (lit "E")); (Txt (lit "C"), Txt (lit "F")); (Txt (lit "C"), Txt (lit "G")); (Txt (lit "C"), Txt (lit "H")); (Txt (lit "E"), Txt (lit "F")); (Txt (lit "E"), Txt (lit "G")); (Txt (lit "E"), Txt (lit "H")); (Txt (lit "F"), Txt (lit "H"))]); (lit "subset", [(Txt (lit "E"), Txt (lit "D")); (Txt (lit "F"), Txt (lit "B")); (Txt (lit "F"), Txt (lit "D")); (Txt (lit "F"), Txt (lit "G")); (Txt (lit "G"), Txt (lit "B")); (Txt (lit "G"), Txt (lit "D")); (Txt (lit "H"), Txt (lit "B")); (Txt (lit "H"), Txt (lit "D")); (Txt (lit "H"), Txt (lit "G"))])]))].
Example test_sarina_test_sarina_yes : yes test_sarina_test_sarina.
Proof. unfold test_sarina_test_sarina. many. Qed.
(* boolf/test/10_gap_variants_basiga/blightless/test_teloti.py *)
Definition test_teloti_test_teloti : list (res bool) := Eval vm_compute in [
  same splits_same ((of (teloti) (splits))) ((Ok [([1; 3; 5], [2; 4; 6; 8; 12; 14; 24; 26; 28; 42; 74; 138]); ([2; 3; 6; 14; 26; 42; 74; 138], [1; 4; 5; 8; 12; 24; 28]); ([4; 5; 6; 12; 14; 28], [1; 2; 3; 8; 24; 26; 42; 74; 138]); ([8; 12; 14; 24; 26; 28; 42; 74; 138], [1; 2; 3; 4; 5; 6]); ([24; 26; 28], [1; 2; 3; 4; 5; 6; 8; 12; 14; 42; 74; 138]); ([42], [1; 2; 3; 4; 5; 6; 8; 12; 14; 24; 26; 28; 74; 138]); ([74], [1; 2; 3; 4; 5; 6; 8; 12; 14; 24; 26; 28; 42; 138]); ([138], [1; 2; 3; 4; 5; 6; 8; 12; 14; 24; 26; 28; 42; 74])]));
  same (sameset fpp_eqb) ((of (teloti) (fun f => filtrated_pairs_pretty asis f (Some [lit "A"; lit "B"; lit "C"; lit "D"; lit "E"; lit "F"; lit "G"; lit "H"])))) ((Ok [(lit "crossing", [(Txt (lit "A"), Txt (lit "B")); (Txt (lit "A"), Txt (lit "C")); (Txt (lit "B"), Txt (lit "C")); (Txt (lit "B"), Txt (lit "D")); (Txt (lit "B"), Txt (lit "E")); (Txt (lit "C"), Txt (lit "D")); (Txt (lit "C"), Txt (lit "E"))]); (lit "disjoint", [(Txt (lit "A"), Txt (lit "D")); (Txt (lit "A"), Txt (lit "E")); (Txt (lit "A"), Txt (lit "F")); (Txt (lit "A"), Txt (lit "G")); (Txt (lit "A"), Txt (lit "H")); (Txt (lit "C"), Txt (lit "F")); (Txt (lit "C"), Txt (lit "G")); (Txt (lit "C"), Txt (lit "H")); (Txt (lit "E"), Txt (lit "F")); (Txt (lit "E"), Txt (lit "G")); (Txt (lit "E"), Txt (lit "H")); (Txt (lit "F"), Txt (lit "G")); (Txt (lit "F"), Txt (lit "H")); (Txt (lit "G"), Txt (lit "H"))]); (lit "subset", [(Txt (lit "E"), Txt (lit "D")); (Txt (lit "F"), Txt (lit "B")); (Txt (lit "F"), Txt (lit "D")); (Txt (lit "G"), Txt (lit "B")); (Txt (lit "G"), Txt (lit "D")); (Txt (lit "H"), Txt (lit "B")); (Txt (lit "H"), Txt (lit "D"))])]))].
Example test_teloti_test_teloti_yes : yes test_teloti_test_teloti.
Proof. unfold test_teloti_test_teloti. many. Qed.
(* boolf/test/10_gap_variants_basiga/blightless/test_vumali.py *)
Definition test_vumali_test_vumali : list (res bool) := Eval vm_compute in [
  same splits_same ((of (vumali) (splits))) ((Ok [([3; 5; 7], [2; 10; 28; 30; 42; 106; 202]); ([2; 3; 7; 10; 30; 42; 106; 202], [5; 28]); ([5; 7; 28; 30], [2; 3; 10; 42; 106; 202]); ([10; 28; 30; 42; 106; 202], [2; 3; 5; 7]); ([28; 30], [2; 3; 5; 7; 10; 42; 106; 202]); ([42; 106], [2; 3; 5; 7; 10; 28; 30; 202]); ([106; 202], [2; 3; 5; 7; 10; 28; 30; 42]); ([202], [2; 3; 5; 7; 10; 28; 30; 42; 106])]))].
Example test_vumali_test_vumali_yes : yes test_vumali_test_vumali.
Proof. unfold test_vumali_test_vumali. many. Qed.
