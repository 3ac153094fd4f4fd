(** Checks of the model against the files boolf/test/01 to 09, first part (see Conf_Base and Conf_BoolfT). 
    The values are computed when the file is compiled ([Eval vm_compute]), because the conversion of coqchk, which does not use the virtual machine, is too slow for them;
    the kernel sees only the results. *)
From Coq Require Import String List Arith ZArith Bool QArith.
From Verif Require Import Model_Base Model_Binary Model_SigPerm Model_SetPart Model_SetPartComp Model_Splits Model_Perm Model_Boolf Model_Twin Model_Blight Model_BoolfMore Model_Helpers
  Model_MinRep Model_Misc Model_Ec Model_King Model_Segments Model_Str Model_Layers Model_Hyper Model_Pretty Model_SetPartBoolf Conf_Base Conf_Examples Conf_BoolfM Conf_BoolfT.
Import ListNotations.
Local Open Scope string_scope.
Local Open Scope nat_scope.
Local Open Scope list_scope.

(* boolf/test/01_misc/boolf_1_test.py *)
Definition boolf_1_test_test_constant : list (res bool) := Eval vm_compute in [
  (let* f := bf "1" in Ok (is_constant f));
  (let* f := bf "0" in Ok (is_constant f));
  same Nat.eqb ((let* f := bf "1" in Ok (valency f))) ((let* f := bf "0" in Ok (valency f)));
  same Nat.eqb ((let* f := bf "1" in Ok (valency f))) ((Ok (N.to_nat 0%N)));
  same list_eqb ((let* f := bf "1" in Ok (atomvals f))) ((let* f := bf "0" in Ok (atomvals f)));
  same list_eqb ((let* f := bf "1" in Ok (atomvals f))) ((Ok ([] : list nat)));
  same bvec_eqb ((let* f := bf "1" in Ok (root f))) ((Ok (bv "1")));
  same bvec_eqb ((let* f := bf "0" in Ok (root f))) ((Ok (bv "0")));
  beq (bf "1") (bf "1");
  beq (bf "0") (bf "0")].
Example boolf_1_test_test_constant_yes : yes boolf_1_test_test_constant.
Proof. unfold boolf_1_test_test_constant. many. Qed.
(* boolf/test/01_misc/boolf_1_test.py *)
Definition boolf_1_test_test_unary : list (res bool) := Eval vm_compute in [
  beq (batom (0)) (bfa "01" [0]);
  beq (batom (-1)) (bfa "10" [0]);
  beq (batom (1)) (bfa "01" [1]);
  beq (batom (-2)) (bfa "10" [1]);
  beq (batom (2)) (bfa "01" [2]);
  beq (batom (-3)) (bfa "10" [2]);
  beq ((band (batom (2)) (batom (-4)))) (bfa "0100" [2; 3]);
  beq ((band ((band (bf "1110") (batom (-3)))) (batom (-4)))) (bf "1110 0000 0000 0000")].
Example boolf_1_test_test_unary_yes : yes boolf_1_test_test_unary.
Proof. unfold boolf_1_test_test_unary. many. Qed.
(* boolf/test/01_misc/boolf_1_test.py *)
Definition boolf_1_test_test_cases : list (res bool) := Eval vm_compute in [
  beq (bf "0001") (bfa "0001" [0; 1]);
  beq (bf "0001") ((let* l := mapM (fun x : res mu_entry => x) [Ok (MuInt (0)); Ok (MuInt (1))] in mand l));
  beq (bf "0001") ((let* l := mapM (fun x : res mu_entry => x) [(let* f := batom (0) in Ok (MuBoolf f)); (let* f := batom (1) in Ok (MuBoolf f))] in mand l));
  beq (bf "0111") (bfa "0111" [0; 1]);
  beq (bf "0111") ((let* l := mapM (fun x : res mu_entry => x) [Ok (MuInt (0)); Ok (MuInt (1))] in mor l));
  beq (bf "0111") ((let* l := mapM (fun x : res mu_entry => x) [(let* f := batom (0) in Ok (MuBoolf f)); (let* f := batom (1) in Ok (MuBoolf f))] in mor l));
  beq (bf "0110") (bfa "0110" [0; 1]);
  beq (bf "0110") ((let* l := mapM (fun x : res mu_entry => x) [Ok (MuInt (0)); Ok (MuInt (1))] in mxor l));
  beq (bf "0110") ((let* l := mapM (fun x : res mu_entry => x) [(let* f := batom (0) in Ok (MuBoolf f)); (let* f := batom (1) in Ok (MuBoolf f))] in mxor l));
  beq (bf "1001") (bfa "1001" [0; 1]);
  beq (bf "1001") ((let* l := mapM (fun x : res mu_entry => x) [Ok (MuInt (0)); Ok (MuInt (1))] in mxand l));
  beq (bf "1001") ((let* l := mapM (fun x : res mu_entry => x) [(let* f := batom (0) in Ok (MuBoolf f)); (let* f := batom (1) in Ok (MuBoolf f))] in mxand l));
  same bvec_eqb ((of ((let* l := mapM (fun x : res mu_entry => x) [Ok (MuInt (1)); Ok (MuInt (2))] in mand l)) (fun f => boolf_tt f (TtArity 3)))) ((Ok (bv "0000 0011")));
  same bvec_eqb ((of ((let* l := mapM (fun x : res mu_entry => x) [Ok (MuInt (1)); Ok (MuInt (2))] in mor l)) (fun f => boolf_tt f (TtArity 3)))) ((Ok (bv "0011 1111")));
  same bvec_eqb ((of ((let* l := mapM (fun x : res mu_entry => x) [Ok (MuInt (1)); Ok (MuInt (2))] in mxor l)) (fun f => boolf_tt f (TtArity 3)))) ((Ok (bv "0011 1100")));
  same bvec_eqb ((of ((let* l := mapM (fun x : res mu_entry => x) [Ok (MuInt (1)); Ok (MuInt (2))] in mxand l)) (fun f => boolf_tt f (TtArity 3)))) ((Ok (bv "1100 0011")))].
Example boolf_1_test_test_cases_yes : yes boolf_1_test_test_cases.
Proof. unfold boolf_1_test_test_cases. many. Qed.
(* boolf/test/01_misc/boolf_1_test.py *)
Definition boolf_1_test_test_reorder_if_atomvals_not_asc : list (res bool) := Eval vm_compute in [
  beq (bfa "0100" [1; 0]) (bfa "0010" [0; 1]);
  beq (bfa "0100" [5; 2]) (bfa "0010" [2; 5]);
  beq (bfa "0100 1011" [2; 0; 1]) (bfa "0110 0101" [0; 1; 2]);
  beq (bfa "0100 1011" [5; 1; 3]) (bfa "0110 0101" [1; 3; 5])].
Example boolf_1_test_test_reorder_if_atomvals_not_asc_yes : yes boolf_1_test_test_reorder_if_atomvals_not_asc.
Proof. unfold boolf_1_test_test_reorder_if_atomvals_not_asc. many. Qed.
(* boolf/test/01_misc/boolf_1_test.py *)
Definition boolf_1_test_test_deflate : list (res bool) := Eval vm_compute in [
  beq (bf "1111") (bfa "1111" [77; 99]);
  beq (bf "1111") (bfa "1" []);
  beq (bf "1111") (bf "1");
  beq (bfa "00000000" [1; 3; 5]) (bfa "0" []);
  beq (bfa "00000000" [1; 3; 5]) (bf "0");
  beq (bf "1010") (bf "10");
  beq (bf "1100") (bfa "10" [1]);
  beq (bf "0101 1010") (bfa "0110" [0; 2]);
  beq (bfa "0011 0011" [1000; 3000; 5000]) (bfa "01" [3000]);
  beq (bf "0000 0000 0000 1111") (bfa "0000 0011" [1; 2; 3]);
  beq (bf "0000 0000 0000 1111") (bfa "0001" [2; 3]);
  beq (bfa "0001 1000 0001 1000" [2; 5; 8; 99]) (bfa "0001 1000" [2; 5; 8]);
  (let* f := vinone in Ok (is_inflated f));
  (let* b := (let* f := vinona in Ok (is_inflated f)) in Ok (negb b));
  same bvec_eqb ((let* f := of_binv false ((let* f := vinone in Ok (root f))) None in Ok (root f))) ((let* f := vinona in Ok (root f)));
  same bvec_eqb ((let* f := of_binv false ((let* f := vinone in Ok (root f))) None in Ok (root f))) ((Ok (bv "1110")))].
Example boolf_1_test_test_deflate_yes : yes boolf_1_test_test_deflate.
Proof. unfold boolf_1_test_test_deflate. many. Qed.
(* boolf/test/01_misc/boolf_1_test.py *)
Definition boolf_1_test_test_deflate_fullspots : list (res bool) := Eval vm_compute in [
  same nsame ((let* f := bfsa [0; 1; 2; 3; 4; 6] [10; 20; 40] in Ok (fullspots f))) ((Ok ([0; 1; 2] : list nat)));
  same list_eqb ((let* f := bfsa [0; 1; 2; 3; 4; 6] [10; 20; 40] in Ok (atomvals f))) ((Ok ([10; 40] : list nat)));
  same list_eqb ((let* f := bfsa [0; 1; 2; 3; 4; 6] [10; 20; 40] in Ok (spread_vector f))) ((Ok ([10; 39] : list nat)))].
Example boolf_1_test_test_deflate_fullspots_yes : yes boolf_1_test_test_deflate_fullspots.
Proof. unfold boolf_1_test_test_deflate_fullspots. many. Qed.
(* boolf/test/01_misc/boolf_1_test.py *)
Definition boolf_1_test_test_getitem : list (res bool) := Eval vm_compute in [
  same Bool.eqb ((of (of_binv false ((Ok (bv "0100 1001 0101 1101"))) None) (fun f => boolf_get f 0))) ((let* v := (Ok (bv "0100 1001 0101 1101")) in lget v 0));
  same Bool.eqb ((of (of_binv false ((Ok (bv "0110 1001 0110 1001"))) None) (fun f => boolf_get f 0))) ((let* v := (Ok (bv "0110 1001 0110 1001")) in lget v 0));
  same Bool.eqb ((of (of_binv false ((Ok (bv "0011 0011 0011 0011"))) None) (fun f => boolf_get f 0))) ((let* v := (Ok (bv "0011 0011 0011 0011")) in lget v 0));
  same Bool.eqb ((of (of_binv false ((Ok (bv "0000 0000 0000 0000"))) None) (fun f => boolf_get f 0))) ((let* v := (Ok (bv "0000 0000 0000 0000")) in lget v 0));
  same Bool.eqb ((of (of_binv false ((Ok (bv "0100 1001 0101 1101"))) None) (fun f => boolf_get f 1))) ((let* v := (Ok (bv "0100 1001 0101 1101")) in lget v 1));
  same Bool.eqb ((of (of_binv false ((Ok (bv "0110 1001 0110 1001"))) None) (fun f => boolf_get f 1))) ((let* v := (Ok (bv "0110 1001 0110 1001")) in lget v 1));
  same Bool.eqb ((of (of_binv false ((Ok (bv "0011 0011 0011 0011"))) None) (fun f => boolf_get f 1))) ((let* v := (Ok (bv "0011 0011 0011 0011")) in lget v 1));
  same Bool.eqb ((of (of_binv false ((Ok (bv "0000 0000 0000 0000"))) None) (fun f => boolf_get f 1))) ((let* v := (Ok (bv "0000 0000 0000 0000")) in lget v 1));
  same Bool.eqb ((of (of_binv false ((Ok (bv "0100 1001 0101 1101"))) None) (fun f => boolf_get f 2))) ((let* v := (Ok (bv "0100 1001 0101 1101")) in lget v 2));
  same Bool.eqb ((of (of_binv false ((Ok (bv "0110 1001 0110 1001"))) None) (fun f => boolf_get f 2))) ((let* v := (Ok (bv "0110 1001 0110 1001")) in lget v 2));
  same Bool.eqb ((of (of_binv false ((Ok (bv "0011 0011 0011 0011"))) None) (fun f => boolf_get f 2))) ((let* v := (Ok (bv "0011 0011 0011 0011")) in lget v 2));
  same Bool.eqb ((of (of_binv false ((Ok (bv "0000 0000 0000 0000"))) None) (fun f => boolf_get f 2))) ((let* v := (Ok (bv "0000 0000 0000 0000")) in lget v 2));
  same Bool.eqb ((of (of_binv false ((Ok (bv "0100 1001 0101 1101"))) None) (fun f => boolf_get f 3))) ((let* v := (Ok (bv "0100 1001 0101 1101")) in lget v 3));
  same Bool.eqb ((of (of_binv false ((Ok (bv "0110 1001 0110 1001"))) None) (fun f => boolf_get f 3))) ((let* v := (Ok (bv "0110 1001 0110 1001")) in lget v 3));
  same Bool.eqb ((of (of_binv false ((Ok (bv "0011 0011 0011 0011"))) None) (fun f => boolf_get f 3))) ((let* v := (Ok (bv "0011 0011 0011 0011")) in lget v 3));
  same Bool.eqb ((of (of_binv false ((Ok (bv "0000 0000 0000 0000"))) None) (fun f => boolf_get f 3))) ((let* v := (Ok (bv "0000 0000 0000 0000")) in lget v 3));
  same Bool.eqb ((of (of_binv false ((Ok (bv "0100 1001 0101 1101"))) None) (fun f => boolf_get f 4))) ((let* v := (Ok (bv "0100 1001 0101 1101")) in lget v 4));
  same Bool.eqb ((of (of_binv false ((Ok (bv "0110 1001 0110 1001"))) None) (fun f => boolf_get f 4))) ((let* v := (Ok (bv "0110 1001 0110 1001")) in lget v 4));
  same Bool.eqb ((of (of_binv false ((Ok (bv "0011 0011 0011 0011"))) None) (fun f => boolf_get f 4))) ((let* v := (Ok (bv "0011 0011 0011 0011")) in lget v 4));
  same Bool.eqb ((of (of_binv false ((Ok (bv "0000 0000 0000 0000"))) None) (fun f => boolf_get f 4))) ((let* v := (Ok (bv "0000 0000 0000 0000")) in lget v 4));
  same Bool.eqb ((of (of_binv false ((Ok (bv "0100 1001 0101 1101"))) None) (fun f => boolf_get f 5))) ((let* v := (Ok (bv "0100 1001 0101 1101")) in lget v 5));
  same Bool.eqb ((of (of_binv false ((Ok (bv "0110 1001 0110 1001"))) None) (fun f => boolf_get f 5))) ((let* v := (Ok (bv "0110 1001 0110 1001")) in lget v 5));
  same Bool.eqb ((of (of_binv false ((Ok (bv "0011 0011 0011 0011"))) None) (fun f => boolf_get f 5))) ((let* v := (Ok (bv "0011 0011 0011 0011")) in lget v 5));
  same Bool.eqb ((of (of_binv false ((Ok (bv "0000 0000 0000 0000"))) None) (fun f => boolf_get f 5))) ((let* v := (Ok (bv "0000 0000 0000 0000")) in lget v 5));
  same Bool.eqb ((of (of_binv false ((Ok (bv "0100 1001 0101 1101"))) None) (fun f => boolf_get f 6))) ((let* v := (Ok (bv "0100 1001 0101 1101")) in lget v 6));
  same Bool.eqb ((of (of_binv false ((Ok (bv "0110 1001 0110 1001"))) None) (fun f => boolf_get f 6))) ((let* v := (Ok (bv "0110 1001 0110 1001")) in lget v 6));
  same Bool.eqb ((of (of_binv false ((Ok (bv "0011 0011 0011 0011"))) None) (fun f => boolf_get f 6))) ((let* v := (Ok (bv "0011 0011 0011 0011")) in lget v 6));
  same Bool.eqb ((of (of_binv false ((Ok (bv "0000 0000 0000 0000"))) None) (fun f => boolf_get f 6))) ((let* v := (Ok (bv "0000 0000 0000 0000")) in lget v 6));
  same Bool.eqb ((of (of_binv false ((Ok (bv "0100 1001 0101 1101"))) None) (fun f => boolf_get f 7))) ((let* v := (Ok (bv "0100 1001 0101 1101")) in lget v 7));
  same Bool.eqb ((of (of_binv false ((Ok (bv "0110 1001 0110 1001"))) None) (fun f => boolf_get f 7))) ((let* v := (Ok (bv "0110 1001 0110 1001")) in lget v 7));
  same Bool.eqb ((of (of_binv false ((Ok (bv "0011 0011 0011 0011"))) None) (fun f => boolf_get f 7))) ((let* v := (Ok (bv "0011 0011 0011 0011")) in lget v 7));
  same Bool.eqb ((of (of_binv false ((Ok (bv "0000 0000 0000 0000"))) None) (fun f => boolf_get f 7))) ((let* v := (Ok (bv "0000 0000 0000 0000")) in lget v 7));
  same Bool.eqb ((of (of_binv false ((Ok (bv "0100 1001 0101 1101"))) None) (fun f => boolf_get f 8))) ((let* v := (Ok (bv "0100 1001 0101 1101")) in lget v 8));
  same Bool.eqb ((of (of_binv false ((Ok (bv "0110 1001 0110 1001"))) None) (fun f => boolf_get f 8))) ((let* v := (Ok (bv "0110 1001 0110 1001")) in lget v 8));
  same Bool.eqb ((of (of_binv false ((Ok (bv "0011 0011 0011 0011"))) None) (fun f => boolf_get f 8))) ((let* v := (Ok (bv "0011 0011 0011 0011")) in lget v 8));
  same Bool.eqb ((of (of_binv false ((Ok (bv "0000 0000 0000 0000"))) None) (fun f => boolf_get f 8))) ((let* v := (Ok (bv "0000 0000 0000 0000")) in lget v 8));
  same Bool.eqb ((of (of_binv false ((Ok (bv "0100 1001 0101 1101"))) None) (fun f => boolf_get f 9))) ((let* v := (Ok (bv "0100 1001 0101 1101")) in lget v 9));
  same Bool.eqb ((of (of_binv false ((Ok (bv "0110 1001 0110 1001"))) None) (fun f => boolf_get f 9))) ((let* v := (Ok (bv "0110 1001 0110 1001")) in lget v 9));
  same Bool.eqb ((of (of_binv false ((Ok (bv "0011 0011 0011 0011"))) None) (fun f => boolf_get f 9))) ((let* v := (Ok (bv "0011 0011 0011 0011")) in lget v 9));
  same Bool.eqb ((of (of_binv false ((Ok (bv "0000 0000 0000 0000"))) None) (fun f => boolf_get f 9))) ((let* v := (Ok (bv "0000 0000 0000 0000")) in lget v 9));
  same Bool.eqb ((of (of_binv false ((Ok (bv "0100 1001 0101 1101"))) None) (fun f => boolf_get f 10))) ((let* v := (Ok (bv "0100 1001 0101 1101")) in lget v 10));
  same Bool.eqb ((of (of_binv false ((Ok (bv "0110 1001 0110 1001"))) None) (fun f => boolf_get f 10))) ((let* v := (Ok (bv "0110 1001 0110 1001")) in lget v 10));
  same Bool.eqb ((of (of_binv false ((Ok (bv "0011 0011 0011 0011"))) None) (fun f => boolf_get f 10))) ((let* v := (Ok (bv "0011 0011 0011 0011")) in lget v 10));
  same Bool.eqb ((of (of_binv false ((Ok (bv "0000 0000 0000 0000"))) None) (fun f => boolf_get f 10))) ((let* v := (Ok (bv "0000 0000 0000 0000")) in lget v 10));
  same Bool.eqb ((of (of_binv false ((Ok (bv "0100 1001 0101 1101"))) None) (fun f => boolf_get f 11))) ((let* v := (Ok (bv "0100 1001 0101 1101")) in lget v 11));
  same Bool.eqb ((of (of_binv false ((Ok (bv "0110 1001 0110 1001"))) None) (fun f => boolf_get f 11))) ((let* v := (Ok (bv "0110 1001 0110 1001")) in lget v 11));
  same Bool.eqb ((of (of_binv false ((Ok (bv "0011 0011 0011 0011"))) None) (fun f => boolf_get f 11))) ((let* v := (Ok (bv "0011 0011 0011 0011")) in lget v 11));
  same Bool.eqb ((of (of_binv false ((Ok (bv "0000 0000 0000 0000"))) None) (fun f => boolf_get f 11))) ((let* v := (Ok (bv "0000 0000 0000 0000")) in lget v 11));
  same Bool.eqb ((of (of_binv false ((Ok (bv "0100 1001 0101 1101"))) None) (fun f => boolf_get f 12))) ((let* v := (Ok (bv "0100 1001 0101 1101")) in lget v 12));
  same Bool.eqb ((of (of_binv false ((Ok (bv "0110 1001 0110 1001"))) None) (fun f => boolf_get f 12))) ((let* v := (Ok (bv "0110 1001 0110 1001")) in lget v 12));
  same Bool.eqb ((of (of_binv false ((Ok (bv "0011 0011 0011 0011"))) None) (fun f => boolf_get f 12))) ((let* v := (Ok (bv "0011 0011 0011 0011")) in lget v 12));
  same Bool.eqb ((of (of_binv false ((Ok (bv "0000 0000 0000 0000"))) None) (fun f => boolf_get f 12))) ((let* v := (Ok (bv "0000 0000 0000 0000")) in lget v 12));
  same Bool.eqb ((of (of_binv false ((Ok (bv "0100 1001 0101 1101"))) None) (fun f => boolf_get f 13))) ((let* v := (Ok (bv "0100 1001 0101 1101")) in lget v 13));
  same Bool.eqb ((of (of_binv false ((Ok (bv "0110 1001 0110 1001"))) None) (fun f => boolf_get f 13))) ((let* v := (Ok (bv "0110 1001 0110 1001")) in lget v 13));
  same Bool.eqb ((of (of_binv false ((Ok (bv "0011 0011 0011 0011"))) None) (fun f => boolf_get f 13))) ((let* v := (Ok (bv "0011 0011 0011 0011")) in lget v 13));
  same Bool.eqb ((of (of_binv false ((Ok (bv "0000 0000 0000 0000"))) None) (fun f => boolf_get f 13))) ((let* v := (Ok (bv "0000 0000 0000 0000")) in lget v 13));
  same Bool.eqb ((of (of_binv false ((Ok (bv "0100 1001 0101 1101"))) None) (fun f => boolf_get f 14))) ((let* v := (Ok (bv "0100 1001 0101 1101")) in lget v 14));
  same Bool.eqb ((of (of_binv false ((Ok (bv "0110 1001 0110 1001"))) None) (fun f => boolf_get f 14))) ((let* v := (Ok (bv "0110 1001 0110 1001")) in lget v 14));
  same Bool.eqb ((of (of_binv false ((Ok (bv "0011 0011 0011 0011"))) None) (fun f => boolf_get f 14))) ((let* v := (Ok (bv "0011 0011 0011 0011")) in lget v 14));
  same Bool.eqb ((of (of_binv false ((Ok (bv "0000 0000 0000 0000"))) None) (fun f => boolf_get f 14))) ((let* v := (Ok (bv "0000 0000 0000 0000")) in lget v 14));
  same Bool.eqb ((of (of_binv false ((Ok (bv "0100 1001 0101 1101"))) None) (fun f => boolf_get f 15))) ((let* v := (Ok (bv "0100 1001 0101 1101")) in lget v 15));
  same Bool.eqb ((of (of_binv false ((Ok (bv "0110 1001 0110 1001"))) None) (fun f => boolf_get f 15))) ((let* v := (Ok (bv "0110 1001 0110 1001")) in lget v 15));
  same Bool.eqb ((of (of_binv false ((Ok (bv "0011 0011 0011 0011"))) None) (fun f => boolf_get f 15))) ((let* v := (Ok (bv "0011 0011 0011 0011")) in lget v 15));
  same Bool.eqb ((of (of_binv false ((Ok (bv "0000 0000 0000 0000"))) None) (fun f => boolf_get f 15))) ((let* v := (Ok (bv "0000 0000 0000 0000")) in lget v 15))].
Example boolf_1_test_test_getitem_yes : yes boolf_1_test_test_getitem.
Proof. unfold boolf_1_test_test_getitem. many. Qed.
(* boolf/test/01_misc/boolf_1_test.py *)
Definition boolf_1_test_test_fractions : list (res bool) := Eval vm_compute in [
  same Qeq_bool ((of (bf "0") value_fract)) ((Ok (0 # 1)%Q));
  same Qeq_bool ((of (bf "0") (weight_fract))) ((Ok (0 # 1)%Q));
  same Qeq_bool ((of (bf "10") value_fract)) ((Ok (2 # 3)%Q));
  same Qeq_bool ((of (bf "10") (weight_fract))) ((Ok (1 # 2)%Q));
  same Qeq_bool ((of (bf "0001") value_fract)) ((Ok (1 # 15)%Q));
  same Qeq_bool ((of (bf "0001") (weight_fract))) ((Ok (1 # 4)%Q));
  same Qeq_bool ((of (bf "0111") value_fract)) ((Ok (7 # 15)%Q));
  same Qeq_bool ((of (bf "0111") (weight_fract))) ((Ok (3 # 4)%Q));
  same Qeq_bool ((of (bf "0110 1001") value_fract)) ((Ok (7 # 17)%Q));
  same Qeq_bool ((of (bf "0110 1001") (weight_fract))) ((Ok (1 # 2)%Q));
  same Qeq_bool ((of (bf "1") value_fract)) ((Ok (1 # 1)%Q));
  same Qeq_bool ((of (bf "1") (weight_fract))) ((Ok (1 # 1)%Q))].
Example boolf_1_test_test_fractions_yes : yes boolf_1_test_test_fractions.
Proof. unfold boolf_1_test_test_fractions. many. Qed.
(* boolf/test/01_misc/boolf_1_test.py *)
Definition boolf_1_test_test_raise : list (res bool) := Eval vm_compute in [
  match (bfa "1" [123]) with Err SarityVectorMismatchError => Ok true | _ => Ok false end;
  match (bfa "01" []) with Err SarityVectorMismatchError => Ok true | _ => Ok false end;
  match (bfa "01" [123; 456]) with Err SarityVectorMismatchError => Ok true | _ => Ok false end;
  match (bfa "0110" [123]) with Err SarityVectorMismatchError => Ok true | _ => Ok false end;
  match (bfa "0110" [123; 456; 789]) with Err SarityVectorMismatchError => Ok true | _ => Ok false end;
  match (bfa "01" [3; 3]) with Err AtomvalsNotUniqueError => Ok true | _ => Ok false end;
  match (bfa "0110" [3; 3; 5]) with Err AtomvalsNotUniqueError => Ok true | _ => Ok false end].
Example boolf_1_test_test_raise_yes : yes boolf_1_test_test_raise.
Proof. unfold boolf_1_test_test_raise. many. Qed.
(* boolf/test/01_misc/boolf_1_test.py *)
Definition boolf_1_test_test_str : list (res bool) := Eval vm_compute in [
  same list_eqb ((of (bf "0101 1010 0011 1000") boolf_str)) ((Ok (lit "Boolf('0101 1010 0011 1000')")));
  same list_eqb ((of ((bnot (bf "0101 1010 0011 1000"))) boolf_str)) ((Ok (lit "Boolf('1010 0101 1100 0111')")));
  same list_eqb ((of (bfa "0101 1010 0011 1000" [1; 3; 5; 7]) boolf_str)) ((Ok (lit "Boolf('0101 1010 0011 1000', [1, 3, 5, 7])")));
  same list_eqb ((of ((bnot (bfa "0101 1010 0011 1000" [1; 3; 5; 7]))) boolf_str)) ((Ok (lit "Boolf('1010 0101 1100 0111', [1, 3, 5, 7])")));
  same list_eqb ((of (bf "0101 1010 0011 1000  1111 1010 0000 0000") boolf_str)) ((Ok (lit "Boolf(fullspots=[1, 3, 4, 6, 10, 11, 12, 16, 17, 18, 19, 20, 22], arity=5)")));
  same list_eqb ((of ((bnot (bf "0101 1010 0011 1000  1111 1010 0000 0000"))) boolf_str)) ((Ok (lit "~Boolf(fullspots=[1, 3, 4, 6, 10, 11, 12, 16, 17, 18, 19, 20, 22], arity=5)")));
  same list_eqb ((of (bfa "0101 1010 0011 1000  1111 1010 0000 0000" [1; 3; 5; 7; 9]) boolf_str)) ((Ok (lit "Boolf(fullspots=[1, 3, 4, 6, 10, 11, 12, 16, 17, 18, 19, 20, 22], atomvals=[1, 3, 5, 7, 9])")));
  same list_eqb ((of ((bnot (bfa "0101 1010 0011 1000  1111 1010 0000 0000" [1; 3; 5; 7; 9]))) boolf_str)) ((Ok (lit "~Boolf(fullspots=[1, 3, 4, 6, 10, 11, 12, 16, 17, 18, 19, 20, 22], atomvals=[1, 3, 5, 7, 9])")))].
Example boolf_1_test_test_str_yes : yes boolf_1_test_test_str.
Proof. unfold boolf_1_test_test_str. many. Qed.
(* boolf/test/01_misc/boolf_1_test.py *)
Definition boolf_1_test_test_walsh_spectrum : list (res bool) := Eval vm_compute in [
  beq (bws [0]%Z) (bf "0");
  beq (bws [1]%Z) (bf "1");
  beq (bws [2; 0; 2; 0]%Z) (batom (-2));
  beq (bws [3; 1; 1; (-1)]%Z) (vinona);
  beq (bws [4; 2; 0; (-2); 0; 2; 0; 2]%Z) (bws [8; 4; 0; (-4); 0; 4; 0; 4; 0; 0; 0; 0; 0; 0; 0; 0]%Z);
  beq (bws [4; 2; 0; (-2); 0; 2; 0; 2]%Z) (gilipi)].
Example boolf_1_test_test_walsh_spectrum_yes : yes boolf_1_test_test_walsh_spectrum.
Proof. unfold boolf_1_test_test_walsh_spectrum. many. Qed.
(* boolf/test/02_val_apply_ec/barita_filtrates/filtrates_conversion_test.py *)
Definition filtrates_conversion_test_test_filtrates : list (res bool) := Eval vm_compute in [
  beq (seduki) ((of (barita) (fun f => filtrated_boolf f [0; 2; 3; 5])));
  beq (sedofu) ((of (barita) (fun f => filtrated_boolf f [1; 2; 3; 4; 5])));
  beq (sediri) ((of (barita) (fun f => filtrated_boolf f [0; 2; 3; 4; 5])));
  same list_eqb ((let* f := seduki in Ok (atomvals f))) ((Ok ([0; 2; 3; 5] : list nat)));
  same nsame ((let* f := seduki in Ok (fullspots f))) ((Ok ([0; 1; 2; 3; 4; 6; 8; 9; 12] : list nat)));
  same list_eqb ((let* f := sedofu in Ok (atomvals f))) ((Ok ([1; 2; 4; 5] : list nat)));
  same nsame ((let* f := sedofu in Ok (fullspots f))) ((Ok ([0; 1; 2; 3; 4; 8; 12] : list nat)));
  same list_eqb ((let* f := sediri in Ok (atomvals f))) ((Ok ([0; 2; 3; 4; 5] : list nat)));
  same nsame ((let* f := sediri in Ok (fullspots f))) ((Ok ([0; 1; 2; 3; 4; 6; 8; 9; 12; 16; 17; 20; 24; 25; 28] : list nat)))].
Example filtrates_conversion_test_test_filtrates_yes : yes filtrates_conversion_test_test_filtrates.
Proof. unfold filtrates_conversion_test_test_filtrates. many. Qed.
(* boolf/test/02_val_apply_ec/barita_filtrates/filtrates_conversion_test.py *)
Definition filtrates_conversion_test_test_conversion : list (res bool) := Eval vm_compute in [
  beq ((of (putuki) (fun f => boolf_apply f [3; 0; 1; 2]%Z))) ((of (seduki) (fun f => boolf_apply f [0; 1; 2; 3]%Z)));
  beq ((of (putuki) (fun f => boolf_apply f [0; 1; 2; 3]%Z))) ((of (seduki) (fun f => boolf_apply f [1; 2; 3; 0]%Z)));
  beq ((of (gepofu) (fun f => boolf_apply f [0; 2; 3; 1]%Z))) ((of (sedofu) (fun f => boolf_apply f [0; 1; 2; 3]%Z)));
  beq ((of (gepofu) (fun f => boolf_apply f [0; 1; 2; 3]%Z))) ((of (sedofu) (fun f => boolf_apply f [0; 3; 1; 2]%Z)));
  beq ((of (miniri) (fun f => boolf_apply f [2; 3; 4; 0; 1]%Z))) ((of (sediri) (fun f => boolf_apply f [0; 1; 2; 3; 4]%Z)));
  beq ((of (miniri) (fun f => boolf_apply f [0; 1; 2; 3; 4]%Z))) ((of (sediri) (fun f => boolf_apply f [3; 4; 0; 1; 2]%Z)))].
Example filtrates_conversion_test_test_conversion_yes : yes filtrates_conversion_test_test_conversion.
Proof. unfold filtrates_conversion_test_test_conversion. many. Qed.
(* boolf/test/02_val_apply_ec/barita_filtrates/gepofu_ec_test.py *)
Definition gepofu_ec_test_test_family : list (res bool) := Eval vm_compute in [
  labels_same (of (gepofu) ec_family) [([0]%Z, bf "1110 1010 1100 0000"); ([1]%Z, bf "1101 0101 1100 0000"); ([2]%Z, bf "1011 1010 0011 0000"); ([3]%Z, bf "0111 0101 0011 0000"); ([4]%Z, bf "1010 1110 0000 1100"); ([5]%Z, bf "0101 1101 0000 1100"); ([6]%Z, bf "1010 1011 0000 0011"); ([7]%Z, bf "0101 0111 0000 0011"); ([8]%Z, bf "1100 0000 1110 1010"); ([9]%Z, bf "1100 0000 1101 0101"); ([10]%Z, bf "0011 0000 1011 1010"); ([11]%Z, bf "0011 0000 0111 0101"); ([12]%Z, bf "0000 1100 1010 1110"); ([13]%Z, bf "0000 1100 0101 1101"); ([14]%Z, bf "0000 0011 1010 1011"); ([15]%Z, bf "0000 0011 0101 0111")]].
Example gepofu_ec_test_test_family_yes : yes gepofu_ec_test_test_family.
Proof. unfold gepofu_ec_test_test_family. many. Qed.
(* boolf/test/02_val_apply_ec/barita_filtrates/gepofu_ec_test.py *)
Definition gepofu_ec_test_test_clan : list (res bool) := Eval vm_compute in [
  labels_same (of (gepofu) (fun f => ec_clan 3 f None false)) [([3; 5; 9; 11; 12; 14; 18; 20]%Z, bf "1111 1000 1000 1000"); ([1; 4; 6; 8; 15; 17; 19; 22]%Z, bf "1110 1100 1010 0000"); ([0; 2; 7; 10; 13; 16; 21; 23]%Z, bf "1110 1010 1100 0000"); ([27; 29; 33; 35; 36; 38; 42; 44]%Z, bf "1111 0100 0100 0100"); ([25; 28; 30; 32; 39; 41; 43; 46]%Z, bf "1101 1100 0101 0000"); ([24; 26; 31; 34; 37; 40; 45; 47]%Z, bf "1101 0101 1100 0000"); ([51; 53; 57; 59; 60; 62; 66; 68]%Z, bf "1111 0010 0010 0010"); ([49; 52; 54; 56; 63; 65; 67; 70]%Z, bf "1011 0011 1010 0000"); ([48; 50; 55; 58; 61; 64; 69; 71]%Z, bf "1011 1010 0011 0000"); ([75; 77; 81; 83; 84; 86; 90; 92]%Z, bf "1111 0001 0001 0001"); ([73; 76; 78; 80; 87; 89; 91; 94]%Z, bf "0111 0011 0101 0000"); ([72; 74; 79; 82; 85; 88; 93; 95]%Z, bf "0111 0101 0011 0000"); ([99; 101; 105; 107; 108; 110; 114; 116]%Z, bf "1000 1111 1000 1000"); ([97; 100; 102; 104; 111; 113; 115; 118]%Z, bf "1100 1110 0000 1010"); ([96; 98; 103; 106; 109; 112; 117; 119]%Z, bf "1010 1110 0000 1100"); ([123; 125; 129; 131; 132; 134; 138; 140]%Z, bf "0100 1111 0100 0100"); ([121; 124; 126; 128; 135; 137; 139; 142]%Z, bf "1100 1101 0000 0101"); ([120; 122; 127; 130; 133; 136; 141; 143]%Z, bf "0101 1101 0000 1100"); ([147; 149; 153; 155; 156; 158; 162; 164]%Z, bf "0010 1111 0010 0010"); ([145; 148; 150; 152; 159; 161; 163; 166]%Z, bf "0011 1011 0000 1010"); ([144; 146; 151; 154; 157; 160; 165; 167]%Z, bf "1010 1011 0000 0011"); ([171; 173; 177; 179; 180; 182; 186; 188]%Z, bf "0001 1111 0001 0001"); ([169; 172; 174; 176; 183; 185; 187; 190]%Z, bf "0011 0111 0000 0101"); ([168; 170; 175; 178; 181; 184; 189; 191]%Z, bf "0101 0111 0000 0011"); ([195; 197; 201; 203; 204; 206; 210; 212]%Z, bf "1000 1000 1111 1000"); ([193; 196; 198; 200; 207; 209; 211; 214]%Z, bf "1010 0000 1110 1100"); ([192; 194; 199; 202; 205; 208; 213; 215]%Z, bf "1100 0000 1110 1010"); ([219; 221; 225; 227; 228; 230; 234; 236]%Z, bf "0100 0100 1111 0100"); ([217; 220; 222; 224; 231; 233; 235; 238]%Z, bf "0101 0000 1101 1100"); ([216; 218; 223; 226; 229; 232; 237; 239]%Z, bf "1100 0000 1101 0101"); ([243; 245; 249; 251; 252; 254; 258; 260]%Z, bf "0010 0010 1111 0010"); ([241; 244; 246; 248; 255; 257; 259; 262]%Z, bf "1010 0000 1011 0011"); ([240; 242; 247; 250; 253; 256; 261; 263]%Z, bf "0011 0000 1011 1010"); ([267; 269; 273; 275; 276; 278; 282; 284]%Z, bf "0001 0001 1111 0001"); ([265; 268; 270; 272; 279; 281; 283; 286]%Z, bf "0101 0000 0111 0011"); ([264; 266; 271; 274; 277; 280; 285; 287]%Z, bf "0011 0000 0111 0101"); ([291; 293; 297; 299; 300; 302; 306; 308]%Z, bf "1000 1000 1000 1111"); ([289; 292; 294; 296; 303; 305; 307; 310]%Z, bf "0000 1010 1100 1110"); ([288; 290; 295; 298; 301; 304; 309; 311]%Z, bf "0000 1100 1010 1110"); ([315; 317; 321; 323; 324; 326; 330; 332]%Z, bf "0100 0100 0100 1111"); ([313; 316; 318; 320; 327; 329; 331; 334]%Z, bf "0000 0101 1100 1101"); ([312; 314; 319; 322; 325; 328; 333; 335]%Z, bf "0000 1100 0101 1101"); ([339; 341; 345; 347; 348; 350; 354; 356]%Z, bf "0010 0010 0010 1111"); ([337; 340; 342; 344; 351; 353; 355; 358]%Z, bf "0000 1010 0011 1011"); ([336; 338; 343; 346; 349; 352; 357; 359]%Z, bf "0000 0011 1010 1011"); ([363; 365; 369; 371; 372; 374; 378; 380]%Z, bf "0001 0001 0001 1111"); ([361; 364; 366; 368; 375; 377; 379; 382]%Z, bf "0000 0101 0011 0111"); ([360; 362; 367; 370; 373; 376; 381; 383]%Z, bf "0000 0011 0101 0111")]].
Example gepofu_ec_test_test_clan_yes : yes gepofu_ec_test_test_clan.
Proof. unfold gepofu_ec_test_test_clan. many. Qed.
(* boolf/test/02_val_apply_ec/dagoro/dagoro_conversion_test.py *)
Definition dagoro_conversion_test_test_ : list (res bool) := Eval vm_compute in [
  beq ((of (dagoro) (fun f => boolf_apply f [(-4); 2; 1; 4]%Z))) ((of (darimi) (fun f => boolf_apply f [1; 2; 3; 4]%Z)));
  beq ((of (dagoro) (fun f => boolf_apply f [(-4); 2; 1; 4]%Z))) (darimi);
  beq ((of (dagoro) (fun f => boolf_apply f [(-3); 1; 0; 3]%Z))) ((of (darimi) (fun f => boolf_apply f [0; 1; 2; 3]%Z)));
  same bvec_eqb ((of (dagoro) (fun f => boolf_vals f [(-3); 1; 0; 3]%Z))) ((let* f := darimi in Ok (root f)));
  beq ((of (darimi) (fun f => boolf_apply f [2; 1; (-1); 3]%Z))) (dagoro);
  same bvec_eqb ((of (darimi) (fun f => boolf_vals f [2; 1; (-1); 3]%Z))) ((let* f := dagoro in Ok (root f)))].
Example dagoro_conversion_test_test__yes : yes dagoro_conversion_test_test_.
Proof. unfold dagoro_conversion_test_test_. many. Qed.
(* boolf/test/02_val_apply_ec/dagoro/dagoro_ec_test.py *)
Definition dagoro_ec_test_test_family : list (res bool) := Eval vm_compute in [
  labels_same (of (dagoro) ec_family) [([0]%Z, bf "0101 1101 0010 0010"); ([1]%Z, bf "1010 1110 0001 0001"); ([2]%Z, bf "0101 0111 1000 1000"); ([3]%Z, bf "1010 1011 0100 0100"); ([4]%Z, bf "1101 0101 0010 0010"); ([5]%Z, bf "1110 1010 0001 0001"); ([6]%Z, bf "0111 0101 1000 1000"); ([7]%Z, bf "1011 1010 0100 0100"); ([8]%Z, bf "0010 0010 0101 1101"); ([9]%Z, bf "0001 0001 1010 1110"); ([10]%Z, bf "1000 1000 0101 0111"); ([11]%Z, bf "0100 0100 1010 1011"); ([12]%Z, bf "0010 0010 1101 0101"); ([13]%Z, bf "0001 0001 1110 1010"); ([14]%Z, bf "1000 1000 0111 0101"); ([15]%Z, bf "0100 0100 1011 1010")]].
Example dagoro_ec_test_test_family_yes : yes dagoro_ec_test_test_family.
Proof. unfold dagoro_ec_test_test_family. many. Qed.
(* boolf/test/02_val_apply_ec/dagoro/dagoro_ec_test.py *)
Definition dagoro_ec_test_test_clan : list (res bool) := Eval vm_compute in [
  labels_same (of (dagoro) (fun f => ec_clan 3 f None false)) [([0]%Z, bf "0101 1101 0010 0010"); ([1]%Z, bf "0011 1011 0100 0100"); ([2]%Z, bf "0111 0101 0000 1010"); ([3]%Z, bf "0010 1111 0101 0000"); ([4]%Z, bf "0111 0011 0000 1100"); ([5]%Z, bf "0100 1111 0011 0000"); ([6]%Z, bf "0101 0010 1101 0010"); ([7]%Z, bf "0011 0100 1011 0100"); ([8]%Z, bf "0111 0000 0101 1010"); ([9]%Z, bf "0010 0101 1111 0000"); ([10]%Z, bf "0111 0000 0011 1100"); ([11]%Z, bf "0100 0011 1111 0000"); ([12]%Z, bf "0100 0110 1100 0110"); ([13]%Z, bf "0001 1100 1001 1100"); ([14]%Z, bf "0100 1100 0110 0110"); ([15]%Z, bf "0001 1001 1100 1100"); ([16]%Z, bf "0100 1100 0011 1100"); ([17]%Z, bf "0100 0011 1100 1100"); ([18]%Z, bf "0010 0110 1010 0110"); ([19]%Z, bf "0001 1010 1001 1010"); ([20]%Z, bf "0010 1010 0110 0110"); ([21]%Z, bf "0001 1001 1010 1010"); ([22]%Z, bf "0010 1010 0101 1010"); ([23]%Z, bf "0010 0101 1010 1010"); ([24]%Z, bf "1010 1110 0001 0001"); ([25]%Z, bf "0011 0111 1000 1000"); ([26]%Z, bf "1011 1010 0000 0101"); ([27]%Z, bf "0001 1111 1010 0000"); ([28]%Z, bf "1011 0011 0000 1100"); ([29]%Z, bf "1000 1111 0011 0000"); ([30]%Z, bf "1010 0001 1110 0001"); ([31]%Z, bf "0011 1000 0111 1000"); ([32]%Z, bf "1011 0000 1010 0101"); ([33]%Z, bf "0001 1010 1111 0000"); ([34]%Z, bf "1011 0000 0011 1100"); ([35]%Z, bf "1000 0011 1111 0000"); ([36]%Z, bf "1000 1001 1100 1001"); ([37]%Z, bf "0010 1100 0110 1100"); ([38]%Z, bf "1000 1100 1001 1001"); ([39]%Z, bf "0010 0110 1100 1100"); ([40]%Z, bf "1000 1100 0011 1100"); ([41]%Z, bf "1000 0011 1100 1100"); ([42]%Z, bf "0001 1001 0101 1001"); ([43]%Z, bf "0010 0101 0110 0101"); ([44]%Z, bf "0001 0101 1001 1001"); ([45]%Z, bf "0010 0110 0101 0101"); ([46]%Z, bf "0001 0101 1010 0101"); ([47]%Z, bf "0001 1010 0101 0101"); ([48]%Z, bf "0101 0111 1000 1000"); ([49]%Z, bf "1100 1110 0001 0001"); ([50]%Z, bf "1101 0101 0000 1010"); ([51]%Z, bf "1000 1111 0101 0000"); ([52]%Z, bf "1101 1100 0000 0011"); ([53]%Z, bf "0001 1111 1100 0000"); ([54]%Z, bf "0101 1000 0111 1000"); ([55]%Z, bf "1100 0001 1110 0001"); ([56]%Z, bf "1101 0000 0101 1010"); ([57]%Z, bf "1000 0101 1111 0000"); ([58]%Z, bf "1101 0000 1100 0011"); ([59]%Z, bf "0001 1100 1111 0000"); ([60]%Z, bf "0001 1001 0011 1001"); ([61]%Z, bf "0100 0011 0110 0011"); ([62]%Z, bf "0001 0011 1001 1001"); ([63]%Z, bf "0100 0110 0011 0011"); ([64]%Z, bf "0001 0011 1100 0011"); ([65]%Z, bf "0001 1100 0011 0011"); ([66]%Z, bf "1000 1001 1010 1001"); ([67]%Z, bf "0100 1010 0110 1010"); ([68]%Z, bf "1000 1010 1001 1001"); ([69]%Z, bf "0100 0110 1010 1010"); ([70]%Z, bf "1000 1010 0101 1010"); ([71]%Z, bf "1000 0101 1010 1010"); ([72]%Z, bf "1010 1011 0100 0100"); ([73]%Z, bf "1100 1101 0010 0010"); ([74]%Z, bf "1110 1010 0000 0101"); ([75]%Z, bf "0100 1111 1010 0000"); ([76]%Z, bf "1110 1100 0000 0011"); ([77]%Z, bf "0010 1111 1100 0000"); ([78]%Z, bf "1010 0100 1011 0100"); ([79]%Z, bf "1100 0010 1101 0010"); ([80]%Z, bf "1110 0000 1010 0101"); ([81]%Z, bf "0100 1010 1111 0000"); ([82]%Z, bf "1110 0000 1100 0011"); ([83]%Z, bf "0010 1100 1111 0000"); ([84]%Z, bf "0010 0110 0011 0110"); ([85]%Z, bf "1000 0011 1001 0011"); ([86]%Z, bf "0010 0011 0110 0110"); ([87]%Z, bf "1000 1001 0011 0011"); ([88]%Z, bf "0010 0011 1100 0011"); ([89]%Z, bf "0010 1100 0011 0011"); ([90]%Z, bf "0100 0110 0101 0110"); ([91]%Z, bf "1000 0101 1001 0101"); ([92]%Z, bf "0100 0101 0110 0110"); ([93]%Z, bf "1000 1001 0101 0101"); ([94]%Z, bf "0100 0101 1010 0101"); ([95]%Z, bf "0100 1010 0101 0101"); ([96]%Z, bf "1101 0101 0010 0010"); ([97]%Z, bf "1011 0011 0100 0100"); ([98]%Z, bf "0101 0111 1010 0000"); ([99]%Z, bf "1111 0010 0000 0101"); ([100]%Z, bf "0011 0111 1100 0000"); ([101]%Z, bf "1111 0100 0000 0011"); ([102]%Z, bf "0010 0101 0010 1101"); ([103]%Z, bf "0100 0011 0100 1011"); ([104]%Z, bf "0000 0111 1010 0101"); ([105]%Z, bf "0101 0010 0000 1111"); ([106]%Z, bf "0000 0111 1100 0011"); ([107]%Z, bf "0011 0100 0000 1111"); ([108]%Z, bf "0110 0100 0110 1100"); ([109]%Z, bf "1100 0001 1100 1001"); ([110]%Z, bf "1100 0100 0110 0110"); ([111]%Z, bf "1001 0001 1100 1100"); ([112]%Z, bf "1100 0100 1100 0011"); ([113]%Z, bf "0011 0100 1100 1100"); ([114]%Z, bf "0110 0010 0110 1010"); ([115]%Z, bf "1010 0001 1010 1001"); ([116]%Z, bf "1010 0010 0110 0110"); ([117]%Z, bf "1001 0001 1010 1010"); ([118]%Z, bf "1010 0010 1010 0101"); ([119]%Z, bf "0101 0010 1010 1010"); ([120]%Z, bf "1110 1010 0001 0001"); ([121]%Z, bf "0111 0011 1000 1000"); ([122]%Z, bf "1010 1011 0101 0000"); ([123]%Z, bf "1111 0001 0000 1010"); ([124]%Z, bf "0011 1011 1100 0000"); ([125]%Z, bf "1111 1000 0000 0011"); ([126]%Z, bf "0001 1010 0001 1110"); ([127]%Z, bf "1000 0011 1000 0111"); ([128]%Z, bf "0000 1011 0101 1010"); ([129]%Z, bf "1010 0001 0000 1111"); ([130]%Z, bf "0000 1011 1100 0011"); ([131]%Z, bf "0011 1000 0000 1111"); ([132]%Z, bf "1001 1000 1001 1100"); ([133]%Z, bf "1100 0010 1100 0110"); ([134]%Z, bf "1100 1000 1001 1001"); ([135]%Z, bf "0110 0010 1100 1100"); ([136]%Z, bf "1100 1000 1100 0011"); ([137]%Z, bf "0011 1000 1100 1100"); ([138]%Z, bf "1001 0001 1001 0101"); ([139]%Z, bf "0101 0010 0101 0110"); ([140]%Z, bf "0101 0001 1001 1001"); ([141]%Z, bf "0110 0010 0101 0101"); ([142]%Z, bf "0101 0001 0101 1010"); ([143]%Z, bf "1010 0001 0101 0101"); ([144]%Z, bf "0111 0101 1000 1000"); ([145]%Z, bf "1110 1100 0001 0001"); ([146]%Z, bf "0101 1101 1010 0000"); ([147]%Z, bf "1111 1000 0000 0101"); ([148]%Z, bf "1100 1101 0011 0000"); ([149]%Z, bf "1111 0001 0000 1100"); ([150]%Z, bf "1000 0101 1000 0111"); ([151]%Z, bf "0001 1100 0001 1110"); ([152]%Z, bf "0000 1101 1010 0101"); ([153]%Z, bf "0101 1000 0000 1111"); ([154]%Z, bf "0000 1101 0011 1100"); ([155]%Z, bf "1100 0001 0000 1111"); ([156]%Z, bf "1001 0001 1001 0011"); ([157]%Z, bf "0011 0100 0011 0110"); ([158]%Z, bf "0011 0001 1001 1001"); ([159]%Z, bf "0110 0100 0011 0011"); ([160]%Z, bf "0011 0001 0011 1100"); ([161]%Z, bf "1100 0001 0011 0011"); ([162]%Z, bf "1001 1000 1001 1010"); ([163]%Z, bf "1010 0100 1010 0110"); ([164]%Z, bf "1010 1000 1001 1001"); ([165]%Z, bf "0110 0100 1010 1010"); ([166]%Z, bf "1010 1000 1010 0101"); ([167]%Z, bf "0101 1000 1010 1010"); ([168]%Z, bf "1011 1010 0100 0100"); ([169]%Z, bf "1101 1100 0010 0010"); ([170]%Z, bf "1010 1110 0101 0000"); ([171]%Z, bf "1111 0100 0000 1010"); ([172]%Z, bf "1100 1110 0011 0000"); ([173]%Z, bf "1111 0010 0000 1100"); ([174]%Z, bf "0100 1010 0100 1011"); ([175]%Z, bf "0010 1100 0010 1101"); ([176]%Z, bf "0000 1110 0101 1010"); ([177]%Z, bf "1010 0100 0000 1111"); ([178]%Z, bf "0000 1110 0011 1100"); ([179]%Z, bf "1100 0010 0000 1111"); ([180]%Z, bf "0110 0010 0110 0011"); ([181]%Z, bf "0011 1000 0011 1001"); ([182]%Z, bf "0011 0010 0110 0110"); ([183]%Z, bf "1001 1000 0011 0011"); ([184]%Z, bf "0011 0010 0011 1100"); ([185]%Z, bf "1100 0010 0011 0011"); ([186]%Z, bf "0110 0100 0110 0101"); ([187]%Z, bf "0101 1000 0101 1001"); ([188]%Z, bf "0101 0100 0110 0110"); ([189]%Z, bf "1001 1000 0101 0101"); ([190]%Z, bf "0101 0100 0101 1010"); ([191]%Z, bf "1010 0100 0101 0101"); ([192]%Z, bf "0010 0010 0101 1101"); ([193]%Z, bf "0100 0100 0011 1011"); ([194]%Z, bf "0000 1010 0111 0101"); ([195]%Z, bf "0101 0000 0010 1111"); ([196]%Z, bf "0000 1100 0111 0011"); ([197]%Z, bf "0011 0000 0100 1111"); ([198]%Z, bf "1101 0010 0101 0010"); ([199]%Z, bf "1011 0100 0011 0100"); ([200]%Z, bf "0101 1010 0111 0000"); ([201]%Z, bf "1111 0000 0010 0101"); ([202]%Z, bf "0011 1100 0111 0000"); ([203]%Z, bf "1111 0000 0100 0011"); ([204]%Z, bf "1100 0110 0100 0110"); ([205]%Z, bf "1001 1100 0001 1100"); ([206]%Z, bf "0110 0110 0100 1100"); ([207]%Z, bf "1100 1100 0001 1001"); ([208]%Z, bf "0011 1100 0100 1100"); ([209]%Z, bf "1100 1100 0100 0011"); ([210]%Z, bf "1010 0110 0010 0110"); ([211]%Z, bf "1001 1010 0001 1010"); ([212]%Z, bf "0110 0110 0010 1010"); ([213]%Z, bf "1010 1010 0001 1001"); ([214]%Z, bf "0101 1010 0010 1010"); ([215]%Z, bf "1010 1010 0010 0101"); ([216]%Z, bf "0001 0001 1010 1110"); ([217]%Z, bf "1000 1000 0011 0111"); ([218]%Z, bf "0000 0101 1011 1010"); ([219]%Z, bf "1010 0000 0001 1111"); ([220]%Z, bf "0000 1100 1011 0011"); ([221]%Z, bf "0011 0000 1000 1111"); ([222]%Z, bf "1110 0001 1010 0001"); ([223]%Z, bf "0111 1000 0011 1000"); ([224]%Z, bf "1010 0101 1011 0000"); ([225]%Z, bf "1111 0000 0001 1010"); ([226]%Z, bf "0011 1100 1011 0000"); ([227]%Z, bf "1111 0000 1000 0011"); ([228]%Z, bf "1100 1001 1000 1001"); ([229]%Z, bf "0110 1100 0010 1100"); ([230]%Z, bf "1001 1001 1000 1100"); ([231]%Z, bf "1100 1100 0010 0110"); ([232]%Z, bf "0011 1100 1000 1100"); ([233]%Z, bf "1100 1100 1000 0011"); ([234]%Z, bf "0101 1001 0001 1001"); ([235]%Z, bf "0110 0101 0010 0101"); ([236]%Z, bf "1001 1001 0001 0101"); ([237]%Z, bf "0101 0101 0010 0110"); ([238]%Z, bf "1010 0101 0001 0101"); ([239]%Z, bf "0101 0101 0001 1010"); ([240]%Z, bf "1000 1000 0101 0111"); ([241]%Z, bf "0001 0001 1100 1110"); ([242]%Z, bf "0000 1010 1101 0101"); ([243]%Z, bf "0101 0000 1000 1111"); ([244]%Z, bf "0000 0011 1101 1100"); ([245]%Z, bf "1100 0000 0001 1111"); ([246]%Z, bf "0111 1000 0101 1000"); ([247]%Z, bf "1110 0001 1100 0001"); ([248]%Z, bf "0101 1010 1101 0000"); ([249]%Z, bf "1111 0000 1000 0101"); ([250]%Z, bf "1100 0011 1101 0000"); ([251]%Z, bf "1111 0000 0001 1100"); ([252]%Z, bf "0011 1001 0001 1001"); ([253]%Z, bf "0110 0011 0100 0011"); ([254]%Z, bf "1001 1001 0001 0011"); ([255]%Z, bf "0011 0011 0100 0110"); ([256]%Z, bf "1100 0011 0001 0011"); ([257]%Z, bf "0011 0011 0001 1100"); ([258]%Z, bf "1010 1001 1000 1001"); ([259]%Z, bf "0110 1010 0100 1010"); ([260]%Z, bf "1001 1001 1000 1010"); ([261]%Z, bf "1010 1010 0100 0110"); ([262]%Z, bf "0101 1010 1000 1010"); ([263]%Z, bf "1010 1010 1000 0101"); ([264]%Z, bf "0100 0100 1010 1011"); ([265]%Z, bf "0010 0010 1100 1101"); ([266]%Z, bf "0000 0101 1110 1010"); ([267]%Z, bf "1010 0000 0100 1111"); ([268]%Z, bf "0000 0011 1110 1100"); ([269]%Z, bf "1100 0000 0010 1111"); ([270]%Z, bf "1011 0100 1010 0100"); ([271]%Z, bf "1101 0010 1100 0010"); ([272]%Z, bf "1010 0101 1110 0000"); ([273]%Z, bf "1111 0000 0100 1010"); ([274]%Z, bf "1100 0011 1110 0000"); ([275]%Z, bf "1111 0000 0010 1100"); ([276]%Z, bf "0011 0110 0010 0110"); ([277]%Z, bf "1001 0011 1000 0011"); ([278]%Z, bf "0110 0110 0010 0011"); ([279]%Z, bf "0011 0011 1000 1001"); ([280]%Z, bf "1100 0011 0010 0011"); ([281]%Z, bf "0011 0011 0010 1100"); ([282]%Z, bf "0101 0110 0100 0110"); ([283]%Z, bf "1001 0101 1000 0101"); ([284]%Z, bf "0110 0110 0100 0101"); ([285]%Z, bf "0101 0101 1000 1001"); ([286]%Z, bf "1010 0101 0100 0101"); ([287]%Z, bf "0101 0101 0100 1010"); ([288]%Z, bf "0010 0010 1101 0101"); ([289]%Z, bf "0100 0100 1011 0011"); ([290]%Z, bf "1010 0000 0101 0111"); ([291]%Z, bf "0000 0101 1111 0010"); ([292]%Z, bf "1100 0000 0011 0111"); ([293]%Z, bf "0000 0011 1111 0100"); ([294]%Z, bf "0010 1101 0010 0101"); ([295]%Z, bf "0100 1011 0100 0011"); ([296]%Z, bf "1010 0101 0000 0111"); ([297]%Z, bf "0000 1111 0101 0010"); ([298]%Z, bf "1100 0011 0000 0111"); ([299]%Z, bf "0000 1111 0011 0100"); ([300]%Z, bf "0110 1100 0110 0100"); ([301]%Z, bf "1100 1001 1100 0001"); ([302]%Z, bf "0110 0110 1100 0100"); ([303]%Z, bf "1100 1100 1001 0001"); ([304]%Z, bf "1100 0011 1100 0100"); ([305]%Z, bf "1100 1100 0011 0100"); ([306]%Z, bf "0110 1010 0110 0010"); ([307]%Z, bf "1010 1001 1010 0001"); ([308]%Z, bf "0110 0110 1010 0010"); ([309]%Z, bf "1010 1010 1001 0001"); ([310]%Z, bf "1010 0101 1010 0010"); ([311]%Z, bf "1010 1010 0101 0010"); ([312]%Z, bf "0001 0001 1110 1010"); ([313]%Z, bf "1000 1000 0111 0011"); ([314]%Z, bf "0101 0000 1010 1011"); ([315]%Z, bf "0000 1010 1111 0001"); ([316]%Z, bf "1100 0000 0011 1011"); ([317]%Z, bf "0000 0011 1111 1000"); ([318]%Z, bf "0001 1110 0001 1010"); ([319]%Z, bf "1000 0111 1000 0011"); ([320]%Z, bf "0101 1010 0000 1011"); ([321]%Z, bf "0000 1111 1010 0001"); ([322]%Z, bf "1100 0011 0000 1011"); ([323]%Z, bf "0000 1111 0011 1000"); ([324]%Z, bf "1001 1100 1001 1000"); ([325]%Z, bf "1100 0110 1100 0010"); ([326]%Z, bf "1001 1001 1100 1000"); ([327]%Z, bf "1100 1100 0110 0010"); ([328]%Z, bf "1100 0011 1100 1000"); ([329]%Z, bf "1100 1100 0011 1000"); ([330]%Z, bf "1001 0101 1001 0001"); ([331]%Z, bf "0101 0110 0101 0010"); ([332]%Z, bf "1001 1001 0101 0001"); ([333]%Z, bf "0101 0101 0110 0010"); ([334]%Z, bf "0101 1010 0101 0001"); ([335]%Z, bf "0101 0101 1010 0001"); ([336]%Z, bf "1000 1000 0111 0101"); ([337]%Z, bf "0001 0001 1110 1100"); ([338]%Z, bf "1010 0000 0101 1101"); ([339]%Z, bf "0000 0101 1111 1000"); ([340]%Z, bf "0011 0000 1100 1101"); ([341]%Z, bf "0000 1100 1111 0001"); ([342]%Z, bf "1000 0111 1000 0101"); ([343]%Z, bf "0001 1110 0001 1100"); ([344]%Z, bf "1010 0101 0000 1101"); ([345]%Z, bf "0000 1111 0101 1000"); ([346]%Z, bf "0011 1100 0000 1101"); ([347]%Z, bf "0000 1111 1100 0001"); ([348]%Z, bf "1001 0011 1001 0001"); ([349]%Z, bf "0011 0110 0011 0100"); ([350]%Z, bf "1001 1001 0011 0001"); ([351]%Z, bf "0011 0011 0110 0100"); ([352]%Z, bf "0011 1100 0011 0001"); ([353]%Z, bf "0011 0011 1100 0001"); ([354]%Z, bf "1001 1010 1001 1000"); ([355]%Z, bf "1010 0110 1010 0100"); ([356]%Z, bf "1001 1001 1010 1000"); ([357]%Z, bf "1010 1010 0110 0100"); ([358]%Z, bf "1010 0101 1010 1000"); ([359]%Z, bf "1010 1010 0101 1000"); ([360]%Z, bf "0100 0100 1011 1010"); ([361]%Z, bf "0010 0010 1101 1100"); ([362]%Z, bf "0101 0000 1010 1110"); ([363]%Z, bf "0000 1010 1111 0100"); ([364]%Z, bf "0011 0000 1100 1110"); ([365]%Z, bf "0000 1100 1111 0010"); ([366]%Z, bf "0100 1011 0100 1010"); ([367]%Z, bf "0010 1101 0010 1100"); ([368]%Z, bf "0101 1010 0000 1110"); ([369]%Z, bf "0000 1111 1010 0100"); ([370]%Z, bf "0011 1100 0000 1110"); ([371]%Z, bf "0000 1111 1100 0010"); ([372]%Z, bf "0110 0011 0110 0010"); ([373]%Z, bf "0011 1001 0011 1000"); ([374]%Z, bf "0110 0110 0011 0010"); ([375]%Z, bf "0011 0011 1001 1000"); ([376]%Z, bf "0011 1100 0011 0010"); ([377]%Z, bf "0011 0011 1100 0010"); ([378]%Z, bf "0110 0101 0110 0100"); ([379]%Z, bf "0101 1001 0101 1000"); ([380]%Z, bf "0110 0110 0101 0100"); ([381]%Z, bf "0101 0101 1001 1000"); ([382]%Z, bf "0101 1010 0101 0100"); ([383]%Z, bf "0101 0101 1010 0100")]].
Example dagoro_ec_test_test_clan_yes : yes dagoro_ec_test_test_clan.
Proof. unfold dagoro_ec_test_test_clan. many. Qed.
(* boolf/test/02_val_apply_ec/kusaga_damela/vals_test.py *)
Definition vals_test_test_kusaga : list (res bool) := Eval vm_compute in [
  (of (kusaga) (fun f => boolf_val f [false; false; false; false]));
  (of (kusaga) (fun f => boolf_val f [true; false; false; false]));
  (of (kusaga) (fun f => boolf_val f [false; true; false; false]));
  (let* b := (of (kusaga) (fun f => boolf_val f [true; true; false; false])) in Ok (negb b));
  same bvec_eqb ((of (kusaga) (fun f => boolf_vals f [(-1); (-2); 2; 3]%Z))) ((of (kusaga) (fun f => boolf_vals f [(-1); 2; (-2); 3]%Z)));
  same bvec_eqb ((of (kusaga) (fun f => boolf_vals f [(-1); (-2); 2; 3]%Z))) ((Ok (bv "0111 0001 0010 0100")));
  same bvec_eqb ((of (kusaga) (fun f => boolf_vals f [(-3); 1; (-4); 0]%Z))) ((of (kusaga) (fun f => boolf_vals f [(-3); (-4); 1; 0]%Z)));
  same bvec_eqb ((of (kusaga) (fun f => boolf_vals f [(-3); 1; (-4); 0]%Z))) ((Ok (bv "0000 1001 1100 1010")))].
Example vals_test_test_kusaga_yes : yes vals_test_test_kusaga.
Proof. unfold vals_test_test_kusaga. many. Qed.
(* boolf/test/02_val_apply_ec/kusaga_damela/vals_test.py *)
Definition vals_test_test_damela : list (res bool) := Eval vm_compute in [
  same bvec_eqb ((of (damela_spread) (fun f => boolf_vals f [3; (-1); (-2); 2]%Z))) ((of (damela_spread) (fun f => boolf_vals f [3; (-2); (-1); 2]%Z)));
  same bvec_eqb ((of (damela_spread) (fun f => boolf_vals f [3; (-1); (-2); 2]%Z))) ((of (damela_spread) (fun f => boolf_vals f [3; 0; 1; (-3)]%Z)));
  same bvec_eqb ((of (damela_spread) (fun f => boolf_vals f [3; (-1); (-2); 2]%Z))) ((of (damela_spread) (fun f => boolf_vals f [3; 1; 0; (-3)]%Z)));
  same bvec_eqb ((of (damela_spread) (fun f => boolf_vals f [3; (-1); (-2); 2]%Z))) ((of (damela) (fun f => boolf_vals f [3; (-1); (-2); 2]%Z)));
  same bvec_eqb ((of (damela_spread) (fun f => boolf_vals f [3; (-1); (-2); 2]%Z))) ((of (damela) (fun f => boolf_vals f [3; (-2); (-1); 2]%Z)));
  same bvec_eqb ((of (damela_spread) (fun f => boolf_vals f [3; (-1); (-2); 2]%Z))) ((of (damela) (fun f => boolf_vals f [3; 0; 1; (-3)]%Z)));
  same bvec_eqb ((of (damela_spread) (fun f => boolf_vals f [3; (-1); (-2); 2]%Z))) ((of (damela) (fun f => boolf_vals f [3; 1; 0; (-3)]%Z)));
  same bvec_eqb ((of (damela_spread) (fun f => boolf_vals f [3; (-1); (-2); 2]%Z))) ((Ok (bv "0111 1110 0001 1000")));
  match ((of (damela_spread) (fun f => boolf_val f []))) with Err SarityMismatchError => Ok true | _ => Ok false end].
Example vals_test_test_damela_yes : yes vals_test_test_damela.
Proof. unfold vals_test_test_damela. many. Qed.
(* boolf/test/02_val_apply_ec/menose/menose_ec_test.py *)
Definition menose_ec_test_test_family : list (res bool) := Eval vm_compute in [
  labels_same (of (menose) ec_family) [([1; 2]%Z, bf "1001 0000"); ([0; 3]%Z, bf "0110 0000"); ([5; 6]%Z, bf "0000 1001"); ([4; 7]%Z, bf "0000 0110")]].
Example menose_ec_test_test_family_yes : yes menose_ec_test_test_family.
Proof. unfold menose_ec_test_test_family. many. Qed.
(* boolf/test/02_val_apply_ec/menose/menose_ec_test.py *)
Definition menose_ec_test_test_clan_3 : list (res bool) := Eval vm_compute in [
  labels_same (of (menose) (fun f => ec_clan 3 f None false)) [([6; 7; 12; 13]%Z, bf "1001 0000"); ([0; 1; 18; 19]%Z, bf "0110 0000"); ([8; 9; 26; 27]%Z, bf "1000 0100"); ([16; 17; 28; 29]%Z, bf "1000 0010"); ([2; 3; 32; 33]%Z, bf "0100 1000"); ([22; 23; 34; 35]%Z, bf "0100 0001"); ([30; 31; 36; 37]%Z, bf "0000 1001"); ([20; 21; 38; 39]%Z, bf "0010 0001"); ([4; 5; 40; 41]%Z, bf "0010 1000"); ([24; 25; 42; 43]%Z, bf "0000 0110"); ([14; 15; 44; 45]%Z, bf "0001 0010"); ([10; 11; 46; 47]%Z, bf "0001 0100")]].
Example menose_ec_test_test_clan_3_yes : yes menose_ec_test_test_clan_3.
Proof. unfold menose_ec_test_test_clan_3. many. Qed.
(* boolf/test/02_val_apply_ec/menose/menose_ec_test.py *)
Definition menose_ec_test_test_clan_4_triples : list (res bool) := Eval vm_compute in [
  labels_same (of (menose) (fun f => ec_clan 3 f (Some 4) false)) [([24; 28; 48; 52]%Z, bf "1001 0000"); ([32; 40; 56; 64]%Z, bf "1000 0100"); ([36; 44; 60; 68]%Z, bf "1000 0010"); ([0; 4; 72; 76]%Z, bf "0110 0000"); ([8; 16; 80; 88]%Z, bf "0100 1000"); ([12; 20; 84; 92]%Z, bf "0010 1000"); ([120; 124; 144; 148]%Z, bf "0000 1001"); ([128; 136; 152; 160]%Z, bf "0010 0001"); ([132; 140; 156; 164]%Z, bf "0100 0001"); ([96; 100; 168; 172]%Z, bf "0000 0110"); ([104; 112; 176; 184]%Z, bf "0001 0010"); ([108; 116; 180; 188]%Z, bf "0001 0100"); ([25; 29; 49; 53]%Z, bfa "1001 0000" [0; 1; 3]); ([33; 41; 57; 65]%Z, bfa "1000 0100" [0; 1; 3]); ([37; 45; 61; 69]%Z, bfa "1000 0010" [0; 1; 3]); ([1; 5; 73; 77]%Z, bfa "0110 0000" [0; 1; 3]); ([9; 17; 81; 89]%Z, bfa "0100 1000" [0; 1; 3]); ([13; 21; 85; 93]%Z, bfa "0010 1000" [0; 1; 3]); ([121; 125; 145; 149]%Z, bfa "0000 1001" [0; 1; 3]); ([129; 137; 153; 161]%Z, bfa "0010 0001" [0; 1; 3]); ([133; 141; 157; 165]%Z, bfa "0100 0001" [0; 1; 3]); ([97; 101; 169; 173]%Z, bfa "0000 0110" [0; 1; 3]); ([105; 113; 177; 185]%Z, bfa "0001 0010" [0; 1; 3]); ([109; 117; 181; 189]%Z, bfa "0001 0100" [0; 1; 3]); ([26; 30; 50; 54]%Z, bfa "1001 0000" [0; 2; 3]); ([34; 42; 58; 66]%Z, bfa "1000 0100" [0; 2; 3]); ([38; 46; 62; 70]%Z, bfa "1000 0010" [0; 2; 3]); ([2; 6; 74; 78]%Z, bfa "0110 0000" [0; 2; 3]); ([10; 18; 82; 90]%Z, bfa "0100 1000" [0; 2; 3]); ([14; 22; 86; 94]%Z, bfa "0010 1000" [0; 2; 3]); ([122; 126; 146; 150]%Z, bfa "0000 1001" [0; 2; 3]); ([130; 138; 154; 162]%Z, bfa "0010 0001" [0; 2; 3]); ([134; 142; 158; 166]%Z, bfa "0100 0001" [0; 2; 3]); ([98; 102; 170; 174]%Z, bfa "0000 0110" [0; 2; 3]); ([106; 114; 178; 186]%Z, bfa "0001 0010" [0; 2; 3]); ([110; 118; 182; 190]%Z, bfa "0001 0100" [0; 2; 3]); ([27; 31; 51; 55]%Z, bfa "1001 0000" [1; 2; 3]); ([35; 43; 59; 67]%Z, bfa "1000 0100" [1; 2; 3]); ([39; 47; 63; 71]%Z, bfa "1000 0010" [1; 2; 3]); ([3; 7; 75; 79]%Z, bfa "0110 0000" [1; 2; 3]); ([11; 19; 83; 91]%Z, bfa "0100 1000" [1; 2; 3]); ([15; 23; 87; 95]%Z, bfa "0010 1000" [1; 2; 3]); ([123; 127; 147; 151]%Z, bfa "0000 1001" [1; 2; 3]); ([131; 139; 155; 163]%Z, bfa "0010 0001" [1; 2; 3]); ([135; 143; 159; 167]%Z, bfa "0100 0001" [1; 2; 3]); ([99; 103; 171; 175]%Z, bfa "0000 0110" [1; 2; 3]); ([107; 115; 179; 187]%Z, bfa "0001 0010" [1; 2; 3]); ([111; 119; 183; 191]%Z, bfa "0001 0100" [1; 2; 3])]].
Example menose_ec_test_test_clan_4_triples_yes : yes menose_ec_test_test_clan_4_triples.
Proof. unfold menose_ec_test_test_clan_4_triples. many. Qed.
(* boolf/test/02_val_apply_ec/menose/menose_ec_test.py *)
Definition menose_ec_test_test_clan_4_pairs : list (res bool) := Eval vm_compute in [
  labels_same (of (menose) (fun f => ec_clan 3 f (Some 4) true)) [([66; 67; 90; 91; 114; 115; 138; 139]%Z, bfa "1001 0000" [1; 2; 3]); ([30; 31; 54; 55; 126; 127; 150; 151]%Z, bfa "1001 0000" [0; 1; 3]); ([36; 37; 84; 85; 108; 109; 156; 157]%Z, bfa "1001 0000" [0; 2; 3]); ([6; 7; 78; 79; 102; 103; 174; 175]%Z, bfa "0110 0000" [0; 1; 3]); ([12; 13; 60; 61; 132; 133; 180; 181]%Z, bfa "0110 0000" [0; 2; 3]); ([18; 19; 42; 43; 162; 163; 186; 187]%Z, bfa "0110 0000" [1; 2; 3]); ([68; 69; 92; 93; 212; 213; 236; 237]%Z, bfa "1000 0100" [1; 2; 3]); ([118; 119; 142; 143; 214; 215; 238; 239]%Z, bfa "1000 0010" [1; 2; 3]); ([24; 25; 48; 49; 216; 217; 240; 241]%Z, bf "1001 0000"); ([38; 39; 86; 87; 206; 207; 254; 255]%Z, bfa "1000 0100" [0; 2; 3]); ([112; 113; 160; 161; 208; 209; 256; 257]%Z, bfa "1000 0010" [0; 2; 3]); ([0; 1; 72; 73; 192; 193; 264; 265]%Z, bf "0110 0000"); ([14; 15; 62; 63; 230; 231; 278; 279]%Z, bfa "0100 1000" [0; 2; 3]); ([136; 137; 184; 185; 232; 233; 280; 281]%Z, bfa "0100 0001" [0; 2; 3]); ([20; 21; 44; 45; 260; 261; 284; 285]%Z, bfa "0100 1000" [1; 2; 3]); ([166; 167; 190; 191; 262; 263; 286; 287]%Z, bfa "0100 0001" [1; 2; 3]); ([26; 27; 98; 99; 218; 219; 290; 291]%Z, bf "1000 0100"); ([52; 53; 100; 101; 244; 245; 292; 293]%Z, bf "1000 0010"); ([32; 33; 128; 129; 200; 201; 296; 297]%Z, bfa "1000 0100" [0; 1; 3]); ([58; 59; 154; 155; 202; 203; 298; 299]%Z, bfa "1000 0010" [0; 1; 3]); ([2; 3; 122; 123; 194; 195; 314; 315]%Z, bf "0100 1000"); ([76; 77; 124; 125; 268; 269; 316; 317]%Z, bf "0100 0001"); ([8; 9; 104; 105; 224; 225; 320; 321]%Z, bfa "0100 1000" [0; 1; 3]); ([82; 83; 178; 179; 226; 227; 322; 323]%Z, bfa "0100 0001" [0; 1; 3]); ([258; 259; 282; 283; 306; 307; 330; 331]%Z, bfa "0000 1001" [1; 2; 3]); ([164; 165; 188; 189; 308; 309; 332; 333]%Z, bfa "0010 0001" [1; 2; 3]); ([22; 23; 46; 47; 310; 311; 334; 335]%Z, bfa "0010 1000" [1; 2; 3]); ([120; 121; 144; 145; 312; 313; 336; 337]%Z, bf "0000 1001"); ([74; 75; 146; 147; 266; 267; 338; 339]%Z, bf "0010 0001"); ([4; 5; 148; 149; 196; 197; 340; 341]%Z, bf "0010 1000"); ([222; 223; 246; 247; 318; 319; 342; 343]%Z, bfa "0000 1001" [0; 1; 3]); ([80; 81; 176; 177; 248; 249; 344; 345]%Z, bfa "0010 0001" [0; 1; 3]); ([10; 11; 106; 107; 250; 251; 346; 347]%Z, bfa "0010 1000" [0; 1; 3]); ([228; 229; 276; 277; 300; 301; 348; 349]%Z, bfa "0000 1001" [0; 2; 3]); ([134; 135; 182; 183; 302; 303; 350; 351]%Z, bfa "0010 0001" [0; 2; 3]); ([16; 17; 64; 65; 304; 305; 352; 353]%Z, bfa "0010 1000" [0; 2; 3]); ([96; 97; 168; 169; 288; 289; 360; 361]%Z, bf "0000 0110"); ([50; 51; 170; 171; 242; 243; 362; 363]%Z, bf "0001 0010"); ([28; 29; 172; 173; 220; 221; 364; 365]%Z, bf "0001 0100"); ([198; 199; 270; 271; 294; 295; 366; 367]%Z, bfa "0000 0110" [0; 1; 3]); ([56; 57; 152; 153; 272; 273; 368; 369]%Z, bfa "0001 0010" [0; 1; 3]); ([34; 35; 130; 131; 274; 275; 370; 371]%Z, bfa "0001 0100" [0; 1; 3]); ([204; 205; 252; 253; 324; 325; 372; 373]%Z, bfa "0000 0110" [0; 2; 3]); ([110; 111; 158; 159; 326; 327; 374; 375]%Z, bfa "0001 0010" [0; 2; 3]); ([40; 41; 88; 89; 328; 329; 376; 377]%Z, bfa "0001 0100" [0; 2; 3]); ([210; 211; 234; 235; 354; 355; 378; 379]%Z, bfa "0000 0110" [1; 2; 3]); ([116; 117; 140; 141; 356; 357; 380; 381]%Z, bfa "0001 0010" [1; 2; 3]); ([70; 71; 94; 95; 358; 359; 382; 383]%Z, bfa "0001 0100" [1; 2; 3])]].
Example menose_ec_test_test_clan_4_pairs_yes : yes menose_ec_test_test_clan_4_pairs.
Proof. unfold menose_ec_test_test_clan_4_pairs. many. Qed.
(* boolf/test/02_val_apply_ec/tatami_fusuma/tatami_fusuma_test.py *)
Definition tatami_fusuma_test_test_faction : list (res bool) := Eval vm_compute in [
  labels_same (of (tatami) (fun f => ec_faction f None false)) [([0; 1]%Z, bf "1111 1000"); ([2; 3]%Z, bf "1110 1100"); ([4; 5]%Z, bf "1110 1010")];
  labels_same (of (fusuma) (fun f => ec_faction f None false)) [([0]%Z, bf "1111 0100"); ([1]%Z, bf "1111 0010"); ([2]%Z, bf "1101 1100"); ([3]%Z, bf "1100 1110"); ([4]%Z, bf "1011 1010"); ([5]%Z, bf "1010 1110")];
  beq ((let* p := (int_to_perm 3) in of (fusuma) (fun f => apply_perm f p))) (bf "1100 1110")].
Example tatami_fusuma_test_test_faction_yes : yes tatami_fusuma_test_test_faction.
Proof. unfold tatami_fusuma_test_test_faction. many. Qed.
(* boolf/test/02_val_apply_ec/tatami_fusuma/tatami_fusuma_test.py *)
Definition tatami_fusuma_test_test_family : list (res bool) := Eval vm_compute in [
  labels_same (of (tatami) ec_family) [([0]%Z, bf "1111 1000"); ([1]%Z, bf "1111 0100"); ([2]%Z, bf "1111 0010"); ([3]%Z, bf "1111 0001"); ([4]%Z, bf "1000 1111"); ([5]%Z, bf "0100 1111"); ([6]%Z, bf "0010 1111"); ([7]%Z, bf "0001 1111")];
  labels_same (of (fusuma) ec_family) [([0]%Z, bf "1111 0100"); ([1]%Z, bf "1111 1000"); ([2]%Z, bf "1111 0001"); ([3]%Z, bf "1111 0010"); ([4]%Z, bf "0100 1111"); ([5]%Z, bf "1000 1111"); ([6]%Z, bf "0001 1111"); ([7]%Z, bf "0010 1111")];
  same oblock_eqb (let* c := (of (fusuma) ec_family) in let* g := fusuma in Ok (ec_block c g)) (Ok (Some [0]%Z));
  same oblock_eqb (let* c := (of (fusuma) ec_family) in let* g := tatami in Ok (ec_block c g)) (Ok (Some [1]%Z));
  same oblock_eqb (let* c := (of (fusuma) ec_family) in let* g := geloba in Ok (ec_block c g)) (Ok (Some [5]%Z));
  beq ((of (fusuma) (fun f => apply_sigperm_list f [(-1); 1; 2]%Z))) (tatami);
  beq ((of (fusuma) (fun f => apply_sigperm_list f [(-1); 1; (-3)]%Z))) (geloba)].
Example tatami_fusuma_test_test_family_yes : yes tatami_fusuma_test_test_family.
Proof. unfold tatami_fusuma_test_test_family. many. Qed.
(* boolf/test/02_val_apply_ec/vinona/vinona_ec_test.py *)
Definition vinona_ec_test_test_2ary : list (res bool) := Eval vm_compute in [
  labels_same (of (vinona) ec_family) [([0]%Z, bf "1110"); ([1]%Z, bf "1101"); ([2]%Z, bf "1011"); ([3]%Z, bf "0111")];
  labels_same (of (vinona) (fun f => ec_clan 3 f None false)) [([0; 1]%Z, bf "1110"); ([2; 3]%Z, bf "1101"); ([4; 5]%Z, bf "1011"); ([6; 7]%Z, bf "0111")];
  block_pairs ((of (vinona) (fun f => ec_clan 3 f None false))) (bf "1011") [(2, 0); (2, 1)]].
Example vinona_ec_test_test_2ary_yes : yes vinona_ec_test_test_2ary.
Proof. unfold vinona_ec_test_test_2ary. many. Qed.
(* boolf/test/02_val_apply_ec/vinona/vinona_ec_test.py *)
Definition vinona_ec_test_test_3ary_pairs : list (res bool) := Eval vm_compute in [
  labels_same (of (vinona) (fun f => ec_clan 3 f (Some 3) true)) [([0; 1; 24; 25]%Z, bf "1110"); ([6; 7; 30; 31]%Z, bf "1101"); ([12; 13; 36; 37]%Z, bf "1011"); ([18; 19; 42; 43]%Z, bf "0111"); ([2; 3; 14; 15]%Z, bfa "1110" [0; 2]); ([8; 9; 20; 21]%Z, bfa "1101" [0; 2]); ([26; 27; 38; 39]%Z, bfa "1011" [0; 2]); ([32; 33; 44; 45]%Z, bfa "0111" [0; 2]); ([4; 5; 10; 11]%Z, bfa "1110" [1; 2]); ([16; 17; 22; 23]%Z, bfa "1101" [1; 2]); ([28; 29; 34; 35]%Z, bfa "1011" [1; 2]); ([40; 41; 46; 47]%Z, bfa "0111" [1; 2])];
  block_pairs ((of (vinona) (fun f => ec_clan 3 f (Some 3) true))) (bfa "1011" [0; 2]) [(4, 2); (4, 3); (6, 2); (6, 3)];
  beq ((let* p := (SigPerm_pair 4 2) in of (vinona) (fun f => apply_sigperm f p))) ((let* p := (SigPerm_pair 6 2) in of (vinona) (fun f => apply_sigperm f p)));
  beq ((let* p := (SigPerm_pair 4 2) in of (vinona) (fun f => apply_sigperm f p))) ((of (vinona) (fun f => boolf_apply f [0; (-3)]%Z)));
  beq ((let* p := (SigPerm_pair 4 2) in of (vinona) (fun f => apply_sigperm f p))) ((let* p := (SigPerm_pair 4 3) in of (vinona) (fun f => apply_sigperm f p)));
  beq ((let* p := (SigPerm_pair 4 2) in of (vinona) (fun f => apply_sigperm f p))) ((let* p := (SigPerm_pair 6 3) in of (vinona) (fun f => apply_sigperm f p)));
  beq ((let* p := (SigPerm_pair 4 2) in of (vinona) (fun f => apply_sigperm f p))) ((of (vinona) (fun f => boolf_apply f [(-3); 0]%Z)));
  beq ((let* p := (SigPerm_pair 4 2) in of (vinona) (fun f => apply_sigperm f p))) (bfa "1011" [0; 2])].
Example vinona_ec_test_test_3ary_pairs_yes : yes vinona_ec_test_test_3ary_pairs.
Proof. unfold vinona_ec_test_test_3ary_pairs. many. Qed.
(* boolf/test/02_val_apply_ec/vinona/vinona_ec_test.py *)
Definition vinona_ec_test_test_3ary_triples : list (res bool) := Eval vm_compute in [
  same glove_eqb ((let* c := (of (vinona) (fun f => ec_clan 3 f (Some 3) false)) in Ok (ec_glove c))) ((Ok (Some [[0; 1]; [0; 2]; [1; 2]])));
  labels_same (of (vinona) (fun f => ec_clan 3 f (Some 3) false)) [([0; 3]%Z, bf "1110"); ([6; 15]%Z, bf "1101"); ([9; 12]%Z, bf "1011"); ([18; 21]%Z, bf "0111"); ([1; 4]%Z, bfa "1110" [0; 2]); ([7; 16]%Z, bfa "1101" [0; 2]); ([10; 13]%Z, bfa "1011" [0; 2]); ([19; 22]%Z, bfa "0111" [0; 2]); ([2; 5]%Z, bfa "1110" [1; 2]); ([8; 17]%Z, bfa "1101" [1; 2]); ([11; 14]%Z, bfa "1011" [1; 2]); ([20; 23]%Z, bfa "0111" [1; 2])]].
Example vinona_ec_test_test_3ary_triples_yes : yes vinona_ec_test_test_3ary_triples.
Proof. unfold vinona_ec_test_test_3ary_triples. many. Qed.
(* boolf/test/03_splits/boolf_3_test.py *)
Definition boolf_3_test_test : list (res bool) := Eval vm_compute in [
  same nsame ((let* f := bf "0" in Ok (fullspots f))) ((Ok ([] : list nat)));
  same nsame ((let* f := bf "1" in Ok (fullspots f))) ((Ok ([0] : list nat)));
  same splits_same ((of (bf "0") (splits))) ((of (bf "1") (splits)));
  both_empty ((of (bf "0") (splits))) ((of (bf "0") (splits_onesided)));
  both_empty ((of (bf "0") (splits))) ((of (bf "1") (splits_onesided)));
  same splits_same ((of (bf "0") (splits))) ((Ok []));
  same (sameset pdnat_eqb) ((of (bf "0") (splits_overlap_counts))) ((of (bf "1") (splits_overlap_counts)));
  both_empty ((of (bf "0") (splits_overlap_counts))) ((of (bf "0") (splits_equal)));
  both_empty ((of (bf "0") (splits_overlap_counts))) ((of (bf "1") (splits_equal)));
  same (sameset pdnat_eqb) ((of (bf "0") (splits_overlap_counts))) ((Ok []));
  same blocks_same ((let* b := of (bf "0") (blocks_and_sides asis) in Ok (fst b))) ((let* b := of (bf "1") (blocks_and_sides asis) in Ok (fst b)));
  both_empty ((let* b := of (bf "0") (blocks_and_sides asis) in Ok (fst b))) ((let* b := of (bf "0") (blocks_and_sides asis) in Ok (snd b)));
  both_empty ((let* b := of (bf "0") (blocks_and_sides asis) in Ok (fst b))) ((let* b := of (bf "1") (blocks_and_sides asis) in Ok (snd b)));
  same blocks_same ((let* b := of (bf "0") (blocks_and_sides asis) in Ok (fst b))) ((Ok []));
  beq ((of (bf "0") (bloatless_boolf asis))) (bf "0");
  beq ((of (bf "1") (bloatless_boolf asis))) (bf "1");
  same splits_same ((of (batom (0)) (splits))) ((Ok [([1], [])]));
  same splits_same ((of (batom (-1)) (splits))) ((Ok [([], [0])]));
  same (sameset pdnat_eqb) ((of (batom (0)) (splits_overlap_counts))) ((of (batom (-1)) (splits_overlap_counts)));
  both_empty ((of (batom (0)) (splits_overlap_counts))) ((of (batom (0)) (splits_equal)));
  both_empty ((of (batom (0)) (splits_overlap_counts))) ((of (batom (-1)) (splits_equal)));
  same (sameset pdnat_eqb) ((of (batom (0)) (splits_overlap_counts))) ((Ok []));
  same blocks_same ((let* b := of (batom (0)) (blocks_and_sides asis) in Ok (fst b))) ((let* b := of (batom (-1)) (blocks_and_sides asis) in Ok (fst b)));
  same blocks_same ((let* b := of (batom (0)) (blocks_and_sides asis) in Ok (fst b))) ((Ok [[0]]));
  same splits_same ((of (bf "0111") (splits))) ((of (bfa "0111" [33; 99]) (splits)));
  same splits_same ((of (bf "0111") (splits))) ((Ok [([1; 3], [2]); ([2; 3], [1])]))].
Example boolf_3_test_test_yes : yes boolf_3_test_test.
Proof. unfold boolf_3_test_test. many. Qed.
(* boolf/test/04_splits_overlap_counts/boolf_4_test.py *)
Definition boolf_4_test_test : list (res bool) := Eval vm_compute in [
  same nsame ((let* f := bf "1000 0001" in Ok (fullspots f))) ((Ok ([0; 7] : list nat)));
  same splits_same ((of (bf "1000 0001") (splits))) ((Ok [([7], [0]); ([7], [0]); ([7], [0])]));
  same (sameset pdnat_eqb) ((of (bf "1000 0001") (splits_overlap_counts))) ((Ok [((0, 1), 2); ((0, 2), 2); ((1, 2), 2)]));
  same (sameset pdbool_eqb) ((of (bf "1000 0001") (splits_equal))) ((Ok [((0, 1), true); ((0, 2), true); ((1, 2), true)]));
  same bvec_eqb ((of (bf "1000 0001") (splits_onesided))) ((Ok [false; false; false]));
  same blocks_same ((let* b := of (bf "1000 0001") (blocks_and_sides asis) in Ok (fst b))) ((Ok [[0; 1; 2]]));
  same nsame ((let* f := bf "0000 0001" in Ok (fullspots f))) ((Ok ([7] : list nat)));
  same splits_same ((of (bf "0000 0001") (splits))) ((Ok [([7], []); ([7], []); ([7], [])]));
  same (sameset pdnat_eqb) ((of (bf "0000 0001") (splits_overlap_counts))) ((Ok [((0, 1), 1); ((0, 2), 1); ((1, 2), 1)]));
  same (sameset pdbool_eqb) ((of (bf "0000 0001") (splits_equal))) ((Ok [((0, 1), true); ((0, 2), true); ((1, 2), true)]));
  same bvec_eqb ((of (bf "0000 0001") (splits_onesided))) ((Ok [true; true; true]));
  same blocks_same ((let* b := of (bf "0000 0001") (blocks_and_sides asis) in Ok (fst b))) ((Ok [[0; 1; 2]]));
  same nsame ((let* f := bf "0000 1001" in Ok (fullspots f))) ((Ok ([4; 7] : list nat)));
  same splits_same ((of (bf "0000 1001") (splits))) ((Ok [([7], [4]); ([7], [4]); ([4; 7], [])]));
  same (sameset pdnat_eqb) ((of (bf "0000 1001") (splits_overlap_counts))) ((Ok [((0, 1), 2); ((0, 2), 2); ((1, 2), 2)]));
  same (sameset pdbool_eqb) ((of (bf "0000 1001") (splits_equal))) ((Ok [((0, 1), true); ((0, 2), false); ((1, 2), false)]));
  same bvec_eqb ((of (bf "0000 1001") (splits_onesided))) ((Ok [false; false; true]));
  same blocks_same ((let* b := of (bf "0000 1001") (blocks_and_sides asis) in Ok (fst b))) ((Ok [[0; 1]; [2]]));
  same blocks_same ((of ((of (bf "0000 1001") (bloatless_boolf asis))) (bundles asis))) ((Ok [[0]]));
  match ((of (bf "0000 1001") (bundles asis))) with Err BoolfNotBlightlessError => Ok true | _ => Ok false end;
  same nsame ((let* f := bf "1101 0001" in Ok (fullspots f))) ((Ok ([0; 1; 3; 7] : list nat)));
  same splits_same ((of (bf "1101 0001") (splits))) ((Ok [([1; 3; 7], [0]); ([3; 7], [0; 1]); ([7], [0; 1; 3])]));
  same (sameset pdnat_eqb) ((of (bf "1101 0001") (splits_overlap_counts))) ((Ok [((0, 1), 3); ((0, 2), 3); ((1, 2), 3)]));
  same (sameset pdbool_eqb) ((of (bf "1101 0001") (splits_equal))) ((Ok [((0, 1), false); ((0, 2), false); ((1, 2), false)]));
  same bvec_eqb ((of (bf "1101 0001") (splits_onesided))) ((Ok [false; false; false]));
  same blocks_same ((let* b := of (bf "1101 0001") (blocks_and_sides asis) in Ok (fst b))) ((Ok [[0]; [1]; [2]]));
  same blocks_same ((of (bf "1101 0001") (bundles asis))) ((Ok [[0]; [1]; [2]]))].
Example boolf_4_test_test_yes : yes boolf_4_test_test.
Proof. unfold boolf_4_test_test. many. Qed.
(* boolf/test/04_splits_overlap_counts/boolf_4_test.py *)
Definition boolf_4_test_test_same_clan : list (res bool) := Eval vm_compute in [
  same nsame ((let* f := bfa "1001 0001" [10; 20; 30] in Ok (fullspots f))) ((Ok ([0; 3; 7] : list nat)));
  same splits_same ((of (bfa "1001 0001" [10; 20; 30]) (splits))) ((Ok [([3; 7], [0]); ([3; 7], [0]); ([7], [0; 3])]));
  same (sameseq place_eqb) ((let* b := of (bfa "1001 0001" [10; 20; 30]) (blocks_and_sides asis) in Ok (snd b))) ((Ok [None; None]));
  same list_eqb ((of (bfa "1001 0001" [10; 20; 30]) (bloatless_atomkeys_undeflated asis))) ((Ok ([0; 2] : list nat)));
  same2 spc_eq ((of (bfa "1001 0001" [10; 20; 30]) (bloat asis))) ((SetPartComp (Some [[0; 1]%Z]) None));
  beq ((of (bfa "1001 0001" [10; 20; 30]) (bloat_boolf asis))) (bfa "1001" [10; 20]);
  beq ((of (bfa "1001 0001" [10; 20; 30]) (bloatless_boolf asis))) (bfa "1101" [10; 30]);
  same Nat.eqb ((of (bfa "1001 0001" [10; 20; 30]) (fun f => bloatless_spotint asis f 0))) ((Ok (N.to_nat 0%N)));
  same Nat.eqb ((of (bfa "1001 0001" [10; 20; 30]) (fun f => bloatless_spotint asis f 3))) ((Ok (N.to_nat 1%N)));
  same Nat.eqb ((of (bfa "1001 0001" [10; 20; 30]) (fun f => bloatless_spotint asis f 4))) ((Ok (N.to_nat 2%N)));
  same Nat.eqb ((of (bfa "1001 0001" [10; 20; 30]) (fun f => bloatless_spotint asis f 7))) ((Ok (N.to_nat 3%N)));
  match ((of (bfa "1001 0001" [10; 20; 30]) (fun f => bloatless_spotint asis f 1))) with Err BloatMismatchError => Ok true | _ => Ok false end;
  match ((of (bfa "1001 0001" [10; 20; 30]) (fun f => bloatless_spotint asis f 2))) with Err BloatMismatchError => Ok true | _ => Ok false end;
  match ((of (bfa "1001 0001" [10; 20; 30]) (fun f => bloatless_spotint asis f 5))) with Err BloatMismatchError => Ok true | _ => Ok false end;
  match ((of (bfa "1001 0001" [10; 20; 30]) (fun f => bloatless_spotint asis f 6))) with Err BloatMismatchError => Ok true | _ => Ok false end;
  match ((of (bfa "1001 0001" [10; 20; 30]) (fun f => bloatless_spotint asis f 8))) with Err TooBigError => Ok true | _ => Ok false end;
  match ((of (bfa "1001 0001" [10; 20; 30]) (fun f => bloatless_spotint asis f 9))) with Err TooBigError => Ok true | _ => Ok false end;
  match ((of (bfa "1001 0001" [10; 20; 30]) (fun f => bloatless_spotint asis f 10))) with Err TooBigError => Ok true | _ => Ok false end;
  same nsame ((let* f := bfa "0110 0100" [10; 20; 30] in Ok (fullspots f))) ((Ok ([1; 2; 5] : list nat)));
  same splits_same ((of (bfa "0110 0100" [10; 20; 30]) (splits))) ((Ok [([1; 5], [2]); ([2], [1; 5]); ([5], [1; 2])]));
  same blocks_same ((let* b := of (bfa "0110 0100" [10; 20; 30]) (blocks_and_sides asis) in Ok (fst b))) ((Ok [[0; 1]; [2]]));
  same (sameseq place_eqb) ((let* b := of (bfa "0110 0100" [10; 20; 30]) (blocks_and_sides asis) in Ok (snd b))) ((Ok [Some 0; None]));
  same list_eqb ((of (bfa "0110 0100" [10; 20; 30]) (bloatless_atomkeys_undeflated asis))) ((Ok ([0; 2] : list nat)));
  same2 spc_eq ((of (bfa "0110 0100" [10; 20; 30]) (bloat asis))) ((SetPartComp (Some []) (Some [(0, 1)%Z])));
  beq ((of (bfa "0110 0100" [10; 20; 30]) (bloatless_boolf asis))) (bfa "1101" [10; 30]);
  same Nat.eqb ((of (bfa "0110 0100" [10; 20; 30]) (fun f => bloatless_spotint asis f 1))) ((Ok (N.to_nat 1%N)));
  same Nat.eqb ((of (bfa "0110 0100" [10; 20; 30]) (fun f => bloatless_spotint asis f 2))) ((Ok (N.to_nat 0%N)));
  same Nat.eqb ((of (bfa "0110 0100" [10; 20; 30]) (fun f => bloatless_spotint asis f 5))) ((Ok (N.to_nat 3%N)));
  same Nat.eqb ((of (bfa "0110 0100" [10; 20; 30]) (fun f => bloatless_spotint asis f 6))) ((Ok (N.to_nat 2%N)));
  match ((of (bfa "0110 0100" [10; 20; 30]) (fun f => bloatless_spotint asis f 0))) with Err BloatMismatchError => Ok true | _ => Ok false end;
  match ((of (bfa "0110 0100" [10; 20; 30]) (fun f => bloatless_spotint asis f 3))) with Err BloatMismatchError => Ok true | _ => Ok false end;
  match ((of (bfa "0110 0100" [10; 20; 30]) (fun f => bloatless_spotint asis f 4))) with Err BloatMismatchError => Ok true | _ => Ok false end;
  match ((of (bfa "0110 0100" [10; 20; 30]) (fun f => bloatless_spotint asis f 7))) with Err BloatMismatchError => Ok true | _ => Ok false end;
  match ((of (bfa "0110 0100" [10; 20; 30]) (fun f => bloatless_spotint asis f 8))) with Err TooBigError => Ok true | _ => Ok false end;
  match ((of (bfa "0110 0100" [10; 20; 30]) (fun f => bloatless_spotint asis f 9))) with Err TooBigError => Ok true | _ => Ok false end;
  match ((of (bfa "0110 0100" [10; 20; 30]) (fun f => bloatless_spotint asis f 10))) with Err TooBigError => Ok true | _ => Ok false end;
  same (sameset pdnat_eqb) ((of (bfa "1001 0001" [10; 20; 30]) (splits_overlap_counts))) ((Ok [((0, 1), 2); ((0, 2), 3); ((1, 2), 3)]));
  same (sameset pdbool_eqb) ((of (bfa "1001 0001" [10; 20; 30]) (splits_equal))) ((Ok [((0, 1), true); ((0, 2), false); ((1, 2), false)]));
  same bvec_eqb ((of (bfa "1001 0001" [10; 20; 30]) (splits_onesided))) ((Ok [false; false; false]));
  same blocks_same ((let* b := of (bfa "1001 0001" [10; 20; 30]) (blocks_and_sides asis) in Ok (fst b))) ((Ok [[0; 1]; [2]]));
  same (sameset pdnat_eqb) ((of (bfa "0110 0100" [10; 20; 30]) (splits_overlap_counts))) ((Ok [((0, 1), 2); ((0, 2), 3); ((1, 2), 3)]));
  same (sameset pdbool_eqb) ((of (bfa "0110 0100" [10; 20; 30]) (splits_equal))) ((Ok [((0, 1), true); ((0, 2), false); ((1, 2), false)]));
  same bvec_eqb ((of (bfa "0110 0100" [10; 20; 30]) (splits_onesided))) ((Ok [false; false; false]));
  same blocks_same ((let* b := of (bfa "0110 0100" [10; 20; 30]) (blocks_and_sides asis) in Ok (fst b))) ((Ok [[0; 1]; [2]]))].
Example boolf_4_test_test_same_clan_yes : yes boolf_4_test_test_same_clan.
Proof. unfold boolf_4_test_test_same_clan. many. Qed.
(* boolf/test/05_blight/bloat/preferred_side/test_demole.py *)
Definition test_demole_test_demole : list (res bool) := Eval vm_compute in [
  same2 spc_eq ((of (demole) (bloat asis))) ((SetPartComp (Some [[0; 4]%Z]) (Some [(0, 2)%Z])));
  same splits_same ((of (demole) (splits))) ((Ok [([17], [4; 6; 12]); ([6], [4; 12; 17]); ([4; 6; 12], [17]); ([12], [4; 6; 17]); ([17], [4; 6; 12])]));
  same blocks_same ((let* b := of (demole) (blocks_and_sides asis) in Ok (fst b))) ((Ok [[1]; [0; 2; 4]; [3]]));
  same (sameseq place_eqb) ((let* b := of (demole) (blocks_and_sides asis) in Ok (snd b))) ((Ok [None; Some 2; None]));
  same splits_same ((of ((of (demole) (bloatless_boolf asis))) (splits))) ((Ok [([3], [0; 2; 6]); ([2; 3; 6], [0]); ([6], [0; 2; 3])]));
  beq ((of (demole) (fun f => filtrated_boolf f [0; 1; 3]))) ((of ((of (demole) (fun f => filtrated_boolf f [0; 1; 3]))) (bloatless_boolf asis)));
  same splits_same ((of ((of (demole) (fun f => filtrated_boolf f [0; 1; 3]))) (splits))) ((Ok [([1], [0; 2; 4]); ([2], [0; 1; 4]); ([4], [0; 1; 2])]))].
Example test_demole_test_demole_yes : yes test_demole_test_demole.
Proof. unfold test_demole_test_demole. many. Qed.
(* boolf/test/05_blight/bloat/preferred_side/test_megomi.py *)
Definition test_megomi_test_megomi : list (res bool) := Eval vm_compute in [
  same2 spc_eq ((of (megomi) (bloat asis))) ((SetPartComp (Some []) (Some [(0, 2)%Z])));
  same splits_same ((of (megomi) (splits))) ((Ok [([3; 17], [4; 6; 12]); ([3; 6], [4; 12; 17]); ([4; 6; 12], [3; 17]); ([12], [3; 4; 6; 17]); ([17], [3; 4; 6; 12])]));
  same blocks_same ((let* b := of (megomi) (blocks_and_sides asis) in Ok (fst b))) ((Ok [[0; 2]; [1]; [3]; [4]]));
  same (sameseq place_eqb) ((let* b := of (megomi) (blocks_and_sides asis) in Ok (snd b))) ((Ok [Some 0; None; None; None]));
  same splits_same ((of ((of (megomi) (bloatless_boolf asis))) (splits))) ((Ok [([3; 9], [0; 2; 4]); ([2; 3], [0; 4; 9]); ([4], [0; 2; 3; 9]); ([9], [0; 2; 3; 4])]));
  beq ((of (megomi) (fun f => filtrated_boolf f [1; 2; 3; 4]))) ((of ((of (megomi) (fun f => filtrated_boolf f [1; 2; 3; 4]))) (bloatless_boolf asis)));
  same splits_same ((of ((of (megomi) (fun f => filtrated_boolf f [1; 2; 3; 4]))) (splits))) ((Ok [([1; 3], [2; 6; 8]); ([2; 3; 6], [1; 8]); ([6], [1; 2; 3; 8]); ([8], [1; 2; 3; 6])]))].
Example test_megomi_test_megomi_yes : yes test_megomi_test_megomi.
Proof. unfold test_megomi_test_megomi. many. Qed.
(* boolf/test/05_blight/bloat/preferred_side/test_rigeko.py *)
Definition test_rigeko_test_rigeko : list (res bool) := Eval vm_compute in [
  same2 spc_eq ((of (rigeko) (bloat asis))) ((SetPartComp (Some []) (Some [(0, 2)%Z])));
  same splits_same ((of (rigeko) (splits))) ((Ok [([11; 17], [4; 6]); ([6; 11], [4; 17]); ([4; 6], [11; 17]); ([11], [4; 6; 17]); ([17], [4; 6; 11])]));
  same blocks_same ((let* b := of (rigeko) (blocks_and_sides asis) in Ok (fst b))) ((Ok [[1]; [0; 2]; [3]; [4]]));
  same (sameseq place_eqb) ((let* b := of (rigeko) (blocks_and_sides asis) in Ok (snd b))) ((Ok [None; Some 2; None; None]));
  same splits_same ((of ((of (rigeko) (bloatless_boolf asis))) (splits))) ((Ok [([3; 5], [2; 8]); ([2; 3], [5; 8]); ([5], [2; 3; 8]); ([8], [2; 3; 5])]));
  beq ((of (rigeko) (fun f => filtrated_boolf f [0; 1; 3; 4]))) ((of ((of (rigeko) (fun f => filtrated_boolf f [0; 1; 3; 4]))) (bloatless_boolf asis)));
  same splits_same ((of ((of (rigeko) (fun f => filtrated_boolf f [0; 1; 3; 4]))) (splits))) ((Ok [([7; 9], [0; 2]); ([2; 7], [0; 9]); ([7], [0; 2; 9]); ([9], [0; 2; 7])]))].
Example test_rigeko_test_rigeko_yes : yes test_rigeko_test_rigeko.
Proof. unfold test_rigeko_test_rigeko. many. Qed.
(* boolf/test/05_blight/bloat/preferred_side/test_rudafi.py *)
Definition test_rudafi_test_rudafi : list (res bool) := Eval vm_compute in [
  same2 spc_eq ((of (rudafi) (bloat asis))) ((SetPartComp (Some []) (Some [(0, 2)%Z])));
  same splits_same ((of (rudafi) (splits))) ((Ok [([9; 17], [4; 6]); ([6], [4; 9; 17]); ([4; 6], [9; 17]); ([9], [4; 6; 17]); ([17], [4; 6; 9])]));
  same blocks_same ((let* b := of (rudafi) (blocks_and_sides asis) in Ok (fst b))) ((Ok [[1]; [0; 2]; [3]; [4]]));
  same (sameseq place_eqb) ((let* b := of (rudafi) (blocks_and_sides asis) in Ok (snd b))) ((Ok [None; Some 2; None; None]));
  same splits_same ((of ((of (rudafi) (bloatless_boolf asis))) (splits))) ((Ok [([3], [2; 4; 8]); ([2; 3], [4; 8]); ([4], [2; 3; 8]); ([8], [2; 3; 4])]));
  beq ((of (rudafi) (fun f => filtrated_boolf f [0; 1; 3; 4]))) ((of ((of (rudafi) (fun f => filtrated_boolf f [0; 1; 3; 4]))) (bloatless_boolf asis)));
  same splits_same ((of ((of (rudafi) (fun f => filtrated_boolf f [0; 1; 3; 4]))) (splits))) ((Ok [([5; 9], [0; 2]); ([2], [0; 5; 9]); ([5], [0; 2; 9]); ([9], [0; 2; 5])]))].
Example test_rudafi_test_rudafi_yes : yes test_rudafi_test_rudafi.
Proof. unfold test_rudafi_test_rudafi. many. Qed.
(* boolf/test/05_blight/bloat/tokosi/test_tokosi.py *)
Definition test_tokosi_test_tokosi : list (res bool) := Eval vm_compute in [
  same list_eqb ((let* f := tokosi in Ok (atomvals f))) ((Ok ([1; 3; 5; 7; 9] : list nat)));
  same Nat.eqb ((let* f := tokosi in Ok (exposet_to_int (atomvals f)))) ((Ok (N.to_nat 682%N)));
  same list_eqb ((let* f := tokosi in Ok (sort_nat (sierpinski_of (atomvals f))))) ((Ok ([0; 2; 8; 10; 32; 34; 40; 42; 128; 130; 136; 138; 160; 162; 168; 170; 512; 514; 520; 522; 544; 546; 552; 554; 640; 642; 648; 650; 672; 674; 680; 682] : list nat)));
  same Nat.eqb ((let* f := tokosi in Ok (adicity f))) ((Ok (N.to_nat 10%N)));
  same Nat.eqb ((let* f := tokosi in Ok (valency f))) ((Ok (N.to_nat 5%N)));
  beq ((of (tokosi) (boolf_not))) (bfa "1110 1101 1111 1111  1111 1111 0111 0011" [1; 3; 5; 7; 9]);
  same Nat.eqb ((of (tokosi) (number_of_distinct_splits asis))) ((Ok (N.to_nat 3%N)));
  same Qeq_bool ((of (tokosi) (weight_fract))) ((Ok (5 # 32)%Q));
  same splits_same ((of (tokosi) (splits))) ((Ok [([3; 29], [6; 24; 28]); ([3; 6], [24; 28; 29]); ([6; 28; 29], [3; 24]); ([24; 28; 29], [3; 6]); ([24; 28; 29], [3; 6])]));
  same (sameset pdnat_eqb) ((of (tokosi) (splits_overlap_counts))) ((Ok [((0, 1), 4); ((0, 2), 4); ((0, 3), 4); ((0, 4), 4); ((1, 2), 4); ((1, 3), 2); ((1, 4), 2); ((2, 3), 4); ((2, 4), 4); ((3, 4), 2)]));
  same (sameset pdbool_eqb) ((of (tokosi) (splits_equal))) ((Ok [((0, 1), false); ((0, 2), false); ((0, 3), false); ((0, 4), false); ((1, 2), false); ((1, 3), true); ((1, 4), true); ((2, 3), false); ((2, 4), false); ((3, 4), true)]));
  same bvec_eqb ((of (tokosi) (splits_onesided))) ((Ok [false; false; false; false; false]));
  same blocks_same ((let* b := of (tokosi) (blocks_and_sides asis) in Ok (fst b))) ((Ok [[0]; [1; 3; 4]; [2]]));
  same (sameseq place_eqb) ((let* b := of (tokosi) (blocks_and_sides asis) in Ok (snd b))) ((Ok [None; Some 1; None]));
  same list_eqb ((of (tokosi) (bloatless_atomkeys_undeflated asis))) ((Ok ([0; 1; 2] : list nat)));
  same nsame ((let* f := tokosi in Ok (fullspots f))) ((Ok ([3; 6; 24; 28; 29] : list nat)));
  same2 spc_eq ((of (tokosi) (bloat asis))) ((SetPartComp (Some [[3; 4]%Z]) (Some [(1, 3)%Z])));
  match ((of (tokosi) (bundles asis))) with Err BoolfNotBlightlessError => Ok true | _ => Ok false end;
  match ((of (tokosi) (bundle_grid_partitions asis))) with Err BoolfNotBlightlessError => Ok true | _ => Ok false end;
  match ((of (tokosi) (bundle_overlap_counts asis))) with Err BoolfNotBlightlessError => Ok true | _ => Ok false end;
  beq ((of (tokosi) (bloat_boolf asis))) (bfa "0100 0010" [3; 7; 9]);
  same nsame ((let* f := (of (tokosi) (bloat_boolf asis)) in Ok (fullspots f))) ((Ok ([1; 6] : list nat)));
  beq ((of ((of (tokosi) (bloat_boolf asis))) (bloat_boolf asis))) ((of (tokosi) (bloat_boolf asis)));
  beq ((of ((of (tokosi) (bloat_boolf asis))) (bloatless_boolf asis))) (bf "1");
  beq (tokosi_bloatless) (bfa "1001 1110" [1; 3; 5]);
  same nsame ((let* f := tokosi_bloatless in Ok (fullspots f))) ((Ok ([0; 3; 4; 5; 6] : list nat)));
  same Nat.eqb ((let* f := tokosi_bloatless in Ok (adicity f))) ((Ok (N.to_nat 6%N)));
  same Nat.eqb ((let* f := tokosi_bloatless in Ok (valency f))) ((Ok (N.to_nat 3%N)));
  beq ((of (tokosi_bloatless) (bloat_boolf asis))) (bf "1");
  beq ((of (tokosi_bloatless) (bloatless_boolf asis))) (tokosi_bloatless);
  same blocks_same ((of (tokosi_bloatless) (bundles asis))) ((Ok [[0; 1; 2]]));
  bgp_same (of (tokosi_bloatless) (bundle_grid_partitions asis)) [([0; 1; 2], (SetPart (Some []) DomN))];
  same (sameset boc_eqb) ((of (tokosi_bloatless) (bundle_overlap_counts asis))) ((Ok [([0; 1; 2], ([], [(0, 1); (0, 2); (1, 2)]))]));
  beq ((band (tokosi_bloatless) ((of (tokosi) (bloat_boolf asis))))) (tokosi)].
Example test_tokosi_test_tokosi_yes : yes test_tokosi_test_tokosi.
Proof. unfold test_tokosi_test_tokosi. many. Qed.
(* boolf/test/05_blight/blot_and_bloat/test_menose.py *)
Definition test_menose_test_menose : list (res bool) := Eval vm_compute in [
  same bvec_eqb ((let* f := menose in Ok (root f))) ((Ok (bv "0110 0000")));
  same list_eqb ((let* f := menose in Ok (atomvals f))) ((Ok ([0; 1; 2] : list nat)));
  same2 spc_eq ((of (menose) (blot asis))) ((SetPartComp (Some []) (Some [(-1, 2)%Z])));
  beq ((of (menose) (blot_boolf))) (bfa "10" [2]);
  same2 spc_eq ((of (menose) (bloat asis))) ((SetPartComp (Some []) (Some [(0, 1)%Z])));
  beq ((of (menose) (bloat_boolf asis))) (bf "0110");
  beq ((of (menose) (bloatless_boolf asis))) (bfa "10" [2]);
  same2 spc_eq ((of (menose) (blight asis))) ((SetPartComp (Some []) (Some [(-1, 2)%Z; (0, 1)%Z])));
  beq ((of (menose) (blight_boolf asis))) (menose);
  beq ((of (menose) (blightless_boolf asis))) (bf "1")].
Example test_menose_test_menose_yes : yes test_menose_test_menose.
Proof. unfold test_menose_test_menose. many. Qed.
(* boolf/test/06_decomposition/boolf_6_test.py *)
Definition boolf_6_test_test : list (res bool) := Eval vm_compute in [
  beq (kibime) (bf "1111 0010 1000 0000");
  same nsame ((let* f := kibime in Ok (fullspots f))) ((Ok ([0; 1; 2; 3; 6; 8] : list nat)));
  same splits_same ((of (kibime) (splits))) ((Ok [([1; 3], [0; 2; 6; 8]); ([2; 3; 6], [0; 1; 8]); ([6], [0; 1; 2; 3; 8]); ([8], [0; 1; 2; 3; 6])]));
  beq (murife) (bf "1101 0010 1000 0000");
  same nsame ((let* f := murife in Ok (fullspots f))) ((Ok ([0; 1; 3; 6; 8] : list nat)));
  same splits_same ((of (murife) (splits))) ((Ok [([1; 3], [0; 6; 8]); ([3; 6], [0; 1; 8]); ([6], [0; 1; 3; 8]); ([8], [0; 1; 3; 6])]));
  beq (menabe) (bf "0111 0010 1000 0000");
  same nsame ((let* f := menabe in Ok (fullspots f))) ((Ok ([1; 2; 3; 6; 8] : list nat)));
  same splits_same ((of (menabe) (splits))) ((Ok [([1; 3], [2; 6; 8]); ([2; 3; 6], [1; 8]); ([6], [1; 2; 3; 8]); ([8], [1; 2; 3; 6])]));
  beq (tefabi) (bf "0101 0010 1000 0000");
  same nsame ((let* f := tefabi in Ok (fullspots f))) ((Ok ([1; 3; 6; 8] : list nat)));
  same splits_same ((of (tefabi) (splits))) ((Ok [([1; 3], [6; 8]); ([3; 6], [1; 8]); ([6], [1; 3; 8]); ([8], [1; 3; 6])]));
  beq (fobope) (bf "1111 0000 1000 0000");
  same nsame ((let* f := fobope in Ok (fullspots f))) ((Ok ([0; 1; 2; 3; 8] : list nat)));
  same splits_same ((of (fobope) (splits))) ((Ok [([1; 3], [0; 2; 8]); ([2; 3], [0; 1; 8]); ([], [0; 1; 2; 3; 8]); ([8], [0; 1; 2; 3])]));
  same bvec_eqb ((of (fobope) (splits_onesided))) ((Ok [false; false; true; false]));
  same (sameset pdnat_eqb) ((of (kibime) (splits_overlap_counts))) ((Ok [((0, 1), 4); ((0, 2), 3); ((0, 3), 3); ((1, 2), 3); ((1, 3), 3); ((2, 3), 3)]));
  same (sameset pdbool_eqb) ((of (kibime) (splits_equal))) ((Ok [((0, 1), false); ((0, 2), false); ((0, 3), false); ((1, 2), false); ((1, 3), false); ((2, 3), false)]));
  same bvec_eqb ((of (kibime) (splits_onesided))) ((Ok [false; false; false; false]));
  beq ((of ((band (kibime) (bfa "1001" [3; 4]))) (bloatless_boolf asis))) ((of ((band (kibime) (bfa "0110" [3; 4]))) (bloatless_boolf asis)));
  beq ((of ((band (kibime) (bfa "1001" [3; 4]))) (bloatless_boolf asis))) (kibime);
  same2 spc_eq ((of ((band (kibime) (bfa "1001" [3; 4]))) (bloat asis))) ((SetPartComp (Some [[3; 4]%Z]) None));
  same2 spc_eq ((of ((band (kibime) (bfa "0110" [3; 4]))) (bloat asis))) ((SetPartComp (Some []) (Some [(3, 4)%Z])));
  beq ((of (kibime) (gapless_boolf asis))) (kibime);
  same (sameset pdnat_eqb) ((of (murife) (splits_overlap_counts))) ((Ok [((0, 1), 4); ((0, 2), 3); ((0, 3), 3); ((1, 2), 3); ((1, 3), 3); ((2, 3), 3)]));
  same (sameset pdbool_eqb) ((of (murife) (splits_equal))) ((Ok [((0, 1), false); ((0, 2), false); ((0, 3), false); ((1, 2), false); ((1, 3), false); ((2, 3), false)]));
  same bvec_eqb ((of (murife) (splits_onesided))) ((Ok [false; false; false; false]));
  beq ((of ((band (murife) (bfa "1001" [3; 4]))) (bloatless_boolf asis))) ((of ((band (murife) (bfa "0110" [3; 4]))) (bloatless_boolf asis)));
  beq ((of ((band (murife) (bfa "1001" [3; 4]))) (bloatless_boolf asis))) (murife);
  same2 spc_eq ((of ((band (murife) (bfa "1001" [3; 4]))) (bloat asis))) ((SetPartComp (Some [[3; 4]%Z]) None));
  same2 spc_eq ((of ((band (murife) (bfa "0110" [3; 4]))) (bloat asis))) ((SetPartComp (Some []) (Some [(3, 4)%Z])));
  beq ((of (murife) (gapless_boolf asis))) (kibime);
  same (sameset pdnat_eqb) ((of (menabe) (splits_overlap_counts))) ((Ok [((0, 1), 4); ((0, 2), 3); ((0, 3), 3); ((1, 2), 3); ((1, 3), 3); ((2, 3), 3)]));
  same (sameset pdbool_eqb) ((of (menabe) (splits_equal))) ((Ok [((0, 1), false); ((0, 2), false); ((0, 3), false); ((1, 2), false); ((1, 3), false); ((2, 3), false)]));
  same bvec_eqb ((of (menabe) (splits_onesided))) ((Ok [false; false; false; false]));
  beq ((of ((band (menabe) (bfa "1001" [3; 4]))) (bloatless_boolf asis))) ((of ((band (menabe) (bfa "0110" [3; 4]))) (bloatless_boolf asis)));
  beq ((of ((band (menabe) (bfa "1001" [3; 4]))) (bloatless_boolf asis))) (menabe);
  same2 spc_eq ((of ((band (menabe) (bfa "1001" [3; 4]))) (bloat asis))) ((SetPartComp (Some [[3; 4]%Z]) None));
  same2 spc_eq ((of ((band (menabe) (bfa "0110" [3; 4]))) (bloat asis))) ((SetPartComp (Some []) (Some [(3, 4)%Z])));
  beq ((of (menabe) (gapless_boolf asis))) (kibime);
  same (sameset pdnat_eqb) ((of (tefabi) (splits_overlap_counts))) ((Ok [((0, 1), 4); ((0, 2), 3); ((0, 3), 3); ((1, 2), 3); ((1, 3), 3); ((2, 3), 3)]));
  same (sameset pdbool_eqb) ((of (tefabi) (splits_equal))) ((Ok [((0, 1), false); ((0, 2), false); ((0, 3), false); ((1, 2), false); ((1, 3), false); ((2, 3), false)]));
  same bvec_eqb ((of (tefabi) (splits_onesided))) ((Ok [false; false; false; false]));
  beq ((of ((band (tefabi) (bfa "1001" [3; 4]))) (bloatless_boolf asis))) ((of ((band (tefabi) (bfa "0110" [3; 4]))) (bloatless_boolf asis)));
  beq ((of ((band (tefabi) (bfa "1001" [3; 4]))) (bloatless_boolf asis))) (tefabi);
  same2 spc_eq ((of ((band (tefabi) (bfa "1001" [3; 4]))) (bloat asis))) ((SetPartComp (Some [[3; 4]%Z]) None));
  same2 spc_eq ((of ((band (tefabi) (bfa "0110" [3; 4]))) (bloat asis))) ((SetPartComp (Some []) (Some [(3, 4)%Z])));
  beq ((of (tefabi) (gapless_boolf asis))) (kibime);
  beq ((of (kibime) (bloatless_boolf asis))) (kibime);
  same blocks_same ((let* b := of (kibime) (blocks_and_sides asis) in Ok (fst b))) ((Ok [[0]; [1]; [2]; [3]]));
  same blocks_same ((of (kibime) (bundles asis))) ((Ok [[0; 1]; [2]; [3]]));
  same (sameset boc_eqb) ((of (kibime) (bundle_overlap_counts asis))) ((Ok [([0; 1], ([], [(0, 1)])); ([2], ([], [])); ([3], ([], []))]));
  beq ((of (murife) (bloatless_boolf asis))) (murife);
  same blocks_same ((let* b := of (murife) (blocks_and_sides asis) in Ok (fst b))) ((Ok [[0]; [1]; [2]; [3]]));
  same blocks_same ((of (murife) (bundles asis))) ((Ok [[0; 1]; [2]; [3]]));
  same (sameset boc_eqb) ((of (murife) (bundle_overlap_counts asis))) ((Ok [([0; 1], ([], [(0, 1)])); ([2], ([], [])); ([3], ([], []))]));
  beq ((of (menabe) (bloatless_boolf asis))) (menabe);
  same blocks_same ((let* b := of (menabe) (blocks_and_sides asis) in Ok (fst b))) ((Ok [[0]; [1]; [2]; [3]]));
  same blocks_same ((of (menabe) (bundles asis))) ((Ok [[0; 1]; [2]; [3]]));
  same (sameset boc_eqb) ((of (menabe) (bundle_overlap_counts asis))) ((Ok [([0; 1], ([], [(0, 1)])); ([2], ([], [])); ([3], ([], []))]));
  beq ((of (tefabi) (bloatless_boolf asis))) (tefabi);
  same blocks_same ((let* b := of (tefabi) (blocks_and_sides asis) in Ok (fst b))) ((Ok [[0]; [1]; [2]; [3]]));
  same blocks_same ((of (tefabi) (bundles asis))) ((Ok [[0; 1]; [2]; [3]]));
  same (sameset boc_eqb) ((of (tefabi) (bundle_overlap_counts asis))) ((Ok [([0; 1], ([], [(0, 1)])); ([2], ([], [])); ([3], ([], []))]));
  beq ((of (fobope) (bloatless_boolf asis))) (fobope);
  same blocks_same ((let* b := of (fobope) (blocks_and_sides asis) in Ok (fst b))) ((Ok [[0]; [1]; [2]; [3]]));
  same blocks_same ((of (fobope) (bundles asis))) ((Ok [[0; 1]; [2]; [3]]));
  same (sameset boc_eqb) ((of (fobope) (bundle_overlap_counts asis))) ((Ok [([0; 1], ([], [(0, 1)])); ([2], ([], [])); ([3], ([], []))]))].
Example boolf_6_test_test_yes : yes boolf_6_test_test.
Proof. unfold boolf_6_test_test. many. Qed.
(* boolf/test/07_examples/test_barita.py *)
Definition test_barita_test : list (res bool) := Eval vm_compute in [
  same nsame ((let* f := barita in Ok (fullspots f))) ((Ok ([0; 1; 2; 3; 4; 5; 6; 7; 8; 10; 12; 14; 16; 17; 24; 32; 33; 40; 48; 49; 56] : list nat)));
  same splits_same ((of (barita) (splits))) ((Ok [([1; 3; 5; 7; 17; 33; 49], [0; 2; 4; 6; 8; 10; 12; 14; 16; 24; 32; 40; 48; 56]); ([2; 3; 6; 7; 10; 14], [0; 1; 4; 5; 8; 12; 16; 17; 24; 32; 33; 40; 48; 49; 56]); ([4; 5; 6; 7; 12; 14], [0; 1; 2; 3; 8; 10; 16; 17; 24; 32; 33; 40; 48; 49; 56]); ([8; 10; 12; 14; 24; 40; 56], [0; 1; 2; 3; 4; 5; 6; 7; 16; 17; 32; 33; 48; 49]); ([16; 17; 24; 48; 49; 56], [0; 1; 2; 3; 4; 5; 6; 7; 8; 10; 12; 14; 32; 33; 40]); ([32; 33; 40; 48; 49; 56], [0; 1; 2; 3; 4; 5; 6; 7; 8; 10; 12; 14; 16; 17; 24])]));
  same (sameset pdnat_eqb) ((of (barita) (splits_overlap_counts))) ((Ok [((0, 1), 4); ((0, 2), 4); ((0, 3), 3); ((0, 4), 4); ((0, 5), 4); ((1, 2), 4); ((1, 3), 4); ((1, 4), 3); ((1, 5), 3); ((2, 3), 4); ((2, 4), 3); ((2, 5), 3); ((3, 4), 4); ((3, 5), 4); ((4, 5), 4)]));
  same (sameset Model_Splits.pair_eqb) ((of (barita) (split_pairs_with_3_overlaps))) ((Ok [(0, 3); (1, 4); (1, 5); (2, 4); (2, 5)]));
  same blocks_same ((of (barita) (bundles asis))) ((Ok [[0; 1; 2; 3; 4; 5]]));
  same (sameset boc_eqb) ((of (barita) (bundle_overlap_counts asis))) ((Ok [([0; 1; 2; 3; 4; 5], ([(0, 3); (1, 4); (1, 5); (2, 4); (2, 5)], [(0, 1); (0, 2); (0, 4); (0, 5); (1, 2); (1, 3); (2, 3); (3, 4); (3, 5); (4, 5)]))]));
  bgp_same (of (barita) (bundle_grid_partitions asis)) [([0; 1; 2; 3; 4; 5], (SetPart (Some [[0; 3]%Z; [1; 2; 4; 5]%Z]) DomN))];
  beq ((of (barita) (gapless_boolf asis))) (barita)].
Example test_barita_test_yes : yes test_barita_test.
Proof. unfold test_barita_test. many. Qed.
(* boolf/test/07_examples/test_barogi_basori.py *)
Definition test_barogi_basori_test_barogi : list (res bool) := Eval vm_compute in [
  beq (barogi) (bfa "1110" [0; 3]);
  same nsame ((let* f := barogi in Ok (fullspots f))) ((Ok ([0; 1; 2] : list nat)));
  same nsame ((of (barogi) (fun f => inflated_fullspots f [0; 1; 2; 3]))) ((Ok ([0; 1; 2; 3; 4; 5; 6; 7; 8; 10; 12; 14] : list nat)))].
Example test_barogi_basori_test_barogi_yes : yes test_barogi_basori_test_barogi.
Proof. unfold test_barogi_basori_test_barogi. many. Qed.
(* boolf/test/07_examples/test_barogi_basori.py *)
Definition test_barogi_basori_test_basori : list (res bool) := Eval vm_compute in [
  beq (basori) (bfa "1110 0010" [0; 3; 4]);
  same nsame ((let* f := basori in Ok (fullspots f))) ((Ok ([0; 1; 2; 6] : list nat)));
  same nsame ((of (basori) (fun f => inflated_fullspots f [0; 1; 2; 3; 4]))) ((Ok ([0; 1; 2; 3; 4; 5; 6; 7; 8; 10; 12; 14; 24; 26; 28; 30] : list nat)))].
Example test_barogi_basori_test_basori_yes : yes test_barogi_basori_test_basori.
Proof. unfold test_barogi_basori_test_basori. many. Qed.
(* boolf/test/07_examples/test_basiga.py *)
Definition test_basiga_test : list (res bool) := Eval vm_compute in [
  same nsame ((let* f := basiga in Ok (fullspots f))) ((Ok ([0; 1; 2; 3; 4; 5; 6; 7; 8; 10; 12; 14; 24; 26; 28; 30; 42; 74; 106; 138; 202] : list nat)));
  same splits_same ((of (basiga) (splits))) ((Ok [([1; 3; 5; 7], [0; 2; 4; 6; 8; 10; 12; 14; 24; 26; 28; 30; 42; 74; 106; 138; 202]); ([2; 3; 6; 7; 10; 14; 26; 30; 42; 74; 106; 138; 202], [0; 1; 4; 5; 8; 12; 24; 28]); ([4; 5; 6; 7; 12; 14; 28; 30], [0; 1; 2; 3; 8; 10; 24; 26; 42; 74; 106; 138; 202]); ([8; 10; 12; 14; 24; 26; 28; 30; 42; 74; 106; 138; 202], [0; 1; 2; 3; 4; 5; 6; 7]); ([24; 26; 28; 30], [0; 1; 2; 3; 4; 5; 6; 7; 8; 10; 12; 14; 42; 74; 106; 138; 202]); ([42; 106], [0; 1; 2; 3; 4; 5; 6; 7; 8; 10; 12; 14; 24; 26; 28; 30; 74; 138; 202]); ([74; 106; 202], [0; 1; 2; 3; 4; 5; 6; 7; 8; 10; 12; 14; 24; 26; 28; 30; 42; 138]); ([138; 202], [0; 1; 2; 3; 4; 5; 6; 7; 8; 10; 12; 14; 24; 26; 28; 30; 42; 74; 106])]));
  same (sameset pdnat_eqb) ((of (basiga) (splits_overlap_counts))) ((Ok [((0, 1), 4); ((0, 2), 4); ((0, 3), 3); ((0, 4), 3); ((0, 5), 3); ((0, 6), 3); ((0, 7), 3); ((1, 2), 4); ((1, 3), 4); ((1, 4), 4); ((1, 5), 3); ((1, 6), 3); ((1, 7), 3); ((2, 3), 4); ((2, 4), 4); ((2, 5), 3); ((2, 6), 3); ((2, 7), 3); ((3, 4), 3); ((3, 5), 3); ((3, 6), 3); ((3, 7), 3); ((4, 5), 3); ((4, 6), 3); ((4, 7), 3); ((5, 6), 4); ((5, 7), 3); ((6, 7), 4)]));
  same (sameset Model_Splits.pair_eqb) ((of (basiga) (split_pairs_with_3_overlaps))) ((Ok [(0, 3); (0, 4); (0, 5); (0, 6); (0, 7); (1, 5); (1, 6); (1, 7); (2, 5); (2, 6); (2, 7); (3, 4); (3, 5); (3, 6); (3, 7); (4, 5); (4, 6); (4, 7); (5, 7)]));
  same blocks_same ((of (basiga) (bundles asis))) ((Ok [[0; 1; 2; 3; 4]; [5; 6; 7]]));
  same (sameset boc_eqb) ((of (basiga) (bundle_overlap_counts asis))) ((Ok [([0; 1; 2; 3; 4], ([(0, 3); (0, 4); (3, 4)], [(0, 1); (0, 2); (1, 2); (1, 3); (1, 4); (2, 3); (2, 4)])); ([5; 6; 7], ([(5, 7)], [(5, 6); (6, 7)]))]));
  bgp_same (of (basiga) (bundle_grid_partitions asis)) [([0; 1; 2; 3; 4], (SetPart (Some [[0; 3; 4]%Z]) DomN)); ([5; 6; 7], (SetPart (Some [[5; 7]%Z]) DomN))];
  beq ((of (basiga) (gapless_boolf asis))) (basiga)].
Example test_basiga_test_yes : yes test_basiga_test.
Proof. unfold test_basiga_test. many. Qed.
(* boolf/test/07_examples/test_dukeli.py *)
Definition test_dukeli_test : list (res bool) := Eval vm_compute in [
  same nsame ((let* f := dukeli in Ok (fullspots f))) ((Ok ([0; 1; 2; 3; 4; 6; 8; 12] : list nat)));
  same splits_same ((of (dukeli) (splits))) ((Ok [([1; 3], [0; 2; 4; 6; 8; 12]); ([2; 3; 6], [0; 1; 4; 8; 12]); ([4; 6; 12], [0; 1; 2; 3; 8]); ([8; 12], [0; 1; 2; 3; 4; 6])]));
  same (sameset pdnat_eqb) ((of (dukeli) (splits_overlap_counts))) ((Ok [((0, 1), 4); ((0, 2), 3); ((0, 3), 3); ((1, 2), 4); ((1, 3), 3); ((2, 3), 4)]));
  same blocks_same ((of (dukeli) (bundles asis))) ((Ok [[0; 1; 2; 3]]));
  beq ((of (dukeli) (gapless_boolf asis))) (dukeli)].
Example test_dukeli_test_yes : yes test_dukeli_test.
Proof. unfold test_dukeli_test. many. Qed.
