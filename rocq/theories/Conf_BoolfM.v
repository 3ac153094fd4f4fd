(** Checks of the model against the test files of discretehelpers/boolf/methods and boolf/metributes (see Conf_Base).
    Not transcribed: assertions on functions with tables too large for unary numbers (futare, value_fract of tokosi, the tables of 1024 entries). 
    The values are computed when the file is compiled ([Eval vm_compute]), because the conversion of coqchk, which does not use the virtual machine, is too slow for them;
    the kernel sees only the results. *)
From Coq Require Import String List Arith ZArith Bool QArith.
From Verif Require Import Model_Base Model_Binary Model_SigPerm Model_SetPart Model_SetPartComp Model_Splits Model_Perm Model_Boolf Model_Twin Model_Blight Model_BoolfMore Model_Helpers
  Model_MinRep Model_Misc Model_Ec Model_King Model_Segments Model_Str Model_Layers Model_Hyper Model_Pretty Model_SetPartBoolf Conf_Base Conf_Examples.
Import ListNotations.
Local Open Scope string_scope.
Local Open Scope nat_scope.
Local Open Scope list_scope.

(* r == b *)
Definition is (r : res bool) (b : bool) : Prop := r = Ok b.
Definition yes (l : list (res bool)) : Prop := Forall (fun r => r = Ok true) l.
Definition no (l : list (res bool)) : Prop := Forall (fun r => r = Ok false) l.
Ltac many := cbv zeta; unfold yes, no, errs, is; repeat match goal with |- _ /\ _ => split end; repeat apply Forall_cons; try apply Forall_nil; try (vm_compute; reflexivity).
(* the Walsh spectra of a Boolean function, with the number of atoms or without *)
Definition at_ (n : nat) : tt_arg := TtArity n.

Definition savona_fission_walsh_spectra : Prop := Eval vm_compute in (of savona fission_walsh_spectra = Ok [([3; (-1); (-1); (-1); (-3); 1; 1; 1], [2; 2; 2; 2; 0; 0; 0; 0]); ([3; (-1); 1; (-3); (-1); (-1); 1; 1], [2; 2; 0; 0; (-2); (-2); 0; 0]); ([3; (-1); 1; (-3); (-1); (-1); 1; 1], [2; 2; 0; 0; (-2); (-2); 0; 0]); ([1; (-1); 1; (-1); 1; (-1); 1; (-1)], [4; 2; 0; (-2); 0; (-2); 0; (-2)])]%Z).
Example savona_fission_walsh_spectra_holds : savona_fission_walsh_spectra.
Proof. unfold savona_fission_walsh_spectra. many. Qed.
Definition savona_fission_walsh_spectra_abs : Prop := Eval vm_compute in (of savona fission_walsh_spectra_abs = Ok [([3; 1; 1; 1; 3; 1; 1; 1], [2; 2; 2; 2; 0; 0; 0; 0]); ([3; 1; 1; 3; 1; 1; 1; 1], [2; 2; 0; 0; 2; 2; 0; 0]); ([3; 1; 1; 3; 1; 1; 1; 1], [2; 2; 0; 0; 2; 2; 0; 0]); ([1; 1; 1; 1; 1; 1; 1; 1], [4; 2; 0; 2; 0; 2; 0; 2])]%Z).
Example savona_fission_walsh_spectra_abs_holds : savona_fission_walsh_spectra_abs.
Proof. unfold savona_fission_walsh_spectra_abs. many. Qed.
Definition savona_fission_walsh_spectra_layered : Prop := Eval vm_compute in (of savona fission_walsh_spectra_layered = Ok [([[3]; [(-1); (-1); (-3)]; [(-1); 1; 1]; [1]], [[2]; [2; 2; 0]; [2; 0; 0]; [0]]); ([[3]; [(-1); 1; (-1)]; [(-3); (-1); 1]; [1]], [[2]; [2; 0; (-2)]; [0; (-2); 0]; [0]]); ([[3]; [(-1); 1; (-1)]; [(-3); (-1); 1]; [1]], [[2]; [2; 0; (-2)]; [0; (-2); 0]; [0]]); ([[1]; [(-1); 1; 1]; [(-1); (-1); 1]; [(-1)]], [[4]; [2; 0; 0]; [(-2); (-2); 0]; [(-2)]])]%Z).
Example savona_fission_walsh_spectra_layered_holds : savona_fission_walsh_spectra_layered.
Proof. unfold savona_fission_walsh_spectra_layered. many. Qed.
Definition savona_fission_walsh_spectra_layered_abs : Prop := Eval vm_compute in (of savona fission_walsh_spectra_layered_abs = Ok [([[3]; [1; 1; 3]; [1; 1; 1]; [1]], [[2]; [2; 2; 0]; [2; 0; 0]; [0]]); ([[3]; [1; 1; 1]; [3; 1; 1]; [1]], [[2]; [2; 0; 2]; [0; 2; 0]; [0]]); ([[3]; [1; 1; 1]; [3; 1; 1]; [1]], [[2]; [2; 0; 2]; [0; 2; 0]; [0]]); ([[1]; [1; 1; 1]; [1; 1; 1]; [1]], [[4]; [2; 0; 0]; [2; 2; 0]; [2]])]%Z).
Example savona_fission_walsh_spectra_layered_abs_holds : savona_fission_walsh_spectra_layered_abs.
Proof. unfold savona_fission_walsh_spectra_layered_abs. many. Qed.
Definition dakota_fission_walsh_spectra : Prop := Eval vm_compute in (of dakota fission_walsh_spectra = Ok [([5; 1; 1; 1; 3; (-1); (-1); (-1)], [4; 0; 2; 2; 2; (-2); 0; 0]); ([5; 1; 3; (-1); 1; 1; (-1); (-1)], [4; 0; 0; 0; 4; 0; 0; 0]); ([6; 0; 2; 0; 2; 0; (-2); 0], [3; 1; (-1); 1; 3; 1; (-1); 1]); ([7; 1; (-1); 1; 1; (-1); 1; (-1)], [2; 0; 2; 0; 2; 0; 2; 0])]%Z).
Example dakota_fission_walsh_spectra_holds : dakota_fission_walsh_spectra.
Proof. unfold dakota_fission_walsh_spectra. many. Qed.
Definition dakota_fission_walsh_spectra_abs : Prop := Eval vm_compute in (of dakota fission_walsh_spectra_abs = Ok [([5; 1; 1; 1; 3; 1; 1; 1], [4; 0; 2; 2; 2; 2; 0; 0]); ([5; 1; 3; 1; 1; 1; 1; 1], [4; 0; 0; 0; 4; 0; 0; 0]); ([6; 0; 2; 0; 2; 0; 2; 0], [3; 1; 1; 1; 3; 1; 1; 1]); ([7; 1; 1; 1; 1; 1; 1; 1], [2; 0; 2; 0; 2; 0; 2; 0])]%Z).
Example dakota_fission_walsh_spectra_abs_holds : dakota_fission_walsh_spectra_abs.
Proof. unfold dakota_fission_walsh_spectra_abs. many. Qed.
Definition dakota_fission_walsh_spectra_layered : Prop := Eval vm_compute in (of dakota fission_walsh_spectra_layered = Ok [([[5]; [1; 1; 3]; [1; (-1); (-1)]; [(-1)]], [[4]; [0; 2; 2]; [2; (-2); 0]; [0]]); ([[5]; [1; 3; 1]; [(-1); 1; (-1)]; [(-1)]], [[4]; [0; 0; 4]; [0; 0; 0]; [0]]); ([[6]; [0; 2; 2]; [0; 0; (-2)]; [0]], [[3]; [1; (-1); 3]; [1; 1; (-1)]; [1]]); ([[7]; [1; (-1); 1]; [1; (-1); 1]; [(-1)]], [[2]; [0; 2; 2]; [0; 0; 2]; [0]])]%Z).
Example dakota_fission_walsh_spectra_layered_holds : dakota_fission_walsh_spectra_layered.
Proof. unfold dakota_fission_walsh_spectra_layered. many. Qed.
Definition dakota_fission_walsh_spectra_layered_abs : Prop := Eval vm_compute in (of dakota fission_walsh_spectra_layered_abs = Ok [([[5]; [1; 1; 3]; [1; 1; 1]; [1]], [[4]; [0; 2; 2]; [2; 2; 0]; [0]]); ([[5]; [1; 3; 1]; [1; 1; 1]; [1]], [[4]; [0; 0; 4]; [0; 0; 0]; [0]]); ([[6]; [0; 2; 2]; [0; 0; 2]; [0]], [[3]; [1; 1; 3]; [1; 1; 1]; [1]]); ([[7]; [1; 1; 1]; [1; 1; 1]; [1]], [[2]; [0; 2; 2]; [0; 0; 2]; [0]])]%Z).
Example dakota_fission_walsh_spectra_layered_abs_holds : dakota_fission_walsh_spectra_layered_abs.
Proof. unfold dakota_fission_walsh_spectra_layered_abs. many. Qed.
Definition taroka_fission_walsh_spectra_abs : Prop := Eval vm_compute in (of taroka fission_walsh_spectra_abs = Ok [([3; 1; 1; 1], [1; 1; 1; 1]); ([2; 2; 0; 0], [2; 0; 0; 2]); ([2; 2; 0; 0], [2; 0; 0; 2])]%Z).
Example taroka_fission_walsh_spectra_abs_holds : taroka_fission_walsh_spectra_abs.
Proof. unfold taroka_fission_walsh_spectra_abs. many. Qed.
Definition taroka_fission_walsh_spectra_layered_abs : Prop := Eval vm_compute in (of taroka fission_walsh_spectra_layered_abs = Ok [([[3]; [1; 1]; [1]], [[1]; [1; 1]; [1]]); ([[2]; [2; 0]; [0]], [[2]; [0; 0]; [2]]); ([[2]; [2; 0]; [0]], [[2]; [0; 0]; [2]])]%Z).
Example taroka_fission_walsh_spectra_layered_abs_holds : taroka_fission_walsh_spectra_layered_abs.
Proof. unfold taroka_fission_walsh_spectra_layered_abs. many. Qed.
Definition savona_fission_walsh_spectra_zipped : Prop := Eval vm_compute in (of savona fission_walsh_spectra_zipped = Ok [[3; 2; (-1); 2; (-1); 2; (-1); 2; (-3); 0; 1; 0; 1; 0; 1; 0]; [3; (-1); 2; 2; 1; (-3); 0; 0; (-1); (-1); (-2); (-2); 1; 1; 0; 0]; [3; (-1); 1; (-3); 2; 2; 0; 0; (-1); (-1); 1; 1; (-2); (-2); 0; 0]; [1; (-1); 1; (-1); 1; (-1); 1; (-1); 4; 2; 0; (-2); 0; (-2); 0; (-2)]]%Z).
Example savona_fission_walsh_spectra_zipped_holds : savona_fission_walsh_spectra_zipped.
Proof. unfold savona_fission_walsh_spectra_zipped. many. Qed.
Definition savona_fission_walsh_spectra_abs_zipped : Prop := Eval vm_compute in (of savona fission_walsh_spectra_abs_zipped = Ok [[3; 2; 1; 2; 1; 2; 1; 2; 3; 0; 1; 0; 1; 0; 1; 0]; [3; 1; 2; 2; 1; 3; 0; 0; 1; 1; 2; 2; 1; 1; 0; 0]; [3; 1; 1; 3; 2; 2; 0; 0; 1; 1; 1; 1; 2; 2; 0; 0]; [1; 1; 1; 1; 1; 1; 1; 1; 4; 2; 0; 2; 0; 2; 0; 2]]%Z).
Example savona_fission_walsh_spectra_abs_zipped_holds : savona_fission_walsh_spectra_abs_zipped.
Proof. unfold savona_fission_walsh_spectra_abs_zipped. many. Qed.
Definition dakota_fission_walsh_spectra_zipped : Prop := Eval vm_compute in (of dakota fission_walsh_spectra_zipped = Ok [[5; 4; 1; 0; 1; 2; 1; 2; 3; 2; (-1); (-2); (-1); 0; (-1); 0]; [5; 1; 4; 0; 3; (-1); 0; 0; 1; 1; 4; 0; (-1); (-1); 0; 0]; [6; 0; 2; 0; 3; 1; (-1); 1; 2; 0; (-2); 0; 3; 1; (-1); 1]; [7; 1; (-1); 1; 1; (-1); 1; (-1); 2; 0; 2; 0; 2; 0; 2; 0]]%Z).
Example dakota_fission_walsh_spectra_zipped_holds : dakota_fission_walsh_spectra_zipped.
Proof. unfold dakota_fission_walsh_spectra_zipped. many. Qed.
Definition dakota_fission_walsh_spectra_abs_zipped : Prop := Eval vm_compute in (of dakota fission_walsh_spectra_abs_zipped = Ok [[5; 4; 1; 0; 1; 2; 1; 2; 3; 2; 1; 2; 1; 0; 1; 0]; [5; 1; 4; 0; 3; 1; 0; 0; 1; 1; 4; 0; 1; 1; 0; 0]; [6; 0; 2; 0; 3; 1; 1; 1; 2; 0; 2; 0; 3; 1; 1; 1]; [7; 1; 1; 1; 1; 1; 1; 1; 2; 0; 2; 0; 2; 0; 2; 0]]%Z).
Example dakota_fission_walsh_spectra_abs_zipped_holds : dakota_fission_walsh_spectra_abs_zipped.
Proof. unfold dakota_fission_walsh_spectra_abs_zipped. many. Qed.
Definition taroka_fission_walsh_spectra_abs_zipped : Prop := Eval vm_compute in (of taroka fission_walsh_spectra_abs_zipped = Ok [[3; 1; 1; 1; 1; 1; 1; 1]; [2; 2; 2; 0; 0; 0; 0; 2]; [2; 2; 0; 0; 2; 0; 0; 2]]%Z).
Example taroka_fission_walsh_spectra_abs_zipped_holds : taroka_fission_walsh_spectra_abs_zipped.
Proof. unfold taroka_fission_walsh_spectra_abs_zipped. many. Qed.
Definition savona_fissions : Prop := Eval vm_compute in (of savona fissions = Ok [(bv "0000 0111", bv "1000 1000"); (bv "0100 0110", bv "0000 1010"); (bv "0100 0110", bv "0000 1010"); (bv "0100 0000", bv "0110 1010")]).
Example savona_fissions_holds : savona_fissions.
Proof. unfold savona_fissions. many. Qed.
Definition savona_fissions_layered : Prop := Eval vm_compute in (of savona fissions_layered = Ok [([[0]; [0; 0; 0]; [0; 1; 1]; [1]], [[1]; [0; 0; 1]; [0; 0; 0]; [0]]); ([[0]; [1; 0; 0]; [0; 1; 1]; [0]], [[0]; [0; 0; 1]; [0; 0; 1]; [0]]); ([[0]; [1; 0; 0]; [0; 1; 1]; [0]], [[0]; [0; 0; 1]; [0; 0; 1]; [0]]); ([[0]; [1; 0; 0]; [0; 0; 0]; [0]], [[0]; [1; 1; 1]; [0; 0; 1]; [0]])]).
Example savona_fissions_layered_holds : savona_fissions_layered.
Proof. unfold savona_fissions_layered. many. Qed.
Definition dakota_fissions : Prop := Eval vm_compute in (of dakota fissions = Ok [(bv "1111 1000", bv "1101 1000"); (bv "1110 1100", bv "1111 0000"); (bv "1111 1100", bv "1011 0000"); (bv "1111 1011", bv "1100 0000")]).
Example dakota_fissions_holds : dakota_fissions.
Proof. unfold dakota_fissions. many. Qed.
Definition dakota_fissions_layered : Prop := Eval vm_compute in (of dakota fissions_layered = Ok [([[1]; [1; 1; 1]; [1; 0; 0]; [0]], [[1]; [1; 0; 1]; [1; 0; 0]; [0]]); ([[1]; [1; 1; 1]; [0; 1; 0]; [0]], [[1]; [1; 1; 0]; [1; 0; 0]; [0]]); ([[1]; [1; 1; 1]; [1; 1; 0]; [0]], [[1]; [0; 1; 0]; [1; 0; 0]; [0]]); ([[1]; [1; 1; 1]; [1; 0; 1]; [1]], [[1]; [1; 0; 0]; [0; 0; 0]; [0]])]).
Example dakota_fissions_layered_holds : dakota_fissions_layered.
Proof. unfold dakota_fissions_layered. many. Qed.
Definition godogi_cores : Prop := Eval vm_compute in (of godogi (hypersplits_potential_cores asis) = Ok [(1, [mkCore [0] [1; 2] [(3%nat, -1)]%Z [[0; (-1); (-1); (-1)]; [0; (-1); 1; (-1)]; [0; 1; (-1); (-1)]; [0; 1; 1; (-1)]]%Z; mkCore [1] [0; 2; 3] []%Z [[(-1); 0; (-1); (-1)]; [(-1); 0; (-1); 1]; [(-1); 0; 1; (-1)]; [(-1); 0; 1; 1]; [1; 0; (-1); (-1)]; [1; 0; (-1); 1]; [1; 0; 1; (-1)]; [1; 0; 1; 1]]%Z; mkCore [2] [0; 1; 3] []%Z [[(-1); (-1); 0; (-1)]; [(-1); (-1); 0; 1]; [(-1); 1; 0; (-1)]; [(-1); 1; 0; 1]; [1; (-1); 0; (-1)]; [1; (-1); 0; 1]; [1; 1; 0; (-1)]; [1; 1; 0; 1]]%Z; mkCore [3] [1; 2] [(0%nat, -1)]%Z [[(-1); (-1); (-1); 0]; [(-1); (-1); 1; 0]; [(-1); 1; (-1); 0]; [(-1); 1; 1; 0]]%Z]);
  (2, [mkCore [0; 1] [2] [(3%nat, -1)]%Z [[0; 0; (-1); (-1)]; [0; 0; 1; (-1)]]%Z; mkCore [0; 2] [1] [(3%nat, -1)]%Z [[0; (-1); 0; (-1)]; [0; 1; 0; (-1)]]%Z; mkCore [1; 2] [0; 3] []%Z [[(-1); 0; 0; (-1)]; [(-1); 0; 0; 1]; [1; 0; 0; (-1)]; [1; 0; 0; 1]]%Z; mkCore [1; 3] [2] [(0%nat, -1)]%Z [[(-1); 0; (-1); 0]; [(-1); 0; 1; 0]]%Z; mkCore [2; 3] [1] [(0%nat, -1)]%Z [[(-1); (-1); 0; 0]; [(-1); 1; 0; 0]]%Z]);
  (3, [mkCore [1; 2; 3] [] [(0%nat, -1)]%Z [[(-1); 0; 0; 0]]%Z])]).
Example godogi_cores_holds : godogi_cores.
Proof. unfold godogi_cores. many. Qed.
(* U+2212 is the character 8722 *)
Definition tx (s : string) : text := flat_map (fun c => if Nat.eqb c 126 then [8722] else [c]) (lit s).
Definition godogi_cores_pretty : Prop := Eval vm_compute in (of godogi (fun f => hypersplits_potential_cores_pretty asis f None) = Ok [(1, [mkPrettyCore (tx "A") (tx "BC") (tx "D~") [tx "0~~~"; tx "0~+~"; tx "0+~~"; tx "0++~"]; mkPrettyCore (tx "B") (tx "ACD") (tx "") [tx "~0~~"; tx "~0~+"; tx "~0+~"; tx "~0++"; tx "+0~~"; tx "+0~+"; tx "+0+~"; tx "+0++"]; mkPrettyCore (tx "C") (tx "ABD") (tx "") [tx "~~0~"; tx "~~0+"; tx "~+0~"; tx "~+0+"; tx "+~0~"; tx "+~0+"; tx "++0~"; tx "++0+"]; mkPrettyCore (tx "D") (tx "BC") (tx "A~") [tx "~~~0"; tx "~~+0"; tx "~+~0"; tx "~++0"]]);
  (2, [mkPrettyCore (tx "AB") (tx "C") (tx "D~") [tx "00~~"; tx "00+~"]; mkPrettyCore (tx "AC") (tx "B") (tx "D~") [tx "0~0~"; tx "0+0~"]; mkPrettyCore (tx "BC") (tx "AD") (tx "") [tx "~00~"; tx "~00+"; tx "+00~"; tx "+00+"]; mkPrettyCore (tx "BD") (tx "C") (tx "A~") [tx "~0~0"; tx "~0+0"]; mkPrettyCore (tx "CD") (tx "B") (tx "A~") [tx "~~00"; tx "~+00"]]);
  (3, [mkPrettyCore (tx "BCD") (tx "") (tx "A~") [tx "~000"]])]).
Example godogi_cores_pretty_holds : godogi_cores_pretty.
Proof. unfold godogi_cores_pretty. many. Qed.
Definition nosafu_pretty : Prop := Eval vm_compute in (of nosafu (fun f => hypersplits_pretty asis f None) = Ok [(1, [[(tx "~A", [0; 4; 6; 8; 10; 12; 14]); (tx "+A", [1; 3; 5; 7; 9])]; [(tx "~B", [0; 1; 4; 5; 8; 9; 12]); (tx "+B", [3; 6; 7; 10; 14])]; [(tx "~C", [0; 1; 3; 8; 9; 10]); (tx "+C", [4; 5; 6; 7; 12; 14])]; [(tx "~D", [0; 1; 3; 4; 5; 6; 7]); (tx "+D", [8; 9; 10; 12; 14])]]);
  (2, [[(tx "~A ~B", [0; 4; 8; 12]); (tx "+A ~B", [1; 5; 9]); (tx "~A +B", [6; 10; 14]); (tx "+A +B", [3; 7])]; [(tx "~A ~C", [0; 8; 10]); (tx "+A ~C", [1; 3; 9]); (tx "~A +C", [4; 6; 12; 14]); (tx "+A +C", [5; 7])]; [(tx "~A ~D", [0; 4; 6]); (tx "+A ~D", [1; 3; 5; 7]); (tx "~A +D", [8; 10; 12; 14]); (tx "+A +D", [9])]; [(tx "~B ~C", [0; 1; 8; 9]); (tx "+B ~C", [3; 10]); (tx "~B +C", [4; 5; 12]); (tx "+B +C", [6; 7; 14])]; [(tx "~B ~D", [0; 1; 4; 5]); (tx "+B ~D", [3; 6; 7]); (tx "~B +D", [8; 9; 12]); (tx "+B +D", [10; 14])]; [(tx "~C ~D", [0; 1; 3]); (tx "+C ~D", [4; 5; 6; 7]); (tx "~C +D", [8; 9; 10]); (tx "+C +D", [12; 14])]]);
  (3, [[(tx "~A ~B ~C", [0; 8]); (tx "+A ~B ~C", [1; 9]); (tx "~A +B ~C", [10]); (tx "+A +B ~C", [3]); (tx "~A ~B +C", [4; 12]); (tx "+A ~B +C", [5]); (tx "~A +B +C", [6; 14]); (tx "+A +B +C", [7])]; [(tx "~B ~C ~D", [0; 1]); (tx "+B ~C ~D", [3]); (tx "~B +C ~D", [4; 5]); (tx "+B +C ~D", [6; 7]); (tx "~B ~C +D", [8; 9]); (tx "+B ~C +D", [10]); (tx "~B +C +D", [12]); (tx "+B +C +D", [14])]])]).
Example nosafu_pretty_holds : nosafu_pretty.
Proof. unfold nosafu_pretty. many. Qed.

(** * methods *)

Definition acute_sharp : Prop := Eval vm_compute in (yes [of (bf "0000 0011") (fun f => is_acute f 3); of (bf "1100") (fun f => is_acute f 3); of (bf "0001") (fun f => is_sharp f 2)] /\
  no [of (bf "0110") (fun f => is_sharp f 2); of (bf "0001") (fun f => is_sharp f 3)]).
Example acute_sharp_holds : acute_sharp.
Proof. unfold acute_sharp. many. Qed.

Definition pl (l : list nat) := map (@Some nat) l.
Definition kovane_labeled : Prop := Eval vm_compute in (of kovane (fun f => hyperfission_walsh_spectra_labeled f [1; 2]) =
  Ok (inr [(pl [0; 1; 8; 9], [2; 0; -2; 0]%Z); (pl [2; 3; 10; 11], [2; 0; 0; -2]%Z); (pl [4; 5; 12; 13], [2; 0; 0; -2]%Z); (pl [6; 7; 14; 15], [2; 0; 2; 0]%Z)])).
Example kovane_labeled_holds : kovane_labeled.
Proof. unfold kovane_labeled. many. Qed.

Definition patron_200 : Prop := Eval vm_compute in (let g := bf "0100 1100" in
  of g (fun f => patron_int f 3) = Ok 200 /\ of g (fun f => patron_index f 3) = Ok 12 /\ beq (of g (fun f => patron_boolf f 3)) (bf "0001 0011") = Ok true /\
  of g (fun f => patron_royal f 3) = Ok 72 /\ of g (fun f => patron_quadrant f 3) = Ok 2 /\
  of (of g (fun f => patron_boolf f 3)) prefect_walsh_and_oddness = Ok (2, false) /\ of g (fun f => patron_king_index_and_quadrant f 3) = Ok (2, 2) /\
  of g (fun f => patron_int f 4) = Ok 13000 /\ of g (fun f => patron_index f 4) = Ok 50 /\ beq (of g (fun f => patron_boolf f 4)) (bf "0001 0011 0100 1100") = Ok true /\
  of g (fun f => patron_royal f 4) = Ok 13000 /\ of g (fun f => patron_quadrant f 4) = Ok 0 /\
  of (of g (fun f => patron_boolf f 4)) prefect_walsh_and_oddness = Ok (10, false) /\ of g (fun f => patron_king_index_and_quadrant f 4) = Ok (14, 0)).
Example patron_200_holds : patron_200.
Proof. unfold patron_200. many. Qed.
(* test_patron_prefect: the loop of the test, as a function *)
Definition patron_prefect_turn (kz : nat * Z) : res bool :=
  let* key_boolf := bfn (fst kz) 2 in
  let* f := bzhe (snd kz) in
  let* index := patron_index f 3 in
  let* p := lget [0; 4; 6; 2; 5; 1; 3; 7] (if is_odious key_boolf then fst kz - 8 else fst kz) in
  let expected := if is_odious key_boolf then 7 - p else p in
  let* b := patron_boolf f 3 in
  let* wo := prefect_walsh_and_oddness b in
  let* lq := prefect_leader_and_quadrant b in
  Ok (Nat.eqb (quadrant f) (quadrant key_boolf) && Nat.eqb index (fst kz) && Nat.eqb (fst wo) expected && Bool.eqb (snd wo) (is_odd key_boolf) &&
      Nat.eqb (fst lq) (expected / 2) && Nat.eqb (snd lq) (quadrant key_boolf)).
Definition patron_prefect_test : Prop := Eval vm_compute in (yes (map patron_prefect_turn (enumerate [0; 15; 10; 5; 12; 3; 6; 9; 8; 7; 2; 13; 4; 11; 14; 1]%Z))).
Example patron_prefect_test_holds : patron_prefect_test.
Proof. unfold patron_prefect_test. many. Qed.

Definition vumali_bundles_pretty : Prop := Eval vm_compute in (of vumali (fun f => bundles_pretty asis f None) =
  Ok (map (map (fun s => Txt (lit s))) [["A"; "B"; "C"; "D"; "E"]; ["F"; "G"]; ["H"]])).
Example vumali_bundles_pretty_holds : vumali_bundles_pretty.
Proof. unfold vumali_bundles_pretty. many. Qed.
Definition nm (l : list string) := map lit l.
Definition tp (a b : string) := (Txt (lit a), Txt (lit b)).

Definition subset_pairs := [(5, 1); (6, 1); (7, 1); (5, 3); (6, 3); (7, 3); (7, 6); (4, 2); (4, 3)].
Definition in_side (p : nat * nat) := of vumali (fun f => atom_border_in_atom_side f (fst p) (snd p)).
Definition vumali_border : Prop := Eval vm_compute in (yes (map in_side (subset_pairs ++ [(1, 2); (2, 1)])) /\ no (map (fun p => in_side (snd p, fst p)) subset_pairs) /\
  no (map in_side [(0, 3); (3, 0); (2, 5); (5, 2)]) /\ errs NotPairOfAtomKeysError (map in_side [(3, 3); (7, 8)]) /\ errs BordersCrossingError (map in_side [(0, 1); (5, 6)])).
Example vumali_border_holds : vumali_border.
Proof. unfold vumali_border. many. Qed.
Definition in_subset (p : nat * nat) := of vumali (fun f => atom_pair_subset f (fst p) (snd p)).
Definition vumali_subset : Prop := Eval vm_compute in (yes (map in_subset [(4, 3); (7, 6)]) /\ no (map in_subset [(3, 4); (6, 7); (0, 4); (4, 0)])).
Example vumali_subset_holds : vumali_subset.
Proof. unfold vumali_subset. many. Qed.

Definition cmp (m : boolf -> boolf -> res bool) (a b : res boolf) : res bool := let* a := a in let* b := b in m a b.
Definition bitwise_test : Prop := Eval vm_compute in (let a := bf "01" in let b := bf "0011" in let c := bf "0000 1111" in let yay := bf "1" in
  yes [beq (band a b) (bf "0001"); beq (bor a b) (bf "0111"); beq (bxor a b) (bf "0110"); beq (band (band a b) c) (bf "0000 0001"); beq (band (band a b) (bnot c)) (bf "0001 0000");
       beq (bor (bor a b) c) (bf "0111 1111"); beq (bxor (bxor a b) c) (bf "0110 1001"); cmp bitwise_lt (bxor (bxor a b) c) (bor (bor a b) c);
       cmp bitwise_lt (bf "0100") (bf "0110"); cmp bitwise_gt (bf "1110") (bf "0110"); beq (bnot a) (bf "10"); beq (bnot b) (bf "1100"); beq (bnot (bf "0110")) (bf "1001");
       cmp bitwise_le yay yay; cmp bitwise_ge yay yay; beq (bnot yay) (bf "0")] /\
  no [cmp bitwise_lt a b; cmp bitwise_lt yay yay]).
Example bitwise_test_holds : bitwise_test.
Proof. unfold bitwise_test. many. Qed.

Definition tokosi_spots : Prop := Eval vm_compute in (mapM (fun n => of tokosi (fun f => bloatless_spotint asis f n)) [2; 3; 6; 7; 24; 25; 28; 29] = Ok [2; 3; 6; 7; 0; 1; 4; 5] /\
  errs BloatMismatchError (map (fun n => of tokosi (fun f => bloatless_spotint asis f n)) [10; 12; 23; 31]) /\ errs TooBigError [of tokosi (fun f => bloatless_spotint asis f 32)]).
Example tokosi_spots_holds : tokosi_spots.
Proof. unfold tokosi_spots. many. Qed.

Definition consuls (f : res boolf) (l : list nat) := mapM (fun a => let* x := of f (fun g => consul g (TtArity a)) in let* y := of f (fun g => consul_slow g a) in Ok (x, y)) l.
Definition weights (f : res boolf) (l : list nat) := mapM (fun a => of f (fun g => consul_weight g a)) l.

Definition fil (f : res boolf) (l : list nat) := of f (fun g => filtrated_boolf g l).
Definition filtrated_simple : Prop := Eval vm_compute in (let c := band (bfa "01" [1]) (bfa "01" [3]) in let f := bfa "0011 0101" [1; 3; 5] in
  yes [beq c (bfa "0001" [1; 3]); beq (fil c [1]) (bfa "01" [1]); beq (fil c [3]) (bfa "01" [3]);
       beq (fil medusa [1; 2; 3]) (bf "1"); beq (fil medusa [0; 1; 3]) (bfa "1111 1110" [0; 1; 3])] /\
  errs AtomvalsMismatchError [fil f [1; 7]; fil f [0; 1; 2]; fil f [1; 3; 5; 7]]).
Example filtrated_simple_holds : filtrated_simple.
Proof. unfold filtrated_simple. many. Qed.
Definition filtrated_doguva : Prop := Eval vm_compute in (let same av l := beq (fil doguva av) (bfsa l av) in
  yes [same [0; 2; 3; 4; 5; 6; 7] [0; 1; 2; 3; 4; 36; 6; 68; 100; 12; 14; 20; 52]; same [0; 1; 3; 4; 5; 6; 7] [0; 1; 2; 3; 4; 6; 38; 70; 102; 12; 14; 22; 54];
       same [0; 1; 3; 4; 5; 7] [0; 1; 2; 3; 4; 6; 12; 14; 22; 38]; same [0; 2; 3; 6; 7] [0; 1; 2; 3; 4; 6; 12; 20; 28];
       same [0; 1; 2; 3; 6; 7] [0; 1; 2; 3; 4; 5; 6; 58; 8; 10; 42; 12; 14; 26]; same [1; 2; 3; 4; 5; 7] [0; 1; 2; 3; 4; 5; 6; 7; 37; 12; 14; 15; 21]]).
Example filtrated_doguva_holds : filtrated_doguva.
Proof. unfold filtrated_doguva. many. Qed.
Definition vals_is (f : res boolf) (l : list Z) (g : res boolf) : res bool := let* v := of f (fun f => boolf_vals f l) in let* g := g in Ok (bvec_eqb v (root g)).
Definition rootb (f : res boolf) : res boolf := of f root_boolf.
Definition filtrated_barita : Prop := Eval vm_compute in (let f2 := fil barita [0; 2; 3; 5] in let f3 := fil barita [1; 2; 3; 4; 5] in let f4 := fil barita [0; 2; 3; 4; 5] in
  yes [beq (fil barita [0; 1; 2]) (bf "1"); beq f2 (bfa "1111 1010 1100 1000" [0; 2; 3; 5]); beq (rootb f2) putuki;
       beq f3 (bfa "1111 1000 1000 1000" [1; 2; 4; 5]); vals_is (rootb f3) [0; 3; 1; 2]%Z gepofu; vals_is gepofu [0; 2; 3; 1]%Z (rootb f3);
       beq f4 (bfsa [0; 1; 2; 3; 4; 6; 8; 9; 12; 16; 17; 20; 24; 25; 28] [0; 2; 3; 4; 5]); vals_is (rootb f4) [3; 4; 0; 1; 2]%Z miniri; vals_is miniri [2; 3; 4; 0; 1]%Z (rootb f4)]).
Example filtrated_barita_holds : filtrated_barita.
Proof. unfold filtrated_barita. many. Qed.
Definition tinora_pair : Prop := Eval vm_compute in (of tinora (fun f => filtrated_pair f 1 3) = Ok (bv "1101") /\ of tinora (fun f => filtrated_pair f 3 1) = Ok (bv "1011")).
Example tinora_pair_holds : tinora_pair.
Proof. unfold tinora_pair. many. Qed.
Definition medusa_collection : Prop := Eval vm_compute in ((let* c := of medusa (CollectionOfSegments asis) in Ok (number_by_dimension c)) = Ok [13; 22; 12; 2; 0]).
Example medusa_collection_holds : medusa_collection.
Proof. unfold medusa_collection. many. Qed.
Definition hasse_coordinates : Prop := Eval vm_compute in (of (bf "1010 0110") (fun f => hasse_matrix_coordinates f TtDefault) = Ok (5, 6) /\ of (bf "1110 1101") (fun f => hasse_matrix_coordinates f TtDefault) = Ok (7, 13) /\
  of (bf "1") (fun f => hasse_matrix_coordinates f (TtArity 3)) = Ok (15, 15) /\ of (bf "1") (fun f => hasse_matrix_coordinates f (TtArity 4)) = Ok (255, 255)).
Example hasse_coordinates_holds : hasse_coordinates.
Proof. unfold hasse_coordinates. many. Qed.
Definition spots_are (f : res boolf) (av l : list nat) : res bool := let* s := of f (fun g => inflated_fullspots g av) in Ok (nsame s l).
Definition inflated_fullspots_test : Prop := Eval vm_compute in (let g := bfa "0001" [1; 3] in
  (let* g := g in Ok (fullspots g)) = Ok [3] /\ of g (fun f => boolf_tt f TtDefault) = Ok (bv "0000 0000 0011 0011") /\
  yes [beq g (bfa "0000 0000 0011 0011" [0; 1; 2; 3]); spots_are g [0; 1; 2; 3] [10; 11; 14; 15]; beq g (bfa "0000 0011" [0; 1; 3]); spots_are g [0; 1; 3] [6; 7];
       beq g (bfa "0000 0101" [1; 2; 3]); spots_are g [1; 2; 3] [5; 7]; beq g (bfa "0000 0000 0011 0011 0000 0000 0011 0011" [0; 1; 2; 3; 4]);
       spots_are g [0; 1; 2; 3; 4] [10; 11; 14; 15; 26; 27; 30; 31]; beq g (bfa "0000 0101 0000 0101" [1; 2; 3; 4]); spots_are g [1; 2; 3; 4] [5; 7; 13; 15];
       beq g (bfa "0000 0101 0000 0101 0000 0101 0000 0101" [1; 2; 3; 4; 5]); beq g (bfa "0000 0101 0000 0101 0000 0101 0000 0101" [1; 2; 3; 4; 99]);
       spots_are g [1; 2; 3; 4; 5] [5; 7; 13; 15; 21; 23; 29; 31]; spots_are g [1; 2; 3; 4; 99] [5; 7; 13; 15; 21; 23; 29; 31]] /\
  errs ArgMismatchError [of g (fun f => inflated_fullspots f [0; 1; 2])]).
Example inflated_fullspots_test_holds : inflated_fullspots_test.
Proof. unfold inflated_fullspots_test. many. Qed.
Definition noble (f : res boolf) (a : option nat) := of f (fun g => is_noble g a).
Definition is_noble_test : Prop := Eval vm_compute in (yes [noble (bf "0") None; noble (bf "1") None; noble (bzhe 6) None; noble (bzhe 168) None; noble (bzhe 168) (Some 3); noble (bzhe 37150) None] /\ no [noble (bzhe 168) (Some 4)]).
Example is_noble_test_holds : is_noble_test.
Proof. unfold is_noble_test. many. Qed.
Definition leader_test : Prop := Eval vm_compute in (yes (map (fun n => beq (of (bfn n 3) (fun f => leader f (Some 3))) (bfn 70 3)) [70; 71; 184; 185]) /\
  yes (map (fun n => beq (of (bfn n 3) (fun f => leader f (Some 3))) (bfn 30 3)) [30; 31; 224; 225])).
Example leader_test_holds : leader_test.
Proof. unfold leader_test. many. Qed.
Definition noble_quadrant_test : Prop := Eval vm_compute in (map (fun s => of (bf s) (fun f => noble_quadrant f None)) ["0000 0001 0001 0000"; "0111 1110 1110 1111"; "0111 1110 1110 1110"; "0000 0001 0001 0001"] =
  [Ok 0; Ok 3; Ok 1; Ok 2]).
Example noble_quadrant_test_holds : noble_quadrant_test.
Proof. unfold noble_quadrant_test. many. Qed.
Definition str_test : Prop := Eval vm_compute in (let b := bf "0110 1100 0000 0000  0011 0011 1100 1100" in
  of (bf "0110 1100") boolf_str = Ok (lit "Boolf('0110 1100')") /\ of b boolf_str = Ok (lit "Boolf(fullspots=[1, 2, 4, 5, 18, 19, 22, 23, 24, 25, 28, 29], arity=5)") /\
  of (bnot b) boolf_str = Ok (lit "~Boolf(fullspots=[1, 2, 4, 5, 18, 19, 22, 23, 24, 25, 28, 29], arity=5)") /\
  of (bfs [1; 2; 3] 5) boolf_str = Ok (lit "Boolf(fullspots=[1, 2, 3], arity=5)") /\
  of (bfsa [1; 2; 3] [77; 88; 99]) boolf_str = Ok (lit "Boolf('0111 0000', [77, 88, 99])") /\
  of (bfsa [1; 2; 3] [55; 66; 77; 88; 99]) boolf_str = Ok (lit "Boolf(fullspots=[1, 2, 3], atomvals=[55, 66, 77, 88, 99])")).
Example str_test_holds : str_test.
Proof. unfold str_test. many. Qed.
Definition ttof (f : res boolf) (a : tt_arg) := of f (fun g => boolf_tt g a).
Definition tt_test : Prop := Eval vm_compute in (let g := bf "0000 0000 0000 1111" in
  map (ttof g) [TtArity 5; TtAtoms [0; 1; 2; 3; 4]; TtDefault; TtArity 4; TtAtoms [0; 1; 2; 3]; TtAtoms [1; 2; 3]; TtAtoms [2; 3]] =
    map (fun s => Ok (bv s)) ["0000 0000 0000 1111 0000 0000 0000 1111"; "0000 0000 0000 1111 0000 0000 0000 1111"; "0000 0000 0000 1111"; "0000 0000 0000 1111"; "0000 0000 0000 1111"; "0000 0011"; "0001"] /\
  errs ArgTooSmallError [ttof g (TtArity 3); ttof tokosi (TtArity 9)] /\ errs ArgMismatchError [ttof g (TtAtoms [3]); ttof g (TtAtoms [1; 3]); ttof tokosi (TtAtoms [1; 3; 5; 9]); ttof tokosi (TtAtoms [1; 3; 5; 7])] /\
  ttof tokosi (TtAtoms [1; 3; 5; 7; 9]) = Ok (bv "00010010000000000000000010001100") /\
  ttof tokosi (TtAtoms [1; 3; 5; 7; 9; 11]) = Ok (bv "0001001000000000000000001000110000010010000000000000000010001100") /\
  ttof tokosi (TtAtoms [0; 1; 3; 5; 7; 9]) = Ok (bv "0000001100001100000000000000000000000000000000001100000011110000")).
Example tt_test_holds : tt_test.
Proof. unfold tt_test. many. Qed.
Definition tw (f : res boolf) (a : option nat) (g : string) := beq (of f (fun f => boolf_twin f a)) (bf g).
Definition walsh_distances_test : Prop := Eval vm_compute in (of (bf "0100 1101") (fun f => walsh_distances f TtDefault) = Ok [4; 2; 6; 4; 2; 4; 4; 2] /\
  of (bf "0100 1101") (fun f => walsh_distances f (TtArity 4)) = Ok [8; 4; 12; 8; 4; 8; 8; 4; 8; 8; 8; 8; 8; 8; 8; 8]).
Example walsh_distances_test_holds : walsh_distances_test.
Proof. unfold walsh_distances_test. many. Qed.
Definition wsp (f : res boolf) (a : tt_arg) := of f (fun g => walsh_spectrum g a).

(** * metributes *)

Definition tokosi_filtrated_pairs : Prop := Eval vm_compute in (of tokosi filtrated_pairs =
  Ok [((0, 1), bv "1111"); ((0, 2), bv "1111"); ((0, 3), bv "1111"); ((0, 4), bv "1111"); ((1, 2), bv "1111"); ((1, 3), bv "0110"); ((1, 4), bv "0110"); ((2, 3), bv "1111"); ((2, 4), bv "1111"); ((3, 4), bv "1001")]).
Example tokosi_filtrated_pairs_holds : tokosi_filtrated_pairs.
Proof. unfold tokosi_filtrated_pairs. many. Qed.
Definition medusa_weights : Prop := Eval vm_compute in ((let* w := of medusa (fullspots_by_weight asis) in Ok (bw_detailed w, bw_simple w, bw_weights w)) =
  Ok ([(0, [(0, [])]); (1, [(1, [0]); (2, [1]); (4, [2]); (8, [3])]); (2, [(3, [0; 1]); (5, [0; 2]); (6, [1; 2]); (9, [0; 3]); (10, [1; 3]); (12, [2; 3])]); (3, [(7, [0; 1; 2]); (14, [1; 2; 3])])],
      [[0]; [1; 2; 4; 8]; [3; 5; 6; 9; 10; 12]; [7; 14]; []], [0; 1; 2; 3])).
Example medusa_weights_holds : medusa_weights.
Proof. unfold medusa_weights. many. Qed.
Definition logota_weights : Prop := Eval vm_compute in ((let* w := of logota (fullspots_by_weight asis) in Ok (bw_detailed w, bw_simple w, bw_weights w)) =
  Ok ([(1, [(1, [0]); (4, [2])]); (2, [(3, [0; 1]); (5, [0; 2]); (10, [1; 3]); (12, [2; 3])]); (3, [(11, [0; 1; 3]); (14, [1; 2; 3])])],
      [[]; [1; 4]; [3; 5; 10; 12]; [11; 14]; []], [1; 2; 3])).
Example logota_weights_holds : logota_weights.
Proof. unfold logota_weights. many. Qed.
Definition split_is (s : nat * (list nat * list nat)) (l : list split) : res bool := let* x := lget l (fst s) in Ok (nsame (fst x) (fst (snd s)) && nsame (snd x) (snd (snd s))).
Definition malereps_agree (f : res boolf) : res bool :=
  let* f := f in let* rep := family_malerep f in let* c := ec_family f in forallM (fun g => let* r := family_malerep g in Ok (boolf_eqb r rep)) (ec_members c).
Definition malerep_test : Prop := Eval vm_compute in (yes (map malereps_agree [medusa; tabita]) /\ errs ValueErr [of nitako family_malerep; of sopuda family_malerep] /\
  yes (map (fun av => beq (of (bfa "0010" av) family_malerep) (bfa "1000" av)) [[0; 1]; [2; 5]; [88; 99]])).
Example malerep_test_holds : malerep_test.
Proof. unfold malerep_test. many. Qed.
Definition zhe_is (r : res (option boolf)) (n : N) : res bool :=
  let* o := r in match o with Some f => let* z := boolf_zhe f in Ok (N.eqb (N.of_nat z) n) | None => Err ValueErr end.
Definition zhes (m : boolf -> res (option boolf)) (l : list (res boolf * N)) : list (res bool) := map (fun fn => zhe_is (of (fst fn) m) (snd fn)) l.
Definition minreps : Prop := Eval vm_compute in (yes (zhes (clan_minrep asis asis) [(medusa, 32777%N); (farofe, 2209%N); (dukeli, 2290%N); (bavori, 104%N)]) /\
  yes (zhes (clan_minrep_prototype asis asis) [(medusa, 32777%N); (farofe, 2209%N); (dukeli, 2290%N); (bavori, 104%N)]) /\
  yes (zhes faction_minrep [(medusa, 34945%N); (farofe, 2209%N); (dukeli, 2761%N); (faradi, 43775%N)]) /\
  yes (zhes (family_minrep asis asis) [(medusa, 33281%N); (farofe, 8329%N); (dukeli, 11279%N)])).
Example minreps_holds : minreps.
Proof. unfold minreps. many. Qed.
Definition get {A} (m : boolf -> A) (f : res boolf) : res A := let* f := f in Ok (m f).
Definition prefect_test : Prop := Eval vm_compute in (of (bf "1011 0010") prefect_walsh_and_oddness = Ok (5, false) /\ of (bf "0111 0110") prefect_walsh_and_oddness = Ok (7, true)).
Example prefect_test_holds : prefect_test.
Proof. unfold prefect_test. many. Qed.
Definition eqs (l : list ((nat * nat) * bool)) (f : res boolf) : Prop := of f splits_equal = Ok l.
Definition ones (l : list bool) (f : res boolf) : Prop := of f splits_onesided = Ok l.
Definition sierpinski_atoms : Prop := Eval vm_compute in ((let* f := bfa "0000 0001" [1; 2; 3] in Ok (sort_nat (sierpinski_of (atomvals f)))) = Ok [0; 2; 4; 6; 8; 10; 12; 14]).
Example sierpinski_atoms_holds : sierpinski_atoms.
Proof. unfold sierpinski_atoms. many. Qed.
Definition gapless_test : Prop := Eval vm_compute in (yes [beq (of (bf "0111") (gapless_boolf asis)) (bf "0111"); beq (of (bf "0111 1111") (gapless_boolf asis)) (bf "1")]).
Example gapless_test_holds : gapless_test.
Proof. unfold gapless_test. many. Qed.
Definition is_linear_test : Prop := Eval vm_compute in (yes (map (fun f => of f is_linear) [bf "0"; bf "1"; bf "01"; bf "10"; bfa "0110" [123; 456]; bf "1001"; bfa "0101 1010" [123; 456; 789]; bf "1010 0101"; bf "0110 1001 1001 0110"]) /\
  no (map (fun f => of f is_linear) [bf "0100"; bfa "1011" [12; 34]; bf "0011 0101"])).
Example is_linear_test_holds : is_linear_test.
Proof. unfold is_linear_test. many. Qed.
Definition is_root_test : Prop := Eval vm_compute in (yes (map (get is_root) [bf "0"; bf "1"; bf "01"; bf "10"; bf "0001"; bf "0110"; rootb manila]) /\
  no (map (get is_root) [bfa "01" [1]; bfa "10" [123]; bfa "0001" [1; 2]; bfa "0110" [123; 456]; manila])).
Example is_root_test_holds : is_root_test.
Proof. unfold is_root_test. many. Qed.
Definition is_symmetric_test : Prop := Eval vm_compute in (yes (map (fun f => of f is_symmetric) [selera; pelele; nemeke; foravo; bunese]) /\ no (map (fun f => of f is_symmetric) [safoko; kinide])).
Example is_symmetric_test_holds : is_symmetric_test.
Proof. unfold is_symmetric_test. many. Qed.
Definition quadrant_test : Prop := Eval vm_compute in (mapM (get quadrant) [duvola; rudafi; megomi; todeda; levana; seduki; sedofu; rotovo; damela] = Ok [0; 0; 0; 0; 1; 1; 1; 2; 3]).
Example quadrant_test_holds : quadrant_test.
Proof. unfold quadrant_test. many. Qed.
Definition reverse_test : Prop := Eval vm_compute in (let r f := of f reverse in
  yes [beq (r (bf "0")) (bf "0"); beq (r (bf "1")) (bf "1"); beq (r (batom 99)) (bnot (batom 99)); beq (r (bf "0001")) (bf "1000"); beq (r (bfa "0001" [88; 99])) (bfa "1000" [88; 99]);
       beq (r (bfa "0011 0110" [77; 88; 99])) (bfa "0110 1100" [77; 88; 99])]).
Example reverse_test_holds : reverse_test.
Proof. unfold reverse_test. many. Qed.
Definition spots_part (f : res boolf) (blocks : list (list nat)) (d : list nat) : res bool :=
  let* a := of f (symmetric_spots 3 binary_length) in let* b := SetPart (Some (map zl blocks)) (DomSet (zl d)) in sp_eq a b.
Definition zhe_test : Prop := Eval vm_compute in (yes (zhes (fun f => Ok (Some f)) [(medusa, 43009%N); (bunese, 129%N); (kinide, 249%N); (putuki, 33825%N)]) /\
  yes [beq (bzhe 43009) medusa; beq (bzhe 129) bunese; beq (bzhe 249) kinide; beq (bzhe 33825) putuki]).
Example zhe_test_holds : zhe_test.
Proof. unfold zhe_test. many. Qed.
Definition spc_boolf_test : Prop := Eval vm_compute in (let b bl ps := let* s := SetPartComp (Some bl) (Some ps) in spc_boolf asis s in
  yes [beq (b [[10; 20]%Z] []) (bfa "1001" [10; 20]); beq (b [[10; 20]%Z] [(20, 30)%Z]) (bfa "0001 1000" [10; 20; 30])]).
Example spc_boolf_test_holds : spc_boolf_test.
Proof. unfold spc_boolf_test. many. Qed.
(* one spot of each kind; each takes half a minute *)
Definition bitada_spot n := of bitada (fun f => blightless_spotint asis f n).
Definition bitada_spots : Prop := Eval vm_compute in (bitada_spot 26 = Ok 6 /\ errs BloatMismatchError (map bitada_spot [0; 34; 36; 255]) /\ errs TooBigError (map bitada_spot [256; 999]) /\
  errs BlightMismatchError (map bitada_spot [37])).
Example bitada_spots_holds : bitada_spots.
Proof. unfold bitada_spots. many. Qed.

