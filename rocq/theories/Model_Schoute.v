(** Model_Schoute: the argument schoute_perm of the class [SigPerm]
    (discretehelpers/sig_perm/a/schoute_to_finite_inverse) and the atom patterns it recognizes
    (a/_atompatterns).  No proofs in this file. *)

From Coq Require Import List Arith ZArith Bool Lia.
From Verif Require Import Model_Base Model_Perm Model_Binary Model_SigPerm Model_WalshPerm Model_Boolf.
Import ListNotations.
Open Scope nat_scope.

(* a/_atompatterns/__init__.py:35-45  atompattern_to_signed_index: [negate] is the first entry
   of the truth table, the only atom must be unique *)
Definition atompattern_to_signed_index (binv : list bool) : res (nat * bool) :=
  let* boolf := Boolf_root binv in                                   (* 40 *)
  let* t := boolf_tt boolf TtDefault in                              (* 41 *)
  let* negate := lget t 0 in
  guard Nat.eqb (length (atomvals boolf)) 1 else AssertErr ;;        (* 43 *)
  let* atomval := lget (atomvals boolf) 0 in                         (* 44 *)
  Ok (atomval, negate).

(* sig_perm/a/schoute_to_finite_inverse/__init__.py:9-35.  The argument is a Perm or a list
   (or tuple) of naturals; the int64 matrix of 0 and 1 is a list of rows of booleans.  The
   columns are filled in turn, the first failing one decides the exception. *)
Inductive schoute_arg := SchoutePerm (p : perm) | SchouteList (l : list nat).

Definition schoute_to_finite_inverse (a : schoute_arg) : res (list Z) :=
  let* p := match a with
            | SchouteList l => Perm (ArgSeq l) (Some (length l))     (* 11-12 *)
            | SchoutePerm p => Ok p
            end in
  if neutral p then Ok []                                            (* 16-17 *)
  else
    let long := plength p in                                         (* 19 *)
    guard is_power_of_two long else ArgValueError ;;                 (* 20 *)
    let short := Nat.log2 long in                                    (* 21, log_floor *)
    let* columns := mapM (fun i => Binv_intval (pget p i) (Some short)) (range long) in  (* 23-26 *)
    mapM (fun i =>                                                   (* 28-33 *)
            let row := map (fun col => nth i col false) columns in
            let* an := atompattern_to_signed_index row in
            Ok (if snd an then tilde (Z.of_nat (fst an)) else Z.of_nat (fst an)))
         (range short).

(* sig_perm/__init__.py:78-82, 99-108  SigPerm(schoute_perm=...), no other argument given *)
Definition SigPerm_schoute (a : schoute_arg) : res sigperm :=
  let* inverse_sequence := schoute_to_finite_inverse a in
  let* matrix := sequence_to_matrix inverse_sequence true in
  let* sequence := matrix_to_sequence matrix in
  sig_of_sequence sequence.
