(** Props_Determinant: property C16 (integer_determinant) and what it says about WalshPerm. *)

From Coq Require Import List Arith ZArith Bool Lia.
From Verif Require Import Model_Base Model_Perm Model_WalshPerm Model_Determinant Spec_Bits Spec_WalshPerm Spec_Determinant
  Proof_WalshPerm Proof_WalshOps Proof_WalshMore Proof_ZDet Proof_Determinant Proof_DetMod2.
Import ListNotations.
Open Scope nat_scope.

(** [integer_determinant] returns the determinant of every square integer matrix; in
    particular its assertion never fails and it never divides by zero *)
Theorem C16_determinant : forall n m, square n m -> exists d, integer_determinant m = Ok d /\ is_det n m d.
Proof.
  intros n m H. exists (Zdet (entry m) n). split; [now apply integer_determinant_ok | now apply Zdet_is_det].
Qed.

(** the number is determined by the matrix *)
Theorem C16_unique : forall n m d e, square n m -> integer_determinant m = Ok d -> is_det n m e -> d = e.
Proof.
  intros n m d e H Hd He. rewrite (integer_determinant_ok n m H) in Hd. injection Hd as <-.
  symmetry. now apply Zdet_is_det.
Qed.

(** the determinant is odd exactly if the matrix is invertible modulo two *)
Theorem C16_invertible : forall n m, square n m ->
  exists d, integer_determinant m = Ok d /\ (Z.odd d = true <-> invertible n (bit_entry m)).
Proof.
  intros n m H. destruct (C16_determinant n m H) as (d & E & Hd). exists d. split; [exact E|]. now apply det_odd.
Qed.

(** it is 1 or -1 exactly if the matrix has an integer inverse *)
Theorem C16_unimodular : forall n m, square n m ->
  exists d, integer_determinant m = Ok d /\
    ((d = 1 \/ d = -1)%Z <-> exists b, square n b /\ int_product_is_one n m b).
Proof.
  intros n m H. destruct (C16_determinant n m H) as (d & E & Hd). exists d. split; [exact E|]. now apply unimodular.
Qed.

(** the determinant of a WalshPerm is odd; numpy's inverse of its matrix is an integer matrix
    (lines 15-18 of [inverse]) exactly if the determinant is 1 or -1 *)
Theorem C16_walsh : forall linv w, exact_inverse linv -> is_Walsh linv w ->
  exists d, walsh_determinant w = Ok d /\ Z.odd d = true /\
    ((d = 1 \/ d = -1)%Z <-> exists b, linv (w_matrix w) = Ok (Some b)).
Proof.
  intros linv w Hl Hw. destruct (object_valid linv w Hl Hw) as [f Hv].
  destruct (valid_matrix_binary w f Hv) as [H1 H2].
  assert (Hs : square (w_degree w) (w_matrix w)).
  { destruct H1 as [H0 H1]. split; [exact H0|]. intros row Hr. exact (proj1 (H1 row Hr)). }
  destruct (C16_determinant _ _ Hs) as (d & E & Hd). exists d. split; [exact E|].
  split; [now apply (proj2 (det_odd _ _ _ Hd))|].
  rewrite (unimodular _ _ _ Hd). destruct (Hl _ _ H1 H2) as (o & Eo & Ho). split.
  - intros (b & Hb & Hp). destruct o as [c|]; [now exists c|]. exfalso. exact (Ho b Hb Hp).
  - intros (b & Eb). rewrite Eb in Eo. injection Eo as <-. now exists b.
Qed.

(** the assumption on numpy.linalg.inv made in C15 can be met *)
Theorem C15_inverse_available : exists linv, exact_inverse linv.
Proof. exists adj_inverse. exact adj_inverse_exact. Qed.

(** examples: row exchanges, an early zero, a WalshPerm whose inverse matrix has fractions *)
Example C16_ex_swap : square 3 [[0; 2; 3]; [4; 5; 6]; [7; 8; -9]]%Z /\
  integer_determinant [[0; 2; 3]; [4; 5; 6]; [7; 8; -9]]%Z = Ok 147%Z.
Proof. split; [split; [reflexivity|]; intros row [<-|[<-|[<-|[]]]]; reflexivity | vm_compute; reflexivity]. Qed.

Example C16_ex_zero : integer_determinant [[1; 2; 3; 4]; [2; 4; 6; 8]; [0; 0; 1; 5]; [3; 6; 9; 13]]%Z = Ok 0%Z.
Proof. vm_compute; reflexivity. Qed.

Definition ring4 : list (list Z) := [[0; 1; 1; 1]; [1; 0; 1; 1]; [1; 1; 0; 1]; [1; 1; 1; 0]]%Z.
Example C16_ex_walsh : exists w, WalshPerm None (Some ring4) None false = Ok w /\ w_matrix w = ring4 /\
  walsh_determinant w = Ok (-3)%Z.
Proof.
  destruct (WalshPerm None (Some ring4) None false) as [w|e] eqn:E; [|vm_compute in E; discriminate].
  exists w. split; [reflexivity|]. vm_compute in E. injection E as <-. split; vm_compute; reflexivity.
Qed.

Print Assumptions C16_determinant.
Print Assumptions C16_unique.
Print Assumptions C16_invertible.
Print Assumptions C16_unimodular.
Print Assumptions C16_walsh.
Print Assumptions C15_inverse_available.
