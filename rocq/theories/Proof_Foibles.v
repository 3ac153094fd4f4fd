(** Proof_Foibles: foibles of twins, reverses, patrons; consuls under negation, permutation and
    inflation; Walsh spectra. *)

From Coq Require Import List Arith ZArith Bool Lia Permutation Sorted.
From Verif Require Import Model_Base Lib Model_Binary Model_WalshPerm Model_Twin Model_Boolf Model_BoolfMore Model_Ec
  Spec_Bits Spec_SigPerm Spec_WalshPerm Spec_Boolf Spec_Twin Spec_MinRep Proof_Binary Proof_Deflate Proof_Boolf Proof_BoolfTable Proof_Twin Proof_BoolfMake Proof_Noble
  Proof_WalshLinear Proof_BoolfMore Proof_BoolfWalsh Proof_MinRepMale.
Import ListNotations.
Local Open Scope nat_scope.

(** * The transform at the first and at the last place *)

Lemma subm_last n k : k < 2 ^ n -> subm k (2 ^ n - 1) = true.
Proof.
  intro Hk. rewrite subm_land. replace (2 ^ n - 1) with (Nat.ones n) by (rewrite Nat.ones_equiv; lia). rewrite Nat.land_ones, Nat.mod_small by exact Hk. apply Nat.eqb_refl.
Qed.

Lemma anf_last n F : anf n F (2 ^ n - 1) = xor_all (map F (seq 0 (2 ^ n))).
Proof. unfold anf. apply xor_all_ext. intros k Hk. apply in_seq in Hk. rewrite subm_last by lia. reflexivity. Qed.

Lemma anf_first n F : anf n F 0 = F 0.
Proof.
  assert (Hp := pow2_pos n). unfold anf. destruct (2 ^ n) as [|m]; [lia|]. cbn [seq map].
  change (xor_all (subm 0 0 && F 0 :: map (fun k => subm k 0 && F k) (seq 1 m))) with (xorb (subm 0 0 && F 0) (xor_all (map (fun k => subm k 0 && F k) (seq 1 m)))).
  rewrite subm_0, xor_all_zero; [destruct (F 0); reflexivity|]. intros k Hk. apply in_seq in Hk. rewrite subm_land, Nat.land_0_r. rewrite (proj2 (Nat.eqb_neq 0 k)) by lia. reflexivity.
Qed.

(** * Foibles *)

Definition sharp (f : boolf) (n : nat) : bool := xor_all (map (tab f) (seq 0 (2 ^ n))).

Lemma sharp_spec f n : fitting f -> adicity f <= n -> is_sharp f n = Ok (sharp f n).
Proof. apply is_sharp_spec. Qed.

Lemma sharp_ext f g n : (forall j, j < 2 ^ n -> tab f j = tab g j) -> sharp f n = sharp g n.
Proof. intro H. apply xor_all_ext. intros j Hj. apply in_seq in Hj. apply H. lia. Qed.

Lemma twin_foibles f g n : fitting f -> adicity f <= n -> fitting g -> adicity g <= n -> (forall j, j < 2 ^ n -> tab g j = anf n (tab f) j) ->
  is_odd g = is_odd f /\ is_odious g = sharp f n /\ sharp g n = is_odious f.
Proof.
  intros Hf Af Hg Ag T. assert (Hp := pow2_pos n). rewrite !is_odd_tab, (is_odious_tab f n Hf Af), (is_odious_tab g n Hg Ag), !T by lia.
  split; [apply anf_first|]. split; [apply anf_last|]. rewrite <- (anf_involution n (tab f) (2 ^ n - 1)) by lia. rewrite anf_last. apply xor_all_ext. intros j Hj. apply in_seq in Hj. apply T. lia.
Qed.

Lemma rev_place n j : j < 2 ^ n -> forall a, a < n -> Nat.testbit (2 ^ n - 1 - j) a = negb (Nat.testbit j a).
Proof.
  intros Hj a Ha. replace (2 ^ n - 1 - j) with (Nat.lnot j n).
  - apply Nat.lnot_spec_low. exact Ha.
  - destruct (Nat.eq_dec j 0) as [->|H0]; [unfold Nat.lnot; rewrite Nat.lxor_0_l, Nat.ones_equiv; lia|].
    rewrite Nat.lnot_sub_low by (apply Nat.log2_lt_pow2; lia). rewrite Nat.ones_equiv. lia.
Qed.

Lemma rev_perm N : Permutation (seq 0 N) (map (fun j => N - 1 - j) (seq 0 N)).
Proof.
  apply NoDup_Permutation_bis; [apply seq_NoDup | rewrite map_length; lia|]. intros x Hx. apply in_seq in Hx. apply in_map_iff. exists (N - 1 - x). split; [lia|]. apply in_seq. lia.
Qed.

Lemma reverse_foibles f g n : fitting f -> adicity f <= n -> fitting g -> adicity g <= n -> (forall e, sem g e = sem f (fun a => negb (e a))) ->
  is_odd g = is_odious f /\ is_odious g = is_odd f /\ sharp g n = sharp f n.
Proof.
  intros Hf Af Hg Ag S. rewrite !is_odd_spec, (is_odious_spec f Hf), (is_odious_spec g Hg), !S. split; [reflexivity|]. split; [reflexivity|].
  unfold sharp. rewrite (xor_all_perm _ _ (Permutation_map (tab f) (rev_perm (2 ^ n)))), map_map. apply xor_all_ext. intros j Hj. apply in_seq in Hj. unfold tab. rewrite S. apply sem_low with n; [exact Af|].
  intros a Ha. rewrite rev_place by lia. reflexivity.
Qed.

Lemma xor_all_true n : 0 < n -> xor_all (map (fun _ : nat => true) (seq 0 (2 ^ n))) = false.
Proof. intro H. apply (xor_pairs n 0); [exact H | reflexivity]. Qed.

Lemma not_foibles f g n : fitting f -> fitting g -> (forall e, sem g e = negb (sem f e)) ->
  is_odd g = negb (is_odd f) /\ is_odious g = negb (is_odious f) /\ (0 < n -> sharp g n = sharp f n).
Proof.
  intros Hf Hg S. rewrite !is_odd_spec, (is_odious_spec f Hf), (is_odious_spec g Hg), !S. split; [reflexivity|]. split; [reflexivity|]. intro Hn.
  unfold sharp. transitivity (xor_all (map (fun j => xorb (tab f j) true) (seq 0 (2 ^ n)))).
  - apply xor_all_ext. intros j _. unfold tab at 1. rewrite S. fold (tab f j). destruct (tab f j); reflexivity.
  - rewrite xor_all_xorb, xor_all_true by exact Hn. apply xorb_false_r.
Qed.

(** * Patrons *)

Lemma patron_quadrant_spec f n : fitting f -> adicity f <= S n ->
  patron_quadrant f (S n) = Ok (Nat.b2n (is_odd f) + Nat.b2n (xorb (is_odious f) (sharp f (S n))) * 2).
Proof.
  intros Hf Hn. unfold patron_quadrant. destruct (patron_int_spec f (S n) Hf Hn) as (p & E & Hp & O & B). rewrite E. cbn [bind]. rewrite (noble_to_quadrant_spec n p Hp O). f_equal. unfold nquad.
  assert (H2 := pow2_pos n). assert (H2' : 2 ^ S n = 2 ^ n + 2 ^ n) by (cbn; lia). rewrite !B by lia. rewrite anf_1 by lia. rewrite anf_last, is_odd_tab, (is_odious_tab f (S n) Hf Hn). fold (sharp f (S n)).
  replace (xorb (tab f 1) (xorb (tab f 0) (tab f 1))) with (tab f 0) by (destruct (tab f 0), (tab f 1); reflexivity). reflexivity.
Qed.
