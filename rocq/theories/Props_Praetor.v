(** Props_Praetor: property C105, praetors and the rows of the triangle of Zhegalkin permutations. *)

From Coq Require Import List Arith ZArith Bool Lia Permutation Sorted.
From Verif Require Import Model_Base Lib Model_Binary Model_Twin Model_Boolf Model_BoolfMore
  Spec_Bits Spec_SigPerm Spec_Boolf Spec_Twin Proof_Binary Proof_Deflate Proof_Boolf Proof_BoolfTable Proof_WalshLinear Proof_Twin Proof_BoolfMake Proof_Noble Props_Boolf Props_Twin.
Import ListNotations.
Local Open Scope nat_scope.

Lemma pow2_double n : 2 ^ S n = 2 ^ n + 2 ^ n.
Proof. cbn. lia. Qed.
Lemma pow2_halves n : 2 ^ 2 ^ S n = 2 ^ 2 ^ n * 2 ^ 2 ^ n.
Proof. rewrite pow2_double, Nat.pow_add_r. reflexivity. Qed.

(** numbers of tables of arity n + 1 are equal if both halves are equal *)
Lemma same_halves n t u : t < 2 ^ 2 ^ S n -> u < 2 ^ 2 ^ S n ->
  (forall j, j < 2 ^ n -> Nat.testbit t j = Nat.testbit u j) -> (forall j, j < 2 ^ n -> Nat.testbit t (j + 2 ^ n) = Nat.testbit u (j + 2 ^ n)) -> t = u.
Proof.
  intros Ht Hu A B. apply Nat.bits_inj. intro j. destruct (Nat.lt_ge_cases j (2 ^ n)) as [H|H]; [apply A, H|].
  destruct (Nat.lt_ge_cases j (2 ^ S n)) as [H'|H']; [|rewrite (bit_bound_lt t _ Ht j H'), (bit_bound_lt u _ Hu j H'); reflexivity].
  rewrite pow2_double in H'. replace j with (j - 2 ^ n + 2 ^ n) by lia. apply B. lia.
Qed.

Lemma high_half_lt n t : t < 2 ^ 2 ^ S n -> t / 2 ^ 2 ^ n < 2 ^ 2 ^ n.
Proof. intro H. apply Nat.div_lt_upper_bound; [apply Nat.pow_nonzero; lia|]. rewrite <- pow2_halves. exact H. Qed.
Lemma low_half_lt n t : t mod 2 ^ 2 ^ n < 2 ^ 2 ^ n.
Proof. apply Nat.mod_upper_bound, Nat.pow_nonzero. lia. Qed.

Lemma glue_lt n lo hi : lo < 2 ^ 2 ^ n -> hi < 2 ^ 2 ^ n -> lo + 2 ^ 2 ^ n * hi < 2 ^ 2 ^ S n.
Proof. rewrite pow2_halves. intros. nia. Qed.

(** the praetor tells for each place of the lower half whether the last atom makes a difference *)
Theorem C105_praetor : forall n t,
  (t < 2 ^ 2 ^ S n -> exists p, praetor_int t (S n) = Ok p /\ p < 2 ^ 2 ^ n /\
     forall j, j < 2 ^ n -> Nat.testbit p j = xorb (Nat.testbit t j) (Nat.testbit t (j + 2 ^ n))) /\
  (2 ^ 2 ^ S n <= t -> praetor_int t (S n) = Err ArgTooBigError) /\
  praetor_int t 0 = Err ArgTooSmallError.
Proof.
  intros n t. split; [|split; [|reflexivity]].
  - intro Ht. eexists. split; [apply praetor_spec; exact Ht|]. split; [apply Proof_Noble.lxor_lt; [apply low_half_lt | apply high_half_lt, Ht]|].
    intros j Hj. rewrite Nat.lxor_spec, Nat.mod_pow2_bits_low by exact Hj. rewrite (testbit_high_half n t j). reflexivity.
  - intro Ht. unfold praetor_int. change (0 <? S n) with true. cbn [true_except bind]. rewrite (proj2 (Nat.ltb_ge _ _) Ht). reflexivity.
Qed.
Print Assumptions C105_praetor.

(** praetor 0: the functions of smaller arity among those of arity n + 1 *)
Theorem C105_praetor_zero : forall n t f, t < 2 ^ 2 ^ S n -> Boolf_int t (S n) = Ok f -> (praetor_int t (S n) = Ok 0 <-> within n f).
Proof.
  intros n t f Ht E. destruct (Boolf_int_tab t (S n) Ht) as [f' [E' [R [A T]]]]. rewrite E in E'. injection E' as <-. rewrite within_adicity.
  destruct (proj1 (C105_praetor n t) Ht) as [p [Ep [Hp Bp]]]. rewrite Ep. split.
  - intro X. injection X as ->. apply (adicity_le f n R). intros e e' He.
    assert (K : forall e0, sem f e0 = Nat.testbit t (b2n (map e0 (range n)))).
    { intro e0. rewrite (sem_place f (S n) e0 A), T by apply place_lt. unfold range at 1. rewrite seq_S, map_app, b2n_app, map_length, seq_length. fold (range n). cbn [Nat.add map b2n].
      assert (Hl := place_lt e0 n). destruct (e0 n); cbn [Nat.b2n b2n].
      - assert (B := Bp _ Hl). rewrite Nat.bits_0 in B. replace (2 ^ n * (1 + 2 * 0)) with (2 ^ n) by lia. destruct (Nat.testbit t (b2n _)), (Nat.testbit t (b2n _ + 2 ^ n)); cbn in B; congruence.
      - f_equal. lia. }
    rewrite !K. do 2 f_equal. apply map_ext_in. intros a Ha. apply range_In in Ha. apply He, Ha.
  - intro H. f_equal. apply Nat.bits_inj_0. intro j. destruct (Nat.lt_ge_cases j (2 ^ n)) as [Hj|Hj]; [|apply (bit_bound_lt p _ Hp j Hj)].
    rewrite Bp by exact Hj. rewrite <- !T by (rewrite pow2_double; lia). unfold tab.
    rewrite (sem_low f n (Nat.testbit (j + 2 ^ n)) (Nat.testbit j) H); [apply xorb_nilpotent|]. intros a Ha. apply Proof_Numbers.testbit_add_high. exact Ha.
Qed.
Print Assumptions C105_praetor_zero.

(** every number below 2^2^n is the praetor of 2^2^n functions, one for each lower half *)
Theorem C105_praetor_each : forall n p low, p < 2 ^ 2 ^ n -> low < 2 ^ 2 ^ n ->
  exists t, t < 2 ^ 2 ^ S n /\ praetor_int t (S n) = Ok p /\ (forall j, j < 2 ^ n -> Nat.testbit t j = Nat.testbit low j) /\
    forall u, u < 2 ^ 2 ^ S n -> praetor_int u (S n) = Ok p -> (forall j, j < 2 ^ n -> Nat.testbit u j = Nat.testbit low j) -> u = t.
Proof.
  intros n p low Hp Hl. set (t := low + 2 ^ 2 ^ n * Nat.lxor low p). assert (Hx := Proof_Noble.lxor_lt low p (2 ^ n) Hl Hp). assert (Ht : t < 2 ^ 2 ^ S n) by (apply glue_lt; assumption).
  assert (L : forall j, j < 2 ^ n -> Nat.testbit t j = Nat.testbit low j) by (intros j Hj; unfold t; rewrite testbit_glue by exact Hl; rewrite (proj2 (Nat.ltb_lt _ _) Hj); reflexivity).
  assert (H : forall j, j < 2 ^ n -> Nat.testbit t (j + 2 ^ n) = xorb (Nat.testbit low j) (Nat.testbit p j)).
  { intros j Hj. unfold t. rewrite testbit_glue by exact Hl. rewrite (proj2 (Nat.ltb_ge _ _)) by lia. rewrite Nat.add_sub. apply Nat.lxor_spec. }
  exists t. split; [exact Ht|]. split.
  - destruct (proj1 (C105_praetor n t) Ht) as [q [Eq [Hq Bq]]]. rewrite Eq. f_equal. apply Nat.bits_inj. intro j. destruct (Nat.lt_ge_cases j (2 ^ n)) as [Hj|Hj].
    + rewrite Bq, L, H by exact Hj. destruct (Nat.testbit low j), (Nat.testbit p j); reflexivity.
    + rewrite (bit_bound_lt p _ Hp j Hj), (bit_bound_lt q _ Hq j Hj). reflexivity.
  - split; [exact L|]. intros u Hu E Lu. destruct (proj1 (C105_praetor n u) Hu) as [q [Eq [Hq Bq]]]. rewrite E in Eq. injection Eq as <-.
    apply (same_halves n u t Hu Ht); intros j Hj; [rewrite L, Lu by exact Hj; reflexivity|]. rewrite H by exact Hj. rewrite (Bq j Hj), (Lu j Hj). destruct (Nat.testbit low j), (Nat.testbit u (j + 2 ^ n)); reflexivity.
Qed.
Print Assumptions C105_praetor_each.

(** the praetor of an exclusive or is the exclusive or of the praetors *)
Theorem C105_praetor_xor : forall n t u p q, praetor_int t (S n) = Ok p -> praetor_int u (S n) = Ok q -> praetor_int (Nat.lxor t u) (S n) = Ok (Nat.lxor p q).
Proof.
  intros n t u p q Ep Eq.
  assert (Ht : t < 2 ^ 2 ^ S n) by (destruct (Nat.lt_ge_cases t (2 ^ 2 ^ S n)) as [|X]; [assumption|]; rewrite (proj1 (proj2 (C105_praetor n t)) X) in Ep; discriminate Ep).
  assert (Hu : u < 2 ^ 2 ^ S n) by (destruct (Nat.lt_ge_cases u (2 ^ 2 ^ S n)) as [|X]; [assumption|]; rewrite (proj1 (proj2 (C105_praetor n u)) X) in Eq; discriminate Eq).
  destruct (proj1 (C105_praetor n t) Ht) as [p' [E1 [H1 B1]]]. rewrite Ep in E1. injection E1 as <-. destruct (proj1 (C105_praetor n u) Hu) as [q' [E2 [H2 B2]]]. rewrite Eq in E2. injection E2 as <-.
  destruct (proj1 (C105_praetor n (Nat.lxor t u)) (Proof_Noble.lxor_lt _ _ _ Ht Hu)) as [r [E3 [H3 B3]]]. rewrite E3. f_equal. apply Nat.bits_inj. intro j. rewrite Nat.lxor_spec.
  destruct (Nat.lt_ge_cases j (2 ^ n)) as [Hj|Hj]; [|rewrite (bit_bound_lt p _ H1 j Hj), (bit_bound_lt q _ H2 j Hj), (bit_bound_lt r _ H3 j Hj); reflexivity].
  rewrite B1, B2, B3, !Nat.lxor_spec by exact Hj. destruct (Nat.testbit t j), (Nat.testbit u j), (Nat.testbit t (j + 2 ^ n)), (Nat.testbit u (j + 2 ^ n)); reflexivity.
Qed.
Print Assumptions C105_praetor_xor.

(** the praetor of the twin is the twin of the upper half *)
Theorem C105_praetor_twin : forall n t s, twin_int t (S n) = Ok s -> exists p, twin_int (t / 2 ^ 2 ^ n) n = Ok p /\ praetor_int s (S n) = Ok p.
Proof.
  intros n t s E.
  assert (Ht : t < 2 ^ 2 ^ S n) by (destruct (Nat.lt_ge_cases t (2 ^ 2 ^ S n)) as [|X]; [assumption|]; rewrite (C32_int_rejected t (S n) X) in E; discriminate E).
  destruct (twin_int_spec t (S n) Ht) as [s' [E' [Hs Ts]]]. rewrite E in E'. injection E' as <-. destruct (twin_int_spec _ n (high_half_lt n t Ht)) as [p [Ep [Hp Tp]]].
  exists p. split; [exact Ep|]. destruct (proj1 (C105_praetor n s) Hs) as [q [Eq [Hq Bq]]]. rewrite Eq. f_equal. apply Nat.bits_inj. intro j.
  destruct (Nat.lt_ge_cases j (2 ^ n)) as [Hj|Hj]; [|rewrite (bit_bound_lt p _ Hp j Hj), (bit_bound_lt q _ Hq j Hj); reflexivity].
  rewrite Bq, Tp by exact Hj. rewrite !Ts by (rewrite pow2_double; lia). rewrite anf_low, anf_high by exact Hj.
  rewrite (anf_ext n (fun k => Nat.testbit t (k + 2 ^ n)) (Nat.testbit (t / 2 ^ 2 ^ n))) by (intros k _; apply testbit_high_half).
  destruct (anf n (Nat.testbit t) j), (anf n (Nat.testbit (t / 2 ^ 2 ^ n)) j); reflexivity.
Qed.
Print Assumptions C105_praetor_twin.

(** every number below 2^2^n is the praetor of exactly one noble of arity n + 1 *)
Theorem C105_praetor_noble : forall n p, p < 2 ^ 2 ^ n ->
  exists t, t < 2 ^ 2 ^ S n /\ own_twin (S n) t /\ praetor_int t (S n) = Ok p /\
    forall u, u < 2 ^ 2 ^ S n -> own_twin (S n) u -> praetor_int u (S n) = Ok p -> u = t.
Proof.
  intros n p Hp. destruct (C32_int p n Hp) as [i [Ei [Hi [_ Eb]]]]. destruct (proj1 (C33_index n i) Hi) as [t [Et [Ht [O N]]]].
  assert (K : forall u, u < 2 ^ 2 ^ S n -> own_twin (S n) u -> twin_int (u / 2 ^ 2 ^ n) n = praetor_int u (S n)).
  { intros u Hu Ou. destruct (C32_int u (S n) Hu) as [u' [Eu [Hu' [Bu _]]]].
    assert (u' = u).
    { apply Nat.bits_inj. intro j. destruct (Nat.lt_ge_cases j (2 ^ S n)) as [Hj|Hj]; [rewrite Bu by exact Hj; symmetry; apply Ou, Hj|]. rewrite (bit_bound_lt u _ Hu j Hj), (bit_bound_lt u' _ Hu' j Hj). reflexivity. }
    subst u'. destruct (C105_praetor_twin n u u Eu) as [q [E1 E2]]. rewrite E1, E2. reflexivity. }
  assert (D : t / 2 ^ 2 ^ n = i). { destruct (proj1 (C33_noble n t) Ht O false) as [X _]. rewrite (N false) in X. injection X as ->. reflexivity. }
  exists t. split; [exact Ht|]. split; [exact O|]. split; [rewrite <- K, D by assumption; exact Eb|].
  intros u Hu Ou Pu. rewrite <- K in Pu by assumption. destruct (C32_int (u / 2 ^ 2 ^ n) n (high_half_lt n u Hu)) as [v [Ev [Hv [_ Evb]]]]. rewrite Pu in Ev. injection Ev as <-. rewrite Ei in Evb. injection Evb as Y.
  destruct (proj1 (C33_noble n u) Hu Ou false) as [_ Z]. rewrite <- Y, Et in Z. injection Z as ->. reflexivity.
Qed.
Print Assumptions C105_praetor_noble.

(** A197819: each row of the triangle is made from the one before *)
Theorem C105_rows : forall n low high a b, twin_int low n = Ok a -> twin_int high n = Ok b ->
  twin_int (low + 2 ^ 2 ^ n * high) (S n) = Ok (a + 2 ^ 2 ^ n * Nat.lxor a b) /\
  twin_int low (S n) = Ok (a * (2 ^ 2 ^ n + 1)).
Proof.
  intros n low high a b Ea Eb.
  assert (Hl : low < 2 ^ 2 ^ n) by (destruct (Nat.lt_ge_cases low (2 ^ 2 ^ n)) as [|X]; [assumption|]; rewrite (C32_int_rejected low n X) in Ea; discriminate Ea).
  assert (Hh : high < 2 ^ 2 ^ n) by (destruct (Nat.lt_ge_cases high (2 ^ 2 ^ n)) as [|X]; [assumption|]; rewrite (C32_int_rejected high n X) in Eb; discriminate Eb).
  destruct (twin_int_spec low n Hl) as [a' [E1 [Ha Ta]]]. rewrite Ea in E1. injection E1 as <-.
  assert (G : forall h c, h < 2 ^ 2 ^ n -> twin_int h n = Ok c -> twin_int (low + 2 ^ 2 ^ n * h) (S n) = Ok (a + 2 ^ 2 ^ n * Nat.lxor a c)).
  { intros h c Hb Ec. destruct (twin_int_spec h n Hb) as [c' [E2 [Hc Tc]]]. rewrite Ec in E2. injection E2 as <-.
    assert (Hg := glue_lt n low h Hl Hb). destruct (twin_int_spec _ (S n) Hg) as [s [Es [Hs Ts]]]. rewrite Es. f_equal.
    assert (Hx := Proof_Noble.lxor_lt a c (2 ^ n) Ha Hc). apply (same_halves n s _ Hs (glue_lt n a _ Ha Hx)); intros j Hj.
    - rewrite Ts by (rewrite pow2_double; lia). rewrite anf_low by exact Hj. rewrite testbit_glue by exact Ha. rewrite (proj2 (Nat.ltb_lt _ _) Hj), Ta by exact Hj.
      apply anf_ext. intros k Hk. rewrite testbit_glue by exact Hl. rewrite (proj2 (Nat.ltb_lt _ _) Hk). reflexivity.
    - rewrite Ts by (rewrite pow2_double; lia). rewrite anf_high by exact Hj. rewrite testbit_glue by exact Ha. rewrite (proj2 (Nat.ltb_ge _ _)) by lia. rewrite Nat.add_sub, Nat.lxor_spec, Ta, Tc by exact Hj. f_equal; apply anf_ext; intros k Hk; rewrite testbit_glue by exact Hl.
      + rewrite (proj2 (Nat.ltb_lt _ _) Hk). reflexivity.
      + rewrite (proj2 (Nat.ltb_ge _ _)) by lia. rewrite Nat.add_sub. reflexivity. }
  split; [apply G; assumption|]. destruct (C32_int 0 n) as [z [Ez [Hz [Bz _]]]]; [apply Nat.neq_0_lt_0, Nat.pow_nonzero; lia|].
  assert (z = 0).
  { apply Nat.bits_inj_0. intro j. destruct (Nat.lt_ge_cases j (2 ^ n)) as [Hj|Hj]; [|apply (bit_bound_lt z _ Hz j Hj)]. rewrite Bz by exact Hj. unfold moebius.
    apply xor_all_zero. intros k _. apply Nat.bits_0. }
  subst z. assert (X := G 0 0 ltac:(apply Nat.neq_0_lt_0, Nat.pow_nonzero; lia) Ez). rewrite Nat.mul_0_r, Nat.add_0_r, Nat.lxor_0_r in X. rewrite X. f_equal. lia.
Qed.
Print Assumptions C105_rows.

(** the row of arity 2 in the triangle; praetors 0, 9, 8 and 1 of four nobles of arity 3 *)
Example C105_ex : mapM (fun k => twin_int k 2) (range 16) = Ok [0; 15; 10; 5; 12; 3; 6; 9; 8; 7; 2; 13; 4; 11; 14; 1] /\
  twin_int (3 + 2 ^ 2 ^ 1 * 2) 2 = Ok 13 /\ twin_int 3 1 = Ok 1 /\ twin_int 2 1 = Ok 2 /\ 1 + 2 ^ 2 ^ 1 * Nat.lxor 1 2 = 13 /\
  mapM (fun k => praetor_int k 2) (range 16) = Ok [0; 1; 2; 3; 1; 0; 3; 2; 2; 3; 0; 1; 3; 2; 1; 0] /\
  mapM (fun t => praetor_int t 3) [0; 126; 128; 254] = Ok [0; 9; 8; 1] /\ mapM (fun t => twin_int t 3) [0; 126; 128; 254] = Ok [0; 126; 128; 254].
Proof. repeat split; vm_compute; reflexivity. Qed.
