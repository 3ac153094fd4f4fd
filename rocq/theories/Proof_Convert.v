(** Proof_Convert: the signed permutations between two functions of a clan. *)

From Coq Require Import List Arith ZArith Bool Lia Permutation Sorted Factorial.
From Verif Require Import Model_Base Lib Model_Splits Model_Perm Model_Binary Model_SigPerm Model_SetPart Model_Boolf Model_MinRep
  Model_Helpers Model_Ec Model_Misc Spec_Bits Spec_Perm Spec_SigPerm Spec_Boolf Spec_MinRep Spec_Helpers Spec_Ec
  Proof_Binary Proof_Perm Proof_PermMore Proof_PermGroup Proof_Inversions Proof_SigPerm Proof_SigPermOps Proof_SigPermMore
  Proof_Boolf Proof_Deflate Proof_BoolfTable Proof_BoolfApply Proof_BoolfMake Proof_MinRepClass Proof_MinRepMale Proof_Seqs Proof_EcClass Proof_HelpersBits.
From Verif Require Proof_Helpers Proof_MinRepCoset.
Import ListNotations.
Local Open Scope nat_scope.

(** * Numbers of signed permutations *)

Lemma pair_sf m r s p : SigPerm_pair m r = Ok s -> int_to_perm r = Ok p -> swf s /\ forall k, sf s k = lit (pget p k) (Nat.testbit m (pget p k)).
Proof.
  intros Es Ep. destruct (pair_spec m r) as (s' & Es' & Ws & _ & Hp). assert (s' = s) by congruence. subst s'. split; [exact Ws|]. rewrite pair_form in Es.
  destruct (Binv_int_min m) as (v & Ev & Hv & _). rewrite Ev, Ep in Es. cbn [bind] in Es. injection Es as <-.
  destruct (rank_roundtrip r) as (p2 & E2 & H2 & H3 & _). assert (p2 = p) by congruence. subst p2.
  destruct (sig_finish_spec v p (is_Perm_wf p H2) H3) as (_ & Hb & _). intro k. unfold sf. cbn [sg_perm sig_finish]. fold (sig_finish v p). rewrite Hb, (intval_bits v _ Hv). reflexivity.
Qed.

Lemma pair_length n m r s : SigPerm_pair m r = Ok s -> (sg_length s <= n <-> m < 2 ^ n /\ r < fact n).
Proof.
  intro Es. destruct (int_to_perm_spec r) as (p & Ep & W & Np & _). destruct (pair_sf m r s p Es Ep) as [Ws F]. rewrite (length_least s Ws n), <- (int_to_perm_length n r p Ep). destruct (wf_finite_seq p W Np) as (_ & _ & Fx & Mv). split.
  - intro H. assert (Fp : forall k, n <= k -> pget p k = k). { intros k Hk. rewrite <- (atom_lit (pget p k) (Nat.testbit m (pget p k))), <- F, H by exact Hk. apply atom_nat. }
    split.
    + apply bits_lt_pow. intros k Hk. assert (E := H k Hk). rewrite F, Fp in E by exact Hk. apply (f_equal negated) in E. rewrite negated_lit, negated_nat in E. exact E.
    + destruct (Nat.le_gt_cases (plength p) n) as [|G]; [assumption|]. exfalso. apply Mv; [lia|]. apply Fp. lia.
  - intros [Hm Hl] k Hk. rewrite F, Fx by lia. rewrite testbit_high; [reflexivity|]. eapply Nat.lt_le_trans; [exact Hm|]. apply Nat.pow_le_mono_r; lia.
Qed.

Lemma pair_unique n s i j t : swf s -> sg_length s <= n -> sg_pair s = Ok (i, j) -> SigPerm_pair i j = Ok t -> (forall k, sf t k = sf s k) /\ i < 2 ^ n /\ j < fact n.
Proof.
  intros Ws L Hp Ht. destruct (pair_back s Ws) as (i' & j' & t' & Hp' & Ht' & F). assert (X : (i', j') = (i, j)) by congruence. injection X as -> ->. assert (t' = t) by congruence. subst t'.
  split; [exact F|]. apply (pair_length n i j t Ht). destruct (pair_spec i j) as (t2 & E2 & W2 & _). assert (t2 = t) by congruence. subst t2. apply (length_least t W2). intros k Hk. rewrite F. apply (proj1 (length_least s Ws n) L k Hk).
Qed.

Lemma apply_same f s t : reduced f -> swf s -> swf t -> (forall k, sf s k = sf t k) -> apply_sigperm f s = apply_sigperm f t.
Proof.
  intros R Hs Ht H. destruct (apply_sigperm_spec f s R Hs) as (g & Eg & Rg & Sg). destruct (apply_sigperm_spec f t R Ht) as (h & Eh & Rh & Sh). rewrite Eg, Eh. f_equal. apply reduced_unique; [exact Rg | exact Rh|].
  intro e. rewrite Sg, Sh. apply sem_ext. intros a _. rewrite H. reflexivity.
Qed.

Lemma litval_on F e z : litval (fun a => litval e (F a)) z = litval e (on_literals F z).
Proof.
  unfold litval, on_literals. destruct (negated z).
  - rewrite atom_neg, negated_neg. destruct (negated (F (atom z))), (e (atom (F (atom z)))); reflexivity.
  - rewrite xorb_false_r. reflexivity.
Qed.

Lemma apply_mul f s t c g : reduced f -> swf s -> swf t -> sg_mul t s = Ok c -> apply_sigperm f s = Ok g -> apply_sigperm f c = apply_sigperm g t.
Proof.
  intros R Hs Ht Ec Eg. destruct (apply_sigperm_spec f s R Hs) as (g' & Eg' & Rg & Sg). assert (g' = g) by congruence. subst g'.
  destruct (mul_spec t s Ht Hs) as (c' & Ec' & Wc & _ & F). assert (c' = c) by congruence. subst c'.
  destruct (apply_sigperm_spec f c R Wc) as (h & Eh & Rh & Sh). destruct (apply_sigperm_spec g t Rg Ht) as (k & Ek & Rk & Sk). rewrite Eh, Ek. f_equal. apply reduced_unique; [exact Rh | exact Rk|].
  intro e. rewrite Sh, Sk, Sg. apply sem_ext. intros a _. rewrite F, <- litval_on. reflexivity.
Qed.

Lemma apply_inv f g s t : reduced f -> swf s -> sg_inv s = Ok t -> apply_sigperm f s = Ok g -> apply_sigperm g t = Ok f.
Proof.
  intros R Hs Et Eg. destruct (apply_sigperm_spec f s R Hs) as (g' & Eg' & Rg & Sg). assert (g' = g) by congruence. subst g'.
  destruct (inv_spec s Hs) as (t' & Et' & Wt & _ & _ & H1 & H2 & _). assert (t' = t) by congruence. subst t'.
  destruct (apply_sigperm_spec g t Rg Wt) as (h & Eh & Rh & Sh). rewrite Eh. f_equal. apply reduced_unique; [exact Rh | exact R|].
  intro e. rewrite Sh, Sg. apply sem_ext. intros a _. rewrite litval_on, H2. unfold litval. rewrite atom_nat, negated_nat. apply xorb_false_r.
Qed.

Lemma inv_inv s t : swf s -> sg_inv s = Ok t -> exists u, sg_inv t = Ok u /\ swf t /\ swf u /\ sg_length t = sg_length s /\ forall k, sf u k = sf s k.
Proof.
  intros Hs Et. destruct (inv_spec s Hs) as (t' & Et' & Wt & _ & Lt & H1 & H2 & _). assert (t' = t) by congruence. subst t'.
  destruct (inv_spec t Wt) as (u & Eu & Wu & _ & _ & K1 & K2 & _). exists u. split; [exact Eu|]. split; [exact Wt|]. split; [exact Wu|]. split; [exact Lt|].
  assert (G : forall z, on_literals (sf u) (on_literals (sf t) z) = z).
  { assert (N : forall F z, on_literals F (neg z) = neg (on_literals F z)). { intros F z. unfold on_literals. rewrite atom_neg, negated_neg. destruct (negated z); cbn [negb]; [symmetry; apply neg_neg | reflexivity]. }
    assert (Q : forall a, on_literals (sf u) (on_literals (sf t) (Z.of_nat a)) = Z.of_nat a). { intro a. unfold on_literals at 2. rewrite negated_nat, atom_nat. apply K2. }
    intro z. rewrite (literal_split z). destruct (negated z); [rewrite !N, Q; reflexivity | apply Q]. }
  intro k. rewrite <- (G (sf s k)), H2. unfold on_literals. rewrite negated_nat, atom_nat. reflexivity.
Qed.

Lemma code_inj n m r m' r' : r < fact n -> r' < fact n -> m * fact n + r = m' * fact n + r' -> m = m' /\ r = r'.
Proof.
  intros Hr Hr' E. assert (F := lt_O_fact n). assert (X : m = m').
  { apply (f_equal (fun x => x / fact n)) in E. rewrite !Nat.div_add_l in E by lia. rewrite (Nat.div_small r), (Nat.div_small r') in E by assumption. lia. }
  subst m'. split; [reflexivity | lia].
Qed.

(** * Numbers of variations *)

Lemma combinations_count {A} (l : list A) : forall r k, length l = r + k -> fact r * fact k * length (combinations l r) = fact (r + k).
Proof.
  induction l as [|x l IH]; intros r k H.
  - assert (r = 0) by (cbn in H; lia). assert (k = 0) by (cbn in H; lia). subst. reflexivity.
  - destruct r as [|r]; [cbn [combinations length Nat.add]; change (fact 0) with 1; lia|]. cbn [combinations]. rewrite app_length, map_length. cbn [length] in H.
    assert (H1 := IH r k ltac:(lia)). destruct k as [|k].
    + rewrite (combinations_big l (S r)) by lia. cbn [length]. rewrite Nat.add_0_r in *. change (fact 0) with 1 in *. change (fact (S r)) with (S r * fact r). transitivity (S r * (fact r * 1 * length (combinations l r))); [ring | rewrite H1, (Nat.add_0_r (S r)); reflexivity].
    + assert (H2 := IH (S r) k ltac:(lia)). change (fact (S r + S k)) with (S (r + S k) * fact (r + S k)). replace (S r + k) with (r + S k) in H2 by lia.
      change (fact (S r)) with (S r * fact r) in *. change (fact (S k)) with (S k * fact k) in *. set (a := length (combinations l r)) in *. set (b := length (combinations l (S r))) in *.
      set (F := fact (r + S k)) in *. set (x1 := fact r) in *. set (x2 := fact k) in *.
      transitivity (S r * (x1 * (S k * x2) * a) + S k * (S r * x1 * x2 * b)); [ring | rewrite H1, H2; ring].
Qed.

(** * Spread atoms *)

Lemma ascending_floor l : StronglySorted lt l -> forall c, (forall x, In x l -> c <= x) -> forall i, i < length l -> c + i <= nth i l 0.
Proof.
  induction 1 as [|a l H IH Ha]; intros c Hc i Hi; cbn [length] in Hi; [lia|]. destruct i as [|i]; cbn [nth]; [rewrite Nat.add_0_r; apply Hc; left; reflexivity|].
  rewrite Forall_forall in Ha. assert (X := Hc a (or_introl eq_refl)). assert (Y := IH (S c)). rewrite <- Nat.add_succ_comm. apply Y; [|lia]. intros x Hx. specialize (Ha x Hx). lia.
Qed.
Lemma spread_nth g i : fitting g -> i < valency g -> nth i (atomvals g) 0 = i + nth i (spread_vector g) 0.
Proof.
  intros F Hi. unfold spread_vector. rewrite nth_map_range by exact Hi. assert (X := ascending_floor (atomvals g) (proj1 F) 0 (fun _ _ => Nat.le_0_l _) i Hi). lia.
Qed.
