(** Props_Gray: property C110 (the Gray code as a Walsh permutation). *)

From Coq Require Import List Arith ZArith Bool Lia.
From Verif Require Proof_Linear.
From Verif Require Import Model_Base Lib Model_Perm Model_Binary Model_WalshPerm Model_WalshMore Spec_Bits Spec_Perm Spec_WalshPerm
  Proof_Perm Proof_PermCycles Proof_PermGroup Proof_PermMore Proof_Binary Proof_WalshLinear Proof_WalshPerm Proof_WalshOps
  Proof_WalshMore Props_WalshPerm Props_WalshMore.
Import ListNotations.
Open Scope nat_scope.

(** ** Specification *)

(** 1, 3, 6, 12, 24, ... and 1, 3, 7, 15, 31, ... (the lists have n + 1 elements) *)
Definition gray_columns (n : nat) : list nat := 1 :: map (fun k => 3 * 2 ^ k) (seq 0 n).
Definition ones_columns (n : nat) : list nat := map (fun k => 2 ^ (k + 1) - 1) (seq 0 (n + 1)).

(** ** Proofs *)

Definition gmat (i j : nat) : bool := (i =? j) || (S i =? j).

Lemma mat_vec_gray n x i : i < n -> mat_vec n gmat x i = xorb (x i) ((S i <? n) && x (S i)).
Proof.
  intro Hi. unfold mat_vec. transitivity (xor_all (map (fun j => xorb ((i =? j) && x j) ((S i =? j) && x j)) (seq 0 n))).
  - apply xor_all_ext. intros j _. unfold gmat. destruct (Nat.eqb_spec i j), (Nat.eqb_spec (S i) j); try lia; destruct (x j); reflexivity.
  - rewrite xor_all_xorb, xor_all_single by exact Hi. f_equal. destruct (Nat.ltb_spec (S i) n) as [H|H].
    + apply xor_all_single. exact H.
    + apply xor_all_zero. intros j Hj. apply in_seq in Hj. rewrite (proj2 (Nat.eqb_neq (S i) j)) by lia. reflexivity.
Qed.

Lemma gray_inverse n i j : i < n -> j < n -> mat_mat n gmat Nat.leb i j = (i =? j).
Proof.
  intros Hi Hj. unfold mat_mat. rewrite mat_vec_gray by exact Hi.
  destruct (Nat.eqb_spec i j) as [->|E].
  - rewrite Nat.leb_refl. rewrite (proj2 (Nat.leb_gt (S j) j)) by lia. rewrite andb_false_r. reflexivity.
  - destruct (Nat.leb_spec i j), (Nat.leb_spec (S i) j), (Nat.ltb_spec (S i) n); try lia; reflexivity.
Qed.

Definition gray (n v : nat) : nat := full n gmat v.

Lemma gray_bit n v i : Nat.testbit (gray n v) i = xorb (Nat.testbit v i) ((S i <? n) && Nat.testbit v (S i)).
Proof.
  unfold gray. rewrite full_acts. destruct (Nat.ltb_spec i n) as [H|H]; [apply mat_vec_gray; exact H|].
  rewrite (proj2 (Nat.ltb_ge (S i) n)) by lia. rewrite xorb_false_r. reflexivity.
Qed.

Lemma gray_invertible n : invertible n gmat.
Proof.
  apply (bijective_invertible n gmat (gray n)); [apply full_acts|].
  assert (Hf : forall v, gray n (full n Nat.leb v) = v).
  { intro v. apply (acts_unique n Nat.eqb (fun v => gray n (full n Nat.leb v)) (fun v => v)); [|apply acts_id].
    apply (acts_ext n (mat_mat n gmat Nat.leb)); [apply gray_inverse|]. apply acts_comp; apply full_acts. }
  assert (Hi : injective (gray n)).
  { intros u v E. apply Nat.bits_inj. intro i. assert (Hd : forall k i, n <= i + k -> Nat.testbit u i = Nat.testbit v i).
    { induction k as [|k IH]; intros j Hj; assert (Ej := f_equal (fun x => Nat.testbit x j) E); cbv beta in Ej; rewrite !gray_bit in Ej.
      - rewrite (proj2 (Nat.ltb_ge (S j) n)) in Ej by lia. rewrite !xorb_false_r in Ej. exact Ej.
      - rewrite (IH (S j)) in Ej by lia. destruct (Nat.testbit u j), (Nat.testbit v j), (S j <? n), (Nat.testbit v (S j)); cbn in Ej; congruence. }
    apply (Hd n i). lia. }
  split; [exact Hi|]. intro v. exists (full n Nat.leb v). apply Hf.
Qed.

Lemma leb_inverse n : invertible n Nat.leb /\ forall v, gray n (full n Nat.leb v) = v.
Proof. apply (valid_bij_inverse n gmat Nat.leb (gray n)); [apply gray_invertible | apply full_acts | apply gray_inverse]. Qed.

Lemma testbit_three k i : Nat.testbit (3 * 2 ^ k) i = (i =? k) || (i =? S k).
Proof.
  destruct (Nat.lt_ge_cases i k) as [H|H].
  - rewrite Nat.mul_pow2_bits_low by exact H. symmetry. apply orb_false_intro; apply Nat.eqb_neq; lia.
  - rewrite Nat.mul_pow2_bits_high by exact H. destruct (i - k) as [|[|m]] eqn:E.
    + rewrite (proj2 (Nat.eqb_eq i k)) by lia. reflexivity.
    + rewrite (proj2 (Nat.eqb_eq i (S k))) by lia. rewrite orb_true_r. reflexivity.
    + rewrite (proj2 (Nat.eqb_neq i k)), (proj2 (Nat.eqb_neq i (S k))) by lia. cbn. apply Nat.bits_0.
Qed.

Lemma testbit_ones k i : Nat.testbit (2 ^ k - 1) i = (i <? k).
Proof.
  rewrite Nat.sub_1_r, <- Nat.ones_equiv. destruct (Nat.ltb_spec i k) as [H|H]; [apply Nat.ones_spec_low | apply Nat.ones_spec_high]; exact H.
Qed.

Lemma gray_core n trust : exists w, WalshPerm (Some (gray_columns n)) None None trust = Ok w /\ valid w (gray (n + 1)).
Proof.
  destruct (of_matrix_ok (n + 1) gmat (gray (n + 1)) trust (gray_invertible _) (full_acts _ _)) as [w [E [Hv _]]]. exists w. split; [|exact Hv].
  cbn [WalshPerm]. assert (Hlen : length (gray_columns n) = n + 1) by (unfold gray_columns; cbn [length]; rewrite map_length, seq_length; lia).
  assert (Hn : forall j, j < n + 1 -> nth j (gray_columns n) 0 = match j with 0 => 1 | S k => 3 * 2 ^ k end).
  { intros [|j] Hj; [reflexivity|]. unfold gray_columns. cbn [nth].
    rewrite (nth_indep _ 0 (3 * 2 ^ 0)) by (rewrite map_length, seq_length; lia). rewrite (map_nth (fun k => 3 * 2 ^ k)), seq_nth by lia. reflexivity. }
  rewrite of_vector_eq; rewrite Hlen.
  - rewrite <- E. f_equal. apply mk_ext. intros i j Hi Hj. unfold colbits. rewrite Hn by exact Hj. unfold gmat. destruct j as [|j].
    + change 1 with (2 ^ 0). rewrite testbit_pow. destruct i; reflexivity.
    + rewrite testbit_three. rewrite orb_comm. reflexivity.
  - intros v Hin. apply (In_nth _ _ 0) in Hin as [j [Hj <-]]. rewrite Hlen in Hj. rewrite Hn by exact Hj. destruct j as [|j].
    + change 1 with (2 ^ 0) at 1. apply Nat.pow_lt_mono_r; lia.
    + replace (n + 1) with (n - j - 1 + (j + 2)) by lia. rewrite !Nat.pow_add_r. change (2 ^ 2) with 4. assert (2 ^ (n - j - 1) <> 0) by (apply Nat.pow_nonzero; lia).
      assert (2 ^ j <> 0) by (apply Nat.pow_nonzero; lia). nia.
Qed.

Lemma ones_core n trust : exists w, WalshPerm (Some (ones_columns n)) None None trust = Ok w /\ valid w (full (n + 1) Nat.leb).
Proof.
  destruct (of_matrix_ok (n + 1) Nat.leb (full (n + 1) Nat.leb) trust (proj1 (leb_inverse _)) (full_acts _ _)) as [w [E [Hv _]]]. exists w. split; [|exact Hv].
  cbn [WalshPerm]. assert (Hlen : length (ones_columns n) = n + 1) by (unfold ones_columns; rewrite map_length, seq_length; reflexivity).
  assert (Hn : forall j, j < n + 1 -> nth j (ones_columns n) 0 = 2 ^ (j + 1) - 1).
  { intros j Hj. unfold ones_columns.
    rewrite (nth_indep _ 0 (2 ^ (0 + 1) - 1)) by (rewrite map_length, seq_length; lia). rewrite (map_nth (fun k => 2 ^ (k + 1) - 1)), seq_nth by lia. reflexivity. }
  rewrite of_vector_eq; rewrite Hlen.
  - rewrite <- E. f_equal. apply mk_ext. intros i j Hi Hj. unfold colbits. rewrite Hn, testbit_ones by exact Hj.
    rewrite Nat.add_1_r. reflexivity.
  - intros v Hin. apply (In_nth _ _ 0) in Hin as [j [Hj <-]]. rewrite Hlen in Hj. rewrite Hn by exact Hj.
    assert (2 ^ (j + 1) <= 2 ^ (n + 1)) by (apply Nat.pow_le_mono_r; lia). assert (2 ^ (j + 1) <> 0) by (apply Nat.pow_nonzero; lia). lia.
Qed.

Lemma iter_sum f a b x : iter f (a + b) x = iter f a (iter f b x).
Proof. induction a as [|a IH]; cbn [Nat.add iter]; [reflexivity | rewrite IH; reflexivity]. Qed.

Lemma gray_iter n j v i : Nat.testbit (iter (gray n) (2 ^ j) v) i = xorb (Nat.testbit v i) ((i + 2 ^ j <? n) && Nat.testbit v (i + 2 ^ j)).
Proof.
  revert v i. induction j as [|j IH]; intros v i.
  - cbn [Nat.pow iter]. rewrite Nat.add_1_r. apply gray_bit.
  - replace (2 ^ S j) with (2 ^ j + 2 ^ j) by (cbn [Nat.pow]; lia). rewrite iter_sum, IH, !IH.
    replace (i + (2 ^ j + 2 ^ j)) with (i + 2 ^ j + 2 ^ j) by lia.
    assert (2 ^ j <> 0) by (apply Nat.pow_nonzero; lia).
    destruct (Nat.ltb_spec (i + 2 ^ j) n) as [H1|H1], (Nat.ltb_spec (i + 2 ^ j + 2 ^ j) n) as [H2|H2]; try lia; cbn [andb];
      destruct (Nat.testbit v i), (Nat.testbit v (i + 2 ^ j)), (Nat.testbit v (i + 2 ^ j + 2 ^ j)); reflexivity.
Qed.

Lemma gray_value n v s (g : nat -> nat) : (forall i, Nat.testbit (g v) i = xorb (Nat.testbit v i) ((i + s <? n) && Nat.testbit v (i + s))) -> v < 2 ^ n ->
  g v = Nat.lxor v (v / 2 ^ s).
Proof.
  intros H Hv. apply Nat.bits_inj. intro i. rewrite H, Nat.lxor_spec, Nat.div_pow2_bits. f_equal.
  destruct (Nat.ltb_spec (i + s) n) as [|Hi]; [reflexivity|]. cbn [andb]. symmetry. apply testbit_high.
  apply (Nat.lt_le_trans _ _ _ Hv). apply Nat.pow_le_mono_r; lia.
Qed.

(** * Statements *)

(** the vector 1, 3, 6, 12, ... is accepted and makes the Gray code of every number v of at
    most n + 1 digits: v xor (v // 2) *)
Theorem C110_code n trust : exists w f, WalshPerm (Some (gray_columns n)) None None trust = Ok w /\ is_map w f /\
  forall v, v < 2 ^ (n + 1) -> f v = Nat.lxor v (v / 2).
Proof.
  destruct (gray_core n trust) as [w [E Hv]]. exists w, (gray (n + 1)). split; [exact E|]. split; [apply valid_map; exact Hv|].
  intros v Hl. rewrite (gray_value (n + 1) v 1 (gray (n + 1))); [reflexivity | | exact Hl]. intro i. rewrite Nat.add_1_r at 2. rewrite gray_bit, !Nat.add_1_r. reflexivity.
Qed.

Lemma successor_lxor v : exists t u, S v = 2 ^ t * (2 * u + 1) /\ Nat.lxor v (S v) = 2 ^ (t + 1) - 1.
Proof.
  induction v as [v IH] using lt_wf_ind. assert (D := Nat.div_mod v 2 ltac:(lia)). assert (B := Nat.mod_upper_bound v 2 ltac:(lia)).
  destruct (v mod 2) as [|[|]] eqn:M; [| |lia].
  - exists 0, (v / 2). split; [cbn [Nat.pow]; lia|]. apply Nat.bits_inj. intros [|i].
    + rewrite Nat.lxor_spec. cbn [Nat.add]. rewrite testbit_ones. rewrite !Nat.bit0_odd. rewrite Nat.odd_succ, <- Nat.negb_odd. destruct (Nat.odd v); reflexivity.
    + rewrite Nat.lxor_spec, testbit_ones. cbn [Nat.testbit]. rewrite !Nat.div2_div. replace (S v / 2) with (v / 2); [rewrite xorb_nilpotent; reflexivity|].
      replace (S v) with (1 + v / 2 * 2) by lia. rewrite Nat.div_add by lia. reflexivity.
  - destruct (IH (v / 2)) as [t [u [E1 E2]]]; [lia|]. exists (S t), u. split; [rewrite Nat.pow_succ_r' ; lia|]. apply Nat.bits_inj. intros [|i].
    + rewrite Nat.lxor_spec, testbit_ones, !Nat.bit0_odd. rewrite Nat.odd_succ, <- Nat.negb_odd. destruct (Nat.odd v); reflexivity.
    + rewrite Nat.lxor_spec, testbit_ones. cbn [Nat.testbit]. rewrite !Nat.div2_div. replace (S v / 2) with (S (v / 2)).
      * rewrite <- Nat.lxor_spec, E2, testbit_ones. reflexivity.
      * replace (S v) with (0 + S (v / 2) * 2) by lia. rewrite Nat.div_add by lia. reflexivity.
Qed.

(** the codes of consecutive numbers differ in one digit; its place is the number of factors
    two of the greater number *)
Theorem C110_neighbours n w f v : WalshPerm (Some (gray_columns n)) None None false = Ok w -> is_map w f -> v + 1 < 2 ^ (n + 1) ->
  exists t, Nat.lxor (f v) (f (v + 1)) = 2 ^ t /\ Nat.divide (2 ^ t) (v + 1) /\ ~ Nat.divide (2 ^ (t + 1)) (v + 1).
Proof.
  intros E Hm Hl. destruct (gray_core n false) as [w' [E' Hv]]. rewrite E in E'. injection E' as <-.
  assert (Ef : forall x, f x = gray (n + 1) x) by (intro x; symmetry; apply (valid_is_map w); assumption).
  rewrite (Nat.add_1_r v) in *. destruct (successor_lxor v) as [t [u [E1 E2]]]. exists t. rewrite !Ef, <- (valid_linear w _ Hv), E2.
  assert (Ht : t < n + 1).
  { apply (Nat.pow_lt_mono_r_iff 2); [lia|]. rewrite E1 in Hl. assert (2 ^ t <> 0) by (apply Nat.pow_nonzero; lia). apply (Nat.le_lt_trans _ (2 ^ t * (2 * u + 1))); [nia | exact Hl]. }
  split; [|split].
  - apply Nat.bits_inj. intro i. rewrite gray_bit, !testbit_ones, testbit_pow.
    destruct (Nat.eqb_spec t i), (Nat.ltb_spec i (t + 1)), (Nat.ltb_spec (S i) (n + 1)), (Nat.ltb_spec (S i) (t + 1)); try lia; reflexivity.
  - exists (2 * u + 1). rewrite E1. lia.
  - intros [c Hc]. rewrite E1, Nat.pow_add_r in Hc. change (2 ^ 1) with 2 in Hc. assert (P : 2 ^ t <> 0) by (apply Nat.pow_nonzero; lia).
    assert (Q : 2 ^ t * (2 * u + 1) = 2 ^ t * (2 * c)) by lia. apply Nat.mul_cancel_l in Q; [lia | exact P].
Qed.

(** the inverse has the vector 1, 3, 7, 15, ...; a digit of its result is the parity of the
    digits from its place on *)
Theorem C110_inverse linv n w : exact_inverse linv -> WalshPerm (Some (gray_columns n)) None None false = Ok w ->
  exists i r g, walsh_inverse linv w = Ok i /\ WalshPerm (Some (ones_columns n)) None None false = Ok r /\ walsh_eqb i r = true /\
    is_map i g /\ forall v k, v < 2 ^ (n + 1) -> Nat.testbit (g v) k = xor_all (map (Nat.testbit v) (seq k (n + 1))).
Proof.
  intros Hl E. destruct (gray_core n false) as [w' [E' Hv]]. rewrite E in E'. injection E' as <-.
  destruct (ones_core n false) as [r [Er Vr]]. destruct (inverse_spec linv w _ Hl Hv) as [i [g [Ei [Vi [I1 I2]]]]].
  assert (Eg : forall v, g v = full (n + 1) Nat.leb v) by (intro v; rewrite <- (I2 (full (n + 1) Nat.leb v)); f_equal; symmetry; apply leb_inverse).
  exists i, r, g. split; [exact Ei|]. split; [exact Er|]. split; [apply (valid_eqb i r _ _ Vi Vr); exact Eg|]. split; [apply valid_map; exact Vi|].
  intros v k Hlt. rewrite Eg, full_acts. assert (Hz : forall j, n + 1 <= j -> Nat.testbit v j = false).
  { intros j Hj. apply testbit_high, (Nat.lt_le_trans _ _ _ Hlt), Nat.pow_le_mono_r; lia. }
  set (m := n + 1) in *. destruct (Nat.ltb_spec k m) as [Hk|Hk].
  - unfold mat_vec. replace m with (k + (m - k)) at 1 by lia. rewrite seq_app, map_app, Proof_Linear.xor_all_app. cbn [Nat.add].
    rewrite xor_all_zero.
    2: { intros j Hj. apply in_seq in Hj. rewrite (proj2 (Nat.leb_gt k j)) by lia. reflexivity. }
    replace (seq k m) with (seq k ((m - k) + k)) by (f_equal; lia). rewrite seq_app, map_app, Proof_Linear.xor_all_app.
    rewrite (xor_all_zero (Nat.testbit v) (seq (k + (m - k)) k)).
    2: { intros j Hj. apply in_seq in Hj. apply Hz. lia. }
    rewrite xorb_false_l, xorb_false_r. apply xor_all_ext. intros j Hj. apply in_seq in Hj. rewrite (proj2 (Nat.leb_le k j)) by lia. reflexivity.
  - rewrite (Hz k Hk). symmetry. apply xor_all_zero. intros j Hj. apply in_seq in Hj. apply Hz. lia.
Qed.

(** the power with the exponent 2^j: v xor (v // 2^(2^j)) *)
Theorem C110_power linv n w j : exact_inverse linv -> WalshPerm (Some (gray_columns n)) None None false = Ok w ->
  exists r g, walsh_pow linv w (2 ^ Z.of_nat j) = Ok r /\ is_map r g /\ forall v, v < 2 ^ (n + 1) -> g v = Nat.lxor v (v / 2 ^ 2 ^ j).
Proof.
  intros Hl E. destruct (gray_core n false) as [w' [E' Hv]]. rewrite E in E'. injection E' as <-.
  destruct (pow_spec linv w _ (2 ^ Z.of_nat j) Hl Hv) as [r [g [Er [Vr [Hg _]]]]]. exists r, g. split; [exact Er|]. split; [apply valid_map; exact Vr|].
  intros v Hlt. apply (gray_value (n + 1) v (2 ^ j) g); [|exact Hlt]. intro i. rewrite <- gray_iter, Hg by lia. f_equal. f_equal.
  rewrite Z2Nat.inj_pow by lia. rewrite Nat2Z.id. reflexivity.
Qed.

(** the order is the least power of two that is not less than the number of digits *)
Theorem C110_order n w : WalshPerm (Some (gray_columns n)) None None false = Ok w -> walsh_order w = Ok (2 ^ Nat.log2_up (n + 1)).
Proof.
  intro E. destruct (gray_core n false) as [w' [E' Hv]]. rewrite E in E'. injection E' as <-.
  destruct (order_valid w _ Hv) as [o [Eo [Ho Hk]]]. rewrite Eo. f_equal.
  assert (P : forall j, (forall x, iter (gray (n + 1)) (2 ^ j) x = x) <-> n + 1 <= 2 ^ j).
  { intro j. split; intro H.
    - destruct (Nat.le_gt_cases (n + 1) (2 ^ j)) as [|Hgt]; [assumption|]. exfalso.
      assert (T := f_equal (fun x => Nat.testbit x 0) (H (2 ^ 2 ^ j))). cbv beta in T. rewrite gray_iter, !testbit_pow in T. cbn [Nat.add] in T.
      rewrite Nat.eqb_refl, (proj2 (Nat.ltb_lt _ _) Hgt) in T. destruct (2 ^ j =? 0); discriminate.
    - intro x. apply Nat.bits_inj. intro i. rewrite gray_iter, (proj2 (Nat.ltb_ge _ _)) by lia. apply xorb_false_r. }
  assert (D : exists e, 2 ^ Nat.log2_up (n + 1) = e * o).
  { apply Hk, P. destruct n as [|n]; [cbn; lia|]. apply Nat.log2_up_spec. lia. }
  destruct (pow2_divisor o (Nat.log2_up (n + 1))) as [k [Hle ->]]; [lia | exact D|]. f_equal. apply Nat.le_antisymm; [exact Hle|].
  assert (Q : n + 1 <= 2 ^ k) by (apply P, Hk; exists 1; lia). apply Nat.log2_up_le_pow2; lia.
Qed.

Print Assumptions C110_code.
Print Assumptions C110_neighbours.
Print Assumptions C110_inverse.
Print Assumptions C110_power.
Print Assumptions C110_order.

Example C110_ex : gray_columns 3 = [1; 3; 6; 12] /\ ones_columns 3 = [1; 3; 7; 15] /\
  (let* w := WalshPerm (Some (gray_columns 3)) None None false in walsh_sequence w None None) =
    Ok [0; 1; 3; 2; 6; 7; 5; 4; 12; 13; 15; 14; 10; 11; 9; 8] /\
  (let* w := WalshPerm (Some (gray_columns 3)) None None false in walsh_order w) = Ok 4.
Proof. repeat split; vm_compute; reflexivity. Qed.
