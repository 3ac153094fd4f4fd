(** Proof_WalshIndex: recognition of Walsh functions by the number of their changes. *)

From Coq Require Import List Arith ZArith Bool Lia Permutation.
From Verif Require Import Model_Base Lib Model_Perm Model_Binary Model_SigPerm Model_WalshPerm Spec_Bits Spec_Perm Spec_WalshPerm
  Proof_Binary Proof_Linear Proof_Perm Proof_PermGroup Proof_SigPerm Proof_WalshLinear Proof_WalshPerm Proof_WalshOps.
Import ListNotations.
Open Scope nat_scope.

(** parity of the lowest [t] bits *)
Definition low (t w : nat) : bool := xor_all (map (Nat.testbit w) (seq 0 t)).

Lemma xor_all_app a b : xor_all (a ++ b) = xorb (xor_all a) (xor_all b).
Proof.
  unfold xor_all. induction a as [|x a IH]; cbn [app fold_right]; [symmetry; apply xorb_false_l|].
  rewrite IH. symmetry. apply xorb_assoc.
Qed.

Lemma low_S t w : low (S t) w = xorb (low t w) (Nat.testbit w t).
Proof. unfold low. rewrite seq_S, map_app, xor_all_app. cbn. rewrite xorb_false_r. reflexivity. Qed.

Lemma dot_S n w i : dot (S n) w i = xorb (dot n w i) (Nat.testbit w n && Nat.testbit i n).
Proof. unfold dot. rewrite seq_S, map_app, xor_all_app. cbn. rewrite xorb_false_r. reflexivity. Qed.

Lemma dot_low n w i : i < 2 ^ n -> dot (S n) w i = dot n w i.
Proof. intro H. rewrite dot_S, (testbit_high i n H), andb_false_r, xorb_false_r. reflexivity. Qed.

Lemma dot_high n w i : i < 2 ^ n -> dot (S n) w (2 ^ n + i) = xorb (dot n w i) (Nat.testbit w n).
Proof.
  intro H. rewrite dot_S. replace (2 ^ n + i) with (i + 2 ^ n * 1) by lia. f_equal.
  - unfold dot. apply xor_all_ext. intros k Hk. apply in_seq in Hk. rewrite testbit_glue by exact H.
    rewrite (proj2 (Nat.ltb_lt k n)) by lia. reflexivity.
  - rewrite testbit_glue by exact H. rewrite Nat.ltb_irrefl, Nat.sub_diag. cbn. apply andb_true_r.
Qed.

Lemma testbit_ones n i : Nat.testbit (2 ^ n - 1) i = (i <? n).
Proof.
  replace (2 ^ n - 1) with (Nat.ones n) by (rewrite Nat.ones_equiv; lia).
  destruct (Nat.ltb_spec i n); [apply Nat.ones_spec_low; assumption | apply Nat.ones_spec_high; assumption].
Qed.

Lemma dot_ones n w : dot n w (2 ^ n - 1) = low n w.
Proof.
  unfold dot, low. apply xor_all_ext. intros i Hi. apply in_seq in Hi. rewrite testbit_ones, (proj2 (Nat.ltb_lt i n)) by lia. apply andb_true_r.
Qed.

Lemma dot_0 n w : dot n w 0 = false.
Proof. unfold dot. apply xor_all_zero. intros i _. rewrite Nat.bits_0. apply andb_false_r. Qed.

Definition cnt (f : nat -> bool) (l : list nat) : nat := length (filter (fun i => xorb (f i) (f (S i))) l).

Lemma cnt_app f a b : cnt f (a ++ b) = cnt f a + cnt f b.
Proof. unfold cnt. rewrite filter_app, app_length. reflexivity. Qed.

Lemma cnt_ext f g l : (forall i, In i l -> xorb (f i) (f (S i)) = xorb (g i) (g (S i))) -> cnt f l = cnt g l.
Proof. intro H. unfold cnt. f_equal. apply filter_ext_in. exact H. Qed.

Lemma cnt_shift f g a k : (forall i, i < k -> xorb (f (a + i)) (f (S (a + i))) = xorb (g i) (g (S i))) ->
  cnt f (seq a k) = cnt g (seq 0 k).
Proof.
  intro H. unfold cnt. replace (seq a k) with (map (fun i => a + i) (seq 0 k)).
  - rewrite <- (map_length (fun i => a + i) (filter (fun i => xorb (g i) (g (S i))) (seq 0 k))). f_equal.
    assert (G : forall l, (forall i, In i l -> i < k) -> filter (fun i => xorb (f i) (f (S i))) (map (fun i => a + i) l)
              = map (fun i => a + i) (filter (fun i => xorb (g i) (g (S i))) l)).
    { induction l as [|i l IH]; intro Hl; [reflexivity|]. cbn [map filter]. rewrite H by (apply Hl; left; reflexivity).
      rewrite IH by (intros; apply Hl; right; assumption). destruct (xorb (g i) (g (S i))); reflexivity. }
    apply G. intros i Hi. apply in_seq in Hi. lia.
  - apply nth_ext with (d := 0) (d' := 0); rewrite map_length, !seq_length; [reflexivity|]. intros n Hn.
    rewrite (nth_indep _ 0 (a + 0)) by (rewrite map_length, seq_length; exact Hn). rewrite (map_nth (fun i => a + i)), !seq_nth by exact Hn. reflexivity.
Qed.

Definition chg (n w : nat) : nat := cnt (dot n w) (seq 0 (2 ^ n - 1)).

Lemma chg_S n w : chg (S n) w = 2 * chg n w + Nat.b2n (low (S n) w).
Proof.
  unfold chg. assert (Hp : 2 ^ n <> 0) by (apply Nat.pow_nonzero; lia).
  replace (2 ^ S n - 1) with ((2 ^ n - 1) + (1 + (2 ^ n - 1))) by (cbn [Nat.pow]; lia).
  rewrite seq_app, seq_app, !cnt_app. cbn [Nat.add]. replace (2 ^ n - 1 + 1) with (2 ^ n) by lia.
  rewrite (cnt_ext (dot (S n) w) (dot n w) (seq 0 (2 ^ n - 1))).
  2: { intros i Hi. apply in_seq in Hi. rewrite !dot_low by lia. reflexivity. }
  rewrite (cnt_shift (dot (S n) w) (dot n w) (2 ^ n) (2 ^ n - 1)).
  2: { intros i Hi. replace (S (2 ^ n + i)) with (2 ^ n + S i) by lia. rewrite !dot_high by lia.
       destruct (dot n w i), (dot n w (S i)), (Nat.testbit w n); reflexivity. }
  unfold cnt at 2. cbn [seq filter]. replace (S (2 ^ n - 1)) with (2 ^ n + 0) by lia. rewrite dot_high, dot_0, dot_low, dot_ones by lia.
  rewrite xorb_false_l, <- low_S. destruct (low (S n) w); cbn [length Nat.b2n]; lia.
Qed.

Lemma testbit_double_b2n a (q : bool) i : Nat.testbit (2 * a + Nat.b2n q) i = match i with 0 => q | S i' => Nat.testbit a i' end.
Proof. destruct i; [apply Nat.testbit_0_r | apply Nat.testbit_succ_r]. Qed.

Lemma testbit_chg n w k : Nat.testbit (chg n w) k = (k <? n) && low (n - k) w.
Proof.
  revert k. induction n as [|n IH]; intro k; [apply Nat.bits_0|]. rewrite chg_S, testbit_double_b2n. destruct k as [|k]; [reflexivity|]. apply IH.
Qed.

Lemma chg_lt n w : chg n w < 2 ^ n.
Proof. apply bits_lt_pow. intros i Hi. rewrite testbit_chg, (proj2 (Nat.ltb_ge i n)) by lia. reflexivity. Qed.

(** the Walsh permutation that turns numbers of changes into indices *)
Definition gray (n : nat) (i j : nat) : bool := xorb (j + i + 1 =? n) (j + i =? n).

Lemma nth_gray n j : j < n -> nth j (gray_vector n) 0 = if j =? 0 then 2 ^ (n - 1) else 3 * 2 ^ (n - j - 1).
Proof.
  intro H. unfold gray_vector. destruct j as [|j]; [reflexivity|]. cbn [nth Nat.eqb]. unfold range2.
  rewrite (nth_indep _ 0 (2 ^ (n - 0 - 1) * 3)) by (rewrite map_length, seq_length; lia).
  rewrite (map_nth (fun i => 2 ^ (n - i - 1) * 3)), seq_nth by lia. replace (1 + j) with (S j) by lia. lia.
Qed.

Lemma testbit_three k i : Nat.testbit (3 * 2 ^ k) i = xorb (i =? k) (i =? S k).
Proof.
  replace (3 * 2 ^ k) with (Nat.lxor (2 ^ k) (2 ^ S k)).
  - rewrite Nat.lxor_spec, !testbit_pow, (Nat.eqb_sym k), (Nat.eqb_sym (S k)). reflexivity.
  - rewrite <- Nat.add_nocarry_lxor.
    + cbn [Nat.pow]. lia.
    + apply Nat.bits_inj. intro j. rewrite Nat.land_spec, !testbit_pow, Nat.bits_0. destruct (Nat.eqb_spec k j); [|reflexivity].
      apply Nat.eqb_neq. lia.
Qed.

Lemma colbits_gray n i j : i < n -> j < n -> colbits (gray_vector n) i j = gray n i j.
Proof.
  intros Hi Hj. unfold colbits, gray. rewrite nth_gray by exact Hj. destruct (Nat.eqb_spec j 0) as [->|Hj0].
  - rewrite testbit_pow. replace (0 + i =? n) with false by (symmetry; apply Nat.eqb_neq; lia). rewrite xorb_false_r.
    destruct (Nat.eqb_spec (n - 1) i), (Nat.eqb_spec (0 + i + 1) n); (reflexivity || lia).
  - rewrite testbit_three. f_equal.
    + destruct (Nat.eqb_spec i (n - j - 1)), (Nat.eqb_spec (j + i + 1) n); (reflexivity || lia).
    + destruct (Nat.eqb_spec i (S (n - j - 1))), (Nat.eqb_spec (j + i) n); (reflexivity || lia).
Qed.

Lemma xor_all_two (f : nat -> bool) n a b : a < n -> b <= n -> a <> b -> (b = n -> f b = false) ->
  xor_all (map (fun j => xorb (a =? j) (b =? j) && f j) (seq 0 n)) = xorb (f a) (f b).
Proof.
  intros Ha Hb Hne Hf. rewrite (xor_all_ext _ (fun j => xorb ((a =? j) && f j) ((b =? j) && f j))).
  2: { intros j _. destruct (a =? j), (b =? j), (f j); reflexivity. }
  rewrite xor_all_xorb, xor_all_single by exact Ha. f_equal. destruct (Nat.eq_dec b n) as [->|Hb'].
  - rewrite Hf by reflexivity. apply xor_all_zero. intros j Hj. apply in_seq in Hj. replace (n =? j) with false by (symmetry; apply Nat.eqb_neq; lia). reflexivity.
  - apply xor_all_single. lia.
Qed.

Lemma gray_vec n x i : i < n -> (i = 0 -> x n = false) -> mat_vec n (gray n) x i = xorb (x (n - 1 - i)) (x (n - i)).
Proof.
  intros Hi Hx. unfold mat_vec. rewrite <- (xor_all_two x n (n - 1 - i) (n - i)) by (try lia; intro H; replace (n - i) with n by lia; apply Hx; lia).
  apply xor_all_ext. intros j Hj. apply in_seq in Hj. unfold gray. f_equal. f_equal.
  - destruct (Nat.eqb_spec (j + i + 1) n), (Nat.eqb_spec (n - 1 - i) j); (reflexivity || lia).
  - destruct (Nat.eqb_spec (j + i) n), (Nat.eqb_spec (n - i) j); (reflexivity || lia).
Qed.

Lemma gray_invertible n : invertible n (gray n).
Proof.
  apply invertible_onto. apply (right_inverse_onto n (gray n) (fun i j => j + i <? n)). intros i j Hi Hj. unfold mat_mat.
  rewrite gray_vec by (try exact Hi; intros; apply Nat.ltb_ge; lia).
  destruct (Nat.ltb_spec (j + (n - 1 - i)) n), (Nat.ltb_spec (j + (n - i)) n), (Nat.eqb_spec i j); (reflexivity || lia).
Qed.

Lemma gray_walsh n : 0 < n -> exists wp f, walsh_of_vector (gray_vector n) false = Ok wp /\ valid wp f /\ acts_as n (gray n) f.
Proof.
  intro Hn. assert (Hl : length (gray_vector n) = n) by (unfold gray_vector, range2; cbn [length]; rewrite map_length, seq_length; lia).
  rewrite of_vector_eq.
  2: { intros v Hv. rewrite Hl. apply (In_nth _ _ 0) in Hv. destruct Hv as [j [Hj <-]]. rewrite Hl in Hj. rewrite nth_gray by exact Hj.
       destruct (Nat.eqb_spec j 0) as [->|Hj0]; [apply pow_lt; lia|]. apply bits_lt_pow. intros i Hi. rewrite testbit_three.
       replace (i =? n - j - 1) with false by (symmetry; apply Nat.eqb_neq; lia).
       replace (i =? S (n - j - 1)) with false by (symmetry; apply Nat.eqb_neq; lia). reflexivity. }
  rewrite Hl, (mk_ext n (colbits (gray_vector n)) (gray n)) by (intros; apply colbits_gray; assumption).
  destruct (of_matrix_ok n (gray n) (full n (gray n)) false (gray_invertible n) (full_acts _ _)) as [w [E [Hw _]]].
  exists w, (full n (gray n)). split; [exact E|]. split; [exact Hw | apply full_acts].
Qed.

Lemma gray_chg n w f : 0 < n -> w < 2 ^ n -> acts_as n (gray n) f -> f (chg n w) = w.
Proof.
  intros Hn Hw Ha. apply Nat.bits_inj. intro i. rewrite Ha. destruct (Nat.ltb_spec i n) as [Hi|Hi].
  - rewrite gray_vec by (try exact Hi; intros; rewrite testbit_chg, Nat.ltb_irrefl; reflexivity).
    rewrite !testbit_chg, (proj2 (Nat.ltb_lt (n - 1 - i) n)) by lia. replace (n - (n - 1 - i)) with (S i) by lia. rewrite low_S. cbn [andb].
    destruct i as [|i].
    + replace (n - 0 <? n) with false by (symmetry; apply Nat.ltb_ge; lia). cbn [andb]. rewrite xorb_false_r. apply xorb_false_l.
    + rewrite (proj2 (Nat.ltb_lt (n - S i) n)) by lia. replace (n - (n - S i)) with (S i) by lia. cbn [andb].
      destruct (low (S i) w), (Nat.testbit w (S i)); reflexivity.
  - rewrite !testbit_high; [reflexivity | apply Nat.lt_le_trans with (2 ^ n); [exact Hw | apply Nat.pow_le_mono_r; lia]|].
    apply Nat.lt_le_trans with (2 ^ n); [apply chg_lt | apply Nat.pow_le_mono_r; lia].
Qed.

Lemma row_changes n w v : walsh_row n w v -> binv_changes v = chg n w.
Proof.
  intros [Hl Hv]. rewrite changes_spec, Hl. unfold chg, cnt. f_equal. apply filter_ext_in. intros i Hi. apply in_seq in Hi.
  rewrite !Hv by lia. reflexivity.
Qed.

Lemma filter_le {A} (f : A -> bool) l : length (filter f l) <= length l.
Proof. induction l as [|x l IH]; cbn; [lia|]. destruct (f x); cbn; lia. Qed.

Lemma changes_lt n v : length v = 2 ^ n -> binv_changes v < 2 ^ n.
Proof.
  intro Hl. rewrite changes_spec, Hl. assert (Hp : 2 ^ n <> 0) by (apply Nat.pow_nonzero; lia).
  assert (H := filter_le (fun i => xorb (nth i v false) (nth (S i) v false)) (seq 0 (2 ^ n - 1))). rewrite seq_length in H. lia.
Qed.

Lemma acts_lt n b f v : acts_as n b f -> v < 2 ^ n -> f v < 2 ^ n.
Proof.
  intros H Hv. apply bits_lt_pow. intros i Hi. rewrite H, (proj2 (Nat.ltb_ge i n)) by lia. apply testbit_high.
  apply Nat.lt_le_trans with (2 ^ n); [exact Hv | apply Nat.pow_le_mono_r; lia].
Qed.

Lemma row_eq n w a b : walsh_row n w a -> walsh_row n w b -> a = b.
Proof.
  intros [La Ha] [Lb Hb]. apply nth_ext with (d := false) (d' := false); [congruence|]. intros i Hi. rewrite Ha, Hb by lia. reflexivity.
Qed.

Lemma index_cases n v : 0 < n -> length v = 2 ^ n ->
  (exists w, w < 2 ^ n /\ walsh_row n w v /\ walsh_function_to_index v false = Ok w) \/
  ((forall w, w < 2 ^ n -> ~ walsh_row n w v) /\ walsh_function_to_index v false = Err NotWalshRowError).
Proof.
  intros Hn Hl. destruct (gray_walsh n Hn) as [wp [f [Ew [Hw Ha]]]].
  assert (Hlt : f (binv_changes v) < 2 ^ n) by (apply (acts_lt n (gray n)); [exact Ha | apply changes_lt; exact Hl]).
  destruct (linear_walsh (f (binv_changes v)) n None Hn Hlt) as [row [Er [Hlr Hr]]].
  assert (Hrow : walsh_row n (f (binv_changes v)) row) by (split; [exact Hlr|]; intros i Hi; rewrite Hr by exact Hi; apply xorb_false_r).
  assert (EQ : walsh_function_to_index v false = guard bvec_eqb v row else NotWalshRowError ;; Ok (f (binv_changes v))).
  { unfold walsh_function_to_index.
    assert (H2 : 2 <= 2 ^ n) by (change 2 with (2 ^ 1) at 1; apply Nat.pow_le_mono_r; lia).
    replace (bvec_eqb v [false]) with false.
    2: { symmetry. apply not_true_iff_false. intro E. apply bvec_eqb_eq in E. rewrite E in Hl. cbn [length] in Hl. lia. }
    unfold is_power_of_two. rewrite Hl, Nat.log2_pow2, Nat.eqb_refl, (proj2 (Nat.ltb_lt 0 (2 ^ n))) by lia. cbn [andb true_except bind].
    rewrite (proj2 (Nat.eqb_neq n 0)) by lia. rewrite Ew. cbn [bind]. rewrite (valid_map wp f Hw). cbn [bind]. rewrite Er. reflexivity. }
  rewrite EQ. destruct (bvec_eqb v row) eqn:E; cbn [true_except bind].
  - apply bvec_eqb_eq in E. rewrite <- E in Hrow. left. exists (f (binv_changes v)).
    split; [exact Hlt|]. split; [exact Hrow | reflexivity].
  - right. split; [|reflexivity]. intros w Hwl Hrw. assert (Ec := row_changes n w v Hrw).
    rewrite Ec, (gray_chg n w f Hn Hwl Ha) in Hrow. rewrite (row_eq n w v row Hrw Hrow) in E.
    assert (bvec_eqb row row = true) by (apply bvec_eqb_eq; reflexivity). congruence.
Qed.

Lemma walsh_row_inj n w w' v : w < 2 ^ n -> w' < 2 ^ n -> walsh_row n w v -> walsh_row n w' v -> w = w'.
Proof. intros H H' [_ Hv] [_ Hv']. apply (dot_inj n); [assumption | assumption|]. intros i Hi. rewrite <- Hv, <- Hv' by exact Hi. reflexivity. Qed.

Lemma index_trusted_row n w v : 0 < n -> w < 2 ^ n -> walsh_row n w v -> walsh_function_to_index v true = Ok w.
Proof.
  intros Hn Hw [Hl Hv]. unfold walsh_function_to_index.
  assert (H2 : 2 <= 2 ^ n) by (change 2 with (2 ^ 1) at 1; apply Nat.pow_le_mono_r; lia).
  replace (bvec_eqb v [false]) with false.
  2: { symmetry. apply not_true_iff_false. intro E. apply bvec_eqb_eq in E. rewrite E in Hl. cbn [length] in Hl. lia. }
  unfold is_power_of_two. rewrite Hl, Nat.log2_pow2, Nat.eqb_refl, (proj2 (Nat.ltb_lt 0 (2 ^ n))) by lia. cbn [andb true_except bind].
  rewrite (mapM_ok _ (Nat.testbit w)).
  - cbn [bind]. rewrite binv_intval_eq. f_equal. apply Nat.bits_inj. intro i. rewrite testbit_b2n. destruct (Nat.lt_ge_cases i n) as [Hi|Hi].
    + apply (nth_map_range (Nat.testbit w)). exact Hi.
    + rewrite nth_overflow by (rewrite map_length, range_length; exact Hi). symmetry. apply testbit_high.
      apply Nat.lt_le_trans with (2 ^ n); [exact Hw | apply Nat.pow_le_mono_r; lia].
  - intros j Hj. apply range_In in Hj. rewrite (lget_ok v (2 ^ j) false) by (rewrite Hl; apply pow_lt; exact Hj).
    f_equal. rewrite Hv by (apply pow_lt; exact Hj). apply dot_pow. exact Hj.
Qed.

(** * The constructor from a permutation, with verification *)

Lemma mapM_first_err {A B} (f : A -> res B) e l : (forall x, In x l -> f x = Err e \/ exists y, f x = Ok y) ->
  (exists x, In x l /\ f x = Err e) -> mapM f l = Err e.
Proof.
  induction l as [|a l IH]; intros H [x [Hx E]]; [destruct Hx|]. cbn [mapM].
  destruct (H a (or_introl eq_refl)) as [Ea | [y Ea]]; rewrite Ea; [reflexivity|]. cbn [bind].
  rewrite IH; [reflexivity | intros; apply H; right; assumption|]. destruct Hx as [->|Hx]; [congruence | exists x; auto].
Qed.

Lemma Forall2_len {A B} (R : A -> B -> Prop) l l' : Forall2 R l l' -> length l = length l'.
Proof. induction 1; cbn [length]; congruence. Qed.

Lemma Forall2_at {A B} (R : A -> B -> Prop) l l' m d d' : Forall2 R l l' -> m < length l -> R (nth m l d) (nth m l' d').
Proof.
  intro H. revert m. induction H as [|x y l l' Hxy _ IH]; intros m Hm; cbn [length] in Hm; [lia|]. destruct m as [|m]; [exact Hxy|].
  cbn [nth]. apply IH. lia.
Qed.

Lemma linear_on_lin k l : (forall i, i < 2 ^ k -> nth i l 0 < 2 ^ k) ->
  (linear_on k l <-> exists b, forall v, v < 2 ^ k -> nth v l 0 = lin k b v).
Proof.
  intro Hb. split.
  - intro H. exists (fun i j => Nat.testbit (nth (2 ^ j) l 0) i). set (b := fun i j => Nat.testbit (nth (2 ^ j) l 0) i).
    set (g := fun v => nth (v mod 2 ^ k) l 0 + 2 ^ k * (v / 2 ^ k)).
    assert (Hp : 2 ^ k <> 0) by (apply Nat.pow_nonzero; lia).
    assert (Hg : forall v, v < 2 ^ k -> g v = nth v l 0) by (intros v Hv; unfold g; rewrite Nat.mod_small, Nat.div_small by exact Hv; lia).
    assert (Hbit : forall v i, Nat.testbit (g v) i = if i <? k then Nat.testbit (nth (v mod 2 ^ k) l 0) i else Nat.testbit v i).
    { intros v i. unfold g. rewrite testbit_glue by (apply Hb, Nat.mod_upper_bound; exact Hp). destruct (Nat.ltb_spec i k); [reflexivity|].
      rewrite <- Nat.shiftr_div_pow2, Nat.shiftr_spec by lia. f_equal. lia. }
    assert (Hmodx : forall u v, Nat.lxor u v mod 2 ^ k = Nat.lxor (u mod 2 ^ k) (v mod 2 ^ k)).
    { intros u v. apply Nat.bits_inj. intro i. rewrite Nat.lxor_spec, !testbit_mod_pow, Nat.lxor_spec. destruct (i <? k), (Nat.testbit u i), (Nat.testbit v i); reflexivity. }
    assert (Hl : linear g).
    { intros u v. apply Nat.bits_inj. intro i. rewrite Nat.lxor_spec, !Hbit, Hmodx, H, !Nat.lxor_spec by (apply Nat.mod_upper_bound; exact Hp).
      destruct (i <? k); reflexivity. }
    assert (Hpg : is_period g (2 ^ k)).
    { intro v. unfold g. replace (v + 2 ^ k) with (v + 1 * 2 ^ k) by lia. rewrite Nat.mod_add, Nat.div_add by exact Hp. lia. }
    assert (Ha := linear_period_acts g k Hl Hpg ltac:(intros v Hv; rewrite Hg by exact Hv; apply Hb; exact Hv)).
    intros v Hv. rewrite <- Hg by exact Hv. apply Nat.bits_inj. intro i. rewrite Ha, testbit_lin. destruct (Nat.ltb_spec i k) as [Hi|Hi]; cbn [andb].
    + apply mat_vec_ext; [|reflexivity]. intros j Hj. unfold ent, b. rewrite Hg by (apply pow_lt; exact Hj). reflexivity.
    + apply testbit_high. apply Nat.lt_le_trans with (2 ^ k); [exact Hv | apply Nat.pow_le_mono_r; lia].
  - intros [b H] i j Hi Hj. rewrite !H by (try assumption; apply lxor_lt; assumption). apply Nat.bits_inj. intro m.
    rewrite Nat.lxor_spec, !testbit_lin. destruct (m <? k); [|reflexivity]. cbn [andb]. rewrite <- mat_vec_xor.
    apply mat_vec_ext; [reflexivity|]. intros t _. apply Nat.lxor_spec.
Qed.

Lemma seq_spec k l : Permutation l (seq 0 (2 ^ k)) ->
  (linear_on k l /\ exists w f, WalshPerm None None (Some (WSeq l)) false = Ok w /\ valid w f /\
     (forall i, i < 2 ^ k -> f i = nth i l 0) /\ is_period f (2 ^ k)) \/
  (~ linear_on k l /\ WalshPerm None None (Some (WSeq l)) false = Err InvalidPermError).
Proof.
  intro Hperm. assert (Hlen : length l = 2 ^ k) by (rewrite (Permutation_length Hperm), seq_length; reflexivity).
  assert (Hb : forall i, i < 2 ^ k -> nth i l 0 < 2 ^ k).
  { intros i Hi. assert (Hin : In (nth i l 0) l) by (apply nth_In; lia). apply (Permutation_in _ Hperm), in_seq in Hin. lia. }
  assert (Hseq : (guard list_eqb (sort_nat l) (range (length l)) else NotEvenPermutationError ;; Ok l) = Ok l).
  { replace (list_eqb (sort_nat l) (range (length l))) with true; [reflexivity|]. symmetry. apply list_eqb_eq, sort_nat_range. rewrite Hlen. exact Hperm. }
  assert (Hl : l = map (fun v => nth v l 0) (range (2 ^ k))) by (unfold range; rewrite <- Hlen; symmetry; apply map_nth_seq_eq).
  assert (Hid : l = seq 0 (2 ^ k) -> linear_on k l).
  { intros -> i j Hi Hj. rewrite !seq_nth by (try assumption; apply lxor_lt; assumption). reflexivity. }
  assert (Hneu : l = [0] \/ l = [0; 1] -> perm_to_matrix (WSeq l) false = Err IsNeutralFail).
  { intros [-> | ->]; reflexivity. }
  unfold WalshPerm.
  assert (Hcase : (l = [0] \/ l = [0; 1]) \/ (0 < k /\ l <> [0; 1])).
  { destruct k as [|k].
    - left. left. cbn in Hperm. symmetry in Hperm. apply Permutation_length_1_inv in Hperm. exact Hperm.
    - destruct (list_eqb l [0; 1]) eqn:E; [apply list_eqb_eq in E; auto|]. right. split; [lia|]. intro E'. apply list_eqb_eq in E'. congruence. }
  destruct Hcase as [Hc | [Hk Hne]].
  - left. assert (Hs : l = seq 0 (2 ^ k)) by (rewrite <- Hlen; destruct Hc as [-> | ->]; reflexivity).
    split; [apply Hid; exact Hs|]. exists walsh_neutral, (fun v => v). rewrite (Hneu Hc). split; [reflexivity|]. split; [left; auto|].
    split; [intros i Hi; rewrite Hs, seq_nth by exact Hi; reflexivity | intro v; reflexivity].
  - set (g := fun v => nth v l 0) in *.
    assert (Hg0 : map g (range (2 ^ k)) <> [0; 1]) by (rewrite <- Hl; exact Hne).
    rewrite (ptm_seq (WSeq l) k g false Hk Hg0 Hb) by (rewrite <- Hl; exact Hseq).
    set (row := fun m => map (fun v => Nat.testbit (g v) m) (range (2 ^ k))).
    assert (Hrl : forall m, length (row m) = 2 ^ k) by (intro m; unfold row; rewrite map_length, range_length; reflexivity).
    set (F := fun m => match walsh_function_to_index (row m) false with Err NotWalshRowError => Err InvalidPermError | r => r end).
    change (mapM (fun m => match walsh_function_to_index (map (fun v => Nat.testbit (g v) m) (range (2 ^ k))) false with
                           | Err NotWalshRowError => Err InvalidPermError | r => r end) (range k)) with (mapM F (range k)).
    assert (HF : forall m, (exists w, w < 2 ^ k /\ walsh_row k w (row m) /\ F m = Ok w) \/
                           ((forall w, w < 2 ^ k -> ~ walsh_row k w (row m)) /\ F m = Err InvalidPermError)).
    { intro m. unfold F. destruct (index_cases k (row m) Hk (Hrl m)) as [[w [H1 [H2 H3]]] | [H1 H2]].
      - left. exists w. rewrite H3. auto.
      - right. rewrite H2. auto. }
    assert (Hrow : forall m w, walsh_row k w (row m) <-> forall v, v < 2 ^ k -> Nat.testbit (g v) m = dot k w v).
    { intros m w. unfold walsh_row. split.
      - intros [_ H] v Hv. rewrite <- H by exact Hv. unfold row. symmetry. apply (nth_map_range (fun v => Nat.testbit (g v) m)). exact Hv.
      - intro H. split; [apply Hrl|]. intros i Hi. rewrite <- H by exact Hi. unfold row. apply (nth_map_range (fun v => Nat.testbit (g v) m)). exact Hi. }
    destruct (mapM F (range k)) as [ts|e] eqn:EF.
    + left. cbn [bind]. assert (H2 := mapM_inv _ _ _ EF).
      set (b := fun m j => Nat.testbit (nth m ts 0) j).
      assert (Htl : length ts = k) by (rewrite <- (Forall2_len _ _ _ H2); apply range_length).
      assert (Hts : forall m, m < k -> nth m ts 0 < 2 ^ k /\ walsh_row k (nth m ts 0) (row m)).
      { intros m Hm. assert (Em : F m = Ok (nth m ts 0)).
        { assert (Q := Forall2_at _ _ _ m 0 0 H2). rewrite range_length, nth_range in Q by exact Hm. apply Q. exact Hm. }
        destruct (HF m) as [[w [W1 [W2 W3]]] | [_ W]]; [|congruence]. rewrite W3 in Em. injection Em as <-. auto. }
      assert (Hlin : forall v, v < 2 ^ k -> nth v l 0 = lin k b v).
      { intros v Hv. apply Nat.bits_inj. intro m. rewrite testbit_lin. destruct (Nat.ltb_spec m k) as [Hm|Hm]; cbn [andb].
        - exact (proj1 (Hrow m (nth m ts 0)) (proj2 (Hts m Hm)) v Hv).
        - apply testbit_high. apply Nat.lt_le_trans with (2 ^ k); [apply Hb; exact Hv | apply Nat.pow_le_mono_r; lia]. }
      split; [apply (linear_on_lin k l Hb); exists b; exact Hlin|].
      assert (Ets : ts = map (rowv k b) (range k)).
      { apply nth_ext with (d := 0) (d' := 0); [rewrite map_length, range_length; exact Htl|]. intros m Hm. rewrite Htl in Hm.
        rewrite (nth_map_range (rowv k b)) by exact Hm. apply Nat.bits_inj. intro j. rewrite testbit_rowv.
        destruct (Nat.ltb_spec j k) as [Hj|Hj]; [reflexivity|]. apply testbit_high.
        apply Nat.lt_le_trans with (2 ^ k); [apply (Hts m Hm) | apply Nat.pow_le_mono_r; lia]. }
      rewrite Ets, binv_rows by (try exact Hk; intros; apply rowv_lt). cbn [or_neutral]. fold (mk k b).
      assert (Hinv : invertible k b).
      { apply invertible_onto. unfold onto. rewrite (map_ext_in (lin k b) g); [fold (range (2 ^ k)); rewrite <- Hl; exact Hperm|].
        intros v Hv. apply in_seq in Hv. symmetry. apply Hlin. lia. }
      destruct (of_matrix_ok k b (full k b) false Hinv (full_acts k b)) as [w [Ew [Hw _]]].
      exists w, (full k b). split; [exact Ew|]. split; [exact Hw|]. split; [|eapply full_period; apply full_acts].
      intros i Hi. rewrite Hlin by exact Hi. unfold full. rewrite Nat.mod_small, Nat.div_small by exact Hi. lia.
    + right. assert (Hbad : exists m, In m (range k) /\ F m = Err InvalidPermError).
      { assert (D : forall L, (exists m, In m L /\ F m = Err InvalidPermError) \/ (forall m, In m L -> exists w, F m = Ok w)).
        { induction L as [|m L IH]; [right; intros m []|]. destruct (HF m) as [[w [_ [_ W]]] | [_ W]]; [|left; exists m; split; [left; reflexivity | exact W]].
          destruct IH as [[m' [I1 I2]] | IH]; [left; exists m'; split; [right; exact I1 | exact I2]|]. right. intros m' [<-|Hm]; [exists w; exact W | apply IH; exact Hm]. }
        destruct (D (range k)) as [D'|D']; [exact D'|]. exfalso.
        rewrite (mapM_ok F (fun m => match F m with Ok w => w | Err _ => 0 end)) in EF; [discriminate|].
        intros m Hm. destruct (D' m Hm) as [w ->]. reflexivity. }
      assert (Ee : e = InvalidPermError).
      { rewrite (mapM_first_err F InvalidPermError (range k)) in EF; [congruence | | exact Hbad].
        intros m _. destruct (HF m) as [[w [_ [_ W]]] | [_ W]]; [right; exists w; exact W | left; exact W]. }
      subst e. split; [|reflexivity]. intro Hlo. apply (linear_on_lin k l Hb) in Hlo. destruct Hlo as [b Hlin].
      destruct Hbad as [m [Hm Em]]. apply range_In in Hm. destruct (HF m) as [[w [_ [_ W]]] | [W _]]; [congruence|].
      apply (W (rowv k b m) (rowv_lt k b m)). apply Hrow. intros v Hv. unfold g. rewrite Hlin by exact Hv. rewrite testbit_lin, (proj2 (Nat.ltb_lt m k) Hm).
      cbn [andb]. unfold mat_vec, dot. apply xor_all_ext. intros j Hj. apply in_seq in Hj. rewrite testbit_rowv, (proj2 (Nat.ltb_lt j k)) by lia. reflexivity.
Qed.
