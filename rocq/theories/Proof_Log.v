(** Proof_Log: floating point logarithms. *)

From Coq Require Import ZArith Bool Lia.
From Verif Require Import Model_Base Model_Log Spec_Log.
Open Scope Z_scope.

(** * Powers *)

Lemma p2 n : 0 <= n -> 0 < 2 ^ n.
Proof. intro H. apply Z.pow_pos_nonneg; lia. Qed.
Lemma pow_le_iff u v n : 0 <= u -> 0 <= v -> 0 < n -> (u ^ n <= v ^ n <-> u <= v).
Proof.
  intros Hu Hv Hn. split.
  - intro H. apply Z.nlt_ge. intro C. assert (X := Z.pow_lt_mono_l v u n Hn (conj Hv C)). lia.
  - intro H. apply Z.pow_le_mono_l. lia.
Qed.
Lemma pow_lt_iff u v n : 0 <= u -> 0 <= v -> 0 < n -> (u ^ n < v ^ n <-> u < v).
Proof. intros Hu Hv Hn. rewrite !Z.lt_nge. rewrite pow_le_iff by assumption. reflexivity. Qed.
Lemma p2_le a b : 0 <= b -> (2 ^ a <= 2 ^ b <-> a <= b).
Proof. intro H. symmetry. apply Z.pow_le_mono_r_iff; lia. Qed.

(** (N + 1) ^ n >= N ^ n + n * N ^ (n - 1) *)
Lemma bernoulli N n : 0 <= N -> 1 <= n -> N ^ n + n * N ^ (n - 1) <= (N + 1) ^ n.
Proof.
  intros HN Hn. assert (G : forall k, 0 <= k -> N ^ (k + 1) + (k + 1) * N ^ k <= (N + 1) ^ (k + 1)).
  { apply natlike_ind; [change (0 + 1) with 1; rewrite !Z.pow_1_r, Z.pow_0_r; lia|]. intros k Hk IH. unfold Z.succ.
    rewrite (Z.pow_add_r (N + 1) (k + 1) 1), (Z.pow_add_r N (k + 1) 1) by lia. rewrite !Z.pow_1_r.
    assert (E : N ^ (k + 1) = N ^ k * N) by (rewrite Z.pow_add_r, Z.pow_1_r by lia; reflexivity). assert (P : 0 <= N ^ k) by (apply Z.pow_nonneg; lia). nia. }
  specialize (G (n - 1) ltac:(lia)). replace (n - 1 + 1) with n in G by lia. exact G.
Qed.
(** 2 * (N - 1) ^ n > N ^ n if n <= N / 2 *)
Lemma bernoulli_below N n : 1 <= N -> 2 <= n -> (N - n) * N ^ n < N * (N - 1) ^ n.
Proof.
  intros HN Hn. assert (G : forall k, 0 <= k -> (N - (k + 2)) * N ^ (k + 2) < N * (N - 1) ^ (k + 2)).
  { apply natlike_ind; [change (0 + 2) with 2; rewrite !Z.pow_2_r; nia|]. intros k Hk IH. unfold Z.succ. replace (k + 1 + 2) with ((k + 2) + 1) by lia. rewrite !(Z.pow_add_r _ (k + 2) 1), !Z.pow_1_r by lia.
    set (a := N ^ (k + 2)) in *. set (b := (N - 1) ^ (k + 2)) in *. assert (P : 1 <= a) by (assert (X := Z.pow_pos_nonneg N (k + 2)); unfold a; lia).
    destruct (Z.eq_dec N 1) as [->|HN1].
    - nia.
    - assert (E : (N - (k + 2)) * a * (N - 1) < N * b * (N - 1)) by (apply Z.mul_lt_mono_pos_r; lia). nia. }
  specialize (G (n - 2) ltac:(lia)). replace (n - 2 + 2) with n in G by lia. exact G.
Qed.

(** * Fractions and logarithms *)

Lemma pow_scale x j t : 0 <= j -> 0 <= t -> x ^ (2 ^ (j + t)) = (x ^ (2 ^ j)) ^ (2 ^ t).
Proof. intros Hj Ht. rewrite Z.pow_add_r by assumption. apply Z.pow_mul_r; apply Z.lt_le_incl, p2; assumption. Qed.
Lemma below_scale a j t x : 0 <= a -> 0 <= j -> 0 <= t -> 1 <= x -> (below_log a j x <-> below_log (a * 2 ^ t) (j + t) x).
Proof.
  intros Ha Hj Ht Hx. unfold below_log. rewrite pow_scale, Z.pow_mul_r by (try assumption; apply Z.lt_le_incl, p2; assumption). symmetry. apply pow_le_iff; [apply Z.lt_le_incl, p2, Ha | apply Z.pow_nonneg; lia | apply p2, Ht].
Qed.
Lemma above_scale a j t x : 0 <= a -> 0 <= j -> 0 <= t -> 1 <= x -> (above_log a j x <-> above_log (a * 2 ^ t) (j + t) x).
Proof.
  intros Ha Hj Ht Hx. unfold above_log. rewrite pow_scale, Z.pow_mul_r by (try assumption; apply Z.lt_le_incl, p2; assumption). symmetry. apply pow_le_iff; [apply Z.pow_nonneg; lia | apply Z.lt_le_incl, p2, Ha | apply p2, Ht].
Qed.
(** smaller fractions are below, greater ones are above *)
Lemma below_mono a j b i x : 0 <= a -> 0 <= j -> 0 <= b -> 0 <= i -> 1 <= x -> b * 2 ^ j <= a * 2 ^ i -> below_log a j x -> below_log b i x.
Proof.
  intros Ha Hj Hb Hi Hx L H. apply (below_scale a j i) in H; try assumption. apply (below_scale b i j); try assumption. unfold below_log in *. rewrite (Z.add_comm i j). eapply Z.le_trans; [|exact H]. apply p2_le; [|exact L].
  apply Z.mul_nonneg_nonneg; [exact Ha | apply Z.lt_le_incl, p2, Hi].
Qed.
Lemma above_mono a j b i x : 0 <= a -> 0 <= j -> 0 <= b -> 0 <= i -> 1 <= x -> a * 2 ^ i <= b * 2 ^ j -> above_log a j x -> above_log b i x.
Proof.
  intros Ha Hj Hb Hi Hx L H. apply (above_scale a j i) in H; try assumption. apply (above_scale b i j); try assumption. unfold above_log in *. rewrite (Z.add_comm i j). eapply Z.le_trans; [exact H|]. apply p2_le; [|exact L].
  apply Z.mul_nonneg_nonneg; [exact Hb | apply Z.lt_le_incl, p2, Hj].
Qed.
(** a fraction below and one above are in order *)
Lemma below_above a j b i x : 0 <= a -> 0 <= j -> 0 <= b -> 0 <= i -> 1 <= x -> below_log a j x -> above_log b i x -> a * 2 ^ i <= b * 2 ^ j.
Proof.
  intros Ha Hj Hb Hi Hx L H. apply (below_scale a j i) in L; try assumption. apply (above_scale b i j) in H; try assumption. unfold below_log, above_log in *. rewrite (Z.add_comm i j) in H.
  apply (p2_le _ (b * 2 ^ j)); [apply Z.mul_nonneg_nonneg; [exact Hb | apply Z.lt_le_incl, p2, Hj]|]. lia.
Qed.
Lemma below_or_above a j x : below_log a j x \/ above_log a j x.
Proof. unfold below_log, above_log. lia. Qed.
Lemma below_int k x : below_log k 0 x <-> 2 ^ k <= x.
Proof. unfold below_log. rewrite Z.pow_0_r, Z.pow_1_r. reflexivity. Qed.
Lemma above_int k x : above_log k 0 x <-> x <= 2 ^ k.
Proof. unfold above_log. rewrite Z.pow_0_r, Z.pow_1_r. reflexivity. Qed.

Lemma nearest_faithful lg : nearest lg -> faithful lg.
Proof.
  intros H x Hx Lx. destruct (H x Hx Lx) as ((Hm & Hs) & M). split; [split; assumption|]. intros d (Dm & Ds). destruct (M d (conj Dm Ds)) as [M1 M2]. cbv zeta in M1, M2.
  assert (P1 := p2 _ Hs). assert (P2 := p2 _ Ds).
  set (mid := mant d * 2 ^ scale (lg x) + mant (lg x) * 2 ^ scale d) in *. assert (Hmid : 0 <= mid) by (unfold mid; nia).
  assert (E : forall u v, 2 ^ (u + v + 1) = 2 ^ u * 2 ^ v * 2 \/ u < 0 \/ v < 0) by (intros u v; destruct (Z.lt_ge_cases u 0), (Z.lt_ge_cases v 0); auto; left; rewrite !Z.pow_add_r by lia; reflexivity).
  destruct (E (scale d) (scale (lg x))) as [E1|C]; [|lia]. assert (Hsum : 0 <= scale d + scale (lg x) + 1) by lia. split; intros [A B].
  - specialize (M2 A). unfold less in A. assert (X := below_above _ _ _ _ x (proj1 Dm) Ds Hmid Hsum Hx B M2). rewrite E1 in X. unfold mid in X. nia.
  - specialize (M1 B). unfold less in B. assert (X := below_above _ _ _ _ x Hmid Hsum (proj1 Dm) Ds Hx M1 A). rewrite E1 in X. unfold mid in X. nia.
Qed.

(** * Floor and ceiling *)

Lemma floor_ge d k : is_double d -> (k <= floor_d d <-> k * 2 ^ scale d <= mant d).
Proof. intros (_ & Hs). assert (P := p2 _ Hs). unfold floor_d. split; intro H; [assert (X := Z.mul_div_le (mant d) _ P); nia | apply Z.div_le_lower_bound; lia]. Qed.
Lemma ceil_le d k : is_double d -> (ceil_d d <= k <-> mant d <= k * 2 ^ scale d).
Proof.
  intros (_ & Hs). assert (P := p2 _ Hs). unfold ceil_d. split; intro H.
  - assert (X := Z.mul_div_le (- mant d) _ P). nia.
  - assert (X : - k <= - mant d / 2 ^ scale d) by (apply Z.div_le_lower_bound; lia). lia.
Qed.
Lemma natural_iff d : is_double d -> (natural_d d = true <-> floor_d d = ceil_d d).
Proof.
  intros (_ & Hs). assert (P := p2 _ Hs). unfold natural_d, floor_d, ceil_d. rewrite Z.eqb_eq. split; intro H.
  - apply Z.div_exact in H; [|lia]. set (q := mant d / 2 ^ scale d) in *. rewrite H. replace (- (2 ^ scale d * q)) with ((- q) * 2 ^ scale d) by ring. rewrite Z.div_mul by lia. lia.
  - assert (X := Z.mul_div_le (mant d) _ P). assert (Y := Z.mul_div_le (- mant d) _ P). apply Z.div_exact; nia.
Qed.

Lemma int_double k : 0 <= k < 2 ^ 53 -> is_double (mkDouble k 0).
Proof. intro H. split; [exact H | cbn; lia]. Qed.

Section Faithful.
Variable lg : Z -> double.
Hypothesis F : faithful lg.
Variable x : Z.
Hypothesis Hx : 1 <= x.
Hypothesis Lx : Z.log2 x < 2 ^ 52.

Let D : is_double (lg x) := proj1 (F x Hx Lx).
Let Ps : 0 < 2 ^ scale (lg x) := p2 _ (proj2 D).

Lemma floor_not_less k : 0 <= k -> 2 ^ k <= x -> k <= floor_d (lg x).
Proof using F Hx Lx D Ps.
  intros Hk H. apply floor_ge; [exact D|]. apply Z.nlt_ge. intro C.
  assert (Kx : k <= Z.log2 x) by (apply Z.log2_le_pow2; lia). assert (Dk : is_double (mkDouble k 0)) by (apply int_double; split; [lia | change (2 ^ 53) with (2 * 2 ^ 52); lia]).
  apply (proj1 (proj2 (F x Hx Lx) _ Dk)). cbn [mant scale]. split; [unfold less; cbn [mant scale]; rewrite Z.pow_0_r; lia | apply below_int, H].
Qed.
Lemma ceil_not_greater k : 0 <= k <= 2 ^ 52 -> x <= 2 ^ k -> ceil_d (lg x) <= k.
Proof using F Hx Lx D Ps.
  intros Hk H. apply ceil_le; [exact D|]. apply Z.nlt_ge. intro C.
  assert (Dk : is_double (mkDouble k 0)) by (apply int_double; split; [lia | change (2 ^ 53) with (2 * 2 ^ 52); lia]).
  apply (proj2 (proj2 (F x Hx Lx) _ Dk)). cbn [mant scale]. split; [apply above_int, H | unfold less; cbn [mant scale]; rewrite Z.pow_0_r; lia].
Qed.
Lemma floor_ceil : floor_d (lg x) <= ceil_d (lg x).
Proof using D Ps.
  assert (X := proj1 (floor_ge (lg x) (floor_d (lg x)) D) ltac:(lia)). assert (Y := proj1 (ceil_le (lg x) (ceil_d (lg x)) D) ltac:(lia)). nia.
Qed.

Lemma floor_exact k : 0 <= k < 47 -> x < 2 ^ (k + 1) -> floor_d (lg x) <= k.
Proof using F Hx Lx D Ps.
  intros Hk H. apply Z.lt_succ_r. apply Z.nle_gt. intro C. apply floor_ge in C; [|exact D]. unfold Z.succ in C.
  set (n := 2 ^ 47). set (N := 2 ^ (k + 1)) in *. assert (HN : 2 <= N <= n).
  { unfold N, n. split; [change 2 with (2 ^ 1) at 1; apply Z.pow_le_mono_r; lia | apply Z.pow_le_mono_r; lia]. }
  assert (Hn : 1 <= n) by lia.
  assert (Dd : is_double (mkDouble ((k + 1) * n - 1) 47)).
  { split; cbn [mant scale]; [|lia]. split; [nia|]. apply Z.lt_le_trans with (64 * n); [nia | unfold n; change 64 with (2 ^ 6); rewrite <- Z.pow_add_r by lia; apply Z.pow_le_mono_r; lia]. }
  apply (proj2 (proj2 (F x Hx Lx) _ Dd)). cbn [mant scale]. split.
  - unfold above_log. fold n. assert (B := bernoulli (N - 1) n ltac:(lia) Hn). replace (N - 1 + 1) with N in B by lia.
    assert (E1 : (N - 1) ^ n = (N - 1) * (N - 1) ^ (n - 1)). { replace n with (1 + (n - 1)) at 1 by lia. rewrite Z.pow_add_r, Z.pow_1_r by lia. reflexivity. }
    assert (P1 : 0 <= (N - 1) ^ (n - 1)) by (apply Z.pow_nonneg; lia).
    assert (E2 : N ^ n = 2 * 2 ^ ((k + 1) * n - 1)). { unfold N. rewrite <- Z.pow_mul_r by lia. rewrite <- Z.pow_succ_r by nia. f_equal. lia. }
    assert (X : x ^ n <= (N - 1) ^ n) by (apply Z.pow_le_mono_l; lia). nia.
  - unfold less. cbn [mant scale]. fold n. nia.
Qed.
Lemma ceil_exact k : 0 <= k <= 47 -> 2 ^ k < x -> k + 1 <= ceil_d (lg x).
Proof using F Hx Lx D Ps.
  intros Hk H. apply Z.nlt_ge. intro C. assert (C' : ceil_d (lg x) <= k) by lia. apply ceil_le in C'; [|exact D]. clear C.
  set (n := 2 ^ 47). set (N := 2 ^ k) in *. assert (HN : 1 <= N <= n).
  { unfold N, n. split; [change 1 with (2 ^ 0) at 1; apply Z.pow_le_mono_r; lia | apply Z.pow_le_mono_r; lia]. }
  assert (Hn : 1 <= n) by lia.
  assert (Dd : is_double (mkDouble (k * n + 1) 47)).
  { split; cbn [mant scale]; [|lia]. split; [nia|]. apply Z.lt_le_trans with (64 * n); [nia | unfold n; change 64 with (2 ^ 6); rewrite <- Z.pow_add_r by lia; apply Z.pow_le_mono_r; lia]. }
  apply (proj1 (proj2 (F x Hx Lx) _ Dd)). cbn [mant scale]. split.
  - unfold less. cbn [mant scale]. fold n. nia.
  - unfold below_log. fold n. assert (B := bernoulli N n ltac:(lia) Hn).
    assert (E1 : N ^ n = N * N ^ (n - 1)). { replace n with (1 + (n - 1)) at 1 by lia. rewrite Z.pow_add_r, Z.pow_1_r by lia. reflexivity. }
    assert (P1 : 0 <= N ^ (n - 1)) by (apply Z.pow_nonneg; lia).
    assert (E2 : 2 ^ (k * n + 1) = 2 * N ^ n). { unfold N. rewrite <- Z.pow_mul_r by lia. rewrite Z.pow_add_r, Z.pow_1_r by nia. lia. }
    assert (X : (N + 1) ^ n <= x ^ n) by (apply Z.pow_le_mono_l; lia). nia.
Qed.
End Faithful.

(** * Wrong results *)

Lemma bernoulli_above N n : 1 <= n < N -> (N - n) * (N + 1) ^ n < N * N ^ n.
Proof.
  intros Hn. assert (G : forall k, 0 <= k -> k + 1 < N -> (N - (k + 1)) * (N + 1) ^ (k + 1) < N * N ^ (k + 1)).
  { apply (natlike_ind (fun k => k + 1 < N -> (N - (k + 1)) * (N + 1) ^ (k + 1) < N * N ^ (k + 1))); [intros _; change (0 + 1) with 1; rewrite !Z.pow_1_r; nia|]. intros k Hk IH HN. specialize (IH ltac:(lia)). unfold Z.succ in *.
    rewrite !(Z.pow_add_r _ (k + 1) 1), !Z.pow_1_r by lia. set (a := (N + 1) ^ (k + 1)) in *. set (b := N ^ (k + 1)) in *. assert (Pa : 0 < a) by (apply Z.pow_pos_nonneg; lia).
    assert (E : (N - (k + 1)) * a * N < N * b * N) by (apply Z.mul_lt_mono_pos_r; lia). nia. }
  specialize (G (n - 1) ltac:(lia)). replace (n - 1 + 1) with n in G by lia. apply G. lia.
Qed.

Lemma gap_below d K : is_double d -> 33 <= K <= 64 -> mant d < K * 2 ^ scale d -> mant d * 2 ^ 47 <= (K * 2 ^ 47 - 1) * 2 ^ scale d.
Proof.
  intros (Hm & Hs) HK L. assert (P := p2 _ Hs). destruct (Z.le_gt_cases (scale d) 47) as [S|S].
  - assert (X : 2 ^ scale d <= 2 ^ 47) by (apply Z.pow_le_mono_r; lia). nia.
  - assert (X : 2 ^ 48 <= 2 ^ scale d) by (apply Z.pow_le_mono_r; lia). assert (E : 2 ^ 53 * 2 ^ 47 = 32 * 2 ^ 47 * 2 ^ 48) by reflexivity. assert (Q : 1 <= 2 ^ 47) by (assert (Q0 := p2 47 ltac:(lia)); lia). nia.
Qed.
Lemma gap_above d K : is_double d -> 32 <= K <= 63 -> K * 2 ^ scale d < mant d -> (K * 2 ^ 47 + 1) * 2 ^ scale d <= mant d * 2 ^ 47.
Proof.
  intros (Hm & Hs) HK L. assert (P := p2 _ Hs). destruct (Z.le_gt_cases (scale d) 47) as [S|S].
  - assert (X : 2 ^ scale d <= 2 ^ 47) by (apply Z.pow_le_mono_r; lia). nia.
  - assert (X : 2 ^ 48 <= 2 ^ scale d) by (apply Z.pow_le_mono_r; lia). assert (E : 2 ^ 53 = 32 * 2 ^ 48) by reflexivity. nia.
Qed.

Lemma log2_small K x : 0 <= K <= 64 -> x <= 2 ^ (K + 1) -> Z.log2 x < 2 ^ 52.
Proof.
  intros HK H. apply Z.le_lt_trans with (Z.log2 (2 ^ (K + 1))); [apply Z.log2_le_mono, H|]. rewrite Z.log2_pow2 by lia. apply Z.le_lt_trans with 65; [lia | reflexivity].
Qed.

Lemma rounded_up lg K : nearest lg -> 49 <= K <= 64 -> mant (lg (2 ^ K - 1)) = K * 2 ^ scale (lg (2 ^ K - 1)).
Proof.
  intros H HK. set (x := 2 ^ K - 1). assert (KN : 2 ^ 49 <= 2 ^ K) by (apply Z.pow_le_mono_r; lia). assert (Q : 1 <= 2 ^ 48) by (assert (Q0 := p2 48 ltac:(lia)); lia). assert (E49 : 2 ^ 49 = 2 * 2 ^ 48) by reflexivity.
  assert (Hx : 1 <= x) by (unfold x; lia).
  assert (Lx : Z.log2 x < 2 ^ 52) by (apply (log2_small K); [lia | unfold x; rewrite Z.pow_add_r by lia; lia]).
  destruct (H x Hx Lx) as (D & M). destruct (M (mkDouble K 0)) as [M1 M2]; [apply int_double; split; [lia | apply Z.le_lt_trans with 64; [lia | reflexivity]]|]. cbv zeta in M1, M2. unfold less in M1, M2. cbn [mant scale] in M1, M2. rewrite Z.pow_0_r, Z.mul_1_r in M1, M2.
  assert (Hs := proj2 D). assert (P := p2 _ Hs). assert (Hm := proj1 (proj1 D)). set (s := scale (lg x)) in *. set (m := mant (lg x)) in *.
  assert (E1 : 2 ^ (0 + s + 1) = 2 * 2 ^ s) by (rewrite Z.pow_add_r by lia; change (2 ^ 1) with 2; rewrite Z.add_0_l; lia).
  destruct (Z.lt_total m (K * 2 ^ s)) as [L|[L|L]]; [exfalso | exact L | exfalso].
  - specialize (M2 ltac:(lia)). assert (G := gap_below (lg x) K D ltac:(lia) L). fold m s in G.
    assert (E48 : 2 ^ 48 = 2 * 2 ^ 47) by reflexivity.
    assert (A : above_log (K * 2 ^ 48 - 1) 48 x).
    { revert M2. apply above_mono; try lia; rewrite E1, E48; nia. }
    unfold above_log in A. set (n := 2 ^ 48) in *. set (N := 2 ^ K) in *. assert (B := bernoulli_below N n ltac:(lia) ltac:(unfold n; change 2 with (2 ^ 1); apply Z.pow_le_mono_r; lia)).
    assert (E2 : N ^ n = 2 * 2 ^ (K * n - 1)). { unfold N. rewrite <- Z.pow_mul_r by lia. rewrite <- Z.pow_succ_r by nia. f_equal. lia. }
    unfold x in A. assert (P1 : 0 <= N ^ n) by (apply Z.pow_nonneg; lia). nia.
  - specialize (M1 ltac:(lia)). assert (A : above_log K 0 x) by (apply above_int; unfold x; lia).
    assert (X : (K * 2 ^ s + m) * 2 ^ 0 <= K * 2 ^ (0 + s + 1)) by (apply (below_above _ _ _ _ x); try assumption; nia). rewrite E1, Z.pow_0_r in X. nia.
Qed.
Lemma rounded_down lg K : nearest lg -> 49 <= K <= 63 -> mant (lg (2 ^ K + 1)) = K * 2 ^ scale (lg (2 ^ K + 1)).
Proof.
  intros H HK. set (x := 2 ^ K + 1). assert (KN : 2 ^ 49 <= 2 ^ K) by (apply Z.pow_le_mono_r; lia). assert (Q : 1 <= 2 ^ 48) by (assert (Q0 := p2 48 ltac:(lia)); lia). assert (E49 : 2 ^ 49 = 2 * 2 ^ 48) by reflexivity.
  assert (Hx : 1 <= x) by (unfold x; lia).
  assert (Lx : Z.log2 x < 2 ^ 52) by (apply (log2_small K); [lia | unfold x; rewrite Z.pow_add_r by lia; lia]).
  destruct (H x Hx Lx) as (D & M). destruct (M (mkDouble K 0)) as [M1 M2]; [apply int_double; split; [lia | apply Z.le_lt_trans with 64; [lia | reflexivity]]|]. cbv zeta in M1, M2. unfold less in M1, M2. cbn [mant scale] in M1, M2. rewrite Z.pow_0_r, Z.mul_1_r in M1, M2.
  assert (Hs := proj2 D). assert (P := p2 _ Hs). assert (Hm := proj1 (proj1 D)). set (s := scale (lg x)) in *. set (m := mant (lg x)) in *.
  assert (E1 : 2 ^ (0 + s + 1) = 2 * 2 ^ s) by (rewrite Z.pow_add_r by lia; change (2 ^ 1) with 2; rewrite Z.add_0_l; lia).
  destruct (Z.lt_total m (K * 2 ^ s)) as [L|[L|L]]; [exfalso | exact L | exfalso].
  - specialize (M2 ltac:(lia)). assert (A : below_log K 0 x) by (apply below_int; unfold x; lia).
    assert (X : K * 2 ^ (0 + s + 1) <= (K * 2 ^ s + m) * 2 ^ 0) by (apply (below_above _ _ _ _ x); try assumption; nia). rewrite E1, Z.pow_0_r in X. nia.
  - specialize (M1 ltac:(lia)). assert (G := gap_above (lg x) K D ltac:(lia) L). fold m s in G.
    assert (E48 : 2 ^ 48 = 2 * 2 ^ 47) by reflexivity.
    assert (A : below_log (K * 2 ^ 48 + 1) 48 x).
    { revert M1. apply below_mono; try lia; rewrite E1, E48; nia. }
    unfold below_log in A. set (n := 2 ^ 48) in *. set (N := 2 ^ K) in *. assert (B := bernoulli_above N n ltac:(lia)).
    assert (E2 : 2 ^ (K * n + 1) = 2 * N ^ n). { unfold N. rewrite <- Z.pow_mul_r by lia. rewrite Z.pow_add_r, Z.pow_1_r by nia. lia. }
    unfold x in A. assert (P1 : 0 <= (N + 1) ^ n) by (apply Z.pow_nonneg; lia). nia.
Qed.

(** * Such functions exist *)

Lemma gapless m j d : 2 ^ 52 <= m -> 0 <= j -> is_double d -> mant d * 2 ^ j < (m + 1) * 2 ^ scale d -> mant d * 2 ^ j <= m * 2 ^ scale d.
Proof.
  intros Hm Hj (Dm & Ds) L. assert (P := p2 _ Ds). assert (Q := p2 _ Hj). destruct (Z.le_gt_cases (scale d) j) as [S|S].
  - assert (E : 2 ^ j = 2 ^ (j - scale d) * 2 ^ scale d) by (rewrite <- Z.pow_add_r by lia; f_equal; lia). rewrite E, Z.mul_assoc in *. apply Z.mul_lt_mono_pos_r in L; [|exact P]. apply Z.mul_le_mono_nonneg_r; lia.
  - assert (E : 2 ^ scale d = 2 * 2 ^ (scale d - j - 1) * 2 ^ j). { change 2 with (2 ^ 1) at 2. rewrite <- !Z.pow_add_r by lia. f_equal. lia. }
    assert (R := p2 (scale d - j - 1) ltac:(lia)). rewrite E. rewrite Z.mul_assoc. apply Z.mul_le_mono_nonneg_r; [lia|]. change (2 ^ 53) with (2 * 2 ^ 52) in Dm. nia.
Qed.

Definition best (r : double) (x : Z) : Prop := is_double r /\ forall d, is_double d ->
    let middle := mant d * 2 ^ scale r + mant r * 2 ^ scale d in
    let s := scale d + scale r + 1 in
    (less d r -> below_log middle s x) /\ (less r d -> above_log middle s x).

Lemma best_low x j m : 1 <= x -> 0 <= j -> 2 ^ 52 <= m < 2 ^ 53 -> below_log m j x -> above_log (2 * m + 1) (j + 1) x -> best (mkDouble m j) x.
Proof.
  intros Hx Hj Hm B A. split; [split; [cbn; lia | exact Hj]|]. intros d D middle s. subst middle s. unfold less. cbn [mant scale]. destruct D as (Dm & Ds). assert (P := p2 _ Ds). assert (Q := p2 _ Hj).
  assert (E1 : 2 ^ (scale d + j + 1) = 2 * 2 ^ scale d * 2 ^ j) by (rewrite !Z.pow_add_r by lia; change (2 ^ 1) with 2; lia).
  assert (E2 : 2 ^ (j + 1) = 2 * 2 ^ j) by (rewrite !Z.pow_add_r by lia; change (2 ^ 1) with 2; lia). split; intro L.
  - apply (below_mono m j); try assumption; try lia; try rewrite E1; nia.
  - apply (above_mono (2 * m + 1) (j + 1)); try assumption; try lia. rewrite E1, E2.
    assert (G : (m + 1) * 2 ^ scale d <= mant d * 2 ^ j). { apply Z.nlt_ge. intro C. apply gapless in C; [lia | lia | lia | split; assumption]. } nia.
Qed.
Lemma best_high x j m r : 1 <= x -> 0 <= j -> 2 ^ 52 <= m -> is_double r -> mant r * 2 ^ j = (m + 1) * 2 ^ scale r ->
  below_log (2 * m + 1) (j + 1) x -> above_log (m + 1) j x -> best r x.
Proof.
  intros Hx Hj Hm (Rm & Rs) Er B A. split; [split; assumption|]. intros d D middle s. subst middle s. unfold less. assert (D' := D). destruct D as (Dm & Ds). assert (P := p2 _ Ds). assert (Q := p2 _ Hj). assert (R := p2 _ Rs).
  assert (E1 : 2 ^ (scale d + scale r + 1) = 2 * 2 ^ scale d * 2 ^ scale r) by (rewrite !Z.pow_add_r by lia; change (2 ^ 1) with 2; lia).
  assert (E2 : 2 ^ (j + 1) = 2 * 2 ^ j) by (rewrite !Z.pow_add_r by lia; change (2 ^ 1) with 2; lia).
  assert (Mn : 0 <= mant d * 2 ^ scale r + mant r * 2 ^ scale d) by nia. split; intro L.
  - apply (below_mono (2 * m + 1) (j + 1)); try assumption; try lia. rewrite E1, E2.
    assert (G : mant d * 2 ^ j <= m * 2 ^ scale d).
    { apply gapless; [lia | lia | exact D'|]. apply (Z.mul_lt_mono_pos_r (2 ^ scale r)); [lia|]. 
      replace (mant d * 2 ^ j * 2 ^ scale r) with (mant d * 2 ^ scale r * 2 ^ j) by ring. replace ((m + 1) * 2 ^ scale d * 2 ^ scale r) with ((m + 1) * 2 ^ scale r * 2 ^ scale d) by ring. rewrite <- Er.
      replace (mant r * 2 ^ j * 2 ^ scale d) with (mant r * 2 ^ scale d * 2 ^ j) by ring. apply Z.mul_lt_mono_pos_r; lia. }
    replace ((mant d * 2 ^ scale r + mant r * 2 ^ scale d) * (2 * 2 ^ j)) with (2 * (mant d * 2 ^ j * 2 ^ scale r + mant r * 2 ^ j * 2 ^ scale d)) by ring. rewrite Er.
    assert (G2 : mant d * 2 ^ j * 2 ^ scale r <= m * 2 ^ scale d * 2 ^ scale r) by (apply Z.mul_le_mono_nonneg_r; lia). nia.
  - apply (above_mono (m + 1) j); try assumption; try lia. rewrite E1.
    replace ((mant d * 2 ^ scale r + mant r * 2 ^ scale d) * 2 ^ j) with (mant d * 2 ^ scale r * 2 ^ j + mant r * 2 ^ j * 2 ^ scale d) by ring. rewrite Er.
    assert (G2 : mant r * 2 ^ scale d * 2 ^ j <= mant d * 2 ^ scale r * 2 ^ j) by (apply Z.mul_le_mono_nonneg_r; lia).
    replace (mant r * 2 ^ scale d * 2 ^ j) with (mant r * 2 ^ j * 2 ^ scale d) in G2 by ring. rewrite Er in G2. nia.
Qed.

Definition nearest_log2 (x : Z) : double :=
  if Z.leb x 1 then mkDouble 0 0
  else
    let j := 52 - Z.log2 (Z.log2 x) in
    let m := Z.log2 (x ^ 2 ^ j) in
    if Z.leb (x ^ 2 ^ (j + 1)) (2 ^ (2 * m + 1)) then mkDouble m j
    else if Z.eqb (m + 1) (2 ^ 53) then mkDouble (2 ^ 52) (j - 1) else mkDouble (m + 1) j.

Lemma nearest_log2_ok : nearest nearest_log2.
Proof.
  intros x Hx Lx. change (best (nearest_log2 x) x). unfold nearest_log2. destruct (Z.leb_spec x 1) as [H1|H1].
  { assert (x = 1) by lia. subst x. split; [split; cbn; lia|]. intros d D. cbn zeta. unfold less. cbn [mant scale]. destruct D as (Dm & Ds). assert (P := p2 _ Ds). split; intro L; [cbn in L; lia|].
    unfold above_log. rewrite Z.pow_1_l by (apply Z.pow_nonneg; lia). assert (Q := p2 (mant d * 2 ^ 0 + 0 * 2 ^ scale d) ltac:(lia)). lia. }
  set (k := Z.log2 x) in *. assert (Hk : 1 <= k) by (apply (Z.log2_le_mono 2); lia). set (e := Z.log2 k). assert (He : 0 <= e < 52) by (split; [apply Z.log2_nonneg | apply Z.log2_lt_pow2; lia]).
  set (j := 52 - e). assert (Hj : 1 <= j) by lia. set (n := 2 ^ j). assert (Hn : 1 <= n) by (assert (Q := p2 j ltac:(lia)); unfold n; lia).
  set (X := x ^ n). assert (PX : 0 < X) by (apply Z.pow_pos_nonneg; lia). set (m := Z.log2 X). destruct (Z.log2_spec X PX) as [M1 M2]. fold m in M1, M2. destruct (Z.log2_spec x ltac:(lia)) as [K1 K2]. fold k in K1, K2.
  destruct (Z.log2_spec k ltac:(lia)) as [E1 E2]. fold e in E1, E2. assert (E52 : 2 ^ 52 = 2 ^ e * n) by (unfold n; rewrite <- Z.pow_add_r by lia; f_equal; lia).
  assert (Hm : 2 ^ 52 <= m < 2 ^ 53).
  { split.
    - apply Z.le_trans with (k * n); [nia|]. apply Z.log2_le_pow2; [lia|]. unfold X. rewrite Z.pow_mul_r by lia. apply Z.pow_le_mono_l. lia.
    - apply Z.lt_le_trans with (Z.succ k * n).
      + apply Z.log2_lt_pow2; [lia|]. unfold X. rewrite Z.pow_mul_r by lia. apply Z.pow_lt_mono_l; [lia|]. split; [lia | exact K2].
      + rewrite Z.pow_succ_r in E2 by lia. change (2 ^ 53) with (2 * 2 ^ 52). nia. }
  assert (EX : x ^ 2 ^ (j + 1) = X * X). { unfold X, n. rewrite <- Z.pow_add_r by lia. f_equal. rewrite Z.pow_add_r by lia. change (2 ^ 1) with 2. lia. }
  destruct (Z.leb_spec (x ^ 2 ^ (j + 1)) (2 ^ (2 * m + 1))) as [T|T].
  - apply best_low; [lia | lia | exact Hm | exact M1 | exact T].
  - assert (B : below_log (2 * m + 1) (j + 1) x) by (unfold below_log; lia). assert (A : above_log (m + 1) j x) by (unfold above_log; fold n X; unfold Z.succ in M2; lia).
    destruct (Z.eqb_spec (m + 1) (2 ^ 53)) as [E|E].
    + apply (best_high x j m); try assumption; try lia; [split; [cbn [mant]; split; [lia | reflexivity] | cbn [scale]; lia]|]. cbn [mant scale]. rewrite E. change (2 ^ 53) with (2 ^ 52 * 2 ^ 1). rewrite <- !Z.pow_add_r by lia. f_equal. lia.
    + apply (best_high x j m); try assumption; try lia; [split; [cbn [mant]; lia | cbn [scale]; lia] | reflexivity].
Qed.
