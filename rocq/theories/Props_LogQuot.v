(** C95: math.log(n, base) is a rounded quotient; decimal_length, binary_length and is_power_of_two. *)

From Coq Require Import ZArith Reals Lra Lia List Bool.
From Flocq Require Import Core Relative.
From Verif Require Import Model_Base Model_LogQuot Spec_LogQuot Proof_LnBounds Proof_LogQuot.
Import ListNotations.
Local Open Scope R_scope.

(** [accurate flog]: the relative error is at most 2 ^ -52 for natural numbers; [correctly_rounded flog]: the nearest double *)
Lemma rounded_accurate flog : correctly_rounded flog -> accurate flog.
Proof.
  intros Cr n Hn. rewrite (rounded flog n Cr Hn). destruct (Z.eq_dec n 1) as [->|N].
  - rewrite ln_1. unfold rnd. rewrite round_0 by typeclasses eauto. rewrite Rminus_0_r, Rabs_R0. lra.
  - assert (P := ln_pos n ltac:(lia)). assert (E := rnd_error (ln (IZR n))). rewrite (Rabs_pos_eq (ln _)) in E by lra. assert (Pb := bpow_gt_0 radix2 (-52)).
    apply (Rle_trans _ _ _ (E ltac:(apply (Rle_trans _ (bpow radix2 (-10))); [apply bpow_le; lia | cbn; lra]))). nra.
Qed.
Lemma ln_below x : 0 <= x < 1 -> ln (1 - x) <= - x.
Proof. intro Hx. rewrite <- (ln_exp (- x)). assert (L : 1 + - x <= exp (- x)) by (destruct (Req_dec x 0) as [->|N]; [rewrite Ropp_0, exp_0; lra | left; apply exp_ineq1; lra]). destruct (Rle_lt_or_eq_dec _ _ L) as [L'|L']; [left; apply ln_increasing; lra | right; f_equal; lra]. Qed.
Lemma ln_above x : 0 <= x <= 1 -> x / 2 <= ln (1 + x).
Proof.
  intro Hx. assert (P : 0 <= x / (1 + x) < 1). { split; [apply Rmult_le_pos; [lra | left; apply Rinv_0_lt_compat; lra]|]. apply (Rmult_lt_reg_r (1 + x)); [lra|]. replace (x / (1 + x) * (1 + x)) with x by (field; lra). lra. }
  assert (L := ln_below _ P). replace (1 - x / (1 + x)) with (/ (1 + x)) in L by (field; lra). rewrite ln_Rinv in L by lra. assert (Q : x / 2 <= x / (1 + x)) by (unfold Rdiv; apply Rmult_le_compat_l; [lra | apply Rinv_le_contravar; lra]). lra.
Qed.
Lemma ln_mono a b : 0 < a -> a <= b -> ln a <= ln b.
Proof. intros Ha L. destruct (Rle_lt_or_eq_dec _ _ L) as [L'|<-]; [left; apply ln_increasing; assumption | lra]. Qed.

(* between two powers of the base *)
Lemma log_between flog b k n C : accurate flog -> (2 <= b <= 2 ^ 53)%Z -> (0 <= k)%Z -> (b ^ k < n < b ^ (k + 1))%Z -> (n <= 2 ^ 53)%Z -> ln (IZR b) <= C -> IZR (3 * (k + 1) * b ^ (k + 1)) * C < IZR (2 ^ 52) ->
  IZR k < log_base flog n b < IZR (k + 1).
Proof.
  intros Ac Hb Hk Hn Hn53 HC Sm. assert (Pw : (1 <= b ^ k)%Z) by (assert (X := Z.pow_pos_nonneg b k ltac:(lia) Hk); lia). assert (E := log_error flog n b Ac ltac:(lia) Hb). cbn zeta in E. apply Rabs_le_inv in E.
  assert (Pl := ln_pos b ltac:(lia)). set (L := ln (IZR b)) in *. set (u := bpow radix2 (-52)) in *. assert (Eu : u * IZR (2 ^ 52) = 1) by (unfold u; rewrite <- bpow_IZR by lia; rewrite <- bpow_plus; reflexivity). assert (Pu : 0 < u) by apply bpow_gt_0.
  assert (Eb : (b ^ (k + 1) = b * b ^ k)%Z) by (rewrite Z.pow_add_r, Z.pow_1_r by lia; ring). set (p := IZR (b ^ k)). assert (Pp : 1 <= p) by (apply IZR_le; exact Pw). set (q := IZR (b ^ (k + 1))) in *. assert (Eq : q = IZR b * p) by (unfold q, p; rewrite <- mult_IZR; f_equal; exact Eb). assert (B2 : 2 <= IZR b) by (apply IZR_le; lia). assert (Pq : 2 * p <= q) by nra.
  assert (Lk : ln p = IZR k * L) by (apply ln_pow; lia). assert (Lq : ln q = (IZR k + 1) * L) by (unfold q; rewrite ln_pow by lia; rewrite plus_IZR; reflexivity). assert (Pk : 0 <= IZR k) by (apply IZR_le; exact Hk).
  assert (Sm' : 3 * u * (IZR k + 1) * q * L < 1).
  { rewrite mult_IZR in Sm. fold q in Sm. rewrite mult_IZR, plus_IZR in Sm. assert (X : 3 * (IZR k + 1) * q * L <= 3 * (IZR k + 1) * q * C) by (apply Rmult_le_compat_l; [nra | exact HC]). assert (Y : u * (3 * (IZR k + 1) * q * L) < u * IZR (2 ^ 52)) by (apply Rmult_lt_compat_l; lra). lra. }
  assert (Ip : 0 < / p <= 1) by (split; [apply Rinv_0_lt_compat; lra | rewrite <- Rinv_1; apply Rinv_le_contravar; lra]). assert (Iq : 0 < / q < 1) by (split; [apply Rinv_0_lt_compat; lra | rewrite <- Rinv_1; apply Rinv_lt_contravar; lra]).
  assert (Lo : IZR k * L + / p / 2 <= ln (IZR n)).
  { assert (X := ln_above (/ p) ltac:(lra)). apply (Rle_trans _ (ln (p * (1 + / p)))); [rewrite ln_mult by lra; lra|]. apply ln_mono; [nra|]. replace (p * (1 + / p)) with (p + 1) by (field; lra). unfold p. rewrite <- plus_IZR. apply IZR_le. lia. }
  assert (Hi : ln (IZR n) <= (IZR k + 1) * L - / q).
  { assert (X := ln_below (/ q) ltac:(lra)). apply (Rle_trans _ (ln (q * (1 - / q)))); [|rewrite ln_mult by lra; lra]. apply ln_mono; [apply IZR_lt; lia|]. replace (q * (1 - / q)) with (q - 1) by (field; lra). unfold q. rewrite <- minus_IZR. apply IZR_le. lia. }
  set (x := ln (IZR n)) in *. assert (Et : x / L * L = x) by (field; lra). set (t := x / L) in *. set (g := log_base flog n b) in *.
  assert (Tk : IZR k <= t <= IZR k + 1) by (split; apply (Rmult_le_reg_r L); lra).
  assert (Err : 3 * u * t <= 3 * u * (IZR k + 1)) by (apply Rmult_le_compat_l; lra). assert (Gq : 3 * u * (IZR k + 1) * L < / q). { apply (Rmult_lt_reg_r q); [lra|]. rewrite Rinv_l by lra. lra. }
  assert (Gp : / q <= / p / 2) by (replace (/ p / 2) with (/ (2 * p)) by (field; lra); apply Rinv_le_contravar; lra).
  rewrite plus_IZR. split; apply (Rmult_lt_reg_r L); try lra; nra.
Qed.

Lemma log_power_near flog b k : accurate flog -> (2 <= b <= 2 ^ 53)%Z -> (0 <= k < 2 ^ 50)%Z -> (b ^ k <= 2 ^ 53)%Z -> IZR k - 1 < log_base flog (b ^ k) b < IZR k + 1.
Proof.
  intros Ac Hb Hk Hp. assert (Pw : (1 <= b ^ k)%Z) by (assert (X := Z.pow_pos_nonneg b k ltac:(lia) ltac:(lia)); lia). assert (E := log_error flog (b ^ k) b Ac ltac:(lia) Hb). cbn zeta in E. rewrite (ln_pow b k) in E by lia. assert (Pl := ln_pos b ltac:(lia)).
  replace (IZR k * ln (IZR b) / ln (IZR b)) with (IZR k) in E by (field; lra). apply Rabs_le_inv in E. assert (S3 : 3 * bpow radix2 (-52) * IZR k < 1).
  { assert (X : IZR k < IZR (2 ^ 50)) by (apply IZR_lt; lia). rewrite <- bpow_IZR in X by lia. assert (Y : bpow radix2 (-52) * bpow radix2 50 = / 4) by (rewrite <- bpow_plus; cbn; lra). assert (Z1 := bpow_gt_0 radix2 (-52)). nra. }
  lra.
Qed.
Lemma floor_between x k : IZR k <= x < IZR (k + 1) -> Zfloor x = k.
Proof. intro Hx. apply Zfloor_imp. exact Hx. Qed.
Lemma ln10_small : ln 10 <= 2303 / 1000.
Proof.
  apply (Rmult_le_reg_l (IZR (2 ^ prec))); [apply IZR_lt; vm_compute; reflexivity|]. apply (Rle_trans _ _ _ (proj2 ln10_bounds)). apply (Rmult_le_reg_r 1000); [lra|]. replace (IZR (2 ^ prec) * (2303 / 1000) * 1000) with (IZR (2 ^ prec) * 2303) by field. rewrite <- !mult_IZR. apply IZR_le. vm_compute. discriminate.
Qed.
Lemma ln2_small : ln 2 <= 7 / 10.
Proof.
  apply (Rmult_le_reg_l (IZR (2 ^ prec))); [apply IZR_lt; vm_compute; reflexivity|]. apply (Rle_trans _ _ _ (proj2 ln2_bounds)). apply (Rmult_le_reg_r 10); [lra|]. replace (IZR (2 ^ prec) * (7 / 10) * 10) with (IZR (2 ^ prec) * 7) by field. rewrite <- !mult_IZR. apply IZR_le. vm_compute. discriminate.
Qed.

(** ** decimal_length *)
(** below 10^13 the length is right, except that powers of ten may be given one digit less *)
Theorem C95_decimal flog n k : accurate flog -> (0 <= k)%Z -> (10 ^ k <= n < 10 ^ (k + 1))%Z -> (n < 10 ^ 13)%Z ->
  decimal_length flog n = Ok (k + 1)%Z \/ (n = 10 ^ k /\ decimal_length flog n = Ok k)%Z.
Proof.
  intros Ac Hk Hn Hs. assert (K : (k < 13)%Z) by (apply (Z.pow_lt_mono_r_iff 10); lia). assert (Pw : (1 <= 10 ^ k)%Z) by (assert (X := Z.pow_pos_nonneg 10 k ltac:(lia) Hk); lia). unfold decimal_length. rewrite (proj2 (Z.leb_le 0 n)), (proj2 (Z.eqb_neq n 0)) by lia.
  assert (B13 : (10 ^ (k + 1) <= 10 ^ 13)%Z) by (apply Z.pow_le_mono_r; lia). assert (T : (10 ^ 13 <= 2 ^ 53)%Z) by (vm_compute; discriminate).
  destruct (Z.eq_dec n (10 ^ k)) as [->|N].
  - assert (X := log_power_near flog 10 k Ac ltac:(lia) ltac:(lia) ltac:(lia)). destruct (Rlt_le_dec (log_base flog (10 ^ k) 10) (IZR k)) as [L|L].
    + right. split; [reflexivity|]. rewrite (floor_between _ (k - 1)); [apply (f_equal Ok); lia|]. rewrite minus_IZR. replace (k - 1 + 1)%Z with k by lia. lra.
    + left. rewrite (floor_between _ k); [reflexivity|]. rewrite plus_IZR. lra.
  - left. rewrite (floor_between _ k); [reflexivity|]. assert (X := log_between flog 10 k n (2303 / 1000) Ac ltac:(lia) Hk ltac:(lia) ltac:(lia) ln10_small). destruct X as [X1 X2]; [|lra].
    apply (Rle_lt_trans _ (IZR (39 * 10 ^ 13) * (2303 / 1000))); [apply Rmult_le_compat_r; [lra|]; apply IZR_le; nia|]. apply (Rmult_lt_reg_r 1000); [lra|]. replace (IZR (39 * 10 ^ 13) * (2303 / 1000) * 1000) with (IZR (39 * 10 ^ 13) * 2303) by field. rewrite <- !mult_IZR. apply IZR_lt. vm_compute. reflexivity.
Qed.
(** with logarithms rounded to nearest, exactly these powers of ten below 10^23 have one digit less *)
Definition short_powers : list Z := [3; 6; 9; 12; 13; 15; 18; 21]%Z.
Theorem C95_decimal_powers flog k : correctly_rounded flog -> (0 <= k <= 22)%Z -> decimal_length flog (10 ^ k) = Ok (if existsb (Z.eqb k) short_powers then k else (k + 1)%Z).
Proof.
  intros Cr Hk. assert (Pw := Z.pow_pos_nonneg 10 k ltac:(lia) ltac:(lia)). unfold decimal_length. rewrite (proj2 (Z.leb_le 0 _)), (proj2 (Z.eqb_neq _ 0)) by lia. destruct (Z.eq_dec k 0) as [->|N].
  - rewrite (log_power_0 flog 10 Cr). rewrite (floor_between 0 0); [reflexivity|]. cbn. lra.
  - assert (F : forallb (fun i => match log_power ln10_low ln10_high (Z.of_nat i) with Some d => Z.eqb (floor_of d + 1) (if existsb (Z.eqb (Z.of_nat i)) short_powers then Z.of_nat i else Z.of_nat i + 1) | None => false end) (seq 1 22) = true) by (vm_compute; reflexivity).
    rewrite forallb_forall in F. specialize (F (Z.to_nat k) ltac:(apply in_seq; lia)). rewrite Z2Nat.id in F by lia. destruct (log_power _ _ k) as [d|] eqn:E; [|discriminate F]. apply Z.eqb_eq in F.
    rewrite (log_power_spec flog 10 k ln10_low ln10_high d Cr ltac:(lia) ltac:(lia) (rnd_int 10 ltac:(lia)) (rnd_pow10 k Hk) ln10_bounds E), floor_of_spec, F. reflexivity.
Qed.
Theorem C95_decimal_refuted : exists n, forall flog, correctly_rounded flog -> (10 ^ 3 <= n < 10 ^ 4)%Z /\ decimal_length flog n = Ok 3%Z.
Proof. exists (10 ^ 3)%Z. intros flog Cr. split; [lia|]. rewrite (C95_decimal_powers flog 3 Cr) by lia. reflexivity. Qed.

(** ** binary_length and is_power_of_two *)
Lemma natural_iff x : natural_r x = true <-> exists k, (0 <= k)%Z /\ x = IZR k.
Proof.
  unfold natural_r. rewrite andb_true_iff. split.
  - intros [A B]. destruct (Rle_bool_spec 0 x) as [P|]; [|discriminate A]. destruct (Req_bool_spec x (IZR (Zfloor x))) as [E|]; [|discriminate B]. exists (Zfloor x). split; [apply Zfloor_lub; exact P | exact E].
  - intros (k & Hk & ->). rewrite Zfloor_IZR. split; [apply Rle_bool_true, IZR_le, Hk | apply Req_bool_true; reflexivity].
Qed.
(* the powers of two that are not recognized *)
Definition log_powers : list (option (Z * Z)) := Eval vm_compute in map (fun i => log_power ln2_low ln2_high (Z.of_nat i)) (seq 1 1023).
Definition long_powers : list Z := Eval vm_compute in
  map Z.of_nat (filter (fun i => match nth (i - 1) log_powers None with Some d => negb (natural_of d) | None => true end) (seq 1 1023)).
Lemma log_powers_eq i : (i < 1023)%nat -> nth i log_powers None = log_power ln2_low ln2_high (Z.of_nat (S i)).
Proof.
  intro Hi. set (f := fun i => log_power ln2_low ln2_high (Z.of_nat i)). assert (E : log_powers = map f (seq 1 1023)) by (vm_compute; reflexivity). rewrite E. rewrite (nth_indep (map f (seq 1 1023)) None (f O)) by (rewrite map_length, seq_length; exact Hi). rewrite map_nth, seq_nth by exact Hi. reflexivity.
Qed.
Theorem C95_powers_of_two flog k : correctly_rounded flog -> (0 <= k <= 1023)%Z ->
  binary_length flog (2 ^ k) = Ok (k + 1)%Z /\ is_power_of_two flog (2 ^ k) = negb (existsb (Z.eqb k) long_powers).
Proof.
  intros Cr Hk. assert (Pw := Z.pow_pos_nonneg 2 k ltac:(lia) ltac:(lia)). unfold binary_length, is_power_of_two. rewrite (proj2 (Z.leb_le 0 _)), (proj2 (Z.eqb_neq _ 0)) by lia. cbn [negb]. destruct (Z.eq_dec k 0) as [->|N].
  - rewrite (log_power_0 flog 2 Cr). split; [rewrite (floor_between 0 0); [reflexivity | cbn; lra]|]. apply natural_iff. exists 0%Z. split; [lia | reflexivity].
  - assert (F : forallb (fun i => match nth (i - 1) log_powers None with Some d => Z.eqb (floor_of d) (Z.of_nat i) && eqb (natural_of d) (negb (existsb (Z.eqb (Z.of_nat i)) long_powers)) | None => false end) (seq 1 1023) = true) by (vm_compute; reflexivity).
    rewrite forallb_forall in F. specialize (F (Z.to_nat k) ltac:(apply in_seq; lia)). rewrite log_powers_eq in F by lia. replace (S (Z.to_nat k - 1)) with (Z.to_nat k) in F by lia. rewrite Z2Nat.id in F by lia. destruct (log_power _ _ k) as [d|] eqn:E; [|discriminate F]. apply andb_true_iff in F as [F1 F2]. apply Z.eqb_eq in F1. apply eqb_prop in F2.
    rewrite (log_power_spec flog 2 k ln2_low ln2_high d Cr ltac:(lia) ltac:(lia) (rnd_int 2 ltac:(lia)) (rnd_pow2 k ltac:(lia)) ln2_bounds E), floor_of_spec, natural_of_spec, F1, F2. split; reflexivity.
Qed.
(** below 2^45 the length is right, and no other number is taken for a power of two *)
Theorem C95_binary flog n k : correctly_rounded flog -> (0 <= k)%Z -> (2 ^ k <= n < 2 ^ (k + 1))%Z -> (n < 2 ^ 45)%Z ->
  binary_length flog n = Ok (k + 1)%Z /\ (is_power_of_two flog n = true <-> n = 2 ^ k /\ ~ In k long_powers)%Z.
Proof.
  intros Cr Hk Hn Hs. assert (K : (k < 45)%Z) by (apply (Z.pow_lt_mono_r_iff 2); lia). destruct (Z.eq_dec n (2 ^ k)) as [->|N].
  - destruct (C95_powers_of_two flog k Cr ltac:(lia)) as [P1 P2]. split; [exact P1|]. rewrite P2, negb_true_iff. split.
    + intro X. split; [reflexivity|]. intro Y. assert (Z1 : existsb (Z.eqb k) long_powers = true) by (apply existsb_exists; exists k; split; [exact Y | apply Z.eqb_refl]). congruence.
    + intros [_ X]. destruct (existsb _ _) eqn:Y; [|reflexivity]. exfalso. apply existsb_exists in Y as (k' & Y1 & Y2). apply Z.eqb_eq in Y2. subst k'. exact (X Y1).
  - assert (Pw : (1 <= 2 ^ k)%Z) by (assert (X := Z.pow_pos_nonneg 2 k ltac:(lia) Hk); lia). assert (B45 : (2 ^ (k + 1) <= 2 ^ 45)%Z) by (apply Z.pow_le_mono_r; lia).
    assert (X := log_between flog 2 k n (7 / 10) (rounded_accurate flog Cr) ltac:(lia) Hk ltac:(lia) ltac:(lia) ln2_small). destruct X as [X1 X2].
    { apply (Rle_lt_trans _ (IZR (135 * 2 ^ 45) * (7 / 10))); [apply Rmult_le_compat_r; [lra|]; apply IZR_le; nia|]. apply (Rmult_lt_reg_r 10); [lra|]. replace (IZR (135 * 2 ^ 45) * (7 / 10) * 10) with (IZR (135 * 2 ^ 45) * 7) by field. rewrite <- !mult_IZR. apply IZR_lt. vm_compute. reflexivity. }
    unfold binary_length, is_power_of_two. rewrite (proj2 (Z.leb_le 0 n)), (proj2 (Z.eqb_neq n 0)) by lia. cbn [negb]. split; [rewrite (floor_between _ k); [reflexivity | lra]|]. split; [|intros [Y _]; contradiction]. intro Y. apply natural_iff in Y as (i & _ & Ei). rewrite Ei in X1, X2. apply lt_IZR in X1, X2. lia.
Qed.
(** zero and negative numbers: whatever the logarithm, they are no powers of two; zero has no digits, negative numbers are rejected *)
Theorem C95_not_positive flog n : (n <= 0)%Z -> is_power_of_two flog n = false /\
  binary_length flog n = (if Z.eqb n 0 then Ok 0%Z else Err ArgValueError) /\ decimal_length flog n = (if Z.eqb n 0 then Ok 0%Z else Err ArgValueError).
Proof.
  intro Hn. unfold is_power_of_two, binary_length, decimal_length. destruct (Z.eqb_spec n 0) as [->|N]; [repeat split|]. rewrite (proj2 (Z.leb_gt 0 n)) by lia. repeat split.
Qed.
(** 2^29 is not taken for a power of two, but 2^48 - 1 is, and gets 49 binary digits *)
Theorem C95_power_refuted : exists n m, forall flog, correctly_rounded flog -> n = (2 ^ 29)%Z /\ is_power_of_two flog n = false /\
  (2 ^ 47 < m < 2 ^ 48)%Z /\ is_power_of_two flog m = true /\ binary_length flog m = Ok 49%Z.
Proof.
  exists (2 ^ 29)%Z, (2 ^ 48 - 1)%Z. intros flog Cr. split; [reflexivity|]. split; [rewrite (proj2 (C95_powers_of_two flog 29 Cr ltac:(lia))); vm_compute; reflexivity|]. split; [lia|].
  assert (L : log_base flog (2 ^ 48 - 1) 2 = 48).
  { unfold log_base. rewrite (rnd_int (2 ^ 48 - 1)), (rnd_int 2) by lia. rewrite !(rounded flog _ Cr) by lia. assert (B := ln2_bounds). set (x := IZR (2 ^ 48)). assert (Px : x = IZR (2 ^ 48)) by reflexivity. assert (Ix : 0 < / x < / 4) by (split; [apply Rinv_0_lt_compat, IZR_lt; lia | apply Rinv_lt_contravar; [unfold x; lra | unfold x; lra]]).
    assert (El : ln (IZR (2 ^ 48 - 1)) = 48 * ln 2 + ln (1 - / x)). { replace 48 with (IZR 48) by reflexivity. rewrite <- (ln_pow 2 48) by lia. fold x. rewrite <- ln_mult by (unfold x in *; lra). f_equal. rewrite minus_IZR. fold x. field. unfold x. lra. }
    assert (U := ln_below (/ x) ltac:(lra)). assert (D : - (/ x + / x * / x * 2) <= ln (1 - / x)).
    { assert (Z0 : 0 <= / x / (1 - / x) < 1) by (split; [apply Rmult_le_pos; [lra | left; apply Rinv_0_lt_compat; lra]|]; apply (Rmult_lt_reg_r (1 - / x)); [lra|]; replace (/ x / (1 - / x) * (1 - / x)) with (/ x) by (field; unfold x in *; lra); lra).
      assert (L1 : ln (1 + / x / (1 - / x)) <= / x / (1 - / x)). { rewrite <- (ln_exp (/ x / (1 - / x))) at 2. apply ln_mono; [lra|]. destruct (Req_dec (/ x / (1 - / x)) 0) as [->|N]; [rewrite exp_0; lra | left; apply exp_ineq1; exact N]. }
      replace (1 + / x / (1 - / x)) with (/ (1 - / x)) in L1 by (field; unfold x in *; lra). rewrite ln_Rinv in L1 by lra. assert (Q : / x / (1 - / x) <= / x + / x * / x * 2). { apply (Rmult_le_reg_r (1 - / x)); [lra|]. replace (/ x / (1 - / x) * (1 - / x)) with (/ x) by (field; unfold x in *; lra). assert (0 < / x * / x) by nra. nra. } lra. }
    destruct (round_to (48 * ln2_low - 2 ^ 72 - 2 ^ 30) (48 * ln2_high - 2 ^ 72) prec) as [d1|] eqn:E1; [|vm_compute in E1; discriminate E1]. destruct (round_to ln2_low ln2_high prec) as [d2|] eqn:E2; [|vm_compute in E2; discriminate E2]. destruct d1 as [m1 e1], d2 as [m2 e2].
    assert (S72 : IZR (2 ^ prec) * / x = IZR (2 ^ 72)) by (replace (IZR (2 ^ prec)) with (IZR (2 ^ 72) * x) by (unfold x; rewrite <- mult_IZR; reflexivity); field; unfold x; lra).
    rewrite (round_to_spec _ _ prec _ _ (ln (IZR (2 ^ 48 - 1))) ltac:(vm_compute; discriminate) E1).
    2:{ rewrite El. rewrite !minus_IZR, !mult_IZR. assert (Pp : 0 < IZR (2 ^ prec)) by (apply IZR_lt; vm_compute; reflexivity). assert (S2 : IZR (2 ^ prec) * (/ x * / x * 2) <= IZR (2 ^ 30)). { replace (IZR (2 ^ prec) * (/ x * / x * 2)) with (IZR (2 ^ prec) * / x * / x * 2) by ring. rewrite S72. replace (IZR (2 ^ 72)) with (IZR (2 ^ 24) * x) by (unfold x; rewrite <- mult_IZR; reflexivity). replace (IZR (2 ^ 24) * x * / x * 2) with (IZR (2 ^ 24) * 2) by (field; unfold x; lra). lra. }
        split; nra. }
    rewrite (round_to_spec _ _ prec _ _ (ln 2) ltac:(vm_compute; discriminate) E2) by lra. destruct (quot (m1, e1) (m2, e2)) as [d|] eqn:Eq.
    - change (rnd (value (m1, e1) / value (m2, e2)) = 48). rewrite (quot_spec _ _ _ Eq). assert (Ed : d = (48 * 2 ^ 47, -47)%Z). { vm_compute in E1, E2. injection E1 as <- <-. injection E2 as <- <-. vm_compute in Eq. injection Eq as <-. reflexivity. } rewrite Ed. unfold value. cbn [fst snd]. rewrite mult_IZR, <- (bpow_IZR 47) by lia. rewrite Rmult_assoc, <- bpow_plus. cbn. lra.
    - exfalso. vm_compute in E1, E2. injection E1 as <- <-. injection E2 as <- <-. vm_compute in Eq. discriminate Eq. }
  unfold is_power_of_two, binary_length. rewrite L. split; [apply natural_iff; exists 48%Z; split; [lia | reflexivity]|]. rewrite Zfloor_IZR. reflexivity.
Qed.

(** there are such logarithms; the failing powers of two begin with these *)
Example C95_ex : (exists flog, correctly_rounded flog /\ accurate flog) /\ firstn 8 long_powers = [29; 31; 39; 47; 51; 55; 58; 59]%Z /\ (10 ^ 2 <= 999 < 10 ^ 3)%Z /\ (2 ^ 28 <= 300000000 < 2 ^ 29)%Z /\ (-8 <= 0)%Z.
Proof.
  split; [|split; [vm_compute; reflexivity | lia]]. assert (C : correctly_rounded (fun x => rnd (ln x))) by (intros n Hn; reflexivity). exists (fun x => rnd (ln x)). split; [exact C | apply rounded_accurate, C].
Qed.
Print Assumptions C95_decimal.
Print Assumptions C95_decimal_refuted.
Print Assumptions C95_decimal_powers.
Print Assumptions C95_powers_of_two.
Print Assumptions C95_binary.
Print Assumptions C95_not_positive.
Print Assumptions C95_power_refuted.
