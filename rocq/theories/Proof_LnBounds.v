(** Proof_LnBounds: bounds of natural logarithms as integers. *)

From Coq Require Import ZArith Reals Lra Lia List.
From Flocq Require Import Core.
Local Open Scope R_scope.

(** * the series of ln ((1 + x) / (1 - x)) *)
Fixpoint odd_sum (n : nat) (x : R) : R := match n with O => 0 | S k => odd_sum k x + x ^ (2 * k + 1) / INR (2 * k + 1) end.
Fixpoint even_sum (n : nat) (x : R) : R := match n with O => 0 | S k => even_sum k x + x ^ (2 * k) end.
Lemma odd_sum_deriv n x : derivable_pt_lim (odd_sum n) x (even_sum n x).
Proof.
  induction n as [|n IH]; cbn [odd_sum even_sum]; [apply derivable_pt_lim_const|]. apply (derivable_pt_lim_plus (odd_sum n) (fun x => x ^ (2 * n + 1) / INR (2 * n + 1))); [exact IH|].
  assert (P : INR (2 * n + 1) <> 0) by (apply not_0_INR; lia).
  assert (D := derivable_pt_lim_scal (fun x => x ^ (2 * n + 1)) (/ INR (2 * n + 1)) x _ (derivable_pt_lim_pow x (2 * n + 1))).
  replace (x ^ (2 * n)) with (/ INR (2 * n + 1) * (INR (2 * n + 1) * x ^ Init.Nat.pred (2 * n + 1))) by (replace (Init.Nat.pred (2 * n + 1)) with (2 * n)%nat by lia; field; exact P).
  intros eps He. destruct (D eps He) as (delta & Hd). exists delta. intros h H1 H2. specialize (Hd h H1 H2). unfold mult_real_fct in Hd. unfold Rdiv in *. replace ((x + h) ^ (2 * n + 1) * / INR (2 * n + 1) - x ^ (2 * n + 1) * / INR (2 * n + 1)) with (/ INR (2 * n + 1) * (x + h) ^ (2 * n + 1) - / INR (2 * n + 1) * x ^ (2 * n + 1)) by ring. exact Hd.
Qed.
Lemma even_sum_eq n x : even_sum n x * (1 - x * x) = 1 - x ^ (2 * n).
Proof. induction n as [|n IH]; cbn [even_sum]; [simpl; ring|]. rewrite Rmult_plus_distr_r, IH. replace (2 * S n)%nat with (2 + 2 * n)%nat by lia. rewrite pow_add. simpl (x ^ 2). ring. Qed.

Definition gap (n : nat) (x : R) : R := ln (1 + x) - ln (1 - x) - 2 * odd_sum n x.
Lemma gap_deriv n x : 0 <= x < 1 -> derivable_pt_lim (gap n) x (2 * x ^ (2 * n) / (1 - x * x)).
Proof.
  intro Hx. assert (D1 : derivable_pt_lim (fun x => ln (1 + x)) x (/ (1 + x))).
  { replace (/ (1 + x)) with (/ (1 + x) * (0 + 1)) by ring. apply (derivable_pt_lim_comp (fun x => 1 + x) ln); [|apply derivable_pt_lim_ln; lra]. apply derivable_pt_lim_plus; [apply derivable_pt_lim_const | apply derivable_pt_lim_id]. }
  assert (D2 : derivable_pt_lim (fun x => ln (1 - x)) x (/ (1 - x) * (0 - 1))).
  { apply (derivable_pt_lim_comp (fun x => 1 - x) ln); [|apply derivable_pt_lim_ln; lra]. apply derivable_pt_lim_minus; [apply derivable_pt_lim_const | apply derivable_pt_lim_id]. }
  assert (D3 := derivable_pt_lim_scal (odd_sum n) 2 x _ (odd_sum_deriv n x)).
  assert (D := derivable_pt_lim_minus _ _ _ _ _ (derivable_pt_lim_minus _ _ _ _ _ D1 D2) D3). cbn beta in D.
  assert (E := even_sum_eq n x). assert (N : 1 - x * x <> 0) by nra.
  replace (2 * x ^ (2 * n) / (1 - x * x)) with (/ (1 + x) - / (1 - x) * (0 - 1) - 2 * even_sum n x); [exact D|].
  apply (Rmult_eq_reg_r (1 - x * x)); [|exact N]. unfold Rdiv. rewrite (Rmult_assoc (2 * x ^ (2 * n))), Rinv_l, Rmult_1_r by exact N. replace (x ^ (2 * n)) with (1 - even_sum n x * (1 - x * x)) by (rewrite E; ring). field. lra.
Qed.
Lemma odd_sum_0 n : odd_sum n 0 = 0.
Proof. induction n as [|n IH]; cbn [odd_sum]; [reflexivity|]. rewrite IH, pow_i by lia. unfold Rdiv. ring. Qed.
Lemma ln_series n x : 0 < x < 1 -> 2 * odd_sum n x <= ln ((1 + x) / (1 - x)) <= 2 * odd_sum n x + 2 * x ^ (2 * n + 1) / (1 - x * x).
Proof.
  intro Hx. assert (E : ln ((1 + x) / (1 - x)) = ln (1 + x) - ln (1 - x)) by (unfold Rdiv; rewrite ln_mult by (try apply Rinv_0_lt_compat; lra); rewrite ln_Rinv by lra; ring).
  destruct (MVT_cor2 (gap n) (fun c => 2 * c ^ (2 * n) / (1 - c * c)) 0 x) as (c & Ec & Hc); [lra | intros c Hc; apply gap_deriv; lra|].
  assert (G0 : gap n 0 = 0) by (unfold gap; rewrite odd_sum_0, Rplus_0_r, Rminus_0_r, ln_1; ring). rewrite G0 in Ec. unfold gap in Ec. rewrite <- E in Ec.
  assert (P1 : 0 <= c ^ (2 * n)) by (apply pow_le; lra). assert (P2 : c ^ (2 * n) <= x ^ (2 * n)) by (apply pow_incr; lra). assert (Q1 : 0 < 1 - c * c) by nra. assert (Q2 : 0 < 1 - x * x) by nra.
  assert (I1 : 0 < / (1 - c * c)) by (apply Rinv_0_lt_compat, Q1). assert (I2 : / (1 - c * c) <= / (1 - x * x)) by (apply Rinv_le_contravar; [exact Q2 | nra]).
  assert (K : 0 <= 2 * c ^ (2 * n) / (1 - c * c) * (x - 0) <= 2 * x ^ (2 * n + 1) / (1 - x * x)).
  { rewrite pow_add, pow_1, Rminus_0_r. unfold Rdiv. split.
    - apply Rmult_le_pos; [apply Rmult_le_pos; [lra | lra] | lra].
    - replace (2 * (x ^ (2 * n) * x) * / (1 - x * x)) with (2 * x ^ (2 * n) * / (1 - x * x) * x) by ring. apply Rmult_le_compat_r; [lra|]. apply Rmult_le_compat; lra. }
  lra.
Qed.

(** * the series in integers, for x = 1 / a *)
Fixpoint series (P a : Z) (n : nat) : Z := match n with O => 0 | S k => series P a k + 2 ^ P / (Z.of_nat (2 * k + 1) * a ^ Z.of_nat (2 * k + 1)) end%Z.
Lemma div_bounds x y : (0 < y)%Z -> IZR (x / y) <= IZR x / IZR y <= IZR (x / y) + 1.
Proof.
  intro Hy. assert (Py : 0 < IZR y) by (apply IZR_lt; exact Hy). assert (M := Z.mod_pos_bound x y Hy). assert (E := Z.div_mod x y ltac:(lia)). assert (ER : IZR x = IZR y * IZR (x / y) + IZR (x mod y)) by (rewrite <- mult_IZR, <- plus_IZR; f_equal; exact E).
  assert (M1 : 0 <= IZR (x mod y)) by (apply IZR_le; lia). assert (M2 : IZR (x mod y) <= IZR y) by (apply IZR_le; lia). unfold Rdiv. split; apply (Rmult_le_reg_r (IZR y)); try exact Py; rewrite ?Rmult_assoc, ?Rinv_l, ?Rmult_1_r by lra; nra.
Qed.
Lemma series_bounds P a n : (0 <= P)%Z -> (0 < a)%Z -> IZR (series P a n) <= IZR (2 ^ P) * odd_sum n (/ IZR a) <= IZR (series P a n) + INR n.
Proof.
  intros HP Ha. induction n as [|n IH]; cbn [series odd_sum]; [simpl; lra|]. assert (Pa : 0 < IZR a) by (apply IZR_lt; exact Ha).
  assert (B := div_bounds (2 ^ P) (Z.of_nat (2 * n + 1) * a ^ Z.of_nat (2 * n + 1)) ltac:(apply Z.mul_pos_pos; [lia | apply Z.pow_pos_nonneg; lia])). rewrite plus_IZR, S_INR.
  assert (E : IZR (2 ^ P) * ((/ IZR a) ^ (2 * n + 1) / INR (2 * n + 1)) = IZR (2 ^ P) / IZR (Z.of_nat (2 * n + 1) * a ^ Z.of_nat (2 * n + 1))).
  { rewrite mult_IZR, <- INR_IZR_INZ, <- pow_IZR. rewrite pow_inv. assert (N1 : INR (2 * n + 1) <> 0) by (apply not_0_INR; lia). assert (N2 : IZR a ^ (2 * n + 1) <> 0) by (apply pow_nonzero; lra). field. auto. }
  rewrite Rmult_plus_distr_l, E. lra.
Qed.
(* [a - 1], [a + 1]: the argument of the logarithm is (a + 1) / (a - 1) *)
Lemma ln_int P a n : (0 <= P)%Z -> (2 <= a)%Z -> (2 ^ (P + 2) <= a ^ (Z.of_nat (2 * n + 1)))%Z ->
  IZR (2 * series P a n) <= IZR (2 ^ P) * ln (IZR (a + 1) / IZR (a - 1)) <= IZR (2 * series P a n + 2 * Z.of_nat n + 1).
Proof.
  intros HP Ha Hn. assert (Pa : 2 <= IZR a) by (apply IZR_le; exact Ha). assert (Ia : / IZR a <= / 2) by (apply Rinv_le_contravar; lra). assert (Ip : 0 < / IZR a) by (apply Rinv_0_lt_compat; lra).
  assert (L := ln_series n (/ IZR a) ltac:(lra)). assert (E : (1 + / IZR a) / (1 - / IZR a) = IZR (a + 1) / IZR (a - 1)) by (rewrite plus_IZR, minus_IZR; field; lra). rewrite E in L.
  assert (B := series_bounds P a n HP ltac:(lia)). assert (PP : 0 < IZR (2 ^ P)) by (apply IZR_lt, Z.pow_pos_nonneg; lia).
  assert (R : IZR (2 ^ P) * (2 * (/ IZR a) ^ (2 * n + 1) / (1 - / IZR a * / IZR a)) <= 1).
  { assert (X : IZR (2 ^ P) * (/ IZR a) ^ (2 * n + 1) <= / 4).
    { rewrite pow_inv. rewrite pow_IZR. assert (H' : IZR (2 ^ P) * 4 <= IZR (a ^ Z.of_nat (2 * n + 1))) by (rewrite <- mult_IZR; apply IZR_le; rewrite Z.pow_add_r in Hn by lia; lia).
      assert (Pp : 0 < IZR (a ^ Z.of_nat (2 * n + 1))) by lra. apply (Rmult_le_reg_r (IZR (a ^ Z.of_nat (2 * n + 1)))); [exact Pp|]. rewrite Rmult_assoc, Rinv_l, Rmult_1_r by lra. lra. }
    assert (Sq : / IZR a * / IZR a <= / 2 * / 2) by (apply Rmult_le_compat; lra).
    assert (Y : / (1 - / IZR a * / IZR a) <= / (3 / 4)) by (apply Rinv_le_contravar; lra). assert (X0 : 0 <= (/ IZR a) ^ (2 * n + 1)) by (apply pow_le; lra). assert (Y0 : 0 < / (1 - / IZR a * / IZR a)) by (apply Rinv_0_lt_compat; lra).
    unfold Rdiv. replace (IZR (2 ^ P) * (2 * (/ IZR a) ^ (2 * n + 1) * / (1 - / IZR a * / IZR a))) with (2 * (IZR (2 ^ P) * (/ IZR a) ^ (2 * n + 1)) * / (1 - / IZR a * / IZR a)) by ring.
    assert (X1 : 0 <= IZR (2 ^ P) * (/ IZR a) ^ (2 * n + 1)) by (apply Rmult_le_pos; lra). assert (Z1 : / (3 / 4) = 4 / 3) by lra. rewrite Z1 in Y. apply (Rle_trans _ (2 * / 4 * (4 / 3))); [|lra]. apply Rmult_le_compat; lra. }
  set (l := ln (IZR (a + 1) / IZR (a - 1))) in *. rewrite !plus_IZR, !mult_IZR, <- INR_IZR_INZ. split; [assert (U : IZR (2 ^ P) * (2 * odd_sum n (/ IZR a)) <= IZR (2 ^ P) * l) by (apply Rmult_le_compat_l; lra); lra|]. set (r := 2 * (/ IZR a) ^ (2 * n + 1) / (1 - / IZR a * / IZR a)) in *. assert (U : IZR (2 ^ P) * l <= IZR (2 ^ P) * (2 * odd_sum n (/ IZR a) + r)) by (apply Rmult_le_compat_l; lra). lra.
Qed.

(** the logarithms of 2 and 10, multiplied with 2 ^ 120 *)
Definition prec : Z := 120.
Definition ln2_low : Z := Eval vm_compute in (2 * series prec 3 40)%Z.
Definition ln2_high : Z := Eval vm_compute in (2 * series prec 3 40 + 81)%Z.
Definition ln54_low : Z := Eval vm_compute in (2 * series prec 9 20)%Z.
Definition ln54_high : Z := Eval vm_compute in (2 * series prec 9 20 + 41)%Z.
Lemma ln2_bounds : IZR ln2_low <= IZR (2 ^ prec) * ln 2 <= IZR ln2_high.
Proof.
  assert (B := ln_int prec 3 40 ltac:(vm_compute; discriminate) ltac:(lia) ltac:(vm_compute; discriminate)). replace (IZR (3 + 1) / IZR (3 - 1)) with 2 in B by (cbn; lra).
  change (2 * series prec 3 40)%Z with ln2_low in B. exact B.
Qed.
Definition ln10_low : Z := Eval vm_compute in (3 * ln2_low + ln54_low)%Z.
Definition ln10_high : Z := Eval vm_compute in (3 * ln2_high + ln54_high)%Z.
Lemma ln10_bounds : IZR ln10_low <= IZR (2 ^ prec) * ln 10 <= IZR ln10_high.
Proof.
  assert (B := ln_int prec 9 20 ltac:(vm_compute; discriminate) ltac:(lia) ltac:(vm_compute; discriminate)). replace (IZR (9 + 1) / IZR (9 - 1)) with (5 / 4) in B by (cbn; lra).
  change (2 * series prec 9 20)%Z with ln54_low in B. change (ln54_low + 2 * Z.of_nat 20 + 1)%Z with ln54_high in B. assert (B2 := ln2_bounds).
  assert (E : ln 10 = 3 * ln 2 + ln (5 / 4)). { replace 10 with (2 * 2 * 2 * (5 / 4)) by lra. rewrite !ln_mult by lra. ring. }
  assert (E1 : IZR ln10_low = 3 * IZR ln2_low + IZR ln54_low) by (rewrite <- mult_IZR, <- plus_IZR; reflexivity). assert (E2 : IZR ln10_high = 3 * IZR ln2_high + IZR ln54_high) by (rewrite <- mult_IZR, <- plus_IZR; reflexivity).
  rewrite E, E1, E2, Rmult_plus_distr_l. lra.
Qed.
