(** Proof_LogQuot: quotients of rounded logarithms. *)

From Coq Require Import ZArith Reals Lra Lia List Bool.
From Flocq Require Import Core Relative.
From Verif Require Import Model_Base Model_LogQuot Spec_LogQuot Proof_LnBounds.
Import ListNotations.
Local Open Scope R_scope.

Lemma bpow_IZR k : (0 <= k)%Z -> bpow radix2 k = IZR (2 ^ k).
Proof. intro Hk. rewrite <- (IZR_Zpower radix2 k Hk). reflexivity. Qed.

(** * rounding of a real number with known bounds *)
Definition round_to (A B P : Z) : option (Z * Z) :=
  let l := Z.log2 A in
  let e := (l - P - 52)%Z in
  let s := (2 ^ (l - 52))%Z in
  let m := ((2 * A + s) / (2 * s))%Z in
  if ((52 <=? l) && (-1074 <=? e) && ((2 * m - 1) * s <? 2 * A) && (2 * B <? (2 * m + 1) * s) && (B <? 2 ^ (l + 1)))%Z then Some (m, e) else None.
Lemma round_to_spec A B P m e v : (0 <= P)%Z -> round_to A B P = Some (m, e) -> IZR A <= v * IZR (2 ^ P) <= IZR B -> rnd v = IZR m * bpow radix2 e.
Proof.
  intros HP E Hv. unfold round_to in E. set (l := Z.log2 A) in *. set (s := (2 ^ (l - 52))%Z) in *. cbn zeta in E. remember ((2 * A + s) / (2 * s))%Z as m0 eqn:Em0. clear Em0. destruct (_ && _) eqn:C in E; [|discriminate E]. assert (Em : m0 = m) by congruence. assert (Ee : (l - P - 52)%Z = e) by congruence. clear E. rewrite !andb_true_iff in C. destruct C as ((((C1 & C2) & C3) & C4) & C5). rewrite Em in C3, C4. clear Em.
  apply Z.leb_le in C1, C2. apply Z.ltb_lt in C3, C4, C5. assert (PA : (0 < A)%Z) by (destruct (Z.lt_ge_cases 0 A) as [L|L]; [exact L|]; assert (X := Z.log2_nonpos A L); unfold l in C1; lia). assert (LA := Z.log2_spec A PA). fold l in LA.
  rewrite <- (bpow_IZR P HP) in Hv. assert (L1 : bpow radix2 (l - P) <= v).
  { apply (Rmult_le_reg_r (bpow radix2 P)); [apply bpow_gt_0|]. rewrite <- bpow_plus. replace (l - P + P)%Z with l by lia. rewrite bpow_IZR by lia. apply (Rle_trans _ (IZR A)); [apply IZR_le; lia | lra]. }
  assert (L2 : v < bpow radix2 (l - P + 1)).
  { apply (Rmult_lt_reg_r (bpow radix2 P)); [apply bpow_gt_0|]. rewrite <- bpow_plus. replace (l - P + 1 + P)%Z with (l + 1)%Z by lia. rewrite (bpow_IZR (l + 1)) by lia. apply (Rle_lt_trans _ (IZR B)); [lra | apply IZR_lt; lia]. }
  assert (Pv : 0 < v) by (apply (Rlt_le_trans _ (bpow radix2 (l - P))); [apply bpow_gt_0 | exact L1]).
  assert (Mg : mag radix2 v = (l - P + 1)%Z :> Z). { apply mag_unique_pos. replace (l - P + 1 - 1)%Z with (l - P)%Z by lia. split; assumption. }
  unfold rnd, round. unfold scaled_mantissa, cexp. rewrite Mg. unfold FLT_exp. replace (Z.max (l - P + 1 - 53) (-1074)) with e by lia. unfold F2R. cbn [Fnum Fexp]. f_equal. apply f_equal.
  apply Znearest_imp. assert (Es : bpow radix2 (l - 52) = IZR s) by (apply bpow_IZR; lia). assert (Ps : 0 < IZR s) by (rewrite <- Es; apply bpow_gt_0).
  assert (Q : v * bpow radix2 (- e) * IZR s = v * bpow radix2 P). { rewrite <- Es, Rmult_assoc, <- bpow_plus. f_equal. f_equal. lia. }
  assert (B1 : IZR ((2 * m - 1) * s) < IZR (2 * A)) by (apply IZR_lt; exact C3). assert (B2 : IZR (2 * B) < IZR ((2 * m + 1) * s)) by (apply IZR_lt; exact C4). rewrite !mult_IZR, minus_IZR, mult_IZR in B1. rewrite !mult_IZR, plus_IZR, mult_IZR in B2.
  set (x := v * bpow radix2 (- e)) in *. apply Rabs_def1; apply (Rmult_lt_reg_r (IZR s)); try exact Ps; nra.
Qed.

Definition value (d : Z * Z) : R := IZR (fst d) * bpow radix2 (snd d).
Definition quot (d1 d2 : Z * Z) : option (Z * Z) :=
  let E := (200 + snd d1 - snd d2)%Z in
  let A := (fst d1 * 2 ^ E / fst d2)%Z in
  if ((0 <=? E) && (0 <? fst d2))%Z then round_to A (A + 1) 200 else None.
Lemma quot_spec d1 d2 d : quot d1 d2 = Some d -> rnd (value d1 / value d2) = value d.
Proof.
  destruct d1 as [m1 e1], d2 as [m2 e2], d as [m e]. unfold quot, value. cbn [fst snd]. destruct (_ && _) eqn:C; [|discriminate]. apply andb_true_iff in C as [C1 C2]. apply Z.leb_le in C1. apply Z.ltb_lt in C2. intro E.
  apply (round_to_spec _ _ 200 _ _ _ ltac:(lia) E). assert (D := div_bounds (m1 * 2 ^ (200 + e1 - e2)) m2 C2). rewrite mult_IZR, <- bpow_IZR in D by exact C1. rewrite plus_IZR. assert (Pm : 0 < IZR m2) by (apply IZR_lt; exact C2). assert (Pb := bpow_gt_0 radix2 e2).
  replace (IZR m1 * bpow radix2 e1 / (IZR m2 * bpow radix2 e2) * IZR (2 ^ 200)) with (IZR m1 * bpow radix2 (200 + e1 - e2) / IZR m2); [exact D|]. rewrite <- (bpow_IZR 200) by lia. replace (200 + e1 - e2)%Z with (e1 + 200 + - e2)%Z by lia. rewrite !bpow_plus, bpow_opp. field. lra.
Qed.
(* the floor, and whether the number is natural *)
Definition floor_of (d : Z * Z) : Z := if (snd d <=? 0)%Z then (fst d / 2 ^ (- snd d))%Z else (fst d * 2 ^ snd d)%Z.
Lemma floor_of_spec d : Zfloor (value d) = floor_of d.
Proof.
  destruct d as [m e]. unfold value, floor_of. cbn [fst snd]. destruct (Z.leb_spec e 0) as [L|L].
  - rewrite <- (Z.opp_involutive e) at 1. rewrite bpow_opp, bpow_IZR by lia. change (IZR m * / IZR (2 ^ (- e))) with (IZR m / IZR (2 ^ (- e))). apply Zfloor_div. apply Z.pow_nonzero; lia.
  - rewrite bpow_IZR, <- mult_IZR by lia. apply Zfloor_IZR.
Qed.
Definition natural_of (d : Z * Z) : bool := ((0 <=? fst d) && ((0 <=? snd d) || (fst d mod 2 ^ (- snd d) =? 0)))%Z.
Lemma natural_of_spec d : natural_r (value d) = natural_of d.
Proof.
  destruct d as [m e]. unfold natural_r, natural_of. rewrite (floor_of_spec (m, e)). unfold value. cbn [fst snd]. assert (Pb := bpow_gt_0 radix2 e). f_equal.
  - destruct (Rle_bool_spec 0 (IZR m * bpow radix2 e)) as [L|L], (Z.leb_spec 0 m) as [L'|L']; try reflexivity; exfalso.
    + apply IZR_lt in L'. nra.
    + apply IZR_le in L'. nra.
  - unfold floor_of. cbn [fst snd]. destruct (Z.leb_spec e 0) as [L|L].
    + assert (Pp : (0 < 2 ^ (- e))%Z) by (apply Z.pow_pos_nonneg; lia). assert (Pq : 0 < IZR (2 ^ (- e))) by (apply IZR_lt; exact Pp). assert (Eb : bpow radix2 e = / IZR (2 ^ (- e))) by (rewrite <- bpow_IZR, <- bpow_opp by lia; f_equal; lia).
      assert (G : IZR m * bpow radix2 e = IZR (m / 2 ^ (- e)) <-> (m mod 2 ^ (- e) = 0)%Z).
      { rewrite Eb. assert (Dm := Z.div_mod m (2 ^ (- e)) ltac:(lia)). split; intro X.
        - assert (Y : IZR m = IZR (2 ^ (- e) * (m / 2 ^ (- e)))) by (rewrite mult_IZR, <- X; field; lra). apply eq_IZR in Y. lia.
        - rewrite X in Dm. rewrite Dm at 1. rewrite Z.add_0_r, mult_IZR. field. lra. }
      replace (0 <=? e)%Z with (e =? 0)%Z by (destruct (Z.eqb_spec e 0), (Z.leb_spec 0 e); try reflexivity; lia). destruct (Req_bool_spec (IZR m * bpow radix2 e) (IZR (m / 2 ^ (- e)))) as [X|X].
      * apply G in X. rewrite (proj2 (Z.eqb_eq _ _) X), orb_true_r. reflexivity.
      * assert (X' : (m mod 2 ^ (- e) <> 0)%Z) by tauto. rewrite (proj2 (Z.eqb_neq _ _) X'). destruct (Z.eqb_spec e 0) as [->|_]; [|reflexivity]. exfalso. apply X'. apply Z.mod_1_r.
    + rewrite (proj2 (Z.leb_le 0 e)) by lia. cbn [orb]. apply Req_bool_true. rewrite bpow_IZR, <- mult_IZR by lia. reflexivity.
Qed.

(** * logarithms that are rounded to nearest *)
Lemma rounded flog n : correctly_rounded flog -> (1 <= n)%Z -> flog (IZR n) = rnd (ln (IZR n)).
Proof. intros Cr Hn. exact (Cr n Hn). Qed.
Lemma rnd_float m e : (Z.abs m <= 2 ^ 53)%Z -> (-1074 <= e)%Z -> rnd (IZR m * bpow radix2 e) = IZR m * bpow radix2 e.
Proof.
  intros Hm He. apply round_generic; [typeclasses eauto|]. apply generic_format_FLT. destruct (Z.eq_dec (Z.abs m) (2 ^ 53)) as [E|N].
  - exists (Float radix2 (m / 2) (e + 1)); cbn [Fnum Fexp]; [|rewrite Z.abs_lt; change (Zpower radix2 53) with (2 ^ 53)%Z; assert (X := Z.div_mod m 2 ltac:(lia)); assert (Y := Z.mod_pos_bound m 2 ltac:(lia)); lia | lia].
    unfold F2R. cbn [Fnum Fexp]. rewrite bpow_plus. change (bpow radix2 1) with 2. assert (X : m = (2 * (m / 2))%Z) by (assert (X := Z.div_mod m 2 ltac:(lia)); assert (m = 2 ^ 53 \/ m = - 2 ^ 53)%Z as [-> | ->] by lia; vm_compute; reflexivity).
    rewrite X at 1. rewrite mult_IZR. ring.
  - exists (Float radix2 m e); cbn [Fnum Fexp]; [reflexivity | change (Zpower radix2 53) with (2 ^ 53)%Z; lia | exact He].
Qed.
Lemma rnd_int n : (0 <= n <= 2 ^ 53)%Z -> rnd (IZR n) = IZR n.
Proof. intro Hn. assert (X := rnd_float n 0 ltac:(lia) ltac:(lia)). change (bpow radix2 0) with 1 in X. rewrite Rmult_1_r in X. exact X. Qed.
Lemma rnd_pow2 k : (0 <= k)%Z -> rnd (IZR (2 ^ k)) = IZR (2 ^ k).
Proof. intro Hk. assert (X := rnd_float 1 k ltac:(cbn; lia) ltac:(lia)). rewrite Rmult_1_l, bpow_IZR in X by exact Hk. exact X. Qed.
Lemma rnd_pow10 k : (0 <= k <= 22)%Z -> rnd (IZR (10 ^ k)) = IZR (10 ^ k).
Proof.
  intro Hk. assert (X := rnd_float (5 ^ k) k). assert (L : (0 < 5 ^ k <= 2 ^ 53)%Z). { split; [apply Z.pow_pos_nonneg; lia|]. apply (Z.le_trans _ (5 ^ 22)); [apply Z.pow_le_mono_r; lia | vm_compute; discriminate]. }
  specialize (X ltac:(lia) ltac:(lia)). rewrite bpow_IZR, <- mult_IZR, <- Z.pow_mul_l in X by lia. exact X.
Qed.
Lemma ln_pow b k : (1 < b)%Z -> (0 <= k)%Z -> ln (IZR (b ^ k)) = IZR k * ln (IZR b).
Proof.
  intros Hb Hk. assert (Pb : 0 < IZR b) by (apply IZR_lt; lia). rewrite <- (Z2Nat.id k Hk) at 1 2. rewrite <- pow_IZR. rewrite <- (Rpower_pow _ _ Pb). unfold Rpower. rewrite ln_exp, INR_IZR_INZ. reflexivity.
Qed.
(* the logarithm of b ^ k, from bounds of that of b *)
Definition log_power (low high k : Z) : option (Z * Z) :=
  match round_to (k * low) (k * high) prec, round_to low high prec with Some d1, Some d2 => quot d1 d2 | _, _ => None end.
Lemma log_power_spec flog b k low high d : correctly_rounded flog -> (1 < b)%Z -> (0 < k)%Z -> rnd (IZR b) = IZR b -> rnd (IZR (b ^ k)) = IZR (b ^ k) -> IZR low <= IZR (2 ^ prec) * ln (IZR b) <= IZR high ->
  log_power low high k = Some d -> log_base flog (b ^ k) b = value d.
Proof.
  intros Cr Hb Hk Rb Rk Bd E. unfold log_power in E. destruct (round_to (k * low) _ _) as [[m1 e1]|] eqn:E1; [|discriminate E]. destruct (round_to low high prec) as [[m2 e2]|] eqn:E2; [|discriminate E].
  assert (Pk : 0 < IZR k) by (apply IZR_lt; exact Hk). unfold log_base. rewrite Rk, Rb, (rounded flog (b ^ k) Cr) by (apply Z.lt_le_incl in Hb; assert (X := Z.pow_pos_nonneg b k ltac:(lia) ltac:(lia)); lia). rewrite (rounded flog b Cr) by lia. rewrite (ln_pow b k Hb) by lia.
  rewrite (round_to_spec _ _ prec _ _ (IZR k * ln (IZR b)) ltac:(vm_compute; discriminate) E1) by (rewrite !mult_IZR; nra). rewrite (round_to_spec _ _ prec _ _ (ln (IZR b)) ltac:(vm_compute; discriminate) E2) by lra.
  exact (quot_spec (m1, e1) (m2, e2) d E).
Qed.
Lemma log_power_0 flog b : correctly_rounded flog -> log_base flog (b ^ 0) b = 0.
Proof.
  intro Cr. unfold log_base. change (b ^ 0)%Z with 1%Z. rewrite (rnd_int 1) by lia. rewrite (rounded flog 1 Cr) by lia. rewrite ln_1. unfold rnd at 2. rewrite round_0 by typeclasses eauto. unfold Rdiv. rewrite Rmult_0_l. apply round_0. typeclasses eauto.
Qed.

(** * logarithms with a small relative error *)
Lemma ln_pos n : (2 <= n)%Z -> / 2 < ln (IZR n).
Proof.
  intro Hn. apply (Rlt_le_trans _ (ln 2)); [exact ln_lt_2|]. apply IZR_le in Hn. destruct (Rle_lt_or_eq_dec _ _ Hn) as [L|L]; [left; apply ln_increasing; lra | rewrite <- L; lra].
Qed.
Lemma rnd_error x : bpow radix2 (-1022) <= Rabs x -> Rabs (rnd x - x) <= / 2 * bpow radix2 (-52) * Rabs x.
Proof. intro Hx. apply (relative_error_N_FLT radix2 (-1074) 53 ltac:(lia) (fun z => negb (Z.even z)) x). exact Hx. Qed.
Lemma log_error flog n b : accurate flog -> (1 <= n <= 2 ^ 53)%Z -> (2 <= b <= 2 ^ 53)%Z -> let t := ln (IZR n) / ln (IZR b) in
  Rabs (log_base flog n b - t) <= 3 * bpow radix2 (-52) * t.
Proof.
  intros Ac Hn Hb t. unfold log_base. rewrite !rnd_int by lia. assert (An := Ac n ltac:(lia)). assert (Ab := Ac b ltac:(lia)). assert (Pb := ln_pos b ltac:(lia)). set (u := bpow radix2 (-52)) in *. assert (Hu : 0 < u < / 1000) by (split; [apply bpow_gt_0 | unfold u; apply (Rle_lt_trans _ (bpow radix2 (-10))); [apply bpow_le; lia | cbn; lra]]).
  destruct (Z.eq_dec n 1) as [->|N1].
  - unfold t. rewrite ln_1 in *. rewrite Rmult_0_r in An. assert (E0 : flog 1 = 0) by (assert (X := Rabs_pos (flog 1 - 0)); assert (Y : Rabs (flog 1 - 0) = 0) by lra; destruct (Req_dec (flog 1 - 0) 0) as [Z0|Z0]; [lra | apply Rabs_no_R0 in Z0; contradiction]).
    rewrite E0. unfold Rdiv. rewrite !Rmult_0_l. unfold rnd. rewrite round_0 by typeclasses eauto. rewrite Rminus_0_r, Rabs_R0. lra.
  - assert (Pn := ln_pos n ltac:(lia)). set (x := ln (IZR n)) in *. set (y := ln (IZR b)) in *. set (x' := flog (IZR n)) in *. set (y' := flog (IZR b)) in *. apply Rabs_le_inv in An, Ab.
    assert (Py : 0 < y') by nra. assert (Px : 0 < x') by nra. assert (Pt : 0 < t) by (unfold t; apply Rdiv_lt_0_compat; lra).
    assert (Q : Rabs (x' / y' - t) <= (2 * u + 3 * u * u) * t).
    { assert (Ex : x = t * y) by (unfold t; field; lra). apply Rabs_le. rewrite Ex in An. split; apply (Rmult_le_reg_r y'); try exact Py.
      - replace ((x' / y' - t) * y') with (x' - t * y') by (field; lra). assert (X1 : x' >= t * y * (1 - u)) by lra. assert (X2 : y' <= y * (1 + u)) by lra. assert (X3 : t * y' <= t * (y * (1 + u))) by (apply Rmult_le_compat_l; lra).
        assert (X4 : y' >= y * (1 - u)) by lra. assert (X5 : (2 * u + 3 * u * u) * t * y' >= (2 * u + 3 * u * u) * t * (y * (1 - u))) by (apply Rle_ge; apply Rmult_le_compat_l; [nra | lra]).
        assert (X6 : (2 * u + 3 * u * u) * t * (y * (1 - u)) >= 2 * u * (t * y)). { assert (Pty : 0 < t * y) by nra. assert (X7 : (2 * u + 3 * u * u) * (1 - u) >= 2 * u) by nra. nra. } nra.
      - replace ((x' / y' - t) * y') with (x' - t * y') by (field; lra). assert (X1 : x' <= t * y * (1 + u)) by lra. assert (X4 : y' >= y * (1 - u)) by lra. assert (X3 : t * y' >= t * (y * (1 - u))) by (apply Rle_ge; apply Rmult_le_compat_l; lra).
        assert (X5 : (2 * u + 3 * u * u) * t * y' >= (2 * u + 3 * u * u) * t * (y * (1 - u))) by (apply Rle_ge; apply Rmult_le_compat_l; [nra | lra]).
        assert (X6 : (2 * u + 3 * u * u) * t * (y * (1 - u)) >= 2 * u * (t * y)). { assert (Pty : 0 < t * y) by nra. assert (X7 : (2 * u + 3 * u * u) * (1 - u) >= 2 * u) by nra. nra. } nra. }
    apply Rabs_le_inv in Q. set (q := x' / y') in *. assert (Bt : / 100 < t). { unfold t. apply (Rmult_lt_reg_r y); [lra|]. replace (x / y * y) with x by (field; lra). assert (Ub : y <= 40). { unfold y. rewrite <- (ln_exp 40). assert (L : IZR b < exp 40). { apply (Rle_lt_trans _ (IZR (2 ^ 53))); [apply IZR_le; lia|]. rewrite <- (exp_ln (IZR (2 ^ 53))) by (apply IZR_lt; lia). apply exp_increasing. rewrite ln_pow by lia.
        assert (X := proj2 ln2_bounds). assert (L7 : ln 2 < 7 / 10). { apply (Rmult_lt_reg_l (IZR (2 ^ prec))); [apply IZR_lt; vm_compute; reflexivity|]. apply (Rle_lt_trans _ _ _ X). apply (Rmult_lt_reg_r 10); [lra|]. replace (IZR (2 ^ prec) * (7 / 10) * 10) with (IZR (2 ^ prec) * 7) by field. rewrite <- !mult_IZR. apply IZR_lt. vm_compute. reflexivity. } lra. }
        left. apply ln_increasing; [apply IZR_lt; lia | exact L]. } nra. }
    assert (K : 2 * u + 3 * u * u < / 100) by nra. assert (K' : (2 * u + 3 * u * u) * t <= / 100 * t) by (apply Rmult_le_compat_r; lra). assert (Bq : / 200 < q) by lra. assert (E := rnd_error q). rewrite (Rabs_pos_eq q) in E by lra. assert (E' : Rabs (rnd q - q) <= / 2 * u * q). { apply E. apply (Rle_trans _ (bpow radix2 (-10))); [apply bpow_le; lia | cbn; lra]. }
    apply Rabs_le_inv in E'. apply Rabs_le. assert (Uq : / 2 * u * q <= / 2 * u * (101 / 100 * t)) by (apply Rmult_le_compat_l; lra). assert (K2 : 3 * u * u * t <= / 100 * u * t) by (apply Rmult_le_compat_r; [lra|]; nra). split; nra.
Qed.
