(** Props_Log: C91, logarithms in floating point. *)

From Coq Require Import ZArith Bool Lia List.
From Verif Require Import Model_Base Model_Binary Model_Boolf Spec_Boolf Proof_Boolf Proof_BoolfMake Model_Log Spec_Log Proof_Log Proof_LogMore.
Import ListNotations.
Open Scope Z_scope.

(** For numbers up to 2 ^ 47 the three functions are exact, whichever of the two neighbouring floating point numbers is
    returned by log2. *)
Theorem C91_exact : forall lg x k, faithful lg -> 0 <= k -> 1 <= x <= 2 ^ 47 ->
  (2 ^ k <= x < 2 ^ (k + 1) -> log_floor lg x = Ok k) /\
  (x <= 2 ^ k -> (k = 0 \/ 2 ^ (k - 1) < x) -> log_ceil lg x = Ok k) /\
  (log_int_d lg x = Ok k <-> x = 2 ^ k) /\
  ((forall j, 0 <= j -> x <> 2 ^ j) -> log_int_d lg x = Err ArgValueError).
Proof.
  intros lg x k F Hk Hx. assert (L47 : Z.log2 x <= 47) by (rewrite <- (Z.log2_pow2 47) by lia; apply Z.log2_le_mono; lia). assert (L : Z.log2 x < 2 ^ 52) by (eapply Z.le_lt_trans; [exact L47 | reflexivity]).
  rewrite log_floor_ok, log_ceil_ok, log_int_ok by lia. assert (X1 : 1 <= x) by lia. assert (FC := floor_ceil lg F x X1 L). assert (D := proj1 (F x X1 L)).
  assert (Fl : forall c, 0 <= c -> 2 ^ c <= x < 2 ^ (c + 1) -> floor_d (lg x) = c).
  { intros c Hc H. assert (B := floor_not_less lg F x X1 L c Hc (proj1 H)). assert (C : c <= 47) by (assert (Y := proj1 (Z.log2_le_pow2 x c ltac:(lia)) (proj1 H)); lia).
    destruct (Z.eq_dec c 47) as [->|N].
    - assert (Y := ceil_not_greater lg F x X1 L 47 ltac:(split; [lia | apply Z.lt_le_incl; reflexivity]) (proj2 Hx)). lia.
    - assert (Y := floor_exact lg F x X1 L c ltac:(lia) (proj2 H)). lia. }
  assert (Ce : forall c, 0 <= c -> x <= 2 ^ c -> (c = 0 \/ 2 ^ (c - 1) < x) -> ceil_d (lg x) = c).
  { intros c Hc H G. assert (B := proj1 (floor_bounds lg x F X1 L)). assert (P := Z.log2_nonneg x). destruct (Z.eq_dec c 0) as [->|N0]; [|destruct G as [G|G]; [lia|]].
    - assert (Y := ceil_not_greater lg F x X1 L 0 ltac:(split; [lia | apply Z.lt_le_incl; reflexivity]) H). lia.
    - assert (C : 0 <= c - 1) by lia.
      assert (C47 : c - 1 <= 47) by (assert (Y := proj1 (Z.log2_le_pow2 x (c - 1) ltac:(lia)) ltac:(lia)); lia).
      assert (Y := ceil_not_greater lg F x X1 L c ltac:(split; [lia | apply Z.le_trans with 48; [lia | apply Z.lt_le_incl; reflexivity]]) H). assert (W := ceil_exact lg F x X1 L (c - 1) ltac:(lia) G). lia. }
  assert (Pw : forall c, 0 <= c -> (natural_d (lg x) = true /\ floor_d (lg x) = c <-> x = 2 ^ c)).
  { intros c Hc. rewrite (natural_iff _ D). split.
    - intros (E & Ef). set (u := Z.log2 x). assert (U := Z.log2_spec x ltac:(lia)). fold u in U. assert (Pu : 0 <= u) by (apply Z.log2_nonneg). unfold Z.succ in U. rewrite (Fl u Pu U) in *. subst c.
      destruct (Z.eq_dec x (2 ^ u)) as [Q|Q]; [exact Q|]. exfalso. assert (Y := Ce (u + 1) ltac:(lia) ltac:(lia) ltac:(right; replace (u + 1 - 1) with u by lia; lia)). lia.
    - intro E. assert (P1 := p2 c Hc). assert (Q : 2 ^ (c + 1) = 2 * 2 ^ c) by (rewrite Z.pow_add_r by lia; change (2 ^ 1) with 2; lia). rewrite (Fl c Hc ltac:(lia)). rewrite (Ce c Hc ltac:(lia)); [auto|].
      destruct (Z.eq_dec c 0) as [C0|C0]; [left; exact C0 | right]. rewrite E. apply Z.pow_lt_mono_r; lia. }
  split; [intro H; rewrite (Fl k Hk H); reflexivity|]. split; [intros H G; rewrite (Ce k Hk H G); reflexivity|]. split.
  - rewrite <- (Pw k Hk). destruct (natural_d (lg x)); split; [intro H; injection H as H; auto | intros (_ & H); rewrite H; reflexivity | discriminate | intros (H & _); discriminate].
  - intro H. destruct (natural_d (lg x)) eqn:N; [exfalso|reflexivity]. assert (P : 0 <= floor_d (lg x)) by (assert (B := proj1 (floor_bounds lg x F X1 L)); assert (P := Z.log2_nonneg x); lia).
    apply (H (floor_d (lg x)) P). apply Pw; auto.
Qed.
Print Assumptions C91_exact.

(** For greater numbers the integer part is never too small, and the other one never too great; they are wrong by at
    most one.  They are exact for powers of two. *)
Theorem C91_always : forall lg x k, faithful lg -> 0 <= k < 2 ^ 52 -> 2 ^ k <= x < 2 ^ (k + 1) ->
  (log_floor lg x = Ok k \/ log_floor lg x = Ok (k + 1)) /\
  (log_ceil lg x = Ok k \/ log_ceil lg x = Ok (k + 1)) /\
  (log_int_d lg x = Ok k \/ log_int_d lg x = Ok (k + 1) \/ log_int_d lg x = Err ArgValueError) /\
  (x = 2 ^ k -> log_floor lg x = Ok k /\ log_ceil lg x = Ok k /\ log_int_d lg x = Ok k).
Proof.
  intros lg x k F Hk Hx. assert (P := p2 k ltac:(lia)). assert (X1 : 1 <= x) by lia. assert (E : Z.log2 x = k) by (apply Z.log2_unique; [lia | unfold Z.succ; exact Hx]). assert (L : Z.log2 x < 2 ^ 52) by lia.
  rewrite log_floor_ok, log_ceil_ok, log_int_ok by lia. assert (B := floor_bounds lg x F X1 L). assert (C := ceil_bounds lg x F X1 L). assert (U := Z.le_log2_up_succ_log2 x). rewrite E in B, C, U.
  assert (Df : floor_d (lg x) = k \/ floor_d (lg x) = k + 1) by lia. assert (Dc : ceil_d (lg x) = k \/ ceil_d (lg x) = k + 1) by lia.
  split; [destruct Df as [D|D]; rewrite D; auto|]. split; [destruct Dc as [D|D]; rewrite D; auto|]. split; [destruct (natural_d (lg x)); [destruct Df as [D|D]; rewrite D|]; auto|].
  intro Q. assert (Y := ceil_not_greater lg F x X1 L k ltac:(lia) ltac:(lia)). assert (FC := floor_ceil lg F x X1 L). assert (F1 : floor_d (lg x) = k) by lia. assert (C1 : ceil_d (lg x) = k) by lia.
  rewrite (proj2 (natural_iff _ (proj1 (F x X1 L)))) by lia. rewrite F1, C1. auto.
Qed.
Print Assumptions C91_always.

Theorem C91_rejected : forall lg x, x <= 0 ->
  log_floor lg x = Err ArgValueError /\ log_ceil lg x = Err ArgValueError /\ log_int_d lg x = Err ArgValueError /\ (x < 0 -> intval_to_arity_d lg x = Err ArgValueError).
Proof. intros lg x H. unfold log_floor, log_ceil, log_int_d. rewrite (proj2 (Z.leb_gt _ _)) by lia. repeat split; try reflexivity. apply arity_d_negative. Qed.
Print Assumptions C91_rejected.

(** Even if log2 always returned the nearest floating point number, the integer part would be too great, a number that
    is not a power of two would be taken for one, and the other integer would be too small. *)
Theorem C91_refuted : forall lg k, nearest lg -> 49 <= k <= 63 ->
  log_floor lg (2 ^ k - 1) = Ok k /\ log_int_d lg (2 ^ k - 1) = Ok k /\ log_int_d lg (2 ^ k + 1) = Ok k /\ log_ceil lg (2 ^ k + 1) = Ok k.
Proof.
  intros lg k N Hk. assert (P : 2 ^ 49 <= 2 ^ k) by (apply Z.pow_le_mono_r; lia). assert (P0 : 2 <= 2 ^ 49) by (change 2 with (2 ^ 1) at 1; apply Z.pow_le_mono_r; lia).
  assert (V : forall y, 1 <= y -> Z.log2 y < 2 ^ 52 -> mant (lg y) = k * 2 ^ scale (lg y) -> floor_d (lg y) = k /\ ceil_d (lg y) = k /\ natural_d (lg y) = true).
  { intros y Hy L E. assert (D := proj1 (N y Hy L)). assert (Q := p2 _ (proj2 D)). assert (A := proj2 (floor_ge (lg y) k D) ltac:(lia)). assert (B := proj2 (ceil_le (lg y) k D) ltac:(lia)). assert (C := floor_ceil lg (nearest_faithful lg N) y Hy L).
    rewrite (natural_iff _ D). lia. }
  assert (E2 : 2 ^ (k + 1) = 2 * 2 ^ k) by (rewrite Z.pow_add_r by lia; change (2 ^ 1) with 2; lia).
  destruct (V (2 ^ k - 1) ltac:(lia) ltac:(apply (log2_small k); lia) (rounded_up lg k N ltac:(lia))) as (A1 & A2 & A3).
  destruct (V (2 ^ k + 1) ltac:(lia) ltac:(apply (log2_small k); lia) (rounded_down lg k N ltac:(lia))) as (B1 & B2 & B3).
  rewrite log_floor_ok, log_ceil_ok, !log_int_ok by lia. rewrite A1, A3, B1, B2, B3. auto.
Qed.
Print Assumptions C91_refuted.

(** The arity is great enough for the truth table, and at most one too great.  It is the smallest one for numbers below
    2 ^ 47, and whenever the number of binary digits is not a power of two. *)
Theorem C91_arity : forall lg x a, faithful lg -> 0 <= x -> Z.log2 x < 2 ^ 52 -> least_arity x a ->
  (intval_to_arity_d lg x = Ok a \/ intval_to_arity_d lg x = Ok (a + 1)) /\
  (x < 2 ^ 47 -> intval_to_arity_d lg x = Ok a) /\
  (Z.log2 x + 1 < 2 ^ 47 -> (forall t, 6 <= t -> Z.log2 x + 1 <> 2 ^ t) -> intval_to_arity_d lg x = Ok a).
Proof. intros lg x a F Hx L A. exact (arity_near lg x a F Hx L A). Qed.
Print Assumptions C91_arity.

Theorem C91_tt_length : forall lg x a, faithful lg -> 0 <= x -> Z.log2 x < 2 ^ 52 -> least_arity x a ->
  (intval_to_tt_length_d lg x = Ok (2 ^ a) \/ intval_to_tt_length_d lg x = Ok (2 * 2 ^ a)) /\ (x < 2 ^ 47 -> intval_to_tt_length_d lg x = Ok (2 ^ a)).
Proof.
  intros lg x a F Hx L A. assert (Ha := proj1 A). destruct (arity_near lg x a F Hx L A) as (C & S & _). unfold intval_to_tt_length_d. split.
  - destruct C as [C|C]; rewrite C; cbn [bind]; rewrite Z.shiftl_1_l; [left; reflexivity | right; rewrite Z.pow_add_r by lia; change (2 ^ 1) with 2; f_equal; lia].
  - intro H. rewrite (S H). cbn [bind]. rewrite Z.shiftl_1_l. reflexivity.
Qed.
Print Assumptions C91_tt_length.

(** The smallest arity for 2 ^ 64 - 1 is 6, but the result is 7 when log2 returns the nearest floating point number. *)
Theorem C91_arity_refuted : forall lg, nearest lg -> least_arity (2 ^ 64 - 1) 6 /\ intval_to_arity_d lg (2 ^ 64 - 1) = Ok 7.
Proof.
  intros lg N. split; [assert (X := least_arity_big (2 ^ 64 - 1) ltac:(vm_compute; discriminate)); exact X|].
  assert (L : Z.log2 (2 ^ 64 - 1) < 2 ^ 52) by reflexivity. assert (X1 : 1 <= 2 ^ 64 - 1) by (vm_compute; discriminate).
  assert (D := proj1 (N _ X1 L)). assert (E := rounded_up lg 64 N ltac:(lia)). assert (A := proj2 (floor_ge _ 64 D) ltac:(lia)). assert (U := proj2 (floor_bounds lg _ (nearest_faithful lg N) X1 L)). change (Z.log2_up (2 ^ 64 - 1)) with 64 in U.
  assert (F1 : floor_d (lg (2 ^ 64 - 1)) = 64) by lia. rewrite arity_d_big; [|vm_compute; discriminate | lia]. rewrite F1.
  assert (B := floor_bounds lg 64 (nearest_faithful lg N) ltac:(lia) ltac:(reflexivity)). change (Z.log2 64) with 6 in B. change (Z.log2_up 64) with 6 in B. f_equal. lia.
Qed.
Print Assumptions C91_arity_refuted.

(** A Boolean function that is made from a Zhegalkin number is the right one, whether or not the arity is too great, or
    else the number of binary digits of its truth table is overestimated, and there is an exception.  The latter does not
    happen when that number of digits is right, in particular not for Zhegalkin numbers below 2 ^ 32. *)
Theorem C91_zhe : forall log_2 lg zhe, faithful lg -> 0 <= zhe -> Z.log2 zhe < 2 ^ 52 -> exists f,
  (subinit_zhe_d log_2 lg zhe = Ok f \/ subinit_zhe_d log_2 lg zhe = Err BinvLengthError) /\
  reduced f /\ (forall e, sem f e = zhegalkin (Z.to_nat zhe) e) /\
  ((forall N, right_below N log_2) -> subinit_zhe_d log_2 lg zhe = Ok f) /\
  (right_below (2 ^ 32) log_2 -> zhe < 2 ^ 32 -> subinit_zhe_d log_2 lg zhe = Ok f).
Proof.
  intros log_2 lg zhe F H0 L. destruct (zhe_spec (Z.to_nat zhe)) as (f & Ef & R & S). rewrite Z2Nat.id in Ef by exact H0. exists f.
  destruct (zhe_d_cases log_2 lg zhe F H0 L) as (n & t & En & Et & Ht & C).
  split; [destruct (Nat.leb _ _); rewrite C; [left; exact Ef | right; reflexivity]|]. split; [exact R|]. split; [exact S|]. split.
  - intro Ri. rewrite (proj2 (PeanoNat.Nat.leb_le _ _)) in C; [rewrite C; exact Ef|]. apply (binary_length_right (Z.of_nat t + 1)); [apply Ri | exact Ht | lia].
  - intros Ri Hz. rewrite (zhe_small log_2 lg zhe F Ri (conj H0 Hz)). exact Ef.
Qed.
Print Assumptions C91_zhe.

(** CPython first rounds the integer to a floating point number.  If the logarithms of powers of two are then not
    less than they should be, a truth table of 6 or more atoms whose last 54 entries are ones is rejected: its number
    of digits is taken to be one more.  *)
Theorem C91_binary_length_refuted : forall log_2 n t, rounds_argument log_2 -> never_low log_2 -> (6 <= n)%nat ->
  2 ^ 2 ^ Z.of_nat n - 2 ^ (2 ^ Z.of_nat n - 54) <= Z.of_nat t < 2 ^ 2 ^ Z.of_nat n ->
  Boolf_int_d log_2 t n = Err BinvLengthError /\ exists f, Boolf_int t n = Ok f.
Proof.
  intros log_2 n t R N Hn H. assert (K6 : 2 ^ 6 <= 2 ^ Z.of_nat n) by (apply Z.pow_le_mono_r; lia). change (2 ^ 6) with 64 in K6. split.
  - apply Boolf_int_d_cases. assert (W := binary_length_wrong log_2 (2 ^ Z.of_nat n) t R N ltac:(lia) ltac:(lia)). apply Nat2Z.inj_lt. rewrite pow_nat. lia.
  - destruct (Boolf_int_spec t n) as (f & Ef & _); [|exists f; exact Ef]. apply Nat2Z.inj_lt. rewrite !pow_nat. apply H.
Qed.
Print Assumptions C91_binary_length_refuted.

(** So the disjunction of 6 or more atoms can not be made from its Zhegalkin number. *)
Theorem C91_zhe_refuted : forall log_2 lg n, (6 <= n)%nat -> rounds_argument lg -> right_powers lg -> rounds_argument log_2 -> never_low log_2 ->
  let zhe := 2 ^ 2 ^ Z.of_nat n - 2 in
  subinit_zhe_d log_2 lg zhe = Err BinvLengthError /\
  exists f, subinit_zhe zhe = Ok f /\ forall e, sem f e = true <-> exists a, (a < n)%nat /\ e a = true.
Proof.
  intros log_2 lg n Hn R P R2 N2 zhe. split; [apply or_rejected; assumption|].
  assert (Q4 : 2 ^ 1 <= 2 ^ 2 ^ Z.of_nat n) by (apply Z.pow_le_mono_r; [lia|]; assert (Y := p2 (Z.of_nat n) ltac:(lia)); lia). change (2 ^ 1) with 2 in Q4.
  assert (Ez : Z.of_nat (2 ^ 2 ^ n - 2) = zhe). { rewrite Nat2Z.inj_sub; [rewrite !pow_nat; reflexivity|]. apply Nat2Z.inj_le. rewrite !pow_nat. exact Q4. }
  destruct (zhe_spec (2 ^ 2 ^ n - 2)) as (f & Ef & _ & S). rewrite Ez in Ef. exists f. split; [exact Ef|]. intro e. rewrite S, or_value, existsb_exists. split; intros (a & Ha & E); exists a; (split; [apply Lib.range_In; exact Ha | exact E]).
Qed.
Print Assumptions C91_zhe_refuted.

(** The assumptions can be met: there is a function that always returns the nearest floating point number. *)
Theorem C91_available : exists lg, nearest lg /\ faithful lg.
Proof. exists nearest_log2. split; [exact nearest_log2_ok | apply nearest_faithful, nearest_log2_ok]. Qed.
Print Assumptions C91_available.

Example C91_ex : exists lg, faithful lg /\ log_floor lg 1000 = Ok 9 /\ log_ceil lg 1000 = Ok 10 /\ log_int_d lg 1000 = Err ArgValueError /\
  log_int_d lg 1024 = Ok 10 /\ intval_to_arity_d lg 1000 = Ok 4 /\ log_floor lg (2 ^ 49 - 1) = Ok 49.
Proof.
  destruct C91_available as (lg & N & F). exists lg. split; [exact F|].
  assert (X : 1 <= 1000 <= 2 ^ 47) by (split; vm_compute; discriminate). assert (Y : 1 <= 1024 <= 2 ^ 47) by (split; vm_compute; discriminate).
  split; [apply (proj1 (C91_exact lg 1000 9 F ltac:(lia) X)); split; [vm_compute; discriminate | reflexivity]|].
  split; [apply (proj1 (proj2 (C91_exact lg 1000 10 F ltac:(lia) X))); [vm_compute; discriminate | right; reflexivity]|].
  split. { apply (proj2 (proj2 (proj2 (C91_exact lg 1000 9 F ltac:(lia) X)))). intros j Hj E. assert (L : Z.log2 1000 = j) by (rewrite E; apply Z.log2_pow2, Hj). cbn in L. subst j. discriminate. }
  split; [apply (proj1 (proj2 (proj2 (C91_exact lg 1024 10 F ltac:(lia) Y)))); reflexivity|].
  split; [|apply (C91_refuted lg 49 N); lia].
  assert (A : least_arity 1000 4) by exact (least_arity_big 1000 ltac:(lia)). apply (proj1 (proj2 (C91_arity lg 1000 4 F ltac:(lia) ltac:(reflexivity) A))). reflexivity.
Qed.

Definition ex_log (x : Z) : double := mkDouble (if Z.ltb x (2 ^ 48) then Z.log2 x else Z.log2_up x) 0.
Lemma ex_log_floor x : floor_d (ex_log x) = if Z.ltb x (2 ^ 48) then Z.log2 x else Z.log2_up x.
Proof. unfold floor_d, ex_log. cbn [mant scale]. rewrite Z.pow_0_r, Z.div_1_r. reflexivity. Qed.
Lemma ex_log_power k : 0 <= k -> (if Z.ltb (2 ^ k) (2 ^ 48) then Z.log2 (2 ^ k) else Z.log2_up (2 ^ k)) = k.
Proof. intro H. destruct (Z.ltb _ _); [apply Z.log2_pow2 | apply Z.log2_up_pow2]; exact H. Qed.
Example C91_ex_rounds : rounds_argument ex_log /\ right_powers ex_log /\ never_low ex_log /\ right_below (2 ^ 32) ex_log.
Proof.
  split; [|split; [|split]].
  - intros k x Hk H. unfold ex_log. f_equal. rewrite ex_log_power by lia.
    assert (E : 2 ^ k = 2 * 2 ^ (k - 1)) by (replace k with ((k - 1) + 1) at 1 by lia; rewrite Z.pow_add_r by lia; change (2 ^ 1) with 2; lia).
    assert (A : 2 ^ (k - 54) < 2 ^ (k - 1)) by (apply Z.pow_lt_mono_r; lia). assert (B : 2 ^ 48 <= 2 ^ (k - 1)) by (apply Z.pow_le_mono_r; lia).
    rewrite (proj2 (Z.ltb_ge _ _)) by lia. apply Z.log2_up_unique; [lia|]. replace (Z.pred k) with (k - 1) by lia. lia.
  - intros k Hk. unfold ex_log. cbn [mant scale]. rewrite ex_log_power by exact Hk. lia.
  - intros k Hk. rewrite ex_log_floor, ex_log_power by exact Hk. lia.
  - intros x k Hk H L. rewrite ex_log_floor. rewrite (proj2 (Z.ltb_lt _ _)) by (eapply Z.lt_trans; [exact L | reflexivity]). apply Z.log2_unique; [exact Hk | unfold Z.succ; exact H].
Qed.
