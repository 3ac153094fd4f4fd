(** Proof_LogMore: arities and Boolean functions whose calculation uses floating point logarithms. *)

From Coq Require Import ZArith Bool Lia List Arith.
From Verif Require Import Model_Base Lib Model_Perm Model_Binary Model_Twin Model_Boolf Spec_Boolf Proof_Binary Proof_Deflate Proof_Twin Proof_Boolf Proof_BoolfMake
  Model_Log Spec_Log Proof_Log.
Import ListNotations.
Open Scope Z_scope.

Lemma log_floor_ok lg x : 1 <= x -> log_floor lg x = Ok (floor_d (lg x)).
Proof. intro H. unfold log_floor. rewrite (proj2 (Z.leb_le _ _)) by lia. reflexivity. Qed.
Lemma log_ceil_ok lg x : 1 <= x -> log_ceil lg x = Ok (ceil_d (lg x)).
Proof. intro H. unfold log_ceil. rewrite (proj2 (Z.leb_le _ _)) by lia. reflexivity. Qed.
Lemma log_int_ok lg x : 1 <= x -> log_int_d lg x = if natural_d (lg x) then Ok (floor_d (lg x)) else Err ArgValueError.
Proof. intro H. unfold log_int_d. rewrite (proj2 (Z.leb_le _ _)) by lia. reflexivity. Qed.

Lemma up_spec x : 1 <= x -> x <= 2 ^ Z.log2_up x.
Proof. intro H. destruct (Z.eq_dec x 1) as [->|N]; [cbn; lia|]. apply Z.log2_up_spec. lia. Qed.
Lemma up_small x : Z.log2 x < 2 ^ 52 -> 0 <= Z.log2_up x <= 2 ^ 52.
Proof. intro L. assert (X := Z.le_log2_up_succ_log2 x). assert (Y := Z.log2_up_nonneg x). lia. Qed.

Lemma floor_bounds lg x : faithful lg -> 1 <= x -> Z.log2 x < 2 ^ 52 -> Z.log2 x <= floor_d (lg x) <= Z.log2_up x.
Proof.
  intros F Hx L. split.
  - apply (floor_not_less lg F x Hx L); [apply Z.log2_nonneg | apply Z.log2_spec; lia].
  - eapply Z.le_trans; [apply (floor_ceil lg F x Hx L)|]. apply (ceil_not_greater lg F x Hx L); [apply up_small, L | apply up_spec, Hx].
Qed.
Lemma ceil_bounds lg x : faithful lg -> 1 <= x -> Z.log2 x < 2 ^ 52 -> Z.log2 x <= ceil_d (lg x) <= Z.log2_up x.
Proof.
  intros F Hx L. split.
  - eapply Z.le_trans; [|apply (floor_ceil lg F x Hx L)]. apply floor_bounds; assumption.
  - apply (ceil_not_greater lg F x Hx L); [apply up_small, L | apply up_spec, Hx].
Qed.

(** * Arities *)

Lemma least_arity_unique x a b : least_arity x a -> least_arity x b -> a = b.
Proof. intros (A1 & A2 & A3) (B1 & B2 & B3). specialize (A3 b B1 B2). specialize (B3 a A1 A2). lia. Qed.
Lemma least_arity_big x : 2 <= x -> least_arity x (Z.log2 (Z.log2 x) + 1).
Proof.
  intro H. assert (K : 1 <= Z.log2 x) by (apply (Z.log2_le_mono 2); lia). assert (P := Z.log2_nonneg (Z.log2 x)). split; [lia|]. split.
  - apply Z.log2_lt_pow2; [lia|]. apply Z.log2_lt_pow2; lia.
  - intros b Hb L. assert (L1 := proj1 (Z.log2_lt_pow2 x _ ltac:(lia)) L). assert (L2 := proj1 (Z.log2_lt_pow2 (Z.log2 x) b ltac:(lia)) L1). lia.
Qed.
Lemma least_arity_tiny x : 0 <= x < 2 -> least_arity x 0.
Proof. intro H. split; [lia|]. split; [cbn; lia | intros; assumption]. Qed.

Lemma arity_d_big lg x : 2 <= x -> 1 <= floor_d (lg x) -> intval_to_arity_d lg x = Ok (floor_d (lg (floor_d (lg x))) + 1).
Proof.
  intros H K. unfold intval_to_arity_d. rewrite (proj2 (Z.leb_le _ _)) by lia. cbn [true_except bind].
  rewrite (proj2 (Z.eqb_neq x 0)), (proj2 (Z.eqb_neq x 1)) by lia. cbn [orb]. rewrite log_floor_ok by lia. cbn [bind]. rewrite log_floor_ok by lia. reflexivity.
Qed.
Lemma arity_d_tiny lg x : 0 <= x < 2 -> intval_to_arity_d lg x = Ok 0.
Proof.
  intro H. unfold intval_to_arity_d. rewrite (proj2 (Z.leb_le _ _)) by lia. cbn [true_except bind].
  assert (C : x = 0 \/ x = 1) by lia. destruct C as [-> | -> ]; reflexivity.
Qed.
Lemma arity_d_negative lg x : x < 0 -> intval_to_arity_d lg x = Err ArgValueError.
Proof. intro H. unfold intval_to_arity_d. rewrite (proj2 (Z.leb_gt _ _)) by lia. reflexivity. Qed.

Section Arity.
Variable lg : Z -> double.
Hypothesis F : faithful lg.
Variable x : Z.
Hypothesis Hx : 2 <= x.
Hypothesis Lx : Z.log2 x < 2 ^ 52.
Let k := Z.log2 x.
Let a := floor_d (lg x).
Let b := floor_d (lg a).

Lemma arity_parts : 1 <= k <= a /\ a <= k + 1 /\ Z.log2 a < 2 ^ 52 /\ Z.log2 k <= Z.log2 a <= b /\ b <= Z.log2 k + 1.
Proof using F Hx Lx.
  assert (K : 1 <= k) by (apply (Z.log2_le_mono 2); lia). assert (A := floor_bounds lg x F ltac:(lia) Lx). assert (U := Z.le_log2_up_succ_log2 x). fold k a in A, U.
  assert (La : Z.log2 a < 2 ^ 52). { apply Z.le_lt_trans with (Z.log2 (2 ^ 52)); [apply Z.log2_le_mono; unfold k in *; lia | reflexivity]. }
  assert (B := floor_bounds lg a F ltac:(lia) La). fold b in B. assert (M := Z.log2_le_mono k a ltac:(lia)). assert (V := Z.log2_up_le_mono a (k + 1) ltac:(lia)). rewrite (Z.log2_up_eqn (k + 1)) in V by lia. replace (Z.pred (k + 1)) with k in V by lia. lia.
Qed.
Lemma arity_value : intval_to_arity_d lg x = Ok (b + 1).
Proof using F Hx Lx. apply arity_d_big; [exact Hx|]. assert (H := arity_parts). fold a. lia. Qed.
Lemma arity_right : k + 1 < 2 ^ 47 -> Z.log2 a = Z.log2 k -> b = Z.log2 k.
Proof using F Hx Lx.
  intros Hk E. destruct arity_parts as (K & A & La & B & _). assert (P := Z.log2_nonneg a). assert (X : b <= Z.log2 a); [|lia].
  apply (floor_exact lg F a ltac:(lia) La); [|apply Z.log2_spec; lia]. split; [exact P|]. apply Z.log2_lt_pow2; lia.
Qed.
End Arity.

Lemma arity_near lg x c : faithful lg -> 0 <= x -> Z.log2 x < 2 ^ 52 -> least_arity x c ->
  (intval_to_arity_d lg x = Ok c \/ intval_to_arity_d lg x = Ok (c + 1)) /\
  (x < 2 ^ 47 -> intval_to_arity_d lg x = Ok c) /\
  (Z.log2 x + 1 < 2 ^ 47 -> (forall t, 6 <= t -> Z.log2 x + 1 <> 2 ^ t) -> intval_to_arity_d lg x = Ok c).
Proof.
  intros F Hx L C. destruct (Z.lt_ge_cases x 2) as [H|H].
  { rewrite (arity_d_tiny lg x (conj Hx H)). rewrite (least_arity_unique x c 0 C (least_arity_tiny x (conj Hx H))). auto. }
  rewrite (least_arity_unique x c _ C (least_arity_big x H)). rewrite (arity_value lg F x H L). destruct (arity_parts lg F x H L) as (K & A & La & B & U).
  set (k := Z.log2 x) in *. set (a := floor_d (lg x)) in *. set (b := floor_d (lg a)) in *.
  assert (Small : x < 2 ^ 47 -> Ok (b + 1) = Ok (Z.log2 k + 1)).
  { intro S. assert (K47 : k < 47) by (apply Z.log2_lt_pow2; lia). do 2 f_equal. apply (arity_right lg F x H L); fold k a.
    - apply Z.le_lt_trans with 47; [lia | reflexivity].
    - f_equal. apply Z.le_antisymm; [|lia]. apply (floor_exact lg F x ltac:(lia) L); [lia|]. apply Z.log2_spec. lia. }
  split; [assert (D : b = Z.log2 k \/ b = Z.log2 k + 1) by lia; destruct D as [-> | -> ]; auto|]. split; [exact Small|].
  intros K47 T. destruct (Z.lt_ge_cases x (2 ^ 47)) as [S|S]; [exact (Small S)|]. assert (Big : 47 <= k) by (apply Z.log2_le_pow2; lia).
  do 2 f_equal. apply (arity_right lg F x H L); fold k a; [exact K47|]. assert (D : a = k \/ a = Z.succ k) by lia. destruct D as [-> | -> ]; [reflexivity|].
  destruct (Z.log2_succ_or k) as [E|E]; [|exact E]. exfalso. apply Z.log2_eq_succ_iff_pow2 in E; [|lia]. destruct E as (t & Et). apply (T t); [|lia].
  apply Z.nlt_ge. intro C6. assert (X : 2 ^ t <= 2 ^ 5) by (apply Z.pow_le_mono_r; lia). change (2 ^ 5) with 32 in X. lia.
Qed.

(** * Boolean functions *)

Lemma Boolf_int_d_cases log_2 t n :
  ((binary_length_d log_2 t <= 2 ^ n)%nat -> (t < 2 ^ 2 ^ n)%nat -> Boolf_int_d log_2 t n = Boolf_int t n) /\
  ((2 ^ n < binary_length_d log_2 t)%nat -> Boolf_int_d log_2 t n = Err BinvLengthError).
Proof.
  unfold Boolf_int_d, Boolf_int, subinit_tt, Binv, Binv_with. rewrite (proj2 (Z.leb_le 0 _)) by lia. cbn [true_except bind]. rewrite Nat2Z.id. split.
  - intros H H2. rewrite (proj2 (Nat.leb_le _ _) H), (proj2 (Nat.leb_le _ _) (proj2 (binary_length_spec t (2 ^ n)) H2)). reflexivity.
  - intro H. rewrite (proj2 (Nat.leb_gt _ _) H). reflexivity.
Qed.

Lemma pow_nat n : Z.of_nat (2 ^ n) = 2 ^ Z.of_nat n.
Proof. rewrite Nat2Z.inj_pow. reflexivity. Qed.
Lemma pow_pow_nat x a : 0 <= x -> 0 <= a -> x < 2 ^ 2 ^ a -> (Z.to_nat x < 2 ^ 2 ^ Z.to_nat a)%nat.
Proof. intros Hx Ha H. apply Nat2Z.inj_lt. rewrite !pow_nat, !Z2Nat.id by lia. exact H. Qed.

(** with any arity that is great enough the result is the same *)
Lemma zhe_arity z n : (z < 2 ^ 2 ^ n)%nat -> exists t, twin_int z n = Ok t /\ (t < 2 ^ 2 ^ n)%nat /\ Boolf_int t n = subinit_zhe (Z.of_nat z).
Proof.
  intro Hz. destruct (twin_int_spec z n Hz) as (t & Et & Ht & Tt). exists t. split; [exact Et|]. split; [exact Ht|].
  destruct (Boolf_int_spec t n Ht) as (f & Ef & R & S). destruct (zhe_spec z) as (g & Eg & Rg & Sg). rewrite Ef, Eg. f_equal. apply reduced_unique; [exact R | exact Rg|].
  intro e. rewrite S, Sg, Tt by apply place_lt. rewrite <- zhegalkin_anf by exact Hz. apply (zhegalkin_ext z n); [exact Hz|]. intros c Hc. apply place_bits. exact Hc.
Qed.

Lemma zhe_d_cases log_2 lg zhe : faithful lg -> 0 <= zhe -> Z.log2 zhe < 2 ^ 52 ->
  exists n t, intval_to_arity_d lg zhe = Ok (Z.of_nat n) /\ twin_int (Z.to_nat zhe) n = Ok t /\ (t < 2 ^ 2 ^ n)%nat /\
    (if Nat.leb (binary_length_d log_2 t) (2 ^ n) then subinit_zhe_d log_2 lg zhe = subinit_zhe zhe else subinit_zhe_d log_2 lg zhe = Err BinvLengthError).
Proof.
  intros F H0 L. assert (X : exists a, 0 <= a /\ intval_to_arity_d lg zhe = Ok a /\ zhe < 2 ^ 2 ^ a).
  { assert (C : exists c, least_arity zhe c) by (destruct (Z.lt_ge_cases zhe 2) as [H|H]; [exists 0; apply least_arity_tiny; lia | eexists; apply least_arity_big; lia]).
    destruct C as (c & C). assert (C' := C). destruct C' as (Hc & B & _). destruct (arity_near lg zhe c F H0 L C) as ([E|E] & _).
    - exists c. auto.
    - exists (c + 1). split; [lia|]. split; [exact E|]. eapply Z.lt_le_trans; [exact B|]. apply Z.pow_le_mono_r; [lia|]. apply Z.pow_le_mono_r; lia. }
  destruct X as (a & Ha & Ea & B). exists (Z.to_nat a). destruct (zhe_arity (Z.to_nat zhe) (Z.to_nat a) (pow_pow_nat zhe a H0 Ha B)) as (t & Et & Ht & Ez). exists t.
  rewrite Z2Nat.id in Ez by lia. split; [rewrite Z2Nat.id by lia; exact Ea|]. split; [exact Et|]. split; [exact Ht|].
  unfold subinit_zhe_d. rewrite Ea. cbn [bind]. rewrite Et. cbn [bind]. destruct (Boolf_int_d_cases log_2 t (Z.to_nat a)) as (G1 & G2). destruct (Nat.leb_spec (binary_length_d log_2 t) (2 ^ Z.to_nat a)) as [G|G].
  - rewrite G1 by assumption. exact Ez.
  - exact (G2 G).
Qed.

Lemma binary_length_right N log_2 t n : right_below N log_2 -> (t < 2 ^ n)%nat -> Z.of_nat t < N -> (binary_length_d log_2 t <= n)%nat.
Proof.
  intros R Ht HN. unfold binary_length_d. destruct (Nat.eqb_spec t 0) as [E|E]; [lia|]. set (k := Z.log2 (Z.of_nat t)). assert (P := Z.log2_nonneg (Z.of_nat t)). fold k in P.
  rewrite (R (Z.of_nat t) k P (Z.log2_spec (Z.of_nat t) ltac:(lia)) HN). assert (X : k < Z.of_nat n); [|lia]. apply Z.log2_lt_pow2; [lia|]. rewrite <- pow_nat. lia.
Qed.

Lemma zhe_small log_2 lg zhe : faithful lg -> right_below (2 ^ 32) log_2 -> 0 <= zhe < 2 ^ 32 -> subinit_zhe_d log_2 lg zhe = subinit_zhe zhe.
Proof.
  intros F R H. assert (L : Z.log2 zhe < 2 ^ 52).
  { destruct (Z.eq_dec zhe 0) as [->|N]; [reflexivity|]. apply Z.lt_trans with 32; [apply Z.log2_lt_pow2; lia | reflexivity]. }
  destruct (zhe_d_cases log_2 lg zhe F ltac:(lia) L) as (n & t & En & Et & Ht & C).
  assert (A : Z.of_nat n <= 5).
  { assert (Q : exists c, least_arity zhe c) by (destruct (Z.lt_ge_cases zhe 2) as [H'|H']; [exists 0; apply least_arity_tiny; lia | eexists; apply least_arity_big; lia]).
    destruct Q as (c & Q). assert (S : zhe < 2 ^ 47) by (eapply Z.lt_trans; [apply H | reflexivity]). rewrite (proj1 (proj2 (arity_near lg zhe c F ltac:(lia) L Q)) S) in En. injection En as En. rewrite <- En. apply Q; [lia | apply H]. }
  rewrite (proj2 (Nat.leb_le _ _)) in C; [exact C|]. apply (binary_length_right (2 ^ 32)); [exact R | exact Ht|].
  apply inj_lt in Ht. rewrite !pow_nat in Ht. eapply Z.lt_le_trans; [exact Ht|]. apply Z.pow_le_mono_r; [lia|]. change 32 with (2 ^ 5). apply Z.pow_le_mono_r; lia.
Qed.

(** * Rounded arguments *)

Lemma power_floor lg k : right_powers lg -> 0 <= k -> floor_d (lg (2 ^ k)) = k /\ ceil_d (lg (2 ^ k)) = k /\ natural_d (lg (2 ^ k)) = true.
Proof.
  intros R Hk. destruct (R k Hk) as (E & S). assert (P := p2 _ S). unfold floor_d, ceil_d, natural_d. rewrite E. split; [apply Z.div_mul; lia|]. split.
  - replace (- (k * 2 ^ scale (lg (2 ^ k)))) with ((- k) * 2 ^ scale (lg (2 ^ k))) by ring. rewrite Z.div_mul by lia. lia.
  - apply Z.eqb_eq, Z.mod_mul. lia.
Qed.

Lemma binary_length_wrong log_2 k t : rounds_argument log_2 -> never_low log_2 -> 54 <= k -> 2 ^ k - 2 ^ (k - 54) <= Z.of_nat t <= 2 ^ k -> k + 1 <= Z.of_nat (binary_length_d log_2 t).
Proof.
  intros R N Hk H. unfold binary_length_d. destruct (Nat.eqb_spec t 0) as [E|E].
  - exfalso. subst t. assert (X : 2 ^ (k - 54) < 2 ^ k) by (apply Z.pow_lt_mono_r; lia). cbn in H. lia.
  - rewrite (R k _ Hk H). specialize (N k ltac:(lia)). lia.
Qed.

Lemma anf_true n : forall j, (j < 2 ^ n)%nat -> anf n (fun _ => true) j = Nat.eqb j 0.
Proof.
  induction n as [|n IH]; intros j Hj; [assert (j = 0)%nat by (cbn in Hj; lia); subst j; reflexivity|].
  destruct (split_pow n j Hj) as (i & q & Hi & ->). rewrite anf_step by exact Hi. rewrite IH by exact Hi. assert (P : (2 ^ n <> 0)%nat) by (apply Nat.pow_nonzero; lia).
  destruct q; cbn [Nat.b2n andb].
  - rewrite xorb_nilpotent. symmetry. apply Nat.eqb_neq. lia.
  - rewrite xorb_false_r. f_equal. lia.
Qed.
Lemma anf_or n j : (j < 2 ^ n)%nat -> anf n (fun k => negb (Nat.eqb k 0)) j = negb (Nat.eqb j 0).
Proof.
  intro Hj. rewrite (anf_ext n _ (fun k => xorb true (Nat.eqb k 0))) by (intros; destruct (Nat.eqb k 0); reflexivity). rewrite anf_xorb, anf_true by exact Hj.
  rewrite (anf_ext n (fun k => Nat.eqb k 0) (anf n (fun _ => true))) by (intros; symmetry; apply anf_true; assumption). rewrite anf_involution by exact Hj. destruct (Nat.eqb j 0); reflexivity.
Qed.
Lemma anf_none n j : anf n (fun _ => false) j = false.
Proof. assert (X := anf_xorb n (fun _ => false) (fun _ => false) j). cbn [xorb] in X. rewrite X. apply xorb_nilpotent. Qed.

Lemma or_bits K i : (1 <= K)%nat -> Nat.testbit (2 ^ K - 2) i = Nat.ltb i K && negb (Nat.eqb i 0).
Proof.
  intro HK. assert (E : (2 ^ K - 2 = 2 * Nat.ones (K - 1))%nat). { rewrite Nat.ones_equiv. replace K with (S (K - 1))%nat at 1 by lia. rewrite Nat.pow_succ_r'. lia. }
  rewrite E. destruct i as [|i]; [rewrite Nat.testbit_even_0, andb_false_r; reflexivity|]. rewrite Nat.testbit_even_succ by lia. rewrite andb_true_r.
  destruct (Nat.ltb_spec (S i) K) as [H|H]; [apply Nat.ones_spec_low | apply Nat.ones_spec_high]; lia.
Qed.

Lemma or_table n m t : (m = n \/ m = S n)%nat -> twin_int (2 ^ 2 ^ n - 2) m = Ok t -> forall i, (i < 2 ^ m)%nat -> Nat.testbit t i = negb (Nat.eqb (i mod 2 ^ n) 0).
Proof.
  intros Hm Et i Hi. assert (PN : (1 <= 2 ^ n)%nat) by (apply pow2_pos). assert (PP : (2 <= 2 ^ 2 ^ n)%nat) by (change 2%nat with (2 ^ 1)%nat at 1; apply Nat.pow_le_mono_r; lia).
  assert (Hz : (2 ^ 2 ^ n - 2 < 2 ^ 2 ^ m)%nat). { apply Nat.lt_le_trans with (2 ^ 2 ^ n)%nat; [lia|]. apply Nat.pow_le_mono_r; [lia|]. apply Nat.pow_le_mono_r; lia. }
  destruct (twin_int_spec _ m Hz) as (t' & Et' & _ & Tt). rewrite Et in Et'. injection Et' as <-. rewrite Tt by exact Hi.
  assert (Low : forall j, (j < 2 ^ n)%nat -> anf n (Nat.testbit (2 ^ 2 ^ n - 2)) j = negb (Nat.eqb j 0)).
  { intros j Hj. rewrite (anf_ext n _ (fun k => negb (Nat.eqb k 0))); [apply anf_or, Hj|]. intros k Hk. rewrite or_bits by exact PN. rewrite (proj2 (Nat.ltb_lt _ _) Hk). reflexivity. }
  destruct Hm as [-> | -> ]; [rewrite Low by exact Hi; rewrite Nat.mod_small by exact Hi; reflexivity|].
  destruct (split_pow n i Hi) as (j & q & Hj & ->). rewrite anf_step by exact Hj. rewrite Low by exact Hj.
  rewrite (anf_ext n (fun k => Nat.testbit (2 ^ 2 ^ n - 2) (k + 2 ^ n)) (fun _ => false)).
  2:{ intros k Hk. rewrite or_bits by exact PN. rewrite (proj2 (Nat.ltb_ge _ _)) by lia. reflexivity. }
  rewrite anf_none, andb_false_r, xorb_false_r. f_equal. f_equal. rewrite (Nat.mul_comm (2 ^ n)), Nat.mod_add by lia. symmetry. apply Nat.mod_small. exact Hj.
Qed.

Lemma high_bits t a b : (forall i, (i < b)%nat -> Nat.testbit t (a + i) = true) -> ((2 ^ b - 1) * 2 ^ a <= t)%nat.
Proof.
  intro H. assert (X : (Nat.ones b <= t / 2 ^ a)%nat).
  { rewrite <- Nat.shiftr_div_pow2. assert (E : Nat.land (Nat.shiftr t a) (Nat.ones b) = Nat.ones b).
    { apply Nat.bits_inj. intro i. rewrite Nat.land_spec, Nat.shiftr_spec by lia. destruct (Nat.lt_ge_cases i b) as [L|L].
      - rewrite Nat.ones_spec_low, andb_true_r by exact L. rewrite Nat.add_comm. apply H, L.
      - rewrite Nat.ones_spec_high by exact L. apply andb_false_r. }
    rewrite Nat.land_ones in E. rewrite <- E. apply Nat.mod_le, Nat.pow_nonzero. lia. }
  rewrite Nat.ones_equiv in X. assert (Y := Nat.mul_div_le t (2 ^ a) ltac:(apply Nat.pow_nonzero; lia)). replace (2 ^ b - 1)%nat with (Nat.pred (2 ^ b)) by lia. nia.
Qed.

Lemma or_big n t : (6 <= n)%nat -> twin_int (2 ^ 2 ^ n - 2) (S n) = Ok t -> 2 ^ 2 ^ Z.of_nat (S n) - 2 ^ (2 ^ Z.of_nat (S n) - 54) <= Z.of_nat t.
Proof.
  intros Hn Et. assert (K6 : (2 ^ 6 <= 2 ^ n)%nat) by (apply Nat.pow_le_mono_r; lia). set (K := (2 ^ n)%nat) in *. change (2 ^ 6)%nat with 64%nat in K6.
  assert (H : ((2 ^ (K - 1) - 1) * 2 ^ (K + 1) <= t)%nat).
  { apply high_bits. intros i Hi. rewrite (or_table n (S n) t (or_intror eq_refl) Et) by (rewrite Nat.pow_succ_r'; fold K; lia). fold K. replace (K + 1 + i)%nat with ((i + 1) + 1 * K)%nat by lia.
    rewrite Nat.mod_add by lia. rewrite Nat.mod_small by lia. rewrite (proj2 (Nat.eqb_neq _ _)) by lia. reflexivity. }
  apply inj_le in H. rewrite Nat2Z.inj_mul, Nat2Z.inj_sub in H by (apply pow2_pos). rewrite !pow_nat in H. rewrite <- (pow_nat (S n)). replace (2 ^ S n)%nat with (K + K)%nat by (rewrite Nat.pow_succ_r'; fold K; lia).
  rewrite Z.mul_sub_distr_r, <- Z.pow_add_r in H by lia. replace (Z.of_nat (K - 1) + Z.of_nat (K + 1)) with (Z.of_nat (K + K)) in H by lia. rewrite !Z.mul_1_l in H.
  assert (X : 2 ^ Z.of_nat (K + 1) <= 2 ^ (Z.of_nat (K + K) - 54)) by (apply Z.pow_le_mono_r; lia). lia.
Qed.

Lemma or_value n e : zhegalkin (2 ^ 2 ^ n - 2) e = existsb e (range n).
Proof.
  assert (PN : (1 <= 2 ^ n)%nat) by (apply pow2_pos). assert (PP : (2 <= 2 ^ 2 ^ n)%nat) by (change 2%nat with (2 ^ 1)%nat at 1; apply Nat.pow_le_mono_r; lia).
  assert (Hz : (2 ^ 2 ^ n - 2 < 2 ^ 2 ^ n)%nat) by lia. set (p := b2n (map e (range n))). assert (Hp := place_lt e n). fold p in Hp.
  transitivity (zhegalkin (2 ^ 2 ^ n - 2) (Nat.testbit p)). { apply (zhegalkin_ext _ n); [exact Hz|]. intros c Hc. symmetry. apply place_bits, Hc. }
  rewrite (zhegalkin_anf _ n _ Hz). rewrite (anf_ext n _ (fun k => negb (Nat.eqb k 0))).
  2:{ intros k Hk. rewrite or_bits by exact PN. rewrite (proj2 (Nat.ltb_lt _ _) Hk). reflexivity. }
  rewrite anf_or by exact Hp. apply eq_true_iff_eq. rewrite negb_true_iff, Nat.eqb_neq, existsb_exists. split.
  - intro N. destruct (existsb e (range n)) eqn:X; [apply existsb_exists in X; exact X|]. exfalso. apply N. apply Nat.bits_inj_0. intro i. destruct (Nat.lt_ge_cases i n) as [L|L].
    + unfold p. rewrite place_bits by exact L. destruct (e i) eqn:Ei; [|reflexivity]. rewrite <- X. symmetry. apply existsb_exists. exists i. split; [apply range_In; exact L | exact Ei].
    + apply testbit_high. apply Nat.lt_le_trans with (2 ^ n)%nat; [exact Hp|]. apply Nat.pow_le_mono_r; lia.
  - intros (i & Hi & Ei) N. apply range_In in Hi. assert (X := place_bits e n i Hi). fold p in X. rewrite N, Nat.bits_0, Ei in X. discriminate.
Qed.

Lemma or_rejected log_2 lg n : (6 <= n)%nat -> rounds_argument lg -> right_powers lg -> rounds_argument log_2 -> never_low log_2 ->
  subinit_zhe_d log_2 lg (2 ^ 2 ^ Z.of_nat n - 2) = Err BinvLengthError.
Proof.
  intros Hn R P R2 N2. set (zhe := 2 ^ 2 ^ Z.of_nat n - 2). assert (K6 : 2 ^ 6 <= 2 ^ Z.of_nat n) by (apply Z.pow_le_mono_r; lia). change (2 ^ 6) with 64 in K6.
  assert (Q : 2 ^ 1 <= 2 ^ (2 ^ Z.of_nat n - 54)) by (apply Z.pow_le_mono_r; lia). change (2 ^ 1) with 2 in Q. assert (Q4 : 2 ^ 2 <= 2 ^ 2 ^ Z.of_nat n) by (apply Z.pow_le_mono_r; lia). change (2 ^ 2) with 4 in Q4.
  assert (Ea : intval_to_arity_d lg zhe = Ok (Z.of_nat (S n))).
  { assert (E1 : floor_d (lg zhe) = 2 ^ Z.of_nat n). { rewrite (R (2 ^ Z.of_nat n) zhe) by (unfold zhe; lia). apply (power_floor lg); [exact P | lia]. }
    rewrite arity_d_big; [|unfold zhe; lia | lia]. rewrite E1, (proj1 (power_floor lg (Z.of_nat n) P ltac:(lia))). f_equal. lia. }
  assert (Ez : Z.to_nat zhe = (2 ^ 2 ^ n - 2)%nat). { apply Nat2Z.inj. rewrite Z2Nat.id by (unfold zhe; lia). rewrite Nat2Z.inj_sub; [rewrite !pow_nat; reflexivity|]. apply Nat2Z.inj_le. rewrite !pow_nat. lia. }
  unfold subinit_zhe_d. rewrite Ea. cbn [bind]. rewrite Nat2Z.id, Ez.
  assert (Hz : (2 ^ 2 ^ n - 2 < 2 ^ 2 ^ S n)%nat). { apply Nat.le_lt_trans with (2 ^ 2 ^ n)%nat; [lia|]. apply Nat.pow_lt_mono_r; [lia|]. apply Nat.pow_lt_mono_r; lia. }
  destruct (twin_int_spec _ (S n) Hz) as (t & Et & Ht & _). rewrite Et. cbn [bind]. apply Boolf_int_d_cases. apply Nat2Z.inj_lt. rewrite pow_nat.
  assert (B := or_big n t Hn Et). apply inj_lt in Ht. rewrite !pow_nat in Ht.
  assert (X : 2 ^ Z.of_nat n <= 2 ^ Z.of_nat (S n)) by (apply Z.pow_le_mono_r; lia).
  assert (W := binary_length_wrong log_2 (2 ^ Z.of_nat (S n)) t R2 N2 ltac:(lia) ltac:(lia)). lia.
Qed.
