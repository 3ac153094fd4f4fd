(** Props_Values: property C114, checks of types, replaced exceptions, concatenated Binvs, texts of
    negated literals. *)

From Coq Require Import String Ascii List Arith ZArith QArith Qpower Bool Lia.
From Verif Require Import Model_Base Lib Model_Binary Model_Perm Model_SigPerm Model_Str Model_Values.
From Verif Require Import Spec_Bits Proof_Binary.
Import ListNotations Model_Str.
Local Open Scope nat_scope.

(** ** Numbers *)

(** the rational number that a value stands for *)
Definition value (v : pyval) : option Q :=
  match v with
  | VInt z => Some (inject_Z z)
  | VBool b => Some (if b then 1 else 0)%Q
  | VFloat (Finite m e) => Some (inject_Z m * (2 # 1) ^ e)%Q
  | VFloat _ => None
  | VFraction n d => Some (n # d)%Q
  | _ => None
  end.
Definition is_value (v : pyval) (q : Q) : Prop := exists r, value v = Some r /\ (r == q)%Q.

Lemma two_power e : ((2 # 1) ^ e == if Z.leb 0 e then inject_Z (2 ^ e) else / inject_Z (2 ^ (- e)))%Q.
Proof.
  change (2 # 1)%Q with (inject_Z 2). destruct (Z.leb_spec 0 e) as [H|H].
  - rewrite Zpower_Qpower by exact H. reflexivity.
  - rewrite (Zpower_Qpower 2 (- e)) by lia. rewrite <- Qpower_opp, Z.opp_involutive. reflexivity.
Qed.

Lemma div_int m p z : (0 < p)%Z -> (inject_Z m * / inject_Z p == inject_Z z)%Q <-> m = (z * p)%Z.
Proof.
  intro Hp. assert (N : ~ (inject_Z p == 0)%Q) by (intro X; apply (proj1 (inject_Z_injective p 0)) in X; lia). split.
  - intro H. apply inject_Z_injective. rewrite inject_Z_mult, <- H. rewrite <- Qmult_assoc, (Qmult_comm (/ _)), Qmult_inv_r, Qmult_1_r by exact N. reflexivity.
  - intros ->. rewrite inject_Z_mult, <- Qmult_assoc, Qmult_inv_r, Qmult_1_r by exact N. reflexivity.
Qed.

Lemma float_int m e z : is_value (VFloat (Finite m e)) (inject_Z z) <-> if Z.leb 0 e then (m * 2 ^ e)%Z = z else m = (z * 2 ^ (- e))%Z.
Proof.
  unfold is_value. cbn [value].
  assert (X : (inject_Z m * (2 # 1) ^ e == inject_Z z)%Q <-> if Z.leb 0 e then (m * 2 ^ e)%Z = z else m = (z * 2 ^ (- e))%Z).
  { rewrite two_power. destruct (Z.leb_spec 0 e) as [H|H]; [|apply div_int; apply Z.pow_pos_nonneg; lia]. rewrite <- inject_Z_mult. apply inject_Z_injective. }
  rewrite <- X. split; [intros (r & E & H); injection E as <-; exact H | intro H; eexists; split; [reflexivity | exact H]].
Qed.

Lemma fraction_int n d z : is_value (VFraction n d) (inject_Z z) <-> n = (z * Zpos d)%Z.
Proof.
  unfold is_value. cbn [value]. assert (X : (n # d == inject_Z z)%Q <-> n = (z * Zpos d)%Z) by (unfold Qeq, inject_Z; cbn [Qnum Qden]; rewrite Z.mul_1_r; reflexivity).
  rewrite <- X. split; [intros (r & E & H); injection E as <-; exact H | intro H; eexists; split; [reflexivity | exact H]].
Qed.

Lemma int_int k z : is_value (VInt k) (inject_Z z) <-> k = z.
Proof. unfold is_value. cbn [value]. rewrite <- inject_Z_injective. split; [intros (r & E & H); injection E as <-; exact H | intro H; eexists; split; [reflexivity | exact H]]. Qed.
Lemma bool_int b z : is_value (VBool b) (inject_Z z) <-> (if b then 1 else 0)%Z = z.
Proof.
  rewrite <- int_int. unfold is_value. cbn [value]. split; (intros (r & E & H); injection E as <-; eexists; split; [reflexivity|]); rewrite <- H; destruct b; reflexivity.
Qed.

(** a number that is an integer *)
Lemma mod1_spec v b : mod1_is_0 v = Ok b -> b = true <-> exists z, is_value v (inject_Z z).
Proof.
  destruct v as [k|c|[m e|i|]|n d| |[t|e]|]; cbn [mod1_is_0]; intro H; try discriminate H; injection H as <-.
  - rewrite Z.mod_1_r. split; [|reflexivity]. intros _. exists k. apply int_int. reflexivity.
  - rewrite Z.mod_1_r. split; [|reflexivity]. intros _. exists (if c then 1 else 0)%Z. apply bool_int. reflexivity.
  - destruct (Z.leb 0 e) eqn:E; cbn [orb].
    + split; [|reflexivity]. intros _. exists (m * 2 ^ e)%Z. apply float_int. rewrite E. reflexivity.
    + apply Z.leb_gt in E. assert (P : (0 < 2 ^ (- e))%Z) by (apply Z.pow_pos_nonneg; lia). rewrite Z.eqb_eq. split.
      * intro H. exists (m / 2 ^ (- e))%Z. apply float_int. rewrite (proj2 (Z.leb_gt 0 e) E). rewrite Z.mul_comm. apply Z_div_exact_full_2; lia.
      * intros (z & H). apply float_int in H. rewrite (proj2 (Z.leb_gt 0 e) E) in H. rewrite H. apply Z.mod_mul. lia.
  - split; [discriminate | intros (z & r & E & _); discriminate E].
  - split; [discriminate | intros (z & r & E & _); discriminate E].
  - rewrite Z.eqb_eq. split.
    + intro H. exists (n / Zpos d)%Z. apply fraction_int. rewrite Z.mul_comm. apply Z_div_exact_full_2; lia.
    + intros (z & H). apply fraction_int in H. rewrite H. apply Z.mod_mul. lia.
  - split; [discriminate | intros (z & r & E & _); discriminate E].
Qed.

Lemma sign_spec v z : is_value v (inject_Z z) -> at_least_0 v = Ok (Z.leb 0 z).
Proof.
  destruct v as [k|c|[m e|i|]|n d| |[t|e]|]; intro H; try (destruct H as (r & E & _); discriminate E); cbn [at_least_0].
  - apply int_int in H as ->. reflexivity.
  - apply bool_int in H as <-. destruct c; reflexivity.
  - apply float_int in H. f_equal. destruct (Z.leb_spec 0 e) as [He|He].
    + assert (P : (0 < 2 ^ e)%Z) by (apply Z.pow_pos_nonneg; lia). apply eq_true_iff_eq. rewrite !Z.leb_le. nia.
    + assert (P : (0 < 2 ^ (- e))%Z) by (apply Z.pow_pos_nonneg; lia). apply eq_true_iff_eq. rewrite !Z.leb_le. nia.
  - apply fraction_int in H. f_equal. apply eq_true_iff_eq. rewrite !Z.leb_le. nia.
Qed.

(** is_natural is true exactly for the numbers, of whatever type, whose value is a natural number *)
Theorem C114_is_natural : forall v, is_natural v = Ok true <-> exists n : nat, is_value v (inject_Z (Z.of_nat n)).
Proof.
  intro v. unfold is_natural. destruct (mod1_is_0 v) as [b|e] eqn:E.
  - assert (X := mod1_spec v b E). destruct b.
    + destruct (proj1 X eq_refl) as (z & H). rewrite (sign_spec v z H). split.
      * intro Y. injection Y as Y. apply Z.leb_le in Y. exists (Z.to_nat z). rewrite Z2Nat.id by exact Y. exact H.
      * intros (n & Hn). f_equal. apply Z.leb_le. destruct H as (r & Er & Hr), Hn as (r' & Er' & Hr'). rewrite Er in Er'. injection Er' as <-. rewrite Hr in Hr'. apply (proj1 (inject_Z_injective _ _)) in Hr'. rewrite Hr'. apply Nat2Z.is_nonneg.
    + split; [discriminate|]. intros (n & H). assert (false = true) by (apply X; exists (Z.of_nat n); exact H). discriminate.
  - assert (N : ~ exists z, is_value v (inject_Z z)) by (intros (z & r & Ev & _); destruct v as [k|c|[m e'|i|]|n d| |[t|e']|]; discriminate).
    split; [destruct e; discriminate | intros (n & H); exfalso; apply N; exists (Z.of_nat n); exact H].
Qed.
Print Assumptions C114_is_natural.

(** it has a result for everything but some texts *)
Theorem C114_is_natural_total : forall v, (forall e, v = VText (Err e) -> e = TypeErr) -> exists b, is_natural v = Ok b.
Proof.
  intros v H. destruct v as [k|c|[m e|i|]|n d| |[t|x]|]; try (eexists; reflexivity).
  - unfold is_natural. cbn [mod1_is_0]. rewrite Z.mod_1_r. eexists. reflexivity.
  - unfold is_natural. cbn [mod1_is_0]. rewrite Z.mod_1_r. eexists. reflexivity.
  - unfold is_natural. cbn [mod1_is_0]. destruct (Z.leb 0 e || Z.eqb (m mod 2 ^ (- e)) 0)%bool; eexists; reflexivity.
  - unfold is_natural. cbn [mod1_is_0]. destruct (Z.eqb (n mod Zpos d) 0); eexists; reflexivity.
  - rewrite (H x eq_refl). eexists. reflexivity.
Qed.
Print Assumptions C114_is_natural_total.

(** the text '%' makes it fail: ['%' % 1] is a ValueError *)
Theorem C114_is_natural_text_refuted : exists v, is_natural v = Err ValueErr.
Proof. exists (VText (Err ValueErr)). reflexivity. Qed.
Print Assumptions C114_is_natural_text_refuted.

(** type_like_int is true exactly for the numbers whose value is an integer; it fails for complex
    numbers only *)
Theorem C114_type_like_int : forall v, (type_like_int v = Ok true <-> exists z, is_value v (inject_Z z)) /\
  (type_like_int v = Err TypeErr <-> v = VComplex) /\ (v <> VComplex -> exists b, type_like_int v = Ok b).
Proof.
  intro v. assert (D : v = VComplex \/ exists b, type_like_int v = Ok b).
  { destruct v as [k|c|[m e|i|]|n d| |[t|e]|]; cbn; eauto. }
  split; [|split].
  - destruct D as [->|(b & E)]; [split; [discriminate | intros (z & r & E & _); discriminate]|]. rewrite E. unfold type_like_int in E. destruct (is_number v) eqn:Ev; cbn [negb] in E.
    + rewrite <- (mod1_spec v b E). split; [intro X; injection X as ->; reflexivity | intros ->; reflexivity].
    + injection E as <-. split; [discriminate|]. intros (z & r & E & _). destruct v; discriminate.
  - destruct D as [->|(b & E)]; [split; reflexivity|]. rewrite E. split; [discriminate|]. intros ->. discriminate.
  - intro H. destruct D as [->|X]; [congruence | exact X].
Qed.
Print Assumptions C114_type_like_int.

(** type_clean_int gives this integer *)
Theorem C114_type_clean_int : forall v, (forall z, type_clean_int v = Ok z <-> is_value v (inject_Z z)) /\
  (v <> VComplex -> (~ exists z, is_value v (inject_Z z)) -> type_clean_int v = Err AssertErr).
Proof.
  intro v. destruct (C114_type_like_int v) as (T1 & T2 & T3). split.
  - intro z. unfold type_clean_int. destruct (type_like_int v) as [[|]|e] eqn:E; cbn [bind true_except].
    + destruct (proj1 T1 eq_refl) as (y & Hy).
      assert (I : int_of v = Ok y).
      { clear -Hy. destruct v as [k|c|[m e|i|]|n d| |[t|e]|]; try (destruct Hy as (r & E & _); discriminate E); cbn [int_of].
        - apply int_int in Hy as ->. reflexivity.
        - apply bool_int in Hy as <-. reflexivity.
        - apply float_int in Hy. f_equal. destruct (Z.leb_spec 0 e) as [He|He]; [exact Hy|]. rewrite Hy. apply Z.quot_mul. assert (P : (0 < 2 ^ (- e))%Z) by (apply Z.pow_pos_nonneg; lia). lia.
        - apply fraction_int in Hy. f_equal. rewrite Hy. apply Z.quot_mul. lia. }
      rewrite I. split; [intro X; injection X as <-; exact Hy|]. intros (r & Er & Hr). destruct Hy as (r' & Er' & Hr'). rewrite Er in Er'. injection Er' as <-. rewrite Hr in Hr'. apply inject_Z_injective in Hr' as ->. reflexivity.
    + split; [discriminate|]. intro H. assert (Ok false = Ok true) by (apply T1; exists z; exact H). discriminate.
    + split; [discriminate|]. intro H. assert (@Err bool e = Ok true) by (apply T1; exists z; exact H). discriminate.
  - intros Hc Hn. unfold type_clean_int. destruct (T3 Hc) as (b & E). rewrite E. cbn [bind]. destruct b; [exfalso; apply Hn, T1; exact E | reflexivity].
Qed.
Print Assumptions C114_type_clean_int.

(** ** Exceptions *)

(** try_except never hides that the attempt failed: it succeeds exactly if the attempt does; a
    failure becomes the given exception, or remains as it is if it is not of the given classes *)
Theorem C114_try_except : forall A (attempt : res A) (e : exn) (classes : option (exn -> bool)),
  (try_except (Some attempt) (Some e) classes = Ok tt <-> exists a, attempt = Ok a) /\
  (forall x, attempt = Err x -> try_except (Some attempt) (Some e) classes = Err (match classes with Some matching => if matching x then e else x | None => e end)).
Proof.
  intros A attempt e classes. split.
  - destruct attempt as [a|x], classes as [c|]; cbn; try (split; [intros _; exists a; reflexivity | reflexivity]); try (split; [discriminate | intros (a & H); discriminate]).
    destruct (c x); split; try discriminate; intros (a & H); discriminate.
  - intros x ->. destruct classes as [c|]; cbn; [destruct (c x); reflexivity | reflexivity].
Qed.
Print Assumptions C114_try_except.

(** ** Concatenation *)

(** the concatenation of two Binvs: lengths and weights are added; the second one is shifted by the
    length of the first one *)
Theorem C114_binv_add : forall a b, exists c, binv_add a b = Ok c /\
  length c = length a + length b /\
  binv_weight c = binv_weight a + binv_weight b /\
  binv_intval c = binv_intval a + 2 ^ length a * binv_intval b /\
  (forall i, nth i c false = if i <? length a then nth i a false else nth (i - length a) b false) /\
  (forall i, binv_has_index c i = binv_has_index a i || ((length a <=? i) && binv_has_index b (i - length a))).
Proof.
  intros a b. exists (a ++ b). split; [apply Binv_vector_bool|]. split; [apply app_length|].
  assert (N : forall i, nth i (a ++ b) false = if i <? length a then nth i a false else nth (i - length a) b false).
  { intro i. destruct (Nat.ltb_spec i (length a)); [apply app_nth1; assumption | apply app_nth2; lia]. }
  split; [|split; [|split]].
  - unfold binv_weight. rewrite map_app. induction (map Nat.b2n a) as [|x l IH]; [reflexivity|]. cbn [app list_sum_nat fold_right]. unfold list_sum_nat in *. cbn [fold_right]. rewrite IH. lia.
  - rewrite !binv_intval_eq. induction a as [|x a IH]; [cbn; lia|]. cbn [app b2n length Nat.pow]. rewrite IH; [nia|]. intro i. destruct (Nat.ltb_spec i (length a)); [apply app_nth1; assumption | apply app_nth2; lia].
  - exact N.
  - intro i. rewrite !has_index_spec, !binv_intval_eq, !testbit_b2n, N. destruct (Nat.ltb_spec i (length a)) as [H|H].
    + rewrite (proj2 (Nat.leb_gt _ _) H). cbn [andb]. rewrite orb_false_r. reflexivity.
    + rewrite (proj2 (Nat.leb_le _ _) H), (nth_overflow a) by exact H. reflexivity.
Qed.
Print Assumptions C114_binv_add.

(** ** Negated literals *)

(** with want_string the result is the text of the list that is the result without it *)
Theorem C114_negate_text : forall values wher, logic_negate_where_str values wher = (let* r := logic_negate_where values wher in Ok (logic_str_vector r)).
Proof.
  intros values wher. unfold logic_negate_where_str, logic_negate_where. destruct (Nat.eqb (length values) (length wher)); [|reflexivity]. cbn [true_except bind]. apply (f_equal Ok). unfold logic_str_vector. rewrite map_map. refine (f_equal (fun l => lit "[" ++ join_texts l ++ lit "]") _). apply map_ext. intros [v [|]]; reflexivity.
Qed.
Print Assumptions C114_negate_text.

Theorem C114_negate_text_which : forall values which, logic_negate_which_str values which = (let* r := logic_negate_which values which in Ok (logic_str_vector r)).
Proof.
  intros values which. unfold logic_negate_which_str, logic_negate_which. destruct (forallb _ which); [|reflexivity]. cbn [true_except bind]. apply (f_equal Ok). unfold logic_str_vector. rewrite map_map. refine (f_equal (fun l => lit "[" ++ join_texts l ++ lit "]") _). apply map_ext. intro v. destruct (memb (logic_abs v) which); reflexivity.
Qed.
Print Assumptions C114_negate_text_which.

(** ** A concrete case *)

(** 6.0 is natural, 6.5, -3 and infinity are not; 12/4 is like an integer, 12/5 and '3' are not *)
Example C114_ex :
  (is_natural (VFloat (Finite 3 1)), is_natural (VFloat (Finite 13 (-1))), is_natural (VInt (-3)), is_natural (VFloat (Infinite false))) =
    (Ok true, Ok false, Ok false, Ok false) /\
  (type_like_int (VFraction 12 4), type_like_int (VFraction 12 5), type_like_int (VText (Err TypeErr)), type_like_int VComplex) =
    (Ok true, Ok false, Ok false, Err TypeErr) /\
  type_clean_int (VFloat (Finite (-24) (-2))) = Ok (-6)%Z /\ type_clean_int (VFloat (Finite (-25) (-2))) = Err AssertErr.
Proof. vm_compute. repeat split; reflexivity. Qed.

Example C114_ex_value : is_value (VFloat (Finite (-24) (-2))) (inject_Z (-6)).
Proof. eexists. split; [reflexivity | reflexivity]. Qed.

Example C114_ex_try : try_except (Some (@Err nat KeyErr)) (Some ArgValueError) None = Err ArgValueError /\
  try_except (Some (@Err nat KeyErr)) (Some ArgValueError) (Some (fun e => match e with IndexErr => true | _ => false end)) = Err KeyErr /\
  try_except (Some (Ok 3)) (Some ArgValueError) None = Ok tt.
Proof. vm_compute. repeat split. Qed.

Example C114_ex_add : binv_add [true; true; false] [false; true] = Ok [true; true; false; false; true] /\
  binv_intval [true; true; false; false; true] = 3 + 8 * 2.
Proof. vm_compute. split; reflexivity. Qed.

Example C114_ex_negate : logic_negate_where_str [3; 0; -8]%Z [true; false; false] = Ok (lit "[~3, 0, ~7]") /\
  logic_negate_which_str [3; 0; -8]%Z [7; 0] = Ok (lit "[3, ~0, 7]") /\ logic_negate_which_str [3; 0; -8]%Z [5] = Err ArgMismatchError.
Proof. vm_compute. repeat split; reflexivity. Qed.
