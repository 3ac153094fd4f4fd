(** Proof_WikiRow: the row of a table of functions. *)

From Coq Require Import String Ascii List Arith ZArith QArith Bool Lia Permutation Sorted Relations.
From Coq Require Qcanon.
From Verif Require Import Model_Base Lib Model_Binary Model_WalshPerm Model_Splits Model_Perm Model_Boolf Model_Twin Model_BoolfMore Model_MinRep Model_Misc Model_Blight Model_Str Model_Wiki.
From Verif Require Import Spec_Bits Spec_Boolf Spec_Twin Spec_Splits Spec_Misc Spec_Blight Proof_Binary Proof_Boolf Proof_BoolfTable Proof_BoolfMake Proof_Deflate Proof_Noble Proof_Fract Proof_Misc Proof_Str Proof_BoolfStr Props_Boolf Props_Twin Props_Misc Props_Blight.
Import ListNotations Model_Str.
Open Scope nat_scope.

Lemma reduced_quotient x a b : 0 < b -> Qred x = x -> (x == quotient a b)%Q ->
  let p := Z.to_nat (Qnum x) in let q := Pos.to_nat (Qden x) in
  p * b = a * q /\ Nat.gcd p q = 1 /\ 0 < q /\ Qcompare x (1 # 2) = Nat.compare (2 * a) b /\ p * (b / q) = a.
Proof.
  intros Hb R E p q. unfold quotient, Qeq in E. cbn [Qnum Qden] in E. rewrite <- (positive_nat_Z (Pos.of_nat b)), Nat2Pos.id in E by lia.
  assert (Hq : 0 < q) by (unfold q; lia). assert (N : (0 <= Qnum x)%Z) by nia. assert (Ep : Qnum x = Z.of_nat p) by (unfold p; lia). assert (Eq : Z.pos (Qden x) = Z.of_nat q) by (unfold q; lia).
  rewrite Ep, Eq in E. assert (E' : p * b = a * q) by nia. split; [exact E'|].
  assert (G : Nat.gcd p q = 1).
  { assert (X := Qcanon.Qred_identity2 x R). rewrite Ep, Eq in X. assert (D1 := Nat.gcd_divide_l p q). assert (D2 := Nat.gcd_divide_r p q). destruct D1 as [u U], D2 as [v V].
    assert (D : (Z.of_nat (Nat.gcd p q) | 1)%Z). { rewrite <- X. apply Z.gcd_greatest; [exists (Z.of_nat u) | exists (Z.of_nat v)]; nia. }
    apply Z.divide_1_r_nonneg in D; lia. }
  split; [exact G|]. split; [exact Hq|]. split.
  - unfold Qcompare. cbn [Qnum Qden]. rewrite Ep, Eq. destruct (Nat.compare_spec (2 * a) b) as [C | C | C]; [apply Z.compare_eq_iff | apply Z.compare_lt_iff | apply Z.compare_gt_iff]; nia.
  - assert (D : Nat.divide q b). { apply (Nat.gauss q p b); [exists a; lia | rewrite Nat.gcd_comm; exact G]. } destruct D as [k ->]. rewrite Nat.div_mul by lia. nia.
Qed.

Lemma table_number_half n f : (Nat.compare (2 * table_number n f) (2 ^ 2 ^ n - 1) = if value f 0 then Gt else Lt).
Proof.
  rewrite table_number_be. assert (P := pow2_pos n). unfold ttab. assert (Er : map (tab f) (range (2 ^ n)) = map (value f) (seq 0 (2 ^ n))) by reflexivity. rewrite Er. clear Er. destruct (2 ^ n) as [|m]; [lia|].
  cbn [seq map]. rewrite be_cons. assert (B := be_lt (map (value f) (seq 1 m))). rewrite map_length, seq_length in *. cbn [Nat.pow]. assert (P2 := pow2_pos m).
  destruct (value f 0); cbn [Nat.b2n]; [apply Nat.compare_gt_iff | apply Nat.compare_lt_iff]; lia.
Qed.
Lemma odd_zhe z f : (forall e, zhegalkin z e = sem f e) -> Nat.eqb (z mod 2) 0 = negb (value f 0).
Proof.
  intro S. unfold value. rewrite <- S. unfold zhegalkin, ones.
  assert (M : forall k, 0 < k -> monomial k (Nat.testbit 0) = false).
  { intros k Hk. unfold monomial. assert (I : In (Nat.log2 k) (ones k)).
    { apply filter_In. split; [apply in_seq; assert (X := Nat.log2_lt_lin k Hk); lia | apply Nat.bit_log2; lia]. }
    destruct (ones k) as [|i l]; [destruct I|]. cbn [forallb]. rewrite Nat.bits_0. reflexivity. }
  destruct z as [|z]; [reflexivity|]. cbn [seq filter]. assert (T : forall l, (forall k, In k l -> 0 < k) -> xor_all (map (fun k => monomial k (Nat.testbit 0)) l) = false).
  { intros l H. induction l as [|k l IH]; [reflexivity|]. cbn [map xor_all fold_right]. rewrite M by (apply H; left; reflexivity). rewrite xorb_false_l. apply IH. intros j Hj. apply H. right. exact Hj. }
  assert (Z0 : xor_all (map (fun k => monomial k (Nat.testbit 0)) (filter (Nat.testbit (Datatypes.S z)) (seq 1 z))) = false).
  { apply T. intros k Hk. apply filter_In in Hk. destruct Hk as [Hk _]. apply in_seq in Hk. lia. }
  assert (B := Nat.bit0_mod (Datatypes.S z)). destruct (Nat.testbit (Datatypes.S z) 0) eqn:E; cbn [Nat.b2n] in B; rewrite <- B.
  - cbn [map]. change (xor_all (?a :: ?l)) with (xorb a (xor_all l)). rewrite Z0. reflexivity.
  - rewrite Z0. reflexivity.
Qed.

Section Row.
Variables (dlen : nat -> nat) (vdec wdec : nat -> nat -> text) (order : list (Z * Z) -> list (Z * Z)).
Hypothesis Ho : forall l, Permutation (order l) l.
Variables (f : boolf) (names : text).
Hypothesis M : made false f.

Lemma row_values : no_links f -> none_fixed f -> adicity f = valency f -> exists w B,
  wiki_values_of dlen vdec wdec order f names = inr w /\ bundles order f = Ok B /\
  (forall e, zhegalkin (w_zhegalkin w) e = sem f e) /\
  w_zhegalkin_oddness w = (if value f 0 then lit "odd" else lit "even") /\
  w_zhegalkin_font_size w = (if Nat.ltb 30 (dlen (w_zhegalkin w)) then lit "smaller" else if Nat.ltb 15 (dlen (w_zhegalkin w)) then lit "small" else []) /\
  w_vnum w * (2 ^ 2 ^ valency f - 1) = table_number (valency f) f * w_vden w /\ 0 < w_vden w /\ Nat.gcd (w_vnum w) (w_vden w) = 1 /\
  w_vdec w = vdec (w_vnum w) (w_vden w) /\
  w_vinterval w = (if value f 0 then lit "above-half" else lit "below-half") /\
  w_wnum w * 2 ^ valency f = true_places (valency f) f * w_wden w /\ 0 < w_wden w /\ Nat.gcd (w_wnum w) (w_wden w) = 1 /\
  w_wdec w = wdec (w_wnum w) (w_wden w) /\
  w_winterval w = match Nat.compare (2 * true_places (valency f) f) (2 ^ valency f) with Lt => lit "below-half" | Eq => lit "exactly-half" | Gt => lit "above-half" end /\
  w_wnum_big w = true_places (valency f) f /\ w_wden_big w = 2 ^ valency f /\ w_valency w = valency f /\
  w_fraction_font_size w = (if Nat.ltb 30 (dlen (w_vnum w)) || Nat.ltb 30 (dlen (w_vden w)) then lit "smaller"
                            else if Nat.ltb 15 (dlen (w_vnum w)) || Nat.ltb 15 (dlen (w_vden w)) then lit "small" else []) /\
  w_names_cell w = names /\ w_number_of_bundles w = length B /\ w_unibundle_class w = (if Nat.eqb (length B) 1 then lit " uni" else []).
Proof.
  intros NL NF A. unfold wiki_values_of. destruct (C55_tests order f Ho M) as (a & b & c & _ & _ & Ec & _ & _ & Hc). rewrite Ec. cbn [lift_res rbind]. rewrite (proj2 Hc (conj NL NF)). cbn [negb].
  unfold is_root. rewrite (proj2 (Nat.eqb_eq _ _) A). cbn [negb].
  destruct (C82_value_fract false f M) as (x & Ex & Rx & _ & Qx). destruct (C82_weight_fract false f M) as (y & Ey & Ry & Qy).
  assert (W : within (valency f) f) by (apply within_adicity; lia). specialize (Qx _ W). specialize (Qy _ W).
  assert (P := pow2_pos (valency f)). assert (D : 0 < 2 ^ 2 ^ valency f - 1) by exact (den_pos (valency f)).
  destruct (reduced_quotient x _ _ D Rx Qx) as (X1 & X2 & X3 & X4 & _). destruct (reduced_quotient y _ _ P Ry Qy) as (Y1 & Y2 & Y3 & Y4 & Y5).
  rewrite Ex, Ey. cbn [lift_res rbind]. rewrite X4, Y4, table_number_half.
  destruct (boolf_zhe_spec f (m_fit false f M)) as (z & Ez & _ & _ & Sz). destruct (C59_bundles order f Ho M) as [HB _]. destruct (HB NL) as (B & EB & _).
  assert (Oz := odd_zhe z f Sz).
  destruct (value f 0); rewrite Ez; cbn [lift_res rbind]; rewrite EB; cbn [lift_res rbind]; rewrite Oz; cbn [negb]; eexists; exists B; (split; [reflexivity|]); (split; [reflexivity|]); cbn [w_zhegalkin w_zhegalkin_oddness w_zhegalkin_font_size w_vnum w_vden w_vdec w_vinterval w_wnum w_wden w_wdec w_winterval w_wnum_big w_wden_big w_valency w_fraction_font_size w_names_cell w_number_of_bundles w_unibundle_class]; auto 25 with nocore.
  all: repeat (split; [first [assumption | reflexivity]|]); try reflexivity.
Qed.
End Row.
