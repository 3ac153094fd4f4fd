(** Proof_Fract: weight_fract and value_fract. *)

From Coq Require Import List Arith ZArith QArith Bool Lia Permutation Sorted.
From Verif Require Import Model_Base Lib Model_Binary Model_WalshPerm Model_Splits Model_Perm Model_Boolf Model_Twin Model_BoolfMore Model_MinRep Model_Helpers Model_Layers Model_Misc.
From Verif Require Import Spec_Bits Spec_Boolf Spec_Twin Spec_Splits Spec_Layers Spec_Misc Proof_Binary Proof_Numbers Proof_Boolf Proof_BoolfTable Proof_Deflate Proof_Noble Proof_MinRepCoset Proof_Splits Proof_Layers Proof_Fission Proof_FissionMore.
Import ListNotations.
Open Scope nat_scope.

(** * Quotients *)

Lemma quotient_eq a b c d : 0 < b -> 0 < d -> ((quotient a b == quotient c d)%Q <-> a * d = c * b).
Proof. intros Hb Hd. unfold quotient, Qeq. cbn [Qnum Qden]. rewrite !Znat.positive_nat_Z || idtac. rewrite <- !positive_nat_Z, !Nat2Pos.id by lia. lia. Qed.
Lemma quotient_lt a b c d : 0 < b -> 0 < d -> ((quotient a b < quotient c d)%Q <-> a * d < c * b).
Proof. intros Hb Hd. unfold quotient, Qlt. cbn [Qnum Qden]. rewrite <- !positive_nat_Z, !Nat2Pos.id by lia. lia. Qed.
Lemma quotient_plus a b c : 0 < b -> (quotient a b + quotient c b == quotient (a + c) b)%Q.
Proof. intros Hb. unfold quotient, Qplus, Qeq. cbn [Qnum Qden]. rewrite Pos2Z.inj_mul. lia. Qed.
Lemma Fraction_ok a b : 0 < b -> Fraction a b = Ok (Qred (quotient a b)).
Proof. intro H. destruct b; [lia | reflexivity]. Qed.
Lemma Qred_Qred q : Qred (Qred q) = Qred q.
Proof. apply Qred_complete, Qred_correct. Qed.

(** * Numbers of true places *)

Lemma tab_proj f p : tab f p = nth (proj (atomvals f) p) (root f) false.
Proof. reflexivity. Qed.
Lemma filter_const {A} (b : bool) (l : list A) : length (filter (fun _ => b) l) = if b then length l else 0.
Proof. induction l as [|x l IH]; [destruct b; reflexivity|]. cbn. destruct b; cbn; lia. Qed.
Lemma sum_if (P : nat -> bool) c l : list_sum_nat (map (fun i => if P i then c else 0) l) = c * length (filter P l).
Proof. unfold list_sum_nat. induction l as [|x l IH]; [cbn; lia|]. cbn [map fold_right filter]. rewrite IH. destruct (P x); cbn [length]; lia. Qed.
Lemma root_weight f : fitting f -> binv_weight (root f) = length (filter (fun i => nth i (root f) false) (range (2 ^ valency f))).
Proof.
  intro F. rewrite weight_filter. rewrite (root_map f F) at 1. generalize (range (2 ^ valency f)) as l. intro l. induction l as [|x l IH]; [reflexivity|]. cbn [map filter]. destruct (nth x (root f) false); cbn [length]; rewrite IH; reflexivity.
Qed.

Lemma true_places_root f n : fitting f -> adicity f <= n -> true_places n f = 2 ^ (n - valency f) * binv_weight (root f).
Proof.
  intros F H. assert (Nd := fitting_NoDup f F). assert (Ld : forall d, In d (atomvals f) -> d < n) by (intros d Hd; apply adicity_bound in Hd; lia).
  unfold true_places. change (value f) with (tab f). rewrite <- (sum_layers (proj (atomvals f)) (tab f) (2 ^ valency f)) by (intros x _; apply proj_lt).
  rewrite (map_ext_in _ (fun i => if nth i (root f) false then 2 ^ (n - valency f) else 0)); [rewrite sum_if, root_weight by exact F; reflexivity|].
  intros i Hi. apply range_In in Hi. change (seq 0 (2 ^ n)) with (range (2 ^ n)). rewrite (part_places n (atomvals f) Nd Ld i Hi).
  rewrite filter_length_map. rewrite (filter_ext_in _ (fun _ => nth i (root f) false)).
  - rewrite filter_const. destruct (nth i (root f) false); [|reflexivity]. rewrite range_length. f_equal. assert (X := others_length n (atomvals f) Nd Ld). unfold valency. lia.
  - intros j Hj. rewrite tab_proj. rewrite proj_join_dims by assumption. reflexivity.
Qed.

Lemma valency_adicity f : fitting f -> valency f <= adicity f.
Proof.
  intro F. assert (Nd := fitting_NoDup f F). assert (X := others_length (adicity f) (atomvals f) Nd (fun d H => adicity_bound f d H)). unfold valency. lia.
Qed.

Lemma weight_fract_ok f : fitting f -> weight_fract f = Ok (Qred (quotient (binv_weight (root f)) (2 ^ valency f))).
Proof. intro F. unfold weight_fract. destruct F as [_ L]. rewrite L. apply Fraction_ok. apply pow2_pos. Qed.
Lemma weight_fract_arity f n : fitting f -> adicity f <= n -> (quotient (binv_weight (root f)) (2 ^ valency f) == quotient (true_places n f) (2 ^ n))%Q.
Proof.
  intros F H. apply quotient_eq; try apply pow2_pos. rewrite true_places_root by assumption. assert (V := valency_adicity f F). replace (2 ^ n) with (2 ^ (n - valency f) * 2 ^ valency f) by (rewrite <- Nat.pow_add_r; f_equal; lia). lia.
Qed.

(** * Big endian numbers *)

Lemma be_from l : forall a, fold_left (fun n b => 2 * n + Nat.b2n b) l a = a * 2 ^ length l + int_big_endian l.
Proof.
  unfold int_big_endian. induction l as [|b l IH]; intro a; cbn [fold_left length]; [cbn; lia|]. rewrite IH, (IH (2 * 0 + Nat.b2n b)). rewrite Nat.pow_succ_r'. lia.
Qed.
Lemma be_cons b l : int_big_endian (b :: l) = Nat.b2n b * 2 ^ length l + int_big_endian l.
Proof. unfold int_big_endian at 1. cbn [fold_left]. rewrite be_from. f_equal; lia. Qed.
Lemma be_app l m : int_big_endian (l ++ m) = int_big_endian l * 2 ^ length m + int_big_endian m.
Proof. unfold int_big_endian at 1. rewrite fold_left_app. apply be_from. Qed.
Lemma be_lt l : int_big_endian l < 2 ^ length l.
Proof. induction l as [|b l IH]; [cbn; lia|]. rewrite be_cons. cbn [length]. rewrite Nat.pow_succ_r'. destruct b; cbn [Nat.b2n]; lia. Qed.
Lemma be_negb l : int_big_endian (map negb l) + int_big_endian l = 2 ^ length l - 1.
Proof. induction l as [|b l IH]; [reflexivity|]. cbn [map]. rewrite !be_cons, map_length. cbn [length]. rewrite Nat.pow_succ_r'. assert (P := pow2_pos (length l)). destruct b; cbn [negb Nat.b2n]; lia. Qed.
Lemma be_compare l m : length l = length m -> (int_big_endian l < int_big_endian m <-> exists k, k < length l /\ nth k l false = false /\ nth k m false = true /\ forall j, j < k -> nth j l false = nth j m false).
Proof.
  revert m. induction l as [|a l IH]; intros [|b m] H; cbn in H; try discriminate.
  - cbn. split; [lia | intros (k & Hk & _); lia].
  - rewrite !be_cons. assert (Hl := be_lt l). assert (Hm := be_lt m). injection H as H. specialize (IH m H). rewrite H in Hl, IH. rewrite H. assert (P := pow2_pos (length m)). cbn [length]. rewrite H. split.
    + intro L. assert (C : (a = false /\ b = true) \/ (a = b /\ int_big_endian l < int_big_endian m)) by (destruct a, b; cbn [Nat.b2n] in L; [right | exfalso | left | right]; try (split; [reflexivity|]); lia || reflexivity).
      destruct C as [[-> ->]|[-> C]]; [exists 0; cbn; repeat split; try lia; intros j Hj; lia|]. apply IH in C as (k & Hk & H1 & H2 & H3). exists (S k). cbn [nth]. split; [lia|]. split; [exact H1|]. split; [exact H2|].
      intros [|j] Hj; [reflexivity | apply H3; lia].
    + intros ([|k] & Hk & H1 & H2 & H3); cbn [nth] in H1, H2.
      * subst. cbn [Nat.b2n]. lia.
      * assert (E := H3 0 ltac:(lia)). cbn in E. subst b. apply Nat.add_lt_mono_l. apply IH. exists k. split; [lia|]. split; [exact H1|]. split; [exact H2|]. intros j Hj. exact (H3 (S j) ltac:(lia)).
Qed.
Lemma be_inj l m : length l = length m -> int_big_endian l = int_big_endian m -> l = m.
Proof.
  revert m. induction l as [|a l IH]; intros [|b m] H E; cbn in H; try discriminate; [reflexivity|]. injection H as H. rewrite !be_cons, H in E. assert (Hl := be_lt l). assert (Hm := be_lt m). rewrite H in Hl.
  assert (C : a = b /\ int_big_endian l = int_big_endian m) by (destruct a, b; cbn [Nat.b2n] in E; (split; [|lia]); reflexivity || lia). destruct C as [-> C]. f_equal. apply IH; assumption.
Qed.

Definition ttab f n := map (tab f) (range (2 ^ n)).
Definition den n := 2 ^ (2 ^ n) - 1.
Lemma den_pos n : 0 < den n.
Proof. unfold den. assert (2 ^ 1 <= 2 ^ 2 ^ n) by (apply Nat.pow_le_mono_r; [lia | apply pow2_pos]). cbn in H. lia. Qed.
Lemma den_succ n : den (S n) = den n * (2 ^ 2 ^ n + 1).
Proof. unfold den. rewrite Nat.pow_succ_r'. replace (2 * 2 ^ n) with (2 ^ n + 2 ^ n) by lia. rewrite Nat.pow_add_r. assert (P := pow2_pos (2 ^ n)). nia. Qed.
Lemma tab_high f n p : adicity f <= n -> tab f (2 ^ n + p) = tab f p.
Proof. intro H. unfold tab. apply (sem_low f n); [exact H|]. intros a Ha. rewrite <- (Nat.mod_pow2_bits_low (2 ^ n + p) n a) by exact Ha. rewrite <- (Nat.mod_pow2_bits_low p n a) by exact Ha. f_equal. rewrite <- (Nat.mul_1_l (2 ^ n)) at 1. rewrite Nat.add_comm. apply Nat.mod_add. apply Nat.pow_nonzero. lia. Qed.
Lemma tab_mod f n p : adicity f <= n -> tab f (p mod 2 ^ n) = tab f p.
Proof. intro H. unfold tab. apply (sem_low f n); [exact H|]. intros a Ha. apply Nat.mod_pow2_bits_low. exact Ha. Qed.
Lemma ttab_succ f n : adicity f <= n -> ttab f (S n) = ttab f n ++ ttab f n.
Proof.
  intro H. unfold ttab, range. rewrite Nat.pow_succ_r'. replace (2 * 2 ^ n) with (2 ^ n + 2 ^ n) by lia. rewrite seq_app, map_app. f_equal. cbn [Nat.add].
  apply (nth_ext _ _ false false); rewrite !map_length, !seq_length; [reflexivity|]. intros k Hk. rewrite !(nth_indep (map _ _) false (tab f 0)) by (rewrite map_length, seq_length; exact Hk). rewrite !map_nth, !seq_nth by exact Hk. apply tab_high. exact H.
Qed.
Lemma ttab_length f n : length (ttab f n) = 2 ^ n.
Proof. unfold ttab. rewrite map_length. apply range_length. Qed.

Lemma value_arity f n : adicity f <= n -> (quotient (int_big_endian (ttab f n)) (den n) == quotient (int_big_endian (ttab f (adicity f))) (den (adicity f)))%Q.
Proof.
  intro H. induction H as [|n H IH]; [reflexivity|]. rewrite <- IH. apply quotient_eq; try apply den_pos. rewrite ttab_succ by exact H. rewrite be_app, ttab_length, den_succ. nia.
Qed.
Lemma value_fract_ok f : fitting f -> value_fract f = Ok (Qred (quotient (int_big_endian (ttab f (adicity f))) (den (adicity f)))).
Proof. intro F. unfold value_fract. rewrite tt_default by exact F. cbn [bind]. apply Fraction_ok. apply den_pos. Qed.

Lemma value_lt f g n : adicity f <= n -> adicity g <= n ->
  ((quotient (int_big_endian (ttab f n)) (den n) < quotient (int_big_endian (ttab g n)) (den n))%Q <-> first_smaller f g).
Proof.
  intros Hf Hg. rewrite quotient_lt by apply den_pos. assert (D := den_pos n). assert (E : int_big_endian (ttab f n) * den n < int_big_endian (ttab g n) * den n <-> int_big_endian (ttab f n) < int_big_endian (ttab g n)) by nia. rewrite E.
  rewrite be_compare by (rewrite !ttab_length; reflexivity). rewrite ttab_length. unfold first_smaller. change (value f) with (tab f). change (value g) with (tab g).
  assert (N : forall h k, k < 2 ^ n -> nth k (ttab h n) false = tab h k) by (intros h k Hk; apply nth_map_r; exact Hk). split.
  - intros (k & Hk & H1 & H2 & H3). exists k. rewrite N in H1, H2 by exact Hk. split; [exact H1|]. split; [exact H2|]. intros q Hq. specialize (H3 q Hq). rewrite !N in H3 by lia. exact H3.
  - intros (k & H1 & H2 & H3). destruct (Nat.lt_ge_cases k (2 ^ n)) as [Hk|Hk].
    + exists k. rewrite !N by exact Hk. split; [exact Hk|]. split; [exact H1|]. split; [exact H2|]. intros j Hj. rewrite !N by lia. apply H3. exact Hj.
    + exfalso. assert (P := pow2_pos n). assert (L := Nat.mod_upper_bound k (2 ^ n) ltac:(lia)). specialize (H3 (k mod 2 ^ n) ltac:(lia)). rewrite !tab_mod in H3 by assumption. congruence.
Qed.
Lemma value_inj f g n : adicity f <= n -> adicity g <= n ->
  (quotient (int_big_endian (ttab f n)) (den n) == quotient (int_big_endian (ttab g n)) (den n))%Q -> forall e, sem f e = sem g e.
Proof.
  intros Hf Hg H. apply quotient_eq in H; try apply den_pos. assert (D := den_pos n). assert (E : int_big_endian (ttab f n) = int_big_endian (ttab g n)) by nia.
  apply be_inj in E; [|rewrite !ttab_length; reflexivity]. apply (tab_inj f g n Hf Hg). intros i Hi. apply (f_equal (fun l => nth i l false)) in E. unfold ttab in E. rewrite !nth_map_r in E by exact Hi. exact E.
Qed.
