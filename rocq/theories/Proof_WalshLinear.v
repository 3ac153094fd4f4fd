(** Proof_WalshLinear: linear algebra modulo two on lists of bits. *)

From Coq Require Import List Arith ZArith Bool Lia Permutation.
From Verif Require Import Model_Base Lib Model_Perm Model_Binary Model_WalshPerm Spec_Bits Spec_Perm Spec_WalshPerm
  Proof_Binary Proof_Linear Proof_Perm.
Import ListNotations.
Open Scope nat_scope.

Implicit Types (a b c : nat -> nat -> bool) (x y : nat -> bool).

Lemma xor_all_ext (f g : nat -> bool) l : (forall i, In i l -> f i = g i) -> xor_all (map f l) = xor_all (map g l).
Proof. intro H. f_equal. apply map_ext_in. exact H. Qed.

Lemma xor_all_zero (f : nat -> bool) l : (forall i, In i l -> f i = false) -> xor_all (map f l) = false.
Proof.
  intro H. unfold xor_all. induction l as [|i l IH]; [reflexivity|]. cbn [map fold_right].
  rewrite H by (left; reflexivity). rewrite IH by (intros k Hk; apply H; right; exact Hk). reflexivity.
Qed.

Lemma xor_all_xorb (f g : nat -> bool) l : xor_all (map (fun i => xorb (f i) (g i)) l) = xorb (xor_all (map f l)) (xor_all (map g l)).
Proof.
  unfold xor_all. induction l as [|i l IH]; [reflexivity|]. cbn [map fold_right]. rewrite IH.
  destruct (f i), (g i), (fold_right xorb false (map f l)), (fold_right xorb false (map g l)); reflexivity.
Qed.

Lemma xor_all_and (f : nat -> bool) (q : bool) l : xor_all (map (fun i => f i && q) l) = xor_all (map f l) && q.
Proof.
  unfold xor_all. induction l as [|i l IH]; [reflexivity|]. cbn [map fold_right]. rewrite IH.
  destruct (f i), q, (fold_right xorb false (map f l)); reflexivity.
Qed.

Lemma xor_all_swap (f : nat -> nat -> bool) l k :
  xor_all (map (fun i => xor_all (map (f i) k)) l) = xor_all (map (fun j => xor_all (map (fun i => f i j) l)) k).
Proof.
  induction l as [|i l IH].
  - cbn [map]. symmetry. apply xor_all_zero. reflexivity.
  - cbn [map]. unfold xor_all at 1. cbn [fold_right]. fold (xor_all (map (fun i => xor_all (map (f i) k)) l)).
    rewrite IH, <- xor_all_xorb. reflexivity.
Qed.

Lemma xor_all_single (f : nat -> bool) n k : k < n -> xor_all (map (fun j => Nat.eqb k j && f j) (seq 0 n)) = f k.
Proof.
  intro H. replace n with (k + S (n - S k)) by lia. rewrite seq_app, map_app, xor_all_app. cbn [seq map].
  rewrite xor_all_zero.
  2: { intros i Hi. apply in_seq in Hi. replace (k =? i) with false by (symmetry; apply Nat.eqb_neq; lia). reflexivity. }
  unfold xor_all. cbn [fold_right]. rewrite Nat.add_0_l, Nat.eqb_refl. fold (xor_all (map (fun j => (k =? j) && f j) (seq (S k) (n - S k)))).
  rewrite xor_all_zero.
  2: { intros i Hi. apply in_seq in Hi. replace (k =? i) with false by (symmetry; apply Nat.eqb_neq; lia). reflexivity. }
  destruct (f k); reflexivity.
Qed.

Lemma mat_vec_ext n a b x y i : (forall j, j < n -> a i j = b i j) -> (forall j, j < n -> x j = y j) ->
  mat_vec n a x i = mat_vec n b y i.
Proof. intros H1 H2. apply xor_all_ext. intros j Hj. apply in_seq in Hj. rewrite H1, H2 by lia. reflexivity. Qed.

Lemma mat_vec_one n x i : i < n -> mat_vec n Nat.eqb x i = x i.
Proof. intro H. apply (xor_all_single x). exact H. Qed.

Lemma mat_vec_unit n b k i : k < n -> mat_vec n b (Nat.eqb k) i = b i k.
Proof.
  intro H. unfold mat_vec. rewrite <- (xor_all_single (b i) n k H). apply xor_all_ext. intros j _. apply andb_comm.
Qed.

Lemma mat_vec_mat n a b x i : mat_vec n a (mat_vec n b x) i = mat_vec n (mat_mat n a b) x i.
Proof.
  unfold mat_mat, mat_vec.
  rewrite (xor_all_ext _ (fun j => xor_all (map (fun k => a i j && b j k && x k) (seq 0 n)))).
  2: { intros j _. rewrite andb_comm, <- xor_all_and. apply xor_all_ext. intros k _.
       destruct (a i j), (b j k), (x k); reflexivity. }
  rewrite (xor_all_swap (fun j k => a i j && b j k && x k)). apply xor_all_ext. intros k _. apply (xor_all_and (fun j => a i j && b j k)).
Qed.

Lemma mat_vec_xor n b x y i : mat_vec n b (fun j => xorb (x j) (y j)) i = xorb (mat_vec n b x i) (mat_vec n b y i).
Proof.
  unfold mat_vec. rewrite <- xor_all_xorb. apply xor_all_ext. intros j _. destruct (b i j), (x j), (y j); reflexivity.
Qed.

(** * The map of a matrix on the numbers below 2^d *)

Definition lin (d : nat) b (v : nat) : nat := b2n (map (mat_vec d b (Nat.testbit v)) (seq 0 d)).

Lemma testbit_lin d b v i : Nat.testbit (lin d b v) i = (i <? d) && mat_vec d b (Nat.testbit v) i.
Proof.
  unfold lin. rewrite testbit_b2n. destruct (Nat.ltb_spec i d) as [H|H].
  - rewrite nth_indep with (d' := mat_vec d b (Nat.testbit v) 0) by (rewrite map_length, seq_length; exact H).
    rewrite map_nth, seq_nth by exact H. reflexivity.
  - apply nth_overflow. rewrite map_length, seq_length. exact H.
Qed.

Lemma lin_lt d b v : lin d b v < 2 ^ d.
Proof. apply bits_lt_pow. intros i Hi. rewrite testbit_lin, (proj2 (Nat.ltb_ge _ _) Hi). reflexivity. Qed.

Lemma lin_ext d a b v : (forall i j, i < d -> j < d -> a i j = b i j) -> lin d a v = lin d b v.
Proof.
  intro H. apply Nat.bits_inj. intro i. rewrite !testbit_lin. destruct (Nat.ltb_spec i d) as [Hi|]; [|reflexivity].
  cbn [andb]. apply mat_vec_ext; [intros j Hj; apply H; assumption | reflexivity].
Qed.

Lemma lin_lin d a b v : lin d a (lin d b v) = lin d (mat_mat d a b) v.
Proof.
  apply Nat.bits_inj. intro i. rewrite !testbit_lin. destruct (Nat.ltb_spec i d) as [Hi|]; [|reflexivity].
  cbn [andb]. rewrite <- mat_vec_mat. apply mat_vec_ext; [reflexivity|]. intros j Hj. rewrite testbit_lin, (proj2 (Nat.ltb_lt _ _) Hj).
  reflexivity.
Qed.

Lemma lin_one d v : v < 2 ^ d -> lin d Nat.eqb v = v.
Proof.
  intro H. apply Nat.bits_inj. intro i. rewrite testbit_lin. destruct (Nat.ltb_spec i d) as [Hi|Hi]; cbn [andb].
  - apply mat_vec_one. exact Hi.
  - symmetry. apply testbit_high. eapply Nat.lt_le_trans; [exact H | apply Nat.pow_le_mono_r; lia].
Qed.

Lemma testbit_pow k i : Nat.testbit (2 ^ k) i = (k =? i).
Proof. apply Nat.pow2_bits_eqb. Qed.

Lemma lin_pow d b k i : k < d -> i < d -> Nat.testbit (lin d b (2 ^ k)) i = b i k.
Proof.
  intros H Hi. rewrite testbit_lin, (proj2 (Nat.ltb_lt _ _) Hi). cbn [andb].
  rewrite <- (mat_vec_unit d b k i H). apply mat_vec_ext; [reflexivity|]. intros j _. apply testbit_pow.
Qed.

Lemma pow_lt k d : k < d -> 2 ^ k < 2 ^ d.
Proof. intro H. apply Nat.pow_lt_mono_r; lia. Qed.

Definition onto (d : nat) b : Prop := Permutation (map (lin d b) (seq 0 (2 ^ d))) (seq 0 (2 ^ d)).

Lemma right_inverse_onto d b c : (forall i j, i < d -> j < d -> mat_mat d b c i j = Nat.eqb i j) -> onto d b.
Proof.
  intro H. unfold onto. symmetry. apply NoDup_Permutation_bis; [apply seq_NoDup | rewrite map_length; lia |].
  intros v Hv. apply in_seq in Hv. apply in_map_iff. exists (lin d c v). split.
  - rewrite lin_lin, (lin_ext d _ Nat.eqb) by exact H. apply lin_one. lia.
  - apply in_seq. split; [lia | apply lin_lt].
Qed.

Lemma onto_inj d b u v : onto d b -> u < 2 ^ d -> v < 2 ^ d -> lin d b u = lin d b v -> u = v.
Proof.
  intros H Hu Hv E. assert (Hn : NoDup (map (lin d b) (seq 0 (2 ^ d)))).
  { eapply Permutation_NoDup; [symmetry; exact H | apply seq_NoDup]. }
  rewrite NoDup_nth with (d := lin d b 0) in Hn. apply (Hn u v); try (rewrite map_length, seq_length; assumption).
  rewrite !map_nth, !seq_nth by assumption. exact E.
Qed.

Lemma onto_inverse d b : onto d b -> exists c, forall i j, i < d -> j < d ->
  mat_mat d b c i j = Nat.eqb i j /\ mat_mat d c b i j = Nat.eqb i j.
Proof.
  intro H.
  set (pre := fun k => match find (fun u => lin d b u =? 2 ^ k) (seq 0 (2 ^ d)) with Some u => u | None => 0 end).
  assert (Hpre : forall k, k < d -> pre k < 2 ^ d /\ lin d b (pre k) = 2 ^ k).
  { intros k Hk. unfold pre. destruct (find _ _) as [u|] eqn:E.
    - apply find_some in E. destruct E as [E1 E2]. apply in_seq in E1. apply Nat.eqb_eq in E2. split; [lia | exact E2].
    - exfalso. assert (Hin : In (2 ^ k) (map (lin d b) (seq 0 (2 ^ d)))).
      { eapply Permutation_in; [symmetry; exact H|]. apply in_seq. split; [lia | apply pow_lt; exact Hk]. }
      apply in_map_iff in Hin. destruct Hin as [u [Eu Hu]]. apply (find_none _ _ E) in Hu. apply Nat.eqb_neq in Hu. contradiction. }
  set (c := fun i k => Nat.testbit (pre k) i). exists c.
  assert (H1 : forall i j, i < d -> j < d -> mat_mat d b c i j = Nat.eqb i j).
  { intros i j Hi Hj. destruct (Hpre j Hj) as [_ E]. apply (f_equal (fun v => Nat.testbit v i)) in E.
    rewrite testbit_lin, (proj2 (Nat.ltb_lt _ _) Hi), testbit_pow in E. cbn [andb] in E. rewrite Nat.eqb_sym, <- E. reflexivity. }
  intros i j Hi Hj. split; [apply H1; assumption|].
  assert (E : lin d c (lin d b (2 ^ j)) = 2 ^ j).
  { apply (onto_inj d b); [exact H | apply lin_lt | apply pow_lt; exact Hj|].
    rewrite lin_lin, (lin_ext d _ Nat.eqb) by exact H1. apply lin_one, lin_lt. }
  apply (f_equal (fun v => Nat.testbit v i)) in E. rewrite lin_lin, lin_pow, testbit_pow in E by assumption.
  rewrite E. apply Nat.eqb_sym.
Qed.

Lemma invertible_onto d b : invertible d b <-> onto d b.
Proof.
  split; [|apply onto_inverse]. intros [c H]. apply (right_inverse_onto d b c). intros i j Hi Hj. apply H; assumption.
Qed.

Lemma invertible_ext d a b : (forall i j, i < d -> j < d -> a i j = b i j) -> invertible d a -> invertible d b.
Proof.
  intros H [c Hc]. exists c. intros i j Hi Hj. destruct (Hc i j Hi Hj) as [H1 H2]. split.
  - rewrite <- H1. apply mat_vec_ext; [intros k Hk; symmetry; apply H; assumption | reflexivity].
  - rewrite <- H2. apply mat_vec_ext; [reflexivity | intros k Hk; symmetry; apply H; assumption].
Qed.

Lemma invertible_mul d a b : invertible d a -> invertible d b -> invertible d (mat_mat d a b).
Proof.
  intros Ha Hb. apply invertible_onto. apply invertible_onto in Ha, Hb. unfold onto in *.
  rewrite (map_ext _ (fun v => lin d a (lin d b v))) by (intro v; symmetry; apply lin_lin).
  rewrite <- (map_map (lin d b) (lin d a)). rewrite Hb. exact Ha.
Qed.

Definition tr (b : nat -> nat -> bool) i j := b j i.

Lemma mat_mat_tr d a b i j : mat_mat d (tr a) (tr b) i j = mat_mat d b a j i.
Proof. unfold mat_mat, mat_vec, tr. apply xor_all_ext. intros k _. apply andb_comm. Qed.

Lemma invertible_tr d b : invertible d b -> invertible d (tr b).
Proof.
  intros [c Hc]. exists (tr c). intros i j Hi Hj. rewrite !mat_mat_tr. destruct (Hc j i Hj Hi) as [H1 H2].
  split; [rewrite H2 | rewrite H1]; apply Nat.eqb_sym.
Qed.

(** * Extension to all numbers *)

Definition full (d : nat) b (v : nat) : nat := lin d b (v mod 2 ^ d) + 2 ^ d * (v / 2 ^ d).

Lemma testbit_mod_pow v d i : Nat.testbit (v mod 2 ^ d) i = (i <? d) && Nat.testbit v i.
Proof.
  destruct (Nat.ltb_spec i d) as [H|H]; cbn [andb].
  - apply Nat.mod_pow2_bits_low. exact H.
  - apply Nat.mod_pow2_bits_high. exact H.
Qed.

Lemma testbit_glue lo hi d i : lo < 2 ^ d ->
  Nat.testbit (lo + 2 ^ d * hi) i = if i <? d then Nat.testbit lo i else Nat.testbit hi (i - d).
Proof.
  intro H. assert (E : lo + 2 ^ d * hi = Nat.lor lo (Nat.shiftl hi d)).
  { rewrite Nat.shiftl_mul_pow2, Nat.mul_comm. rewrite <- Nat.lxor_lor, Nat.add_nocarry_lxor; [reflexivity | |].
    all: apply Nat.bits_inj; intro k; rewrite Nat.land_spec, Nat.bits_0, <- Nat.shiftl_mul_pow2.
    all: destruct (Nat.lt_ge_cases k d) as [Hk|Hk]; [rewrite Nat.shiftl_spec_low by exact Hk; apply andb_false_r|].
    all: rewrite testbit_high; [reflexivity | eapply Nat.lt_le_trans; [exact H | apply Nat.pow_le_mono_r; lia]]. }
  rewrite E, Nat.lor_spec. destruct (Nat.ltb_spec i d) as [Hi|Hi].
  - rewrite Nat.shiftl_spec_low by exact Hi. apply orb_false_r.
  - rewrite Nat.shiftl_spec_high' by exact Hi. rewrite testbit_high; [reflexivity|].
    eapply Nat.lt_le_trans; [exact H | apply Nat.pow_le_mono_r; lia].
Qed.

Lemma full_acts d b : acts_as d b (full d b).
Proof.
  intros v i. unfold full. rewrite testbit_glue by apply lin_lt. destruct (Nat.ltb_spec i d) as [H|H].
  - rewrite testbit_lin, (proj2 (Nat.ltb_lt _ _) H). cbn [andb]. apply mat_vec_ext; [reflexivity|].
    intros j Hj. rewrite testbit_mod_pow, (proj2 (Nat.ltb_lt _ _) Hj). reflexivity.
  - rewrite <- (Nat.shiftr_div_pow2 v d), Nat.shiftr_spec'. f_equal. lia.
Qed.

Lemma acts_unique d b f g : acts_as d b f -> acts_as d b g -> forall v, f v = g v.
Proof. intros Hf Hg v. apply Nat.bits_inj. intro i. rewrite Hf, Hg. reflexivity. Qed.

Lemma acts_ext d a b f : (forall i j, i < d -> j < d -> a i j = b i j) -> acts_as d a f -> acts_as d b f.
Proof.
  intros H Hf v i. rewrite Hf. destruct (Nat.ltb_spec i d) as [Hi|]; [|reflexivity].
  apply mat_vec_ext; [intros j Hj; apply H; assumption | reflexivity].
Qed.

(** the same map described by a bigger matrix *)
Definition grow (d : nat) b i j := if (i <? d) && (j <? d) then b i j else Nat.eqb i j.

Lemma mat_vec_grow d n b x i : d <= n -> i < n ->
  mat_vec n (grow d b) x i = if i <? d then mat_vec d b x i else x i.
Proof.
  intros Hd Hi. destruct (Nat.ltb_spec i d) as [H|H].
  - unfold mat_vec. replace n with (d + (n - d)) by lia. rewrite seq_app, map_app, xor_all_app. cbn [Nat.add].
    rewrite (xor_all_zero _ (seq d (n - d))).
    + rewrite xorb_false_r. apply xor_all_ext. intros j Hj. apply in_seq in Hj. unfold grow.
      rewrite (proj2 (Nat.ltb_lt i d) H), (proj2 (Nat.ltb_lt j d)) by lia. reflexivity.
    + intros j Hj. apply in_seq in Hj. unfold grow. rewrite (proj2 (Nat.ltb_ge j d)) by lia. rewrite andb_false_r.
      replace (i =? j) with false by (symmetry; apply Nat.eqb_neq; lia). reflexivity.
  - rewrite <- (mat_vec_one n x i Hi). apply mat_vec_ext; [|reflexivity]. intros j _. unfold grow.
    rewrite (proj2 (Nat.ltb_ge i d) H). reflexivity.
Qed.

Lemma acts_grow d n b f : d <= n -> (acts_as n (grow d b) f <-> acts_as d b f).
Proof.
  intro H. split; intros Hf v i; rewrite Hf; destruct (Nat.ltb_spec i n) as [Hi|Hi].
  - rewrite mat_vec_grow by assumption. reflexivity.
  - rewrite (proj2 (Nat.ltb_ge i d)) by lia. reflexivity.
  - rewrite mat_vec_grow by assumption. reflexivity.
  - rewrite (proj2 (Nat.ltb_ge i d)) by lia. reflexivity.
Qed.

Lemma acts_linear d b f : acts_as d b f -> linear f.
Proof.
  intros H v u. apply Nat.bits_inj. intro i. rewrite Nat.lxor_spec, !H. destruct (i <? d).
  - rewrite <- mat_vec_xor. apply mat_vec_ext; [reflexivity|]. intros j _. apply Nat.lxor_spec.
  - apply Nat.lxor_spec.
Qed.

Lemma acts_pow d b f k i : acts_as d b f -> Nat.testbit (f (2 ^ k)) i = grow d b i k.
Proof.
  intro H. rewrite H. unfold grow. destruct (Nat.ltb_spec i d) as [Hi|Hi]; cbn [andb].
  - destruct (Nat.ltb_spec k d) as [Hk|Hk].
    + rewrite <- (mat_vec_unit d b k i Hk). apply mat_vec_ext; [reflexivity|]. intros j _. apply testbit_pow.
    + replace (i =? k) with false by (symmetry; apply Nat.eqb_neq; lia). apply xor_all_zero.
      intros j Hj. apply in_seq in Hj. rewrite testbit_pow. replace (k =? j) with false by (symmetry; apply Nat.eqb_neq; lia).
      apply andb_false_r.
  - rewrite testbit_pow. apply Nat.eqb_sym.
Qed.

Lemma linear_zero f : linear f -> f 0 = 0.
Proof. intro H. specialize (H 0 0). rewrite !Nat.lxor_nilpotent in H. exact H. Qed.

(** a linear map that keeps the numbers below 2^d and the bits from d on is a matrix *)
Lemma linear_ext f g : linear f -> linear g -> (forall k, f (2 ^ k) = g (2 ^ k)) -> forall v, f v = g v.
Proof.
  intros Hf Hg H v. assert (Hv := lt_pow2 v). revert Hv. generalize v at 2. intro d. revert v.
  induction d as [|d IH]; intros v Hv.
  - replace v with 0 by (cbn in Hv; lia). rewrite !linear_zero by assumption. reflexivity.
  - destruct (Nat.testbit v d) eqn:E.
    + assert (Ev : v = Nat.lxor (Nat.lxor v (2 ^ d)) (2 ^ d)) by (rewrite Nat.lxor_assoc, Nat.lxor_nilpotent, Nat.lxor_0_r; reflexivity).
      assert (Hlt : Nat.lxor v (2 ^ d) < 2 ^ d).
      { apply bits_lt_pow. intros i Hi. rewrite Nat.lxor_spec, testbit_pow. destruct (Nat.eq_dec i d) as [->|Hne].
        - rewrite E, Nat.eqb_refl. reflexivity.
        - replace (d =? i) with false by (symmetry; apply Nat.eqb_neq; lia). rewrite xorb_false_r. apply testbit_high.
          eapply Nat.lt_le_trans; [exact Hv | apply Nat.pow_le_mono_r; lia]. }
      rewrite Ev, Hf, Hg, H, (IH _ Hlt). reflexivity.
    + apply IH. apply bits_lt_pow. intros i Hi. destruct (Nat.eq_dec i d) as [->|Hne]; [exact E|].
      apply testbit_high. eapply Nat.lt_le_trans; [exact Hv | apply Nat.pow_le_mono_r; lia].
Qed.

Lemma acts_comp n a b f g : acts_as n a f -> acts_as n b g -> acts_as n (mat_mat n a b) (fun v => f (g v)).
Proof.
  intros Hf Hg v i. rewrite Hf. destruct (Nat.ltb_spec i n) as [Hi|Hi].
  - rewrite <- mat_vec_mat. apply mat_vec_ext; [reflexivity|]. intros j Hj. rewrite Hg, (proj2 (Nat.ltb_lt _ _) Hj). reflexivity.
  - rewrite Hg, (proj2 (Nat.ltb_ge _ _) Hi). reflexivity.
Qed.

Lemma acts_bijective n b f : invertible n b -> acts_as n b f -> bijective f.
Proof.
  intros [c Hc] Hf. assert (H1 : forall v, full n c (f v) = v).
  { intro v. apply (acts_unique n Nat.eqb (fun v => full n c (f v)) (fun v => v)).
    - eapply acts_ext; [|exact (acts_comp n c b (full n c) f (full_acts n c) Hf)]. intros i j Hi Hj. apply Hc; assumption.
    - intros u i. destruct (Nat.ltb_spec i n) as [Hi|]; [|reflexivity]. symmetry. apply mat_vec_one. exact Hi. }
  assert (H2 : forall v, f (full n c v) = v).
  { intro v. apply (acts_unique n Nat.eqb (fun v => f (full n c v)) (fun v => v)).
    - eapply acts_ext; [|exact (acts_comp n b c f (full n c) Hf (full_acts n c))]. intros i j Hi Hj. apply Hc; assumption.
    - intros u i. destruct (Nat.ltb_spec i n) as [Hi|]; [|reflexivity]. symmetry. apply mat_vec_one. exact Hi. }
  split.
  - intros u v E. rewrite <- (H1 u), <- (H1 v), E. reflexivity.
  - intro v. exists (full n c v). apply H2.
Qed.

(** * Periods *)

Lemma full_period d b f : acts_as d b f -> is_period f (2 ^ d).
Proof.
  intros H v. rewrite !(acts_unique d b f (full d b) H (full_acts d b)). unfold full.
  assert (Hp : 2 ^ d <> 0) by (apply Nat.pow_nonzero; lia).
  replace (v + 2 ^ d) with (v + 1 * 2 ^ d) by lia. rewrite Nat.mod_add, Nat.div_add by exact Hp. lia.
Qed.

Lemma pow2_divisor q d : q <> 0 -> (exists e, 2 ^ d = e * q) -> exists k, k <= d /\ q = 2 ^ k.
Proof.
  revert q. induction d as [|d IH]; intros q Hq [c Hc].
  - exists 0. split; [lia|]. cbn [Nat.pow] in *. symmetry in Hc. apply Nat.eq_mul_1 in Hc. lia.
  - destruct (Nat.even q) eqn:E.
    + apply Nat.even_spec in E. destruct E as [h ->]. destruct (IH h) as [k [Hk Eh]].
      * lia.
      * exists c. cbn [Nat.pow] in Hc. nia.
      * exists (S k). split; [lia|]. cbn [Nat.pow]. lia.
    + assert (Ec : Nat.even c = true).
      { assert (Ev : Nat.even (2 ^ S d) = true) by (rewrite Nat.even_pow by lia; reflexivity).
        rewrite Hc, Nat.even_mul, E, orb_false_r in Ev. exact Ev. }
      apply Nat.even_spec in Ec. destruct Ec as [h ->]. destruct (IH q Hq) as [k [Hk Eq]].
      * exists h. cbn [Nat.pow] in Hc. nia.
      * exists k. split; [lia | exact Eq].
Qed.

(** the last row and the last column are those of the identity *)
Definition loose (d : nat) b : Prop := forall i, i < d -> b i (d - 1) = Nat.eqb i (d - 1) /\ b (d - 1) i = Nat.eqb (d - 1) i.

Lemma half_period_loose d b f : 0 < d -> acts_as d b f -> is_period f (2 ^ (d - 1)) -> loose d b.
Proof.
  intros Hd Hf Hp. assert (Hl := acts_linear d b f Hf).
  assert (E : f (2 ^ (d - 1)) = 2 ^ (d - 1)).
  { specialize (Hp 0). cbn [Nat.add] in Hp. rewrite Hp, linear_zero by exact Hl. reflexivity. }
  assert (Hc : forall i, i < d -> b i (d - 1) = Nat.eqb i (d - 1)).
  { intros i Hi. assert (Hb := acts_pow d b f (d - 1) i Hf). rewrite E, testbit_pow in Hb. unfold grow in Hb.
    rewrite (proj2 (Nat.ltb_lt i d)), (proj2 (Nat.ltb_lt (d - 1) d)) in Hb by lia. cbn [andb] in Hb. rewrite <- Hb. apply Nat.eqb_sym. }
  intros i Hi. split; [apply Hc; exact Hi|].
  destruct (Nat.eq_dec i (d - 1)) as [->|Hne]; [rewrite (Hc (d - 1)) by lia; reflexivity|].
  replace (d - 1 =? i) with false by (symmetry; apply Nat.eqb_neq; lia).
  destruct (b (d - 1) i) eqn:Eb; [|reflexivity]. exfalso.
  assert (Hb : Nat.testbit (f (2 ^ i)) (d - 1) = true).
  { rewrite (acts_pow d b f i (d - 1) Hf). unfold grow. rewrite (proj2 (Nat.ltb_lt i d)), (proj2 (Nat.ltb_lt (d - 1) d)) by lia. exact Eb. }
  assert (Hx : 2 ^ i + 2 ^ (d - 1) = Nat.lxor (2 ^ i) (2 ^ (d - 1))).
  { apply Nat.add_nocarry_lxor. apply Nat.bits_inj. intro k. rewrite Nat.land_spec, Nat.bits_0, !testbit_pow.
    destruct (Nat.eqb_spec i k); [|reflexivity]. subst k. apply Nat.eqb_neq. lia. }
  assert (H2 := Hp (2 ^ i)). rewrite Hx, Hl, E in H2.
  assert (Hlow : Nat.lxor (Nat.lxor (f (2 ^ i)) (2 ^ (d - 1))) (2 ^ (d - 1)) = f (2 ^ i)) by (rewrite Nat.lxor_assoc, Nat.lxor_nilpotent, Nat.lxor_0_r; reflexivity).
  assert (Hsum : Nat.lxor (f (2 ^ i)) (2 ^ (d - 1)) + 2 ^ (d - 1) = f (2 ^ i)).
  { rewrite <- Hlow at 2. apply Nat.add_nocarry_lxor. apply Nat.bits_inj. intro k. rewrite Nat.land_spec, Nat.lxor_spec, Nat.bits_0, testbit_pow.
    destruct (Nat.eqb_spec (d - 1) k) as [<-|]; [rewrite Hb; reflexivity | apply andb_false_r]. }
  assert (2 ^ (d - 1) <> 0) by (apply Nat.pow_nonzero; lia). lia.
Qed.

Lemma tight_period d b f : 0 < d -> acts_as d b f -> ~ loose d b -> minimal_period f (2 ^ d).
Proof.
  intros Hd Hf Ht. assert (Hper := full_period d b f Hf). split; [exact Hper|]. intros t Ht0 Hpt.
  assert (Hp0 : 2 ^ d <> 0) by (apply Nat.pow_nonzero; lia).
  assert (Hg := period_gcd f (2 ^ d) t Hp0 Hper Hpt). set (g := Nat.gcd (2 ^ d) t) in *.
  assert (Hg1 : exists e, 2 ^ d = e * g) by (destruct (Nat.gcd_divide_l (2 ^ d) t) as [c Hc]; exists c; exact Hc).
  assert (Hg0 : g <> 0). { intro E0. destruct Hg1 as [c Hc]. rewrite E0 in Hc. lia. }
  destruct (pow2_divisor g d Hg0 Hg1) as [k [Hk Eg]]. destruct (Nat.eq_dec k d) as [->|Hne].
  - destruct (Nat.gcd_divide_r (2 ^ d) t) as [c Hc]. fold g in Hc. exists c. rewrite <- Eg. exact Hc.
  - exfalso. apply Ht. apply (half_period_loose d b f Hd Hf). rewrite Eg in Hg.
    replace (2 ^ (d - 1)) with (2 ^ (d - 1 - k) * 2 ^ k) by (rewrite <- Nat.pow_add_r; f_equal; lia).
    apply period_mul. exact Hg.
Qed.

(** the identity beyond size [d] changes nothing about invertibility *)
Lemma invertible_grow d n b : d <= n -> (invertible n (grow d b) <-> invertible d b).
Proof.
  intro Hd. split; intro Hi.
  - apply invertible_onto. assert (Ha : acts_as n (grow d b) (full d b)) by (apply acts_grow; [exact Hd | apply full_acts]).
    assert (Hb := acts_bijective n (grow d b) (full d b) Hi Ha).
    unfold onto. apply NoDup_Permutation_bis.
    + apply NoDup_nth with (d := lin d b 0). intros i j Hi' Hj' E. rewrite map_length, seq_length in Hi', Hj'.
      rewrite !map_nth, !seq_nth in E by assumption. cbn [Nat.add] in E. apply (proj1 Hb).
      unfold full. rewrite !Nat.mod_small, !Nat.div_small by assumption. lia.
    + rewrite map_length. lia.
    + intros v Hv. apply in_map_iff in Hv. destruct Hv as [u [<- _]]. apply in_seq. split; [lia | apply lin_lt].
  - destruct Hi as [c Hc]. exists (grow d c).
    assert (G : forall p q, (forall i j, i < d -> j < d -> mat_mat d p q i j = Nat.eqb i j) ->
                forall i j, i < n -> j < n -> mat_mat n (grow d p) (grow d q) i j = Nat.eqb i j).
    { intros p q Hpq i j Hi Hj. unfold mat_mat. rewrite mat_vec_grow by assumption. destruct (Nat.ltb_spec i d) as [H0|H0].
      - destruct (Nat.lt_ge_cases j d) as [H1|H1].
        + rewrite <- (Hpq i j H0 H1). unfold mat_mat. apply mat_vec_ext; [reflexivity|]. intros k Hk. unfold grow.
          rewrite (proj2 (Nat.ltb_lt k d) Hk), (proj2 (Nat.ltb_lt j d) H1). reflexivity.
        + replace (i =? j) with false by (symmetry; apply Nat.eqb_neq; lia). apply xor_all_zero. intros k Hk. apply in_seq in Hk.
          unfold grow. rewrite (proj2 (Nat.ltb_ge j d) H1), andb_false_r. replace (k =? j) with false by (symmetry; apply Nat.eqb_neq; lia).
          apply andb_false_r.
      - unfold grow. rewrite (proj2 (Nat.ltb_ge i d) H0). reflexivity. }
    intros i j Hi Hj. split; apply G; try assumption; intros; apply Hc; assumption.
Qed.
