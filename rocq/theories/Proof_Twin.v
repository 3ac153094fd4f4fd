(** Proof_Twin: the Zhegalkin transform of truth tables. *)

From Coq Require Import List Arith ZArith Bool Lia Sorted Permutation.
From Verif Require Import Model_Base Lib Model_Binary Model_WalshPerm Model_Twin Model_Boolf
  Spec_Bits Spec_Perm Spec_WalshPerm Spec_Boolf
  Proof_Binary Proof_Helpers Proof_Numbers Proof_Linear Proof_WalshLinear Proof_SigPerm Proof_Deflate Proof_Reorder Proof_Boolf Proof_BoolfTable.
Import ListNotations.
Open Scope nat_scope.

(** * XOR sums *)

Lemma odd_bsum bt : Nat.odd (bsum bt) = xor_all bt.
Proof.
  unfold bsum, list_sum_nat, xor_all. induction bt as [|b bt IH]; [reflexivity|]. cbn [map fold_right]. rewrite Nat.odd_add, IH. destruct b; reflexivity.
Qed.

Lemma xor_all_filter (p C : nat -> bool) l : xor_all (map C (filter p l)) = xor_all (map (fun k => p k && C k) l).
Proof.
  unfold xor_all. induction l as [|x l IH]; [reflexivity|]. cbn [filter map fold_right]. rewrite <- IH.
  destruct (p x); [reflexivity|]. cbn [andb]. rewrite xorb_false_l. reflexivity.
Qed.

Lemma ones_In n i : In i (ones n) <-> Nat.testbit n i = true.
Proof.
  unfold ones. rewrite filter_In, in_seq. split; [tauto|]. intro H. split; [|exact H]. split; [lia|]. cbn.
  destruct (Nat.lt_ge_cases i n) as [|Hge]; [assumption|]. rewrite (testbit_high n i) in H; [discriminate|].
  apply (Nat.le_lt_trans _ i); [exact Hge|]. apply Nat.pow_gt_lin_r. lia.
Qed.

Lemma ones_ascending n : ascending (ones n).
Proof. unfold ones. apply filter_sorted, range_sorted_lt. Qed.

Lemma ones_exposet n : int_to_exposet n = ones n.
Proof.
  destruct (int_to_exposet_spec n) as [Hs Hi]. apply sorted_lt_ext; [exact Hs | apply ones_ascending |]. intro i. rewrite Hi, ones_In. reflexivity.
Qed.

Lemma exposet_filter v : binv_exposet v = filter (fun k => nth k v false) (seq 0 (length v)).
Proof.
  apply sorted_lt_ext; [apply binv_exposet_sorted | apply filter_sorted, range_sorted_lt|]. intro i.
  rewrite binv_exposet_In, filter_In, in_seq. split; [|tauto]. intro H. split; [|exact H]. split; [lia|]. cbn.
  destruct (Nat.lt_ge_cases i (length v)) as [|Hge]; [assumption|]. rewrite nth_overflow in H by exact Hge. discriminate H.
Qed.

Lemma ones_bound n z : z < 2 ^ n -> ones z = filter (Nat.testbit z) (seq 0 n).
Proof.
  intro H. apply sorted_lt_ext; [apply ones_ascending | apply filter_sorted, range_sorted_lt|]. intro i.
  rewrite ones_In, filter_In, in_seq. split; [|tauto]. intro Hi. split; [|exact Hi]. split; [lia|]. cbn.
  destruct (Nat.lt_ge_cases i n) as [|Hge]; [assumption|]. rewrite (testbit_high z i) in Hi; [discriminate|].
  apply (Nat.lt_le_trans _ _ _ H). apply Nat.pow_le_mono_r; lia.
Qed.

Lemma ones_lt n z i : z < 2 ^ n -> In i (ones z) -> i < n.
Proof. intros H Hi. rewrite (ones_bound n z H) in Hi. apply filter_In in Hi as [Hi _]. apply in_seq in Hi. lia. Qed.

(** * The generators *)

Lemma zip_star_spec ls n : ls <> [] -> (forall l, In l ls -> length l = n) ->
  zip_star ls = map (fun i => map (fun l => nth i l false) ls) (range n).
Proof.
  intros Hne H. destruct ls as [|l0 ls]; [congruence|]. unfold zip_star. f_equal. f_equal.
  rewrite (H l0) by (left; reflexivity). assert (G : forall l, In l ls -> length l = n) by (intros l Hl; apply H; right; exact Hl).
  clear H Hne. induction ls as [|l ls IH]; [reflexivity|]. cbn [map fold_right]. rewrite IH by (intros; apply G; right; assumption).
  rewrite (G l) by (left; reflexivity). apply Nat.min_id.
Qed.

Lemma raw_gen_spec l n o : (forall a, In a l -> a < n) ->
  raw_gen l n o = Ok (map (fun i => match l with [] => op_default o | _ => op_criterion o (map (Nat.testbit i) l) l end) (range (2 ^ n))).
Proof.
  intro H. unfold raw_gen. destruct l as [|a0 l0] eqn:El.
  - f_equal. rewrite <- (range_length (2 ^ n)) at 1. generalize (range (2 ^ n)). induction l0 as [|x l0 IH]; [reflexivity|]. cbn. f_equal. exact IH.
  - rewrite <- El in *. assert (Hne : l <> []) by (rewrite El; discriminate).
    transitivity (Ok (map (fun i => op_criterion o (map (Nat.testbit i) l) l) (range (2 ^ n)))); [|rewrite El; reflexivity]. clear El a0 l0.
    assert (G : forall l, (forall a, In a l -> a < n) -> exists ps, mapM (fun a => make_atompattern (Z.of_nat a) n false) l = Ok ps /\
      length ps = length l /\ (forall p, In p ps -> length p = 2 ^ n) /\
      forall i, i < 2 ^ n -> map (fun p => nth i p false) ps = map (Nat.testbit i) l).
    { clear. induction l as [|a l IH]; intro H.
      - exists []. split; [reflexivity|]. split; [reflexivity|]. split; [intros p [] | reflexivity].
      - destruct (atompattern_spec (Z.of_nat a) n false) as [p [E [Hl Hp]]]; [rewrite atom_of_nat; apply H; left; reflexivity|].
        destruct IH as [ps [Es [Hs [Hls Hps]]]]; [intros y Hy; apply H; right; exact Hy|].
        exists (p :: ps). cbn [mapM]. rewrite E. cbn [bind]. rewrite Es. cbn [bind]. split; [reflexivity|]. split; [cbn; congruence|]. split.
        + intros q [<-|Hq]; [exact Hl | apply Hls; exact Hq].
        + intros i Hi. cbn [map]. f_equal; [|apply Hps; exact Hi]. rewrite Hp by exact Hi. rewrite atom_of_nat, (proj2 (Z.ltb_ge _ _)) by lia.
          rewrite xorb_nilpotent. apply xorb_false_r. }
    destruct (G l H) as [ps [E [Hl [Hls Hps]]]]. rewrite E. cbn [bind]. f_equal.
    rewrite (zip_star_spec ps (2 ^ n)); [| destruct ps; [destruct l; [congruence | discriminate Hl] | discriminate] | exact Hls].
    rewrite map_map. unfold range. apply map_ext_in. intros i Hi. apply in_seq in Hi. rewrite Hps by lia. reflexivity.
Qed.

Lemma raw_gen_reject l n o a : In a l -> n <= a -> raw_gen l n o = Err AssertErr.
Proof.
  intros Ha Hn. unfold raw_gen. destruct l as [|a0 l0] eqn:El; [destruct Ha|]. rewrite <- El in *. clear El a0 l0.
  assert (E : mapM (fun atomval => make_atompattern (Z.of_nat atomval) n false) l = Err AssertErr).
  { induction l as [|x l IH]; [destruct Ha|]. cbn [mapM]. destruct (Nat.lt_ge_cases x n) as [Hx|Hx].
    - destruct (atompattern_spec (Z.of_nat x) n false) as [p [E _]]; [rewrite atom_of_nat; exact Hx|]. rewrite E. cbn [bind].
      destruct Ha as [->|Ha]; [lia|]. rewrite IH by exact Ha. reflexivity.
    - rewrite atompattern_reject by (rewrite atom_of_nat; exact Hx). reflexivity. }
  rewrite E. reflexivity.
Qed.

(** what the generators yield for the exposet of k *)
Definition gen_value (o : operator) (k i : nat) : bool :=
  match ones k with [] => op_default o | _ => op_criterion o (map (Nat.testbit i) (ones k)) (ones k) end.

Lemma gen_spec o n k : k < 2 ^ n -> raw_gen (int_to_exposet k) n o = Ok (map (gen_value o k) (range (2 ^ n))).
Proof. intro H. rewrite ones_exposet. apply raw_gen_spec. intros a. apply ones_lt. exact H. Qed.

Lemma gen_reject o n k : 2 ^ n <= k -> raw_gen (int_to_exposet k) n o = Err AssertErr.
Proof.
  intro H. rewrite ones_exposet. assert (Hk : k <> 0) by (intros ->; assert (Hp := pow2_pos n); lia).
  apply (raw_gen_reject _ n o (Nat.log2 k)); [apply ones_In, Nat.bit_log2; exact Hk|].
  apply Nat.log2_le_pow2; lia.
Qed.

Definition combined (C : nat -> nat -> bool) (exposet : list nat) (i : nat) : bool := xor_all (map (fun k => C k i) exposet).

Lemma conjus_spec o n exposet : (forall k, In k exposet -> k < 2 ^ n) -> exposet <> [] ->
  exists conjus, mapM (fun k => raw_gen (int_to_exposet k) n o) exposet = Ok conjus /\
    map (fun bt => Nat.odd (bsum bt)) (zip_star conjus) = map (combined (gen_value o) exposet) (range (2 ^ n)).
Proof.
  intros H Hne. rewrite (mapM_ok _ (fun k => map (gen_value o k) (range (2 ^ n)))) by (intros k Hk; apply gen_spec, H, Hk).
  eexists. split; [reflexivity|]. rewrite (zip_star_spec _ (2 ^ n)).
  - rewrite map_map. unfold range. apply map_ext_in. intros i Hi. apply in_seq in Hi. rewrite odd_bsum, map_map. unfold combined. f_equal.
    apply map_ext. intro k. apply (nth_map_range (gen_value o k)). lia.
  - destruct exposet; [congruence | discriminate].
  - intros l Hl. apply in_map_iff in Hl as [k [<- _]]. rewrite map_length. apply range_length.
Qed.

Lemma raw_tt_spec o v n : length v = 2 ^ n ->
  raw_tt_gen v (fun l n => raw_gen l n o) n = Ok (map (combined (gen_value o) (binv_exposet v)) (range (2 ^ n))).
Proof.
  intro Hv. unfold raw_tt_gen. rewrite (proj2 (Nat.eqb_eq _ _) Hv). cbn [true_except bind].
  destruct (Nat.eqb_spec (bsum v) 0) as [E|E].
  - assert (C : constantly false v) by (apply weight_zero; exact E).
    assert (Ee : binv_exposet v = []).
    { destruct (binv_exposet v) as [|x l] eqn:Ex; [reflexivity|]. exfalso.
      assert (Hx : In x (binv_exposet v)) by (rewrite Ex; left; reflexivity). apply binv_exposet_In in Hx.
      destruct (Nat.lt_ge_cases x (length v)) as [Hl|Hl]; [|rewrite nth_overflow in Hx by exact Hl; discriminate Hx].
      rewrite (C (nth x v false)) in Hx by (apply nth_In; exact Hl). discriminate Hx. }
    rewrite Ee. f_equal. rewrite <- Hv. unfold combined. cbn. rewrite <- (map_id v) at 2. clear. rewrite map_id. unfold range.
    generalize 0. induction v as [|x v IH]; intro a; [reflexivity|]. cbn [map length seq]. f_equal. apply IH.
  - destruct (conjus_spec o n (binv_exposet v)) as [conjus [Ec Hc]].
    + intros k Hk. apply binv_exposet_In in Hk. rewrite <- Hv. destruct (Nat.lt_ge_cases k (length v)) as [|Hl]; [assumption|].
      rewrite nth_overflow in Hk by exact Hl. discriminate Hk.
    + intro Ee. apply E. apply weight_zero. intros x Hx. apply (In_nth _ _ false) in Hx as [i [Hi <-]].
      destruct (nth i v false) eqn:En; [|reflexivity]. apply binv_exposet_In in En. rewrite Ee in En. destruct En.
    + rewrite Ec. cbn [bind]. rewrite Hc. reflexivity.
Qed.

Lemma raw_exposet_spec o exposet n : (forall k, In k exposet -> k < 2 ^ n) ->
  exists r, raw_exposet_gen exposet (fun l n => raw_gen l n o) n = Ok r /\ ascending r /\
    forall i, In i r <-> i < 2 ^ n /\ combined (gen_value o) exposet i = true.
Proof.
  intro H. unfold raw_exposet_gen. destruct exposet as [|k0 ks] eqn:Ee.
  - exists []. split; [reflexivity|]. split; [constructor|]. intro i. unfold combined. cbn. split; [intros [] | intros [_ C]; discriminate C].
  - rewrite <- Ee in *. assert (Hne : exposet <> []) by (rewrite Ee; discriminate). clear Ee k0 ks.
    destruct (conjus_spec o n exposet H Hne) as [conjus [Ec Hc]]. rewrite Ec. cbn [bind]. rewrite Hc. eexists. split; [reflexivity|].
    split; [apply binv_exposet_sorted|]. intro i. rewrite binv_exposet_In.
    destruct (Nat.lt_ge_cases i (2 ^ n)) as [Hi|Hi].
    + rewrite (nth_map_range (combined (gen_value o) exposet)) by exact Hi. tauto.
    + rewrite nth_overflow by (rewrite map_length, range_length; exact Hi). split; [discriminate | lia].
Qed.

(** * The transform *)

(** k is a submask of j *)
Definition subm (k j : nat) : bool := forallb (Nat.testbit j) (ones k).

Lemma subm_spec k j : subm k j = true <-> submask k j.
Proof. unfold subm, submask. rewrite forallb_forall. split; intros H i Hi; apply H; [apply ones_In | apply ones_In in Hi]; exact Hi. Qed.

Lemma gen_and k i : gen_value AND k i = subm k i.
Proof.
  unfold gen_value, subm. destruct (ones k) eqn:E; [reflexivity|]. rewrite <- E. cbn [op_criterion]. unfold g_and. clear E.
  induction (ones k) as [|x l0 IH]; [reflexivity|]. cbn [map forallb]. rewrite IH. reflexivity.
Qed.

(** entry j of the transform of the table with the entries [F 0], ..., [F (2^n - 1)] *)
Definition anf (n : nat) (F : nat -> bool) (j : nat) : bool := xor_all (map (fun k => subm k j && F k) (seq 0 (2 ^ n))).

Lemma anf_ext n F G j : (forall k, k < 2 ^ n -> F k = G k) -> anf n F j = anf n G j.
Proof. intro H. unfold anf. apply xor_all_ext. intros k Hk. apply in_seq in Hk. rewrite H by lia. reflexivity. Qed.


Lemma testbit_split n j (q : bool) i : j < 2 ^ n -> Nat.testbit (j + 2 ^ n * Nat.b2n q) i = if Nat.eqb i n then q else Nat.testbit j i.
Proof.
  intro Hj. rewrite testbit_glue by exact Hj. destruct (Nat.ltb_spec i n) as [Hi|Hi].
  - destruct (Nat.eqb_spec i n); [lia | reflexivity].
  - destruct (Nat.eqb_spec i n) as [->|Hne].
    + rewrite Nat.sub_diag. destruct q; reflexivity.
    + rewrite (testbit_high j i) by (apply (Nat.lt_le_trans _ _ _ Hj), Nat.pow_le_mono_r; lia).
      apply testbit_high. apply (Nat.lt_le_trans _ (2 ^ 1)); [destruct q; cbn; lia | apply Nat.pow_le_mono_r; lia].
Qed.

Lemma bool_iff (a b : bool) : (a = true <-> b = true) -> a = b.
Proof. apply eq_iff_eq_true. Qed.

Lemma subm_split n k j (p q : bool) : k < 2 ^ n -> j < 2 ^ n ->
  subm (k + 2 ^ n * Nat.b2n p) (j + 2 ^ n * Nat.b2n q) = (negb p || q) && subm k j.
Proof.
  intros Hk Hj. apply bool_iff. rewrite andb_true_iff, !subm_spec. unfold submask. split.
  - intro H. split.
    + specialize (H n). rewrite !testbit_split, Nat.eqb_refl in H by assumption. destruct p; [cbn; apply H; reflexivity | reflexivity].
    + intros i Hi. specialize (H i). rewrite !testbit_split in H by assumption. destruct (Nat.eqb_spec i n) as [Ei|].
      * rewrite Ei, (testbit_high k n Hk) in Hi. discriminate Hi.
      * apply H. exact Hi.
  - intros [Hpq H] i. rewrite !testbit_split by assumption. destruct (Nat.eqb_spec i n) as [Ei|].
    + intros ->. exact Hpq.
    + apply H.
Qed.

Lemma anf_step n F j (q : bool) : j < 2 ^ n ->
  anf (S n) F (j + 2 ^ n * Nat.b2n q) = xorb (anf n F j) (q && anf n (fun k => F (k + 2 ^ n)) j).
Proof.
  intro Hj. unfold anf. replace (2 ^ S n) with (2 ^ n + 2 ^ n) by (cbn; lia). rewrite seq_app, map_app, xor_all_app. f_equal.
  - apply xor_all_ext. intros k Hk. apply in_seq in Hk. f_equal.
    replace k with (k + 2 ^ n * Nat.b2n false) at 1 by (cbn; lia). rewrite subm_split by lia. reflexivity.
  - rewrite (Nat.add_0_l (2 ^ n)).
    assert (E : seq (2 ^ n) (2 ^ n) = map (fun k => k + 2 ^ n) (seq 0 (2 ^ n))).
    { assert (G : forall m a b, seq (a + b) m = map (fun k => k + b) (seq a m)).
      { clear. induction m as [|m IH]; intros a b; [reflexivity|]. cbn [seq map]. f_equal. apply (IH (S a) b). }
      apply (G (2 ^ n) 0 (2 ^ n)). }
    rewrite E, map_map. rewrite andb_comm, <- xor_all_and. apply xor_all_ext. intros k Hk. apply in_seq in Hk.
    replace (k + 2 ^ n) with (k + 2 ^ n * Nat.b2n true) at 1 by (cbn; lia). rewrite subm_split by lia. cbn [negb orb].
    destruct q, (subm k j), (F (k + 2 ^ n)); reflexivity.
Qed.

Lemma split_pow n x : x < 2 ^ S n -> exists j q, j < 2 ^ n /\ x = j + 2 ^ n * Nat.b2n q.
Proof.
  intro H. cbn [Nat.pow] in H. destruct (Nat.lt_ge_cases x (2 ^ n)) as [Hx|Hx].
  - exists x, false. split; [exact Hx | cbn; lia].
  - exists (x - 2 ^ n), true. split; [lia | cbn; lia].
Qed.

Lemma anf_xorb n F G j : anf n (fun k => xorb (F k) (G k)) j = xorb (anf n F j) (anf n G j).
Proof.
  unfold anf. rewrite <- xor_all_xorb. apply xor_all_ext. intros k _. destruct (subm k j), (F k), (G k); reflexivity.
Qed.

Theorem anf_involution n : forall F x, x < 2 ^ n -> anf n (anf n F) x = F x.
Proof.
  induction n as [|n IH]; intros F x Hx.
  - assert (x = 0) by (cbn in Hx; lia). subst x. unfold anf, xor_all. cbn. destruct (F 0); reflexivity.
  - destruct (split_pow n x Hx) as [j [q [Hj ->]]]. rewrite anf_step by exact Hj.
    rewrite (anf_ext n (anf (S n) F) (anf n F)).
    2:{ intros k Hk. replace k with (k + 2 ^ n * Nat.b2n false) at 1 by (cbn; lia). rewrite anf_step by exact Hk. apply xorb_false_r. }
    rewrite (anf_ext n (fun k => anf (S n) F (k + 2 ^ n)) (fun k => xorb (anf n F k) (anf n (fun k => F (k + 2 ^ n)) k))).
    2:{ intros k Hk. replace (k + 2 ^ n) with (k + 2 ^ n * Nat.b2n true) at 1 by (cbn; lia). rewrite anf_step by exact Hk. reflexivity. }
    rewrite anf_xorb, !IH by exact Hj. destruct q; cbn [andb Nat.b2n].
    + rewrite Nat.mul_1_r. destruct (F j), (F (j + 2 ^ n)); reflexivity.
    + rewrite Nat.mul_0_r, Nat.add_0_r. apply xorb_false_r.
Qed.

(** * [vector_to_twin_gen] and [twin_int] *)

Lemma combined_and exposet i : combined (gen_value AND) exposet i = xor_all (map (fun k => subm k i) exposet).
Proof. unfold combined. apply xor_all_ext. intros k _. apply gen_and. Qed.

Lemma twin_vector_spec v n : length v = 2 ^ n ->
  vector_to_twin_gen v n = Ok (map (anf n (fun k => nth k v false)) (range (2 ^ n))).
Proof.
  intro Hv. unfold vector_to_twin_gen, atoms_to_and_gen. rewrite raw_tt_spec by exact Hv. f_equal. apply map_ext. intro i.
  rewrite combined_and, exposet_filter, xor_all_filter, Hv. unfold anf. apply xor_all_ext. intros k _. apply andb_comm.
Qed.

Lemma twin_vector_reject v n : length v <> 2 ^ n -> vector_to_twin_gen v n = Err AssertErr.
Proof. intro H. unfold vector_to_twin_gen, raw_tt_gen. apply Nat.eqb_neq in H. rewrite H. reflexivity. Qed.

Lemma bit_bound_lt x n : x < 2 ^ n -> forall i, n <= i -> Nat.testbit x i = false.
Proof. intros H i Hi. apply testbit_high. apply (Nat.lt_le_trans _ _ _ H). apply Nat.pow_le_mono_r; lia. Qed.

Lemma twin_int_spec z n : z < 2 ^ 2 ^ n ->
  exists t, twin_int z n = Ok t /\ t < 2 ^ 2 ^ n /\ forall i, i < 2 ^ n -> Nat.testbit t i = anf n (Nat.testbit z) i.
Proof.
  intro Hz. unfold twin_int, exposet_to_twin_gen, atoms_to_and_gen. destruct (raw_exposet_spec AND (int_to_exposet z) n) as [r [E [Hr Hi]]].
  { intros k Hk. rewrite ones_exposet in Hk. apply (ones_lt _ _ _ Hz Hk). }
  rewrite E. cbn [bind]. eexists. split; [reflexivity|].
  assert (Hb : forall i, Nat.testbit (exposet_to_int r) i = (i <? 2 ^ n) && anf n (Nat.testbit z) i).
  { intro i. rewrite exposet_to_int_testbit by (apply sorted_lt_NoDup; exact Hr). apply bool_iff. rewrite memb_In, Hi, andb_true_iff, Nat.ltb_lt.
    rewrite combined_and, ones_exposet, (ones_bound _ _ Hz), xor_all_filter.
    rewrite (xor_all_ext _ (fun k => subm k i && Nat.testbit z k)) by (intros k _; apply andb_comm). reflexivity. }
  split.
  - apply bits_lt_pow. intros i Hge. rewrite Hb, (proj2 (Nat.ltb_ge _ _) Hge). reflexivity.
  - intros i Hlt. rewrite Hb, (proj2 (Nat.ltb_lt _ _) Hlt). reflexivity.
Qed.

Lemma twin_int_reject z n : 2 ^ 2 ^ n <= z -> twin_int z n = Err AssertErr.
Proof.
  intro Hz. unfold twin_int, exposet_to_twin_gen, raw_exposet_gen, atoms_to_and_gen.
  assert (H0 : z <> 0) by (intros ->; assert (Hp := pow2_pos (2 ^ n)); lia).
  assert (Hl : In (Nat.log2 z) (int_to_exposet z)) by (rewrite ones_exposet; apply ones_In, Nat.bit_log2; exact H0).
  assert (Hb : 2 ^ n <= Nat.log2 z) by (apply (proj1 (Nat.log2_le_pow2 z (2 ^ n) (proj1 (Nat.neq_0_lt_0 z) H0))); exact Hz).
  assert (E : forall l, In (Nat.log2 z) l -> mapM (fun k => raw_gen (int_to_exposet k) n AND) l = Err AssertErr).
  { induction l as [|k l IH]; intro H; [destruct H|]. cbn [mapM]. destruct (Nat.lt_ge_cases k (2 ^ n)) as [Hk|Hk].
    - rewrite gen_spec by exact Hk. cbn [bind]. destruct H as [->|H]; [lia|]. rewrite IH by exact H. reflexivity.
    - rewrite gen_reject by exact Hk. reflexivity. }
  rewrite E by exact Hl. reflexivity.
Qed.

(** * Zhegalkin polynomials *)

Lemma monomial_ext k n e e' : k < 2 ^ n -> (forall a, a < n -> e a = e' a) -> monomial k e = monomial k e'.
Proof.
  intros Hk H. unfold monomial. assert (G : forall a, In a (ones k) -> e a = e' a) by (intros a Ha; apply H, (ones_lt _ _ _ Hk Ha)).
  induction (ones k) as [|a l IH]; [reflexivity|]. cbn [forallb]. rewrite IH by (intros; apply G; right; assumption). rewrite G by (left; reflexivity). reflexivity.
Qed.

Lemma zhegalkin_ext z n e e' : z < 2 ^ 2 ^ n -> (forall a, a < n -> e a = e' a) -> zhegalkin z e = zhegalkin z e'.
Proof.
  intros Hz H. unfold zhegalkin. apply xor_all_ext. intros k Hk. apply (monomial_ext k n); [apply (ones_lt _ _ _ Hz Hk) | exact H].
Qed.

Lemma zhegalkin_anf z n j : z < 2 ^ 2 ^ n -> zhegalkin z (Nat.testbit j) = anf n (Nat.testbit z) j.
Proof.
  intro Hz. unfold zhegalkin, anf. rewrite (ones_bound _ _ Hz), xor_all_filter. apply xor_all_ext. intros k _. apply andb_comm.
Qed.

(** the number of a Zhegalkin polynomial is determined by the function *)
Lemma zhegalkin_inj z z' : (forall e, zhegalkin z e = zhegalkin z' e) -> z = z'.
Proof.
  intro H. set (n := Nat.max z z').
  assert (Hb : forall x, x <= n -> x < 2 ^ 2 ^ n).
  { intros x Hx. apply (Nat.le_lt_trans _ n); [exact Hx|]. apply (Nat.lt_trans _ (2 ^ n)); [apply Nat.pow_gt_lin_r; lia|]. apply Nat.pow_gt_lin_r; lia. }
  assert (Hz := Hb z (Nat.le_max_l _ _)). assert (Hz' := Hb z' (Nat.le_max_r _ _)).
  apply Nat.bits_inj. intro k. destruct (Nat.lt_ge_cases k (2 ^ n)) as [Hk|Hk].
  - rewrite <- (anf_involution n (Nat.testbit z) k Hk), <- (anf_involution n (Nat.testbit z') k Hk). apply anf_ext.
    intros j _. rewrite <- !zhegalkin_anf by assumption. apply H.
  - rewrite !(bit_bound_lt _ (2 ^ n)) by assumption. reflexivity.
Qed.
