(** Proof_Noble: Zhegalkin numbers, twins, nobles and patrons of [Boolf] objects. *)

From Coq Require Import List Arith ZArith Bool Lia Permutation Sorted.
From Verif Require Import Model_Base Lib Model_Perm Model_Binary Model_SigPerm Model_WalshPerm Model_Twin Model_Boolf Model_BoolfMore
  Spec_Bits Spec_SigPerm Spec_Boolf Spec_Twin Proof_Binary Proof_Helpers Proof_Linear Proof_Deflate Proof_Reorder Proof_Boolf Proof_BoolfTable Proof_BoolfApply
  Proof_WalshLinear Proof_Twin Proof_BoolfMake.
Import ListNotations.
Open Scope nat_scope.

Lemma subm_land k j : subm k j = Nat.eqb (Nat.land k j) k.
Proof.
  apply bool_iff. rewrite subm_spec, Nat.eqb_eq. unfold submask. split.
  - intro H. apply Nat.bits_inj. intro i. rewrite Nat.land_spec. destruct (Nat.testbit k i) eqn:E; [rewrite (H i E)|]; reflexivity.
  - intros H i Hi. rewrite <- H, Nat.land_spec in Hi. apply andb_true_iff in Hi. apply Hi.
Qed.

Lemma moebius_anf n F j : moebius n F j = anf n F j.
Proof.
  unfold moebius, anf. rewrite xor_all_filter. apply xor_all_ext. intros k _. rewrite subm_land. reflexivity.
Qed.

Lemma nth_table {A} (F : nat -> A) n d i : i < n -> nth i (map F (range n)) d = F i.
Proof. intro H. rewrite (nth_indep _ d (F 0)) by (rewrite map_length, range_length; exact H). rewrite map_nth, nth_range by exact H. reflexivity. Qed.

Lemma testbit_table F n i : Nat.testbit (b2n (map F (range n))) i = (i <? n) && F i.
Proof.
  rewrite testbit_b2n. destruct (Nat.ltb_spec i n) as [H|H]; cbn [andb]; [apply nth_table; exact H|]. apply nth_overflow. rewrite map_length, range_length. exact H.
Qed.

Lemma table_lt F n : b2n (map F (range n)) < 2 ^ n.
Proof. assert (H := b2n_lt (map F (range n))). rewrite map_length, range_length in H. exact H. Qed.

(** the table of an object as a function of the place *)
Definition tab (f : boolf) (i : nat) : bool := sem f (Nat.testbit i).

Lemma tt_spec f n : fitting f -> adicity f <= n -> boolf_tt f (TtArity n) = Ok (map (tab f) (range (2 ^ n))).
Proof. intros Hf Hn. unfold boolf_tt. rewrite (proj2 (Nat.leb_le _ _) Hn). cbn [true_except bind]. apply tt_range. exact Hf. Qed.

Lemma tt_default f : fitting f -> boolf_tt f TtDefault = Ok (map (tab f) (range (2 ^ adicity f))).
Proof. intro Hf. apply tt_range. exact Hf. Qed.

(** only the lowest adicity bits of the place matter *)
Lemma sem_place f n e : adicity f <= n -> sem f e = tab f (b2n (map e (range n))).
Proof.
  intro H. unfold tab. apply sem_ext. intros a Ha. apply adicity_bound in Ha. rewrite place_bits by lia. reflexivity.
Qed.

Lemma tab_inj f g n : adicity f <= n -> adicity g <= n -> (forall i, i < 2 ^ n -> tab f i = tab g i) -> forall e, sem f e = sem g e.
Proof. intros Hf Hg H e. rewrite (sem_place f n e Hf), (sem_place g n e Hg). apply H. apply place_lt. Qed.

Lemma adicity_le g n : reduced g -> (forall e e', (forall a, a < n -> e a = e' a) -> sem g e = sem g e') -> adicity g <= n.
Proof.
  intros R H. apply adicity_least. intros a Ha. destruct (Nat.lt_ge_cases a n) as [|Hge]; [assumption|]. exfalso.
  apply (atoms_essential g a R) in Ha. destruct Ha as [e He]. apply He. apply H. intros x Hx. rewrite !upd_neq by lia. reflexivity.
Qed.

Lemma sem_low g n e e' : adicity g <= n -> (forall a, a < n -> e a = e' a) -> sem g e = sem g e'.
Proof. intros H He. apply sem_ext. intros a Ha. apply adicity_bound in Ha. apply He. lia. Qed.

Lemma root_object F n : exists g, Boolf_root (map F (range (2 ^ n))) = Ok g /\ reduced g /\ adicity g <= n /\
  forall j, j < 2 ^ n -> tab g j = F j.
Proof.
  destruct (Boolf_root_spec (map F (range (2 ^ n))) n) as [g [E [R S]]]; [rewrite map_length, range_length; reflexivity|].
  exists g. split; [exact E|]. split; [exact R|]. split.
  - apply adicity_least. intros a Ha. apply (atoms_essential g a R), (essential_ext _ _ _ S), essential_in, range_In in Ha. exact Ha.
  - intros j Hj. unfold tab. rewrite S. unfold table. assert (E2 : b2n (map (Nat.testbit j) (range n)) = j).
    { apply Nat.bits_inj. intro i. rewrite testbit_table. destruct (Nat.ltb_spec i n) as [Hi|Hi]; [reflexivity|]. symmetry. apply (bit_bound_lt j n Hj i Hi). }
    rewrite E2. apply nth_table. exact Hj.
Qed.

(** * zhe *)

Lemma boolf_zhe_spec f : fitting f -> exists z, boolf_zhe f = Ok z /\ z < 2 ^ 2 ^ adicity f /\
  (forall n, adicity f <= n -> z = b2n (map (anf n (tab f)) (range (2 ^ n)))) /\ forall e, zhegalkin z e = sem f e.
Proof.
  intro Hf. unfold boolf_zhe. rewrite tt_default by exact Hf. cbn [bind]. rewrite twin_vector_spec by (rewrite map_length, range_length; reflexivity). cbn [bind].
  eexists. split; [reflexivity|]. rewrite vector_to_int_eq. set (n := adicity f).
  assert (Ee : map (anf n (fun k => nth k (map (tab f) (range (2 ^ n))) false)) (range (2 ^ n)) = map (anf n (tab f)) (range (2 ^ n))).
  { apply map_ext. intro j. apply anf_ext. intros k Hk. apply nth_table. exact Hk. }
  rewrite Ee. assert (G : forall m, n <= m -> forall e, zhegalkin (b2n (map (anf m (tab f)) (range (2 ^ m)))) e = sem f e).
  { intros m Hm e. set (z := b2n (map (anf m (tab f)) (range (2 ^ m)))). assert (Hz : z < 2 ^ 2 ^ m) by apply table_lt.
    rewrite (zhegalkin_ext z m e (Nat.testbit (b2n (map e (range m)))) Hz) by (intros a Ha; symmetry; apply place_bits; exact Ha).
    rewrite (zhegalkin_anf z m _ Hz). rewrite (anf_ext m (Nat.testbit z) (anf m (tab f))).
    - rewrite anf_involution by apply place_lt. symmetry. apply sem_place. exact Hm.
    - intros k Hk. unfold z. rewrite testbit_table, (proj2 (Nat.ltb_lt _ _) Hk). reflexivity. }
  split; [apply table_lt|]. split; [|apply G; reflexivity].
  intros m Hm. apply zhegalkin_inj. intro e. rewrite !G by lia. reflexivity.
Qed.

(** * twin *)

Lemma twin_spec f n : fitting f -> adicity f <= n ->
  exists g, boolf_twin f (Some n) = Ok g /\ reduced g /\ adicity g <= n /\ forall j, j < 2 ^ n -> tab g j = anf n (tab f) j.
Proof.
  intros Hf Hn. unfold boolf_twin. rewrite (proj2 (Nat.leb_le _ _) Hn). cbn [true_except bind]. rewrite tt_spec by assumption. cbn [bind].
  rewrite twin_vector_spec by (rewrite map_length, range_length; reflexivity). cbn [bind].
  destruct (root_object (anf n (fun k => nth k (map (tab f) (range (2 ^ n))) false)) n) as [g [E [R [A T]]]].
  exists g. split; [exact E|]. split; [exact R|]. split; [exact A|]. intros j Hj. rewrite T by exact Hj. apply anf_ext. intros k Hk. apply nth_table. exact Hk.
Qed.

Lemma twin_default f : boolf_twin f None = boolf_twin f (Some (adicity f)).
Proof. unfold boolf_twin. rewrite Nat.leb_refl. reflexivity. Qed.

Lemma twin_reject f n : n < adicity f -> boolf_twin f (Some n) = Err AssertErr.
Proof. intro H. unfold boolf_twin. rewrite (proj2 (Nat.leb_gt _ _) H). reflexivity. Qed.

Lemma is_noble_spec f n : reduced f -> adicity f <= n ->
  exists q, is_noble f (Some n) = Ok q /\ (q = true <-> forall j, j < 2 ^ n -> tab f j = anf n (tab f) j).
Proof.
  intros R Hn. unfold is_noble. destruct (twin_spec f n (proj1 R) Hn) as [g [E [Rg [Ag T]]]]. rewrite E. cbn [bind].
  eexists. split; [reflexivity|]. rewrite (boolf_eqb_sem f g R Rg). split.
  - intros H j Hj. rewrite <- T by exact Hj. apply H.
  - intro H. apply (tab_inj f g n Hn Ag). intros i Hi. rewrite T by exact Hi. apply H. exact Hi.
Qed.

Lemma Boolf_int_tab t n : t < 2 ^ 2 ^ n -> exists f, Boolf_int t n = Ok f /\ reduced f /\ adicity f <= n /\ forall j, j < 2 ^ n -> tab f j = Nat.testbit t j.
Proof.
  intro Ht. destruct (Boolf_int_spec t n Ht) as [f [E [R S]]]. exists f. split; [exact E|]. split; [exact R|]. split.
  - apply (adicity_le f n R). intros e e' He. rewrite !S. do 2 f_equal. apply map_ext_in. intros x Hx. apply range_In in Hx. apply He, Hx.
  - intros j Hj. unfold tab. rewrite S. f_equal. apply Nat.bits_inj. intro i. rewrite testbit_table.
    destruct (Nat.ltb_spec i n) as [Hi|Hi]; [reflexivity|]. symmetry. apply (bit_bound_lt j n Hj i Hi).
Qed.

(** * Nobles *)

Lemma anf_low n F j : j < 2 ^ n -> anf (S n) F j = anf n F j.
Proof.
  intro Hj. assert (H := anf_step n F j false Hj). cbn [Nat.b2n] in H. rewrite Nat.mul_0_r, Nat.add_0_r in H. rewrite H. cbn [andb]. apply xorb_false_r.
Qed.
Lemma anf_high n F j : j < 2 ^ n -> anf (S n) F (j + 2 ^ n) = xorb (anf n F j) (anf n (fun k => F (k + 2 ^ n)) j).
Proof.
  intro Hj. assert (H := anf_step n F j true Hj). cbn [Nat.b2n] in H. rewrite Nat.mul_1_r in H. rewrite H. reflexivity.
Qed.

(** a table with the upper half H is its own twin iff the lower half is the XOR of H and its twin *)
Lemma noble_halves n F :
  (forall j, j < 2 ^ S n -> F j = anf (S n) F j) <->
  (forall j, j < 2 ^ n -> F j = xorb (F (j + 2 ^ n)) (anf n (fun k => F (k + 2 ^ n)) j)).
Proof.
  set (H := fun k => F (k + 2 ^ n)). assert (Hp : 2 ^ S n = 2 ^ n + 2 ^ n) by (cbn; lia). split.
  - intros A j Hj. assert (A1 := A j ltac:(lia)). assert (A2 := A (j + 2 ^ n) ltac:(lia)). rewrite anf_low in A1 by exact Hj. rewrite anf_high in A2 by exact Hj.
    fold H in A2. rewrite <- A1 in A2. rewrite A2. destruct (F j), (anf n H j); reflexivity.
  - intros A.
    assert (B : forall j, j < 2 ^ n -> anf n F j = F j).
    { intros j Hj. rewrite (anf_ext n F (fun k => xorb (H k) (anf n H k))) by exact A. rewrite anf_xorb, anf_involution by exact Hj.
      rewrite (A j Hj). fold (H j). destruct (anf n H j), (H j); reflexivity. }
    intros j Hj. destruct (Nat.lt_ge_cases j (2 ^ n)) as [Hl|Hl].
    + rewrite anf_low by exact Hl. symmetry. apply B. exact Hl.
    + replace j with ((j - 2 ^ n) + 2 ^ n) by lia. rewrite anf_high by lia. rewrite B by lia. rewrite (A (j - 2 ^ n)) by lia. fold H. fold (H (j - 2 ^ n)).
      destruct (H (j - 2 ^ n)), (anf n H (j - 2 ^ n)); reflexivity.
Qed.

Lemma own_twin_anf n t : own_twin n t <-> forall j, j < 2 ^ n -> Nat.testbit t j = anf n (Nat.testbit t) j.
Proof. unfold own_twin. split; intros H j Hj; [rewrite <- moebius_anf | rewrite moebius_anf]; apply H, Hj. Qed.

Lemma testbit_high_half n t j : Nat.testbit t (j + 2 ^ n) = Nat.testbit (t / 2 ^ 2 ^ n) j.
Proof. rewrite Nat.div_pow2_bits. reflexivity. Qed.

Lemma own_twin_halves n t : own_twin (S n) t <->
  forall j, j < 2 ^ n -> Nat.testbit t j = xorb (Nat.testbit (t / 2 ^ 2 ^ n) j) (anf n (Nat.testbit (t / 2 ^ 2 ^ n)) j).
Proof.
  rewrite own_twin_anf, noble_halves. split; intros H j Hj; rewrite (H j Hj), testbit_high_half; f_equal; apply anf_ext; intros k _; rewrite testbit_high_half; reflexivity.
Qed.

Lemma pow_double n : 2 ^ 2 ^ S n = 2 ^ 2 ^ n * 2 ^ 2 ^ n.
Proof. rewrite <- Nat.pow_add_r. f_equal. cbn. lia. Qed.

Lemma lxor_lt a b n : a < 2 ^ n -> b < 2 ^ n -> Nat.lxor a b < 2 ^ n.
Proof.
  intros Ha Hb. destruct (Nat.eq_dec (Nat.lxor a b) 0) as [->|H0]; [apply pow2_pos|]. apply bits_lt_pow. intros i Hi.
  rewrite Nat.lxor_spec, (bit_bound_lt a n Ha i Hi), (bit_bound_lt b n Hb i Hi). reflexivity.
Qed.

Lemma glue_div a b q : a < q -> (a + q * b) / q = b.
Proof. intro H. rewrite Nat.mul_comm, Nat.div_add by lia. rewrite Nat.div_small by exact H. reflexivity. Qed.

Lemma index_to_noble_spec i n : i < 2 ^ 2 ^ n ->
  exists t, index_to_noble i (S n) = Ok t /\ t < 2 ^ 2 ^ S n /\ own_twin (S n) t /\ t / 2 ^ 2 ^ n = i.
Proof.
  intro Hi. unfold index_to_noble. rewrite (proj2 (Nat.ltb_lt _ _) Hi). cbn [true_except bind].
  destruct (twin_int_spec i n Hi) as [u [Eu [Hu Tu]]]. rewrite Eu. cbn [bind]. eexists. split; [reflexivity|].
  assert (Hx := lxor_lt u i (2 ^ n) Hu Hi). assert (Hd := glue_div (Nat.lxor u i) i (2 ^ 2 ^ n) Hx).
  split; [|split; [|exact Hd]].
  - rewrite pow_double. nia.
  - apply own_twin_halves. rewrite Hd. intros j Hj. rewrite testbit_glue by exact Hx. rewrite (proj2 (Nat.ltb_lt _ _) Hj).
    rewrite Nat.lxor_spec, Tu by exact Hj. apply xorb_comm.
Qed.

Lemma own_twin_unique n t t' : t < 2 ^ 2 ^ S n -> t' < 2 ^ 2 ^ S n -> own_twin (S n) t -> own_twin (S n) t' -> t / 2 ^ 2 ^ n = t' / 2 ^ 2 ^ n -> t = t'.
Proof.
  intros Ht Ht' O O' E. apply Nat.bits_inj. intro j. destruct (Nat.lt_ge_cases j (2 ^ n)) as [Hj|Hj].
  - rewrite own_twin_halves in O, O'. rewrite O, O', E by exact Hj. reflexivity.
  - replace j with ((j - 2 ^ n) + 2 ^ n) by lia. rewrite !testbit_high_half, E. reflexivity.
Qed.

Lemma index_to_noble_onto n t : t < 2 ^ 2 ^ S n -> own_twin (S n) t -> t / 2 ^ 2 ^ n < 2 ^ 2 ^ n /\ index_to_noble (t / 2 ^ 2 ^ n) (S n) = Ok t.
Proof.
  intros Ht O. assert (Hi : t / 2 ^ 2 ^ n < 2 ^ 2 ^ n).
  { assert (Hp := pow2_pos (2 ^ n)). apply Nat.div_lt_upper_bound; [lia|]. rewrite <- pow_double. exact Ht. }
  split; [exact Hi|]. destruct (index_to_noble_spec _ n Hi) as [t' [E [Ht' [O' D]]]]. rewrite E. f_equal. symmetry. apply (own_twin_unique n); auto.
Qed.

Lemma index_to_noble_reject i n : 2 ^ 2 ^ n <= i -> index_to_noble i (S n) = Err ArgTooBigError.
Proof. intro H. unfold index_to_noble. rewrite (proj2 (Nat.ltb_ge _ _) H). reflexivity. Qed.

Lemma binv_halves t m h v : Binv_intval t (Some m) = Ok v -> length v = m -> h <= m -> binv_intval v = t ->
  binv_intval (firstn h v) = t mod 2 ^ h /\ binv_intval (skipn h v) = t / 2 ^ h.
Proof.
  intros _ L Hh E. rewrite !binv_intval_eq in *. assert (Hl : length (firstn h v) = h) by (rewrite firstn_length; lia).
  assert (D : t = b2n (firstn h v) + 2 ^ h * b2n (skipn h v)).
  { rewrite <- E. rewrite <- (firstn_skipn h v) at 1. rewrite b2n_app, Hl. reflexivity. }
  assert (B := b2n_lt (firstn h v)). rewrite Hl in B. rewrite D. split.
  - rewrite Nat.mul_comm, Nat.mod_add by (apply Nat.pow_nonzero; lia). rewrite Nat.mod_small by exact B. reflexivity.
  - symmetry. apply glue_div. exact B.
Qed.

Lemma praetor_spec t n : t < 2 ^ 2 ^ S n -> praetor_int t (S n) = Ok (Nat.lxor (t mod 2 ^ 2 ^ n) (t / 2 ^ 2 ^ n)).
Proof.
  intro Ht. unfold praetor_int. change (0 <? S n) with true. cbn [true_except bind]. rewrite (proj2 (Nat.ltb_lt _ _) Ht). cbn [true_except bind].
  assert (Hh : 2 ^ S n / 2 = 2 ^ n) by (rewrite Nat.pow_succ_r', Nat.mul_comm, Nat.div_mul by lia; reflexivity). rewrite Hh.
  assert (Hp := pow2_pos (S n)). destruct (Binv_int_len t (2 ^ S n) Ht) as [v [E [Ei El]]]; [lia|]. rewrite E. cbn [bind].
  destruct (binv_halves t (2 ^ S n) (2 ^ n) v E El) as [E1 E2]; [cbn; lia | exact Ei|]. rewrite E1, E2. reflexivity.
Qed.

Lemma own_twin_even n t : 0 < n -> own_twin n t -> Nat.testbit t 0 = false.
Proof.
  intros Hn O. apply own_twin_anf with (j := 1) in O; [|apply Nat.pow_gt_1; lia].
  unfold anf in O. destruct n as [|n]; [lia|]. assert (E : seq 0 (2 ^ S n) = 0 :: 1 :: seq 2 (2 ^ S n - 2)).
  { assert (Hp := pow2_pos n). replace (2 ^ S n) with (S (S (2 ^ S n - 2))) at 1 by (cbn; lia). reflexivity. }
  rewrite E in O. cbn [map] in O. unfold xor_all in O. cbn [fold_right] in O. fold (xor_all (map (fun k => subm k 1 && Nat.testbit t k) (seq 2 (2 ^ S n - 2)))) in O.
  rewrite xor_all_zero in O.
  - change (subm 0 1) with true in O. change (subm 1 1) with true in O. cbn [andb] in O. destruct (Nat.testbit t 0), (Nat.testbit t 1); try reflexivity; discriminate O.
  - intros k Hk. apply in_seq in Hk. apply andb_false_iff. left. rewrite subm_land. apply Nat.eqb_neq. intro C.
    assert (Nat.land k 1 <= 1) by (change (Nat.land k 1) with (Nat.land k (Nat.ones 1)); rewrite Nat.land_ones; assert (k mod 2 ^ 1 < 2 ^ 1) by (apply Nat.mod_upper_bound; cbn; lia); cbn in *; lia). lia.
Qed.

Lemma noble_to_index_spec n t trust : t < 2 ^ 2 ^ S n -> own_twin (S n) t -> noble_to_index t (S n) trust = Ok (t / 2 ^ 2 ^ n).
Proof.
  intros Ht O. unfold noble_to_index.
  assert (Hmax : t <= 2 ^ 2 ^ S n - 2).
  { assert (E := own_twin_even (S n) t (Nat.lt_0_succ n) O). rewrite Nat.bit0_odd in E. destruct (Nat.eq_dec t (2 ^ 2 ^ S n - 1)) as [C|C]; [|lia].
    exfalso. assert (Ev : Nat.odd t = true).
    { rewrite C. assert (Hp := pow2_pos (S n)). assert (Hq := pow2_pos (2 ^ S n - 1)). replace (2 ^ 2 ^ S n - 1) with (2 * (2 ^ (2 ^ S n - 1) - 1) + 1).
      - rewrite Nat.add_1_r, Nat.odd_succ, Nat.even_mul. reflexivity.
      - replace (2 ^ 2 ^ S n) with (2 * 2 ^ (2 ^ S n - 1)); [lia|]. rewrite <- Nat.pow_succ_r'. f_equal. lia. }
    congruence. }
  rewrite (proj2 (Nat.leb_le _ _) Hmax). cbn [true_except bind].
  assert (Ec : (if trust then Ok tt else let* f := Boolf_int t (S n) in let* q := is_noble f (Some (S n)) in guard q else ArgValueError ;; Ok tt) = Ok tt).
  { destruct trust; [reflexivity|]. destruct (Boolf_int_tab t (S n) Ht) as [f [E [R [A T]]]]. rewrite E. cbn [bind].
    destruct (is_noble_spec f (S n) R A) as [q [Eq Hq]]. rewrite Eq. cbn [bind]. replace q with true; [reflexivity|]. symmetry. apply Hq.
    intros j Hj. rewrite (anf_ext (S n) (tab f) (Nat.testbit t)) by exact T. rewrite T by exact Hj. apply own_twin_anf; assumption. }
  rewrite Ec. cbn [bind]. rewrite praetor_spec by exact Ht. cbn [bind].
  assert (Hi : t / 2 ^ 2 ^ n < 2 ^ 2 ^ n) by (apply (index_to_noble_onto n t Ht O)).
  assert (Hm : t mod 2 ^ 2 ^ n < 2 ^ 2 ^ n) by (apply Nat.mod_upper_bound, Nat.pow_nonzero; lia).
  destruct (twin_int_spec (Nat.lxor (t mod 2 ^ 2 ^ n) (t / 2 ^ 2 ^ n)) n (lxor_lt _ _ _ Hm Hi)) as [u [Eu [Hu Tu]]].
  rewrite Eu. f_equal. apply Nat.bits_inj. intro j. destruct (Nat.lt_ge_cases j (2 ^ n)) as [Hj|Hj].
  - rewrite Tu by exact Hj. rewrite (anf_ext n _ (anf n (Nat.testbit (t / 2 ^ 2 ^ n)))).
    + apply anf_involution. exact Hj.
    + intros k Hk. rewrite Nat.lxor_spec, Nat.mod_pow2_bits_low by exact Hk. rewrite (proj1 (own_twin_halves n t) O k Hk).
      destruct (Nat.testbit (t / 2 ^ 2 ^ n) k), (anf n (Nat.testbit (t / 2 ^ 2 ^ n)) k); reflexivity.
  - rewrite (bit_bound_lt u _ Hu j Hj), (bit_bound_lt _ _ Hi j Hj). reflexivity.
Qed.

Lemma noble_to_index_big n t trust : 2 ^ 2 ^ S n - 2 < t -> noble_to_index t (S n) trust = Err ArgTooBigError.
Proof. intro H. unfold noble_to_index. rewrite (proj2 (Nat.leb_gt _ _) H). reflexivity. Qed.

Lemma noble_to_index_reject n t : t <= 2 ^ 2 ^ S n - 2 -> ~ own_twin (S n) t -> noble_to_index t (S n) false = Err ArgValueError.
Proof.
  intros Hm H. unfold noble_to_index. rewrite (proj2 (Nat.leb_le _ _) Hm). cbn [true_except bind].
  assert (Ht : t < 2 ^ 2 ^ S n).
  { assert (2 ^ 2 ^ S n <> 0) by (apply Nat.pow_nonzero; lia). lia. }
  destruct (Boolf_int_tab t (S n) Ht) as [f [E [R [A T]]]]. rewrite E. cbn [bind].
  destruct (is_noble_spec f (S n) R A) as [q [Eq Hq]]. rewrite Eq. cbn [bind]. destruct q; [|reflexivity]. exfalso. apply H. apply own_twin_anf.
  intros j Hj. rewrite <- (anf_ext (S n) (tab f) (Nat.testbit t)) by exact T. rewrite <- T by exact Hj. apply Hq; [reflexivity | exact Hj].
Qed.

(** * Patrons *)

Lemma patron_int_spec f n : fitting f -> adicity f <= n ->
  exists p, patron_int f n = Ok p /\ p < 2 ^ 2 ^ n /\ own_twin n p /\ forall j, j < 2 ^ n -> Nat.testbit p j = xorb (tab f j) (anf n (tab f) j).
Proof.
  intros Hf Hn. unfold patron_int. rewrite tt_spec by assumption. cbn [bind]. destruct (boolf_zhe_spec f Hf) as [z [E [_ [Z _]]]]. rewrite E. cbn [bind].
  eexists. split; [reflexivity|]. rewrite binv_intval_eq, (Z n Hn).
  assert (B : forall j, j < 2 ^ n -> Nat.testbit (Nat.lxor (b2n (map (tab f) (range (2 ^ n)))) (b2n (map (anf n (tab f)) (range (2 ^ n))))) j = xorb (tab f j) (anf n (tab f) j)).
  { intros j Hj. rewrite Nat.lxor_spec, !testbit_table, (proj2 (Nat.ltb_lt _ _) Hj). reflexivity. }
  split; [apply lxor_lt; apply table_lt|]. split; [|exact B].
  apply own_twin_anf. intros j Hj. rewrite B by exact Hj. rewrite (anf_ext n (Nat.testbit _) (fun k => xorb (tab f k) (anf n (tab f) k)) j B).
  rewrite anf_xorb, anf_involution by exact Hj. apply xorb_comm.
Qed.

Lemma patron_int_reject f n : n < adicity f -> patron_int f n = Err ArgTooSmallError.
Proof. intro H. unfold patron_int, boolf_tt. rewrite (proj2 (Nat.leb_gt _ _) H). reflexivity. Qed.

Lemma own_twin_0 t : t < 2 -> own_twin 0 t.
Proof. intro H. apply own_twin_anf. intros j Hj. cbn in Hj. assert (j = 0) by lia. subst j. assert (t = 0 \/ t = 1) as [-> | ->] by lia; reflexivity. Qed.

Lemma patron_0 f : fitting f -> adicity f = 0 -> patron_int f 0 = Ok 0.
Proof.
  intros Hf H. destruct (patron_int_spec f 0 Hf) as [p [E [Hp [_ B]]]]; [lia|]. rewrite E. f_equal. cbn in Hp.
  specialize (B 0 ltac:(cbn; lia)). assert (p = 0 \/ p = 1) as [-> | ->] by lia; [reflexivity|]. exfalso. revert B. unfold anf. cbn. destruct (tab f 0); discriminate.
Qed.

Lemma patron_index_spec f n : fitting f -> adicity f <= n ->
  exists p i, patron_int f n = Ok p /\ patron_index f n = Ok i /\ index_to_noble i n = Ok p.
Proof.
  intros Hf Hn. unfold patron_index. destruct n as [|n].
  - exists 0, 0. rewrite (patron_0 f Hf) by lia. repeat split.
  - destruct (patron_int_spec f (S n) Hf Hn) as [p [E [Hp [O _]]]]. rewrite E. cbn [bind]. exists p, (p / 2 ^ 2 ^ n).
    split; [reflexivity|]. split; [apply noble_to_index_spec; assumption | apply index_to_noble_onto; assumption].
Qed.

Lemma patron_boolf_spec f n : fitting f -> adicity f <= n ->
  exists g, patron_boolf f n = Ok g /\ reduced g /\ adicity g <= n /\ forall j, j < 2 ^ n -> tab g j = xorb (tab f j) (anf n (tab f) j).
Proof.
  intros Hf Hn. unfold patron_boolf. destruct (twin_spec f n Hf Hn) as [g [E [R [A T]]]]. rewrite E. cbn [bind].
  destruct (bitwise_spec xorb f g Hf (proj1 R)) as [h [Eh [Rh S]]]. exists h. split; [exact Eh|]. split; [exact Rh|]. split.
  - apply (adicity_le h n Rh). intros e e' He. rewrite !S. rewrite (sem_low f n e e' Hn He), (sem_low g n e e' A He). reflexivity.
  - intros j Hj. unfold tab at 1. rewrite S. fold (tab f j). fold (tab g j). rewrite T by exact Hj. reflexivity.
Qed.

(** * Quadrants *)

Lemma root_nonempty f : fitting f -> root f <> [].
Proof. intros [_ Hl] C. rewrite C in Hl. cbn in Hl. assert (H := pow2_pos (length (atomvals f))). lia. Qed.

Lemma b2n_const_false {A} (l : list A) : b2n (map (fun _ => false) l) = 0.
Proof. induction l as [|x l IH]; [reflexivity|]. cbn. rewrite IH. reflexivity. Qed.
Lemma b2n_const_true {A} (l : list A) : b2n (map (fun _ => true) l) = 2 ^ length l - 1.
Proof. induction l as [|x l IH]; [reflexivity|]. cbn [map b2n length]. rewrite IH, Nat.pow_succ_r'. assert (H := pow2_pos (length l)). cbn [Nat.b2n]. lia. Qed.

Lemma is_odd_spec f : is_odd f = sem f (fun _ => false).
Proof. unfold is_odd, sem, table. rewrite b2n_const_false. reflexivity. Qed.

Lemma last_nth_length {A} (l : list A) d : last l d = nth (length l - 1) l d.
Proof.
  induction l as [|x l IH]; [reflexivity|]. cbn [last length]. destruct l as [|y l]; [reflexivity|]. rewrite IH. cbn [length nth].
  replace (S (S (length l)) - 1) with (S (S (length l) - 1)) by lia. reflexivity.
Qed.

Lemma is_odious_spec f : fitting f -> is_odious f = sem f (fun _ => true).
Proof. intros [_ Hl]. unfold is_odious, sem, table. rewrite b2n_const_true, last_nth_length, Hl. reflexivity. Qed.

Lemma is_odd_tab f : is_odd f = tab f 0.
Proof. rewrite is_odd_spec. unfold tab. apply sem_ext. intros a _. symmetry. apply Nat.bits_0. Qed.

Lemma testbit_ones_low n a : a < n -> Nat.testbit (2 ^ n - 1) a = true.
Proof. intro H. replace (2 ^ n - 1) with (Nat.ones n) by (rewrite Nat.ones_equiv; lia). apply Nat.ones_spec_low. exact H. Qed.

Lemma is_odious_tab f n : fitting f -> adicity f <= n -> is_odious f = tab f (2 ^ n - 1).
Proof. intros Hf Hn. rewrite is_odious_spec by exact Hf. unfold tab. apply (sem_low f n _ _ Hn). intros a Ha. symmetry. apply testbit_ones_low. exact Ha. Qed.

Lemma anf_1 n F : 0 < n -> anf n F 1 = xorb (F 0) (F 1).
Proof.
  intro Hn. unfold anf. destruct n as [|n]; [lia|]. assert (E : seq 0 (2 ^ S n) = 0 :: 1 :: seq 2 (2 ^ S n - 2)).
  { assert (Hp := pow2_pos n). replace (2 ^ S n) with (S (S (2 ^ S n - 2))) at 1 by (cbn; lia). reflexivity. }
  rewrite E. cbn [map]. unfold xor_all. cbn [fold_right]. fold (xor_all (map (fun k => subm k 1 && F k) (seq 2 (2 ^ S n - 2)))).
  rewrite xor_all_zero.
  - change (subm 0 1) with true. change (subm 1 1) with true. cbn [andb]. rewrite xorb_false_r. reflexivity.
  - intros k Hk. apply in_seq in Hk. apply andb_false_iff. left. rewrite subm_land. apply Nat.eqb_neq. intro C.
    assert (Nat.land k 1 <= 1) by (change (Nat.land k 1) with (Nat.land k (Nat.ones 1)); rewrite Nat.land_ones; assert (k mod 2 ^ 1 < 2 ^ 1) by (apply Nat.mod_upper_bound; cbn; lia); cbn in *; lia). lia.
Qed.

(** the first and the last bit of the index of a noble, found in the noble itself *)
Lemma noble_bit_1 n t : own_twin (S n) t -> Nat.testbit t 1 = Nat.testbit (t / 2 ^ 2 ^ n) 0.
Proof.
  intro O. destruct n as [|n].
  - rewrite <- testbit_high_half. reflexivity.
  - rewrite (proj1 (own_twin_halves (S n) t) O 1) by (apply Nat.pow_gt_1; lia). rewrite anf_1 by lia.
    destruct (Nat.testbit (t / 2 ^ 2 ^ S n) 0), (Nat.testbit (t / 2 ^ 2 ^ S n) 1); reflexivity.
Qed.

Definition nquad (n t : nat) : nat := Nat.b2n (Nat.testbit t 1) + Nat.b2n (Nat.testbit t (2 ^ n - 1)) * 2.

Lemma noble_to_quadrant_spec n t : t < 2 ^ 2 ^ S n -> own_twin (S n) t -> noble_to_quadrant t (S n) = Ok (nquad (S n) t).
Proof.
  intros Ht O. unfold noble_to_quadrant. rewrite noble_to_index_spec by assumption. cbn [bind]. destruct (index_to_noble_onto n t Ht O) as [Hi _].
  destruct (Boolf_int_tab _ n Hi) as [f [E [R [A T]]]]. rewrite E. cbn [bind]. f_equal. unfold quadrant, nquad.
  assert (Hp := pow2_pos n). rewrite is_odd_tab, (is_odious_tab f n (proj1 R) A), !T by lia. rewrite <- (noble_bit_1 n t O). do 3 f_equal.
  rewrite <- testbit_high_half. f_equal. cbn. lia.
Qed.

Lemma noble_quadrant_spec f n : reduced f -> adicity f <= S n ->
  (forall j, j < 2 ^ S n -> tab f j = anf (S n) (tab f) j) ->
  noble_quadrant f (Some (S n)) = Ok (Nat.b2n (tab f 1) + Nat.b2n (tab f (2 ^ S n - 1)) * 2).
Proof.
  intros R A N. unfold noble_quadrant. destruct (is_noble_spec f (S n) R A) as [q [E Hq]]. rewrite E. cbn [bind]. rewrite (proj2 Hq N). cbn [true_except bind].
  rewrite tt_spec by (apply R || exact A). cbn [bind]. assert (Hp := pow2_pos n).
  rewrite (lget_ok _ 1 false) by (rewrite map_length, range_length; cbn; lia). cbn [bind]. rewrite nth_table by (cbn; lia).
  rewrite (is_odious_tab f (S n) (proj1 R) A). reflexivity.
Qed.

Lemma noble_quadrant_reject f n : reduced f -> adicity f <= n -> ~ (forall j, j < 2 ^ n -> tab f j = anf n (tab f) j) ->
  noble_quadrant f (Some n) = Err ValueErr.
Proof.
  intros R A N. unfold noble_quadrant. destruct (is_noble_spec f n R A) as [q [E Hq]]. rewrite E. cbn [bind]. destruct q; [|reflexivity]. exfalso. apply N, Hq. reflexivity.
Qed.

(** * Royals *)

Lemma own_twin_lxor n a b : own_twin n a -> own_twin n b -> own_twin n (Nat.lxor a b).
Proof.
  rewrite !own_twin_anf. intros Ha Hb j Hj. rewrite Nat.lxor_spec, Ha, Hb by exact Hj. rewrite <- anf_xorb. apply anf_ext. intros k _. symmetry. apply Nat.lxor_spec.
Qed.

Lemma anf_delta n p j : p < 2 ^ n -> anf n (fun k => Nat.eqb p k) j = subm p j.
Proof.
  intro Hp. unfold anf. rewrite <- (xor_all_single (fun k => subm k j) (2 ^ n) p Hp). apply xor_all_ext. intros k _. apply andb_comm.
Qed.

Lemma subm_full n j : j < 2 ^ n -> subm (2 ^ n - 1) j = Nat.eqb (2 ^ n - 1) j.
Proof.
  intro Hj. rewrite subm_land. replace (2 ^ n - 1) with (Nat.ones n) by (rewrite Nat.ones_equiv; lia).
  rewrite Nat.land_comm, Nat.land_ones, Nat.mod_small by exact Hj. apply Nat.eqb_sym.
Qed.

Definition last_only (n : nat) : nat := 2 ^ (2 ^ n - 1).
Definition but_first (n : nat) : nat := 2 ^ 2 ^ n - 2.

Lemma last_only_bit n j : Nat.testbit (last_only n) j = Nat.eqb (2 ^ n - 1) j.
Proof. unfold last_only. rewrite Nat.pow2_bits_eqb. reflexivity. Qed.

Lemma last_only_lt n : last_only n < 2 ^ 2 ^ n.
Proof. unfold last_only. apply Nat.pow_lt_mono_r; [lia|]. assert (H := pow2_pos n). lia. Qed.

Lemma last_only_own n : own_twin n (last_only n).
Proof.
  apply own_twin_anf. intros j Hj. rewrite last_only_bit. rewrite (anf_ext n _ (fun k => Nat.eqb (2 ^ n - 1) k)) by (intros k _; apply last_only_bit).
  assert (Hp := pow2_pos n). rewrite anf_delta by lia. symmetry. apply subm_full. exact Hj.
Qed.

Lemma but_first_lt n : but_first n < 2 ^ 2 ^ n.
Proof. unfold but_first. assert (H := pow2_pos (2 ^ n)). lia. Qed.

Lemma but_first_bit n j : Nat.testbit (but_first n) j = (j <? 2 ^ n) && negb (Nat.eqb 0 j).
Proof.
  unfold but_first. assert (Hp := pow2_pos n). set (m := 2 ^ n) in *. destruct m as [|m]; [lia|].
  replace (2 ^ S m - 2) with (2 * Nat.ones m) by (rewrite Nat.ones_equiv, Nat.pow_succ_r'; lia). destruct j as [|j].
  - rewrite Nat.testbit_even_0. reflexivity.
  - rewrite Nat.testbit_even_succ'. cbn [Nat.eqb negb]. rewrite andb_true_r. destruct (Nat.ltb_spec (S j) (S m)); [apply Nat.ones_spec_low | apply Nat.ones_spec_high]; lia.
Qed.

Lemma subm_0 j : subm 0 j = true.
Proof. reflexivity. Qed.

Lemma anf_all n j : j < 2 ^ n -> anf n (fun _ => true) j = Nat.eqb 0 j.
Proof.
  intro Hj. assert (Hp := pow2_pos n). rewrite <- (anf_involution n (Nat.eqb 0) j Hj). apply anf_ext. intros k _. symmetry. rewrite anf_delta by lia. apply subm_0.
Qed.

Lemma but_first_own n : own_twin n (but_first n).
Proof.
  apply own_twin_anf. intros j Hj. rewrite but_first_bit, (proj2 (Nat.ltb_lt _ _) Hj). cbn [andb].
  rewrite (anf_ext n _ (fun k => xorb true (Nat.eqb 0 k))).
  - assert (Hp := pow2_pos n). rewrite (anf_xorb n (fun _ => true) (Nat.eqb 0)), anf_all by exact Hj. rewrite anf_delta by lia. rewrite subm_0. destruct (0 =? j); reflexivity.
  - intros k Hk. rewrite but_first_bit, (proj2 (Nat.ltb_lt _ _) Hk). reflexivity.
Qed.

Lemma nquad_lt n t : nquad n t < 4.
Proof. unfold nquad. destruct (Nat.testbit t 1), (Nat.testbit t (2 ^ n - 1)); cbn; lia. Qed.

(** the masks that bring a noble of a quadrant to quadrant 0 *)
Definition royal_mask (n q : nat) : nat :=
  match q with 0 => 0 | 1 => Nat.lxor (last_only n) (but_first n) | 2 => last_only n | _ => but_first n end.

Lemma own_twin_zero n : own_twin n 0.
Proof.
  apply own_twin_anf. intros j _. rewrite Nat.bits_0. symmetry. unfold anf. apply xor_all_zero. intros k _. rewrite Nat.bits_0. apply andb_false_r.
Qed.

Lemma royal_mask_own n q : own_twin n (royal_mask n q).
Proof.
  destruct q as [|[|[|q]]]; cbn [royal_mask]; [apply own_twin_zero | apply own_twin_lxor; [apply last_only_own | apply but_first_own] | apply last_only_own | apply but_first_own].
Qed.
Lemma royal_mask_lt n q : royal_mask n q < 2 ^ 2 ^ n.
Proof.
  destruct q as [|[|[|q]]]; cbn [royal_mask]; [apply pow2_pos | apply lxor_lt; [apply last_only_lt | apply but_first_lt] | apply last_only_lt | apply but_first_lt].
Qed.

Lemma royal_quad n t : nquad (S n) (Nat.lxor t (royal_mask (S n) (nquad (S n) t))) = 0.
Proof.
  destruct n as [|n].
  - unfold nquad. change (2 ^ 1 - 1) with 1. destruct (Nat.testbit t 1) eqn:E; cbn [Nat.b2n Nat.mul Nat.add royal_mask]; rewrite !Nat.lxor_spec, E; reflexivity.
  - set (m := S (S n)). assert (H4 : 4 <= 2 ^ m) by (unfold m; assert (Hp := pow2_pos n); cbn; lia).
    unfold nquad. rewrite !Nat.lxor_spec.
    destruct (Nat.testbit t 1) eqn:E1, (Nat.testbit t (2 ^ m - 1)) eqn:E2; cbn [Nat.b2n Nat.add Nat.mul royal_mask];
      rewrite ?Nat.lxor_spec, ?last_only_bit, ?but_first_bit, ?Nat.bits_0, ?Nat.eqb_refl, ?(proj2 (Nat.eqb_neq (2 ^ m - 1) 1)),
        ?(proj2 (Nat.eqb_neq 0 (2 ^ m - 1))), ?(proj2 (Nat.ltb_lt 1 (2 ^ m))), ?(proj2 (Nat.ltb_lt (2 ^ m - 1) (2 ^ m))) by lia; reflexivity.
Qed.

Lemma royal_spec n t : t < 2 ^ 2 ^ S n -> own_twin (S n) t ->
  noble_to_royal_and_quadrant t (S n) = Ok (Nat.lxor t (royal_mask (S n) (nquad (S n) t)), nquad (S n) t).
Proof.
  intros Ht O. unfold noble_to_royal_and_quadrant. rewrite (noble_to_quadrant_spec n t Ht O). cbn [bind]. assert (H := nquad_lt (S n) t).
  set (q := nquad (S n) t) in *. fold (last_only (S n)). fold (but_first (S n)). destruct q as [|[|[|q]]]; cbn [royal_mask].
  - rewrite Nat.lxor_0_r. reflexivity.
  - rewrite Nat.lxor_assoc. reflexivity.
  - reflexivity.
  - reflexivity.
Qed.
