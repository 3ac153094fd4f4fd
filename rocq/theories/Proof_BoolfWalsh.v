(** Proof_BoolfWalsh: Walsh spectra and distances, linearity, Hasse coordinates, symmetric tables. *)

From Coq Require Import List Arith ZArith Bool Lia Permutation Sorted.
From Verif Require Import Model_Base Lib Model_Perm Model_Binary Model_SigPerm Model_WalshPerm Model_Twin Model_Boolf Model_BoolfMore
  Spec_Bits Spec_SigPerm Spec_WalshPerm Spec_Boolf Spec_Twin Proof_Binary Proof_Helpers Proof_Linear Proof_Deflate Proof_Reorder Proof_Boolf Proof_BoolfTable Proof_BoolfApply
  Proof_WalshLinear Proof_WalshIndex Proof_WalshMore Proof_Twin Proof_BoolfMake Proof_Noble Proof_BoolfMore.
Import ListNotations.
Open Scope nat_scope.

(** * Sums *)

Lemma zsum_list_ext (F G : nat -> Z) l : (forall i, In i l -> F i = G i) -> fold_right Z.add 0%Z (map F l) = fold_right Z.add 0%Z (map G l).
Proof. intro H. f_equal. apply map_ext_in. exact H. Qed.
Lemma zsum_ext F G n : (forall i, i < n -> F i = G i) -> zsum F n = zsum G n.
Proof. intro H. apply zsum_list_ext. intros i Hi. apply in_seq in Hi. apply H. lia. Qed.
Lemma zsum_list_add (F G : nat -> Z) l : fold_right Z.add 0%Z (map (fun i => (F i + G i)%Z) l) = (fold_right Z.add 0%Z (map F l) + fold_right Z.add 0%Z (map G l))%Z.
Proof. induction l as [|x l IH]; [reflexivity|]. cbn [map fold_right]. rewrite IH. ring. Qed.
Lemma zsum_list_scale c (F : nat -> Z) l : fold_right Z.add 0%Z (map (fun i => (c * F i)%Z) l) = (c * fold_right Z.add 0%Z (map F l))%Z.
Proof. induction l as [|x l IH]; [cbn; ring|]. cbn [map fold_right]. rewrite IH. ring. Qed.
Lemma zsum_list_app a b : fold_right Z.add 0%Z (a ++ b) = (fold_right Z.add 0%Z a + fold_right Z.add 0%Z b)%Z.
Proof. induction a as [|x a IH]; [reflexivity|]. cbn. rewrite IH. ring. Qed.
Lemma zsum_swap (F : nat -> nat -> Z) a b :
  fold_right Z.add 0%Z (map (fun i => fold_right Z.add 0%Z (map (F i) b)) a) = fold_right Z.add 0%Z (map (fun j => fold_right Z.add 0%Z (map (fun i => F i j) a)) b).
Proof.
  induction a as [|x a IH]; cbn [map fold_right].
  - induction b as [|y b IHb]; [reflexivity|]. cbn. rewrite <- IHb. reflexivity.
  - rewrite IH. rewrite <- zsum_list_add. reflexivity.
Qed.
Lemma seq_offset n a m : seq (n + a) m = map (fun i => n + i) (seq a m).
Proof. revert a. induction m as [|m IH]; intro a; [reflexivity|]. cbn [seq map]. f_equal. rewrite <- IH. f_equal. lia. Qed.

Lemma zsum_split F n m : zsum F (n + m) = (zsum F n + zsum (fun i => F (n + i)%nat) m)%Z.
Proof.
  unfold zsum. rewrite seq_app, map_app, zsum_list_app. f_equal. f_equal. rewrite <- (map_map (fun i => n + i) F), <- seq_offset. f_equal. f_equal. lia.
Qed.
Lemma zsum_single F n k : k < n -> zsum (fun i => if Nat.eqb k i then F i else 0%Z) n = F k.
Proof.
  intro H. unfold zsum. assert (G : forall l, fold_right Z.add 0%Z (map (fun i => if k =? i then F i else 0%Z) l) = (F k * Z.of_nat (count_occ Nat.eq_dec l k))%Z).
  { induction l as [|x l IH]; [cbn; ring|]. cbn [map fold_right count_occ]. rewrite IH. destruct (Nat.eqb_spec k x) as [->|Hx].
    - destruct (Nat.eq_dec x x); [|congruence]. rewrite Nat2Z.inj_succ. ring.
    - destruct (Nat.eq_dec x k); [congruence|]. ring. }
  rewrite G. assert (E : count_occ Nat.eq_dec (seq 0 n) k = 1) by (apply NoDup_count_occ'; [apply seq_NoDup | apply in_seq; lia]). rewrite E. ring.
Qed.

(** * The transform *)

Lemma sgn_xorb a b : sgn (xorb a b) = (sgn a * sgn b)%Z.
Proof. destruct a, b; reflexivity. Qed.

Lemma fwht_sign_dot n k i : k < 2 ^ n -> fwht_sign k i = sgn (dot n k i).
Proof.
  intro Hk. unfold fwht_sign, sgn. rewrite int_to_weight_eq, odd_count_ones.
  assert (Hl : Nat.land k i < 2 ^ n).
  { apply bits_lt_pow. intros j Hj. rewrite Nat.land_spec, (bit_bound_lt k n Hk j Hj). reflexivity. }
  rewrite (ones_bound n _ Hl), xor_all_filter. unfold dot.
  rewrite (xor_all_ext (fun k0 => Nat.testbit (Nat.land k i) k0 && true) (fun i0 => Nat.testbit k i0 && Nat.testbit i i0)); [reflexivity|].
  intros j _. rewrite Nat.land_spec. apply andb_true_r.
Qed.

(** sums of signs *)
Lemma sum_signs n m : zsum (fun k => sgn (dot n k m)) (2 ^ n) = if forallb (fun j => negb (Nat.testbit m j)) (seq 0 n) then Z.of_nat (2 ^ n) else 0%Z.
Proof.
  induction n as [|n IH]; [reflexivity|]. replace (2 ^ S n) with (2 ^ n + 2 ^ n) by (cbn; lia). rewrite zsum_split.
  rewrite (zsum_ext _ (fun k => sgn (dot n k m))).
  - rewrite (zsum_ext (fun i => sgn (dot (S n) (2 ^ n + i) m)) (fun k => (sgn (Nat.testbit m n) * sgn (dot n k m))%Z)).
    + unfold zsum at 2. rewrite zsum_list_scale. fold (zsum (fun k => sgn (dot n k m)) (2 ^ n)). rewrite IH. rewrite seq_S, forallb_app. cbn [forallb Nat.add]. rewrite andb_true_r.
      destruct (forallb _ (seq 0 n)), (Nat.testbit m n); cbn [andb negb sgn]; lia.
    + intros i Hi. rewrite dot_comm, dot_S, (dot_comm n m), sgn_xorb, Z.mul_comm. f_equal.
      * f_equal. rewrite (Nat.add_comm (2 ^ n) i). replace (2 ^ n) with (2 ^ n * 1) by lia. rewrite testbit_glue by exact Hi. rewrite Nat.ltb_irrefl, Nat.sub_diag. apply andb_true_r.
      * f_equal. unfold dot. apply xor_all_ext. intros j Hj. apply in_seq in Hj. f_equal. rewrite (Nat.add_comm (2 ^ n) i). replace (2 ^ n) with (2 ^ n * 1) by lia.
        rewrite testbit_glue by exact Hi. rewrite (proj2 (Nat.ltb_lt j n)) by lia. reflexivity.
  - intros i Hi. rewrite dot_comm, dot_low by exact Hi. rewrite dot_comm. reflexivity.
Qed.

Lemma orthogonal n i j : i < 2 ^ n -> j < 2 ^ n ->
  zsum (fun k => (sgn (dot n k i) * sgn (dot n k j))%Z) (2 ^ n) = if Nat.eqb i j then Z.of_nat (2 ^ n) else 0%Z.
Proof.
  intros Hi Hj. rewrite (zsum_ext _ (fun k => sgn (dot n k (Nat.lxor i j)))).
  - rewrite sum_signs. replace (forallb (fun k => negb (Nat.testbit (Nat.lxor i j) k)) (seq 0 n)) with (i =? j); [reflexivity|].
    apply bool_iff. rewrite Nat.eqb_eq, forallb_forall. split.
    + intros -> k _. rewrite Nat.lxor_nilpotent, Nat.bits_0. reflexivity.
    + intro H. apply Nat.bits_inj. intro k. destruct (Nat.lt_ge_cases k n) as [Hk|Hk].
      * specialize (H k ltac:(apply in_seq; lia)). rewrite Nat.lxor_spec in H. destruct (Nat.testbit i k), (Nat.testbit j k); (reflexivity || discriminate H).
      * rewrite (bit_bound_lt i n Hi k Hk), (bit_bound_lt j n Hj k Hk). reflexivity.
  - intros k _. rewrite (dot_comm n k (Nat.lxor i j)), dot_lxor, sgn_xorb, (dot_comm n i), (dot_comm n j). reflexivity.
Qed.

Definition spectrum_entry (n : nat) (F : nat -> Z) (k : nat) : Z := zsum (fun i => (sgn (dot n k i) * F i)%Z) (2 ^ n).

Lemma spectrum_twice n F k : k < 2 ^ n -> spectrum_entry n (spectrum_entry n F) k = (Z.of_nat (2 ^ n) * F k)%Z.
Proof.
  intro Hk. unfold spectrum_entry at 1.
  transitivity (zsum (fun i => zsum (fun j => (sgn (dot n k i) * sgn (dot n i j) * F j)%Z) (2 ^ n)) (2 ^ n)).
  - apply zsum_ext. intros i _. unfold spectrum_entry, zsum. rewrite <- zsum_list_scale. apply zsum_list_ext. intros j _. ring.
  - unfold zsum. rewrite zsum_swap. fold (zsum (fun j => fold_right Z.add 0%Z (map (fun i => (sgn (dot n k i) * sgn (dot n i j) * F j)%Z) (seq 0 (2 ^ n)))) (2 ^ n)).
    rewrite (zsum_ext _ (fun j => if k =? j then (Z.of_nat (2 ^ n) * F j)%Z else 0%Z)); [apply (zsum_single (fun j => (Z.of_nat (2 ^ n) * F j)%Z)); exact Hk|].
    intros j Hj. transitivity (F j * zsum (fun i => (sgn (dot n i k) * sgn (dot n i j))%Z) (2 ^ n))%Z.
    + unfold zsum. rewrite <- zsum_list_scale. apply zsum_list_ext. intros i _. rewrite (dot_comm n k i). ring.
    + rewrite orthogonal by assumption. destruct (k =? j); ring.
Qed.

Lemma is_power_true n : is_power_of_two (2 ^ n) = true.
Proof. unfold is_power_of_two. assert (Hp := pow2_pos n). rewrite Nat.log2_pow2 by lia. rewrite Nat.eqb_refl, (proj2 (Nat.ltb_lt 0 _) Hp). reflexivity. Qed.

Lemma fwht_spec l n : length l = 2 ^ n -> fwht l = map (spectrum_entry n (fun i => nth i l 0%Z)) (range (2 ^ n)).
Proof.
  intro Hl. unfold fwht. rewrite Hl. destruct n as [|n].
  - cbn [Nat.pow Nat.ltb Nat.leb]. destruct l as [|x [|y l]]; try discriminate Hl. unfold spectrum_entry, zsum. cbn. f_equal. destruct x; reflexivity.
  - assert (Hp := pow2_pos n). rewrite (proj2 (Nat.ltb_ge (2 ^ S n) 2)) by (cbn; lia). rewrite is_power_true, Nat.sub_diag. cbn [repeat]. rewrite app_nil_r. unfold fwht_padded. rewrite Hl.
    apply map_ext_in. intros k Hk. apply range_In in Hk. unfold spectrum_entry, zsum. apply zsum_list_ext. intros i _. rewrite (fwht_sign_dot (S n)) by exact Hk. reflexivity.
Qed.

Lemma fwht_length l n : length l = 2 ^ n -> length (fwht l) = 2 ^ n.
Proof. intro H. rewrite (fwht_spec l n H), map_length. apply range_length. Qed.

Lemma spectrum_ext n F G k : (forall i, i < 2 ^ n -> F i = G i) -> spectrum_entry n F k = spectrum_entry n G k.
Proof. intro H. apply zsum_ext. intros i Hi. rewrite H by exact Hi. reflexivity. Qed.

Lemma fwht_twice l n : length l = 2 ^ n -> fwht (fwht l) = map (fun z => (Z.of_nat (2 ^ n) * z)%Z) l.
Proof.
  intro H. rewrite (fwht_spec (fwht l) n) by (apply fwht_length; exact H). apply nth_ext with (d := 0%Z) (d' := (Z.of_nat (2 ^ n) * 0)%Z); [rewrite !map_length, range_length; symmetry; exact H|].
  intros k Hk. rewrite map_length, range_length in Hk. rewrite nth_table by exact Hk. rewrite (map_nth (fun z => (Z.of_nat (2 ^ n) * z)%Z)). rewrite <- (spectrum_twice n (fun i => nth i l 0%Z) k Hk). apply spectrum_ext.
  intros i Hi. rewrite (fwht_spec l n H). apply nth_table. exact Hi.
Qed.

Lemma ifwht_fwht l n : length l = 2 ^ n -> ifwht (fwht l) = l.
Proof.
  intro H. unfold ifwht. rewrite (fwht_twice l n H), map_length, H, map_map. rewrite <- (map_id l) at 2. apply map_ext. intro z.
  assert (Hp := pow2_pos n). rewrite Z.mul_comm, Z_mod_mult, Z.eqb_refl, Z.div_mul by lia. reflexivity.
Qed.

(** a table of zeros and ones with the given spectrum *)
Lemma fwht_ifwht l n : length l = 2 ^ n -> forallb (fun z => Z.eqb z 0 || Z.eqb z 1) (ifwht l) = true -> fwht (ifwht l) = l.
Proof.
  intros H A. assert (Hp := pow2_pos n). assert (Hr := fwht_length l n H). assert (Hd : forall z, In z (fwht l) -> (z mod Z.of_nat (2 ^ n) = 0)%Z).
  { intros z Hz. unfold ifwht in A. rewrite Hr in A. rewrite forallb_forall in A. specialize (A _ (in_map _ _ _ Hz)). cbn beta in A.
    destruct (Z.eqb_spec (z mod Z.of_nat (2 ^ n)) 0) as [E|E]; [exact E | discriminate A]. }
  assert (E : map (fun z => (Z.of_nat (2 ^ n) * z)%Z) (ifwht l) = fwht l).
  { unfold ifwht. rewrite Hr, map_map. rewrite <- (map_id (fwht l)) at 2. apply map_ext_in. intros z Hz. rewrite (Hd z Hz), Z.eqb_refl. symmetry. apply Z_div_exact_full_2; [lia | apply Hd, Hz]. }
  assert (Hi : length (ifwht l) = 2 ^ n) by (unfold ifwht; rewrite map_length; exact Hr).
  assert (T := fwht_twice (ifwht l) n Hi). assert (T2 := fwht_twice l n H).
  assert (L1 := fwht_length (ifwht l) n Hi).
  apply nth_ext with (d := 0%Z) (d' := 0%Z); [congruence|]. intros k Hk. rewrite L1 in Hk.
  assert (Q : (Z.of_nat (2 ^ n) * nth k (fwht (ifwht l)) 0)%Z = (Z.of_nat (2 ^ n) * nth k l 0)%Z); [|nia].
  assert (Qa : nth k (fwht (fwht l)) 0%Z = (Z.of_nat (2 ^ n) * nth k l 0)%Z).
  { rewrite T2. rewrite (nth_indep _ 0%Z (Z.of_nat (2 ^ n) * 0)%Z) by (rewrite map_length; lia). apply (map_nth (fun z => (Z.of_nat (2 ^ n) * z)%Z)). }
  rewrite <- Qa. rewrite <- E, (fwht_spec (map (fun z => (Z.of_nat (2 ^ n) * z)%Z) (ifwht l)) n) by (rewrite map_length; exact Hi). rewrite nth_table by exact Hk. rewrite (fwht_spec (ifwht l) n Hi), nth_table by exact Hk.
  unfold spectrum_entry, zsum. rewrite <- zsum_list_scale. apply zsum_list_ext. intros i Hi2. apply in_seq in Hi2.
  rewrite (nth_indep (map (fun z => (Z.of_nat (2 ^ n) * z)%Z) (ifwht l)) 0%Z (Z.of_nat (2 ^ n) * 0)%Z) by (rewrite map_length; lia). rewrite (map_nth (fun z => (Z.of_nat (2 ^ n) * z)%Z)). ring.
Qed.

Lemma walsh_spectrum_spec f n : fitting f -> adicity f <= n ->
  walsh_spectrum f (TtArity n) = Ok (map (spectrum_entry n (fun i => z_of_bool (tab f i))) (range (2 ^ n))).
Proof.
  intros Hf Hn. unfold walsh_spectrum. rewrite tt_spec by assumption. cbn [bind]. f_equal. rewrite (fwht_spec _ n) by (rewrite !map_length; apply range_length).
  apply map_ext. intro k. apply spectrum_ext. intros i Hi. rewrite map_map, nth_table by exact Hi. reflexivity.
Qed.

Lemma bits_01 v : forallb (fun z => Z.eqb z 0 || Z.eqb z 1) (map z_of_bool v) = true.
Proof. apply forallb_forall. intros z Hz. apply in_map_iff in Hz as [[] [<- _]]; reflexivity. Qed.

Lemma from_01 l : forallb (fun z => Z.eqb z 0 || Z.eqb z 1) l = true -> l = map z_of_bool (map (Z.eqb 1) l).
Proof.
  intro H. rewrite map_map. rewrite <- (map_id l) at 1. apply map_ext_in. intros z Hz. rewrite forallb_forall in H. specialize (H z Hz).
  destruct (Z.eqb_spec z 0) as [E0|N0]; [rewrite E0; reflexivity|]. destruct (Z.eqb_spec z 1) as [E1|N1]; [rewrite E1; reflexivity | discriminate H].
Qed.

Lemma subinit_ws_bits v n : length v = 2 ^ n -> subinit_ws (fwht (map z_of_bool v)) false = Boolf_root v.
Proof.
  intro Hv. unfold subinit_ws. rewrite (ifwht_fwht _ n) by (rewrite map_length; exact Hv). rewrite bits_01. cbn [true_except bind]. unfold subinit_tt.
  change (map z_of_bool v) with (map (fun b : bool => if b then 1%Z else 0%Z) v). rewrite (Binv_vector_bool v). reflexivity.
Qed.

Lemma subinit_ws_spec f n ws : reduced f -> adicity f <= n -> walsh_spectrum f (TtArity n) = Ok ws -> subinit_ws ws false = Ok f.
Proof.
  intros R Hn E. unfold walsh_spectrum in E. rewrite tt_spec in E by (apply R || exact Hn). cbn [bind] in E. injection E as <-.
  rewrite (subinit_ws_bits _ n) by (rewrite map_length; apply range_length). destruct (root_object (tab f) n) as [g [Eg [Rg [Ag Tg]]]]. rewrite Eg. f_equal.
  apply reduced_unique; [exact Rg | exact R|]. apply (tab_inj g f n Ag Hn Tg).
Qed.

Lemma subinit_ws_inv ws n f : length ws = 2 ^ n -> subinit_ws ws false = Ok f -> reduced f /\ adicity f <= n /\ walsh_spectrum f (TtArity n) = Ok ws.
Proof.
  intros Hl E. assert (A : forallb (fun z => Z.eqb z 0 || Z.eqb z 1) (ifwht ws) = true).
  { unfold subinit_ws in E. destruct (forallb _ (ifwht ws)); [reflexivity | discriminate E]. }
  set (v := map (Z.eqb 1) (ifwht ws)). assert (Ev : ifwht ws = map z_of_bool v) by (apply from_01; exact A).
  assert (Hi : length (ifwht ws) = 2 ^ n) by (unfold ifwht; rewrite map_length; apply fwht_length; exact Hl).
  assert (Hv : length v = 2 ^ n) by (unfold v; rewrite map_length; exact Hi).
  assert (Ew : ws = fwht (map z_of_bool v)) by (rewrite <- Ev; symmetry; apply (fwht_ifwht ws n Hl A)).
  rewrite Ew, (subinit_ws_bits v n Hv) in E. destruct (root_object (fun i => nth i v false) n) as [g [Eg [Rg [Ag Tg]]]].
  assert (Em : map (fun i => nth i v false) (range (2 ^ n)) = v).
  { apply nth_ext with (d := false) (d' := false); [rewrite map_length, range_length; symmetry; exact Hv|]. intros i Hi2. rewrite map_length, range_length in Hi2.
    rewrite nth_table by exact Hi2. reflexivity. }
  rewrite Em, E in Eg. injection Eg as <-. split; [exact Rg|]. split; [exact Ag|]. unfold walsh_spectrum. rewrite tt_spec by (apply Rg || exact Ag). cbn [bind]. f_equal.
  rewrite Ew. f_equal. f_equal. rewrite <- Em. apply map_ext_in. intros i Hi2. apply range_In in Hi2. rewrite Tg by exact Hi2. reflexivity.
Qed.

(** * Distances *)

Lemma walsh_distances_spec f n : fitting f -> adicity f <= n ->
  walsh_distances f (TtArity n) = Ok (map (fun k => length (filter (fun i => xorb (tab f i) (dot n k i)) (seq 0 (2 ^ n)))) (range (2 ^ n))).
Proof.
  intros Hf Hn. unfold walsh_distances. rewrite tt_spec by assumption. cbn [bind]. rewrite map_length, range_length, Nat.log2_pow2 by lia.
  destruct (walsh_matrix_spec n false) as [m [Em [Lm [Lr M]]]]. rewrite Em. cbn [bind]. apply mapM_ok. intros k Hk. apply range_In in Hk.
  rewrite (lget_ok m k []) by (rewrite Lm; exact Hk). cbn [bind]. unfold binv_bitwise. rewrite map_length, range_length.
  rewrite (mapM_ok _ (fun i => xorb (tab f i) (dot n k i))).
  - cbn [bind]. f_equal. unfold binv_weight. rewrite map_map. unfold range. generalize (seq 0 (2 ^ n)). intro l.
    induction l as [|x l IH]; [reflexivity|]. cbn [map filter]. unfold list_sum_nat in *. cbn [fold_right]. rewrite IH. destruct (xorb (tab f x) (dot n k x)); reflexivity.
  - intros i Hi. apply range_In in Hi. rewrite (lget_ok (map _ _) i false) by (rewrite map_length, range_length; exact Hi). cbn [bind]. rewrite nth_table by exact Hi.
    rewrite (lget_ok (nth k m []) i false) by (rewrite Lr by exact Hk; exact Hi). cbn [bind]. fold (mat m k i). rewrite M, xorb_false_r by assumption. reflexivity.
Qed.

(** * Linearity *)

Lemma asg_out l i x : ~ In x l -> asg l i x = false.
Proof.
  revert i; induction l as [|a l IH]; intros i H; [reflexivity|]. cbn [asg]. destruct (Nat.eqb_spec x a) as [->|]; [exfalso; apply H; left; reflexivity|].
  apply IH. intro C. apply H. right. exact C.
Qed.

Lemma is_linear_fit f : fitting f -> exists q, is_linear f = Ok q /\ (q = true <-> exists l (c : bool), forall e, sem f e = xorb (xor_all (map e l)) c).
Proof.
  intros [Hs Hl]. assert (Hnd := sorted_lt_NoDup _ Hs). set (av := atomvals f) in *. set (m := length av) in *. unfold is_linear.
  assert (Hp := pow2_pos m). unfold linear_to_walsh_and_oddness. rewrite (lget_ok (root f) 0 false) by lia. cbn [bind]. set (c := nth 0 (root f) false).
  set (v := if c then binv_complement (root f) else root f).
  assert (Hv : length v = 2 ^ m) by (unfold v, binv_complement; destruct c; [rewrite map_length|]; exact Hl).
  assert (Vi : forall i, i < 2 ^ m -> nth i v false = xorb (nth i (root f) false) c).
  { intros i Hi. unfold v, binv_complement. destruct c; [|symmetry; apply xorb_false_r]. rewrite (nth_indep _ false (negb false)) by (rewrite map_length; lia). rewrite map_nth. symmetry. apply xorb_true_r. }
  assert (Sem : forall w, walsh_row m w v -> w < 2 ^ m -> forall e, sem f e = xorb (xor_all (map e (map (fun k => nth k av 0) (ones w)))) c).
  { intros w [_ Hw] Hwl e. unfold sem, table. fold av. assert (Hb := b2n_lt (map e av)). rewrite map_length in Hb. fold m in Hb.
    assert (E := Vi _ Hb). rewrite Hw, (dot_over_ones m w _ Hwl) in E by exact Hb. rewrite map_map.
    rewrite (xor_all_ext (fun x => e (nth x av 0)) (Nat.testbit (b2n (map e av)))).
    - rewrite E. destruct (nth (b2n (map e av)) (root f) false), c; reflexivity.
    - intros k Hk. apply (ones_lt m w k Hwl) in Hk. rewrite testbit_b2n. rewrite (nth_indep _ false (e 0)) by (rewrite map_length; exact Hk). symmetry. apply map_nth. }
  assert (Row : forall l c0, (forall e, sem f e = xorb (xor_all (map e l)) c0) -> exists w, w < 2 ^ m /\ walsh_row m w v).
  { intros l c0 H. set (ix := fun x => match find (fun k => nth k av 0 =? x) (seq 0 m) with Some k => 2 ^ k | None => 0 end).
    assert (Hix : forall x, ix x < 2 ^ m).
    { intro x. unfold ix. destruct (find _ (seq 0 m)) as [k|] eqn:Ek; [|exact Hp]. apply find_some in Ek as [Hk _]. apply in_seq in Hk. apply Nat.pow_lt_mono_r; lia. }
    exists (lxor_all (map ix l)). split; [apply lxor_all_lt; intros x Hx; apply in_map_iff in Hx as [y [<- _]]; apply Hix|].
    split; [exact Hv|]. intros i Hi. rewrite Vi by exact Hi. rewrite <- xor_all_dot, map_map.
    assert (T : forall j, j < 2 ^ m -> nth j (root f) false = xorb (xor_all (map (fun x => dot m (ix x) j) l)) c0).
    { intros j Hj. transitivity (sem f (asg av j)); [symmetry; apply table_asg; assumption|]. rewrite H. f_equal. apply xor_all_ext. intros x _. unfold ix.
      destruct (find (fun k => nth k av 0 =? x) (seq 0 m)) as [k|] eqn:Ek.
      - apply find_some in Ek as [Hk Ex]. apply in_seq in Hk. apply Nat.eqb_eq in Ex. rewrite <- Ex, asg_nth by (assumption || lia). rewrite dot_comm, dot_pow by lia. reflexivity.
      - rewrite dot_comm, dot_0. apply asg_out. intro C. apply (In_nth _ _ 0) in C as [k [Hk Ex]]. assert (Hf := find_none _ _ Ek k ltac:(apply in_seq; fold m in Hk; lia)). cbn beta in Hf. apply Nat.eqb_neq in Hf. contradiction. }
    unfold c. rewrite (T i Hi), (T 0 Hp). replace (xor_all (map (fun x => dot m (ix x) 0) l)) with false by (symmetry; apply xor_all_zero; intros x _; apply dot_0).
    destruct (xor_all (map (fun x => dot m (ix x) i) l)), c0; reflexivity. }
  destruct (Nat.eq_dec m 0) as [E0|E0].
  - assert (W : forall u : list bool, length u = 1 -> nth 0 u false = false -> u = [false]) by (intros [|x [|y u]]; cbn; intros; (discriminate || congruence)).
    assert (Ev : v = [false]) by (apply W; [rewrite Hv, E0; reflexivity | rewrite Vi by exact Hp; fold c; apply xorb_nilpotent]). rewrite Ev. cbn [bind walsh_function_to_index bvec_eqb list_eqb].
    exists true. split; [reflexivity|]. split; [|reflexivity]. intros _. exists [], c. intro e. unfold sem, table. fold av. assert (Ea : av = []) by (destruct av; [reflexivity | discriminate E0]). rewrite Ea. change (c = xorb false c). rewrite xorb_false_l. reflexivity.
  - destruct (index_cases m v ltac:(lia) Hv) as [[w [H1 [H2 H3]]] | [H1 H2]].
    + rewrite H3. exists true. split; [reflexivity|]. split; [|reflexivity]. intros _. eexists. exists c. apply (Sem w H2 H1).
    + rewrite H2. exists false. split; [reflexivity|]. split; [discriminate|]. intros [l [c0 H]]. destruct (Row l c0 H) as [w [Hw Hr]]. exfalso. apply (H1 w Hw Hr).
Qed.

Lemma is_linear_spec f : reduced f -> exists q, is_linear f = Ok q /\ (q = true <-> exists l (c : bool), forall e, sem f e = xorb (xor_all (map e l)) c).
Proof. intro R. apply is_linear_fit, R. Qed.

(** * Hasse coordinates and symmetric tables *)

Lemma half_pow n : 2 ^ S n / 2 = 2 ^ n.
Proof. rewrite Nat.pow_succ_r', Nat.mul_comm, Nat.div_mul by lia. reflexivity. Qed.

Lemma hasse_spec f n : fitting f -> adicity f <= S n ->
  hasse_matrix_coordinates f (TtArity (S n)) =
    Ok (b2n (map (tab f) (seq 0 (2 ^ n))), b2n (map (fun k => tab f (2 ^ S n - 1 - k)) (seq 0 (2 ^ n)))).
Proof.
  intros Hf Hn. unfold hasse_matrix_coordinates. rewrite tt_spec by assumption. cbn [bind]. rewrite map_length, range_length, half_pow, !binv_intval_eq. unfold range.
  assert (Hp : 2 ^ S n = 2 ^ n + 2 ^ n) by (cbn; lia). rewrite Hp. f_equal. f_equal; f_equal.
  - rewrite seq_app, map_app, firstn_app, map_length, seq_length, Nat.sub_diag, firstn_O, app_nil_r. apply firstn_all2. rewrite map_length, seq_length. lia.
  - rewrite seq_app, map_app, skipn_app, map_length, seq_length, Nat.sub_diag, skipn_O. rewrite skipn_all2 by (rewrite map_length, seq_length; lia). cbn [app].
    apply nth_ext with (d := false) (d' := false); [rewrite rev_length, !map_length, !seq_length; reflexivity|]. intros k Hk. rewrite rev_length, map_length, seq_length in Hk.
    rewrite rev_nth by (rewrite map_length, seq_length; exact Hk). rewrite map_length, seq_length. fold (range (2 ^ n)). rewrite nth_table by exact Hk.
    rewrite (nth_indep _ false (tab f 0)) by (rewrite map_length, seq_length; lia). rewrite map_nth, seq_nth by lia. f_equal. lia.
Qed.

Lemma Binv_vec t m : t < 2 ^ m -> m <> 0 -> Binv_intval t (Some m) = Ok (map (Nat.testbit t) (range m)).
Proof.
  intros Ht Hm. destruct (Binv_int_len t m Ht Hm) as [v [E [Ei El]]]. rewrite E. f_equal. rewrite binv_intval_eq in Ei.
  apply nth_ext with (d := false) (d' := false); [rewrite map_length, range_length; exact El|]. intros i Hi. rewrite El in Hi. rewrite nth_table by exact Hi. rewrite <- Ei. symmetry. apply testbit_b2n.
Qed.

Lemma hasse_to_tt_spec i j n : i < 2 ^ 2 ^ n -> j < 2 ^ 2 ^ n ->
  hasse_matrix_coordinates_to_tt i j (S n) = Ok (map (fun k => if k <? 2 ^ n then Nat.testbit i k else Nat.testbit j (2 ^ S n - 1 - k)) (range (2 ^ S n))).
Proof.
  intros Hi Hj. unfold hasse_matrix_coordinates_to_tt. assert (Hp := pow2_pos n). assert (H2 : 2 ^ S n = 2 ^ n + 2 ^ n) by (cbn; lia).
  rewrite half_pow, !Binv_vec by (assumption || lia). cbn [bind]. f_equal. unfold range. rewrite H2, seq_app, map_app. f_equal.
  - apply map_ext_in. intros k Hk. apply in_seq in Hk. rewrite (proj2 (Nat.ltb_lt _ _)) by lia. reflexivity.
  - apply nth_ext with (d := false) (d' := false); [rewrite rev_length, !map_length, !seq_length; reflexivity|]. intros k Hk. rewrite rev_length, map_length, seq_length in Hk.
    rewrite rev_nth by (rewrite map_length, seq_length; exact Hk). rewrite map_length, seq_length. fold (range (2 ^ n)). rewrite nth_table by lia.
    replace (0 + 2 ^ n) with (2 ^ n + 0) by lia. rewrite seq_offset, map_map. rewrite nth_table by exact Hk. rewrite (proj2 (Nat.ltb_ge _ _)) by lia. f_equal. lia.
Qed.

Lemma hasse_roundtrip f n : fitting f -> adicity f <= S n ->
  exists i j, hasse_matrix_coordinates f (TtArity (S n)) = Ok (i, j) /\ i < 2 ^ 2 ^ n /\ j < 2 ^ 2 ^ n /\
    hasse_matrix_coordinates_to_tt i j (S n) = Ok (map (tab f) (range (2 ^ S n))).
Proof.
  intros Hf Hn. assert (H2 : 2 ^ S n = 2 ^ n + 2 ^ n) by (cbn; lia). eexists. eexists. split; [apply hasse_spec; assumption|]. fold (range (2 ^ n)).
  split; [apply table_lt|]. split; [apply table_lt|]. rewrite hasse_to_tt_spec by apply table_lt. f_equal. apply map_ext_in. intros k Hk. apply range_In in Hk.
  rewrite !testbit_table. destruct (Nat.ltb_spec k (2 ^ n)) as [Hl|Hl]; [reflexivity|]. rewrite (proj2 (Nat.ltb_lt _ _)) by lia. cbn [andb]. f_equal. lia.
Qed.

Lemma symmetric_spec s n : s < 2 ^ 2 ^ S n ->
  (palindrome (S n) s -> symmetric_to_index s (S n) = Ok (s / 2 ^ 2 ^ n)) /\
  (~ palindrome (S n) s -> symmetric_to_index s (S n) = Err ArgValueError).
Proof.
  intro Hs. assert (H2 : 2 ^ S n = 2 ^ n + 2 ^ n) by (cbn; lia). assert (Hp := pow2_pos n). unfold symmetric_to_index. rewrite (proj2 (Nat.ltb_lt _ _) Hs). cbn [true_except bind].
  rewrite half_pow. rewrite Binv_vec by (assumption || lia). cbn [bind].
  set (v := map (Nat.testbit s) (range (2 ^ S n))).
  assert (El : firstn (2 ^ n) v = map (Nat.testbit s) (seq 0 (2 ^ n))).
  { unfold v, range. rewrite H2, seq_app, map_app, firstn_app, map_length, seq_length, Nat.sub_diag, firstn_O, app_nil_r. apply firstn_all2. rewrite map_length, seq_length. lia. }
  assert (Er : skipn (2 ^ n) v = map (fun k => Nat.testbit s (2 ^ n + k)) (seq 0 (2 ^ n))).
  { unfold v, range. rewrite H2, seq_app, map_app, skipn_app, map_length, seq_length, Nat.sub_diag, skipn_O. rewrite skipn_all2 by (rewrite map_length, seq_length; lia). cbn [app].
    replace (0 + 2 ^ n) with (2 ^ n + 0) by lia. rewrite seq_offset, map_map. reflexivity. }
  assert (Ev : binv_intval (skipn (2 ^ n) v) = s / 2 ^ 2 ^ n).
  { rewrite binv_intval_eq, Er. apply Nat.bits_inj. intro k. fold (range (2 ^ n)). rewrite testbit_table, <- testbit_high_half, (Nat.add_comm k).
    destruct (Nat.ltb_spec k (2 ^ n)) as [Hk|Hk]; [reflexivity|]. symmetry. apply (bit_bound_lt s _ Hs). lia. }
  assert (P : bvec_eqb (firstn (2 ^ n) v) (rev (skipn (2 ^ n) v)) = true <-> palindrome (S n) s).
  { rewrite bvec_eqb_eq, El, Er. split.
    - intros E. assert (L : forall k, k < 2 ^ n -> Nat.testbit s k = Nat.testbit s (2 ^ S n - 1 - k)).
      { intros k Hk. apply (f_equal (fun l => nth k l false)) in E. fold (range (2 ^ n)) in E. rewrite nth_table in E by exact Hk.
        rewrite rev_nth in E by (rewrite map_length, range_length; exact Hk). rewrite map_length, range_length, nth_table in E by lia. rewrite E. f_equal. lia. }
      intros k Hk. destruct (Nat.lt_ge_cases k (2 ^ n)) as [Hl|Hl]; [apply L; exact Hl|]. rewrite (L (2 ^ S n - 1 - k)) by lia. f_equal. lia.
    - intro Pal. apply nth_ext with (d := false) (d' := false); [rewrite rev_length, !map_length; reflexivity|]. intros k Hk. rewrite map_length, seq_length in Hk. fold (range (2 ^ n)).
      rewrite nth_table by exact Hk. rewrite rev_nth by (rewrite map_length, range_length; exact Hk). rewrite map_length, range_length, nth_table by lia. rewrite Pal by lia. f_equal. lia. }
  rewrite Ev. destruct (bvec_eqb _ _); cbn [true_except bind]; split; intro H; try reflexivity; exfalso.
  - apply H, P. reflexivity.
  - apply P in H. discriminate H.
Qed.
