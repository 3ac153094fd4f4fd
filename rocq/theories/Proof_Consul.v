(** Proof_Consul: consuls and Walsh spectra when atoms are negated, permuted or added. *)

From Coq Require Import List Arith ZArith Bool Lia Permutation Sorted Factorial.
From Verif Require Import Model_Base Lib Model_Binary Model_WalshPerm Model_Twin Model_Boolf Model_BoolfMore Model_Ec
  Spec_Bits Spec_SigPerm Spec_WalshPerm Spec_Boolf Spec_Twin Spec_MinRep Proof_Binary Proof_Deflate Proof_Boolf Proof_BoolfTable Proof_Twin Proof_BoolfMake Proof_Noble
  Proof_WalshLinear Proof_BoolfMore Proof_BoolfWalsh Proof_Linear Proof_WalshIndex Proof_MinRepClass Proof_MinRepCoset Proof_MinRepMale Proof_EcClass Proof_EcMembers Proof_EcMore Proof_Foibles.
Import (coercions) Proof_BoolfApply.
Import ListNotations.
Local Open Scope nat_scope.

Definition consul_of (f : boolf) (n : nat) : nat := lxor_all (filter (tab f) (seq 0 (2 ^ n))).
Definition entry_of (f : boolf) (n k : nat) : Z := spectrum_entry n (fun i => z_of_bool (tab f i)) k.

Lemma consul_of_spec f n : fitting f -> adicity f <= n -> consul f (TtArity n) = Ok (consul_of f n).
Proof. apply consul_spec. Qed.
Lemma consul_of_lt f n : consul_of f n < 2 ^ n.
Proof. apply lxor_all_lt. intros x Hx. apply filter_In in Hx as [Hx _]. apply in_seq in Hx. lia. Qed.
Lemma consul_of_bit f n k : Nat.testbit (consul_of f n) k = xor_all (map (fun i => tab f i && Nat.testbit i k) (seq 0 (2 ^ n))).
Proof. unfold consul_of. rewrite lxor_all_bit, xor_all_filter. reflexivity. Qed.
Lemma consul_of_dot f n k : dot n (consul_of f n) k = xor_all (map (fun i => tab f i && dot n i k) (seq 0 (2 ^ n))).
Proof. unfold consul_of. rewrite <- xor_all_dot, xor_all_filter. reflexivity. Qed.

(** * Moved places *)

Section Moved.
Variables (n : nat) (pi : nat -> nat) (m : nat -> bool).
Hypothesis pi_onto : forall b, b < n -> exists a, a < n /\ pi a = b.

Definition sigma (j : nat) : nat := b2n (map (fun a => xorb (Nat.testbit j (pi a)) (m a)) (range n)).
Lemma sigma_lt j : sigma j < 2 ^ n.
Proof. apply (place_lt (fun a => xorb (Nat.testbit j (pi a)) (m a))). Qed.
Lemma sigma_bit j a : a < n -> Nat.testbit (sigma j) a = xorb (Nat.testbit j (pi a)) (m a).
Proof. apply (place_bits (fun a => xorb (Nat.testbit j (pi a)) (m a))). Qed.

Lemma sigma_inj i j : i < 2 ^ n -> j < 2 ^ n -> sigma i = sigma j -> i = j.
Proof.
  intros Hi Hj E. apply Nat.bits_inj. intro b. destruct (Nat.lt_ge_cases b n) as [Hb|Hb].
  - destruct (pi_onto b Hb) as (a & Ha & <-). assert (B := f_equal (fun x => Nat.testbit x a) E). cbn beta in B. rewrite !sigma_bit in B by exact Ha.
    destruct (Nat.testbit i (pi a)), (Nat.testbit j (pi a)), (m a); (reflexivity || discriminate B).
  - rewrite (bit_bound_lt i n Hi b Hb), (bit_bound_lt j n Hj b Hb). reflexivity.
Qed.

Lemma sigma_perm : Permutation (map sigma (seq 0 (2 ^ n))) (seq 0 (2 ^ n)).
Proof.
  apply NoDup_Permutation_bis.
  - apply Proof_Helpers.NoDup_map_inj; [apply seq_NoDup|]. intros i j Hi Hj E. apply in_seq in Hi, Hj. apply sigma_inj; [lia | lia | exact E].
  - rewrite map_length. lia.
  - intros x Hx. apply in_map_iff in Hx as (j & <- & _). apply in_seq. assert (H := sigma_lt j). lia.
Qed.

Variables f g : boolf.
Hypothesis Af : adicity f <= n.
Hypothesis S : forall e, sem g e = sem f (fun a => xorb (e (pi a)) (m a)).

Lemma tab_sigma j : tab g j = tab f (sigma j).
Proof. unfold tab. rewrite S. apply sem_low with n; [exact Af|]. intros a Ha. rewrite sigma_bit by exact Ha. reflexivity. Qed.

Lemma xor_sigma (H : nat -> bool) : xor_all (map (fun j => tab g j && H (sigma j)) (seq 0 (2 ^ n))) = xor_all (map (fun i => tab f i && H i) (seq 0 (2 ^ n))).
Proof.
  rewrite <- (xor_all_perm _ _ (Permutation_map (fun i => tab f i && H i) sigma_perm)), map_map. apply xor_all_ext. intros j _. rewrite tab_sigma. reflexivity.
Qed.

Lemma sharp_moved : sharp g n = sharp f n.
Proof.
  unfold sharp. assert (X := xor_sigma (fun _ => true)). rewrite (xor_all_ext (fun j => tab g j && true) (tab g)) in X by (intros; apply andb_true_r).
  rewrite (xor_all_ext (fun j => tab f j && true) (tab f)) in X by (intros; apply andb_true_r). exact X.
Qed.

Lemma consul_moved a : a < n -> Nat.testbit (consul_of g n) (pi a) = xorb (Nat.testbit (consul_of f n) a) (sharp f n && m a).
Proof.
  intro Ha. rewrite !consul_of_bit. transitivity (xor_all (map (fun i => tab f i && xorb (Nat.testbit i a) (m a)) (seq 0 (2 ^ n)))).
  - rewrite <- (xor_sigma (fun i => xorb (Nat.testbit i a) (m a))). apply xor_all_ext. intros j _. rewrite sigma_bit by exact Ha. f_equal. destruct (Nat.testbit j (pi a)), (m a); reflexivity.
  - rewrite (xor_all_ext _ (fun i => xorb (tab f i && Nat.testbit i a) (tab f i && m a))) by (intros i _; destruct (tab f i); reflexivity).
    rewrite xor_all_xorb, xor_all_and. reflexivity.
Qed.

(** the index whose bits are moved *)
Lemma moved_dot k k' j : (forall a, a < n -> Nat.testbit k' (pi a) = Nat.testbit k a) ->
  dot n k' j = xorb (dot n k (sigma j)) (xor_all (map (fun a => Nat.testbit k a && m a) (seq 0 n))).
Proof.
  intro Hk. unfold dot. transitivity (xor_all (map (fun a => Nat.testbit k' (pi a) && Nat.testbit j (pi a)) (seq 0 n))).
  - assert (P : Permutation (map pi (seq 0 n)) (seq 0 n)).
    { symmetry. apply NoDup_Permutation_bis; [apply seq_NoDup | rewrite map_length; lia|]. intros b Hb. apply in_seq in Hb. destruct (pi_onto b) as (a & Ha & <-); [lia|]. apply in_map. apply in_seq. lia. }
    rewrite <- (xor_all_perm _ _ (Permutation_map (fun i => Nat.testbit k' i && Nat.testbit j i) P)), map_map. reflexivity.
  - rewrite <- xor_all_xorb. apply xor_all_ext. intros a Ha. apply in_seq in Ha. rewrite Hk, sigma_bit by lia. destruct (Nat.testbit k a), (Nat.testbit j (pi a)), (m a); reflexivity.
Qed.

Lemma zsum_perm (F : nat -> Z) l l' : Permutation l l' -> fold_right Z.add 0%Z (map F l) = fold_right Z.add 0%Z (map F l').
Proof. intro P. induction P; cbn; lia. Qed.

Lemma entry_moved k k' : (forall a, a < n -> Nat.testbit k' (pi a) = Nat.testbit k a) ->
  entry_of g n k' = (sgn (xor_all (map (fun a => Nat.testbit k a && m a) (seq 0 n))) * entry_of f n k)%Z.
Proof.
  intro Hk. set (b := xor_all (map (fun a => Nat.testbit k a && m a) (seq 0 n))). unfold entry_of at 2, spectrum_entry, zsum.
  rewrite <- (zsum_perm (fun i => (sgn (dot n k i) * z_of_bool (tab f i))%Z) _ _ sigma_perm), map_map, <- zsum_list_scale. unfold entry_of, spectrum_entry, zsum. apply zsum_list_ext. intros j _.
  rewrite (moved_dot k k' j Hk), sgn_xorb, tab_sigma. fold b. ring.
Qed.
End Moved.

Lemma consul_negated f g n s : adicity f <= n -> s < 2 ^ n -> (forall e, sem g e = sem f (fun a => xorb (e a) (Nat.testbit s a))) ->
  consul_of g n = Nat.lxor (consul_of f n) (if sharp f n then s else 0).
Proof.
  intros Af Hs S. apply Nat.bits_inj. intro k. rewrite Nat.lxor_spec. destruct (Nat.lt_ge_cases k n) as [Hk|Hk].
  - rewrite (consul_moved n (fun a => a) (Nat.testbit s)) with (f := f) (a := k); auto; [|intros b Hb; exists b; auto]. f_equal. destruct (sharp f n); cbn [andb]; [reflexivity | rewrite Nat.bits_0; reflexivity].
  - rewrite (bit_bound_lt _ n (consul_of_lt g n) k Hk), (bit_bound_lt _ n (consul_of_lt f n) k Hk). destruct (sharp f n); [rewrite (bit_bound_lt s n Hs k Hk) | rewrite Nat.bits_0]; reflexivity.
Qed.

(** the atoms outside are not negated *)
Lemma family_low f g n : adicity f <= n -> family_class (sem f) (sem g) -> exists s, s < 2 ^ n /\ forall e, sem g e = sem f (fun a => xorb (e a) (Nat.testbit s a)).
Proof.
  intros Af (m & S). exists (b2n (map m (range n))). split; [apply (place_lt m)|]. intro e. rewrite S. apply sem_ext. intros a Ha. apply adicity_bound in Ha. rewrite (place_bits m) by lia. reflexivity.
Qed.

(** moving bits keeps their number *)
Lemma count_ones_bound n k : k < 2 ^ n -> count_ones k = length (filter (Nat.testbit k) (seq 0 n)).
Proof. intro H. change (count_ones k) with (length (ones k)). rewrite (ones_bound n k H). reflexivity. Qed.

Lemma moved_weight n pi c d : c < 2 ^ n -> d < 2 ^ n -> (forall a, a < n -> pi a < n) -> (forall b, b < n -> exists a, a < n /\ pi a = b) ->
  (forall a, a < n -> Nat.testbit d (pi a) = Nat.testbit c a) -> count_ones d = count_ones c.
Proof.
  intros Hc Hd Hl Ho H. rewrite (count_ones_bound n c Hc), (count_ones_bound n d Hd).
  assert (P : Permutation (map pi (seq 0 n)) (seq 0 n)).
  { symmetry. apply NoDup_Permutation_bis; [apply seq_NoDup | rewrite map_length; lia|]. intros b Hb. apply in_seq in Hb. destruct (Ho b) as (a & Ha & <-); [lia|]. apply in_map. apply in_seq. lia. }
  rewrite <- (Proof_EcMore.perm_filter_length _ _ _ P). assert (X : forall l, (forall a, In a l -> a < n) -> length (filter (Nat.testbit d) (map pi l)) = length (filter (Nat.testbit c) l)).
  { induction l as [|x l IH]; intro Hx; [reflexivity|]. cbn [map filter]. rewrite H by (apply Hx; left; reflexivity). destruct (Nat.testbit c x); cbn [length]; rewrite IH by (intros; apply Hx; right; assumption); reflexivity. }
  apply X. intros a Ha. apply in_seq in Ha. lia.
Qed.

Lemma clan_low f g n : reduced f -> reduced g -> adicity f <= n -> adicity g <= n -> clan_class (sem f) (sem g) ->
  exists pi m, (forall a, a < n -> pi a < n) /\ (forall b, b < n -> exists a, a < n /\ pi a = b) /\ forall e, sem g e = sem f (fun a => xorb (e (pi a)) (m a)).
Proof.
  intros Rf Rg Af Ag C. destruct (proj2 (clan_members f g n Rf Af)) as (m & r & _ & Hr & _ & S); [auto|]. exists (Proof_MinRepCoset.act r), (fun a => Nat.testbit m (Proof_MinRepCoset.act r a)).
  split; [intros a Ha; apply (permutes_lt _ _ _ (permutes_act r n Hr) Ha)|]. split; [intros b Hb; apply (act_onto r n b Hr Hb) | exact S].
Qed.

Lemma clan_consul_weight f g n : reduced f -> reduced g -> adicity f <= n -> adicity g <= n -> clan_class (sem f) (sem g) -> sharp f n = false -> count_ones (consul_of g n) = count_ones (consul_of f n).
Proof.
  intros Rf Rg Af Ag C E. destruct (clan_low f g n Rf Rg Af Ag C) as (pi & m & Hl & Ho & S). apply (moved_weight n pi); [apply consul_of_lt | apply consul_of_lt | exact Hl | exact Ho|].
  intros a Ha. rewrite (consul_moved n pi m Ho f g Af S a Ha), E. apply xorb_false_r.
Qed.

(** * One more atom *)

Lemma tab_high f n i : adicity f <= n -> i < 2 ^ n -> tab f (2 ^ n + i) = tab f i.
Proof.
  intros Af Hi. unfold tab. apply sem_low with n; [exact Af|]. intros a Ha. replace (2 ^ n + i) with (i + 2 ^ n * 1) by lia. rewrite testbit_glue by exact Hi. rewrite (proj2 (Nat.ltb_lt a n) Ha). reflexivity.
Qed.

Lemma consul_inflated f n : adicity f <= n -> consul_of f (S n) = if sharp f n then 2 ^ n else 0.
Proof.
  intro Af. apply Nat.bits_inj. intro k. rewrite consul_of_bit. replace (2 ^ S n) with (2 ^ n + 2 ^ n) by (cbn; lia). rewrite seq_app, map_app, xor_all_app. cbn [Nat.add].
  replace (seq (2 ^ n) (2 ^ n)) with (map (fun i => 2 ^ n + i) (seq 0 (2 ^ n))) by (rewrite <- (seq_offset (2 ^ n) 0); f_equal; lia). rewrite map_map, <- xor_all_xorb.
  transitivity (xor_all (map (fun i => tab f i && (k =? n)) (seq 0 (2 ^ n)))).
  - apply xor_all_ext. intros i Hi. apply in_seq in Hi. rewrite tab_high by (assumption || lia). replace (2 ^ n + i) with (i + 2 ^ n * Nat.b2n true) by (cbn [Nat.b2n]; lia). rewrite testbit_split by lia.
    destruct (Nat.eqb_spec k n) as [->|_].
    + rewrite (bit_bound_lt i n) by lia. destruct (tab f i); reflexivity.
    + destruct (tab f i), (Nat.testbit i k); reflexivity.
  - rewrite xor_all_and. fold (sharp f n). destruct (sharp f n); cbn [andb]; [rewrite Nat.pow2_bits_eqb; apply Nat.eqb_sym | rewrite Nat.bits_0; reflexivity].
Qed.

Lemma sharp_inflated f n : adicity f <= n -> sharp f (S n) = false.
Proof.
  intro Af. unfold sharp. replace (2 ^ S n) with (2 ^ n + 2 ^ n) by (cbn; lia). rewrite seq_app, map_app, xor_all_app. cbn [Nat.add].
  replace (seq (2 ^ n) (2 ^ n)) with (map (fun i => 2 ^ n + i) (seq 0 (2 ^ n))) by (rewrite <- (seq_offset (2 ^ n) 0); f_equal; lia). rewrite map_map.
  rewrite (xor_all_ext (fun x => tab f (2 ^ n + x)) (tab f)) by (intros i Hi; apply in_seq in Hi; apply tab_high; [exact Af | lia]). apply xorb_nilpotent.
Qed.

Lemma entry_inflated f n k : adicity f <= n -> k < 2 ^ n -> entry_of f (S n) k = (2 * entry_of f n k)%Z /\ entry_of f (S n) (2 ^ n + k) = 0%Z.
Proof.
  intros Af Hk. unfold entry_of, spectrum_entry. replace (2 ^ S n) with (2 ^ n + 2 ^ n) by (cbn; lia). rewrite !zsum_split.
  assert (L : forall x i, x < 2 ^ n -> dot (S n) x i = dot n x i). { intros x i Hx. rewrite dot_comm, (dot_comm n x). apply dot_low. exact Hx. }
  assert (D1 : forall i, i < 2 ^ n -> dot (S n) k (2 ^ n + i) = dot n k i).
  { intros i Hi. rewrite L by exact Hk. unfold dot. apply xor_all_ext. intros a Ha. apply in_seq in Ha. replace (2 ^ n + i) with (i + 2 ^ n * Nat.b2n true) by (cbn [Nat.b2n]; lia). rewrite testbit_split by exact Hi. rewrite (proj2 (Nat.eqb_neq a n)) by lia. reflexivity. }
  assert (D2 : forall i, i < 2 ^ n -> dot (S n) (2 ^ n + k) i = dot n k i).
  { intros i Hi. rewrite dot_comm, L, dot_comm by exact Hi. unfold dot. apply xor_all_ext. intros a Ha. apply in_seq in Ha. replace (2 ^ n + k) with (k + 2 ^ n * Nat.b2n true) by (cbn [Nat.b2n]; lia). rewrite testbit_split by exact Hk. rewrite (proj2 (Nat.eqb_neq a n)) by lia. reflexivity. }
  assert (D3 : forall i, i < 2 ^ n -> dot (S n) (2 ^ n + k) (2 ^ n + i) = negb (dot n k i)).
  { intros i Hi. unfold dot. rewrite seq_S, map_app, xor_all_app. cbn [map Nat.add]. 
    replace (2 ^ n + k) with (k + 2 ^ n * Nat.b2n true) by (cbn [Nat.b2n]; lia). replace (2 ^ n + i) with (i + 2 ^ n * Nat.b2n true) by (cbn [Nat.b2n]; lia).
    rewrite (xor_all_ext _ (fun a => Nat.testbit k a && Nat.testbit i a)) by (intros a Ha; apply in_seq in Ha; rewrite !testbit_split by assumption; rewrite (proj2 (Nat.eqb_neq a n)) by lia; reflexivity).
    rewrite !testbit_split by assumption. rewrite Nat.eqb_refl. match goal with |- xorb ?a _ = negb ?b => destruct a; reflexivity end. }
  split.
  - rewrite (zsum_ext (fun i => sgn (dot (S n) k i) * z_of_bool (tab f i))%Z (fun i => sgn (dot n k i) * z_of_bool (tab f i))%Z) by (intros i _; rewrite L by exact Hk; reflexivity).
    rewrite (zsum_ext (fun i => sgn (dot (S n) k (2 ^ n + i)) * z_of_bool (tab f (2 ^ n + i)))%Z (fun i => sgn (dot n k i) * z_of_bool (tab f i))%Z); [lia|].
    intros i Hi. rewrite D1, tab_high by assumption. reflexivity.
  - rewrite (zsum_ext (fun i => sgn (dot (S n) (2 ^ n + k) i) * z_of_bool (tab f i))%Z (fun i => sgn (dot n k i) * z_of_bool (tab f i))%Z) by (intros i Hi; rewrite D2 by exact Hi; reflexivity).
    rewrite (zsum_ext (fun i => sgn (dot (S n) (2 ^ n + k) (2 ^ n + i)) * z_of_bool (tab f (2 ^ n + i)))%Z (fun i => (-1) * (sgn (dot n k i) * z_of_bool (tab f i)))%Z).
    + unfold zsum at 2. rewrite zsum_list_scale. fold (zsum (fun i => sgn (dot n k i) * z_of_bool (tab f i))%Z (2 ^ n)). lia.
    + intros i Hi. rewrite D3, tab_high by assumption. destruct (dot n k i); cbn [sgn negb]; lia.
Qed.

(** * Weights, spectra, distances *)

Definition cnt (p : nat -> bool) (N : nat) : nat := length (filter p (seq 0 N)).
Lemma cnt_sum (p : nat -> bool) l : Z.of_nat (length (filter p l)) = fold_right Z.add 0%Z (map (fun i => z_of_bool (p i)) l).
Proof. induction l as [|x l IH]; [reflexivity|]. cbn [filter map fold_right]. destruct (p x); cbn [length z_of_bool]; lia. Qed.

Lemma entry_counts f n k : entry_of f n k = (Z.of_nat (cnt (tab f) (2 ^ n)) - 2 * Z.of_nat (cnt (fun i => tab f i && dot n k i) (2 ^ n)))%Z.
Proof.
  unfold entry_of, spectrum_entry, zsum, cnt. rewrite !cnt_sum. rewrite <- (zsum_list_scale 2). generalize (seq 0 (2 ^ n)). intro l.
  induction l as [|x l IH]; [reflexivity|]. cbn [map fold_right]. rewrite IH. destruct (tab f x), (dot n k x); cbn [andb z_of_bool sgn]; lia.
Qed.

Lemma distance_counts f n k : Z.of_nat (cnt (fun i => xorb (tab f i) (dot n k i)) (2 ^ n)) =
  (Z.of_nat (cnt (tab f) (2 ^ n)) + Z.of_nat (cnt (dot n k) (2 ^ n)) - 2 * Z.of_nat (cnt (fun i => tab f i && dot n k i) (2 ^ n)))%Z.
Proof.
  unfold cnt. rewrite !cnt_sum. rewrite <- (zsum_list_scale 2). generalize (seq 0 (2 ^ n)). intro l.
  induction l as [|x l IH]; [reflexivity|]. cbn [map fold_right]. rewrite IH. destruct (tab f x), (dot n k x); cbn [andb xorb z_of_bool]; lia.
Qed.

Lemma walsh_weight n k : k < 2 ^ n -> (2 * Z.of_nat (cnt (dot n k) (2 ^ n)))%Z = if k =? 0 then 0%Z else Z.of_nat (2 ^ n).
Proof.
  intro Hk. assert (E := sum_signs n k). assert (X : zsum (fun i => sgn (dot n i k)) (2 ^ n) = (Z.of_nat (2 ^ n) - 2 * Z.of_nat (cnt (dot n k) (2 ^ n)))%Z).
  { unfold zsum, cnt. rewrite cnt_sum, <- (zsum_list_scale 2). rewrite <- (seq_length (2 ^ n) 0) at 2. generalize (seq 0 (2 ^ n)). intro l. induction l as [|x l IH]; [reflexivity|].
    cbn [map fold_right length]. rewrite IH, (dot_comm n x k). destruct (dot n k x); cbn [sgn z_of_bool]; lia. }
  rewrite X in E. replace (forallb (fun j => negb (Nat.testbit k j)) (seq 0 n)) with (k =? 0) in E.
  - destruct (k =? 0); lia.
  - apply bool_iff. rewrite Nat.eqb_eq, forallb_forall. split.
    + intros -> j _. rewrite Nat.bits_0. reflexivity.
    + intro H. apply Nat.bits_inj_0. intro j. destruct (Nat.lt_ge_cases j n) as [Hj|Hj]; [|apply (bit_bound_lt k n Hk j Hj)]. specialize (H j ltac:(apply in_seq; lia)). destruct (Nat.testbit k j); [discriminate H | reflexivity].
Qed.

Lemma odd_cnt (p : nat -> bool) N : Nat.odd (cnt p N) = xor_all (map p (seq 0 N)).
Proof.
  unfold cnt. generalize (seq 0 N). intro l. induction l as [|x l IH]; [reflexivity|]. cbn [filter map]. change (xor_all (p x :: map p l)) with (xorb (p x) (xor_all (map p l))). rewrite <- IH.
  destruct (p x); [|rewrite xorb_false_l; reflexivity]. cbn [length]. rewrite Nat.odd_succ, <- Nat.negb_odd. reflexivity.
Qed.

Lemma parseval f n : zsum (fun k => entry_of f n k * entry_of f n k)%Z (2 ^ n) = (Z.of_nat (2 ^ n) * Z.of_nat (cnt (tab f) (2 ^ n)))%Z.
Proof.
  set (F := fun i => z_of_bool (tab f i)). transitivity (zsum (fun k => zsum (fun i => (F i * (sgn (dot n i k) * entry_of f n k))%Z) (2 ^ n)) (2 ^ n)).
  - apply zsum_ext. intros k _. unfold entry_of at 2, spectrum_entry, zsum. rewrite Z.mul_comm, (Z.mul_comm _ (entry_of f n k)), <- zsum_list_scale. apply zsum_list_ext. intros i _. rewrite (dot_comm n k i). unfold F. ring.
  - unfold zsum. rewrite zsum_swap. unfold cnt. rewrite cnt_sum, <- zsum_list_scale. apply zsum_list_ext. intros i Hi. apply in_seq in Hi.
    rewrite zsum_list_scale. assert (T := spectrum_twice n F i). unfold spectrum_entry at 1 in T. unfold zsum in T. fold (entry_of f n) in T.
    assert (T' : fold_right Z.add 0%Z (map (fun k => (sgn (dot n i k) * entry_of f n k)%Z) (seq 0 (2 ^ n))) = (Z.of_nat (2 ^ n) * F i)%Z) by (apply T; lia).
    rewrite T'. unfold F. destruct (tab f i); cbn [z_of_bool]; ring.
Qed.

Lemma spectrum_entries f n : fitting f -> adicity f <= n -> walsh_spectrum f (TtArity n) = Ok (map (entry_of f n) (range (2 ^ n))).
Proof. apply walsh_spectrum_spec. Qed.
