(** Props_Binary: properties C01 (binary conversions, Binv) and C02 (evil and odious). *)

From Coq Require Import List Arith ZArith Bool Lia Permutation Sorted.
From Verif Require Import Model_Base Model_Binary Spec_Bits Lib Proof_Binary.
Import ListNotations.

(** * C01 *)

Theorem C01_exposet : forall n,
  StronglySorted lt (int_to_exposet n) /\
  (forall i, In i (int_to_exposet n) <-> Nat.testbit n i = true) /\
  exposet_to_int (int_to_exposet n) = n.
Proof. intro n. exact (conj (proj1 (int_to_exposet_spec n)) (conj (proj2 (int_to_exposet_spec n)) (exposet_roundtrip n))). Qed.

Theorem C01_exposet_back : forall s, NoDup s ->
  (forall i, Nat.testbit (exposet_to_int s) i = true <-> In i s) /\
  Permutation (int_to_exposet (exposet_to_int s)) s.
Proof.
  intros s H. split.
  - intro i. rewrite exposet_to_int_testbit by exact H. apply memb_In.
  - rewrite exposet_back by exact H. symmetry. apply sort_nat_perm.
Qed.

(** digit i of the number of a binary vector is its entry i *)
Theorem C01_vector : forall v i,
  Nat.testbit (vector_to_int v) i = nth i v false /\
  Nat.testbit (binv_intval v) i = nth i v false /\
  binv_has_index v i = nth i v false.
Proof.
  intros v i. rewrite vector_to_int_eq, has_index_spec, binv_intval_eq, testbit_b2n. auto.
Qed.

Theorem C01_weight : forall n v,
  int_to_weight n = count_ones n /\ binv_weight v = count_ones (binv_intval v).
Proof. intros n v. exact (conj (int_to_weight_eq n) (binv_weight_eq v)). Qed.

(** without a length: the number is kept and the vector has no superfluous entry *)
Theorem C01_Binv_intval : forall n, exists v, Binv_intval n None = Ok v /\ binv_intval v = n /\
  forall l, length v <= l <-> n < 2 ^ l.
Proof.
  intro n. destruct (Binv_int_min n) as [v [E [H1 H2]]]. exists v. split; [exact E|]. split; [exact H1|].
  intro l. rewrite H2. apply binary_length_spec.
Qed.

Theorem C01_Binv_length : forall n l, n < 2 ^ l -> l <> 0 ->
  exists v, Binv_intval n (Some l) = Ok v /\ binv_intval v = n /\ length v = l.
Proof. exact Binv_int_len. Qed.

Lemma C01_Binv_length_zero : Binv_intval 0 (Some 0) = Ok [false].
Proof. reflexivity. Qed.

Theorem C01_Binv_length_rejected : forall n l, 2 ^ l <= n -> Binv_intval n (Some l) = Err BinvLengthError.
Proof. exact Binv_int_reject. Qed.

Theorem C01_Binv_minimal_length : forall n l, l <> 0 ->
  exists v, Binv None (Some (Z.of_nat n)) None None (Some l) = Ok v /\ binv_intval v = n /\ l <= length v /\
    (n < 2 ^ l -> length v = l) /\ (2 ^ l <= n -> forall l', length v <= l' <-> n < 2 ^ l').
Proof.
  intros n l Hl. destruct (Binv_int_minlen n l Hl) as [v [E [H1 H2]]]. exists v. split; [exact E|]. split; [exact H1|].
  split; [lia|]. split.
  - intro H. apply binary_length_spec in H. lia.
  - intros H l'. rewrite H2, <- binary_length_spec. assert (~ binary_length n <= l) by (rewrite binary_length_spec; lia). lia.
Qed.

(** The code computes the needed length with a floating point logarithm.  Whatever that
    function [bl] returns, an accepted call yields the right digits; it decides only
    which lengths are accepted.  (From 2^48-1 on CPython's value is too large, so that
    an exactly sufficient length is rejected.) *)
Theorem C01_Binv_any_logarithm : forall bl n l,
  (l < bl n -> Binv_with bl None (Some (Z.of_nat n)) None (Some l) None = Err BinvLengthError) /\
  (bl n <= l -> exists v, Binv_with bl None (Some (Z.of_nat n)) None (Some l) None = Ok v /\
     binv_intval v = n /\ (n < 2 ^ l -> l <> 0 -> length v = l)).
Proof. exact Binv_any_log. Qed.

Theorem C01_Binv_negative : forall z l m, (z < 0)%Z -> Binv None (Some z) None l m = Err IntvalError.
Proof. intros z l m H. unfold Binv, Binv_with. rewrite (proj2 (Z.leb_gt _ _) H). reflexivity. Qed.

(** back from the attributes of a Binv to the Binv *)
Theorem C01_Binv_roundtrip : forall v,
  (v <> [] -> Binv_intval (binv_intval v) (Some (length v)) = Ok v) /\
  Binv_exposet (binv_exposet v) (Some (length v)) = Ok v /\
  Binv_vector (map (fun b : bool => if b then 1%Z else 0%Z) v) = Ok v.
Proof. intro v. exact (conj (Binv_vec_int v) (conj (Binv_vec_exposet v) (Binv_vector_bool v))). Qed.

Theorem C01_Binv_vector_rejected : forall v e, In e v -> e <> 0%Z -> e <> 1%Z ->
  Binv_vector v = Err VectorEntryError.
Proof. exact Binv_vector_reject. Qed.

Theorem C01_exposet_attribute : forall v,
  StronglySorted lt (binv_exposet v) /\ forall i, In i (binv_exposet v) <-> Nat.testbit (binv_intval v) i = true.
Proof.
  intro v. split; [exact (binv_exposet_sorted v)|]. intro i. rewrite binv_exposet_In, binv_intval_eq, testbit_b2n. reflexivity.
Qed.

Theorem C01_Binv_exposet : forall s,
  (forall l, (forall i, In i s -> i < l) ->
     exists v, Binv_exposet s (Some l) = Ok v /\ length v = l /\ forall i, nth i v false = true <-> In i s) /\
  (forall l i, In i s -> l <= i -> Binv_exposet s (Some l) = Err BinvLengthError) /\
  (exists v, Binv_exposet s None = Ok v /\ (forall i, nth i v false = true <-> In i s) /\
     forall l, length v <= l <-> forall i, In i s -> i < l).
Proof.
  intro s. split; [|split].
  - intros l H. destruct (Binv_exposet_len s l H) as [v [E [Hl Hn]]]. exists v. split; [exact E|]. split; [exact Hl|].
    intro i. rewrite Hn. apply memb_In.
  - exact (Binv_exposet_reject s).
  - destruct (Binv_exposet_min s) as [v [E [Hn Hl]]]. exists v. split; [exact E|]. split; [intro i; rewrite Hn; apply memb_In|].
    intro l. rewrite Hl. destruct s as [|x s]; [split; [intros _ i [] | lia]|]. split.
    + intros H i Hi. apply list_max_nat_ge in Hi. lia.
    + intro H. assert (Hm := H _ (list_max_nat_In (x :: s) ltac:(discriminate))). lia.
Qed.

Theorem C01_flip_bit : forall v p,
  (p < length v -> exists w, binv_flip_bit v p = Ok w /\ length w = length v /\
     binv_intval w = Nat.lxor (binv_intval v) (2 ^ p)) /\
  (length v <= p -> binv_flip_bit v p = Err AssertErr).
Proof.
  intros v p. split; [|apply flip_bit_reject]. intro H. destruct (flip_bit_spec v p H) as [w [E [Hl Hn]]].
  exists w. split; [exact E|]. split; [exact Hl|]. apply Nat.bits_inj. intro i.
  rewrite Nat.lxor_spec, !binv_intval_eq, !testbit_b2n, Nat.pow2_bits_eqb, Hn, (Nat.eqb_sym p i).
  destruct (Nat.eqb i p); [rewrite xorb_true_r | rewrite xorb_false_r]; reflexivity.
Qed.

(** changes: number of places whose digit differs from the next one *)
Theorem C01_changes : forall v, binv_changes v =
  length (filter (fun i => xorb (Nat.testbit (binv_intval v) i) (Nat.testbit (binv_intval v) (S i)))
                 (seq 0 (length v - 1))).
Proof.
  intro v. rewrite changes_spec. f_equal. apply filter_ext. intro i. rewrite binv_intval_eq, !testbit_b2n. reflexivity.
Qed.

Theorem C01_bitwise : forall op a b,
  (length a <= length b -> exists r, binv_bitwise op a b = Ok r /\ length r = length a /\
     forall i, i < length a -> nth i r false = op (nth i a false) (nth i b false)) /\
  (length b < length a -> binv_bitwise op a b = Err IndexErr).
Proof. intros op a b. exact (conj (bitwise_ok op a b) (bitwise_short op a b)). Qed.

Theorem C01_bitwise_smaller : forall a b, length a = length b ->
  exists r, binv_bitwise_smaller a b = Ok r /\
    (r = true <-> a <> b /\ submask (binv_intval a) (binv_intval b)).
Proof.
  intros a b H. destruct (bitwise_smaller_spec a b H) as [r [E Hr]]. exists r. split; [exact E|]. rewrite Hr.
  unfold submask. split; intros [H1 H2]; (split; [exact H1|]); intros i Hi.
  - rewrite binv_intval_eq, testbit_b2n in *. auto.
  - specialize (H2 i). rewrite !binv_intval_eq, !testbit_b2n in H2. auto.
Qed.

(** the smallest number of places that holds all true entries *)
Theorem C01_required_length : forall v n,
  binv_required_length v <= n <-> forall i, n <= i -> nth i v false = false.
Proof. exact required_length_spec. Qed.

Theorem C01_complement : forall v,
  length (binv_complement v) = length v /\ binv_intval (binv_complement v) + binv_intval v + 1 = 2 ^ length v.
Proof. intro v. split; [apply map_length | apply complement_val]. Qed.

(** [<] is decided at the first different place; a proper prefix is smaller *)
Theorem C01_order : forall a b,
  (binv_lt a b = true <->
   exists i, firstn i a = firstn i b /\ i < length b /\
     (i = length a \/ (i < length a /\ nth i a false = false /\ nth i b false = true))) /\
  (binv_le a b = true <-> a = b \/ binv_lt a b = true).
Proof.
  intros a b. split; [apply binv_lt_spec|]. unfold binv_le. rewrite orb_true_iff, bvec_eqb_eq. reflexivity.
Qed.

Example C01_ex : int_to_exposet 74 = [1; 3; 6] /\ exposet_to_int [6; 1; 3] = 74 /\ NoDup [6; 1; 3] /\
  Binv_intval 5 (Some 4) = Ok [true; false; true; false] /\ 5 < 2 ^ 4 /\
  Binv_intval 5 (Some 2) = Err BinvLengthError /\ 2 ^ 2 <= 5 /\
  Binv_exposet [3; 1] None = Ok [false; true; false; true] /\
  binv_flip_bit [true; false; true] 1 = Ok [true; true; true] /\
  binv_changes [true; false; true; true] = 2 /\
  binv_bitwise xorb [true; true] [true; false; true] = Ok [false; true] /\
  binv_bitwise_smaller [false; true] [true; true] = Ok true /\
  binv_required_length [false; true; false] = 2 /\ binv_complement [true; false; false] = [false; true; true] /\
  binv_lt [true; false] [true; true; false] = true /\ binv_lt [true; false] [true; false; false] = true.
Proof.
  assert (NoDup [6; 1; 3]) by (repeat constructor; cbn; intuition congruence).
  repeat split; try assumption; try reflexivity; cbn; lia.
Qed.

(** * C02 *)

Theorem C02_evil : forall i : nat, exists e,
  index_to_evil (Z.of_nat i) = Ok e /\ evil e /\ evil_to_index (Z.of_nat e) = Ok i.
Proof. intro i. destruct (evil_index i) as [e [H1 [H2 [_ H3]]]]. exists e. auto. Qed.

Theorem C02_odious : forall i : nat, exists e,
  index_to_odious (Z.of_nat i) = Ok e /\ odious e /\ odious_to_index (Z.of_nat e) = Ok i.
Proof. intro i. destruct (odious_index i) as [e [H1 [H2 [_ H3]]]]. exists e. auto. Qed.

Theorem C02_evil_onto : forall e, evil e ->
  exists i, evil_to_index (Z.of_nat e) = Ok i /\ index_to_evil (Z.of_nat i) = Ok e.
Proof. exact evil_back. Qed.

Theorem C02_odious_onto : forall e, odious e ->
  exists i, odious_to_index (Z.of_nat e) = Ok i /\ index_to_odious (Z.of_nat i) = Ok e.
Proof. exact odious_back. Qed.

Theorem C02_increasing : forall (i j : nat) a b, i < j ->
  (index_to_evil (Z.of_nat i) = Ok a -> index_to_evil (Z.of_nat j) = Ok b -> a < b) /\
  (index_to_odious (Z.of_nat i) = Ok a -> index_to_odious (Z.of_nat j) = Ok b -> a < b).
Proof. intros i j a b H. exact (conj (evil_mono i j a b H) (odious_mono i j a b H)). Qed.

Theorem C02_rejected : forall e : nat,
  (odious e -> evil_to_index (Z.of_nat e) = Err ArgValueError) /\
  (evil e -> odious_to_index (Z.of_nat e) = Err ArgValueError).
Proof. intro e. exact (conj (evil_reject e) (odious_reject e)). Qed.

Theorem C02_negative : forall z, (z < 0)%Z ->
  index_to_evil z = Err ArgValueError /\ index_to_odious z = Err ArgValueError /\
  evil_to_index z = Err ArgValueError /\ odious_to_index z = Err ArgValueError.
Proof. exact evil_negative. Qed.

Example C02_ex : map (fun i => index_to_evil (Z.of_nat i)) [0; 1; 2; 3; 4] = map Ok [0; 3; 5; 6; 9] /\
  map (fun i => index_to_odious (Z.of_nat i)) [0; 1; 2; 3; 4] = map Ok [1; 2; 4; 7; 8] /\ evil 6 /\ odious 7.
Proof. repeat split. Qed.

Print Assumptions C01_exposet.
Print Assumptions C01_exposet_back.
Print Assumptions C01_vector.
Print Assumptions C01_weight.
Print Assumptions C01_Binv_intval.
Print Assumptions C01_Binv_length.
Print Assumptions C01_Binv_length_rejected.
Print Assumptions C01_Binv_minimal_length.
Print Assumptions C01_Binv_any_logarithm.
Print Assumptions C01_Binv_negative.
Print Assumptions C01_Binv_roundtrip.
Print Assumptions C01_Binv_vector_rejected.
Print Assumptions C01_exposet_attribute.
Print Assumptions C01_Binv_exposet.
Print Assumptions C01_flip_bit.
Print Assumptions C01_changes.
Print Assumptions C01_bitwise.
Print Assumptions C01_bitwise_smaller.
Print Assumptions C01_required_length.
Print Assumptions C01_complement.
Print Assumptions C01_order.
Print Assumptions C02_evil.
Print Assumptions C02_odious.
Print Assumptions C02_evil_onto.
Print Assumptions C02_odious_onto.
Print Assumptions C02_increasing.
Print Assumptions C02_rejected.
Print Assumptions C02_negative.
