(** Proof_WalshPerm: the constructor of WalshPerm and its objects. *)

From Coq Require Import List Arith ZArith Bool Lia Permutation.
From Verif Require Import Model_Base Lib Model_Perm Model_Binary Model_SigPerm Model_WalshPerm Spec_Bits Spec_Perm Spec_WalshPerm
  Proof_Binary Proof_Linear Proof_Perm Proof_PermGroup Proof_SigPerm Proof_WalshLinear.
Import ListNotations.
Open Scope nat_scope.

(** * Matrices as lists *)

Lemma Binv_vector_odd (l : list Z) : (forall z, In z l -> z = 0%Z \/ z = 1%Z) -> Binv_vector l = Ok (map Z.odd l).
Proof.
  intro H. unfold Binv_vector, Binv, Binv_with.
  assert (E : forallb (fun e => Z.eqb e 0 || Z.eqb e 1) l = true).
  { apply forallb_forall. intros z Hz. destruct (H z Hz) as [-> | ->]; reflexivity. }
  rewrite E. cbn [true_except bind]. f_equal. apply map_ext_in. intros z Hz. destruct (H z Hz) as [-> | ->]; reflexivity.
Qed.

Lemma odd_z_of_bool q : Z.odd (z_of_bool q) = q.
Proof. destruct q; reflexivity. Qed.

Lemma z_of_bool_01 q : z_of_bool q = 0%Z \/ z_of_bool q = 1%Z.
Proof. destruct q; auto. Qed.

Lemma Binv_vector_z (l : list bool) : Binv_vector (map z_of_bool l) = Ok l.
Proof.
  rewrite Binv_vector_odd.
  - f_equal. rewrite map_map. rewrite <- (map_id l) at 2. apply map_ext. exact odd_z_of_bool.
  - intros z Hz. apply in_map_iff in Hz. destruct Hz as [q [<- _]]. apply z_of_bool_01.
Qed.

Lemma map_nth_seq_eq {A} (l : list A) d : map (fun i => nth i l d) (seq 0 (length l)) = l.
Proof.
  apply nth_ext with (d := d) (d' := d); rewrite map_length, seq_length; [reflexivity|]. intros k Hk.
  exact (nth_map_range (fun i => nth i l d) (length l) k d Hk).
Qed.

Definition mk (n : nat) (b : nat -> nat -> bool) : zmat := map (fun i => map (fun j => z_of_bool (b i j)) (range n)) (range n).

Lemma binary_mk n b : binary_matrix n (mk n b).
Proof.
  split; [unfold mk; rewrite map_length, range_length; reflexivity|]. intros row H. apply in_map_iff in H.
  destruct H as [i [<- _]]. split; [rewrite map_length, range_length; reflexivity|]. intros z Hz. apply in_map_iff in Hz.
  destruct Hz as [j [<- _]]. apply z_of_bool_01.
Qed.

Lemma nth_mk n b i j : i < n -> j < n -> nth j (nth i (mk n b) []) 0%Z = z_of_bool (b i j).
Proof.
  intros Hi Hj. unfold mk. rewrite (nth_map_range (fun i => map (fun j => z_of_bool (b i j)) (range n))) by exact Hi.
  rewrite (nth_map_range (fun j => z_of_bool (b i j))) by exact Hj. reflexivity.
Qed.

Lemma bit_mk n b i j : i < n -> j < n -> bit_entry (mk n b) i j = b i j.
Proof. intros Hi Hj. unfold bit_entry. rewrite nth_mk by assumption. apply odd_z_of_bool. Qed.

Lemma binary_nth n m i j : binary_matrix n m -> i < n -> j < n -> nth j (nth i m []) 0%Z = z_of_bool (bit_entry m i j).
Proof.
  intros [Hl Hr] Hi Hj. unfold bit_entry. destruct (Hr (nth i m [])) as [H1 H2]; [apply nth_In; lia|].
  destruct (H2 (nth j (nth i m []) 0%Z)) as [-> | ->]; [apply nth_In; lia | reflexivity | reflexivity].
Qed.

Lemma binary_eq n m : binary_matrix n m -> m = mk n (bit_entry m).
Proof.
  intros H. assert (H0 := H). destruct H0 as [Hl Hr]. apply nth_ext with (d := []) (d' := []).
  - unfold mk. rewrite map_length, range_length. exact Hl.
  - intros i Hi. rewrite Hl in Hi. destruct (Hr (nth i m [])) as [H1 _]; [apply nth_In; lia|].
    unfold mk. rewrite (nth_map_range (fun i => map (fun j => z_of_bool (bit_entry m i j)) (range n))) by exact Hi.
    apply nth_ext with (d := 0%Z) (d' := 0%Z).
    + rewrite map_length, range_length. exact H1.
    + intros j Hj. rewrite H1 in Hj. rewrite (nth_map_range (fun j => z_of_bool (bit_entry m i j))) by exact Hj.
      apply binary_nth with (n := n); assumption.
Qed.

Lemma mk_ext n a b : (forall i j, i < n -> j < n -> a i j = b i j) -> mk n a = mk n b.
Proof.
  intro H. unfold mk. apply map_range_ext. intros i Hi. apply map_range_ext. intros j Hj. rewrite H by assumption. reflexivity.
Qed.

Lemma removelast_map_range {A} (f : nat -> A) n : removelast (map f (range (S n))) = map f (range n).
Proof. unfold range. rewrite seq_S, map_app. cbn [map]. apply removelast_last. Qed.

Lemma mk_shrink n b : map (@removelast Z) (removelast (mk (S n) b)) = mk n b.
Proof.
  unfold mk at 1. rewrite removelast_map_range, map_map. unfold mk. apply map_ext. intro i. apply removelast_map_range.
Qed.

(** * Sums of zeros and ones *)

Lemma zsum_right l : zsum l = fold_right Z.add 0%Z l.
Proof. unfold zsum. rewrite <- fold_symmetric; [reflexivity | intros; lia | intros; lia]. Qed.

Lemma sum01_nonneg (f : nat -> bool) l : (0 <= fold_right Z.add 0 (map (fun j => z_of_bool (f j)) l))%Z.
Proof. induction l as [|i l IH]; cbn [map fold_right]; [lia|]. destruct (f i); cbn [z_of_bool]; lia. Qed.

Lemma sum01_zero (f : nat -> bool) l : fold_right Z.add 0%Z (map (fun j => z_of_bool (f j)) l) = 0%Z <-> forall j, In j l -> f j = false.
Proof.
  induction l as [|i l IH]; cbn [map fold_right]; [split; [intros _ j [] | reflexivity]|].
  assert (H0 := sum01_nonneg f l). split.
  - intros H j [<- | Hj]; destruct (f i); cbn [z_of_bool] in H; try lia; try reflexivity; apply IH; (lia || exact Hj).
  - intro H. rewrite (H i) by (left; reflexivity). cbn [z_of_bool]. rewrite (proj2 IH); [reflexivity|]. intros j Hj. apply H. right. exact Hj.
Qed.

Lemma sum01_one (f : nat -> bool) n k : k < n -> f k = true ->
  (fold_right Z.add 0%Z (map (fun j => z_of_bool (f j)) (seq 0 n)) = 1%Z <-> forall j, j < n -> f j = Nat.eqb j k).
Proof.
  intros Hk Ef. replace n with (k + S (n - S k)) by lia. rewrite seq_app, map_app, fold_right_app. cbn [Nat.add seq map fold_right].
  rewrite Ef. cbn [z_of_bool].
  assert (E : forall l a, fold_right Z.add a (map (fun j => z_of_bool (f j)) l) = (a + fold_right Z.add 0 (map (fun j => z_of_bool (f j)) l))%Z).
  { induction l as [|i l IH]; intro a; cbn [map fold_right]; [lia|]. rewrite IH. lia. }
  rewrite E. assert (H1 := sum01_nonneg f (seq 0 k)). assert (H2 := sum01_nonneg f (seq (S k) (n - S k))).
  assert (Z1 := sum01_zero f (seq 0 k)). assert (Z2 := sum01_zero f (seq (S k) (n - S k))).
  remember (fold_right Z.add 0%Z (map (fun j : nat => z_of_bool (f j)) (seq 0 k))) as s1.
  remember (fold_right Z.add 0%Z (map (fun j : nat => z_of_bool (f j)) (seq (S k) (n - S k)))) as s2. split.
  - intros H j Hj. destruct (Nat.eq_dec j k) as [->|Hne]; [rewrite Nat.eqb_refl; exact Ef|].
    rewrite (proj2 (Nat.eqb_neq j k) Hne). destruct (Nat.lt_ge_cases j k).
    + apply Z1; [lia|]. apply in_seq. lia.
    + apply Z2; [lia|]. apply in_seq. lia.
  - intro H. replace s1 with 0%Z by (symmetry; apply Z1; intros j Hj; apply in_seq in Hj; rewrite H by lia; apply Nat.eqb_neq; lia).
    replace s2 with 0%Z by (symmetry; apply Z2; intros j Hj; apply in_seq in Hj; rewrite H by lia; apply Nat.eqb_neq; lia). reflexivity.
Qed.

(** * shrink_matrix *)

Lemma mat_col_mk n b j : j < n -> mat_col (mk n b) j = map (fun i => z_of_bool (b i j)) (range n).
Proof.
  intro Hj. unfold mat_col, mk. rewrite map_map. apply map_range_ext. intros i Hi.
  apply (nth_map_range (fun j => z_of_bool (b i j))). exact Hj.
Qed.

Lemma mat_row_mk n b i : i < n -> nth i (mk n b) [] = map (fun j => z_of_bool (b i j)) (range n).
Proof. intro Hi. unfold mk. apply (nth_map_range (fun i => map (fun j => z_of_bool (b i j)) (range n))). exact Hi. Qed.

Lemma corner_test n b : let m := mk (S n) b in let corner := nth n (nth n m []) 0%Z in
  Z.eqb (zsum (nth n m [])) (zsum (mat_col m n)) && Z.eqb (zsum (mat_col m n)) corner && Z.eqb corner 1 = true
  <-> loose (S n) b.
Proof.
  intros m corner. subst m corner. rewrite mat_col_mk, nth_mk, mat_row_mk by lia.
  rewrite !andb_true_iff, !Z.eqb_eq, !zsum_right. unfold loose. replace (S n - 1) with n by lia.
  rewrite <- Nat.add_1_r in *. rewrite Nat.add_1_r. split.
  - intros [[H1 H2] H3]. destruct (b n n) eqn:E; [|discriminate H3]. cbn [z_of_bool] in *. rewrite H2 in H1. intros i Hi. split.
    + apply (proj1 (sum01_one (fun i => b i n) (S n) n ltac:(lia) E)); [exact H2 | exact Hi].
    + rewrite Nat.eqb_sym. apply (proj1 (sum01_one (fun i => b n i) (S n) n ltac:(lia) E)); [exact H1 | exact Hi].
  - intro H. assert (E : b n n = true) by (rewrite (proj1 (H n ltac:(lia))); apply Nat.eqb_refl).
    rewrite E. cbn [z_of_bool].
    assert (H1 : fold_right Z.add 0%Z (map (fun j => z_of_bool (b n j)) (seq 0 (S n))) = 1%Z).
    { apply (sum01_one (fun j => b n j) (S n) n ltac:(lia) E). intros j Hj. rewrite Nat.eqb_sym. apply (H j Hj). }
    assert (H2 : fold_right Z.add 0%Z (map (fun j => z_of_bool (b j n)) (seq 0 (S n))) = 1%Z).
    { apply (sum01_one (fun j => b j n) (S n) n ltac:(lia) E). intros j Hj. apply (H j Hj). }
    unfold range. rewrite H1, H2. auto.
Qed.

Lemma shrink_loop_spec n b :
  (shrink_loop n (mk n b) = Err IsNeutralFail /\ forall i j, i < n -> j < n -> 0 < i \/ 0 < j -> b i j = Nat.eqb i j) \/
  (exists d, shrink_loop n (mk n b) = Ok (mk d b, d) /\ 2 <= d <= n /\
     (forall i j, i < n -> j < n -> b i j = grow d b i j) /\ ~ loose d b).
Proof.
  induction n as [|n IH].
  - left. split; [reflexivity|]. intros; lia.
  - destruct n as [|n].
    { left. split; [reflexivity|]. intros; lia. }
    cbn [shrink_loop]. assert (C := corner_test (S n) b). cbv zeta in C.
    destruct (_ && _ && _) eqn:E.
    + clear E. assert (E := proj1 C eq_refl). rewrite mk_shrink. unfold loose in E. replace (S (S n) - 1) with (S n) in E by lia.
      destruct IH as [[H1 H2] | [d [H1 [H2 [H3 H4]]]]].
      * left. split; [exact H1|]. intros i j Hi Hj Hij.
        destruct (Nat.eq_dec i (S n)) as [->|]; [apply E; exact Hj|].
        destruct (Nat.eq_dec j (S n)) as [->|]; [apply E; exact Hi|]. apply H2; lia.
      * right. exists d. split; [exact H1|]. split; [lia|]. split; [|exact H4]. intros i j Hi Hj.
        destruct (Nat.eq_dec i (S n)) as [->|].
        { unfold grow. rewrite (proj2 (Nat.ltb_ge (S n) d)) by lia. apply E. exact Hj. }
        destruct (Nat.eq_dec j (S n)) as [->|].
        { unfold grow. rewrite (proj2 (Nat.ltb_ge (S n) d)) by lia. rewrite andb_false_r. apply E. exact Hi. }
        apply H3; lia.
    + right. exists (S (S n)). split; [reflexivity|]. split; [lia|]. split.
      * intros i j Hi Hj. unfold grow. rewrite (proj2 (Nat.ltb_lt _ _) Hi), (proj2 (Nat.ltb_lt _ _) Hj). reflexivity.
      * intro Hl. discriminate (proj2 C Hl).
Qed.

Lemma shrink_matrix_mk n b : shrink_matrix (mk n b) = shrink_loop n (mk n b).
Proof.
  unfold shrink_matrix. assert (Hl : length (mk n b) = n) by (unfold mk; rewrite map_length, range_length; reflexivity).
  rewrite Hl. destruct n as [|[|n]]; [reflexivity | reflexivity|].
  assert (Hr : forall row, In row (mk (S (S n)) b) -> length row = S (S n)) by (intros row H; apply (binary_mk (S (S n)) b); exact H).
  assert (Hh : length (hd [] (mk (S (S n)) b)) = S (S n)).
  { apply Hr. destruct (mk (S (S n)) b); [discriminate | left; reflexivity]. }
  rewrite Hh. rewrite (proj2 (Nat.ltb_lt 1 (S (S n) * S (S n)))) by lia. cbn [true_except bind].
  replace (forallb _ _) with true; [reflexivity|]. symmetry. apply forallb_forall. intros row H. apply Nat.eqb_eq, Hr. exact H.
Qed.

(** * Vectors *)

Definition rowv (n : nat) (b : nat -> nat -> bool) (i : nat) : nat := b2n (map (b i) (range n)).

Lemma testbit_rowv n b i j : Nat.testbit (rowv n b i) j = (j <? n) && b i j.
Proof.
  unfold rowv. rewrite testbit_b2n. destruct (Nat.ltb_spec j n) as [H|H]; cbn [andb].
  - apply nth_map_range. exact H.
  - apply nth_overflow. rewrite map_length, range_length. exact H.
Qed.

Lemma matrix_to_vector_mk n b by_row : matrix_to_vector (mk n b) by_row = Ok (map (rowv n (if by_row : bool then b else tr b)) (range n)).
Proof.
  unfold matrix_to_vector. assert (Hl : length (mk n b) = n) by (unfold mk; rewrite map_length, range_length; reflexivity).
  rewrite Hl. apply mapM_ok. intros i Hi. apply range_In in Hi. destruct by_row.
  - rewrite mat_row_mk by exact Hi. rewrite <- (map_map (b i) z_of_bool), Binv_vector_z. cbn [bind]. rewrite binv_intval_eq. reflexivity.
  - rewrite mat_col_mk by exact Hi. rewrite <- (map_map (fun k => b k i) z_of_bool), Binv_vector_z. cbn [bind]. rewrite binv_intval_eq. reflexivity.
Qed.

Lemma dget_enumerate (l : list nat) k : dget (enumerate l) k = nth_error l k.
Proof.
  assert (Hn : NoDup (dkeys (enumerate l))) by (unfold dkeys; rewrite enumerate_keys; apply range_NoDup).
  destruct (nth_error l k) as [v|] eqn:E.
  - apply dget_iff; [exact Hn|]. apply enumerate_In. exact E.
  - apply dget_None. unfold dkeys. rewrite enumerate_keys, range_In. apply nth_error_None in E. lia.
Qed.

Lemma dget_filter (f : nat * nat -> bool) d k : NoDup (dkeys d) ->
  dget (filter f d) k = match dget d k with Some v => if f (k, v) then Some v else None | None => None end.
Proof.
  intro Hn. assert (Hf : NoDup (dkeys (filter f d))) by (apply NoDup_map_filter; exact Hn).
  destruct (dget d k) as [v|] eqn:E.
  - apply dget_In in E. destruct (f (k, v)) eqn:Ef.
    + apply dget_iff; [exact Hf|]. apply filter_In. auto.
    + apply dget_None. intro Hc. apply in_map_iff in Hc. destruct Hc as [[k' v'] [Ek Hc]]. cbn [fst] in Ek. subst k'.
      apply filter_In in Hc. destruct Hc as [Hc1 Hc2].
      assert (v' = v). { apply (dget_iff d k v' Hn) in Hc1. apply (dget_iff d k v Hn) in E. congruence. }
      subst v'. congruence.
  - apply dget_None. apply dget_None in E. intro Hc. apply E. apply in_map_iff in Hc. destruct Hc as [[k' v'] [Ek Hc]].
    apply filter_In in Hc. apply in_map_iff. exists (k', v'). tauto.
Qed.

Definition canonical (v : dict) : Prop := NoDup (dkeys v) /\ forall k y, dget v k = Some y -> y <> 2 ^ k.

Lemma Vector_canonical l : canonical (Vector l).
Proof.
  assert (Hn : NoDup (dkeys (enumerate l))) by (unfold dkeys; rewrite enumerate_keys; apply range_NoDup).
  split; [apply NoDup_map_filter; exact Hn|]. intros k y H. unfold Vector in H. rewrite dget_filter in H by exact Hn.
  destruct (dget (enumerate l) k) as [v|]; [|discriminate]. cbn [fst snd] in H. destruct (Nat.eqb_spec (2 ^ k) v); cbn [negb] in H; congruence.
Qed.

Lemma Vector_get_eq l k : Vector_get (Vector l) k = if k <? length l then nth k l 0 else 2 ^ k.
Proof.
  unfold Vector_get, Vector. rewrite dget_filter by (unfold dkeys; rewrite enumerate_keys; apply range_NoDup).
  rewrite dget_enumerate. destruct (Nat.ltb_spec k (length l)) as [H|H].
  - rewrite (nth_error_nth' l 0 H). cbn [fst snd]. destruct (Nat.eqb_spec (2 ^ k) (nth k l 0)); cbn [negb]; congruence.
  - rewrite (proj2 (nth_error_None l k) H). reflexivity.
Qed.

Lemma canonical_eq u v : canonical u -> canonical v ->
  (dict_eqb u v = true <-> forall k, Vector_get u k = Vector_get v k).
Proof.
  intros [Hu Hu'] [Hv Hv']. rewrite dict_eqb_spec by assumption. unfold Vector_get. split; intros H k; specialize (H k).
  - rewrite H. reflexivity.
  - destruct (dget u k) as [y|] eqn:Eu, (dget v k) as [z|] eqn:Ev; try congruence.
    + apply Hu' in Eu. contradiction.
    + apply Hv' in Ev. symmetry in H. contradiction.
Qed.

Lemma Vector_length_le v d : canonical v -> (forall k, d <= k -> Vector_get v k = 2 ^ k) -> Vector_length v <= d.
Proof.
  intros [Hn Hc] H. unfold Vector_length. destruct v as [|kv v'] eqn:E; [lia|]. rewrite <- E in *.
  assert (Hm : In (list_max_nat (dkeys v)) (dkeys v)) by (apply list_max_nat_In; rewrite E; discriminate).
  destruct (dget_key v _ Hm) as [y Hy]. destruct (Nat.lt_ge_cases (list_max_nat (dkeys v)) d) as [|Hge]; [lia|].
  specialize (H _ Hge). unfold Vector_get in H. rewrite Hy in H. apply Hc in Hy. contradiction.
Qed.

(** * Objects *)

Record wfw (w : walsh) (d : nat) (b : nat -> nat -> bool) : Prop := {
  ww_neutral : w_neutral w = false;
  ww_degree : w_degree w = d;
  ww_two : 2 <= d;
  ww_matrix : w_matrix w = mk d b;
  ww_vcanon : canonical (w_vector w);
  ww_vec : forall k i, Nat.testbit (Vector_get (w_vector w) k) i = grow d b i k;
  ww_tcanon : canonical (w_transpose w);
  ww_tr : forall k i, Nat.testbit (Vector_get (w_transpose w) k) i = grow d b k i;
  ww_tight : ~ loose d b
}.

Lemma Vector_rows n d a b : d <= n -> (forall i j, i < n -> j < n -> a i j = grow d b i j) ->
  forall k i, Nat.testbit (Vector_get (Vector (map (rowv n a) (range n))) k) i = grow d b k i.
Proof.
  intros Hd H k i. rewrite Vector_get_eq, map_length, range_length. destruct (Nat.ltb_spec k n) as [Hk|Hk].
  - rewrite nth_map_range by exact Hk. rewrite testbit_rowv. destruct (Nat.ltb_spec i n) as [Hi|Hi]; cbn [andb].
    + apply H; assumption.
    + unfold grow. rewrite (proj2 (Nat.ltb_ge i d)) by lia. rewrite andb_false_r. symmetry. apply Nat.eqb_neq. lia.
  - rewrite testbit_pow. unfold grow. rewrite (proj2 (Nat.ltb_ge k d)) by lia. reflexivity.
Qed.

Lemma grow_tr d b i j : grow d (tr b) i j = grow d b j i.
Proof. unfold grow, tr. rewrite andb_comm, Nat.eqb_sym. reflexivity. Qed.

(** what the constructor makes of a matrix, before the verification *)
Lemma of_matrix_cases n b :
  (forall trust, walsh_of_matrix (mk n b) trust = Ok walsh_neutral) /\
    (forall i j, i < n -> j < n -> 0 < i \/ 0 < j -> b i j = Nat.eqb i j) \/
  exists w d, wfw w d b /\ d <= n /\ (forall i j, i < n -> j < n -> b i j = grow d b i j) /\
    forall trust, walsh_of_matrix (mk n b) trust = if trust : bool then Ok w else let* _ := walsh_mapping w in Ok w.
Proof.
  unfold walsh_of_matrix. rewrite shrink_matrix_mk.
  destruct (shrink_loop_spec n b) as [[H1 H2] | [d [H1 [H2 [H3 H4]]]]]; rewrite H1; cbn [or_neutral].
  - left. split; [reflexivity | exact H2].
  - right. rewrite !matrix_to_vector_mk. cbn [bind fst snd]. eexists. exists d. split; [|split; [lia | split; [exact H3 | reflexivity]]].
    constructor; cbn [w_neutral w_degree w_matrix w_vector w_transpose]; try reflexivity; try apply Vector_canonical; try lia; try assumption.
    + intros k i. rewrite <- grow_tr. apply Vector_rows; [lia|]. intros i' j' Hi Hj. rewrite grow_tr. apply H3; assumption.
    + apply Vector_rows; [lia | exact H3].
Qed.

(** * mapping *)

Lemma mapping_eq w d b : wfw w d b -> walsh_mapping w =
  (guard list_eqb (sort_nat (map (lin d b) (range (2 ^ d)))) (range (2 ^ d)) else InvalidMatrixError ;;
   Ok (filter mvd (enumerate (map (lin d b) (range (2 ^ d)))))).
Proof.
  intro H. unfold walsh_mapping. rewrite (ww_neutral _ _ _ H), (ww_degree _ _ _ H). assert (Hd := ww_two _ _ _ H).
  set (row := fun m => map (fun v => mat_vec d b (Nat.testbit v) m) (range (2 ^ d))).
  rewrite (mapM_ok _ row).
  2: { intros m Hm. apply range_In in Hm.
       assert (Hlt : Vector_get (w_transpose w) m < 2 ^ d).
       { apply bits_lt_pow. intros i Hi. rewrite (ww_tr _ _ _ H). unfold grow. rewrite (proj2 (Nat.ltb_ge i d)) by lia.
         rewrite andb_false_r. apply Nat.eqb_neq. lia. }
       destruct (linear_walsh (Vector_get (w_transpose w) m) d None ltac:(lia) Hlt) as [v [E [Hl Hv]]].
       rewrite E. f_equal. apply nth_ext with (d := false) (d' := false).
       - unfold row. rewrite map_length, range_length. exact Hl.
       - intros k Hk. rewrite Hl in Hk. rewrite Hv by exact Hk. rewrite xorb_false_r. unfold row.
         rewrite (nth_map_range (fun v => mat_vec d b (Nat.testbit v) m)) by exact Hk.
         unfold dot, mat_vec. apply xor_all_ext. intros j Hj. apply in_seq in Hj. rewrite (ww_tr _ _ _ H).
         unfold grow. rewrite (proj2 (Nat.ltb_lt m d)), (proj2 (Nat.ltb_lt j d)) by lia. reflexivity. }
  cbn [bind]. rewrite (mapM_ok _ (lin d b)).
  2: { intros key Hk. apply range_In in Hk. rewrite map_map.
       rewrite <- (map_map (fun m => nth key (row m) false) z_of_bool), Binv_vector_z. cbn [bind]. rewrite binv_intval_eq.
       unfold lin. do 2 f_equal. apply map_ext. intro m. unfold row. apply (nth_map_range (fun v => mat_vec d b (Nat.testbit v) m)). exact Hk. }
  cbn [bind]. rewrite (filter_ext (fun kv => negb (snd kv =? fst kv)) mvd); [reflexivity|].
  intro kv. unfold mvd. try rewrite Nat.eqb_sym. reflexivity.
Qed.

Lemma onto_test d b : list_eqb (sort_nat (map (lin d b) (range (2 ^ d)))) (range (2 ^ d)) = true <-> invertible d b.
Proof. rewrite list_eqb_eq, sort_nat_range, invertible_onto. reflexivity. Qed.

Lemma mapping_reject w d b : wfw w d b -> ~ invertible d b -> walsh_mapping w = Err InvalidMatrixError.
Proof.
  intros H Hn. rewrite (mapping_eq w d b H). destruct (list_eqb _ _) eqn:E; [apply onto_test in E; contradiction | reflexivity].
Qed.

Lemma mapping_accept w d b : wfw w d b -> invertible d b ->
  walsh_mapping w = Ok (filter mvd (enumerate (map (lin d b) (range (2 ^ d))))).
Proof. intros H Hi. rewrite (mapping_eq w d b H), (proj2 (onto_test d b) Hi). reflexivity. Qed.

Lemma view_ok w d b : wfw w d b -> invertible d b ->
  exists p, walsh_perm w = Ok p /\ wf p /\ neutral p = false /\ perilen p = Some (2 ^ d) /\ forall v, pget p v = full d b v.
Proof.
  intros H Hi. unfold walsh_perm. rewrite (ww_neutral _ _ _ H), (mapping_accept w d b H Hi). cbn [bind]. rewrite (ww_degree _ _ _ H).
  set (l := map (lin d b) (range (2 ^ d))). assert (Hd := ww_two _ _ _ H).
  assert (Hp0 : 2 ^ d <> 0) by (apply Nat.pow_nonzero; lia).
  assert (Hlen : length l = 2 ^ d) by (unfold l; rewrite map_length, range_length; reflexivity).
  assert (Hkeys : dkeys (enumerate l) = range (2 ^ d)) by (unfold dkeys; rewrite enumerate_keys, Hlen; reflexivity).
  assert (Hnd : NoDup (dkeys (enumerate l))) by (rewrite Hkeys; apply range_NoDup).
  assert (Hpm : Permutation (dkeys (enumerate l)) (dvals (enumerate l))).
  { rewrite Hkeys. unfold dvals. rewrite enumerate_vals. symmetry. apply invertible_onto. exact Hi. }
  assert (Hact : forall v, ext (filter mvd (enumerate l)) (2 ^ d) v = full d b v).
  { intro v. rewrite ext_filter by assumption. rewrite ext_eq by exact Hp0. unfold full. f_equal. unfold fapp. rewrite dget_enumerate.
    assert (Hv : v mod 2 ^ d < 2 ^ d) by (apply Nat.mod_upper_bound; exact Hp0).
    rewrite (nth_error_nth' l 0) by (rewrite Hlen; exact Hv). unfold l. apply nth_map_range. exact Hv. }
  assert (Hmin : minimal_period (full d b) (2 ^ d)).
  { apply (tight_period d b); [lia | apply full_acts | apply (ww_tight _ _ _ H)]. }
  assert (Hw : wf (mkPerm false (filter mvd (enumerate l)) (Some (2 ^ d)) (2 ^ d))).
  { constructor; cbn [mapping neutral perilen plength].
    - apply wfmap_filter; assumption.
    - split; [discriminate|]. intro E. exfalso. rewrite E in Hact.
      assert (Hid : is_period (full d b) 1) by (intro v; rewrite <- !Hact; unfold ext; cbn; lia).
      destruct (proj2 Hmin 1 ltac:(lia) Hid) as [c Hc].
      assert (2 ^ 1 < 2 ^ d) by (apply pow_lt; lia). cbn in H0. destruct c; nia.
    - split; [reflexivity|]. split.
      { intros k Hk. apply in_map_iff in Hk. destruct Hk as [[k' v'] [Ek Hk]]. apply filter_In in Hk. destruct Hk as [Hk _].
        apply (in_map fst) in Hk. change (map fst (enumerate l)) with (dkeys (enumerate l)) in Hk. rewrite Hkeys, range_In in Hk. subst. exact Hk. }
      split; [reflexivity|]. split; [exact Hp0|]. split.
      + intro v. rewrite !Hact. apply Hmin.
      + intros t Ht Hpt. apply Hmin; [exact Ht|]. intro v. rewrite <- !Hact. apply Hpt. }
  eexists. split; [reflexivity|]. split; [exact Hw|]. split; [reflexivity|]. split; [reflexivity|].
  intro v. rewrite pget_act by exact Hw. apply Hact.
Qed.

(** every valid object, the neutral one included *)
Definition valid (w : walsh) (f : nat -> nat) : Prop :=
  (w = walsh_neutral /\ forall v, f v = v) \/ (exists d b, wfw w d b /\ invertible d b /\ acts_as d b f).

Lemma valid_map w f : valid w f -> is_map w f.
Proof.
  intros [[-> H] | [d [b [H [Hi Ha]]]]] v; unfold walsh_get.
  - cbn. rewrite H. reflexivity.
  - destruct (view_ok w d b H Hi) as [p [E [_ [_ [_ Hp]]]]]. rewrite E. cbn [bind]. rewrite Hp. f_equal.
    apply (acts_unique d b); [apply full_acts | exact Ha].
Qed.

Lemma valid_view w f : valid w f -> exists p, walsh_perm w = Ok p /\ wf p /\ (forall v, pget p v = f v) /\
  (neutral p = w_neutral w) /\ perilen p = if w_neutral w then None else Some (2 ^ w_degree w).
Proof.
  intros [[-> H] | [d [b [H [Hi Ha]]]]].
  - exists neutral_perm. split; [reflexivity|]. split; [apply wf_neutral_perm|]. split; [intro v; rewrite H; reflexivity|]. split; reflexivity.
  - destruct (view_ok w d b H Hi) as [p [E [Hw [Hn [Hq Hp]]]]]. exists p. split; [exact E|]. split; [exact Hw|].
    split; [intro v; rewrite Hp; apply (acts_unique d b); [apply full_acts | exact Ha]|].
    rewrite (ww_neutral _ _ _ H), (ww_degree _ _ _ H). auto.
Qed.

Lemma valid_linear w f : valid w f -> linear f.
Proof.
  intros [[-> H] | [d [b [H [Hi Ha]]]]]; [intros u v; rewrite !H; reflexivity | eapply acts_linear; exact Ha].
Qed.

Lemma valid_bijective w f : valid w f -> bijective f.
Proof.
  intros [[-> H] | [d [b [H [Hi Ha]]]]].
  - split; [intros u v; rewrite !H; auto | intro v; exists v; apply H].
  - eapply acts_bijective; eassumption.
Qed.

(** the constructor from a matrix *)
Lemma of_matrix_ok n b f trust : invertible n b -> acts_as n b f ->
  exists w, walsh_of_matrix (mk n b) trust = Ok w /\ valid w f /\ w_degree w <= n.
Proof.
  intros Hi Ha. destruct (of_matrix_cases n b) as [[H1 H2] | [w [d [H [Hd [Hg Hc]]]]]].
  - exists walsh_neutral. split; [apply H1|]. split; [|cbn; lia]. left. split; [reflexivity|].
    assert (Hid : forall i j, i < n -> j < n -> b i j = Nat.eqb i j).
    { intros i j Hi' Hj. destruct (Nat.eq_dec i 0) as [->|]; [|apply H2; lia]. destruct (Nat.eq_dec j 0) as [->|]; [|apply H2; lia].
      destruct (b 0 0) eqn:E; [reflexivity|]. exfalso. destruct Hi as [c Hc]. destruct (Hc 0 0 Hi' Hi') as [Hc1 _].
      unfold mat_mat, mat_vec in Hc1. rewrite xor_all_zero in Hc1; [discriminate|]. intros j Hj'. apply in_seq in Hj'.
      destruct (Nat.eq_dec j 0) as [->|Hne]; [rewrite E; reflexivity|]. rewrite H2 by lia.
      replace (0 =? j) with false by (symmetry; apply Nat.eqb_neq; lia). reflexivity. }
    intro v. apply (acts_unique n b f (fun v => v) Ha). intros u i. destruct (Nat.ltb_spec i n) as [Hi'|]; [|reflexivity].
    rewrite (mat_vec_ext n b Nat.eqb _ (Nat.testbit u)); [symmetry; apply mat_vec_one; exact Hi' | intros j Hj; apply Hid; assumption | reflexivity].
  - exists w. assert (Had : acts_as d b f).
    { apply (acts_grow d n b f Hd). eapply acts_ext; [exact Hg | exact Ha]. }
    assert (Hid : invertible d b).
    { apply (invertible_grow d n b Hd). apply (invertible_ext n b); [exact Hg | exact Hi]. }
    split; [rewrite Hc; destruct trust; [reflexivity | rewrite (mapping_accept w d b H Hid); reflexivity]|].
    split; [right; exists d, b; auto | rewrite (ww_degree _ _ _ H); exact Hd].
Qed.

Lemma of_matrix_reject n b : ~ invertible n b -> (exists i j, i < n /\ j < n /\ (0 < i \/ 0 < j) /\ b i j <> Nat.eqb i j) ->
  walsh_of_matrix (mk n b) false = Err InvalidMatrixError.
Proof.
  intros Hi [i [j [Hi' [Hj' [Hij Hne]]]]]. destruct (of_matrix_cases n b) as [[H1 H2] | [w [d [H [Hd [Hg Hc]]]]]].
  - exfalso. apply Hne, H2; assumption.
  - rewrite Hc, (mapping_reject w d b H); [reflexivity|]. intro Hinv. apply Hi.
    apply (invertible_ext n (grow d b)); [intros; symmetry; apply Hg; assumption|]. apply invertible_grow; assumption.
Qed.

Lemma of_matrix_inv n b w : walsh_of_matrix (mk n b) false = Ok w ->
  (w = walsh_neutral /\ forall i j, i < n -> j < n -> 0 < i \/ 0 < j -> b i j = Nat.eqb i j) \/ invertible n b.
Proof.
  intro E. destruct (of_matrix_cases n b) as [[H1 H2] | [w' [d [H [Hd [Hg Hc]]]]]].
  - left. rewrite H1 in E. injection E as <-. auto.
  - right. rewrite Hc in E. apply bind_ok in E. destruct E as [m [Em _]].
    assert (Hinv : invertible d b).
    { apply onto_test. rewrite (mapping_eq w' d b H) in Em. apply guard_ok in Em. apply Em. }
    apply (invertible_ext n (grow d b)); [intros; symmetry; apply Hg; assumption|].
    apply invertible_grow; assumption.
Qed.
