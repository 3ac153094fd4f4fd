(** Proof_Fission: parts of a vector by the bits of the place at chosen dimensions. *)

From Coq Require Import List Arith ZArith Bool Lia Permutation Sorted.
From Verif Require Import Model_Base Lib Model_Binary Model_Determinant Model_WalshPerm Model_Splits Model_Perm Model_Boolf Model_BoolfMore Model_MinRep Model_Segments Model_Helpers Model_Hyper Model_Layers.
From Verif Require Import Spec_Bits Spec_Boolf Spec_Twin Spec_Splits Spec_Segments Spec_Layers Proof_Binary Proof_Numbers Proof_Helpers Proof_Boolf Proof_Deflate Proof_Noble Proof_Splits Proof_Layers.
Import ListNotations.
Open Scope nat_scope.

(** * Order and bits *)

Lemma lt_by_bit x y k : Nat.testbit x k = false -> Nat.testbit y k = true -> (forall h, k < h -> Nat.testbit x h = Nat.testbit y h) -> x < y.
Proof.
  intros Hx Hy H. assert (E : x / 2 ^ S k = y / 2 ^ S k).
  { apply Nat.bits_inj. intro i. rewrite !Nat.div_pow2_bits. apply H. lia. }
  assert (P := pow2_pos k). assert (Px : x mod 2 ^ S k < 2 ^ k).
  { apply bits_lt_pow. intros i Hi. destruct (Nat.eq_dec i k) as [->|]; [rewrite Nat.mod_pow2_bits_low by lia; exact Hx | apply Nat.mod_pow2_bits_high; lia]. }
  assert (Py : 2 ^ k <= y mod 2 ^ S k).
  { destruct (Nat.lt_ge_cases (y mod 2 ^ S k) (2 ^ k)) as [L|L]; [|exact L]. exfalso. apply (testbit_high _ k) in L. rewrite Nat.mod_pow2_bits_low in L by lia. congruence. }
  assert (Dx := Nat.div_mod x (2 ^ S k)). assert (Dy := Nat.div_mod y (2 ^ S k)). assert (2 ^ S k <> 0) by (apply Nat.pow_nonzero; lia). rewrite E in Dx. lia.
Qed.
Lemma lt_bit x y : x < y -> exists k, Nat.testbit x k = false /\ Nat.testbit y k = true /\ forall h, k < h -> Nat.testbit x h = Nat.testbit y h.
Proof.
  intro L. assert (N : Nat.lxor x y <> 0) by (intro E; apply Nat.lxor_eq in E; lia).
  set (k := Nat.log2 (Nat.lxor x y)). assert (Hk : xorb (Nat.testbit x k) (Nat.testbit y k) = true) by (rewrite <- Nat.lxor_spec; apply Nat.bit_log2; exact N).
  assert (Hh : forall h, k < h -> Nat.testbit x h = Nat.testbit y h) by (intros h H; apply xorb_eq; rewrite <- Nat.lxor_spec; apply Nat.bits_above_log2; exact H).
  exists k. destruct (Nat.testbit x k) eqn:Ex, (Nat.testbit y k) eqn:Ey; cbn in Hk; try discriminate; [exfalso | auto].
  assert (y < x) by (apply (lt_by_bit y x k Ey Ex); intros h H; symmetry; auto). lia.
Qed.

(** * Places from the bits in two sets of dimensions *)

Section Dims.
Variables (n : nat) (dims : list nat).
Hypotheses (Nd : NoDup dims) (Ld : forall d, In d dims -> d < n).

Let rest := others n dims.
Definition dim_rest : nat := length rest.

Lemma others_In k : In k rest <-> k < n /\ ~ In k dims.
Proof.
  unfold rest, others. rewrite filter_In, in_seq, negb_true_iff. split.
  - intros [H E]. split; [lia|]. intro Hi. assert (X : existsb (Nat.eqb k) dims = true) by (apply existsb_exists; exists k; split; [exact Hi | apply Nat.eqb_refl]). congruence.
  - intros [H E]. split; [lia|]. destruct (existsb (Nat.eqb k) dims) eqn:X; [|reflexivity]. apply existsb_exists in X as (j & Hj & Ej). apply Nat.eqb_eq in Ej. subst. contradiction.
Qed.
Lemma others_asc : ascending rest.
Proof. apply Proof_Deflate.filter_sorted. apply range_sorted_lt. Qed.
Lemma others_NoDup : NoDup rest.
Proof. apply sorted_lt_NoDup, others_asc. Qed.
Lemma others_length : length dims + length rest = n.
Proof.
  rewrite <- app_length. rewrite <- (seq_length n 0). apply Permutation_length. apply NoDup_Permutation.
  - apply Proof_SetPartLattice.NoDup_app_intro'; [exact Nd | apply others_NoDup|]. intros x H1 H2. apply others_In in H2. tauto.
  - apply seq_NoDup.
  - intro x. rewrite in_app_iff, others_In, in_seq. split; [intros [H|[H _]]; [specialize (Ld x H)|]; lia|]. intros [_ H]. destruct (in_dec Nat.eq_dec x dims); auto.
Qed.

Definition join (i j : nat) : nat :=
  b2n (map (fun k => if memb k dims then Nat.testbit i (posn dims k) else Nat.testbit j (posn rest k)) (range n)).

Lemma join_lt i j : join i j < 2 ^ n.
Proof. unfold join. eapply Nat.lt_le_trans; [apply b2n_lt|]. rewrite map_length, range_length. lia. Qed.
Lemma join_bit i j k : k < n -> Nat.testbit (join i j) k = if memb k dims then Nat.testbit i (posn dims k) else Nat.testbit j (posn rest k).
Proof. intro H. unfold join. rewrite testbit_table. rewrite (proj2 (Nat.ltb_lt _ _) H). reflexivity. Qed.

Lemma proj_bit keys p t : t < length keys -> Nat.testbit (proj keys p) t = Nat.testbit p (nth t keys 0).
Proof. intro H. unfold proj. rewrite testbit_b2n. rewrite (nth_indep (map _ _) false (Nat.testbit p 0)) by (rewrite map_length; exact H). rewrite map_nth. reflexivity. Qed.
Lemma proj_lt keys p : proj keys p < 2 ^ length keys.
Proof. unfold proj. rewrite <- (map_length (Nat.testbit p) keys). apply b2n_lt. Qed.
Lemma proj_unique keys p j : bits_at keys p j -> j = proj keys p.
Proof.
  intros [L H]. apply Nat.bits_inj. intro t. destruct (Nat.lt_ge_cases t (length keys)) as [Ht|Ht]; [rewrite proj_bit by exact Ht; apply H; exact Ht|].
  rewrite !testbit_high; [reflexivity | |]; (eapply Nat.lt_le_trans; [|apply Nat.pow_le_mono_r; [|exact Ht]; lia]); [apply proj_lt | exact L].
Qed.
Lemma proj_bits_at keys p : bits_at keys p (proj keys p).
Proof. split; [apply proj_lt | intros t Ht; apply proj_bit; exact Ht]. Qed.

Lemma proj_join_dims i j : i < 2 ^ length dims -> proj dims (join i j) = i.
Proof.
  intro Hi. symmetry. apply proj_unique. split; [exact Hi|]. intros t Ht. assert (Hin := nth_In dims 0 Ht). rewrite join_bit by (apply Ld; exact Hin). rewrite (proj2 (memb_In _ _) Hin), posn_nth by assumption. reflexivity.
Qed.
Lemma proj_join_rest i j : j < 2 ^ length rest -> proj rest (join i j) = j.
Proof.
  intro Hj. symmetry. apply proj_unique. split; [exact Hj|]. intros t Ht. assert (Hin := nth_In rest 0 Ht). assert (X := Hin). apply others_In in X as [X1 X2]. rewrite join_bit by exact X1.
  destruct (memb (nth t rest 0) dims) eqn:E; [apply memb_In in E; contradiction|]. rewrite posn_nth by (apply others_NoDup || exact Ht). reflexivity.
Qed.
Lemma join_proj p : p < 2 ^ n -> join (proj dims p) (proj rest p) = p.
Proof.
  intro Hp. apply Nat.bits_inj. intro k. destruct (Nat.lt_ge_cases k n) as [Hk|Hk].
  - rewrite join_bit by exact Hk. destruct (memb k dims) eqn:E.
    + apply memb_In in E. rewrite proj_bit by (apply posn_lt; exact E). rewrite nth_posn by exact E. reflexivity.
    + assert (H : In k rest) by (apply others_In; split; [exact Hk|]; intro H; apply memb_In in H; congruence). rewrite proj_bit by (apply posn_lt; exact H). rewrite nth_posn by exact H. reflexivity.
  - rewrite !testbit_high; [reflexivity | |]; (eapply Nat.lt_le_trans; [|apply Nat.pow_le_mono_r; [|exact Hk]; lia]); [exact Hp | apply join_lt].
Qed.

Lemma join_mono i j j' : j < j' -> j' < 2 ^ length rest -> join i j < join i j'.
Proof.
  intros L L'. destruct (lt_bit j j' L) as (s & H0 & H1 & Hh). assert (Hs : s < length rest) by exact (testbit_lt_pow j' s _ L' H1).
  assert (Hin := nth_In rest 0 Hs). assert (X := Hin). apply others_In in X as [X1 X2].
  assert (E : memb (nth s rest 0) dims = false) by (destruct (memb _ dims) eqn:E; [apply memb_In in E; contradiction | reflexivity]).
  apply (lt_by_bit _ _ (nth s rest 0)).
  - rewrite join_bit, E, posn_nth by (exact X1 || apply others_NoDup || exact Hs). exact H0.
  - rewrite join_bit, E, posn_nth by (exact X1 || apply others_NoDup || exact Hs). exact H1.
  - intros h Hlt. destruct (Nat.lt_ge_cases h n) as [Hk|Hk].
    + rewrite !join_bit by exact Hk. destruct (memb h dims) eqn:Eh; [reflexivity|]. apply Hh.
      assert (Hr : In h rest) by (apply others_In; split; [exact Hk|]; intro H; apply memb_In in H; congruence).
      destruct (Nat.lt_ge_cases s (posn rest h)) as [|Hge]; [assumption|]. exfalso.
      assert (Y : nth (posn rest h) rest 0 <= nth s rest 0).
      { destruct (Nat.eq_dec (posn rest h) s) as [->|Hne]; [lia|]. apply Nat.lt_le_incl. apply (proj1 (Proof_Helpers.sorted_nth rest 0) others_asc); lia. }
      rewrite nth_posn in Y by exact Hr. lia.
    + rewrite !testbit_high; [reflexivity | |]; (eapply Nat.lt_le_trans; [apply join_lt|]; apply Nat.pow_le_mono_r; lia).
Qed.

Lemma part_places i : i < 2 ^ length dims -> filter (fun p => Nat.eqb (proj dims p) i) (range (2 ^ n)) = map (join i) (range (2 ^ length rest)).
Proof.
  intro Hi. apply sorted_lt_ext.
  - apply Proof_Deflate.filter_sorted, range_sorted_lt.
  - apply (proj2 (Proof_Helpers.sorted_nth _ 0)). rewrite map_length, range_length. intros a b Hab Hb. rewrite !(nth_indep (map _ _) 0 (join i 0)) by (rewrite map_length, range_length; lia). rewrite !map_nth, !nth_range by lia. apply join_mono; assumption.
  - intro p. rewrite filter_In, range_In, Nat.eqb_eq, in_map_iff. split.
    + intros [Hp <-]. exists (proj rest p). split; [apply join_proj; exact Hp | apply range_In, proj_lt].
    + intros (j & <- & Hj). apply range_In in Hj. split; [apply join_lt | apply proj_join_dims; exact Hi].
Qed.

(** ** vector_zip_apart and vector_zip_together *)

Lemma zip_dims {A} (F : nat -> A) pattern : length pattern = 2 ^ n -> (forall p, p < 2 ^ n -> nth p pattern 0 = proj dims p) ->
  vector_zip_apart (map F (range (2 ^ n))) pattern = Ok (map (fun i => map (fun j => F (join i j)) (range (2 ^ length rest))) (range (2 ^ length dims))).
Proof.
  intros Hl Hp. assert (P2 := pow2_pos n). assert (Pd := pow2_pos (length dims)).
  assert (Hlen : length (map F (range (2 ^ n))) = length pattern) by (rewrite map_length, range_length; lia).
  assert (Hne : pattern <> []) by (intros ->; cbn in Hl; lia).
  destruct (zip_apart_spec _ pattern Hlen Hne) as (rows & E & Lr & Nr). rewrite E. f_equal.
  assert (Hmax : S (list_max_nat pattern) = 2 ^ length dims).
  { assert (U : list_max_nat pattern < 2 ^ length dims).
    { apply list_max_nat_lt; [exact Hne|]. intros x Hx. apply (In_nth _ _ 0) in Hx as (p & Hpl & <-). rewrite Hp by lia. apply proj_lt. }
    assert (V : 2 ^ length dims - 1 <= list_max_nat pattern); [|lia]. apply list_max_nat_ge. rewrite <- (proj_join_dims (2 ^ length dims - 1) 0) by lia. rewrite <- Hp by apply join_lt. apply nth_In. rewrite Hl. apply join_lt. }
  apply (nth_ext _ _ [] []); [rewrite map_length, range_length; lia|]. intros i Hi. rewrite Lr, Hmax in Hi. rewrite Nr.
  rewrite (nth_indep (map _ _) [] ((fun i => map (fun j => F (join i j)) (range (2 ^ length rest))) 0)) by (rewrite map_length, range_length; exact Hi).
  rewrite (map_nth (fun i => map (fun j => F (join i j)) (range (2 ^ length rest)))), nth_range by exact Hi.
  unfold picks. destruct pattern as [|p0 ps] eqn:Ep; [congruence|]. rewrite <- Ep in *. clear Ep.
  rewrite (Proof_Deflate.combine_nth_seq _ pattern (F 0) 0 Hlen), map_length, range_length, Proof_Deflate.filter_map_comm, map_map. cbn [fst snd].
  change (seq 0 (2 ^ n)) with (range (2 ^ n)). rewrite (filter_ext_in _ (fun p => Nat.eqb (proj dims p) i)) by (intros p Hr; apply range_In in Hr; rewrite Hp by exact Hr; reflexivity).
  rewrite part_places, map_map by exact Hi. apply map_ext. intro j. assert (J := join_lt i j). rewrite (map_nth F), nth_range by exact J. reflexivity.
Qed.

Lemma zip_dims_back {A} (G : nat -> nat -> A) pattern : length pattern = 2 ^ n -> (forall p, p < 2 ^ n -> nth p pattern 0 = proj dims p) ->
  vector_zip_together (map (fun i => map (G i) (range (2 ^ length rest))) (range (2 ^ length dims))) pattern = Ok (map (fun p => G (proj dims p) (proj rest p)) (range (2 ^ n))).
Proof.
  intros Hl Hp. assert (Hne : pattern <> []) by (intros ->; cbn in Hl; assert (X := pow2_pos n); lia).
  destruct (zip_roundtrip (map (fun p => G (proj dims p) (proj rest p)) (range (2 ^ n))) pattern) as (rows & E & E'); [rewrite map_length, range_length; lia | exact Hne|].
  rewrite zip_dims in E by assumption. injection E as E. rewrite <- E' . f_equal. rewrite <- E. apply map_ext_in. intros i Hi. apply range_In in Hi. apply map_ext_in. intros j Hj. apply range_In in Hj.
  rewrite proj_join_dims, proj_join_rest by assumption. reflexivity.
Qed.
End Dims.
