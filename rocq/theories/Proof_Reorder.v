(** Proof_Reorder: [sort_together] and [reorder_if_atomvals_not_asc]. *)

From Coq Require Import List Arith ZArith Bool Lia Sorted Permutation.
From Verif Require Import Model_Base Lib Model_Binary Model_Perm Model_SigPerm Model_WalshPerm Model_Boolf Spec_Bits Spec_Perm Spec_WalshPerm Spec_Boolf
  Proof_Binary Proof_Helpers Proof_Numbers Proof_Perm Proof_PermGroup Proof_Inversions Proof_Listing Proof_SigPerm
  Proof_WalshLinear Proof_WalshPerm Proof_WalshOps Proof_Deflate.
Import ListNotations.
Open Scope nat_scope.

(** * Sorting *)

Lemma sorted_map_fst l : StronglySorted (fun a b => pair_leb a b = true) l -> StronglySorted le (map fst l).
Proof.
  induction 1 as [|x l Hs IH Hf]; cbn [map]; constructor; [exact IH|]. apply Forall_forall. intros y Hy.
  apply in_map_iff in Hy as [z [<- Hz]]. rewrite Forall_forall in Hf. specialize (Hf z Hz). unfold pair_leb in Hf.
  rewrite orb_true_iff, andb_true_iff, Nat.ltb_lt, Nat.eqb_eq, Nat.leb_le in Hf. lia.
Qed.

Lemma map_fst_combine {A B} (a : list A) (b : list B) : length a = length b -> map fst (combine a b) = a.
Proof. revert b; induction a as [|x a IH]; intros [|y b] H; try discriminate H; cbn; [reflexivity|]. f_equal. apply IH. injection H; auto. Qed.
Lemma map_snd_combine {A B} (a : list A) (b : list B) : length a = length b -> map snd (combine a b) = b.
Proof. revert b; induction a as [|x a IH]; intros [|y b] H; try discriminate H; cbn; [reflexivity|]. f_equal. apply IH. injection H; auto. Qed.

Lemma sort_together_spec av : exists r, sort_together av (range (length av)) = Ok (sort_nat av, r) /\
  Permutation r (range (length av)) /\ length r = length av /\
  forall k, k < length av -> nth k (sort_nat av) 0 = nth (nth k r 0) av 0.
Proof.
  unfold sort_together. rewrite range_length, Nat.eqb_refl. cbn [true_except bind].
  set (c := combine av (range (length av))). set (s := isort pair_leb c).
  assert (P : Permutation c s) by apply isort_perm.
  assert (Hl : length av = length (range (length av))) by (rewrite range_length; reflexivity).
  assert (Hs : map fst s = sort_nat av).
  { rewrite <- (sort_nat_id (map fst s)) by (apply sorted_map_fst, isort_sorted; [apply pair_leb_total | apply pair_leb_trans]).
    apply sort_nat_eq_iff. rewrite <- P. unfold c. rewrite (map_fst_combine _ _ Hl). reflexivity. }
  assert (Hr : Permutation (map snd s) (range (length av))).
  { rewrite <- P. unfold c. rewrite (map_snd_combine _ _ Hl). reflexivity. }
  assert (Hn : length s = length av) by (rewrite <- P; unfold c; rewrite combine_length, range_length; apply Nat.min_id).
  exists (map snd s). rewrite Hs. split; [reflexivity|]. split; [exact Hr|]. split; [rewrite map_length; exact Hn|].
  intros k Hk. rewrite <- Hs.
  assert (E1 : nth k (map fst s) 0 = fst (nth k s (0, 0))) by apply (map_nth fst s (0, 0) k).
  assert (E2 : nth k (map snd s) 0 = snd (nth k s (0, 0))) by apply (map_nth snd s (0, 0) k).
  rewrite E1, E2.
  assert (Hin : In (nth k s (0, 0)) c) by (rewrite P; apply nth_In; lia).
  unfold c in Hin. rewrite (combine_nth_seq av (range (length av)) 0 0 Hl) in Hin. apply in_map_iff in Hin as [i [E Hi]].
  apply in_seq in Hi. rewrite nth_range in E by lia. rewrite <- E. reflexivity.
Qed.

(** * Bit permutations *)

Lemma xor_single_f (f : nat -> bool) (h : nat -> bool) n k : k < n -> (forall j, j < n -> h j = Nat.eqb k j) ->
  xor_all (map (fun j => h j && f j) (seq 0 n)) = f k.
Proof.
  intros Hk Hh. rewrite (xor_all_ext _ (fun j => Nat.eqb k j && f j)); [apply xor_all_single; exact Hk|].
  intros j Hj. apply in_seq in Hj. rewrite Hh by lia. reflexivity.
Qed.

Section BitPerm.
  Variables (n : nat) (P Q : nat -> nat).
  Hypothesis PQ : forall x, P (Q x) = x.
  Hypothesis QP : forall x, Q (P x) = x.
  Hypothesis Plt : forall x, x < n -> P x < n.
  Hypothesis Pge : forall x, n <= x -> P x = x.

  Lemma Qlt x : x < n -> Q x < n.
  Proof. intro H. destruct (Nat.lt_ge_cases (Q x) n) as [|Hge]; [assumption|]. apply Pge in Hge. rewrite PQ in Hge. lia. Qed.
  Lemma Qge x : n <= x -> Q x = x.
  Proof. intro H. rewrite <- (Pge x H) at 1. apply QP. Qed.

  Definition pmat (i j : nat) : bool := Nat.eqb i (P j).

  Lemma pmat_row i j : pmat i j = Nat.eqb (Q i) j.
  Proof.
    unfold pmat. destruct (Nat.eqb_spec i (P j)) as [->|H]; symmetry; [apply Nat.eqb_eq, QP|]. apply Nat.eqb_neq. intros <-. apply H. symmetry. apply PQ.
  Qed.

  Lemma pmat_invertible : invertible n pmat.
  Proof.
    exists (fun i j => Nat.eqb (P i) j). intros i j Hi Hj. unfold mat_mat, mat_vec. split.
    - rewrite (xor_single_f (fun k => Nat.eqb (P k) j) (fun k => pmat i k) n (Q i)); [rewrite PQ; reflexivity | apply Qlt; exact Hi |].
      intros k Hk. apply pmat_row.
    - rewrite (xor_single_f (fun k => pmat k j) (fun k => Nat.eqb (P i) k) n (P i)); [|apply Plt; exact Hi | reflexivity].
      rewrite pmat_row, QP. reflexivity.
  Qed.

  Lemma pmat_acts v i : Nat.testbit (full n pmat v) i = Nat.testbit v (Q i).
  Proof.
    rewrite (full_acts n pmat v i). destruct (Nat.ltb_spec i n) as [H|H]; [|rewrite Qge by exact H; reflexivity].
    unfold mat_vec. apply (xor_single_f (Nat.testbit v) (fun k => pmat i k)); [apply Qlt; exact H|]. intros; apply pmat_row.
  Qed.

  (** the transpose of the reduced matrix is its inverse *)
  Lemma transpose_is_inverse w : valid w (full n pmat) -> inverse_at transpose_inv (w_degree w) (w_matrix w).
  Proof.
    intros Hv. assert (Hent : forall i j, ent (full n pmat) i j = Nat.eqb (Q i) j).
    { intros i j. unfold ent. rewrite pmat_acts, testbit_pow. apply Nat.eqb_sym. }
    destruct Hv as [[-> H] | [d [b [H [Hi Ha]]]]].
    - eexists. split; [reflexivity|]. split; [split; [reflexivity | intros row []] | intros i j Hi; cbn in Hi; lia].
    - rewrite (ww_matrix _ _ _ H), (ww_degree _ _ _ H). eexists. split; [reflexivity|].
      destruct (acts_ent d d b (full n pmat) Ha (le_n d)) as [Hg _].
      assert (Hb : forall i j, i < d -> j < d -> b i j = Nat.eqb (Q i) j).
      { intros i j Hi' Hj. rewrite <- Hent, Hg. unfold grow. rewrite (proj2 (Nat.ltb_lt i d) Hi'), (proj2 (Nat.ltb_lt j d) Hj). reflexivity. }
      assert (HQ : forall i, i < d -> Q i < d).
      { intros i Hi'. destruct (Nat.lt_ge_cases (Q i) d) as [|Hge]; [assumption|]. assert (E := Hent i (Q i)). rewrite Nat.eqb_refl in E.
        rewrite Hg in E. unfold grow in E. rewrite (proj2 (Nat.ltb_ge (Q i) d) Hge), andb_false_r in E. apply Nat.eqb_eq in E. lia. }
      assert (Hlen : length (mk d b) = d) by (unfold mk; rewrite map_length; apply range_length).
      rewrite Hlen. split.
      + split; [unfold transpose_matrix; rewrite map_length; apply range_length|]. intros row Hrow. unfold transpose_matrix in Hrow.
        apply in_map_iff in Hrow as [m [<- _]]. rewrite map_length. apply range_length.
      + intros i j Hi' Hj.
        assert (E : forall k, k < d -> (nth k (nth i (mk d b) []) 0 * nth j (nth k (transpose_matrix d (mk d b)) []) 0)%Z
          = z_of_bool (Nat.eqb (Q i) k && Nat.eqb (Q j) k)).
        { intros k Hk. rewrite nth_mk by assumption. unfold transpose_matrix.
          rewrite (nth_map_range (fun m => map (fun n0 => mat_entry (mk d b) n0 m) (range d))) by exact Hk.
          rewrite (nth_map_range (fun n0 => mat_entry (mk d b) n0 k)) by exact Hj. unfold mat_entry. rewrite nth_mk by assumption.
          rewrite !Hb by assumption. destruct (Q i =? k), (Q j =? k); reflexivity. }
        rewrite (map_ext_in _ (fun k => z_of_bool (Nat.eqb (Q i) k && Nat.eqb (Q j) k))) by (intros k Hk; apply in_seq in Hk; apply E; lia).
        destruct (Nat.eqb_spec i j) as [<-|Hne].
        * rewrite (map_ext _ (fun k => z_of_bool (Nat.eqb (Q i) k))) by (intro k; destruct (Q i =? k); reflexivity).
          apply (sum01_one (fun k => Nat.eqb (Q i) k) d (Q i)); [apply HQ; exact Hi' | apply Nat.eqb_refl |].
          intros k Hk. apply Nat.eqb_sym.
        * apply (sum01_zero (fun k => Nat.eqb (Q i) k && Nat.eqb (Q j) k)). intros k _.
          destruct (Nat.eqb_spec (Q i) k) as [Ei|]; [|reflexivity]. destruct (Nat.eqb_spec (Q j) k) as [Ej|]; [|reflexivity].
          exfalso. apply Hne. rewrite <- (PQ i), <- (PQ j). congruence.
  Qed.
End BitPerm.

(** * Reordering *)

(** what numpy.linalg.inv may be for the reordering *)
Definition inverts_perms (linv : zmat -> res (option zmat)) : Prop := exact_inverse linv \/ linv = transpose_inv.

Lemma reorder_spec linv v av : inverts_perms linv -> length v = 2 ^ length av ->
  exists r, Permutation r (range (length av)) /\ length r = length av /\
    (forall k, k < length av -> nth k (sort_nat av) 0 = nth (nth k r 0) av 0) /\
    (av = sort_nat av -> reorder_with linv v av = Ok (v, av)) /\
    (av <> sort_nat av -> exists v', reorder_with linv v av = Ok (v', sort_nat av) /\ length v' = length v /\
       forall e, table v' (sort_nat av) e = table v (map (fun i => nth i (sort_nat av) 0) r) e).
Proof.
  intros Hlinv Hv. set (n := length av) in *. destruct (sort_together_spec av) as [r [Est [Hr [Hrl Hrn]]]]. fold n in Est, Hr, Hrl, Hrn.
  exists r. split; [exact Hr|]. split; [exact Hrl|]. split; [exact Hrn|]. unfold reorder_with. split; intro Hs.
  { rewrite <- Hs. rewrite (proj2 (list_eqb_eq av av) eq_refl). reflexivity. }
  destruct (list_eqb av (sort_nat av)) eqn:Eb; [apply list_eqb_eq in Eb; contradiction|]. clear Eb. fold n. cbv zeta.
  rewrite Est. cbn [bind snd fst].
  destruct (Perm_seq_spec r) as [p [Ep [Hp [_ Hg]]]]; [rewrite Hrl; exact Hr|]. rewrite Ep. cbn [bind].
  destruct (pinv_spec p Hp) as [q [Eq [Hq [QP [PQ _]]]]]. rewrite Eq. cbn [bind].
  rewrite Hrl in Hg.
  assert (Hrk : forall k, k < n -> nth k r 0 < n).
  { intros k Hk. apply range_In. rewrite <- Hr. apply nth_In. lia. }
  assert (Plt : forall x, x < n -> pget p x < n).
  { intros x Hx. rewrite Hg, (proj2 (Nat.ltb_lt x n) Hx). apply Hrk. exact Hx. }
  assert (Pge : forall x, n <= x -> pget p x = x).
  { intros x Hx. rewrite Hg, (proj2 (Nat.ltb_ge x n) Hx). reflexivity. }
  destruct (papply_spec q (map (fun i => 2 ^ i) (range n)) Hq) as [bv [Ebv [Hbl Hbn]]].
  { rewrite map_length, range_length. apply (Qlt n (pget p) (pget q)); assumption. }
  rewrite map_length, range_length in Hbl, Hbn.
  assert (Hbv : forall k, k < n -> nth k bv 0 = 2 ^ pget p k).
  { intros k Hk. specialize (Hbn (pget p k) (Plt k Hk)). rewrite QP in Hbn.
    rewrite (nth_error_nth' bv 0) in Hbn by lia. rewrite (nth_error_nth' (map (fun i => 2 ^ i) (range n)) 0) in Hbn by (rewrite map_length, range_length; apply Plt; exact Hk).
    injection Hbn as Hbn. rewrite Hbn. apply (nth_map_range (fun i => 2 ^ i)). apply Plt. exact Hk. }
  rewrite Ebv. cbn [bind].
  rewrite of_vector_eq.
  2:{ intros x Hx. apply (In_nth _ _ 0) in Hx as [k [Hk <-]]. rewrite Hbl in *. rewrite Hbv by exact Hk. apply pow_lt. apply Plt. exact Hk. }
  rewrite Hbl. rewrite (mk_ext n (colbits bv) (pmat (pget p))).
  2:{ intros i j Hi Hj. unfold colbits, pmat. rewrite Hbv by exact Hj. rewrite testbit_pow. apply Nat.eqb_sym. }
  destruct (of_matrix_ok n (pmat (pget p)) (full n (pmat (pget p))) false) as [w [Ew [Hw _]]].
  { apply (pmat_invertible n (pget p) (pget q)); assumption. } { apply full_acts. }
  rewrite Ew. cbn [bind].
  assert (Hia : inverse_at linv (w_degree w) (w_matrix w)).
  { destruct Hlinv as [Hl | ->].
    - destruct (valid_matrix_binary w _ Hw) as [H1 H2]. apply (Hl _ _ H1 H2).
    - apply (transpose_is_inverse n (pget p) (pget q)); assumption. }
  destruct (inverse_at_spec linv w _ Hia Hw) as [wi [g [Ei [Hwi [Hfg Hgf]]]]].
  assert (Hbits : forall x k, Nat.testbit (g x) k = Nat.testbit x (pget p k)).
  { intros x k. rewrite <- (Hfg x) at 2. rewrite (pmat_acts n (pget p) (pget q)) by assumption. rewrite QP. reflexivity. }
  assert (Hglt : forall x, x < 2 ^ n -> g x < 2 ^ n).
  { intros x Hx. apply bits_lt_pow. intros k Hk. rewrite Hbits, Pge by exact Hk. apply (testbit_high x k).
    apply (Nat.lt_le_trans _ (2 ^ n)); [exact Hx | apply Nat.pow_le_mono_r; lia]. }
  unfold walsh_apply. rewrite Ei. cbn [bind]. rewrite Hv.
  rewrite (mapM_ok _ (fun i => nth (g i) v false)).
  2:{ intros i Hi. apply range_In in Hi. rewrite (valid_map wi g Hwi i). cbn [bind]. apply lget_ok. rewrite Hv. apply Hglt. exact Hi. }
  cbn [bind]. eexists. split; [reflexivity|]. split; [rewrite map_length; apply range_length|].
  intro e. unfold table. set (s := sort_nat av). assert (Hsl : length s = n) by apply sort_nat_length.
  assert (Hlt : b2n (map e s) < 2 ^ n) by (assert (H := b2n_lt (map e s)); rewrite map_length, Hsl in H; exact H).
  rewrite (nth_map_range (fun i => nth (g i) v false)) by exact Hlt. f_equal.
  apply Nat.bits_inj. intro k. rewrite Hbits, !testbit_b2n.
  rewrite Hg. destruct (Nat.ltb_spec k n) as [Hk|Hk].
  - assert (Hrk' := Hrk k Hk).
    rewrite (nth_indep _ false (e 0)) by (rewrite map_length, Hsl; exact Hrk'). rewrite map_nth.
    rewrite (nth_indep (map e (map _ r)) false (e ((fun i => nth i s 0) 0))) by (rewrite !map_length, Hrl; exact Hk).
    rewrite map_nth, (map_nth (fun i => nth i s 0)). reflexivity.
  - rewrite !nth_overflow by (rewrite !map_length; lia). reflexivity.
Qed.
