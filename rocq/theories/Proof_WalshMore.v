(** Proof_WalshMore: powers, sequences, permutations as arguments, all obtainable objects. *)

From Coq Require Import List Arith ZArith Bool Lia Permutation.
From Verif Require Import Model_Base Lib Model_Perm Model_Binary Model_SigPerm Model_WalshPerm Spec_Bits Spec_Perm Spec_WalshPerm
  Proof_Binary Proof_Linear Proof_Perm Proof_PermGroup Proof_SigPerm Proof_WalshLinear Proof_WalshPerm Proof_WalshOps Proof_WalshIndex.
Import ListNotations.
Open Scope nat_scope.

(** * Powers *)

Lemma mul_times_spec n r base f g : valid r f -> valid base g ->
  exists w, walsh_mul_times n r base = Ok w /\ valid w (fun v => f (iter g n v)).
Proof.
  revert r f. induction n as [|n IH]; intros r f Hr Hb; cbn [walsh_mul_times].
  - exists r. split; [reflexivity | exact Hr].
  - destruct (mul_spec r base f g Hr Hb) as [p [E Hp]]. rewrite E. cbn [bind]. destruct (IH p _ Hp Hb) as [w [Ew Hw]].
    exists w. split; [exact Ew|]. apply (valid_ext w _ _ Hw). intro v. reflexivity.
Qed.

Lemma iter_inverse f g n : (forall v, f (g v) = v) -> forall v, iter f n (iter g n v) = v.
Proof.
  intro H. assert (C : forall m v, iter f m (f v) = f (iter f m v)) by (induction m as [|m IH]; intro v; cbn [iter]; [|rewrite IH]; reflexivity).
  induction n as [|n IH]; intro v; cbn [iter]; [reflexivity|]. rewrite <- C, H. apply IH.
Qed.

Lemma pow_spec linv w f k : exact_inverse linv -> valid w f ->
  exists r g, walsh_pow linv w k = Ok r /\ valid r g /\
    ((0 <= k)%Z -> forall v, g v = iter f (Z.to_nat k) v) /\
    ((k <= 0)%Z -> forall v, iter f (Z.to_nat (- k)) (g v) = v).
Proof.
  intros Hl H. unfold walsh_pow.
  destruct (Z.eqb_spec k 0) as [->|H0].
  { exists walsh_neutral, (fun v => v). split; [reflexivity|]. split; [left; auto|]. cbn. auto. }
  destruct (Z.eqb_spec k 1) as [->|H1].
  { exists w, f. split; [reflexivity|]. split; [exact H|]. change (Z.to_nat 1) with 1. split; [reflexivity | lia]. }
  destruct (inverse_spec linv w f Hl H) as [r [g [Er [Hr [H2 H3]]]]].
  destruct (Z.eqb_spec k (-1)) as [->|Hm1].
  { exists r, g. split; [exact Er|]. split; [exact Hr|]. split; [lia|]. intros _ v. change (Z.to_nat (- -1)) with 1. apply H2. }
  destruct (Z.ltb_spec 1 k) as [Hk|Hk].
  - destruct (mul_times_spec (Z.to_nat (k - 1)) w w f f H H) as [p [Ep Hp]]. exists p, (iter f (Z.to_nat k)).
    split; [exact Ep|]. split; [|split; [reflexivity | lia]]. apply (valid_ext p _ _ Hp). intro v.
    replace (Z.to_nat k) with (S (Z.to_nat (k - 1))) by lia. reflexivity.
  - rewrite Er. cbn [bind]. destruct (mul_times_spec (Z.to_nat (- k - 1)) r r g g Hr Hr) as [p [Ep Hp]].
    exists p, (iter g (Z.to_nat (- k))). split; [exact Ep|]. split; [|split; [lia|]].
    + apply (valid_ext p _ _ Hp). intro v. replace (Z.to_nat (- k)) with (S (Z.to_nat (- k - 1))) by lia. reflexivity.
    + intros _ v. apply iter_inverse. exact H2.
Qed.

(** * The sequence of a permutation *)

Lemma perm_sequence p : wf p ->
  exists l, psequence p None = Ok l /\ Permutation l (seq 0 (length l)) /\
    length l = match perilen p with Some q => q | None => plength p end /\
    forall i, i < length l -> nth i l 0 = pget p i.
Proof.
  intro H. set (n := match perilen p with Some q => q | None => plength p end).
  assert (Hb : forall v, v < n -> pget p v < n).
  { intros v Hv. destruct (perilen p) as [q|] eqn:E.
    - apply (periodic_bound p q v H E Hv).
    - subst n. assert (W := wf_peri p H). rewrite E in W. rewrite pget_act by exact H. rewrite E. cbn [act]. unfold fapp.
      destruct (dget (mapping p) v) as [y|] eqn:Ey; [|exact Hv].
      assert (Hy : In y (dkeys (mapping p))).
      { apply (wm_incl (mapping p) (wf_map p H)). apply dget_In in Ey. apply (in_map snd) in Ey. exact Ey. }
      rewrite W. destruct (mapping p) as [|kv m] eqn:Em; [destruct Hy|]. apply list_max_nat_ge in Hy. lia. }
  exists (map (pget p) (range n)). rewrite map_length, range_length. split; [reflexivity|]. split; [|split; [reflexivity|]].
  - apply NoDup_Permutation_bis.
    + apply FinFun.Injective_map_NoDup; [exact (proj1 (pget_bij p H)) | apply range_NoDup].
    + rewrite map_length. unfold range. rewrite !seq_length. lia.
    + intros y Hy. apply in_map_iff in Hy. destruct Hy as [v [<- Hv]]. apply range_In in Hv. apply in_seq. split; [lia | apply Hb; exact Hv].
  - intros i Hi. apply (nth_map_range (pget p)). exact Hi.
Qed.

Lemma perm_as_seq p l trust : wf p -> psequence p None = Ok l ->
  WalshPerm None None (Some (WPerm p)) trust = WalshPerm None None (Some (WSeq l)) trust.
Proof.
  intros H E. destruct (perm_sequence p H) as [l' [E' [Hp _]]]. assert (l' = l) by congruence. subst l'.
  unfold WalshPerm, perm_to_matrix. rewrite E. replace (list_eqb (sort_nat l) (range (length l))) with true; [reflexivity|].
  symmetry. apply list_eqb_eq, sort_nat_range. exact Hp.
Qed.

(** * Rejected lists *)

Lemma seq_reject l trust : ~ Permutation l (seq 0 (length l)) -> WalshPerm None None (Some (WSeq l)) trust = Err NotEvenPermutationError.
Proof.
  intro H. unfold WalshPerm, perm_to_matrix. replace (list_eqb (sort_nat l) (range (length l))) with false; [reflexivity|].
  symmetry. apply not_true_iff_false. intro E. apply list_eqb_eq, sort_nat_range in E. contradiction.
Qed.

Lemma seq_length_reject l trust : Permutation l (seq 0 (length l)) -> l <> [] -> (forall k, length l <> 2 ^ k) ->
  WalshPerm None None (Some (WSeq l)) trust = Err PermLengthError.
Proof.
  intros H Hne Hk. unfold WalshPerm, perm_to_matrix. replace (list_eqb (sort_nat l) (range (length l))) with true.
  2: { symmetry. apply list_eqb_eq, sort_nat_range. exact H. }
  cbn [true_except bind]. rewrite (proj2 (Nat.eqb_neq (length l) 0)) by (destruct l; [contradiction | discriminate]). cbn [negb true_except bind].
  unfold is_power_of_two. replace (2 ^ Nat.log2 (length l) =? length l) with false; [rewrite andb_false_r; reflexivity|].
  symmetry. apply Nat.eqb_neq. intro E. apply (Hk (Nat.log2 (length l))). congruence.
Qed.

Lemma seq_ok_cases l w : WalshPerm None None (Some (WSeq l)) false = Ok w -> exists k, Permutation l (seq 0 (2 ^ k)).
Proof.
  intro E. assert (Hp : Permutation l (seq 0 (length l))).
  { apply (sort_nat_range l (length l)). unfold WalshPerm, perm_to_matrix in E.
    destruct (list_eqb (sort_nat l) (range (length l))) eqn:E0; [apply list_eqb_eq in E0; exact E0 | discriminate E]. }
  unfold WalshPerm, perm_to_matrix in E. rewrite (proj2 (list_eqb_eq _ _) (proj2 (sort_nat_range l (length l)) Hp)) in E. cbn [true_except bind] in E.
  destruct (Nat.eqb_spec (length l) 0) as [H0|H0]; cbn [negb true_except bind or_neutral] in E; [discriminate E|].
  destruct (is_power_of_two (length l)) eqn:E2; cbn [true_except bind or_neutral] in E; [|discriminate E].
  unfold is_power_of_two in E2. apply andb_true_iff in E2. destruct E2 as [_ E2]. apply Nat.eqb_eq in E2.
  exists (Nat.log2 (length l)). rewrite E2. exact Hp.
Qed.

(** * All objects *)

Lemma object_valid linv w : exact_inverse linv -> is_Walsh linv w -> exists f, valid w f.
Proof.
  intro Hl. induction 1 as [w E | l w E | n m w Hm E | l w E | p w Hp E | a b w _ [f Ha] _ [g Hb] E | a w _ [f Ha] E | a w _ [f Ha] E | a k w _ [f Ha] E].
  - injection E as <-. exists (fun v => v). left. auto.
  - cbn [WalshPerm] in E. destruct (forallb (fun v => v <? 2 ^ length l) l) eqn:Ef.
    + rewrite of_vector_eq in E by (intros v Hv; rewrite forallb_forall in Ef; apply Nat.ltb_lt, Ef; exact Hv).
      assert (E0 := E). apply of_matrix_inv in E. destruct E as [[-> _] | Hi]; [exists (fun v => v); left; auto|].
      destruct (of_matrix_ok (length l) (colbits l) (full (length l) (colbits l)) false Hi (full_acts _ _)) as [w' [E' [Hw _]]].
      assert (w' = w) by congruence. subst w'. eexists. exact Hw.
    + exfalso. assert (Hex : exists v, In v l /\ 2 ^ length l <= v).
      { clear -Ef. revert Ef. generalize (2 ^ length l). intro c. induction l as [|u l IH]; cbn [forallb]; intro H; [discriminate|].
        apply andb_false_iff in H. destruct H as [H|H]; [exists u; split; [left; reflexivity | apply Nat.ltb_ge; exact H]|].
        destruct (IH H) as [v [H1 H2]]. exists v. split; [right; exact H1 | exact H2]. }
      destruct Hex as [v [H1 H2]]. rewrite (of_vector_reject l false v H1 H2) in E; [discriminate|].
      intros ->. cbn in H1, H2. lia.
  - cbn [WalshPerm] in E. rewrite (binary_eq n m Hm) in E. assert (E0 := E). apply of_matrix_inv in E.
    destruct E as [[-> _] | Hi]; [exists (fun v => v); left; auto|].
    destruct (of_matrix_ok n (bit_entry m) (full n (bit_entry m)) false Hi (full_acts _ _)) as [w' [E' [Hw _]]].
    assert (w' = w) by congruence. subst w'. eexists. exact Hw.
  - destruct (seq_ok_cases l w E) as [k Hk]. destruct (seq_spec k l Hk) as [[_ [w' [f [E' [Hw _]]]]] | [_ E']]; [|congruence].
    assert (w' = w) by congruence. subst w'. exists f. exact Hw.
  - apply is_Perm_wf in Hp. destruct (perm_sequence p Hp) as [l [El _]]. rewrite (perm_as_seq p l false Hp El) in E.
    destruct (seq_ok_cases l w E) as [k Hk]. destruct (seq_spec k l Hk) as [[_ [w' [f [E' [Hw _]]]]] | [_ E']]; [|congruence].
    assert (w' = w) by congruence. subst w'. exists f. exact Hw.
  - destruct (mul_spec a b f g Ha Hb) as [w' [E' Hw]]. assert (w' = w) by congruence. subst w'. eexists. exact Hw.
  - destruct (inverse_spec linv a f Hl Ha) as [w' [g [E' [Hw _]]]]. assert (w' = w) by congruence. subst w'. eexists. exact Hw.
  - destruct (transposed_spec a f Ha) as [w' [g [E' [Hw _]]]]. assert (w' = w) by congruence. subst w'. eexists. exact Hw.
  - destruct (pow_spec linv a f k Hl Ha) as [w' [g [E' [Hw _]]]]. assert (w' = w) by congruence. subst w'. eexists. exact Hw.
Qed.

Lemma valid_is_map w f g : valid w f -> is_map w g -> forall v, f v = g v.
Proof. intros H Hm v. assert (E := valid_map w f H v). rewrite Hm in E. congruence. Qed.

Lemma object_map linv w f : exact_inverse linv -> is_Walsh linv w -> is_map w f -> valid w f.
Proof.
  intros Hl H Hm. destruct (object_valid linv w Hl H) as [g Hg]. apply (valid_ext w g f Hg). apply (valid_is_map w g f Hg Hm).
Qed.

(** * Sequence and complement pattern *)

Lemma sequence_spec w f n : valid w f -> w_degree w <= n -> walsh_sequence w None (Some n) = Ok (map f (range (2 ^ n))).
Proof.
  intros H Hn. unfold walsh_sequence. rewrite (proj2 (Nat.leb_le _ _) Hn). cbn [true_except bind].
  destruct (valid_view w f H) as [p [Ep [Hw [Hg [Hneu Hq]]]]]. rewrite Ep. cbn [bind]. unfold psequence. rewrite Hq.
  destruct (w_neutral w) eqn:E.
  - assert (W := wf_peri p Hw). rewrite Hq in W. apply (wf_neutral p Hw) in Hneu. rewrite Hneu in W. rewrite W. cbn [Nat.leb true_except bind].
    f_equal. apply map_ext. exact Hg.
  - replace (2 ^ n mod 2 ^ w_degree w =? 0) with true.
    + cbn [true_except bind]. f_equal. apply map_ext. exact Hg.
    + symmetry. apply Nat.eqb_eq. replace n with (n - w_degree w + w_degree w) by lia. rewrite Nat.pow_add_r. apply Nat.mod_mul. apply Nat.pow_nonzero. lia.
Qed.

Lemma sequence_default w f : valid w f -> w_neutral w = false -> walsh_sequence w None None = Ok (map f (range (2 ^ w_degree w))).
Proof.
  intros H E. unfold walsh_sequence. cbn [bind]. destruct (valid_view w f H) as [p [Ep [Hw [Hg [_ Hq]]]]]. rewrite Ep. cbn [bind].
  unfold psequence. rewrite Hq, E. f_equal. apply map_ext. exact Hg.
Qed.

Lemma sequence_length w f k : valid w f -> w_neutral w = false -> w_degree w <= k ->
  walsh_sequence w (Some (2 ^ k)) None = Ok (map f (range (2 ^ k))).
Proof.
  intros H E Hk. unfold walsh_sequence, is_power_of_two. rewrite Nat.log2_pow2, Nat.eqb_refl by lia.
  rewrite (proj2 (Nat.ltb_lt 0 (2 ^ k))) by (apply Nat.neq_0_lt_0, Nat.pow_nonzero; lia). rewrite E. cbn [andb negb true_except bind].
  rewrite (proj2 (Nat.leb_le _ _)) by (apply Nat.pow_le_mono_r; lia). cbn [true_except bind].
  assert (S := sequence_spec w f k H Hk). unfold walsh_sequence in S. rewrite (proj2 (Nat.leb_le _ _) Hk) in S. exact S.
Qed.

Lemma index_of_spec f n x : injective f -> x < n -> index_of (f x) (map f (seq 0 n)) = Ok x.
Proof.
  intros Hi. assert (G : forall a, a <= x -> x < a + n -> index_of (f x) (map f (seq a n)) = Ok (x - a)).
  { induction n as [|n IH]; intros a H1 H2; [lia|]. cbn [seq map index_of]. destruct (Nat.eqb_spec (f x) (f a)) as [E|E].
    - apply Hi in E. subst x. rewrite Nat.sub_diag. reflexivity.
    - assert (a <> x) by congruence. rewrite IH by lia. cbn [bind]. f_equal. lia. }
  intro Hx. rewrite G by lia. f_equal. lia.
Qed.

Lemma complement_spec w f n : valid w f -> w_degree w <= n ->
  exists c, complement_pattern w n = Ok c /\ c < 2 ^ n /\ f c = 2 ^ n - 1.
Proof.
  intros H Hn. unfold complement_pattern. rewrite (proj2 (Nat.leb_le _ _) Hn). cbn [true_except bind]. unfold complement_distance.
  assert (Hp : 2 ^ n <> 0) by (apply Nat.pow_nonzero; lia).
  destruct (w_neutral w) eqn:E.
  - cbn [bind]. exists (2 ^ n - 1 - 0). split; [reflexivity|]. split; [lia|].
    destruct H as [[_ H] | [d [b [H _]]]]; [rewrite H; lia | rewrite (ww_neutral _ _ _ H) in E; discriminate].
  - rewrite (sequence_default w f H E). cbn [bind]. set (d := w_degree w) in *.
    assert (Hd0 : 2 ^ d <> 0) by (apply Nat.pow_nonzero; lia).
    destruct (valid_acts w f d H (le_n d)) as [Hi Ha]. assert (Hb := valid_bijective w f H).
    destruct (proj2 Hb (2 ^ d - 1)) as [x Hx].
    assert (Hlt : x < 2 ^ d).
    { apply bits_lt_pow. intros i Hid. assert (T := Ha x i). rewrite Hx, testbit_ones, (proj2 (Nat.ltb_ge i d)) in T by lia. congruence. }
    rewrite <- Hx. unfold range. rewrite (index_of_spec f (2 ^ d) x (proj1 Hb) Hlt). cbn [bind]. rewrite Hx.
    exists (2 ^ n - 1 - (2 ^ d - 1 - x)). split; [reflexivity|]. assert (Hle : 2 ^ d <= 2 ^ n) by (apply Nat.pow_le_mono_r; lia).
    split; [lia|]. assert (En : 2 ^ n = 2 ^ d * 2 ^ (n - d)) by (rewrite <- Nat.pow_add_r; f_equal; lia).
    assert (Hm : 2 ^ (n - d) <> 0) by (apply Nat.pow_nonzero; lia).
    replace (2 ^ n - 1 - (2 ^ d - 1 - x)) with (x + 2 ^ d * (2 ^ (n - d) - 1)) by nia.
    assert (Hper : forall c, f (x + 2 ^ d * c) = f x + 2 ^ d * c).
    { assert (P := full_period d (ent f) f Ha). induction c as [|c IH]; [rewrite Nat.mul_0_r, !Nat.add_0_r; reflexivity|].
      replace (x + 2 ^ d * S c) with (x + 2 ^ d * c + 2 ^ d) by lia. rewrite P, IH. lia. }
    rewrite Hper, Hx. nia.
Qed.

(** * Perm *)

Lemma eqb_perm_spec w f p : valid w f -> wf p -> exists q, walsh_eqb_perm w p = Ok q /\ (q = true <-> forall v, f v = pget p v).
Proof.
  intros H Hp. destruct (valid_view w f H) as [r [Er [Hr [Hg _]]]]. unfold walsh_eqb_perm. rewrite Er. cbn [bind].
  exists (perm_eqb r p). split; [reflexivity|]. rewrite (perm_eqb_spec r p Hr Hp). split; intros G v; [rewrite <- Hg; apply G | rewrite Hg; apply G].
Qed.

Lemma mul_perm_spec w f p : valid w f -> wf p -> w_neutral w = true \/ neutral p = true \/ perilen p <> None ->
  exists r, walsh_mul_perm w p = Ok r /\ wf r /\ forall v, pget r v = f (pget p v).
Proof.
  intros H Hp Hk. destruct (valid_view w f H) as [r [Er [Hr [Hg [Hn Hq]]]]]. unfold walsh_mul_perm. rewrite Er. cbn [bind].
  destruct (pmul_spec r p Hr Hp) as [s [Es [Hs [Hsg _]]]].
  - destruct Hk as [Hk | [Hk | Hk]]; [left; congruence | right; left; exact Hk|]. destruct (w_neutral w); [left; congruence|].
    right. right. rewrite Hq. split; [discriminate | intro; contradiction].
  - exists s. split; [exact Es|]. split; [exact Hs|]. intro v. rewrite Hsg, Hg. reflexivity.
Qed.

(** * Linear tables *)

Lemma oddness_spec n w q v : 0 < n -> w < 2 ^ n -> length v = 2 ^ n -> (forall i, i < 2 ^ n -> nth i v false = xorb (dot n w i) q) ->
  forall trust, linear_to_walsh_and_oddness v trust = Ok (w, q).
Proof.
  intros Hn Hw Hl Hv trust. unfold linear_to_walsh_and_oddness. assert (Hp : 2 ^ n <> 0) by (apply Nat.pow_nonzero; lia).
  rewrite (lget_ok v 0 false) by lia. cbn [bind]. rewrite (Hv 0) by lia. rewrite dot_0, xorb_false_l.
  set (e := if q then binv_complement v else v).
  assert (Hrow : walsh_row n w e).
  { unfold e. destruct q; split; try assumption.
    - unfold binv_complement. rewrite map_length. exact Hl.
    - intros i Hi. unfold binv_complement. rewrite (nth_indep _ false (negb false)) by (rewrite map_length; lia). rewrite map_nth, Hv by exact Hi.
      destruct (dot n w i); reflexivity.
    - intros i Hi. rewrite Hv by exact Hi. apply xorb_false_r. }
  destruct trust.
  - rewrite (index_trusted_row n w e Hn Hw Hrow). reflexivity.
  - destruct (index_cases n e Hn (proj1 Hrow)) as [[w' [H1 [H2 H3]]] | [H1 _]].
    + rewrite H3. cbn [bind]. rewrite (walsh_row_inj n w' w e H1 Hw H2 Hrow). reflexivity.
    + exfalso. apply (H1 w Hw Hrow).
Qed.

Lemma leader_spec l q n v trust : 0 < n -> q < 4 -> l < 2 ^ (n - 1) -> make_linear_binv None n None (Some l) (Some q) = Ok v ->
  linear_to_leader_and_quadrant v trust = Ok (l, q).
Proof.
  intros Hn Hq Hl E. destruct (linear_leader l q n Hn Hq Hl) as [v' [w [E' [Hlen [Hw [Hev Hv]]]]]]. assert (v' = v) by congruence. subst v'.
  assert (Hw2 : w < 2 ^ n).
  { replace n with (S (n - 1)) by lia. cbn [Nat.pow]. assert (D := Nat.div_mod w 2 ltac:(lia)). assert (M := Nat.mod_upper_bound w 2 ltac:(lia)). lia. }
  unfold linear_to_leader_and_quadrant. rewrite (oddness_spec n w (Nat.eqb q 1 || Nat.eqb q 3) v Hn Hw2 Hlen Hv trust). cbn [bind fst snd].
  rewrite int_to_weight_eq. destruct (Nat.eqb q 0 || Nat.eqb q 3) eqn:Eq.
  - assert (Hod : Nat.odd (count_ones w) = false) by (rewrite <- Nat.negb_even, Hev; reflexivity). rewrite Hod.
    destruct (evil_back w Hev) as [i [E1 E2]]. rewrite E1. cbn [bind]. destruct (evil_index i) as [e [E3 [_ [E4 _]]]].
    assert (e = w) by congruence. subst e. f_equal. rewrite <- Hw, <- E4. f_equal. destruct q as [|[|[|[|q]]]]; try discriminate Eq; reflexivity.
  - rewrite Hev. destruct (odious_back w Hev) as [i [E1 E2]]. rewrite E1. cbn [bind]. destruct (odious_index i) as [e [E3 [_ [E4 _]]]].
    assert (e = w) by congruence. subst e. f_equal. rewrite <- Hw, <- E4. f_equal. destruct q as [|[|[|[|q]]]]; try discriminate Eq; try reflexivity. lia.
Qed.
