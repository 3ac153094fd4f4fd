(** Proof_SegmentsMore: adjacent spots, links, connected components. *)

From Coq Require Import List Arith ZArith Bool Lia Permutation Sorted Relations.
From Verif Require Import Model_Base Lib Model_Binary Model_Boolf Model_Splits Model_Segments
  Spec_Bits Spec_Boolf Spec_Splits Spec_Segments Proof_Binary Proof_Boolf Proof_Splits Proof_Segments.
Import ListNotations.
Open Scope nat_scope.

(** * The spots of a cube *)

Lemma product_bits_In n b : In b (product_bits n) <-> length b = n.
Proof.
  revert b; induction n as [|n IH]; intro b; cbn [product_bits].
  - cbn. destruct b; cbn; split; intro H; try tauto; try discriminate; [destruct H as [H|[]]; discriminate].
  - rewrite in_app_iff, !in_map_iff. split.
    + intros [[x [<- H]]|[x [<- H]]]; apply IH in H; cbn; lia.
    + destruct b as [|[|] b]; [discriminate| |]; intro H; [right|left]; exists b; (split; [reflexivity | apply IH; cbn in H; lia]).
Qed.
Lemma product_bits_NoDup n : NoDup (product_bits n).
Proof.
  induction n as [|n IH]; cbn [product_bits]; [constructor; [intros []|constructor]|].
  assert (J : forall c, NoDup (map (cons c) (product_bits n))).
  { intro c. clear -IH. induction (product_bits n) as [|x l IHl]; [constructor|]. inversion_clear IH. cbn. constructor; [|auto]. rewrite in_map_iff. intros [y [E Hy]]. injection E as ->. contradiction. }
  assert (D : forall x, In x (map (cons false) (product_bits n)) -> ~ In x (map (cons true) (product_bits n))).
  { intros x H1 H2. apply in_map_iff in H1 as [y [<- _]]. apply in_map_iff in H2 as [z [E _]]. discriminate. }
  revert D. generalize (J false). generalize (map (cons false) (product_bits n)). intros l Hl D. induction l as [|x l IHl]; [apply J|].
  inversion_clear Hl. cbn. constructor; [intro X; apply in_app_or in X as [X|X]; [contradiction | apply (D x); [left; reflexivity | exact X]]|]. apply IHl; [assumption|]. intros y Hy. apply D. right; exact Hy.
Qed.

Lemma zero_keys_NoDup w : NoDup (zero_keys w).
Proof.
  unfold zero_keys, keys_where, range. generalize 0. induction w as [|x l IH]; intro a; cbn [length seq combine filter map]; [constructor|].
  cbn [snd]. destruct (Z.eqb x 0); [|apply IH]. cbn [map fst]. constructor; [|apply IH]. rewrite in_map_iff. intros [[k y] [E H]]. apply filter_In in H as [H _]. apply in_combine_l, in_seq in H. cbn in E. lia.
Qed.

Lemma fold_fill (bits : list bool) : forall free s sv, (forall k, In k free -> k < length sv) -> NoDup free -> s + length free <= length bits ->
  exists sv', foldM (fun sv (sl : nat * nat) => let* x := lget bits (fst sl) in list_assign sv (snd sl) (Some x)) (combine (seq s (length free)) free) sv = Ok sv' /\
    length sv' = length sv /\ (forall k, ~ In k free -> nth k sv' None = nth k sv None) /\
    forall i, i < length free -> nth (nth i free 0) sv' None = Some (nth (s + i) bits false).
Proof.
  induction free as [|k free IH]; intros s sv Hk Hnd Hl; cbn [length seq combine foldM].
  - exists sv. split; [reflexivity|]. split; [reflexivity|]. split; [reflexivity | intros i Hi; inversion Hi].
  - cbn [fst snd]. rewrite (lget_ok bits s false) by (cbn [length] in Hl; lia). cbn [bind].
    assert (Hks : k < length sv) by (apply Hk; left; reflexivity).
    assert (As : forall x, list_assign sv k (Some x) = Ok (lset sv k (Some x))) by (intro x; unfold list_assign; rewrite (lget_ok sv k None) by exact Hks; reflexivity).
    rewrite As. cbn [bind]. inversion_clear Hnd as [|? ? Hnk Hnd'].
    destruct (IH (S s) (lset sv k (Some (nth s bits false)))) as [sv' [E [L [N1 N2]]]]; [intros j Hj; rewrite lset_length; apply Hk; right; exact Hj | exact Hnd' | cbn [length] in Hl; lia|].
    exists sv'. split; [exact E|]. rewrite lset_length in L. split; [exact L|]. split.
    + intros j Hj. rewrite N1 by (intro X; apply Hj; right; exact X). rewrite nth_lset by exact Hks. destruct (Nat.eqb_spec j k) as [->|]; [|reflexivity]. exfalso. apply Hj. left; reflexivity.
    + intros [|i] Hi; cbn [nth]; [rewrite N1 by exact Hnk; rewrite nth_lset, Nat.eqb_refl, Nat.add_0_r by exact Hks; reflexivity|].
      rewrite N2 by (cbn [length] in Hi; lia). do 2 f_equal. lia.
Qed.

Definition raw (x : Z) : option bool := if Z.eqb x 0 then None else Some (Z.eqb x 1).
Definition unwrap (o : option bool) : bool := match o with Some b => b | None => false end.

Lemma fill_ok v w bits : ternary v w -> length bits = length (zero_keys w) ->
  exists bv, (let* spot_vector := foldM (fun sv (sl : nat * nat) => let* x := lget bits (fst sl) in list_assign sv (snd sl) (Some x))
                                   (combine (range (length (zero_keys w))) (zero_keys w)) (map raw w) in
              mapM (fun o : option bool => match o with Some b => Ok b | None => Err VectorEntryError end) spot_vector) = Ok bv /\
    length bv = length w /\ (forall k, k < length w -> nth k w 0%Z <> 0%Z -> nth k bv false = Z.eqb (nth k w 0%Z) 1) /\
    forall i, i < length (zero_keys w) -> nth (nth i (zero_keys w) 0) bv false = nth i bits false.
Proof.
  intros Tw Hb. destruct (fold_fill bits (zero_keys w) 0 (map raw w)) as [sv [E [L [N1 N2]]]].
  - intros k Hk. rewrite map_length. apply zero_keys_In in Hk. apply Hk.
  - apply zero_keys_NoDup.
  - lia.
  - unfold range. rewrite E. cbn [bind]. rewrite map_length in L.
    assert (R : forall k, k < length w -> nth k (map raw w) None = raw (nth k w 0%Z)) by (intros k Hk; rewrite (nth_indep _ None (raw 0)) by (rewrite map_length; exact Hk); apply map_nth).
    assert (K : forall k, k < length w -> nth k sv None <> None).
    { intros k Hk. destruct (in_dec Nat.eq_dec k (zero_keys w)) as [Hz|Hz].
      - apply (In_nth _ _ 0) in Hz as [i [Hi <-]]. rewrite N2 by exact Hi. discriminate.
      - rewrite N1, R by assumption. unfold raw. destruct (Z.eqb_spec (nth k w 0%Z) 0) as [X|X]; [|discriminate]. exfalso. apply Hz, zero_keys_In. auto. }
    exists (map unwrap sv). split.
    { apply mapM_ok. intros o Ho. apply (In_nth _ _ None) in Ho as [k [Hk Eo]]. specialize (K k ltac:(lia)). rewrite Eo in K. destruct o; [reflexivity | congruence]. }
    split; [rewrite map_length; exact L|].
    assert (U : forall k, nth k (map unwrap sv) false = unwrap (nth k sv None)) by (intro k; apply (map_nth unwrap sv None)).
    split.
    + intros k Hk Hz. rewrite U, N1, R by (try assumption; rewrite zero_keys_In; tauto). unfold raw. rewrite (proj2 (Z.eqb_neq _ _) Hz). reflexivity.
    + intros i Hi. rewrite U, N2 by exact Hi. reflexivity.
Qed.

Lemma mapM_exists {A B} (F : A -> res B) (Q : A -> B -> Prop) l : (forall x, In x l -> exists y, F x = Ok y /\ Q x y) ->
  exists r, mapM F l = Ok r /\ Forall2 Q l r.
Proof.
  induction l as [|x l IH]; intro H; [exists []; split; [reflexivity | constructor]|].
  destruct (H x (or_introl eq_refl)) as [y [E Q1]]. destruct (IH (fun z Hz => H z (or_intror Hz))) as [r [Er Q2]].
  exists (y :: r). cbn [mapM]. rewrite E. cbn [bind]. rewrite Er. split; [reflexivity | constructor; assumption].
Qed.

Lemma cube_of_vector v w bv n : ternary v w -> length bv = length w ->
  (forall k, k < length w -> nth k w 0%Z <> 0%Z -> nth k bv false = Z.eqb (nth k w 0%Z) 1) -> n = b2n bv -> in_cube w n.
Proof.
  intros Tw Hl H ->. split; [rewrite <- Hl; apply b2n_lt|]. intros k Hk. rewrite testbit_b2n. split; intro E; rewrite H by (try exact Hk; rewrite E; discriminate); rewrite E; reflexivity.
Qed.

Definition filled (w : list Z) (bits : list bool) (n : nat) : Prop :=
  exists bv, n = b2n bv /\ length bv = length w /\ (forall k, k < length w -> nth k w 0%Z <> 0%Z -> nth k bv false = Z.eqb (nth k w 0%Z) 1) /\
    forall i, i < length (zero_keys w) -> nth (nth i (zero_keys w) 0) bv false = nth i bits false.

Lemma Forall2_right {A B} (R : A -> B -> Prop) l r y : Forall2 R l r -> In y r -> exists x, In x l /\ R x y.
Proof. induction 1 as [|a b l r H1 H2 IH]; intros []; [subst; exists a; split; [left; reflexivity | exact H1]|]. destruct (IH H) as [x [Hx X]]. exists x. split; [right; exact Hx | exact X]. Qed.
Lemma Forall2_left {A B} (R : A -> B -> Prop) l r x : Forall2 R l r -> In x l -> exists y, In y r /\ R x y.
Proof. induction 1 as [|a b l r H1 H2 IH]; intros []; [subst; exists b; split; [left; reflexivity | exact H1]|]. destruct (IH H) as [y [Hy X]]. exists y. split; [right; exact Hy | exact X]. Qed.

Lemma adjacent_ok v w : ternary v w -> exists l, segment_to_adjacent_spots w = Ok l /\ StronglySorted lt l /\ forall n, In n l <-> in_cube w n.
Proof.
  intro Tw. unfold segment_to_adjacent_spots.
  assert (E0 : mapM ternary_to_binary w = Ok (map raw w)).
  { apply mapM_ok. intros x Hx. destruct Tw as [_ Tw']. destruct (Tw' x Hx) as [->|[->| ->]]; reflexivity. }
  rewrite E0. cbn [bind]. clear E0.
  match goal with |- context [mapM ?F (product_bits ?m)] => destruct (mapM_exists F (filled w) (product_bits m)) as [r [Er Hr]] end.
  - intros bits Hbits. apply product_bits_In in Hbits. destruct (fill_ok v w bits Tw Hbits) as [bv [E [H1 [H2 H3]]]].
    destruct (foldM _ _ _) as [sv|e]; cbn [bind] in *; [|discriminate]. rewrite E. cbn [bind]. exists (b2n bv). rewrite binv_intval_eq. split; [reflexivity|]. exists bv. auto.
  - rewrite Er. cbn [bind]. exists (sort_nat r). split; [reflexivity|]. clear Er.
    assert (HL : forall b, In b (product_bits (length (zero_keys w))) -> length b = length (zero_keys w)) by (intros b Hb; apply product_bits_In; exact Hb).
    assert (Hin : forall n, In n r <-> in_cube w n).
    { intro n. split.
      - intro Hn. destruct (Forall2_right _ _ _ _ Hr Hn) as [b [_ [bv [X1 [X2 [X3 _]]]]]]. apply (cube_of_vector v w bv); assumption.
      - intros [Hn HC]. set (b := map (Nat.testbit n) (zero_keys w)).
        assert (Hb : In b (product_bits (length (zero_keys w)))) by (apply product_bits_In; unfold b; apply map_length).
        destruct (Forall2_left _ _ _ _ Hr Hb) as [m [Hm [bv [-> [X2 [X3 X4]]]]]]. replace n with (b2n bv); [exact Hm|]. apply (bits_ext (length w)); [rewrite <- X2; apply b2n_lt | exact Hn|].
        intros k Hk. rewrite testbit_b2n. destruct (Z.eq_dec (nth k w 0%Z) 0) as [Hz|Hz].
        + assert (Hki : In k (zero_keys w)) by (apply zero_keys_In; auto). apply (In_nth _ _ 0) in Hki as [i [Hi Ei]]. rewrite <- Ei at 1. rewrite X4 by exact Hi. unfold b.
          rewrite (nth_indep _ false (Nat.testbit n 0)) by (rewrite map_length; exact Hi). rewrite (map_nth (Nat.testbit n)), Ei. reflexivity.
        + rewrite X3 by assumption. destruct (HC k Hk) as [C1 C2]. destruct (ternary_nth v w k Tw) as [Y|[Y|Y]]; rewrite Y in *; [rewrite C2 by reflexivity; reflexivity | congruence | rewrite C1 by reflexivity; reflexivity]. }
    split; [|intro n; rewrite sort_nat_In; apply Hin]. apply sort_nat_sorted_lt. clear Hin.
    assert (HN := product_bits_NoDup (length (zero_keys w))). revert HN HL. induction Hr as [|x y l r H1 H2 IH]; intros HN HL; [constructor|].
    inversion_clear HN as [|? ? Hx HN']. constructor; [|apply IH; [exact HN' | intros b Hb; apply HL; right; exact Hb]].
    intro Hy. destruct (Forall2_right _ _ _ _ H2 Hy) as [x' [Hx' [bv' [Y1 [Y2 [_ Y4]]]]]]. destruct H1 as [bv [Z1 [Z2 [_ Z4]]]]. assert (EV : bv = bv') by (apply b2n_inj; congruence). subst bv'.
    apply Hx. replace x with x'; [exact Hx'|]. apply (nth_ext _ _ false false); [rewrite (HL x' (or_intror Hx')), (HL x (or_introl eq_refl)); reflexivity|].
    intros i Hi. rewrite HL in Hi by (right; exact Hx'). rewrite <- Y4, <- Z4 by exact Hi. reflexivity.
Qed.

Lemma adjacent_reject w x : In x w -> x <> (-1)%Z -> x <> 0%Z -> x <> 1%Z -> segment_to_adjacent_spots w = Err KeyErr.
Proof.
  intros Hx H1 H2 H3. unfold segment_to_adjacent_spots.
  assert (E : mapM ternary_to_binary w = Err KeyErr).
  { induction w as [|y w IH]; [destruct Hx|]. cbn [mapM]. destruct (ternary_to_binary y) as [b|e] eqn:Ey; cbn [bind].
    - destruct Hx as [->|Hx]; [|rewrite IH by exact Hx; reflexivity]. exfalso. unfold ternary_to_binary in Ey. apply Z.eqb_neq in H1, H2, H3. rewrite H1, H2, H3 in Ey. discriminate.
    - unfold ternary_to_binary in Ey. destruct (Z.eqb y (-1)); [discriminate|]. destruct (Z.eqb y 0); [discriminate|]. destruct (Z.eqb y 1); [discriminate|]. injection Ey as <-. reflexivity. }
  rewrite E. reflexivity.
Qed.

(** * Cubes of dimension one and two *)

Definition bottom (w : list Z) : nat := b2n (map (fun x => Z.eqb x 1) w).
Lemma bottom_bit w k : Nat.testbit (bottom w) k = Z.eqb (nth k w 0%Z) 1.
Proof. unfold bottom. rewrite testbit_b2n. apply (map_nth (fun x => Z.eqb x 1) w 0%Z). Qed.
Lemma bottom_lt w : bottom w < 2 ^ length w.
Proof. unfold bottom. rewrite <- (map_length (fun x => Z.eqb x 1) w). apply b2n_lt. Qed.

Lemma add_pow_bit a k i : Nat.testbit a k = false -> Nat.testbit (a + 2 ^ k) i = (i =? k) || Nat.testbit a i.
Proof. intro H. rewrite Nat.add_comm. apply testbit_add_pow. exact H. Qed.
Lemma add_pow_lt a k v : a < 2 ^ v -> k < v -> Nat.testbit a k = false -> a + 2 ^ k < 2 ^ v.
Proof.
  intros Ha Hk Hb. apply bits_lt_pow. intros i Hi. rewrite add_pow_bit by exact Hb. rewrite (proj2 (Nat.eqb_neq i k)) by lia. cbn [orb].
  apply testbit_high. eapply Nat.lt_le_trans; [exact Ha | apply Nat.pow_le_mono_r; lia].
Qed.

Lemma zero_keys_sorted w : StronglySorted lt (zero_keys w).
Proof.
  unfold zero_keys, keys_where, range. generalize 0. induction w as [|x l IH]; intro a; cbn [length seq combine filter map]; [constructor|].
  cbn [snd]. destruct (Z.eqb x 0); [|apply IH]. cbn [map fst]. constructor; [apply IH|]. apply Forall_forall. intros k Hk. apply in_map_iff in Hk as [[k' y] [<- H]]. apply filter_In in H as [H _]. apply in_combine_l, in_seq in H. cbn. lia.
Qed.
Lemma zero_keys_length w : length (zero_keys w) = dimension w.
Proof.
  unfold zero_keys, keys_where, range, dimension. rewrite map_length. generalize 0. induction w as [|x l IH]; intro a; cbn [length seq combine filter]; [reflexivity|].
  cbn [snd]. destruct (Z.eqb x 0); cbn [length]; rewrite IH; reflexivity.
Qed.

Lemma cube1 v w k n : ternary v w -> zero_keys w = [k] -> Nat.testbit (bottom w) k = false /\ (in_cube w n <-> n = bottom w \/ n = bottom w + 2 ^ k).
Proof.
  intros Tw Hz. assert (Hk : k < length w /\ nth k w 0%Z = 0%Z) by (apply zero_keys_In; rewrite Hz; left; reflexivity). destruct Hk as [Hk Hk0].
  assert (Ho : forall j, j < length w -> j <> k -> nth j w 0%Z <> 0%Z).
  { intros j Hj Hjk X. assert (Y : In j (zero_keys w)) by (apply zero_keys_In; auto). rewrite Hz in Y. destruct Y as [Y|[]]; congruence. }
  assert (B : Nat.testbit (bottom w) k = false) by (rewrite bottom_bit, Hk0; reflexivity). split; [exact B|].
  assert (HB := add_pow_lt _ _ _ (bottom_lt w) Hk B). split.
  - intros [Hn HC].
    assert (J : forall j, j < length w -> j <> k -> Nat.testbit n j = Nat.testbit (bottom w) j).
    { intros j Hj Hjk. rewrite bottom_bit. destruct (HC j Hj) as [C1 C2]. specialize (Ho j Hj Hjk). destruct (ternary_nth v w j Tw) as [Y|[Y|Y]]; rewrite Y in *; [apply C2; reflexivity | congruence | apply C1; reflexivity]. }
    destruct (Nat.testbit n k) eqn:E; [right | left]; (apply (bits_ext (length w)); [exact Hn | first [exact HB | apply bottom_lt]|]); intros j Hj.
    + rewrite add_pow_bit by exact B. destruct (Nat.eqb_spec j k) as [->|Hjk]; [exact E | apply J; assumption].
    + destruct (Nat.eq_dec j k) as [->|Hjk]; [congruence | apply J; assumption].
  - intros [->| ->]; (split; [first [exact HB | apply bottom_lt]|]); intros j Hj; [|rewrite add_pow_bit by exact B]; rewrite bottom_bit.
    + split; intros ->; reflexivity.
    + destruct (Nat.eqb_spec j k) as [->|Hjk]; [rewrite Hk0; split; discriminate|]. split; intros ->; reflexivity.
Qed.

Lemma two_sorted (l : list nat) a b : a < b -> StronglySorted lt l -> (forall n, In n l <-> n = a \/ n = b) -> l = [a; b].
Proof.
  intros Hab Hs H. apply sorted_lt_ext; [exact Hs | repeat constructor; exact Hab|]. intro n. rewrite H. cbn. intuition.
Qed.

Lemma spot_pair_ok v w k : ternary v w -> zero_keys w = [k] -> spot_pair w = Ok (bottom w, bottom w + 2 ^ k).
Proof.
  intros Tw Hz. unfold spot_pair. destruct (adjacent_ok v w Tw) as [l [E [Hs Hl]]]. rewrite E. cbn [bind].
  rewrite (two_sorted l (bottom w) (bottom w + 2 ^ k)); [reflexivity | | exact Hs|].
  - assert (2 ^ k <> 0) by (apply Nat.pow_nonzero; lia). lia.
  - intro n. rewrite Hl. apply (proj2 (cube1 v w k n Tw Hz)).
Qed.

Lemma dim1_key w : dimension w = 1 -> exists k, zero_keys w = [k].
Proof. intro H. rewrite <- zero_keys_length in H. destruct (zero_keys w) as [|k [|? ?]]; try discriminate. exists k. reflexivity. Qed.
Lemma dim2_keys w : dimension w = 2 -> exists i j, zero_keys w = [i; j] /\ i < j.
Proof.
  intro H. rewrite <- zero_keys_length in H. assert (S := zero_keys_sorted w). destruct (zero_keys w) as [|i [|j [|? ?]]]; try discriminate. exists i, j. split; [reflexivity|].
  inversion_clear S as [|? ? _ F]. inversion_clear F. assumption.
Qed.

Lemma zero_keys_lset w k x : k < length w -> x <> 0%Z -> forall j, In j (zero_keys (lset w k x)) <-> In j (zero_keys w) /\ j <> k.
Proof.
  intros Hk Hx j. rewrite !zero_keys_In, lset_length, nth_lset by exact Hk. destruct (Nat.eqb_spec j k) as [->|Hjk]; tauto.
Qed.
Lemma one_sorted (l : list nat) a : StronglySorted lt l -> (forall n, In n l <-> n = a) -> l = [a].
Proof. intros Hs H. apply sorted_lt_ext; [exact Hs | repeat constructor|]. intro n. rewrite H. cbn. intuition. Qed.

Lemma bottom_minus w k : k < length w -> nth k w 0%Z = 0%Z -> bottom (lset w k (-1)%Z) = bottom w.
Proof.
  intros Hk Hz. apply Nat.bits_inj. intro j. rewrite !bottom_bit, nth_lset by exact Hk. destruct (Nat.eqb_spec j k) as [->|]; [rewrite Hz; reflexivity | reflexivity].
Qed.
Lemma bottom_plus w k : k < length w -> nth k w 0%Z = 0%Z -> bottom (lset w k 1%Z) = bottom w + 2 ^ k.
Proof.
  intros Hk Hz. apply Nat.bits_inj. intro j. rewrite add_pow_bit by (rewrite bottom_bit, Hz; reflexivity). rewrite !bottom_bit, nth_lset by exact Hk. destruct (Nat.eqb_spec j k) as [->|]; reflexivity.
Qed.
Lemma bottom_spot v n k : n < 2 ^ v -> k < v -> Nat.testbit n k = false -> bottom (lset (spot_vec v n) k 0%Z) = n.
Proof.
  intros Hn Hk Hb. apply Nat.bits_inj. intro j. rewrite bottom_bit, nth_lset by (rewrite spot_vec_length; exact Hk). destruct (Nat.eqb_spec j k) as [->|]; [rewrite Hb; reflexivity|].
  destruct (Nat.lt_ge_cases j v) as [Hj|Hj]; [rewrite spot_vec_nth by exact Hj; destruct (Nat.testbit n j); reflexivity|].
  rewrite nth_overflow by (rewrite spot_vec_length; exact Hj). rewrite testbit_high; [reflexivity|]. eapply Nat.lt_le_trans; [exact Hn | apply Nat.pow_le_mono_r; lia].
Qed.

(** * Dictionaries of sets *)

Section Dict.
Context {A : Type} (eqb : A -> A -> bool) (eqb_ok : forall x y, eqb x y = true <-> x = y).

Lemma existsb_eqb x s : existsb (eqb x) s = true <-> In x s.
Proof. rewrite existsb_exists. split; [intros [y [H E]]; apply eqb_ok in E; subst; exact H | intro H; exists x; split; [exact H | apply eqb_ok; reflexivity]]. Qed.

Definition dd_ok (d : list (nat * list A)) : Prop := NoDup (map fst d) /\ forall k s, In (k, s) d -> NoDup s /\ s <> [].
Definition dd_In (d : list (nat * list A)) (k : nat) (x : A) : Prop := exists s, In (k, s) d /\ In x s.

Lemma dd_add_keys d k x j : In j (map fst (dd_add eqb d k x)) <-> j = k \/ In j (map fst d).
Proof.
  induction d as [|[k' s] d IH]; cbn [dd_add map fst In]; [intuition|]. destruct (Nat.eqb_spec k' k) as [->|Hk]; cbn [map fst In]; [intuition|]. rewrite IH. intuition.
Qed.

Lemma dd_add_ok d k x : dd_ok d -> dd_ok (dd_add eqb d k x) /\ forall j y, dd_In (dd_add eqb d k x) j y <-> (j = k /\ y = x) \/ dd_In d j y.
Proof.
  intros [Hn Hs]. induction d as [|[k' s] d IH]; cbn [dd_add].
  - split; [split; [repeat constructor; intros []|]|].
    + intros j t [E|[]]. injection E as <- <-. split; [repeat constructor; intros [] | discriminate].
    + intros j y. split; [intros [t [[E|[]] H]]; injection E as <- <-; destruct H as [<-|[]]; auto | intros [[-> ->]|[t [[] _]]]; exists [x]; split; left; reflexivity].
  - cbn [map fst] in Hn. inversion_clear Hn as [|? ? Hk' Hn']. destruct (Nat.eqb_spec k' k) as [->|Hk].
    + assert (Hs0 := Hs k s (or_introl eq_refl)). split; [split|].
      * cbn [map fst]. constructor; assumption.
      * intros j t [E|H]; [|apply (Hs j t); right; exact H]. injection E as <- <-. destruct (existsb (eqb x) s) eqn:Ex; [exact Hs0|].
        split; [|destruct s; discriminate]. apply Permutation_NoDup with (l := x :: s); [apply Permutation_cons_append|]. constructor; [|apply Hs0]. intro X. apply existsb_eqb in X. congruence.
      * intros j y. assert (M : In y (if existsb (eqb x) s then s else s ++ [x]) <-> y = x \/ In y s).
        { destruct (existsb (eqb x) s) eqn:Ex; [apply existsb_eqb in Ex; intuition; subst; assumption | rewrite in_app_iff; cbn; intuition]. }
        split.
        -- intros [t [[E|H] Hy]]; [injection E as <- <-; apply M in Hy as [->|Hy]; [auto | right; exists s; split; [left; reflexivity | exact Hy]] | right; exists t; split; [right; exact H | exact Hy]].
        -- intros [[-> ->]|[t [[E|H] Hy]]]; [eexists; split; [left; reflexivity | apply M; auto] | injection E as <- <-; eexists; split; [left; reflexivity | apply M; auto] | exists t; split; [right; exact H | exact Hy]].
    + destruct IH as [[I1 I2] I3]; [exact Hn' | intros j t H; apply (Hs j t); right; exact H|]. split; [split|].
      * cbn [map fst]. constructor; [|exact I1]. rewrite dd_add_keys. intros [X|X]; [congruence | contradiction].
      * intros j t [E|H]; [injection E as <- <-; apply (Hs k' s); left; reflexivity | apply (I2 j t); exact H].
      * intros j y. split.
        -- intros [t [[E|H] Hy]]; [injection E as <- <-; right; exists s; split; [left; reflexivity | exact Hy]|].
           destruct (proj1 (I3 j y)) as [X|[t' [X Y]]]; [exists t; auto | left; exact X | right; exists t'; split; [right; exact X | exact Y]].
        -- intros [X|[t [[E|H] Hy]]].
           ++ destruct (proj2 (I3 j y) (or_introl X)) as [t [H Hy]]. exists t. split; [right; exact H | exact Hy].
           ++ injection E as <- <-. exists s. split; [left; reflexivity | exact Hy].
           ++ destruct (proj2 (I3 j y)) as [t' [H' Hy']]; [right; exists t; auto|]. exists t'. split; [right; exact H' | exact Hy'].
Qed.

Definition dd_of (E : list (nat * A)) (d : list (nat * list A)) : list (nat * list A) := fold_left (fun d kx => dd_add eqb d (fst kx) (snd kx)) E d.
Lemma dd_of_ok E : forall d, dd_ok d -> dd_ok (dd_of E d) /\ forall j y, dd_In (dd_of E d) j y <-> In (j, y) E \/ dd_In d j y.
Proof.
  induction E as [|[k x] E IH]; intros d Hd; cbn [dd_of fold_left]; [split; [exact Hd | intros; cbn; tauto]|]. cbn [fst snd].
  destruct (dd_add_ok d k x Hd) as [Hd' M]. destruct (IH _ Hd') as [Hd'' M']. split; [exact Hd''|]. intros j y. rewrite (M' j y), M. cbn [In]. split.
  - intros [H|[[-> ->]|H]]; auto.
  - intros [[E0|H]|H]; [injection E0 as <- <-; auto | auto | auto].
Qed.
Lemma dd_nil : dd_ok [] /\ forall j (y : A), ~ dd_In [] j y.
Proof. split; [split; [constructor | intros k s []] | intros j y [s [[] _]]]. Qed.

Lemma dd_get_In d k x : dd_ok d -> In x (dd_get d k) <-> dd_In d k x.
Proof.
  intros [Hn _]. unfold dd_get. destruct (find (fun kv => fst kv =? k) d) as [[k' s]|] eqn:E.
  - apply find_some in E as [H E]. cbn [fst snd] in *. apply Nat.eqb_eq in E. subst k'. split; [intro Hx; exists s; auto|]. intros [t [Ht Hx]].
    replace s with t; [exact Hx|]. clear -Hn H Ht. induction d as [|[a b] d IH]; [destruct H|]. cbn [map fst] in Hn. inversion_clear Hn as [|? ? Ha Hn'].
    destruct H as [E|H], Ht as [E'|Ht]; [congruence | injection E as <- <-; exfalso; apply Ha, (in_map fst _ _ Ht) | injection E' as <- <-; exfalso; apply Ha, (in_map fst _ _ H) | apply IH; assumption].
  - split; [intros []|]. intros [t [Ht _]]. apply (find_none _ _ E) in Ht. cbn [fst] in Ht. rewrite Nat.eqb_refl in Ht. discriminate.
Qed.
Lemma dd_concat_In d x : In x (concat (map snd d)) <-> exists k, dd_In d k x.
Proof.
  rewrite in_concat. split; [intros [s [Hs Hx]]; apply in_map_iff in Hs as [[k s'] [<- Hs]]; exists k, s'; auto | intros [k [s [Hs Hx]]]; exists s; split; [apply (in_map snd _ _ Hs) | exact Hx]].
Qed.
End Dict.

Lemma pair_eqb_ok p q : pair_eqb p q = true <-> p = q.
Proof. destruct p, q. unfold pair_eqb. cbn [fst snd]. rewrite andb_true_iff, !Nat.eqb_eq. split; [intros [-> ->]; reflexivity | intro H; injection H; auto]. Qed.
Lemma link_pair_eqb_ok p q : link_pair_eqb p q = true <-> p = q.
Proof. destruct p, q. unfold link_pair_eqb. cbn [fst snd]. rewrite andb_true_iff, !pair_eqb_ok. split; [intros [-> ->]; reflexivity | intro H; injection H; auto]. Qed.

(** * Links *)

Lemma foldM_dd {A B} (eqb : A -> A -> bool) (F : list (nat * list A) -> B -> res (list (nat * list A))) (ent : B -> list (nat * A)) l :
  (forall x d, In x l -> F d x = Ok (dd_of eqb (ent x) d)) -> forall d, foldM F l d = Ok (dd_of eqb (flat_map ent l) d).
Proof.
  induction l as [|x l IH]; intros H d; cbn [foldM flat_map]; [reflexivity|]. rewrite H by (left; reflexivity). cbn [bind].
  rewrite IH by (intros y d' Hy; apply H; right; exact Hy). unfold dd_of. rewrite fold_left_app. reflexivity.
Qed.

Definition key1 (w : list Z) : nat := nth 0 (zero_keys w) 0.
Definition key2 (w : list Z) : nat := nth 1 (zero_keys w) 0.

Section Links.
Variables (f : boolf) (c : collection).
Hypothesis Hf : fitting f.
Hypothesis Hc : forall w, In w (segs c) <-> ternary (valency f) w /\ covered (full f) w.
Notation v := (valency f).

Lemma segments_In d w : In w (segments_of c d) <-> (ternary v w /\ covered (full f) w) /\ dimension w = d.
Proof. unfold segments_of. rewrite filter_In, Nat.eqb_eq, Hc. reflexivity. Qed.

Lemma spot_covered n : full f n -> covered (full f) (spot_vec v n).
Proof. intros Hn m Hm. apply spot_cube in Hm as ->; [exact Hn | apply place_bound; assumption]. Qed.

(** the vector of a link *)
Lemma link_vector k a : link f k (a, a + 2 ^ k) -> k < v /\
  (let w := lset (spot_vec v a) k 0%Z in ternary v w /\ covered (full f) w /\ zero_keys w = [k] /\ bottom w = a).
Proof.
  intros [L1 [L2 [L3 _]]]. cbn [fst snd] in *. assert (B1 := place_bound f a Hf L1). assert (B2 := place_bound f _ Hf L2).
  assert (Hk : k < v) by (apply (testbit_lt_pow (a + 2 ^ k)); [exact B2|]; rewrite add_pow_bit, Nat.eqb_refl by exact L3; reflexivity).
  split; [exact Hk|]. cbv zeta. assert (Hk' : k < length (spot_vec v a)) by (rewrite spot_vec_length; exact Hk). split; [apply ternary_lset; [apply spot_vec_ternary | auto]|].
  split; [|split].
  - apply (covered_sup (full f) v); [apply spot_vec_ternary | exact Hk' | rewrite spot_vec_nth, L3 by exact Hk; discriminate | apply spot_covered; exact L1|].
    replace (flip (spot_vec v a) k) with (spot_vec v (a + 2 ^ k)); [apply spot_covered; exact L2|].
    apply (nth_ext _ _ 0%Z 0%Z); [rewrite flip_length, !spot_vec_length; reflexivity|]. intros j Hj. rewrite spot_vec_length in Hj. unfold flip. rewrite nth_lset by exact Hk'.
    rewrite !spot_vec_nth by assumption. rewrite add_pow_bit by exact L3. destruct (Nat.eqb_spec j k) as [->|]; [rewrite L3; reflexivity | reflexivity].
  - apply one_sorted; [apply zero_keys_sorted|]. intro j. rewrite zero_keys_In, lset_length, nth_lset by exact Hk'. rewrite spot_vec_length.
    destruct (Nat.eqb_spec j k) as [->|Hjk]; [tauto|]. split; [|congruence]. intros [Hj X]. rewrite spot_vec_nth in X by exact Hj. destruct (Nat.testbit a j); discriminate.
  - apply bottom_spot; assumption.
Qed.

Lemma vector_link w k : ternary v w -> covered (full f) w -> zero_keys w = [k] -> link f k (bottom w, bottom w + 2 ^ k).
Proof.
  intros Tw Cw Hz. assert (C := fun n => cube1 v w k n Tw Hz). split; [|split; [|split; [|reflexivity]]]; cbn [fst snd].
  - apply Cw, C. auto.
  - apply Cw, C. auto.
  - apply (C 0).
Qed.

Lemma get_links_ok : exists d, get_links c = Ok d /\ dd_ok d /\ forall k p, dd_In d k p <-> link f k p.
Proof.
  unfold get_links. rewrite (foldM_dd pair_eqb _ (fun w => [(key1 w, (bottom w, bottom w + 2 ^ key1 w))])).
  2:{ intros w d Hw. apply segments_In in Hw as [[Tw Cw] Hd]. destruct (dim1_key w Hd) as [k Hz]. unfold key1. rewrite Hz. cbn [lget bind nth].
      rewrite (spot_pair_ok v w k Tw Hz). reflexivity. }
  eexists. split; [reflexivity|]. destruct (dd_of_ok pair_eqb pair_eqb_ok (flat_map (fun w => [(key1 w, (bottom w, bottom w + 2 ^ key1 w))]) (segments_of c 1)) [] (proj1 dd_nil)) as [D M].
  split; [exact D|]. intros k p. rewrite M, in_flat_map. split.
  - intros [[w [Hw [E|[]]]]|X]; [|exfalso; exact (proj2 dd_nil _ _ X)]. injection E as Ek Ep. apply segments_In in Hw as [[Tw Cw] Hd]. destruct (dim1_key w Hd) as [k' Hz].
    unfold key1 in *. rewrite Hz in *. cbn [nth] in *. subst k' p. apply vector_link; assumption.
  - intro L. left. destruct p as [a b]. assert (Eb : b = a + 2 ^ k) by apply L. subst b. destruct (link_vector k a L) as [_ [Tw [Cw [Hz Hb]]]].
    exists (lset (spot_vec v a) k 0%Z). split; [apply segments_In; rewrite <- zero_keys_length, Hz; auto|]. left. unfold key1. rewrite Hz, Hb. reflexivity.
Qed.

Lemma log_xor a k : Nat.testbit a k = false -> Nat.lxor a (a + 2 ^ k) = 2 ^ k.
Proof.
  intro H. apply Nat.bits_inj. intro j. rewrite Nat.lxor_spec, add_pow_bit by exact H. rewrite Nat.pow2_bits_eqb, (Nat.eqb_sym k j).
  destruct (Nat.eqb_spec j k) as [->|]; [rewrite H; reflexivity|]. cbn [orb]. apply xorb_nilpotent.
Qed.

(** the two pairs of links around a square *)
Definition squares (w : list Z) : list (nat * ((nat * nat) * (nat * nat))) :=
  let a := bottom w in let i := key1 w in let j := key2 w in
  [(j, ((a, a + 2 ^ j), (a + 2 ^ i, a + 2 ^ i + 2 ^ j))); (i, ((a, a + 2 ^ i), (a + 2 ^ j, a + 2 ^ j + 2 ^ i)))].

Lemma sides w i j x : ternary v w -> zero_keys w = [i; j] \/ zero_keys w = [j; i] -> i <> j -> x = (-1)%Z \/ x = 1%Z ->
  zero_keys (lset w i x) = [j] /\ ternary v (lset w i x) /\ bottom (lset w i x) = (if Z.eqb x 1 then bottom w + 2 ^ i else bottom w) /\ i < length w /\ nth i w 0%Z = 0%Z.
Proof.
  intros Tw Hz Hij Hx. assert (Hi : In i (zero_keys w)) by (destruct Hz as [-> | ->]; cbn; auto). apply zero_keys_In in Hi as [Hi Hi0].
  split; [|split; [apply ternary_lset; tauto | split; [destruct Hx as [-> | ->]; [apply bottom_minus; assumption | apply bottom_plus; assumption] | auto]]].
  apply one_sorted; [apply zero_keys_sorted|]. intro n. rewrite zero_keys_lset by (try exact Hi; lia). destruct Hz as [-> | ->]; cbn; intuition congruence.
Qed.

Lemma square_step w i j d : ternary v w -> zero_keys w = [i; j] \/ zero_keys w = [j; i] -> i <> j ->
  (let* two := mapM spot_pair [lset w i (-1)%Z; lset w i 1%Z] in
   match two with
   | [(a, b); (c', d')] =>
       guard negb (Nat.eqb (Nat.lxor a b) 0) else ValueErr ;;
       guard negb (Nat.eqb (Nat.lxor c' d') 0) else ValueErr ;;
       let belonging_atomkey := Nat.log2 (Nat.lxor a b) in
       guard Nat.eqb belonging_atomkey (Nat.log2 (Nat.lxor c' d')) else AssertErr ;;
       Ok (dd_add link_pair_eqb d belonging_atomkey ((a, b), (c', d')))
   | _ => Err ValueErr
   end) = Ok (dd_add link_pair_eqb d j ((bottom w, bottom w + 2 ^ j), (bottom w + 2 ^ i, bottom w + 2 ^ i + 2 ^ j))).
Proof.
  intros Tw Hz Hij. destruct (sides w i j (-1)%Z Tw Hz Hij (or_introl eq_refl)) as [Z1 [T1 [B1 _]]]. destruct (sides w i j 1%Z Tw Hz Hij (or_intror eq_refl)) as [Z2 [T2 [B2 _]]].
  cbn [Z.eqb] in B1. rewrite Z.eqb_refl in B2. cbn [mapM]. rewrite (spot_pair_ok v _ j T1 Z1), (spot_pair_ok v _ j T2 Z2). cbn [bind].
  assert (X1 := proj1 (cube1 v _ j 0 T1 Z1)). assert (X2 := proj1 (cube1 v _ j 0 T2 Z2)). rewrite B1, B2 in *.
  rewrite !log_xor by assumption. assert (P : 2 ^ j <> 0) by (apply Nat.pow_nonzero; lia). apply Nat.eqb_neq in P. rewrite P. cbn [negb true_except bind].
  rewrite Nat.log2_pow2, Nat.eqb_refl by lia. reflexivity.
Qed.

Lemma bind_eq {A B} (m : res A) (r : A) (k : A -> res B) : m = Ok r -> bind m k = k r.
Proof. intros ->. reflexivity. Qed.

Lemma get_neighboring_links_ok : exists d, get_neighboring_links c = Ok d /\ dd_ok d /\ forall k p, dd_In d k p <-> square f k (fst p) (snd p).
Proof.
  unfold get_neighboring_links. rewrite (foldM_dd link_pair_eqb _ squares).
  2:{ intros w d Hw. apply segments_In in Hw as [[Tw Cw] Hd]. destruct (dim2_keys w Hd) as [i [j [Hz Hij]]]. unfold inferior_vectors. unfold squares, key1, key2. rewrite Hz. cbn [map nth foldM snd].
      etransitivity; [refine (bind_eq _ _ _ (square_step w i j d Tw (or_introl Hz) _)); lia|].
      etransitivity; [refine (bind_eq _ _ _ (square_step w j i _ Tw (or_intror Hz) _)); lia|]. reflexivity. }
  eexists. split; [reflexivity|]. destruct (dd_of_ok link_pair_eqb link_pair_eqb_ok (flat_map squares (segments_of c 2)) [] (proj1 dd_nil)) as [D M].
  split; [exact D|]. intros k p. rewrite M, in_flat_map. split.
  - intros [[w [Hw E]]|X]; [|exfalso; exact (proj2 dd_nil _ _ X)]. apply segments_In in Hw as [[Tw Cw] Hd]. destruct (dim2_keys w Hd) as [i [j [Hz Hij]]].
    unfold squares, key1, key2 in E. rewrite Hz in E. cbn [nth] in E.
    assert (SQ : forall i j, zero_keys w = [i; j] \/ zero_keys w = [j; i] -> i <> j -> square f j (bottom w, bottom w + 2 ^ j) (bottom w + 2 ^ i, bottom w + 2 ^ i + 2 ^ j)).
    { clear i j Hz Hij E. intros i j Hz Hij. destruct (sides w i j (-1)%Z Tw Hz Hij (or_introl eq_refl)) as [Z1 [T1 [B1 [Hi Hi0]]]]. destruct (sides w i j 1%Z Tw Hz Hij (or_intror eq_refl)) as [Z2 [T2 [B2 _]]].
      cbn [Z.eqb] in B1. rewrite Z.eqb_refl in B2. split; [|split].
      - rewrite <- B1. apply vector_link; [exact T1 | apply covered_inf; assumption | exact Z1].
      - rewrite <- B2. apply vector_link; [exact T2 | apply covered_inf; assumption | exact Z2].
      - exists i. cbn [fst]. split; [exact Hij|]. split; [rewrite bottom_bit, Hi0; reflexivity | reflexivity]. }
    destruct E as [E|[E|[]]]; injection E as <- <-; cbn [fst snd]; apply SQ; auto; lia.
  - intros [L1 [L2 [j [Hjk [Hbj Ej]]]]]. left. destruct p as [[a b] [a' b']]. cbn [fst snd] in *. assert (Eb : b = a + 2 ^ k) by apply L1. assert (Eb' : b' = a' + 2 ^ k) by apply L2. subst b b' a'.
    destruct (link_vector k a L1) as [Hk [T1 [C1 [Z1 B1]]]]. destruct (link_vector k _ L2) as [_ [T2 [C2 [Z2 B2]]]]. set (w1 := lset (spot_vec v a) k 0%Z) in *. set (w2 := lset (spot_vec v (a + 2 ^ j)) k 0%Z) in *.
    assert (Lw1 : length w1 = v) by apply T1.
    assert (Hj : j < v).
    { assert (B := place_bound f _ Hf (proj1 L2)). apply (testbit_lt_pow (a + 2 ^ j)); [exact B|]. rewrite add_pow_bit, Nat.eqb_refl by exact Hbj. reflexivity. }
    assert (Hka : Nat.testbit a k = false) by apply L1.
    assert (F : flip w1 j = w2).
    { apply (nth_ext _ _ 0%Z 0%Z); [rewrite flip_length; rewrite Lw1; symmetry; apply T2|]. intros m Hm. rewrite flip_length, Lw1 in Hm. unfold flip. rewrite nth_lset by (rewrite Lw1; exact Hj).
      unfold w1, w2. rewrite !nth_lset by (rewrite spot_vec_length; exact Hk). rewrite !spot_vec_nth by assumption. rewrite (proj2 (Nat.eqb_neq j k) Hjk), Hbj. rewrite add_pow_bit by exact Hbj.
      destruct (Nat.eqb_spec m j) as [->|]; [rewrite (proj2 (Nat.eqb_neq j k) Hjk); reflexivity | destruct (Nat.eqb m k); reflexivity]. }
    assert (N : nth j w1 0%Z = (-1)%Z) by (unfold w1; rewrite nth_lset by (rewrite spot_vec_length; exact Hk); rewrite (proj2 (Nat.eqb_neq j k) Hjk), spot_vec_nth, Hbj by exact Hj; reflexivity).
    assert (Hj1 : j < length w1) by (rewrite Lw1; exact Hj).
    exists (sup w1 j). assert (ZK : forall m, In m (zero_keys (sup w1 j)) <-> m = j \/ m = k).
    { intro m. unfold sup. rewrite zero_keys_In, lset_length, nth_lset by exact Hj1. destruct (Nat.eqb_spec m j) as [->|Hm]; [tauto|].
      rewrite <- zero_keys_In, Z1. cbn. intuition. }
    assert (BS : bottom (sup w1 j) = a).
    { transitivity (bottom w1); [|exact B1]. apply Nat.bits_inj. intro m. unfold sup. rewrite !bottom_bit, nth_lset by exact Hj1. destruct (Nat.eqb_spec m j) as [->|]; [rewrite N; reflexivity | reflexivity]. }
    assert (TS : ternary v (sup w1 j)) by (apply ternary_lset; auto).
    assert (CS : covered (full f) (sup w1 j)) by (apply (covered_sup (full f) v); [exact T1 | exact Hj1 | rewrite N; discriminate | exact C1 | rewrite F; exact C2]).
    assert (Z2k : zero_keys (sup w1 j) = if j <? k then [j; k] else [k; j]).
    { destruct (Nat.ltb_spec j k) as [H|H]; apply two_sorted; try apply zero_keys_sorted; try lia; intro m; rewrite ZK; tauto. }
    split; [apply segments_In; rewrite <- zero_keys_length, Z2k; destruct (j <? k); auto|].
    unfold squares, key1, key2. rewrite BS, Z2k. destruct (j <? k); cbn [nth]; [left | right; left]; reflexivity.
Qed.
End Links.

(** * Connected components *)

Section Components.
Context {A : Type} (eqb : A -> A -> bool) (eqb_ok : forall x y, eqb x y = true <-> x = y).

Lemma nodup_with_ok l : NoDup (nodup_with eqb l) /\ forall x, In x (nodup_with eqb l) <-> In x l.
Proof.
  induction l as [|y l [I1 I2]]; cbn [nodup_with]; [split; [constructor | tauto]|]. destruct (existsb (eqb y) l) eqn:E.
  - split; [exact I1|]. intro x. rewrite I2. apply (existsb_eqb eqb eqb_ok) in E. cbn. intuition. subst. assumption.
  - split; [constructor; [rewrite I2; intro X; apply (existsb_eqb eqb eqb_ok) in X; congruence | exact I1]|]. intro x. cbn. rewrite I2. tauto.
Qed.

Notation R E := (fun x y : A => In (x, y) E).

(** a partition of the elements of U into the classes of the relation *)
Definition classes (U : list A) (E : list (A * A)) (B : list (list A)) : Prop :=
  NoDup (concat B) /\ (forall b, In b B -> b <> []) /\ (forall x, In x (concat B) <-> In x U) /\
  (forall b x y, In b B -> In x b -> In y b -> clos_refl_sym_trans A (R E) x y) /\
  (forall x y, In (x, y) E -> exists b, In b B /\ In x b /\ In y b).

Lemma rst_mono (E E' : list (A * A)) x y : (forall p, In p E -> In p E') -> clos_refl_sym_trans A (R E) x y -> clos_refl_sym_trans A (R E') x y.
Proof. intro H. induction 1 as [x y Hxy| | |]; [apply rst_step, H, Hxy | apply rst_refl | apply rst_sym; assumption | eapply rst_trans; eassumption]. Qed.

Lemma concat_filter_perm (p : list A -> bool) B : Permutation (concat B) (concat (filter p B) ++ concat (filter (fun b => negb (p b)) B)).
Proof.
  induction B as [|b B IH]; cbn [concat filter]; [constructor|]. destruct (p b); cbn [negb concat].
  - rewrite <- app_assoc. apply Permutation_app_head. exact IH.
  - rewrite IH. rewrite !app_assoc. apply Permutation_app_tail. apply Permutation_app_comm.
Qed.

Lemma components_step U E B e : classes U E B -> In (fst e) U -> In (snd e) U ->
  let touched (b : list A) := existsb (eqb (fst e)) b || existsb (eqb (snd e)) b in
  classes U (E ++ [e]) (concat (filter touched B) :: filter (fun b => negb (touched b)) B).
Proof.
  intros [H1 [H2 [H3 [H4 H5]]]] U1 U2 touched. assert (P := concat_filter_perm touched B).
  assert (T : forall b, touched b = true <-> In (fst e) b \/ In (snd e) b) by (intro b; unfold touched; rewrite orb_true_iff, !(existsb_eqb eqb eqb_ok); reflexivity).
  assert (M : forall p, In p E -> In p (E ++ [e])) by (intros p Hp; apply in_or_app; left; exact Hp).
  assert (Se : clos_refl_sym_trans A (R (E ++ [e])) (fst e) (snd e)) by (apply rst_step; apply in_or_app; right; left; destruct e; reflexivity).
  assert (L1 : exists b, In b B /\ In (fst e) b) by (apply H3, in_concat in U1; exact U1). assert (L2 : exists b, In b B /\ In (snd e) b) by (apply H3, in_concat in U2; exact U2).
  assert (I1 : In (fst e) (concat (filter touched B))) by (destruct L1 as [b [Hb Hx]]; apply in_concat; exists b; split; [apply filter_In; split; [exact Hb | apply T; auto] | exact Hx]).
  assert (I2 : In (snd e) (concat (filter touched B))) by (destruct L2 as [b [Hb Hx]]; apply in_concat; exists b; split; [apply filter_In; split; [exact Hb | apply T; auto] | exact Hx]).
  split; [|split; [|split; [|split]]].
  - cbn [concat]. eapply Permutation_NoDup; [exact P | exact H1].
  - intros b [<-|Hb]; [intro X; rewrite X in I1; destruct I1 | apply filter_In in Hb; apply H2, Hb].
  - intro x. rewrite <- H3. cbn [concat]. split; intro Hx; [eapply Permutation_in; [apply Permutation_sym; exact P | exact Hx] | eapply Permutation_in; [exact P | exact Hx]].
  - assert (J : forall x, In x (concat (filter touched B)) -> clos_refl_sym_trans A (R (E ++ [e])) x (fst e)).
    { intros x Hx. apply in_concat in Hx as [b [Hb Hx]]. apply filter_In in Hb as [Hb Ht]. apply T in Ht as [Ht|Ht].
      - apply (rst_mono E); [exact M|]. apply (H4 b); assumption.
      - eapply rst_trans; [|apply rst_sym; exact Se]. apply (rst_mono E); [exact M|]. apply (H4 b); assumption. }
    intros b x y [<-|Hb] Hx Hy; [eapply rst_trans; [apply J; exact Hx | apply rst_sym, J; exact Hy]|].
    apply filter_In in Hb as [Hb _]. apply (rst_mono E); [exact M|]. apply (H4 b); assumption.
  - intros x y Hxy. apply in_app_or in Hxy as [Hxy|[E0|[]]].
    + destruct (H5 x y Hxy) as [b [Hb [Hx Hy]]]. destruct (touched b) eqn:Ht.
      * exists (concat (filter touched B)). split; [left; reflexivity|]. split; apply in_concat; exists b; (split; [apply filter_In; auto | assumption]).
      * exists b. split; [right; apply filter_In; rewrite Ht; auto | auto].
    + exists (concat (filter touched B)). split; [left; reflexivity|].
      replace x with (fst e) by (rewrite E0; reflexivity). replace y with (snd e) by (rewrite E0; reflexivity). auto.
Qed.

Lemma concat_singletons (l : list A) : concat (map (fun x => [x]) l) = l.
Proof. induction l as [|x l IH]; cbn; [reflexivity | rewrite IH; reflexivity]. Qed.

Lemma components_ok nodes edges : classes (nodes ++ map fst edges ++ map snd edges) edges (connected_components eqb nodes edges).
Proof.
  unfold connected_components. set (U := nodes ++ map fst edges ++ map snd edges). destruct (nodup_with_ok U) as [N1 N2].
  assert (G : forall es E B, classes U E B -> (forall e, In e es -> In (fst e) U /\ In (snd e) U) ->
    classes U (E ++ es) (fold_left (fun cocos (e : A * A) => let touched (b : list A) := existsb (eqb (fst e)) b || existsb (eqb (snd e)) b in
               concat (filter touched cocos) :: filter (fun b => negb (touched b)) cocos) es B)).
  { induction es as [|e es IH]; intros E B HB He; cbn [fold_left]; [rewrite app_nil_r; exact HB|].
    replace (E ++ e :: es) with ((E ++ [e]) ++ es) by (rewrite <- app_assoc; reflexivity). apply IH; [|intros e' He'; apply He; right; exact He'].
    apply components_step; [exact HB | apply He; left; reflexivity | apply He; left; reflexivity]. }
  apply (G edges []).
  - split; [|split; [|split; [|split]]].
    + rewrite concat_singletons. exact N1.
    + intros b Hb. apply in_map_iff in Hb as [x [<- _]]. discriminate.
    + intro x. rewrite concat_singletons. apply N2.
    + intros b x y Hb Hx Hy. apply in_map_iff in Hb as [z [<- _]]. destruct Hx as [<-|[]], Hy as [<-|[]]. apply rst_refl.
    + intros x y [].
  - intros e He. unfold U. rewrite !in_app_iff. split; [right; left; apply in_map; exact He | right; right; apply in_map; exact He].
Qed.

Lemma disjoint_blocks (B : list (list A)) b b' x : NoDup (concat B) -> In b B -> In b' B -> In x b -> In x b' -> b = b'.
Proof.
  induction B as [|c B IH]; intros Hn Hb Hb' Hx Hx'; [destruct Hb|]. cbn [concat] in Hn.
  assert (D : forall t, In t B -> In x t -> In x c -> False).
  { intros t Ht Hxt Hxc. clear -Hn Ht Hxt Hxc. induction c as [|y c IHc]; [destruct Hxc|]. cbn in Hn. inversion_clear Hn as [|? ? Hy Hn']. destruct Hxc as [->|Hxc]; [|apply IHc; assumption].
    apply Hy, in_or_app. right. apply in_concat. exists t. auto. }
  assert (Hn' : NoDup (concat B)) by (clear -Hn; induction c as [|y c IHc]; [exact Hn | inversion_clear Hn; auto]).
  destruct Hb as [<-|Hb], Hb' as [<-|Hb']; [reflexivity | exfalso; apply (D b'); assumption | exfalso; apply (D b); assumption | apply IH; assumption].
Qed.

Lemma classes_rel U E B x y b : classes U E B -> clos_refl_sym_trans A (R E) x y -> In b B -> (In x b <-> In y b).
Proof.
  intros [H1 [_ [_ [_ H5]]]] H Hb. induction H as [x y Hxy| | |]; [|tauto|tauto|tauto].
  destruct (H5 x y Hxy) as [b' [Hb' [Hx Hy]]]. split; intro I; [rewrite (disjoint_blocks B b b' x) by assumption; exact Hy | rewrite (disjoint_blocks B b b' y) by assumption; exact Hx].
Qed.

Lemma components_number U E B : classes U E B ->
  (length B <= 1 <-> forall x y, In x U -> In y U -> clos_refl_sym_trans A (R E) x y) /\ (B = [] <-> U = []).
Proof.
  intro H. assert (H' := H). destruct H' as [H1 [H2 [H3 [H4 _]]]]. split; [split|].
  - intros Hl x y Hx Hy. apply H3, in_concat in Hx as [b [Hb Hx]]. apply H3, in_concat in Hy as [b' [Hb' Hy]].
    destruct B as [|b0 [|? ?]]; [destruct Hb | | cbn in Hl; lia]. destruct Hb as [<-|[]], Hb' as [<-|[]]. apply (H4 b0); [left; reflexivity | exact Hx | exact Hy].
  - intro HC. destruct B as [|b0 [|b1 B]]; [cbn; lia | cbn; lia|]. exfalso.
    assert (N0 := H2 b0 (or_introl eq_refl)). assert (N1 := H2 b1 (or_intror (or_introl eq_refl))). destruct b0 as [|x b0]; [congruence|]. destruct b1 as [|y b1]; [congruence|].
    assert (Hx : In x U) by (apply H3; left; reflexivity). assert (Hy : In y U) by (apply H3; cbn; right; apply in_or_app; right; left; reflexivity).
    assert (I : In y (x :: b0)) by (apply (classes_rel U E _ x y _ H (HC x y Hx Hy)); [left; reflexivity | left; reflexivity]).
    cbn [concat] in H1. clear -H1 I. revert H1 I. generalize (x :: b0). intros l Hn Hi. induction l as [|z l IH]; [destruct Hi|]. cbn in Hn. inversion_clear Hn as [|? ? Hz Hn']. destruct Hi as [->|Hi]; [|apply IH; assumption]. apply Hz, in_or_app. right. left. reflexivity.
  - split.
    + intros ->. cbn [concat] in H3. destruct U as [|u U]; [reflexivity|]. exfalso. apply (H3 u). left; reflexivity.
    + intros ->. destruct B as [|b B]; [reflexivity|]. exfalso. assert (N0 := H2 b (or_introl eq_refl)). destruct b as [|x b]; [congruence|]. apply (H3 x). left; reflexivity.
Qed.
End Components.

Lemma rst_iff {A} (P Q : A -> A -> Prop) x y : (forall a b, P a b <-> Q a b) -> clos_refl_sym_trans A P x y <-> clos_refl_sym_trans A Q x y.
Proof.
  assert (G : forall P Q : A -> A -> Prop, (forall a b, P a b -> Q a b) -> clos_refl_sym_trans A P x y -> clos_refl_sym_trans A Q x y).
  { intros P' Q' H. induction 1 as [x y Hxy| | |]; [apply rst_step, H, Hxy | apply rst_refl | apply rst_sym; assumption | eapply rst_trans; eassumption]. }
  intro H. split; apply G; intros a b; apply H.
Qed.

Lemma find_segments_ok order f : fitting f -> Permutation (order (fullspots f)) (fullspots f) ->
  exists r c, find_segments order f = Ok (r, c) /\ CollectionOfSegments order f = Ok c /\
    (r = true <-> (exists n, full f n) /\ connected (full f) (fun x y => exists k, link f k (x, y)) /\
                  forall k, k < valency f -> connected (link f k) (square f k)).
Proof.
  intros Hf Ho. destruct (collection_ok order f Hf Ho) as [c [Ec [_ Hc]]]. destruct (get_spots_ok f c Hf Hc) as [_ Hs].
  destruct (get_links_ok f c Hf Hc) as [dl [El [Dl Ml]]]. destruct (get_neighboring_links_ok f c Hf Hc) as [dp [Ep [Dp Mp]]].
  unfold find_segments. rewrite Ec. cbn [bind]. rewrite El. cbn [bind]. rewrite Ep. cbn [bind]. unfold coco_spots, coco_links.
  eexists. exists c. split; [reflexivity|]. split; [reflexivity|]. rewrite andb_true_iff, Nat.eqb_eq, forallb_forall.
  assert (K1 := components_ok Nat.eqb Nat.eqb_eq (get_spots c) (concat (map snd dl))). apply components_number in K1 as [N1 N2].
  set (B := connected_components Nat.eqb (get_spots c) (concat (map snd dl))) in *. set (U := get_spots c ++ _ ++ _) in *.
  assert (HE : forall x y, In (x, y) (concat (map snd dl)) <-> exists k, link f k (x, y)).
  { intros x y. rewrite dd_concat_In. split; intros [k H]; exists k; apply Ml; exact H. }
  assert (HU : forall x, In x U <-> full f x).
  { intro x. unfold U. rewrite !in_app_iff, Hs. split; [|tauto]. intros [H|[H|H]]; [exact H | |]; apply in_map_iff in H as [[a b] [<- H]]; apply HE in H as [k L]; apply L. }
  assert (P1 : length B = 1 <-> (exists n, full f n) /\ connected (full f) (fun x y => exists k, link f k (x, y))).
  { split.
    - intro Hl. split.
      + destruct U as [|n U'] eqn:EU; [rewrite (proj2 N2 eq_refl) in Hl; discriminate|]. exists n. apply HU. left; reflexivity.
      + intros x y Hx Hy. apply (rst_iff (fun x y => In (x, y) (concat (map snd dl)))); [exact HE|]. apply N1; [lia | apply HU; exact Hx | apply HU; exact Hy].
    - intros [[n Hn] HC]. assert (length B <= 1).
      { apply N1. intros x y Hx Hy. apply (rst_iff _ (fun x y => exists k, link f k (x, y))); [exact HE|]. apply HC; apply HU; assumption. }
      assert (length B <> 0); [|lia]. intro X. apply length_zero_iff_nil in X. apply N2 in X. apply HU in Hn. rewrite X in Hn. destruct Hn. }
  rewrite P1. clear P1. rewrite and_assoc. apply and_iff_compat_l, and_iff_compat_l.
  assert (P2 : forall k, length (connected_components pair_eqb (dd_get dl k) (dd_get dp k)) <= 1 <-> connected (link f k) (square f k)).
  { intro k. assert (K2 := components_ok pair_eqb pair_eqb_ok (dd_get dl k) (dd_get dp k)). apply components_number in K2 as [M1 _]. rewrite M1. clear M1.
    assert (HE2 : forall p q, In (p, q) (dd_get dp k) <-> square f k p q) by (intros p q; rewrite (dd_get_In dp k (p, q) Dp), Mp; reflexivity).
    assert (HU2 : forall p, In p (dd_get dl k ++ map fst (dd_get dp k) ++ map snd (dd_get dp k)) <-> link f k p).
    { intro p. rewrite !in_app_iff, (dd_get_In dl k p Dl), Ml. split; [|tauto]. intros [H|[H|H]]; [exact H | |]; apply in_map_iff in H as [[a b] [<- H]]; apply HE2 in H; apply H. }
    unfold connected. split; intros H x y Hx Hy.
    - apply (rst_iff (fun x y => In (x, y) (dd_get dp k))); [exact HE2|]. apply H; apply HU2; assumption.
    - apply (rst_iff _ (square f k)); [exact HE2|]. apply H; apply HU2; assumption. }
  split.
  - intros H k Hk. apply P2, Nat.leb_le. apply (H (k, connected_components pair_eqb (dd_get dl k) (dd_get dp k))). apply in_map_iff. exists k. split; [reflexivity | apply range_In; exact Hk].
  - intros H kc Hkc. apply in_map_iff in Hkc as [k [<- Hk]]. cbn [snd]. apply Nat.leb_le, P2, H, range_In, Hk.
Qed.
