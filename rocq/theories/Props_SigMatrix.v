(** C131: the matrices of signed permutations as linear maps *)

From Coq Require Import List Arith ZArith Bool Lia Permutation.
From Verif Require Import Model_Base Model_Perm Model_SigPerm Model_SigMatrix Lib Spec_Perm Spec_SigPerm Proof_SigPerm Proof_SigPermMore Proof_SigPermOps Props_SigPerm.
Import ListNotations.
Open Scope nat_scope.

(** the scalar product; a matrix times a column is the scalar product of every row with it *)
Fixpoint dot (u v : list Z) : Z :=
  match u, v with x :: u', y :: v' => (x * y + dot u' v')%Z | _, _ => 0%Z end.

Lemma dot_zero u v : (forall x, In x u -> x = 0%Z) -> dot u v = 0%Z.
Proof.
  revert v. induction u as [|x u IH]; intros [|y v] H; try reflexivity. cbn [dot]. rewrite (H x (or_introl eq_refl)), IH; [lia|].
  intros z Hz. apply H. right. exact Hz.
Qed.

Lemma dot_single i c : forall u v, length u = length v -> i < length v ->
  (forall k x, nth_error u k = Some x -> x = if Nat.eqb k i then c else 0%Z) -> dot u v = (c * nth i v 0)%Z.
Proof.
  induction i as [|i IH]; intros [|x u] [|y v] L Hi H; cbn [length] in *; try lia; cbn [dot nth].
  - rewrite (H 0 x eq_refl). cbn [Nat.eqb]. rewrite dot_zero; [lia|]. intros z Hz. apply In_nth_error in Hz as (k & Hk). exact (H (S k) z Hk).
  - rewrite (H 0 x eq_refl). cbn [Nat.eqb]. rewrite (IH u v); [lia | lia | lia|]. intros k z Hk. exact (H (S k) z Hk).
Qed.

(** the row j of the matrix has one entry, in the column that is mapped to j *)
Lemma row_single n m f i row v : shows n m f -> bijective (fun k => atom (f k)) -> nth_error m (atom (f i)) = Some row -> i < n -> length v = n ->
  dot row v = ((if negated (f i) then -1 else 1) * nth i v 0)%Z.
Proof.
  intros (_ & S) (Bi & _) R Hi Lv. destruct (S _ _ R) as (Lr & E). apply dot_single; [congruence | lia|].
  intros k x Hk. rewrite (E k x Hk). destruct (Nat.eqb_spec k i) as [->|N]; [rewrite Nat.eqb_refl; reflexivity|].
  destruct (Nat.eqb_spec (atom (f k)) (atom (f i))) as [F|]; [|reflexivity]. exfalso. apply N, Bi, F.
Qed.

Lemma reaches s f n j : is_SigPerm s -> acts s f -> sg_length s <= n -> j < n -> exists i, i < n /\ atom (f i) = j.
Proof.
  intros H A L Hj. destruct (C13_sequence s H) as (g & G & (_ & B) & Lg & _). destruct (B j) as (i & Ei). exists i.
  assert (F := C13_action_unique s f g H A G). rewrite F. split; [|exact Ei].
  destruct (Nat.lt_ge_cases i n) as [|Q]; [assumption|]. exfalso. rewrite (proj1 (Lg n) L i Q) in Ei. unfold atom in Ei.
  destruct (Z.ltb_spec (Z.of_nat i) 0); lia.
Qed.

(** apply_on_vector gives the matrix times the vector, but with ~x = -x-1 in the place of -x: the difference is the
    negation of values, as listed by the digits of valneg_index *)
Theorem C131_vector : forall s v, is_SigPerm s -> sg_length s <= length v ->
  exists m r, sg_matrix s (Some (length v)) = Ok m /\ sg_apply s v = Ok r /\ length m = length v /\ length r = length v /\
    forall j row x, nth_error m j = Some row -> nth_error r j = Some x ->
      x = (dot row v - if Nat.testbit (sg_valneg_index s) j then 1 else 0)%Z.
Proof.
  intros s v H L. destruct (C13_sequence s H) as (f & A & B & _).
  destruct (C13_matrix s f (length v) H A L) as (m & _ & E & S & _). destruct (proj1 (C13_apply_vector s f v H A) L) as (r & Er & Lr & R).
  exists m, r. split; [exact E|]. split; [exact Er|]. split; [apply S|]. split; [exact Lr|]. intros j row x Hj Hx.
  assert (Q : j < length v) by (rewrite <- Lr; apply nth_error_Some; congruence).
  destruct (reaches s f (length v) j H A L Q) as (i & Hi & <-).
  rewrite (row_single (length v) m f i row v S B Hj Hi eq_refl), (proj1 (C13_negator_indices s f H A)).
  destruct (nth_error v i) as [y|] eqn:Y; [|apply nth_error_None in Y; lia].
  assert (Z1 := R i y Y). rewrite Hx in Z1. injection Z1 as ->. rewrite (nth_error_nth v i 0%Z Y). destruct (negated (f i)); [unfold neg|]; lia.
Qed.

(** the matrices are orthogonal: two rows have the scalar product 0, and a row with itself 1 *)
Theorem C131_orthogonal : forall s n, is_SigPerm s -> sg_length s <= n ->
  exists m, sg_matrix s (Some n) = Ok m /\ length m = n /\ forall i j u v, nth_error m i = Some u -> nth_error m j = Some v ->
    length u = n /\ dot u v = if Nat.eqb i j then 1%Z else 0%Z.
Proof.
  intros s n H L. destruct (C13_sequence s H) as (f & A & B & _).
  destruct (C13_matrix s f n H A L) as (m & _ & E & S & _). exists m. split; [exact E|]. split; [apply S|]. intros i j u v Hu Hv.
  destruct (proj2 S i u Hu) as (Lu & _). destruct (proj2 S j v Hv) as (Lv & Ev). split; [exact Lu|].
  assert (Qi : i < n) by (rewrite <- (proj1 S); apply nth_error_Some; congruence).
  destruct (reaches s f n i H A L Qi) as (k & Hk & <-). rewrite (row_single n m f k u v S B Hu Hk Lv).
  destruct (nth_error v k) as [y|] eqn:Y; [|apply nth_error_None in Y; lia]. rewrite (nth_error_nth v k 0%Z Y), (Ev k y Y).
  destruct (Nat.eqb (atom (f k)) j), (negated (f k)); reflexivity.
Qed.

Lemma inv_lit f g i : on_literals f (on_literals g (Z.of_nat i)) = Z.of_nat i ->
  atom (f (atom (g i))) = i /\ negated (f (atom (g i))) = negated (g i).
Proof.
  intro E. assert (A : on_literals g (Z.of_nat i) = g i).
  { unfold on_literals, negated. destruct (Z.ltb_spec (Z.of_nat i) 0); [lia|]. f_equal. unfold atom, neg. lia. }
  rewrite A in E. unfold on_literals in E. destruct (negated (g i)).
  - unfold negated, atom, neg in *. destruct (Z.ltb_spec (f (Z.to_nat (Z.max (g i) (-1 - g i)))) 0); split; lia.
  - unfold negated, atom, neg in *. destruct (Z.ltb_spec (f (Z.to_nat (Z.max (g i) (-1 - g i)))) 0); split; lia.
Qed.

(** the matrix of the inverse is the transpose *)
Theorem C131_inverse : forall s n, is_SigPerm s -> sg_length s <= n ->
  exists t m m', sg_inv s = Ok t /\ sg_matrix s (Some n) = Ok m /\ sg_matrix t (Some n) = Ok m' /\ length m = n /\ length m' = n /\
    forall i j u v x, nth_error m i = Some u -> nth_error m' j = Some v -> nth_error u j = Some x -> nth_error v i = Some x.
Proof.
  intros s n H L. destruct (C13_sequence s H) as (f & A & B & Lf & _). destruct (C13_inverse s f H A) as (t & g & E & G & I).
  assert (Ht : is_SigPerm t) by (eapply sig_inv; eassumption).
  assert (F1 : forall i, atom (f (atom (g i))) = i /\ negated (f (atom (g i))) = negated (g i)) by (intro i; apply inv_lit, I).
  assert (F2 : forall i, atom (g (atom (f i))) = i /\ negated (g (atom (f i))) = negated (f i)) by (intro i; apply inv_lit, I).
  assert (Lt : sg_length t <= n).
  { destruct (C13_sequence t Ht) as (g' & G' & _ & Lg & _). apply Lg. intros k Hk. rewrite (C13_action_unique t g' g Ht G' G).
    assert (K := proj1 (Lf n) L k Hk). destruct (F2 k) as (X & Y). rewrite K in X, Y.
    assert (Ak : atom (Z.of_nat k) = k) by (unfold atom, neg; lia). rewrite Ak in X, Y. unfold negated, atom, neg in *.
    destruct (Z.ltb_spec (g k) 0), (Z.ltb_spec (Z.of_nat k) 0); try discriminate; lia. }
  destruct (C13_matrix s f n H A L) as (m & _ & Em & S & _). destruct (C13_matrix t g n Ht G Lt) as (m' & _ & Em' & S' & _).
  exists t, m, m'. split; [exact E|]. split; [exact Em|]. split; [exact Em'|]. split; [apply S|]. split; [apply S'|].
  intros i j u v x Hu Hv Hx. destruct (proj2 S i u Hu) as (Lu & Eu). destruct (proj2 S' j v Hv) as (Lv & Ev).
  assert (Qi : i < n) by (rewrite <- (proj1 S); apply nth_error_Some; congruence).
  destruct (nth_error v i) as [y|] eqn:Y; [|apply nth_error_None in Y; lia]. f_equal. rewrite (Eu j x Hx), (Ev i y Y).
  destruct (Nat.eqb_spec (atom (f j)) i) as [Q|Q].
  - subst i. destruct (F2 j) as (X1 & X2). rewrite X1, X2, Nat.eqb_refl. reflexivity.
  - destruct (Nat.eqb_spec (atom (g i)) j) as [Q'|]; [|reflexivity]. exfalso. subst j. apply Q, F1.
Qed.

(** between sequences and matrices: with [inverse] one gets the sequence and the matrix of the inverse *)
Theorem C131_back : forall s n, is_SigPerm s -> sg_length s <= n ->
  exists t m m' l l', sg_inv s = Ok t /\ sg_matrix s (Some n) = Ok m /\ sg_matrix t (Some n) = Ok m' /\
    sg_sequence s (Some n) = Ok l /\ sg_sequence t (Some n) = Ok l' /\
    matrix_to_sequence_arg m false = Ok l /\ matrix_to_sequence_arg m true = Ok l' /\
    sequence_to_matrix l false = Ok m /\ sequence_to_matrix l true = Ok m'.
Proof.
  intros s n H L. destruct (C131_inverse s n H L) as (t & m & m' & E & Em & Em' & Lm & Lm' & T).
  assert (Ht : is_SigPerm t) by (eapply sig_inv; eassumption).
  assert (Lt : sg_length t <= n).
  { revert Em'. unfold sg_matrix. destruct (Nat.leb_spec (sg_length t) n); [auto | discriminate]. }
  assert (W := is_SigPerm_swf s H). assert (Wt := is_SigPerm_swf t Ht).
  rewrite (matrix_ok s n W L) in Em. injection Em as <-. rewrite (matrix_ok t n Wt Lt) in Em'. injection Em' as <-.
  assert (St : forall k, k < n -> atom (sf s k) < n) by (intros; apply sf_stays; assumption).
  assert (St' : forall k, k < n -> atom (sf t k) < n) by (intros; apply sf_stays; assumption).
  assert (Tr : transpose_matrix n (fmat n (sf s)) = fmat n (sf t)).
  { unfold transpose_matrix, fmat at 2. apply mkmat_ext. intros a b Ha Hb. unfold fmat at 1. rewrite mkmat_entry by assumption.
    assert (X := T b a (map (fun k => if Nat.eqb (atom (sf s k)) b then sgn (sf s k) else 0%Z) (range n)) (map (fun k => if Nat.eqb (atom (sf t k)) a then sgn (sf t k) else 0%Z) (range n))
                   (if Nat.eqb (atom (sf s a)) b then sgn (sf s a) else 0%Z)).
    assert (R : forall (B : Type) (h : nat -> B) k, k < n -> nth_error (map h (range n)) k = Some (h k)).
    { intros B h k Hk. assert (Q : nth_error (map h (range n)) k <> None) by (apply nth_error_Some; rewrite map_length, range_length; exact Hk).
      destruct (nth_error (map h (range n)) k) as [y|] eqn:Y; [|congruence]. rewrite <- (nth_error_nth _ _ (h 0) Y), nth_map_range by exact Hk. reflexivity. }
    unfold fmat, mkmat in X. rewrite !R in X by assumption. specialize (X eq_refl eq_refl eq_refl). congruence. }
  assert (Sq : forallb (fun row => Nat.eqb (length row) n) (fmat n (sf s)) = true).
  { apply forallb_forall. intros row Hr. unfold fmat, mkmat in Hr. apply in_map_iff in Hr as (r & <- & _). rewrite map_length, range_length. apply Nat.eqb_refl. }
  exists t, (fmat n (sf s)), (fmat n (sf t)), (map (sf s) (range n)), (map (sf t) (range n)).
  split; [exact E|]. split; [apply matrix_ok; assumption|]. split; [apply matrix_ok; assumption|].
  split; [apply sequence_ok; assumption|]. split; [apply sequence_ok; assumption|].
  unfold matrix_to_sequence_arg. rewrite Lm, Sq. cbn [true_except bind]. rewrite Tr.
  split; [apply matrix_to_sequence_ok; assumption|]. split; [apply matrix_to_sequence_ok; assumption|].
  assert (M := sequence_to_matrix_ok n (sf s) St). split; [exact M|].
  unfold sequence_to_matrix in M |- *. destruct (foldM _ _ _) as [mat|]; cbn [bind] in *; [|discriminate].
  injection M as ->. rewrite map_length, range_length, Tr. reflexivity.
Qed.

Print Assumptions C131_vector.
Print Assumptions C131_orthogonal.
Print Assumptions C131_inverse.
Print Assumptions C131_back.

(** the signed permutation of sig_perm/_test.py:44-53 *)
(** a matrix that is not square is refused, with both values of the argument; a square one, whatever its entries,
    gives one literal for each entry 1 or -1: the row of the entry, with inverse=True its column *)
Lemma matrix_literal mat x : (forall row, In row mat -> length row = length mat) ->
  exists l, matrix_to_sequence mat = Ok l /\
    (In x l <-> exists i j, i < length mat /\ j < length mat /\
       ((mat_entry mat i j = 1%Z /\ x = Z.of_nat i) \/ (mat_entry mat i j = (-1)%Z /\ x = (-1 - Z.of_nat i)%Z))).
Proof.
  intro Sq. unfold matrix_to_sequence. cbv zeta.
  assert (G : forallb (fun row => Nat.eqb (length row) (length mat)) mat = true).
  { apply forallb_forall. intros row Hr. apply Nat.eqb_eq, Sq, Hr. }
  rewrite G. eexists. split; [reflexivity|]. rewrite in_flat_map. split.
  - intros (j & Hj & H). apply in_flat_map in H as (i & Hi & H). apply range_In in Hi, Hj. exists i, j. split; [exact Hi|]. split; [exact Hj|].
    destruct (Z.eqb_spec (mat_entry mat i j) 1) as [E|_]; [destruct H as [H|[]]; left; auto|].
    destruct (Z.eqb_spec (mat_entry mat i j) (-1)) as [E|_]; [destruct H as [H|[]]; right; split; [exact E|]; rewrite <- H; unfold tilde; lia|].
    destruct H.
  - intros (i & j & Hi & Hj & H). exists j. split; [apply range_In, Hj|]. apply in_flat_map. exists i. split; [apply range_In, Hi|].
    destruct H as [(E & ->)|(E & ->)]; rewrite E; left; [reflexivity|]. unfold tilde. lia.
Qed.

Theorem C131_shape : forall mat inverse,
  ((exists row, In row mat /\ length row <> length mat) -> matrix_to_sequence_arg mat inverse = Err ValueErr) /\
  ((forall row, In row mat -> length row = length mat) -> exists l, matrix_to_sequence_arg mat inverse = Ok l /\
     forall x, In x l <-> exists i j row y, nth_error mat i = Some row /\ nth_error row j = Some y /\ let k := if inverse then j else i in
       ((y = 1%Z /\ x = Z.of_nat k) \/ (y = (-1)%Z /\ x = (-1 - Z.of_nat k)%Z))).
Proof.
  intros mat inverse. split.
  - intros (row & Hr & N). unfold matrix_to_sequence_arg. cbv zeta.
    destruct (forallb _ mat) eqn:G; [|reflexivity]. exfalso. apply N. rewrite forallb_forall in G. apply Nat.eqb_eq, (G row Hr).
  - intro Sq. unfold matrix_to_sequence_arg. cbv zeta.
    assert (G : forallb (fun row => Nat.eqb (length row) (length mat)) mat = true).
    { apply forallb_forall. intros row Hr. apply Nat.eqb_eq, Sq, Hr. }
    rewrite G. cbn [true_except bind].
    assert (En : forall i j y, i < length mat -> j < length mat -> mat_entry mat i j = y ->
      exists row, nth_error mat i = Some row /\ nth_error row j = Some y).
    { intros i j y Hi Hj E. exists (nth i mat []). split; [apply nth_error_nth', Hi|]. rewrite <- E. unfold mat_entry. apply nth_error_nth'.
      rewrite Sq; [exact Hj | apply nth_In, Hi]. }
    assert (Ne : forall i j row y, nth_error mat i = Some row -> nth_error row j = Some y ->
      i < length mat /\ j < length mat /\ mat_entry mat i j = y).
    { intros i j row y Hi Hj. split; [apply nth_error_Some; congruence|].
      split; [rewrite <- (Sq row) by (eapply nth_error_In; exact Hi); apply nth_error_Some; congruence|].
      unfold mat_entry. rewrite (nth_error_nth _ _ _ Hi). apply (nth_error_nth _ _ _ Hj). }
    destruct inverse.
    + set (tm := transpose_matrix (length mat) mat).
      assert (Lt : length tm = length mat) by (unfold tm, transpose_matrix; rewrite map_length; apply range_length).
      assert (St : forall row, In row tm -> length row = length tm).
      { intros row Hr. rewrite Lt. unfold tm, transpose_matrix in Hr. apply in_map_iff in Hr as (a & <- & _). rewrite map_length. apply range_length. }
      assert (Te : forall a b, a < length mat -> b < length mat -> mat_entry tm a b = mat_entry mat b a).
      { intros a b Ha Hb. unfold tm, transpose_matrix. unfold mat_entry at 1.
        rewrite (nth_indep _ [] (map (fun n => mat_entry mat n 0) (range (length mat)))) by (rewrite map_length, range_length; exact Ha).
        rewrite (map_nth (fun m => map (fun n => mat_entry mat n m) (range (length mat))) _ 0).
        rewrite (nth_indep _ 0%Z (mat_entry mat 0 (nth a (range (length mat)) 0))) by (rewrite map_length, range_length; exact Hb).
        rewrite (map_nth (fun n => mat_entry mat n (nth a (range (length mat)) 0)) _ 0).
        rewrite !nth_range by assumption. reflexivity. }
      destruct (matrix_literal tm 0%Z St) as (l & El & _). exists l. split; [exact El|]. intro x.
      destruct (matrix_literal tm x St) as (l' & El' & Q). rewrite El in El'. injection El' as <-. rewrite Q, Lt. split.
      * intros (i & j & Hi & Hj & H). rewrite Te in H by assumption. destruct (En j i _ Hj Hi eq_refl) as (row & R1 & R2). exists j, i, row, (mat_entry mat j i). auto.
      * intros (i & j & row & y & R1 & R2 & H). destruct (Ne i j row y R1 R2) as (Hi & Hj & E). exists j, i. rewrite Te, E by assumption. auto.
    + destruct (matrix_literal mat 0%Z Sq) as (l & El & _). exists l. split; [exact El|]. intro x.
      destruct (matrix_literal mat x Sq) as (l' & El' & Q). rewrite El in El'. injection El' as <-. rewrite Q. split.
      * intros (i & j & Hi & Hj & H). destruct (En i j _ Hi Hj eq_refl) as (row & R1 & R2). exists i, j, row, (mat_entry mat i j). auto.
      * intros (i & j & row & y & R1 & R2 & H). destruct (Ne i j row y R1 R2) as (Hi & Hj & E). exists i, j. rewrite E. auto.
Qed.
Print Assumptions C131_shape.

Example C131_ex : exists s m, SigPerm_sequence [-3; 0; -2]%Z = Ok s /\ sg_matrix s (Some 4) = Ok m /\ sg_length s = 3 /\ sg_valneg_index s = 6 /\
  map (fun row => dot row [900; 911; 922; 933]%Z) m = [911; -922; -900; 933]%Z /\ sg_apply s [900; 911; 922; 933]%Z = Ok [911; -923; -901; 933]%Z.
Proof. do 2 eexists. repeat split; vm_compute; reflexivity. Qed.
Example C131_ex_back : exists s m, SigPerm_sequence [-3; 0; -2]%Z = Ok s /\ sg_matrix s (Some 4) = Ok m /\
  matrix_to_sequence_arg m false = Ok [-3; 0; -2; 3]%Z /\ matrix_to_sequence_arg m true = Ok [1; -3; -1; 3]%Z /\
  matrix_to_sequence_arg [[1; 0]]%Z true = Err ValueErr.
Proof. do 2 eexists. repeat split; vm_compute; reflexivity. Qed.
(** sig_perm/a/matrix_to_sequence/_test.py *)
Example C131_test : let mat := [[0; 0; 1]; [-1; 0; 0]; [0; 1; 0]]%Z in
  matrix_to_sequence_arg mat false = Ok [-2; 2; 0]%Z /\ matrix_to_sequence_arg mat true = Ok [2; -1; 1]%Z.
Proof. split; vm_compute; reflexivity. Qed.
(** entries of any kind: the columns need not have exactly one literal; a matrix with three rows and two columns is refused *)
Example C131_ex_shape : matrix_to_sequence_arg [[1; -1]; [0; 5]]%Z false = Ok [0; -1]%Z /\ matrix_to_sequence_arg [[1; -1]; [0; 5]]%Z true = Ok [0; -2]%Z /\
  matrix_to_sequence_arg [[1; 0]; [0; 1]; [0; 0]]%Z true = Err ValueErr /\ matrix_to_sequence_arg [[1; 0]; [0; 1]; [0; 0]]%Z false = Err ValueErr.
Proof. repeat split; vm_compute; reflexivity. Qed.
