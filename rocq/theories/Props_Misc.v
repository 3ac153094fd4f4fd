(** Props_Misc: properties C82 (fractions), C83 (matrices, spectra and tables), C84 (pretty strings,
    sorting, representatives by layers). *)

From Coq Require Import List Arith ZArith QArith Bool Lia Permutation Sorted.
From Verif Require Import Model_Base Lib Model_Binary Model_WalshPerm Model_Splits Model_Perm Model_Boolf Model_Twin Model_BoolfMore Model_MinRep Model_Helpers Model_Layers Model_Misc.
From Verif Require Import Spec_Bits Spec_Boolf Spec_Twin Spec_Splits Spec_Segments Spec_Layers Spec_Misc Spec_WalshPerm Proof_Binary Proof_Numbers Proof_Boolf Proof_BoolfTable Proof_BoolfMake Proof_BoolfWalsh Proof_Deflate Proof_Noble Proof_MinRepCoset Proof_Splits Proof_Layers Proof_Fission Proof_FissionMore Proof_DetMod2 Proof_Fract Proof_Misc Proof_Swan Props_Boolf Props_BoolfMore Props_Twin.
Import ListNotations.
Open Scope nat_scope.

(** * C82 *)

(** weight_fract is the share of true places at any sufficient arity *)
Theorem C82_weight_fract : forall i f, made i f -> exists x, weight_fract f = Ok x /\ Qred x = x /\
  forall n, within n f -> (x == quotient (true_places n f) (2 ^ n))%Q.
Proof.
  intros i f M. assert (F := m_fit i f M). eexists. split; [apply weight_fract_ok; exact F|]. split; [apply Qred_Qred|]. intros n H. apply within_adicity in H. rewrite Qred_correct. apply weight_fract_arity; assumption.
Qed.
Print Assumptions C82_weight_fract.

Lemma places_not f g n : (forall e, sem g e = negb (sem f e)) -> true_places n f + true_places n g = 2 ^ n.
Proof.
  intro H. unfold true_places. rewrite (filter_ext (value g) (fun p => negb (value f p))) by (intro p; apply H). rewrite <- (seq_length (2 ^ n) 0) at 3. generalize (seq 0 (2 ^ n)) as l. intro l. induction l as [|x l IH]; [reflexivity|]. cbn [filter]. destruct (value f x); cbn [negb length]; lia.
Qed.
Lemma places_or f g a o n : (forall e, sem a e = sem f e && sem g e) -> (forall e, sem o e = sem f e || sem g e) -> true_places n f + true_places n g = true_places n a + true_places n o.
Proof.
  intros Ha Ho. unfold true_places. rewrite (filter_ext (value a) (fun p => value f p && value g p)) by (intro p; apply Ha). rewrite (filter_ext (value o) (fun p => value f p || value g p)) by (intro p; apply Ho).
  generalize (seq 0 (2 ^ n)) as l. intro l. induction l as [|x l IH]; [reflexivity|]. cbn [filter]. destruct (value f x), (value g x); cbn [andb orb length]; lia.
Qed.
Lemma quotient_one b : 0 < b -> (quotient b b == 1)%Q.
Proof. intro H. unfold quotient, Qeq. cbn [Qnum Qden]. rewrite <- (positive_nat_Z (Pos.of_nat b)), Nat2Pos.id by lia. lia. Qed.
Lemma quotient_zero a b : 0 < b -> ((quotient a b == 0)%Q <-> a = 0).
Proof. intro H. unfold quotient, Qeq. cbn [Qnum Qden]. lia. Qed.
Lemma quotient_full a b : 0 < b -> ((quotient a b == 1)%Q <-> a = b).
Proof. intro H. unfold quotient, Qeq. cbn [Qnum Qden]. rewrite <- (positive_nat_Z (Pos.of_nat b)), Nat2Pos.id by lia. lia. Qed.

(** complements add up to one; shares of union and intersection *)
Theorem C82_weight_operations : forall f g c a o x y z u v, made true f -> made true g ->
  boolf_not f = Ok c -> boolf_and f g = Ok a -> boolf_or f g = Ok o ->
  weight_fract f = Ok x -> weight_fract g = Ok y -> weight_fract c = Ok z -> weight_fract a = Ok u -> weight_fract o = Ok v ->
  (x + z == 1)%Q /\ (u + v == x + y)%Q.
Proof.
  intros f g c a o x y z u v Mf Mg Ec Ea Eo Ex Ey Ez Eu Ev.
  destruct (C29_not f Mf) as (c' & Ec' & Mc & Sc). rewrite Ec in Ec'. injection Ec' as <-. destruct (C29_and f g Mf Mg) as (a' & Ea' & Ma & Sa). rewrite Ea in Ea'. injection Ea' as <-. destruct (C29_or f g Mf Mg) as (o' & Eo' & Mo & So). rewrite Eo in Eo'. injection Eo' as <-.
  set (n := adicity f + adicity g + adicity c + adicity a + adicity o). assert (P := pow2_pos n).
  assert (K : forall i h w, made i h -> weight_fract h = Ok w -> adicity h <= n -> (w == quotient (true_places n h) (2 ^ n))%Q).
  { intros i h w Mh Eh Hh. destruct (C82_weight_fract i h Mh) as (w' & E' & _ & Q). rewrite Eh in E'. injection E' as <-. apply Q. apply within_adicity. exact Hh. }
  rewrite (K true f x Mf Ex ltac:(lia)), (K true g y Mg Ey ltac:(lia)), (K _ c z Mc Ez ltac:(lia)), (K _ a u Ma Eu ltac:(lia)), (K _ o v Mo Ev ltac:(lia)). rewrite !quotient_plus by exact P. split.
  - rewrite (places_not f c n Sc). apply quotient_one. exact P.
  - rewrite (places_or f g a o n Sa So). reflexivity.
Qed.
Print Assumptions C82_weight_operations.

(** the share is 0 or 1 exactly for the constant functions *)
Theorem C82_weight_extremes : forall i f x, made i f -> weight_fract f = Ok x ->
  ((x == 0)%Q <-> forall e, sem f e = false) /\ ((x == 1)%Q <-> forall e, sem f e = true).
Proof.
  intros i f x M E. destruct (C82_weight_fract i f M) as (y & E' & _ & Q). rewrite E in E'. injection E' as <-. set (n := adicity f). assert (P := pow2_pos n). rewrite (Q n) by (apply within_adicity; unfold n; lia).
  rewrite quotient_zero, quotient_full by exact P. assert (T : forall b, (forall p, p < 2 ^ n -> value f p = b) -> forall e, sem f e = b).
  { intros b H e. rewrite (sem_place f n e) by (unfold n; lia). apply H. assert (X := b2n_lt (map e (range n))). rewrite map_length, range_length in X. exact X. }
  unfold true_places. split; split; intro H.
  - apply T. intros p Hp. destruct (value f p) eqn:V; [|reflexivity]. exfalso. apply length_zero_iff_nil in H. assert (I : In p (filter (value f) (seq 0 (2 ^ n)))) by (apply filter_In; split; [apply in_seq; lia | exact V]). rewrite H in I. destruct I.
  - rewrite filter_no; [reflexivity|]. intros p _. apply H.
  - apply T. intros p Hp. assert (X := places_not f f n). destruct (value f p) eqn:V; [reflexivity|]. exfalso. clear X.
    assert (Y : length (filter (fun q => negb (value f q)) (seq 0 (2 ^ n))) + length (filter (value f) (seq 0 (2 ^ n))) = 2 ^ n).
    { rewrite <- (seq_length (2 ^ n) 0) at 3. generalize (seq 0 (2 ^ n)) as l. intro l. induction l as [|q l IH]; [reflexivity|]. cbn [filter]. destruct (value f q); cbn [negb length]; lia. }
    assert (Z0 : length (filter (fun q => negb (value f q)) (seq 0 (2 ^ n))) = 0) by lia. apply length_zero_iff_nil in Z0. assert (I : In p (filter (fun q => negb (value f q)) (seq 0 (2 ^ n)))) by (apply filter_In; split; [apply in_seq; lia | rewrite V; reflexivity]). rewrite Z0 in I. destruct I.
  - rewrite filter_all; [apply seq_length|]. intros p _. apply H.
Qed.
Print Assumptions C82_weight_extremes.

Lemma be_sum l : int_big_endian l = fold_right Nat.add 0 (map (fun p => if nth p l false then 2 ^ (length l - 1 - p) else 0) (seq 0 (length l))).
Proof.
  induction l as [|b l IH]; [reflexivity|]. rewrite be_cons, IH. cbn [length seq map fold_right nth]. f_equal; [destruct b; cbn [Nat.b2n]; rewrite ?Nat.mul_1_l; [f_equal; lia | reflexivity]|].
  rewrite <- seq_shift, map_map. f_equal. apply map_ext. intro p. cbn [nth]. replace (length l - 1 - p) with (S (length l) - 1 - S p) by lia. reflexivity.
Qed.
Lemma table_number_be n f : table_number n f = int_big_endian (ttab f n).
Proof.
  rewrite be_sum, ttab_length. unfold table_number. f_equal. apply map_ext_in. intros p Hp. apply in_seq in Hp. unfold ttab. rewrite nth_map_r by lia. reflexivity.
Qed.

(** value_fract is the number with the binary digits 0.TTT..., where T is the truth table, at any
    sufficient arity *)
Theorem C82_value_fract : forall i f, made i f -> exists x, value_fract f = Ok x /\ Qred x = x /\ (0 <= x <= 1)%Q /\
  forall n, within n f -> (x == quotient (table_number n f) (2 ^ 2 ^ n - 1))%Q.
Proof.
  intros i f M. assert (F := m_fit i f M). eexists. split; [apply value_fract_ok; exact F|]. split; [apply Qred_Qred|]. split.
  - rewrite Qred_correct. assert (D := den_pos (adicity f)). assert (L := be_lt (ttab f (adicity f))). rewrite ttab_length in L. fold (den (adicity f)) in *. unfold quotient, Qle. cbn [Qnum Qden]. rewrite <- (positive_nat_Z (Pos.of_nat (den (adicity f)))), Nat2Pos.id by lia. unfold den in *. lia.
  - intros n H. apply within_adicity in H. rewrite Qred_correct, table_number_be. symmetry. apply value_arity. exact H.
Qed.
Print Assumptions C82_value_fract.

(** different functions have different fractions; they are ordered by the first different place;
    complements add up to one *)
Theorem C82_value_order : forall i j f g x y, made i f -> made j g -> value_fract f = Ok x -> value_fract g = Ok y ->
  ((x == y)%Q <-> forall e, sem f e = sem g e) /\ ((x < y)%Q <-> first_smaller f g) /\ ((forall e, sem g e = negb (sem f e)) -> (x + y == 1)%Q).
Proof.
  intros i j f g x y Mf Mg Ex Ey. assert (Ff := m_fit i f Mf). assert (Fg := m_fit j g Mg). rewrite value_fract_ok in Ex, Ey by assumption. assert (K : forall a b : Q, Ok a = Ok b -> a = b) by (intros a b X; congruence). apply K in Ex, Ey.
  set (n := adicity f + adicity g). assert (Hf : adicity f <= n) by (unfold n; lia). assert (Hg : adicity g <= n) by (unfold n; lia).
  assert (Qx : (x == quotient (int_big_endian (ttab f n)) (den n))%Q) by (rewrite <- Ex, Qred_correct; symmetry; apply value_arity; exact Hf).
  assert (Qy : (y == quotient (int_big_endian (ttab g n)) (den n))%Q) by (rewrite <- Ey, Qred_correct; symmetry; apply value_arity; exact Hg). clear Ex Ey. rewrite Qx, Qy. clear Qx Qy. split; [|split].
  - split; [intro H; apply (value_inj f g n); assumption|]. intro H. replace (ttab g n) with (ttab f n); [reflexivity|]. unfold ttab. apply map_ext. intro p. apply H.
  - apply value_lt; assumption.
  - intro H. replace (ttab g n) with (map negb (ttab f n)) by (unfold ttab; rewrite map_map; apply map_ext; intro p; symmetry; apply H). rewrite quotient_plus by apply den_pos. rewrite Nat.add_comm, be_negb, ttab_length. apply quotient_one. apply den_pos.
Qed.
Print Assumptions C82_value_order.

Example C82_ex : exists f, Boolf_vec [false; true; false; false; false; true; true; true] [0; 2; 3] = Ok f /\ made false f /\ within 4 f /\ true_places 4 f = 8 /\
  weight_fract f = Ok (1 # 2)%Q /\ value_fract f = Ok (4115 # 13107)%Q.
Proof.
  destruct (Boolf_vec_sorted [false; true; false; false; false; true; true; true] [0; 2; 3]) as (f & E & R & _); [repeat constructor | reflexivity|].
  exists f. split; [exact E|]. split; [apply reduced_made; exact R|]. vm_compute in E. injection E as <-. split; [intros a [<-|[<-|[<-|[]]]]; lia|]. vm_compute. auto.
Qed.

(** * C83 *)

(** entry i, j of the matrices by orientation: for TR the bits of i are among those of j, for TL
    they are apart, for BR they are all bits together, for BL the bits of j are among those of i *)
Definition sierpinski_entry (o : orientation) (n i j : nat) : bool :=
  match o with
  | TR => Nat.eqb (Nat.land i j) i
  | TL => Nat.eqb (Nat.land i j) 0
  | BR => Nat.eqb (Nat.lor i j) (2 ^ n - 1)
  | BL => Nat.eqb (Nat.land i j) j
  end.
Lemma entry_ok o n i j : i < 2 ^ n -> j < 2 ^ n -> Nat.eqb (Nat.land (pos_of o n i) (col_of o n j)) (pos_of o n i) = sierpinski_entry o n i j.
Proof.
  intros Hi Hj. apply eq_true_iff_eq. rewrite Nat.eqb_eq, land_subset.
  assert (B : forall k, n <= k -> Nat.testbit i k = false /\ Nat.testbit j k = false) by (intros k Hk; split; apply (bit_above _ n); assumption).
  assert (O : 2 ^ n - 1 = Nat.ones n) by (rewrite Nat.ones_equiv; lia).
  destruct o; cbn [pos_of col_of sierpinski_entry]; rewrite Nat.eqb_eq.
  - split.
    + intro H. apply Nat.bits_inj. intro k. rewrite Nat.land_spec, Nat.bits_0. specialize (H k). rewrite flip_bit in H by exact Hj. destruct (Nat.testbit i k); [|reflexivity]. specialize (H eq_refl). apply andb_true_iff in H as [_ H]. apply negb_true_iff in H. rewrite H. reflexivity.
    + intros H k Hk. rewrite flip_bit by exact Hj. assert (L : k < n) by (destruct (Nat.lt_ge_cases k n) as [|X]; [assumption|]; apply B in X; destruct X; congruence). rewrite (proj2 (Nat.ltb_lt _ _) L). apply (f_equal (fun x => Nat.testbit x k)) in H. rewrite Nat.land_spec, Hk, Nat.bits_0 in H. cbn in *. rewrite H. reflexivity.
  - symmetry. apply land_subset.
  - rewrite Nat.land_comm, land_subset. split.
    + intros H k Hk. destruct (Nat.testbit i k) eqn:E; [reflexivity|]. specialize (H k). rewrite !flip_bit in H by assumption. assert (L : k < n) by (destruct (Nat.lt_ge_cases k n) as [|X]; [assumption|]; apply B in X; destruct X; congruence). rewrite (proj2 (Nat.ltb_lt _ _) L), E, Hk in H. cbn in H. apply H. reflexivity.
    + intros H k. rewrite !flip_bit by assumption. intro X. apply andb_true_iff in X as [X1 X2]. rewrite X1. cbn. destruct (Nat.testbit j k) eqn:E; [|reflexivity]. rewrite (H k E) in X2. discriminate.
  - rewrite O. split.
    + intro H. apply Nat.bits_inj. intro k. rewrite Nat.lor_spec. destruct (Nat.lt_ge_cases k n) as [L|L].
      * rewrite Nat.ones_spec_low by lia. specialize (H k). rewrite flip_bit, (proj2 (Nat.ltb_lt _ _) L) in H by exact Hi. destruct (Nat.testbit i k); [reflexivity|]. cbn in *. apply H. reflexivity.
      * rewrite Nat.ones_spec_high by lia. destruct (B k L) as [-> ->]. reflexivity.
    + intros H k. rewrite flip_bit by exact Hi. intro X. apply andb_true_iff in X as [X1 X2]. apply Nat.ltb_lt in X1. apply (f_equal (fun x => Nat.testbit x k)) in H. rewrite Nat.lor_spec, Nat.ones_spec_low in H by lia. apply negb_true_iff in X2. rewrite X2 in H. exact H.
Qed.
Theorem C83_sierpinski : forall o n, 0 < n -> exists m, sierpinski o (Some n) None = Ok m /\ sierpinski o None (Some (2 ^ n)) = Ok m /\
  length m = 2 ^ n /\ (forall row, In row m -> length row = 2 ^ n) /\
  forall i j, i < 2 ^ n -> j < 2 ^ n -> nth j (nth i m []) false = sierpinski_entry o n i j.
Proof.
  intros o n Hn. eexists. split; [apply (sierpinski_rows o n); auto|]. split; [apply (sierpinski_rows o n); auto|]. split; [rewrite map_length; apply range_length|]. split.
  - intros r Hr. apply in_map_iff in Hr as (i & <- & _). rewrite map_length. apply range_length.
  - intros i j Hi Hj. rewrite nth_map_r by exact Hi. rewrite nth_map_r by exact Hj. apply entry_ok; assumption.
Qed.
Print Assumptions C83_sierpinski.
Lemma half_split n : exists a x, n = 2 * a + Nat.b2n x.
Proof. exists (n / 2), (Nat.odd n). rewrite <- Nat.bit0_odd, Nat.testbit_spec'. cbn [Nat.pow]. rewrite Nat.div_1_r. apply Nat.div_mod. lia. Qed.
Lemma land_sum i : forall j, Nat.eqb (Nat.land i j) 0 = Nat.eqb (Nat.land i (i + j)) i.
Proof.
  induction i as [i IH] using lt_wf_ind. intro j. destruct (Nat.eq_dec i 0) as [->|Hi]; [rewrite !Nat.land_0_l; reflexivity|].
  destruct (half_split i) as (a & x & Ei). destruct (half_split j) as (b & y & Ej). specialize (IH a ltac:(destruct x; cbn in Ei; lia) b).
  assert (E0 : Nat.land i j = 2 * Nat.land a b + Nat.b2n (x && y)) by (rewrite Ei, Ej; apply land_double).
  destruct (x && y) eqn:XY.
  - apply andb_true_iff in XY as [-> ->]. cbn [Nat.b2n] in *. assert (E1 : i + j = 2 * (a + b + 1) + Nat.b2n false) by (cbn [Nat.b2n]; lia). rewrite E0, E1. replace (Nat.land i (2 * (a + b + 1) + Nat.b2n false)) with (2 * Nat.land a (a + b + 1) + Nat.b2n (true && false)) by (rewrite <- land_double, Ei; reflexivity).
    cbn [andb Nat.b2n]. rewrite !(proj2 (Nat.eqb_neq _ _)) by lia. reflexivity.
  - assert (E1 : i + j = 2 * (a + b) + Nat.b2n (x || y)) by (destruct x, y; cbn in *; try discriminate; lia). rewrite E0, E1. cbn [Nat.b2n]. replace (Nat.land i (2 * (a + b) + Nat.b2n (x || y))) with (2 * Nat.land a (a + b) + Nat.b2n (x && (x || y))) by (rewrite <- land_double, Ei; reflexivity).
    replace (x && (x || y)) with x by (destruct x; reflexivity). rewrite Nat.add_0_r. destruct (Nat.eqb_spec (Nat.land a b) 0) as [C|C], (Nat.eqb_spec (Nat.land a (a + b)) a) as [D|D]; try discriminate.
    + rewrite !(proj2 (Nat.eqb_eq _ _)) by lia. reflexivity.
    + rewrite !(proj2 (Nat.eqb_neq _ _)) by lia. reflexivity.
Qed.
(** the orientations BL and TL show Pascal's triangle modulo 2 *)
Theorem C83_pascal : forall n m, 0 < n ->
  (sierpinski BL (Some n) None = Ok m -> forall i j, i < 2 ^ n -> j < 2 ^ n -> nth j (nth i m []) false = Nat.odd (pascal i j)) /\
  (sierpinski TL (Some n) None = Ok m -> forall i j, i < 2 ^ n -> j < 2 ^ n -> nth j (nth i m []) false = Nat.odd (pascal (i + j) i)).
Proof.
  intros n m Hn. split; intros E i j Hi Hj.
  - destruct (C83_sierpinski BL n Hn) as (m' & E' & _ & _ & _ & H). rewrite E in E'. injection E' as <-. rewrite H by assumption. cbn [sierpinski_entry]. rewrite pascal_odd, Nat.land_comm. reflexivity.
  - destruct (C83_sierpinski TL n Hn) as (m' & E' & _ & _ & _ & H). rewrite E in E'. injection E' as <-. rewrite H by assumption. cbn [sierpinski_entry]. rewrite pascal_odd. apply land_sum.
Qed.
Print Assumptions C83_pascal.
Theorem C83_sierpinski_rejected : forall o,
  (forall d s, sierpinski o (Some d) (Some s) = Err ArgComboError) /\ sierpinski o None None = Err ArgComboError /\
  sierpinski o (Some 0) None = Err ArgValueError /\ (forall s, s < 2 -> sierpinski o None (Some s) = Err ArgTooSmallError) /\
  (forall s, 2 <= s -> (forall n, s <> 2 ^ n) -> sierpinski o None (Some s) = Err ArgValueError).
Proof.
  intro o. split; [reflexivity|]. split; [reflexivity|]. split; [reflexivity|]. split.
  - intros s Hs. unfold sierpinski. rewrite (proj2 (Nat.leb_gt _ _)) by lia. reflexivity.
  - intros s Hs Hn. unfold sierpinski. rewrite (proj2 (Nat.leb_le _ _)) by lia. cbn [true_except bind]. destruct (log_int s) as [n|e] eqn:E.
    + apply log_int_inv in E. destruct (Hn n E).
    + unfold log_int in E. destruct (Nat.ltb 0 s); cbn [true_except bind] in E; [|injection E as <-; reflexivity]. destruct (is_power_of_two s); cbn [true_except bind] in E; [discriminate | injection E as <-; reflexivity].
Qed.
Print Assumptions C83_sierpinski_rejected.
Example C83_ex_sierpinski : sierpinski TL (Some 2) None = Ok [[true; true; true; true]; [true; false; true; false]; [true; true; false; false]; [true; false; false; false]] /\
  sierpinski BL None (Some 4) = Ok [[true; false; false; false]; [true; true; false; false]; [true; false; true; false]; [true; true; true; true]] /\
  sierpinski TR None (Some 6) = Err ArgValueError.
Proof. vm_compute. auto. Qed.

(** diagonal_adjacency_matrix: rows and columns are the true places of the root in increasing
    order, the entries off the diagonal 1 or -1 by the number of different bits *)
Theorem C83_diagonals : forall i f minus, made i f ->
  ((forall a b, full f a -> full f b -> a <> b -> count_ones (Nat.lxor a b) <= length minus) ->
   exists vs m, StronglySorted lt vs /\ (forall a, In a vs <-> full f a) /\ diagonal_adjacency_matrix f minus = Ok m /\ length m = length vs /\
     (forall row, In row m -> length row = length vs) /\
     forall x y, x < length vs -> y < length vs -> nth y (nth x m []) 0%Z =
       if Nat.eqb x y then 0%Z else if nth (count_ones (Nat.lxor (nth x vs 0) (nth y vs 0)) - 1) minus false then (-1)%Z else 1%Z) /\
  ((exists a b, full f a /\ full f b /\ a <> b /\ length minus < count_ones (Nat.lxor a b)) -> diagonal_adjacency_matrix f minus = Err IndexErr).
Proof.
  intros i f minus M. destruct (diagonal_ok f minus (m_fit i f M)) as [D1 D2]. split; [|exact D2]. intro H. exists (fullspots f). eexists. split; [apply binv_exposet_sorted|]. split; [apply binv_exposet_In|].
  split; [apply D1; exact H|]. unfold mat. split; [rewrite map_length; apply range_length|]. split.
  - intros r Hr. apply in_map_iff in Hr as (x & <- & _). rewrite map_length. apply range_length.
  - intros x y Hx Hy. rewrite nth_map_r by exact Hx. rewrite nth_map_r by exact Hy. reflexivity.
Qed.
Print Assumptions C83_diagonals.
Example C83_ex_diagonals : exists f, Boolf_vec [true; true; false; true; false; false; false; true] [0; 2; 3] = Ok f /\ made false f /\
  diagonal_adjacency_matrix f [false; true; false] = Ok [[0; 1; -1; 1]; [1; 0; 1; -1]; [-1; 1; 0; 1]; [1; -1; 1; 0]]%Z /\
  diagonal_adjacency_matrix f [false; true] = Err IndexErr.
Proof.
  destruct (Boolf_vec_sorted [true; true; false; true; false; false; false; true] [0; 2; 3]) as (f & E & R & _); [repeat constructor | reflexivity|].
  exists f. split; [exact E|]. split; [apply reduced_made; exact R|]. vm_compute in E. injection E as <-. vm_compute. auto.
Qed.

(** spread_vector: entry i is the number of missing atoms below the i-th atom *)
Lemma ascending_below l i : StronglySorted lt l -> i < length l -> length (filter (fun a => negb (memb a l)) (seq 0 (nth i l 0))) = nth i l 0 - i /\ i <= nth i l 0.
Proof.
  intros W Hi. set (x := nth i l 0). assert (T : length (filter (fun a => negb (memb a l)) (seq 0 x)) + length (filter (fun a => memb a l) (seq 0 x)) = x).
  { rewrite <- (seq_length x 0) at 3. generalize (seq 0 x) as s. intro s. induction s as [|a s IH]; [reflexivity|]. cbn [filter]. destruct (memb a l); cbn [negb length]; lia. }
  assert (P : Permutation (filter (fun a => memb a l) (seq 0 x)) (firstn i l)).
  { assert (N := sorted_lt_NoDup l W). apply NoDup_Permutation.
    - apply NoDup_filter, seq_NoDup.
    - rewrite <- (firstn_skipn i l) in N. clear - N. induction (firstn i l) as [|a s IH]; [constructor|]. cbn in N. apply NoDup_cons_iff in N as [N1 N2]. constructor; [intro H; apply N1; apply in_or_app; auto | apply IH; exact N2].
    - intro a. rewrite filter_In, in_seq, memb_In. assert (S := proj1 (Proof_Helpers.sorted_nth l 0) W). split.
      + intros [[_ H1] H2]. apply (In_nth _ _ 0) in H2 as (k & Hk & <-). cbn in H1. assert (k < i). { destruct (Nat.lt_trichotomy k i) as [|[->|C]]; [assumption | unfold x in H1; lia|]. specialize (S i k C Hk). unfold x in H1. lia. }
        rewrite <- (firstn_skipn i l) at 1. rewrite app_nth1 by (rewrite firstn_length; lia). apply nth_In. rewrite firstn_length. lia.
      + intro H. apply (In_nth _ _ 0) in H as (k & Hk & <-). rewrite firstn_length in Hk. assert (E : nth k (firstn i l) 0 = nth k l 0) by (rewrite <- (firstn_skipn i l) at 2; rewrite app_nth1 by (rewrite firstn_length; lia); reflexivity). rewrite E. split; [split; [lia|]; cbn; apply S; lia | apply nth_In; lia]. }
  apply Permutation_length in P. rewrite firstn_length in P. lia.
Qed.
Theorem C83_spread : forall i f, made i f ->
  spread_vector f = map (fun a => length (filter (fun b => negb (existsb (Nat.eqb b) (atomvals f))) (seq 0 a))) (atomvals f) /\
  ((forall x, In x (spread_vector f) -> x = 0) <-> atomvals f = seq 0 (length (atomvals f))).
Proof.
  intros i f M. assert (F := m_fit i f M). assert (W : StronglySorted lt (atomvals f)) by apply F. unfold spread_vector, valency. split.
  - apply (nth_ext _ _ 0 0); rewrite !map_length, range_length; [reflexivity|]. intros k Hk. rewrite nth_map_r by exact Hk.
    rewrite (nth_indep (map _ _) 0 ((fun a => length (filter (fun b => negb (existsb (Nat.eqb b) (atomvals f))) (seq 0 a))) 0)) by (rewrite map_length; exact Hk). rewrite (map_nth (fun a => length (filter (fun b => negb (existsb (Nat.eqb b) (atomvals f))) (seq 0 a)))).
    symmetry. apply (ascending_below (atomvals f) k W Hk).
  - split; intro H.
    + apply (nth_ext _ _ 0 0); [rewrite seq_length; reflexivity|]. intros k Hk. rewrite seq_nth by exact Hk. destruct (ascending_below _ k W Hk) as [_ L]. assert (X := H (nth k (atomvals f) 0 - k) ltac:(apply in_map_iff; exists k; split; [reflexivity | apply range_In; exact Hk])). lia.
    + intros x Hx. apply in_map_iff in Hx as (k & <- & Hk). apply range_In in Hk. rewrite H, seq_nth by exact Hk. lia.
Qed.
Print Assumptions C83_spread.

(** inflated_fullspots: the true places of the table at a set of atoms *)
Theorem C83_inflated_fullspots : forall f l s, made true f -> StronglySorted lt s -> (forall a, In a s <-> In a l) ->
  ((forall a, In a (atomvals f) -> In a l) -> exists r, inflated_fullspots f l = Ok r /\ StronglySorted lt r /\
     (forall p, In p r -> p < 2 ^ length s) /\
     forall e p, p < 2 ^ length s -> (forall k, k < length s -> Nat.testbit p k = e (nth k s 0)) -> (In p r <-> sem f e = true)) /\
  (forall a, In a (atomvals f) -> ~ In a l -> inflated_fullspots f l = Err ArgMismatchError).
Proof.
  intros f l s M W H. destruct (C31_tt_atoms f l s M W H) as [T1 T2]. unfold inflated_fullspots. split.
  - intro Hin. destruct (T1 Hin) as (t & E & L & T & _). rewrite E. cbn [bind]. eexists. split; [reflexivity|]. split; [apply binv_exposet_sorted|]. split.
    + intros p Hp. apply binv_exposet_In in Hp. destruct (Nat.lt_ge_cases p (2 ^ length s)) as [|C]; [assumption|]. rewrite nth_overflow in Hp by lia. discriminate.
    + intros e p Hp Hk. rewrite binv_exposet_In. rewrite <- (T e). unfold table. replace (b2n (map e s)) with p; [reflexivity|]. apply Nat.bits_inj. intro k. rewrite testbit_b2n. destruct (Nat.lt_ge_cases k (length s)) as [C|C].
      * rewrite Hk by exact C. rewrite (nth_indep (map e s) false (e 0)) by (rewrite map_length; exact C). rewrite map_nth. reflexivity.
      * rewrite (bit_above p (length s)) by assumption. symmetry. apply nth_overflow. rewrite map_length. exact C.
  - intros a Ha Hn. rewrite (T2 a Ha Hn). reflexivity.
Qed.
Print Assumptions C83_inflated_fullspots.

(** absolute and layered Walsh spectra: by the numbers of ones of the places *)
Theorem C83_walsh_layers : forall i f n, made i f -> within n f -> let ws k := zsum (fun j => if value f j then sgn (dot n k j) else 0%Z) (2 ^ n) in
  let layer w := filter (fun k => Nat.eqb (count_ones k) w) (seq 0 (2 ^ n)) in
  walsh_spectrum_abs f (TtArity n) = Ok (map (fun k => Z.abs (ws k)) (seq 0 (2 ^ n))) /\
  walsh_spectrum_layered f (TtArity n) = Ok (map (fun w => map ws (layer w)) (seq 0 (S n))) /\
  walsh_spectrum_abs_layered f (TtArity n) = Ok (map (fun w => map (fun k => Z.abs (ws k)) (layer w)) (seq 0 (S n))).
Proof.
  intros i f n M Hn ws layer. destruct (C53_spectrum i f n M Hn) as (l & E & L & V).
  assert (El : l = map ws (range (2 ^ n))) by (apply (nth_ext _ _ 0%Z 0%Z); [rewrite map_length, range_length; exact L|]; intros k Hk; rewrite L in Hk; rewrite nth_map_r by exact Hk; apply V; exact Hk).
  unfold walsh_spectrum_abs_layered, walsh_spectrum_layered, walsh_spectrum_abs. rewrite E, El. cbn [bind]. rewrite map_map. split; [reflexivity|]. rewrite !flat_to_layered_spec. unfold range. rewrite Nat.add_1_r. split; reflexivity.
Qed.
Print Assumptions C83_walsh_layers.
Example C83_ex_tables : exists f, Boolf_vec [false; true; true; true] [1; 4] = Ok f /\ made false f /\
  spread_vector f = [1; 3] /\ inflated_fullspots f [4; 0; 1] = Ok [2; 3; 4; 5; 6; 7] /\ inflated_fullspots f [4; 0] = Err ArgMismatchError /\
  walsh_spectrum_layered f (TtAtoms [1; 4]) = Ok [[3]; [-1; -1]; [-1]]%Z /\ walsh_spectrum_abs_layered f (TtAtoms [1; 4]) = Ok [[3]; [1; 1]; [1]]%Z.
Proof.
  destruct (Boolf_vec_sorted [false; true; true; true] [1; 4]) as (f & E & R & _); [repeat constructor | reflexivity|].
  exists f. split; [exact E|]. split; [apply reduced_made; exact R|]. vm_compute in E. injection E as <-. vm_compute. auto 6.
Qed.

(** mod_tt_perm: the value at place p is that at the place whose bit perm(k) is bit k of p *)
Theorem C83_permuted_table : forall linv tt perm n, exact_inverse linv -> Permutation perm (seq 0 n) -> length tt = 2 ^ n ->
  exists r, mod_tt_perm linv tt perm = Ok r /\ length r = 2 ^ n /\
    forall p q, p < 2 ^ n -> q < 2 ^ n -> (forall k, k < n -> Nat.testbit q (nth k perm 0) = Nat.testbit p k) -> nth p r false = nth q tt false.
Proof. exact mod_tt_perm_ok. Qed.
Print Assumptions C83_permuted_table.

(** * C84 *)

(** to_pretty_string accepts tables of at most 6 atoms and puts a space after each four digits and a
    second one after each sixteen; the digits can be read back *)
Theorem C84_pretty : forall v,
  ((exists d, d <= 6 /\ length v = 2 ^ d) -> exists s, to_pretty_string v = Ok s /\ digits_of s = v /\
     length s = length v + (length v - 1) / 4 + (length v - 1) / 16 /\
     forall k, k < length v -> nth (k + k / 4 + k / 16) s Space = Digit (nth k v false)) /\
  (~ (exists d, d <= 6 /\ length v = 2 ^ d) -> to_pretty_string v = Err ValueErr).
Proof.
  intro v. split; [|apply pretty_err]. intro H. eexists. split; [apply pretty_ok; exact H|]. split; [apply digits_pretty|]. split.
  - assert (N : v <> []) by (destruct H as (d & _ & H); intros ->; cbn in H; assert (X := pow2_pos d); lia). assert (X := pretty_len v 0 N). cbn [Nat.add] in X. change (0 / 4 + 0 / 16) with 0 in X. lia.
  - intros k Hk. assert (X := pretty_places v 0 k Hk). cbn [Nat.add] in X. change (0 / 4 + 0 / 16) with 0 in X. rewrite Nat.sub_0_r, Nat.add_assoc in X. exact X.
Qed.
Print Assumptions C84_pretty.

(** sorted_colex: the same lists, sorted by their last difference *)
Theorem C84_sorted_colex : forall A (cmp : A -> A -> comparison) ls, total_order cmp ->
  Permutation (sorted_colex cmp ls) ls /\ StronglySorted (fun l m => l = m \/ colex_less (fun a b => cmp a b = Lt) l m) (sorted_colex cmp ls).
Proof. intros A cmp ls. apply sorted_colex_ok. Qed.
Print Assumptions C84_sorted_colex.

(** boolfs_to_swan: the greatest or smallest function by the numbers of true places in the layers,
    then the layers, then the truth table; the order of the collection does not matter *)
Theorem C84_swan : forall v l, l <> [] -> (forall f, In f l -> made false f /\ within 6 f) ->
  exists f, boolfs_to_swan l v = Ok f /\ In f l /\ (forall g, In g l -> g = f \/ if v then swan_less v g f else swan_less v f g) /\
    forall l', Permutation l l' -> boolfs_to_swan l' v = Ok f.
Proof.
  intros v l Hl H. assert (H' : forall f, In f l -> reduced f /\ adicity f <= 6) by (intros f Hf; destruct (H f Hf) as [Mf Wf]; split; [apply m_red; exact Mf | apply within_adicity; exact Wf]).
  destruct (swan_ok v l Hl H') as (f & E & I & B). exists f. split; [exact E|]. split; [exact I|]. split; [exact B|]. intros l' P. rewrite <- E. symmetry. apply swan_perm; assumption.
Qed.
Print Assumptions C84_swan.
Theorem C84_swan_rejected : forall v, boolfs_to_swan [] v = Err IndexErr /\
  forall l f, (forall g, In g l -> made false g) -> In f l -> ~ within 6 f -> boolfs_to_swan l v = Err ValueErr.
Proof.
  intro v. split; [reflexivity|]. intros l f H Hf Hw. apply (swan_reject v l f); [intros g Hg; apply m_red, H; exact Hg | exact Hf|]. rewrite within_adicity in Hw. lia.
Qed.
Print Assumptions C84_swan_rejected.
Example C84_ex : exists f g h, Boolf_vec [false; true; true; false] [0; 1] = Ok f /\ Boolf_vec [true; false; false; true] [0; 2] = Ok g /\ Boolf_vec [false; true; true; false] [1; 2] = Ok h /\
  (forall k, In k [f; g; h] -> made false k /\ within 6 k) /\ boolfs_to_swan [f; g; h] true = Ok g /\ boolfs_to_swan [f; g; h] false = Ok h /\ boolfs_to_swan [h; f] true = Ok f /\
  sorted_colex Nat.compare [[2; 1]; [1; 2]; [3; 1]; [1]] = [[1]; [2; 1]; [3; 1]; [1; 2]] /\
  to_pretty_string [true; false; true; true; false; true; true; true] = Ok [Digit true; Digit false; Digit true; Digit true; Space; Digit false; Digit true; Digit true; Digit true] /\
  to_pretty_string [true; false; true] = Err ValueErr.
Proof.
  destruct (Boolf_vec_sorted [false; true; true; false] [0; 1]) as (f & Ef & Rf & _); [repeat constructor | reflexivity|].
  destruct (Boolf_vec_sorted [true; false; false; true] [0; 2]) as (g & Eg & Rg & _); [repeat constructor | reflexivity|].
  destruct (Boolf_vec_sorted [false; true; true; false] [1; 2]) as (h & Eh & Rh & _); [repeat constructor | reflexivity|].
  exists f, g, h. split; [exact Ef|]. split; [exact Eg|]. split; [exact Eh|]. split.
  - intros k [<-|[<-|[<-|[]]]]; (split; [apply reduced_made; assumption|]); intro a.
    + vm_compute in Ef. injection Ef as <-. cbn. lia.
    + vm_compute in Eg. injection Eg as <-. cbn. lia.
    + vm_compute in Eh. injection Eh as <-. cbn. lia.
  - vm_compute in Ef, Eg, Eh. injection Ef as <-. injection Eg as <-. injection Eh as <-. vm_compute. auto 8.
Qed.
Example C83_ex_permuted : exact_inverse adj_inverse /\ Permutation [2; 0; 1] (seq 0 3) /\
  mod_tt_perm transpose_inv [false; true; false; false; true; true; true; false] [2; 0; 1] = Ok [false; true; true; true; false; true; false; false].
Proof. split; [exact adj_inverse_exact|]. split; [|vm_compute; reflexivity]. apply (perm_trans (l' := [0; 2; 1])); repeat constructor. Qed.
