(** Proof_Misc: Sierpinski matrices, diagonals, sorting by colexicographic order, permuted tables. *)

From Coq Require Import List Arith ZArith QArith Bool Lia Permutation Sorted.
From Verif Require Import Model_Base Lib Model_Binary Model_WalshPerm Model_Splits Model_Perm Model_Boolf Model_Twin Model_BoolfMore Model_MinRep Model_Helpers Model_Layers Model_Misc.
From Verif Require Import Spec_Bits Spec_Boolf Spec_Twin Spec_Splits Spec_Layers Spec_Misc Proof_Binary Proof_Numbers Proof_Boolf Proof_BoolfTable Proof_BoolfMake Proof_Deflate Proof_Noble Proof_MinRepCoset Proof_Splits Proof_Layers Proof_Fission Proof_FissionMore Proof_Twin Proof_BoolfApply Proof_SetPartBoolf Spec_Segments.
Import ListNotations.
Open Scope nat_scope.

Lemma bind_Ok {A B} (a : A) (k : A -> res B) : bind (Ok a) k = k a.
Proof. reflexivity. Qed.
Lemma bit_above i n k : i < 2 ^ n -> n <= k -> Nat.testbit i k = false.
Proof. intros H Hk. apply testbit_high. assert (2 ^ n <= 2 ^ k) by (apply Nat.pow_le_mono_r; lia). lia. Qed.

(** * Sierpinski matrices *)

Lemma land_subset i j : Nat.land i j = i <-> forall k, Nat.testbit i k = true -> Nat.testbit j k = true.
Proof.
  split.
  - intros H k Hk. rewrite <- H, Nat.land_spec in Hk. apply andb_true_iff in Hk. tauto.
  - intro H. apply Nat.bits_inj. intro k. rewrite Nat.land_spec. specialize (H k). destruct (Nat.testbit i k); [rewrite H by reflexivity; reflexivity | reflexivity].
Qed.
Lemma gen_land k i : gen_value AND k i = Nat.eqb (Nat.land k i) k.
Proof. rewrite gen_and. apply eq_true_iff_eq. rewrite Nat.eqb_eq, land_subset. apply subm_spec. Qed.

Lemma foldM_fill {A} (step : list A -> nat -> res (list A)) (pos : nat -> nat) (R F : nat -> A) m :
  (forall i, i < m -> pos i < m /\ pos (pos i) = i) ->
  (forall i G, i < m -> step (map G (range m)) i = Ok (map (fun j => if Nat.eqb j (pos i) then R i else G j) (range m))) ->
  foldM step (range m) (map F (range m)) = Ok (map (fun j => R (pos j)) (range m)).
Proof.
  intros Hp Hs. assert (G : forall k, k <= m -> foldM step (range k) (map F (range m)) = Ok (map (fun j => if Nat.ltb (pos j) k then R (pos j) else F j) (range m))).
  { induction k as [|k IH]; intro Hk.
    - cbn. f_equal.
    - unfold range at 1. rewrite seq_S. change (seq 0 k) with (range k). cbn [Nat.add]. rewrite foldM_app, IH by lia. cbn [bind foldM]. rewrite Hs by lia. cbn [bind]. f_equal. apply map_ext_in. intros j Hj. apply range_In in Hj. destruct (Hp j Hj) as [P1 P2].
      destruct (Nat.eqb_spec j (pos k)) as [->|Hn].
      + destruct (Hp k ltac:(lia)) as [_ ->]. rewrite (proj2 (Nat.ltb_lt k (S k))) by lia. reflexivity.
      + assert (pos j <> k) by congruence. destruct (Nat.ltb_spec (pos j) k), (Nat.ltb_spec (pos j) (S k)); try lia; reflexivity. }
  rewrite G by lia. f_equal. apply map_ext_in. intros j Hj. apply range_In in Hj. rewrite (proj2 (Nat.ltb_lt _ _)) by (apply Hp; exact Hj). reflexivity.
Qed.

Definition flip n i := 2 ^ n - 1 - i.
Definition pos_of (o : orientation) n i := match o with TR | TL => i | BR | BL => flip n i end.
Definition col_of (o : orientation) n j := match o with TR | BR => j | TL | BL => flip n j end.
Lemma rev_map_range {A} (F : nat -> A) n : rev (map F (range (2 ^ n))) = map (fun j => F (flip n j)) (range (2 ^ n)).
Proof.
  apply (nth_ext _ _ (F 0) (F 0)); rewrite rev_length, !map_length; [reflexivity|]. rewrite range_length. intros j Hj. rewrite rev_nth by (rewrite map_length, range_length; exact Hj). rewrite map_length, range_length.
  rewrite !nth_map_r by lia. f_equal. unfold flip. lia.
Qed.

Lemma sierpinski_rows o n d s : (d = Some n /\ s = None /\ 0 < n) \/ (d = None /\ s = Some (2 ^ n) /\ 0 < n) ->
  sierpinski o d s = Ok (map (fun i => map (fun j => Nat.eqb (Nat.land (pos_of o n i) (col_of o n j)) (pos_of o n i)) (range (2 ^ n))) (range (2 ^ n))).
Proof.
  intro H. unfold sierpinski. assert (P := pow2_pos n).
  match goal with |- bind ?x _ = _ => assert (E : x = Ok (n, 2 ^ n)) end.
  { destruct H as [(-> & -> & Hn)|(-> & -> & Hn)]; cbn [bind].
    - rewrite (proj2 (Nat.ltb_lt _ _) Hn). reflexivity.
    - rewrite (proj2 (Nat.leb_le 2 (2 ^ n))) by (destruct n; [lia|]; rewrite Nat.pow_succ_r'; assert (X := pow2_pos n); lia). cbn [true_except bind]. rewrite log_int_pow. reflexivity. }
  rewrite E, bind_Ok. cbn [fst snd]. set (Z0 := repeat (repeat false (2 ^ n)) (2 ^ n)).
  assert (EZ : Z0 = map (fun _ => repeat false (2 ^ n)) (range (2 ^ n))) by apply repeat_map. rewrite EZ. clear EZ Z0.
  rewrite (foldM_fill _ (pos_of o n) (fun i => map (fun j => Nat.eqb (Nat.land i (col_of o n j)) i) (range (2 ^ n)))).
  - reflexivity.
  - intros i Hi. destruct o; cbn [pos_of]; unfold flip; lia.
  - intros i G Hi. cbv beta. unfold atoms_to_and_gen. rewrite gen_spec by exact Hi. rewrite bind_Ok. rewrite (map_ext (gen_value AND i) (fun j => Nat.eqb (Nat.land i j) i)) by (intro; apply gen_land).
    destruct o; cbn [pos_of col_of]; rewrite ?rev_map_range; apply list_assign_map; unfold flip; lia.
Qed.

Lemma flip_bit n i k : i < 2 ^ n -> Nat.testbit (flip n i) k = Nat.ltb k n && negb (Nat.testbit i k).
Proof. intro H. unfold flip. replace (2 ^ n - 1) with (Nat.ones n) by (rewrite Nat.ones_equiv; lia).
  replace (Nat.ones n - i) with (Nat.lxor (Nat.ones n) i).
  - rewrite Nat.lxor_spec. destruct (Nat.ltb_spec k n).
    + rewrite Nat.ones_spec_low by lia. reflexivity.
    + rewrite Nat.ones_spec_high by lia. rewrite (bit_above i n k) by lia. reflexivity.
  - assert (E : Nat.lxor (Nat.ones n) i = Nat.ldiff (Nat.ones n) i).
    { apply Nat.bits_inj. intro b. rewrite Nat.lxor_spec, Nat.ldiff_spec. destruct (Nat.lt_ge_cases b n); [rewrite Nat.ones_spec_low by lia; destruct (Nat.testbit i b); reflexivity|]. rewrite Nat.ones_spec_high by lia. rewrite (bit_above i n b) by lia. reflexivity. }
    rewrite E. symmetry. apply Nat.sub_nocarry_ldiff. apply Nat.bits_inj. intro b. rewrite Nat.ldiff_spec, Nat.bits_0. destruct (Nat.lt_ge_cases b n); [rewrite Nat.ones_spec_low by lia; apply andb_false_r|]. rewrite (bit_above i n b) by lia. reflexivity.
Qed.

(** * Pascal's triangle *)

Lemma pascal_0_r n : pascal n 0 = 1.
Proof. destruct n; reflexivity. Qed.
Lemma pascal_S n k : pascal (S n) (S k) = pascal n k + pascal n (S k).
Proof. reflexivity. Qed.
Lemma pascal_lucas n : forall k,
  Nat.odd (pascal (2 * n) (2 * k)) = Nat.odd (pascal n k) /\ Nat.odd (pascal (2 * n) (2 * k + 1)) = false /\
  Nat.odd (pascal (2 * n + 1) (2 * k)) = Nat.odd (pascal n k) /\ Nat.odd (pascal (2 * n + 1) (2 * k + 1)) = Nat.odd (pascal n k).
Proof.
  induction n as [|n IH].
  - intros [|k]; [cbn; auto|]. replace (2 * S k) with (S (S (2 * k))) by lia. cbn. repeat split; destruct (k + (k + 0) + 1)%nat; reflexivity.
  - assert (A : forall k, Nat.odd (pascal (2 * S n) (2 * k)) = Nat.odd (pascal (S n) k) /\ Nat.odd (pascal (2 * S n) (2 * k + 1)) = false).
    { intro k. replace (2 * S n) with (S (2 * n + 1)) by lia. split.
      - destruct k as [|k]; [rewrite !pascal_0_r; reflexivity|]. replace (2 * S k) with (S (2 * k + 1)) by lia. rewrite !pascal_S, !Nat.odd_add. destruct (IH k) as (_ & _ & _ & ->). replace (S (2 * k + 1)) with (2 * S k) by lia. destruct (IH (S k)) as (_ & _ & -> & _). reflexivity.
      - replace (2 * k + 1) with (S (2 * k)) by lia. rewrite pascal_S, Nat.odd_add. destruct (IH k) as (_ & _ & -> & H). replace (S (2 * k)) with (2 * k + 1) by lia. rewrite H. apply xorb_nilpotent. }
    intro k. destruct (A k) as [A1 A2]. split; [exact A1|]. split; [exact A2|]. replace (2 * S n + 1) with (S (2 * S n)) by lia. split.
    + destruct k as [|k]; [rewrite !pascal_0_r; reflexivity|]. replace (2 * S k) with (S (2 * k + 1)) by lia. rewrite (pascal_S (2 * S n)), Nat.odd_add. destruct (A k) as [_ ->]. replace (S (2 * k + 1)) with (2 * S k) by lia. rewrite A1. apply xorb_false_l.
    + replace (2 * k + 1) with (S (2 * k)) by lia. rewrite (pascal_S (2 * S n)), Nat.odd_add, A1. replace (S (2 * k)) with (2 * k + 1) by lia. rewrite A2. apply xorb_false_r.
Qed.
Lemma land_double a b (x y : bool) : Nat.land (2 * a + Nat.b2n x) (2 * b + Nat.b2n y) = 2 * Nat.land a b + Nat.b2n (x && y).
Proof.
  apply Nat.bits_inj. intro k. rewrite Nat.land_spec. destruct k as [|k].
  - rewrite !Nat.testbit_0_r. reflexivity.
  - rewrite !Nat.testbit_succ_r, Nat.land_spec. reflexivity.
Qed.
Lemma pascal_odd n : forall k, Nat.odd (pascal n k) = Nat.eqb (Nat.land k n) k.
Proof.
  induction n as [n IH] using lt_wf_ind. intro k.
  assert (En : n = 2 * (n / 2) + Nat.b2n (Nat.odd n)) by (rewrite <- Nat.bit0_odd, Nat.testbit_spec'; cbn [Nat.pow]; rewrite Nat.div_1_r; apply Nat.div_mod; lia).
  assert (Ek : k = 2 * (k / 2) + Nat.b2n (Nat.odd k)) by (rewrite <- Nat.bit0_odd, Nat.testbit_spec'; cbn [Nat.pow]; rewrite Nat.div_1_r; apply Nat.div_mod; lia).
  destruct n as [|n'].
  - destruct k; [reflexivity|]. rewrite Nat.land_0_r. reflexivity.
  - set (n := S n') in *. specialize (IH (n / 2) ltac:(apply Nat.div_lt; unfold n; lia) (k / 2)). set (a := n / 2) in *. set (b := k / 2) in *. rewrite En, Ek, land_double.
    destruct (pascal_lucas a b) as (L1 & L2 & L3 & L4). clearbody a b. clearbody n.
    destruct (Nat.odd n), (Nat.odd k); cbn [Nat.b2n andb]; rewrite ?Nat.add_0_r.
    + rewrite L4, IH. destruct (Nat.eqb_spec (Nat.land b a) b), (Nat.eqb_spec (2 * Nat.land b a + 1) (2 * b + 1)); lia || reflexivity.
    + rewrite L3, IH. destruct (Nat.eqb_spec (Nat.land b a) b), (Nat.eqb_spec (2 * Nat.land b a) (2 * b)); lia || reflexivity.
    + rewrite L2. symmetry. apply Nat.eqb_neq. lia.
    + rewrite L1, IH. destruct (Nat.eqb_spec (Nat.land b a) b), (Nat.eqb_spec (2 * Nat.land b a) (2 * b)); lia || reflexivity.
Qed.

(** * Diagonals *)

Definition mat (n : nat) (F : nat -> nat -> Z) : list (list Z) := map (fun x => map (F x) (range n)) (range n).
Lemma matrix_put_mat n F a b z : a < n -> b < n -> matrix_put (mat n F) a b z = Ok (mat n (fun x y => if Nat.eqb x a && Nat.eqb y b then z else F x y)).
Proof.
  intros Ha Hb. unfold matrix_put, mat. rewrite (lget_ok _ _ []) by (rewrite map_length, range_length; exact Ha). rewrite bind_Ok, nth_map_r by exact Ha.
  rewrite list_assign_map by exact Hb. rewrite bind_Ok, list_assign_map by exact Ha. f_equal. apply map_ext. intro x. destruct (Nat.eqb_spec x a) as [->|Hx]; cbn [andb]; reflexivity.
Qed.
Lemma weight_of d : exists v, Binv_intval d None = Ok v /\ binv_weight v = count_ones d.
Proof. destruct (Binv_int_min d) as (v & E & V & _). exists v. split; [exact E|]. rewrite binv_weight_eq, V. reflexivity. Qed.

Section Diagonal.
Variables (f : boolf) (minus : list bool).
Let V := fullspots f.
Let dist (a b : nat) := count_ones (Nat.lxor a b) - 1.
Let sign (a b : nat) : Z := if nth (dist a b) minus false then (-1)%Z else 1%Z.
Let good (p : nat * nat) : bool := negb (nth (fst p) (root f) false && nth (snd p) (root f) false) || Nat.ltb (dist (fst p) (snd p)) (length minus).
Let hits (x y : nat) (p : nat * nat) : bool := (Nat.eqb (fst p) x && Nat.eqb (snd p) y) || (Nat.eqb (fst p) y && Nat.eqb (snd p) x).
Let step := fun matrix (ab : nat * nat) =>
           let* ta := lget (root f) (fst ab) in
           let* t := (if ta then lget (root f) (snd ab) else Ok false) in
           if t : bool then
             let* d := Binv_intval (Nat.lxor (fst ab) (snd ab)) None in
             let i := binv_weight d - 1 in
             let* a_index := index_of (fst ab) V in
             let* b_index := index_of (snd ab) V in
             let* minus := lget minus i in
             let entry := if minus : bool then (-1)%Z else 1%Z in
             let* matrix := matrix_put matrix a_index b_index entry in
             matrix_put matrix b_index a_index entry
           else Ok matrix.

Lemma V_inj x y : x < length V -> y < length V -> nth x V 0 = nth y V 0 -> x = y.
Proof. intros Hx Hy H. assert (N : NoDup V) by (apply sorted_lt_NoDup, binv_exposet_sorted). apply (proj1 (NoDup_nth V 0) N x y Hx Hy H). Qed.
Lemma V_In x : In x V <-> nth x (root f) false = true.
Proof. apply binv_exposet_In. Qed.

Lemma diag_step G a b : a < length (root f) -> b < length (root f) -> a <> b ->
  step (mat (length V) G) (a, b) = if good (a, b) then Ok (mat (length V) (fun x y => if hits (nth x V 0) (nth y V 0) (a, b) then sign a b else G x y)) else Err IndexErr.
Proof.
  intros Ha Hb Hn. unfold step, good. cbn [fst snd]. rewrite (lget_ok _ _ false) by exact Ha. rewrite bind_Ok.
  assert (K : nth a (root f) false && nth b (root f) false = false -> mat (length V) (fun x y => if hits (nth x V 0) (nth y V 0) (a, b) then sign a b else G x y) = mat (length V) G).
  { intro Hf. unfold mat. apply map_ext_in. intros x Hx. apply map_ext_in. intros y Hy. apply range_In in Hx, Hy. destruct (hits (nth x V 0) (nth y V 0) (a, b)) eqn:E; [|reflexivity]. exfalso.
    unfold hits in E. cbn [fst snd] in E. assert (I := fun k (H : k < length V) => proj1 (V_In (nth k V 0)) (nth_In V 0 H)). assert (Ix := I x Hx). assert (Iy := I y Hy).
    apply orb_true_iff in E as [E|E]; apply andb_true_iff in E as [E1 E2]; apply Nat.eqb_eq in E1, E2; subst a b; rewrite Ix, Iy in Hf; discriminate. }
  destruct (nth a (root f) false) eqn:Ta; [|rewrite bind_Ok; cbn [andb negb orb]; rewrite K by reflexivity; reflexivity].
  rewrite (lget_ok _ _ false) by exact Hb. rewrite bind_Ok. destruct (nth b (root f) false) eqn:Tb; [|cbn [andb negb orb]; rewrite K by reflexivity; reflexivity]. clear K. cbn [andb negb orb].
  destruct (weight_of (Nat.lxor a b)) as (d & -> & Ed). rewrite bind_Ok. rewrite Ed. fold (dist a b).
  apply V_In in Ta, Tb. destruct (index_of_In a V Ta) as (i & -> & Hi & Ni). rewrite bind_Ok. destruct (index_of_In b V Tb) as (j & -> & Hj & Nj). rewrite bind_Ok.
  destruct (Nat.ltb_spec (dist a b) (length minus)) as [Hd|Hd]; [|rewrite lget_err by exact Hd; reflexivity].
  rewrite (lget_ok _ _ false) by exact Hd. rewrite bind_Ok. cbv zeta. fold (sign a b). rewrite matrix_put_mat by assumption. rewrite bind_Ok, matrix_put_mat by assumption. f_equal. unfold mat. apply map_ext_in. intros x Hx. apply map_ext_in. intros y Hy. apply range_In in Hx, Hy.
  assert (Q : forall s t, s < length V -> t < length V -> Nat.eqb s t = Nat.eqb (nth t V 0) (nth s V 0)).
  { intros s t Hs Ht. destruct (Nat.eqb_spec s t) as [->|Hst]; [symmetry; apply Nat.eqb_refl|]. symmetry. apply Nat.eqb_neq. intro E. apply Hst. symmetry. apply V_inj; assumption. }
  rewrite (Q x i), (Q y j), (Q x j), (Q y i) by assumption. rewrite Ni, Nj. unfold hits. cbn [fst snd]. rewrite (andb_comm (Nat.eqb b (nth x V 0))). destruct (Nat.eqb a (nth y V 0) && Nat.eqb b (nth x V 0)); [rewrite orb_true_r; reflexivity|]. rewrite orb_false_r. reflexivity.
Qed.

Lemma sign_sym a b : sign a b = sign b a.
Proof. unfold sign, dist. rewrite Nat.lxor_comm. reflexivity. Qed.

Lemma diag_fold l : (forall p, In p l -> fst p < length (root f) /\ snd p < length (root f) /\ fst p <> snd p) -> forall G,
  foldM step l (mat (length V) G) = if forallb good l then Ok (mat (length V) (fun x y => if existsb (hits (nth x V 0) (nth y V 0)) l then sign (nth x V 0) (nth y V 0) else G x y)) else Err IndexErr.
Proof.
  induction l as [|[a b] l IH]; intros H G; [reflexivity|]. cbn [foldM forallb existsb]. destruct (H (a, b) (or_introl eq_refl)) as (Ha & Hb & Hn). cbn [fst snd] in Ha, Hb, Hn. rewrite diag_step by assumption.
  destruct (good (a, b)); [|reflexivity]. cbn [andb]. rewrite bind_Ok. rewrite IH by (intros p Hp; apply H; right; exact Hp). destruct (forallb good l); [|reflexivity]. f_equal. unfold mat. apply map_ext. intro x. apply map_ext. intro y.
  destruct (existsb (hits (nth x V 0) (nth y V 0)) l); [rewrite orb_true_r; reflexivity|]. rewrite orb_false_r. destruct (hits (nth x V 0) (nth y V 0) (a, b)) eqn:E; [|reflexivity].
  unfold hits in E. cbn [fst snd] in E. apply orb_true_iff in E as [E|E]; apply andb_true_iff in E as [E1 E2]; apply Nat.eqb_eq in E1, E2; subst a b; [reflexivity | apply sign_sym].
Qed.

Lemma comb_In n a b : In (a, b) (combinations_of_range n) <-> a < b /\ b < n.
Proof.
  unfold combinations_of_range. rewrite in_flat_map. split.
  - intros (x & Hx & Hy). apply range_In in Hx. apply in_map_iff in Hy as (y & [= -> ->] & Hy). unfold range2 in Hy. apply in_seq in Hy. lia.
  - intros [H1 H2]. exists a. split; [apply range_In; lia|]. apply in_map_iff. exists b. split; [reflexivity|]. unfold range2. apply in_seq. lia.
Qed.

Lemma diagonal_ok : fitting f ->
  ((forall a b, full f a -> full f b -> a <> b -> count_ones (Nat.lxor a b) <= length minus) ->
   diagonal_adjacency_matrix f minus = Ok (mat (length V) (fun x y => if Nat.eqb x y then 0%Z else sign (nth x V 0) (nth y V 0)))) /\
  ((exists a b, full f a /\ full f b /\ a <> b /\ length minus < count_ones (Nat.lxor a b)) -> diagonal_adjacency_matrix f minus = Err IndexErr).
Proof.
  intro F. assert (L : length (root f) = 2 ^ valency f) by apply F.
  assert (SV : sort_nat (fullspots f) = V) by (apply sort_nat_id; apply sorted_lt_le, binv_exposet_sorted).
  assert (E : diagonal_adjacency_matrix f minus = if forallb good (combinations_of_range (2 ^ valency f)) then Ok (mat (length V) (fun x y => if existsb (hits (nth x V 0) (nth y V 0)) (combinations_of_range (2 ^ valency f)) then sign (nth x V 0) (nth y V 0) else 0%Z)) else Err IndexErr).
  { unfold diagonal_adjacency_matrix. rewrite SV. cbv zeta. fold step. rewrite <- (diag_fold (combinations_of_range (2 ^ valency f))).
    - f_equal. unfold mat. rewrite (repeat_map (repeat 0%Z (length V))). apply map_ext. intros _. apply repeat_map.
    - intros [a b] H. apply comb_In in H. cbn [fst snd]. lia. }
  rewrite E. clear E. assert (FL : forall a, full f a -> a < 2 ^ valency f) by (intros a Ha; unfold full in Ha; rewrite <- L; destruct (Nat.lt_ge_cases a (length (root f))) as [|X]; [assumption|]; rewrite nth_overflow in Ha by exact X; discriminate).
  assert (CP : forall a b, a <> b -> 0 < count_ones (Nat.lxor a b)).
  { intros a b H. destruct (count_ones (Nat.lxor a b)) eqn:C; [|lia]. exfalso. apply H. apply Nat.lxor_eq. rewrite <- length_on in C. rewrite <- (exposet_roundtrip (Nat.lxor a b)). apply length_zero_iff_nil in C. rewrite C. reflexivity. }
  split.
  - intro H. rewrite (proj2 (forallb_forall good _)).
    + f_equal. unfold mat. apply map_ext_in. intros x Hx. apply map_ext_in. intros y Hy. apply range_In in Hx, Hy. destruct (Nat.eqb_spec x y) as [->|Hn].
      * destruct (existsb _ _) eqn:Ex; [|reflexivity]. exfalso. apply existsb_exists in Ex as ([a b] & Hp & Hh). apply comb_In in Hp. unfold hits in Hh. cbn [fst snd] in Hh. apply orb_true_iff in Hh as [Hh|Hh]; apply andb_true_iff in Hh as [E1 E2]; apply Nat.eqb_eq in E1, E2; lia.
      * rewrite (proj2 (existsb_exists _ _)); [reflexivity|]. assert (D : nth x V 0 <> nth y V 0) by (intro D; apply Hn, V_inj; assumption).
        assert (B : forall k, k < length V -> nth k V 0 < 2 ^ valency f) by (intros k Hk; apply FL; apply V_In, nth_In; exact Hk). assert (Bx := B x Hx). assert (By := B y Hy).
        destruct (Nat.lt_ge_cases (nth x V 0) (nth y V 0)) as [C|C].
        -- exists (nth x V 0, nth y V 0). split; [apply comb_In; lia|]. unfold hits. cbn [fst snd]. rewrite !Nat.eqb_refl. reflexivity.
        -- exists (nth y V 0, nth x V 0). split; [apply comb_In; lia|]. unfold hits. cbn [fst snd]. rewrite !Nat.eqb_refl. apply orb_true_r.
    + intros [a b] Hp. apply comb_In in Hp. unfold good. cbn [fst snd]. destruct (nth a (root f) false) eqn:Ta; [|reflexivity]. destruct (nth b (root f) false) eqn:Tb; [|reflexivity]. cbn [andb negb orb]. apply Nat.ltb_lt.
      assert (X := H a b Ta Tb ltac:(lia)). assert (Y := CP a b ltac:(lia)). unfold dist. lia.
  - intros (a & b & Ta & Tb & Hn & Hl). destruct (forallb good _) eqn:G; [|reflexivity]. exfalso. rewrite forallb_forall in G. assert (La := FL a Ta). assert (Lb := FL b Tb).
    assert (K : forall u v, full f u -> full f v -> u < v -> length minus < count_ones (Nat.lxor u v) -> v < 2 ^ valency f -> False).
    { intros u v Hu Hv Huv Hc Hb. specialize (G (u, v)). rewrite comb_In in G. specialize (G (conj Huv Hb)). unfold good in G. cbn [fst snd] in G. unfold full in Hu, Hv. rewrite Hu, Hv in G. cbn [andb negb orb] in G. apply Nat.ltb_lt in G. unfold dist in G. lia. }
    destruct (Nat.lt_ge_cases a b) as [C|C]; [apply (K a b); assumption|]. apply (K b a); try assumption; [lia|]. rewrite Nat.lxor_comm. exact Hl.
Qed.
End Diagonal.
