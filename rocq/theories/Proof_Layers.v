(** Proof_Layers: true places by weight, links, layers of the table, symmetric functions. *)

From Coq Require Import List Arith ZArith Bool Lia Permutation Sorted.
From Verif Require Import Model_Base Lib Model_Binary Model_Determinant Model_WalshPerm Model_Splits Model_Perm Model_Boolf Model_BoolfMore Model_MinRep Model_Segments Model_Helpers Model_Hyper Model_Layers.
From Verif Require Import Spec_Bits Spec_Boolf Spec_Splits Spec_Segments Spec_Layers Proof_Binary Proof_Numbers Proof_Seqs Proof_Boolf Proof_Splits Proof_Segments Proof_SegmentsMore Proof_MinRepCoset Proof_HyperCores.
Import ListNotations.
Open Scope nat_scope.

(** * The dictionary by weight *)

Definition of_weight (w : nat) (l : list nat) : list nat := filter (fun n => Nat.eqb (count_ones n) w) l.
Definition with_keys (n : nat) : nat * list nat := (n, int_to_exposet n).

Lemma dfind_dput {A} (d : list (nat * A)) k v x : dfind (dput d k v) x = if Nat.eqb x k then Some v else dfind d x.
Proof.
  induction d as [|[k' v'] d IH]; cbn [dput dfind]; [destruct (Nat.eqb_spec x k); reflexivity|].
  destruct (Nat.eqb_spec k k') as [->|H]; cbn [dfind]; [destruct (Nat.eqb_spec x k'); reflexivity|]. rewrite IH. destruct (Nat.eqb_spec x k') as [->|]; [|reflexivity]. destruct (Nat.eqb_spec k' k); congruence.
Qed.
Lemma dput_fresh {A} (d : list (nat * A)) k v : ~ In k (map fst d) -> dput d k v = d ++ [(k, v)].
Proof.
  induction d as [|[k' v'] d IH]; cbn; intro H; [reflexivity|]. destruct (Nat.eqb_spec k k') as [->|]; [tauto|]. rewrite IH; tauto.
Qed.
Lemma of_weight_app w l m : of_weight w (l ++ m) = of_weight w l ++ of_weight w m.
Proof. apply filter_app. Qed.

Lemma of_weight_one w n : of_weight w [n] = if Nat.eqb w (count_ones n) then [n] else [].
Proof. unfold of_weight. cbn [filter]. rewrite Nat.eqb_sym. reflexivity. Qed.

Definition found {A} (l : list A) : option (list A) := match l with [] => None | _ => Some l end.
Lemma found_default {A} (l : list A) : match found l with Some d => d | None => [] end = l.
Proof. destruct l; reflexivity. Qed.

Definition wstep (st : list (nat * list (nat * list nat)) * list (nat * list nat)) (sa : nat * list nat) :=
  let weight := length (snd sa) in
  let inner := match dfind (fst st) weight with Some d => d | None => [] end in
  let simple := match dfind (snd st) weight with Some l => l | None => [] end in
  (dput (fst st) weight (dput inner (fst sa) (snd sa)), dput (snd st) weight (simple ++ [fst sa])).

Definition wstate (P : list nat) (st : list (nat * list (nat * list nat)) * list (nat * list nat)) : Prop :=
  NoDup (map fst (fst st)) /\ NoDup (map fst (snd st)) /\
  (forall w, dfind (fst st) w = found (map with_keys (of_weight w P))) /\
  (forall w, dfind (snd st) w = found (of_weight w P)).

Lemma weight_loop l : forall P st, NoDup (P ++ l) -> wstate P st -> wstate (P ++ l) (fold_left wstep (map with_keys l) st).
Proof.
  induction l as [|n l IH]; intros P st N W; [rewrite app_nil_r; exact W|]. cbn [map fold_left].
  replace (P ++ n :: l) with ((P ++ [n]) ++ l) in * by (rewrite <- app_assoc; reflexivity). apply IH; [exact N|].
  destruct W as (W1 & W2 & W3 & W4). unfold wstep, with_keys. cbn [fst snd]. rewrite length_on, W3, W4, !found_default.
  assert (Hn : ~ In n P).
  { rewrite <- app_assoc in N. apply NoDup_remove_2 in N. intro H. apply N. apply in_or_app. left. exact H. }
  split; [apply dput_NoDup; exact W1|]. split; [apply dput_NoDup; exact W2|]. split; intro w; cbn [fst snd]; rewrite dfind_dput, of_weight_app, of_weight_one; destruct (Nat.eqb_spec w (count_ones n)) as [->|Hw]; rewrite ?app_nil_r; [|apply W3| |apply W4].
  - rewrite dput_fresh.
    + rewrite map_app. cbn [map]. destruct (map with_keys (of_weight (count_ones n) P)); reflexivity.
    + rewrite map_map. cbn [fst]. intro H. apply in_map_iff in H as (x & <- & H). apply filter_In in H. cbn in Hn. tauto.
  - destruct (of_weight (count_ones n) P); reflexivity.
Qed.

Definition by_weight_ok (L : list nat) (v : nat) (b : by_weight) : Prop :=
  NoDup (map fst (bw_detailed b)) /\
  (forall w, dfind (bw_detailed b) w = found (map with_keys (of_weight w L))) /\
  bw_simple b = map (fun w => sort_nat (of_weight w L)) (range (v + 1)) /\
  ascending (bw_weights b) /\ (forall w, In w (bw_weights b) <-> exists n, In n L /\ count_ones n = w).

Lemma found_None {A} (l : list A) : found l = None <-> l = [].
Proof. destruct l; cbn; split; congruence. Qed.

Lemma fullspots_by_weight_ok order f : (forall l, Permutation (order l) l) ->
  exists b, fullspots_by_weight order f = Ok b /\ by_weight_ok (order (fullspots f)) (valency f) b.
Proof.
  intro Ho. unfold fullspots_by_weight. rewrite fullspot_atoms_ok. cbn [bind]. set (L := order (fullspots f)).
  change (map (fun n : nat => (n, int_to_exposet n)) L) with (map with_keys L).
  change (fold_left _ (map with_keys L) ([], [])) with (fold_left wstep (map with_keys L) ([], [])).
  assert (W := weight_loop L [] ([], [])). cbn [app] in W.
  assert (N : NoDup L) by (eapply Permutation_NoDup; [apply Permutation_sym, Ho | apply fullspots_NoDup]).
  specialize (W N). destruct W as (W1 & W2 & W3 & W4); [repeat split; constructor|].
  eexists. split; [reflexivity|]. unfold by_weight_ok. cbn [bw_detailed bw_simple bw_weights].
  split; [exact W1|]. split; [exact W3|]. split; [apply map_ext; intro w; rewrite W4, found_default; reflexivity|].
  split; [apply sort_nat_ascending; exact W1|]. intro w. rewrite sort_nat_In.
  assert (X := dfind_None (fst (fold_left wstep (map with_keys L) ([], []))) w). rewrite W3, found_None in X.
  assert (Y : map with_keys (of_weight w L) = [] <-> ~ exists n, In n L /\ count_ones n = w).
  { split.
    - intros E (n & Hn & Hw). apply map_eq_nil in E. assert (Z : In n (of_weight w L)) by (apply filter_In; split; [exact Hn | apply Nat.eqb_eq; exact Hw]). rewrite E in Z. destruct Z.
    - intro H. destruct (of_weight w L) as [|n l] eqn:E; [reflexivity|]. exfalso. apply H. exists n. assert (Z : In n (of_weight w L)) by (rewrite E; left; reflexivity). apply filter_In in Z as [Z1 Z2]. apply Nat.eqb_eq in Z2. auto. }
  destruct (in_dec Nat.eq_dec w (map fst (fst (fold_left wstep (map with_keys L) ([], []))))) as [Hi|Hi].
  - split; [|auto]. intros _. destruct (of_weight w L) as [|n l] eqn:E; [|exists n; assert (Z : In n (of_weight w L)) by (rewrite E; left; reflexivity); apply filter_In in Z as [Z1 Z2]; apply Nat.eqb_eq in Z2; auto].
    exfalso. cbn in X. tauto.
  - split; [tauto|]. intro H. exfalso. apply Y; [apply X; exact Hi | exact H].
Qed.

(** * Links *)

Lemma sub_edge a b : count_ones b = S (count_ones a) -> (edge_up a b <-> forall k, In k (int_to_exposet a) -> In k (int_to_exposet b)).
Proof.
  intro W. split.
  - intros (k & Hk & ->) i. rewrite !on_In, add_pow_bit by exact Hk. intros ->. apply orb_true_r.
  - intro I. assert (Ex : exists k, In k (int_to_exposet b) /\ ~ In k (int_to_exposet a)).
    { destruct (Exists_dec (fun k => ~ In k (int_to_exposet a)) (int_to_exposet b)) as [E|E].
      - intro k. destruct (in_dec Nat.eq_dec k (int_to_exposet a)); [right; tauto | left; assumption].
      - apply Exists_exists in E. exact E.
      - exfalso. assert (Inc : incl (int_to_exposet b) (int_to_exposet a)).
        { intros k Hk. destruct (in_dec Nat.eq_dec k (int_to_exposet a)) as [|n]; [assumption|]. exfalso. apply E, Exists_exists. exists k. auto. }
        apply NoDup_incl_length in Inc; [|apply on_NoDup]. rewrite !length_on in Inc. lia. }
    destruct Ex as (k & Hb & Ha). exists k. assert (Hf : Nat.testbit a k = false) by (destruct (Nat.testbit a k) eqn:E; [apply on_In in E; contradiction | reflexivity]). split; [exact Hf|].
    assert (Inc : incl (int_to_exposet b) (k :: int_to_exposet a)).
    { apply NoDup_length_incl; [constructor; [exact Ha | apply on_NoDup] | cbn; rewrite !length_on; lia|]. intros i [<-|Hi]; [exact Hb | apply I; exact Hi]. }
    apply Nat.bits_inj. intro i. rewrite add_pow_bit by exact Hf. destruct (Nat.testbit b i) eqn:E.
    + apply on_In in E. apply Inc in E as [<-|E]; [rewrite Nat.eqb_refl; reflexivity|]. apply on_In in E. rewrite E, orb_true_r. reflexivity.
    + symmetry. apply orb_false_iff. split; [apply Nat.eqb_neq; intros ->; apply on_In in Hb; congruence|]. destruct (Nat.testbit a i) eqn:E'; [|reflexivity]. apply on_In, I, on_In in E'. congruence.
Qed.
Lemma edge_up_weight a b : edge_up a b -> count_ones b = S (count_ones a).
Proof.
  intros (k & Hk & ->). rewrite <- !length_on. rewrite <- (Permutation_length (l := k :: int_to_exposet a) (l' := int_to_exposet (a + 2 ^ k))); [reflexivity|].
  apply NoDup_Permutation; [constructor; [rewrite on_In; congruence | apply on_NoDup] | apply on_NoDup|].
  intro i. cbn [In]. rewrite !on_In, add_pow_bit by exact Hk. rewrite orb_true_iff, Nat.eqb_eq. split; intros [H|H]; auto.
Qed.

(** the pairs with lower weight w *)
Definition raw_links (L : list nat) (w : nat) : list (nat * nat) :=
  map (fun p : (nat * list nat) * (nat * list nat) => (fst (fst p), fst (snd p)))
    (filter (fun p : (nat * list nat) * (nat * list nat) => forallb (fun k => memb k (snd (snd p))) (snd (fst p)))
       (list_prod (map with_keys (of_weight w L)) (map with_keys (of_weight (w + 1) L)))).
Definition links_at (L : list nat) (w : nat) : list (nat * nat) := isort pair_leb (raw_links L w).

Lemma raw_links_In L w a b : In (a, b) (raw_links L w) <-> In a L /\ In b L /\ count_ones a = w /\ edge_up a b.
Proof.
  unfold raw_links. rewrite in_map_iff. split.
  - intros ([[a' ka] [b' kb]] & E & H). cbn [fst snd] in E. injection E as -> ->. apply filter_In in H as [H I]. apply in_prod_iff in H as [Ha Hb].
    apply in_map_iff in Ha as (x & Ex & Ha), Hb as (y & Ey & Hb). unfold with_keys in *. injection Ex as -> <-. injection Ey as -> <-. apply filter_In in Ha as [Ha Wa], Hb as [Hb Wb]. apply Nat.eqb_eq in Wa, Wb.
    split; [exact Ha|]. split; [exact Hb|]. split; [exact Wa|]. apply sub_edge; [lia|]. intros k Hk. cbn [fst snd] in I. rewrite forallb_forall in I. apply memb_In. apply I. exact Hk.
  - intros (Ha & Hb & Wa & E). assert (Wb := edge_up_weight a b E). exists (with_keys a, with_keys b). split; [reflexivity|]. apply filter_In. split.
    + apply in_prod_iff. split; apply in_map, filter_In; (split; [assumption | apply Nat.eqb_eq; lia]).
    + unfold with_keys. cbn [fst snd]. apply forallb_forall. intros k Hk. apply memb_In. exact (proj1 (sub_edge a b Wb) E k Hk).
Qed.
Lemma NoDup_prod {A B} (l : list A) (m : list B) : NoDup l -> NoDup m -> NoDup (list_prod l m).
Proof.
  intros Nl Nm. induction Nl as [|x l Hx Nl IH]; cbn; [constructor|]. apply Proof_SetPartLattice.NoDup_app_intro'; [|exact IH|].
  - apply FinFun.Injective_map_NoDup; [intros a b [= ->]; reflexivity | exact Nm].
  - intros [a b] H1 H2. apply in_map_iff in H1 as (y & [= <- <-] & _). apply in_prod_iff in H2. tauto.
Qed.
Lemma raw_links_NoDup L w : NoDup L -> NoDup (raw_links L w).
Proof.
  intro N. unfold raw_links. apply Proof_Hyper.NoDup_map_inj; cycle 1.
  - apply NoDup_filter, NoDup_prod; apply FinFun.Injective_map_NoDup; try (intros x y [= ->]; reflexivity); apply NoDup_filter, N.
  - intros [p1 p2] [q1 q2] Hp Hq E. apply filter_In in Hp as [Hp _], Hq as [Hq _]. apply in_prod_iff in Hp as [P1 P2], Hq as [Q1 Q2].
    apply in_map_iff in P1 as (x1 & <- & _), P2 as (x2 & <- & _), Q1 as (y1 & <- & _), Q2 as (y2 & <- & _). cbn in E. congruence.
Qed.
Lemma links_at_In L w a b : In (a, b) (links_at L w) <-> In a L /\ In b L /\ count_ones a = w /\ edge_up a b.
Proof. rewrite <- raw_links_In. unfold links_at. assert (P := isort_perm pair_leb (raw_links L w)). split; intro H; [eapply Permutation_in; [apply Permutation_sym, P | exact H] | eapply Permutation_in; [exact P | exact H]]. Qed.
Lemma links_at_sorted L w : NoDup L -> StronglySorted pair_lt (links_at L w).
Proof.
  intro N. assert (S := isort_sorted pair_leb pair_leb_total pair_leb_trans (raw_links L w)). fold (links_at L w) in S.
  assert (Nd : NoDup (links_at L w)) by (eapply Permutation_NoDup; [apply isort_perm | apply raw_links_NoDup; exact N]).
  revert S Nd. generalize (links_at L w). induction 1 as [|p l S IH Hp]; intro Nd; constructor; inversion Nd as [|? ? Hn Nd']; subst; auto.
  apply Forall_forall. intros q Hq. rewrite Forall_forall in Hp. specialize (Hp q Hq). unfold pair_leb in Hp. rewrite orb_true_iff, andb_true_iff, Nat.ltb_lt, Nat.eqb_eq, Nat.leb_le in Hp. unfold pair_lt.
  destruct p as [p1 p2], q as [q1 q2]. cbn [fst snd] in *. destruct Hp as [Hp|[Hp1 Hp2]]; [left; exact Hp|]. right. split; [exact Hp1|]. destruct (Nat.eq_dec p2 q2) as [->|]; [|lia]. subst. contradiction.
Qed.

Lemma links_at_length L w : length (links_at L w) = length (raw_links L w).
Proof. symmetry. apply Permutation_length, isort_perm. Qed.

Definition good_weights (W : list nat) : list nat := filter (fun w => memb (w + 1) W) W.

Lemma asc_next W i : ascending W -> i + 1 < length W -> (nth (i + 1) W 0 = nth i W 0 + 1 <-> In (nth i W 0 + 1) W).
Proof.
  intros A H. split; [intros <-; apply nth_In; exact H|]. intro Hin. apply (In_nth _ _ 0) in Hin as (j & Hj & E).
  assert (Mono : forall a b, a < b -> b < length W -> nth a W 0 < nth b W 0).
  { intros a b Hab Hb. exact (proj1 (Proof_Helpers.sorted_nth W 0) A a b Hab Hb). }
  destruct (Nat.lt_trichotomy j i) as [X|[->|X]]; [specialize (Mono j i X); lia | lia|].
  destruct (Nat.eq_dec j (i + 1)) as [->|Y]; [exact E|]. assert (M1 := Mono i (i + 1)). assert (M2 := Mono (i + 1) j). lia.
Qed.

Lemma skipn_one (W : list nat) k : k < length W -> skipn k (firstn (S k) W) = [nth k W 0].
Proof. revert k. induction W as [|x W IH]; intros [|k] H; cbn in H; try lia; [reflexivity|]. cbn [firstn skipn nth]. apply IH. lia. Qed.
Lemma nth_firstn' (W : list nat) j k : j < k -> nth j (firstn k W) 0 = nth j W 0.
Proof. revert j k. induction W as [|x W IH]; intros [|j] [|k] H; try lia; try reflexivity. cbn. apply IH. lia. Qed.

Lemma links_loop (b : by_weight) L v : by_weight_ok L v b -> let W := bw_weights b in
  exists m, foldM (fun (st : list (nat * list (nat * nat)) * nat) i =>
           let* upper := lget W (i + 1) in
           let* lower_weight := lget W i in
           if Nat.eqb upper (lower_weight + 1) then
             let upper_weight := lower_weight + 1 in
             let* lower_dict := match dfind (bw_detailed b) lower_weight with Some d => Ok d | None => Err KeyErr end in
             let* upper_dict := match dfind (bw_detailed b) upper_weight with Some d => Ok d | None => Err KeyErr end in
             let actual_pairs :=
               map (fun p : (nat * list nat) * (nat * list nat) => (fst (fst p), fst (snd p)))
                 (filter (fun p : (nat * list nat) * (nat * list nat) => forallb (fun k => memb k (snd (snd p))) (snd (fst p)))
                    (list_prod lower_dict upper_dict)) in
             Ok (dput (fst st) lower_weight (isort pair_leb actual_pairs), snd st + length actual_pairs)
           else Ok st)
        (range (length W - 1)) ([], 0) = Ok (map (fun w => (w, links_at L w)) (good_weights W), m) /\
    m = list_sum_nat (map (fun w => length (links_at L w)) (good_weights W)).
Proof.
  intros (_ & D & _ & A & I) W. fold W in A, I. set (stp := fun (st : list (nat * list (nat * nat)) * nat) i => _).
  set (part k := filter (fun w => memb (w + 1) W) (firstn k W)).
  assert (G : forall k, k <= length W - 1 -> foldM stp (range k) ([], 0) = Ok (map (fun w => (w, links_at L w)) (part k), list_sum_nat (map (fun w => length (links_at L w)) (part k)))).
  { induction k as [|k IH]; intro Hk; [reflexivity|]. unfold range in *. rewrite seq_S. rewrite Proof_SetPartBoolf.foldM_app, IH by lia. cbn [bind foldM Nat.add].
    assert (Ep : part (S k) = part k ++ (if memb (nth k W 0 + 1) W then [nth k W 0] else [])).
    { unfold part. rewrite <- (firstn_skipn k (firstn (S k) W)), firstn_firstn, Nat.min_l by lia. rewrite filter_app. f_equal.
      replace (skipn k (firstn (S k) W)) with [nth k W 0]; [cbn [filter]; destruct (memb _ W); reflexivity|]. symmetry. apply skipn_one. lia. }
    assert (St : stp (map (fun w => (w, links_at L w)) (part k), list_sum_nat (map (fun w => length (links_at L w)) (part k))) k = Ok (map (fun w => (w, links_at L w)) (part (S k)), list_sum_nat (map (fun w => length (links_at L w)) (part (S k))))).
    { unfold stp. rewrite (lget_ok W (k + 1) 0), (lget_ok W k 0) by lia. cbn [bind]. rewrite Ep.
      assert (Q := asc_next W k A ltac:(lia)). destruct (Nat.eqb_spec (nth (k + 1) W 0) (nth k W 0 + 1)) as [E|E].
      - rewrite (proj2 (memb_In _ _) (proj1 Q E)). assert (H1 : In (nth k W 0) W) by (apply nth_In; lia). apply I in H1 as (n1 & L1 & W1). assert (H2 := proj1 Q E). apply I in H2 as (n2 & L2 & W2).
        rewrite !D. assert (F : forall w n, In n L -> count_ones n = w -> found (map with_keys (of_weight w L)) = Some (map with_keys (of_weight w L))).
        { intros w n Hn Hw. assert (Z : In n (of_weight w L)) by (apply filter_In; split; [exact Hn | apply Nat.eqb_eq; exact Hw]). destruct (of_weight w L); [destruct Z | reflexivity]. }
        rewrite (F _ n1 L1 W1), (F _ n2 L2 W2). cbn [bind]. cbv zeta. fold (raw_links L (nth k W 0)). fold (links_at L (nth k W 0)). cbn [fst snd]. rewrite dput_fresh.
        + rewrite !map_app, Proof_Deflate.list_sum_app. cbn [map list_sum_nat fold_right]. rewrite Nat.add_0_r. rewrite links_at_length. reflexivity.
        + rewrite map_map. cbn [fst]. rewrite map_id. intro H. unfold part in H. apply filter_In in H as [H _]. apply (In_nth _ _ 0) in H as (j & Hj & Ej). rewrite firstn_length in Hj. rewrite nth_firstn' in Ej by lia.
          assert (X := proj1 (Proof_Helpers.sorted_nth W 0) A j k ltac:(lia) ltac:(lia)). lia.
      - destruct (memb (nth k W 0 + 1) W) eqn:Em; [apply memb_In in Em; tauto|]. rewrite app_nil_r. reflexivity. }
    rewrite St. reflexivity. }
  assert (Last : part (length W - 1) = good_weights W).
  { unfold part, good_weights. transitivity (filter (fun w => memb (w + 1) W) (firstn (length W - 1) W ++ skipn (length W - 1) W)); [|rewrite firstn_skipn; reflexivity]. rewrite filter_app. enough (X : filter (fun w => memb (w + 1) W) (skipn (length W - 1) W) = []) by (rewrite X, app_nil_r; reflexivity).
    destruct (length W) as [|n] eqn:El; [destruct W; [reflexivity | discriminate]|]. replace (S n - 1) with n by lia.
    assert (Es : skipn n W = [nth n W 0]) by (rewrite <- (firstn_all W) at 1; rewrite El; apply skipn_one; lia). rewrite Es. cbn [filter].
    destruct (memb (nth n W 0 + 1) W) eqn:Em; [|reflexivity]. exfalso. apply memb_In in Em. apply (In_nth _ _ 0) in Em as (j & Hj & Ej). rewrite El in Hj.
    destruct (Nat.eq_dec j n) as [->|]; [lia|]. assert (X := proj1 (Proof_Helpers.sorted_nth W 0) A j n ltac:(lia) ltac:(lia)). lia. }
  rewrite G by lia. rewrite Last. eexists. split; reflexivity.
Qed.

Lemma fullspotlinks_ok order f : (forall l, Permutation (order l) l) -> exists L W, (forall n, In n L <-> full f n) /\ NoDup L /\ ascending W /\ (forall w, In w W <-> exists n, In n L /\ count_ones n = w) /\
  fullspotlinks_by_weight order f = Ok (map (fun w => (w, links_at L w)) (good_weights W), list_sum_nat (map (fun w => length (links_at L w)) (good_weights W))).
Proof.
  intro Ho. destruct (fullspots_by_weight_ok order f Ho) as (b & E & K). exists (order (fullspots f)), (bw_weights b).
  split; [intro n; rewrite <- fullspots_In; split; intro H; [eapply Permutation_in; [apply Ho | exact H] | eapply Permutation_in; [apply Permutation_sym, Ho | exact H]]|].
  split; [eapply Permutation_NoDup; [apply Permutation_sym, Ho | apply fullspots_NoDup]|]. split; [apply K|]. split; [apply K|].
  unfold fullspotlinks_by_weight. rewrite E. cbn [bind]. destruct (links_loop b _ _ K) as (m & Em & ->). exact Em.
Qed.

(** * Layers of the table *)

Lemma root_map f : fitting f -> root f = map (fun k => nth k (root f) false) (range (2 ^ valency f)).
Proof.
  intros [_ H]. unfold valency. rewrite <- H. unfold range. clear H. induction (root f) as [|x v IH]; [reflexivity|]. cbn [length seq map nth]. f_equal. rewrite <- seq_shift, map_map. exact IH.
Qed.

Lemma layered_tt_ok f : fitting f -> layered_tt f = Ok (map (fun w => map (fun k => Nat.b2n (nth k (root f) false)) (weights (valency f) w)) (range (valency f + 1))).
Proof.
  intro F. unfold layered_tt. rewrite (root_map f F) at 1. rewrite map_map. apply (flat_to_layered_spec (fun k => Nat.b2n (nth k (root f) false))).
Qed.

Lemma sum_b2n {A} (P : A -> bool) l : list_sum_nat (map (fun k => Nat.b2n (P k)) l) = length (filter P l).
Proof. unfold list_sum_nat. induction l as [|x l IH]; [reflexivity|]. cbn [map fold_right filter]. rewrite IH. destruct (P x); reflexivity. Qed.

Lemma layered_weight_ok f : fitting f -> layered_weight f = Ok (map (fun w => length (filter (fun k => nth k (root f) false) (weights (valency f) w))) (range (valency f + 1))).
Proof.
  intro F. unfold layered_weight. rewrite layered_tt_ok by exact F. cbn [bind]. rewrite map_map. f_equal. apply map_ext. intro w. apply (sum_b2n (fun k => nth k (root f) false)).
Qed.

Lemma nodupb_small (l : list nat) : negb (Nat.ltb 1 (length (nodupb l))) = true <-> forall x y, In x l -> In y l -> x = y.
Proof.
  rewrite negb_true_iff, Nat.ltb_ge. split.
  - intros H x y Hx Hy. apply nodupb_In in Hx, Hy. destruct (nodupb l) as [|a [|b m]]; cbn in H; [destruct Hx | | lia]. destruct Hx as [<-|[]], Hy as [<-|[]]. reflexivity.
  - intro H. assert (N := nodupb_NoDup l). assert (Hi : forall x, In x (nodupb l) -> In x l) by (intro x; apply nodupb_In). destruct (nodupb l) as [|a [|b m]]; cbn; try lia.
    exfalso. inversion N as [|? ? Ha _]; subst. apply Ha. left. symmetry. apply H; apply Hi; cbn; auto.
Qed.

Lemma is_symmetric_places f : fitting f -> exists b, is_symmetric f = Ok b /\
  (b = true <-> forall k k', k < 2 ^ valency f -> k' < 2 ^ valency f -> count_ones k = count_ones k' -> nth k (root f) false = nth k' (root f) false).
Proof.
  intro F. unfold is_symmetric. rewrite layered_tt_ok by exact F. cbn [bind]. eexists. split; [reflexivity|]. rewrite forallb_forall. split.
  - intros H k k' Hk Hk' W. specialize (H (map (fun k => Nat.b2n (nth k (root f) false)) (weights (valency f) (count_ones k)))).
    rewrite nodupb_small in H. assert (In (map (fun k => Nat.b2n (nth k (root f) false)) (weights (valency f) (count_ones k))) (map (fun w => map (fun k => Nat.b2n (nth k (root f) false)) (weights (valency f) w)) (range (valency f + 1)))).
    { apply (in_map (fun w => map (fun k => Nat.b2n (nth k (root f) false)) (weights (valency f) w))). apply range_In. assert (X := count_ones_le _ k Hk). lia. }
    specialize (H H0 (Nat.b2n (nth k (root f) false)) (Nat.b2n (nth k' (root f) false))).
    enough (Nat.b2n (nth k (root f) false) = Nat.b2n (nth k' (root f) false)) by (destruct (nth k (root f) false), (nth k' (root f) false); cbn in *; congruence).
    apply H; apply (in_map (fun k => Nat.b2n (nth k (root f) false))), weights_In; auto.
  - intros H layer Hl. apply in_map_iff in Hl as (w & <- & _). apply nodupb_small. intros x y Hx Hy. apply in_map_iff in Hx as (k & <- & Hk), Hy as (k' & <- & Hk'). apply weights_In in Hk as [Hk Wk], Hk' as [Hk' Wk'].
    f_equal. apply H; congruence.
Qed.

(** * Symmetric functions *)

Lemma true_atoms_place f e : true_atoms f e = count_ones (b2n (map e (atomvals f))).
Proof.
  rewrite (count_ones_eq _ (length (map e (atomvals f)))) by apply b2n_lt. rewrite n2b_b2n. unfold true_atoms. induction (atomvals f) as [|a l IH]; [reflexivity|]. cbn [filter map]. destruct (e a); cbn [length]; rewrite IH; reflexivity.
Qed.
Lemma place_of_asg f n : fitting f -> n < 2 ^ valency f -> b2n (map (asg (atomvals f) n) (atomvals f)) = n.
Proof. intros F H. rewrite asg_map by (apply fitting_NoDup; exact F). apply b2n_n2b. exact H. Qed.

Lemma counting_places f : fitting f -> (counting f <-> forall k k', k < 2 ^ valency f -> k' < 2 ^ valency f -> count_ones k = count_ones k' -> nth k (root f) false = nth k' (root f) false).
Proof.
  intro F. split.
  - intros C k k' Hk Hk' W. rewrite <- (sem_place_asg f k), <- (sem_place_asg f k') by assumption. apply C. rewrite !true_atoms_place, !place_of_asg by assumption. exact W.
  - intros H e e' W. rewrite !true_atoms_place in W. apply H; [apply place_lt' | apply place_lt' | exact W].
Qed.

Fixpoint posn (l : list nat) (a : nat) : nat := match l with [] => 0 | x :: l' => if Nat.eqb a x then 0 else S (posn l' a) end.
Lemma posn_lt l a : In a l -> posn l a < length l.
Proof. induction l as [|x l IH]; [intros []|]. cbn. destruct (Nat.eqb_spec a x); [lia|]. intros [->|H]; [congruence | specialize (IH H); lia]. Qed.
Lemma nth_posn l a : In a l -> nth (posn l a) l 0 = a.
Proof. induction l as [|x l IH]; [intros []|]. cbn. destruct (Nat.eqb_spec a x) as [->|]; [reflexivity|]. intros [->|H]; [congruence | exact (IH H)]. Qed.
Lemma posn_nth l k : NoDup l -> k < length l -> posn l (nth k l 0) = k.
Proof.
  intros N H. assert (P := posn_lt l (nth k l 0) (nth_In l 0 H)). apply (proj1 (NoDup_nth l 0) N); [exact P | exact H|]. apply nth_posn, nth_In, H.
Qed.

Lemma filter_length_map {A B} (P : B -> bool) (g : A -> B) l : length (filter P (map g l)) = length (filter (fun a => P (g a)) l).
Proof. induction l as [|x l IH]; [reflexivity|]. cbn. destruct (P (g x)); cbn; rewrite IH; reflexivity. Qed.

Lemma filter_length_perm (e : nat -> bool) l l' : Permutation l l' -> length (filter e l) = length (filter e l').
Proof. induction 1 as [|x l l' P IH|x y l|l l' l'' P1 IH1 P2 IH2]; cbn; [reflexivity | destruct (e x); cbn; congruence | destruct (e x), (e y); reflexivity | congruence]. Qed.

Lemma counting_permutable f : fitting f -> (counting f <-> permutable f).
Proof.
  intro F. assert (N := fitting_NoDup f F). split.
  - intros C pi Hin Hinj e. apply C. unfold true_atoms. rewrite <- (filter_length_map e pi).
    assert (P : Permutation (map pi (atomvals f)) (atomvals f)).
    { apply NoDup_Permutation_bis; [apply Proof_Hyper.NoDup_map_inj; [exact Hinj | exact N] | rewrite map_length; lia|]. intros x Hx. apply in_map_iff in Hx as (a & <- & Ha). apply Hin, Ha. }
    exact (filter_length_perm e _ _ P).
  - intros P e e' W. rewrite !true_atoms_place in W.
    assert (HT := place_lt' f e). assert (HS := place_lt' f e').
    destruct (schoute_coset_spec _ _ _ HT HS W) as (l & _ & Ne & Hl). destruct l as [|r l]; [congruence|]. destruct (proj1 (Hl r) (or_introl eq_refl)) as [Hr Hp].
    destruct (act_perm r (valency f) Hr) as [Pr _].
    set (pi := fun a => nth (act r (posn (atomvals f) a)) (atomvals f) 0).
    assert (Lt : forall a, In a (atomvals f) -> act r (posn (atomvals f) a) < valency f) by (intros a Ha; apply Proof_MinRepClass.permutes_lt; [exact Pr | apply posn_lt; exact Ha]).
    transitivity (sem f (fun a => e' (pi a))).
    + unfold sem, table. f_equal. rewrite <- Hp. apply Nat.bits_inj. intro k. destruct (Nat.lt_ge_cases k (valency f)) as [Hk|Hk].
      * rewrite Proof_MinRepClass.pre_bits by exact Hk. rewrite (bit_of_place f e' (act r k)) by (apply Proof_MinRepClass.permutes_lt; [exact Pr | exact Hk]). rewrite (bit_of_place f (fun a => e' (pi a)) k Hk).
        unfold pi, nth_atom. rewrite posn_nth; [reflexivity | exact N | exact Hk].
      * rewrite !testbit_high; [reflexivity | |]; (eapply Nat.lt_le_trans; [|apply Nat.pow_le_mono_r; [|exact Hk]; lia]); [apply place_lt' | apply Proof_MinRepClass.pre_lt].
    + apply P.
      * intros a Ha. unfold pi. apply nth_In. apply Lt, Ha.
      * intros a b Ha Hb E. unfold pi in E. apply (proj1 (NoDup_nth _ 0) N) in E; [|apply Lt, Ha | apply Lt, Hb]. apply (injective_on _ (valency f)) in E; [|exact Pr | apply posn_lt, Ha | apply posn_lt, Hb].
        rewrite <- (nth_posn _ a Ha), <- (nth_posn _ b Hb), E. reflexivity.
Qed.
