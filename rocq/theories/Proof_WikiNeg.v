(** Proof_WikiNeg: the tables of negations in the wiki table of a clan. *)

From Coq Require Import List Arith ZArith Bool Lia Permutation Sorted Factorial.
From Verif Require Import Model_Base Lib Model_Splits Model_Perm Model_Binary Model_SigPerm Model_SetPart Model_Boolf Model_BoolfMore Model_MinRep
  Model_Helpers Model_Segments Model_Ec Model_ClanMatrix Model_Wiki Spec_Bits Spec_Perm Spec_SigPerm Spec_Boolf Spec_SetPart Spec_MinRep Spec_Helpers Spec_Ec Spec_ClanMatrix Spec_Wiki
  Proof_Binary Proof_Numbers Proof_Perm Proof_PermMore Proof_Inversions Proof_SigPerm Proof_SigPermOps Proof_SigPermMore Proof_Helpers Proof_SetPart
  Proof_Boolf Proof_Deflate Proof_BoolfTable Proof_BoolfApply Proof_BoolfMake Proof_Reorder Proof_MinRepClass Proof_MinRepCoset
  Proof_Listing Proof_EcClass Proof_EcSymmetry Proof_SegmentsMore Proof_ClanExposets.
Import ListNotations.
Open Scope nat_scope.

(** * Order by weight *)

Lemma weight_of k : exists b, Binv_intval k None = Ok b /\ binv_weight b = count_ones k.
Proof. destruct (Binv_int_min k) as (v & E & V & _). exists v. split; [exact E|]. rewrite binv_weight_eq, V. reflexivity. Qed.
Lemma weights_of l : mapM (fun k => let* b := Binv_intval k None in Ok (binv_weight b)) l = Ok (map count_ones l).
Proof. apply mapM_ok. intros k _. destruct (weight_of k) as (b & -> & <-). reflexivity. Qed.

Lemma combine_map_l {A B} (g : A -> B) l : combine (map g l) l = map (fun x => (g x, x)) l.
Proof. induction l as [|x l IH]; [reflexivity|]. cbn [map combine]. rewrite IH. reflexivity. Qed.

Lemma sorted_by_weight_spec l : l <> [] -> NoDup l -> exists l', sorted_by_weight l = Ok (map count_ones l', l') /\ Permutation l l' /\ StronglySorted weight_lt l'.
Proof.
  intros NE N. unfold sorted_by_weight. rewrite weights_of. cbn [bind]. destruct l as [|x0 l0] eqn:El; [congruence|]. rewrite <- El in *. clear El x0 l0 NE.
  unfold sort_together. rewrite map_length, Nat.eqb_refl. cbn [true_except bind]. rewrite combine_map_l. set (s := isort pair_leb (map (fun x => (count_ones x, x)) l)).
  assert (P : Permutation (map (fun x => (count_ones x, x)) l) s) by apply isort_perm.
  assert (W : forall c, In c s -> fst c = count_ones (snd c)). { intros c Hc. rewrite <- P in Hc. apply in_map_iff in Hc as (x & <- & _). reflexivity. }
  assert (P' : Permutation l (map snd s)). { rewrite <- P, map_map. cbn [snd]. rewrite map_id. reflexivity. }
  exists (map snd s). split; [|split; [exact P'|]].
  - f_equal. f_equal. rewrite map_map. apply map_ext_in. exact W.
  - assert (S : StronglySorted (fun a b => pair_leb a b = true) s) by (apply isort_sorted; [apply pair_leb_total | apply pair_leb_trans]).
    assert (N' : NoDup (map snd s)) by (apply (Permutation_NoDup P' N)). clear P P'. induction S as [|c s S IH F]; [constructor|]. cbn [map] in *. inversion N' as [|? ? Hc N'']; subst. constructor; [apply IH; [intros; apply W; right; assumption | exact N'']|].
    apply Forall_forall. intros y Hy. apply in_map_iff in Hy as (d & <- & Hd). rewrite Forall_forall in F. specialize (F d Hd). unfold pair_leb in F. rewrite orb_true_iff, andb_true_iff, Nat.ltb_lt, Nat.eqb_eq, Nat.leb_le in F.
    rewrite (W c), (W d) in F by (try (left; reflexivity); right; exact Hd). unfold weight_lt. destruct (Nat.eq_dec (snd c) (snd d)) as [E|E]; [|lia]. exfalso. apply Hc. rewrite E. apply in_map. exact Hd.
Qed.

(** * Borders *)

Lemma border_fold ws : forall a acc w, fst (fold_left border_step (combine (seq a (length ws)) ws) (acc, Some w)) =
  acc ++ filter (fun i => negb (Nat.eqb (nth (i - a) ws 0) (nth (i - a) (w :: ws) 0))) (seq a (length ws)).
Proof.
  induction ws as [|v ws IH]; intros a acc w; cbn [length seq combine fold_left filter]; [symmetry; apply app_nil_r|].
  unfold border_step at 2. rewrite IH. rewrite Nat.sub_diag. change (nth 0 (v :: ws) 0) with v. change (nth 0 (w :: v :: ws) 0) with w.
  assert (X : filter (fun i => negb (Nat.eqb (nth (i - a) (v :: ws) 0) (nth (i - a) (w :: v :: ws) 0))) (seq (S a) (length ws)) = filter (fun i => negb (Nat.eqb (nth (i - S a) ws 0) (nth (i - S a) (v :: ws) 0))) (seq (S a) (length ws))).
  { apply filter_ext_in. intros i Hi. apply in_seq in Hi. replace (i - a) with (S (i - S a)) by lia. reflexivity. }
  destruct (Nat.eqb v w); cbn [negb]; rewrite X; [reflexivity | rewrite <- app_assoc; reflexivity].
Qed.
Lemma borders_spec ws i : memb i (borders ws) = true <-> exists j, i = S j /\ i < length ws /\ nth j ws 0 <> nth i ws 0.
Proof.
  rewrite memb_In. unfold borders, enumerate. destruct ws as [|w ws].
  { cbn. split; [intros [] | intros (j & _ & H & _); lia]. }
  cbn [length seq combine fold_left]. change (border_step ([], None) (0, w)) with (@nil nat, Some w). rewrite border_fold. cbn [app]. rewrite filter_In, in_seq, negb_true_iff, Nat.eqb_neq. split.
  - intros [H X]. exists (i - 1). split; [lia|]. split; [lia|]. destruct i as [|i]; [lia|]. replace (S i - 1) with i in * by lia. change (nth (S i) (w :: ws) 0) with (nth i ws 0). intro Q. apply X. symmetry. exact Q.
  - intros (j & -> & H & X). split; [lia|]. replace (S j - 1) with j by lia. change (nth (S j) (w :: ws) 0) with (nth j ws 0) in X. intro Q. apply X. symmetry. exact Q.
Qed.

Lemma heading_spec K l : StronglySorted weight_lt l -> (forall k, In k l <-> K k) ->
  heading K (map (fun jv : nat * nat => (snd jv, memb (fst jv) (borders (map count_ones l)))) (enumerate l)).
Proof.
  intros S H. assert (E : map fst (map (fun jv : nat * nat => (snd jv, memb (fst jv) (borders (map count_ones l)))) (enumerate l)) = l) by (rewrite map_map; cbn [fst]; apply enumerate_vals).
  split; [rewrite E; exact S|]. split; [rewrite E; exact H|]. intros i x b Hi.
  assert (A : forall i x b, nth_error (map (fun jv : nat * nat => (snd jv, memb (fst jv) (borders (map count_ones l)))) (enumerate l)) i = Some (x, b) -> nth_error l i = Some x /\ b = memb i (borders (map count_ones l))).
  { clear. intros i x b Hi. rewrite nth_error_map in Hi. destruct (nth_error (enumerate l) i) as [[j v]|] eqn:Ei; [|discriminate]. cbn in Hi. injection Hi as <- <-. assert (J : j = i).
    { assert (Q := map_nth_error fst i _ Ei). cbn [fst] in Q. rewrite enumerate_keys in Q. assert (Li : i < length l) by (rewrite <- (range_length (length l)); apply nth_error_Some; congruence). apply nth_error_nth with (d := 0) in Q. rewrite nth_range in Q by exact Li. congruence. }
    subst j. split; [|reflexivity]. apply enumerate_In. apply nth_error_In in Ei. exact Ei. }
  destruct (A i x b Hi) as [Hx ->]. rewrite borders_spec. assert (Li : i < length l) by (apply nth_error_Some; congruence). rewrite map_length. split.
  - intros (j & -> & _ & X). destruct (nth_error l j) as [y|] eqn:Ey; [|apply nth_error_None in Ey; lia]. exists j, y, (memb j (borders (map count_ones l))). split; [reflexivity|]. split.
    + rewrite nth_error_map. assert (Ej : nth_error (enumerate l) j = Some (j, y)).
      { destruct (nth_error (enumerate l) j) as [[j' v]|] eqn:Ej. 2:{ apply nth_error_None in Ej. unfold enumerate in Ej. rewrite combine_length, seq_length in Ej. lia. }
        assert (Q := map_nth_error (fun jv : nat * nat => (snd jv, memb (fst jv) (borders (map count_ones l)))) j _ Ej). destruct (A _ _ _ Q) as [Q' _]. cbn [fst snd] in Q'. assert (v = y) by congruence. subst v. f_equal. f_equal.
        assert (Q2 := map_nth_error fst j _ Ej). cbn [fst] in Q2. rewrite enumerate_keys in Q2. apply nth_error_nth with (d := 0) in Q2. rewrite nth_range in Q2 by lia. congruence. }
      rewrite Ej. reflexivity.
    + apply nth_error_nth with (d := 0) in Hx, Ey. rewrite <- Hx, <- Ey. assert (Z0 : count_ones 0 = 0) by reflexivity. rewrite <- Z0, !map_nth in X. exact X.
  - intros (j & y & c & -> & Hj & X). exists j. split; [reflexivity|]. split; [exact Li|]. destruct (A _ _ _ Hj) as [Ey _]. apply nth_error_nth with (d := 0) in Hx, Ey. rewrite <- Hx, <- Ey in X. assert (Z0 : count_ones 0 = 0) by reflexivity. rewrite <- Z0, !map_nth. exact X.
Qed.

(** * The matrix *)

Lemma npair_eqb_ok a b : npair_eqb a b = true <-> a = b.
Proof. destruct a as [a1 a2], b as [b1 b2]. unfold npair_eqb. cbn [fst snd]. rewrite andb_true_iff, !Nat.eqb_eq. split; [intros [-> ->]; reflexivity | intro E; injection E; auto]. Qed.

Definition has (d : list ((nat * nat) * list nat)) (k : nat * nat) (x : nat) : Prop := exists s, mat_at d k = Some s /\ In x s.
Definition good (d : list ((nat * nat) * list nat)) : Prop := forall k s, mat_at d k = Some s -> NoDup s /\ s <> [].

Lemma mat_at_add d k x k' : mat_at (mat_add d k x) k' =
  if npair_eqb k k' then Some (match mat_at d k with None => [x] | Some s => if memb x s then s else s ++ [x] end) else mat_at d k'.
Proof.
  unfold mat_at. induction d as [|[k0 s0] d IH]; cbn [mat_add find fst snd].
  - destruct (npair_eqb k k'); reflexivity.
  - destruct (npair_eqb k0 k) eqn:E0.
    + apply npair_eqb_ok in E0. subst k0. cbn [find fst snd]. destruct (npair_eqb k k') eqn:E; reflexivity.
    + cbn [find fst snd]. destruct (npair_eqb k0 k') eqn:E1; [|exact IH]. destruct (npair_eqb k k') eqn:E2; [|reflexivity]. apply npair_eqb_ok in E1, E2. subst. assert (X : npair_eqb k' k' = true) by (apply npair_eqb_ok; reflexivity). congruence.
Qed.
Lemma has_add d k x k' y : has (mat_add d k x) k' y <-> has d k' y \/ (k' = k /\ y = x).
Proof.
  unfold has. rewrite mat_at_add. destruct (npair_eqb k k') eqn:E.
  - apply npair_eqb_ok in E. subst k'. split.
    + intros (s & Es & Hy). injection Es as <-. destruct (mat_at d k) as [s|]; [|destruct Hy as [<-|[]]; auto]. destruct (memb x s); [left; exists s; auto|]. apply in_app_iff in Hy as [Hy|[<-|[]]]; [left; exists s; auto | auto].
    + intro H. eexists. split; [reflexivity|]. destruct (mat_at d k) as [s|].
      * destruct (memb x s) eqn:M; destruct H as [(s' & Es & Hy)|[_ ->]]; try (injection Es as <-); try apply in_app_iff; auto; [apply memb_In; exact M | right; left; reflexivity].
      * destruct H as [(s' & Es & _)|[_ ->]]; [discriminate | left; reflexivity].
  - split; [intros (s & H); left; exists s; exact H|]. intros [(s & H)|[-> ->]]; [exists s; exact H|]. assert (X : npair_eqb k k = true) by (apply npair_eqb_ok; reflexivity). congruence.
Qed.
Lemma good_add d k x : good d -> good (mat_add d k x).
Proof.
  intros G k' s. rewrite mat_at_add. destruct (npair_eqb k k') eqn:E; [|apply G]. intro Es. injection Es as <-. destruct (mat_at d k) as [s|] eqn:Es; [|split; [repeat constructor; intros [] | discriminate]].
  destruct (G k s Es) as [N NE]. destruct (memb x s) eqn:M; [auto|]. split; [|destruct s; discriminate]. apply Proof_PermMore.NoDup_app_intro; [exact N | repeat constructor; intros [] |]. intros y Hy [<-|[]]. apply memb_In in Hy. congruence.
Qed.

Lemma index_of_nth l x i : NoDup l -> nth_error l i = Some x -> index_of x l = Ok i.
Proof.
  intros N Hi. assert (Hx := nth_error_In _ _ Hi). destruct (index_of_In x l Hx) as (j & E & Lj & Hj). rewrite E. f_equal. apply (proj1 (NoDup_nth l 0) N); [exact Lj | apply nth_error_Some; congruence|]. rewrite Hj. symmetry. apply nth_error_nth. exact Hi.
Qed.

Lemma matrix_spec ks ms ts : NoDup ks -> NoDup ms -> (forall k r m, In (k, r, m) ts -> In k ks /\ In m ms) -> exists d,
  foldM (fun matrix (t : triple) => let '(keyneg_index, perm_index, valneg_index) := t in
     let* i := index_of keyneg_index ks in let* j := index_of valneg_index ms in Ok (mat_add matrix (i, j) perm_index)) ts [] = Ok d /\ good d /\
  forall i j k m, nth_error ks i = Some k -> nth_error ms j = Some m -> forall r, has d (i, j) r <-> In (k, r, m) ts.
Proof.
  intros Nk Nm H. set (st := fun matrix (t : triple) => _).
  assert (G : forall l d0, (forall t, In t l -> In t ts) -> good d0 -> exists d, foldM st l d0 = Ok d /\ good d /\
    forall i j k m, nth_error ks i = Some k -> nth_error ms j = Some m -> forall r, has d (i, j) r <-> has d0 (i, j) r \/ In (k, r, m) l).
  { induction l as [|[[k0 r0] m0] l IH]; intros d0 I G; cbn [foldM].
    - exists d0. split; [reflexivity|]. split; [exact G|]. intros. cbn [In]. tauto.
    - destruct (H k0 r0 m0) as [H1 H2]; [apply I; left; reflexivity|]. apply In_nth_error in H1 as (i0 & Hi0). apply In_nth_error in H2 as (j0 & Hj0).
      unfold st at 1. rewrite (index_of_nth ks k0 i0 Nk Hi0), (index_of_nth ms m0 j0 Nm Hj0). cbn [bind].
      destruct (IH (mat_add d0 (i0, j0) r0)) as (d & E & Gd & Hd); [intros; apply I; right; assumption | apply good_add; exact G|]. exists d. split; [exact E|]. split; [exact Gd|].
      intros i j k m Hi Hj r. rewrite (Hd i j k m Hi Hj r), has_add. cbn [In]. split.
      + intros [[X|[X ->]]|X]; [auto | | auto]. injection X as -> ->. right. left. congruence.
      + intros [X|[X|X]]; [auto | | auto]. injection X as -> -> ->. left. right. split; [|reflexivity]. f_equal.
        * apply (proj1 (NoDup_nth_error ks) Nk); [apply nth_error_Some; congruence | congruence].
        * apply (proj1 (NoDup_nth_error ms) Nm); [apply nth_error_Some; congruence | congruence]. }
  destruct (G ts []) as (d & E & Gd & Hd); [auto | intros k s X; discriminate|]. exists d. split; [exact E|]. split; [exact Gd|]. intros i j k m Hi Hj r. rewrite (Hd i j k m Hi Hj r). split; [intros [(s & X & _)|X]; [discriminate | exact X] | auto].
Qed.

(** * The sequences *)

Lemma sequence_literals n m r k : r < fact n -> m < 2 ^ n -> (forall a, a < n -> Nat.testbit k a = Nat.testbit m (Proof_MinRepCoset.act r a)) ->
  exists sg s, SigPerm_pair m r = Ok sg /\ sg_sequence sg (Some n) = Ok s /\ literals n k r s.
Proof.
  intros Hr Hm Hk. destruct (pair_spec m r) as (s & Es & Ws & _ & Hp). assert (G := Es). rewrite pair_form in G. destruct (Binv_int_min m) as (v & Ev & _). rewrite Ev in G. cbn [bind] in G.
  destruct (int_to_perm r) as [p|] eqn:Ep; [|discriminate G]. cbn [bind] in G. injection G as G. assert (Esp : sg_perm s = p) by (rewrite <- G; reflexivity).
  unfold sg_pair in Hp. destruct (sg_perm_index s) as [r'|]; [|discriminate Hp]. cbn [bind] in Hp. injection Hp as Hv _.
  assert (Ea : forall a, atom (sf s a) = Proof_MinRepCoset.act r a) by (intro a; unfold Proof_MinRepCoset.act; rewrite Ep, sf_atom, Esp; reflexivity).
  assert (En : forall a, negated (sf s a) = Nat.testbit m (Proof_MinRepCoset.act r a)) by (intro a; rewrite <- Ea, <- Hv, valneg_index_spec; reflexivity).
  assert (L : sg_length s <= n).
  { apply (length_least s Ws). intros a Ha. assert (A := Ea a). assert (B := En a). rewrite (act_high r n a Hr Ha) in A, B. assert (T : Nat.testbit m a = false).
    { destruct (Nat.eq_dec m 0) as [->|M0]; [apply Nat.bits_0|]. apply Nat.bits_above_log2. apply Nat.log2_lt_pow2 in Hm; lia. }
    rewrite T in B. unfold atom, negated, neg in *. apply Z.ltb_ge in B. lia. }
  exists s, (map (sf s) (range n)). split; [exact Es|]. split; [apply (sequence_ok s Ws n L)|].
  destruct (nth_error (rev_colex_perms n) r) as [pl|] eqn:Epl; [|apply nth_error_None in Epl; rewrite rev_colex_length in Epl; lia]. destruct (colex_list n r pl Epl) as (_ & _ & Lp & Hp).
  exists pl. split; [exact Epl|]. split.
  - rewrite map_map. apply (nth_ext _ _ 0 0); [rewrite map_length, range_length; symmetry; exact Lp|]. intros a Ha. rewrite map_length, range_length in Ha. rewrite (nth_indep _ 0 (atom (sf s 0))) by (rewrite map_length, range_length; exact Ha). rewrite (map_nth (fun a => atom (sf s a))), nth_range, Ea by exact Ha. symmetry. apply Hp. exact Ha.
  - intros a Ha. rewrite (nth_indep _ 0%Z (sf s 0)) by (rewrite map_length, range_length; exact Ha). rewrite map_nth, nth_range, En by exact Ha. symmetry. apply Hk. exact Ha.
Qed.

(** * The table in a cell *)

Lemma Forall2_map_eq {A B C} (g : A -> C) (h : B -> C) l r : Forall2 (fun x y => h y = g x) l r -> map h r = map g l.
Proof. induction 1 as [|x y l r E _ IH]; [reflexivity|]. cbn [map]. rewrite E, IH. reflexivity. Qed.
Lemma Forall2_weaken {A B} (Q Q' : A -> B -> Prop) l r : (forall x y, In x l -> Q x y -> Q' x y) -> Forall2 Q l r -> Forall2 Q' l r.
Proof. intros H F. induction F as [|x y l r Hxy F IH]; constructor; [apply H; [left; reflexivity | exact Hxy]|]. apply IH. intros; apply H; [right|]; assumption. Qed.
Lemma Forall2_map_left {A B C} (g : A -> C) (Q : C -> B -> Prop) l r : Forall2 (fun x y => Q (g x) y) l r -> Forall2 Q (map g l) r.
Proof. induction 1; constructor; assumption. Qed.

Lemma html_spec n ks ms ts : ks <> [] -> ms <> [] -> NoDup ks -> NoDup ms ->
  (forall k r m, In (k, r, m) ts -> In k ks /\ In m ms /\ r < fact n /\ m < 2 ^ n /\ forall a, a < n -> Nat.testbit k a = Nat.testbit m (Proof_MinRepCoset.act r a)) ->
  exists t, index_triples_to_valneg_html ks ms ts n = Ok t /\ negations_ok n (fun k => In k ks) (fun m => In m ms) (fun k r m => In (k, r, m) ts) t.
Proof.
  intros NEk NEm Nk Nm H. unfold index_triples_to_valneg_html.
  destruct (sorted_by_weight_spec ks NEk Nk) as (ks' & Ek & Pk & Sk). destruct (sorted_by_weight_spec ms NEm Nm) as (ms' & Em & Pm & Sm). rewrite Ek. cbn [bind]. rewrite Em. cbn [bind].
  assert (Nk' := Permutation_NoDup Pk Nk). assert (Nm' := Permutation_NoDup Pm Nm).
  assert (Ik : forall k, In k ks' <-> In k ks) by (intro k; split; apply Permutation_in; [symmetry|]; exact Pk). assert (Im : forall k, In k ms' <-> In k ms) by (intro k; split; apply Permutation_in; [symmetry|]; exact Pm).
  destruct (matrix_spec ks' ms' ts Nk' Nm') as (d & Ed & G & Hd). { intros k r m X. destruct (H k r m X) as (X1 & X2 & _). rewrite Ik, Im. auto. }
  rewrite Ed. cbn [bind]. set (cols := map (fun jv : nat * nat => (snd jv, memb (fst jv) (borders (map count_ones ms')))) (enumerate ms')).
  match goal with |- context [mapM ?h (enumerate ks')] => destruct (mapM_all h (fun ik row => fst row = (snd ik, memb (fst ik) (borders (map count_ones ks'))) /\
    Forall2 (fun mc e => entry_shows n (snd ik) (fun r => In (snd ik, r, fst mc) ts) e) cols (snd row)) (enumerate ks')) as (rows & Er & F) end.
  { intros [i k] Hik. apply enumerate_In in Hik. cbn [fst snd].
    match goal with |- context [mapM ?h (enumerate ms')] => destruct (mapM_all h (fun jm e => entry_shows n k (fun r => In (k, r, snd jm) ts) e) (enumerate ms')) as (es & Ee & Fe) end.
    { intros [j m] Hjm. apply enumerate_In in Hjm. cbn [fst snd]. specialize (Hd i j k m Hik Hjm). destruct (mat_at d (i, j)) as [s|] eqn:Es.
      2:{ exists None. split; [reflexivity|]. cbn [entry_shows]. intros r X. apply Hd in X as (s & X & _). congruence. }
      destruct (G _ _ Es) as [Ns NEs]. assert (Is : forall r, In r s <-> In (k, r, m) ts) by (intro r; rewrite <- Hd; split; [intro X; exists s; auto | intros (s' & X & Hr); congruence]).
      match goal with |- context [mapM ?h (sort_nat s)] => destruct (mapM_all h (fun r x => fst x = r /\ literals n k r (snd x)) (sort_nat s)) as (l & El & Fl) end.
      { intros r Hr. apply (proj1 (sort_nat_In r s)), Is in Hr. destruct (H k r m Hr) as (_ & _ & Hr1 & Hm & Hk). destruct (sequence_literals n m r k Hr1 Hm Hk) as (sg & q & E1 & E2 & E3). rewrite E1. cbn [bind]. rewrite E2. cbn [bind]. eexists. split; [reflexivity|]. auto. }
      rewrite El. cbn [bind]. eexists. split; [reflexivity|]. assert (Ef : map fst l = sort_nat s). { rewrite (Forall2_map_eq (fun r : nat => r) fst (sort_nat s) l); [apply map_id|]. apply (Forall2_weaken (fun r x => fst x = r /\ literals n k r (snd x))); [|exact Fl]. intros x y _ [X _]. exact X. }
      cbn [entry_shows]. split; [|split; [|split]].
      - intros ->. cbn in Ef. destruct s as [|r0 s0]; [congruence|]. assert (X : In r0 (sort_nat (r0 :: s0))) by (apply sort_nat_In; left; reflexivity). rewrite <- Ef in X. destruct X.
      - rewrite Ef. apply sort_nat_sorted_lt, Ns.
      - intro r. rewrite Ef, sort_nat_In. apply Is.
      - intros r q Hq. destruct (Forall2_in_r _ _ _ _ Fl Hq) as (r' & _ & X1 & X2). cbn [fst snd] in *. subst r'. exact X2. }
    rewrite Ee. cbn [bind]. eexists. split; [reflexivity|]. cbn [fst snd]. split; [reflexivity|]. unfold cols. apply Forall2_map_left. cbn [fst]. exact Fe. }
  rewrite Er. cbn [bind]. eexists. split; [reflexivity|]. split; [|split]; cbn [n_cols n_rows].
  - apply heading_spec; assumption.
  - rewrite (Forall2_map_eq (fun ik => (snd ik, memb (fst ik) (borders (map count_ones ks')))) fst (enumerate ks') rows); [apply heading_spec; assumption|]. eapply Forall2_weaken; [|exact F]. intros x y _ [X _]. exact X.
  - intros k b es Hrow. destruct (Forall2_in_r _ _ _ _ F Hrow) as ([i k'] & _ & X1 & X2). cbn [fst snd] in *. injection X1 as -> _. exact X2.
Qed.

(** * The negations of a row *)

Lemma keyneg_table_spec ks : exists d, keyneg_table ks = Ok d /\ by_weight (fun k => In k ks) d.
Proof.
  unfold keyneg_table. rewrite (foldM_fold _ (fun d kx => dd_add Nat.eqb d (fst kx) (snd kx)) (fun k => [(count_ones k, k)])) by (intros k s _; destruct (weight_of k) as (b & -> & <-); reflexivity). cbn [bind].
  set (E := flat_map (fun k => [(count_ones k, k)]) ks). assert (IE : forall w k, In (w, k) E <-> In k ks /\ count_ones k = w).
  { intros w k. unfold E. rewrite in_flat_map. split; [intros (x & Hx & [X|[]]); injection X as <- <-; auto | intros [X <-]; exists k; split; [exact X | left; reflexivity]]. }
  destruct (dd_of_ok Nat.eqb Nat.eqb_eq E [] (proj1 (@dd_nil nat))) as [Ok_ M]. change (fold_left (fun d kx => dd_add Nat.eqb d (fst kx) (snd kx)) E []) with (dd_of Nat.eqb E []).
  destruct (nat_lists (dd_of Nat.eqb E []) (fun w => exists k, In k ks /\ count_ones k = w) (fun w k => In k ks /\ count_ones k = w) Ok_) as (d & Ed & L1 & L2 & L3).
  - intros w k. rewrite M, IE. split; [intros [X|X]; [split; [exists k; exact X | exact X] | destruct (proj2 (@dd_nil nat) _ _ X)] | intros [_ X]; auto].
  - intros w X. exact X.
  - exists d. split; [exact Ed|]. split; [exact L1|]. split.
    + intros k Hk. assert (X : In (count_ones k) (map fst d)) by (apply L2; exists k; auto). apply in_map_iff in X as ([w l] & X1 & X2). cbn in X1. subst w. exists l. exact X2.
    + intros w l Hl. destruct (L3 w l Hl) as [S I]. split; [|split; [exact S | exact I]]. intros ->. assert (X : In w (map fst d)) by (apply in_map_iff; exists (w, []); auto). apply L2 in X as (k & X). apply I in X. destruct X.
Qed.
