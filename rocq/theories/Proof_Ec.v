(** Proof_Ec: the labelled partitions of ec_family, ec_faction and ec_clan. *)

From Coq Require Import List Arith ZArith Bool Lia Permutation Sorted Factorial.
From Verif Require Import Model_Base Lib Model_Splits Model_Perm Model_Binary Model_SigPerm Model_SetPart Model_Boolf Model_BoolfMore Model_MinRep
  Model_Helpers Model_Ec Spec_Bits Spec_Boolf Spec_SetPart Spec_MinRep Spec_Ec
  Proof_Binary Proof_Perm Proof_PermMore Proof_Inversions Proof_SigPerm Proof_SigPermOps Proof_Helpers Proof_SetPart Proof_SetPartLabels Proof_SetPartObj
  Proof_Boolf Proof_Deflate Proof_BoolfTable Proof_BoolfApply Proof_BoolfMake Proof_BoolfMore Proof_MinRepTwin Proof_MinRepClass Proof_MinRepCoset Proof_MinRep Proof_MinRepMin Proof_Twin Proof_Listing Proof_Splits Proof_Noble Proof_Seqs Proof_HelpersBits.
Import ListNotations.
Open Scope nat_scope.

(** * Labels *)

Lemma position_nth fs g : (forall h, In h fs -> reduced h) -> reduced g ->
  boolf_position fs g <= length fs /\ (boolf_position fs g < length fs -> nth_error fs (boolf_position fs g) = Some g) /\
  (In g fs -> boolf_position fs g < length fs).
Proof.
  intros Hr Rg. induction fs as [|h fs IH]; cbn [boolf_position In length]; [repeat split; [lia | lia | tauto]|].
  destruct IH as (I0 & I1 & I2); [intros; apply Hr; right; assumption|]. destruct (boolf_eqb h g) eqn:E.
  - apply boolf_eqb_true in E; [|apply Hr; left; reflexivity | exact Rg]. subst h. repeat split; [lia | lia].
  - split; [lia|]. split; [intro H; apply I1; lia|]. intros [->|H]; [|apply I2 in H; lia].
    rewrite (proj2 (boolf_eqb_true g g Rg Rg) eq_refl) in E. discriminate E.
Qed.

Lemma position_stranger fs g : (forall h, In h fs -> root h <> root g \/ atomvals h <> atomvals g) -> boolf_position fs g = length fs.
Proof.
  induction fs as [|h fs IH]; intro H; [reflexivity|]. cbn [boolf_position length]. destruct (boolf_eqb h g) eqn:E.
  - exfalso. apply boolf_eqb_eq in E as [E1 E2]. destruct (H h (or_introl eq_refl)); contradiction.
  - f_equal. apply IH. intros k Hk. apply H. right. exact Hk.
Qed.

Lemma position_at fs g : (forall h, In h fs -> reduced h) -> In g fs -> nth_error fs (boolf_position fs g) = Some g.
Proof. intros Hr H. destruct (position_nth fs g Hr (Hr g H)) as (_ & P & Q). apply P, Q, H. Qed.

Lemma position_inj fs g h : (forall k, In k fs -> reduced k) -> reduced g -> In h fs -> boolf_position fs g = boolf_position fs h -> g = h.
Proof.
  intros Hr Rg Hh E. assert (P := position_at fs h Hr Hh). destruct (position_nth fs g Hr Rg) as (_ & Q & _).
  destruct (position_nth fs h Hr (Hr h Hh)) as (_ & _ & B). specialize (B Hh). rewrite <- E in B. specialize (Q B). congruence.
Qed.

(** the items are a function *)
Lemma first_label_items (items : list (Z * boolf)) (F : boolf -> Z) x l : NoDup (map fst items) ->
  first_label (map (fun it => (fst it, F (snd it))) items) x = Some l <-> exists g, In (x, g) items /\ l = F g.
Proof.
  intro Hn. rewrite first_label_dict by (rewrite map_map; exact Hn). rewrite in_map_iff. split.
  - intros ((y & g) & E & H). cbn [fst snd] in E. injection E as <- <-. eauto.
  - intros (g & H & ->). exists (x, g). auto.
Qed.

Lemma item_unique (items : list (Z * boolf)) x g h : NoDup (map fst items) -> In (x, g) items -> In (x, h) items -> g = h.
Proof.
  intros Hn Hg Hh. induction items as [|[y k] items IH]; [destruct Hg|]. cbn [map fst] in Hn. inversion Hn as [|? ? Hy Hn']; subst.
  destruct Hg as [Eg|Hg], Hh as [Eh|Hh].
  - congruence.
  - injection Eg as -> ->. exfalso. apply Hy. apply in_map_iff. exists (x, h). auto.
  - injection Eh as -> ->. exfalso. apply Hy. apply in_map_iff. exists (x, g). auto.
  - apply IH; assumption.
Qed.

Lemma label_all_spec domain items gl : NoDup domain -> NoDup (map fst items) -> (forall e, In e (map fst items) -> In e domain) ->
  (forall g, In g (map snd items) -> reduced g) ->
  exists c, label_all domain items gl = Ok c /\ ec_glove c = gl /\ shows c domain (fun x g => In (x, g) items).
Proof.
  intros Hd Hn Hin Hr. unfold label_all. set (fs := map snd items) in *. set (F := fun g => Z.of_nat (boolf_position fs g)).
  set (calls := map (fun it : Z * boolf => (fst it, Z.of_nat (boolf_position fs (snd it)))) items).
  destruct (inventory_items_spec domain calls Hd) as (s & Es & I).
  { unfold calls. rewrite map_map. exact Hn. }
  { unfold calls. rewrite map_map. exact Hin. }
  rewrite Es. cbn [bind]. eexists. split; [reflexivity|]. split; [reflexivity|].
  assert (FL : forall x l, first_label calls x = Some l <-> exists g, In (x, g) items /\ l = F g).
  { intros x l. apply (first_label_items items F x l Hn). }
  assert (Hfs : forall x g, In (x, g) items -> In g fs) by (intros x g H; apply in_map_iff; exists (x, g); auto).
  assert (LF : forall x g, In (x, g) items -> first_label calls x = Some (F g)) by (intros x g H; apply FL; eauto).
  assert (FI : forall g h, reduced g -> In h fs -> F g = F h -> g = h).
  { intros g h Rg Hh E. apply (position_inj fs g h Hr Rg Hh). apply Nat2Z.inj. exact E. }
  assert (NE : forall g, In g fs -> nth_error fs (Z.to_nat (F g)) = Some g). { intros g Hg. unfold F. rewrite Nat2Z.id. apply position_at; assumption. }
  constructor; cbn [ec_part ec_functions].
  - exact (inv_dom _ _ _ I).
  - intros x g. unfold ec_label. cbn [ec_part ec_functions]. rewrite (inv_get_label _ _ _ _ I). destruct (first_label calls x) as [l|] eqn:El.
    + apply FL in El as (h & Hh & ->). rewrite (NE h (Hfs _ _ Hh)). split; [intro E; injection E as <-; exact Hh | intro Hg; f_equal; exact (item_unique items x h g Hn Hh Hg)].
    + split; [discriminate|]. intro H. apply LF in H. congruence.
  - intros x y Hxy. rewrite (inv_blocks _ _ _ I x y Hxy). split.
    + intros (l & H1 & H2). apply FL in H1 as (g & Hg & ->). apply FL in H2 as (h & Hh & E). assert (g = h) by (apply FI; eauto). subst h. eauto.
    + intros (g & Hg & Hh). exists (F g). auto.
  - intro g. unfold ec_members. cbn [ec_part ec_functions]. rewrite in_flat_map. split.
    + intros ((b & l) & Hb & Hg). apply (inv_labels _ _ _ I) in Hb as (x & Hx & _). apply FL in Hx as (h & Hh & ->). cbn [snd] in Hg.
      rewrite (NE h (Hfs _ _ Hh)) in Hg. destruct Hg as [<-|[]]. eauto.
    + intros (x & Hx). exists (element_to_block s x, F g). split; [apply (inv_labels _ _ _ I); eauto|]. cbn [snd]. rewrite (NE g (Hfs _ _ Hx)). left. reflexivity.
  - unfold ec_members. cbn [ec_part ec_functions]. assert (Hl := proj2 (wf_labels s (inv_wf _ _ _ I))).
    assert (K : forall bl, In bl (sp_labels s) -> exists g, In g fs /\ snd bl = F g).
    { intros [b l] Hb. apply (inv_labels _ _ _ I) in Hb as (x & Hx & _). apply FL in Hx as (h & Hh & ->). eauto. }
    revert K Hl. generalize (sp_labels s). induction l as [|[b l] ls IH]; intros K Hl; cbn [flat_map map snd] in *; [constructor|].
    inversion Hl as [|? ? Hx Hl']; subst. destruct (K (b, l) (or_introl eq_refl)) as (g & Hg & E). cbn [snd] in E. subst l. rewrite (NE g Hg). cbn [app].
    constructor; [|apply IH; [intros; apply K; right; assumption | exact Hl']].
    intro C. apply in_flat_map in C as ((b' & l') & Hb' & C). destruct (K (b', l') (or_intror Hb')) as (h & Hh & E). cbn [snd] in *. subst l'.
    rewrite (NE h Hh) in C. destruct C as [->|[]]. apply Hx. apply in_map_iff. exists (b', F g). auto.
  - intros g b Rg. unfold ec_block. cbn [ec_part ec_functions]. fold (F g). rewrite (inv_get_block _ _ _ _ _ I). assert (W := inv_wf _ _ _ I).
    assert (KB : forall x, In (x, g) items -> forall y, In y (element_to_block s x) <-> In (y, g) items).
    { intros x Hx y. rewrite (element_to_block_In s W), (inv_same _ _ _ _ _ I). split.
      - intros [<-|(l & H1 & H2)]; [exact Hx|]. rewrite (LF x g Hx) in H1. injection H1 as <-. apply FL in H2 as (h & Hh & E).
        assert (g = h) by (apply FI; eauto). subst h. exact Hh.
      - intro Hy. right. exists (F g). auto. }
    split.
    + intros (x & Hx & ->). apply FL in Hx as (h & Hh & E). assert (g = h) by (apply FI; eauto). subst h. split; [|split].
      * intro C. assert (Z0 : In x (element_to_block s x)) by (apply KB; assumption). rewrite C in Z0. destruct Z0.
      * apply element_to_block_sorted, W.
      * apply KB, Hh.
    + intros (Hne & Hs & Hb). assert (X : exists x, In x b) by (destruct b as [|x b']; [congruence | exists x; left; reflexivity]). destruct X as (x & Hxb). assert (Hx : In (x, g) items) by (apply Hb, Hxb).
      exists x. split; [apply LF, Hx|]. apply zsorted_ext; [exact Hs | apply element_to_block_sorted, W|]. intro z. rewrite (KB x Hx). apply Hb.
  - intros g Hg. destruct (ec_block _ g) as [b|] eqn:E; [|reflexivity]. exfalso. unfold ec_block in E. cbn [ec_part ec_functions] in E. apply (inv_get_block _ _ _ _ _ I) in E as (x & Hx & _).
    apply FL in Hx as (h & Hh & Eq). unfold F in Eq. apply Nat2Z.inj in Eq. rewrite position_stranger in Eq.
    + destruct (position_nth fs h Hr (Hr h (Hfs _ _ Hh))) as (_ & _ & B). specialize (B (Hfs _ _ Hh)). lia.
    + intros k Hk. apply in_map_iff in Hk as ((y & k') & <- & Hk). exact (Hg y k' Hk).
Qed.

(** * Building the partition *)

Lemma items_spec {X} (h : X -> res (Z * boolf)) (K : X -> Z) (Q : X -> boolf -> Prop) l :
  (forall i, In i l -> exists g, h i = Ok (K i, g) /\ Q i g) -> (forall i g g', In i l -> Q i g -> Q i g' -> g = g') ->
  exists items, mapM h l = Ok items /\ map fst items = map K l /\ forall x g, In (x, g) items <-> exists i, In i l /\ x = K i /\ Q i g.
Proof.
  intros H U. induction l as [|i l IH]; cbn [mapM].
  - exists []. split; [reflexivity|]. split; [reflexivity|]. intros x g. split; [intros [] | intros (i & [] & _)].
  - destruct (H i (or_introl eq_refl)) as (g & E & Hg). destruct IH as (items & E' & Ef & Hi).
    { intros j Hj. apply H. right. exact Hj. }
    { intros j a b Hj. apply U. right. exact Hj. }
    rewrite E. cbn [bind]. rewrite E'. cbn [bind]. exists ((K i, g) :: items). split; [reflexivity|]. split; [cbn [map fst]; rewrite Ef; reflexivity|].
    intros x g'. cbn [In]. rewrite Hi. split.
    + intros [C|(j & Hj & Ex & Hq)]; [injection C as <- <-; exists i; auto | exists j; auto].
    + intros (j & [<-|Hj] & -> & Hq); [left; f_equal; apply (U i g g' (or_introl eq_refl) Hg Hq) | right; exists j; auto].
Qed.

Lemma shows_ext c domain L L' : (forall x g, L x g <-> L' x g) -> shows c domain L -> shows c domain L'.
Proof.
  intros H [S1 S2 S3 S4 S5 S6 S7]. constructor; try assumption.
  - intros x g. rewrite <- H. apply S2.
  - intros x y Hxy. rewrite S3 by exact Hxy. split; intros (g & A & B); exists g; apply H in A, B; auto.
  - intro g. rewrite S4. split; intros (x & A); exists x; apply H; exact A.
  - intros g b R. rewrite S6 by exact R. split; intros (A & B & C); (split; [exact A|]; split; [exact B|]); intro x; rewrite C; [|symmetry]; apply H.
  - intros g Hg. apply S7. intros x h Hx. apply (Hg x h), H, Hx.
Qed.

Lemma ec_build {X} (h : X -> res (Z * boolf)) (K : X -> Z) (Q : X -> boolf -> Prop) l domain gl :
  NoDup domain -> Permutation (map K l) domain ->
  (forall i, In i l -> exists g, h i = Ok (K i, g) /\ Q i g) -> (forall i g g', In i l -> Q i g -> Q i g' -> g = g') ->
  (forall i g, In i l -> Q i g -> reduced g) ->
  exists c, (let* items := mapM h l in label_all domain items gl) = Ok c /\ ec_glove c = gl /\
    shows c domain (fun x g => exists i, In i l /\ x = K i /\ Q i g).
Proof.
  intros Hd P H U R. destruct (items_spec h K Q l H U) as (items & E & Ef & Hi). rewrite E. cbn [bind].
  destruct (label_all_spec domain items gl Hd) as (c & Ec & Eg & S).
  - rewrite Ef. apply (Permutation_NoDup (Permutation_sym P) Hd).
  - rewrite Ef. intros e He. apply (Permutation_in _ P He).
  - intros g Hg. apply in_map_iff in Hg as ((x & k) & <- & Hx). apply Hi in Hx as (i & Hil & _ & Hq). exact (R i _ Hil Hq).
  - exists c. split; [exact Ec|]. split; [exact Eg|]. apply (shows_ext _ _ _ _ Hi S).
Qed.

Lemma znat_range_NoDup n : NoDup (znat_range n).
Proof. apply NoDup_map_inj; [apply range_NoDup|]. intros a b _ _ E. apply Nat2Z.inj, E. Qed.
Lemma znat_range_In n x : In x (znat_range n) <-> (0 <= x < Z.of_nat n)%Z.
Proof.
  unfold znat_range. rewrite in_map_iff. split.
  - intros (k & <- & Hk). apply range_In in Hk. lia.
  - intro H. exists (Z.to_nat x). split; [lia | apply range_In; lia].
Qed.

(** * Families *)

(** the atoms at the places of the one bits of [i] *)
Definition neg_atoms (f : boolf) (i : nat) : list nat := map (fun k => nth k (atomvals f) 0) (filter (Nat.testbit i) (range (valency f))).

Lemma neg_atoms_at f i k : NoDup (atomvals f) -> k < valency f -> memb (nth k (atomvals f) 0) (neg_atoms f i) = Nat.testbit i k.
Proof.
  intros Hn Hk. unfold neg_atoms. apply bool_iff. rewrite memb_In, in_map_iff. split.
  - intros (j & E & Hj). apply filter_In in Hj as [Hj B]. apply range_In in Hj. assert (j = k) by (apply (proj1 (NoDup_nth (atomvals f) 0) Hn); assumption). subst j. exact B.
  - intro B. exists k. split; [reflexivity|]. apply filter_In. split; [apply range_In; exact Hk | exact B].
Qed.

Definition family_at (f : boolf) (i : nat) (g : boolf) : Prop := reduced g /\ forall e, sem g e = sem f (fun a => xorb (e a) (memb a (neg_atoms f i))).

Lemma family_member_spec f i : wellmade f -> is_constant f = false -> i < 2 ^ valency f -> exists g, family_member_at f i = Ok g /\ family_at f i g.
Proof.
  intros R C Hi. assert (Hv := valency_pos f R C). unfold family_member_at.
  destruct (Binv_int_len i (valency f) Hi ltac:(lia)) as (v & Ev & Ei & Lv). unfold Binv_intval in Ev. rewrite Ev. cbn [bind].
  assert (Hex : forall k, In k (binv_exposet v) <-> Nat.testbit i k = true).
  { intro k. rewrite binv_exposet_In. rewrite <- Ei, binv_intval_eq, testbit_b2n. reflexivity. }
  assert (Hlt : forall k, Nat.testbit i k = true -> k < valency f).
  { intros k B. destruct (Nat.lt_ge_cases k (valency f)) as [|G]; [assumption|]. rewrite testbit_high in B; [discriminate|].
    eapply Nat.lt_le_trans; [exact Hi|]. apply Nat.pow_le_mono_r; lia. }
  rewrite (mapM_ok _ (fun k => nth k (atomvals f) 0)).
  2:{ intros k Hk. apply lget_ok. apply Hlt, Hex, Hk. }
  cbn [bind]. set (np := map (fun k => nth k (atomvals f) 0) (binv_exposet v)).
  assert (Hnp : forall a, memb a np = memb a (neg_atoms f i)).
  { intro a. apply bool_iff. rewrite !memb_In. unfold np, neg_atoms. rewrite !in_map_iff. split; intros (k & E & Hk); exists k; (split; [exact E|]).
    - apply Hex in Hk as B. apply filter_In. split; [apply range_In, Hlt, B | exact B].
    - apply filter_In in Hk as [_ B]. apply Hex, B. }
  assert (Habs : logic_abs_vector (map Z.of_nat (atomvals f)) = atomvals f).
  { unfold logic_abs_vector. rewrite map_map. rewrite <- (map_id (atomvals f)) at 2. apply map_ext. intro a. unfold logic_abs. rewrite (proj2 (Z.ltb_ge _ _)) by lia. apply Nat2Z.id. }
  unfold logic_negate_which. rewrite Habs.
  assert (Hg : forallb (fun w => memb w (atomvals f)) np = true).
  { apply forallb_forall. intros w Hw. unfold np in Hw. apply in_map_iff in Hw as (k & <- & Hk). apply memb_In, nth_In, Hlt, Hex, Hk. }
  rewrite Hg. cbn [true_except bind]. rewrite map_map.
  set (F := fun a => if memb (logic_abs (Z.of_nat a)) np then tilde (Z.of_nat a) else Z.of_nat a).
  assert (HF : forall a, F a = if memb a np then Spec_SigPerm.neg (Z.of_nat a) else Z.of_nat a).
  { intro a. unfold F. replace (logic_abs (Z.of_nat a)) with a; [destruct (memb a np); [unfold tilde, Spec_SigPerm.neg; lia | reflexivity]|]. unfold logic_abs. rewrite (proj2 (Z.ltb_ge _ _)) by lia. symmetry. apply Nat2Z.id. }
  assert (At : forall a, Spec_SigPerm.atom (F a) = a).
  { intro a. rewrite HF. destruct (memb a np); [rewrite atom_neg|]; apply atom_nat. }
  assert (Lv' : forall e a, litval e (F a) = xorb (e a) (memb a (neg_atoms f i))).
  { intros e a. rewrite HF, <- Hnp. destruct (memb a np); [rewrite litval_neg, xorb_true_r; f_equal | rewrite xorb_false_r]; apply litval_nat. }
  destruct (apply_spec f (map F (atomvals f))) as (g & Eg & Rg & Sg); [apply R | exact Hv | apply map_length | |].
  { rewrite map_map. rewrite (map_ext _ (fun a => a) At), map_id. apply (fitting_NoDup f). apply R. }
  exists g. split; [exact Eg|]. split; [exact Rg|]. intro e. rewrite Sg, map_map. unfold sem, table. f_equal. f_equal. apply map_ext. intro a. apply Lv'.
Qed.

Lemma family_at_unique f i g g' : family_at f i g -> family_at f i g' -> g = g'.
Proof. intros [R S] [R' S']. apply reduced_unique; [exact R | exact R'|]. intro e. rewrite S, S'. reflexivity. Qed.

Lemma ec_family_spec f : wellmade f -> is_constant f = false -> adicity f <= 10 ->
  exists c, ec_family f = Ok c /\ ec_glove c = None /\
    shows c (znat_range (2 ^ valency f)) (fun x g => exists i, i < 2 ^ valency f /\ x = Z.of_nat i /\ family_at f i g).
Proof.
  intros R C A. unfold ec_family. rewrite C, (proj2 (Nat.leb_le _ _) A). cbn [true_except bind].
  destruct (ec_build (fun i => let* g := family_member_at f i in Ok (Z.of_nat i, g)) Z.of_nat (family_at f) (range (2 ^ valency f)) (znat_range (2 ^ valency f)) None) as (c & E & Eg & S).
  - apply znat_range_NoDup.
  - apply Permutation_refl.
  - intros i Hi. apply range_In in Hi. destruct (family_member_spec f i R C Hi) as (g & Eg & Hg). exists g. rewrite Eg. split; [reflexivity | exact Hg].
  - intros i g g' _. apply family_at_unique.
  - intros i g _ H. apply H.
  - exists c. split; [exact E|]. split; [exact Eg|]. eapply shows_ext; [|exact S]. intros x g. cbn beta. split; intros (i & Hi & H); exists i; (split; [apply range_In; exact Hi | exact H]).
Qed.

Lemma constant_ec_spec f : reduced f -> exists c, label_all [0%Z] [(0%Z, f)] None = Ok c /\ ec_glove c = None /\ shows c [0%Z] (fun x g => x = 0%Z /\ g = f).
Proof.
  intro R. destruct (label_all_spec [0%Z] [(0%Z, f)] None) as (c & E & G & S).
  - repeat constructor. intros [].
  - repeat constructor. intros [].
  - intros e He. exact He.
  - intros g [<-|[]]. exact R.
  - exists c. split; [exact E|]. split; [exact G|]. eapply shows_ext; [|exact S]. intros x g. cbn. split; [intros [H|[]]; injection H as <- <-; auto | intros [-> ->]; auto].
Qed.
