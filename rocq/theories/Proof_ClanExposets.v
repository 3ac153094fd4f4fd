(** Proof_ClanExposets: the signed permutations of the functions in a clan matrix. *)

From Coq Require Import List Arith ZArith Bool Lia Permutation Sorted Factorial.
From Verif Require Import Model_Base Lib Model_Splits Model_Perm Model_Binary Model_SigPerm Model_SetPart Model_Boolf Model_BoolfMore Model_MinRep
  Model_Helpers Model_Segments Model_Ec Spec_Bits Spec_Perm Spec_SigPerm Spec_Boolf Spec_SetPart Spec_MinRep Spec_Helpers Spec_Ec Spec_ClanMatrix
  Proof_Binary Proof_Perm Proof_PermMore Proof_Inversions Proof_SigPerm Proof_SigPermOps Proof_SigPermMore Proof_Helpers Proof_SetPart Proof_SetPartLabels Proof_SetPartMore Proof_SetPartObj
  Proof_Boolf Proof_Deflate Proof_BoolfTable Proof_BoolfApply Proof_BoolfMake Proof_BoolfMore Proof_MinRepTwin Proof_MinRepClass Proof_MinRepCoset Proof_MinRep Proof_MinRepMin
  Proof_Twin Proof_Listing Proof_Splits Proof_Noble Proof_Seqs Proof_HelpersBits Proof_Blight Proof_Ec Proof_EcClass Proof_EcMembers Proof_EcCount Proof_EcSplinters Proof_EcSymmetry Proof_EcMore Proof_EcPartitioned Model_ClanMatrix
  Proof_SegmentsMore Proof_Misc Proof_ClanSizes.
Import ListNotations.
Open Scope nat_scope.

(** * Dictionaries of sets *)

Lemma triple_eqb_ok x y : triple_eqb x y = true <-> x = y.
Proof.
  destruct x as [[a b] c], y as [[a' b'] c']. unfold triple_eqb, npair_eqb. cbn [fst snd]. rewrite !andb_true_iff, !Nat.eqb_eq. split; [intros [[-> ->] ->]; reflexivity | intro E; injection E; auto].
Qed.
Lemma triple_leb_iff a b : triple_leb a b = true <-> triple_lt a b \/ a = b.
Proof.
  destruct a as [[a1 a2] a3], b as [[b1 b2] b3]. unfold triple_leb, triple_lt. rewrite !orb_true_iff, !andb_true_iff, orb_true_iff, andb_true_iff, !Nat.ltb_lt, !Nat.eqb_eq, Nat.leb_le.
  split.
  - intros [H|[-> [H|[-> H]]]]; [auto | auto|]. destruct (Nat.eq_dec a3 b3) as [->|]; [right; reflexivity | left; right; split; [reflexivity|]; right; split; [reflexivity | lia]].
  - intros [[H|[-> [H|[-> H]]]]|E]; [auto | auto | right; split; [reflexivity|]; right; split; [reflexivity | lia]|]. injection E as -> -> ->. right. split; [reflexivity|]. right. split; [reflexivity | lia].
Qed.
Lemma triple_leb_total a b : triple_leb a b = true \/ triple_leb b a = true.
Proof.
  rewrite !triple_leb_iff. destruct a as [[a1 a2] a3], b as [[b1 b2] b3]. unfold triple_lt.
  destruct (Nat.lt_trichotomy a1 b1) as [H|[->|H]]; [auto | | auto]. destruct (Nat.lt_trichotomy a2 b2) as [H|[->|H]]; [auto 6 | | auto 6]. destruct (Nat.lt_trichotomy a3 b3) as [H|[->|H]]; auto 8.
Qed.
Lemma triple_lt_trans a b c : triple_lt a b -> triple_lt b c -> triple_lt a c.
Proof. destruct a as [[a1 a2] a3], b as [[b1 b2] b3], c as [[c1 c2] c3]. unfold triple_lt. lia. Qed.
Lemma triple_leb_trans a b c : triple_leb a b = true -> triple_leb b c = true -> triple_leb a c = true.
Proof. rewrite !triple_leb_iff. intros [H| ->]; [|auto]. intros [K| <-]; [|auto]. left. eapply triple_lt_trans; eassumption. Qed.

(** sorted without repetition *)
Lemma sorted_strict {A} (le lt : A -> A -> Prop) l : (forall x y, le x y -> x <> y -> lt x y) -> NoDup l -> StronglySorted le l -> StronglySorted lt l.
Proof.
  intros H N S. induction S as [|x l S IH F]; [constructor|]. inversion N as [|? ? Hx N']; subst. constructor; [apply IH, N'|]. rewrite Forall_forall in *. intros y Hy. apply H; [apply F, Hy | intros ->; contradiction].
Qed.

Lemma dlook_In {V} (d : list (nat * V)) k v : NoDup (map fst d) -> (dlook Nat.eqb d k = Ok v <-> In (k, v) d).
Proof.
  induction d as [|[k' v'] d IH]; cbn [dlook map fst In]; intro N; [split; [discriminate | intros []]|]. inversion N as [|? ? Hk N']; subst. destruct (Nat.eqb_spec k k') as [->|Hkk].
  - split; [intro E; injection E as ->; auto|]. intros [E|H]; [injection E as ->; reflexivity | exfalso; apply Hk, (in_map fst _ _ H)].
  - rewrite IH by exact N'. split; [auto | intros [E|H]; [injection E; congruence | exact H]].
Qed.

Section Listing.
Context {A : Type} (eqb leb : A -> A -> bool) (lt_A : A -> A -> Prop) (eqb_ok : forall x y, eqb x y = true <-> x = y).
Context (leb_total : forall x y, leb x y = true \/ leb y x = true) (leb_trans : forall x y z, leb x y = true -> leb y z = true -> leb x z = true).
Context (leb_lt : forall x y, leb x y = true -> x <> y -> lt_A x y).

Lemma lists_of_sets (d : list (nat * list A)) (D : nat -> Prop) (Q : nat -> A -> Prop) : dd_ok d -> (forall k x, dd_In d k x <-> D k /\ Q k x) -> (forall k, D k -> exists x, Q k x) ->
  exists d', dict_of_sets_to_dict_of_lists leb d = Ok d' /\ listing lt_A D Q d'.
Proof.
  intros [N W] H Ex. assert (K : forall k, In k (map fst d) <-> D k).
  { intro k. split.
    - intro Hk. apply in_map_iff in Hk as ((k' & s) & E & Hs). cbn in E. subst k'. destruct (W k s Hs) as [_ Hne]. destruct s as [|x s]; [contradiction|]. apply (H k x). exists (x :: s). split; [exact Hs | left; reflexivity].
    - intro Dk. destruct (Ex k Dk) as (x & Qx). destruct (proj2 (H k x) (conj Dk Qx)) as (s & Hs & _). apply (in_map fst _ _ Hs). }
  unfold dict_of_sets_to_dict_of_lists.
  destruct (mapM_all (fun key => let* v := dlook Nat.eqb d key in Ok (key, isort leb v)) (fun k e => exists v, In (k, v) d /\ e = (k, isort leb v)) (sort_nat (map fst d))) as (d' & E & F).
  { intros k Hk. apply sort_nat_In, in_map_iff in Hk as ((k' & s) & E & Hs). cbn in E. subst k'. apply (dlook_In d k s N) in Hs as Lk. rewrite Lk. cbn [bind]. eexists. split; [reflexivity|]. exists s. auto. }
  exists d'. split; [exact E|]. assert (Ek : map fst d' = sort_nat (map fst d)).
  { clear - F. induction F as [|k e ks es (v & _ & ->) _ IH]; [reflexivity|]. cbn [map fst]. rewrite IH. reflexivity. }
  split; [rewrite Ek; apply sort_nat_sorted_lt, N|]. split; [intro k; rewrite Ek, sort_nat_In; apply K|]. intros k l Hl.
  destruct (Forall2_in_r _ _ _ _ F Hl) as (k' & _ & v & Hv & E'). injection E' as <- ->. assert (P := isort_perm leb v). destruct (W k v Hv) as [Nv _]. split.
  - apply (sorted_strict (fun x y => leb x y = true)); [exact leb_lt | apply (Permutation_NoDup P Nv) | apply isort_sorted; assumption].
  - intro x. assert (Ix : In x (isort leb v) <-> In x v) by (split; apply Permutation_in; [symmetry; exact P | exact P]). rewrite Ix. split.
    + intro Hx. apply (H k x). exists v. auto.
    + intro Qx. assert (Dk : D k) by (apply K, (in_map fst _ _ Hv)). destruct (proj2 (H k x) (conj Dk Qx)) as (s & Hs & Hx). apply (dlook_In d k s N) in Hs. apply (dlook_In d k v N) in Hv. congruence.
Qed.
End Listing.

Lemma nat_lists (d : ldict) (D : nat -> Prop) (Q : nat -> nat -> Prop) : dd_ok d -> (forall k x, dd_In d k x <-> D k /\ Q k x) -> (forall k, D k -> exists x, Q k x) ->
  exists d', dict_of_sets_to_dict_of_lists Nat.leb d = Ok d' /\ listing lt D Q d'.
Proof. apply lists_of_sets; [apply nat_leb_total | apply nat_leb_trans | intros x y H N; apply Nat.leb_le in H; lia]. Qed.
Lemma triple_lists (d : list (nat * list triple)) (D : nat -> Prop) (Q : nat -> triple -> Prop) : dd_ok d -> (forall k x, dd_In d k x <-> D k /\ Q k x) -> (forall k, D k -> exists x, Q k x) ->
  exists d', dict_of_sets_to_dict_of_lists triple_leb d = Ok d' /\ listing triple_lt D Q d'.
Proof. apply lists_of_sets; [apply triple_leb_total | apply triple_leb_trans | intros x y H N; apply triple_leb_iff in H as [H|H]; [exact H | contradiction]]. Qed.

(** * The loop *)

Lemma foldM_fold {A B S} (F : S -> A -> res S) (h : S -> B -> S) (ent : A -> list B) l : (forall x s, In x l -> F s x = Ok (fold_left h (ent x) s)) ->
  forall s, foldM F l s = Ok (fold_left h (flat_map ent l) s).
Proof.
  induction l as [|x l IH]; intros H s; cbn [foldM flat_map fold_left]; [reflexivity|]. rewrite H by (left; reflexivity). cbn [bind]. rewrite IH by (intros; apply H; right; assumption). rewrite fold_left_app. reflexivity.
Qed.

Definition item := ((nat * nat * nat) * triple)%type.
Definition xadd (x : exposets) (it : item) : exposets :=
  let '((p, q, z), (k, r, m)) := it in
  mkX (dd_add Nat.eqb (x_faction_keyneg x) p k) (dd_add Nat.eqb (x_family_perm x) q r) (dd_add Nat.eqb (x_zhe_keyneg x) z k)
      (dd_add Nat.eqb (x_zhe_valneg x) z m) (dd_add triple_eqb (x_zhe_triples x) z (k, r, m)).

Lemma xadd_parts its : forall x, let y := fold_left xadd its x in
  x_faction_keyneg y = dd_of Nat.eqb (map (fun it : item => (fst (fst (fst it)), fst (fst (snd it)))) its) (x_faction_keyneg x) /\
  x_family_perm y = dd_of Nat.eqb (map (fun it : item => (snd (fst (fst it)), snd (fst (snd it)))) its) (x_family_perm x) /\
  x_zhe_keyneg y = dd_of Nat.eqb (map (fun it : item => (snd (fst it), fst (fst (snd it)))) its) (x_zhe_keyneg x) /\
  x_zhe_valneg y = dd_of Nat.eqb (map (fun it : item => (snd (fst it), snd (snd it))) its) (x_zhe_valneg x) /\
  x_zhe_triples y = dd_of triple_eqb (map (fun it : item => (snd (fst it), snd it)) its) (x_zhe_triples x).
Proof.
  induction its as [|[[[p q] z] [[k r] m]] its IH]; intro x; cbn zeta; cbn [fold_left map dd_of fst snd]; [auto 10|]. destruct (IH (xadd x (p, q, z, (k, r, m)))) as (H1 & H2 & H3 & H4 & H5). cbn zeta in *.
  exact (conj H1 (conj H2 (conj H3 (conj H4 H5)))).
Qed.

Definition kn (m r : nat) : nat := match (let* s := SigPerm_pair m r in sg_keyneg_index s) with Ok k => k | Err _ => 0 end.
Lemma kn_spec m r : (exists s, SigPerm_pair m r = Ok s /\ sg_keyneg_index s = Ok (kn m r)) /\ forall a, Nat.testbit (kn m r) a = Nat.testbit m (act r a).
Proof.
  destruct (pair_spec m r) as (s & Es & Ws & _ & Hp). assert (G := Es). rewrite pair_form in G. destruct (Binv_int_min m) as (v & Ev & _). rewrite Ev in G. cbn [bind] in G.
  destruct (int_to_perm r) as [p|] eqn:Ep; [|discriminate G]. cbn [bind] in G. injection G as G. assert (Esp : sg_perm s = p) by (rewrite <- G; reflexivity).
  unfold sg_pair in Hp. destruct (sg_perm_index s) as [r'|]; [|discriminate Hp]. cbn [bind] in Hp. injection Hp as Hv _.
  destruct (keyneg_index_spec s Ws) as (k & Ek & Hk). assert (E : kn m r = k) by (unfold kn; rewrite Es; cbn [bind]; rewrite Ek; reflexivity). rewrite E. split; [exists s; auto|]. intro a.
  assert (Ea : act r a = atom (sf s a)) by (unfold act; rewrite Ep, sf_atom, Esp; reflexivity). rewrite Hk, Ea, <- Hv, valneg_index_spec. reflexivity.
Qed.

(** * The signed permutations of the members *)

Section Clan.
Context (f : boolf) (R : reduced f) (Root : adicity f = valency f) (L5 : valency f <= 5).
Let n := valency f.

Definition at_ (m r z : nat) : Prop := forall e, zhegalkin z e = sem f (fun a => xorb (e (act r a)) (Nat.testbit m (act r a))).

Lemma at_exists m r : m < 2 ^ n -> r < fact n -> exists z, cz f z /\ at_ m r z.
Proof.
  intros Hm Hr. destruct (clan_at_exists f n R ltac:(lia) m r Hr) as (g & Hg). destruct (zn_spec g (proj1 Hg)) as (_ & Sg & _). exists (zn g).
  destruct (proj1 (clan_members f g n R ltac:(lia))) as (Rg & Ag & Cg); [exists m, r; auto|]. split.
  - apply (in_clan_ext f (sem g)); [intro; symmetry; apply Sg|]. split; [exact Cg | apply local_sem; assumption].
  - intro e. rewrite Sg. apply Hg.
Qed.
Lemma at_some z : cz f z -> exists m r, m < 2 ^ n /\ r < fact n /\ at_ m r z.
Proof.
  intro Hz. destruct (cz_between f R Root L5 (zn f) z (cz_self f R Root L5) Hz) as (m & r & Hm & Hr & H). exists m, r. split; [exact Hm|]. split; [exact Hr|]. intro e. rewrite H. apply (zn_spec f R).
Qed.

Lemma act_zero a : act 0 a = a.
Proof. apply (act_high 0 0); cbn; lia. Qed.
Lemma kn_zero k : kn k 0 = k.
Proof. apply Nat.bits_inj. intro a. rewrite (proj2 (kn_spec k 0)), act_zero. reflexivity. Qed.
Lemma bits_high k a : k < 2 ^ n -> n <= a -> Nat.testbit k a = false.
Proof. intros H Ha. apply testbit_high. eapply Nat.lt_le_trans; [exact H | apply Nat.pow_le_mono_r; lia]. Qed.
Lemma bits_lt k : (forall a, n <= a -> Nat.testbit k a = false) -> k < 2 ^ n.
Proof.
  intro H. destruct (Nat.lt_ge_cases k (2 ^ n)) as [L|L]; [exact L|]. exfalso. assert (K0 : k <> 0) by (assert (X := pow2_pos n); lia). assert (G := Nat.bit_log2 k K0). rewrite H in G; [discriminate|]. apply Nat.log2_le_pow2; lia.
Qed.
Lemma kn_lt m r : m < 2 ^ n -> r < fact n -> kn m r < 2 ^ n.
Proof. intros Hm Hr. apply bits_lt. intros a Ha. rewrite (proj2 (kn_spec m r)), (act_high r n a Hr Ha). apply bits_high; assumption. Qed.
Lemma kn_onto k r : k < 2 ^ n -> r < fact n -> exists m, m < 2 ^ n /\ kn m r = k.
Proof.
  intros Hk Hr. destruct (act_bijection r n Hr) as (inv & Hi). assert (Ih : forall a, n <= a -> inv a = a) by (intros a Ha; rewrite <- (act_high r n a Hr Ha) at 1; apply Hi).
  exists (pre inv n k). split; [apply pre_lt|]. apply Nat.bits_inj. intro a. rewrite (proj2 (kn_spec _ r)). destruct (Nat.lt_ge_cases a n) as [Ha|Ha].
  - rewrite pre_bits by (apply (permutes_lt _ n a (permutes_act r n Hr) Ha)). rewrite (proj1 (Hi a)). reflexivity.
  - rewrite (act_high r n a Hr Ha), (bits_high _ a (pre_lt inv n k) Ha), (bits_high k a Hk Ha). reflexivity.
Qed.

(** the number of the function with the negations of [k] *)
Lemma negated_num k : k < 2 ^ n -> exists y, cz f y /\ (forall e, zhegalkin y e = negate_by k (sem f) e) /\ at_ k 0 y.
Proof.
  intro Hk. destruct (at_exists k 0 Hk (lt_O_fact n)) as (y & Cy & Ay). exists y. split; [exact Cy|]. split; [|exact Ay]. intro e. rewrite Ay. unfold negate_by. apply sem_ext. intros a _. rewrite act_zero. reflexivity.
Qed.

Lemma at_keyneg m r z y : r < fact n -> at_ m r z -> (forall e, zhegalkin y e = negate_by (kn m r) (sem f) e) -> faction_class (zhegalkin y) (zhegalkin z).
Proof.
  intros Hr A Y. exists (act r). split; [apply (act_bijection r n Hr)|]. intro e. rewrite A, Y. unfold negate_by. apply sem_ext. intros a _. rewrite (proj2 (kn_spec m r)). reflexivity.
Qed.

(** negations before the permutation *)
Lemma keyneg_iff z k : cz f z -> (exists m r, m < 2 ^ n /\ r < fact n /\ at_ m r z /\ k = kn m r) <-> k < 2 ^ n /\ faction_class (zhegalkin z) (negate_by k (sem f)).
Proof.
  intro Hz. split.
  - intros (m & r & Hm & Hr & A & ->). split; [apply kn_lt; assumption|]. destruct (negated_num (kn m r) (kn_lt m r Hm Hr)) as (y & Cy & Y & _).
    apply (faction_class_ext (zhegalkin z) _ (zhegalkin y)); [reflexivity | exact Y|]. apply num_faction_sym, (at_keyneg m r z y Hr A Y).
  - intros [Hk F]. destruct (negated_num k Hk) as (y & Cy & Y & Ay). assert (F' : faction_class (zhegalkin y) (zhegalkin z)).
    { apply num_faction_sym, (faction_class_ext (zhegalkin z) _ (negate_by k (sem f))); [reflexivity | intro; symmetry; apply Y | exact F]. }
    destruct (cz_faction f R Root L5 y z Cy Hz F') as (r & Hr & ->). destruct (kn_onto k r Hk Hr) as (m & Hm & Em). exists m, r. split; [exact Hm|]. split; [exact Hr|]. split; [|auto].
    intro e. fold n. rewrite (ren_spec n r y e Hr (cz_lt f y Cy)), Y. unfold negate_by. apply sem_ext. intros a _. rewrite <- (proj2 (kn_spec m r)), Em. reflexivity.
Qed.

(** negations after the permutation *)
Lemma valneg_iff z m : cz f z -> (exists r, m < 2 ^ n /\ r < fact n /\ at_ m r z) <-> m < 2 ^ n /\ faction_class (sem f) (negate_by m (zhegalkin z)).
Proof.
  intro Hz. split.
  - intros (r & Hm & Hr & A). split; [exact Hm|]. exists (act r). split; [apply (act_bijection r n Hr)|]. intro e. unfold negate_by. rewrite A. apply sem_ext. intros a _. rewrite xorb_assoc, xorb_nilpotent, xorb_false_r. reflexivity.
  - intros [Hm F]. destruct (cz_obj f R Root L5 z Hz) as (g & _ & Rg & _ & Ag & _ & Sg & Cg).
    destruct (clan_at_exists g n Rg ltac:(lia) m 0 (lt_O_fact n)) as (h & Hh). destruct (zn_spec h (proj1 Hh)) as (_ & Sh & _).
    assert (Y : forall e, zhegalkin (zn h) e = negate_by m (zhegalkin z) e).
    { intro e. rewrite Sh, (proj2 Hh), Sg. unfold negate_by. apply num_ext. intro a. rewrite act_zero. reflexivity. }
    assert (F' : faction_class (zhegalkin (zn f)) (zhegalkin (zn h))).
    { apply (faction_class_ext (sem f) _ (negate_by m (zhegalkin z))); [intro; symmetry; apply (zn_spec f R) | intro; symmetry; apply Y | exact F]. }
    assert (Cy : cz f (zn h)).
    { destruct (proj1 (clan_members g h n Rg ltac:(lia))) as (Rh & Ah & Ch); [exists m, 0; split; [exact Hm|]; split; [apply lt_O_fact | exact Hh]|].
      apply (in_clan_ext f (sem h)); [intro; symmetry; apply Sh|]. split; [apply (clan_same f g Cg), Ch | apply local_sem; assumption]. }
    destruct (cz_faction f R Root L5 (zn f) (zn h) (cz_self f R Root L5) Cy F') as (r & Hr & Er). exists r. split; [exact Hm|]. split; [exact Hr|].
    intro e. transitivity (negate_by m (zhegalkin z) (fun a => xorb (e a) (Nat.testbit m a))).
    + unfold negate_by. apply num_ext. intro a. rewrite xorb_assoc, xorb_nilpotent, xorb_false_r. reflexivity.
    + rewrite <- Y, Er. fold n. rewrite (ren_spec n r (zn f) _ Hr (cz_lt f _ (cz_self f R Root L5))). rewrite (proj1 (proj2 (zn_spec f R))). reflexivity.
Qed.

(** permutations, up to negations *)
Lemma perm_iff q r : cz f q -> (exists m z, m < 2 ^ n /\ r < fact n /\ cz f z /\ family_class (zhegalkin q) (zhegalkin z) /\ at_ m r z) <->
  exists p, nth_error (rev_colex_perms n) r = Some p /\ family_class (zhegalkin q) (permute_by p (sem f)).
Proof.
  intro Hq. assert (Pb : forall p, nth_error (rev_colex_perms n) r = Some p -> forall e, permute_by p (sem f) e = sem f (fun a => e (act r a))).
  { intros p Hp e. destruct (colex_list n r p Hp) as (Hr & P & Lp & Ha). unfold permute_by. apply sem_ext. intros a Hin. apply adicity_bound in Hin. rewrite <- Ha by (unfold n; lia). f_equal. apply nth_indep. unfold n in Lp. lia. }
  split.
  - intros (m & z & Hm & Hr & Cz & F & A). destruct (nth_error (rev_colex_perms n) r) as [p|] eqn:Ep; [|apply nth_error_None in Ep; rewrite rev_colex_length in Ep; lia]. exists p. split; [reflexivity|].
    destruct (at_exists 0 r (pow2_pos n) Hr) as (y & Cy & Ay). apply (family_class_ext (zhegalkin q) _ (zhegalkin y)); [reflexivity | intro e; rewrite Ay, (Pb p eq_refl e); apply sem_ext; intros a _; rewrite Nat.bits_0; apply xorb_false_r|].
    apply (num_family_trans q z y F), num_family_sym. exists (Nat.testbit m). intro e. rewrite A, Ay. apply sem_ext. intros a _. rewrite Nat.bits_0, xorb_false_r. reflexivity.
  - intros (p & Hp & F). destruct (colex_list n r p Hp) as (Hr & _). destruct (at_exists 0 r (pow2_pos n) Hr) as (y & Cy & Ay). exists 0, y. split; [apply pow2_pos|]. split; [exact Hr|]. split; [exact Cy|]. split; [|exact Ay].
    apply (family_class_ext (zhegalkin q) _ (permute_by p (sem f))); [reflexivity | | exact F]. intro e. rewrite Ay, (Pb p Hp e). apply sem_ext. intros a _. rewrite Nat.bits_0. symmetry. apply xorb_false_r.
Qed.

Lemma faction_refl_num z : faction_class (zhegalkin z) (zhegalkin z).
Proof. exists (fun a => a). split; [exists (fun a => a); auto | reflexivity]. Qed.
Lemma family_refl_num z : family_class (zhegalkin z) (zhegalkin z).
Proof. exists (fun _ => false). intro e. apply num_ext. intro a. symmetry. apply xorb_false_r. Qed.

(** * The dictionaries *)

Context (c : ec) (S : Spec_Ec.shows c (znat_range (2 ^ n * fact n)) (fun x g => exists m r, m < 2 ^ n /\ r < fact n /\ x = Z.of_nat (m * fact n + r) /\ clan_at f m r g)).

Definition blk (z : nat) : list Z := match subinit_zhe (Z.of_nat z) with Ok b => match ec_block c b with Some l => l | None => [] end | Err _ => [] end.
Lemma blk_spec z : cz f z -> exists b, subinit_zhe (Z.of_nat z) = Ok b /\ ec_block c b = Some (blk z) /\ forall x, In x (blk z) <-> exists m r, m < 2 ^ n /\ r < fact n /\ x = Z.of_nat (m * fact n + r) /\ at_ m r z.
Proof.
  intro Hz. destruct (cz_obj f R Root L5 z Hz) as (g & E & Rg & _ & Ag & _ & Sg & Cg). exists g. unfold blk. rewrite E. split; [reflexivity|].
  assert (Eq := clan_equal_blocks f n R ltac:(lia) c S). destruct Eq as (k & _ & Hb). assert (Mg : In g (ec_members c)).
  { apply (shows_members _ _ _ S). destruct (proj2 (clan_members f g n R ltac:(lia))) as (m & r & Hm & Hr & H); [split; [exact Rg|]; split; [unfold n; lia | exact Cg]|]. exists (Z.of_nat (m * fact n + r)), m, r. auto. }
  destruct (Hb g Mg) as (b & Eb & _). rewrite Eb. split; [reflexivity|]. intro x. apply (shows_block _ _ _ S g b Rg) in Eb. destruct Eb as (_ & _ & Hin). rewrite Hin.
  split; intros (m & r & Hm & Hr & Hx & H); exists m, r; (split; [exact Hm|]; split; [exact Hr|]; split; [exact Hx|]).
  - intro e. rewrite <- Sg. apply H.
  - split; [exact Rg|]. intro e. rewrite Sg. apply H.
Qed.

Definition entry (p q z : nat) (x : Z) : item := ((p, q, z), (kn (Z.to_nat x / fact n) (Z.to_nat x mod fact n), Z.to_nat x mod fact n, Z.to_nat x / fact n)).
Definition entries (sp : list ((nat * nat) * list nat)) : list item :=
  flat_map (fun it : (nat * nat) * list nat => flat_map (fun z => map (entry (fst (fst it)) (snd (fst it)) z) (blk z)) (snd it)) sp.

Lemma collect_eq sp : (forall p q l z, In ((p, q), l) sp -> In z l -> cz f z) -> collect_exposets n c sp = Ok (fold_left xadd (entries sp) (mkX [] [] [] [] [])).
Proof.
  intro H. unfold collect_exposets, entries. apply foldM_fold. intros [[p q] l] x Hi. cbn [fst snd]. apply foldM_fold. intros z x' Hz. destruct (blk_spec z (H p q l z Hi Hz)) as (b & Eb & Ek & _). rewrite Eb, bind_Ok, Ek.
  rewrite (foldM_fold _ xadd (fun el => [entry p q z el])).
  - reflexivity.
  - intros el s _. unfold exposet_step. cbn zeta. destruct (kn_spec (Z.to_nat el / fact n) (Z.to_nat el mod fact n)) as ((sg & Esg & Ekn) & _). rewrite Esg, bind_Ok, Ekn, bind_Ok. reflexivity.
Qed.

Lemma entries_In sp p q z k r m : (forall p q l z, In ((p, q), l) sp -> In z l -> cz f z) ->
  In ((p, q, z), (k, r, m)) (entries sp) <-> (exists l, In ((p, q), l) sp /\ In z l) /\ m < 2 ^ n /\ r < fact n /\ at_ m r z /\ k = kn m r.
Proof.
  intro H. assert (F := fact_neq_0 n). assert (D : forall m r, r < fact n -> (m * fact n + r) / fact n = m /\ (m * fact n + r) mod fact n = r).
  { intros a b Hb. split; [rewrite Nat.div_add_l, Nat.div_small by lia; lia | rewrite Nat.add_comm, Nat.mod_add, Nat.mod_small by lia; reflexivity]. }
  unfold entries. rewrite in_flat_map. split.
  - intros ([[p' q'] l] & Hi & Hin). cbn [fst snd] in Hin. apply in_flat_map in Hin as (z' & Hz & Hin). apply in_map_iff in Hin as (x & E & Hx). destruct (blk_spec z' (H p' q' l z' Hi Hz)) as (b & _ & _ & B).
    apply B in Hx as (m' & r' & Hm & Hr & -> & A). unfold entry in E. rewrite Nat2Z.id in E. destruct (D m' r' Hr) as [-> ->] in E. injection E as -> -> -> <- <- <-. split; [exists l; auto | auto].
  - intros ((l & Hi & Hz) & Hm & Hr & A & ->). exists ((p, q), l). split; [exact Hi|]. cbn [fst snd]. apply in_flat_map. exists z. split; [exact Hz|]. apply in_map_iff. exists (Z.of_nat (m * fact n + r)). split.
    + unfold entry. rewrite Nat2Z.id. destruct (D m r Hr) as [-> ->]. reflexivity.
    + destruct (blk_spec z (H p q l z Hi Hz)) as (b & _ & _ & B). apply B. exists m, r. auto.
Qed.

Context (sp : list ((nat * nat) * list nat)) (reps1 reps2 : list nat).
Context (Hsp : forall p q l, In ((p, q), l) sp -> is_splinter f p q l) (Hk : forall p q, In (p, q) (map fst sp) <-> In p reps1 /\ In q reps2).
Context (H1 : forall p, In p reps1 -> cz f p) (H2 : forall q, In q reps2 -> cz f q).
Context (C1 : forall z, cz f z -> exists p, In p reps1 /\ faction_class (zhegalkin p) (zhegalkin z)) (C2 : forall z, cz f z -> exists q, In q reps2 /\ family_class (zhegalkin q) (zhegalkin z)).

Lemma sp_cz p q l z : In ((p, q), l) sp -> In z l -> cz f z.
Proof. intros Hi Hz. apply (proj2 (Hsp p q l Hi)), Hz. Qed.
Lemma sp_in p q z : (exists l, In ((p, q), l) sp /\ In z l) <-> In p reps1 /\ In q reps2 /\ cz f z /\ faction_class (zhegalkin p) (zhegalkin z) /\ family_class (zhegalkin q) (zhegalkin z).
Proof.
  split.
  - intros (l & Hi & Hz). destruct (proj1 (Hk p q) (in_map fst _ _ Hi)) as [I1 I2]. apply (proj2 (Hsp p q l Hi)) in Hz. tauto.
  - intros (I1 & I2 & H). assert (I := proj2 (Hk p q) (conj I1 I2)). apply in_map_iff in I as ((k & l) & E & Hi). cbn in E. subst k. exists l. split; [exact Hi|]. apply (proj2 (Hsp p q l Hi)), H.
Qed.
Lemma its_in p q z k r m : In ((p, q, z), (k, r, m)) (entries sp) <->
  In p reps1 /\ In q reps2 /\ cz f z /\ faction_class (zhegalkin p) (zhegalkin z) /\ family_class (zhegalkin q) (zhegalkin z) /\ m < 2 ^ n /\ r < fact n /\ at_ m r z /\ k = kn m r.
Proof. rewrite (entries_In sp p q z k r m sp_cz), sp_in. tauto. Qed.
Lemma dd_In_nil {A} k x : ~ @dd_In A [] k x.
Proof. intros (s & [] & _). Qed.
Lemma dict_in {A} (g : item -> nat * A) d k x : (forall j y, dd_In d j y <-> In (j, y) (map g (entries sp)) \/ dd_In [] j y) ->
  (dd_In d k x <-> exists p q z kk r m, g ((p, q, z), (kk, r, m)) = (k, x) /\ In ((p, q, z), (kk, r, m)) (entries sp)).
Proof.
  intro H. rewrite H, in_map_iff. split.
  - intros [([[[p q] z] [[kk r] m]] & E & I)|B]; [exists p, q, z, kk, r, m; auto | destruct (dd_In_nil k x B)].
  - intros (p & q & z & kk & r & m & E & I). left. exists ((p, q, z), (kk, r, m)). auto.
Qed.

Lemma exposets_spec : exists x x1 x2 x3 x4 x5, collect_exposets n c sp = Ok x /\
  dict_of_sets_to_dict_of_lists Nat.leb (x_faction_keyneg x) = Ok x1 /\ dict_of_sets_to_dict_of_lists Nat.leb (x_family_perm x) = Ok x2 /\
  dict_of_sets_to_dict_of_lists Nat.leb (x_zhe_keyneg x) = Ok x3 /\ dict_of_sets_to_dict_of_lists Nat.leb (x_zhe_valneg x) = Ok x4 /\
  dict_of_sets_to_dict_of_lists triple_leb (x_zhe_triples x) = Ok x5 /\
  listing lt (fun p => In p reps1) (fun p k => k < 2 ^ n /\ faction_class (zhegalkin p) (negate_by k (sem f))) x1 /\
  listing lt (fun q => In q reps2) (fun q r => exists p, nth_error (rev_colex_perms n) r = Some p /\ family_class (zhegalkin q) (permute_by p (sem f))) x2 /\
  listing lt (cz f) (fun z k => k < 2 ^ n /\ faction_class (zhegalkin z) (negate_by k (sem f))) x3 /\
  listing lt (cz f) (fun z m => m < 2 ^ n /\ faction_class (sem f) (negate_by m (zhegalkin z))) x4 /\
  listing triple_lt (cz f) (fun z t => exists p, nth_error (rev_colex_perms n) (snd (fst t)) = Some p /\ signed_perm_gives n (sem f) p (fst (fst t)) (snd t) z) x5.
Proof.
  set (x := fold_left xadd (entries sp) (mkX [] [] [] [] [])). exists x. assert (P := xadd_parts (entries sp) (mkX [] [] [] [] [])). cbn zeta in P. fold x in P. cbn [x_faction_keyneg x_family_perm x_zhe_keyneg x_zhe_valneg x_zhe_triples] in P.
  destruct P as (P1 & P2 & P3 & P4 & P5).
  assert (Nok : forall g, dd_ok (dd_of Nat.eqb (map g (entries sp)) []) /\ forall j y, dd_In (dd_of Nat.eqb (map g (entries sp)) []) j y <-> In (j, y) (map g (entries sp)) \/ dd_In [] j y).
  { intro g. apply (dd_of_ok Nat.eqb Nat.eqb_eq), dd_nil. }

  destruct (nat_lists (x_faction_keyneg x) (fun p => In p reps1) (fun p k => k < 2 ^ n /\ faction_class (zhegalkin p) (negate_by k (sem f)))) as (x1 & E1 & L1).
  { rewrite P1. apply Nok. }
  { rewrite P1. intros p k. rewrite (dict_in _ _ p k (proj2 (Nok _))). split.
    - intros (p' & q & z & kk & r & m & E & I). cbn [fst snd] in E. injection E as -> ->. apply its_in in I as (I1 & I2 & Cz & F1 & F2 & Hm & Hr & A & Ek). split; [exact I1|].
      destruct (proj1 (keyneg_iff z k Cz)) as [Lk F]; [exists m, r; auto|]. split; [exact Lk|]. destruct (negated_num k Lk) as (y & _ & Y & _).
      apply (faction_class_ext (zhegalkin p) _ (zhegalkin y)); [reflexivity | exact Y|]. apply (num_faction_trans p z y F1). apply (faction_class_ext (zhegalkin z) _ (negate_by k (sem f))); [reflexivity | intro; symmetry; apply Y | exact F].
    - intros [I1 Q]. apply (keyneg_iff p k (H1 p I1)) in Q as (m & r & Hm & Hr & A & Ek). destruct (C2 p (H1 p I1)) as (q & I2 & F2). exists p, q, p, k, r, m. split; [reflexivity|]. apply its_in. repeat (split; [first [assumption | apply H1; assumption | apply faction_refl_num]|]). exact Ek. }
  { intros p I1. destruct (at_some p (H1 p I1)) as (m & r & Hm & Hr & A). exists (kn m r). apply keyneg_iff; [apply H1, I1|]. exists m, r. auto. }
  destruct (nat_lists (x_family_perm x) (fun q => In q reps2) (fun q r => exists p, nth_error (rev_colex_perms n) r = Some p /\ family_class (zhegalkin q) (permute_by p (sem f)))) as (x2 & E2 & L2).
  { rewrite P2. apply Nok. }
  { rewrite P2. intros q r. rewrite (dict_in _ _ q r (proj2 (Nok _))). split.
    - intros (p & q' & z & kk & r' & m & E & I). cbn [fst snd] in E. injection E as -> ->. apply its_in in I as (I1 & I2 & Cz & F1 & F2 & Hm & Hr & A & Ek). split; [exact I2|]. apply (perm_iff q r (H2 q I2)). exists m, z. auto.
    - intros [I2 Q]. apply (perm_iff q r (H2 q I2)) in Q as (m & z & Hm & Hr & Cz & F2 & A). destruct (C1 z Cz) as (p & I1 & F1). exists p, q, z, (kn m r), r, m. split; [reflexivity|]. apply its_in. repeat (split; [assumption|]). reflexivity. }
  { intros q I2. destruct (at_some q (H2 q I2)) as (m & r & Hm & Hr & A). exists r. apply (perm_iff q r (H2 q I2)). exists m, q. repeat (split; [first [assumption | apply H2; assumption | apply family_refl_num]|]). exact A. }
  destruct (nat_lists (x_zhe_keyneg x) (cz f) (fun z k => k < 2 ^ n /\ faction_class (zhegalkin z) (negate_by k (sem f)))) as (x3 & E3 & L3).
  { rewrite P3. apply Nok. }
  { rewrite P3. intros z k. rewrite (dict_in _ _ z k (proj2 (Nok _))). split.
    - intros (p & q & z' & kk & r & m & E & I). cbn [fst snd] in E. injection E as -> ->. apply its_in in I as (I1 & I2 & Cz & F1 & F2 & Hm & Hr & A & Ek). split; [exact Cz|]. apply (keyneg_iff z k Cz). exists m, r. auto.
    - intros [Cz Q]. apply (keyneg_iff z k Cz) in Q as (m & r & Hm & Hr & A & Ek). destruct (C1 z Cz) as (p & I1 & F1). destruct (C2 z Cz) as (q & I2 & F2). exists p, q, z, k, r, m. split; [reflexivity|]. apply its_in. auto 10. }
  { intros z Cz. destruct (at_some z Cz) as (m & r & Hm & Hr & A). exists (kn m r). apply (keyneg_iff z _ Cz). exists m, r. auto. }
  destruct (nat_lists (x_zhe_valneg x) (cz f) (fun z m => m < 2 ^ n /\ faction_class (sem f) (negate_by m (zhegalkin z)))) as (x4 & E4 & L4).
  { rewrite P4. apply Nok. }
  { rewrite P4. intros z m. rewrite (dict_in _ _ z m (proj2 (Nok _))). split.
    - intros (p & q & z' & kk & r & m' & E & I). cbn [fst snd] in E. injection E as -> ->. apply its_in in I as (I1 & I2 & Cz & F1 & F2 & Hm & Hr & A & Ek). split; [exact Cz|]. apply (valneg_iff z m Cz). exists r. auto.
    - intros [Cz Q]. apply (valneg_iff z m Cz) in Q as (r & Hm & Hr & A). destruct (C1 z Cz) as (p & I1 & F1). destruct (C2 z Cz) as (q & I2 & F2). exists p, q, z, (kn m r), r, m. split; [reflexivity|]. apply its_in. auto 10. }
  { intros z Cz. destruct (at_some z Cz) as (m & r & Hm & Hr & A). exists m. apply (valneg_iff z _ Cz). exists r. auto. }
  assert (T : forall z k r m, (m < 2 ^ n /\ r < fact n /\ at_ m r z /\ k = kn m r) <-> exists p, nth_error (rev_colex_perms n) r = Some p /\ signed_perm_gives n (sem f) p k m z).
  { intros z k r m. assert (X : forall p, nth_error (rev_colex_perms n) r = Some p -> forall a, nth a p a = act r a).
    { intros p Hp a. destruct (colex_list n r p Hp) as (Hr & _ & Lp & Ha). destruct (Nat.lt_ge_cases a n) as [La|La]; [rewrite <- Ha by exact La; apply nth_indep; lia | rewrite nth_overflow by lia; symmetry; apply (act_high r n); assumption]. }
    split.
    - intros (Hm & Hr & A & ->). destruct (nth_error (rev_colex_perms n) r) as [p|] eqn:Ep; [|apply nth_error_None in Ep; rewrite rev_colex_length in Ep; lia]. exists p. split; [reflexivity|]. assert (X' := X p eq_refl). split; [apply kn_lt; assumption|]. split; [exact Hm|]. split.
      + intros a _. rewrite X'. apply kn_spec.
      + intro e. rewrite A. apply sem_ext. intros a _. rewrite X'. reflexivity.
    - intros (p & Hp & Lk & Hm & Hb & Hz). destruct (colex_list n r p Hp) as (Hr & _). assert (X' := X p Hp). split; [exact Hm|]. split; [exact Hr|]. split.
      + intro e. rewrite Hz. apply sem_ext. intros a _. rewrite X'. reflexivity.
      + apply Nat.bits_inj. intro a. destruct (Nat.lt_ge_cases a n) as [La|La]; [rewrite (Hb a La), X'; symmetry; apply kn_spec|]. rewrite !bits_high; auto using kn_lt. }
  destruct (triple_lists (x_zhe_triples x) (cz f) (fun z t => exists p, nth_error (rev_colex_perms n) (snd (fst t)) = Some p /\ signed_perm_gives n (sem f) p (fst (fst t)) (snd t) z)) as (x5 & E5 & L5').
  { rewrite P5. apply (dd_of_ok triple_eqb triple_eqb_ok), dd_nil. }
  { rewrite P5. intros z t. rewrite (dict_in _ _ z t (proj2 (dd_of_ok triple_eqb triple_eqb_ok _ [] (proj1 dd_nil)))). destruct t as [[k r] m]. cbn [fst snd]. rewrite <- T. split.
    - intros (p & q & z' & kk & r' & m' & E & I). injection E as -> -> -> ->. apply its_in in I. tauto.
    - intros (Cz & Q). destruct (C1 z Cz) as (p & I1 & F1). destruct (C2 z Cz) as (q & I2 & F2). exists p, q, z, k, r, m. split; [reflexivity|]. apply its_in. tauto. }
  { intros z Cz. destruct (at_some z Cz) as (m & r & Hm & Hr & A). exists (kn m r, r, m). cbn [fst snd]. apply T. auto. }
  exists x1, x2, x3, x4, x5. split; [apply collect_eq, sp_cz|]. auto 12.
Qed.
End Clan.
