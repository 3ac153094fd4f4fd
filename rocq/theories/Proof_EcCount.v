(** Proof_EcCount: the blocks of a class have the same size. *)

From Coq Require Import List Arith ZArith Bool Lia Permutation Sorted Factorial.
From Verif Require Import Model_Base Lib Model_Splits Model_Perm Model_Binary Model_SigPerm Model_SetPart Model_Boolf Model_BoolfMore Model_MinRep
  Model_Helpers Model_Ec Spec_Bits Spec_Perm Spec_SigPerm Spec_Boolf Spec_SetPart Spec_MinRep Spec_Helpers Spec_Ec
  Proof_Binary Proof_Perm Proof_PermMore Proof_Inversions Proof_SigPerm Proof_SigPermOps Proof_SigPermMore Proof_Helpers Proof_SetPart Proof_SetPartLabels Proof_SetPartObj
  Proof_Boolf Proof_Deflate Proof_BoolfTable Proof_BoolfApply Proof_BoolfMake Proof_BoolfMore Proof_MinRepTwin Proof_MinRepClass Proof_MinRepCoset Proof_MinRep Proof_MinRepMin
  Proof_Twin Proof_Listing Proof_Splits Proof_Noble Proof_Seqs Proof_HelpersBits Proof_Blight Proof_Ec Proof_EcClass Proof_EcMembers.
Import ListNotations.
Open Scope nat_scope.

(** all blocks have the same size *)
Definition equal_blocks (c : ec) (N : nat) : Prop :=
  exists k, N = k * length (ec_members c) /\ forall g, In g (ec_members c) -> exists b, ec_block c g = Some b /\ length b = k.

Lemma filter_sorted (p : Z -> bool) l : StronglySorted Z.lt l -> StronglySorted Z.lt (filter p l).
Proof.
  induction 1 as [|x l Hs IH Hx]; cbn [filter]; [constructor|]. destruct (p x); [|exact IH]. constructor; [exact IH|]. rewrite Forall_forall in *. intros y Hy. apply filter_In in Hy as [Hy _]. apply Hx, Hy.
Qed.

Lemma injection_length {A} (l l' : list A) (t : A -> A) : NoDup l -> (forall x, In x l -> In (t x) l') -> (forall x y, In x l -> In y l -> t x = t y -> x = y) -> length l <= length l'.
Proof.
  intros Hn Hi Hj. rewrite <- (map_length t l). apply NoDup_incl_length; [apply NoDup_map_inj; assumption|]. intros y Hy. apply in_map_iff in Hy as (x & <- & Hx). apply Hi, Hx.
Qed.

Lemma equal_blocks_intro c N L : shows c (znat_range N) L -> (forall x g, L x g -> (0 <= x < Z.of_nat N)%Z /\ reduced g) -> (forall x, (0 <= x < Z.of_nat N)%Z -> exists g, L x g) ->
  (forall g h x0 y0, L x0 g -> L y0 h -> exists t : Z -> Z, (forall x, L x g -> L (t x) h) /\ forall x y, L x g -> L y g -> t x = t y -> x = y) ->
  equal_blocks c N.
Proof.
  intros S Hr Ht Hc.
  set (blk := fun g => filter (fun x => match ec_label c x with Some h => boolf_eqb h g | None => false end) (znat_range N)).
  assert (Bi : forall g, reduced g -> forall x, In x (blk g) <-> L x g).
  { intros g Rg x. unfold blk. rewrite filter_In, znat_range_In. split.
    - intros [Hx E]. destruct (ec_label c x) as [h|] eqn:El; [|discriminate E]. apply (shows_label _ _ _ S) in El. apply boolf_eqb_true in E; [subst h; exact El | apply (Hr _ _ El) | exact Rg].
    - intro H. destruct (Hr _ _ H) as [Hx _]. split; [exact Hx|]. apply (shows_label _ _ _ S) in H. rewrite H. apply boolf_eqb_true; auto. }
  assert (Bs : forall g, StronglySorted Z.lt (blk g)) by (intro g; apply filter_sorted, znat_range_sorted).
  assert (Bn : forall g, NoDup (blk g)) by (intro g; apply zsorted_NoDup, Bs).
  assert (Hm : forall g, In g (ec_members c) -> reduced g /\ exists x, L x g).
  { intros g Hg. apply (shows_members _ _ _ S) in Hg as (x & Hx). split; [apply (Hr _ _ Hx) | eauto]. }
  assert (Hle : forall g h, In g (ec_members c) -> In h (ec_members c) -> length (blk g) <= length (blk h)).
  { intros g h Hg Hh. destruct (Hm g Hg) as (Rg & x0 & Hx0). destruct (Hm h Hh) as (Rh & y0 & Hy0). destruct (Hc g h x0 y0 Hx0 Hy0) as (t & T1 & T2). apply (injection_length _ _ t (Bn g)).
    - intros x Hx. apply Bi; [exact Rh|]. apply T1, (Bi g Rg), Hx.
    - intros x y Hx Hy. apply T2; apply (Bi g Rg); assumption. }
  assert (Hk : exists k, forall g, In g (ec_members c) -> length (blk g) = k).
  { destruct (ec_members c) as [|h ms] eqn:Em; [exists 0; intros g []|]. exists (length (blk h)). intros g Hg. apply Nat.le_antisymm; apply Hle; try exact Hg; left; reflexivity. }
  destruct Hk as (k & Hk). exists k. split.
  - assert (P : Permutation (flat_map blk (ec_members c)) (znat_range N)).
    { apply NoDup_Permutation; [|apply znat_range_NoDup|].
      - assert (Nm := shows_once _ _ _ S). revert Hm Nm. generalize (ec_members c). intro ms. induction ms as [|g ms IH]; intros Hm Nm; cbn [flat_map]; [constructor|]. inversion Nm as [|? ? Hg Nm']; subst.
        apply NoDup_app_intro; [apply Bn | apply IH; [intros; apply Hm; right; assumption | exact Nm']|]. intros x Hx C. apply in_flat_map in C as (h & Hh & C).
        apply (Bi g (proj1 (Hm g (or_introl eq_refl)))) in Hx. apply (Bi h (proj1 (Hm h (or_intror Hh)))) in C. apply (shows_label _ _ _ S) in Hx, C. rewrite Hx in C. injection C as ->. contradiction.
      - intro x. rewrite in_flat_map, znat_range_In. split.
        + intros (g & Hg & Hx). apply (Bi g (proj1 (Hm g Hg))) in Hx. apply (Hr _ _ Hx).
        + intro Hx. destruct (Ht x Hx) as (g & Hg). exists g. split; [apply (shows_members _ _ _ S); eauto|]. apply Bi; [apply (Hr _ _ Hg) | exact Hg]. }
    apply Permutation_length in P. unfold znat_range in P. rewrite map_length, range_length in P. rewrite <- P. clear P Hle Hm.
    revert Hk. generalize (ec_members c). intro ms. induction ms as [|g ms IH]; intros Hk; cbn [flat_map length]; [lia|]. rewrite app_length, IH, (Hk g (or_introl eq_refl)) by (intros; apply Hk; right; assumption). lia.
  - intros g Hg. exists (blk g). split; [|apply Hk, Hg]. destruct (Hm g Hg) as (Rg & x & Hx). apply (shows_block _ _ _ S); [exact Rg|]. split; [|split; [apply Bs | apply Bi, Rg]].
    intro C. apply (Bi g Rg) in Hx. rewrite C in Hx. destruct Hx.
Qed.

(** the same with indices that stand for the elements *)
Lemma equal_blocks_items {I} c N (K : I -> Z) (D : Z -> I) (U : I -> Prop) (Q : I -> boolf -> Prop) :
  shows c (znat_range N) (fun x g => exists i, U i /\ x = K i /\ Q i g) -> (forall i, U i -> (0 <= K i < Z.of_nat N)%Z /\ D (K i) = i) -> (forall x, (0 <= x < Z.of_nat N)%Z -> U (D x) /\ K (D x) = x) ->
  (forall i, U i -> exists g, Q i g) -> (forall i g, U i -> Q i g -> reduced g) ->
  (forall g h i0 j0, U i0 -> U j0 -> Q i0 g -> Q j0 h -> exists t : I -> I, (forall i, U i -> Q i g -> U (t i) /\ Q (t i) h) /\ forall i j, U i -> U j -> Q i g -> Q j g -> t i = t j -> i = j) ->
  equal_blocks c N.
Proof.
  intros S HK HD Hq Hr Hc. apply (equal_blocks_intro c N _ S).
  - intros x g (i & Ui & -> & H). split; [apply HK, Ui | apply (Hr i g Ui H)].
  - intros x Hx. destruct (HD x Hx) as [Ux Ex]. destruct (Hq _ Ux) as (g & Hg). exists g, (D x). auto.
  - intros g h x0 y0 (i0 & U0 & -> & Q0) (j0 & V0 & -> & P0). destruct (Hc g h i0 j0 U0 V0 Q0 P0) as (t & T1 & T2). exists (fun x => K (t (D x))). split.
    + intros x (i & Ui & -> & H). rewrite (proj2 (HK i Ui)). exists (t i). destruct (T1 i Ui H). auto.
    + intros x y (i & Ui & -> & H) (j & Uj & -> & H') E. rewrite (proj2 (HK i Ui)), (proj2 (HK j Uj)) in E. f_equal. apply T2; auto.
      destruct (T1 i Ui H) as [A1 _]. destruct (T1 j Uj H') as [A2 _]. rewrite <- (proj2 (HK _ A1)), <- (proj2 (HK _ A2)), E. reflexivity.
Qed.

(** * Families *)

Lemma lxor_lt a b n : a < 2 ^ n -> b < 2 ^ n -> Nat.lxor a b < 2 ^ n.
Proof.
  intros Ha Hb. destruct (Nat.eq_dec (Nat.lxor a b) 0) as [->|H]; [apply Nat.neq_0_lt_0, Nat.pow_nonzero; lia|]. apply Nat.log2_lt_pow2; [lia|].
  eapply Nat.le_lt_trans; [apply Nat.log2_lxor|]. destruct n as [|n].
  - cbn in *. assert (a = 0) by lia. assert (b = 0) by lia. subst. cbn in H. lia.
  - assert (G : forall c, c < 2 ^ S n -> Nat.log2 c < S n). { intros c Hc. destruct (Nat.eq_dec c 0) as [->|]; [cbn; lia|]. apply Nat.log2_lt_pow2; [lia | exact Hc]. }
    specialize (G a Ha) as Ga. specialize (G b Hb). lia.
Qed.

Lemma neg_atoms_lxor f i j a : NoDup (atomvals f) -> In a (atomvals f) -> memb a (neg_atoms f (Nat.lxor i j)) = xorb (memb a (neg_atoms f i)) (memb a (neg_atoms f j)).
Proof. intros Hn Ha. apply (In_nth _ _ 0) in Ha as (k & Hk & <-). rewrite !neg_atoms_at by assumption. apply Nat.lxor_spec. Qed.

Lemma family_at_exists f i : wellmade f -> is_constant f = false -> i < 2 ^ valency f -> exists g, family_at f i g.
Proof. intros R C Hi. destruct (family_member_spec f i R C Hi) as (g & _ & Hg). eauto. Qed.

Lemma family_equal_blocks f c : wellmade f -> is_constant f = false ->
  shows c (znat_range (2 ^ valency f)) (fun x g => exists i, i < 2 ^ valency f /\ x = Z.of_nat i /\ family_at f i g) -> equal_blocks c (2 ^ valency f).
Proof.
  intros R C S. assert (Nf : NoDup (atomvals f)) by apply fitting_NoDup, R. apply (equal_blocks_items c (2 ^ valency f) Z.of_nat Z.to_nat (fun i => i < 2 ^ valency f) (family_at f) S).
  - intros i Hi. split; [lia | apply Nat2Z.id].
  - intros x Hx. split; lia.
  - intros i Hi. apply family_at_exists; assumption.
  - intros i g _ H. apply H.
  - intros g h i0 j0 Hi0 Hj0 [Rg Q0] [Rh P0]. exists (fun i => Nat.lxor i (Nat.lxor i0 j0)). split.
    + intros i Hi [_ Q]. split; [apply lxor_lt; [exact Hi | apply lxor_lt; assumption]|]. split; [exact Rh|]. intro e.
      set (e1 := fun a => xorb (e a) (memb a (neg_atoms f (Nat.lxor i0 j0)))). assert (E := Q e1). rewrite Q0 in E. rewrite P0.
      transitivity (sem f (fun a => xorb (e1 a) (memb a (neg_atoms f i0)))); [|rewrite E]; apply sem_ext; intros a Ha; unfold e1; rewrite !neg_atoms_lxor by assumption;
        destruct (e a), (memb a (neg_atoms f i0)), (memb a (neg_atoms f j0)), (memb a (neg_atoms f i)); reflexivity.
    + intros i j _ _ _ _ E. set (t := Nat.lxor i0 j0) in *. clearbody t. apply (f_equal (fun x => Nat.lxor x t)) in E. rewrite !Nat.lxor_assoc, !Nat.lxor_nilpotent, !Nat.lxor_0_r in E. exact E.
Qed.

(** * Factions and clans of all permutations *)

Definition unact (r n b : nat) : nat := idx b (map (act r) (range n)).
Lemma unact_spec r n b : r < fact n -> b < n -> unact r n b < n /\ act r (unact r n b) = b.
Proof.
  intros Hr Hb. assert (I : In b (map (act r) (range n))). { destruct (act_onto r n b Hr Hb) as (a & Ha & E). apply in_map_iff. exists a. split; [exact E | apply range_In, Ha]. }
  destruct (idx_spec _ _ I) as [H1 H2]. rewrite map_length, range_length in H1. fold (unact r n b) in *. split; [exact H1|]. rewrite (nth_map_range (act r)) in H2 by exact H1. exact H2.
Qed.
Lemma unact_act r n a : r < fact n -> a < n -> unact r n (act r a) = a.
Proof.
  intros Hr Ha. assert (P := permutes_act r n Hr). destruct (unact_spec r n (act r a) Hr (permutes_lt _ _ _ P Ha)) as [H1 H2]. apply (injective_on _ _ _ _ P H1 Ha H2).
Qed.

Definition rank_of (s : nat -> nat) (n : nat) : nat := from_factoradic (left_inversion_count (map s (range n))).
Lemma rank_of_spec s n : (forall a, a < n -> s a < n) -> (forall a b, a < n -> b < n -> s a = s b -> a = b) -> rank_of s n < fact n /\ forall a, a < n -> act (rank_of s n) a = s a.
Proof.
  intros H1 H2. assert (P : Permutation (map s (range n)) (range n)).
  { apply NoDup_Permutation_bis.
    - apply NoDup_map_inj; [apply range_NoDup|]. intros a b Ha Hb. apply range_In in Ha, Hb. apply H2; assumption.
    - rewrite map_length. lia.
    - intros x Hx. apply in_map_iff in Hx as (a & <- & Ha). apply range_In in Ha. apply range_In, H1, Ha. }
  destruct (act_list _ n P) as [Hr Ha]. split; [exact Hr|]. intros a Han. unfold rank_of. rewrite Ha by exact Han. apply (nth_map_range s). exact Han.
Qed.

Section Short.
Context (f : boolf) (n : nat) (R : wellmade f) (A : adicity f <= n).

Lemma clan_at_exists m r : r < fact n -> exists g, clan_at f m r g.
Proof. intro Hr. destruct (colex_perms_at n r Hr) as (q & Hq). destruct (clan_item f n m r q R A Hq) as (g & _ & Hg). eauto. Qed.

Lemma clan_shift g h m0 r0 mj rj : r0 < fact n -> rj < fact n -> clan_at f m0 r0 g -> clan_at f mj rj h ->
  exists t : nat * nat -> nat * nat,
    (forall m r, m < 2 ^ n -> r < fact n -> clan_at f m r g -> fst (t (m, r)) < 2 ^ n /\ snd (t (m, r)) < fact n /\ clan_at f (fst (t (m, r))) (snd (t (m, r))) h /\ (m = 0 -> m0 = 0 -> mj = 0 -> fst (t (m, r)) = 0)) /\
    (forall m r m' r', m < 2 ^ n -> m' < 2 ^ n -> r < fact n -> r' < fact n -> t (m, r) = t (m', r') -> (m, r) = (m', r')).
Proof.
  intros Hr0 Hrj [Rg G0] [Rh H0]. assert (P0 := permutes_act r0 n Hr0). assert (Pj := permutes_act rj n Hrj).
  set (s := fun r a => act rj (unact r0 n (act r a))). set (M := fun m d => xorb (xorb (Nat.testbit m (act r0 (unact rj n d))) (Nat.testbit m0 (act r0 (unact rj n d)))) (Nat.testbit mj d)).
  assert (Hs : forall r, r < fact n -> rank_of (s r) n < fact n /\ forall a, a < n -> act (rank_of (s r) n) a = s r a).
  { intros r Hr. assert (Pr := permutes_act r n Hr). apply rank_of_spec.
    - intros a Ha. apply (permutes_lt _ _ _ Pj), unact_spec; [exact Hr0 | apply (permutes_lt _ _ _ Pr Ha)].
    - intros a b Ha Hb E. unfold s in E. destruct (unact_spec r0 n (act r a) Hr0 (permutes_lt _ _ _ Pr Ha)) as [A1 A2]. destruct (unact_spec r0 n (act r b) Hr0 (permutes_lt _ _ _ Pr Hb)) as [B1 B2].
      apply (injective_on _ _ _ _ Pj A1 B1) in E. apply (injective_on _ _ _ _ Pr Ha Hb). rewrite <- A2, <- B2, E. reflexivity. }
  exists (fun mr => (b2n (map (M (fst mr)) (range n)), rank_of (s (snd mr)) n)). split.
  - intros m r Hm Hr [_ G]. cbn [fst snd]. assert (Pr := permutes_act r n Hr). destruct (Hs r Hr) as [Hk Ha]. split; [apply (place_lt (M m))|]. split; [exact Hk|]. split.
    + split; [exact Rh|]. intro e. set (e1 := fun b => xorb (xorb (e (act rj (unact r0 n b))) (Nat.testbit mj (act rj (unact r0 n b)))) (Nat.testbit m0 b)).
      assert (E := G e1). rewrite G0 in E. rewrite H0. transitivity (sem f (fun a => xorb (e1 (act r0 a)) (Nat.testbit m0 (act r0 a)))).
      * apply sem_ext. intros a Hin. apply adicity_bound in Hin. unfold e1. rewrite unact_act by (auto; lia). destruct (e (act rj a)), (Nat.testbit mj (act rj a)), (Nat.testbit m0 (act r0 a)); reflexivity.
      * rewrite E. apply sem_ext. intros a Hin. apply adicity_bound in Hin. assert (Han : a < n) by lia. rewrite Ha by exact Han.
        assert (Hb := permutes_lt _ _ _ Pr Han). destruct (unact_spec r0 n (act r a) Hr0 Hb) as [U1 U2]. assert (Hd := permutes_lt _ _ _ Pj U1).
        unfold s at 2. rewrite (place_bits (M m)) by exact Hd. unfold M. rewrite (unact_act rj n _ Hrj U1), U2. unfold e1, s.
        destruct (e (act rj (unact r0 n (act r a)))), (Nat.testbit mj (act rj (unact r0 n (act r a)))), (Nat.testbit m0 (act r a)), (Nat.testbit m (act r a)); reflexivity.
    + intros -> -> ->. apply Nat.bits_inj_0. intro d. destruct (Nat.lt_ge_cases d n) as [Hd|Hd]; [rewrite (place_bits (M 0)) by exact Hd; unfold M; rewrite !Nat.bits_0; reflexivity|].
      apply testbit_high. eapply Nat.lt_le_trans; [apply (place_lt (M 0))|]. apply Nat.pow_le_mono_r; lia.
  - intros m r m' r' Hm Hm' Hr Hr' E. cbn [fst snd] in E. injection E as Em Er. assert (Pr := permutes_act r n Hr). assert (Pr' := permutes_act r' n Hr'). f_equal.
    + apply Nat.bits_inj. intro b. destruct (Nat.lt_ge_cases b n) as [Hb|Hb].
      * destruct (unact_spec r0 n b Hr0 Hb) as [U1 U2]. set (d := act rj (unact r0 n b)). assert (Hd : d < n) by apply (permutes_lt _ _ _ Pj U1).
        apply (f_equal (fun x => Nat.testbit x d)) in Em. rewrite !(place_bits (M _)) in Em by exact Hd. unfold M, d in Em. rewrite !(unact_act rj n _ Hrj U1), !U2 in Em.
        destruct (Nat.testbit m b), (Nat.testbit m' b), (Nat.testbit m0 b), (Nat.testbit mj (act rj (unact r0 n b))); try reflexivity; discriminate Em.
      * rewrite !testbit_high; [reflexivity | |]; (eapply Nat.lt_le_trans; [eassumption | apply Nat.pow_le_mono_r; lia]).
    + apply (act_inj r r' n Hr Hr'). intros x Hx. destruct (Hs r Hr) as [_ E1]. destruct (Hs r' Hr') as [_ E2]. specialize (E1 x Hx). specialize (E2 x Hx). rewrite Er, E2 in E1. unfold s in E1.
      destruct (unact_spec r0 n (act r x) Hr0 (permutes_lt _ _ _ Pr Hx)) as [A1 A2]. destruct (unact_spec r0 n (act r' x) Hr0 (permutes_lt _ _ _ Pr' Hx)) as [B1 B2].
      apply (injective_on _ _ _ _ Pj B1 A1) in E1. rewrite <- A2, <- B2, E1. reflexivity.
Qed.

Lemma clan_equal_blocks c : shows c (znat_range (2 ^ n * fact n)) (fun x g => exists m r, m < 2 ^ n /\ r < fact n /\ x = Z.of_nat (m * fact n + r) /\ clan_at f m r g) ->
  equal_blocks c (2 ^ n * fact n).
Proof.
  intro S. assert (F := fact_neq_0 n). apply (equal_blocks_items c (2 ^ n * fact n) (fun mr => Z.of_nat (fst mr * fact n + snd mr)) (fun x => (Z.to_nat x / fact n, Z.to_nat x mod fact n))
    (fun mr => fst mr < 2 ^ n /\ snd mr < fact n) (fun mr g => clan_at f (fst mr) (snd mr) g)).
  - eapply shows_ext; [|exact S]. intros x g. cbn beta. split.
    + intros (m & r & Hm & Hr & Ex & H). exists (m, r). auto.
    + intros ([m r] & [Hm Hr] & Ex & H). exists m, r. auto.
  - intros [m r] [Hm Hr]. cbn [fst snd] in *. split; [assert (B := pair_number_lt _ _ _ _ Hm Hr); lia|]. rewrite Nat2Z.id. f_equal.
    + symmetry. apply (Nat.div_unique _ _ _ r); lia.
    + symmetry. apply (Nat.mod_unique _ _ m); lia.
  - intros x Hx. cbn [fst snd]. split; [split; [apply Nat.div_lt_upper_bound; [exact F | rewrite Nat.mul_comm; lia] | apply Nat.mod_upper_bound, F]|].
    rewrite (Nat.mul_comm _ (fact n)), <- Nat.div_mod by exact F. lia.
  - intros [m r] [_ Hr]. apply clan_at_exists, Hr.
  - intros [m r] g _ H. apply H.
  - intros g h [m0 r0] [mj rj] [_ Hr0] [_ Hrj] G0 H0. destruct (clan_shift g h m0 r0 mj rj Hr0 Hrj G0 H0) as (t & T1 & T2). exists t. split.
    + intros [m r] [Hm Hr] G. destruct (T1 m r Hm Hr G) as (X1 & X2 & X3 & _). auto.
    + intros [m r] [m' r'] [Hm Hr] [Hm' Hr'] _ _. apply T2; assumption.
Qed.

Lemma faction_clan_at r g : faction_at f r g <-> clan_at f 0 r g.
Proof. split; intros [Rg S]; (split; [exact Rg|]); intro e; rewrite S; apply sem_ext; intros a _; rewrite Nat.bits_0, xorb_false_r; reflexivity. Qed.

Lemma faction_equal_blocks c : shows c (znat_range (fact n)) (fun x g => exists r, r < fact n /\ x = Z.of_nat r /\ faction_at f r g) -> equal_blocks c (fact n).
Proof.
  intro S. apply (equal_blocks_items c (fact n) Z.of_nat Z.to_nat (fun r => r < fact n) (faction_at f) S).
  - intros r Hr. split; [lia | apply Nat2Z.id].
  - intros x Hx. split; lia.
  - intros r Hr. destruct (clan_at_exists 0 r Hr) as (g & Hg). exists g. apply faction_clan_at, Hg.
  - intros r g _ H. apply H.
  - intros g h r0 rj Hr0 Hrj G0 H0. apply faction_clan_at in G0, H0. destruct (clan_shift g h 0 r0 0 rj Hr0 Hrj G0 H0) as (t & T1 & T2).
    assert (Z0 : 0 < 2 ^ n) by (apply Nat.neq_0_lt_0, Nat.pow_nonzero; lia). exists (fun r => snd (t (0, r))). split.
    + intros r Hr G. apply faction_clan_at in G. destruct (T1 0 r Z0 Hr G) as (X1 & X2 & X3 & X4). split; [exact X2|]. apply faction_clan_at. rewrite X4 in X3 by reflexivity. exact X3.
    + intros r r' Hr Hr' G G' E. apply faction_clan_at in G, G'. destruct (T1 0 r Z0 Hr G) as (_ & _ & _ & X). destruct (T1 0 r' Z0 Hr' G') as (_ & _ & _ & X'). specialize (X eq_refl eq_refl eq_refl). specialize (X' eq_refl eq_refl eq_refl).
      assert (Q : (0, r) = (0, r')) by (apply T2; auto; destruct (t (0, r)), (t (0, r')); cbn [fst snd] in *; congruence). injection Q as Q. exact Q.
Qed.
End Short.

(** * Factions and clans of combinations *)

Section Long.
Context (f : boolf) (n : nat) (R : reduced f) (C : is_constant f = false) (A : adicity f <= n).
Let v := valency f.
Let combos := combinations (range n) v.

Lemma variation_at_exists combo m r : length combo = v -> NoDup combo -> r < fact v -> exists g, variation_at f combo m r g.
Proof.
  intros Lc Nc Hr.
  destruct (variation_item f combo m r (map (fun k => if Nat.testbit m k then neg (Z.of_nat (nth (unact r v k) combo 0)) else Z.of_nat (nth (unact r v k) combo 0)) (range v)) R C Hr Lc Nc) as (g & _ & Hg).
  - rewrite map_length. apply range_length.
  - intros i Hi. assert (Ha := permutes_lt _ _ _ (permutes_act r v Hr) Hi).
    set (F := fun k => if Nat.testbit m k then neg (Z.of_nat (nth (unact r v k) combo 0)) else Z.of_nat (nth (unact r v k) combo 0)).
    rewrite (nth_indep _ 0%Z (F 0)) by (rewrite map_length, range_length; exact Ha). rewrite map_nth. rewrite nth_range by exact Ha. unfold F. rewrite unact_act by assumption. reflexivity.
  - eauto.
Qed.

(** an assignment of the atoms of [f] with given values at the places *)
Lemma place_assignment (w : nat -> bool) r : r < fact v -> exists e : assignment, forall i, i < v -> e (nth (act r i) (atomvals f) 0) = w i.
Proof.
  intro Hr. assert (Nf : NoDup (atomvals f)) by apply fitting_NoDup, R. exists (fun a => w (unact r v (idx a (atomvals f)))). intros i Hi. assert (Ha := permutes_lt _ _ _ (permutes_act r v Hr) Hi).
  assert (E : idx (nth (act r i) (atomvals f) 0) (atomvals f) = act r i). { destruct (idx_spec _ _ (nth_In (atomvals f) 0 Ha)) as [H1 H2]. apply (proj1 (NoDup_nth (atomvals f) 0) Nf); assumption. }
  rewrite E, unact_act by assumption. reflexivity.
Qed.
Lemma combo_assignment (w : nat -> bool) combo : length combo = v -> NoDup combo -> exists e : assignment, forall i, i < v -> e (nth i combo 0) = w i.
Proof.
  intros Lc Nc. exists (fun a => w (idx a combo)). intros i Hi. f_equal. assert (Hl : i < length combo) by lia. destruct (idx_spec _ _ (nth_In combo 0 Hl)) as [H1 H2]. apply (proj1 (NoDup_nth combo 0) Nc); assumption.
Qed.

(** the combination is the set of the atoms of the result *)
Lemma variation_atoms combo m r g : length combo = v -> NoDup combo -> r < fact v -> variation_at f combo m r g -> forall a, In a combo -> In a (atomvals g).
Proof.
  intros Lc Nc Hr [Rg S] a Ha. apply (In_nth _ _ 0) in Ha as (i & Hi & <-). rewrite Lc in Hi. apply (atoms_essential g _ Rg).
  assert (Hai := permutes_lt _ _ _ (permutes_act r v Hr) Hi). assert (Nf : NoDup (atomvals f)) by apply fitting_NoDup, R. set (b := nth (act r i) (atomvals f) 0).
  assert (Hb : In b (atomvals f)) by (apply nth_In, Hai). apply (atoms_essential f b R) in Hb as (e & He).
  destruct (combo_assignment (fun j => xorb (e (nth (act r j) (atomvals f) 0)) (Nat.testbit m (act r j))) combo Lc Nc) as (d & Hd).
  assert (X : forall q, sem g (Spec_Boolf.upd d (nth i combo 0) (xorb q (Nat.testbit m (act r i)))) = sem f (Spec_Boolf.upd e b q)).
  { intro q. apply S. intros j Hj. unfold Spec_Boolf.upd. destruct (Nat.eq_dec j i) as [->|Hne].
    - fold b. rewrite !Nat.eqb_refl. destruct q, (Nat.testbit m (act r i)); reflexivity.
    - assert (Haj := permutes_lt _ _ _ (permutes_act r v Hr) Hj). destruct (Nat.eqb_spec (nth (act r j) (atomvals f) 0) b) as [E|_].
      + exfalso. apply Hne. apply (injective_on _ v _ _ (permutes_act r v Hr) Hj Hi). apply (proj1 (NoDup_nth (atomvals f) 0) Nf); assumption.
      + destruct (Nat.eqb_spec (nth j combo 0) (nth i combo 0)) as [E|_]; [exfalso; apply Hne; apply (proj1 (NoDup_nth combo 0) Nc); [lia | lia | exact E]|].
        rewrite Hd by exact Hj. destruct (e (nth (act r j) (atomvals f) 0)), (Nat.testbit m (act r j)); reflexivity. }
  rewrite <- !X in He. exists d. destruct (Nat.testbit m (act r i)); cbn [xorb] in He; [|exact He]. intro E. apply He. symmetry. exact E.
Qed.

Lemma variation_atoms_in combo m r g : length combo = v -> r < fact v -> variation_at f combo m r g -> forall a, In a (atomvals g) -> In a combo.
Proof.
  intros Lc Hr [Rg S] a Ha. destruct (in_dec Nat.eq_dec a combo) as [|Hn]; [assumption|]. exfalso. apply (atoms_essential g a Rg) in Ha as (e & He). apply He.
  destruct (place_assignment (fun i => xorb (e (nth i combo 0)) (Nat.testbit m (act r i))) r Hr) as (e' & H').
  assert (X : forall q, sem g (Spec_Boolf.upd e a q) = sem f e'); [|rewrite !X; reflexivity]. intro q. apply S. intros i Hi. rewrite H' by exact Hi. f_equal. unfold Spec_Boolf.upd.
  destruct (Nat.eqb_spec (nth i combo 0) a) as [E|_]; [|reflexivity].
  exfalso. apply Hn. rewrite <- E. apply nth_In. change (valency f) with v in Hi. lia.
Qed.

Lemma sublist_sorted (s l : list nat) : sublist s l -> StronglySorted lt l -> StronglySorted lt s.
Proof.
  induction 1 as [|x s l H IH|x s l H IH]; intro Hs; [constructor | |]; inversion Hs as [|? ? Hs' Hx]; subst; [|apply IH, Hs']. constructor; [apply IH, Hs'|]. rewrite Forall_forall in *. intros y Hy. apply Hx. apply (sublist_In _ _ _ H Hy).
Qed.
Lemma combo_ascending k combo : nth_error combos k = Some combo -> StronglySorted lt combo.
Proof. intro H. apply nth_error_In, combinations_In in H as [H _]. apply (sublist_sorted _ _ H). apply range_ascending. Qed.

Lemma ascending_unique (l m : list nat) : StronglySorted lt l -> StronglySorted lt m -> (forall x, In x l <-> In x m) -> l = m.
Proof. exact (Proof_Blight.ascending_ext l m). Qed.

(** the combination of the result is unique *)
Lemma variation_combo k combo k' combo' m r m' r' g : nth_error combos k = Some combo -> nth_error combos k' = Some combo' -> r < fact v -> r' < fact v ->
  variation_at f combo m r g -> variation_at f combo' m' r' g -> combo = combo' /\ k = k'.
Proof.
  intros Hk Hk' Hr Hr' S S'. destruct (combos_spec _ _ _ _ Hk) as (_ & Lc & Nc & _). destruct (combos_spec _ _ _ _ Hk') as (_ & Lc' & Nc' & _).
  assert (E : combo = combo').
  { apply ascending_unique; [apply (combo_ascending k), Hk | apply (combo_ascending k'), Hk'|]. intro a. split; intro Ha.
    - apply (variation_atoms_in combo' m' r' g); auto. apply (variation_atoms combo m r g); assumption.
    - apply (variation_atoms_in combo m r g); auto. apply (variation_atoms combo' m' r' g); assumption. }
  split; [exact E|]. subst combo'. apply (proj1 (NoDup_nth_error combos)); [apply combinations_NoDup, range_NoDup | apply nth_error_Some; congruence | congruence].
Qed.

Lemma variation_shift g h k0 combo0 m0 r0 kj comboj mj rj : nth_error combos k0 = Some combo0 -> nth_error combos kj = Some comboj -> r0 < fact v -> rj < fact v ->
  variation_at f combo0 m0 r0 g -> variation_at f comboj mj rj h ->
  exists t : nat * nat -> nat * nat,
    (forall m r, m < 2 ^ v -> r < fact v -> variation_at f combo0 m r g -> fst (t (m, r)) < 2 ^ v /\ snd (t (m, r)) < fact v /\ variation_at f comboj (fst (t (m, r))) (snd (t (m, r))) h /\
       (m = 0 -> m0 = 0 -> mj = 0 -> fst (t (m, r)) = 0)) /\
    (forall m r m' r', m < 2 ^ v -> m' < 2 ^ v -> r < fact v -> r' < fact v -> t (m, r) = t (m', r') -> (m, r) = (m', r')).
Proof.
  intros Hk0 Hkj Hr0 Hrj [Rg G0] [Rh H0]. assert (P0 := permutes_act r0 v Hr0). assert (Pj := permutes_act rj v Hrj).
  destruct (combos_spec _ _ _ _ Hk0) as (_ & Lc & Nc & _).
  set (s := fun r i => act r (unact r0 v (act rj i))).
  set (M := fun m r p => let p0 := act r0 (unact r v p) in xorb (xorb (Nat.testbit m p) (Nat.testbit m0 p0)) (Nat.testbit mj p0)).
  assert (Hs : forall r, r < fact v -> rank_of (s r) v < fact v /\ forall a, a < v -> act (rank_of (s r) v) a = s r a).
  { intros r Hr. assert (Pr := permutes_act r v Hr). apply rank_of_spec.
    - intros a Ha. apply (permutes_lt _ _ _ Pr), unact_spec; [exact Hr0 | apply (permutes_lt _ _ _ Pj Ha)].
    - intros a b Ha Hb E. unfold s in E. destruct (unact_spec r0 v (act rj a) Hr0 (permutes_lt _ _ _ Pj Ha)) as [A1 A2]. destruct (unact_spec r0 v (act rj b) Hr0 (permutes_lt _ _ _ Pj Hb)) as [B1 B2].
      apply (injective_on _ _ _ _ Pr A1 B1) in E. apply (injective_on _ _ _ _ Pj Ha Hb). rewrite <- A2, <- B2, E. reflexivity. }
  exists (fun mr => (b2n (map (M (fst mr) (snd mr)) (range v)), rank_of (s (snd mr)) v)). split.
  - intros m r Hm Hr [_ G]. cbn [fst snd]. assert (Pr := permutes_act r v Hr). destruct (Hs r Hr) as [Hk Ha]. split; [apply (place_lt (M m r))|]. split; [exact Hk|]. split.
    + split; [exact Rh|]. intros e e' He.
      destruct (combo_assignment (fun i => xorb (e' (nth (act r i) (atomvals f) 0)) (Nat.testbit m (act r i))) combo0 Lc Nc) as (e1 & H1).
      destruct (place_assignment (fun i => xorb (e1 (nth i combo0 0)) (Nat.testbit m0 (act r0 i))) r0 Hr0) as (e0 & H2).
      transitivity (sem f e0); [|transitivity (sem g e1)].
      * apply H0. intros i Hi. change (valency f) with v in Hi. assert (Hp := permutes_lt _ _ _ Pj Hi). destruct (unact_spec r0 v (act rj i) Hr0 Hp) as [U1 U2].
        specialize (H2 _ U1). rewrite U2 in H2. rewrite H2, H1 by exact U1. specialize (He i Hi). rewrite Ha in He by exact Hi. unfold s in He at 1. rewrite He.
        assert (Hsi : s r i < v) by (apply (permutes_lt _ _ _ Pr U1)). rewrite (place_bits (M m r)) by exact Hsi. unfold M. cbn zeta. unfold s. rewrite (unact_act r v _ Hr U1), U2.
        destruct (e (nth i comboj 0)), (Nat.testbit m (act r (unact r0 v (act rj i)))), (Nat.testbit m0 (act rj i)), (Nat.testbit mj (act rj i)); reflexivity.
      * symmetry. apply G0. intros i Hi. apply H2, Hi.
      * apply G. intros i Hi. change (valency f) with v in Hi. rewrite H1 by exact Hi. destruct (e' (nth (act r i) (atomvals f) 0)), (Nat.testbit m (act r i)); reflexivity.
    + intros -> -> ->. apply Nat.bits_inj_0. intro d. destruct (Nat.lt_ge_cases d v) as [Hd|Hd]; [rewrite (place_bits (M 0 r)) by exact Hd; unfold M; rewrite !Nat.bits_0; reflexivity|].
      apply testbit_high. eapply Nat.lt_le_trans; [apply (place_lt (M 0 r))|]. apply Nat.pow_le_mono_r; lia.
  - intros m r m' r' Hm Hm' Hr Hr' E. cbn [fst snd] in E. injection E as Em Er. assert (Pr := permutes_act r v Hr). assert (Pr' := permutes_act r' v Hr').
    assert (E : r = r').
    { apply (act_inj r r' v Hr Hr'). intros x Hx. destruct (Hs r Hr) as [_ E1]. destruct (Hs r' Hr') as [_ E2].
      (* x = unact r0 (act rj i) *)
      set (i := unact rj v (act r0 x)). assert (H0x := permutes_lt _ _ _ P0 Hx). destruct (unact_spec rj v (act r0 x) Hrj H0x) as [I1 I2]. fold i in I1, I2.
      specialize (E1 i I1). specialize (E2 i I1). rewrite Er, E2 in E1. unfold s in E1. rewrite I2, (unact_act r0 v x Hr0 Hx) in E1. symmetry. exact E1. }
    subst r'. f_equal. apply Nat.bits_inj. intro b. destruct (Nat.lt_ge_cases b v) as [Hb|Hb].
    + apply (f_equal (fun x => Nat.testbit x b)) in Em. rewrite !(place_bits (M _ r)) in Em by exact Hb. unfold M in Em. cbn zeta in Em.
      destruct (Nat.testbit m b), (Nat.testbit m' b), (Nat.testbit m0 (act r0 (unact r v b))), (Nat.testbit mj (act r0 (unact r v b))); try reflexivity; discriminate Em.
    + rewrite !testbit_high; [reflexivity | |]; (eapply Nat.lt_le_trans; [eassumption | apply Nat.pow_le_mono_r; lia]).
Qed.

Lemma variation_clan_equal c :
  shows c (znat_range (2 ^ v * fact v * length combos)) (fun x g => exists m r k combo, m < 2 ^ v /\ r < fact v /\ nth_error combos k = Some combo /\
     x = Z.of_nat ((m * fact v + r) * length combos + k) /\ variation_at f combo m r g) -> equal_blocks c (2 ^ v * fact v * length combos).
Proof.
  intro S. assert (F := fact_neq_0 v). set (N := length combos) in *. assert (LN : 0 < N \/ N = 0) by lia. destruct LN as [HN|HN].
  2:{ exfalso. apply length_zero_iff_nil in HN. destruct (perm_combo f n R A (fun a => a)) as (r & k & combo & _ & Hk & _); [intros a Ha; apply adicity_bound in Ha; lia | auto|].
      change (nth_error combos k = Some combo) in Hk. rewrite HN in Hk. destruct k; discriminate Hk. }
  apply (equal_blocks_items c (2 ^ v * fact v * N) (fun mrk : (nat * nat) * nat => Z.of_nat ((fst (fst mrk) * fact v + snd (fst mrk)) * N + snd mrk))
    (fun x => ((Z.to_nat x / N / fact v, (Z.to_nat x / N) mod fact v), Z.to_nat x mod N))
    (fun mrk => fst (fst mrk) < 2 ^ v /\ snd (fst mrk) < fact v /\ snd mrk < N) (fun mrk g => exists combo, nth_error combos (snd mrk) = Some combo /\ variation_at f combo (fst (fst mrk)) (snd (fst mrk)) g)).
  - eapply shows_ext; [|exact S]. intros x g. cbn beta. split.
    + intros (m & r & k & combo & Hm & Hr & Hk & Ex & H). exists ((m, r), k). cbn [fst snd]. split; [|eauto]. split; [exact Hm|]. split; [exact Hr|]. apply nth_error_Some. congruence.
    + intros ([[m r] k] & [Hm [Hr _]] & Ex & combo & Hk & H). exists m, r, k, combo. auto.
  - intros [[m r] k] (Hm & Hr & Hk). cbn [fst snd] in *. assert (B := pair_number_lt _ _ _ _ Hm Hr). assert (B' := pair_number_lt _ _ _ _ B Hk). split; [lia|]. rewrite Nat2Z.id.
    assert (E1 : ((m * fact v + r) * N + k) / N = m * fact v + r) by (symmetry; apply (Nat.div_unique _ _ _ k); lia).
    assert (E2 : ((m * fact v + r) * N + k) mod N = k) by (symmetry; apply (Nat.mod_unique _ _ (m * fact v + r)); lia).
    rewrite E1, E2. f_equal. f_equal; symmetry; [apply (Nat.div_unique _ _ _ r) | apply (Nat.mod_unique _ _ m)]; lia.
  - intros x Hx. cbn [fst snd]. assert (HN' : N <> 0) by lia. assert (D1 : Z.to_nat x / N < 2 ^ v * fact v) by (apply Nat.div_lt_upper_bound; [exact HN' | rewrite Nat.mul_comm; lia]).
    split; [split; [apply Nat.div_lt_upper_bound; [exact F | rewrite Nat.mul_comm; exact D1] | split; apply Nat.mod_upper_bound; assumption]|].
    rewrite (Nat.mul_comm _ (fact v)), <- Nat.div_mod by exact F. rewrite (Nat.mul_comm _ N), <- Nat.div_mod by exact HN'. lia.
  - intros [[m r] k] (_ & Hr & Hk). cbn [fst snd] in *. destruct (nth_error combos k) as [combo|] eqn:Ek; [|apply nth_error_None in Ek; unfold N in Hk; lia].
    destruct (combos_spec _ _ _ _ Ek) as (_ & Lc & Nc & _). destruct (variation_at_exists combo m r Lc Nc Hr) as (g & Hg). eauto.
  - intros [[m r] k] g _ (combo & _ & H). apply H.
  - intros g h [[m0 r0] k0] [[mj rj] kj] (_ & Hr0 & _) (_ & Hrj & Hkj) (combo0 & Ek0 & G0) (comboj & Ekj & H0). cbn [fst snd] in *.
    destruct (variation_shift g h k0 combo0 m0 r0 kj comboj mj rj Ek0 Ekj Hr0 Hrj G0 H0) as (t & T1 & T2). exists (fun mrk => (t (fst mrk), kj)). split.
    + intros [[m r] k] (Hm & Hr & Hk) (combo & Ek & G). cbn [fst snd] in *. destruct (variation_combo k combo k0 combo0 m r m0 r0 g Ek Ek0 Hr Hr0 G G0) as [-> ->].
      destruct (T1 m r Hm Hr G) as (X1 & X2 & X3 & _). split; [auto|]. exists comboj. auto.
    + intros [[m r] k] [[m' r'] k'] (Hm & Hr & _) (Hm' & Hr' & _) (combo & Ek & G) (combo' & Ek' & G') E. cbn [fst snd] in *. injection E as E.
      destruct (variation_combo k combo k' combo' m r m' r' g Ek Ek' Hr Hr' G G') as [_ ->]. f_equal. apply T2; assumption.
Qed.

Lemma variation_faction_equal c :
  shows c (znat_range (fact v * length combos)) (fun x g => exists r k combo, r < fact v /\ nth_error combos k = Some combo /\
     x = Z.of_nat (r * length combos + k) /\ variation_at f combo 0 r g) -> equal_blocks c (fact v * length combos).
Proof.
  intro S. assert (F := fact_neq_0 v). set (N := length combos) in *. assert (LN : 0 < N \/ N = 0) by lia. destruct LN as [HN|HN].
  2:{ exfalso. apply length_zero_iff_nil in HN. destruct (perm_combo f n R A (fun a => a)) as (r & k & combo & _ & Hk & _); [intros a Ha; apply adicity_bound in Ha; lia | auto|].
      change (nth_error combos k = Some combo) in Hk. rewrite HN in Hk. destruct k; discriminate Hk. }
  assert (Z0 : 0 < 2 ^ v) by (apply Nat.neq_0_lt_0, Nat.pow_nonzero; lia).
  apply (equal_blocks_items c (fact v * N) (fun rk : nat * nat => Z.of_nat (fst rk * N + snd rk)) (fun x => (Z.to_nat x / N, Z.to_nat x mod N))
    (fun rk => fst rk < fact v /\ snd rk < N) (fun rk g => exists combo, nth_error combos (snd rk) = Some combo /\ variation_at f combo 0 (fst rk) g)).
  - eapply shows_ext; [|exact S]. intros x g. cbn beta. split.
    + intros (r & k & combo & Hr & Hk & Ex & H). exists (r, k). cbn [fst snd]. split; [|eauto]. split; [exact Hr|]. apply nth_error_Some. congruence.
    + intros ([r k] & [Hr _] & Ex & combo & Hk & H). exists r, k, combo. auto.
  - intros [r k] (Hr & Hk). cbn [fst snd] in *. assert (B := pair_number_lt _ _ _ _ Hr Hk). split; [lia|]. rewrite Nat2Z.id.
    f_equal; symmetry; [apply (Nat.div_unique _ _ _ k) | apply (Nat.mod_unique _ _ r)]; lia.
  - intros x Hx. cbn [fst snd]. assert (HN' : N <> 0) by lia. split; [split; [apply Nat.div_lt_upper_bound; [exact HN' | rewrite Nat.mul_comm; lia] | apply Nat.mod_upper_bound; assumption]|].
    rewrite (Nat.mul_comm _ N), <- Nat.div_mod by exact HN'. lia.
  - intros [r k] (Hr & Hk). cbn [fst snd] in *. destruct (nth_error combos k) as [combo|] eqn:Ek; [|apply nth_error_None in Ek; unfold N in Hk; lia].
    destruct (combos_spec _ _ _ _ Ek) as (_ & Lc & Nc & _). destruct (variation_at_exists combo 0 r Lc Nc Hr) as (g & Hg). eauto.
  - intros [r k] g _ (combo & _ & H). apply H.
  - intros g h [r0 k0] [rj kj] (Hr0 & _) (Hrj & Hkj) (combo0 & Ek0 & G0) (comboj & Ekj & H0). cbn [fst snd] in *.
    destruct (variation_shift g h k0 combo0 0 r0 kj comboj 0 rj Ek0 Ekj Hr0 Hrj G0 H0) as (t & T1 & T2). exists (fun rk => (snd (t (0, fst rk)), kj)). split.
    + intros [r k] (Hr & Hk) (combo & Ek & G). cbn [fst snd] in *. destruct (variation_combo k combo k0 combo0 0 r 0 r0 g Ek Ek0 Hr Hr0 G G0) as [-> ->].
      destruct (T1 0 r Z0 Hr G) as (X1 & X2 & X3 & X4). split; [auto|]. exists comboj. rewrite X4 in X3 by reflexivity. auto.
    + intros [r k] [r' k'] (Hr & _) (Hr' & _) (combo & Ek & G) (combo' & Ek' & G') E. cbn [fst snd] in *. injection E as E.
      destruct (variation_combo k combo k0 combo0 0 r 0 r0 g Ek Ek0 Hr Hr0 G G0) as [-> ->]. destruct (variation_combo k' combo' k0 combo0 0 r' 0 r0 g Ek' Ek0 Hr' Hr0 G' G0) as [-> ->]. f_equal.
      destruct (T1 0 r Z0 Hr G) as (_ & _ & _ & X). destruct (T1 0 r' Z0 Hr' G') as (_ & _ & _ & X'). specialize (X eq_refl eq_refl eq_refl). specialize (X' eq_refl eq_refl eq_refl).
      assert (Q : (0, r) = (0, r')) by (apply T2; auto; destruct (t (0, r)), (t (0, r')); cbn [fst snd] in *; congruence). injection Q as Q. exact Q.
Qed.
End Long.
