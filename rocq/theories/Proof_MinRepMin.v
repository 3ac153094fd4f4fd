(** Proof_MinRepMin: the winning candidates are the smallest members of their classes. *)

From Coq Require Import List Arith ZArith Bool Lia Permutation Sorted Factorial.
From Verif Require Import Model_Base Lib Model_Splits Model_Perm Model_Binary Model_SigPerm Model_Boolf Model_Twin Model_BoolfMore Model_MinRep
  Spec_Bits Spec_Boolf Spec_Twin Spec_MinRep Proof_Binary Proof_Perm Proof_PermMore Proof_Inversions Proof_SigPerm Proof_SigPermOps
  Proof_Helpers Proof_Linear Proof_WalshLinear Proof_Boolf Proof_Deflate Proof_BoolfTable Proof_BoolfApply Proof_BoolfMake Proof_Twin
  Proof_Noble Proof_BoolfMore Proof_Splits Proof_MinRepTwin Proof_MinRepClass Proof_MinRepCoset Proof_MinRep.
Import ListNotations.
Open Scope nat_scope.

(** * Extending an injection to a permutation *)

Definition mask (n : nat) (l : list nat) : nat := b2n (map (fun a => memb a l) (range n)).
Lemma mask_bits n l a : (forall x, In x l -> x < n) -> Nat.testbit (mask n l) a = memb a l.
Proof.
  intro H. destruct (Nat.lt_ge_cases a n) as [Ha|Ha]; [apply (place_bits (fun a => memb a l)); exact Ha|].
  rewrite testbit_high; [|eapply Nat.lt_le_trans; [apply (place_lt (fun a => memb a l))|apply Nat.pow_le_mono_r; lia]].
  symmetry. apply not_true_iff_false. intro E. apply memb_In, H in E. lia.
Qed.
Lemma mask_lt n l : mask n l < 2 ^ n.
Proof. apply (place_lt (fun a => memb a l)). Qed.
Lemma mask_on n l : (forall x, In x l -> x < n) -> NoDup l -> Permutation (int_to_exposet (mask n l)) l.
Proof. intros H Hn. apply NoDup_Permutation; [apply on_NoDup | exact Hn|]. intro x. rewrite on_In, mask_bits, memb_In by exact H. reflexivity. Qed.

Lemma extend_perm n (pi : nat -> nat) L : NoDup L -> (forall a, In a L -> a < n /\ pi a < n) -> (forall a b, In a L -> In b L -> pi a = pi b -> a = b) ->
  exists r, r < fact n /\ forall a, In a L -> act r a = pi a.
Proof.
  intros Hn Hb Hi. set (T := mask n L). set (S := mask n (map pi L)).
  assert (HL : forall x, In x L -> x < n) by (intros x Hx; apply Hb, Hx).
  assert (HL' : forall x, In x (map pi L) -> x < n) by (intros x Hx; apply in_map_iff in Hx as (y & <- & Hy); apply Hb, Hy).
  assert (Hn' : NoDup (map pi L)) by (apply NoDup_map_inj; assumption).
  assert (PT := mask_on n L HL Hn). assert (PS := mask_on n (map pi L) HL' Hn'). fold T in PT. fold S in PS.
  assert (Hw : count_ones T = count_ones S). { rewrite <- !length_on, (Permutation_length PT), (Permutation_length PS), map_length. reflexivity. }
  destruct (coset_step T S n (map pi (int_to_exposet T)) (off n S) (mask_lt n L) (mask_lt n _) Hw) as (p1 & p2 & _ & _ & P & Lp & V & _).
  - eapply Permutation_trans; [apply Permutation_map; exact PT|]. symmetry. exact PS.
  - reflexivity.
  - destruct (act_list p2 n P) as [Hr Ha]. exists (from_factoradic (left_inversion_count p2)). split; [exact Hr|]. intros a Hin. rewrite Ha by (apply HL; exact Hin).
    assert (Hin' : In a (int_to_exposet T)) by (eapply Permutation_in; [symmetry; exact PT | exact Hin]). apply (In_nth _ _ 0) in Hin' as (i & Hl & Ei).
    rewrite <- Ei. rewrite length_on in Hl. rewrite V by exact Hl. apply nth_map0. rewrite length_on. exact Hl.
Qed.

(** a number with given bits at the images of a permutation *)
Lemma bits_at pi n (m : nat -> bool) : permutes pi n -> exists k, k < 2 ^ n /\ forall a, a < n -> Nat.testbit k (pi a) = m a.
Proof.
  intro H. assert (Hin : In (b2n (map m (range n))) (seq 0 (2 ^ n))) by (apply in_seq; split; [lia | apply (place_lt m)]).
  apply (Permutation_in _ (Permutation_sym (pre_perm pi n H))) in Hin. apply in_map_iff in Hin as (k & Ek & Hk). apply in_seq in Hk.
  exists k. split; [lia|]. intros a Ha. rewrite <- (pre_bits pi n k a Ha), Ek. apply (place_bits m). exact Ha.
Qed.

(** * Permutations of the first atoms as permutations of all atoms *)

Definition extended (n : nat) (pi : nat -> nat) (a : nat) : nat := if Nat.ltb a n then pi a else a.
Lemma extended_bijection n pi : permutes pi n -> bijection (extended n pi).
Proof.
  intro H. exists (fun b => if Nat.ltb b n then hd 0 (filter (fun a => Nat.eqb (pi a) b) (range n)) else b).
  assert (G : forall b, b < n -> let a := hd 0 (filter (fun a => Nat.eqb (pi a) b) (range n)) in a < n /\ pi a = b).
  { intros b Hb. destruct (permutes_onto pi n b H Hb) as (a & Ha & E). assert (X : In a (filter (fun a => Nat.eqb (pi a) b) (range n))) by (apply filter_In; split; [apply range_In; exact Ha | apply Nat.eqb_eq; exact E]).
    destruct (filter _ (range n)) as [|x l] eqn:El; [destruct X|]. cbn [hd]. assert (Y : In x (x :: l)) by (left; reflexivity). rewrite <- El in Y.
    apply filter_In in Y as [Y1 Y2]. apply range_In in Y1. apply Nat.eqb_eq in Y2. auto. }
  intro a. unfold extended. destruct (Nat.ltb_spec a n) as [Ha|Ha].
  - assert (Hp := permutes_lt pi n a H Ha). rewrite (proj2 (Nat.ltb_lt _ _) Hp). split.
    + destruct (G (pi a) Hp) as [G1 G2]. apply (injective_on pi n _ _ H G1 Ha G2).
    + destruct (G a Ha) as [G1 G2]. rewrite (proj2 (Nat.ltb_lt _ _) G1). exact G2.
  - rewrite !(proj2 (Nat.ltb_ge _ _) Ha). split; [reflexivity|]. reflexivity.
Qed.
Lemma extended_low n pi a : a < n -> extended n pi a = pi a.
Proof. intro H. unfold extended. rewrite (proj2 (Nat.ltb_lt _ _) H). reflexivity. Qed.

Lemma bijection_inj pi : bijection pi -> forall a b, pi a = pi b -> a = b.
Proof. intros (inv & H) a b E. rewrite <- (proj1 (H a)), E. apply H. Qed.

(** * Winners are smallest *)

Section Minimal.
Context (f : boolf) (R : wellmade f).
Let n := adicity f.

Lemma number_of c g : boundp f c -> belongs f c g -> exists z, (forall e, zhegalkin z e = sem g e) /\ z < 2 ^ 2 ^ n /\ z = b2n (map (colp f c) (range (2 ^ n))).
Proof.
  intros Hc Bc. destruct (belongs_spec f R c g Hc Bc) as (Rg & Ag & _ & Cg). destruct (boolf_zhe_spec g (proj1 Rg)) as (z & _ & Hz & Zg & Sg). exists z.
  split; [exact Sg|]. split.
  - eapply Nat.lt_le_trans; [exact Hz|]. apply Nat.pow_le_mono_r; [lia|]. apply Nat.pow_le_mono_r; [lia | exact Ag].
  - rewrite (Zg n Ag). f_equal. apply map_ext_in. intros k Hk. apply range_In in Hk. apply Cg, Hk.
Qed.

Lemma wins_smallest {I} (inj : I -> nat * nat) (U : I -> Prop) (C : (assignment -> bool) -> Prop) c g :
  (forall c, U c -> boundp f (inj c)) -> wins (2 ^ n) (fun c => colp f (inj c)) U c -> belongs f (inj c) g -> C (sem g) ->
  (forall h y, C h -> (forall e, zhegalkin y e = h e) -> y < 2 ^ 2 ^ n -> exists i g', U i /\ belongs f (inj i) g' /\ forall e, sem g' e = h e) ->
  smallest C (sem g).
Proof.
  intros HU [Uc W] Bc HC Hall. split; [exact HC|]. destruct (number_of (inj c) g (HU c Uc) Bc) as (z & Z1 & Z2 & Z3). exists z. split; [exact Z1|].
  intros h y Ch Hy. destruct (Nat.lt_ge_cases y (2 ^ 2 ^ n)) as [Hlt|]; [|lia]. destruct (Hall h y Ch Hy Hlt) as (i & g' & Ui & Bi & Eh).
  destruct (number_of (inj i) g' (HU i Ui) Bi) as (y' & Y1 & Y2 & Y3).
  assert (Ey : y = y') by (apply zhegalkin_inj; intro e; rewrite Hy, Y1, Eh; reflexivity). rewrite Ey, Z3, Y3.
  destruct (W i Ui) as [Ha|(s & _ & H1 & H2 & H3 & H4)].
  - apply Nat.eq_le_incl. f_equal. apply map_ext_in. intros k Hk. apply range_In in Hk. symmetry. apply Ha; [lia | exact Hk].
  - apply Nat.lt_le_incl. apply tab_lt_b2n. exists s. auto.
Qed.

(** the images of the atoms of [f] in a small member of the class are small *)
Lemma small_images h y pi m : bijection pi -> (forall e, h e = sem f (fun a => xorb (e (pi a)) (m a))) ->
  (forall e, zhegalkin y e = h e) -> y < 2 ^ 2 ^ n -> forall a, essential (sem f) a -> pi a < n.
Proof.
  intros (inv & Hb) Hh Hy Hlt a Ha. destruct (Nat.lt_ge_cases (pi a) n) as [|Hge]; [assumption|]. exfalso.
  destruct Ha as (e & He). apply He.
  set (e' := fun b => xorb (e (inv b)) (m (inv b))).
  assert (X : forall q, sem f (upd e a q) = h (upd e' (pi a) (xorb q (m a)))).
  { intro q. rewrite Hh. apply sem_ext. intros x _. unfold upd. destruct (Nat.eqb_spec x a) as [->|Hx].
    - rewrite Nat.eqb_refl. destruct q, (m a); reflexivity.
    - destruct (Nat.eqb_spec (pi x) (pi a)) as [E|_]; [exfalso; apply Hx; rewrite <- (proj1 (Hb x)), E; apply Hb|].
      unfold e'. rewrite (proj1 (Hb x)). destruct (e x), (m x); reflexivity. }
  rewrite !X, <- !Hy. apply (zhegalkin_ext y n _ _ Hlt). intros b Hbn. rewrite !upd_neq by lia. reflexivity.
Qed.

(** the object without the atoms that are not necessary *)
Lemma necessary_atoms : exists g, reduced g /\ (forall e, sem g e = sem f e) /\ forall a, In a (atomvals g) -> In a (atomvals f) /\ essential (sem f) a.
Proof.
  destruct (Boolf_vec_sorted (root f) (atomvals f)) as (g & _ & Rg & Sg); [apply R | apply R|]. exists g. split; [exact Rg|]. split; [exact Sg|].
  intros a Ha. assert (Ea : essential (sem f) a). { destruct (proj1 (proj2 Rg) a Ha) as (d & Hd). exists d. unfold sem at 1 2. rewrite <- !Sg. exact Hd. }
  split; [apply (essential_in (root f) (atomvals f)), Ea | exact Ea].
Qed.

(** ** Families *)

Lemma family_member m g : m < 2 ^ n -> belongs f (m, 0) g -> family_class (sem f) (sem g).
Proof.
  intros Hm Hg. destruct (belongs_spec f R (m, 0) g (family_bound f m Hm) Hg) as (_ & _ & S & _). exists (Nat.testbit m). intro e. rewrite S. reflexivity.
Qed.

Lemma family_all (h : assignment -> bool) : family_class (sem f) h -> exists m g, m < 2 ^ n /\ belongs f (m, 0) g /\ forall e, sem g e = h e.
Proof.
  intros (q & Hq). set (m := b2n (map q (range n))). assert (Hm : m < 2 ^ n) by apply (place_lt q).
  destruct (obj_spec f R (m, 0) (family_bound f m Hm)) as (s & g & E1 & E2 & _ & _ & Sg & _). exists m, g. split; [exact Hm|]. split; [exists s; auto|].
  intro e. rewrite Sg, Hq. cbn [fst snd]. apply sem_ext. intros a Ha. apply adicity_bound in Ha. rewrite act_0. f_equal. apply (place_bits q). exact Ha.
Qed.

(** ** Factions *)

Lemma faction_member r g : r < fact n -> belongs f (0, r) g -> faction_class (sem f) (sem g).
Proof.
  intros Hr Hg. destruct (belongs_spec f R (0, r) g (faction_bound f r Hr) Hg) as (_ & _ & S & _). exists (extended n (act r)).
  split; [apply extended_bijection, act_perm, Hr|]. intro e. rewrite S. cbn [fst snd]. apply sem_ext. intros a Ha. apply adicity_bound in Ha.
  rewrite extended_low, Nat.bits_0, xorb_false_r by exact Ha. reflexivity.
Qed.

Lemma faction_all (h : assignment -> bool) y : faction_class (sem f) h -> (forall e, zhegalkin y e = h e) -> y < 2 ^ 2 ^ n ->
  exists r g, r < fact n /\ belongs f (0, r) g /\ forall e, sem g e = h e.
Proof.
  intros (pi & Hb & Hh) Hy Hlt. assert (Hsm := small_images h y pi (fun _ => false) Hb ltac:(intro e; rewrite Hh; apply sem_ext; intros; symmetry; apply xorb_false_r) Hy Hlt).
  destruct necessary_atoms as (g0 & R0 & S0 & I0). destruct (extend_perm n pi (atomvals g0)) as (r & Hr & Ha).
  - apply sorted_lt_NoDup, R0.
  - intros a Ha. apply I0 in Ha as [Ha Ea]. split; [apply adicity_bound; exact Ha | apply Hsm, Ea].
  - intros a b _ _. apply bijection_inj, Hb.
  - destruct (obj_spec f R (0, r) (faction_bound f r Hr)) as (s & g & E1 & E2 & _ & _ & Sg & _). exists r, g. split; [exact Hr|]. split; [exists s; auto|].
    intro e. rewrite Sg, Hh. cbn [fst snd]. rewrite <- !S0. apply sem_ext. intros a Hin. rewrite Ha, Nat.bits_0, xorb_false_r by exact Hin. reflexivity.
Qed.

(** ** Clans *)

Lemma clan_member c g : boundp f c -> belongs f c g -> clan_class (sem f) (sem g).
Proof.
  intros Hc Hg. destruct (belongs_spec f R c g Hc Hg) as (_ & _ & S & _). exists (extended n (act (snd c))), (fun a => Nat.testbit (fst c) (act (snd c) a)).
  split; [apply extended_bijection, act_perm, Hc|]. intro e. rewrite S. apply sem_ext. intros a Ha. apply adicity_bound in Ha.
  rewrite extended_low by exact Ha. reflexivity.
Qed.

Lemma clan_all (h : assignment -> bool) y : clan_class (sem f) h -> (forall e, zhegalkin y e = h e) -> y < 2 ^ 2 ^ n ->
  exists c g, boundp f c /\ belongs f c g /\ forall e, sem g e = h e.
Proof.
  intros (pi & m & Hb & Hh) Hy Hlt. assert (Hsm := small_images h y pi m Hb Hh Hy Hlt).
  destruct necessary_atoms as (g0 & R0 & S0 & I0). destruct (extend_perm n pi (atomvals g0)) as (r & Hr & Ha).
  - apply sorted_lt_NoDup, R0.
  - intros a Ha. apply I0 in Ha as [Ha Ea]. split; [apply adicity_bound; exact Ha | apply Hsm, Ea].
  - intros a b _ _. apply bijection_inj, Hb.
  - destruct (bits_at (act r) n m (proj1 (act_perm r n Hr))) as (k & Hk & Bk). assert (B : boundp f (k, r)) by (split; assumption).
    destruct (obj_spec f R (k, r) B) as (s & g & E1 & E2 & _ & _ & Sg & _). exists (k, r), g. split; [exact B|]. split; [exists s; auto|].
    intro e. rewrite Sg, Hh. cbn [fst snd]. rewrite <- !S0. apply sem_ext. intros a Hin. rewrite (Bk a) by (apply adicity_bound, I0; exact Hin). rewrite Ha by exact Hin. reflexivity.
Qed.

(** * The results *)

Lemma constant_smallest (C : (assignment -> bool) -> Prop) : is_constant f = true -> C (sem f) ->
  (forall h, C h -> forall e, exists e', h e = sem f e') -> smallest C (sem f).
Proof.
  intros Hc Hf Hall. split; [exact Hf|]. destruct (boolf_zhe_spec f (proj1 R)) as (z & _ & _ & _ & Z). exists z. split; [exact Z|]. intros h y Ch Hy.
  apply Nat.eq_le_incl, zhegalkin_inj. intro e. rewrite Z, Hy. destruct (Hall h Ch e) as (e' & E). rewrite E. apply constant_fitting_sem; assumption.
Qed.

Lemma identity_bijection : bijection (fun a => a).
Proof. exists (fun a => a). auto. Qed.
Lemma family_refl : family_class (sem f) (sem f).
Proof. exists (fun _ => false). intro e. apply sem_ext. intros. symmetry. apply xorb_false_r. Qed.
Lemma faction_refl : faction_class (sem f) (sem f).
Proof. exists (fun a => a). split; [exact identity_bijection | reflexivity]. Qed.
Lemma clan_refl : clan_class (sem f) (sem f).
Proof. exists (fun a => a), (fun _ => false). split; [exact identity_bijection|]. intro e. apply sem_ext. intros. symmetry. apply xorb_false_r. Qed.

Theorem family_minrep_least oz on : is_constant f = true \/ changing f -> (forall l, Permutation (oz l) l) -> (forall l, StronglySorted lt l -> on l = l) ->
  exists g, family_minrep oz on f = Ok (Some g) /\ reduced g /\ smallest (family_class (sem f)) (sem g).
Proof.
  intros Hv Hoz Hon. destruct Hv as [Hc|Hc].
  - exists f. unfold family_minrep. rewrite Hc. split; [reflexivity|]. split; [apply constant_reduced; assumption|]. apply constant_smallest; [exact Hc | apply family_refl|]. intros h (m & Hh) e. rewrite Hh. eauto.
  - destruct (family_minrep_wins f R oz on Hoz Hon Hc) as (c & g & E & W & B). exists g. split; [exact E|]. assert (Uc := proj1 W).
    split; [apply (belongs_spec f R (c, 0) g (family_bound f c Uc) B)|].
    apply (wins_smallest (fun c => (c, 0)) (in_family f) _ c g (family_bound f) W B (family_member c g Uc B)).
    intros h y Ch _ _. apply family_all, Ch.
Qed.

Theorem faction_minrep_least : is_constant f = true \/ changing f -> exists g, faction_minrep f = Ok (Some g) /\ reduced g /\ smallest (faction_class (sem f)) (sem g).
Proof.
  intros [Hc|Hc].
  - exists f. unfold faction_minrep. rewrite Hc. split; [reflexivity|]. split; [apply constant_reduced; assumption|]. apply constant_smallest; [exact Hc | apply faction_refl|]. intros h (pi & _ & Hh) e. rewrite Hh. eauto.
  - destruct (faction_minrep_wins f R Hc) as (c & g & E & W & B). exists g. split; [exact E|]. assert (Uc := proj1 W).
    split; [apply (belongs_spec f R (0, c) g (faction_bound f c Uc) B)|].
    apply (wins_smallest (fun c => (0, c)) (in_faction f) _ c g (faction_bound f) W B (faction_member c g Uc B)).
    intros h y Ch Hy Hlt. apply (faction_all h y); assumption.
Qed.

Theorem clan_minrep_least oz on : is_constant f = true \/ changing f -> (forall l, Permutation (oz l) l) -> (forall l, StronglySorted lt l -> on l = l) ->
  exists g, clan_minrep oz on f = Ok (Some g) /\ clan_minrep_prototype oz on f = Ok (Some g) /\ reduced g /\ smallest (clan_class (sem f)) (sem g).
Proof.
  intros Hv Hoz Hon. destruct Hv as [Hc|Hc].
  - exists f. unfold clan_minrep, clan_minrep_prototype. rewrite Hc. split; [reflexivity|]. split; [reflexivity|]. split; [apply constant_reduced; assumption|].
    apply constant_smallest; [exact Hc | apply clan_refl|]. intros h (pi & m & _ & Hh) e. rewrite Hh. eauto.
  - destruct (clan_minrep_wins f R oz on Hoz Hon Hc) as (c & g & E & W & B). destruct (clan_prototype_wins f R oz on Hoz Hon Hc) as (c' & g' & E' & W' & B').
    assert (Uc := proj1 W). assert (Uc' := proj1 W').
    assert (g' = g). { apply (belongs_same f R c' c g' g Uc' Uc B' B). intros t Ht. apply (wins_agree _ _ _ _ _ W' W); [lia | exact Ht]. } subst g'.
    exists g. split; [exact E|]. split; [exact E'|]. split; [apply (belongs_spec f R c g Uc B)|].
    apply (wins_smallest (fun c => c) (boundp f) _ c g (fun c h => h) W B (clan_member c g Uc B)).
    intros h y Ch Hy Hlt. apply (clan_all h y); assumption.
Qed.
End Minimal.

Lemma reduced_either f : reduced f -> is_constant f = true \/ changing f.
Proof. intro R. destruct (is_constant f) eqn:C; [left; reflexivity | right; apply reduced_changing; assumption]. Qed.
Theorem family_minrep_smallest f (R : reduced f) oz on : (forall l, Permutation (oz l) l) -> (forall l, StronglySorted lt l -> on l = l) ->
  exists g, family_minrep oz on f = Ok (Some g) /\ reduced g /\ smallest (family_class (sem f)) (sem g).
Proof. apply (family_minrep_least f R), reduced_either, R. Qed.
Theorem faction_minrep_smallest f (R : reduced f) : exists g, faction_minrep f = Ok (Some g) /\ reduced g /\ smallest (faction_class (sem f)) (sem g).
Proof. apply (faction_minrep_least f R), reduced_either, R. Qed.
Theorem clan_minrep_smallest f (R : reduced f) oz on : (forall l, Permutation (oz l) l) -> (forall l, StronglySorted lt l -> on l = l) ->
  exists g, clan_minrep oz on f = Ok (Some g) /\ clan_minrep_prototype oz on f = Ok (Some g) /\ reduced g /\ smallest (clan_class (sem f)) (sem g).
Proof. apply (clan_minrep_least f R), reduced_either, R. Qed.

(** * Members of a class have the same smallest member *)

Lemma smallest_unique (C D : (assignment -> bool) -> Prop) g h : (forall k, C k <-> D k) -> smallest C g -> smallest D h -> forall e, g e = h e.
Proof.
  intros HCD [Cg (z & Z & Zm)] [Dh (y & Y & Ym)] e. rewrite <- Z, <- Y. f_equal. apply Nat.le_antisymm; [apply (Zm h); [apply HCD; exact Dh | exact Y] | apply (Ym g); [apply HCD; exact Cg | exact Z]].
Qed.

Lemma family_same f h : family_class (sem f) (sem h) -> forall k, family_class (sem f) k <-> family_class (sem h) k.
Proof.
  intros (m & H) k. split; intros (q & K).
  - exists (fun a => xorb (q a) (m a)). intro e. rewrite K, H. apply sem_ext. intros a _. destruct (e a), (q a), (m a); reflexivity.
  - exists (fun a => xorb (q a) (m a)). intro e. rewrite K, H. apply sem_ext. intros a _. destruct (e a), (q a), (m a); reflexivity.
Qed.

Lemma faction_same f h : faction_class (sem f) (sem h) -> forall k, faction_class (sem f) k <-> faction_class (sem h) k.
Proof.
  intros (pi & (inv & Hi) & H) k. split; intros (rho & (rinv & Hr) & K).
  - exists (fun a => rho (inv a)). split.
    + exists (fun a => pi (rinv a)). intro a. rewrite (proj1 (Hr (inv a))), (proj1 (Hi (rinv a))). split; [apply Hi | apply Hr].
    + intro e. rewrite K, H. apply sem_ext. intros a _. rewrite (proj1 (Hi a)). reflexivity.
  - exists (fun a => rho (pi a)). split.
    + exists (fun a => inv (rinv a)). intro a. rewrite (proj1 (Hr (pi a))), (proj2 (Hi (rinv a))). split; [apply Hi | apply Hr].
    + intro e. rewrite K, H. reflexivity.
Qed.

Lemma clan_same f h : clan_class (sem f) (sem h) -> forall k, clan_class (sem f) k <-> clan_class (sem h) k.
Proof.
  intros (pi & m & (inv & Hi) & H) k. split; intros (rho & q & (rinv & Hr) & K).
  - exists (fun a => rho (inv a)), (fun a => xorb (q (inv a)) (m (inv a))). split.
    + exists (fun a => pi (rinv a)). intro a. rewrite (proj1 (Hr (inv a))), (proj1 (Hi (rinv a))). split; [apply Hi | apply Hr].
    + intro e. rewrite K, H. apply sem_ext. intros a _. rewrite (proj1 (Hi a)). destruct (e (rho a)), (q a), (m a); reflexivity.
  - exists (fun a => rho (pi a)), (fun a => xorb (q (pi a)) (m a)). split.
    + exists (fun a => inv (rinv a)). intro a. rewrite (proj1 (Hr (pi a))), (proj2 (Hi (rinv a))). split; [apply Hi | apply Hr].
    + intro e. rewrite K, H. apply sem_ext. intros a _. destruct (e (rho (pi a))), (q (pi a)), (m a); reflexivity.
Qed.
