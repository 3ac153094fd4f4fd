(** Props_Ec: properties C70 to C76, equivalence classes as labelled partitions, symmetries. *)

From Coq Require Import List Arith ZArith Bool Lia Permutation Sorted Factorial.
From Verif Require Import Model_Base Lib Model_Splits Model_Perm Model_Binary Model_SigPerm Model_SetPart Model_Boolf Model_BoolfMore Model_MinRep
  Model_Helpers Model_Ec Spec_Bits Spec_Perm Spec_SigPerm Spec_Boolf Spec_Twin Spec_SetPart Spec_MinRep Spec_Helpers Spec_Ec
  Proof_Binary Proof_Perm Proof_PermMore Proof_Inversions Proof_SigPerm Proof_SigPermOps Proof_SigPermMore Proof_Helpers Proof_SetPart Proof_SetPartLabels Proof_SetPartObj
  Proof_Boolf Proof_Deflate Proof_BoolfTable Proof_BoolfApply Proof_BoolfMake Proof_BoolfMore Proof_MinRepTwin Proof_MinRepClass Proof_MinRepCoset Proof_MinRep Proof_MinRepMin Proof_MinRepMale
  Proof_Twin Proof_Listing Proof_Splits Proof_Noble Proof_Seqs Proof_HelpersBits Proof_Blight Proof_Ec Proof_EcClass Proof_EcMembers Proof_EcCount Proof_EcSplinters Proof_EcSymmetry Proof_EcPartitioned Proof_EcMore
  Props_Boolf Props_BoolfMore Props_MinRep.
Import ListNotations.
Open Scope nat_scope.

Lemma made_iff g : made false g <-> reduced g.
Proof. split; [apply m_red | apply reduced_made]. Qed.
Lemma within_iff g n : within n g <-> adicity g <= n.
Proof. split; [intro H; apply adicity_least; exact H | intros H a Ha; apply adicity_bound in Ha; lia]. Qed.
Lemma atoms_at_bits_eq f i a : NoDup (atomvals f) -> atoms_at_bits (atomvals f) i a = memb a (neg_atoms f i).
Proof.
  intro Hn. apply bool_iff. unfold atoms_at_bits. rewrite existsb_exists, memb_In. unfold neg_atoms. rewrite in_map_iff. split.
  - intros (k & Hk & H). apply andb_true_iff in H as [H1 H2]. apply Nat.eqb_eq in H2. exists k. split; [exact H2|]. apply filter_In. split; [exact Hk | exact H1].
  - intros (k & E & H). apply filter_In in H as [H1 H2]. exists k. split; [exact H1|]. rewrite H2, E, Nat.eqb_refl. reflexivity.
Qed.
Lemma shares_iff c N : equal_blocks c N -> equal_shares c N.
Proof. exact (fun H => H). Qed.

(** * C70: families *)

(** The element [i] has the function where the atoms at the places of the bits of [i] are negated. *)
Theorem C70_family : forall {b} f, made b f -> within 10 f -> exists c, ec_family f = Ok c /\ ec_glove c = None /\
  shows c (map Z.of_nat (seq 0 (2 ^ valency f))) (fun x g => exists i, i < 2 ^ valency f /\ x = Z.of_nat i /\ made false g /\ forall e, sem g e = sem f (fun a => xorb (e a) (atoms_at_bits (atomvals f) i a))).
Proof.
  intros b f Hf A. assert (R := proj1 (made_wellmade _ f Hf)). apply within_iff in A. assert (Nf : NoDup (atomvals f)) by apply fitting_NoDup, R. change (map Z.of_nat (seq 0 (2 ^ valency f))) with (znat_range (2 ^ valency f)). destruct (is_constant f) eqn:C.
  - assert (Rc := constant_reduced f R C). apply reduced_made in Rc as Hc. unfold ec_family. rewrite C. destruct (constant_ec_spec f Rc) as (c & E & Gl & S). exists c. split; [exact E|]. split; [exact Gl|]. assert (V := no_valency f Rc C). rewrite V. change (znat_range (2 ^ 0)) with [0%Z]. revert S. apply shows_ext.
    intros x g. split.
    + intros (-> & ->). exists 0. split; [cbn; lia|]. split; [reflexivity|]. split; [exact Hc|]. intro e. apply (constant_fitting_sem f R C).
    + intros (i & Hi & -> & Hg & H). cbn [Nat.pow] in Hi. assert (i = 0) by lia. subst i. split; [reflexivity|]. apply reduced_unique; [apply m_red, Hg | exact Rc|]. intro e. rewrite H. apply (constant_fitting_sem f R C).
  - destruct (ec_family_spec f R C A) as (c & E & Gl & S). exists c. split; [exact E|]. split; [exact Gl|]. revert S. apply shows_ext. intros x g. split; intros (i & Hi & Ex & H1 & H2); exists i; (split; [exact Hi|]); (split; [exact Ex|]); (split; [apply made_iff; exact H1|]); intro e; rewrite H2; apply sem_ext_all; intro a; rewrite (atoms_at_bits_eq f i a Nf); reflexivity.
Qed.
Print Assumptions C70_family.

(** The labels are the functions of the family, each one once. *)
Theorem C70_members : forall {b} f, made b f -> within 10 f -> exists c, ec_family f = Ok c /\ NoDup (ec_members c) /\ forall g, In g (ec_members c) <-> made false g /\ family_class (sem f) (sem g).
Proof.
  intros b f Hf A. destruct (family_any f (proj1 (made_wellmade _ f Hf))) as (c & E & N & H); [apply within_iff, A|]. exists c. split; [exact E|]. split; [exact N|]. intro g. rewrite H, made_iff. reflexivity.
Qed.
Print Assumptions C70_members.

(** Their blocks have the same size. *)
Theorem C70_shares : forall {b} f c, made b f -> ec_family f = Ok c -> equal_shares c (2 ^ valency f).
Proof.
  intros b f c Hf E. assert (R := proj1 (made_wellmade _ f Hf)). destruct (is_constant f) eqn:C.
  - assert (Rc := constant_reduced f R C). assert (V := no_valency f Rc C). rewrite V. unfold ec_family in E. rewrite C in E. destruct (constant_ec_spec f Rc) as (c' & E' & _ & S). rewrite E in E'. injection E' as <-.
    assert (M : ec_members c = [f]).
    { assert (N := shows_once _ _ _ S). assert (I := shows_members _ _ _ S). destruct (ec_members c) as [|g l]; [exfalso; apply (proj2 (I f)); exists 0%Z; auto|].
      assert (Eg : g = f) by (destruct (proj1 (I g) (or_introl eq_refl)) as (x & _ & Eg); exact Eg). subst g. f_equal. destruct l as [|h l]; [reflexivity|]. exfalso. destruct (proj1 (I h) (or_intror (or_introl eq_refl))) as (x & _ & ->). inversion N as [|? ? H _]. apply H. left. reflexivity. }
    exists 1. rewrite M. split; [reflexivity|]. intros g [<-|[]]. exists [0%Z]. split; [|reflexivity]. apply (shows_block _ _ _ S f [0%Z] Rc). split; [discriminate|]. split; [repeat constructor|]. intro x. cbn [In]. split; [intros [<-|[]]; auto | intros (-> & _); auto].
  - assert (A : adicity f <= 10). { unfold ec_family in E. rewrite C in E. destruct (Nat.leb_spec (adicity f) 10); [assumption | discriminate E]. }
    destruct (ec_family_spec f R C A) as (c' & E' & _ & S). rewrite E in E'. injection E' as <-. apply shares_iff, (family_equal_blocks f c R C S).
Qed.
Print Assumptions C70_shares.

Theorem C70_infeasible : forall {b} f, made b f -> ~ within 10 f -> ec_family f = Err ArgNotFeasibleError.
Proof.
  intros b f Hf A. rewrite within_iff in A. unfold ec_family. destruct (is_constant f) eqn:C.
  - exfalso. apply A. unfold adicity. apply (proj2 (proj2 (proj1 (made_wellmade _ f Hf)))) in C. rewrite C. lia.
  - rewrite (proj2 (Nat.leb_gt _ _)) by lia. reflexivity.
Qed.
Print Assumptions C70_infeasible.

(** ** Examples *)

(* x0 AND x2, as a function with a gap *)
Definition ex_and : boolf := mkBoolf [false; false; false; true] [0; 2] false false.
Lemma ex_and_made : made false ex_and.
Proof.
  destruct (Boolf_vec_sorted [false; false; false; true] [0; 2]) as [f [E [R _]]]; [repeat constructor | reflexivity|].
  vm_compute in E. injection E as <-. apply reduced_made, R.
Qed.
(* x1 *)
Definition ex_atom : boolf := mkBoolf [false; true] [1] false false.
Lemma ex_atom_made : made false ex_atom.
Proof.
  destruct (Boolf_vec_sorted [false; true] [1]) as [f [E [R _]]]; [repeat constructor | reflexivity|].
  vm_compute in E. injection E as <-. apply reduced_made, R.
Qed.
(* x0 AND (x1 XOR x2), a root function *)
Definition ex_root : boolf := mkBoolf [false; false; false; true; false; true; false; false] [0; 1; 2] false false.
Lemma ex_root_made : made false ex_root.
Proof.
  destruct (Boolf_vec_sorted [false; false; false; true; false; true; false; false] [0; 1; 2]) as [f [E [R _]]]; [repeat constructor | reflexivity|].
  vm_compute in E. injection E as <-. apply reduced_made, R.
Qed.
Lemma ex_within n f : forallb (fun a => a <? n) (atomvals f) = true -> within n f.
Proof. intros H a Ha. rewrite forallb_forall in H. apply Nat.ltb_lt, H, Ha. Qed.

Example C70_example : made false ex_and /\ within 10 ex_and /\ is_constant ex_and = false /\
  exists c, ec_family ex_and = Ok c /\ map root (ec_members c) = [[false; false; false; true]; [false; false; true; false]; [false; true; false; false]; [true; false; false; false]] /\
    ec_label c 1%Z = Some (mkBoolf [false; false; true; false] [0; 2] false false).
Proof.
  split; [exact ex_and_made|]. split; [apply ex_within; reflexivity|]. split; [reflexivity|]. eexists. split; [vm_compute; reflexivity|]. split; vm_compute; reflexivity.
Qed.
Lemma ex_far : made false (mkBoolf [false; true] [11] false false) /\ ~ within 10 (mkBoolf [false; true] [11] false false).
Proof.
  split; [|intro H; specialize (H 11 (or_introl eq_refl)); lia]. destruct (Boolf_vec_sorted [false; true] [11]) as [f [E [R _]]]; [repeat constructor | reflexivity|].
  vm_compute in E. injection E as <-. apply reduced_made, R.
Qed.

(** * C71: factions *)

(** With one number for each permutation of the first [n] atoms: the element [r] has the function
    where the atoms are replaced by those of the permutation with the number [r]. *)
Theorem C71_faction : forall {b} f o sup n, made b f -> is_constant f = false -> within 5 f -> n = match o with None => adicity f | Some k => k end -> within n f -> (n = valency f \/ sup = true) ->
  exists c, ec_faction f o sup = Ok c /\ ec_glove c = None /\
    shows c (map Z.of_nat (seq 0 (fact n))) (fun x g => exists r p, nth_error (Model_Perm.rev_colex_perms n) r = Some p /\ x = Z.of_nat r /\ made false g /\ forall e, sem g e = sem f (fun a => e (nth a p a))).
Proof.
  intros b f o sup n Hf C A Hn W Hs. assert (R := proj1 (made_wellmade _ f Hf)). apply within_iff in A, W. destruct (ec_faction_short f o sup n R C A) as (c & E & Gl & S); [destruct o; auto | exact W | exact Hs|].
  exists c. split; [exact E|]. split; [exact Gl|]. revert S. apply shows_ext. intros x g.
  assert (X : forall r p, nth_error (Model_Perm.rev_colex_perms n) r = Some p -> forall e, sem f (fun a => e (act r a)) = sem f (fun a => e (nth a p a))).
  { intros r p H e. destruct (colex_list n r p H) as (_ & _ & Lp & Hp). apply sem_ext. intros a Ha. apply adicity_bound in Ha. rewrite (nth_indep p a 0) by lia. rewrite Hp by lia. reflexivity. }
  split.
  - intros (r & Hr & Ex & Rg & H). destruct (nth_error (Model_Perm.rev_colex_perms n) r) as [p|] eqn:Ep; [|apply nth_error_None in Ep; rewrite rev_colex_length in Ep; lia]. exists r, p. split; [exact Ep|]. split; [exact Ex|]. split; [apply made_iff, Rg|]. intro e. rewrite H. apply X, Ep.
  - intros (r & p & Ep & Ex & Mg & H). exists r. destruct (colex_list n r p Ep) as (Hr & _). split; [exact Hr|]. split; [exact Ex|]. split; [apply m_red, Mg|]. intro e. rewrite H. symmetry. apply X, Ep.
Qed.
Print Assumptions C71_faction.

(** With one number for each variation: the element [r * N + k] has the function where the atoms of
    the function, in the order of the permutation [r], are replaced by those of the combination [k]. *)
Theorem C71_abbreviated : forall {b} f n, made b f -> is_constant f = false -> within 5 f -> within n f -> n <> valency f ->
  let combos := combinations (seq 0 n) (valency f) in
  exists c, ec_faction f (Some n) false = Ok c /\ ec_glove c = Some combos /\
    shows c (map Z.of_nat (seq 0 (fact (valency f) * length combos)))
      (fun x g => exists r p k combo, nth_error (Model_Perm.rev_colex_perms (valency f)) r = Some p /\ nth_error combos k = Some combo /\ x = Z.of_nat (r * length combos + k) /\ made false g /\
                    forall e e', (forall i, i < valency f -> e' (nth (nth i p 0) (atomvals f) 0) = e (nth i combo 0)) -> sem g e = sem f e').
Proof.
  intros b f n Hf C A W Hs. assert (R := proj1 (made_wellmade _ f Hf)). apply within_iff in A, W. cbn zeta. destruct (ec_faction_long f n R C A W Hs) as (c & E & Gl & S).
  exists c. split; [exact E|]. split; [exact Gl|]. revert S. apply shows_ext. intros x g. split.
  - intros (r & k & combo & Hr & Hk & Ex & Rg & H). destruct (nth_error (Model_Perm.rev_colex_perms (valency f)) r) as [p|] eqn:Ep; [|apply nth_error_None in Ep; rewrite rev_colex_length in Ep; lia].
    exists r, p, k, combo. split; [exact Ep|]. split; [exact Hk|]. split; [exact Ex|]. split; [apply made_iff, Rg|]. intros e e' He. apply H. intros i Hi. destruct (colex_list _ r p Ep) as (_ & _ & _ & Hp). rewrite <- Hp by exact Hi. rewrite Nat.bits_0, xorb_false_r. apply He, Hi.
  - intros (r & p & k & combo & Ep & Hk & Ex & Mg & H). destruct (colex_list _ r p Ep) as (Hr & _ & _ & Hp). exists r, k, combo. split; [exact Hr|]. split; [exact Hk|]. split; [exact Ex|]. split; [apply m_red, Mg|]. intros e e' He. apply H. intros i Hi.
    rewrite Hp by exact Hi. rewrite He by exact Hi. rewrite Nat.bits_0, xorb_false_r. reflexivity.
Qed.
Print Assumptions C71_abbreviated.

(** In all cases the labels are the functions of the faction with atoms below [n], each one once. *)
Theorem C71_members : forall {b} f o sup n, made b f -> within 5 f -> n = match o with None => adicity f | Some k => k end -> within n f ->
  exists c, ec_faction f o sup = Ok c /\ NoDup (ec_members c) /\ forall g, In g (ec_members c) <-> made false g /\ within n g /\ faction_class (sem f) (sem g).
Proof.
  intros b f o sup n Hf A Hn W. assert (R := proj1 (made_wellmade _ f Hf)). apply within_iff in A, W. assert (Ho : match o with None => n = adicity f | Some k => n = k end) by (destruct o; exact Hn).
  assert (X : exists c, ec_faction f o sup = Ok c /\ NoDup (ec_members c) /\ forall g, In g (ec_members c) <-> reduced g /\ adicity g <= n /\ faction_class (sem f) (sem g)).
  { destruct sup; [|apply (faction_any f o n R); assumption]. destruct (is_constant f) eqn:C.
    - assert (Rc := constant_reduced f R C). unfold ec_faction. rewrite C. cbn [andb]. set (k := match o with None => 0 | Some n => n end). assert (Y : exists N c, 0 < N /\ (if 0 <? k then label_one_block (znat_range (fact k)) f else label_one_block [0%Z] f) = Ok c /\ shows c (znat_range N) (fun x g => (0 <= x < Z.of_nat N)%Z /\ g = f)).
      { destruct (0 <? k); [exists (fact k); destruct (one_block_spec (fact k) f) as (c & E & _ & S); [apply lt_O_fact | exact Rc|] | exists 1; change [0%Z] with (znat_range 1); destruct (one_block_spec 1 f) as (c & E & _ & S); [lia | exact Rc|]]; exists c; (split; [first [apply lt_O_fact | lia]|]); split; [exact E | exact S | exact E | exact S]. }
      destruct Y as (N & c & HN & E & S). exists c. split; [exact E|]. split; [apply (shows_once _ _ _ S)|]. intro g. rewrite (shows_members _ _ _ S). split.
      + intros (x & _ & ->). split; [exact Rc|]. split; [exact W | apply faction_refl].
      + intros (Rg & _ & H). exists 0%Z. split; [lia | apply (constant_class f g Rc C Rg); apply faction_clan, H].
    - destruct (ec_faction_short f o true n R C A Ho W (or_intror eq_refl)) as (c & E & _ & S). exists c. split; [exact E|]. split; [apply (shows_once _ _ _ S)|]. intro g. rewrite (shows_members _ _ _ S), <- (faction_members f g n R W).
      split; [intros (x & r & Hr & _ & H); eauto | intros (r & Hr & H); eexists _, r; eauto]. }
  destruct X as (c & E & N & H). exists c. split; [exact E|]. split; [exact N|]. intro g. rewrite H, made_iff, within_iff. reflexivity.
Qed.
Print Assumptions C71_members.

(** Their blocks have the same size. *)
Theorem C71_shares : forall f o sup n c, made false f -> is_constant f = false -> within n f -> n = match o with None => adicity f | Some k => k end -> ec_faction f o sup = Ok c ->
  equal_shares c (if Nat.eqb n (valency f) || sup then fact n else fact (valency f) * length (combinations (seq 0 n) (valency f))).
Proof.
  intros f o sup n c Hf C W Hn E. apply m_red in Hf as R. apply within_iff in W. assert (A : adicity f <= 5). { unfold ec_faction in E. rewrite C in E. destruct (Nat.leb_spec (adicity f) 5); [assumption | discriminate E]. }
  destruct (Nat.eqb n (valency f) || sup) eqn:Es.
  - apply orb_true_iff in Es. rewrite Nat.eqb_eq in Es. destruct (ec_faction_short f o sup n R C A) as (c' & E' & _ & S); [destruct o; exact Hn | exact W | exact Es|]. rewrite E in E'. injection E' as <-. apply shares_iff, (faction_equal_blocks f n R W c S).
  - apply orb_false_iff in Es as [Es ->]. apply Nat.eqb_neq in Es. destruct (ec_faction_long f n R C A W Es) as (c' & E' & _ & S).
    assert (Eo : ec_faction f (Some n) false = ec_faction f o false). { unfold ec_faction, ec_arity. rewrite C. destruct o as [k|]; [subst; reflexivity|]. subst n. rewrite Nat.leb_refl. reflexivity. }
    rewrite Eo, E in E'. injection E' as <-. apply shares_iff, (variation_faction_equal f n R C W c S).
Qed.
Print Assumptions C71_shares.

Theorem C71_errors : forall {b} f o sup n, made b f -> is_constant f = false ->
  (~ within 5 f -> ec_faction f o sup = Err ArgNotFeasibleError) /\ (within 5 f -> ~ within n f -> ec_faction f (Some n) sup = Err ArgTooSmallError).
Proof.
  intros b f o sup n Hf C. rewrite !within_iff. unfold ec_faction. rewrite C. split.
  - intro A. rewrite (proj2 (Nat.leb_gt _ _)) by lia. reflexivity.
  - intros A W. rewrite (proj2 (Nat.leb_le _ _) A). cbn [true_except bind ec_arity]. rewrite (proj2 (Nat.leb_gt _ _)) by lia. reflexivity.
Qed.
Print Assumptions C71_errors.

(* with arity 3: the six permutations (each function twice), and the three combinations in both orders *)
Example C71_example : made false ex_and /\ within 5 ex_and /\ within 3 ex_and /\ valency ex_and <> 3 /\
  (exists c, ec_faction ex_and (Some 3) true = Ok c /\ sp_blocks (ec_part c) = [[0; 5]; [1; 3]; [2; 4]]%Z /\ map atomvals (ec_members c) = [[1; 2]; [0; 1]; [0; 2]]) /\
  (exists c, ec_faction ex_and (Some 3) false = Ok c /\ sp_blocks (ec_part c) = [[0; 3]; [1; 4]; [2; 5]]%Z /\ map atomvals (ec_members c) = [[0; 1]; [0; 2]; [1; 2]]).
Proof.
  split; [exact ex_and_made|]. split; [apply ex_within; reflexivity|]. split; [apply ex_within; reflexivity|]. split; [discriminate|].
  split; (eexists; split; [vm_compute; reflexivity|]; split; vm_compute; reflexivity).
Qed.

(** * C72: clans *)

Theorem C72_clan : forall {b} depth f o sup n, made b f -> is_constant f = false -> within 5 f -> n = match o with None => adicity f | Some k => k end -> within n f -> (n = valency f \/ sup = true) ->
  exists c, ec_clan (S depth) f o sup = Ok c /\ ec_glove c = None /\
    shows c (map Z.of_nat (seq 0 (2 ^ n * fact n))) (fun x g => exists m r p, m < 2 ^ n /\ nth_error (Model_Perm.rev_colex_perms n) r = Some p /\ x = Z.of_nat (m * fact n + r) /\
      made false g /\ forall e, sem g e = sem f (fun a => xorb (e (nth a p a)) (Nat.testbit m (nth a p a)))).
Proof.
  intros b depth f o sup n Hf C A Hn W Hs. assert (R := proj1 (made_wellmade _ f Hf)). apply within_iff in A, W. destruct (ec_clan_redundant depth f o sup n R C A) as (c & E & Gl & S); [destruct o; auto | exact W | exact Hs|].
  exists c. split; [exact E|]. split; [exact Gl|]. revert S. apply shows_ext. intros x g.
  assert (X : forall m r p, nth_error (Model_Perm.rev_colex_perms n) r = Some p -> forall e, sem f (fun a => xorb (e (act r a)) (Nat.testbit m (act r a))) = sem f (fun a => xorb (e (nth a p a)) (Nat.testbit m (nth a p a)))).
  { intros m r p H e. destruct (colex_list n r p H) as (_ & _ & Lp & Hp). apply sem_ext. intros a Ha. apply adicity_bound in Ha. rewrite (nth_indep p a 0) by lia. rewrite Hp by lia. reflexivity. }
  split.
  - intros (m & r & Hm & Hr & Ex & Rg & H). destruct (nth_error (Model_Perm.rev_colex_perms n) r) as [p|] eqn:Ep; [|apply nth_error_None in Ep; rewrite rev_colex_length in Ep; lia]. exists m, r, p. split; [exact Hm|]. split; [exact Ep|]. split; [exact Ex|]. split; [apply made_iff, Rg|]. intro e. rewrite H. apply X, Ep.
  - intros (m & r & p & Hm & Ep & Ex & Mg & H). exists m, r. destruct (colex_list n r p Ep) as (Hr & _). split; [exact Hm|]. split; [exact Hr|]. split; [exact Ex|]. split; [apply m_red, Mg|]. intro e. rewrite H. symmetry. apply X, Ep.
Qed.
Print Assumptions C72_clan.

Theorem C72_abbreviated : forall {b} depth f n, made b f -> is_constant f = false -> within 5 f -> within n f -> n <> valency f ->
  let combos := combinations (seq 0 n) (valency f) in
  exists c, ec_clan (S depth) f (Some n) false = Ok c /\ ec_glove c = Some combos /\
    shows c (map Z.of_nat (seq 0 (2 ^ valency f * fact (valency f) * length combos)))
      (fun x g => exists m r p k combo, m < 2 ^ valency f /\ nth_error (Model_Perm.rev_colex_perms (valency f)) r = Some p /\ nth_error combos k = Some combo /\
                    x = Z.of_nat ((m * fact (valency f) + r) * length combos + k) /\ made false g /\
                    forall e e', (forall i, i < valency f -> e' (nth (nth i p 0) (atomvals f) 0) = xorb (e (nth i combo 0)) (Nat.testbit m (nth i p 0))) -> sem g e = sem f e').
Proof.
  intros b depth f n Hf C A W Hs. assert (R := proj1 (made_wellmade _ f Hf)). apply within_iff in A, W. cbn zeta. destruct (ec_clan_abbreviated depth f n R C A W Hs) as (c & E & Gl & S).
  exists c. split; [exact E|]. split; [exact Gl|]. revert S. apply shows_ext. intros x g. split.
  - intros (m & r & k & combo & Hm & Hr & Hk & Ex & Rg & H). destruct (nth_error (Model_Perm.rev_colex_perms (valency f)) r) as [p|] eqn:Ep; [|apply nth_error_None in Ep; rewrite rev_colex_length in Ep; lia].
    exists m, r, p, k, combo. split; [exact Hm|]. split; [exact Ep|]. split; [exact Hk|]. split; [exact Ex|]. split; [apply made_iff, Rg|]. intros e e' He. apply H. intros i Hi. destruct (colex_list _ r p Ep) as (_ & _ & _ & Hp). rewrite <- Hp by exact Hi. apply He, Hi.
  - intros (m & r & p & k & combo & Hm & Ep & Hk & Ex & Mg & H). destruct (colex_list _ r p Ep) as (Hr & _ & _ & Hp). exists m, r, k, combo. split; [exact Hm|]. split; [exact Hr|]. split; [exact Hk|]. split; [exact Ex|]. split; [apply m_red, Mg|]. intros e e' He. apply H. intros i Hi.
    rewrite Hp by exact Hi. apply He, Hi.
Qed.
Print Assumptions C72_abbreviated.

Theorem C72_members : forall {b} depth f o sup n, made b f -> within 5 f -> n = match o with None => adicity f | Some k => k end -> within n f -> (is_constant f = false \/ sup = false) ->
  exists c, ec_clan (S depth) f o sup = Ok c /\ NoDup (ec_members c) /\ forall g, In g (ec_members c) <-> made false g /\ within n g /\ clan_class (sem f) (sem g).
Proof.
  intros b depth f o sup n Hf A Hn W Hs. assert (R := proj1 (made_wellmade _ f Hf)). apply within_iff in A, W. assert (Ho : match o with None => n = adicity f | Some k => n = k end) by (destruct o; exact Hn).
  assert (X : exists c, ec_clan (S depth) f o sup = Ok c /\ NoDup (ec_members c) /\ forall g, In g (ec_members c) <-> reduced g /\ adicity g <= n /\ clan_class (sem f) (sem g)).
  { destruct sup; [|apply (clan_any depth f o n R); assumption]. destruct Hs as [C|C]; [|discriminate C].
    destruct (ec_clan_redundant depth f o true n R C A Ho W (or_intror eq_refl)) as (c & E & _ & S). exists c. split; [exact E|]. split; [apply (shows_once _ _ _ S)|]. intro g. rewrite (shows_members _ _ _ S), <- (clan_members f g n R W).
    split; [intros (x & m & r & Hm & Hr & _ & H); eauto | intros (m & r & Hm & Hr & H); eexists _, m, r; eauto]. }
  destruct X as (c & E & N & H). exists c. split; [exact E|]. split; [exact N|]. intro g. rewrite H, made_iff, within_iff. reflexivity.
Qed.
Print Assumptions C72_members.

Theorem C72_shares : forall depth f o sup n c, made false f -> is_constant f = false -> within n f -> n = match o with None => adicity f | Some k => k end -> ec_clan depth f o sup = Ok c ->
  equal_shares c (if Nat.eqb n (valency f) || sup then 2 ^ n * fact n else 2 ^ valency f * fact (valency f) * length (combinations (seq 0 n) (valency f))).
Proof.
  intros depth f o sup n c Hf C W Hn E. apply m_red in Hf as R. apply within_iff in W. destruct depth as [|depth]; [discriminate E|].
  assert (A : adicity f <= 5). { cbn [ec_clan] in E. rewrite C in E. unfold ec_clan_variable in E. destruct (Nat.leb_spec (adicity f) 5); [assumption | discriminate E]. }
  destruct (Nat.eqb n (valency f) || sup) eqn:Es.
  - apply orb_true_iff in Es. rewrite Nat.eqb_eq in Es. destruct (ec_clan_redundant depth f o sup n R C A) as (c' & E' & _ & S); [destruct o; exact Hn | exact W | exact Es|]. rewrite E in E'. injection E' as <-. apply shares_iff, (clan_equal_blocks f n R W c S).
  - apply orb_false_iff in Es as [Es ->]. apply Nat.eqb_neq in Es. destruct (ec_clan_abbreviated depth f n R C A W Es) as (c' & E' & _ & Sh).
    assert (Eo : ec_clan (S depth) f (Some n) false = ec_clan (S depth) f o false). { cbn [ec_clan]. rewrite C. unfold ec_clan_variable, ec_arity. destruct o as [k|]; [subst; reflexivity|]. subst n. rewrite Nat.leb_refl. reflexivity. }
    rewrite Eo, E in E'. injection E' as <-. apply shares_iff, (variation_clan_equal f n R C W c Sh).
Qed.
Print Assumptions C72_shares.

Theorem C72_errors : forall {b} depth f o sup n, made b f -> is_constant f = false ->
  (~ within 5 f -> ec_clan (S depth) f o sup = Err ArgNotFeasibleError) /\ (within 5 f -> ~ within n f -> ec_clan (S depth) f (Some n) sup = Err ArgTooSmallError).
Proof.
  intros b depth f o sup n Hf C. rewrite !within_iff. cbn [ec_clan]. rewrite C. unfold ec_clan_variable. split.
  - intro A. rewrite (proj2 (Nat.leb_gt _ _)) by lia. reflexivity.
  - intros A W. rewrite (proj2 (Nat.leb_le _ _) A). cbn [true_except bind ec_arity]. rewrite (proj2 (Nat.leb_gt _ _)) by lia. reflexivity.
Qed.
Print Assumptions C72_errors.

(** Finding: with suppress_abbreviation the constant functions are replaced by inflated ones.  For
    the contradiction this is the contradiction again, and so the calls never end; the same for the
    tautology with no atoms.  Without an arity it is a TypeError. *)
Theorem C72_never_ends : forall depth n b, (b = false \/ n = 0) -> ec_clan depth (set_constant b) (Some n) true = Err RuntimeErr.
Proof.
  induction depth as [|depth IH]; intros n b H; [reflexivity|]. cbn [ec_clan]. change (is_constant (set_constant b)) with true. cbn [negb]. destruct b.
  - destruct H as [H | ->]; [discriminate H|]. cbn. apply (IH 0 true). auto.
  - cbn [set_constant root nth]. unfold subinit_fs. cbn [have xorb true_except bind]. apply IH. auto.
Qed.
Print Assumptions C72_never_ends.
Lemma C72_no_arity depth b : ec_clan (S depth) (set_constant b) None true = Err TypeErr.
Proof. reflexivity. Qed.

Example C72_example : made false ex_atom /\ within 5 ex_atom /\ within 2 ex_atom /\ valency ex_atom <> 2 /\
  (exists c, ec_clan 1 ex_atom None true = Ok c /\ sp_blocks (ec_part c) = [[0; 2]; [1; 5]; [3; 7]; [4; 6]]%Z /\ length (ec_members c) = 4) /\
  (exists c, ec_clan 1 ex_atom (Some 2) false = Ok c /\ sp_blocks (ec_part c) = [] /\ length (ec_members c) = 4 /\ ec_glove c = Some [[0]; [1]]).
Proof.
  split; [exact ex_atom_made|]. split; [apply ex_within; reflexivity|]. split; [apply ex_within; reflexivity|]. split; [discriminate|].
  split; (eexists; split; [vm_compute; reflexivity|]; repeat split; vm_compute; reflexivity).
Qed.
(* the other constant functions do work *)
Example C72_tautology : exists c, ec_clan 2 (set_constant true) (Some 2) true = Ok c /\ length (ec_members c) = 1.
Proof. eexists. split; vm_compute; reflexivity. Qed.

(** * C73: splinters of a family, factions of a clan *)

(** The functions of the family are divided into those that differ by a permutation.  The order of
    the splinters is that of the representatives of their factions. *)
Theorem C73_splinters : forall {i} f, made i f -> within 10 f -> exists d reps, ec_family_splinters f = Ok d /\ groups faction_class (family_class (sem f)) d /\
  StronglySorted lt reps /\ Forall2 (fun m kl => smallest (faction_class (zhegalkin (fst kl))) (zhegalkin m)) reps d.
Proof.
  intros i f Hf A. apply made_wellmade in Hf as [R _]. apply within_iff in A. destruct (family_any f R A) as (c & E & N & H). exact (family_splinters_of f c R E N H).
Qed.
Print Assumptions C73_splinters.

(** The functions of the clan with atoms below [n] are divided into factions.  The keys ascend, and
    each one is the smallest number of its faction (so the assertion in the loop never fails). *)
Theorem C73_factions : forall {i} depth f o n, made i f -> within 5 f -> n = match o with None => adicity f | Some k => k end -> within n f ->
  exists d, ec_clan_factions (S depth) f o = Ok d /\ groups faction_class (fun F => clan_class (sem f) F /\ local n F) d /\ StronglySorted lt (map fst d) /\
    forall k, In k (map fst d) -> smallest (faction_class (zhegalkin k)) (zhegalkin k).
Proof.
  intros i depth f o n Hf A Hn W. apply made_wellmade in Hf as [R _]. apply within_iff in A, W. destruct (clan_any depth f o n R A) as (c & E & N & H); [destruct o; exact Hn | exact W|]. exact (clan_factions_of (S depth) f o n c R E N H).
Qed.
Print Assumptions C73_factions.

Example C73_example : made false ex_root /\ within 5 ex_root /\ ec_family_splinters ex_and = Ok [(32, [32]); (34, [34; 48]); (51, [51])] /\
  ec_clan_factions 1 ex_root None = Ok [(40, [40; 72; 96]); (42, [42; 76; 112]); (60, [60; 90; 102]); (63, [63; 95; 119])].
Proof. split; [exact ex_root_made|]. split; [apply ex_within; reflexivity|]. split; vm_compute; reflexivity. Qed.

(** * C74: symmetries *)

(** [b]: the root function, i.e. the same truth table with the first atoms *)
Theorem C74_perm_symmetry : forall bl f, made false f -> valency f <= 5 -> exists b s, root_boolf f = Ok b /\ perm_symmetry_partition bl f = Ok s /\ canonical (sp_blocks s) /\
  sp_domain s = DomSet (map Z.of_nat (seq 0 (2 ^ adicity f))) /\
  forall u v, u <> v -> (together (sp_blocks s) u v <-> exists x y, u = Z.of_nat x /\ v = Z.of_nat y /\ x < 2 ^ adicity f /\ y < 2 ^ adicity f /\ perm_orbit (valency f) (sem b) x y).
Proof.
  intros bl f Hf L. apply m_red in Hf as R. destruct (perm_symmetry_partition_spec bl f R L) as (s & H). exists (rb f), s. split; [apply root_boolf_rb, R | exact H].
Qed.
Print Assumptions C74_perm_symmetry.

Theorem C74_symmetric_spots : forall depth bl f, made false f -> valency f <= 5 -> exists b s, root_boolf f = Ok b /\ symmetric_spots (S depth) bl f = Ok s /\ canonical (sp_blocks s) /\
  (exists dom, sp_domain s = DomSet dom /\ forall x, In x dom <-> exists k, x = Z.of_nat k /\ k < 2 ^ valency f /\ sem b (Nat.testbit k) = true) /\
  forall u v, u <> v -> (together (sp_blocks s) u v <->
    exists x y, u = Z.of_nat x /\ v = Z.of_nat y /\ x < 2 ^ valency f /\ sem b (Nat.testbit x) = true /\ orbit (valency f) (sem b) x y).
Proof.
  intros depth bl f Hf L. apply m_red in Hf as R. destruct (symmetric_spots_spec bl f R L depth) as (s & E & Cs & D & T). exists (rb f), s. split; [apply root_boolf_rb, R|]. split; [exact E|]. split; [exact Cs|].
  assert (Hs : forall k, In k (binv_exposet (root f)) <-> k < 2 ^ valency f /\ sem (rb f) (Nat.testbit k) = true).
  { intro k. rewrite binv_exposet_In. change (sem (rb f) (Nat.testbit k)) with (tab (rb f) k). split.
    - intro H. assert (Hx : k < 2 ^ valency f). { destruct (Nat.lt_ge_cases k (2 ^ valency f)) as [|C]; [assumption|]. rewrite nth_overflow in H; [discriminate H|]. rewrite (proj2 (proj1 R)). exact C. }
      split; [exact Hx|]. rewrite tab_rb by (auto; apply R). exact H.
    - intros [Hx H]. rewrite tab_rb in H by (auto; apply R). exact H. }
  split.
  - eexists. split; [exact D|]. intro x. rewrite in_map_iff. split; [intros (k & <- & Hk); exists k; apply Hs in Hk; tauto | intros (k & -> & Hk); exists k; split; [reflexivity | apply Hs, Hk]].
  - intros u v Huv. rewrite (T u v Huv). split.
    + intros (x & y & Hx & Hy & Ix & _ & O). apply Hs in Ix. exists x, y. tauto.
    + intros (x & y & -> & -> & Lx & Tx & O). exists x, y. split; [reflexivity|]. split; [reflexivity|]. split; [apply Hs; auto|]. split; [|exact O]. apply Hs. split; [apply (orbit_bound (valency f) (sem (rb f)) (valency f) x y); auto|].
      rewrite <- (orbit_value (valency f) (sem (rb f)) (sem_ext_all (rb f)) x y O). exact Tx.
Qed.
Print Assumptions C74_symmetric_spots.

Example C74_example : made false ex_root /\ valency ex_root <= 5 /\ exists s t, perm_symmetry_partition (fun n => S (Nat.log2 n)) ex_root = Ok s /\ symmetric_spots 1 (fun n => S (Nat.log2 n)) ex_root = Ok t /\ sp_blocks s = [[2; 4]; [3; 5]]%Z /\ sp_blocks t = [[3; 5]]%Z.
Proof. split; [exact ex_root_made|]. split; [cbn; lia|]. do 2 eexists. split; [vm_compute; reflexivity|]. split; [vm_compute; reflexivity|]. split; reflexivity. Qed.

(** * C75: the clan divided into factions and families *)

Theorem C75_partitioned : forall depth srt oc ot f, (forall l, Permutation (srt l) l) -> (forall l l', NoDup l -> Permutation l l' -> srt l = srt l') ->
  (forall l, Permutation (oc l) l) -> (forall l, Permutation (ot l) l) -> made false f -> adicity f = valency f -> valency f <= 5 ->
  let P := fun F => clan_class (sem f) F /\ local (valency f) F in
  exists factions families faction_dict family_dict splinters, ec_clan_partitioned (S depth) srt oc ot f = Ok (factions, families, faction_dict, family_dict, splinters) /\
    (map fst faction_dict = factions /\ StronglySorted lt factions /\ groups faction_class P faction_dict) /\
    (map fst family_dict = families /\ StronglySorted lt families /\ groups family_class P family_dict) /\
    map fst splinters = list_prod factions families /\
    forall p q l, In ((p, q), l) splinters -> StronglySorted lt l /\ forall z, In z l <-> P (zhegalkin z) /\ faction_class (zhegalkin p) (zhegalkin z) /\ family_class (zhegalkin q) (zhegalkin z).
Proof. intros depth srt oc ot f H1 H2 H3 H4 Hf H5 H6. exact (partitioned_spec depth srt oc ot H1 H2 H3 H4 f (m_red f Hf) H5 H6). Qed.
Print Assumptions C75_partitioned.

(** Finding: for other functions the result depends on the order of a set.  The clan is counted with
    the atoms below the adicity, but some of its factions have fewer atoms, and the loop may stop
    too early.  Here the function is x1: the loop may stop without the faction of NOT x1. *)
Theorem C75_gap_refuted : exists f srt oc oc' ot, (forall l, Permutation (srt l) l) /\ (forall l l', NoDup l -> Permutation l l' -> srt l = srt l') /\
  (forall l, Permutation (oc l) l) /\ (forall l, Permutation (oc' l) l) /\ (forall l, Permutation (ot l) l) /\ made false f /\ adicity f <> valency f /\ valency f <= 5 /\
  exists r r', ec_clan_partitioned 1 srt oc ot f = Ok r /\ ec_clan_partitioned 1 srt oc' ot f = Ok r' /\ r <> r'.
Proof.
  exists ex_atom, boolf_sort, (fun l => l), (@rev boolf), (fun l => l). split; [apply boolf_sort_perm|]. split; [intros l l' _; apply boolf_sort_inv|]. split; [reflexivity|]. split; [intro l; symmetry; apply Permutation_rev|]. split; [reflexivity|].
  split; [exact ex_atom_made|]. split; [discriminate|]. split; [cbn; lia|]. do 2 eexists. split; [vm_compute; reflexivity|]. split; [vm_compute; reflexivity|]. discriminate.
Qed.
Print Assumptions C75_gap_refuted.

Example C75_example : (forall l, Permutation (boolf_sort l) l) /\ (forall l l', NoDup l -> Permutation l l' -> boolf_sort l = boolf_sort l') /\ made false ex_root /\ adicity ex_root = valency ex_root /\
  exists factions families d1 d2 s, ec_clan_partitioned 1 boolf_sort (fun l => l) (fun l => l) ex_root = Ok (factions, families, d1, d2, s) /\ factions = [40; 42; 60; 63] /\ families = [40; 72; 96].
Proof.
  split; [apply boolf_sort_perm|]. split; [intros l l' _; apply boolf_sort_inv|]. split; [exact ex_root_made|]. split; [reflexivity|]. do 5 eexists. split; [vm_compute; reflexivity|]. split; reflexivity.
Qed.

(** * C76: self-complementary families, further quadrants *)

Theorem C76_self_complementary : forall oz on f, (forall l, Permutation (oz l) l) -> (forall l, StronglySorted lt l -> on l = l) -> made false f ->
  exists b, family_is_self_complementary oz on f = Ok b /\ (b = true <-> family_class (sem f) (fun e => negb (sem f e))).
Proof. exact self_complementary_spec. Qed.
Print Assumptions C76_self_complementary.

(** first and last entry of the truth table, and the parity of its weight *)
Theorem C76_quadrants : forall i f o n, made i f -> n = match o with None => adicity f | Some k => k end -> within n f ->
  let first := value f 0 in let last := value f (2 ^ n - 1) in let sharp := Nat.odd (length (filter (value f) (seq 0 (2 ^ n)))) in
  weight_quadrant f o = Ok (Nat.b2n (xorb last sharp) + 2 * Nat.b2n last) /\
  acute_quadrant f o = Ok (Nat.b2n (xorb first last) + 2 * Nat.b2n (xorb (xorb first last) sharp)) /\
  octant f o = Ok (Nat.b2n first + 2 * Nat.b2n last + 4 * Nat.b2n (xorb (xorb first last) sharp)).
Proof.
  intros i f o n M Hn W. cbn zeta. destruct (C51_sharp i f n M W) as (S1 & _ & q & Sq & Sa & _ & Sr). rewrite S1 in Sq. injection Sq as <-. apply within_iff in W. assert (Hf := m_fit i f M).
  unfold weight_quadrant, acute_quadrant, octant. rewrite <- Hn, Sa, Sr. cbn [bind]. unfold is_ugly. rewrite (quadrant_tab f n Hf W), is_odd_tab, (is_odious_tab f n Hf W). change (tab f) with (value f).
  split; [reflexivity|]. split; [reflexivity|]. do 2 f_equal. rewrite (Nat.mul_comm _ 2). reflexivity.
Qed.
Print Assumptions C76_quadrants.

Theorem C76_too_small : forall i f n, made i f -> ~ within n f -> weight_quadrant f (Some n) = Err ArgTooSmallError /\ acute_quadrant f (Some n) = Err ArgTooSmallError /\ octant f (Some n) = Err ArgTooSmallError.
Proof.
  intros i f n M W. destruct (C51_sharp_rejected i f n M W) as (_ & Sa & _ & Sr). unfold weight_quadrant, acute_quadrant, octant. rewrite Sa, Sr. auto.
Qed.
Print Assumptions C76_too_small.

Example C76_example : made false ex_and /\ within 3 ex_and /\ ~ within 2 ex_and /\ family_is_self_complementary (fun l => l) (fun l => l) ex_and = Ok false /\ family_is_self_complementary (fun l => l) (fun l => l) ex_atom = Ok true /\
  weight_quadrant ex_and None = Ok 3 /\ acute_quadrant ex_and None = Ok 3 /\ octant ex_and (Some 3) = Ok 6 /\ octant ex_root None = Ok 0 /\ octant ex_and (Some 2) = Err ArgTooSmallError.
Proof.
  split; [exact ex_and_made|]. split; [apply ex_within; reflexivity|]. split; [intro H; specialize (H 2 (or_intror (or_introl eq_refl))); lia|]. vm_compute. auto 10.
Qed.
