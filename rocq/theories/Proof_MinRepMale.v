(** Proof_MinRepMale: the representative of a family of functions with odd weight. *)

From Coq Require Import List Arith ZArith Bool Lia Permutation Sorted Factorial.
From Verif Require Import Model_Base Lib Model_Splits Model_Perm Model_Binary Model_SigPerm Model_Boolf Model_Twin Model_BoolfMore Model_MinRep
  Spec_Bits Spec_Boolf Spec_Twin Spec_MinRep Proof_Binary Proof_Perm Proof_PermMore Proof_Inversions Proof_SigPerm Proof_SigPermOps
  Proof_Helpers Proof_Linear Proof_WalshLinear Proof_Boolf Proof_Deflate Proof_BoolfTable Proof_BoolfApply Proof_BoolfMake Proof_Twin
  Proof_Noble Proof_BoolfMore Proof_Splits Proof_MinRepTwin Proof_MinRepClass Proof_MinRepCoset Proof_MinRep Proof_MinRepMin.
Import ListNotations.
Open Scope nat_scope.

(** * The root as an object *)

Definition rb (f : boolf) : boolf := mkBoolf (root f) (range (valency f)) (is_constant f) false.
Definition lift (f : boolf) (q : nat -> bool) (a : nat) : bool := match index_of a (atomvals f) with Ok i => q i | Err _ => false end.

Lemma lift_nth f q i : fitting f -> i < valency f -> lift f q (nth i (atomvals f) 0) = q i.
Proof.
  intros [Ha _] Hi. unfold lift. assert (E := index_of_map (fun i => nth i (atomvals f) 0) (valency f) i).
  cbv beta in E. change (map (fun i => nth i (atomvals f) 0) (seq 0 (valency f))) with (map (fun i => nth i (atomvals f) 0) (range (length (atomvals f)))) in E.
  rewrite <- nth_ext_map in E. rewrite E; [reflexivity | | exact Hi]. intros x y Hx Hy Exy. apply (proj1 (NoDup_nth (atomvals f) 0) (sorted_lt_NoDup _ Ha)); assumption.
Qed.

Lemma sem_rb f e : sem f e = sem (rb f) (fun i => e (nth i (atomvals f) 0)).
Proof.
  unfold sem, table. cbn [rb root atomvals]. f_equal. f_equal. rewrite (nth_ext_map (atomvals f) 0) at 1. rewrite map_map. reflexivity.
Qed.
Lemma rb_sem f q : fitting f -> sem (rb f) q = sem f (lift f q).
Proof.
  intro Hf. rewrite (sem_rb f). apply sem_ext. cbn [rb atomvals]. intros i Hi. apply range_In in Hi. symmetry. apply lift_nth; assumption.
Qed.

Lemma rb_reduced f : reduced f -> reduced (rb f).
Proof.
  intros R. destruct R as (Hf & He & _ & Hc). split; [split; [apply range_sorted_lt | cbn [rb root atomvals]; rewrite range_length; apply Hf]|]. split; [|split; [reflexivity|]].
  - cbn [rb atomvals]. intros i Hi. apply range_In in Hi. destruct (He (nth i (atomvals f) 0)) as (e & Hd); [apply nth_In; exact Hi|].
    exists (fun j => e (nth j (atomvals f) 0)). rewrite !(sem_rb f) in Hd.
    assert (X : forall q, sem (rb f) (fun i0 => upd e (nth i (atomvals f) 0) q (nth i0 (atomvals f) 0)) = sem (rb f) (upd (fun j => e (nth j (atomvals f) 0)) i q)).
    { intro q. apply sem_ext. cbn [rb atomvals]. intros j Hj. apply range_In in Hj. unfold upd. destruct (Nat.eqb_spec j i) as [->|Hji]; [rewrite Nat.eqb_refl; reflexivity|].
      destruct (Nat.eqb_spec (nth j (atomvals f) 0) (nth i (atomvals f) 0)) as [E|_]; [|reflexivity]. exfalso. apply Hji.
      apply (proj1 (NoDup_nth (atomvals f) 0) (sorted_lt_NoDup _ (proj1 Hf))); assumption. }
    rewrite <- !X. exact Hd.
  - cbn [rb is_constant atomvals]. rewrite Hc. unfold valency. destruct (atomvals f); split; intro H; try reflexivity; discriminate.
Qed.

Lemma is_root_range f : fitting f -> is_root f = true <-> atomvals f = range (valency f).
Proof.
  intro Hf. unfold is_root. rewrite Nat.eqb_eq. split.
  - intro E. assert (B : forall a, In a (atomvals f) -> a < valency f) by (intros a Ha; rewrite <- E; apply adicity_bound; exact Ha).
    apply sorted_lt_ext; [apply Hf | apply range_sorted_lt|]. intro a. rewrite range_In. split; [apply B|]. intro Ha.
    apply (proj2 (asc_incl_length (atomvals f) (range (valency f)) (proj1 Hf) (range_sorted_lt 0 _) ltac:(intros x Hx; apply range_In, B, Hx))); [rewrite range_length; reflexivity | apply range_In; exact Ha].
  - intro E. apply Nat.le_antisymm; [apply adicity_least; intros a Ha; rewrite E in Ha; apply range_In; exact Ha|].
    destruct (valency f) as [|v] eqn:Ev; [lia|]. assert (X : In v (atomvals f)) by (rewrite E; apply range_In; lia). apply adicity_bound in X. lia.
Qed.

Lemma adicity_rb f : adicity (rb f) = valency f.
Proof.
  apply Nat.le_antisymm; [apply adicity_least; intros a Ha; apply range_In; exact Ha|].
  destruct (valency f) as [|v] eqn:Ev; [lia|]. assert (X : In v (atomvals (rb f))) by (cbn [rb atomvals]; rewrite Ev; apply range_In; lia). apply adicity_bound in X. lia.
Qed.

Lemma root_boolf_rb f : reduced f -> root_boolf f = Ok (rb f).
Proof.
  intro R. unfold root_boolf. destruct (is_root f) eqn:Er.
  - apply is_root_range in Er; [|apply R]. destruct R as (Hf & He & Hi & Hc). unfold rb. rewrite <- Er. destruct f; cbn in *. subst. reflexivity.
  - destruct (fs_spec (binv_exposet (root f)) (range (valency f)) _ _ (range_sorted_lt 0 _) (or_introl (conj eq_refl eq_refl))) as (b & Eb & Rb & Sb).
    + intros s Hs. apply binv_exposet_In in Hs. rewrite range_length. destruct (Nat.lt_ge_cases s (2 ^ valency f)) as [|G]; [assumption|].
      rewrite nth_overflow in Hs by (rewrite (proj2 (proj1 R)); exact G). discriminate.
    + rewrite Eb. f_equal. apply reduced_unique; [exact Rb | apply rb_reduced; exact R|]. intro e. rewrite Sb. unfold sem, table. cbn [rb root atomvals].
      apply bool_iff. rewrite memb_In, binv_exposet_In. reflexivity.
Qed.

(** also with superfluous atoms *)
Lemma root_boolf_any f : fitting f ->
  exists b, root_boolf f = Ok b /\ (is_root f = true -> b = f) /\ (is_root f = false -> reduced b) /\ forall e, sem b e = sem (rb f) e.
Proof.
  intro Hf. unfold root_boolf. destruct (is_root f) eqn:Er.
  - exists f. split; [reflexivity|]. split; [reflexivity|]. split; [discriminate|]. intro e. apply is_root_range in Er; [|exact Hf]. unfold sem. cbn [rb root atomvals]. rewrite Er at 1. reflexivity.
  - destruct (fs_spec (binv_exposet (root f)) (range (valency f)) _ _ (range_sorted_lt 0 _) (or_introl (conj eq_refl eq_refl))) as (b & Eb & Rb & Sb).
    + intros s Hs. apply binv_exposet_In in Hs. rewrite range_length. destruct (Nat.lt_ge_cases s (2 ^ valency f)) as [|G]; [assumption|].
      rewrite nth_overflow in Hs by (rewrite (proj2 Hf); exact G). discriminate.
    + exists b. split; [exact Eb|]. split; [discriminate|]. split; [intros _; exact Rb|]. intro e. rewrite Sb. unfold sem, table. cbn [rb root atomvals].
      apply bool_iff. rewrite memb_In, binv_exposet_In. reflexivity.
Qed.

Lemma tab_rb f k : fitting f -> k < 2 ^ valency f -> tab (rb f) k = nth k (root f) false.
Proof.
  intros Hf Hk. unfold tab, sem, table. cbn [rb root atomvals]. f_equal. apply Nat.bits_inj. intro i. destruct (Nat.lt_ge_cases i (valency f)) as [Hi|Hi].
  - apply (place_bits (Nat.testbit k)). exact Hi.
  - rewrite !testbit_high; [reflexivity | |]; (eapply Nat.lt_le_trans; [|apply Nat.pow_le_mono_r; [|exact Hi]; lia]); [exact Hk | apply (place_lt (Nat.testbit k))].
Qed.

(** * Consuls of shifted tables *)

Lemma lxor_perm u v : u < 2 ^ v -> Permutation (map (fun i => Nat.lxor i u) (seq 0 (2 ^ v))) (seq 0 (2 ^ v)).
Proof.
  intro Hu. apply NoDup_Permutation_bis.
  - apply NoDup_map_inj; [apply seq_NoDup|]. intros i j _ _ E. rewrite <- (Nat.lxor_0_r i), <- (Nat.lxor_0_r j), <- (Nat.lxor_nilpotent u), <- !Nat.lxor_assoc, E. reflexivity.
  - rewrite map_length. lia.
  - intros x Hx. apply in_map_iff in Hx as (i & <- & Hi). apply in_seq in Hi. apply in_seq. split; [lia|]. apply lxor_lt; lia.
Qed.

Lemma consul_shift (F : nat -> bool) u v : u < 2 ^ v -> xor_all (map F (seq 0 (2 ^ v))) = true ->
  lxor_all (filter (fun i => F (Nat.lxor i u)) (seq 0 (2 ^ v))) = Nat.lxor (lxor_all (filter F (seq 0 (2 ^ v)))) u.
Proof.
  intros Hu Hm. apply Nat.bits_inj. intro k. rewrite Nat.lxor_spec, !lxor_all_bit, !xor_all_filter.
  rewrite <- (xor_all_perm _ _ (Permutation_map (fun i => F (Nat.lxor i u) && Nat.testbit i k) (lxor_perm u v Hu))), map_map.
  rewrite (xor_all_ext _ (fun i => xorb (F i && Nat.testbit i k) (F i && Nat.testbit u k))).
  - rewrite xor_all_xorb, xor_all_and, Hm. reflexivity.
  - intros i _. rewrite Nat.lxor_assoc, Nat.lxor_nilpotent, Nat.lxor_0_r, Nat.lxor_spec. destruct (F i); reflexivity.
Qed.

(** * The representative *)

Definition tcons (f : boolf) : nat := lxor_all (filter (tab (rb f)) (seq 0 (2 ^ valency f))).
Lemma tcons_lt f : tcons f < 2 ^ valency f.
Proof. apply lxor_all_lt. intros x Hx. apply filter_In in Hx as [Hx _]. apply in_seq in Hx. lia. Qed.

Lemma consul_default f : fitting f -> consul f TtDefault = Ok (lxor_all (filter (tab f) (seq 0 (2 ^ adicity f)))).
Proof. intro Hf. rewrite <- (consul_spec f (adicity f) Hf (le_n _)). unfold consul. rewrite tt_default, tt_spec by (assumption || lia). reflexivity. Qed.
Lemma consul_rb f : reduced f -> consul (rb f) TtDefault = Ok (tcons f).
Proof. intro R. rewrite (consul_default (rb f) (proj1 (rb_reduced f R))), adicity_rb. reflexivity. Qed.

Lemma male_tab f : fitting f -> is_male f = xor_all (map (tab (rb f)) (seq 0 (2 ^ valency f))).
Proof.
  intro Hf. rewrite is_male_spec. f_equal. rewrite (nth_ext_map (root f) false) at 1. rewrite (proj2 Hf). apply map_ext_in. intros k Hk. apply range_In in Hk.
  symmetry. apply tab_rb; [exact Hf | exact Hk].
Qed.

(** family members have the same atoms *)
Lemma family_atoms f h : reduced f -> reduced h -> family_class (sem f) (sem h) -> atomvals h = atomvals f.
Proof.
  intros Rf Rh (m & Hm). apply sorted_lt_ext; [apply Rh | apply Rf|]. intro a. rewrite (atoms_essential f a Rf), (atoms_essential h a Rh).
  assert (X : forall e q, sem h (upd e a q) = sem f (upd (fun x => xorb (e x) (m x)) a (xorb q (m a)))).
  { intros e q. rewrite Hm. apply sem_ext. intros x _. unfold upd. destruct (Nat.eqb_spec x a) as [->|]; reflexivity. }
  assert (Y : forall e q, sem f (upd e a q) = sem h (upd (fun x => xorb (e x) (m x)) a (xorb q (m a)))).
  { intros e q. rewrite X. apply sem_ext. intros x _. unfold upd. destruct (Nat.eqb x a); [destruct q, (m a); reflexivity|]. destruct (e x), (m x); reflexivity. }
  split; intros (e & He); exists (fun x => xorb (e x) (m x)).
  - rewrite !X in He. destruct (m a); cbn [xorb] in *; congruence.
  - rewrite !Y in He. destruct (m a); cbn [xorb] in *; congruence.
Qed.

(** the table of a family member is a shift of the table *)
Lemma family_shift f h : reduced f -> reduced h -> family_class (sem f) (sem h) ->
  exists u, u < 2 ^ valency f /\ forall k, k < 2 ^ valency f -> tab (rb h) k = tab (rb f) (Nat.lxor k u).
Proof.
  intros Rf Rh C. assert (Ea := family_atoms f h Rf Rh C). destruct C as (m & Hm). set (q := fun i => m (nth i (atomvals f) 0)).
  set (u := b2n (map q (range (valency f)))). assert (Hu : u < 2 ^ valency f) by apply (place_lt q). exists u. split; [exact Hu|]. intros k Hk.
  unfold tab. rewrite (rb_sem h) by apply Rh. rewrite Hm, (sem_rb f). apply sem_ext. cbn [rb atomvals]. intros i Hi. apply range_In in Hi.
  assert (Ev : valency h = valency f) by (unfold valency; rewrite Ea; reflexivity).
  rewrite <- Ea at 1. rewrite lift_nth by (apply Rh || (rewrite Ev; exact Hi)). rewrite Nat.lxor_spec. f_equal. symmetry. apply (place_bits q). exact Hi.
Qed.

Lemma malerep_spec f : reduced f -> is_male f = true -> exists g, family_malerep f = Ok g /\ reduced g /\ family_class (sem f) (sem g) /\
  forall k, k < 2 ^ valency f -> tab (rb g) k = tab (rb f) (Nat.lxor k (tcons f)).
Proof.
  intros R Hm. unfold family_malerep. rewrite Hm. cbn [true_except bind]. assert (Hf := proj1 R). destruct (is_constant f) eqn:Hc.
  - exists f. split; [reflexivity|]. split; [exact R|]. split; [apply family_refl|]. intros k Hk.
    assert (V : valency f = 0). { unfold valency. rewrite (proj1 (proj2 (proj2 (proj2 R))) Hc). reflexivity. }
    assert (X := tcons_lt f). rewrite V in X, Hk. cbn in X, Hk. replace (tcons f) with 0 by lia. rewrite Nat.lxor_0_r. reflexivity.
  - rewrite (root_boolf_rb f R). cbn [bind]. rewrite (consul_rb f R). cbn [bind]. set (m := tcons f). assert (Rb := rb_reduced f R). assert (Hm2 := tcons_lt f). fold m in Hm2.
    destruct (class_object (rb f) (valency f) m 0 Rb) as (s & p & rep & E1 & Ep & _ & E2 & Rr & Ar & Sr & _); [rewrite adicity_rb; lia | exact Hm2 | apply lt_O_fact|].
    rewrite E1. cbn [bind]. rewrite E2. cbn [bind].
    assert (Sr' : forall e, sem rep e = sem (rb f) (fun a => xorb (e a) (Nat.testbit m a))).
    { intro e. rewrite Sr. apply sem_ext. intros a _. assert (P : pget p a = act 0 a) by (unfold act; rewrite Ep; reflexivity). rewrite P, act_0. reflexivity. }
    assert (Cr : family_class (sem (rb f)) (sem rep)) by (exists (Nat.testbit m); exact Sr').
    assert (Ea := family_atoms (rb f) rep Rb Rr Cr). cbn [rb atomvals] in Ea.
    assert (Tr : forall k, tab rep k = tab (rb f) (Nat.lxor k m)). { intro k. unfold tab. rewrite Sr'. apply sem_ext. intros a _. rewrite Nat.lxor_spec. reflexivity. }
    destruct (is_root f) eqn:Er.
    + apply is_root_range in Er; [|exact Hf]. exists rep. split; [reflexivity|]. split; [exact Rr|].
      assert (Ef : forall e, sem f e = sem (rb f) e). { intro e. unfold sem. cbn [rb root atomvals]. rewrite <- Er. reflexivity. }
      split; [exists (Nat.testbit m); intro e; rewrite Sr', Ef; reflexivity|]. intros k Hk.
      assert (Erep : rb rep = rep).
      { unfold rb. assert (V : valency rep = valency f) by (unfold valency; rewrite Ea; apply range_length). rewrite V, <- Ea. destruct Rr as (_ & _ & Hi & _). destruct rep; cbn in *. subst. reflexivity. }
      rewrite Erep. apply Tr.
    + destruct (Boolf_vec_sorted (root rep) (atomvals f)) as (g & Eg & Rg & Sg); [apply Hf | rewrite (proj2 (proj1 Rr)), Ea, range_length; reflexivity|].
      exists g. split; [exact Eg|]. split; [exact Rg|].
      assert (Srep : forall e, sem rep e = table (root rep) (range (valency f)) e) by (intro e; unfold sem; rewrite Ea; reflexivity).
      assert (Sg' : forall e, sem g e = sem rep (fun i => e (nth i (atomvals f) 0))).
      { intro e. rewrite Sg, Srep. unfold table. f_equal. f_equal. rewrite (nth_ext_map (atomvals f) 0) at 1. rewrite map_map. reflexivity. }
      assert (Cg : family_class (sem f) (sem g)).
      { exists (lift f (Nat.testbit m)). intro e. rewrite Sg', Sr', (sem_rb f). apply sem_ext. cbn [rb atomvals]. intros i Hi. apply range_In in Hi. rewrite lift_nth by assumption. reflexivity. }
      split; [exact Cg|]. intros k Hk. rewrite <- Tr. assert (Eag := family_atoms f g R Rg Cg). unfold tab. rewrite (rb_sem g) by apply Rg. rewrite Sg'. apply sem_ext.
      intros i Hi. rewrite Ea in Hi. apply range_In in Hi. rewrite <- Eag. apply lift_nth; [apply Rg|]. unfold valency. rewrite Eag. exact Hi.
Qed.

Lemma valency_eq f g : atomvals g = atomvals f -> valency g = valency f.
Proof. unfold valency. intros ->. reflexivity. Qed.

Lemma malerep_consul f g : reduced f -> is_male f = true -> family_malerep f = Ok g -> consul (rb g) TtDefault = Ok 0.
Proof.
  intros R Hm E. destruct (malerep_spec f R Hm) as (g' & E' & Rg & Cg & T). assert (g' = g) by congruence. subst g'. rewrite (consul_rb g Rg). f_equal.
  assert (Ev := valency_eq f g (family_atoms f g R Rg Cg)). unfold tcons. rewrite Ev.
  rewrite (filter_ext_in _ (fun i => tab (rb f) (Nat.lxor i (tcons f)))) by (intros i Hi; apply in_seq in Hi; apply T; lia).
  rewrite consul_shift; [apply Nat.lxor_nilpotent | apply tcons_lt | rewrite <- male_tab; [exact Hm | apply R]].
Qed.

Lemma family_male f h : reduced f -> reduced h -> family_class (sem f) (sem h) -> is_male h = is_male f.
Proof.
  intros Rf Rh C. destruct (family_shift f h Rf Rh C) as (u & Hu & T). assert (Ev := valency_eq f h (family_atoms f h Rf Rh C)).
  rewrite (male_tab f (proj1 Rf)), (male_tab h (proj1 Rh)), Ev.
  rewrite <- (xor_all_perm _ _ (Permutation_map (tab (rb f)) (lxor_perm u (valency f) Hu))), map_map. apply xor_all_ext. intros k Hk. apply in_seq in Hk. apply T. lia.
Qed.

Lemma malerep_same f h : reduced f -> reduced h -> is_male f = true -> family_class (sem f) (sem h) -> family_malerep h = family_malerep f.
Proof.
  intros Rf Rh Hm C. destruct (malerep_spec f Rf Hm) as (g & E & Rg & Cg & T).
  assert (Hm' : is_male h = true) by (rewrite (family_male f h Rf Rh C); exact Hm). destruct (malerep_spec h Rh Hm') as (g' & E' & Rg' & Cg' & T'). rewrite E, E'. f_equal.
  destruct (family_shift f h Rf Rh C) as (u & Hu & Ts). assert (Ah := family_atoms f h Rf Rh C). assert (Ev := valency_eq f h Ah).
  assert (Ag := family_atoms f g Rf Rg Cg). assert (Ag' := family_atoms h g' Rh Rg' Cg').
  assert (Etc : tcons h = Nat.lxor (tcons f) u).
  { unfold tcons. rewrite Ev. rewrite (filter_ext_in _ (fun i => tab (rb f) (Nat.lxor i u))) by (intros i Hi; apply in_seq in Hi; apply Ts; lia).
    apply consul_shift; [exact Hu | rewrite <- male_tab; [exact Hm | apply Rf]]. }
  apply reduced_unique; [exact Rg' | exact Rg|]. intro e. rewrite (sem_rb g'), (sem_rb g). rewrite Ag', Ah, Ag.
  apply (tab_inj (rb g') (rb g) (valency f)).
  - rewrite adicity_rb. unfold valency. rewrite Ag', Ah. lia.
  - rewrite adicity_rb. unfold valency. rewrite Ag. lia.
  - intros k Hk. rewrite T by exact Hk. rewrite T' by (rewrite Ev; exact Hk). rewrite Etc, Ts.
    + rewrite !Nat.lxor_assoc, Nat.lxor_nilpotent, Nat.lxor_0_r. reflexivity.
    + apply lxor_lt; [exact Hk|]. apply lxor_lt; [apply tcons_lt | exact Hu].
Qed.

(** the representative is the only member with the consul 0 *)
Lemma malerep_only f h : reduced f -> reduced h -> is_male f = true -> family_class (sem f) (sem h) -> consul (rb h) TtDefault = Ok 0 -> family_malerep f = Ok h.
Proof.
  intros Rf Rh Hm C Hk. rewrite <- (malerep_same f h Rf Rh Hm C). assert (Hm' : is_male h = true) by (rewrite (family_male f h Rf Rh C); exact Hm).
  destruct (malerep_spec h Rh Hm') as (g & E & Rg & Cg & T). rewrite E. f_equal. rewrite (consul_rb h Rh) in Hk. injection Hk as Hk. rewrite Hk in T.
  assert (Ag := family_atoms h g Rh Rg Cg). apply reduced_unique; [exact Rg | exact Rh|]. intro e. rewrite (sem_rb g), (sem_rb h), Ag.
  apply (tab_inj (rb g) (rb h) (valency h)); [rewrite adicity_rb; unfold valency; rewrite Ag; lia | rewrite adicity_rb; lia|].
  intros k Hlt. rewrite T by exact Hlt. rewrite Nat.lxor_0_r. reflexivity.
Qed.
