(** Proof_EcMembers: the members of the classes shown by ec_family, ec_faction and ec_clan. *)

From Coq Require Import List Arith ZArith Bool Lia Permutation Sorted Factorial.
From Verif Require Import Model_Base Lib Model_Splits Model_Perm Model_Binary Model_SigPerm Model_SetPart Model_Boolf Model_BoolfMore Model_MinRep
  Model_Helpers Model_Ec Spec_Bits Spec_Perm Spec_SigPerm Spec_Boolf Spec_SetPart Spec_MinRep Spec_Helpers Spec_Ec
  Proof_Binary Proof_Perm Proof_PermMore Proof_Inversions Proof_SigPerm Proof_SigPermOps Proof_SigPermMore Proof_Helpers Proof_SetPart Proof_SetPartLabels Proof_SetPartObj
  Proof_Boolf Proof_Deflate Proof_BoolfTable Proof_BoolfApply Proof_BoolfMake Proof_BoolfMore Proof_MinRepTwin Proof_MinRepClass Proof_MinRepCoset Proof_MinRep Proof_MinRepMin
  Proof_Twin Proof_Listing Proof_Splits Proof_Noble Proof_Seqs Proof_HelpersBits Proof_Ec Proof_EcClass.
Import ListNotations.
Open Scope nat_scope.

(** the atoms of a member of the clan *)
Lemma clan_atoms f g pi m : reduced f -> reduced g -> bijection pi -> (forall e, sem g e = sem f (fun a => xorb (e (pi a)) (m a))) ->
  forall a, In a (atomvals f) -> In (pi a) (atomvals g).
Proof.
  intros Rf Rg (inv & Hb) Hh a Ha. apply (atoms_essential g _ Rg). apply (atoms_essential f a Rf) in Ha as (e & He).
  set (e' := fun b => xorb (e (inv b)) (m (inv b))).
  assert (X : forall q, sem f (Spec_Boolf.upd e a q) = sem g (Spec_Boolf.upd e' (pi a) (xorb q (m a)))).
  { intro q. rewrite Hh. apply sem_ext. intros x _. unfold Spec_Boolf.upd. destruct (Nat.eqb_spec x a) as [->|Hx].
    - rewrite Nat.eqb_refl. destruct q, (m a); reflexivity.
    - destruct (Nat.eqb_spec (pi x) (pi a)) as [E|_]; [exfalso; apply Hx; rewrite <- (proj1 (Hb x)), E; apply Hb|].
      unfold e'. rewrite (proj1 (Hb x)). destruct (e x), (m x); reflexivity. }
  rewrite !X in He. exists e'. destruct (m a); cbn [xorb] in He; [|exact He]. intro C. apply He. symmetry. exact C.
Qed.

(** ** Ascending lists *)

Lemma sublist_nil_l {A} (l : list A) : sublist [] l.
Proof. induction l; constructor; assumption. Qed.
Lemma sorted_sublist_seq s : forall k a, StronglySorted lt s -> (forall x, In x s -> a <= x < a + k) -> sublist s (seq a k).
Proof.
  intro k. revert s. induction k as [|k IH]; intros s a Hs Hb; cbn [seq].
  - destruct s as [|x s]; [constructor|]. specialize (Hb x (or_introl eq_refl)). lia.
  - destruct s as [|x s]; [apply sublist_nil_l|]. inversion Hs as [|? ? Hs' Hx]; subst. destruct (Nat.eq_dec x a) as [->|Hn].
    + constructor. apply IH; [exact Hs'|]. intros y Hy. rewrite Forall_forall in Hx. specialize (Hx y Hy). specialize (Hb y (or_intror Hy)). lia.
    + constructor. apply IH; [exact Hs|]. intros y Hy. specialize (Hb y Hy) as B. destruct Hy as [<-|Hy]; [lia|]. rewrite Forall_forall in Hx. specialize (Hx y Hy). specialize (Hb x (or_introl eq_refl)). lia.
Qed.
Definition idx (x : nat) (l : list nat) : nat := match index_of x l with Ok i => i | Err _ => 0 end.
Lemma idx_spec x l : In x l -> idx x l < length l /\ nth (idx x l) l 0 = x.
Proof. intro H. unfold idx. destruct (index_of_In x l H) as (i & -> & Hi & E). auto. Qed.

(** * Families *)

Lemma family_members f g : wellmade f -> (exists i, i < 2 ^ valency f /\ family_at f i g) <-> reduced g /\ family_class (sem f) (sem g).
Proof.
  intro R. split.
  - intros (i & _ & Rg & S). split; [exact Rg|]. exists (fun a => memb a (neg_atoms f i)). exact S.
  - intros (Rg & m & Hm). exists (b2n (map (fun k => m (nth k (atomvals f) 0)) (range (valency f)))). split; [apply (place_lt (fun k => m (nth k (atomvals f) 0)))|].
    split; [exact Rg|]. intro e. rewrite Hm. apply sem_ext. intros a Ha. f_equal. apply (In_nth _ _ 0) in Ha as (k & Hk & <-).
    rewrite neg_atoms_at; [|apply fitting_NoDup, R | exact Hk]. symmetry. apply (place_bits (fun k => m (nth k (atomvals f) 0))). exact Hk.
Qed.

(** * Factions and clans of all permutations *)

Lemma faction_members f g n : wellmade f -> adicity f <= n -> (exists r, r < fact n /\ faction_at f r g) <-> reduced g /\ adicity g <= n /\ faction_class (sem f) (sem g).
Proof.
  intros R A. split.
  - intros (r & Hr & Rg & S). split; [exact Rg|]. assert (P := permutes_act r n Hr). split.
    + apply adicity_le; [exact Rg|]. intros e e' He. rewrite !S. apply sem_ext. intros a Ha. apply He. apply (permutes_lt _ _ _ P). apply adicity_bound in Ha. lia.
    + exists (extended n (act r)). split; [apply extended_bijection, P|]. intro e. rewrite S. apply sem_ext. intros a Ha. apply adicity_bound in Ha. rewrite extended_low by lia. reflexivity.
  - intros (Rg & Ag & pi & Hpi & S). destruct (necessary_atoms f R) as (f0 & R0 & S0 & I0). destruct (extend_perm n pi (atomvals f0)) as (r & Hr & E).
    + apply fitting_NoDup, R0.
    + intros a Ha. split; [apply I0 in Ha as [Ha _]; apply adicity_bound in Ha; lia|].
      assert (I : In (pi a) (atomvals g)). { apply (clan_atoms f0 g pi (fun _ => false) R0 Rg Hpi); [|exact Ha]. intro e. rewrite S, S0. apply sem_ext. intros x _. rewrite xorb_false_r. reflexivity. }
      apply adicity_bound in I. lia.
    + intros a b _ _. apply bijection_inj, Hpi.
    + exists r. split; [exact Hr|]. split; [exact Rg|]. intro e. rewrite S, <- !S0. apply sem_ext. intros a Ha. rewrite E by exact Ha. reflexivity.
Qed.

Lemma clan_members f g n : wellmade f -> adicity f <= n -> (exists m r, m < 2 ^ n /\ r < fact n /\ clan_at f m r g) <-> reduced g /\ adicity g <= n /\ clan_class (sem f) (sem g).
Proof.
  intros R A. split.
  - intros (m & r & Hm & Hr & Rg & S). split; [exact Rg|]. assert (P := permutes_act r n Hr). split.
    + apply adicity_le; [exact Rg|]. intros e e' He. rewrite !S. apply sem_ext. intros a Ha. f_equal. apply He. apply (permutes_lt _ _ _ P). apply adicity_bound in Ha. lia.
    + exists (extended n (act r)), (fun a => Nat.testbit m (act r a)). split; [apply extended_bijection, P|]. intro e. rewrite S. apply sem_ext. intros a Ha. apply adicity_bound in Ha. rewrite extended_low by lia. reflexivity.
  - intros (Rg & Ag & pi & q & Hpi & S). destruct (necessary_atoms f R) as (f0 & R0 & S0 & I0). destruct (extend_perm n pi (atomvals f0)) as (r & Hr & E).
    + apply fitting_NoDup, R0.
    + intros a Ha. split; [apply I0 in Ha as [Ha _]; apply adicity_bound in Ha; lia|]. assert (I := clan_atoms f0 g pi q R0 Rg Hpi (fun e => eq_trans (S e) (eq_sym (S0 _))) a Ha). apply adicity_bound in I. lia.
    + intros a b _ _. apply bijection_inj, Hpi.
    + destruct (bits_at (act r) n q (permutes_act r n Hr)) as (m & Hm & B). exists m, r. split; [exact Hm|]. split; [exact Hr|]. split; [exact Rg|].
      intro e. rewrite S, <- !S0. apply sem_ext. intros a Ha. rewrite E by exact Ha. f_equal. symmetry. rewrite <- E by exact Ha. apply B. apply I0 in Ha as [Ha _]. apply adicity_bound in Ha. lia.
Qed.

(** * Factions and clans of combinations *)

Section Combos.
Context (f : boolf) (n : nat) (R : wellmade f) (A : adicity f <= n).
Let v := valency f.

(** the atoms of [f] in the order of the combination *)
Lemma combo_perm combo r : length combo = v -> NoDup combo -> (forall a, In a combo -> a < n) -> r < fact v ->
  exists r', r' < fact n /\ forall i, i < v -> act r' (nth (act r i) (atomvals f) 0) = nth i combo 0.
Proof.
  intros Lc Nc Hc Hr. assert (P := permutes_act r v Hr). assert (Nf : NoDup (atomvals f)) by apply fitting_NoDup, R.
  set (pi := fun a => match find (fun i => Nat.eqb (nth (act r i) (atomvals f) 0) a) (range v) with Some i => nth i combo 0 | None => 0 end).
  assert (Hp : forall i, i < v -> pi (nth (act r i) (atomvals f) 0) = nth i combo 0).
  { intros i Hi. unfold pi. destruct (find _ (range v)) as [j|] eqn:Ef.
    - apply find_some in Ef as [Hj Ej]. apply range_In in Hj. apply Nat.eqb_eq in Ej. assert (act r j = act r i).
      { apply (proj1 (NoDup_nth (atomvals f) 0) Nf); [apply (permutes_lt _ _ _ P Hj) | apply (permutes_lt _ _ _ P Hi) | exact Ej]. }
      assert (j = i) by (apply (injective_on _ _ _ _ P Hj Hi H)). subst j. reflexivity.
    - pose proof (find_none _ _ Ef i (proj2 (range_In _ _) Hi)) as C. cbn beta in C. rewrite Nat.eqb_refl in C. discriminate C. }
  assert (Ha : forall a, In a (atomvals f) -> exists i, i < v /\ a = nth (act r i) (atomvals f) 0).
  { intros a H. apply (In_nth _ _ 0) in H as (k & Hk & <-). destruct (act_onto r v k Hr Hk) as (i & Hi & <-). eauto. }
  destruct (extend_perm n pi (atomvals f) Nf) as (r' & Hr' & E).
  - intros a H. split; [apply adicity_bound in H; lia|]. destruct (Ha a H) as (i & Hi & ->). rewrite Hp by exact Hi. apply Hc, nth_In. lia.
  - intros a b H1 H2 Eq. destruct (Ha a H1) as (i & Hi & ->). destruct (Ha b H2) as (j & Hj & ->). rewrite !Hp in Eq by assumption. f_equal. f_equal. apply (proj1 (NoDup_nth combo 0) Nc); [lia | lia | exact Eq].
  - exists r'. split; [exact Hr'|]. intros i Hi. rewrite E; [apply Hp, Hi | apply nth_In, (permutes_lt _ _ _ P Hi)].
Qed.

Lemma perm_combo pi : (forall a, In a (atomvals f) -> pi a < n) -> (forall a b, In a (atomvals f) -> In b (atomvals f) -> pi a = pi b -> a = b) ->
  exists r k combo, r < fact v /\ nth_error (combinations (range n) v) k = Some combo /\ forall i, i < v -> pi (nth (act r i) (atomvals f) 0) = nth i combo 0.
Proof.
  intros Hb Hi. assert (Nf : NoDup (atomvals f)) by apply fitting_NoDup, R. set (L := map pi (atomvals f)). set (combo := sort_nat L).
  assert (LL : length L = v) by apply map_length. assert (NL : NoDup L) by (apply NoDup_map_inj; assumption).
  assert (Lc : length combo = v) by (unfold combo; rewrite sort_nat_length; exact LL).
  assert (Pc : Permutation combo L) by (apply Permutation_sym, sort_nat_perm).
  assert (Nc : NoDup combo) by (apply (Permutation_NoDup (Permutation_sym Pc) NL)).
  assert (Hc : In combo (combinations (range n) v)).
  { apply combinations_In. split; [|exact Lc]. unfold range. apply sorted_sublist_seq; [apply sort_nat_sorted_lt, NL|]. intros a Ha. split; [lia|]. cbn. apply (Permutation_in _ Pc) in Ha. apply in_map_iff in Ha as (x & <- & Hx). apply Hb, Hx. }
  apply In_nth_error in Hc as (k & Hk).
  set (p := map (fun i => idx (nth i combo 0) L) (range v)).
  assert (Hx : forall i, i < v -> idx (nth i combo 0) L < v /\ nth (idx (nth i combo 0) L) L 0 = nth i combo 0).
  { intros i Hiv. assert (I : In (nth i combo 0) L) by (apply (Permutation_in _ Pc), nth_In; lia). rewrite <- LL. apply idx_spec, I. }
  assert (Pp : Permutation p (range v)).
  { apply NoDup_Permutation_bis.
    - unfold p. apply NoDup_map_inj; [apply range_NoDup|]. intros a b H1 H2 E. apply range_In in H1, H2. destruct (Hx a H1) as [_ E1]. destruct (Hx b H2) as [_ E2]. rewrite E, E2 in E1.
      symmetry. apply (proj1 (NoDup_nth combo 0) Nc); [lia | lia | exact E1].
    - unfold p. rewrite map_length. lia.
    - intros x H. unfold p in H. apply in_map_iff in H as (i & <- & H). apply range_In in H. apply range_In, Hx, H. }
  destruct (act_list p v Pp) as [Hr Ha]. exists (from_factoradic (left_inversion_count p)), k, combo. split; [exact Hr|]. split; [exact Hk|].
  intros i Hiv. rewrite Ha by exact Hiv. unfold p. rewrite (nth_map_range (fun i => idx (nth i combo 0) L)) by exact Hiv. destruct (Hx i Hiv) as [H1 H2]. rewrite <- H2 at 2. unfold L. symmetry. apply nth_map0. exact H1.
Qed.

Lemma variation_faction g : (exists r k combo, r < fact v /\ nth_error (combinations (range n) v) k = Some combo /\ variation_at f combo 0 r g) <-> exists r, r < fact n /\ faction_at f r g.
Proof.
  split.
  - intros (r & k & combo & Hr & Hk & Rg & S). destruct (combos_spec _ _ _ _ Hk) as (_ & Lc & Nc & Hc). destruct (combo_perm combo r Lc Nc Hc Hr) as (r' & Hr' & E).
    exists r'. split; [exact Hr'|]. split; [exact Rg|]. intro e. apply S. intros i Hi. rewrite E by exact Hi. rewrite Nat.bits_0, xorb_false_r. reflexivity.
  - intros (r & Hr & Rg & S). assert (P := permutes_act r n Hr). destruct (perm_combo (act r)) as (r' & k & combo & Hr' & Hk & E).
    + intros a Ha. apply (permutes_lt _ _ _ P). apply adicity_bound in Ha. lia.
    + intros a b Ha Hb. apply (injective_on _ n _ _ P); [apply adicity_bound in Ha | apply adicity_bound in Hb]; lia.
    + exists r', k, combo. split; [exact Hr'|]. split; [exact Hk|]. split; [exact Rg|]. intros e e' H. rewrite S. apply sem_ext. intros a Ha. apply (In_nth _ _ 0) in Ha as (j & Hj & <-).
      destruct (act_onto r' v j Hr' Hj) as (i & Hi & <-). rewrite H, E, Nat.bits_0, xorb_false_r by exact Hi. reflexivity.
Qed.

Lemma variation_clan g : (exists m r k combo, m < 2 ^ v /\ r < fact v /\ nth_error (combinations (range n) v) k = Some combo /\ variation_at f combo m r g) <->
  exists m r, m < 2 ^ n /\ r < fact n /\ clan_at f m r g.
Proof.
  split.
  - intros (m & r & k & combo & Hm & Hr & Hk & Rg & S). destruct (combos_spec _ _ _ _ Hk) as (_ & Lc & Nc & Hc). destruct (combo_perm combo r Lc Nc Hc Hr) as (r' & Hr' & E).
    set (q := fun a => memb a (neg_atoms f m)). destruct (bits_at (act r') n q (permutes_act r' n Hr')) as (m' & Hm' & B).
    exists m', r'. split; [exact Hm'|]. split; [exact Hr'|]. split; [exact Rg|]. intro e. apply S. intros i Hi.
    assert (Hai : act r i < v) by (apply (permutes_lt _ _ _ (permutes_act r v Hr) Hi)).
    assert (Hn : nth (act r i) (atomvals f) 0 < n). { assert (I : In (nth (act r i) (atomvals f) 0) (atomvals f)) by (apply nth_In, Hai). apply adicity_bound in I. lia. }
    rewrite B by exact Hn. rewrite E by exact Hi. f_equal. unfold q. apply neg_atoms_at; [apply fitting_NoDup, R | exact Hai].
  - intros (m & r & Hm & Hr & Rg & S). assert (P := permutes_act r n Hr). destruct (perm_combo (act r)) as (r' & k & combo & Hr' & Hk & E).
    + intros a Ha. apply (permutes_lt _ _ _ P). apply adicity_bound in Ha. lia.
    + intros a b Ha Hb. apply (injective_on _ n _ _ P); [apply adicity_bound in Ha | apply adicity_bound in Hb]; lia.
    + set (Q := fun j => Nat.testbit m (act r (nth j (atomvals f) 0))). exists (b2n (map Q (range v))), r', k, combo. split; [apply (place_lt Q)|]. split; [exact Hr'|]. split; [exact Hk|]. split; [exact Rg|].
      intros e e' H. rewrite S. apply sem_ext. intros a Ha. apply (In_nth _ _ 0) in Ha as (j & Hj & <-).
      destruct (act_onto r' v j Hr' Hj) as (i & Hi & <-). rewrite H by exact Hi. rewrite <- (E i Hi). f_equal. symmetry. apply (place_bits Q). exact Hj.
Qed.
End Combos.
