(** Props_Superfluous: property C122, what superfluous atoms change (objects made with the argument
    skip_deflation, compared with other objects of the same function). *)

From Coq Require Import List Arith ZArith QArith Bool Lia Permutation Sorted.
From Verif Require Import Lib Model_Base Model_Binary Model_Splits Model_Perm Model_SigPerm Model_WalshPerm Model_Boolf Model_Twin Model_BoolfMore Model_MinRep Model_Misc Model_Segments Model_Helpers Model_Layers
  Spec_Bits Spec_Perm Spec_SigPerm Spec_Boolf Spec_Twin Spec_Layers Spec_Misc Proof_Binary Proof_Perm Proof_SigPerm Proof_SigPermMore Proof_SigPermOps Proof_Boolf Proof_Deflate Proof_BoolfTable Proof_BoolfApply Proof_BoolfMake
  Proof_Twin Proof_Noble Proof_BoolfMore Proof_BoolfWalsh Proof_Splits Proof_MinRep Proof_MinRepMin Proof_Fract Proof_Layers Props_Boolf Props_Twin Props_Layers Props_Misc Props_BoolfMore.
Import ListNotations.
Local Open Scope nat_scope.

Definition same_function (f g : boolf) : Prop := forall e, sem f e = sem g e.
Definition has_superfluous (f : boolf) : Prop := exists a, In a (atomvals f) /\ ~ essential (sem f) a.

Lemma made_any {i} f : made i f -> made true f.
Proof. induction 1 as [n a f _ _ IH E]. exact (made_by true n a f (fun _ => eq_refl) IH E). Qed.
Lemma forallb_false_ex {A} (P : A -> bool) l : forallb P l <> true -> exists x, In x l /\ P x = false.
Proof.
  induction l as [|x l IH]; cbn; [congruence|]. intro H. destruct (P x) eqn:E; [|exists x; auto]. destruct (IH H) as (y & Hy & Ey). exists y. auto.
Qed.
Lemma same_tab f g : same_function f g -> forall k, tab f k = tab g k.
Proof. intros H k. apply H. Qed.

(** * What does not see them *)

Section Same.
Context (f g : boolf) (Mf : made true f) (Mg : made true g) (S : same_function f g).
Let Ff := m_fit true f Mf.
Let Fg := m_fit true g Mg.

Lemma same_zhe : boolf_zhe f = boolf_zhe g.
Proof.
  destruct (boolf_zhe_spec f Ff) as (z & E & _ & _ & Z). destruct (boolf_zhe_spec g Fg) as (z' & E' & _ & _ & Z'). rewrite E, E'. f_equal. apply zhegalkin_inj. intro e. rewrite Z, Z'. apply S.
Qed.
Lemma same_quadrant : quadrant f = quadrant g.
Proof.
  set (n := Nat.max (adicity f) (adicity g)). rewrite (quadrant_tab f n), (quadrant_tab g n) by (assumption || lia). rewrite !(same_tab f g S). reflexivity.
Qed.
Lemma same_table n : adicity f <= n -> adicity g <= n -> boolf_tt f (TtArity n) = boolf_tt g (TtArity n).
Proof. intros A B. rewrite !tt_spec by assumption. f_equal. apply map_ext. intro k. apply (same_tab f g S). Qed.
Lemma same_odd : is_odd f = is_odd g.
Proof. rewrite !is_odd_tab. apply (same_tab f g S). Qed.
Lemma same_odious : is_odious f = is_odious g.
Proof. assert (Q := same_quadrant). unfold quadrant in Q. rewrite same_odd in Q. destruct (is_odious f), (is_odious g); try reflexivity; cbn in Q; lia. Qed.
Lemma same_ugly : is_ugly f = is_ugly g.
Proof. unfold is_ugly. rewrite same_odd, same_odious. reflexivity. Qed.
Lemma same_not : boolf_not f = boolf_not g.
Proof.
  destruct (not_spec f Ff) as (h & E & R & H). destruct (not_spec g Fg) as (h' & E' & R' & H'). rewrite E, E'. f_equal. apply reduced_unique; [assumption | assumption|]. intro e. rewrite H, H', S. reflexivity.
Qed.
Lemma same_reverse : reverse f = reverse g.
Proof.
  destruct (reverse_spec f Ff) as (h & E & R & H). destruct (reverse_spec g Fg) as (h' & E' & R' & H'). rewrite E, E'. f_equal. apply reduced_unique; [assumption | assumption|]. intro e. rewrite H, H'. apply S.
Qed.
Lemma same_bitwise op h : fitting h -> boolf_bitwise op f h = boolf_bitwise op g h /\ boolf_bitwise op h f = boolf_bitwise op h g.
Proof.
  intro Fh. split; [destruct (bitwise_spec op f h Ff Fh) as (x & E & R & H); destruct (bitwise_spec op g h Fg Fh) as (y & E' & R' & H') | destruct (bitwise_spec op h f Fh Ff) as (x & E & R & H); destruct (bitwise_spec op h g Fh Fg) as (y & E' & R' & H')];
    rewrite E, E'; f_equal; (apply reduced_unique; [assumption | assumption|]); intro e; rewrite H, H', S; reflexivity.
Qed.
Lemma same_lt h : fitting h -> bitwise_lt f h = bitwise_lt g h /\ bitwise_lt h f = bitwise_lt h g.
Proof.
  assert (X : forall p q : bool, (p = true <-> q = true) -> p = q) by (intros [] []; intuition).
  intro Fh. split; [destruct (lt_spec f h Ff Fh) as (x & E & H); destruct (lt_spec g h Fg Fh) as (y & E' & H') | destruct (lt_spec h f Fh Ff) as (x & E & H); destruct (lt_spec h g Fh Fg) as (y & E' & H')];
    rewrite E, E'; f_equal; apply X; rewrite H, H'; (split; intros [P [e Q]]; (split; [intro d; specialize (P d) | exists e])); first [rewrite S in *; assumption | rewrite <- S in *; assumption].
Qed.
Lemma same_linear : is_linear f = is_linear g.
Proof.
  destruct (is_linear_fit f Ff) as (q & E & H). destruct (is_linear_fit g Fg) as (q' & E' & H'). rewrite E, E'. f_equal.
  assert (X : q = true <-> q' = true) by (rewrite H, H'; split; intros (l & c & K); exists l, c; intro e; rewrite <- K; [symmetry|]; apply S). destruct q, q'; intuition.
Qed.
Lemma same_weight : weight_fract f = weight_fract g.
Proof.
  set (n := Nat.max (adicity f) (adicity g)). rewrite !weight_fract_ok by assumption. f_equal. apply Qred_complete. rewrite (weight_fract_arity f n), (weight_fract_arity g n) by (assumption || lia).
  assert (T : true_places n f = true_places n g) by (unfold true_places; f_equal; apply filter_ext; intro k; apply S). rewrite T. reflexivity.
Qed.
Lemma same_value : value_fract f = value_fract g.
Proof.
  set (n := Nat.max (adicity f) (adicity g)). rewrite !value_fract_ok by assumption. f_equal. apply Qred_complete. rewrite <- (value_arity f n), <- (value_arity g n) by lia.
  assert (T : ttab f n = ttab g n) by (unfold ttab; apply map_ext; intro k; apply S). rewrite T. reflexivity.
Qed.
Lemma same_prefect : prefect_boolf f = prefect_boolf g /\ prefect_walsh_and_oddness f = prefect_walsh_and_oddness g /\ prefect_leader_and_quadrant f = prefect_leader_and_quadrant g.
Proof.
  destruct (boolf_zhe_spec f Ff) as (z & E & _). assert (E' := E). rewrite same_zhe in E'. split; [|split].
  - destruct (prefect_boolf_spec f z Ff E) as (x & X & R & H). destruct (prefect_boolf_spec g z Fg E') as (y & Y & R' & H'). rewrite X, Y. f_equal. apply reduced_unique; [assumption | assumption|]. intro e. rewrite H, H'. reflexivity.
  - rewrite (prefect_index_spec f z Ff E), (prefect_index_spec g z Fg E'). reflexivity.
  - rewrite (prefect_leader_spec f z Ff E), (prefect_leader_spec g z Fg E'). reflexivity.
Qed.
Lemma same_twin n : adicity f <= n -> adicity g <= n -> boolf_twin f (Some n) = boolf_twin g (Some n).
Proof. intros A B. unfold boolf_twin. rewrite (proj2 (Nat.leb_le _ _) A), (proj2 (Nat.leb_le _ _) B). cbn [true_except bind]. rewrite same_table by assumption. reflexivity. Qed.
Lemma same_sharp n : adicity f <= n -> adicity g <= n -> is_sharp f n = is_sharp g n.
Proof. intros A B. unfold is_sharp. rewrite same_table by assumption. reflexivity. Qed.
End Same.

(** Truth values, numbers and the results of operations are the same for all objects of a function. *)
Theorem C122_same : forall f g, made true f -> made true g -> (forall e, sem f e = sem g e) ->
  (forall k, boolf_get f k = boolf_get g k) /\ boolf_zhe f = boolf_zhe g /\ quadrant f = quadrant g /\ weight_fract f = weight_fract g /\ value_fract f = value_fract g /\ is_linear f = is_linear g /\
  prefect_boolf f = prefect_boolf g /\ prefect_walsh_and_oddness f = prefect_walsh_and_oddness g /\ prefect_leader_and_quadrant f = prefect_leader_and_quadrant g /\
  boolf_not f = boolf_not g /\ reverse f = reverse g /\
  (forall h, made true h -> boolf_and f h = boolf_and g h /\ boolf_or f h = boolf_or g h /\ boolf_xor f h = boolf_xor g h /\ bitwise_lt f h = bitwise_lt g h /\ bitwise_lt h f = bitwise_lt h g).
Proof.
  intros f g Mf Mg S. split; [intro k; rewrite !get_spec by (apply (m_fit true); assumption); f_equal; apply S|]. split; [apply (same_zhe f g Mf Mg S)|]. split; [apply (same_quadrant f g Mf Mg S)|]. split; [apply (same_weight f g Mf Mg S)|].
  split; [apply (same_value f g Mf Mg S)|]. split; [apply (same_linear f g Mf Mg S)|]. destruct (same_prefect f g Mf Mg S) as (P1 & P2 & P3). split; [exact P1|]. split; [exact P2|]. split; [exact P3|].
  split; [apply (same_not f g Mf Mg S)|]. split; [apply (same_reverse f g Mf Mg S)|]. intros h Mh. assert (Fh := m_fit true h Mh).
  split; [apply (same_bitwise f g Mf Mg S andb h Fh)|]. split; [apply (same_bitwise f g Mf Mg S orb h Fh)|]. split; [apply (same_bitwise f g Mf Mg S xorb h Fh)|]. apply (same_lt f g Mf Mg S h Fh).
Qed.
Print Assumptions C122_same.

(** So are the results for a given arity, and those of signed permutations. *)
Theorem C122_same_arity : forall f g n, made true f -> made true g -> (forall e, sem f e = sem g e) -> within n f -> within n g ->
  boolf_tt f (TtArity n) = boolf_tt g (TtArity n) /\ boolf_twin f (Some n) = boolf_twin g (Some n) /\
  patron_int f n = patron_int g n /\ patron_boolf f n = patron_boolf g n /\ patron_quadrant f n = patron_quadrant g n /\ patron_royal f n = patron_royal g n /\ patron_index f n = patron_index g n /\
  consul f (TtArity n) = consul g (TtArity n) /\ walsh_spectrum f (TtArity n) = walsh_spectrum g (TtArity n) /\ walsh_distances f (TtArity n) = walsh_distances g (TtArity n) /\
  is_sharp f n = is_sharp g n /\ is_acute f n = is_acute g n /\ is_rude f n = is_rude g n /\ is_rough f n = is_rough g n.
Proof.
  intros f g n Mf Mg S A B. assert (Fg := m_fit true g Mg). apply within_adicity in A, B. assert (T := same_table f g Mf Mg S n A B). assert (W := same_twin f g Mf Mg S n A B).
  assert (P : patron_int f n = patron_int g n) by (unfold patron_int; rewrite T, (same_zhe f g Mf Mg S); reflexivity). assert (Q := same_sharp f g Mf Mg S n A B).
  split; [exact T|]. split; [exact W|]. split; [exact P|]. split.
  { unfold patron_boolf. rewrite W. destruct (twin_spec g n Fg B) as (t & E & R & _). rewrite E. cbn [bind]. apply (same_bitwise f g Mf Mg S xorb t (proj1 R)). }
  unfold patron_quadrant, patron_royal, patron_index. rewrite P. split; [reflexivity|]. split; [reflexivity|]. split; [reflexivity|].
  unfold consul, walsh_spectrum, walsh_distances. rewrite T. split; [reflexivity|]. split; [reflexivity|]. split; [reflexivity|]. split; [exact Q|].
  unfold is_acute, is_rude, is_rough. rewrite Q, (same_ugly f g Mf Mg S), (same_odd f g S), (same_odious f g Mf Mg S). auto.
Qed.
Print Assumptions C122_same_arity.

(** Applying a Perm or a SigPerm gives the same object; so does a sequence, if the function is not constant
    (a constant without atoms takes anything for a sequence). *)
Theorem C122_same_apply : forall f g, made true f -> made true g -> (forall e, sem f e = sem g e) ->
  (forall s, is_SigPerm s -> apply_sigperm f s = apply_sigperm g s) /\ (forall p, is_Perm p -> perilen p = None -> apply_perm f p = apply_perm g p) /\
  ((exists e e', sem f e <> sem f e') -> forall l, apply_sigperm_list f l = apply_sigperm_list g l).
Proof.
  intros f g Mf Mg S. destruct (made_wellmade true f Mf) as (Wf & _). destruct (made_wellmade true g Mg) as (Wg & _).
  assert (U : forall h k, made false h -> made false k -> (forall e, sem h e = sem k e) -> h = k) by (intros h k Mh Mk; apply reduced_unique; apply m_red; assumption).
  split; [|split].
  - intros s Hs. apply is_SigPerm_swf in Hs as Hw. destruct (apply_sigperm_spec f s Wf Hw) as (h & E & R & H). destruct (apply_sigperm_spec g s Wg Hw) as (h' & E' & R' & H'). rewrite E, E'. f_equal. apply reduced_unique; [exact R | exact R'|]. intro e. rewrite H, H'. apply S.
  - intros p Hp En. destruct (C34_perm f p Mf Hp En) as (h & E & R & H). destruct (C34_perm g p Mg Hp En) as (h' & E' & R' & H'). rewrite E, E'. f_equal. apply U; [exact R | exact R'|]. intro e. rewrite H, H'. apply S.
  - intros C l. assert (Cg : changing g) by (destruct C as (e & e' & H); exists e, e'; rewrite <- !S; exact H). destruct (C34_sequence f l Mf) as (A & B). destruct (C34_sequence g l Mg) as (A' & B').
    destruct (Permutation_dec_nat (map atom l) (seq 0 (length l))) as [P|P].
    + destruct (A P) as (h & E & R & H). destruct (A' P) as (h' & E' & R' & H'). rewrite E, E'. f_equal. apply U; [exact R | exact R'|]. intro e. rewrite H, H'. apply S.
    + rewrite (B P (changing_valued f Wf C)), (B' P (changing_valued g Wg Cg)). reflexivity.
Qed.
Print Assumptions C122_same_apply.

(** Every object has the same function as one without superfluous atoms. *)
Lemma deflated {i} f n : made i f -> within n f -> exists f0, made false f0 /\ made true f0 /\ within n f0 /\ forall e, sem f e = sem f0 e.
Proof.
  intros M W. destruct (made_wellmade i f M) as (Wf & _). destruct (necessary_atoms f Wf) as (g & R & S & I). exists g. assert (Mg := reduced_made g R). split; [exact Mg|]. split; [apply (made_any g Mg)|].
  split; [intros a Ha; apply W, I, Ha|]. intro e. symmetry. apply S.
Qed.

(** * What sees them *)

(** Two objects are equal if they have the same function and the same atoms, superfluous or not. *)
Theorem C122_equality : forall f g, made true f -> made true g -> (boolf_eqb f g = true <-> (forall e, sem f e = sem g e) /\ atomvals f = atomvals g).
Proof.
  intros f g Mf Mg. destruct (m_fit true f Mf) as (Sf & Lf). destruct (m_fit true g Mg) as (_ & Lg). rewrite boolf_eqb_eq. split.
  - intros [E1 E2]. split; [|exact E2]. intro e. unfold sem. rewrite E1, E2. reflexivity.
  - intros [H E]. split; [|exact E]. unfold valency in *. rewrite <- E in Lg. apply (table_inj _ _ (atomvals f)); [apply sorted_lt_NoDup, Sf | exact Lf | exact Lg|]. intro e. unfold sem in H. rewrite H, E. reflexivity.
Qed.
Print Assumptions C122_equality.

(** The order [<=]: equal functions with different atoms are not below each other. *)
Theorem C122_le : forall f g, made true f -> made true g -> exists q, bitwise_le f g = Ok q /\
  (q = true <-> (forall e, sem f e = true -> sem g e = true) /\ ((forall e, sem f e = sem g e) -> atomvals f = atomvals g)).
Proof.
  intros f g Mf Mg. assert (Ff := m_fit true f Mf). assert (Fg := m_fit true g Mg). destruct (le_spec f g Ff Fg) as (q & E & H). exists q. split; [exact E|]. rewrite H, (C122_equality f g Mf Mg). split.
  - intros [[S A]|[L (e & D)]]; [split; [intros e He; rewrite <- S; exact He | intros _; exact A] | split; [exact L | intro S; destruct (D (S e))]].
  - intros [L A]. set (n := Nat.max (adicity f) (adicity g)). destruct (forallb (fun k => Bool.eqb (tab f k) (tab g k)) (range (2 ^ n))) eqn:D.
    + left. assert (S : forall e, sem f e = sem g e). { apply (tab_inj f g n); [lia | lia|]. intros k Hk. rewrite forallb_forall in D. apply eqb_prop, D, range_In, Hk. } split; [exact S | exact (A S)].
    + right. split; [exact L|]. apply not_true_iff_false in D. assert (X : exists k, tab f k <> tab g k). { apply forallb_false_ex in D as (k & _ & D). exists k. apply eqb_false_iff, D. } destruct X as (k & X). eexists. exact X.
Qed.
Print Assumptions C122_le.

(** A noble function is its own twin; an object with a superfluous atom never counts as noble, because the
    twin is an object without superfluous atoms. *)
Theorem C122_noble : forall f n, made true f -> within n f -> exists q, is_noble f (Some n) = Ok q /\
  (q = true <-> (forall a, In a (atomvals f) -> essential (sem f) a) /\ forall j, j < 2 ^ n -> value f j = moebius n (value f) j).
Proof.
  intros f n M Hn. assert (F := m_fit true f M). apply within_adicity in Hn. unfold is_noble. destruct (twin_spec f n F Hn) as (g & E & Rg & Ag & T). rewrite E. cbn [bind]. eexists. split; [reflexivity|].
  rewrite <- noble_moebius, boolf_eqb_eq. split.
  - intros [E1 E2]. assert (S : forall e, sem f e = sem g e) by (intro e; unfold sem; rewrite E1, E2; reflexivity). split.
    + intros a Ha. rewrite E2 in Ha. apply (atoms_essential g a Rg) in Ha. apply (essential_ext (sem g)); [intro e; symmetry; apply S | exact Ha].
    + intros j Hj. rewrite <- T by exact Hj. apply S.
  - intros [Es H]. assert (S : forall e, sem f e = sem g e). { apply (tab_inj f g n Hn Ag). intros i Hi. rewrite T by exact Hi. apply H, Hi. }
    apply red_unique; [| apply reduced_iff, Rg | exact S]. split; [apply F|]. split; [apply F | exact Es].
Qed.
Print Assumptions C122_noble.

Theorem C122_noble_quadrant : forall f n, made true f -> within n f -> (exists a, In a (atomvals f) /\ ~ essential (sem f) a) ->
  is_noble f (Some n) = Ok false /\ noble_quadrant f (Some n) = Err ValueErr.
Proof.
  intros f n M Hn (a & Ia & Na). destruct (C122_noble f n M Hn) as (q & E & H). assert (X : q = false) by (apply not_true_is_false; intro X; apply H in X as [X _]; apply Na, X, Ia). subst q.
  split; [exact E|]. unfold noble_quadrant. rewrite E. reflexivity.
Qed.
Print Assumptions C122_noble_quadrant.

(** The weight of the root is even, so the object is never male. *)
Theorem C122_male : forall f, made true f -> (exists a, In a (atomvals f) /\ ~ essential (sem f) a) -> is_male f = false.
Proof.
  intros f M (a & Ia & Na). destruct (made_wellmade true f M) as (W & _). assert (F := m_fit true f M). destruct (necessary_atoms f W) as (g & Rg & Sg & I). set (n := adicity f).
  assert (Ag : adicity g <= n). { apply within_adicity. intros b Hb. apply I in Hb as [Hb _]. apply adicity_bound, Hb. }
  assert (V : valency g < valency f).
  { destruct (asc_incl_length (atomvals g) (atomvals f)) as (Le & Iff); [apply Rg | apply F | intros b Hb; apply I, Hb|]. unfold valency. destruct (Nat.eq_dec (length (atomvals g)) (length (atomvals f))) as [Eq|]; [|lia].
    exfalso. apply Na. apply I, (proj1 Iff Eq), Ia. }
  assert (Vf : valency f <= n) by (apply valency_adicity; exact F).
  assert (T : true_places n f = true_places n g) by (unfold true_places; f_equal; apply filter_ext; intro k; symmetry; apply Sg).
  rewrite (true_places_root f n F (Nat.le_refl _)), (true_places_root g n (proj1 Rg) Ag) in T.
  replace (n - valency g) with ((n - valency f) + S (valency f - valency g - 1)) in T by lia. rewrite Nat.pow_add_r, <- Nat.mul_assoc in T. apply Nat.mul_cancel_l in T; [|apply Nat.pow_nonzero; lia].
  unfold is_male. rewrite T, Nat.pow_succ_r', <- Nat.mul_assoc, Nat.mul_comm, Nat.mod_mul by lia. reflexivity.
Qed.
Print Assumptions C122_male.

(** Only constant functions are symmetric in an object with a superfluous atom. *)
Theorem C122_symmetric : forall f, made true f -> (exists a, In a (atomvals f) /\ ~ essential (sem f) a) ->
  exists q, is_symmetric f = Ok q /\ (q = true <-> forall e e', sem f e = sem f e').
Proof.
  intros f M (a & Ia & Na). destruct (made_wellmade true f M) as (W & _). destruct (C80_symmetric true f M) as (q & E & _ & H). exists q. split; [exact E|]. rewrite H. split; [|intros C pi _ _ e; apply C].
  intros P e e'. destruct (bool_dec (sem f e) (sem f e')) as [|D]; [assumption|]. exfalso. destruct (changing_essential f W (ex_intro _ e (ex_intro _ e' D))) as (b & _ & Eb).
  assert (Ib : In b (atomvals f)) by (apply (essential_in (root f)); exact Eb). destruct Eb as (d & Hd). apply Na.
  set (tau := fun x => if Nat.eqb x a then b else if Nat.eqb x b then a else x).
  assert (Q : forall d, sem f (fun x => d (tau x)) = sem f d).
  { apply P; unfold tau.
    - intros x Hx. destruct (Nat.eqb_spec x a); [exact Ib|]. destruct (Nat.eqb_spec x b); assumption.
    - intros x y _ _. destruct (Nat.eqb_spec x a), (Nat.eqb_spec y a), (Nat.eqb_spec x b), (Nat.eqb_spec y b); subst; intro; subst; congruence || reflexivity. }
  exists (fun x => d (tau x)). assert (X : forall v, sem f (upd (fun x => d (tau x)) a v) = sem f (upd d b v)).
  { intro v. rewrite <- (Q (upd d b v)). apply sem_ext. intros x _. unfold upd, tau. destruct (Nat.eqb_spec x a) as [->|Nx]; [rewrite Nat.eqb_refl; reflexivity|].
    destruct (Nat.eqb_spec x b) as [->|Nb]; [destruct (Nat.eqb_spec a b); congruence || reflexivity | destruct (Nat.eqb_spec x b); [contradiction | reflexivity]]. }
  rewrite !X. exact Hd.
Qed.
Print Assumptions C122_symmetric.

(** The leader is the object itself in quadrant 0, with its superfluous atoms; in the other quadrants it has none. *)
Theorem C122_leader : forall f g n, made true f -> made true g -> (forall e, sem f e = sem g e) -> within n f -> within n g ->
  (quadrant f = 0 -> leader f (Some n) = Ok f /\ leader g (Some n) = Ok g) /\ (quadrant f <> 0 -> exists h, leader f (Some n) = Ok h /\ leader g (Some n) = Ok h /\ made false h).
Proof.
  intros f g n Mf Mg S A B. assert (Q := same_quadrant f g Mf Mg S). split; [intro Z; unfold leader; rewrite <- Q, Z; auto|]. intro Z.
  destruct (made_wellmade true f Mf) as (W & _). destruct (necessary_atoms f W) as (f0 & R0 & S0 & I0). assert (M0 := reduced_made f0 R0). assert (A0 : within n f0) by (intros a Ha; apply A, I0, Ha).
  destruct (C51_leader f0 n M0 A0) as (h & E & Mh & _). assert (M0' : made true f0) by (exact (made_any f0 M0)).
  assert (X : forall k, made true k -> within n k -> (forall e, sem k e = sem f0 e) -> quadrant k <> 0 -> leader k (Some n) = leader f0 (Some n)).
  { intros k Mk Ak Sk Zk. assert (Qk := same_quadrant k f0 Mk M0' Sk). apply within_adicity in Ak. assert (A1 := A0). apply within_adicity in A1. unfold leader. rewrite <- Qk, (same_twin k f0 Mk M0' Sk n Ak A1), (same_not k f0 Mk M0' Sk). destruct (quadrant k) as [|[|[|]]]; reflexivity || contradiction. }
  exists h. split; [|split; [|exact Mh]]; rewrite <- E; apply X; try assumption.
  - intro e. symmetry. apply S0.
  - intro e. rewrite S0. symmetry. apply S.
  - rewrite <- Q. exact Z.
Qed.
Print Assumptions C122_leader.

(** * Examples *)

(* x1, and the same function with the superfluous atom 0 *)
Definition ex_x1 : boolf := mkBoolf [false; true] [1] false false.
Definition ex_x1_raw : boolf := mkBoolf [false; false; true; true] [0; 1] false true.
Definition ex_zero_raw : boolf := mkBoolf [false; false] [0] false true.
Definition raw (v : list Z) : bargs := mkArgs (Some (TtVector v)) None None None None None None None None None None true.
Lemma ex_x1_made : made true ex_x1.
Proof. refine (made_by true 1 (mkArgs None None (Some 1%Z) None None None None None None None None false) _ (fun _ => eq_refl) _ _); [intros g [] | vm_compute; reflexivity]. Qed.
Lemma ex_x1_raw_made : made true ex_x1_raw.
Proof. refine (made_by true 1 (raw [0; 0; 1; 1]%Z) _ (fun _ => eq_refl) _ _); [intros g [] | vm_compute; reflexivity]. Qed.
Lemma ex_zero_raw_made : made true ex_zero_raw.
Proof. refine (made_by true 1 (raw [0; 0]%Z) _ (fun _ => eq_refl) _ _); [intros g [] | vm_compute; reflexivity]. Qed.
Lemma ex_x1_same : forall e, sem ex_x1 e = sem ex_x1_raw e.
Proof. intro e. cbn. destruct (e 0), (e 1); reflexivity. Qed.
Lemma ex_x1_raw_zero : In 0 (atomvals ex_x1_raw) /\ ~ essential (sem ex_x1_raw) 0.
Proof. split; [left; reflexivity|]. intros (e & H). apply H. rewrite <- !ex_x1_same. reflexivity. Qed.

Example C122_ex_same : made true ex_x1 /\ made true ex_x1_raw /\ (forall e, sem ex_x1 e = sem ex_x1_raw e) /\ within 3 ex_x1 /\ within 3 ex_x1_raw /\ (exists e e', sem ex_x1 e <> sem ex_x1 e') /\
  (exists a, In a (atomvals ex_x1_raw) /\ ~ essential (sem ex_x1_raw) a) /\
  (boolf_tt ex_x1 (TtArity 2), boolf_tt ex_x1_raw (TtArity 2)) = (Ok [false; false; true; true], Ok [false; false; true; true]).
Proof.
  split; [exact ex_x1_made|]. split; [exact ex_x1_raw_made|]. split; [exact ex_x1_same|]. split; [intros a [<-|[]]; lia|]. split; [intros a [<-|[<-|[]]]; lia|].
  split; [exists (fun _ => true), (fun _ => false); discriminate|]. split; [exists 0; exact ex_x1_raw_zero | vm_compute; reflexivity].
Qed.

(** The rest depends on the object: the same function is male, symmetric and below itself as one object, not as the other. *)
Theorem C122_depends_refuted : exists f g, made true f /\ made true g /\ (forall e, sem f e = sem g e) /\
  is_male f <> is_male g /\ is_symmetric f <> is_symmetric g /\ bitwise_le f f <> bitwise_le f g /\ boolf_eqb f g = false.
Proof.
  exists ex_x1, ex_x1_raw. split; [exact ex_x1_made|]. split; [exact ex_x1_raw_made|]. split; [exact ex_x1_same|]. split; [discriminate|]. split; [vm_compute; discriminate|]. split; [vm_compute; discriminate | reflexivity].
Qed.
Print Assumptions C122_depends_refuted.

(** The contradiction is its own twin, but with a superfluous atom it is not noble. *)
Theorem C122_noble_refuted : exists f, made true f /\ within 1 f /\ (forall j, j < 2 ^ 1 -> value f j = moebius 1 (value f) j) /\ is_noble f (Some 1) = Ok false /\ noble_quadrant f (Some 1) = Err ValueErr.
Proof.
  exists ex_zero_raw. split; [exact ex_zero_raw_made|]. split; [intros a [<-|[]]; lia|]. split; [|split; reflexivity].
  intros j Hj. destruct j as [|[|j]]; [reflexivity | reflexivity | cbn in Hj; lia].
Qed.
Print Assumptions C122_noble_refuted.

(* in quadrant 0 the leader keeps the superfluous atom *)
Example C122_ex_leader : (quadrant ex_x1_raw, leader ex_x1_raw (Some 2)) = (2, Ok (mkBoolf [false; true; false; false] [0; 1] false false)) /\
  (quadrant (mkBoolf [false; true; true; false; false; true; true; false] [0; 1; 2] false true), leader (mkBoolf [false; true; true; false; false; true; true; false] [0; 1; 2] false true) (Some 3)) =
  (0, Ok (mkBoolf [false; true; true; false; false; true; true; false] [0; 1; 2] false true)).
Proof. split; vm_compute; reflexivity. Qed.
Example C122_ex_constant : made true ex_zero_raw /\ (exists a, In a (atomvals ex_zero_raw) /\ ~ essential (sem ex_zero_raw) a) /\ is_symmetric ex_zero_raw = Ok true /\ is_symmetric ex_x1_raw = Ok false /\ is_male ex_x1_raw = false /\ is_male ex_x1 = true.
Proof.
  split; [exact ex_zero_raw_made|]. split; [exists 0; split; [left; reflexivity | intros (e & H); apply H; reflexivity]|]. split; [vm_compute; reflexivity|]. split; [vm_compute; reflexivity|]. split; reflexivity.
Qed.
