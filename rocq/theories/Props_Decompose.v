(** Props_Decompose: property C112, a function without links together with a function that is
    nothing but links (boolf/test/05_blight/boolf_5_test.py and
    boolf/test/06_decomposition/boolf_6_test.py state it for some examples).

    [order] is the iteration order of a Python set; every theorem is about all orders. *)

From Coq Require Import List Arith ZArith Bool Lia Permutation Sorted Relations.
From Verif Require Import Model_Base Lib Model_Binary Model_Splits Model_Perm Model_SetPart Model_SetPartComp Model_Boolf Model_SetPartBoolf Model_Blight.
From Verif Require Import Spec_Bits Spec_Boolf Spec_Splits Spec_Blight Proof_Binary Proof_Boolf Proof_BoolfTable Proof_BoolfMake Props_Boolf Proof_Splits Props_Splits
  Proof_Blight Proof_BlightBoolf Proof_Blocks Proof_BlightBlocks Proof_Bloatless Proof_Blightless Props_Blight.
Import ListNotations.
Open Scope nat_scope.

(** [g] is nothing but links: each atom [x] is equal to the atom [m x], or to its complement if
    [s x]; [m] chooses one atom of each class *)
Definition ties (m : nat -> nat) (s : nat -> bool) (g : boolf) : Prop :=
  (forall x, m (m x) = m x) /\ (forall x, s (m x) = false) /\
  forall e, sem g e = true <-> forall x, e x = xorb (e (m x)) (s x).

(** no two atoms of [f] are in the same class *)
Definition apart (m : nat -> nat) (f : boolf) : Prop :=
  forall a b, In a (atomvals f) -> In b (atomvals f) -> m a = m b -> a = b.

Definition satisfiable (f : boolf) : Prop := exists e, sem f e = true.

Lemma atom_key f x : In x (atomvals f) -> exists k, k < valency f /\ nth_atom f k = x.
Proof. intro H. destruct (In_nth _ _ 0 H) as [k [Hk E]]. exists k. auto. Qed.
Lemma key_atom f k : k < valency f -> In (nth_atom f k) (atomvals f).
Proof. intro H. apply nth_In. exact H. Qed.
Lemma key_inj f i j : fitting f -> i < valency f -> j < valency f -> nth_atom f i = nth_atom f j -> i = j.
Proof. intros Hf Hi Hj E. apply (proj1 (NoDup_nth (atomvals f) 0) (fitting_NoDup f Hf) i j Hi Hj E). Qed.

Lemma sorted_at' l : StronglySorted lt l -> forall i j, i < j -> j < length l -> nth i l 0 < nth j l 0.
Proof.
  induction 1 as [|x l S IH F]; intros i j Hij Hj; [cbn in Hj; lia|]. cbn in Hj. destruct j as [|j]; [lia|]. destruct i as [|i]; cbn [nth].
  - rewrite Forall_forall in F. apply F, nth_In. lia.
  - apply IH; lia.
Qed.

Section Decompose.
Context (m : nat -> nat) (s : nat -> bool) (f g h : boolf).
Context (Rf : reduced f) (Rg : reduced g) (Rh : reduced h) (T : ties m s g) (Sh : forall e, sem h e = sem f e && sem g e).
Context (A : apart m f) (NL : no_links f) (e0 : assignment) (S0 : sem f e0 = true).

Local Notation M2 := (proj1 T).
Local Notation SM := (proj1 (proj2 T)).
Local Notation SG := (proj2 (proj2 T)).

Definition spread (e d : assignment) : assignment := fun x =>
  xorb (match find (fun a => Nat.eqb (m a) (m x)) (atomvals f) with Some a => xorb (e a) (s a) | None => d (m x) end) (s x).

Lemma find_class x : match find (fun a => Nat.eqb (m a) (m x)) (atomvals f) with
  | Some a => In a (atomvals f) /\ m a = m x
  | None => forall a, In a (atomvals f) -> m a <> m x end.
Proof.
  destruct (find _ (atomvals f)) as [a|] eqn:E.
  - apply find_some in E. destruct E as [H1 H2]. apply Nat.eqb_eq in H2. auto.
  - intros a Ha C. apply (find_none _ _ E) in Ha. apply Nat.eqb_neq in Ha. auto.
Qed.

Lemma spread_atom e d x : In x (atomvals f) -> spread e d x = e x.
Proof.
  intro Hx. unfold spread. assert (F := find_class x). destruct (find _ (atomvals f)) as [a|].
  - destruct F as [Ha E]. rewrite (A a x Ha Hx E). destruct (e x), (s x); reflexivity.
  - destruct (F x Hx eq_refl).
Qed.
Lemma spread_f e d : sem f (spread e d) = sem f e.
Proof. apply sem_ext. intros a Ha. apply spread_atom. exact Ha. Qed.
Lemma spread_g e d : sem g (spread e d) = true.
Proof. apply SG. intro x. unfold spread. rewrite M2, SM, xorb_false_r. reflexivity. Qed.
Lemma spread_h e d : sem f e = true -> sem h (spread e d) = true.
Proof. intro H. rewrite Sh, spread_f, spread_g, H. reflexivity. Qed.

Lemma sem_h e : sem h e = true <-> sem f e = true /\ forall x, e x = xorb (e (m x)) (s x).
Proof. rewrite Sh, andb_true_iff, SG. reflexivity. Qed.

Lemma upd_same e x : forall y, upd e x (e x) y = e y.
Proof. intro y. unfold upd. destruct (Nat.eqb_spec y x) as [->|]; reflexivity. Qed.

Lemma shared_atom x y : y <> x -> m y = m x -> In x (atomvals h).
Proof.
  intros Hne Em. apply (atoms_essential h x Rh). pose (e := spread e0 (fun _ => false)).
  assert (H1 : sem h e = true) by (apply spread_h; exact S0). exists e.
  assert (Hf : sem h (upd e x (negb (e x))) = false).
  { apply not_true_iff_false. rewrite sem_h. intros [_ C]. apply sem_h in H1. destruct H1 as [_ H1].
    assert (Cx := C x). assert (Cy := C y). assert (Hx := H1 x). assert (Hy := H1 y). rewrite Em in Cy, Hy. unfold upd in *.
    rewrite Nat.eqb_refl in Cx. rewrite (proj2 (Nat.eqb_neq y x) Hne) in Cy. destruct (Nat.eqb_spec (m x) x) as [E|E].
    - rewrite E in *. destruct (e x), (e y), (s x), (s y); discriminate.
    - destruct (e (m x)), (e x), (e y), (s x), (s y); discriminate. }
  assert (Ht : sem h (upd e x (e x)) = true) by (rewrite (sem_ext h _ e) by (intros; apply upd_same); exact H1).
  destruct (e x); cbn [negb] in Hf; congruence.
Qed.

Lemma atoms_f x : In x (atomvals f) -> In x (atomvals h).
Proof.
  intro Hx. destruct (in_dec Nat.eq_dec x (atomvals h)) as [|Hn]; [assumption|]. exfalso.
  assert (One : forall y, m y = m x -> y = x). { intros y E. destruct (Nat.eq_dec y x) as [|Hne]; [assumption|]. destruct (Hn (shared_atom x y Hne E)). }
  apply Hn, (atoms_essential h x Rh). destruct (proj1 (atoms_essential f x Rf) Hx) as [e He].
  assert (K : exists q, sem f (upd e x q) = true /\ sem f (upd e x (negb q)) = false).
  { destruct (sem f (upd e x true)) eqn:E1, (sem f (upd e x false)) eqn:E2; try congruence; [exists true | exists false]; auto. }
  destruct K as [q [K1 K2]]. pose (E := spread (upd e x q) (fun _ => false)). exists E.
  assert (H1 : sem h (upd E x q) = true).
  { rewrite (sem_ext h _ E); [apply spread_h; exact K1|]. intros y _. unfold upd at 1. destruct (Nat.eqb_spec y x) as [->|]; [|reflexivity].
    unfold E. rewrite spread_atom by exact Hx. unfold upd. rewrite Nat.eqb_refl. reflexivity. }
  assert (H2 : sem h (upd E x (negb q)) = false).
  { rewrite Sh. rewrite (sem_ext f _ (upd e x (negb q))); [rewrite K2; reflexivity|]. intros a Ha. unfold upd at 1 2. destruct (Nat.eqb_spec a x) as [->|Hne]; [reflexivity|].
    unfold E. rewrite spread_atom by exact Ha. unfold upd. destruct (Nat.eqb_spec a x); [contradiction | reflexivity]. }
  destruct q; cbn [negb] in H2; congruence.
Qed.

Lemma linked_iff i j c : i < valency h -> j < valency h ->
  (linked h i j c <-> m (nth_atom h i) = m (nth_atom h j) /\ c = xorb (s (nth_atom h i)) (s (nth_atom h j))).
Proof.
  intros Hi Hj. unfold linked. set (x := nth_atom h i). set (y := nth_atom h j). split.
  - intro L. destruct (Nat.eq_dec (m x) (m y)) as [E|N].
    + split; [exact E|]. assert (H1 := spread_h e0 (fun _ => false) S0). rewrite <- (L _ H1). apply sem_h in H1. destruct H1 as [_ H1]. rewrite (H1 x), (H1 y), E.
      destruct (spread e0 (fun _ => false) (m y)), (s x), (s y); reflexivity.
    + exfalso. assert (V : forall e d, sem f e = true -> xorb (spread e d x) (spread e d y) = c) by (intros e d He; apply L, spread_h, He).
      unfold spread in V. assert (Fx := find_class x). assert (Fy := find_class y).
      destruct (find (fun a => m a =? m x) (atomvals f)) as [a|], (find (fun a => m a =? m y) (atomvals f)) as [b|].
      * destruct Fx as [Ha Ea], Fy as [Hb Eb]. destruct (atom_key f a Ha) as [k [Hk Kk]], (atom_key f b Hb) as [l [Hl Kl]].
        assert (G : forall e, sem f e = true -> xorb (e a) (e b) = xorb (xorb (xorb (s a) (s x)) (xorb (s b) (s y))) c).
        { intros e He. rewrite <- (V e (fun _ => false) He). destruct (e a), (e b), (s a), (s x), (s b), (s y); reflexivity. }
        destruct (Nat.lt_trichotomy k l) as [Hkl|[Hkl|Hkl]].
        -- apply (NL k l (xorb (xorb (xorb (s a) (s x)) (xorb (s b) (s y))) c)); [lia|]. intros e He. rewrite Kk, Kl. apply G. exact He.
        -- subst l. apply N. congruence.
        -- apply (NL l k (xorb (xorb (xorb (s a) (s x)) (xorb (s b) (s y))) c)); [lia|]. intros e He. rewrite Kk, Kl, xorb_comm. apply G. exact He.
      * assert (V1 := V e0 (fun _ => false) S0). assert (V2 := V e0 (fun _ => true) S0). cbv beta in V1, V2. destruct (xorb (e0 a) (s a)), (s x), (s y), c; discriminate.
      * assert (V1 := V e0 (fun _ => false) S0). assert (V2 := V e0 (fun _ => true) S0). cbv beta in V1, V2. destruct (xorb (e0 b) (s b)), (s x), (s y), c; discriminate.
      * assert (V1 := V e0 (fun _ => false) S0). assert (V2 := V e0 (fun z => z =? m x) S0). cbv beta in V1, V2. rewrite Nat.eqb_refl in V2.
        rewrite (proj2 (Nat.eqb_neq (m y) (m x))) in V2 by auto. destruct (s x), (s y), c; discriminate.
  - intros [E ->] e He. apply sem_h in He. destruct He as [_ He]. rewrite (He x), (He y), E. destruct (e (m y)), (s x), (s y); reflexivity.
Qed.

Lemma tied_iff i j : i < valency h -> j < valency h -> (tied h i j <-> m (nth_atom h i) = m (nth_atom h j)).
Proof.
  intros Hi Hj. split.
  - intros [c L]. apply (linked_iff i j c Hi Hj) in L. apply L.
  - intro E. exists (xorb (s (nth_atom h i)) (s (nth_atom h j))). apply (linked_iff i j _ Hi Hj). auto.
Qed.

Lemma leader_atom x : In x (atomvals h) -> In (m x) (atomvals h).
Proof. intro H. destruct (Nat.eq_dec (m x) x) as [->|N]; [exact H|]. apply (shared_atom (m x) x); [auto | symmetry; apply M2]. Qed.

Lemma stranger x y : ~ In x (atomvals h) -> m y = m x -> y = x.
Proof. intros H E. destruct (Nat.eq_dec y x) as [|N]; [assumption|]. destruct (H (shared_atom x y N E)). Qed.

Lemma keeps_iff e : keeps_links h e <-> forall x, e x = xorb (e (m x)) (s x).
Proof.
  split.
  - intros K x. destruct (in_dec Nat.eq_dec x (atomvals h)) as [Hx|Hx].
    + destruct (atom_key h x Hx) as [i [Hi Ei]], (atom_key h (m x) (leader_atom x Hx)) as [j [Hj Ej]].
      assert (L := K i j (xorb (s (nth_atom h i)) (s (nth_atom h j))) Hi Hj). rewrite Ei, Ej in L. rewrite SM, xorb_false_r in L. rewrite <- L.
      * destruct (e x), (e (m x)); reflexivity.
      * apply linked_iff; [exact Hi | exact Hj|]. rewrite Ei, Ej, SM, xorb_false_r. split; [symmetry; apply M2 | reflexivity].
    + assert (E : m x = x) by (apply (stranger x (m x) Hx), M2). assert (Es := SM x). rewrite E in Es. rewrite E, Es, xorb_false_r. reflexivity.
  - intros H i j c Hi Hj L. apply (linked_iff i j c Hi Hj) in L. destruct L as [E ->]. rewrite (H (nth_atom h i)), (H (nth_atom h j)), E.
    destruct (e (m (nth_atom h j))), (s (nth_atom h i)), (s (nth_atom h j)); reflexivity.
Qed.

Section Blocks.
Context (B : list (list nat)) (P : list (option nat)) (LP : length P = length B) (C : classes (valency h) (tied h) B)
  (Pr : forall bp, In bp (combine B P) -> preferred h (fst bp) (snd bp)).

Lemma rep_in bp : In bp (combine B P) -> In (fst bp) B /\ In (representative bp) (fst bp).
Proof.
  intro H. destruct bp as [b p]. assert (Hb : In b B) by (apply in_combine_l in H; exact H). split; [exact Hb|]. destruct C as (C1 & _). destruct (C1 b Hb) as (Hne & _).
  assert (Q := Pr _ H). unfold representative. cbn [fst snd] in *. destruct p as [k|]; [apply Q|]. destruct b; [congruence | left; reflexivity].
Qed.

Lemma tied_trans' i j k : tied h i j -> tied h j k -> tied h i k.
Proof.
  intros [c H] [d K]. exists (xorb c d). intros e He. rewrite <- (H e He), <- (K e He).
  destruct (e (nth_atom h i)), (e (nth_atom h j)), (e (nth_atom h k)); reflexivity.
Qed.

Lemma rep_of x : In x (atomvals h) -> exists bp k, In bp (combine B P) /\ k < valency h /\ nth_atom h k = x /\ In k (fst bp) /\
  representative bp < valency h /\ m (nth_atom h (representative bp)) = m x.
Proof.
  intro Hx. destruct (atom_key h x Hx) as [k [Hk Ek]]. destruct C as (C1 & C2 & C3). destruct (C2 k Hk) as [b [Hb Hkb]].
  destruct (In_nth_error _ _ Hb) as [i Hi]. assert (Hl : i < length P) by (rewrite LP; apply nth_error_Some; congruence). destruct (nth_error P i) as [p|] eqn:Ep; [|apply nth_error_None in Ep; lia].
  assert (Hc : In (b, p) (combine B P)). { clear -Hi Ep. revert P Hi Ep. induction B as [|b0 B0 IH] in i |- *; intros P Hi Ep; [destruct i; discriminate|]. destruct P as [|p0 P0]; [destruct i; discriminate|].
    destruct i as [|i]; cbn in *; [left; congruence | right; apply (IH i); assumption]. }
  exists (b, p), k. split; [exact Hc|]. split; [exact Hk|]. split; [exact Ek|]. split; [exact Hkb|]. destruct (rep_in _ Hc) as [_ Hr]. cbn [fst] in Hr.
  destruct (C1 b Hb) as (_ & _ & Cb). destruct (Cb _ Hr) as [Hv Heq]. split; [exact Hv|]. rewrite <- Ek. apply tied_iff; [exact Hv | exact Hk|]. apply Heq. exact Hkb.
Qed.

Lemma rep_unique bp bq : In bp (combine B P) -> In bq (combine B P) -> m (nth_atom h (representative bp)) = m (nth_atom h (representative bq)) -> bp = bq.
Proof.
  intros Hp Hq E. destruct (rep_in _ Hp) as [Bp Ip], (rep_in _ Hq) as [Bq Iq]. assert (CC := C). destruct CC as (C1 & C2 & C3).
  destruct (C1 _ Bp) as (_ & _ & Xp). destruct (C1 _ Bq) as (_ & _ & Xq). destruct (Xp _ Ip) as [Vp Yp]. destruct (Xq _ Iq) as [Vq Yq].
  assert (Eb : fst bp = fst bq). { apply (classes_disjoint (valency h) (tied h) B (fst bp) (fst bq) (representative bq)); [exact tied_trans' | exact C | exact Bp | exact Bq | | exact Iq].
    apply Yp. split; [exact Vq|]. apply tied_iff; assumption. }
  destruct bp as [b p], bq as [c q]. cbn [fst] in Eb. subst c. f_equal. destruct (In_nth_error _ _ Hp) as [i Hi], (In_nth_error _ _ Hq) as [j Hj].
  assert (D : forall t u v, nth_error (combine B P) t = Some (u, v) -> nth_error B t = Some u /\ nth_error P t = Some v).
  { clear. revert P. induction B as [|b0 B0 IH]; intros P t u v; [destruct t; discriminate|]. destruct P as [|p0 P0]; [destruct t; discriminate|]. destruct t as [|t]; cbn; [intro H; injection H as -> ->; auto | apply IH]. }
  apply D in Hi, Hj. destruct Hi as [Bi Pi], Hj as [Bj Pj]. assert (i = j) by (apply (proj1 (NoDup_nth_error B) C3); [apply nth_error_Some; congruence | congruence]). subst j. congruence.
Qed.

(** the atom that is left of the class of [x] *)
Definition left_of (x : nat) : nat :=
  match find (fun bp => Nat.eqb (m (nth_atom h (representative bp))) (m x)) (combine B P) with Some bp => nth_atom h (representative bp) | None => x end.

Lemma left_spec x : m (left_of x) = m x /\ (forall y, m y = m x -> left_of y = left_of x) /\
  (In x (atomvals h) -> exists bp k, In bp (combine B P) /\ left_of x = nth_atom h (representative bp) /\ k < valency h /\ nth_atom h k = x /\ In k (fst bp)) /\
  (~ In x (atomvals h) -> left_of x = x).
Proof.
  assert (K : In x (atomvals h) -> exists bp k, In bp (combine B P) /\ left_of x = nth_atom h (representative bp) /\ k < valency h /\ nth_atom h k = x /\ In k (fst bp)).
  { intro Hx. destruct (rep_of x Hx) as (bp & k & H1 & H2 & H3 & H4 & H5 & H6). exists bp, k. split; [exact H1|]. split; [|auto]. unfold left_of.
    destruct (find _ (combine B P)) as [bq|] eqn:F.
    - apply find_some in F. destruct F as [F1 F2]. apply Nat.eqb_eq in F2. rewrite (rep_unique bq bp F1 H1); [reflexivity | congruence].
    - apply (find_none _ _ F) in H1. apply Nat.eqb_neq in H1. congruence. }
  assert (N : ~ In x (atomvals h) -> left_of x = x).
  { intro Hx. unfold left_of. destruct (find _ (combine B P)) as [bq|] eqn:F; [|reflexivity]. apply find_some in F. destruct F as [_ F2]. apply Nat.eqb_eq in F2. apply (stranger x _ Hx F2). }
  split; [|split; [|split; assumption]].
  - unfold left_of. destruct (find _ (combine B P)) as [bq|] eqn:F; [|reflexivity]. apply find_some in F. destruct F as [_ F2]. apply Nat.eqb_eq in F2. exact F2.
  - intros y E. destruct (in_dec Nat.eq_dec x (atomvals h)) as [Hx|Hx]; [|rewrite (stranger x y Hx E); reflexivity].
    unfold left_of. rewrite E. destruct (find _ (combine B P)) as [bq|] eqn:F; [reflexivity|]. exfalso. destruct (rep_of x Hx) as (bp & k & H1 & _ & _ & _ & _ & H6).
    apply (find_none _ _ F) in H1. apply Nat.eqb_neq in H1. congruence.
Qed.

Lemma left_rep bp : In bp (combine B P) -> left_of (nth_atom h (representative bp)) = nth_atom h (representative bp).
Proof.
  intro H. unfold left_of. destruct (find _ (combine B P)) as [bq|] eqn:F.
  - apply find_some in F. destruct F as [F1 F2]. apply Nat.eqb_eq in F2. rewrite (rep_unique bq bp F1 H F2). reflexivity.
  - reflexivity.
Qed.

Lemma extends_iff e : extends h (map representative (combine B P)) e <-> sem f (fun x => xorb (e (left_of x)) (xorb (s x) (s (left_of x)))) = true.
Proof.
  split.
  - intros [e' [Ha He]]. apply sem_h in He. destruct He as [Hf He]. rewrite <- Hf. apply sem_ext. intros x Hx. apply atoms_f in Hx.
    destruct (left_spec x) as (L1 & L2 & L3 & L4). destruct (L3 Hx) as (bp & k & K1 & K2 & K3 & K4 & K5).
    assert (Er : e' (left_of x) = e (left_of x)) by (rewrite K2; apply Ha; apply in_map; exact K1). rewrite <- Er.
    rewrite (He x), (He (left_of x)), L1. destruct (e' (m x)), (s x), (s (left_of x)); reflexivity.
  - intro Hf. exists (fun x => xorb (e (left_of x)) (xorb (s x) (s (left_of x)))). split.
    + intros k Hk. apply in_map_iff in Hk. destruct Hk as [bp [<- Hb]]. rewrite (left_rep bp Hb). destruct (e _), (s _); reflexivity.
    + apply sem_h. split; [exact Hf|]. intro x. destruct (left_spec x) as (L1 & L2 & _). rewrite (L2 (m x)) by apply M2. rewrite SM.
      destruct (e (left_of x)), (s x), (s (left_of x)); reflexivity.
Qed.
End Blocks.
End Decompose.

(** * C112 *)

(** the links of the conjunction are those of [g], and bloat_boolf gives [g] back *)
Theorem C112_bloat : forall order m s f g h, (forall l, Permutation (order l) l) -> made false f -> made false g -> ties m s g -> apart m f -> no_links f -> satisfiable f ->
  boolf_and f g = Ok h ->
  bloat_boolf order h = Ok g /\
  exists sp, bloat order h = Ok sp /\ forall i j, i < valency h -> j < valency h ->
    (i <> j -> (are_equal sp (Z.of_nat i) (Z.of_nat j) = true <-> m (nth_atom h i) = m (nth_atom h j) /\ s (nth_atom h i) = s (nth_atom h j))) /\
    (are_comp sp (Z.of_nat i) (Z.of_nat j) = true <-> m (nth_atom h i) = m (nth_atom h j) /\ s (nth_atom h i) <> s (nth_atom h j)).
Proof.
  intros order m s f g h Ho Mf Mg T A NL [e0 S0] E. assert (Rf := m_red f Mf). assert (Rg := m_red g Mg). destruct (bitwise_spec andb f g (proj1 Rf) (proj1 Rg)) as [h' [E' [Rh Sh]]].
  unfold boolf_and in E. rewrite E in E'. injection E' as <-. split.
  - destruct (bloat_boolf_spec order h Ho Rh) as [b [Eb [Rb Sb]]]. rewrite Eb. f_equal. apply reduced_unique; [exact Rb | exact Rg|]. intro e. apply eq_iff_eq_true.
    rewrite Sb, (keeps_iff m s f g h Rh T Sh A NL e0 S0), (proj2 (proj2 T)). reflexivity.
  - destruct (C55_bloat order h Ho (reduced_made h Rh)) as [sp [Es Hs]]. exists sp. split; [exact Es|]. intros i j Hi Hj. destruct (Hs (Z.of_nat i) (Z.of_nat j)) as [H1 H2].
    assert (L : forall c, linked_keys h (Z.of_nat i) (Z.of_nat j) c <-> m (nth_atom h i) = m (nth_atom h j) /\ c = xorb (s (nth_atom h i)) (s (nth_atom h j))).
    { intro c. rewrite <- (linked_iff m s f g h T Sh A NL e0 S0 i j c Hi Hj). split; [intros (a & b & Ea & Eb & _ & _ & L) | intro L; exists i, j; auto].
      apply Nat2Z.inj in Ea, Eb. subst a b. exact L. }
    split.
    + intro N. rewrite H1, L by lia. apply and_iff_compat_l. destruct (s (nth_atom h i)), (s (nth_atom h j)); split; (reflexivity || discriminate).
    + rewrite H2, L. apply and_iff_compat_l. destruct (s (nth_atom h i)), (s (nth_atom h j)); split; (reflexivity || discriminate || congruence).
Qed.
Print Assumptions C112_bloat.

Lemma bloatless_left order m s f g h : (forall l, Permutation (order l) l) -> reduced f -> reduced g -> ties m s g -> apart m f -> no_links f -> satisfiable f ->
  boolf_and f g = Ok h ->
  exists B P k, reduced h /\ (forall e, sem h e = sem f e && sem g e) /\ length P = length B /\ classes (valency h) (tied h) B /\ (forall bp, In bp (combine B P) -> preferred h (fst bp) (snd bp)) /\
    bloatless_boolf order h = Ok k /\ reduced k /\
    forall e, sem k e = sem f (fun x => xorb (e (left_of m h B P x)) (xorb (s x) (s (left_of m h B P x)))).
Proof.
  intros Ho Rf Rg T A NL [e0 S0] E. destruct (bitwise_spec andb f g (proj1 Rf) (proj1 Rg)) as [h' [E' [Rh Sh]]].
  unfold boolf_and in E. rewrite E in E'. injection E' as <-. assert (Mh := reduced_made h Rh).
  destruct (C57_blocks order h Ho Mh) as (B & P & EB & LP & CB & PB & _ & Ek & _). destruct (C57_bloatless_boolf order h Ho Mh) as (keys & k & b & Ek' & Ebl & _ & Mk & Sk & _).
  rewrite Ek in Ek'. injection Ek' as <-. exists B, P, k. repeat (split; [assumption|]). split; [apply m_red; exact Mk|]. intro e. apply eq_iff_eq_true.
  rewrite Sk. apply (extends_iff m s f g h Rf Rh T Sh A NL e0 S0 B P LP CB PB).
Qed.

(** bloatless_boolf is [f], up to the choice of an atom of each class *)
Theorem C112_bloatless : forall order m s f g h, (forall l, Permutation (order l) l) -> made false f -> made false g -> ties m s g -> apart m f -> no_links f -> satisfiable f ->
  boolf_and f g = Ok h ->
  exists k r, bloatless_boolf order h = Ok k /\ made false k /\ (forall x, m (r x) = m x) /\ (forall x y, m x = m y -> r x = r y) /\
    forall e, sem k e = sem f (fun x => xorb (e (r x)) (xorb (s x) (s (r x)))).
Proof.
  intros order m s f g h Ho Mf Mg T A NL S0 E. assert (Rf := m_red f Mf). assert (Rg := m_red g Mg).
  destruct (bloatless_left order m s f g h Ho Rf Rg T A NL S0 E) as (B & P & k & Rh & Sh & LP & CB & PB & Ek & Rk & Sk). destruct S0 as [e0 S0].
  exists k, (left_of m h B P). split; [exact Ek|]. split; [apply reduced_made; exact Rk|].
  assert (L := left_spec m s f g h Rh T Sh A NL e0 S0 B P LP CB PB). split; [intro x; apply L|]. split; [|exact Sk]. intros x y Exy. apply (L y). exact Exy.
Qed.
Print Assumptions C112_bloatless.

(** if [g] consists of equalities, it is the least atom of each class; so if each atom of [f] is
    the least of its class, the result is [f] itself *)
Theorem C112_equalities : forall order m f g h, (forall l, Permutation (order l) l) -> made false f -> made false g -> ties m (fun _ => false) g -> (forall x, m x <= x) ->
  apart m f -> no_links f -> satisfiable f -> boolf_and f g = Ok h ->
  (exists k, bloatless_boolf order h = Ok k /\ made false k /\ forall e, sem k e = sem f (fun x => e (m x))) /\
  ((forall a, In a (atomvals f) -> m a = a) -> bloatless_boolf order h = Ok f).
Proof.
  intros order m f g h Ho Mf Mg T Hm A NL S0 E. assert (Rf := m_red f Mf). assert (Rg := m_red g Mg).
  assert (K : exists k, bloatless_boolf order h = Ok k /\ made false k /\ forall e, sem k e = sem f (fun x => e (m x))).
  { destruct (bloatless_left order m _ f g h Ho Rf Rg T A NL S0 E) as (B & P & k & Rh & Sh & LP & CB & PB & Ek & Rk & Sk). destruct S0 as [e0 S0].
    exists k. split; [exact Ek|]. split; [apply reduced_made; exact Rk|]. intro e. rewrite Sk. apply sem_ext. intros x Hx.
    rewrite !xorb_false_r. f_equal. apply (atoms_f m _ f g h Rf Rh T Sh A e0 S0) in Hx.
    destruct (left_spec m _ f g h Rh T Sh A NL e0 S0 B P LP CB PB x) as (L1 & _ & L3 & _). destruct (L3 Hx) as (bp & k0 & Hb & Ebp & Hk & Exk & Hin).
    assert (CC := CB). destruct CC as (C1 & C2 & C3). destruct (rep_in h B P CB PB bp Hb) as [Bb Ib]. destruct (C1 _ Bb) as (Hne & As & Hcl).
    assert (Np : snd bp = None).
    { assert (Q := PB bp Hb). destruct (snd bp) as [p|]; [|reflexivity]. destruct Q as (Q1 & (y & Q2 & Q3) & _). destruct (Hcl _ Q1) as [V1 _]. destruct (Hcl _ Q2) as [V2 _].
      apply (linked_iff m _ f g h T Sh A NL e0 S0 p y true V1 V2) in Q3. destruct Q3 as [_ Q3]. discriminate. }
    rewrite Ebp in *. unfold representative in *. rewrite Np in *.
    assert (Hml : In (m x) (atomvals h)) by (apply (leader_atom m _ f g h Rh T Sh A e0 S0); exact Hx). destruct (atom_key h _ Hml) as [j [Hj Ej]].
    assert (Jin : In j (fst bp)). { apply (Hcl k0 Hin). split; [exact Hj|]. apply (tied_iff m _ f g h T Sh A NL e0 S0 k0 j Hk Hj). rewrite Exk, Ej. symmetry. apply T. }
    assert (Hle : hd 0 (fst bp) <= j). { clear -As Jin. destruct (fst bp) as [|y l]; [destruct Jin|]. cbn. inversion_clear As as [|? ? _ Fa]. destruct Jin as [->|Jin]; [lia|]. rewrite Forall_forall in Fa. specialize (Fa j Jin). lia. }
    assert (Hat : nth_atom h (hd 0 (fst bp)) <= nth_atom h j).
    { destruct (Nat.eq_dec (hd 0 (fst bp)) j) as [->|Nj]; [lia|]. apply Nat.lt_le_incl, (sorted_at' (atomvals h)); [apply Rh | lia | exact Hj]. }
    rewrite Ej in Hat. assert (Hm' := Hm (nth_atom h (hd 0 (fst bp)))). rewrite L1 in Hm'. lia. }
  split; [exact K|]. intro Hid. destruct K as (k & Ek & Mk & Sk). rewrite Ek. f_equal. apply (reduced_unique _ _ (m_red k Mk) Rf). intro e. rewrite Sk. apply sem_ext. intros a Ha. rewrite (Hid a Ha). reflexivity.
Qed.
Print Assumptions C112_equalities.

Lemma atom_satisfiable f a : reduced f -> In a (atomvals f) -> satisfiable f.
Proof.
  intros R H. destruct (proj1 (atoms_essential f a R) H) as [e He]. destruct (sem f (upd e a true)) eqn:E1; [eexists; exact E1|].
  destruct (sem f (upd e a false)) eqn:E2; [eexists; exact E2 | congruence].
Qed.

(** one more atom, equal to an atom of [f]: the lower one of the two is left *)
Theorem C112_equal_pair : forall order f a b g h, (forall l, Permutation (order l) l) -> made false f -> no_links f -> In a (atomvals f) -> ~ In b (atomvals f) ->
  made false g -> (forall e, sem g e = Bool.eqb (e a) (e b)) -> boolf_and f g = Ok h ->
  bloat_boolf order h = Ok g /\
  (a < b -> bloatless_boolf order h = Ok f) /\
  (b < a -> exists k, bloatless_boolf order h = Ok k /\ made false k /\ forall e, sem k e = sem f (upd e a (e b))).
Proof.
  intros order f a b g h Ho Mf NL Ha Hb Mg Sg E. assert (S0 := atom_satisfiable f a (m_red f Mf) Ha).
  assert (Hab : a <> b) by (intros ->; contradiction). pose (lo := Nat.min a b). pose (hi := Nat.max a b).
  pose (m := fun x => if Nat.eqb x hi then lo else x).
  assert (T : ties m (fun _ => false) g).
  { split; [|split; [reflexivity|]].
    - intro x. unfold m. destruct (Nat.eqb_spec x hi) as [->|N]; destruct (Nat.eqb_spec lo hi); unfold lo, hi in *; try lia; destruct (Nat.eqb_spec x (Nat.max a b)); lia.
    - intro e. rewrite Sg, eqb_true_iff. split.
      + intros H x. rewrite xorb_false_r. unfold m. destruct (Nat.eqb_spec x hi) as [->|]; [|reflexivity]. unfold lo, hi. destruct (Nat.lt_ge_cases a b); [rewrite Nat.max_r, Nat.min_l by lia | rewrite Nat.max_l, Nat.min_r by lia]; auto.
      + intro H. specialize (H hi). rewrite xorb_false_r in H. unfold m in H. rewrite Nat.eqb_refl in H. unfold lo, hi in H.
        destruct (Nat.lt_ge_cases a b); [rewrite Nat.max_r, Nat.min_l in H by lia | rewrite Nat.max_l, Nat.min_r in H by lia]; auto. }
  assert (A : apart m f).
  { intros x y Hx Hy. unfold m. assert (x <> b) by (intros ->; contradiction). assert (y <> b) by (intros ->; contradiction).
    unfold lo, hi. destruct (Nat.eqb_spec x (Nat.max a b)), (Nat.eqb_spec y (Nat.max a b)); lia. }
  split; [|split].
  - apply (C112_bloat order m (fun _ => false) f g h); assumption.
  - intro Hlt. destruct (C112_equalities order m f g h Ho Mf Mg T) as [_ H]; try assumption.
    + intro x. unfold m, lo, hi. destruct (Nat.eqb_spec x (Nat.max a b)); lia.
    + apply H. intros x Hx. unfold m. destruct (Nat.eqb_spec x hi) as [->|]; [|reflexivity]. unfold hi in Hx. rewrite Nat.max_r in Hx by lia. contradiction.
  - intro Hlt. destruct (C112_equalities order m f g h Ho Mf Mg T) as [(k & Ek & Mk & Sk) _]; try assumption.
    + intro x. unfold m, lo, hi. destruct (Nat.eqb_spec x (Nat.max a b)); lia.
    + exists k. split; [exact Ek|]. split; [exact Mk|]. intro e. rewrite Sk. apply sem_ext. intros x Hx. unfold m, upd. unfold hi, lo. rewrite Nat.max_l, Nat.min_r by lia.
      destruct (Nat.eqb x a); reflexivity.
Qed.
Print Assumptions C112_equal_pair.

(** one more atom above those of [f], the complement of an atom of [f]: that atom is left, unless
    it is false in all satisfying assignments *)
Theorem C112_complement : forall order f a b g h, (forall l, Permutation (order l) l) -> made false f -> no_links f -> In a (atomvals f) -> (forall x, In x (atomvals f) -> x < b) ->
  made false g -> (forall e, sem g e = xorb (e a) (e b)) -> boolf_and f g = Ok h ->
  bloat_boolf order h = Ok g /\
  (forall e1, sem f e1 = true -> e1 a = true -> bloatless_boolf order h = Ok f) /\
  ((forall e, sem f e = true -> e a = false) -> exists k, bloatless_boolf order h = Ok k /\ made false k /\ forall e, sem k e = sem f (upd e a (negb (e b)))).
Proof.
  intros order f a b g h Ho Mf NL Ha Hb Mg Sg E. assert (Rf := m_red f Mf). assert (Rg := m_red g Mg). assert (S0 := atom_satisfiable f a Rf Ha).
  assert (Hab := Hb a Ha). pose (m := fun x => if Nat.eqb x b then a else x). pose (s := fun x => Nat.eqb x b).
  assert (Ma : m a = a) by (unfold m; destruct (Nat.eqb_spec a b); lia). assert (Mb : m b = a) by (unfold m; rewrite Nat.eqb_refl; reflexivity).
  assert (Sa : s a = false) by (apply Nat.eqb_neq; lia). assert (Sb : s b = true) by apply Nat.eqb_refl.
  assert (T : ties m s g).
  { split; [|split].
    - intro x. unfold m. destruct (Nat.eqb_spec x b) as [->|N]; [destruct (Nat.eqb_spec a b); lia | destruct (Nat.eqb_spec x b); lia].
    - intro x. unfold m, s. destruct (Nat.eqb_spec x b) as [->|N]; apply Nat.eqb_neq; lia.
    - intro e. rewrite Sg. split.
      + intros H x. unfold m, s. destruct (Nat.eqb_spec x b) as [->|]; [destruct (e a), (e b); (reflexivity || discriminate) | destruct (e x); reflexivity].
      + intro H. specialize (H b). rewrite Mb, Sb in H. rewrite H. destruct (e a); reflexivity. }
  assert (A : apart m f). { intros x y Hx Hy. unfold m. apply Hb in Hx, Hy. destruct (Nat.eqb_spec x b), (Nat.eqb_spec y b); lia. }
  split; [apply (C112_bloat order m s f g h); assumption|].
  destruct (bloatless_left order m s f g h Ho Rf Rg T A NL S0 E) as (B & P & k & Rh & Sh & LP & CB & PB & Ek & Rk & Sk). destruct S0 as [e0 S0].
  assert (Hah : In a (atomvals h)) by (apply (atoms_f m s f g h Rf Rh T Sh A e0 S0); exact Ha).
  assert (Hbh : In b (atomvals h)) by (apply (shared_atom m s f g h Rh T Sh A e0 S0 b a); [lia | congruence]).
  (* the block of a and b, and its representative *)
  destruct (left_spec m s f g h Rh T Sh A NL e0 S0 B P LP CB PB a) as (L1 & L2 & L3 & _). destruct (L3 Hah) as (bp & ka & Hbp & Ebp & Hka & Eka & Ika).
  destruct (atom_key h b Hbh) as [kb [Hkb Ekb]]. assert (CC := CB). destruct CC as (C1 & C2 & C3). destruct (rep_in h B P CB PB bp Hbp) as [Bb Ib]. destruct (C1 _ Bb) as (Hne & As & Hcl).
  assert (Ikb : In kb (fst bp)). { apply (Hcl ka Ika). split; [exact Hkb|]. apply (tied_iff m s f g h T Sh A NL e0 S0 ka kb Hka Hkb). rewrite Eka, Ekb. congruence. }
  assert (Two : forall i, In i (fst bp) -> i = ka \/ i = kb).
  { intros i Hi. destruct (proj1 (proj2 (Hcl ka Ika) i) Hi) as [Vi Ti]. apply (tied_iff m s f g h T Sh A NL e0 S0 ka i Hka Vi) in Ti. rewrite Eka, Ma in Ti. unfold m in Ti.
    destruct (Nat.eqb_spec (nth_atom h i) b) as [Eb|_]; [right; apply (key_inj h i kb (proj1 Rh) Vi Hkb); congruence | left; apply (key_inj h i ka (proj1 Rh) Vi Hka); congruence]. }
  assert (Lk : linked h ka kb true) by (apply (linked_iff m s f g h T Sh A NL e0 S0 ka kb true Hka Hkb); rewrite Eka, Ekb, Ma, Mb, Sa, Sb; auto).
  assert (Q := PB bp Hbp). destruct (snd bp) as [p|] eqn:Ep.
  2:{ exfalso. specialize (Q ka kb Ika Ikb). assert (W := spread_h m s f g h T Sh A e0 (fun _ => false) S0). assert (V1 := Lk _ W). assert (V2 := Q _ W). congruence. }
  destruct Q as (Q1 & _ & Q3 & _). assert (Rp : representative bp = p) by (unfold representative; rewrite Ep; reflexivity). rewrite Rp in Ebp.
  (* the first spot *)
  assert (Fs : exists n, first_spot h n).
  { assert (W := spread_h m s f g h T Sh A e0 (fun _ => false) S0). destruct (proj1 (some_place h (fun _ => True) (proj1 Rh) (fun _ _ _ _ => I)) (ex_intro _ _ (conj W I))) as [n0 [Hn0 _]].
    revert Hn0. induction n0 as [n0 IH] using lt_wf_ind. intro Hn0. destruct (existsb (fun i => nth i (root h) false) (range n0)) eqn:Ex.
    - apply existsb_exists in Ex. destruct Ex as [i [Hi Ei]]. apply range_In in Hi. apply (IH i Hi Ei).
    - exists n0. split; [exact Hn0|]. intros i Hi. destruct (nth i (root h) false) eqn:Ei; [|reflexivity]. exfalso. assert (X : existsb (fun i => nth i (root h) false) (range n0) = true) by (apply existsb_exists; exists i; split; [apply range_In; exact Hi | exact Ei]). congruence. }
  destruct Fs as [n Hn]. assert (Bn := Q3 n Hn). destruct Hn as [Hn Hmin]. assert (Ln := place_bound h n (proj1 Rh) Hn).
  assert (Sn : sem h (asg (atomvals h) n) = true) by (rewrite sem_place_asg by (exact Ln || apply Rh); exact Hn).
  split.
  - intros e1 Hf1 Ha1. assert (Pa : p = ka).
    { destruct (Two p Q1) as [|Pb]; [assumption|]. exfalso. rewrite Pb in Bn.
      (* a place with b false is below every place with b true *)
      pose (e2 := spread m s f e1 (fun _ => false)). assert (W := spread_h m s f g h T Sh A e1 (fun _ => false) Hf1). fold e2 in W.
      assert (Eb2 : e2 b = false). { assert (G := proj2 (proj1 (sem_h m s f g h T Sh e2) W) b). rewrite Mb, Sb in G. rewrite G. unfold e2. rewrite (spread_atom m s f A e1 _ a Ha), Ha1. reflexivity. }
      assert (Top : forall i, i < valency h -> i <= kb).
      { intros i Hi. destruct (Nat.lt_ge_cases kb i) as [Hgt|]; [|assumption]. exfalso. assert (X := sorted_at' (atomvals h) (proj1 (proj1 Rh)) kb i Hgt Hi). fold (nth_atom h kb) (nth_atom h i) in X. rewrite Ekb in X.
        assert (Hi' := key_atom h i Hi). apply (atoms_essential h _ Rh) in Hi'. destruct Hi' as [e He]. apply He. rewrite !Sh. rewrite (sem_ext f (upd e (nth_atom h i) true) (upd e (nth_atom h i) false)).
        - rewrite !Sg. unfold upd. destruct (Nat.eqb_spec a (nth_atom h i)); [lia|]. destruct (Nat.eqb_spec b (nth_atom h i)); [lia|]. reflexivity.
        - intros y Hy. unfold upd. destruct (Nat.eqb_spec y (nth_atom h i)) as [->|]; [|reflexivity]. apply Hb in Hy. lia. }
      pose (n2 := b2n (map e2 (atomvals h))). assert (H2 : nth n2 (root h) false = true) by exact W.
      assert (Hkv : S kb = valency h) by (specialize (Top (valency h - 1)); lia).
      assert (Bn2 : Nat.testbit n2 kb = false) by (unfold n2; rewrite bit_of_place by exact Hkb; rewrite Ekb; exact Eb2).
      assert (n2 < 2 ^ kb).
      { assert (n2 < 2 ^ S kb) by (rewrite Hkv; apply place_lt'). destruct (Nat.lt_ge_cases n2 (2 ^ kb)) as [|Hge]; [assumption|]. exfalso.
        rewrite Nat.testbit_eqb in Bn2. apply Nat.eqb_neq in Bn2. apply Bn2. assert (D : n2 / 2 ^ kb = 1) by (symmetry; apply (Nat.div_unique n2 (2 ^ kb) 1 (n2 - 2 ^ kb)); cbn in *; lia). rewrite D. reflexivity. }
      assert (2 ^ kb <= n). { destruct (Nat.lt_ge_cases n (2 ^ kb)) as [Hlt|]; [|assumption]. rewrite Nat.testbit_eqb, (Nat.div_small _ _ Hlt) in Bn. discriminate. }
      rewrite (Hmin n2) in H2 by lia. discriminate. }
    rewrite Ek. f_equal. apply (reduced_unique _ _ Rk Rf). intro e. rewrite Sk. apply sem_ext. intros x Hx. assert (Lx := Hb x Hx).
    destruct (Nat.eq_dec x a) as [->|N].
    + rewrite Ebp, Pa, Eka, Sa. destruct (e a); reflexivity.
    + destruct (left_spec m s f g h Rh T Sh A NL e0 S0 B P LP CB PB x) as (X1 & _). assert (Mx : m x = x) by (unfold m; destruct (Nat.eqb_spec x b); lia). rewrite Mx in X1.
      assert (Lfx : left_of m h B P x = x) by (unfold m in X1 at 1; destruct (Nat.eqb_spec (left_of m h B P x) b); [congruence | exact X1]).
      rewrite Lfx. destruct (e x), (s x); reflexivity.
  - intro Fa. assert (Pb : p = kb).
    { destruct (Two p Q1) as [Pa|]; [|assumption]. exfalso. rewrite Pa in Bn. assert (X : asg (atomvals h) n a = false) by (apply Fa; rewrite Sh in Sn; apply andb_true_iff in Sn; apply Sn).
      rewrite <- Eka, asg_key in X by (exact Hka || apply Rh). congruence. }
    exists k. split; [exact Ek|]. split; [apply reduced_made; exact Rk|]. intro e. rewrite Sk. apply sem_ext. intros x Hx. assert (Lx := Hb x Hx). unfold upd.
    destruct (Nat.eqb_spec x a) as [->|N].
    + rewrite Ebp, Pb, Ekb, Sa, Sb. destruct (e b); reflexivity.
    + destruct (left_spec m s f g h Rh T Sh A NL e0 S0 B P LP CB PB x) as (X1 & _). assert (Mx : m x = x) by (unfold m; destruct (Nat.eqb_spec x b); lia). rewrite Mx in X1.
      assert (Lfx : left_of m h B P x = x) by (unfold m in X1 at 1; destruct (Nat.eqb_spec (left_of m h B P x) b); [congruence | exact X1]).
      rewrite Lfx. destruct (e x), (s x); reflexivity.
Qed.
Print Assumptions C112_complement.

(** with two complements the result may have other atoms than [f] *)
Lemma made_vec v av f : ascending av -> length v = 2 ^ length av -> Boolf_vec v av = Ok f -> made false f.
Proof. intros H1 H2 E. destruct (Boolf_vec_sorted v av H1 H2) as [f' [E' [R _]]]. apply reduced_made. congruence. Qed.
Lemma made_and f g h : made false f -> made false g -> boolf_and f g = Ok h -> made false h.
Proof. intros Mf Mg E. destruct (bitwise_spec andb f g (proj1 (m_red f Mf)) (proj1 (m_red g Mg))) as [h' [E' [R _]]]. apply reduced_made. unfold boolf_and in E. congruence. Qed.

Theorem C112_complements_refuted : exists f a b g h k, Boolf_vec [true; true; true; false] [0; 1] = Ok f /\ Boolf_vec [false; true; true; false] [1; 2] = Ok a /\ Boolf_vec [false; true; true; false] [0; 3] = Ok b /\
  boolf_and a b = Ok g /\ made false f /\ made false g /\ no_links f /\ none_fixed f /\ boolf_and f g = Ok h /\ bloatless_boolf as_is h = Ok k /\ atomvals f = [0; 1] /\ atomvals k = [0; 2].
Proof.
  destruct (Boolf_vec [true; true; true; false] [0; 1]) as [f|] eqn:Ef; [|vm_compute in Ef; discriminate Ef].
  destruct (Boolf_vec [false; true; true; false] [1; 2]) as [a|] eqn:Ea; [|vm_compute in Ea; discriminate Ea].
  destruct (Boolf_vec [false; true; true; false] [0; 3]) as [b|] eqn:Eb; [|vm_compute in Eb; discriminate Eb].
  assert (Mf : made false f) by (apply (made_vec [true; true; true; false] [0; 1]); [repeat constructor | reflexivity | exact Ef]).
  assert (Ma : made false a) by (apply (made_vec [false; true; true; false] [1; 2]); [repeat constructor | reflexivity | exact Ea]).
  assert (Mb : made false b) by (apply (made_vec [false; true; true; false] [0; 3]); [repeat constructor; lia | reflexivity | exact Eb]).
  destruct (boolf_and a b) as [g|] eqn:Eg; [|vm_compute in Ea, Eb; injection Ea as <-; injection Eb as <-; vm_compute in Eg; discriminate Eg].
  assert (Mg := made_and _ _ _ Ma Mb Eg). destruct (ex_clean f Mf) as [N1 N2]; [vm_compute in Ef; injection Ef as <-; vm_compute; reflexivity|].
  vm_compute in Ef, Ea, Eb. injection Ef as <-. injection Ea as <-. injection Eb as <-. vm_compute in Eg. injection Eg as <-.
  do 4 eexists. eexists ?[h]. eexists ?[k]. split; [reflexivity|]. split; [reflexivity|]. split; [reflexivity|]. split; [vm_compute; reflexivity|]. split; [exact Mf|]. split; [exact Mg|]. split; [exact N1|]. split; [exact N2|].
  split; [vm_compute; reflexivity|]. split; [vm_compute; reflexivity|]. split; reflexivity.
Qed.
Print Assumptions C112_complements_refuted.

(** the two parts of any function are free of each other *)
Theorem C112_parts : forall order f, (forall l, Permutation (order l) l) -> made false f ->
  exists g b, bloatless_boolf order f = Ok g /\ bloat_boolf order f = Ok b /\ boolf_and g b = Ok f /\
    bloatless_boolf order g = Ok g /\ bloat_boolf order g = Ok (set_constant true) /\
    bloatless_boolf order b = Ok (set_constant true) /\ bloat_boolf order b = Ok b.
Proof.
  intros order f Ho M. assert (R := m_red f M). destruct (C57_bloatless_boolf order f Ho M) as (keys & g & b & _ & Eg & Eb & Mg & _ & Sf & _ & NLg & _).
  destruct (C56_bloat_boolf order f Ho M) as (b' & Eb' & Mb & Sb & _). rewrite Eb in Eb'. injection Eb' as <-. assert (Rg := m_red g Mg). assert (Rb := m_red b Mb).
  assert (Rc : reduced (set_constant true)) by apply set_constant_reduced. assert (Sc : forall e, sem (set_constant true) e = true) by reflexivity.
  exists g, b. split; [exact Eg|]. split; [exact Eb|]. split.
  { destruct (bitwise_spec andb g b (proj1 Rg) (proj1 Rb)) as [h [Eh [Rh Sh]]]. unfold boolf_and. rewrite Eh. f_equal. apply reduced_unique; [exact Rh | exact R|]. intro e. rewrite Sh, Sf. reflexivity. }
  split.
  { destruct (C57_bloatless_boolf order g Ho Mg) as (keys' & g' & b' & _ & Eg' & _ & Mg' & _ & _ & _ & _ & Hid). rewrite Eg'. f_equal. apply reduced_unique; [apply m_red; exact Mg' | exact Rg|].
    intro e. symmetry. apply boolf_eqb_sem; [exact Rg | apply m_red; exact Mg' | apply Hid; exact NLg]. }
  split.
  { destruct (bloat_boolf_spec order g Ho Rg) as [c [Ec [Rc' S']]]. rewrite Ec. f_equal. apply reduced_unique; [exact Rc' | exact Rc|]. intro e. rewrite Sc. apply S'.
    intros i j q Hi Hj L. destruct (Nat.lt_trichotomy i j) as [H|[->|H]].
    - destruct (NLg i j q); [lia | exact L].
    - destruct (atom_satisfiable g _ Rg (key_atom g j Hj)) as [e1 H1]. specialize (L e1 H1). rewrite xorb_nilpotent in *. exact L.
    - destruct (NLg j i q); [lia|]. intros e1 H1. rewrite xorb_comm. apply L. exact H1. }
  assert (Ebb : bloat_boolf order b = Ok b).
  { destruct (bloat_boolf_spec order b Ho Rb) as [c [Ec [Rc' S']]]. rewrite Ec. f_equal. apply reduced_unique; [exact Rc' | exact Rb|]. intro e. apply eq_iff_eq_true. rewrite S'. split; [|apply satisfying_keeps_links].
    intro K. apply Sb. intros i j q Hi Hj L. destruct (Nat.eq_dec i j) as [->|Nij].
    - destruct (atom_satisfiable f _ R (key_atom f j Hj)) as [e1 H1]. specialize (L e1 H1). rewrite xorb_nilpotent in *. exact L.
    - assert (Hin : forall u v r, u < valency f -> v < valency f -> u <> v -> linked f u v r -> In (nth_atom f u) (atomvals b)).
      { intros u v r Hu Hv Nuv Luv. apply (atoms_essential b _ Rb). destruct (atom_satisfiable f _ R (key_atom f u Hu)) as [e1 H1]. exists e1.
        assert (H1b : sem b e1 = true) by (apply Sb, satisfying_keeps_links, H1).
        assert (Hav : nth_atom f v <> nth_atom f u) by (intro C; apply Nuv; symmetry; apply (key_inj f v u (proj1 R) Hv Hu C)).
        assert (Hfl : sem b (upd e1 (nth_atom f u) (negb (e1 (nth_atom f u)))) = false).
        { apply not_true_iff_false. rewrite Sb. intro C. specialize (C u v r Hu Hv Luv). unfold upd in C. rewrite Nat.eqb_refl in C. destruct (Nat.eqb_spec (nth_atom f v) (nth_atom f u)); [contradiction|].
          rewrite <- (Luv e1 H1) in C. destruct (e1 (nth_atom f u)), (e1 (nth_atom f v)); discriminate. }
        assert (Htr : sem b (upd e1 (nth_atom f u) (e1 (nth_atom f u))) = true).
        { rewrite (sem_ext b _ e1); [exact H1b|]. intros y _. unfold upd. destruct (Nat.eqb_spec y (nth_atom f u)) as [->|]; reflexivity. }
        destruct (e1 (nth_atom f u)); cbn [negb] in Hfl; congruence. }
      assert (Ii := Hin i j q Hi Hj Nij L). assert (Ij : In (nth_atom f j) (atomvals b)) by (apply (Hin j i q Hj Hi); [auto | intros e1 H1; rewrite xorb_comm; apply L; exact H1]).
      destruct (atom_key b _ Ii) as [i' [Hi' Ei']], (atom_key b _ Ij) as [j' [Hj' Ej']]. rewrite <- Ei', <- Ej'. apply K; [exact Hi' | exact Hj'|]. intros e1 H1. rewrite Ei', Ej'. apply Sb in H1. apply H1; assumption. }
  split; [|exact Ebb]. unfold bloatless_boolf. destruct (is_constant b) eqn:Cb.
  - f_equal. apply reduced_unique; [exact Rb | exact Rc|]. intro e. rewrite Sc. destruct (atomvals f) as [|a0 l] eqn:Ea.
    + apply Sb. intros i j q Hi. unfold valency in Hi. rewrite Ea in Hi. cbn in Hi. lia.
    + destruct (atom_satisfiable f a0 R) as [e1 H1]; [rewrite Ea; left; reflexivity|]. rewrite (sem_ext b e e1); [apply Sb, satisfying_keeps_links, H1|]. rewrite (proj1 (proj2 (proj2 (proj2 Rb))) Cb). intros a [].
  - rewrite Ebb. cbn [bind]. rewrite (proj2 (boolf_eqb_sem b b Rb Rb) (fun e => eq_refl)). reflexivity.
Qed.
Print Assumptions C112_parts.

(** kibime of boolf/test/06_decomposition, with the equality and the complement of the atoms 3 and
    4; the conjunction with an equality below *)
Definition kibime := spots 4 [0; 1; 2; 3; 6; 8].
Example C112_ex :
  (let* f := Boolf_vec kibime [0; 1; 2; 3] in
   let* q := Boolf_vec [true; false; false; true] [3; 4] in
   let* c := Boolf_vec [false; true; true; false] [3; 4] in
   let* fq := boolf_and f q in let* fc := boolf_and f c in
   let* u := bloatless_boolf as_is fq in let* v := bloatless_boolf as_is fc in let* x := bloat_boolf as_is fq in let* y := bloat_boolf as_is fc in
   let* clean := is_bloatless as_is f in
   Ok (atomvals f, valency fq, valency fc, clean, boolf_eqb u f, boolf_eqb v f, boolf_eqb x q, boolf_eqb y c)) = Ok ([0; 1; 2; 3], 5, 5, true, true, true, true, true) /\
  (let* f := Boolf_vec [true; true; true; false] [2; 3] in
   let* q := Boolf_vec [true; false; false; true] [1; 3] in
   let* fq := boolf_and f q in let* u := bloatless_boolf as_is fq in
   Ok (atomvals fq, atomvals u, root u)) = Ok ([1; 2; 3], [1; 2], [true; true; true; false]).
Proof. split; vm_compute; reflexivity. Qed.
Example C112_ex_terms : exists f, Boolf_vec kibime [0; 1; 2; 3] = Ok f /\ made false f /\ no_links f /\ In 3 (atomvals f) /\ (forall x, In x (atomvals f) -> x < 4) /\ satisfiable f.
Proof.
  destruct (Boolf_vec kibime [0; 1; 2; 3]) as [f|] eqn:E; [|vm_compute in E; discriminate E].
  assert (M : made false f) by (apply (made_vec kibime [0; 1; 2; 3]); [repeat constructor; lia | reflexivity | exact E]). exists f.
  destruct (ex_clean f M) as [N _]; [vm_compute in E; injection E as <-; vm_compute; reflexivity|].
  assert (Ea : atomvals f = [0; 1; 2; 3]) by (vm_compute in E; injection E as <-; reflexivity).
  split; [reflexivity|]. split; [exact M|]. split; [exact N|]. rewrite Ea. split; [cbn; auto|]. split; [cbn; intuition lia|]. apply (atom_satisfiable f 3); [apply m_red; exact M | rewrite Ea; cbn; auto].
Qed.
