(** Proof_SetPartBoolf: lemmas about Model_SetPartBoolf. *)

From Coq Require Import List Arith ZArith Bool Lia Permutation Sorting.Sorted.
From Verif Require Import Model_Base Lib Model_Binary Model_SetPart Spec_SetPart Proof_SetPart Proof_SetPartMore Model_SetPartComp
  Spec_SetPartComp Proof_SetPartComp Proof_SetPartCompMore.
From Verif Require Import Model_Boolf Model_SetPartBoolf Spec_Bits Spec_Boolf Proof_Boolf Proof_BoolfTable Proof_BoolfMake Props_Boolf.
Import ListNotations.
Open Scope Z_scope.

Definition val (e : assignment) (z : Z) : bool := e (Z.to_nat z).
Definition tab2 (c : bool) : list bool := if c then [false; true; true; false] else [true; false; false; true].
Definition step (bo : boolf) (x : Z * Z * bool) : res boolf := and_table (tab2 (snd x)) bo (fst (fst x)) (snd (fst x)).

Lemma step_ok bo a b c : reduced bo -> 0 <= a -> a < b ->
  exists h, step bo (a, b, c) = Ok h /\ reduced h /\ forall e, sem h e = sem bo e && Bool.eqb (xorb (val e a) (val e b)) c.
Proof.
  intros R Ha Hb. unfold step, and_table. cbn [fst snd].
  assert (El : [a; b] = map Z.of_nat [Z.to_nat a; Z.to_nat b]) by (cbn [map]; rewrite !Z2Nat.id by lia; reflexivity).
  destruct (Boolf_vec_sorted (tab2 c) [Z.to_nat a; Z.to_nat b]) as [g [E [Rg S]]].
  - constructor; [constructor; constructor|]. constructor; [lia | constructor].
  - destruct c; reflexivity.
  - unfold Boolf_vec in E. rewrite <- El in E. rewrite E. cbn [bind]. destruct (bitwise_spec andb bo g (proj1 R) (proj1 Rg)) as [h [Eh [Rh Sh]]].
    exists h. split; [exact Eh|]. split; [exact Rh|]. intro e. rewrite Sh, S. f_equal. unfold table, val. cbn [map b2n].
    destruct (e (Z.to_nat a)), (e (Z.to_nat b)), c; reflexivity.
Qed.

Lemma step_bad bo a b c : a < b -> a < 0 -> step bo (a, b, c) = Err AtomvalNegativeError.
Proof.
  intros H Hn. unfold step, and_table. cbn [fst snd].
  destruct (C27_rejected (tab2 c) [a; b]) as [_ [_ [G _]]]. destruct G as [E|[q [Hq _]]].
  - constructor; [intros [E|[]]; lia | constructor; [intros [] | constructor]].
  - destruct c; reflexivity.
  - exists a. split; [left; reflexivity | exact Hn].
  - rewrite E. reflexivity.
  - exfalso. assert (A := Hq true). assert (B := Hq false). destruct c; cbn in A, B; rewrite <- A in B by tauto; discriminate B; tauto.
Qed.

Lemma steps_ok l : forall bo, reduced bo -> (forall a b c, In (a, b, c) l -> 0 <= a /\ a < b) ->
  exists h, foldM step l bo = Ok h /\ reduced h /\
    forall e, sem h e = sem bo e && forallb (fun x => Bool.eqb (xorb (val e (fst (fst x))) (val e (snd (fst x)))) (snd x)) l.
Proof.
  induction l as [|[[a b] c] l IH]; intros bo R H.
  - exists bo. split; [reflexivity|]. split; [exact R|]. intro e. symmetry. apply andb_true_r.
  - destruct (H a b c (or_introl eq_refl)) as [Ha Hb]. destruct (step_ok bo a b c R Ha Hb) as [g [E [Rg S]]]. cbn [foldM]. rewrite E. cbn [bind].
    destruct (IH g Rg) as [h [Eh [Rh Sh]]]; [intros; apply (H a0 b0 c0); right; assumption|]. exists h. split; [exact Eh|]. split; [exact Rh|].
    intro e. rewrite Sh, S. cbn [forallb fst snd]. symmetry. apply andb_assoc.
Qed.

Lemma steps_bad l : forall bo, reduced bo -> (forall a b c, In (a, b, c) l -> a < b) -> (exists a b c, In (a, b, c) l /\ a < 0) ->
  foldM step l bo = Err AtomvalNegativeError.
Proof.
  induction l as [|[[a b] c] l IH]; intros bo R H [a' [b' [c' [Hin Hn]]]]; [destruct Hin|]. cbn [foldM].
  assert (Hab := H a b c (or_introl eq_refl)). destruct (Z_lt_le_dec a 0) as [Hneg|Hpos]; [rewrite (step_bad bo a b c Hab Hneg); reflexivity|].
  destruct (step_ok bo a b c R Hpos Hab) as [g [E [Rg S]]]. rewrite E. cbn [bind]. apply (IH g Rg); [intros; apply (H a0 b0 c0); right; assumption|].
  destruct Hin as [Ei|Hin]; [injection Ei as -> -> ->; lia|]. exists a', b', c'. auto.
Qed.

(** the constraints in the order of the loops *)
Definition neighbours (block : list Z) : list (Z * Z * bool) :=
  map (fun i => (nth i block 0, nth (S i) block 0, false)) (range (length block - 1)).
Definition constraints (order : list (Z * Z) -> list (Z * Z)) (s : spc) : list (Z * Z * bool) :=
  flat_map neighbours (sp_blocks (equal_part s)) ++ map (fun ab => (fst ab, snd ab, true)) (order (comp_pairs s)).

Lemma foldM_app {A S} (f : S -> A -> res S) l m s : foldM f (l ++ m) s = let* t := foldM f l s in foldM f m t.
Proof. revert s. induction l as [|x l IH]; intro s; [reflexivity|]. cbn [app foldM]. destruct (f s x) as [t|e]; [apply IH | reflexivity]. Qed.
Lemma foldM_map {A B S} (f : S -> B -> res S) (g : A -> B) l s : foldM f (map g l) s = foldM (fun s x => f s (g x)) l s.
Proof. revert s. induction l as [|x l IH]; intro s; [reflexivity|]. cbn [map foldM]. destruct (f s (g x)) as [t|e]; [apply IH | reflexivity]. Qed.
Lemma foldM_flat_map {A B S} (f : S -> B -> res S) (g : A -> list B) l s : foldM f (flat_map g l) s = foldM (fun s x => foldM f (g x) s) l s.
Proof. revert s. induction l as [|x l IH]; intro s; [reflexivity|]. cbn [flat_map foldM]. rewrite foldM_app. destruct (foldM f (g x) s) as [t|e]; [apply IH | reflexivity]. Qed.
Lemma foldM_ext {A S} (f g : S -> A -> res S) l s : (forall t x, f t x = g t x) -> foldM f l s = foldM g l s.
Proof. intro H. revert s. induction l as [|x l IH]; intro s; [reflexivity|]. cbn [foldM]. rewrite H. destruct (g s x) as [t|e]; [apply IH | reflexivity]. Qed.

Lemma spc_boolf_form order s : spc_boolf order s = foldM step (constraints order s) (set_constant true).
Proof.
  unfold spc_boolf, constraints. cbv zeta. rewrite foldM_app, foldM_flat_map.
  rewrite (foldM_ext (fun s x => foldM step (neighbours x) s) (fun bo equality_block =>
             foldM (fun bo i => and_table [true; false; false; true] bo (nth i equality_block 0%Z) (nth (S i) equality_block 0%Z))
                   (range (length equality_block - 1)) bo)).
  2: { intros t x. unfold neighbours. rewrite foldM_map. reflexivity. }
  match goal with |- bind ?x _ = _ => destruct x as [t|e] end; [|reflexivity]. cbn [bind]. rewrite foldM_map. reflexivity.
Qed.

Lemma sorted_nth (l : list Z) i : StronglySorted Z.lt l -> (S i < length l)%nat -> nth i l 0 < nth (S i) l 0.
Proof.
  intro H. revert i. induction H as [|x l _ IH Hx]; intros i Hi; cbn [length] in Hi; [lia|]. destruct i as [|i]; cbn [nth].
  - rewrite Forall_forall in Hx. apply Hx, nth_In. lia.
  - apply IH. lia.
Qed.

Lemma neighbours_all v (l : list Z) : (forall i, (S i < length l)%nat -> v (nth i l 0) = v (nth (S i) l 0)) ->
  forall x y, In x l -> In y l -> v x = v y :> bool.
Proof.
  intro H. assert (G : forall i, (i < length l)%nat -> v (nth i l 0) = v (nth 0 l 0)).
  { induction i as [|i IH]; intro Hi; [reflexivity|]. rewrite <- H by exact Hi. apply IH. lia. }
  intros x y Hx Hy. destruct (In_nth l x 0 Hx) as [i [Hi <-]]. destruct (In_nth l y 0 Hy) as [j [Hj <-]]. rewrite (G i Hi), (G j Hj). reflexivity.
Qed.

Section Object.
  Variable s : spc.
  Hypothesis C : cwf s.
  Variable order : list (Z * Z) -> list (Z * Z).
  Hypothesis Ho : forall l, Permutation (order l) l.

  Lemma constraints_In a b c : In (a, b, c) (constraints order s) <->
    (c = false /\ exists l i, In l (sp_blocks (equal_part s)) /\ (S i < length l)%nat /\ a = nth i l 0 /\ b = nth (S i) l 0) \/
    (c = true /\ In (a, b) (comp_pairs s)).
  Proof using C Ho.
    unfold constraints. rewrite in_app_iff, in_flat_map, in_map_iff. split.
    - intros [[l [Hl Hin]]|[[u v] [E Hin]]].
      + left. unfold neighbours in Hin. apply in_map_iff in Hin as [i [E Hi]]. injection E as <- <- <-. apply range_In in Hi. split; [reflexivity|].
        exists l, i. split; [exact Hl|]. split; [lia|]. auto.
      + right. cbn [fst snd] in E. injection E as -> -> <-. split; [reflexivity|]. apply (Permutation_in _ (Ho _)). exact Hin.
    - intros [[-> [l [i [Hl [Hi [-> ->]]]]]]|[-> Hin]].
      + left. exists l. split; [exact Hl|]. apply in_map_iff. exists i. split; [reflexivity|]. apply range_In. lia.
      + right. exists (a, b). split; [reflexivity|]. apply (Permutation_in _ (Permutation_sym (Ho _))). exact Hin.
  Qed.

  Lemma constraints_rel a b c : In (a, b, c) (constraints order s) -> a < b /\ rel s a b c.
  Proof using C Ho.
    rewrite constraints_In. intros [[-> [l [i [Hl [Hi [-> ->]]]]]]|[-> Hin]].
    - destruct (wf_canonical _ (c_wf s C)) as [K _]. destruct (K l Hl) as [_ Hs]. split; [apply sorted_nth; assumption|].
      right. exists l. split; [exact Hl|]. split; apply nth_In; lia.
    - split; [apply (c_canon s C); exact Hin | apply (pair_rel s C); exact Hin].
  Qed.

  Lemma constraints_models (v : Z -> bool) : (forall a b c, In (a, b, c) (constraints order s) -> xorb (v a) (v b) = c) <->
    (forall x y c, rel s x y c -> xorb (v x) (v y) = c).
  Proof using C Ho.
    assert (W := c_wf s C). split.
    - intro H. assert (Hb : forall x y, rel s x y false -> v x = v y).
      { intros x y [->|(l & Hl & Hx & Hy)]; [reflexivity|]. apply (neighbours_all v l); [|exact Hx | exact Hy].
        intros i Hi. apply xorb_eq, (H _ _ false), constraints_In. left. split; [reflexivity|]. exists l, i. auto. }
      intros x y [|] R; [|rewrite (Hb x y R); apply xorb_nilpotent].
      apply (rel_true_pair s C) in R as (u & w & Hin & _ & E). rewrite (Hb x _ (rep_same _ W x)), (Hb y _ (rep_same _ W y)).
      assert (G : xorb (v u) (v w) = true) by (apply (H _ _ true), constraints_In; right; auto).
      destruct E as [[-> ->]|[-> ->]]; [exact G | rewrite xorb_comm; exact G].
    - intros H a b c Hin. apply H, (constraints_rel a b c Hin).
  Qed.

  (** a negative element that is related to another one occurs in a constraint *)
  Lemma negative_constraint x y c : rel s x y c -> x <> y -> x < 0 -> exists a b d, In (a, b, d) (constraints order s) /\ a < 0.
  Proof using C Ho.
    assert (W := c_wf s C). intros R Hne Hn. assert (Hblock : forall l, In l (sp_blocks (equal_part s)) -> In x l -> exists a b d, In (a, b, d) (constraints order s) /\ a < 0).
    { intros l Hl Hx. destruct (wf_canonical _ W) as [K _]. destruct (K l Hl) as [K2 Hs]. exists (nth 0 l 0), (nth 1 l 0), false.
      split; [apply constraints_In; left; split; [reflexivity|]; exists l, 0%nat; repeat split; [exact Hl | lia]|].
      destruct (In_nth l x 0 Hx) as [i [Hi <-]]. destruct l as [|z l]; [cbn in K2; lia|]. destruct i as [|i]; [exact Hn|]. cbn [nth] in *.
      inversion Hs as [|? ? _ Hz]; subst. rewrite Forall_forall in Hz. cbn [length] in Hi. assert (G := Hz (nth i l 0) (nth_In l 0 (proj2 (Nat.succ_lt_mono _ _) Hi))). lia. }
    destruct c; [|destruct R as [E|(l & Hl & Hx & Hy)]; [contradiction | apply (Hblock l); assumption]].
    apply (rel_true_pair s C) in R as (u & w & Hin & Huw & E). destruct (rep_same _ W x) as [Er|(l & Hl & Hx & _)]; [|apply (Hblock l); assumption].
    exists u, w, true. split; [apply constraints_In; right; auto|]. destruct E as [[E _]|[E _]]; lia.
  Qed.
End Object.
