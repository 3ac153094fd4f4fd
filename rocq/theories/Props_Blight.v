(** Props_Blight: properties C55 to C59, equal, complementary and one-sided atoms, the functions
    without them, the gapless function and the bundles.

    [order] is the iteration order of a Python set; every theorem is about all orders. *)

From Coq Require Import List Arith ZArith Bool Lia Permutation Sorted Relations.
From Verif Require Import Model_Base Lib Model_Binary Model_Splits Model_Perm Model_SetPart Model_SetPartComp Model_Boolf Model_SetPartBoolf Model_Blight.
From Verif Require Import Spec_SetPart Proof_SetPart Spec_SetPartComp Proof_SetPartComp Proof_SetPartCompMore Props_SetPartComp.
From Verif Require Import Spec_Bits Spec_Boolf Spec_Splits Spec_Blight Proof_Binary Proof_Boolf Proof_BoolfTable Proof_BoolfMake Props_Boolf Props_Splits
  Proof_Blight Proof_BlightBoolf Proof_Blocks Proof_BlightBlocks Proof_Bloatless Proof_Blightless Proof_Gapless Proof_Bundles.
Import ListNotations.
Open Scope nat_scope.

(** * C55: bloat, blot and blight *)

Lemma bloat_reports : forall order f, (forall l, Permutation (order l) l) -> splittable f ->
  exists s, bloat order f = Ok s /\ forall x y,
    (x <> y -> (are_equal s x y = true <-> linked_keys f x y false)) /\ (are_comp s x y = true <-> linked_keys f x y true).
Proof.
  intros order f Ho R. destruct (bloat_forced order f Ho R) as [s [st [E [H [_ Fo]]]]]. exists s. split; [exact E|]. intros x y.
  assert (K : forall c, is_key f x /\ is_key f y /\ zlinked f x y c <-> linked_keys f x y c).
  { intro c. rewrite !is_key_nat. split.
    - intros [[a [-> Ha]] [[b [-> Hb]] L]]. exists a, b. apply zlinked_keys in L. auto.
    - intros (a & b & -> & -> & Ha & Hb & L). split; [exists a; auto|]. split; [exists b; auto|]. apply zlinked_keys. exact L. }
  destruct (C24_reported s st x y H) as [H1 H2]. split.
  - intro Hne. rewrite (H1 Hne), Fo, <- K. intuition congruence.
  - rewrite H2, Fo, <- K. intuition congruence.
Qed.

(** bloat relates exactly the keys of linked atoms *)
Theorem C55_bloat : forall order f, (forall l, Permutation (order l) l) -> made false f ->
  exists s, bloat order f = Ok s /\ forall x y,
    (x <> y -> (are_equal s x y = true <-> linked_keys f x y false)) /\ (are_comp s x y = true <-> linked_keys f x y true).
Proof. intros order f Ho M. exact (bloat_reports order f Ho (m_red f M)). Qed.
Print Assumptions C55_bloat.

Lemma fixed_key_zval f x q e : fixed_key f x q -> sem f e = true -> zval f e x = q.
Proof. intros [[-> ->]|[a [-> [_ H]]]] He; [reflexivity|]. rewrite zval_key. apply H, He. Qed.

Lemma fixed_pair f x y c : splittable f -> x <> y \/ c = true ->
  (is_fixed_or_universe f x /\ is_fixed_or_universe f y /\ zlinked f x y c <-> exists q, fixed_key f x q /\ fixed_key f y (xorb c q)).
Proof.
  intros R Hne. assert (D : forall z, is_fixed_or_universe f z -> satisfiable f /\ exists q, fixed_key f z q).
  { intros z [[a [q [-> [Ha Hq]]]]|[-> [a [q [Ha Hq]]]]]; (split; [apply (key_satisfiable f a R Ha)|]); [exists q; right; exists a; auto | exists true; left; auto]. }
  split.
  - intros [Dx [Dy L]]. destruct (D x Dx) as [[e He] [q Hq]], (D y Dy) as [_ [q' Hq']]. exists q. split; [exact Hq|].
    replace (xorb c q) with q'; [exact Hq'|]. specialize (L e He). rewrite (fixed_key_zval f x q e Hq He), (fixed_key_zval f y q' e Hq' He) in L. subst c. destruct q, q'; reflexivity.
  - intros [q [Hx Hy]]. split; [|split].
    + destruct Hx as [[-> ->]|[a [-> [Ha Fa]]]]; [|left; exists a, q; auto]. right. split; [reflexivity|].
      destruct Hy as [[-> Hc]|[b [-> [Hb Fb]]]]; [destruct Hne as [Hne| ->]; [congruence | discriminate] | exists b, (xorb c true); auto].
    + destruct Hy as [[-> Hc]|[b [-> [Hb Fb]]]]; [|left; exists b, (xorb c q); auto]. right. split; [reflexivity|].
      destruct Hx as [[-> ->]|[a [-> [Ha Fa]]]]; [destruct Hne as [Hne| ->]; [congruence | discriminate] | exists a, q; auto].
    + intros e He. rewrite (fixed_key_zval f x q e Hx He), (fixed_key_zval f y _ e Hy He). destruct c, q; reflexivity.
Qed.

Lemma blot_reports : forall order f, (forall l, Permutation (order l) l) -> splittable f ->
  exists s, blot order f = Ok s /\ forall x y,
    (x <> y -> (are_equal s x y = true <-> exists q, fixed_key f x q /\ fixed_key f y q)) /\
    (are_comp s x y = true <-> exists q, fixed_key f x q /\ fixed_key f y (negb q)).
Proof.
  intros order f Ho R. destruct (blot_forced order f Ho R) as [s [st [E [H Fo]]]]. exists s. split; [exact E|]. intros x y.
  destruct (C24_reported s st x y H) as [H1 H2]. split.
  - intro Hne. rewrite (H1 Hne), Fo, (fixed_pair f x y false R (or_introl Hne)). setoid_rewrite xorb_false_l. intuition congruence.
  - rewrite H2, Fo, (fixed_pair f x y true R (or_intror eq_refl)). setoid_rewrite xorb_true_l. intuition congruence.
Qed.

(** blot relates exactly the keys of fixed atoms, and -1, which stands for true *)
Theorem C55_blot : forall order f, (forall l, Permutation (order l) l) -> made false f ->
  exists s, blot order f = Ok s /\ forall x y,
    (x <> y -> (are_equal s x y = true <-> exists q, fixed_key f x q /\ fixed_key f y q)) /\
    (are_comp s x y = true <-> exists q, fixed_key f x q /\ fixed_key f y (negb q)).
Proof. intros order f Ho M. exact (blot_reports order f Ho (m_red f M)). Qed.
Print Assumptions C55_blot.

Lemma blight_pair f x y c : splittable f -> x <> y \/ c = true ->
  (is_key_or_universe f x /\ is_key_or_universe f y /\ zlinked f x y c <-> linked_keys f x y c \/ exists q, fixed_key f x q /\ fixed_key f y (xorb c q)).
Proof.
  intros R Hne. split.
  - intros [[Kx|[-> [a [q [Ha Hq]]]]] [[Ky|[-> Hy]] L]].
    + left. apply is_key_nat in Kx as [a [-> Ha]], Ky as [b [-> Hb]]. apply zlinked_keys in L. exists a, b. auto.
    + right. apply is_key_nat in Kx as [a [-> Ha]]. apply zlinked_sym, zlinked_universe in L. exists (negb c). split; [right; exists a; auto | left; split; [reflexivity | destruct c; reflexivity]].
    + right. apply is_key_nat in Ky as [b [-> Hb]]. apply zlinked_universe in L. exists true. split; [left; auto|]. right. exists b. rewrite xorb_true_r. auto.
    + exfalso. destruct (key_satisfiable f a R Ha) as [e He]. specialize (L e He). cbn in L. destruct Hne; congruence.
  - intros [(a & b & -> & -> & Ha & Hb & L)|HQ].
    + split; [left; apply is_key_nat; exists a; auto|]. split; [left; apply is_key_nat; exists b; auto|]. apply zlinked_keys. exact L.
    + apply (fixed_pair f x y c R Hne) in HQ as [Dx [Dy L]].
      assert (U : forall z, is_fixed_or_universe f z -> is_key_or_universe f z) by (intros z [[a [q [-> [Ha Hq]]]]|Hz]; [left; apply is_key_nat; exists a; auto | right; exact Hz]). auto.
Qed.

Lemma blight_reports : forall order f, (forall l, Permutation (order l) l) -> splittable f ->
  exists s, blight order f = Ok s /\ forall x y,
    (x <> y -> (are_equal s x y = true <-> linked_keys f x y false \/ exists q, fixed_key f x q /\ fixed_key f y q)) /\
    (are_comp s x y = true <-> linked_keys f x y true \/ exists q, fixed_key f x q /\ fixed_key f y (negb q)).
Proof.
  intros order f Ho R. destruct (blight_forced order f Ho R) as [s [st [E [H Fo]]]]. exists s. split; [exact E|]. intros x y.
  destruct (C24_reported s st x y H) as [H1 H2]. split.
  - intro Hne. rewrite (H1 Hne), Fo, (blight_pair f x y false R (or_introl Hne)). setoid_rewrite xorb_false_l. intuition congruence.
  - rewrite H2, Fo, (blight_pair f x y true R (or_intror eq_refl)). setoid_rewrite xorb_true_l. intuition congruence.
Qed.

(** blight relates both *)
Theorem C55_blight : forall order f, (forall l, Permutation (order l) l) -> made false f ->
  exists s, blight order f = Ok s /\ forall x y,
    (x <> y -> (are_equal s x y = true <-> linked_keys f x y false \/ exists q, fixed_key f x q /\ fixed_key f y q)) /\
    (are_comp s x y = true <-> linked_keys f x y true \/ exists q, fixed_key f x q /\ fixed_key f y (negb q)).
Proof. intros order f Ho M. exact (blight_reports order f Ho (m_red f M)). Qed.
Print Assumptions C55_blight.

(** the iteration order of the set does not matter: the results are equal for == *)
Theorem C55_order : forall o1 o2 f, (forall l, Permutation (o1 l) l) -> (forall l, Permutation (o2 l) l) -> made false f ->
  exists a1 a2 b1 b2 c1 c2, bloat o1 f = Ok a1 /\ bloat o2 f = Ok a2 /\ spc_eq a1 a2 = Ok true /\
    blot o1 f = Ok b1 /\ blot o2 f = Ok b2 /\ spc_eq b1 b2 = Ok true /\ blight o1 f = Ok c1 /\ blight o2 f = Ok c2 /\ spc_eq c1 c2 = Ok true.
Proof.
  intros o1 o2 f H1 H2 M. assert (R := m_red f M).
  destruct (bloat_forced o1 f H1 R) as [a1 [sa1 [Ea1 [Ha1 [_ Fa1]]]]], (bloat_forced o2 f H2 R) as [a2 [sa2 [Ea2 [Ha2 [_ Fa2]]]]].
  destruct (blot_forced o1 f H1 R) as [b1 [sb1 [Eb1 [Hb1 Fb1]]]], (blot_forced o2 f H2 R) as [b2 [sb2 [Eb2 [Hb2 Fb2]]]].
  destruct (blight_forced o1 f H1 R) as [c1 [sc1 [Ec1 [Hc1 Fc1]]]], (blight_forced o2 f H2 R) as [c2 [sc2 [Ec2 [Hc2 Fc2]]]].
  exists a1, a2, b1, b2, c1, c2.
  assert (Same : forall s st t su, history s st -> history t su -> (forall x y c, forced st x y c <-> forced su x y c) -> spc_eq s t = Ok true).
  { intros s st t su Hs Ht Heq. destruct (C48_equality s st t su Hs Ht) as [b [E Hb]]. rewrite E. f_equal. apply Hb. exact Heq. }
  split; [exact Ea1|]. split; [exact Ea2|]. split; [apply (Same a1 sa1 a2 sa2); [assumption | assumption | intros; rewrite Fa1, Fa2; reflexivity]|].
  split; [exact Eb1|]. split; [exact Eb2|]. split; [apply (Same b1 sb1 b2 sb2); [assumption | assumption | intros; rewrite Fb1, Fb2; reflexivity]|].
  split; [exact Ec1|]. split; [exact Ec2|]. apply (Same c1 sc1 c2 sc2); [assumption | assumption | intros; rewrite Fc1, Fc2; reflexivity].
Qed.
Print Assumptions C55_order.

(** the three tests *)
Theorem C55_tests : forall order f, (forall l, Permutation (order l) l) -> made false f ->
  exists a b c, is_bloatless order f = Ok a /\ is_blotless f = Ok b /\ is_blightless order f = Ok c /\
    (a = true <-> no_links f) /\ (b = true <-> none_fixed f) /\ (c = true <-> no_links f /\ none_fixed f).
Proof.
  intros order f Ho M. assert (R := m_red f M). destruct (is_bloatless_spec order f Ho R) as [a [Ea Ha]], (is_blotless_spec f R) as [b [Eb Hb]], (is_blightless_spec order f Ho R) as [c [Ec Hc]].
  exists a, b, c. auto 10.
Qed.
Print Assumptions C55_tests.

(** * C56: the relations as functions *)

Theorem C56_bloat_boolf : forall order f, (forall l, Permutation (order l) l) -> made false f ->
  exists g, bloat_boolf order f = Ok g /\ made false g /\ (forall e, sem g e = true <-> keeps_links f e) /\ forall e, sem f e = true -> sem g e = true.
Proof.
  intros order f Ho M. destruct (bloat_boolf_spec order f Ho (m_red f M)) as [g [E [R S]]]. exists g. split; [exact E|]. split; [apply reduced_made; exact R|]. split; [exact S|].
  intros e He. apply S, satisfying_keeps_links, He.
Qed.
Print Assumptions C56_bloat_boolf.

Theorem C56_blot_boolf : forall f, made false f ->
  exists g, blot_boolf f = Ok g /\ made false g /\ (forall e, sem g e = true <-> keeps_fixed f e) /\ forall e, sem f e = true -> sem g e = true.
Proof.
  intros f M. destruct (blot_boolf_spec f (m_red f M)) as [g [E [R S]]]. exists g. split; [exact E|]. split; [apply reduced_made; exact R|]. split; [exact S|].
  intros e He. apply S, satisfying_keeps_fixed, He.
Qed.
Print Assumptions C56_blot_boolf.

Theorem C56_blight_boolf : forall order f, (forall l, Permutation (order l) l) -> made false f ->
  exists g, blight_boolf order f = Ok g /\ made false g /\ (forall e, sem g e = true <-> keeps_links f e /\ keeps_fixed f e) /\ forall e, sem f e = true -> sem g e = true.
Proof.
  intros order f Ho M. destruct (blight_boolf_spec order f Ho (m_red f M)) as [g [E [R S]]]. exists g. split; [exact E|]. split; [apply reduced_made; exact R|]. split; [exact S|].
  intros e He. apply S. split; [apply satisfying_keeps_links | apply satisfying_keeps_fixed]; exact He.
Qed.
Print Assumptions C56_blight_boolf.

(** * C57: the functions without them *)

(** the equality blocks are the classes of the tied atoms; each has its preferred side; the
    blocks are sorted by their representatives, which are the keys that bloatless_boolf keeps *)
Theorem C57_blocks : forall order f, (forall l, Permutation (order l) l) -> made false f ->
  exists B P, blocks_and_sides order f = Ok (B, P) /\ length P = length B /\ classes (valency f) (tied f) B /\
    (forall bp, In bp (combine B P) -> preferred f (fst bp) (snd bp)) /\ ascending (map representative (combine B P)) /\
    bloatless_atomkeys_undeflated order f = Ok (map representative (combine B P)) /\ number_of_distinct_splits order f = Ok (length B).
Proof.
  intros order f Ho M. assert (R := m_red f M). destruct (blocks_and_sides_spec order f Ho R) as (B & P & E & K). exists B, P. split; [exact E|]. destruct K as (K1 & K2 & K3 & K4).
  split; [exact K1|]. split; [exact K2|]. split; [exact K3|]. split; [exact K4|]. split.
  - apply (undeflated_spec order f B P Ho R E). unfold blocks_ok. auto.
  - unfold number_of_distinct_splits. rewrite E. reflexivity.
Qed.
Print Assumptions C57_blocks.

(** bloatless_boolf depends on representatives only, it has no links, and with bloat_boolf it
    gives the function back; it is the function itself, if and only if that has no links *)
Theorem C57_bloatless_boolf : forall order f, (forall l, Permutation (order l) l) -> made false f ->
  exists keys g b, bloatless_atomkeys_undeflated order f = Ok keys /\ bloatless_boolf order f = Ok g /\ bloat_boolf order f = Ok b /\ made false g /\
    (forall e, sem g e = true <-> extends f keys e) /\ (forall e, sem f e = sem g e && sem b e) /\
    (forall a, In a (atomvals g) -> exists k, In k keys /\ nth_atom f k = a) /\ no_links g /\ (boolf_eqb f g = true <-> no_links f).
Proof.
  intros order f Ho M. assert (R := m_red f M). destruct (blocks_and_sides_spec order f Ho R) as (B & P & E & K). destruct (bloatless_boolf_spec order f B P Ho R E K) as [g [Eg [Rg Sg]]].
  destruct (bloat_boolf_spec order f Ho R) as [b [Eb [_ Sb]]]. exists (reps B P), g, b. split; [apply (undeflated_spec order f B P Ho R E K)|]. split; [exact Eg|]. split; [exact Eb|].
  split; [apply reduced_made; exact Rg|]. split; [exact Sg|]. split; [intro e; apply eq_iff_eq_true; rewrite andb_true_iff, Sg, Sb; apply (bloatless_and f B P e K)|].
  split; [apply extends_atoms; assumption|]. split; [apply (no_links_bloatless f B P g R K Rg Sg) | apply (bloatless_same f B P g R K Rg Sg)].
Qed.
Print Assumptions C57_bloatless_boolf.

(** the keys of the atoms that are left *)
Theorem C57_bloatless_atomkeys : forall order f, (forall l, Permutation (order l) l) -> made false f ->
  exists g dk bk, bloatless_boolf order f = Ok g /\ bloatless_atomkeys_deflated order f = Ok dk /\ blightless_atomkeys order f = Ok bk /\
    ascending dk /\ (forall k, In k dk <-> k < valency f /\ In (nth_atom f k) (atomvals g)) /\
    ascending bk /\ (forall k, In k bk <-> In k dk /\ forall q, ~ fixed f k q).
Proof.
  intros order f Ho M. assert (R := m_red f M). destruct (blocks_and_sides_spec order f Ho R) as (B & P & E & K). destruct (bloatless_boolf_spec order f B P Ho R E K) as [g [Eg _]].
  destruct (deflated_spec order f g Eg) as [dk [Ed [Ad Hd]]], (blightless_atomkeys_spec order f g R Eg) as [bk [Eb [Ab Hb]]]. exists g, dk, bk.
  split; [exact Eg|]. split; [exact Ed|]. split; [exact Eb|]. split; [exact Ad|]. split; [exact Hd|]. split; [exact Ab|]. intro k. rewrite Hb, Hd. tauto.
Qed.
Print Assumptions C57_bloatless_atomkeys.

(** a spot of the function becomes the spot of the representatives; a spot without the links of
    the function is rejected *)
Theorem C57_bloatless_spotint : forall order f n, (forall l, Permutation (order l) l) -> made false f -> is_constant f = false ->
  exists keys, bloatless_atomkeys_undeflated order f = Ok keys /\
    (2 ^ valency f <= n -> bloatless_spotint order f n = Err TooBigError) /\
    (n < 2 ^ valency f -> ~ spot_keeps_links f n -> bloatless_spotint order f n = Err BloatMismatchError) /\
    (n < 2 ^ valency f -> spot_keeps_links f n -> exists m, bloatless_spotint order f n = Ok m /\ m < 2 ^ length keys /\
       forall i, i < length keys -> Nat.testbit m i = Nat.testbit n (nth i keys 0)).
Proof.
  intros order f n Ho M Ec. assert (R := m_red f M). destruct (bloatless_spotint_spec order f Ho R Ec) as (B & P & E & K & Sp). exists (reps B P). split; [apply (undeflated_spec order f B P Ho R E K)|].
  destruct (Sp n) as [S1 [S2 S3]]. split; [exact S1|]. split; [exact S2|]. intros Hn Hk. eexists. split; [exact (S3 Hn Hk)|]. split.
  - rewrite <- (map_length (Nat.testbit n) (reps B P)). apply b2n_lt.
  - intros i Hi. rewrite testbit_b2n. rewrite (nth_indep _ _ (Nat.testbit n 0)) by (rewrite map_length; exact Hi). apply map_nth.
Qed.
Print Assumptions C57_bloatless_spotint.

(** blightless_boolf has no links and no fixed atoms, and with blight_boolf it gives the function
    back; it is the function itself, if and only if that has no links and no fixed atoms *)
Theorem C57_blightless_boolf : forall order f, (forall l, Permutation (order l) l) -> made false f ->
  exists keys h b, blightless_atomkeys order f = Ok keys /\ blightless_boolf order f = Ok h /\ blight_boolf order f = Ok b /\ made false h /\
    (forall e, sem h e = true <-> extends f keys e) /\ (forall e, sem f e = sem h e && sem b e) /\
    (forall a, In a (atomvals h) -> exists k, In k keys /\ nth_atom f k = a) /\
    no_links h /\ none_fixed h /\ (boolf_eqb f h = true <-> no_links f /\ none_fixed f).
Proof.
  intros order f Ho M. assert (R := m_red f M). destruct (blocks_and_sides_spec order f Ho R) as (B & P & E & K). destruct (bloatless_boolf_spec order f B P Ho R E K) as [g [Eg [Rg Sg]]].
  destruct (blightless_atomkeys_spec order f g R Eg) as [keys [Ek Hk]]. destruct (blightless_boolf_spec order f B P g keys Ho R E K Eg Rg Sg Ek Hk) as [h [Eh [Rh Sh]]].
  destruct (blight_boolf_spec order f Ho R) as [b [Eb [_ Sb]]]. exists keys, h, b. split; [exact Ek|]. split; [exact Eh|]. split; [exact Eb|].
  split; [apply reduced_made; exact Rh|]. split; [exact Sh|]. split; [intro e; apply eq_iff_eq_true; rewrite andb_true_iff, Sh, Sb; apply (blightless_and f B P g keys e R K Rg Sg Hk)|].
  split; [apply extends_atoms; assumption|]. destruct (blightless_clean f B P g keys h R K Rg Sg Hk Rh Sh) as [C1 C2]. split; [exact C1|]. split; [exact C2|].
  apply (blightless_same f B P g keys h R K Rg Sg Hk Rh Sh).
Qed.
Print Assumptions C57_blightless_boolf.

Theorem C57_blightless_spotint : forall order f n, (forall l, Permutation (order l) l) -> made false f -> is_constant f = false ->
  exists keys, blightless_atomkeys order f = Ok keys /\
    (2 ^ valency f <= n -> blightless_spotint order f n = Err TooBigError) /\
    (n < 2 ^ valency f -> ~ spot_keeps_links f n -> blightless_spotint order f n = Err BloatMismatchError) /\
    (n < 2 ^ valency f -> spot_keeps_links f n -> ~ spot_keeps_fixed f n -> blightless_spotint order f n = Err BlightMismatchError) /\
    (n < 2 ^ valency f -> spot_keeps_links f n -> spot_keeps_fixed f n -> exists m, blightless_spotint order f n = Ok m /\ m < 2 ^ length keys /\
       forall i, i < length keys -> Nat.testbit m i = Nat.testbit n (nth i keys 0)).
Proof.
  intros order f n Ho M Ec. destruct (blightless_spotint_spec order f Ho (m_red f M) Ec) as (keys & E & Sp). exists keys. split; [exact E|].
  destruct (Sp n) as [S1 [S2 [S3 S4]]]. split; [exact S1|]. split; [exact S2|]. split; [exact S3|]. intros Hn Hk Hf. eexists. split; [exact (S4 Hn Hk Hf)|]. split.
  - rewrite <- (map_length (Nat.testbit n) keys). apply b2n_lt.
  - intros i Hi. rewrite testbit_b2n. rewrite (nth_indep _ _ (Nat.testbit n 0)) by (rewrite map_length; exact Hi). apply map_nth.
Qed.
Print Assumptions C57_blightless_spotint.

(** "blightless_spotint gives a value for every spot that has the links and the fixed values of
    the function" is false: the only spot of the constant true raises BinvLengthError *)
Theorem C57_blightless_spotint_refuted : exists f n, made false f /\ n < 2 ^ valency f /\ spot_keeps_links f n /\ spot_keeps_fixed f n /\
  forall order, blightless_spotint order f n = Err BinvLengthError.
Proof.
  exists (set_constant true), 0. split; [apply reduced_made, set_constant_reduced|]. split; [cbn; lia|].
  split; [intros a b c Ha; cbn in Ha; lia|]. split; [intros a q Ha; cbn in Ha; lia|]. intro order. reflexivity.
Qed.
Print Assumptions C57_blightless_spotint_refuted.

(** * C58: the gapless function *)

(** it is true where each pair of atoms has values that the pair has in a satisfying assignment;
    a function with links or fixed atoms is rejected *)
Theorem C58_gapless_boolf : forall order f, (forall l, Permutation (order l) l) -> made false f ->
  (no_links f -> none_fixed f -> exists g, gapless_boolf order f = Ok g /\ made false g /\
     (forall e, sem g e = true <-> forall a b, a < valency f -> b < valency f -> occurs f a b (e (nth_atom f a)) (e (nth_atom f b))) /\
     forall e, sem f e = true -> sem g e = true) /\
  (~ (no_links f /\ none_fixed f) -> gapless_boolf order f = Err BoolfNotBlightlessError).
Proof.
  intros order f Ho M. assert (R := m_red f M). split.
  - intros NL NF. destruct (gapless_spec order f Ho R NL NF) as [g [E [Rg Sg]]]. exists g. split; [exact E|]. split; [apply reduced_made; exact Rg|]. split; [exact Sg|].
    intros e He. apply Sg. intros a b _ _. exists e. auto.
  - intro N. unfold gapless_boolf. destruct (is_blightless_spec order f Ho R) as [bl [Ebl Hbl]]. rewrite Ebl. cbn [bind]. destruct bl; [destruct N; apply Hbl; reflexivity | reflexivity].
Qed.
Print Assumptions C58_gapless_boolf.

(** * C59: bundles *)

(** the bundles are the classes of the keys that are connected by chains of crossing atoms,
    sorted by their first keys; a function with links is rejected (the error says blightless,
    but fixed atoms are accepted) *)
Theorem C59_bundles : forall order f, (forall l, Permutation (order l) l) -> made false f ->
  (no_links f -> exists B, bundles order f = Ok B /\ classes (valency f) (chained f) B /\ StronglySorted (fun b c => hd 0 b < hd 0 c) B) /\
  (~ no_links f -> bundles order f = Err BoolfNotBlightlessError /\ bundle_overlap_counts order f = Err BoolfNotBlightlessError).
Proof.
  intros order f Ho M. assert (R := m_red f M). destruct (bundles_spec order f Ho R) as [H1 H2]. split; [exact H1|]. intro N. split; [exact (H2 N)|].
  unfold bundle_overlap_counts. destruct (bloatless_check order f Ho R) as [g [Eg Hg]]. rewrite Eg. cbn [bind]. destruct (boolf_eqb f g); [destruct N; apply Hg; reflexivity | reflexivity].
Qed.
Print Assumptions C59_bundles.

Theorem C59_is_bundle : forall order f, (forall l, Permutation (order l) l) -> made false f -> no_links f ->
  exists b, is_bundle order f = Ok b /\ (b = true <-> 0 < valency f /\ forall x y, x < valency f -> y < valency f -> chained f x y).
Proof.
  intros order f Ho M N. destruct (bundles_spec order f Ho (m_red f M)) as [H1 _]. destruct (H1 N) as [B [E [C _]]]. unfold is_bundle. rewrite E. cbn [bind]. eexists. split; [reflexivity|]. rewrite Nat.eqb_eq.
  apply is_bundle_classes; [intros x y; apply rst_sym | intros x y z; apply rst_trans | exact C].
Qed.
Print Assumptions C59_is_bundle.

(** each pair of keys of a bundle is listed once, under the number of its overlaps; no bundle has
    a pair with fewer than three *)
Theorem C59_bundle_overlap_counts : forall order f, (forall l, Permutation (order l) l) -> made false f -> no_links f ->
  exists B d, bundles order f = Ok B /\ bundle_overlap_counts order f = Ok d /\ map fst d = B /\
    forall bundle l3 l4, In (bundle, (l3, l4)) d -> NoDup l3 /\ NoDup l4 /\
      (forall a b, In (a, b) l3 <-> In a bundle /\ In b bundle /\ a < b < valency f /\ combos f a b 3) /\
      (forall a b, In (a, b) l4 <-> In a bundle /\ In b bundle /\ a < b < valency f /\ combos f a b 4) /\
      (forall a b, In a bundle -> In b bundle -> a < b -> In (a, b) l3 \/ In (a, b) l4).
Proof.
  intros order f Ho M N. assert (R := m_red f M). destruct (overlap_counts_spec order f Ho R N) as [B [d [EB [Ed [Hd H]]]]]. exists B, d. split; [exact EB|]. split; [exact Ed|]. split; [exact Hd|].
  intros bundle l3 l4 Hin. destruct (H bundle l3 l4 Hin) as [H1 [H2 [H3 H4]]]. split; [exact H1|]. split; [exact H2|]. split; [exact H3|]. split; [exact H4|].
  intros a b Ha Hb Hab. destruct (bundles_spec order f Ho R) as [HB _]. destruct (HB N) as [B' [EB' [[C1 _] _]]]. assert (B' = B) by congruence. subst B'.
  assert (Hbu : In bundle B) by (rewrite <- Hd; change bundle with (fst (bundle, (l3, l4))); apply in_map; exact Hin). destruct (C1 bundle Hbu) as (_ & _ & Hx).
  assert (Hbv : b < valency f) by exact (proj1 (Hx b Hb)). destruct (proj1 (proj2 (Hx a Ha) b) Hb) as [_ Hch]. destruct (chained_free f a b Hch) as [X|[Fa Fb]]; [lia|].
  destruct (counts_spec f R) as [sp [_ [Sd _]]]. destruct (overlaps f sp a b R Sd) as [m [_ [Cm [_ H34]]]]; [lia|]. destruct H34 as [X|X]; [intro c; apply N; lia | exact Fa | exact Fb | |]; rewrite X in Cm.
  - left. apply H3. auto.
  - right. apply H4. auto.
Qed.
Print Assumptions C59_bundle_overlap_counts.

(** the grid partition of a bundle: the keys connected by chains of pairs with three overlaps *)
Theorem C59_bundle_grid_partitions : forall order f, (forall l, Permutation (order l) l) -> made false f ->
  (no_links f -> none_fixed f -> exists B d, bundles order f = Ok B /\ bundle_grid_partitions order f = Ok d /\ map fst d = B /\
    forall bundle p, In (bundle, p) d -> canonical (sp_blocks p) /\
      forall x y, same (sp_blocks p) x y <-> x = y \/ exists a b, x = Z.of_nat a /\ y = Z.of_nat b /\ clos_refl_sym_trans nat (gap_in f bundle) a b) /\
  (~ (no_links f /\ none_fixed f) -> bundle_grid_partitions order f = Err BoolfNotBlightlessError).
Proof. intros order f Ho M. exact (grid_spec order f Ho (m_red f M)). Qed.
Print Assumptions C59_bundle_grid_partitions.

(** * Examples *)

Definition as_is (l : list (Z * Z)) := l.
Lemma as_is_ok l : Permutation (as_is l) l.
Proof. apply Permutation_refl. Qed.

(** five atoms; the satisfied places are 18, 24 and 29: the atoms 1 and 5 are equal, 3 and 7 are
    complements, 9 is fixed *)
Definition spots (n : nat) (l : list nat) : list bool := map (fun i => memb i l) (range (2 ^ n)).
Example C55_ex : exists f g h b, Boolf_vec (spots 5 [18; 24; 29]) [1; 3; 5; 7; 9] = Ok f /\ made false f /\ is_constant f = false /\
  match blight as_is f with
  | Ok s => are_equal s 0 2 = true /\ are_comp s 1 3 = true /\ are_comp s 3 1 = true /\ are_equal s (-1) 4 = true /\ are_equal s 0 1 = false /\ are_comp s (-1) 0 = false
  | Err _ => False
  end /\
  blocks_and_sides as_is f = Ok ([[0; 2]; [1; 3]; [4]], [None; Some 1; None]) /\
  bloatless_atomkeys_undeflated as_is f = Ok [0; 1; 4] /\ bloatless_atomkeys_deflated as_is f = Ok [0; 1; 4] /\ blightless_atomkeys as_is f = Ok [0; 1] /\
  bloatless_boolf as_is f = Ok g /\ atomvals g = [1; 3; 9] /\ binv_exposet (root g) = [4; 5; 6] /\
  blightless_boolf as_is f = Ok h /\ atomvals h = [1; 3] /\ root h = [true; true; true; false] /\
  blight_boolf as_is f = Ok b /\ atomvals b = [1; 3; 5; 7; 9] /\ binv_exposet (root b) = [18; 23; 24; 29] /\
  bloatless_spotint as_is f 23 = Ok 7 /\ blightless_spotint as_is f 23 = Ok 3 /\ blightless_spotint as_is f 7 = Err BlightMismatchError /\
  bloatless_spotint as_is f 7 = Ok 3 /\ bloatless_spotint as_is f 16 = Err BloatMismatchError /\ bloatless_spotint as_is f 32 = Err TooBigError /\
  bundles as_is f = Err BoolfNotBlightlessError /\ gapless_boolf as_is f = Err BoolfNotBlightlessError.
Proof.
  destruct (Boolf_vec_sorted (spots 5 [18; 24; 29]) [1; 3; 5; 7; 9]) as [f [E [R _]]]; [repeat constructor | reflexivity|].
  destruct (bloatless_boolf as_is f) as [g|] eqn:Eg; [|vm_compute in E; injection E as <-; vm_compute in Eg; discriminate Eg].
  destruct (blightless_boolf as_is f) as [h|] eqn:Eh; [|vm_compute in E; injection E as <-; vm_compute in Eh; discriminate Eh].
  destruct (blight_boolf as_is f) as [b|] eqn:Eb; [|vm_compute in E; injection E as <-; vm_compute in Eb; discriminate Eb].
  exists f, g, h, b. split; [exact E|]. split; [apply reduced_made; exact R|]. vm_compute in E. injection E as <-. vm_compute in Eg. injection Eg as <-. vm_compute in Eh. injection Eh as <-. vm_compute in Eb. injection Eb as <-.
  split; [reflexivity|]. split; [vm_compute; do 5 (split; [reflexivity|]); reflexivity|]. do 20 (split; [vm_compute; reflexivity|]). vm_compute; reflexivity.
Qed.

Lemma ex_clean f : made false f -> is_blightless as_is f = Ok true -> no_links f /\ none_fixed f.
Proof. intros M E. destruct (is_blightless_spec as_is f as_is_ok (m_red f M)) as [b [Eb Hb]]. apply Hb. congruence. Qed.

(** four atoms without links and fixed values: the place 11 is added to the gapless function; all
    keys are in one bundle *)
Example C58_ex : exists f g, Boolf_vec (spots 4 [1; 2; 3; 5; 7; 9; 10]) [1; 3; 5; 7] = Ok f /\ made false f /\ no_links f /\ none_fixed f /\
  gapless_boolf as_is f = Ok g /\ atomvals g = [1; 3; 5; 7] /\ binv_exposet (root g) = [1; 2; 3; 5; 7; 9; 10; 11] /\
  bundles as_is f = Ok [[0; 1; 2; 3]] /\ is_bundle as_is f = Ok true /\
  bundle_overlap_counts as_is f = Ok [([0; 1; 2; 3], ([(0, 1); (0, 2); (2, 3)], [(0, 3); (1, 2); (1, 3)]))] /\
  match bundle_grid_partitions as_is f with Ok [(b, p)] => b = [0; 1; 2; 3] /\ sp_blocks p = [[0; 1; 2; 3]%Z] | _ => False end.
Proof.
  destruct (Boolf_vec_sorted (spots 4 [1; 2; 3; 5; 7; 9; 10]) [1; 3; 5; 7]) as [f [E [R _]]]; [repeat constructor | reflexivity|]. assert (M := reduced_made f R).
  destruct (gapless_boolf as_is f) as [g|] eqn:Eg; [|vm_compute in E; injection E as <-; vm_compute in Eg; discriminate Eg].
  destruct (ex_clean f M) as [N1 N2]; [vm_compute in E; injection E as <-; vm_compute; reflexivity|].
  exists f, g. split; [exact E|]. split; [exact M|]. split; [exact N1|]. split; [exact N2|]. vm_compute in E. injection E as <-. vm_compute in Eg. injection Eg as <-.
  do 6 (split; [vm_compute; reflexivity|]). vm_compute. split; reflexivity.
Qed.

(** two bundles: the keys 0, 1 and the keys 2, 3, no grid *)
Example C59_ex : exists f, Boolf_vec (spots 4 [0; 1; 2; 3; 4; 8; 12]) [1; 3; 5; 7] = Ok f /\ made false f /\ no_links f /\ none_fixed f /\
  bundles as_is f = Ok [[0; 1]; [2; 3]] /\ is_bundle as_is f = Ok false /\
  bundle_overlap_counts as_is f = Ok [([0; 1], ([], [(0, 1)])); ([2; 3], ([], [(2, 3)]))] /\
  match bundle_grid_partitions as_is f with Ok d => map (fun bp => sp_blocks (snd bp)) d = [[]; []] | _ => False end.
Proof.
  destruct (Boolf_vec_sorted (spots 4 [0; 1; 2; 3; 4; 8; 12]) [1; 3; 5; 7]) as [f [E [R _]]]; [repeat constructor | reflexivity|]. assert (M := reduced_made f R).
  destruct (ex_clean f M) as [N1 N2]; [vm_compute in E; injection E as <-; vm_compute; reflexivity|].
  exists f. split; [exact E|]. split; [exact M|]. split; [exact N1|]. split; [exact N2|]. vm_compute in E. injection E as <-.
  do 3 (split; [vm_compute; reflexivity|]). vm_compute. reflexivity.
Qed.
