(** Proof_Gapless: the gapless function and the bundles. *)

From Coq Require Import List Arith ZArith Bool Lia Permutation Sorted Relations.
From Verif Require Import Model_Base Lib Model_Binary Model_Splits Model_Perm Model_SetPart Model_SetPartComp Model_Boolf Model_SetPartBoolf Model_Blight.
From Verif Require Import Spec_SetPart Proof_SetPart Proof_SetPartMore Spec_SetPartComp Proof_SetPartComp Proof_SetPartCompMore Props_SetPartComp.
From Verif Require Import Spec_Bits Spec_Boolf Spec_Splits Spec_Blight Proof_Binary Proof_Linear Proof_Boolf Proof_BoolfTable Proof_BoolfApply Proof_Noble Proof_Perm Proof_BoolfMake Proof_Splits Props_Boolf Proof_SetPartBoolf Props_SetPartBoolf Props_Splits Proof_Blight Proof_BlightBoolf Proof_Blocks Proof_BlightBlocks Proof_Bloatless Proof_Blightless.
Import ListNotations.
Open Scope nat_scope.

(** * is_bloatless, is_blotless, is_blightless *)

Lemma is_bloatless_spec order f : (forall l, Permutation (order l) l) -> splittable f -> exists b, is_bloatless order f = Ok b /\ (b = true <-> no_links f).
Proof.
  intros Ho R. destruct (bloat_forced order f Ho R) as [s [st [E [H [_ Fo]]]]]. unfold is_bloatless. rewrite E. cbn [bind]. destruct empty_spc_history as [s0 [E0 H0]]. rewrite E0. cbn [bind].
  destruct (C48_equality s st s0 [] H H0) as [b [Eb Hb]]. exists b. split; [exact Eb|]. rewrite Hb.
  assert (Nil : forall x y c, forced [] x y c <-> x = y /\ c = false).
  { intros x y c. split; [|intros [-> ->]; apply forced_refl]. intro X. induction X as [x|u v p []|x y c _ IH|x y z c d _ IH1 _ IH2]; [auto | destruct IH; auto|]. destruct IH1 as [-> ->], IH2 as [-> ->]. auto. }
  split.
  - intros X u v c Huv L. assert (Y : forced st (Z.of_nat u) (Z.of_nat v) c) by (apply Fo; right; split; [unfold is_key; lia|]; split; [unfold is_key; lia|]; apply zlinked_keys; exact L).
    apply X, Nil in Y as [Y _]. lia.
  - intros N x y c. rewrite Nil, Fo. split; [|intro; left; assumption]. intros [X|[Hx [Hy L]]]; [exact X|]. apply is_key_nat in Hx as [u [-> Hu]], Hy as [v [-> Hv]]. apply (proj1 (zlinked_keys f u v c)) in L.
    destruct (Nat.lt_total u v) as [Q|[->|Q]]; [destruct (N u v c); [lia | exact L] | | destruct (N v u c); [lia | apply linked_sym; exact L]].
    split; [reflexivity|]. destruct (key_satisfiable f v R Hv) as [e He]. rewrite <- (L e He). apply xorb_nilpotent.
Qed.

Lemma is_blotless_spec f : splittable f -> exists b, is_blotless f = Ok b /\ (b = true <-> none_fixed f).
Proof.
  intro R. destruct (onesided_keys f R) as [keys [E [_ H]]]. unfold is_blotless. rewrite E. cbn [bind]. eexists. split; [reflexivity|]. rewrite Nat.eqb_eq. split.
  - intros L a q Ha Hq. destruct keys; [|discriminate]. apply (proj2 (H a)). split; [exact Ha | exists q; exact Hq].
  - intro N. destruct keys as [|k keys]; [reflexivity|]. destruct (proj1 (H k) (or_introl eq_refl)) as [Hk [q Hq]]. destruct (N k q Hk Hq).
Qed.

Lemma is_blightless_spec order f : (forall l, Permutation (order l) l) -> splittable f -> exists b, is_blightless order f = Ok b /\ (b = true <-> no_links f /\ none_fixed f).
Proof.
  intros Ho R. unfold is_blightless. destruct (is_bloatless_spec order f Ho R) as [b [Eb Hb]]. rewrite Eb. cbn [bind]. destruct (is_blotless_spec f R) as [o [Eo Ho']]. destruct b.
  - exists o. split; [exact Eo|]. rewrite Ho'. split; [intro; split; [apply Hb; reflexivity | assumption] | intros [_ H]; exact H].
  - exists false. split; [reflexivity|]. split; [discriminate | intros [H _]; apply Hb in H; exact H].
Qed.

(** * Overlaps *)

Lemma overlaps f sp a b : splittable f -> sided f sp -> a < b < valency f ->
  exists m : bool -> bool -> bool, (forall p q, m p q = true <-> occurs f a b p q) /\ combos f a b (nreg sp a b) /\
    nreg sp a b = Nat.b2n (m true true) + Nat.b2n (m true false) + Nat.b2n (m false true) + Nat.b2n (m false false) /\
    ((forall c, ~ linked f a b c) -> (forall q, ~ fixed f a q) -> (forall q, ~ fixed f b q) -> nreg sp a b = 3 \/ nreg sp a b = 4).
Proof.
  intros R Sd Hab. destruct (quad f sp a b (proj1 (proj1 R)) Sd ltac:(lia) ltac:(lia)) as [m [Hm [Hn _]]]. exists m. split; [exact Hm|]. split; [|split; [exact Hn|]].
  - exists (regions (nth a sp ([], [])) (nth b sp ([], []))). split; [apply regions_NoDup|]. split; [reflexivity|]. apply regions_occur; [apply R | apply Sd | lia | lia].
  - intros L Fa Fb. rewrite Hn.
    assert (No : forall P : bool -> bool -> Prop, (forall p q, m p q = true -> P p q) -> forall e, sem f e = true -> P (e (nth_atom f a)) (e (nth_atom f b))).
    { intros P HP e He. apply HP, Hm. exists e. auto. }
    destruct (m true true) eqn:M1, (m true false) eqn:M2, (m false true) eqn:M3, (m false false) eqn:M4; cbn [Nat.b2n]; try lia; exfalso.
    all: first
      [ apply (Fa true); intros e He; apply (No (fun p q => p = true)); [intros p q Hpq; destruct p, q; congruence | exact He]
      | apply (Fa false); intros e He; apply (No (fun p q => p = false)); [intros p q Hpq; destruct p, q; congruence | exact He]
      | apply (Fb true); intros e He; apply (No (fun p q => q = true)); [intros p q Hpq; destruct p, q; congruence | exact He]
      | apply (Fb false); intros e He; apply (No (fun p q => q = false)); [intros p q Hpq; destruct p, q; congruence | exact He]
      | apply (L true); intros e He; apply (No (fun p q => xorb p q = true)); [intros p q Hpq; destruct p, q; cbn in *; congruence | exact He]
      | apply (L false); intros e He; apply (No (fun p q => xorb p q = false)); [intros p q Hpq; destruct p, q; cbn in *; congruence | exact He] ].
Qed.

Lemma crossing_four f sp a b : splittable f -> sided f sp -> a < b < valency f -> (nreg sp a b = 4 <-> crossing f a b).
Proof.
  intros R Sd Hab. destruct (overlaps f sp a b R Sd Hab) as [m [Hm [_ [Hn _]]]]. rewrite Hn. split.
  - intro H. split; [lia|]. split; [lia|]. intros p q. apply Hm. destruct (m true true) eqn:M1, (m true false) eqn:M2, (m false true) eqn:M3, (m false false) eqn:M4; cbn in H; try lia. destruct p, q; assumption.
  - intros [_ [_ H]]. rewrite !(proj2 (Hm _ _)) by apply H. reflexivity.
Qed.

(** * The gapless function *)

Lemma some_value f k q : splittable f -> k < valency f -> none_fixed f -> exists e, sem f e = true /\ e (nth_atom f k) = q.
Proof.
  intros R Hk NF. destruct (splits_sides f (proj1 (proj1 R))) as [sp [_ [Lsp Hsp]]]. assert (N : side (nth k sp ([], [])) q <> []).
  { intro X. apply (NF k (negb q) Hk). apply (fixed_spots f k (negb q) (proj1 (proj1 R)) Hk). intros n Hn. destruct (Bool.bool_dec (Nat.testbit n k) q) as [E|E]; [|destruct (Nat.testbit n k), q; cbn; congruence].
    exfalso. assert (Y : In n (side (nth k sp ([], [])) q)) by (apply Hsp; auto). rewrite X in Y. destruct Y. }
  destruct (side (nth k sp ([], [])) q) as [|n l] eqn:E; [congruence|]. assert (Y : In n (side (nth k sp ([], [])) q)) by (rewrite E; left; reflexivity). apply Hsp in Y as [Y1 Y2]; [|exact Hk].
  exists (asg (atomvals f) n). rewrite sem_place_asg by (try apply R; apply (place_bound f n (proj1 (proj1 R)) Y1)). rewrite asg_key by (try apply R; exact Hk). auto.
Qed.

Lemma three_clause f sp a b : splittable f -> sided f sp -> splits f = Ok sp -> a < b < valency f -> combos f a b 3 ->
  exists g, (let (set_a, comp_a) := nth a sp ([], []) in
             let (set_b, comp_b) := nth b sp ([], []) in
             let* tt :=
               if negb (meets comp_a comp_b) then Ok [false; true; true; true]
               else if negb (meets set_a comp_b) then Ok [true; false; true; true]
               else if negb (meets comp_a set_b) then Ok [true; true; false; true]
               else if negb (meets set_a set_b) then Ok [true; true; true; false]
               else Err TooManyOverlapsERROR in
             Boolf_vec tt [nth_atom f a; nth_atom f b]) = Ok g /\ reduced g /\
    forall e, sem g e = true <-> occurs f a b (e (nth_atom f a)) (e (nth_atom f b)).
Proof.
  intros R Sd Es Hab C. destruct (overlaps f sp a b R Sd Hab) as [m [Hm [Cn [Hn _]]]]. assert (N3 := combos_unique f a b _ _ Cn C). rewrite Hn in N3. clear Hn.
  assert (Mm : forall p q, meets (side (nth a sp ([], [])) p) (side (nth b sp ([], [])) q) = m p q).
  { intros p q. apply eq_iff_eq_true. rewrite Hm, <- regions_In. apply regions_occur; [apply R | apply Sd | lia | lia]. }
  assert (M1 := Mm true true). assert (M2 := Mm true false). assert (M3 := Mm false true). assert (M4 := Mm false false). unfold side in M1, M2, M3, M4.
  destruct (nth a sp ([], [])) as [set_a comp_a], (nth b sp ([], [])) as [set_b comp_b]. cbn [fst snd] in *. rewrite M1, M2, M3, M4. clear M1 M2 M3 M4 Mm.
  assert (Asc : ascending [nth_atom f a; nth_atom f b]) by (constructor; [repeat constructor | constructor; [apply nth_atom_lt; [apply R | exact Hab] | constructor]]).
  assert (G : forall t, length t = 4 -> (forall p q, nth (b2n [p; q]) t false = m p q) ->
    exists g, Boolf_vec t [nth_atom f a; nth_atom f b] = Ok g /\ reduced g /\ forall e, sem g e = true <-> occurs f a b (e (nth_atom f a)) (e (nth_atom f b))).
  { intros t Lt Ht. destruct (Boolf_vec_sorted t [nth_atom f a; nth_atom f b] Asc Lt) as [g [Eg [Rg Sg]]]. exists g. split; [exact Eg|]. split; [exact Rg|].
    intro e. rewrite Sg. unfold table. cbn [map]. rewrite Ht. apply Hm. }
  clear C Cn. destruct (m true true) eqn:M1, (m true false) eqn:M2, (m false true) eqn:M3, (m false false) eqn:M4; cbn in N3; try lia; cbn [negb bind];
    (apply G; [reflexivity | intros [|] [|]; cbn; congruence]).
Qed.

Lemma gapless_result order f i : (forall l, Permutation (order l) l) -> made i f -> splittable f -> no_links f -> none_fixed f ->
  exists g, gapless_boolf order f = (let* ge := bitwise_ge g f in guard ge else SmallerThanSelfERROR ;; Ok g) /\ reduced g /\
    (forall e, sem g e = true <-> forall a b, a < valency f -> b < valency f -> occurs f a b (e (nth_atom f a)) (e (nth_atom f b))).
Proof.
  intros Ho M R NL NF. assert (F : fitting f) by apply R. unfold gapless_boolf. destruct (is_blightless_spec order f Ho R) as [bl [Ebl Hbl]]. rewrite Ebl, (proj2 Hbl (conj NL NF)). cbn [bind true_except].
  destruct (C40_three_overlaps i f M) as [l [El [_ Hl]]]. rewrite El. cbn [bind]. destruct (splits_sides f F) as [sp [Es [Lsp Hsp]]]. rewrite Es. cbn [bind].
  assert (Sd : sided f sp) by (split; assumption).
  set (step := fun (result : boolf) (ab : nat * nat) => _).
  assert (Step : forall acc ab, reduced acc -> In ab l -> exists g, step acc ab = Ok g /\ reduced g /\
     forall e, sem g e = true <-> sem acc e = true /\ occurs f (fst ab) (snd ab) (e (nth_atom f (fst ab))) (e (nth_atom f (snd ab)))).
  { intros acc [a b] Ra Hin. apply Hl in Hin as [Hab C]. cbn [fst snd]. unfold step. cbn [fst snd]. rewrite (lget_ok (atomvals f) a 0), (lget_ok (atomvals f) b 0) by (unfold valency in Hab; lia). cbn [bind].
    rewrite (lget_ok sp a ([], [])), (lget_ok sp b ([], [])) by lia. cbn [bind].
    destruct (three_clause f sp a b R Sd Es Hab C) as [g [Eg [Rg Sg]]]. fold (nth_atom f a) (nth_atom f b).
    destruct (nth a sp ([], [])) as [set_a comp_a], (nth b sp ([], [])) as [set_b comp_b].
    match type of Eg with bind ?X ?Y = _ => destruct X as [tt|e]; [cbn [bind] in Eg |- * | discriminate Eg] end. rewrite Eg. cbn [bind].
    destruct (bitwise_spec andb acc g (proj1 Ra) (proj1 Rg)) as [h [Eh [Rh Sh]]]. exists h. split; [exact Eh|]. split; [exact Rh|]. intro e. rewrite Sh, andb_true_iff, Sg. reflexivity. }
  assert (Fold : forall l' acc, incl l' l -> reduced acc -> exists g, foldM step l' acc = Ok g /\ reduced g /\
     forall e, sem g e = true <-> sem acc e = true /\ forall a b, In (a, b) l' -> occurs f a b (e (nth_atom f a)) (e (nth_atom f b))).
  { clearbody step. induction l' as [|[a b] l' IH]; intros acc Hi Ra.
    - exists acc. split; [reflexivity|]. split; [exact Ra|]. intro e. split; [intro H; split; [exact H | intros a b []] | intros [H _]; exact H].
    - destruct (Step acc (a, b) Ra (Hi _ (or_introl eq_refl))) as [g [Eg [Rg Sg]]]. cbn [foldM]. rewrite Eg. destruct (IH g (fun x Hx => Hi x (or_intror Hx)) Rg) as [h [Eh [Rh Sh]]].
      exists h. split; [exact Eh|]. split; [exact Rh|]. intro e. rewrite Sh, Sg. cbn [fst snd]. split.
      + intros [[H1 H2] H3]. split; [exact H1|]. intros x y [X|X]; [injection X as <- <-; exact H2 | apply H3; exact X].
      + intros [H1 H2]. split; [split; [exact H1 | apply H2; left; reflexivity] | intros x y X; apply H2; right; exact X]. }
  destruct (set_constant_reduced true) as [Rt St]. destruct (Fold l (set_constant true) (incl_refl l) Rt) as [g [Eg [Rg Sg]]]. rewrite Eg. cbn [bind].
  assert (Full : forall e, sem g e = true <-> forall a b, a < valency f -> b < valency f -> occurs f a b (e (nth_atom f a)) (e (nth_atom f b))).
  { intro e. rewrite Sg, St. split.
    - intros [_ H]. assert (Up : forall a b, a < b < valency f -> occurs f a b (e (nth_atom f a)) (e (nth_atom f b))).
      { intros a b Hab. destruct (overlaps f sp a b R Sd Hab) as [m [Hm [Cn [Hn H34]]]].
        destruct H34 as [N3|N4]; [intro c; apply NL; exact Hab | intro q; apply NF; lia | intro q; apply NF; lia | |].
        - apply H. apply Hl. split; [exact Hab|]. rewrite <- N3. exact Cn.
        - apply (crossing_four f sp a b R Sd Hab). exact N4. }
      intros a b Ha Hb. destruct (Nat.lt_total a b) as [Q|[->|Q]]; [apply Up; lia | | apply occurs_swap; apply Up; lia].
      destruct (some_value f b (e (nth_atom f b)) R Hb NF) as [e' [He' Hv]]. exists e'. auto.
    - intro H. split; [reflexivity|]. intros a b Hin. apply Hl in Hin as [Hab _]. apply H; lia. }
  exists g. split; [reflexivity|]. split; [exact Rg | exact Full].
Qed.

Lemma gapless_above f g : (forall e, sem g e = true <-> forall a b, a < valency f -> b < valency f -> occurs f a b (e (nth_atom f a)) (e (nth_atom f b))) ->
  forall e, sem f e = true -> sem g e = true.
Proof. intros H e He. apply H. intros a b _ _. exists e. auto. Qed.

Lemma gapless_spec order f : (forall l, Permutation (order l) l) -> reduced f -> no_links f -> none_fixed f ->
  exists g, gapless_boolf order f = Ok g /\ reduced g /\
    (forall e, sem g e = true <-> forall a b, a < valency f -> b < valency f -> occurs f a b (e (nth_atom f a)) (e (nth_atom f b))).
Proof.
  intros Ho R NL NF. destruct (gapless_result order f false Ho (reduced_made f R) R NL NF) as [g [E [Rg Full]]]. exists g. rewrite E.
  unfold bitwise_ge. destruct (le_spec_reduced f g R Rg) as [q [Eq Hq]]. rewrite Eq. cbn [bind].
  rewrite (proj2 Hq) by (apply gapless_above; exact Full). split; [reflexivity|]. split; [exact Rg | exact Full].
Qed.
