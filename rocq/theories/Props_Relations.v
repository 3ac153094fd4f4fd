(** Props_Relations: property C104, how two splits are related to each other, and what filtrates
    and gapless functions do when they are taken again. *)

From Coq Require Import List Arith ZArith Bool Lia Permutation Sorted.
From Verif Require Import Model_Base Lib Model_Binary Model_Perm Model_SetPart Model_Boolf Model_Splits Model_Blight
  Spec_Bits Spec_Boolf Spec_Splits Spec_Blight Proof_Binary Proof_Linear Proof_Boolf Proof_BoolfTable Proof_BoolfApply Proof_Noble Proof_Perm Proof_BoolfMake Proof_Splits Proof_Blight Proof_Gapless Props_Boolf Props_Splits Props_Blight.
Import ListNotations.
Local Open Scope nat_scope.

(** a split does not tell which of its sides is the inside *)
Definition same_split (x y : split) : Prop := x = y \/ x = (snd y, fst y).
(** neither side is empty *)
Definition two_sided (x : split) : Prop := fst x <> [] /\ snd x <> [].

(** boolean reflections of these, by the four intersections *)
Lemma meets_false l m : meets l m = false <-> forall x, In x l -> In x m -> False.
Proof.
  split.
  - intros H x Hl Hm. assert (X : meets l m = true) by (apply meets_true; exists x; tauto). congruence.
  - intro H. apply not_true_iff_false. intro X. apply meets_true in X as [x [A B]]. eauto.
Qed.

Lemma split_eq f sp a b : fitting f -> splits f = Ok sp -> a < valency f -> b < valency f -> forall q,
  ((nth a sp ([], []) = (side (nth b sp ([], [])) q, side (nth b sp ([], [])) (negb q))) <->
   meets (side (nth a sp ([], [])) true) (side (nth b sp ([], [])) (negb q)) = false /\ meets (side (nth a sp ([], [])) false) (side (nth b sp ([], [])) q) = false).
Proof.
  intros F E Ha Hb q. destruct (splits_ok f F) as [sp' [E' [_ H]]]. rewrite E in E'. injection E' as <-.
  destruct (H a Ha) as [r [v [Xa [A1 [A2 [B1 B2]]]]]]. destruct (H b Hb) as [r' [v' [Xb [A1' [A2' [B1' B2']]]]]]. rewrite Xa, Xb.
  rewrite !meets_false. cbn [side fst snd]. destruct q; cbn [negb fst snd]; split.
  - intro X. injection X as -> ->. split; intros n H1 H2; [apply B1' in H1; apply B2' in H2 | apply B2' in H1; apply B1' in H2]; destruct H1, H2; congruence.
  - intros [X Y]. f_equal; apply ascending_ext; try assumption; intro n; split; intro Hn.
    + apply B1' . assert (Hn' := Hn). apply B1 in Hn' as [V T]. split; [exact V|]. destruct (Nat.testbit n b) eqn:Eb; [reflexivity|]. destruct (X n Hn). apply B2'. tauto.
    + apply B1. assert (Hn' := Hn). apply B1' in Hn' as [V T]. split; [exact V|]. destruct (Nat.testbit n a) eqn:Eb; [reflexivity|]. destruct (Y n); [apply B2; tauto | exact Hn].
    + apply B2'. assert (Hn' := Hn). apply B2 in Hn' as [V T]. split; [exact V|]. destruct (Nat.testbit n b) eqn:Eb; [|reflexivity]. destruct (Y n Hn). apply B1'. tauto.
    + apply B2. assert (Hn' := Hn). apply B2' in Hn' as [V T]. split; [exact V|]. destruct (Nat.testbit n a) eqn:Eb; [|reflexivity]. destruct (X n); [apply B1; tauto | exact Hn].
  - intro X. injection X as -> ->. split; intros n H1 H2; [apply B2' in H1; apply B1' in H2 | apply B1' in H1; apply B2' in H2]; destruct H1, H2; congruence.
  - intros [X Y]. f_equal; apply ascending_ext; try assumption; intro n; split; intro Hn.
    + apply B2' . assert (Hn' := Hn). apply B1 in Hn' as [V T]. split; [exact V|]. destruct (Nat.testbit n b) eqn:Eb; [|reflexivity]. destruct (X n Hn). apply B1'. tauto.
    + apply B1. assert (Hn' := Hn). apply B2' in Hn' as [V T]. split; [exact V|]. destruct (Nat.testbit n a) eqn:Eb; [reflexivity|]. destruct (Y n); [apply B2; tauto | exact Hn].
    + apply B1'. assert (Hn' := Hn). apply B2 in Hn' as [V T]. split; [exact V|]. destruct (Nat.testbit n b) eqn:Eb; [reflexivity|]. destruct (Y n Hn). apply B2'. tauto.
    + apply B2. assert (Hn' := Hn). apply B1' in Hn' as [V T]. split; [exact V|]. destruct (Nat.testbit n a) eqn:Eb; [|reflexivity]. destruct (X n); [apply B1; tauto | exact Hn].
Qed.

Lemma nonempty_false {A} (l : list A) : nonempty l = false <-> l = [].
Proof. destruct l; cbn; split; congruence. Qed.
Lemma nonempty_true {A} (l : list A) : nonempty l = true <-> l <> [].
Proof. destruct l; cbn; split; congruence. Qed.

(** metributes/_splits/splits/README.md: two different splits have four overlaps where the borders
    cross, three where they do not, and two where one of the sets is the universe; equal splits
    have two overlaps, or one where one side is empty, or none where all is empty *)
Theorem C104_relations : forall i f a b, made i f -> a < b < valency f ->
  exists sp d c x y, splits f = Ok sp /\ nth_error sp a = Some x /\ nth_error sp b = Some y /\ splits_overlap_counts f = Ok d /\ In ((a, b), c) d /\
    (c = 4 <-> ~ same_split x y /\ two_sided x /\ two_sided y /\ atom_pair_crossing f a b = Ok true) /\
    (c = 3 <-> ~ same_split x y /\ two_sided x /\ two_sided y /\ atom_pair_crossing f a b = Ok false) /\
    (c = 2 <-> ~ same_split x y /\ (two_sided x /\ ~ two_sided y \/ ~ two_sided x /\ two_sided y) \/ same_split x y /\ two_sided x /\ two_sided y) /\
    (c = 1 <-> same_split x y /\ (fst x = [] /\ snd x <> [] \/ fst x <> [] /\ snd x = [])) /\
    (c = 0 <-> x = ([], []) /\ y = ([], [])) /\
    (c = 0 <-> ~ satisfiable f).
Proof.
  intros i f a b M Hab. assert (F := m_fit i f M). destruct (counts_ok f F) as [sp [E [Hl [Hs Ec]]]].
  exists sp. eexists. exists (nreg sp a b), (nth a sp ([], [])), (nth b sp ([], [])).
  split; [exact E|]. split; [apply nth_error_nth'; lia|]. split; [apply nth_error_nth'; lia|]. split; [exact Ec|].
  split; [apply in_map_iff; exists (a, b); split; [reflexivity | apply pairs_range_In; exact Hab]|].
  assert (Ha : a < valency f) by lia. assert (Hb : b < valency f) by lia.
  destruct (quad f sp a b F (conj Hl Hs) Ha Hb) as [m [Hm [Hn [Hr Hc]]]].
  destruct (proj1 (C40_pair_questions i f a b M ltac:(lia) Ha Hb)) as [cr [Ecr Hcr]]. rewrite Ecr.
  assert (Cr : cr = m true true && m true false && m false true && m false false).
  { apply eq_true_iff_eq. rewrite Hcr, !andb_true_iff, !Hm. split; [intro X; repeat split; apply X | intros [[[A B] C] D] [] []; assumption]. }
  assert (Mm : forall p q, meets (side (nth a sp ([], [])) p) (side (nth b sp ([], [])) q) = m p q).
  { intros p q. apply eq_true_iff_eq. rewrite Hm, <- regions_In. apply regions_occur; assumption. }
  assert (Q := split_eq f sp a b F E Ha Hb). assert (Q1 := Q true). assert (Q2 := Q false). clear Q. cbn [negb] in Q1, Q2. rewrite !Mm in Q1, Q2. cbn [side] in Q1, Q2.
  assert (S : same_split (nth a sp ([], [])) (nth b sp ([], [])) <-> (m true false = false /\ m false true = false) \/ (m true true = false /\ m false false = false)).
  { unfold same_split. rewrite <- Q1, <- Q2, <- surjective_pairing. reflexivity. }
  assert (R1 := Hr true). assert (R2 := Hr false). assert (C1 := Hc true). assert (C2 := Hc false). cbn [side] in R1, R2, C1, C2.
  assert (Ta : two_sided (nth a sp ([], [])) <-> m true true || m true false = true /\ m false true || m false false = true).
  { unfold two_sided. rewrite <- !nonempty_true, R1, R2. reflexivity. }
  assert (Tb : two_sided (nth b sp ([], [])) <-> m true true || m false true = true /\ m true false || m false false = true).
  { unfold two_sided. rewrite <- !nonempty_true, C1, C2. reflexivity. }
  assert (Za : nth a sp ([], []) = ([], []) <-> m true true || m true false = false /\ m false true || m false false = false).
  { rewrite <- R1, <- R2, !nonempty_false. destruct (nth a sp ([], [])); cbn. split; [intros X; injection X; auto | intros [-> ->]; reflexivity]. }
  assert (Zb : nth b sp ([], []) = ([], []) <-> m true true || m false true = false /\ m true false || m false false = false).
  { rewrite <- C1, <- C2, !nonempty_false. destruct (nth b sp ([], [])); cbn. split; [intros X; injection X; auto | intros [-> ->]; reflexivity]. }
  assert (U : satisfiable f <-> m true true || m true false || m false true || m false false = true).
  { rewrite !orb_true_iff, !Hm. split.
    - intros [e He]. destruct (e (nth_atom f a)) eqn:E1, (e (nth_atom f b)) eqn:E2.
      + left; left; left. exists e; auto.
      + left; left; right. exists e; auto.
      + left; right. exists e; auto.
      + right. exists e; auto.
    - intros [[[[e He]|[e He]]|[e He]]|[e He]]; exists e; tauto. }
  rewrite S, Ta, Tb, Za, Zb, U, <- !nonempty_true, <- !nonempty_false, R1, R2, Hn, Cr. clear.
  destruct (m true true), (m true false), (m false true), (m false false); cbn; repeat split; intuition (congruence || discriminate).
Qed.
Print Assumptions C104_relations.

(** * Filtrates of filtrates *)

Lemma ascending_filter t l : ascending l -> ascending (filter t l).
Proof.
  intro H. induction H as [|a l Hs IH Ha]; [constructor|]. cbn [filter]. destruct (t a); [|exact IH]. constructor; [exact IH|].
  rewrite Forall_forall in *. intros x Hx. apply filter_In in Hx. apply Ha. tauto.
Qed.

(** filtrated_boolf taken twice: the second time on the atoms that are left of a smaller set *)
Theorem C104_filtrate_again : forall i f large small, made i f -> ascending large -> ascending small ->
  (forall a, In a large -> In a (atomvals f)) -> (forall a, In a small -> In a large) ->
  exists g h, filtrated_boolf f large = Ok g /\ filtrated_boolf f small = Ok h /\
    filtrated_boolf g (filter (fun a => memb a (atomvals g)) small) = Ok h /\
    (filtrated_boolf g small = Ok h <-> forall a, In a small -> In a (atomvals g)).
Proof.
  intros i f large small M Hl Hs Il Is.
  destruct (C40_filtrate_ascending i f large M Hl Il) as [g [Eg [Mg Sg]]].
  destruct (C40_filtrate_ascending i f small M Hs (fun a Ha => Il a (Is a Ha))) as [h [Eh [Mh Sh]]].
  assert (Hf : ascending (filter (fun a => memb a (atomvals g)) small)) by (apply ascending_filter; exact Hs).
  destruct (C40_filtrate_ascending false g _ Mg Hf) as [k [Ek [Mk Sk]]]. { intros a Ha. apply filter_In in Ha as [_ Ha]. apply memb_In. exact Ha. }
  assert (X : k = h).
  { apply reduced_unique; [apply m_red; exact Mk | apply m_red; exact Mh|]. intro e. apply eq_true_iff_eq. rewrite Sk, Sh. split.
    - intros [e1 [A1 S1]]. pose (e2 := fun a => if memb a small then e a else e1 a).
      assert (S2 : sem g e2 = true).
      { rewrite <- S1. apply sem_ext. intros a Ha. unfold e2. destruct (memb a small) eqn:Em; [|reflexivity]. symmetry. apply A1. apply filter_In. split; apply memb_In; [exact Em|]. apply memb_In. apply memb_In. exact Ha. }
      apply Sg in S2 as [e3 [A3 S3]]. exists e3. split; [|exact S3]. intros a Ha. rewrite A3 by (apply Is; exact Ha). unfold e2. rewrite (proj2 (memb_In a small) Ha). reflexivity.
    - intros [e1 [A1 S1]]. exists e1. split; [intros a Ha; apply A1; apply filter_In in Ha; tauto|]. apply Sg. exists e1. auto. }
  exists g, h. split; [exact Eg|]. split; [exact Eh|]. split; [rewrite Ek, X; reflexivity|]. split.
  - intros E a Ha. destruct (in_dec Nat.eq_dec a (atomvals g)) as [|N]; [assumption|]. exfalso. rewrite (proj1 (C40_rejected false g small Mg)) in E; [discriminate E | exists a; auto].
  - intro H. assert (Ef : filter (fun a => memb a (atomvals g)) small = small).
    { clear - H. induction small as [|a l IH]; [reflexivity|]. cbn [filter]. rewrite (proj2 (memb_In a (atomvals g))) by (apply H; left; reflexivity). f_equal. apply IH. intros b Hb. apply H. right. exact Hb. }
    rewrite Ef in Ek. rewrite Ek, X. reflexivity.
Qed.
Print Assumptions C104_filtrate_again.

(** * Gapless functions *)

(** the assignment that follows two of three *)
Definition most (p q r : bool) : bool := p && q || p && r || q && r.
Definition majority_closed (f : boolf) : Prop := forall e1 e2 e3, sem f e1 = true -> sem f e2 = true -> sem f e3 = true ->
  sem f (fun a => most (e1 a) (e2 a) (e3 a)) = true.

(** what holds for all pairs of atoms holds for all atoms *)
Lemma pairs_enough h : majority_closed h -> satisfiable h -> forall (e : assignment) n l, length l <= n ->
  (forall x y, In x l -> In y l -> exists e', sem h e' = true /\ e' x = e x /\ e' y = e y) ->
  exists e', sem h e' = true /\ forall x, In x l -> e' x = e x.
Proof.
  intros Hm [e0 He0] e. induction n as [|n IH]; intros l Hl H.
  - destruct l; [|cbn in Hl; lia]. exists e0. split; [exact He0|]. intros x [].
  - destruct l as [|a [|b [|c r]]].
    + exists e0. split; [exact He0|]. intros x [].
    + destruct (H a a) as [e' [S [E _]]]; [left; reflexivity | left; reflexivity|]. exists e'. split; [exact S|]. intros x [<-|[]]. exact E.
    + destruct (H a b) as [e' [S [E1 E2]]]; [left; reflexivity | right; left; reflexivity|]. exists e'. split; [exact S|]. intros x [<-|[<-|[]]]; assumption.
    + cbn [length] in Hl.
      destruct (IH (b :: c :: r)) as [e1 [S1 A1]]; [cbn; lia | intros x y Hx Hy; apply H; cbn in *; tauto|].
      destruct (IH (a :: c :: r)) as [e2 [S2 A2]]; [cbn; lia | intros x y Hx Hy; apply H; cbn in *; tauto|].
      destruct (IH (a :: b :: r)) as [e3 [S3 A3]]; [cbn; lia | intros x y Hx Hy; apply H; cbn in *; tauto|].
      exists (fun x => most (e1 x) (e2 x) (e3 x)). split; [apply Hm; assumption|].
      intros x [<-|[<-|[<-|Hx]]].
      * rewrite (A2 a), (A3 a) by (cbn; tauto). unfold most. destruct (e1 a), (e a); reflexivity.
      * rewrite (A1 b), (A3 b) by (cbn; tauto). unfold most. destruct (e2 b), (e b); reflexivity.
      * rewrite (A1 c), (A2 c) by (cbn; tauto). unfold most. destruct (e3 c), (e c); reflexivity.
      * rewrite (A1 x), (A2 x) by (cbn; tauto). unfold most. destruct (e3 x), (e x); reflexivity.
Qed.

Lemma agree_two (p1 p2 p3 q1 q2 q3 : bool) :
  (most p1 p2 p3 = p1 /\ most q1 q2 q3 = q1) \/ (most p1 p2 p3 = p2 /\ most q1 q2 q3 = q2) \/ (most p1 p2 p3 = p3 /\ most q1 q2 q3 = q3).
Proof. destruct p1, p2, p3, q1, q2, q3; cbn; tauto. Qed.

(** for a function that is not contradictory the gapless function is the smallest function above it
    whose satisfying assignments are closed under majority *)
Theorem C104_gapless_closure : forall order f g, (forall l, Permutation (order l) l) -> made false f -> satisfiable f -> gapless_boolf order f = Ok g ->
  majority_closed g /\ (forall e, sem f e = true -> sem g e = true) /\
  forall i h, made i h -> majority_closed h -> (forall e, sem f e = true -> sem h e = true) -> forall e, sem g e = true -> sem h e = true.
Proof.
  intros order f g Ho M [e0 He0] E. destruct (C58_gapless_boolf order f Ho M) as [HA HB].
  destruct (is_blightless_spec order f Ho (m_red f M)) as [bl [Ebl Hbl]].
  assert (B : no_links f /\ none_fixed f).
  { apply Hbl. unfold gapless_boolf in E. rewrite Ebl in E. destruct bl; [reflexivity | discriminate E]. }
  destruct (HA (proj1 B) (proj2 B)) as [g' [E' [Mg [Sg Ug]]]]. rewrite E in E'. injection E' as <-. split; [|split; [exact Ug|]].
  - intros e1 e2 e3 S1 S2 S3. apply Sg. intros a b Ha Hb. rewrite Sg in S1, S2, S3.
    destruct (agree_two (e1 (nth_atom f a)) (e2 (nth_atom f a)) (e3 (nth_atom f a)) (e1 (nth_atom f b)) (e2 (nth_atom f b)) (e3 (nth_atom f b))) as [[-> ->]|[[-> ->]|[-> ->]]]; auto.
  - intros i h Mh Hm Hle e He. rewrite Sg in He.
    destruct (pairs_enough h Hm (ex_intro _ e0 (Hle e0 He0)) e (length (atomvals h)) (atomvals h) (le_n _)) as [e' [S' A']].
    2: { rewrite <- S'. apply sem_ext. intros a Ha. symmetry. apply A'. exact Ha. }
    intros x y Hx Hy.
    assert (K : forall e1, sem f e1 = true -> (In x (atomvals f) -> e1 x = e x) -> (In y (atomvals f) -> e1 y = e y) -> exists e', sem h e' = true /\ e' x = e x /\ e' y = e y).
    { intros e1 S1 Ax Ay. exists (fun a => if memb a (atomvals f) then e1 a else e a). split; [|split].
      - apply Hle. rewrite <- S1. apply sem_ext. intros a Ha. rewrite (proj2 (memb_In a (atomvals f)) Ha). reflexivity.
      - destruct (memb x (atomvals f)) eqn:Em; [apply Ax, memb_In; exact Em | reflexivity].
      - destruct (memb y (atomvals f)) eqn:Em; [apply Ay, memb_In; exact Em | reflexivity]. }
    assert (P : forall z, In z (atomvals f) -> exists k, k < valency f /\ nth_atom f k = z).
    { intros z Hz. apply (In_nth _ _ 0) in Hz as [k [Hk Ek]]. exists k. split; [exact Hk | exact Ek]. }
    destruct (in_dec Nat.eq_dec x (atomvals f)) as [Ix|Nx]; destruct (in_dec Nat.eq_dec y (atomvals f)) as [Iy|Ny].
    + destruct (P x Ix) as [a [Ha Ea]]. destruct (P y Iy) as [b [Hb Eb]]. destruct (He a b Ha Hb) as [e1 [S1 [A1 B1]]]. rewrite Ea in A1. rewrite Eb in B1. apply (K e1); auto.
    + destruct (P x Ix) as [a [Ha Ea]]. destruct (He a a Ha Ha) as [e1 [S1 [A1 _]]]. rewrite Ea in A1. apply (K e1); tauto.
    + destruct (P y Iy) as [b [Hb Eb]]. destruct (He b b Hb Hb) as [e1 [S1 [A1 _]]]. rewrite Eb in A1. apply (K e1); tauto.
    + apply (K e0); tauto.
Qed.
Print Assumptions C104_gapless_closure.

(** so the gapless function is gapless; a function equals its gapless function exactly where its
    satisfying assignments are closed under majority; and the order is kept *)
Theorem C104_gapless_again : forall order f g, (forall l, Permutation (order l) l) -> made false f -> satisfiable f -> gapless_boolf order f = Ok g ->
  gapless_boolf order g = Ok g /\ (g = f <-> majority_closed f) /\
  forall f' g', made false f' -> (forall e, sem f e = true -> sem f' e = true) -> gapless_boolf order f' = Ok g' -> forall e, sem g e = true -> sem g' e = true.
Proof.
  intros order f g Ho M Sf E. destruct (C104_gapless_closure order f g Ho M Sf E) as [C1 [C2 C3]].
  destruct (is_blightless_spec order f Ho (m_red f M)) as [bl [Ebl Hbl]].
  assert (B : no_links f /\ none_fixed f).
  { apply Hbl. unfold gapless_boolf in E. rewrite Ebl in E. destruct bl; [reflexivity | discriminate E]. }
  destruct (proj1 (C58_gapless_boolf order f Ho M) (proj1 B) (proj2 B)) as [g0 [E0 [Mg _]]]. rewrite E in E0. injection E0 as <-.
  assert (Sg : satisfiable g) by (destruct Sf as [e He]; exists e; auto).
  destruct (proj1 (C58_gapless_boolf order f Ho M) (proj1 B) (proj2 B)) as [g0 [E0 [_ [Sem _]]]]. rewrite E in E0. injection E0 as <-.
  assert (At : forall k, k < valency g -> exists j, j < valency f /\ nth_atom f j = nth_atom g k).
  { intros k Hk. destruct (in_dec Nat.eq_dec (nth_atom g k) (atomvals f)) as [I|N]; [apply (In_nth _ _ 0) in I as [j [Hj Ej]]; exists j; split; [exact Hj | exact Ej]|exfalso].
    destruct (proj1 (proj2 (m_red g Mg)) (nth_atom g k)) as [e D]; [apply nth_In; exact Hk|]. apply D.
    assert (X : forall q a, a < valency f -> Spec_Boolf.upd e (nth_atom g k) q (nth_atom f a) = e (nth_atom f a)).
    { intros q a Ha. unfold Spec_Boolf.upd. destruct (Nat.eqb_spec (nth_atom f a) (nth_atom g k)) as [Eq|]; [|reflexivity]. destruct N. rewrite <- Eq. apply nth_In. exact Ha. }
    apply eq_true_iff_eq. rewrite !Sem. split; intros H a b Ha Hb; specialize (H a b Ha Hb); rewrite !X in * by assumption; exact H. }
  split; [|split].
  - assert (NF : none_fixed g).
    { intros k q Hk Fx. destruct (At k Hk) as [j [Hj Ej]]. apply (proj2 B j q Hj). intros e He. rewrite Ej. apply Fx. auto. }
    assert (NL : no_links g).
    { intros a b c Hab L. destruct (At a ltac:(lia)) as [a' [Ha' Ea]]. destruct (At b ltac:(lia)) as [b' [Hb' Eb]].
      assert (ne : a' <> b').
      { intro X. subst b'. rewrite Ea in Eb. unfold nth_atom in Eb. assert (ND : NoDup (atomvals g)) by (apply sorted_lt_NoDup, (proj1 (proj1 (m_red g Mg)))).
        apply (proj1 (NoDup_nth (atomvals g) 0) ND) in Eb; unfold valency in Hab; lia. }
      destruct (Nat.lt_ge_cases a' b') as [Hlt|Hge].
      - apply (proj1 B a' b' c); [lia|]. intros e He. rewrite Ea, Eb. apply L. auto.
      - apply (proj1 B b' a' c); [lia|]. intros e He. rewrite Ea, Eb, xorb_comm. apply L. auto. }
    destruct (proj1 (C58_gapless_boolf order g Ho Mg) NL NF) as [h [Eh [Mh [_ Uh]]]]. rewrite Eh. f_equal.
    apply reduced_unique; [apply m_red; exact Mh | apply m_red; exact Mg|]. intro e. apply eq_true_iff_eq. split; [|apply Uh].
    apply (proj2 (proj2 (C104_gapless_closure order g h Ho Mg Sg Eh)) false g Mg C1). auto.
  - split; [intros <-; exact C1|]. intro Cf. apply reduced_unique; [apply m_red; exact Mg | apply m_red; exact M|]. intro e. apply eq_true_iff_eq. split; [|apply C2].
    apply (C3 false f M Cf). auto.
  - intros f' g' M' Hle E'. assert (Sf' : satisfiable f') by (destruct Sf as [e He]; exists e; auto).
    destruct (C104_gapless_closure order f' g' Ho M' Sf' E') as [D1 [D2 _]].
    destruct (is_blightless_spec order f' Ho (m_red f' M')) as [bl' [Ebl' Hbl']].
    assert (B' : no_links f' /\ none_fixed f').
    { apply Hbl'. unfold gapless_boolf in E'. rewrite Ebl' in E'. destruct bl'; [reflexivity | discriminate E']. }
    destruct (proj1 (C58_gapless_boolf order f' Ho M') (proj1 B') (proj2 B')) as [g1 [E1 [Mg' _]]]. rewrite E' in E1. injection E1 as <-.
    apply (C3 false g' Mg' D1). auto.
Qed.
Print Assumptions C104_gapless_again.

(** the gapless function of the contradiction is the tautology, so it is neither the smallest nor
    does it keep the order *)
Theorem C104_contradiction_refuted : exists f, made false f /\ (forall e, sem f e = false) /\
  forall order, (forall l, Permutation (order l) l) -> exists g, gapless_boolf order f = Ok g /\ forall e, sem g e = true.
Proof.
  destruct (Boolf_vec [false] []) as [f|] eqn:Ef; [|vm_compute in Ef; discriminate Ef]. exists f.
  destruct (Boolf_vec_sorted [false] []) as [f' [E' [R S]]]; [constructor | reflexivity|]. rewrite Ef in E'. injection E' as <-.
  assert (M : made false f) by (apply reduced_made; exact R). split; [exact M|]. vm_compute in Ef. injection Ef as <-. split; [reflexivity|].
  intros order Ho. destruct (proj1 (C58_gapless_boolf order _ Ho M)) as [g [E [_ [Sg _]]]].
  - intros a b c H. cbn in H. lia.
  - intros a q H. cbn in H. lia.
  - exists g. split; [exact E|]. intro e. apply Sg. intros a b H. cbn in H. lia.
Qed.
Print Assumptions C104_contradiction_refuted.

(** * Examples *)

(** x1 and (x4 or x7): the split of x1 has an empty side, the other two do not cross; and an
    exclusive or of three atoms, whose borders all cross *)
Example C104_ex_relations : exists f g, Boolf_vec [false; false; false; true; false; true; false; true] [1; 4; 7] = Ok f /\ made false f /\
  splits f = Ok [([3; 5; 7], []); ([3; 7], [5]); ([5; 7], [3])] /\ splits_overlap_counts f = Ok [((0, 1), 2); ((0, 2), 2); ((1, 2), 3)] /\
  Boolf_vec [false; true; true; false; true; false; false; true] [1; 4; 7] = Ok g /\ made false g /\
  splits_overlap_counts g = Ok [((0, 1), 4); ((0, 2), 4); ((1, 2), 4)].
Proof.
  destruct (Boolf_vec_sorted [false; false; false; true; false; true; false; true] [1; 4; 7]) as [f [E [R _]]]; [repeat constructor | reflexivity|].
  destruct (Boolf_vec_sorted [false; true; true; false; true; false; false; true] [1; 4; 7]) as [g [E' [R' _]]]; [repeat constructor | reflexivity|].
  exists f, g. split; [exact E|]. split; [apply reduced_made; exact R|]. assert (M := reduced_made g R'). vm_compute in E. injection E as <-.
  split; [vm_compute; reflexivity|]. split; [vm_compute; reflexivity|]. split; [exact E'|]. split; [exact M|]. vm_compute in E'. injection E' as <-. vm_compute. reflexivity.
Qed.

(** x0 and (x1 xor x2): the filtrate on x0, x1 has only the atom x0 left, so that x1 cannot be
    asked for again *)
Example C104_ex_filtrate : exists f g, Boolf_vec [false; false; false; true; false; true; false; false] [0; 1; 2] = Ok f /\ made false f /\
  filtrated_boolf f [0; 1] = Ok g /\ atomvals g = [0] /\ filtrated_boolf f [1] = Ok (set_constant true) /\
  filtrated_boolf g [] = Ok (set_constant true) /\ filtrated_boolf g [1] = Err AtomvalsMismatchError.
Proof.
  destruct (Boolf_vec_sorted [false; false; false; true; false; true; false; false] [0; 1; 2]) as [f [E [R _]]]; [repeat constructor | reflexivity|].
  destruct (filtrated_boolf f [0; 1]) as [g|] eqn:Eg; [|vm_compute in E; injection E as <-; vm_compute in Eg; discriminate Eg].
  exists f, g. split; [exact E|]. split; [apply reduced_made; exact R|]. vm_compute in E. injection E as <-. split; [exact Eg|]. vm_compute in Eg. injection Eg as <-.
  repeat split; vm_compute; reflexivity.
Qed.

(** exactly one of three atoms: each two of them may be false together, so the gapless function is
    at most one of three atoms, and that is gapless *)
Example C104_ex_gapless : exists f g, Boolf_vec [false; true; true; false; true; false; false; false] [0; 1; 2] = Ok f /\ made false f /\ satisfiable f /\
  ~ majority_closed f /\ gapless_boolf (fun l => l) f = Ok g /\ root g = [true; true; true; false; true; false; false; false] /\ gapless_boolf (fun l => l) g = Ok g.
Proof.
  destruct (Boolf_vec_sorted [false; true; true; false; true; false; false; false] [0; 1; 2]) as [f [E [R _]]]; [repeat constructor | reflexivity|].
  destruct (gapless_boolf (fun l => l) f) as [g|] eqn:Eg; [|vm_compute in E; injection E as <-; vm_compute in Eg; discriminate Eg].
  exists f, g. split; [exact E|]. split; [apply reduced_made; exact R|]. vm_compute in E. injection E as <-.
  split; [exists (fun a => a =? 0); reflexivity|].
  split; [intro H; specialize (H (fun a => a =? 0) (fun a => a =? 1) (fun a => a =? 2) eq_refl eq_refl eq_refl); vm_compute in H; discriminate H|].
  split; [exact Eg|]. vm_compute in Eg. injection Eg as <-. split; [reflexivity|]. vm_compute. reflexivity.
Qed.
