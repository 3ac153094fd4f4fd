(** Props_Splits: property C40, filtrates, splits and one-sided atoms. *)

From Coq Require Import List Arith ZArith Bool Lia Permutation Sorted.
From Verif Require Import Model_Base Lib Model_Binary Model_Perm Model_SetPart Model_Boolf Model_Splits
  Spec_Bits Spec_Boolf Spec_Splits Proof_Binary Proof_Linear Proof_Boolf Proof_BoolfTable Proof_BoolfApply Proof_Noble Proof_Perm Proof_BoolfMake Proof_Splits Props_Boolf.
Import ListNotations.
Open Scope nat_scope.

(** * Filtrates *)

(** filtrated_boolf(small) is true where some assignment that agrees on the atoms [small]
    satisfies the function; the atoms may come in any order whose sorting permutation is an
    involution (in particular ascending, or any two atoms) *)
Theorem C40_filtrate : forall i f small r, made i f -> NoDup small -> (forall a, In a small -> In a (atomvals f)) ->
  sorts r small -> (forall k, k < length small -> nth (nth k r 0) r 0 = k) ->
  exists g, filtrated_boolf f small = Ok g /\ made false g /\
    forall e, sem g e = true <-> exists e', (forall a, In a small -> e' a = e a) /\ sem f e' = true.
Proof.
  intros i f small r Hf Hn Hi Hr Hinv. destruct (filtrate_table f small (m_fit i f Hf) Hi) as [t [E [Hl Ht]]].
  destruct (C28_exact t small r Hn Hl Hr) as [g [Eg [Mg _]]]. exists g. split; [rewrite E; exact Eg|]. split; [exact Mg|].
  intro e. rewrite (proj2 (C28_right_iff_involution small r Hn Hr) Hinv t g Hl Eg e). apply Ht.
Qed.
Print Assumptions C40_filtrate.

Theorem C40_filtrate_ascending : forall i f small, made i f -> ascending small -> (forall a, In a small -> In a (atomvals f)) ->
  exists g, filtrated_boolf f small = Ok g /\ made false g /\
    forall e, sem g e = true <-> exists e', (forall a, In a small -> e' a = e a) /\ sem f e' = true.
Proof.
  intros i f small Hf Hs Hi. destruct (filtrate_table f small (m_fit i f Hf) Hi) as [t [E [Hl Ht]]].
  destruct (Boolf_vec_sorted t small Hs Hl) as [g [Eg [Rg Sg]]]. exists g. split; [rewrite E; exact Eg|]. split; [apply reduced_made; exact Rg|].
  intro e. rewrite Sg. apply Ht.
Qed.
Print Assumptions C40_filtrate_ascending.

(** other orders go wrong in the constructor (C28) *)
Theorem C40_any_order_refuted : exists f small g e, made false f /\ NoDup small /\ (forall a, In a small -> In a (atomvals f)) /\
  filtrated_boolf f small = Ok g /\ sem g e = true /\ ~ exists e', (forall a, In a small -> e' a = e a) /\ sem f e' = true.
Proof.
  (* x0 and not x1 and x2, as the filtrate on its own atoms *)
  destruct (Boolf_vec [false; false; false; false; false; true; false; false] [0; 1; 2]) as [f|] eqn:Ef; [|vm_compute in Ef; discriminate Ef].
  destruct (filtrated_boolf f [2; 0; 1]) as [g|] eqn:Eg; [|vm_compute in Ef; injection Ef as <-; vm_compute in Eg; discriminate Eg].
  exists f, [2; 0; 1], g, (fun a => negb (Nat.eqb a 0)).
  split. { destruct (C28_exact [false; false; false; false; false; true; false; false] [0; 1; 2] [0; 1; 2]) as [f' [E' [M _]]]; [repeat constructor; cbn; intuition discriminate | reflexivity | | rewrite Ef in E'; injection E' as ->; exact M].
    apply sorts_spec; [repeat constructor; cbn; intuition discriminate|]. split; [apply Permutation_refl|]. split; [reflexivity|]. intros [|[|[|k]]] Hk; try reflexivity. cbn in Hk. lia. }
  vm_compute in Ef. injection Ef as <-. vm_compute in Eg. injection Eg as <-.
  split; [repeat constructor; cbn; intuition discriminate|]. split; [cbn; tauto|]. split; [vm_compute; reflexivity|]. split; [vm_compute; reflexivity|].
  intros [e' [He Hs]]. unfold sem, table in Hs. cbn [root atomvals map] in Hs. rewrite (He 0), (He 1), (He 2) in Hs by (cbn; tauto). vm_compute in Hs. discriminate Hs.
Qed.
Print Assumptions C40_any_order_refuted.

Theorem C40_rejected : forall i f small, made i f ->
  ((exists a, In a small /\ ~ In a (atomvals f)) -> filtrated_boolf f small = Err AtomvalsMismatchError) /\
  (~ NoDup small -> (forall a, In a small -> In a (atomvals f)) -> filtrated_boolf f small = Err AtomvalsNotUniqueError).
Proof.
  intros i f small Hf. split.
  - intros [a [Ha Hn]]. unfold filtrated_boolf.
    assert (E : forallb (fun a => memb a (atomvals f)) small = false).
    { apply not_true_iff_false. intro X. rewrite forallb_forall in X. apply Hn, memb_In, X, Ha. }
    rewrite E. reflexivity.
  - intros Hn Hi. destruct (filtrate_table f small (m_fit i f Hf) Hi) as [t [E [Hl Ht]]]. rewrite E. unfold Boolf_vec, tt_deflated, tt_start.
    assert (U : zunique (map Z.of_nat small) = false).
    { apply not_true_iff_false. intro U. apply Hn. clear - U. induction small as [|a l IH]; constructor; cbn [map zunique] in U; apply andb_true_iff in U as [U1 U2]; [|auto].
      intro Hi. apply negb_true_iff in U1. apply not_true_iff_false in U1. apply U1, existsb_exists. exists (Z.of_nat a). split; [apply in_map; exact Hi | apply Z.eqb_refl]. }
    rewrite U. reflexivity.
Qed.
Print Assumptions C40_rejected.

(** * Pairs of atoms *)

(** filtrated_pairs has an entry for every pair of keys; its four digits tell which pairs of
    values occur *)
Theorem C40_filtrated_pairs : forall i f, made i f -> exists d, filtrated_pairs f = Ok d /\
  NoDup (map fst d) /\ (forall a b, In (a, b) (map fst d) <-> a < b < valency f) /\
  forall a b s, In ((a, b), s) d -> tells f a b s.
Proof.
  intros i f Hf. destruct (filtrated_pairs_ok f (m_fit i f Hf)) as [d [E [Hk Hs]]]. exists d. split; [exact E|]. rewrite Hk.
  split; [apply pairs_range_NoDup|]. split; [intros; apply pairs_range_In | exact Hs].
Qed.
Print Assumptions C40_filtrated_pairs.

(** filtrated_pair(a, b) is right for a < b *)
Theorem C40_filtrated_pair_up : forall i f a b, made i f -> a < b < valency f ->
  exists s, filtrated_pair f a b = Ok s /\ tells f a b s.
Proof. intros i f a b Hf H. apply filtrated_pair_up; [exact (m_fit i f Hf) | exact H]. Qed.
Print Assumptions C40_filtrated_pair_up.

(** for a > b exactly in these cases *)
Theorem C40_filtrated_pair_down : forall i f a b, made i f -> b < a < valency f ->
  exists s, filtrated_pair f a b = Ok s /\ length s = 4 /\
    (tells f a b s <-> (occurs f a b true false <-> occurs f a b false true) \/ (occurs f a b true true /\ occurs f a b false false)).
Proof.
  intros i f a b Hf H. destruct (filtrated_pair_down f a b (m_fit i f Hf) H) as [s [T E]]. eexists. split; [exact E|].
  assert (T' := tells_swapped f b a s T). destruct T' as [_ T']. destruct T as [Hl T0]. assert (T := conj Hl T0). four s Hl.
  split; [destruct (_ || _); reflexivity|].
  rewrite <- !T'. set (s := [b0; b1; b2; b3]) in *.
  assert (X : forall s', length s' = 4 -> (tells f a b s' <-> s' = swapped s)).
  { intros s' Hs'. split; [intro H'; exact (tells_unique f a b _ _ H' (tells_swapped f b a s T)) | intros ->; apply tells_swapped; exact T]. }
  rewrite X by (destruct (_ || _); reflexivity). unfold s, swapped. clear. destruct b0, b1, b2, b3; cbn; intuition (congruence || discriminate).
Qed.
Print Assumptions C40_filtrated_pair_down.

Theorem C40_filtrated_pair_two_sided : forall i f a b, made i f -> a <> b -> a < valency f -> b < valency f ->
  ~ one_sided f a -> ~ one_sided f b -> exists s, filtrated_pair f a b = Ok s /\ tells f a b s.
Proof.
  intros i f a b Hf Hab Ha Hb Na Nb. destruct (Nat.lt_total a b) as [H|[H|H]]; [apply (C40_filtrated_pair_up i); auto | contradiction|].
  destruct (C40_filtrated_pair_down i f a b Hf) as [s [E [Hl Hs]]]; [lia|]. exists s. split; [exact E|]. apply Hs.
  destruct (splits_sides f (m_fit i f Hf)) as [sp [_ [Hsl Hsd]]]. destruct (quad f sp a b (m_fit i f Hf) (conj Hsl Hsd) Ha Hb) as [m [Hm _]].
  rewrite <- !Hm.
  assert (Xa : forall q, m q true || m q false = true).
  { intro q. apply not_false_iff_true. intro X. apply Na. exists (negb q). intros e He. destruct (Bool.bool_dec (e (nth_atom f a)) q) as [Eq|Eq]; [|destruct (e (nth_atom f a)), q; cbn in *; congruence].
    exfalso. assert (M : m q (e (nth_atom f b)) = true) by (apply Hm; exists e; tauto). destruct (e (nth_atom f b)), (m q true), (m q false); cbn in *; congruence. }
  assert (Xb : forall q, m true q || m false q = true).
  { intro q. apply not_false_iff_true. intro X. apply Nb. exists (negb q). intros e He. destruct (Bool.bool_dec (e (nth_atom f b)) q) as [Eq|Eq]; [|destruct (e (nth_atom f b)), q; cbn in *; congruence].
    exfalso. assert (M : m (e (nth_atom f a)) q = true) by (apply Hm; exists e; tauto). destruct (e (nth_atom f a)), (m true q), (m false q); cbn in *; congruence. }
  assert (A1 := Xa true). assert (A0 := Xa false). assert (B1 := Xb true). assert (B0 := Xb false).
  destruct (m true true), (m true false), (m false true), (m false false); cbn in *; intuition congruence.
Qed.
Print Assumptions C40_filtrated_pair_two_sided.

Theorem C40_filtrated_pair_refuted : exists f a b s, made false f /\ b < a < valency f /\ filtrated_pair f a b = Ok s /\ ~ tells f a b s.
Proof.
  destruct (Boolf_vec [false; true; false; false] [0; 1]) as [f|] eqn:Ef; [|vm_compute in Ef; discriminate Ef].
  assert (M : made false f).
  { destruct (Boolf_vec_sorted [false; true; false; false] [0; 1]) as [f' [E' [R _]]]; [repeat constructor | reflexivity|]. rewrite Ef in E'. injection E' as ->. apply reduced_made. exact R. }
  destruct (filtrated_pair f 1 0) as [s|] eqn:Es; [|vm_compute in Ef; injection Ef as <-; vm_compute in Es; discriminate Es].
  exists f, 1, 0, s. split; [exact M|]. vm_compute in Ef. injection Ef as <-. vm_compute in Es. injection Es as <-.
  split; [cbn; lia|]. split; [vm_compute; reflexivity|]. intros [_ T]. assert (X := proj1 (T true false) eq_refl). destruct X as [e [Hs [H1 H2]]].
  unfold nth_atom in H1, H2. cbn in H1, H2. unfold sem, table in Hs. cbn [root atomvals map] in Hs. rewrite H1, H2 in Hs. discriminate Hs.
Qed.
Print Assumptions C40_filtrated_pair_refuted.

Theorem C40_filtrated_pair_rejected : forall i f a b, made i f ->
  (valency f <= a \/ valency f <= b -> filtrated_pair f a b = Err AssertErr) /\ (a < valency f -> filtrated_pair f a a = Err KeyErr).
Proof.
  intros i f a b Hf. unfold filtrated_pair. split.
  - intro H. assert (E : (a <? valency f) && (b <? valency f) = false) by (apply andb_false_iff; rewrite !Nat.ltb_ge; exact H). rewrite E. reflexivity.
  - intro H. rewrite (proj2 (Nat.ltb_lt _ _) H), Nat.ltb_irrefl. cbn [andb true_except bind]. destruct (filtrated_pairs_ok f (m_fit i f Hf)) as [d [E [Hk _]]]. rewrite E. cbn [bind].
    rewrite pget_none; [reflexivity|]. rewrite Hk, pairs_range_In. lia.
Qed.
Print Assumptions C40_filtrated_pair_rejected.

(** the questions about a pair of atoms, in either order *)
Theorem C40_pair_questions : forall i f a b, made i f -> a <> b -> a < valency f -> b < valency f ->
  (exists r, atom_pair_crossing f a b = Ok r /\ (r = true <-> forall p q, occurs f a b p q)) /\
  (exists r, atom_pair_intersect f a b = Ok r /\
     (r = true <-> forall p q, occurs f a b p q <-> p || q = true)) /\
  (exists r, atom_pair_subset f a b = Ok r /\
     (r = true <-> forall p q, occurs f a b p q <-> implb p q = true)).
Proof.
  intros i f a b Hf Hab Ha Hb. assert (F := m_fit i f Hf).
  split; [|split].
  - destruct (atom_pair_is_ok [true; true; true; true] f a b F Hab Ha Hb) as [r [E H]]; [cbn; tauto|]. exists r. split; [exact E|]. rewrite H. unfold tells. split.
    + intros [_ X] p q. apply X. destruct p, q; reflexivity.
    + intro X. split; [reflexivity|]. intros p q. split; [intro; apply X | destruct p, q; reflexivity].
  - destruct (atom_pair_is_ok [false; true; true; true] f a b F Hab Ha Hb) as [r [E H]]; [cbn; tauto|]. exists r. split; [exact E|]. rewrite H. unfold tells. split.
    + intros [_ X] p q. rewrite <- X. destruct p, q; reflexivity.
    + intro X. split; [reflexivity|]. intros p q. rewrite X. destruct p, q; reflexivity.
  - destruct (atom_pair_is_ok [true; false; true; true] f a b F Hab Ha Hb) as [r [E H]]; [cbn; tauto|]. exists r. split; [exact E|]. rewrite H. unfold tells. split.
    + intros [_ X] p q. rewrite <- X. destruct p, q; reflexivity.
    + intro X. split; [reflexivity|]. intros p q. rewrite X. destruct p, q; reflexivity.
Qed.
Print Assumptions C40_pair_questions.

(** the border of [a] lies inside [b] iff both values of [a] occur together with [b], but only
    one of them together with its complement; pairs whose borders cross are rejected *)
Theorem C40_border : forall i f a b, made i f -> a <> b -> a < valency f -> b < valency f ->
  ((forall p q, occurs f a b p q) -> atom_border_in_atom_side f a b = Err BordersCrossingError) /\
  (~ (forall p q, occurs f a b p q) -> exists r, atom_border_in_atom_side f a b = Ok r /\
     (r = true <-> occurs f a b true true /\ occurs f a b false true /\ (occurs f a b true false \/ occurs f a b false false))).
Proof.
  intros i f a b Hf Hab Ha Hb. destruct (C40_pair_questions i f a b Hf Hab Ha Hb) as [[c [Ec Hc]] [[n [En Hn]] [s [Es Hs]]]].
  unfold atom_border_in_atom_side. rewrite (proj2 (Nat.eqb_neq a b) Hab), !(proj2 (Nat.ltb_lt _ _)) by assumption. cbn [negb andb true_except bind]. rewrite Ec. cbn [bind].
  split; intro H.
  - rewrite (proj2 Hc H). reflexivity.
  - assert (c = false) as -> by (destruct c; [exfalso; apply H, Hc; reflexivity | reflexivity]). cbn [negb true_except bind]. rewrite Es. cbn [bind].
    destruct (splits_sides f (m_fit i f Hf)) as [sp [_ [Hsl Hsd]]]. destruct (quad f sp a b (m_fit i f Hf) (conj Hsl Hsd) Ha Hb) as [m [Hm _]].
    assert (K : forall g : bool -> bool -> bool, (forall p q, occurs f a b p q <-> g p q = true) <-> m true true = g true true /\ m true false = g true false /\ m false true = g false true /\ m false false = g false false).
    { intro g. split; [intro X; repeat split; apply eq_true_iff_eq; rewrite Hm; apply X | intros [X1 [X2 [X3 X4]]] p q; rewrite <- Hm; destruct p, q; congruence || (split; congruence)]. }
    assert (Hnc : m true true && m true false && m false true && m false false = false).
    { apply not_true_iff_false. intro X. apply H. intros p q. apply Hm. repeat (apply andb_true_iff in X as [X ?]). destruct p, q; assumption. }
    assert (Hs' := iff_trans Hs (K implb)). assert (Hn' := iff_trans Hn (K orb)). cbn in Hs', Hn'.
    exists (s || n). split; [destruct s; [reflexivity | exact En]|]. rewrite <- !Hm, orb_true_iff, Hs', Hn'. clear - Hnc. destruct (m true true), (m true false), (m false true), (m false false); cbn in *; intuition congruence.
Qed.
Print Assumptions C40_border.

Theorem C40_crossing_atoms : forall i f, made i f -> exists d, atom_to_crossing_atoms f = Ok d /\
  map fst d = range (valency f) /\ forall k l, In (k, l) d -> ascending l /\
    forall j, In j l <-> j < valency f /\ j <> k /\ forall p q, occurs f k j p q.
Proof.
  intros i f Hf. unfold atom_to_crossing_atoms. destruct (filtrated_pairs_ok f (m_fit i f Hf)) as [d [E [Hk Hs]]]. rewrite E. cbn [bind]. cbv zeta.
  eexists. split; [reflexivity|]. split; [rewrite map_map; cbn [fst]; apply map_id|].
  intros k l Hi. apply in_map_iff in Hi as [k' [X Hi]]. injection X as -> <-. apply range_In in Hi.
  set (cp := map fst (filter (fun kv => bvec_eqb (snd kv) [true; true; true; true]) d)).
  assert (Hcp : forall a b, In (a, b) cp <-> a < b < valency f /\ forall p q, occurs f a b p q).
  { intros a b. unfold cp. rewrite in_map_iff. split.
    - intros [[[a' b'] s] [X Hin]]. cbn in X. injection X as -> ->. apply filter_In in Hin as [Hin Es]. apply bvec_eqb_eq in Es. cbn [snd] in Es. subst s.
      split; [apply pairs_range_In; rewrite <- Hk; apply in_map_iff; eexists; split; [|exact Hin]; reflexivity|]. intros p q. apply (Hs _ _ _ Hin). destruct p, q; reflexivity.
    - intros [Hab Ho]. assert (Hin : In (a, b) (map fst d)) by (rewrite Hk; apply pairs_range_In; exact Hab). apply in_map_iff in Hin as [[ab s] [X Hin]]. cbn in X. subst ab.
      exists ((a, b), s). split; [reflexivity|]. apply filter_In. split; [exact Hin|]. apply bvec_eqb_eq. cbn [snd]. apply (tells_unique f a b); [apply Hs; exact Hin|].
      split; [reflexivity|]. intros p q. split; [intro; apply Ho | destruct p, q; reflexivity]. }
  assert (Ncp : NoDup cp).
  { assert (N : NoDup (map fst d)) by (rewrite Hk; apply pairs_range_NoDup). unfold cp. clear - N. induction d as [|x d IH]; [constructor|]. cbn [map] in N. inversion_clear N as [|? ? Hx Hd].
    cbn [filter]. destruct (bvec_eqb (snd x) _); [|apply IH; exact Hd]. cbn [map]. constructor; [|apply IH; exact Hd]. intro Y. apply Hx. apply in_map_iff in Y as [y [Y1 Y2]]. apply filter_In in Y2 as [Y2 _]. rewrite <- Y1. apply in_map. exact Y2. }
  split.
  - apply sort_nat_ascending. assert (L : forall l, NoDup l -> (forall a b, In (a, b) l -> a < b) -> NoDup (map (fun p => other_entry_in_pair p k) (filter (fun p : nat * nat => (k =? fst p) || (k =? snd p)) l))).
    { induction l as [|[a b] l IH]; intros Hn Hlt; [constructor|]. inversion_clear Hn as [|? ? Hx Hl]. assert (IH' := IH Hl (fun x y H => Hlt x y (or_intror H))). cbn [filter fst snd].
      destruct ((k =? a) || (k =? b)) eqn:Eab; [|exact IH']. cbn [map]. constructor; [|exact IH']. intro Y. apply in_map_iff in Y as [[a' b'] [Y1 Y2]]. apply filter_In in Y2 as [Y2 Y3]. cbn [fst snd] in Y3.
      assert (H1 := Hlt a b (or_introl eq_refl)). assert (H2 := Hlt a' b' (or_intror Y2)). apply Hx. unfold other_entry_in_pair in Y1. cbn [fst snd] in Y1.
      apply orb_true_iff in Eab. apply orb_true_iff in Y3. rewrite !Nat.eqb_eq in Eab, Y3.
      destruct (Nat.eqb_spec a' k), (Nat.eqb_spec a k); destruct Eab, Y3; subst; try lia; try exact Y2. }
    apply L; [exact Ncp|]. intros a b Hab. apply Hcp in Hab. lia.
  - intro j. rewrite sort_nat_In, in_map_iff. split.
    + intros [[a b] [X Hin]]. apply filter_In in Hin as [Hin Hk']. cbn [fst snd] in Hk'. apply Hcp in Hin as [Hab Ho]. unfold other_entry_in_pair in X. cbn [fst snd] in X.
      apply orb_true_iff in Hk'. rewrite !Nat.eqb_eq in Hk'. destruct (Nat.eqb_spec a k) as [->|].
      * subst j. split; [lia|]. split; [lia | exact Ho].
      * destruct Hk' as [Hk'|Hk']; [congruence|]. subst a b. split; [lia|]. split; [lia|]. intros p q. apply occurs_swap. apply Ho.
    + intros [Hj [Hjk Ho]]. destruct (Nat.lt_ge_cases j k) as [Hlt|Hge].
      * exists (j, k). split; [unfold other_entry_in_pair; cbn [fst snd]; rewrite (proj2 (Nat.eqb_neq j k)) by lia; reflexivity|]. apply filter_In. split; [apply Hcp; split; [lia|]; intros p q; apply occurs_swap, Ho|]. cbn [fst snd]. rewrite Nat.eqb_refl, orb_true_r. reflexivity.
      * exists (k, j). split; [unfold other_entry_in_pair; cbn [fst snd]; rewrite Nat.eqb_refl; reflexivity|]. apply filter_In. split; [apply Hcp; split; [lia | exact Ho]|]. cbn [fst snd]. rewrite Nat.eqb_refl. reflexivity.
Qed.
Print Assumptions C40_crossing_atoms.

(** * Splits *)

(** the splits: the full spots with and without the atom; together they are all full spots *)
Theorem C40_splits : forall i f, made i f -> exists sp, splits f = Ok sp /\ length sp = valency f /\
  forall k, k < valency f -> exists recto verso, nth k sp ([], []) = (recto, verso) /\ ascending recto /\ ascending verso /\
    forall n, (In n recto <-> nth n (root f) false = true /\ Nat.testbit n k = true) /\
              (In n verso <-> nth n (root f) false = true /\ Nat.testbit n k = false).
Proof.
  intros i f Hf. destruct (splits_ok f (m_fit i f Hf)) as [sp [E [Hl H]]]. exists sp. split; [exact E|]. split; [exact Hl|].
  intros k Hk. destruct (H k Hk) as [r [v [X [A1 [A2 [B1 B2]]]]]]. exists r, v. split; [exact X|]. split; [exact A1|]. split; [exact A2|]. intro n. split; [apply B1 | apply B2].
Qed.
Print Assumptions C40_splits.

(** spotints_to_splits for any set of places; places out of range are rejected *)
Theorem C40_spotints : forall spotints v,
  ((forall n, In n spotints -> n < 2 ^ v) -> exists sp, spotints_to_splits spotints v = Ok sp /\ length sp = v /\
     forall k, k < v -> exists recto verso, nth k sp ([], []) = (recto, verso) /\ ascending recto /\ ascending verso /\
       forall n, (In n recto <-> In n spotints /\ Nat.testbit n k = true) /\ (In n verso <-> In n spotints /\ Nat.testbit n k = false)) /\
  ((exists n, In n spotints /\ 2 ^ v <= n) -> spotints_to_splits spotints v = Err BinvLengthError).
Proof.
  intros l v. unfold spotints_to_splits. split.
  - intro H. destruct (Binv_exposet_len l (2 ^ v) H) as [b [E [Hb Nb]]]. rewrite E. cbn [bind]. destruct (splits_of_vector v b Hb) as [sp [Es [Hl Hs]]]. exists sp. split; [exact Es|]. split; [exact Hl|].
    intros k Hk. destruct (Hs k Hk) as [r [w [X [A1 [A2 [B1 B2]]]]]]. exists r, w. split; [exact X|]. split; [exact A1|]. split; [exact A2|]. intro n. rewrite B1, B2, Nb, memb_In. tauto.
  - intros [n [Hn Hv]]. rewrite (Binv_exposet_reject l (2 ^ v) n Hn Hv). reflexivity.
Qed.
Print Assumptions C40_spotints.

(** count_split_regions of two splits of the same places, and the counts of all pairs *)
Theorem C40_overlap_counts : forall i f, made i f -> exists d, splits_overlap_counts f = Ok d /\
  NoDup (map fst d) /\ (forall a b, In (a, b) (map fst d) <-> a < b < valency f) /\
  forall a b c, In ((a, b), c) d -> combos f a b c.
Proof.
  intros i f Hf. assert (F := m_fit i f Hf). destruct (counts_ok f F) as [sp [E [Hl [Hs Ec]]]]. eexists. split; [exact Ec|]. rewrite map_map. cbn [fst]. rewrite map_id.
  split; [apply pairs_range_NoDup|]. split; [intros; apply pairs_range_In|]. intros a b c Hi. apply in_map_iff in Hi as [[a' b'] [X Hi]]. injection X as -> -> <-. apply pairs_range_In in Hi.
  exists (regions (nth a sp ([], [])) (nth b sp ([], []))). split; [apply regions_NoDup|]. split; [reflexivity|]. apply regions_occur; [exact F | exact Hs | lia | lia].
Qed.
Print Assumptions C40_overlap_counts.

Lemma combos_unique f a b m n : combos f a b m -> combos f a b n -> m = n.
Proof.
  intros [l [N [L H]]] [l' [N' [L' H']]]. rewrite <- L, <- L'. apply Permutation_length, NoDup_Permutation; [assumption | assumption|].
  intros [p q]. rewrite H, H'. reflexivity.
Qed.

Theorem C40_three_overlaps : forall i f, made i f -> exists l, split_pairs_with_3_overlaps f = Ok l /\ NoDup l /\
  forall a b, In (a, b) l <-> a < b < valency f /\ combos f a b 3.
Proof.
  intros i f Hf. destruct (C40_overlap_counts i f Hf) as [d [E [N [K C]]]]. unfold split_pairs_with_3_overlaps. rewrite E. cbn [bind]. eexists. split; [reflexivity|]. split.
  - clear - N. induction d as [|x d IH]; [constructor|]. cbn [map] in N. inversion_clear N as [|? ? Hx Hd]. cbn [filter]. destruct (snd x =? 3); [|apply IH; exact Hd].
    cbn [map]. constructor; [|apply IH; exact Hd]. intro Y. apply Hx. apply in_map_iff in Y as [y [Y1 Y2]]. apply filter_In in Y2 as [Y2 _]. rewrite <- Y1. apply in_map. exact Y2.
  - intros a b. rewrite in_map_iff. split.
    + intros [[ab c] [X Hi]]. cbn in X. subst ab. apply filter_In in Hi as [Hi Ec]. cbn [snd] in Ec. apply Nat.eqb_eq in Ec. subst c. split; [apply K, in_map_iff; eexists; split; [|exact Hi]; reflexivity | apply C; exact Hi].
    + intros [Hab Hc]. apply K in Hab. apply in_map_iff in Hab as [[ab c] [X Hi]]. cbn in X. subst ab. exists ((a, b), c). split; [reflexivity|]. apply filter_In. split; [exact Hi|]. cbn [snd]. apply Nat.eqb_eq. apply (combos_unique f a b); [apply C; exact Hi | exact Hc].
Qed.
Print Assumptions C40_three_overlaps.

(** splits_equal: in all satisfying assignments the atoms agree, or in all of them they differ *)
Theorem C40_splits_equal : forall f, made false f -> exists d, splits_equal f = Ok d /\
  NoDup (map fst d) /\ (forall a b, In (a, b) (map fst d) <-> a < b < valency f) /\
  forall a b c, In ((a, b), c) d -> (c = true <-> tied f a b).
Proof.
  intros f Hf. destruct (equal_and_onesided_reduced f (m_red f Hf)) as [d [ol [E [Hk [Ht _]]]]]. unfold splits_equal. rewrite E. cbn [bind fst]. exists d. split; [reflexivity|]. rewrite Hk.
  split; [apply pairs_range_NoDup|]. split; [intros; apply pairs_range_In | exact Ht].
Qed.
Print Assumptions C40_splits_equal.

Theorem C40_onesided : forall f, made false f -> exists ol keys d, splits_onesided f = Ok ol /\ length ol = valency f /\
  (forall k, k < valency f -> (nth k ol false = true <-> one_sided f k)) /\
  onesided_atomkeys f = Ok keys /\ ascending keys /\ (forall k, In k keys <-> k < valency f /\ one_sided f k) /\
  onesided_is_universe f = Ok d /\ map fst d = keys /\
  forall k u, In (k, u) d -> (u = true <-> forall e, sem f e = true -> e (nth_atom f k) = true).
Proof.
  intros f Hf. assert (F := m_fit false f Hf). destruct (equal_and_onesided_reduced f (m_red f Hf)) as [d [ol [E [_ [_ [Hl Ho]]]]]].
  assert (Eo : splits_onesided f = Ok ol) by (unfold splits_onesided; rewrite E; reflexivity).
  set (keys := map fst (filter (fun kb : nat * bool => snd kb) (combine (range (length ol)) ol))).
  assert (Ek : onesided_atomkeys f = Ok keys) by (unfold onesided_atomkeys; rewrite Eo; reflexivity).
  assert (Hkeys : forall k, In k keys <-> k < valency f /\ one_sided f k).
  { intro k. unfold keys, range. change (map fst _) with (binv_exposet ol). rewrite binv_exposet_In. split.
    - intro H. assert (k < valency f) by (destruct (Nat.lt_ge_cases k (length ol)) as [|Hge]; [lia | rewrite nth_overflow in H by exact Hge; discriminate]). split; [assumption|]. apply Ho; assumption.
    - intros [H1 H2]. apply Ho; assumption. }
  assert (Hasc : ascending keys) by (unfold keys, range; change (map fst _) with (binv_exposet ol); apply binv_exposet_sorted).
  destruct (splits_sides f F) as [sp [Es [Hsl Hs]]].
  exists ol, keys, (map (fun k => (k, Nat.ltb 0 (length (fst (nth k sp ([], [])))))) keys).
  split; [exact Eo|]. split; [exact Hl|]. split; [exact Ho|]. split; [exact Ek|]. split; [exact Hasc|]. split; [exact Hkeys|].
  split. { unfold onesided_is_universe. rewrite Ek, Es. cbn [bind]. apply mapM_ok. intros k Hk. apply Hkeys in Hk. rewrite (lget_ok sp k ([], [])) by lia. reflexivity. }
  split; [rewrite map_map; cbn [fst]; apply map_id|].
  intros k u Hi. apply in_map_iff in Hi as [k' [X Hi]]. injection X as -> <-. apply Hkeys in Hi as [Hk [q Hq]].
  destruct (reduced_satisfiable f (m_red f Hf)) as [e He]; [lia|].
  assert (X : (0 <? length (fst (nth k sp ([], [])))) = true <-> exists n, In n (side (nth k sp ([], [])) true)).
  { cbn [side]. destruct (fst (nth k sp ([], []))) as [|x l]; cbn; split; [discriminate | intros [? []] | intros _; exists x; left; reflexivity | reflexivity]. }
  rewrite X. split.
  - intros [n Hn]. apply Hs in Hn as [Hr Hb]; [|exact Hk]. assert (Hq' : q = true).
    { rewrite <- (Hq (asg (atomvals f) n)); [rewrite asg_key; assumption|]. rewrite sem_place_asg; [exact Hr | exact F | apply place_bound; assumption]. }
    subst q. exact Hq.
  - intro H. exists (b2n (map e (atomvals f))). apply Hs; [exact Hk|]. split; [exact He|]. rewrite bit_of_place by exact Hk. apply H. exact He.
Qed.
Print Assumptions C40_onesided.

(** with skip_deflation: the same if the function has at least two atoms and is satisfiable *)
Theorem C40_onesided_inflated : forall f, made true f -> satisfiable f -> 2 <= valency f ->
  exists d ol, splits_equal f = Ok d /\ splits_onesided f = Ok ol /\ length ol = valency f /\
    (forall k, k < valency f -> (nth k ol false = true <-> one_sided f k)) /\
    forall a b c, In ((a, b), c) d -> (c = true <-> tied f a b).
Proof.
  intros f Hf Hs Hv. destruct (equal_and_onesided_ok f (m_fit true f Hf) Hs) as [d [ol [E [_ [Ht [Hl Ho]]]]]]; [left; lia|]. exists d, ol.
  unfold splits_equal, splits_onesided. rewrite E. cbn [bind fst snd]. split; [reflexivity|]. split; [reflexivity|]. split; [exact Hl|]. split; [exact Ho | exact Ht].
Qed.
Print Assumptions C40_onesided_inflated.

(** an inflated function of one atom: its atom is called one-sided although both values occur *)
Theorem C40_onesided_inflated_refuted : exists f, made true f /\ satisfiable f /\ splits_onesided f = Ok [true] /\ ~ one_sided f 0.
Proof.
  destruct (Boolf 1 (mkArgs (Some (TtVector [1; 1]%Z)) (Some [0%Z]) None None None None None None None None None true)) as [f|] eqn:E; [|vm_compute in E; discriminate E].
  exists f. split; [refine (made_by true 1 _ f _ _ E); [reflexivity | intros g []]|]. vm_compute in E. injection E as <-.
  split; [exists (fun _ => true); reflexivity|]. split; [vm_compute; reflexivity|].
  intros [q Hq]. assert (H1 := Hq (fun _ => true) eq_refl). assert (H2 := Hq (fun _ => false) eq_refl). cbn in H1, H2. congruence.
Qed.
Print Assumptions C40_onesided_inflated_refuted.

(** * Examples *)

(** x1 and (x4 or x7): its filtrate on x1, x4 is x1; x1 is one-sided *)
Example C40_ex : exists f g, Boolf_vec [false; false; false; true; false; true; false; true] [1; 4; 7] = Ok f /\ made false f /\
  filtrated_boolf f [1; 4] = Ok g /\ atomvals g = [1] /\ root g = [false; true] /\
  onesided_atomkeys f = Ok [0] /\ onesided_is_universe f = Ok [(0, true)] /\
  splits f = Ok [([3; 5; 7], []); ([3; 7], [5]); ([5; 7], [3])] /\
  splits_overlap_counts f = Ok [((0, 1), 2); ((0, 2), 2); ((1, 2), 3)] /\
  splits_equal f = Ok [((0, 1), false); ((0, 2), false); ((1, 2), false)] /\
  filtrated_pair f 1 2 = Ok [false; true; true; true] /\ atom_pair_intersect f 2 1 = Ok true /\ atom_pair_crossing f 1 2 = Ok false /\
  atom_border_in_atom_side f 2 1 = Ok true /\ split_pairs_with_3_overlaps f = Ok [(1, 2)].
Proof.
  destruct (Boolf_vec_sorted [false; false; false; true; false; true; false; true] [1; 4; 7]) as [f [E [R _]]]; [repeat constructor | reflexivity|].
  destruct (filtrated_boolf f [1; 4]) as [g|] eqn:Eg; [|vm_compute in E; injection E as <-; vm_compute in Eg; discriminate Eg].
  exists f, g. split; [exact E|]. split; [apply reduced_made; exact R|]. vm_compute in E. injection E as <-. vm_compute in Eg. injection Eg as <-.
  do 12 (split; [vm_compute; reflexivity|]). vm_compute; reflexivity.
Qed.

(** crossing borders, atoms tied to each other, an inflated function *)
Example C40_ex2 : exists f g h, Boolf_vec [true; false; false; false; false; false; true; false; false; true; false; false; false; false; false; true] [0; 2; 3; 5] = Ok f /\ made false f /\
  atom_to_crossing_atoms f = Ok [(0, [1; 2]); (1, [0; 3]); (2, [0; 3]); (3, [1; 2])] /\
  splits_equal f = Ok [((0, 1), false); ((0, 2), false); ((0, 3), true); ((1, 2), true); ((1, 3), false); ((2, 3), false)] /\
  atom_border_in_atom_side f 0 1 = Err BordersCrossingError /\
  Boolf_vec [true; false; true; true] [0; 1] = Ok g /\ atom_pair_subset g 0 1 = Ok true /\ atom_pair_subset g 1 0 = Ok false /\
  tt_inflated [false; true; false; true] (Some [3; 5]%Z) = Ok h /\ valency h = 2 /\ splits_onesided h = Ok [true; false].
Proof.
  destruct (Boolf_vec_sorted [true; false; false; false; false; false; true; false; false; true; false; false; false; false; false; true] [0; 2; 3; 5]) as [f [E [R _]]]; [repeat constructor | reflexivity|].
  destruct (Boolf_vec [true; false; true; true] [0; 1]) as [g|] eqn:Eg; [|vm_compute in Eg; discriminate Eg].
  destruct (tt_inflated [false; true; false; true] (Some [3; 5]%Z)) as [h|] eqn:Eh; [|vm_compute in Eh; discriminate Eh].
  exists f, g, h. split; [exact E|]. split; [apply reduced_made; exact R|]. vm_compute in E. injection E as <-. vm_compute in Eg. injection Eg as <-. vm_compute in Eh. injection Eh as <-.
  do 8 (split; [vm_compute; reflexivity|]). vm_compute; reflexivity.
Qed.
