(** C124: what the stored list canonical_blocks_with_singletons of a SetPart shows after a merge.

    The list is stored when it is read for the first time, and its inner lists are those of
    [blocks].  A merge that adds one element to a block appends it to the inner list, so the stored
    list changes with it; the method then makes new lists, so that is the last change. *)

From Coq Require Import List Arith ZArith Bool Lia Permutation Sorting.Sorted.
From Verif Require Import Model_Base Lib Model_SetPart Spec_SetPart Proof_SetPart Proof_SetPartMerge Proof_SetPartMore
  Proof_SetPartLattice Proof_SetPartLabels Proof_SetPartImproved Proof_SetPartObj.
Import ListNotations.
Local Open Scope Z_scope.

(** a list that shares nothing with the blocks stays as it is *)
Definition loose (s : setpart) (r : list (list Z)) : Prop :=
  c_canonical (sp_caches s) = Some r /\ c_alias (sp_caches s) = false.

Lemma loose_read s r : loose s r -> read_canonical s = (s, Ok r).
Proof. intros [H _]. unfold read_canonical. rewrite H. reflexivity. Qed.
Lemma loose_unalias s r s' : loose s r -> sp_caches s' = unalias (sp_caches s) -> loose s' r.
Proof. intros [H1 H2] E. unfold loose. rewrite E. cbn. auto. Qed.
Lemma loose_same s r s' : loose s r -> sp_caches s' = sp_caches s -> loose s' r.
Proof. intros [H1 H2] E. unfold loose. rewrite E. auto. Qed.

Lemma merge_loose s r a b : loose s r -> loose (fst (merge_pair s a b)) r.
Proof.
  intro H. unfold merge_pair. destruct (Z.eqb a b); [exact H|]. destruct (negb _); [exact H|].
  destruct (merge_block_labels s a b) as [ls|e]; [|exact H].
  assert (A : forall o n, alias_append (sp_caches s) o n = sp_caches s) by (intros o n; unfold alias_append; rewrite (proj2 H); reflexivity).
  destruct (zdget (sp_index s) a), (zdget (sp_index s) b); [destruct (Nat.eqb n n0); [exact H|]| | |];
    rewrite ?A; eapply loose_unalias; [exact H | apply reinit_caches | exact H | apply reinit_caches | exact H | apply reinit_caches | exact H | apply reinit_caches].
Qed.
Lemma many_loose s r many : loose s r -> loose (fst (merge_many s many)) r.
Proof.
  intro H. unfold merge_many.
  assert (I := iterate_inv (fun s ab => merge_pair s (fst ab) (snd ab)) (fun s' => loose s' r) (combinations2 many) s).
  destruct (iterate _ _ s) as [s' [e|]]; cbn [fst] in *.
  - apply I; [|exact H]. intros s1 [u v]. apply merge_loose.
  - eapply loose_unalias; [|apply reinit_caches]. apply I; [|exact H]. intros s1 [u v]. apply merge_loose.
Qed.
Lemma label_loose s r b l : loose s r -> loose (fst (add_label_to_block s b l)) r.
Proof.
  intro H. unfold add_label_to_block. rewrite (loose_read s r H). destruct (negb _); [exact H|].
  destruct (label_get (sp_labels s) b) as [old|]; [destruct (Z.eqb old l)|];
    try destruct (label_put (sp_labels s) b l); exact H.
Qed.
Lemma refine_loose s r nb nl : loose s r -> loose (fst (refine_block s nb nl)) r.
Proof.
  intro H. unfold refine_block. destruct (negb _); [exact H|]. destruct (negb _); [exact H|]. cbn zeta.
  set (s1 := mkSP _ _ _ _ _ _). assert (H1 : loose s1 r) by exact H.
  destruct nl as [ls|]; [|eapply loose_unalias; [exact H1 | apply reinit_caches]].
  destruct (negb _); [exact H1|].
  assert (I := iterate_inv (fun s bl => match label_put (sp_labels s) (fst bl) (snd bl) with
                                     | Ok d => (set_labels s d, None)
                                     | Err e => (s, Some e)
                                     end) (fun s' => loose s' r) (combine nb ls) s1).
  destruct (iterate _ _ s1) as [s2 [e|]]; cbn [fst] in *.
  - apply I; [|exact H1]. intros s3 [u v] H3. cbn [fst snd]. destruct (label_put (sp_labels s3) u v); exact H3.
  - eapply loose_unalias; [|apply reinit_caches]. apply I; [|exact H1].
    intros s3 [u v] H3. cbn [fst snd]. destruct (label_put (sp_labels s3) u v); exact H3.
Qed.
Lemma step_loose s r op : loose s r -> loose (any_step s op) r.
Proof.
  intro H. destruct op as [op|nb nl|b l|e l]; cbn [any_step].
  - destruct op; cbn [sp_step].
    + apply merge_loose, H.
    + apply many_loose, H.
    + unfold read_pairs. destruct (c_pairs (sp_caches s)); exact H.
    + unfold read_intval, read_pairs. destruct (c_intval (sp_caches s)); [exact H|]. destruct (c_pairs (sp_caches s)); exact H.
    + rewrite (loose_read s r H). exact H.
    + unfold read_singletons. destruct (c_singletons (sp_caches s)); [exact H|]. destruct (sp_domain s); exact H.
  - apply refine_loose, H.
  - apply label_loose, H.
  - unfold add_label_to_element. destruct (negb _); [exact H|].
    match goal with |- context [if ?c then _ else _] => destruct c end; [exact H|].
    destruct (get_block_from_label s l) as [bl|]; [apply merge_loose, H | apply label_loose, H].
Qed.
Lemma run_loose ops s r : loose s r -> loose (any_run ops s) r.
Proof.
  revert s; induction ops as [|op ops IH]; intros s H; [exact H|].
  cbn [any_run fold_left]. apply IH, step_loose, H.
Qed.

(** what the merge of [a] and [b] does to the list: [b] is appended to the entries with [a] *)
Definition appended (a b : Z) (r : list (list Z)) : list (list Z) :=
  map (fun bl => if in_dec Z.eq_dec a bl then bl ++ [b] else bl) r.

Lemma read_first s r : c_canonical (sp_caches s) = None -> snd (read_canonical s) = Ok r ->
  exists s1, read_canonical s = (s1, Ok r) /\ sp_domain s1 = sp_domain s /\ sp_blocks s1 = sp_blocks s /\
    sp_index s1 = sp_index s /\ sp_length s1 = sp_length s /\ sp_labels s1 = sp_labels s /\
    c_canonical (sp_caches s1) = Some r /\ c_alias (sp_caches s1) = true.
Proof.
  unfold read_canonical. intros -> E. destruct (blocks_with_singletons s BwsNone) as [b|e]; [|discriminate].
  cbn in E. injection E as ->. eexists. split; [reflexivity|]. cbn. repeat split; auto.
Qed.

Section Merge.
  Context (s : setpart) (W : is_SetPart s) (r : list (list Z)).
  Hypothesis F : c_canonical (sp_caches s) = None.
  Hypothesis R : snd (read_canonical s) = Ok r.

  Let Wf : sp_wf s := is_SetPart_wf s W.

  Lemma entry_with a i bl : zdget (sp_index s) a = Some i -> In bl r ->
    (In a bl <-> bl = nth i (sp_blocks s) []).
  Proof using W F R.
    intros Ei Hb. apply (index_some s Wf) in Ei as (_ & Hi & Ha). split; [|intros ->; exact Ha].
    intro Hx. apply (fresh_canonical s r Wf F R) in Hb as [Hb|(x & -> & _ & Hn)].
    - apply (proj1 (proj2 (wf_canonical s Wf)) _ _ a Hb Hi Hx Ha).
    - destruct Hx as [->|[]]. exfalso. apply (Hn a). exists (nth i (sp_blocks s) []). auto.
  Qed.

  Lemma appended_alias a b i : zdget (sp_index s) a = Some i ->
    map (fun bl => if zlist_eqb bl (nth i (sp_blocks s) []) then nth i (sp_blocks s) [] ++ [b] else bl) r = appended a b r.
  Proof using W F R.
    intro Ei. apply map_ext_in. intros bl Hb. destruct (in_dec Z.eq_dec a bl) as [Ha|Ha].
    - apply (entry_with a i bl Ei Hb) in Ha. subst bl. rewrite zlist_eqb_refl. reflexivity.
    - destruct (zlist_eqb bl _) eqn:E; [|reflexivity]. apply zlist_eqb_eq in E. apply (entry_with a i bl Ei Hb) in E. contradiction.
  Qed.

  Lemma merge_after_read a b s' : a <> b -> merge_pair (fst (read_canonical s)) a b = (s', None) ->
    (together (sp_blocks s) a b -> snd (read_canonical s') = Ok r) /\
    (~ together (sp_blocks s) a b -> loose s'
       (match zdget (sp_index s) a, zdget (sp_index s) b with
        | Some _, None => appended a b r | None, Some _ => appended b a r | _, _ => r end)).
  Proof using W F R.
    intros Hab E. destruct (read_first s r F R) as (s1 & E1 & D1 & B1 & I1 & L1 & La1 & C1 & A1).
    rewrite E1 in E. cbn [fst] in E. unfold merge_pair in E. rewrite (proj2 (Z.eqb_neq a b) Hab) in E.
    destruct (negb _); [discriminate|]. destruct (merge_block_labels s1 a b) as [ls|e]; [|discriminate].
    rewrite I1, B1 in E.
    assert (G : forall bs c, reinit s1 bs ls c = (s', None) -> sp_caches s' = unalias c)
      by (intros bs c Er; rewrite <- (reinit_caches s1 bs ls c), Er; reflexivity).
    assert (T : forall i j, zdget (sp_index s) a = Some i -> zdget (sp_index s) b = Some j -> Nat.eqb i j = true <-> together (sp_blocks s) a b)
      by (intros i j Ei Ej; rewrite Nat.eqb_eq; apply (index_eq s Wf a b i j Ei Ej)).
    assert (N1 : zdget (sp_index s) a = None -> ~ together (sp_blocks s) a b).
    { intros En (bl & Hb & Ha & _). apply (index_none s Wf) in En. apply En, in_concat. eauto. }
    assert (N2 : zdget (sp_index s) b = None -> ~ together (sp_blocks s) a b).
    { intros En (bl & Hb & _ & Hc). apply (index_none s Wf) in En. apply En, in_concat. eauto. }
    assert (P : forall x y i, zdget (sp_index s) x = Some i ->
      loose (mkSP (sp_domain s) [] [] None [] (unalias (alias_append (sp_caches s1) (nth i (sp_blocks s) []) (nth i (sp_blocks s) [] ++ [y])))) (appended x y r)).
    { intros x y i Ei. unfold alias_append. rewrite A1, C1. split; [|reflexivity]. cbn. f_equal. apply appended_alias, Ei. }
    destruct (zdget (sp_index s) a) as [i|] eqn:Ea, (zdget (sp_index s) b) as [j|] eqn:Eb.
    - destruct (Nat.eqb i j) eqn:Eij.
      + injection E as <-. split; [|intro H; exfalso; apply H, (T i j eq_refl eq_refl); exact Eij].
        intros _. unfold read_canonical. cbn. rewrite C1. reflexivity.
      + split; [intro H; apply (T i j eq_refl eq_refl) in H; congruence|]. intros _. apply G in E.
        unfold loose. rewrite E. cbn. auto.
    - split; [intro H; exfalso; apply (N2 eq_refl), H|]. intros _. apply G in E.
      eapply loose_same; [apply (P a b i Ea) | exact E].
    - split; [intro H; exfalso; apply (N1 eq_refl), H|]. intros _. apply G in E.
      eapply loose_same; [apply (P b a j Eb) | exact E].
    - split; [intro H; exfalso; apply (N1 eq_refl), H|]. intros _. apply G in E.
      unfold loose. rewrite E. cbn. auto.
  Qed.
End Merge.

(** [a] is in a block, [b] is not: the stored list gets [b] at the end of the entry of [a], and stays so *)
Theorem C124_grows : forall s r a b s' ops, is_SetPart s ->
  c_canonical (sp_caches s) = None -> snd (read_canonical s) = Ok r ->
  In a (concat (sp_blocks s)) -> ~ In b (concat (sp_blocks s)) ->
  merge_pair (fst (read_canonical s)) a b = (s', None) \/ merge_pair (fst (read_canonical s)) b a = (s', None) ->
  snd (read_canonical (any_run ops s')) = Ok (map (fun bl => if in_dec Z.eq_dec a bl then bl ++ [b] else bl) r).
Proof.
  intros s r a b s' ops W F R Ha Hb E. assert (Wf := is_SetPart_wf s W).
  assert (Hab : a <> b) by (intros ->; contradiction).
  assert (Ea : exists i, zdget (sp_index s) a = Some i).
  { destruct (zdget (sp_index s) a) as [i|] eqn:Ei; [eauto|]. apply (index_none s Wf) in Ei. contradiction. }
  destruct Ea as (i & Ea). assert (Eb : zdget (sp_index s) b = None) by (apply (index_none s Wf), Hb).
  assert (N : forall x y, In x [a; b] -> In y [a; b] -> x <> y -> ~ together (sp_blocks s) x y).
  { intros x y Hx Hy Hxy (bl & Hbl & H1 & H2). apply Hb, in_concat. exists bl.
    destruct Hx as [<-|[<-|[]]], Hy as [<-|[<-|[]]]; try contradiction; auto. }
  assert (L : loose s' (appended a b r)).
  { destruct E as [E|E].
    - apply (merge_after_read s W r F R) in E as [_ E]; [|exact Hab]. rewrite Ea, Eb in E. apply E, N; cbn; auto.
    - apply (merge_after_read s W r F R) in E as [_ E]; [|auto]. rewrite Ea, Eb in E. apply E, N; cbn; auto. }
  rewrite (loose_read _ _ (run_loose ops s' _ L)). reflexivity.
Qed.

(** every other merge leaves it as it was *)
Theorem C124_stays : forall s r a b s', is_SetPart s ->
  c_canonical (sp_caches s) = None -> snd (read_canonical s) = Ok r ->
  (In a (concat (sp_blocks s)) <-> In b (concat (sp_blocks s))) ->
  merge_pair (fst (read_canonical s)) a b = (s', None) ->
  snd (read_canonical s') = Ok r.
Proof.
  intros s r a b s' W F R H E. assert (Wf := is_SetPart_wf s W).
  destruct (Z.eq_dec a b) as [<-|Hab].
  { unfold merge_pair in E. rewrite Z.eqb_refl in E. injection E as <-.
    destruct (read_first s r F R) as (s1 & -> & _ & _ & _ & _ & _ & C1 & _). cbn [fst]. unfold read_canonical. rewrite C1. reflexivity. }
  apply (merge_after_read s W r F R) in E as [E1 E2]; [|exact Hab].
  assert (D : together (sp_blocks s) a b \/ ~ together (sp_blocks s) a b).
  { destruct (zdget (sp_index s) a) as [i|] eqn:Ea, (zdget (sp_index s) b) as [j|] eqn:Eb.
    - destruct (Nat.eq_dec i j) as [Hij|Hij]; [left | right]; [apply (index_eq s Wf a b i j Ea Eb), Hij | intro T; apply Hij, (index_eq s Wf a b i j Ea Eb), T].
    - right. intros (bl & Hbl & _ & Hy). apply (index_none s Wf) in Eb. apply Eb, in_concat. eauto.
    - right. intros (bl & Hbl & Hy & _). apply (index_none s Wf) in Ea. apply Ea, in_concat. eauto.
    - right. intros (bl & Hbl & Hy & _). apply (index_none s Wf) in Ea. apply Ea, in_concat. eauto. }
  destruct D as [D|D]; [apply E1, D|]. specialize (E2 D).
  destruct (zdget (sp_index s) a) as [i|] eqn:Ea, (zdget (sp_index s) b) as [j|] eqn:Eb.
  - rewrite (loose_read _ _ E2). reflexivity.
  - exfalso. apply (index_none s Wf) in Eb. apply Eb, H. apply (index_some s Wf) in Ea as (_ & Hi & Hx). apply in_concat. eauto.
  - exfalso. apply (index_none s Wf) in Ea. apply Ea, H. apply (index_some s Wf) in Eb as (_ & Hi & Hx). apply in_concat. eauto.
  - rewrite (loose_read _ _ E2). reflexivity.
Qed.

(** so the stored list can name an element twice: it is no partition then *)
Theorem C124_partition : forall s dom r a b s' r' ops, is_SetPart s -> sp_domain s = DomSet dom ->
  c_canonical (sp_caches s) = None -> snd (read_canonical s) = Ok r ->
  In a (concat (sp_blocks s)) -> ~ In b (concat (sp_blocks s)) ->
  merge_pair (fst (read_canonical s)) a b = (s', None) ->
  snd (read_canonical (any_run ops s')) = Ok r' ->
  exists i j bl, i <> j /\ nth_error r' i = Some [b] /\ nth_error r' j = Some bl /\ In a bl /\ In b bl.
Proof.
  intros s dom r a b s' r' ops W D F R Ha Hb E E'. assert (Wf := is_SetPart_wf s W).
  rewrite (C124_grows s r a b s' ops W F R Ha Hb (or_introl E)) in E'. injection E' as <-.
  assert (Hab : a <> b) by (intros ->; contradiction).
  assert (Hdom : In b dom).
  { destruct (read_first s r F R) as (s1 & E1 & D1 & _). rewrite E1 in E. cbn [fst] in E. unfold merge_pair in E.
    rewrite (proj2 (Z.eqb_neq a b) Hab) in E. destruct (element_in_domain s1 a && element_in_domain s1 b) eqn:Ed; [|discriminate].
    apply andb_true_iff in Ed as [_ Ed]. unfold element_in_domain in Ed. rewrite D1, D in Ed. apply zmemb_In, Ed. }
  assert (H1 : In [b] r).
  { apply (fresh_canonical s r Wf F R). right. exists b. split; [reflexivity|]. split; [cbn; rewrite D; exact Hdom|].
    intros y (bl & Hbl & Hx & _). apply Hb, in_concat. eauto. }
  apply in_concat in Ha as (ba & Hba & Ha).
  assert (H2 : In ba r) by (apply (fresh_canonical s r Wf F R); left; exact Hba).
  apply In_nth_error in H1 as (i & Hi). apply In_nth_error in H2 as (j & Hj).
  assert (Hij : i <> j).
  { intros ->. rewrite Hi in Hj. injection Hj as <-. destruct Ha as [Ha|[]]. congruence. }
  exists i, j, (ba ++ [b]). split; [exact Hij|]. rewrite !nth_error_map, Hi, Hj. cbn [option_map].
  destruct (in_dec Z.eq_dec a [b]) as [[H|[]]|_]; [congruence|]. destruct (in_dec Z.eq_dec a ba) as [_|H]; [|contradiction].
  split; [reflexivity|]. split; [reflexivity|]. rewrite !in_app_iff. split; [left; exact Ha | right; left; reflexivity].
Qed.

(** Labels are refused for blocks that are not in the stored list.  So the block that was made by the merge
    can be labelled if the new element is greater than all elements of the old block, and not otherwise. *)
Section Label.
  Context (s : setpart) (W : is_SetPart s) (r : list (list Z)) (a b : Z) (s' : setpart).
  Hypothesis L0 : sp_labels s = [].
  Hypothesis F : c_canonical (sp_caches s) = None.
  Hypothesis R : snd (read_canonical s) = Ok r.
  Hypothesis Ha : In a (concat (sp_blocks s)).
  Hypothesis Hb : ~ In b (concat (sp_blocks s)).
  Hypothesis E : merge_pair (fst (read_canonical s)) a b = (s', None).

  Let Wf : sp_wf s := is_SetPart_wf s W.

  Lemma after_merge : sp_wf s' /\ sp_labels s' = [] /\ element_in_domain s' a = true /\
    (forall x, same (sp_blocks s') a x <-> same (sp_blocks s) a x \/ x = b).
  Proof using W L0 F R Ha Hb E.
    assert (W1 : is_SetPart (fst (read_canonical s))) by exact (obj_core s ReadCanonical W).
    destruct (read_first s r F R) as (s1 & E1 & D1 & B1 & I1 & L1 & La1 & C1 & A1). rewrite E1 in *. cbn [fst] in *.
    destruct (merge_pair_spec s1 a b (is_SetPart_wf _ W1)) as (s2 & e & E2 & W2 & D2 & L2 & S2 & K2).
    rewrite E in E2. injection E2 as <- <-. split; [exact W2|]. split; [apply L2; congruence|].
    assert (Hab : a <> b) by (intro H; rewrite H in Ha; contradiction).
    split.
    { destruct (K2 eq_refl) as [H|[H _]]; [contradiction|]. unfold element_in_domain in *. rewrite D2. exact H. }
    intro x. rewrite S2. unfold joined. rewrite B1. split.
    - intros [H|[[_ H]|[H _]]].
      + left. exact H.
      + right. destruct H as [H|(bl & Hbl & Hx & _)]; [auto|]. exfalso. apply Hb, in_concat. eauto.
      + exfalso. destruct H as [H|(bl & Hbl & _ & Hx)]; [contradiction|]. apply Hb, in_concat. eauto.
    - intros [H| ->]; [left; exact H|]. right. left. split; left; reflexivity.
  Qed.

  Lemma merged_entry : block_memb (element_to_block s' a) (appended a b r) = true <-> forall x, same (sp_blocks s) a x -> x < b.
  Proof using W L0 F R Ha Hb E.
    destruct after_merge as (W2 & _ & _ & S2).
    assert (HA : In (element_to_block s a) (sp_blocks s)) by (apply (element_to_block_block s Wf), Ha).
    assert (HAr : In (element_to_block s a) r) by (apply (fresh_canonical s r Wf F R); left; exact HA).
    assert (HaA : In a (element_to_block s a)) by (apply (element_to_block_In s Wf); left; reflexivity).
    assert (HaB : In a (element_to_block s' a)) by (apply (element_to_block_In s' W2); left; reflexivity).
    unfold block_memb. rewrite existsb_exists. split.
    - intros (c & Hc & Ec) x Hx. apply zlist_eqb_eq in Ec. subst c. apply in_map_iff in Hc as (bl & Ebl & Hbl).
      destruct (in_dec Z.eq_dec a bl) as [Hin|Hin]; [|rewrite Ebl in Hin; contradiction].
      assert (Hs := element_to_block_sorted s' W2 a). rewrite <- Ebl in Hs.
      assert (Ebl' : bl = element_to_block s a).
      { apply (fresh_canonical s r Wf F R) in Hbl as [Hbl|(y & -> & _ & Hn)].
        - apply (proj1 (proj2 (wf_canonical s Wf)) _ _ a Hbl HA Hin HaA).
        - destruct Hin as [->|[]]. exfalso. apply (Hn a). exists (element_to_block s a). auto. }
      subst bl. assert (Hx' : In x (element_to_block s a)) by (apply (element_to_block_In s Wf), Hx).
      clear - Hs Hx'. induction (element_to_block s a) as [|y m IH]; [contradiction|].
      cbn [app] in Hs. inversion Hs as [|? ? Hs' Hf]; subst. destruct Hx' as [->|Hx']; [|auto].
      rewrite Forall_forall in Hf. apply Hf, in_or_app. right. left. reflexivity.
    - intro H. assert (Eq : element_to_block s' a = element_to_block s a ++ [b]).
      { apply zsorted_ext.
        - apply (element_to_block_sorted s' W2).
        - assert (Hs := element_to_block_sorted s Wf a).
          assert (Hl : forall x, In x (element_to_block s a) -> x < b) by (intros x Hx; apply H, (element_to_block_In s Wf), Hx).
          clear - Hs Hl. induction (element_to_block s a) as [|y m IH]; cbn [app]; [repeat constructor|].
          inversion Hs as [|? ? Hs' Hf]; subst. constructor; [apply IH; [exact Hs' | intros x Hx; apply Hl; right; exact Hx]|].
          rewrite Forall_forall in *. intros x Hx. apply in_app_iff in Hx as [Hx|[<-|[]]]; [apply Hf, Hx | apply Hl; left; reflexivity].
        - intro x. rewrite (element_to_block_In s' W2), in_app_iff, (element_to_block_In s Wf), S2. cbn [In].
          split; [intros [Hx| ->]; auto | intros [Hx|[<-|[]]]; auto]. }
      exists (element_to_block s a ++ [b]). split; [|rewrite Eq; apply zlist_eqb_refl].
      apply in_map_iff. exists (element_to_block s a). split; [|exact HAr].
      destruct (in_dec Z.eq_dec a _); [reflexivity | contradiction].
  Qed.

  Lemma label_merged l : add_label_to_element s' a l =
    if block_memb (element_to_block s' a) (appended a b r) then (set_labels s' [(element_to_block s' a, l)], None) else (s', Some UnknownBlockError).
  Proof using W L0 F R Ha Hb E.
    destruct after_merge as (W2 & L2 & D2 & _). unfold add_label_to_element. rewrite D2. cbn [negb].
    unfold get_label_from_block, get_block_from_label. rewrite L2. cbn [label_get label_inv].
    unfold add_label_to_block.
    assert (Hr : read_canonical s' = (s', Ok (appended a b r))).
    { apply loose_read. assert (Hab : a <> b) by (intro H; rewrite H in Ha; contradiction).
      apply (merge_after_read s W r F R) in E as [_ E']; [|exact Hab].
      destruct (zdget (sp_index s) a) as [i|] eqn:Ea; [|apply (index_none s Wf) in Ea; contradiction].
      rewrite (proj2 (index_none s Wf b) Hb) in E'. apply E'.
      intros (bl & Hbl & _ & Hy). apply Hb, in_concat. eauto. }
    rewrite Hr. destruct (block_memb _ _); [|reflexivity]. cbn [negb]. rewrite L2. reflexivity.
  Qed.
End Label.

Theorem C124_label : forall s r a b s' l, is_SetPart s -> sp_labels s = [] ->
  c_canonical (sp_caches s) = None -> snd (read_canonical s) = Ok r ->
  In a (concat (sp_blocks s)) -> ~ In b (concat (sp_blocks s)) ->
  merge_pair (fst (read_canonical s)) a b = (s', None) ->
  (forall x, same (sp_blocks s) a x -> x < b) ->
  exists s'' bl, add_label_to_element s' a l = (s'', None) /\ get_label_from_element s'' b = Some l /\
    get_block_from_label s'' l = Some bl /\ (forall x, In x bl <-> same (sp_blocks s) a x \/ x = b).
Proof.
  intros s r a b s' l W L0 F R Ha Hb E H.
  destruct (after_merge s W r a b s' L0 F R Ha Hb E) as (W2 & L2 & D2 & S2).
  rewrite (label_merged s W r a b s' L0 F R Ha Hb E l), (proj2 (merged_entry s W r a b s' L0 F R Ha Hb E) H).
  exists (set_labels s' [(element_to_block s' a, l)]), (element_to_block s' a). split; [reflexivity|].
  split; [|split].
  - unfold get_label_from_element, get_label_from_block. cbn [sp_labels set_labels label_get].
    change (element_to_block (set_labels s' [(element_to_block s' a, l)]) b) with (element_to_block s' b).
    rewrite (proj2 (element_to_block_eq s' W2 b a)); [rewrite zlist_eqb_refl; reflexivity|].
    apply same_sym, S2. right. reflexivity.
  - unfold get_block_from_label. cbn [sp_labels set_labels label_inv]. rewrite Z.eqb_refl. reflexivity.
  - intro x. rewrite (element_to_block_In s' W2). apply S2.
Qed.

Theorem C124_label_refused : forall s r a b s' l x, is_SetPart s -> sp_labels s = [] ->
  c_canonical (sp_caches s) = None -> snd (read_canonical s) = Ok r ->
  In a (concat (sp_blocks s)) -> ~ In b (concat (sp_blocks s)) ->
  merge_pair (fst (read_canonical s)) a b = (s', None) ->
  same (sp_blocks s) a x -> b < x ->
  add_label_to_element s' a l = (s', Some UnknownBlockError).
Proof.
  intros s r a b s' l x W L0 F R Ha Hb E H Hx.
  rewrite (label_merged s W r a b s' L0 F R Ha Hb E l).
  destruct (block_memb _ _) eqn:Em; [|reflexivity]. exfalso.
  apply (merged_entry s W r a b s' L0 F R Ha Hb E) with (x := x) in Em; [lia | exact H].
Qed.

Print Assumptions C124_grows.
Print Assumptions C124_stays.
Print Assumptions C124_partition.
Print Assumptions C124_label.
Print Assumptions C124_label_refused.

(** the same merges with a greater and with a smaller element: only the first block can get a label *)
Example C124_ex : exists s, SetPart (Some [[2; 4]]) (DomSet [1; 2; 3; 4; 5]) = Ok s /\
  snd (read_canonical s) = Ok [[1]; [2; 4]; [3]; [5]] /\
  (let s5 := fst (merge_pair (fst (read_canonical s)) 4 5) in
   snd (read_canonical s5) = Ok [[1]; [2; 4; 5]; [3]; [5]] /\ snd (add_label_to_element s5 2 7) = None) /\
  (let s3 := fst (merge_pair (fst (read_canonical s)) 2 3) in
   sp_blocks s3 = [[2; 3; 4]] /\ snd (read_canonical s3) = Ok [[1]; [2; 4; 3]; [3]; [5]] /\ snd (add_label_to_element s3 2 7) = Some UnknownBlockError /\
   snd (read_canonical (fst (merge_pair s3 2 1))) = Ok [[1]; [2; 4; 3]; [3]; [5]]).
Proof. eexists. split; [vm_compute; reflexivity|]. vm_compute. repeat split; reflexivity. Qed.
