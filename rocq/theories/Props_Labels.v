(** C126: what add_label_to_block and add_label_to_element do in every case *)

From Coq Require Import List Arith ZArith Bool Lia Permutation.
From Verif Require Import Model_Base Lib Model_SetPart Spec_SetPart Proof_SetPart Proof_SetPartMerge Proof_SetPartMore Proof_SetPartLabels Proof_SetPartObj Proof_Domain.
Import ListNotations.
Local Open Scope Z_scope.

(** the object is the same but for its labels (and what is stored when it is read) *)
Definition but_labels (s s' : setpart) : Prop :=
  sp_domain s' = sp_domain s /\ sp_blocks s' = sp_blocks s /\ sp_index s' = sp_index s /\ sp_length s' = sp_length s.

Lemma read_any s r : snd (read_canonical s) = Ok r ->
  exists s1, read_canonical s = (s1, Ok r) /\ but_labels s s1 /\ sp_labels s1 = sp_labels s.
Proof.
  intro R. assert (K := read_canonical_core s). destruct (read_canonical s) as [s1 r1]. cbn in *. subst r1.
  destruct K as (K1 & K2 & K3 & K4 & K5). exists s1. unfold but_labels. repeat split; auto.
Qed.

Theorem C126_block : forall s block l r s' e, is_SetPart s -> snd (read_canonical s) = Ok r ->
  add_label_to_block s block l = (s', e) ->
  but_labels s s' /\ (e <> None -> sp_labels s' = sp_labels s) /\
  (~ In block r -> e = Some UnknownBlockError) /\
  (In block r -> forall l', In (block, l') (sp_labels s) -> l' <> l -> e = Some LabelContradictionError) /\
  (In block r -> (forall l', ~ In (block, l') (sp_labels s)) -> forall b', In (b', l) (sp_labels s) -> e = Some ValueDuplicationError) /\
  (In block r -> (forall l', In (block, l') (sp_labels s) -> l' = l) -> (forall b', In (b', l) (sp_labels s) -> b' = block) ->
   e = None /\ forall p, In p (sp_labels s') <-> p = (block, l) \/ In p (sp_labels s)).
Proof.
  intros s block l r s' e H R E. apply is_SetPart_wf in H. assert (L := wf_labels s H). destruct (read_any s r R) as (s1 & E1 & B & El).
  unfold add_label_to_block in E. rewrite E1, El in E.
  destruct (block_memb block r) eqn:Em; cbn [negb] in E.
  2: { injection E as <- <-. assert (N : ~ In block r) by (intro N; apply block_memb_In in N; congruence). rewrite El.
       split; [exact B|]. split; [auto|]. split; [auto|]. repeat split; intros; contradiction. }
  apply block_memb_In in Em. destruct (label_get (sp_labels s) block) as [old|] eqn:Eg.
  - apply (label_get_In _ _ _ (proj1 L)) in Eg as Hg. destruct (Z.eqb_spec old l) as [->|Hne].
    + rewrite (label_put_same _ _ _ L Hg) in E. injection E as <- <-. split; [exact B|]. split; [congruence|]. split; [contradiction|].
      split; [|split].
      * intros _ l' H' Hne. apply (label_get_In _ _ _ (proj1 L)) in H'. congruence.
      * intros _ Hn. exfalso. apply (Hn l), Hg.
      * intros _ _ _. split; [reflexivity|]. intro p. cbn. split; [auto|]. intros [->|Hp]; assumption.
    + injection E as <- <-. rewrite El. split; [exact B|]. split; [auto|]. split; [contradiction|]. split; [auto|]. split.
      * intros _ Hn. exfalso. apply (Hn old), Hg.
      * intros _ Hn. exfalso. apply Hne, Hn, Hg.
  - apply label_get_none in Eg. assert (N : forall l', ~ In (block, l') (sp_labels s)) by (intros l' Hl; apply Eg; apply (in_map fst) in Hl; exact Hl).
    destruct (label_inv (sp_labels s) l) as [b|] eqn:Ei.
    + apply (label_inv_In _ _ _ (proj2 L)) in Ei. assert (Hb : block <> b) by (intros ->; apply (N l), Ei).
      rewrite (label_put_dup _ _ _ _ L Ei Hb) in E. injection E as <- <-. rewrite El. split; [exact B|]. split; [auto|]. split; [contradiction|].
      split; [intros _ l' Hl; exfalso; apply (N l'), Hl|]. split; [auto|].
      intros _ _ Hu. exfalso. apply Hb. symmetry. apply Hu, Ei.
    + apply label_inv_none in Ei. destruct (label_put_new _ block l L Ei) as (d & Ed & _ & Hd). rewrite Ed in E. injection E as <- <-.
      split; [exact B|]. split; [congruence|]. split; [contradiction|]. split; [intros _ l' Hl; exfalso; apply (N l'), Hl|]. split.
      * intros _ _ b' Hb. exfalso. apply Ei. apply (in_map snd) in Hb. exact Hb.
      * intros _ _ _. split; [reflexivity|]. intro p. cbn [set_labels sp_labels]. rewrite Hd. split; [tauto|]. intros [->|Hp]; [auto|]. right. split; [exact Hp|].
        intro F. apply (N (snd p)). rewrite <- F. destruct p; exact Hp.
Qed.

(** the same label can always be given again, and a label is never replaced *)
Theorem C126_keeps : forall s block l r p, is_SetPart s -> snd (read_canonical s) = Ok r ->
  In p (sp_labels s) -> In p (sp_labels (fst (add_label_to_block s block l))).
Proof.
  intros s block l r p H R Hp. destruct (add_label_to_block s block l) as [s' e] eqn:E. cbn [fst].
  destruct (C126_block s block l r s' e H R E) as (_ & K & U & C & D & S). destruct e as [x|]; [rewrite K by discriminate; exact Hp|].
  apply is_SetPart_wf in H. assert (L := wf_labels s H).
  apply S; [| | |right; exact Hp].
  - destruct (in_dec (list_eq_dec Z.eq_dec) block r) as [Hi|Hi]; [exact Hi|]. specialize (U Hi). discriminate.
  - intros l' Hl. destruct (Z.eq_dec l' l) as [|Hne]; [assumption|]. destruct (in_dec (list_eq_dec Z.eq_dec) block r) as [Hi|Hi]; [|specialize (U Hi); discriminate].
    specialize (C Hi l' Hl Hne). discriminate.
  - intros b' Hb. destruct (in_dec (list_eq_dec Z.eq_dec) block r) as [Hi|Hi]; [|specialize (U Hi); discriminate].
    destruct (label_get (sp_labels s) block) as [old|] eqn:Eg.
    + apply (label_get_In _ _ _ (proj1 L)) in Eg. destruct (Z.eq_dec old l) as [->|Hne]; [|specialize (C Hi old Eg Hne); discriminate].
      apply (label_inv_In _ _ _ (proj2 L)) in Eg, Hb. congruence.
    + apply label_get_none in Eg. assert (F : forall l', ~ In (block, l') (sp_labels s)) by (intros l' Hl; apply Eg; apply (in_map fst) in Hl; exact Hl).
      specialize (D Hi F b' Hb). discriminate.
Qed.

(** elements: foreign ones and those of a block with another label are refused, and the object is as before *)
Theorem C126_element : forall s x l, is_SetPart s ->
  (~ in_dom (sp_domain s) x -> add_label_to_element s x l = (s, Some UnknownElementError)) /\
  (forall b l', in_dom (sp_domain s) x -> In (b, l') (sp_labels s) -> b = element_to_block s x -> l' <> l ->
     add_label_to_element s x l = (s, Some LabelContradictionError)) /\
  (in_dom (sp_domain s) x -> (forall l', ~ In (element_to_block s x, l') (sp_labels s)) -> (forall b, ~ In (b, l) (sp_labels s)) ->
     add_label_to_element s x l = add_label_to_block s (element_to_block s x) l).
Proof.
  intros s x l H. apply is_SetPart_wf in H. assert (L := wf_labels s H). unfold add_label_to_element. split; [|split].
  - intro H0. apply out_dom_spec in H0. rewrite H0. reflexivity.
  - intros b l' H0 Hb -> Hne. apply in_dom_spec in H0. rewrite H0. cbn [negb]. unfold get_label_from_block. rewrite (proj2 (label_get_In _ _ _ (proj1 L)) Hb).
    destruct (Z.eqb_spec l l'); [congruence|]. reflexivity.
  - intros H0 N1 N2. apply in_dom_spec in H0. rewrite H0. cbn [negb]. unfold get_label_from_block, get_block_from_label.
    destruct (label_get (sp_labels s) (element_to_block s x)) as [l'|] eqn:Eg.
    { exfalso. apply (label_get_In _ _ _ (proj1 L)) in Eg. apply (N1 l'), Eg. }
    destruct (label_inv (sp_labels s) l) as [b|] eqn:Ei; [|reflexivity].
    exfalso. apply (label_inv_In _ _ _ (proj2 L)) in Ei. apply (N2 b), Ei.
Qed.

(** ** merge_pair for objects with labels *)

Lemma NoDup_both (A B : list Z) : NoDup A -> NoDup B -> (forall z, In z A -> ~ In z B) -> NoDup (A ++ B).
Proof.
  intros Q1 Q2. induction A as [|z A IH]; intro Q3; [exact Q2|]. inversion_clear Q1 as [|? ? Q4 Q5]. cbn [app]. constructor.
  - rewrite in_app_iff. intros [F|F]; [exact (Q4 F) | exact (Q3 z (or_introl eq_refl) F)].
  - apply IH; [exact Q5|]. intros w Hw. apply Q3. right. exact Hw.
Qed.

(** two blocks are merged unless both have labels; the label of one of them becomes that of the merged block, and the others are kept
    (but an outdated label of the same list, that was given to the constructor, is replaced) *)
Theorem C126_merge : forall s a b, is_SetPart s -> in_dom (sp_domain s) a -> in_dom (sp_domain s) b -> ~ same (sp_blocks s) a b ->
  let labelled x l := In (element_to_block s x, l) (sp_labels s) in
  (forall k l, labelled a k -> labelled b l -> merge_pair s a b = (s, Some LabelContradictionError)) /\
  ((forall k, ~ labelled a k) \/ (forall l, ~ labelled b l) ->
   exists s', merge_pair s a b = (s', None) /\ sp_domain s' = sp_domain s /\
     (forall x y, same (sp_blocks s') x y <-> generated (fun u v => together (sp_blocks s) u v \/ (u = a /\ v = b)) x y) /\
     forall c l, In (c, l) (sp_labels s') <->
       (c = element_to_block s' a /\ (labelled a l \/ labelled b l)) \/
       (In (c, l) (sp_labels s) /\ c <> element_to_block s a /\ c <> element_to_block s b /\
        (c = element_to_block s' a -> forall k, ~ labelled a k /\ ~ labelled b k))).
Proof.
  intros s a b H Da Db N labelled. apply is_SetPart_wf in H. assert (HL := wf_labels s H).
  assert (Hab : a <> b) by (intros ->; apply N; left; reflexivity).
  assert (NE : zlist_eqb (element_to_block s a) (element_to_block s b) = false) by (apply zlist_eqb_neq; intro E; apply N, (element_to_block_eq s H), E).
  apply in_dom_spec in Da, Db. split.
  - intros k l Hk Hl. unfold merge_pair. rewrite (proj2 (Z.eqb_neq a b) Hab), Da, Db. cbn [andb negb]. unfold merge_block_labels. rewrite NE. unfold get_label_from_block.
    rewrite (proj2 (label_get_In _ _ _ (proj1 HL)) Hk), (proj2 (label_get_In _ _ _ (proj1 HL)) Hl). reflexivity.
  - intro U. destruct (merge_pair_spec s a b H) as (s' & e & E & W & D & _ & T & _).
    assert (LA : forall x, match label_get (sp_labels s) (element_to_block s x) with Some l => forall k, labelled x k <-> k = l | None => forall k, ~ labelled x k end).
    { intro x. destruct (label_get _ _) as [l|] eqn:G.
      - intro k. unfold labelled. rewrite <- (label_get_In _ _ _ (proj1 HL)), G. split; congruence.
      - intros k Hk. apply (label_get_In _ _ _ (proj1 HL)) in Hk. congruence. }
    assert (Ha := LA a). assert (Hb := LA b).
    destruct e as [e|].
    { exfalso. destruct T as (_ & _ & [(_ & [F|F])|(_ & F & _)]); [congruence | congruence|]. unfold merge_block_labels in F. rewrite NE in F. unfold get_label_from_block in F.
      destruct (label_get (sp_labels s) (element_to_block s a)) as [k|], (label_get (sp_labels s) (element_to_block s b)) as [l|]; cbn [true_except bind] in F.
      - destruct U as [U|U]; [apply (U k), Ha | apply (U l), Hb]; reflexivity.
      - revert F. unfold label_put. destruct (label_inv _ _) as [b'|]; [match goal with |- (if ?c then _ else _) = _ -> _ => destruct c end|]; congruence.
      - revert F. unfold label_put. destruct (label_inv _ _) as [b'|]; [match goal with |- (if ?c then _ else _) = _ -> _ => destruct c end|]; congruence.
      - discriminate F. }
    exists s'. split; [exact E|]. split; [exact D|]. split; [intros x y; rewrite T; symmetry; apply generated_pair, wf_nodup, H|].
    assert (M : zsort (element_to_block s a ++ element_to_block s b) = element_to_block s' a).
    { apply zsorted_ext; [|apply (element_to_block_sorted s' W)|].
      - apply zsort_sorted. assert (Q1 := zsorted_NoDup _ (element_to_block_sorted s H a)). assert (Q2 := zsorted_NoDup _ (element_to_block_sorted s H b)).
        assert (Q3 : forall z, In z (element_to_block s a) -> ~ In z (element_to_block s b)).
        { intros z Z1 Z2. apply (element_to_block_In s H) in Z1, Z2. apply N. apply (same_trans _ _ z _ (wf_nodup s H) Z1). apply same_sym, Z2. }
        apply NoDup_both; assumption.
      - intro z. rewrite zsort_In, in_app_iff, !(element_to_block_In s H), (element_to_block_In s' W), T. unfold joined. split.
        + intros [F|F]; [left; exact F | right; left; split; [left; reflexivity | exact F]].
        + intros [F|[(_ & F)|(F & F')]]; [left; exact F | right; exact F | left; exact F']. }
    assert (K := merge_pair_labels s a b s' H Hab E). unfold merge_block_labels in K. rewrite NE, M in K. unfold get_label_from_block in K.
    assert (P : labels_ok (label_pop (label_pop (sp_labels s) (element_to_block s a)) (element_to_block s b))) by (apply label_pop_ok, label_pop_ok, HL).
    assert (New : forall l, label_put (label_pop (label_pop (sp_labels s) (element_to_block s a)) (element_to_block s b)) (element_to_block s' a) l = Ok (sp_labels s') ->
      (labelled a l \/ labelled b l) -> forall p, In p (sp_labels s') <-> p = (element_to_block s' a, l) \/ (In p (sp_labels s) /\ fst p <> element_to_block s a /\ fst p <> element_to_block s b /\ fst p <> element_to_block s' a)).
    { intros l Hl Hab'. destruct (label_put_new _ (element_to_block s' a) l P) as (d & X & _ & Y).
      - intro Hin. apply in_map_iff in Hin as ([c' k'] & <- & Hin). apply label_pop_In in Hin as [Hin H2]. apply label_pop_In in Hin as [Hin H1]. cbn [fst snd] in *.
        destruct Hab' as [Z1|Z1]; [apply H1 | apply H2]; apply (label_inv_In _ _ _ (proj2 HL)) in Z1; apply (label_inv_In _ _ _ (proj2 HL)) in Hin; congruence.
      - rewrite Hl in X. injection X as <-. intro p. rewrite Y, !label_pop_In. tauto. }
    destruct (label_get (sp_labels s) (element_to_block s a)) as [k|] eqn:Ga, (label_get (sp_labels s) (element_to_block s b)) as [l|] eqn:Gb; cbn [true_except bind] in K.
    + discriminate.
    + intros c l. rewrite (New k K) by (left; apply Ha; reflexivity). cbn [fst]. rewrite Ha. split.
      * intros [F|(F1 & F2 & F3 & F4)]; [injection F as -> ->; left; auto | right; repeat split; try assumption; contradiction].
      * intros [(-> & [E1|F])|(F1 & F2 & F3 & F4)]; [subst l; left; reflexivity | destruct (Hb l F)|]. right. repeat split; try assumption. intro F. destruct (F4 F k) as (F5 & _). apply F5, Ha. reflexivity.
    + intros c l'. rewrite (New l K) by (right; apply Hb; reflexivity). cbn [fst]. rewrite Hb. split.
      * intros [F|(F1 & F2 & F3 & F4)]; [injection F as -> ->; left; auto | right; repeat split; try assumption; contradiction].
      * intros [(-> & [F|E1])|(F1 & F2 & F3 & F4)]; [destruct (Ha l' F) | subst l'; left; reflexivity|]. right. repeat split; try assumption. intro F. destruct (F4 F l) as (_ & F5). apply F5, Hb. reflexivity.
    + intros c l. injection K as K. rewrite <- K, !label_pop_In. cbn [fst]. split.
      * intros ((F1 & F2) & F3). right. repeat split; auto.
      * intros [(_ & [F|F])|(F1 & F2 & F3 & _)]; [destruct (Ha l F) | destruct (Hb l F) | auto].
Qed.

(** elements of the same block: nothing happens *)
Theorem C126_merge_same : forall s a b, is_SetPart s -> in_dom (sp_domain s) a -> in_dom (sp_domain s) b -> same (sp_blocks s) a b ->
  merge_pair s a b = (s, None).
Proof.
  intros s a b H Da Db Hs. apply is_SetPart_wf in H. unfold merge_pair. destruct (Z.eqb_spec a b) as [|Hab]; [reflexivity|].
  apply in_dom_spec in Da, Db. rewrite Da, Db. cbn [andb negb]. unfold merge_block_labels.
  rewrite (proj2 (zlist_eqb_eq _ _) (proj2 (element_to_block_eq s H a b) Hs)). destruct Hs as [Hs|Hs]; [contradiction|]. assert (T := Hs). destruct Hs as (c & Hc & Ha & Hb).
  destruct (zdget (sp_index s) a) as [i|] eqn:Ei; [|exfalso; apply (index_none s H a) in Ei; apply Ei, in_concat; eauto].
  destruct (zdget (sp_index s) b) as [j|] eqn:Ej; [|exfalso; apply (index_none s H b) in Ej; apply Ej, in_concat; eauto].
  rewrite (proj2 (Nat.eqb_eq i j)) by (apply (index_eq s H a b i j Ei Ej), T). destruct s. reflexivity.
Qed.

(** ** add_label_to_element with a label that is already there: the block of the element is merged with the one that has the label *)
Lemma etb_head s x : sp_wf s -> same (sp_blocks s) x (hd 0 (element_to_block s x)).
Proof.
  intro W. apply (element_to_block_In s W). assert (I : In x (element_to_block s x)) by (apply (element_to_block_In s W); left; reflexivity).
  destruct (element_to_block s x) as [|z l]; [destruct I | left; reflexivity].
Qed.

Theorem C126_element_again : forall s x l, is_SetPart s -> in_dom (sp_domain s) x -> In (element_to_block s x, l) (sp_labels s) ->
  add_label_to_element s x l = (s, None).
Proof.
  intros s x l H D L. apply is_SetPart_wf in H. assert (HL := wf_labels s H). apply in_dom_spec in D. unfold add_label_to_element. rewrite D. cbn [negb].
  unfold get_label_from_block, get_block_from_label. rewrite (proj2 (label_get_In _ _ _ (proj1 HL)) L), (proj2 (label_inv_In _ _ _ (proj2 HL)) L), Z.eqb_refl. cbn [negb].
  unfold merge_pair. rewrite Z.eqb_refl. reflexivity.
Qed.

Theorem C126_element_merge : forall s x y l, is_SetPart s ->
  in_dom (sp_domain s) x -> (forall z, same (sp_blocks s) x z \/ same (sp_blocks s) y z -> in_dom (sp_domain s) z) ->
  (forall k, ~ In (element_to_block s x, k) (sp_labels s)) -> In (element_to_block s y, l) (sp_labels s) ->
  exists s', add_label_to_element s x l = (s', None) /\ sp_domain s' = sp_domain s /\
    (forall u v, same (sp_blocks s') u v <-> generated (fun u v => together (sp_blocks s) u v \/ (u = x /\ v = y)) u v) /\
    forall c k, In (c, k) (sp_labels s') <->
      (c = element_to_block s' x /\ k = l) \/ (In (c, k) (sp_labels s) /\ c <> element_to_block s y /\ c <> element_to_block s' x).
Proof.
  intros s x y l H Dx Dz Nx Ly. assert (W := is_SetPart_wf s H). assert (HL := wf_labels s W).
  set (a := hd 0 (element_to_block s x)). set (b := hd 0 (element_to_block s y)).
  assert (Sa : same (sp_blocks s) x a) by (apply etb_head, W). assert (Sb : same (sp_blocks s) y b) by (apply etb_head, W). assert (Nd := wf_nodup s W).
  assert (Ea : element_to_block s a = element_to_block s x) by (apply (element_to_block_eq s W), same_sym, Sa).
  assert (Eb : element_to_block s b = element_to_block s y) by (apply (element_to_block_eq s W), same_sym, Sb).
  assert (N : ~ same (sp_blocks s) a b).
  { intro F. apply (element_to_block_eq s W) in F. rewrite Ea, Eb in F. apply (Nx l). rewrite F. exact Ly. }
  destruct (C126_merge s a b H) as (_ & C); [apply Dz; left; exact Sa | apply Dz; right; exact Sb | exact N|]. cbn zeta in C. rewrite Ea, Eb in C.
  destruct (C (or_introl Nx)) as (s' & E & D & T & L). exists s'.
  assert (W' : sp_wf s') by (destruct (merge_pair_spec s a b W) as (s2 & e2 & E2 & W2 & _); rewrite E in E2; injection E2 as <- _; exact W2).
  assert (T' : forall u v, same (sp_blocks s') u v <-> joined (same (sp_blocks s)) a b u v) by (intros u v; rewrite T; apply generated_pair, Nd).
  assert (Ex : element_to_block s' a = element_to_block s' x) by (apply (element_to_block_eq s' W'), T'; left; apply same_sym, Sa).
  split; [|split; [exact D|split]].
  - unfold add_label_to_element. apply in_dom_spec in Dx. rewrite Dx. cbn [negb]. unfold get_label_from_block, get_block_from_label.
    destruct (label_get (sp_labels s) (element_to_block s x)) as [k|] eqn:G; [exfalso; apply (Nx k), (label_get_In _ _ _ (proj1 HL)), G|].
    rewrite (proj2 (label_inv_In _ _ _ (proj2 HL)) Ly). exact E.
  - intros u v. rewrite T', generated_pair by exact Nd. unfold joined. assert (TR := fun p q r => same_trans (sp_blocks s) p q r Nd). assert (SY := same_sym (sp_blocks s)). split.
    + intros [F|[(F1 & F2)|(F1 & F2)]]; [left; exact F | right; left; split; eauto | right; right; split; eauto].
    + intros [F|[(F1 & F2)|(F1 & F2)]]; [left; exact F | right; left; split; eauto | right; right; split; eauto].
  - intros c k. rewrite L, Ex. split.
    + intros [(-> & [F|F])|(F1 & F2 & F3 & F4)]; [destruct (Nx k F) | left; split; [reflexivity|] | right].
      * apply (label_get_In _ _ _ (proj1 HL)) in F, Ly. congruence.
      * repeat split; try assumption. intro F. destruct (F4 F l) as (_ & F5). contradiction.
    + intros [(-> & ->)|(F1 & F2 & F3)]; [left; auto|]. right. repeat split; try assumption; try contradiction. intros ->. apply (Nx k), F1.
Qed.

Print Assumptions C126_block.
Print Assumptions C126_keeps.
Print Assumptions C126_element.
Print Assumptions C126_merge.
Print Assumptions C126_merge_same.
Print Assumptions C126_element_again.
Print Assumptions C126_element_merge.

(** the four cases, for the partition of {1, 2, 3, 4} with the block {1, 2} labelled 7; labelling the element 3 with 7 merges instead *)
Definition ex_part : res setpart := SetPart (Some [[1; 2]]) (DomSet [1; 2; 3; 4]).
Example C126_ex : match ex_part with
  | Ok s => let s1 := fst (add_label_to_block s [1; 2] 7) in
      snd (read_canonical s) = Ok [[1; 2]; [3]; [4]] /\ sp_labels s1 = [([1; 2], 7)] /\
      snd (add_label_to_block s1 [2; 1] 7) = Some UnknownBlockError /\ snd (add_label_to_block s1 [1; 2] 8) = Some LabelContradictionError /\
      snd (add_label_to_block s1 [3] 7) = Some ValueDuplicationError /\ sp_labels (fst (add_label_to_block s1 [3] 8)) = [([1; 2], 7); ([3], 8)] /\
      sp_labels (fst (add_label_to_element s1 3 7)) = [([1; 2; 3], 7)] /\ snd (add_label_to_element s1 5 7) = Some UnknownElementError /\
      snd (add_label_to_element s1 2 8) = Some LabelContradictionError /\ add_label_to_element s1 2 7 = (s1, None) /\
      let s2 := fst (add_label_to_block s1 [3] 8) in
      merge_pair s2 2 1 = (s2, None) /\ merge_pair s2 2 3 = (s2, Some LabelContradictionError) /\ sp_labels (fst (merge_pair s2 4 3)) = [([1; 2], 7); ([3; 4], 8)] /\
      sp_blocks (fst (add_label_to_element s2 4 8)) = [[1; 2]; [3; 4]]
  | Err _ => False
  end.
Proof. vm_compute. repeat split; reflexivity. Qed.
