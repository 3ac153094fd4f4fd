(** Proof_SetPartLabels: labels, inventory_partition, refine_block. *)

From Coq Require Import List Arith ZArith Bool Lia Permutation Sorting.Sorted Relations.
From Verif Require Import Model_Base Lib Model_SetPart Spec_SetPart Proof_SetPart Proof_SetPartMerge Proof_SetPartMore
  Proof_SetPartLattice.
Import ListNotations.
Open Scope Z_scope.

Lemma sp_init_labels c bs dom ls s' : labels_ok ls -> sp_init c (Some bs) dom (Some ls) = Ok s' ->
  sp_blocks s' <> [] -> sp_labels s' = ls.
Proof.
  intros Hl E Hb. unfold sp_init in E. destruct (isort zlist_leb _); [injection E as <-; exfalso; apply Hb; reflexivity|].
  apply guard_ok in E as [_ E]. apply bind_ok in E as (len & _ & E). apply bind_ok in E as (ls' & E1 & E).
  injection E as <-. cbn. rewrite (bidict_of_ok ls Hl) in E1. congruence.
Qed.

Lemma reinit_labels s bs ls c s' : labels_ok ls -> reinit s bs ls c = (s', None) -> sp_blocks s' <> [] -> sp_labels s' = ls.
Proof.
  intros Hl E. unfold reinit in E. fold (unalias c) in E.
  destruct (sp_init (unalias c) (Some bs) (sp_domain s) (Some ls)) as [s''|e] eqn:E2; [|discriminate].
  injection E as <-. eapply sp_init_labels; eassumption.
Qed.

Lemma merge_pair_labels s a b s' : sp_wf s -> a <> b -> merge_pair s a b = (s', None) ->
  merge_block_labels s a b = Ok (sp_labels s').
Proof.
  intros W Hab E. assert (H := merge_pair_spec s a b W). destruct H as (s2 & e & E2 & _ & _ & _ & He & _).
  rewrite E in E2. injection E2 as <- <-.
  assert (Hne : sp_blocks s' <> []).
  { intro Hb. assert (Hs : same (sp_blocks s') a b) by (apply He; right; left; split; left; reflexivity).
    rewrite Hb in Hs. destruct Hs as [Hs|(c & [] & _)]. contradiction. }
  unfold merge_pair in E. destruct (Z.eqb_spec a b); [contradiction|]. destruct (negb _); [discriminate|].
  destruct (merge_block_labels_spec s a b W) as [(ls & El & Hok & _)|[El _]]; rewrite El in *; [|discriminate].
  f_equal. symmetry.
  destruct (zdget (sp_index s) a), (zdget (sp_index s) b);
    [destruct (Nat.eqb n0 n1); [injection E as <-; reflexivity|]| | |];
    eapply reinit_labels; eassumption.
Qed.

(** the cached canonical list keeps its singletons *)
Definition canon_has (s : setpart) (x : Z) : Prop :=
  exists c, c_canonical (sp_caches s) = Some c /\ In [x] c.
Lemma merge_pair_canon s a b x : sp_wf s -> canon_has s x -> canon_has (fst (merge_pair s a b)) x.
Proof.
  intros W (c & Hc & Hx). unfold canon_has, merge_pair.
  destruct (Z.eqb a b); [cbn; eauto|]. destruct (negb _); [cbn; eauto|].
  destruct (merge_block_labels s a b) as [ls|e]; [|cbn; eauto].
  assert (Ha : forall i y, zdget (sp_index s) y = Some i -> forall nw,
     exists c', c_canonical (unalias (alias_append (sp_caches s) (nth i (sp_blocks s) []) nw)) = Some c' /\ In [x] c').
  { intros i y Hi nw. unfold alias_append, unalias. destruct (c_alias (sp_caches s)); cbn; [|eauto].
    rewrite Hc. cbn [option_map]. eexists. split; [reflexivity|]. apply in_map_iff. exists [x]. split; [|exact Hx].
    destruct (zlist_eqb [x] (nth i (sp_blocks s) [])) eqn:E; [|reflexivity]. exfalso.
    apply zlist_eqb_eq in E. destruct (index_some s W y i Hi) as (_ & Hin & _).
    apply (wf_canonical s W) in Hin as [Hlen _]. rewrite <- E in Hlen. cbn in Hlen. lia. }
  destruct (zdget (sp_index s) a) as [i|] eqn:Ei, (zdget (sp_index s) b) as [j|] eqn:Ej;
    [destruct (Nat.eqb i j); [cbn; eauto|]| | |]; rewrite reinit_caches; cbn; eauto.
  - destruct (Ha i a Ei (nth i (sp_blocks s) [] ++ [b])) as (c' & E1 & E2). exists c'. auto.
  - destruct (Ha j b Ej (nth j (sp_blocks s) [] ++ [a])) as (c' & E1 & E2). exists c'. auto.
Qed.

(** * Labelling elements of a fresh partition of a finite set *)

(** the label of the first call for an element *)
Definition first_label (calls : list (Z * Z)) (x : Z) : option Z :=
  match find (fun c => Z.eqb (fst c) x) calls with Some c => Some (snd c) | None => None end.

Section Labels.
  Variable dom : list Z.
  Hypothesis dom_nodup : NoDup dom.

  Record inv (s : setpart) (f : Z -> option Z) : Prop := mk_inv {
    inv_wf : sp_wf s;
    inv_dom : sp_domain s = DomSet dom;
    inv_f : forall x l, f x = Some l -> In x dom;
    inv_blocks : forall x y, x <> y -> together (sp_blocks s) x y <-> exists l, f x = Some l /\ f y = Some l;
    inv_labels : forall b l, In (b, l) (sp_labels s) <-> exists x, f x = Some l /\ b = element_to_block s x;
    inv_canon : (c_canonical (sp_caches s) = None /\ sp_blocks s = [] /\ forall x, f x = None) \/ forall x, In x dom -> canon_has s x
  }.

  Lemma inv_same s f x y : inv s f -> same (sp_blocks s) x y <-> x = y \/ exists l, f x = Some l /\ f y = Some l.
  Proof using.
    intro I. unfold same. destruct (Z.eq_dec x y) as [->|H]; [tauto|]. rewrite (inv_blocks s f I x y H). reflexivity.
  Qed.
  Lemma inv_single s f x : inv s f -> f x = None -> element_to_block s x = [x].
  Proof using.
    intros I H. assert (W := inv_wf s f I). apply zsorted_ext; [apply element_to_block_sorted, W | repeat constructor|].
    intro z. rewrite (element_to_block_In s W), (inv_same s f x z I). cbn [In]. split.
    - intros [->|(l & Hx & _)]; [auto | congruence].
    - intros [->|[]]. auto.
  Qed.
  Lemma inv_same_block s f x y l : inv s f -> f x = Some l -> f y = Some l -> element_to_block s x = element_to_block s y.
  Proof using.
    intros I Hx Hy. apply element_to_block_eq; [apply (inv_wf s f I)|]. apply (inv_same s f x y I). right. eauto.
  Qed.

  Lemma inv_get_label s f x : inv s f -> get_label_from_element s x = f x.
  Proof using.
    intro I. assert (W := inv_wf s f I). unfold get_label_from_element, get_label_from_block.
    destruct (f x) as [l|] eqn:E.
    - apply label_get_In; [apply (wf_labels s W)|]. apply (inv_labels s f I). eauto.
    - apply label_get_none. intro H. apply in_map_iff in H as ([b l] & Eb & H). cbn in Eb. subst b.
      apply (inv_labels s f I) in H as (y & Hy & H). apply (element_to_block_eq s W) in H.
      apply (inv_same s f x y I) in H as [->|(l' & H & _)]; congruence.
  Qed.
  Lemma inv_get_block s f l b : inv s f ->
    get_block_from_label s l = Some b <-> exists x, f x = Some l /\ b = element_to_block s x.
  Proof using.
    intro I. unfold get_block_from_label. rewrite label_inv_In; [apply (inv_labels s f I)|].
    apply (wf_labels s (inv_wf s f I)).
  Qed.

  Lemma inv_ext s f g : (forall x, f x = g x) -> inv s f -> inv s g.
  Proof using.
    intros H [I1 I2 I3 I4 I5 I6]. constructor; auto.
    - intros x l. rewrite <- H. apply I3.
    - intros x y. rewrite <- !H. apply I4.
    - intros b l. rewrite I5. split; intros (x & Hx); exists x; [rewrite <- H | rewrite H]; exact Hx.
    - destruct I6 as [(J1 & J2 & J3)|J]; [left | right; exact J]. repeat split; auto. intro x. rewrite <- H. apply J3.
  Qed.

  Definition upd (f : Z -> option Z) (e l : Z) (x : Z) : option Z := if Z.eqb x e then Some l else f x.

  Lemma inv_step s f e l : inv s f ->
    match add_label_to_element s e l with
    | (s', None) => In e dom /\ (f e = None \/ f e = Some l) /\ inv s' (upd f e l)
    | (s', Some x) => s' = s /\
        ((x = UnknownElementError /\ ~ In e dom) \/
         (x = LabelContradictionError /\ In e dom /\ exists l', f e = Some l' /\ l' <> l))
    end.
  Proof using dom_nodup.
    intro I. assert (W := inv_wf s f I). unfold add_label_to_element.
    assert (Edom : element_in_domain s e = zmemb e dom) by (unfold element_in_domain; rewrite (inv_dom s f I); reflexivity).
    destruct (zmemb e dom) eqn:Hm; rewrite Edom; cbn [negb].
    2:{ apply zmemb_false in Hm. auto. }
    apply zmemb_In in Hm. fold (get_label_from_element s e). rewrite (inv_get_label s f e I).
    destruct (f e) as [l0|] eqn:Ef.
    - destruct (Z.eqb_spec l l0) as [<-|Hl]; cbn [negb].
      2:{ split; [reflexivity|]. right. eauto. }
      assert (Eb : get_block_from_label s l = Some (element_to_block s e)) by (apply (inv_get_block s f l _ I); eauto).
      rewrite Eb. unfold merge_pair. rewrite Z.eqb_refl. split; [exact Hm|]. split; [auto|].
      apply (inv_ext s f); [|exact I]. intro x. unfold upd. destruct (Z.eqb_spec x e) as [->|]; auto.
    - rewrite (inv_single s f e I Ef).
      destruct (get_block_from_label s l) as [bl|] eqn:Eb.
      + (* the label exists: merge *)
        apply (inv_get_block s f l bl I) in Eb as (x0 & Hx0 & ->). set (bl := element_to_block s x0) in *.
        assert (Hbl : forall z, In z bl <-> f z = Some l).
        { intro z. unfold bl. rewrite (element_to_block_In s W), (inv_same s f x0 z I). split.
          - intros [<-|(l' & H1 & H2)]; congruence.
          - intro H. right. exists l. auto. }
        assert (Hx0b : In x0 bl) by (apply Hbl, Hx0).
        cbn [hd]. set (h := hd 0 bl).
        assert (Hh : In h bl) by (unfold h; destruct bl; [destruct Hx0b | left; reflexivity]).
        assert (Fh : f h = Some l) by (apply Hbl, Hh).
        assert (Heh : e <> h) by (intros ->; congruence).
        assert (Ehb : element_to_block s h = bl) by (apply (inv_same_block s f h x0 l I Fh Hx0)).
        destruct (merge_pair_spec s e h W) as (s' & x & E & W' & D' & _ & He & _).
        assert (Hcanon := fun z => merge_pair_canon s e h z W). rewrite E in *. cbn [fst] in Hcanon.
        assert (Emb : exists d, merge_block_labels s e h = Ok d /\
          forall p, In p d <-> p = (zsort (e :: bl), l) \/ (In p (sp_labels s) /\ fst p <> [e] /\ fst p <> bl /\ fst p <> zsort (e :: bl))).
        { unfold merge_block_labels. rewrite (inv_single s f e I Ef), Ehb.
          assert (Hneq : [e] <> bl).
          { intro H. assert (In e bl) by (rewrite <- H; left; reflexivity). apply Hbl in H0. congruence. }
          rewrite (proj2 (zlist_eqb_neq [e] bl) Hneq). unfold get_label_from_block.
          assert (G1 := inv_get_label s f e I). unfold get_label_from_element in G1. rewrite (inv_single s f e I Ef) in G1.
          unfold get_label_from_block in G1. rewrite G1, Ef.
          assert (G2 := inv_get_label s f h I). unfold get_label_from_element, get_label_from_block in G2.
          rewrite Ehb, Fh in G2. rewrite G2. cbn [true_except bind app].
          destruct (label_put_new (label_pop (label_pop (sp_labels s) [e]) bl) (zsort (e :: bl)) l) as (d & H1 & _ & H2).
          - apply label_pop_ok, label_pop_ok, (wf_labels s W).
          - intro H. apply in_map_iff in H as ([c l'] & El & H). cbn in El. subst l'.
            apply label_pop_In in H as [H Hc]. apply label_pop_In in H as [H Hc']. cbn in *.
            apply (inv_labels s f I) in H as (z & Hz & ->). apply Hc. rewrite <- Ehb.
            apply (inv_same_block s f z h l I Hz Fh).
          - exists d. split; [exact H1|]. intro p. rewrite H2, !label_pop_In. tauto. }
        destruct Emb as (d & Ed & Hd).
        destruct x as [x|].
        { exfalso. destruct He as (_ & _ & [[-> [H|H]]|[-> H]]).
          - rewrite Edom in H. discriminate.
          - unfold element_in_domain in H. rewrite (inv_dom s f I) in H. apply zmemb_false in H. apply H.
            apply (inv_f s f I h l Fh).
          - destruct H as [H _]. congruence. }
        split; [exact Hm|]. split; [auto|].
        assert (Ls : sp_labels s' = d).
        { assert (H := merge_pair_labels s e h s' W Heh E). congruence. }
        assert (Hsame : forall x y, same (sp_blocks s') x y <->
                  x = y \/ exists l', upd f e l x = Some l' /\ upd f e l y = Some l').
        { intros x y. rewrite He. unfold joined. rewrite !(inv_same s f _ _ I). unfold upd.
          destruct (Z.eqb_spec x e) as [->|Hx], (Z.eqb_spec y e) as [->|Hy].
          - split; [|auto]. intros _. left. reflexivity.
          - split.
            + intros [[->|(l1 & H1 & _)]|[[_ [<-|(l1 & H1 & H2)]]|[[H1|(l1 & H1 & _)] _]]]; first [congruence | right; exists l; split; congruence].
            + intros [->|(l1 & [= <-] & H2)]; [congruence|]. right. left. split; [auto|]. right. exists l. auto.
          - split.
            + intros [[->|(l1 & _ & H1)]|[[_ [H1|(l1 & _ & H1)]]|[[->|(l1 & H1 & H2)] _]]]; first [congruence | right; exists l; split; congruence].
            + intros [->|(l1 & H2 & [= <-])]; [congruence|]. right. right. split; [|auto]. right. exists l. auto.
          - split.
            + intros [H|[[[H|(l1 & _ & H)] _]|[_ [H|(l1 & H & _)]]]]; first [exact H | congruence].
            + intro H. left. exact H. }
        assert (Hmerged : forall x, upd f e l x = Some l -> element_to_block s' x = zsort (e :: bl)).
        { intros x Hx. apply zsorted_ext; [apply element_to_block_sorted, W'| |].
          - apply zsort_sorted. constructor; [rewrite Hbl; congruence|].
            apply zsorted_NoDup. apply element_to_block_sorted, W.
          - intro z. rewrite (element_to_block_In s' W'), Hsame, zsort_In. cbn [In]. rewrite Hbl. split.
            + intros [<-|(l1 & H1 & H2)].
              * unfold upd in Hx. destruct (Z.eqb_spec x e); auto.
              * unfold upd in *. destruct (Z.eqb_spec z e); [auto|]. right. congruence.
            + intro H. right. exists l. split; [exact Hx|]. unfold upd. destruct (Z.eqb_spec z e); [reflexivity|].
              destruct H; congruence. }
        assert (Hother : forall x l', upd f e l x = Some l' -> l' <> l ->
                   f x = Some l' /\ element_to_block s' x = element_to_block s x).
        { intros x l' Hx Hl. unfold upd in Hx. destruct (Z.eqb_spec x e); [congruence|].
          split; [exact Hx|].
          apply zsorted_ext; [apply element_to_block_sorted, W' | apply element_to_block_sorted, W|].
          intro z. rewrite (element_to_block_In s' W'), (element_to_block_In s W), Hsame, (inv_same s f x z I).
          unfold upd. destruct (Z.eqb_spec x e); [contradiction|]. destruct (Z.eqb_spec z e) as [->|]; [|reflexivity].
          split; intros [H|(l1 & H1 & H2)]; try congruence; left; exact H. }
        assert (Hmb : zsort (e :: bl) <> [e] /\ zsort (e :: bl) <> bl).
        { split; intro H.
          - assert (H1 := f_equal (@length Z) H). rewrite zsort_length in H1. cbn in H1.
            destruct bl; [destruct Hh | cbn in H1; lia].
          - assert (H1 := f_equal (@length Z) H). rewrite zsort_length in H1. cbn in H1. lia. }
        constructor.
        * exact W'.
        * rewrite D'. apply (inv_dom s f I).
        * intros x l'. unfold upd. destruct (Z.eqb_spec x e) as [->|]; [auto | apply (inv_f s f I)].
        * intros x y Hxy. specialize (Hsame x y). unfold same in Hsame. intuition congruence.
        * intros b l'. rewrite Ls, Hd. cbn [fst]. split.
          -- intros [[= -> ->]|(H1 & H2 & H3 & H4)].
             ++ exists e. assert (Hu : upd f e l e = Some l) by (unfold upd; rewrite Z.eqb_refl; reflexivity).
                split; [exact Hu | symmetry; apply Hmerged, Hu].
             ++ apply (inv_labels s f I) in H1 as (x & Hx & ->).
                assert (Hxe : x <> e) by congruence.
                assert (Hu : upd f e l x = Some l') by (unfold upd; destruct (Z.eqb_spec x e); [contradiction | exact Hx]).
                assert (Hl : l' <> l).
                { intros ->. apply H3. rewrite <- Ehb. apply (inv_same_block s f x h l I Hx Fh). }
                exists x. split; [exact Hu|]. symmetry. apply (Hother x l' Hu Hl).
          -- intros (x & Hx & ->). destruct (Z.eq_dec l' l) as [->|Hl].
             ++ left. rewrite (Hmerged x Hx). reflexivity.
             ++ right. destruct (Hother x l' Hx Hl) as [Fx ->]. split; [apply (inv_labels s f I); eauto|].
                assert (Hin : forall z, In z (element_to_block s x) -> f z = Some l').
                { intros z Hz. apply (element_to_block_In s W), (inv_same s f x z I) in Hz as [<-|(l1 & H1 & H2)]; congruence. }
                repeat split; intro Hb.
                ** assert (H := Hin e ltac:(rewrite Hb; left; reflexivity)). congruence.
                ** assert (H := Hin h ltac:(rewrite Hb; exact Hh)). congruence.
                ** assert (H := Hin e ltac:(rewrite Hb; apply zsort_In; left; reflexivity)). congruence.
        * right. intros x Hx. apply Hcanon. destruct (inv_canon s f I) as [(_ & _ & Hb)|H]; [|apply H, Hx].
          specialize (Hb h). congruence.
      + (* a new label *)
        unfold add_label_to_block.
        assert (HR : exists s1 c, read_canonical s = (s1, Ok c) /\ same_core s s1 /\ In [e] c /\
                  forall x, In x dom -> canon_has s1 x).
        { unfold read_canonical. destruct (inv_canon s f I) as [(Hc & Hb & _)|Hc].
          - rewrite Hc. destruct (blocks_with_singletons s BwsNone) as [c|x] eqn:Ec.
            + assert (Hin : forall x, In x dom -> In [x] c).
              { intros x Hx. apply (blocks_with_singletons_spec s BwsNone c W Ec). right. exists x.
                split; [reflexivity|]. cbn [bws_elements]. rewrite (inv_dom s f I), Hb. auto. }
              eexists _, c. split; [reflexivity|]. split; [apply set_caches_core|]. split; [apply Hin, Hm|].
              intros x Hx. exists c. cbn. auto.
            + exfalso. unfold blocks_with_singletons in Ec. rewrite (inv_dom s f I) in Ec. discriminate.
          - destruct (Hc e Hm) as (c & E & Hin). rewrite E. exists s, c. split; [reflexivity|].
            split; [apply same_core_refl|]. auto. }
        destruct HR as (s1 & c & -> & C & Hin & Hcan). apply block_memb_In in Hin. rewrite Hin. cbn [negb].
        destruct C as (C1 & C2 & C3 & C4 & C5). rewrite C5.
        assert (G1 := inv_get_label s f e I). unfold get_label_from_element in G1. rewrite (inv_single s f e I Ef) in G1.
        unfold get_label_from_block in G1. rewrite G1, Ef.
        assert (Hnew : ~ In l (map snd (sp_labels s))) by (apply label_inv_none, Eb).
        destruct (label_put_new (sp_labels s) [e] l (wf_labels s W) Hnew) as (d & Ed & Hok & Hd). rewrite Ed.
        split; [exact Hm|]. split; [auto|].
        assert (Hno : forall x, f x <> Some l).
        { intros x Hx. apply Hnew. apply in_map_iff. exists (element_to_block s x, l). split; [reflexivity|].
          apply (inv_labels s f I). eauto. }
        set (s' := set_labels s1 d).
        assert (Hblk : forall x, element_to_block s' x = element_to_block s x).
        { intro x. unfold element_to_block, s'. cbn. rewrite C2, C3. reflexivity. }
        constructor.
        * destruct W as [W1 W2 W3 W4 W5]. constructor; unfold s'; cbn [set_labels sp_blocks sp_index sp_labels sp_domain].
          -- rewrite C2. exact W1.
          -- rewrite C2, C3. exact W2.
          -- unfold length_ok in *. cbn. rewrite C1, C2, C4. exact W3.
          -- exact Hok.
          -- rewrite C1. exact W5.
        * unfold s'. cbn. rewrite C1. apply (inv_dom s f I).
        * intros x l'. unfold upd. destruct (Z.eqb_spec x e) as [->|]; [auto | apply (inv_f s f I)].
        * intros x y Hxy. unfold s'. cbn [set_labels sp_blocks]. rewrite C2, (inv_blocks s f I x y Hxy). unfold upd.
          split; intros (l' & H1 & H2); exists l'.
          -- split; destruct (Z.eqb_spec x e), (Z.eqb_spec y e); congruence.
          -- assert (N1 := Hno x). assert (N2 := Hno y).
             destruct (Z.eqb_spec x e) as [->|], (Z.eqb_spec y e) as [->|]; split; congruence.
        * intros b l'. unfold s' at 1. cbn [set_labels sp_labels]. rewrite Hd. cbn [fst]. split.
          -- intros [[= -> ->]|[H1 H2]].
             ++ exists e. unfold upd. rewrite Z.eqb_refl, Hblk, (inv_single s f e I Ef). auto.
             ++ apply (inv_labels s f I) in H1 as (x & Hx & ->). exists x. rewrite Hblk. split; [|reflexivity].
                unfold upd. destruct (Z.eqb_spec x e); [congruence | exact Hx].
          -- intros (x & Hx & ->). rewrite Hblk. unfold upd in Hx. destruct (Z.eqb_spec x e) as [Hxe|Hxe]; [subst x|].
             ++ left. rewrite (inv_single s f e I Ef). congruence.
             ++ right. split; [apply (inv_labels s f I); eauto|]. intro H.
                assert (Hex : In e (element_to_block s x)) by (rewrite H; left; reflexivity).
                apply (element_to_block_In s W), (inv_same s f x e I) in Hex as [->|(l1 & _ & H1)]; congruence.
        * right. exact Hcan.
  Qed.

  Lemma inv_start s0 : SetPart (Some []) (DomSet dom) = Ok s0 -> inv s0 (fun _ => None).
  Proof using dom_nodup.
    intro E. destruct (trivial_wf (DomSet dom)) as (s & E' & W & D & L & B & C). rewrite E in E'. injection E' as <-.
    cbn [norm_dom] in D. rewrite (znodup_id dom dom_nodup) in D.
    constructor; auto.
    - discriminate.
    - intros x y _. rewrite B. split; [intros (b & [] & _) | intros (l & H & _); discriminate].
    - intros b l. rewrite L. split; [intros [] | intros (x & H & _); discriminate].
    - left. rewrite C. auto.
  Qed.

  Definition label_step (s : setpart) (c : Z * Z) : setpart := fst (add_label_to_element s (fst c) (snd c)).

  (** the label of the first call with this element, for elements of the domain *)
  Definition dom_label (calls : list (Z * Z)) (x : Z) : option Z :=
    if zmemb x dom then first_label calls x else None.

  Lemma first_label_snoc calls e l x : first_label (calls ++ [(e, l)]) x =
    match first_label calls x with Some l' => Some l' | None => if Z.eqb e x then Some l else None end.
  Proof using.
    unfold first_label. induction calls as [|[e' l'] calls IH]; cbn [app find fst snd].
    - destruct (Z.eqb e x); reflexivity.
    - destruct (Z.eqb e' x); [reflexivity | exact IH].
  Qed.

  Lemma inv_run s0 calls : SetPart (Some []) (DomSet dom) = Ok s0 ->
    inv (fold_left label_step calls s0) (dom_label calls).
  Proof using dom_nodup.
    intro E. induction calls as [|[e l] calls IH] using rev_ind.
    - apply (inv_ext _ (fun _ => None)); [|apply inv_start, E]. intro x. unfold dom_label. destruct (zmemb x dom); reflexivity.
    - rewrite fold_left_app. cbn [fold_left]. unfold label_step at 1. cbn [fst snd].
      assert (H := inv_step _ _ e l IH).
      destruct (add_label_to_element (fold_left label_step calls s0) e l) as [s' [x|]]; cbn [fst].
      + destruct H as [-> H]. apply (inv_ext _ (dom_label calls)); [|exact IH].
        intro z. unfold dom_label. destruct (zmemb z dom) eqn:Ez; [|reflexivity]. rewrite first_label_snoc.
        destruct (first_label calls z) eqn:Ef; [reflexivity|]. destruct (Z.eqb_spec e z) as [->|]; [|reflexivity].
        exfalso. apply zmemb_In in Ez as Ez'. destruct H as [[_ H]|(_ & _ & l' & H & _)]; [contradiction|].
        unfold dom_label in H. rewrite Ez, Ef in H. discriminate.
      + destruct H as (Hin & Hl & I). apply (inv_ext _ (upd (dom_label calls) e l)); [|exact I].
        intro z. unfold upd, dom_label in *. apply zmemb_In in Hin as Hin'.
        destruct (Z.eqb_spec z e) as [->|Hz].
        * rewrite Hin' in *. rewrite first_label_snoc, Z.eqb_refl. destruct Hl as [-> | ->]; reflexivity.
        * destruct (zmemb z dom); [|reflexivity]. rewrite first_label_snoc.
          destruct (first_label calls z); [reflexivity|]. destruct (Z.eqb_spec e z); [congruence | reflexivity].
  Qed.
End Labels.

(** * inventory_partition *)

Lemma inventory_items_spec keys items : NoDup keys -> NoDup (map fst items) ->
  (forall e, In e (map fst items) -> In e keys) ->
  exists s, inventory_partition_items keys items = Ok s /\ inv keys s (first_label items).
Proof.
  intros Hk Hn Hin. unfold inventory_partition_items.
  destruct (trivial_wf (DomSet keys)) as (s0 & E0 & _). rewrite E0. cbn [bind].
  assert (G : forall items s f, inv keys s f -> NoDup (map fst items) ->
    (forall e, In e (map fst items) -> In e keys) -> (forall e, In e (map fst items) -> f e = None) ->
    exists s', iterate (fun s kv => add_label_to_element s (fst kv) (snd kv)) items s = (s', None) /\
      inv keys s' (fun x => match first_label items x with Some l => Some l | None => f x end)).
  { clear - Hk. induction items as [|[e l] items IH]; intros s f I Hn Hin Hf; cbn [iterate fst snd].
    - exists s. split; [reflexivity|]. exact I.
    - cbn [map fst] in *. inversion Hn as [|? ? He Hn']; subst.
      assert (H := inv_step keys Hk s f e l I).
      destruct (add_label_to_element s e l) as [s' [x|]].
      + exfalso. destruct H as [_ [[_ H]|(_ & _ & l' & H & _)]].
        * apply H, Hin. left. reflexivity.
        * rewrite Hf in H by (left; reflexivity). discriminate.
      + destruct H as (_ & _ & I'). destruct (IH s' (upd f e l) I' Hn') as (s2 & E2 & I2).
        * intros z Hz. apply Hin. right. exact Hz.
        * intros z Hz. unfold upd. destruct (Z.eqb_spec z e) as [->|]; [contradiction|]. apply Hf. right. exact Hz.
        * exists s2. split; [exact E2|]. refine (inv_ext keys s2 _ _ _ I2).
          intro x. unfold first_label at 2. cbn [find fst snd]. fold (first_label items x). unfold upd.
          destruct (Z.eqb_spec e x) as [->|Hx].
          -- rewrite Z.eqb_refl. cbn [snd]. destruct (first_label items x) as [l'|] eqn:Ef; [|reflexivity]. exfalso.
             unfold first_label in Ef. destruct (find (fun c => Z.eqb (fst c) x) items) as [c|] eqn:Efi; [|discriminate].
             apply find_some in Efi as [H1 H2]. apply Z.eqb_eq in H2. apply He. rewrite <- H2. apply in_map, H1.
          -- destruct (Z.eqb_spec x e); [congruence|]. unfold first_label. reflexivity. }
  destruct (G items s0 (fun _ => None) (inv_start keys Hk s0 E0) Hn Hin (fun _ _ => eq_refl)) as (s' & E & I).
  rewrite E. exists s'. split; [reflexivity|]. refine (inv_ext keys s' _ _ _ I).
  intro x. destruct (first_label items x); reflexivity.
Qed.

Lemma find_combine_zrange arg a i : (forall k, 0 <= k < a -> True) ->
  first_label (combine (map (fun k => a + Z.of_nat k) (seq 0 (length arg))) arg) (a + Z.of_nat i) = nth_error arg i.
Proof.
  intros _. unfold first_label.
  assert (G : forall (arg : list Z) k i,
    match find (fun c => Z.eqb (fst c) (a + Z.of_nat (k + i))) (combine (map (fun k => a + Z.of_nat k) (seq k (length arg))) arg) with
    | Some c => Some (snd c) | None => None end = nth_error arg i).
  { clear. induction arg as [|v arg IH]; intros k i; cbn [length seq map combine find nth_error].
    - destruct i; reflexivity.
    - cbn [fst snd]. destruct (Z.eqb_spec (a + Z.of_nat k) (a + Z.of_nat (k + i))) as [E|E].
      + assert (i = 0%nat) by lia. subst. reflexivity.
      + destruct i as [|i]; [lia|]. replace (k + S i)%nat with (S k + i)%nat by lia. apply IH. }
  apply (G arg 0%nat i).
Qed.

Lemma combine_fst {A B} (a : list A) (b : list B) : length a = length b -> map fst (combine a b) = a.
Proof. revert b; induction a as [|x a IH]; intros [|y b] H; cbn in *; try congruence. rewrite IH; auto. Qed.

Lemma inventory_partition_spec arg :
  exists s, inventory_partition arg = Ok s /\ inv (zrange 0 (Z.of_nat (length arg))) s
    (fun x => if Z.leb 0 x then nth_error arg (Z.to_nat x) else None).
Proof.
  unfold inventory_partition. set (n := length arg).
  assert (Hl : length (zrange 0 (Z.of_nat n)) = length arg) by (rewrite zrange_length; unfold n; lia).
  destruct (inventory_items_spec (zrange 0 (Z.of_nat n)) (combine (zrange 0 (Z.of_nat n)) arg)) as (s & E & I).
  - apply zrange_NoDup.
  - rewrite combine_fst by exact Hl. apply zrange_NoDup.
  - rewrite combine_fst by exact Hl. auto.
  - exists s. split; [exact E|]. refine (inv_ext _ s _ _ _ I). clear I. intro x.
    destruct (Z.leb_spec 0 x) as [Hx|Hx].
    + assert (H := find_combine_zrange arg 0 (Z.to_nat x) (fun _ _ => I)). unfold zrange, n.
      replace (Z.to_nat (Z.of_nat (length arg) - 0)) with (length arg) by lia.
      replace (0 + Z.of_nat (Z.to_nat x)) with x in H by lia. exact H.
    + unfold first_label. destruct (find _ _) as [c|] eqn:Ef; [|reflexivity]. exfalso.
      apply find_some in Ef as [H1 H2]. apply Z.eqb_eq in H2.
      assert (H3 : In (fst c) (map fst (combine (zrange 0 (Z.of_nat n)) arg))) by (apply in_map, H1).
      rewrite combine_fst in H3 by exact Hl. apply zrange_In in H3. lia.
Qed.

Lemma inventory_partition_dict_spec items : NoDup (map fst items) ->
  exists s, inventory_partition_dict items = Ok s /\ inv (zsort (map fst items)) s (first_label items).
Proof.
  intro Hn. apply inventory_items_spec; [|exact Hn|].
  - eapply Permutation_NoDup; [apply zsort_perm | exact Hn].
  - intros e He. apply zsort_In, He.
Qed.

Lemma first_label_dict items x v : NoDup (map fst items) -> first_label items x = Some v <-> In (x, v) items.
Proof.
  unfold first_label. induction items as [|[k w] items IH]; cbn [map fst find In]; intro Hn; [split; [discriminate | intros []]|].
  inversion Hn as [|? ? H1 H2]; subst. destruct (Z.eqb_spec k x) as [->|Hk]; cbn [snd].
  - split; [intros [= ->]; auto|]. intros [[= ->]|H]; [reflexivity|]. exfalso. apply H1, in_map_iff. exists (x, v). auto.
  - rewrite (IH H2). split; [auto|]. intros [[= -> ->]|H]; [congruence | exact H].
Qed.

(** * refine_block *)

Lemma refine_raw s new_blocks : sp_wf s -> In (zsort (concat new_blocks)) (sp_blocks s) ->
  let raw := block_remove (zsort (concat new_blocks)) (sp_blocks s) ++ new_blocks in
  NoDup (concat raw) /\
  forall x y, together raw x y <->
    together new_blocks x y \/ (together (sp_blocks s) x y /\ ~ In x (concat new_blocks)).
Proof.
  intros W Hin raw. set (old := zsort (concat new_blocks)) in *.
  assert (P := block_remove_perm old _ Hin). set (rest := block_remove old (sp_blocks s)) in *.
  assert (Hn := wf_nodup s W).
  assert (Hn' : NoDup (concat (old :: rest))) by (eapply Permutation_NoDup; [apply concat_perm, P | exact Hn]).
  assert (Hold : forall z, In z old <-> In z (concat new_blocks)) by (intro z; apply zsort_In).
  split.
  - unfold raw. rewrite concat_app. eapply Permutation_NoDup; [|exact Hn']. cbn [concat].
    etransitivity; [apply Permutation_app_comm|]. apply Permutation_app_head. symmetry. apply zsort_perm.
  - intros x y. unfold raw. split.
    + intros (b & Hb & Hx & Hy). apply in_app_iff in Hb as [Hb|Hb]; [right | left; exists b; auto].
      split.
      * apply (together_perm _ _ x y P). exists b. split; [right; exact Hb | auto].
      * rewrite <- Hold. intro H. cbn [concat] in Hn'.
        apply (NoDup_app_disj _ _ x Hn' H). apply in_concat. eauto.
    + intros [(b & Hb & Hx & Hy)|[H Hx]].
      * exists b. split; [apply in_app_iff; auto | auto].
      * apply (together_perm _ _ x y P) in H as (b & [<-|Hb] & Hx' & Hy).
        -- exfalso. apply Hx, Hold, Hx'.
        -- exists b. split; [apply in_app_iff; auto | auto].
Qed.

Lemma iterate_put_core bl s s' e :
  iterate (fun s bl => match label_put (sp_labels s) (fst bl) (snd bl) with
                       | Ok d => (set_labels s d, None) | Err e => (s, Some e) end) bl s = (s', e) ->
  labels_ok (sp_labels s) ->
  sp_domain s' = sp_domain s /\ sp_blocks s' = sp_blocks s /\ sp_index s' = sp_index s /\
  sp_length s' = sp_length s /\ sp_caches s' = sp_caches s /\ labels_ok (sp_labels s').
Proof.
  revert s; induction bl as [|[b l] bl IH]; intros s E Hl; cbn [iterate fst snd] in E.
  - injection E as <- <-. auto 6.
  - destruct (label_put (sp_labels s) b l) as [d|x] eqn:Ep.
    + destruct (IH _ E) as (H1 & H2 & H3 & H4 & H5 & H6); [cbn; eapply label_put_ok; eassumption|]. cbn in *. auto 6.
    + injection E as <- <-. auto 6.
Qed.

Lemma refine_block_spec s new_blocks new_labels s' : sp_wf s ->
  refine_block s new_blocks new_labels = (s', None) ->
  In (zsort (concat new_blocks)) (sp_blocks s) /\ sp_wf s' /\ sp_domain s' = sp_domain s /\
  forall x y, x <> y -> together (sp_blocks s') x y <->
    together new_blocks x y \/ (together (sp_blocks s) x y /\ ~ In x (concat new_blocks)).
Proof.
  intros W E. unfold refine_block in E. destruct (negb _) eqn:E1 in E; [discriminate|]. clear E1.
  destruct (block_memb (zsort (concat new_blocks)) (sp_blocks s)) eqn:Hb; cbn [negb] in E; [|discriminate].
  apply block_memb_In in Hb. destruct (refine_raw s new_blocks W Hb) as [Hn Ht].
  set (raw := block_remove (zsort (concat new_blocks)) (sp_blocks s) ++ new_blocks) in *.
  set (s1 := mkSP (sp_domain s) raw (sp_index s) (sp_length s) (label_pop (sp_labels s) (zsort (concat new_blocks))) (sp_caches s)) in *.
  assert (Hl1 : labels_ok (sp_labels s1)) by (apply label_pop_ok, W).
  assert (G : forall s2, sp_domain s2 = sp_domain s -> sp_blocks s2 = raw -> labels_ok (sp_labels s2) ->
     reinit s2 (sp_blocks s2) (sp_labels s2) (sp_caches s2) = (s', None) ->
     sp_wf s' /\ sp_domain s' = sp_domain s /\ forall x y, x <> y -> together (sp_blocks s') x y <-> together raw x y).
  { intros s2 D B L R. destruct (reinit_spec s2 (sp_blocks s2) (sp_labels s2) (sp_caches s2)) as (s3 & E3 & W3 & D3 & _ & _ & T3).
    - rewrite D. apply W.
    - rewrite B. apply NoDup_no_overlap, Hn.
    - exact L.
    - rewrite R in E3. injection E3 as <-. split; [exact W3|]. split; [congruence|].
      intros x y Hxy. specialize (T3 x y). rewrite B in T3. unfold same in T3. intuition congruence. }
  split; [exact Hb|].
  assert (Done : sp_wf s' /\ sp_domain s' = sp_domain s /\ forall x y, x <> y -> together (sp_blocks s') x y <-> together raw x y).
  { destruct new_labels as [ls|].
    - destruct (negb _) in E; [discriminate|].
      destruct (iterate _ (combine new_blocks ls) s1) as [s2 [e|]] eqn:Ei; [discriminate|].
      destruct (iterate_put_core _ _ _ _ Ei Hl1) as (H1 & H2 & _ & _ & _ & H6).
      apply (G s2); auto.
    - apply (G s1); auto. }
  destruct Done as (W' & D' & T'). split; [exact W'|]. split; [exact D'|].
  intros x y Hxy. rewrite (T' x y Hxy). apply Ht.
Qed.

Lemma refine_block_accept s new_blocks : sp_wf s -> In (zsort (concat new_blocks)) (sp_blocks s) ->
  exists s', refine_block s new_blocks None = (s', None).
Proof.
  intros W Hb. unfold refine_block. rewrite sum_length_concat, zsort_length, Nat.eqb_refl. cbn [negb].
  rewrite (proj2 (block_memb_In _ _) Hb). cbn [negb].
  set (s1 := mkSP _ _ _ _ _ _).
  destruct (reinit_spec s1 (sp_blocks s1) (sp_labels s1) (sp_caches s1)) as (s3 & E3 & _).
  - apply W.
  - apply NoDup_no_overlap, (refine_raw s new_blocks W Hb).
  - apply label_pop_ok, W.
  - exists s3. exact E3.
Qed.

Lemma refine_block_reject s new_blocks new_labels : sp_wf s ->
  ~ In (zsort (concat new_blocks)) (sp_blocks s) ->
  refine_block s new_blocks new_labels = (s, Some ArgValueError).
Proof.
  intros W Hb. unfold refine_block. rewrite sum_length_concat, zsort_length, Nat.eqb_refl. cbn [negb].
  destruct (block_memb (zsort (concat new_blocks)) (sp_blocks s)) eqn:E; [|reflexivity].
  apply block_memb_In in E. contradiction.
Qed.

(** when do parts add up to a block *)
Lemma refine_cond s new_blocks : sp_wf s ->
  In (zsort (concat new_blocks)) (sp_blocks s) <->
  exists b, In b (sp_blocks s) /\ Permutation (concat new_blocks) b.
Proof.
  intro W. split.
  - intro H. exists (zsort (concat new_blocks)). split; [exact H | apply zsort_perm].
  - intros (b & Hb & P). replace (zsort (concat new_blocks)) with b; [exact Hb|].
    assert (Hs : StronglySorted Z.lt b) by (apply (wf_canonical s W), Hb).
    apply zsorted_perm_eq; [exact Hs| |].
    + apply zsort_sorted. eapply Permutation_NoDup; [symmetry; exact P | apply zsorted_NoDup, Hs].
    + etransitivity; [symmetry; exact P | apply zsort_perm].
Qed.
