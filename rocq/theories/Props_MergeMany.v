(** C130: merge_many for partitions with labels *)

From Coq Require Import List Arith ZArith Bool Lia Permutation Relations Sorting.
From Verif Require Import Model_Base Lib Model_SetPart Spec_SetPart Proof_SetPart Proof_SetPartMerge Proof_SetPartMore Proof_SetPartLabels Proof_SetPartObj Proof_Domain Props_Labels.
Import ListNotations.
Local Open Scope Z_scope.

(** the element x is in a block with the label l *)
Definition labelled (s : setpart) (x l : Z) : Prop := exists block, In (block, l) (sp_labels s) /\ In x block /\
  forall y, In y block <-> same (sp_blocks s) x y.

(** every label is that of a block (a singleton is a block) *)
Definition labels_live (s : setpart) : Prop := forall block l, In (block, l) (sp_labels s) -> exists x, block = element_to_block s x.

Definition lab (s : setpart) (x l : Z) : Prop := In (element_to_block s x, l) (sp_labels s).

Lemma lab_spec s x l : sp_wf s -> labels_live s -> labelled s x l <-> lab s x l.
Proof.
  intros W V. split.
  - intros (c & Hc & Hx & _). destruct (V c l Hc) as (z & ->). apply (element_to_block_In s W) in Hx.
    apply (element_to_block_eq s W) in Hx. unfold lab. rewrite <- Hx. exact Hc.
  - intro H. exists (element_to_block s x). split; [exact H|]. split; [apply (element_to_block_In s W); left; reflexivity|].
    intro y. apply (element_to_block_In s W).
Qed.

Lemma lab_same s x y l : sp_wf s -> same (sp_blocks s) x y -> lab s x l -> lab s y l.
Proof. intros W E. apply (element_to_block_eq s W) in E. unfold lab. rewrite E. auto. Qed.

Lemma lab_fun s x k l : sp_wf s -> lab s x k -> lab s x l -> k = l.
Proof. intros W H K. assert (L := wf_labels s W). apply (label_get_In _ _ _ (proj1 L)) in H, K. congruence. Qed.

Lemma lab_inj s x y l : sp_wf s -> lab s x l -> lab s y l -> same (sp_blocks s) x y.
Proof.
  intros W H K. assert (L := wf_labels s W). apply (label_inv_In _ _ _ (proj2 L)) in H, K.
  apply (element_to_block_eq s W). congruence.
Qed.

(** the blocks after the step are unions of those before, and have their labels *)
Definition carried (s s' : setpart) : Prop :=
  (forall x y, same (sp_blocks s) x y -> same (sp_blocks s') x y) /\
  forall x l, lab s' x l <-> exists y, same (sp_blocks s') x y /\ lab s y l.

Lemma carried_refl s : sp_wf s -> carried s s.
Proof.
  intro W. split; [auto|]. intros x l. split.
  - intro H. exists x. split; [left; reflexivity | exact H].
  - intros (y & E & H). exact (lab_same s y x l W (same_sym _ _ _ E) H).
Qed.

Lemma carried_trans s t u : sp_wf u -> carried s t -> carried t u -> carried s u.
Proof.
  intros W [A1 A2] [B1 B2]. assert (N := wf_nodup u W). split; [auto|]. intros x l. rewrite B2. split.
  - intros (y & E & H). apply A2 in H as (z & F & H). exists z. split; [apply (same_trans _ _ y); auto | exact H].
  - intros (y & E & H). exists y. split; [exact E|]. apply A2. exists y. split; [left; reflexivity | exact H].
Qed.

Lemma pair_step s a b : is_SetPart s -> labels_live s -> in_dom (sp_domain s) a -> in_dom (sp_domain s) b ->
  exists s' e, merge_pair s a b = (s', e) /\
  match e with
  | None => is_SetPart s' /\ labels_live s' /\ sp_domain s' = sp_domain s /\ carried s s' /\ same (sp_blocks s') a b /\
            forall x y, same (sp_blocks s') x y <-> joined (same (sp_blocks s)) a b x y
  | Some e => s' = s /\ e = LabelContradictionError /\ ~ same (sp_blocks s) a b /\ exists k l, lab s a k /\ lab s b l
  end.
Proof.
  intros H V Da Db. assert (W := is_SetPart_wf s H). assert (N := wf_nodup s W).
  assert (TR := fun p q r => same_trans (sp_blocks s) p q r N). assert (SY := same_sym (sp_blocks s)).
  assert (Dec : same (sp_blocks s) a b \/ ~ same (sp_blocks s) a b).
  { destruct (in_dec Z.eq_dec b (element_to_block s a)) as [I|I]; rewrite (element_to_block_In s W) in I; auto. }
  destruct Dec as [E|E].
  - exists s, None. split; [apply C126_merge_same; assumption|]. split; [exact H|]. split; [exact V|]. split; [reflexivity|].
    split; [apply carried_refl, W|]. split; [exact E|]. intros x y. unfold joined. split; [auto|].
    intros [F|[(F & G)|(F & G)]]; [exact F | eauto | eauto].
  - destruct (C126_merge s a b H Da Db E) as (C1 & C2). cbn zeta in C1, C2.
    assert (LD : forall x, (exists l, lab s x l) \/ (forall l, ~ lab s x l)).
    { intro x. unfold lab. assert (L := wf_labels s W). destruct (label_get (sp_labels s) (element_to_block s x)) as [l|] eqn:G.
      - left. exists l. apply (label_get_In _ _ _ (proj1 L)), G.
      - right. intros l F. apply (label_get_In _ _ _ (proj1 L)) in F. congruence. }
    destruct (LD a) as [(k & Hk)|Ha], (LD b) as [(l & Hl)|Hb].
    { exists s, (Some LabelContradictionError). split; [exact (C1 k l Hk Hl)|]. repeat split; eauto. }
    all: destruct C2 as (s' & E' & D & T & L); [tauto|]; exists s', None; split; [exact E'|].
    all: assert (H' : is_SetPart s') by (assert (X := obj_core s (MergePair a b) H); cbn [sp_step] in X; rewrite E' in X; exact X).
    all: assert (W' := is_SetPart_wf s' H'); assert (N' := wf_nodup s' W').
    all: assert (J : forall x y, same (sp_blocks s') x y <-> joined (same (sp_blocks s)) a b x y) by (intros x y; rewrite T; apply generated_pair, N).
    all: assert (Sab : same (sp_blocks s') a b) by (apply J; right; left; split; left; reflexivity).
    all: assert (Keep : forall z, element_to_block s z <> element_to_block s a -> element_to_block s z <> element_to_block s b ->
           element_to_block s' z = element_to_block s z /\ element_to_block s' z <> element_to_block s' a);
      [intros z Za Zb; rewrite (element_to_block_eq s W) in Za, Zb; split;
        [apply zsorted_ext; [apply (element_to_block_sorted s' W') | apply (element_to_block_sorted s W)|];
         intro w; rewrite (element_to_block_In s W), (element_to_block_In s' W'), J; unfold joined; split;
         [intros [F|[(F & G)|(F & G)]]; [exact F | exfalso; apply Za; eauto | exfalso; apply Zb; eauto] | auto]
        |rewrite (element_to_block_eq s' W'), J; unfold joined; intros [F|[(F & G)|(F & G)]]; [apply Za | apply Za | apply Zb]; eauto]|].
    all: assert (Up : forall x y, same (sp_blocks s) x y -> same (sp_blocks s') x y) by (intros x y F; apply J; left; exact F).
    all: split; [exact H'|]; split; [|split; [exact D|split; [split; [exact Up|]|split; [exact Sab | exact J]]]];
      [intros c l0 Hc; apply L in Hc; destruct Hc as [(-> & _)|(F1 & F2 & F3 & _)];
        [exists a; reflexivity | destruct (V c l0 F1) as (z & ->); exists z; symmetry; apply Keep; assumption]|].
    all: intros x l0; unfold lab at 1; rewrite L; split;
      [intros [(F & [G|G])|(F1 & F2 & F3 & _)];
        [exists a; split; [apply (element_to_block_eq s' W'), F | exact G]
        |exists b; split; [apply (same_trans _ _ a _ N'); [apply (element_to_block_eq s' W'), F | exact Sab] | exact G]
        |destruct (V _ _ F1) as (z & Z1); exists z; split;
          [apply (element_to_block_In s' W'); rewrite Z1; apply (element_to_block_In s W); left; reflexivity | unfold lab; rewrite <- Z1; exact F1]]
      |intros (y & F & G)].
    all: rewrite (proj2 (element_to_block_eq s' W' x y) F).
    all: destruct (list_eq_dec Z.eq_dec (element_to_block s y) (element_to_block s a)) as [Ya|Ya];
      [left; split; [apply (element_to_block_eq s' W'), Up, (element_to_block_eq s W), Ya | left; unfold lab in G; rewrite Ya in G; exact G]|].
    all: destruct (list_eq_dec Z.eq_dec (element_to_block s y) (element_to_block s b)) as [Yb|Yb];
      [left; split; [apply (element_to_block_eq s' W'), (same_trans _ _ b _ N'); [apply Up, (element_to_block_eq s W), Yb | apply same_sym, Sab] | right; unfold lab in G; rewrite Yb in G; exact G]|].
    all: right; destruct (Keep y Ya Yb) as (K1 & K2); split; [rewrite K1; exact G|]; split; [rewrite K1; exact Ya|]; split; [rewrite K1; exact Yb | contradiction].
Qed.

(** the relation that merging the elements of [many] can at most make *)
Definition bound (s : setpart) (many : list Z) (x y : Z) : Prop :=
  same (sp_blocks s) x y \/ exists u v, In u many /\ In v many /\ same (sp_blocks s) x u /\ same (sp_blocks s) v y.

Lemma bound_trans s many x y z : sp_wf s -> bound s many x y -> bound s many y z -> bound s many x z.
Proof.
  intros W. assert (N := wf_nodup s W). assert (TR := fun p q r => same_trans (sp_blocks s) p q r N).
  intros [E|(u & v & Hu & Hv & E1 & E2)] [F|(u' & v' & Hu' & Hv' & F1 & F2)].
  - left. eauto.
  - right. exists u', v'. repeat split; eauto.
  - right. exists u, v. repeat split; eauto.
  - right. exists u, v'. repeat split; eauto.
Qed.

Lemma pairs_step many s0 ps : sp_wf s0 -> (forall a b, In (a, b) ps -> In a many /\ In b many) ->
  forall s, is_SetPart s -> labels_live s -> (forall x, In x many -> in_dom (sp_domain s) x) -> carried s0 s ->
  (forall x y, same (sp_blocks s) x y -> bound s0 many x y) ->
  exists s' e, iterate (fun s ab => merge_pair s (fst ab) (snd ab)) ps s = (s', e) /\
  match e with
  | None => is_SetPart s' /\ labels_live s' /\ sp_domain s' = sp_domain s /\ carried s0 s' /\ carried s s' /\
            (forall a b, In (a, b) ps -> same (sp_blocks s') a b) /\
            (forall x y, same (sp_blocks s') x y -> bound s0 many x y)
  | Some e => (is_SetPart s' /\ labels_live s' /\ carried s0 s' /\ forall x y, same (sp_blocks s') x y -> bound s0 many x y) /\ e = LabelContradictionError /\
      exists u v k l, In u many /\ In v many /\ lab s0 u k /\ lab s0 v l /\ ~ same (sp_blocks s0) u v
  end.
Proof.
  intros W0 P. induction ps as [|[a b] ps IH]; intros s H V D C B; cbn [iterate fst snd].
  - exists s, None. split; [reflexivity|]. split; [exact H|]. split; [exact V|]. split; [reflexivity|]. split; [exact C|].
    split; [apply carried_refl, is_SetPart_wf, H|]. split; [intros ? ? []|exact B].
  - destruct (P a b (or_introl eq_refl)) as (Ma & Mb). assert (W := is_SetPart_wf s H).
    destruct (pair_step s a b H V (D a Ma) (D b Mb)) as (s1 & e & E & X). rewrite E. destruct e as [e|].
    + exists s1, (Some e). split; [reflexivity|]. destruct X as (-> & -> & Nab & k & l & Hk & Hl).
      split; [split; [exact H|]; split; [exact V|]; split; [exact C | exact B]|]. split; [reflexivity|].
      apply (proj2 C) in Hk as (ya & Ea & Ka), Hl as (yb & Eb & Kb).
      assert (Src : forall c y, In c many -> same (sp_blocks s) c y -> exists u, In u many /\ same (sp_blocks s0) y u).
      { intros c y Mc Ec. apply same_sym, B in Ec. destruct Ec as [Ec|(u & v & Hu & _ & Ec & _)]; eauto. }
      destruct (Src a ya Ma Ea) as (u & Mu & Eu), (Src b yb Mb Eb) as (v & Mv & Ev). exists u, v, k, l.
      split; [exact Mu|]. split; [exact Mv|]. split; [exact (lab_same _ _ _ _ W0 Eu Ka)|]. split; [exact (lab_same _ _ _ _ W0 Ev Kb)|].
      intro F. apply Nab. apply (same_trans _ _ ya _ (wf_nodup s W) Ea). apply (same_trans _ _ yb _ (wf_nodup s W)); [|apply same_sym, Eb].
      apply (proj1 C). assert (N0 := wf_nodup s0 W0). apply (same_trans _ _ u _ N0 Eu). apply (same_trans _ _ v _ N0 F). apply same_sym, Ev.
    + destruct X as (H1 & V1 & D1 & C1 & S1 & J1). assert (W1 := is_SetPart_wf s1 H1).
      destruct (IH (fun p q Hpq => P p q (or_intror Hpq)) s1 H1 V1) as (s2 & e & E2 & X2).
      * intros x Hx. rewrite D1. apply D, Hx.
      * exact (carried_trans _ _ _ W1 C C1).
      * intros x y F. apply J1 in F. assert (Bab : bound s0 many a b) by (right; exists a, b; repeat split; auto; left; reflexivity).
        assert (Bba : bound s0 many b a) by (right; exists b, a; repeat split; auto; left; reflexivity).
        assert (BT := fun p q r => bound_trans s0 many p q r W0). assert (SY := same_sym (sp_blocks s)).
        destruct F as [F|[(F & G)|(F & G)]]; [exact (B _ _ F) | |].
        -- apply (BT _ a); [apply B; auto|]. apply (BT _ b); [exact Bab | apply B; auto].
        -- apply (BT _ b); [apply B; auto|]. apply (BT _ a); [exact Bba | apply B; auto].
      * exists s2, e. split; [exact E2|]. destruct e as [e|]; [exact X2|]. destruct X2 as (H2 & V2 & D2 & C2 & C2' & S2 & B2).
        split; [exact H2|]. split; [exact V2|]. split; [congruence|]. split; [exact C2|].
        split; [exact (carried_trans _ _ _ (is_SetPart_wf s2 H2) C1 C2')|]. split; [|exact B2].
        intros p q [F|F]; [injection F as <- <-; apply (proj1 C2'), S1 | apply S2, F].
Qed.

Lemma place_or l : forall x y, In x l -> In y l -> x = y \/ In (x, y) (place_pairs l) \/ In (y, x) (place_pairs l).
Proof.
  induction l as [|z l IH]; [intros x y []|]. intros x y Hx Hy. cbn [place_pairs]. rewrite !in_app_iff, !in_map_iff.
  destruct Hx as [<-|Hx], Hy as [<-|Hy].
  - auto.
  - right. left. left. exists y. auto.
  - right. right. left. exists x. auto.
  - destruct (IH x y Hx Hy) as [H|[H|H]]; auto.
Qed.

Lemma lab_only s s' : sp_wf s -> sp_wf s' -> (forall x y, same (sp_blocks s') x y <-> same (sp_blocks s) x y) ->
  forall x, element_to_block s' x = element_to_block s x.
Proof.
  intros W W' T x. apply zsorted_ext; [apply (element_to_block_sorted s' W') | apply (element_to_block_sorted s W)|].
  intro z. rewrite (element_to_block_In s' W'), (element_to_block_In s W). apply T.
Qed.

(** Elements of the domain are merged unless two of them are in different blocks that have labels; that is refused. *)
Theorem C130_outcome : forall s many, is_SetPart s -> labels_live s -> (forall x, In x many -> in_dom (sp_domain s) x) ->
  let clash := exists x y k l, In x many /\ In y many /\ labelled s x k /\ labelled s y l /\ ~ same (sp_blocks s) x y in
  (clash -> snd (merge_many s many) = Some LabelContradictionError) /\
  (~ clash -> snd (merge_many s many) = None).
Proof.
  intros s many H V D clash. assert (W := is_SetPart_wf s H).
  destruct (pairs_step many s (place_pairs many) W (fun a b => place_pairs_In many a b) s H V D (carried_refl s W)) as (s1 & e & E & X); [intros x y F; left; exact F|].
  unfold merge_many. rewrite combinations2_place, E. destruct e as [e|].
  - destruct X as (_ & -> & u & v & k & l & Mu & Mv & Hk & Hl & N). split; [reflexivity|]. intro F. exfalso. apply F. exists u, v, k, l.
    repeat split; try assumption; apply lab_spec; assumption.
  - destruct X as (H1 & V1 & D1 & C1 & _ & S1 & _). assert (W1 := is_SetPart_wf s1 H1). split.
    + intros (x & y & k & l & Mx & My & Hk & Hl & N). exfalso. apply lab_spec in Hk, Hl; try assumption.
      assert (Exy : same (sp_blocks s1) x y).
      { destruct (place_or many x y Mx My) as [F|[F|F]]; [left; exact F | apply S1, F | apply same_sym, S1, F]. }
      assert (K1 : lab s1 x k) by (apply (proj2 C1); exists x; split; [left; reflexivity | exact Hk]).
      assert (L1 : lab s1 x l) by (apply (proj2 C1); exists y; split; assumption).
      assert (F := lab_fun s1 x k l W1 K1 L1). subst l. apply N, (lab_inj s x y k W Hk Hl).
    + intros _. destruct (reinit_spec s1 (sp_blocks s1) (sp_labels s1) (sp_caches s1) (wf_dom s1 W1) (NoDup_no_overlap _ (wf_nodup s1 W1)) (wf_labels s1 W1)) as (s2 & E2 & _).
      rewrite E2. reflexivity.
Qed.

(** After a call that succeeds the elements are in one block, and an element is in a block with a label exactly if one of that
    block had this label; all labels are those of blocks.  There must be a block that is no singleton, before or after. *)
Theorem C130_labels : forall s many s', is_SetPart s -> labels_live s -> (forall x, In x many -> in_dom (sp_domain s) x) ->
  merge_many s many = (s', None) ->
  sp_blocks s <> [] \/ (exists x y, In x many /\ In y many /\ x <> y) ->
  is_SetPart s' /\ labels_live s' /\ sp_domain s' = sp_domain s /\
  (forall x y, same (sp_blocks s') x y <-> generated (fun u v => together (sp_blocks s) u v \/ (In u many /\ In v many)) x y) /\
  forall x l, labelled s' x l <-> exists y, same (sp_blocks s') x y /\ labelled s y l.
Proof.
  intros s many s' H V D M Q. assert (W := is_SetPart_wf s H).
  assert (H' : is_SetPart s') by (assert (X := obj_core s (MergeMany many) H); cbn [sp_step] in X; rewrite M in X; exact X).
  assert (W' := is_SetPart_wf s' H').
  destruct (merge_many_spec s many W) as (s2 & e2 & dn & E2 & _ & D2 & _ & T2 & N2 & _). rewrite M in E2. injection E2 as <- <-.
  assert (T : forall x y, same (sp_blocks s') x y <-> generated (fun u v => together (sp_blocks s) u v \/ (In u many /\ In v many)) x y).
  { intros x y. rewrite T2, (N2 eq_refl). split; apply generated_mono; intros u v.
    - intros [F|F]; apply rst_step; [left; exact F | right; apply place_pairs_In, F].
    - intros [F|[F1 F2]]; [apply rst_step; left; exact F | apply place_pairs_conn; assumption]. }
  destruct (pairs_step many s (place_pairs many) W (fun a b => place_pairs_In many a b) s H V D (carried_refl s W)) as (s1 & e & E & X); [intros x y F; left; exact F|].
  unfold merge_many in M. rewrite combinations2_place, E in M. destruct e as [e|]; [discriminate|].
  destruct X as (H1 & V1 & D1 & C1 & _ & S1 & _). assert (W1 := is_SetPart_wf s1 H1).
  destruct (reinit_spec s1 (sp_blocks s1) (sp_labels s1) (sp_caches s1) (wf_dom s1 W1) (NoDup_no_overlap _ (wf_nodup s1 W1)) (wf_labels s1 W1)) as (s3 & E3 & _ & _ & _ & L3 & T3).
  rewrite E3 in M. injection M as ->.
  assert (NE : sp_blocks s' <> []).
  { assert (Y : exists x y, x <> y /\ same (sp_blocks s') x y).
    { destruct Q as [Q|(x & y & Mx & My & N)].
      - destruct (sp_blocks s) as [|c bs] eqn:Eb; [congruence|]. destruct (wf_canonical s W) as (HC & _). rewrite Eb in HC.
        destruct (HC c (or_introl eq_refl)) as (Lc & Sc). destruct c as [|x [|y c]]; cbn [length] in Lc; [lia | lia|].
        exists x, y. split.
        + inversion Sc as [|? ? _ F]; subst. inversion F; subst. lia.
        + apply T, rst_step. left. exists (x :: y :: c). cbn [In]. auto.
      - exists x, y. split; [exact N|]. apply T, rst_step. right. auto. }
    destruct Y as (x & y & N & [F|(c & Hc & _)]); [contradiction|]. intro F. rewrite F in Hc. exact Hc. }
  assert (L : sp_labels s' = sp_labels s1) by (rewrite L3; destruct (sp_blocks s'); [congruence | reflexivity]).
  assert (EB := lab_only s1 s' W1 W' T3).
  assert (V' : labels_live s').
  { intros c l Hc. rewrite L in Hc. destruct (V1 c l Hc) as (x & ->). exists x. symmetry. apply EB. }
  split; [exact H'|]. split; [exact V'|]. split; [congruence|]. split; [exact T|].
  intros x l. rewrite (lab_spec s' x l W' V'). unfold lab. rewrite L, EB. fold (lab s1 x l). rewrite (proj2 C1). split; intros (y & F & G); exists y.
  - split; [apply T3, F | apply lab_spec; assumption].
  - split; [apply T3, F | apply lab_spec in G; assumption].
Qed.

(** After a call that is refused no label is lost, and only blocks of the given elements can have been merged. *)
Theorem C130_refused : forall s many s' e, is_SetPart s -> labels_live s -> (forall x, In x many -> in_dom (sp_domain s) x) ->
  merge_many s many = (s', Some e) ->
  is_SetPart s' /\ labels_live s' /\
  (forall x y, same (sp_blocks s) x y -> same (sp_blocks s') x y) /\
  (forall x y, same (sp_blocks s') x y -> same (sp_blocks s) x y \/
     exists u v, In u many /\ In v many /\ same (sp_blocks s) x u /\ same (sp_blocks s) v y) /\
  forall x l, labelled s' x l <-> exists y, same (sp_blocks s') x y /\ labelled s y l.
Proof.
  intros s many s' e H V D M. assert (W := is_SetPart_wf s H).
  destruct (pairs_step many s (place_pairs many) W (fun a b => place_pairs_In many a b) s H V D (carried_refl s W)) as (s1 & e1 & E & X); [intros x y F; left; exact F|].
  unfold merge_many in M. rewrite combinations2_place, E in M. destruct e1 as [e1|].
  - injection M as -> ->. destruct X as ((H1 & V1 & (C1 & C2) & B) & _). assert (W1 := is_SetPart_wf s' H1).
    split; [exact H1|]. split; [exact V1|]. split; [exact C1|]. split; [exact B|]. intros x l. rewrite (lab_spec s' x l W1 V1), C2.
    split; intros (y & F & G); exists y; (split; [exact F | apply lab_spec; assumption]).
  - exfalso. destruct X as (H1 & _). assert (W1 := is_SetPart_wf s1 H1).
    destruct (reinit_spec s1 (sp_blocks s1) (sp_labels s1) (sp_caches s1) (wf_dom s1 W1) (NoDup_no_overlap _ (wf_nodup s1 W1)) (wf_labels s1 W1)) as (s2 & E2 & _). congruence.
Qed.

(** false: merge_many keeps the labels.  While all blocks are singletons, the call with one element (or none) removes all labels. *)
Theorem C130_refuted : exists s many s', is_SetPart s /\ labels_live s /\ (forall x, In x many -> in_dom (sp_domain s) x) /\
  merge_many s many = (s', None) /\ labelled s 2 7 /\ ~ exists x l, labelled s' x l.
Proof.
  destruct (SetPart None (DomSet [1; 2; 3])) as [s0|] eqn:E0; [|discriminate].
  set (s := fst (add_label_to_element s0 2 7)).
  assert (H : is_SetPart s) by (apply obj_label_element, (obj_new None (DomSet [1; 2; 3]) None), E0).
  vm_compute in E0. injection E0 as <-. vm_compute in s. exists s, [2]. eexists.
  assert (V : labels_live s).
  { intros c l [F|[]]. injection F as <- _. exists 2. reflexivity. }
  split; [exact H|]. split; [exact V|]. split; [intros x [<-|[]]; vm_compute; auto|]. split; [vm_compute; reflexivity|]. split.
  - apply lab_spec; [apply is_SetPart_wf, H | exact V|]. left. reflexivity.
  - intros (x & l & c & [] & _).
Qed.

(** ** all labels belong to blocks, if only elements are labelled *)

Lemma live_core s s' : same_core s s' -> labels_live s -> labels_live s'.
Proof.
  intros (K1 & K2 & K3 & K4 & K5) V c l Hc. rewrite K5 in Hc. destruct (V c l Hc) as (x & ->). exists x.
  unfold element_to_block. rewrite K2, K3. reflexivity.
Qed.

Lemma live_pair s a b : is_SetPart s -> labels_live s -> labels_live (fst (merge_pair s a b)).
Proof.
  intros H V. destruct (element_in_domain s a) eqn:Da, (element_in_domain s b) eqn:Db.
  2-4: unfold merge_pair; rewrite Da, Db; destruct (Z.eqb a b); exact V.
  apply in_dom_spec in Da, Db. destruct (pair_step s a b H V Da Db) as (s' & e & E & X). rewrite E. destruct e as [e|]; cbn [fst].
  - destruct X as (-> & _). exact V.
  - apply X.
Qed.

Lemma live_many s many : is_SetPart s -> labels_live s -> labels_live (fst (merge_many s many)).
Proof.
  intros H V. unfold merge_many.
  assert (X : forall ps s, is_SetPart s -> labels_live s ->
    let r := iterate (fun s ab => merge_pair s (fst ab) (snd ab)) ps s in is_SetPart (fst r) /\ labels_live (fst r)).
  { clear. induction ps as [|[a b] ps IH]; intros s H V; cbn [iterate fst snd]; [auto|].
    assert (H1 := obj_core s (MergePair a b) H). assert (V1 := live_pair s a b H V). cbn [sp_step] in H1.
    destruct (merge_pair s a b) as [s1 [e|]]; cbn [fst] in *; [auto | apply IH; assumption]. }
  destruct (X (combinations2 many) s H V) as (H1 & V1). destruct (iterate _ _ s) as [s1 [e|]]; cbn [fst] in *; [exact V1|].
  assert (W1 := is_SetPart_wf s1 H1).
  destruct (reinit_spec s1 (sp_blocks s1) (sp_labels s1) (sp_caches s1) (wf_dom s1 W1) (NoDup_no_overlap _ (wf_nodup s1 W1)) (wf_labels s1 W1)) as (s2 & E2 & W2 & _ & _ & L2 & T2).
  rewrite E2. cbn [fst]. intros c l Hc. rewrite L2 in Hc.
  assert (Hc' : In (c, l) (sp_labels s1)) by (destruct (sp_blocks s2); [destruct Hc | exact Hc]).
  destruct (V1 c l Hc') as (x & ->). exists x. symmetry. apply (lab_only s1 s2 W1 W2 T2).
Qed.

Lemma put_in d b l d' p : labels_ok d -> label_put d b l = Ok d' -> In p d' -> p = (b, l) \/ In p d.
Proof.
  intros Hok E Hp. destruct (label_inv d l) as [b'|] eqn:F.
  - unfold label_put in E. rewrite F in E. destruct (zlist_eqb b b'); [|discriminate]. injection E as <-. auto.
  - apply label_inv_none in F. destruct (label_put_new d b l Hok F) as (d2 & H1 & _ & H2). rewrite E in H1. injection H1 as <-.
    apply H2 in Hp. tauto.
Qed.

Lemma live_element s x l : is_SetPart s -> labels_live s -> labels_live (fst (add_label_to_element s x l)).
Proof.
  intros H V. assert (W := is_SetPart_wf s H). unfold add_label_to_element. destruct (element_in_domain s x); cbn [negb]; [|exact V].
  match goal with |- context [if ?c then (s, Some LabelContradictionError) else _] => destruct c end; [exact V|].
  destruct (get_block_from_label s l) as [bl|]; [apply live_pair; assumption|].
  unfold add_label_to_block. assert (K := read_canonical_core s). destruct (read_canonical s) as [s1 r]. cbn [fst] in K.
  assert (V1 := live_core s s1 K V). assert (W1 := same_core_wf s s1 K W).
  assert (EB : element_to_block s1 x = element_to_block s x) by (destruct K as (_ & K2 & K3 & _); unfold element_to_block; rewrite K2, K3; reflexivity).
  destruct r as [r|e]; [|exact V1]. destruct (negb _); [exact V1|].
  assert (Put : forall ls, label_put (sp_labels s1) (element_to_block s x) l = Ok ls -> labels_live (set_labels s1 ls)).
  { intros ls E c k Hc. cbn [set_labels sp_labels] in Hc. destruct (put_in _ _ _ _ _ (wf_labels s1 W1) E Hc) as [F|F].
    - injection F as -> _. exists x. symmetry. exact EB.
    - destruct (V1 c k F) as (y & ->). exists y. reflexivity. }
  destruct (label_get (sp_labels s1) (element_to_block s x)) as [old|]; [destruct (Z.eqb old l)|].
  2: exact V1.
  all: destruct (label_put _ _ _) as [ls|e]; [apply Put; reflexivity | exact V1].
Qed.

(** what a constructor call without labels, merges, attribute reads and add_label_to_element can make; exceptions may be caught *)
Inductive labelled_by_elements : setpart -> Prop :=
| by_new bs dom s : SetPart bs dom = Ok s -> labelled_by_elements s
| by_core s op : labelled_by_elements s -> labelled_by_elements (sp_step s op)
| by_element s x l : labelled_by_elements s -> labelled_by_elements (fst (add_label_to_element s x l)).

Theorem C130_live : forall s, labelled_by_elements s -> is_SetPart s /\
  forall block l, In (block, l) (sp_labels s) -> exists x, In x block /\ forall y, In y block <-> same (sp_blocks s) x y.
Proof.
  intros s B. enough (X : is_SetPart s /\ labels_live s).
  { destruct X as (H & V). split; [exact H|]. intros c l Hc. destruct (V c l Hc) as (x & ->). assert (W := is_SetPart_wf s H). exists x.
    split; [apply (element_to_block_In s W); left; reflexivity | intro y; apply (element_to_block_In s W)]. }
  induction B as [bs dom s E|s op B (H & V)|s x l B (H & V)].
  - split; [eapply obj_new; exact E|]. intros c l Hc. exfalso. unfold SetPart, sp_init in E. cbv zeta in E.
    match type of E with match ?b with _ => _ end = _ => destruct b end; [injection E as <-; destruct Hc|].
    apply bind_ok in E as (u & _ & E). apply bind_ok in E as (len & _ & E). cbn [bind] in E. injection E as <-. destruct Hc.
  - split; [apply obj_core, H|]. destruct op; cbn [sp_step].
    + apply live_pair; assumption.
    + apply live_many; assumption.
    + exact (live_core _ _ (read_pairs_core s) V).
    + exact (live_core _ _ (read_intval_core s) V).
    + exact (live_core _ _ (read_canonical_core s) V).
    + exact (live_core _ _ (read_singletons_core s) V).
  - split; [apply obj_label_element, H | apply live_element; assumption].
Qed.

Print Assumptions C130_live.
Print Assumptions C130_outcome.
Print Assumptions C130_labels.
Print Assumptions C130_refused.
Print Assumptions C130_refuted.

(** three elements of different blocks, one block with a label; the element 1 with another label makes it a contradiction *)
Definition ex_many : res setpart :=
  let* s := SetPart (Some [[1; 4]; [2; 5]; [6; 7]]) (DomSet [1; 2; 3; 4; 5; 6; 7; 8]) in
  Ok (fst (add_label_to_element (fst (add_label_to_element s 5 10)) 6 11)).
Example C130_ex : match ex_many with
  | Ok s => sp_labels s = [([2; 5], 10); ([6; 7], 11)] /\
      (let (s', e) := merge_many s [4; 3; 2] in e = None /\ sp_blocks s' = [[1; 2; 3; 4; 5]; [6; 7]] /\ sp_labels s' = [([6; 7], 11); ([1; 2; 3; 4; 5], 10)]) /\
      (let (s', e) := merge_many s [3; 2; 7] in e = Some LabelContradictionError /\ sp_blocks s' = [[1; 4]; [2; 3; 5]; [6; 7]])
  | Err _ => False end.
Proof. vm_compute. repeat split. Qed.
Example C130_ex_live : match ex_many with Ok s => labels_live s | Err _ => False end.
Proof. vm_compute ex_many. intros c l [F|[F|[]]]; injection F as <- _; [exists 2 | exists 6]; reflexivity. Qed.
Example C130_ex_built : match ex_many with Ok s => labelled_by_elements s /\ length (sp_labels s) = 2%nat | Err _ => False end.
Proof.
  assert (L : match ex_many with Ok s => length (sp_labels s) = 2%nat | Err _ => False end) by (vm_compute; reflexivity).
  unfold ex_many in *. destruct (SetPart _ _) as [s|e] eqn:E; cbn [bind] in *; [|exact L].
  split; [apply by_element, by_element, (by_new _ _ _ E) | exact L].
Qed.
