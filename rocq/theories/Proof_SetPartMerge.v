(** Proof_SetPartMerge: merge_pair, merge_many, histories of merges and attribute reads. *)

From Coq Require Import List Arith ZArith Bool Lia Permutation Sorting.Sorted Relations.
From Verif Require Import Model_Base Lib Model_SetPart Spec_SetPart Proof_SetPart.
Import ListNotations.
Open Scope Z_scope.

(** * Generated equivalence relations *)

Lemma generated_mono (R S : Z -> Z -> Prop) x y :
  (forall u v, R u v -> generated S u v) -> generated R x y -> generated S x y.
Proof.
  intro H. induction 1 as [u v Huv|u|u v _ IH|u v w _ IH1 _ IH2].
  - apply H, Huv.
  - apply rst_refl.
  - apply rst_sym, IH.
  - eapply rst_trans; eassumption.
Qed.

Lemma generated_closed (R S : Z -> Z -> Prop) x y :
  (forall u, S u u) -> (forall u v, S u v -> S v u) -> (forall u v w, S u v -> S v w -> S u w) ->
  (forall u v, R u v -> S u v) -> generated R x y -> S x y.
Proof.
  intros H1 H2 H3 H. induction 1 as [u v Huv|u|u v _ IH|u v w _ IH1 _ IH2]; eauto.
Qed.

Lemma generated_together bs x y : NoDup (concat bs) -> generated (together bs) x y <-> same bs x y.
Proof.
  intro Hn. split.
  - apply generated_closed.
    + left; reflexivity.
    + intros u v; apply same_sym.
    + intros u v w; apply same_trans, Hn.
    + right; assumption.
  - intros [->|H]; [apply rst_refl | apply rst_step, H].
Qed.

(** adding one pair to an equivalence relation *)
Definition joined (R : Z -> Z -> Prop) (a b x y : Z) : Prop :=
  R x y \/ (R x a /\ R b y) \/ (R x b /\ R a y).

Lemma generated_pair bs a b x y : NoDup (concat bs) ->
  generated (fun u v => together bs u v \/ (u = a /\ v = b)) x y <-> joined (same bs) a b x y.
Proof.
  intro Hn. assert (Tr := fun x y z => same_trans bs x y z Hn). assert (Sy := same_sym bs).
  split.
  - apply generated_closed.
    + intro u. left. left. reflexivity.
    + intros u v [H|[[H1 H2]|[H1 H2]]]; unfold joined; [left | right; right | right; left]; eauto.
    + unfold joined. intros u v w [H|[[H1 H2]|[H1 H2]]] [K|[[K1 K2]|[K1 K2]]]; try (left; eauto; fail);
        try (right; left; split; eauto; fail); try (right; right; split; eauto; fail).
    + intros u v [H|[-> ->]]; [left; right; exact H | right; left; split; left; reflexivity].
  - assert (G : forall u v, same bs u v -> generated (fun u v => together bs u v \/ (u = a /\ v = b)) u v).
    { intros u v [->|H]; [apply rst_refl | apply rst_step; left; exact H]. }
    assert (Gab : generated (fun u v => together bs u v \/ (u = a /\ v = b)) a b) by (apply rst_step; right; auto).
    intros [H|[[H1 H2]|[H1 H2]]]; [apply G, H| |].
    + eapply rst_trans; [apply G, H1|]. eapply rst_trans; [exact Gab | apply G, H2].
    + eapply rst_trans; [apply G, H1|]. eapply rst_trans; [apply rst_sym, Gab | apply G, H2].
Qed.

(** merging two disjoint blocks *)
Lemma same_merge A B rest M a b x y :
  NoDup (concat (A :: B :: rest)) -> In a A -> In b B -> (forall z, In z M <-> In z A \/ In z B) ->
  same (M :: rest) x y <-> joined (same (A :: B :: rest)) a b x y.
Proof.
  intros Hn Ha Hb HM.
  set (L := A :: B :: rest) in *.
  assert (HA : In A L) by (left; reflexivity). assert (HB : In B L) by (right; left; reflexivity).
  assert (HR : forall c, In c rest -> In c L) by (intros c Hc; right; right; exact Hc).
  assert (inA : forall z, In z A -> same L z a) by (intros z Hz; right; exists A; auto).
  assert (inB : forall z, In z B -> same L z b) by (intros z Hz; right; exists B; auto).
  assert (inA' : forall z, same L z a -> In z A).
  { intros z [->|(c & Hc & Hz & Hac)]; [exact Ha|].
    rewrite (NoDup_concat_disj L A c a Hn HA Hc Ha Hac). exact Hz. }
  assert (inB' : forall z, same L z b -> In z B).
  { intros z [->|(c & Hc & Hz & Hbc)]; [exact Hb|].
    rewrite (NoDup_concat_disj L B c b Hn HB Hc Hb Hbc). exact Hz. }
  split.
  - intros [->|(c & [<-|Hc] & Hx & Hy)].
    + left. left. reflexivity.
    + apply HM in Hx, Hy. destruct Hx as [Hx|Hx], Hy as [Hy|Hy].
      * left. right. exists A; auto.
      * right. left. split; [apply inA, Hx | apply same_sym, inB, Hy].
      * right. right. split; [apply inB, Hx | apply same_sym, inA, Hy].
      * left. right. exists B; auto.
    + left. right. exists c. auto.
  - intros [[->|(c & Hc & Hx & Hy)]|[[H1 H2]|[H1 H2]]].
    + left. reflexivity.
    + right. destruct Hc as [<-|[<-|Hc]].
      * exists M. split; [left; reflexivity|]. rewrite !HM. auto.
      * exists M. split; [left; reflexivity|]. rewrite !HM. auto.
      * exists c. split; [right; exact Hc | auto].
    + right. exists M. split; [left; reflexivity|]. rewrite !HM. apply inA' in H1. apply same_sym, inB' in H2. auto.
    + right. exists M. split; [left; reflexivity|]. rewrite !HM. apply inB' in H1. apply same_sym, inA' in H2. auto.
Qed.

Lemma same_perm a b x y : Permutation a b -> same a x y <-> same b x y.
Proof. intro H. unfold same. rewrite (together_perm a b x y H). reflexivity. Qed.
Lemma same_single bs a x y : same ([a] :: bs) x y <-> same bs x y.
Proof.
  unfold same, together. split.
  - intros [->|(c & [<-|Hc] & Hx & Hy)]; [auto| |right; exists c; auto].
    destruct Hx as [<-|[]], Hy as [<-|[]]. auto.
  - intros [->|(c & Hc & Hx & Hy)]; [auto|]. right. exists c. split; [right; exact Hc | auto].
Qed.
Lemma joined_iff R S a b x y : (forall u v, R u v <-> S u v) -> joined R a b x y <-> joined S a b x y.
Proof. intro H. unfold joined. rewrite !H. reflexivity. Qed.

(** * Reinitialisation *)

Definition unalias (c : caches) : caches :=
  mkC (c_pairs c) (c_intval c) (c_canonical c) false (c_singletons c).

Lemma NoDup_filter_concat p (bs : list (list Z)) : NoDup (concat bs) -> NoDup (concat (filter p bs)).
Proof.
  induction bs as [|b bs IH]; [auto|]. cbn [filter concat]. intro H.
  destruct (p b); [|apply IH; eapply NoDup_app_remove_l, H]. cbn [concat].
  assert (H2 := NoDup_app_remove_r _ _ H). assert (H3 := IH (NoDup_app_remove_l _ _ H)).
  assert (Hd : forall x, In x b -> ~ In x (concat (filter p bs))).
  { intros x Hx Hc. eapply NoDup_app_disj; [exact H | exact Hx|].
    apply in_concat in Hc as (c & Hc & Hxc). apply filter_In in Hc as [Hc _]. apply in_concat. eauto. }
  clear - H2 H3 Hd. induction H2 as [|x b Hx Hb IH]; [exact H3|].
  cbn [app]. constructor.
  - rewrite in_app_iff. intros [H|H]; [contradiction|]. apply (Hd x); [left; reflexivity | exact H].
  - apply IH. intros y Hy. apply Hd. right. exact Hy.
Qed.
Lemma NoDup_no_overlap bs : NoDup (concat bs) -> no_overlap bs.
Proof. apply NoDup_filter_concat. Qed.

Lemma reinit_spec s bs ls c : dom_ok (sp_domain s) -> no_overlap bs -> labels_ok ls ->
  exists s', reinit s bs ls c = (s', None) /\ sp_wf s' /\ sp_domain s' = sp_domain s /\
    sp_caches s' = unalias c /\
    sp_labels s' = match sp_blocks s' with [] => [] | _ => ls end /\
    (forall x y, same (sp_blocks s') x y <-> same bs x y).
Proof.
  intros Hd Hn Hl. unfold reinit. fold (unalias c).
  destruct (sp_init_spec (unalias c) (Some bs) (sp_domain s) (Some ls) Hn Hl) as (s' & E & W & D & C & L & T).
  exists s'. rewrite E. split; [reflexivity|]. split; [exact W|]. split; [rewrite D; apply norm_dom_id, Hd|].
  split; [exact C|]. split; [exact L|]. intros x y. unfold same.
  destruct (Z.eq_dec x y) as [->|Hxy]; [tauto|]. rewrite (T x y Hxy). reflexivity.
Qed.

(** * merge_block_labels *)

Lemma merge_block_labels_spec s a b : sp_wf s ->
  (exists ls, merge_block_labels s a b = Ok ls /\ labels_ok ls /\
     (sp_labels s = [] -> ls = [])) \/
  (merge_block_labels s a b = Err LabelContradictionError /\ sp_labels s <> []).
Proof.
  intro W. assert (HL := wf_labels s W). unfold merge_block_labels.
  set (A := element_to_block s a). set (B := element_to_block s b).
  destruct (zlist_eqb A B) eqn:E; [left; eauto|]. apply zlist_eqb_neq in E.
  unfold get_label_from_block.
  assert (Hempty : sp_labels s = [] -> label_get (sp_labels s) A = None /\ label_get (sp_labels s) B = None)
    by (intros ->; auto).
  assert (HP : labels_ok (label_pop (label_pop (sp_labels s) A) B)) by (apply label_pop_ok, label_pop_ok, HL).
  assert (Hnew : forall c l, (c = A \/ c = B) -> label_get (sp_labels s) c = Some l ->
            ~ In l (map snd (label_pop (label_pop (sp_labels s) A) B))).
  { intros c l Hc Hg Hin. apply (label_get_In _ _ _ (proj1 HL)) in Hg.
    apply in_map_iff in Hin as ([c' l'] & El & Hin). cbn [snd] in El. subst l'.
    apply label_pop_In in Hin as [Hin H2]. apply label_pop_In in Hin as [Hin H1]. cbn [fst] in *.
    assert (c' = c).
    { apply (label_inv_In _ _ _ (proj2 HL)) in Hin. apply (label_inv_In _ _ _ (proj2 HL)) in Hg. congruence. }
    intuition congruence. }
  destruct (label_get (sp_labels s) A) as [la|] eqn:EA, (label_get (sp_labels s) B) as [lb|] eqn:EB;
    cbn [true_except bind].
  - right. split; [reflexivity|]. intro H. destruct (Hempty H). discriminate.
  - left. destruct (label_put_new _ (zsort (A ++ B)) la HP (Hnew A la (or_introl eq_refl) EA)) as (d & H1 & H2 & _).
    exists d. split; [exact H1|]. split; [exact H2|]. intro H. destruct (Hempty H). discriminate.
  - left. destruct (label_put_new _ (zsort (A ++ B)) lb HP (Hnew B lb (or_intror eq_refl) EB)) as (d & H1 & H2 & _).
    exists d. split; [exact H1|]. split; [exact H2|]. intro H. destruct (Hempty H). discriminate.
  - left. eexists. split; [reflexivity|]. split; [exact HP|]. intros ->. reflexivity.
Qed.

(** * merge_pair *)

Lemma lset_perm (l : list (list Z)) i x : (i < length l)%nat ->
  exists rest, Permutation l (nth i l [] :: rest) /\ Permutation (lset l i x) (x :: rest).
Proof.
  revert i; induction l as [|y l IH]; intros i Hi; [cbn in Hi; lia|].
  destruct i as [|i]; cbn [nth lset].
  - exists l. split; reflexivity.
  - cbn [length] in Hi. destruct (IH i ltac:(lia)) as (rest & H1 & H2). exists (y :: rest). split.
    + etransitivity; [apply perm_skip, H1 | apply perm_swap].
    + etransitivity; [apply perm_skip, H2 | apply perm_swap].
Qed.

Lemma concat_cons_NoDup (b : list Z) bs : NoDup b -> NoDup (concat bs) -> (forall x, In x b -> ~ In x (concat bs)) ->
  NoDup (concat (b :: bs)).
Proof.
  intros Hb Hbs Hd. cbn [concat]. induction Hb as [|x b Hx Hb IH]; [exact Hbs|].
  cbn [app]. constructor.
  - rewrite in_app_iff. intros [H|H]; [contradiction|]. apply (Hd x); [left; reflexivity | exact H].
  - apply IH. intros y Hy. apply Hd. right. exact Hy.
Qed.

(** the raw block list after a merge: blocks [A] and [B] (or singletons) are replaced *)
Lemma merge_raw (bs new : list (list Z)) A B rest M a b :
  NoDup (concat (A :: B :: rest)) -> In a A -> In b B -> Permutation M (A ++ B) ->
  Permutation new (M :: rest) ->
  (forall x y, same (A :: B :: rest) x y <-> same bs x y) ->
  NoDup (concat new) /\ forall x y, same new x y <-> joined (same bs) a b x y.
Proof.
  intros Hn Ha Hb HM Hnew Hsame. split.
  - eapply Permutation_NoDup; [|exact Hn]. symmetry. etransitivity; [apply concat_perm, Hnew|].
    cbn [concat]. rewrite app_assoc. apply Permutation_app_tail, HM.
  - intros x y. rewrite (same_perm _ _ x y Hnew).
    rewrite (same_merge A B rest M a b x y Hn Ha Hb).
    + apply joined_iff, Hsame.
    + intro z. rewrite <- in_app_iff. split; apply Permutation_in; [exact HM | symmetry; exact HM].
Qed.

Lemma merge_pair_spec s a b : sp_wf s ->
  exists s' e, merge_pair s a b = (s', e) /\ sp_wf s' /\ sp_domain s' = sp_domain s /\
    (sp_labels s = [] -> sp_labels s' = []) /\
    match e with
    | None => forall x y, same (sp_blocks s') x y <-> joined (same (sp_blocks s)) a b x y
    | Some e => s' = s /\ a <> b /\
        ((e = NotInDomainError /\ (element_in_domain s a = false \/ element_in_domain s b = false)) \/
         (e = LabelContradictionError /\ merge_block_labels s a b = Err LabelContradictionError /\ sp_labels s <> []))
    end /\
    (e = None -> a = b \/ (element_in_domain s a = true /\ element_in_domain s b = true)).
Proof.
  intro W. assert (Hn := wf_nodup s W). unfold merge_pair. destruct (Z.eqb_spec a b) as [<-|Hab].
  { exists s, None. split; [reflexivity|]. split; [exact W|]. split; [reflexivity|]. split; [auto|].
    split; [|left; reflexivity]. intros x y. split.
    - intro H. left. exact H.
    - intros [H|[[H1 H2]|[H1 H2]]]; [exact H | |]; eapply same_trans; eauto. }
  destruct (element_in_domain s a && element_in_domain s b) eqn:Ed; cbn [negb].
  2:{ exists s, (Some NotInDomainError). split; [reflexivity|]. split; [exact W|].
      split; [reflexivity|]. split; [auto|]. split; [|discriminate]. split; [reflexivity|]. split; [exact Hab|].
      left. split; [reflexivity|]. apply andb_false_iff in Ed. exact Ed. }
  apply andb_true_iff in Ed as [Eda Edb].
  destruct (merge_block_labels_spec s a b W) as [(ls & Els & Hls & Hemp)|[Els Hne]]; rewrite Els.
  2:{ exists s, (Some LabelContradictionError). split; [reflexivity|]. split; [exact W|].
      split; [reflexivity|]. split; [auto|]. split; [|discriminate]. auto 6. }
  assert (Hcase : forall new c, no_overlap new ->
     (forall x y, same new x y <-> joined (same (sp_blocks s)) a b x y) ->
     exists s' e, reinit s new ls c = (s', e) /\ sp_wf s' /\ sp_domain s' = sp_domain s /\
      (sp_labels s = [] -> sp_labels s' = []) /\
      match e with
      | None => forall x y, same (sp_blocks s') x y <-> joined (same (sp_blocks s)) a b x y
      | Some e => s' = s /\ a <> b /\
        ((e = NotInDomainError /\ (element_in_domain s a = false \/ element_in_domain s b = false)) \/
         (e = LabelContradictionError /\ @Ok labels ls = Err LabelContradictionError /\ sp_labels s <> []))
      end /\
      (e = None -> a = b \/ (element_in_domain s a = true /\ element_in_domain s b = true))).
  { intros new c Hno Hsame.
    destruct (reinit_spec s new ls c (wf_dom s W) Hno Hls) as (s' & E & W' & D & _ & L & T).
    exists s', None. split; [exact E|]. split; [exact W'|]. split; [exact D|].
    split; [intro H; rewrite L, (Hemp H); destruct (sp_blocks s'); reflexivity|].
    split; [intros x y; rewrite T; apply Hsame | auto]. }
  destruct (zdget (sp_index s) a) as [i|] eqn:Ei, (zdget (sp_index s) b) as [j|] eqn:Ej.
  - destruct (Nat.eqb_spec i j) as [<-|Hij].
    + eexists _, None. split; [reflexivity|]. cbn [sp_blocks sp_domain sp_labels].
      split; [destruct W; constructor; assumption|]. split; [reflexivity|]. split; [exact Hemp|].
      split; [|auto]. intros x y. assert (T : together (sp_blocks s) a b) by (apply (index_eq s W a b i i); auto).
      split; [intro H; left; exact H|].
      intros [H|[[H1 H2]|[H1 H2]]]; [exact H | |].
      * apply (same_trans _ _ _ _ Hn H1). apply (same_trans _ _ b _ Hn); [right; exact T | exact H2].
      * apply (same_trans _ _ _ _ Hn H1). apply (same_trans _ _ a _ Hn); [right; apply together_sym, T | exact H2].
    + destruct (index_some s W a i Ei) as (Hi & HA & Ha). destruct (index_some s W b j Ej) as (Hj & HB & Hb).
      set (A := nth i (sp_blocks s) []) in *. set (B := nth j (sp_blocks s) []) in *.
      assert (HAB : A <> B).
      { intro E. apply Hij. apply (index_eq s W a b i j Ei Ej). exists A. rewrite E at 3. auto. }
      assert (P1 := block_remove_perm A _ HA). set (r1 := block_remove A (sp_blocks s)) in *.
      assert (HB1 : In B r1).
      { apply (Permutation_in _ P1) in HB as [HB|HB]; [congruence | exact HB]. }
      assert (P2 := block_remove_perm B _ HB1). set (rest := block_remove B r1) in *.
      assert (P : Permutation (sp_blocks s) (A :: B :: rest)) by (etransitivity; [exact P1 | apply perm_skip, P2]).
      destruct (merge_raw (sp_blocks s) (rest ++ [zsort (A ++ B)]) A B rest (zsort (A ++ B)) a b) as [N1 N2].
      * eapply Permutation_NoDup; [apply concat_perm, P | exact Hn].
      * exact Ha.
      * exact Hb.
      * symmetry. apply zsort_perm.
      * symmetry. apply Permutation_cons_append.
      * intros x y. symmetry. apply same_perm, P.
      * apply Hcase; [apply NoDup_no_overlap, N1 | exact N2].
  - destruct (index_some s W a i Ei) as (Hi & HA & Ha). apply (index_none s W) in Ej.
    set (A := nth i (sp_blocks s) []) in *.
    destruct (lset_perm (sp_blocks s) i (A ++ [b]) Hi) as (rest & P1 & P2). fold A in P1.
    destruct (merge_raw (sp_blocks s) (lset (sp_blocks s) i (A ++ [b])) A [b] rest (A ++ [b]) a b) as [N1 N2].
    + eapply Permutation_NoDup; [|apply (concat_cons_NoDup [b] (sp_blocks s))].
      * etransitivity; [apply concat_perm, perm_skip, P1 | apply concat_perm, perm_swap].
      * repeat constructor. intros [].
      * exact Hn.
      * intros x [<-|[]]. exact Ej.
    + exact Ha.
    + left. reflexivity.
    + reflexivity.
    + exact P2.
    + intros x y. rewrite (same_perm _ ([b] :: A :: rest) x y (perm_swap _ _ _)), same_single.
      symmetry. apply same_perm, P1.
    + apply Hcase; [apply NoDup_no_overlap, N1 | exact N2].
  - destruct (index_some s W b j Ej) as (Hj & HB & Hb). apply (index_none s W) in Ei.
    set (B := nth j (sp_blocks s) []) in *.
    destruct (lset_perm (sp_blocks s) j (B ++ [a]) Hj) as (rest & P1 & P2). fold B in P1.
    destruct (merge_raw (sp_blocks s) (lset (sp_blocks s) j (B ++ [a])) [a] B rest (B ++ [a]) a b) as [N1 N2].
    + eapply Permutation_NoDup; [|apply (concat_cons_NoDup [a] (sp_blocks s))].
      * apply concat_perm, perm_skip, P1.
      * repeat constructor. intros [].
      * exact Hn.
      * intros x [<-|[]]. exact Ei.
    + left. reflexivity.
    + exact Hb.
    + apply Permutation_app_comm.
    + exact P2.
    + intros x y. rewrite same_single. symmetry. apply same_perm, P1.
    + apply Hcase; [apply NoDup_no_overlap, N1 | exact N2].
  - apply (index_none s W) in Ei, Ej.
    destruct (merge_raw (sp_blocks s) (sp_blocks s ++ [[a; b]]) [a] [b] (sp_blocks s) [a; b] a b) as [N1 N2].
    + apply concat_cons_NoDup; [repeat constructor; intros [] | |].
      * apply concat_cons_NoDup; [repeat constructor; intros [] | exact Hn|].
        intros x [<-|[]]. exact Ej.
      * intros x [<-|[]]. cbn [concat app In]. intros [H|H]; [congruence | contradiction].
    + left. reflexivity.
    + left. reflexivity.
    + reflexivity.
    + symmetry. apply Permutation_cons_append.
    + intros x y. rewrite !same_single. reflexivity.
    + apply Hcase; [apply NoDup_no_overlap, N1 | exact N2].
Qed.
