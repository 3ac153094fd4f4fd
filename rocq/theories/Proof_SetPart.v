(** Proof_SetPart: lists and dicts of integers, the constructor of SetPart, uniqueness of
    canonical block lists. *)

From Coq Require Import List Arith ZArith Bool Lia Permutation Sorting.Sorted Relations.
From Verif Require Import Model_Base Lib Model_SetPart Spec_SetPart.
Import ListNotations.
Open Scope Z_scope.

(** * Lists of integers *)

Lemma NoDup_app_remove_l {A} (a b : list A) : NoDup (a ++ b) -> NoDup b.
Proof. induction a as [|x a IH]; [auto|]. cbn [app]. intro H. inversion H; auto. Qed.
Lemma NoDup_app_remove_r {A} (a b : list A) : NoDup (a ++ b) -> NoDup a.
Proof.
  induction a as [|x a IH]; [constructor|]. cbn [app]. intro H. inversion H as [|? ? H1 H2]; subst.
  constructor; [|auto]. intro Hx. apply H1, in_app_iff. left. exact Hx.
Qed.

Lemma zmemb_In x l : zmemb x l = true <-> In x l.
Proof.
  unfold zmemb. rewrite existsb_exists. split.
  - intros [y [Hy E]]. apply Z.eqb_eq in E. subst. exact Hy.
  - intro H. exists x. split; [exact H | apply Z.eqb_refl].
Qed.
Lemma zmemb_false x l : zmemb x l = false <-> ~ In x l.
Proof. rewrite <- zmemb_In. destruct (zmemb x l); split; congruence. Qed.

Lemma znodup_In x l : In x (znodup l) <-> In x l.
Proof.
  induction l as [|y l IH]; [reflexivity|]. cbn [znodup].
  destruct (zmemb y l) eqn:E.
  - rewrite IH. split; [right; assumption | intros [<-|H]; [apply zmemb_In; exact E | exact H]].
  - cbn [In]. rewrite IH. reflexivity.
Qed.
Lemma znodup_NoDup l : NoDup (znodup l).
Proof.
  induction l as [|y l IH]; [constructor|]. cbn [znodup].
  destruct (zmemb y l) eqn:E; [exact IH|]. constructor; [|exact IH].
  rewrite znodup_In. apply zmemb_false. exact E.
Qed.
Lemma znodup_id l : NoDup l -> znodup l = l.
Proof.
  induction 1 as [|x l Hn Hd IH]; [reflexivity|]. cbn [znodup].
  apply zmemb_false in Hn. rewrite Hn, IH. reflexivity.
Qed.
Lemma zunion_In x a b : In x (zunion a b) <-> In x a \/ In x b.
Proof. unfold zunion. rewrite znodup_In, in_app_iff. reflexivity. Qed.
Lemma zinter_In x a b : In x (zinter a b) <-> In x a /\ In x b.
Proof. unfold zinter. rewrite filter_In, zmemb_In. reflexivity. Qed.
Lemma zdiff_In x a b : In x (zdiff a b) <-> In x a /\ ~ In x b.
Proof. unfold zdiff. rewrite filter_In, negb_true_iff, zmemb_false. reflexivity. Qed.
Lemma zsubset_spec a b : zsubset a b = true <-> forall x, In x a -> In x b.
Proof.
  unfold zsubset. rewrite forallb_forall. split; intros H x Hx; apply zmemb_In, H, Hx.
Qed.
Lemma zrange_In x a b : In x (zrange a b) <-> a <= x < b.
Proof.
  unfold zrange. rewrite in_map_iff. split.
  - intros [k [<- Hk]]. apply in_seq in Hk. lia.
  - intro H. exists (Z.to_nat (x - a)). split; [lia|]. apply in_seq. lia.
Qed.
Lemma zrange_length a b : length (zrange a b) = Z.to_nat (b - a).
Proof. unfold zrange. rewrite map_length, seq_length. reflexivity. Qed.
Lemma zrange_NoDup a b : NoDup (zrange a b).
Proof.
  unfold zrange. apply FinFun.Injective_map_NoDup; [|apply seq_NoDup].
  intros x y H. lia.
Qed.

Lemma zleb_total x y : Z.leb x y = true \/ Z.leb y x = true.
Proof. rewrite !Z.leb_le. lia. Qed.
Lemma zleb_trans x y z : Z.leb x y = true -> Z.leb y z = true -> Z.leb x z = true.
Proof. rewrite !Z.leb_le. lia. Qed.
Lemma zleb_antisym x y : Z.leb x y = true -> Z.leb y x = true -> x = y.
Proof. rewrite !Z.leb_le. lia. Qed.

Lemma zsort_perm l : Permutation l (zsort l).
Proof. apply isort_perm. Qed.
Lemma zsort_In x l : In x (zsort l) <-> In x l.
Proof. split; apply Permutation_in; [symmetry|]; apply zsort_perm. Qed.
Lemma zsort_length l : length (zsort l) = length l.
Proof. symmetry. apply Permutation_length, zsort_perm. Qed.
Lemma zsort_sorted l : NoDup l -> StronglySorted Z.lt (zsort l).
Proof.
  intro Hn. assert (H := isort_sorted Z.leb zleb_total zleb_trans l). fold zsort in H.
  assert (Hn' : NoDup (zsort l)) by (eapply Permutation_NoDup; [apply zsort_perm | exact Hn]).
  induction H as [|x m Hs IH Hf]; constructor.
  - apply IH. inversion Hn'; assumption.
  - inversion Hn' as [|? ? Hx Hm]; subst. rewrite Forall_forall in *. intros y Hy.
    specialize (Hf y Hy). apply Z.leb_le in Hf.
    assert (x <> y) by (intros ->; contradiction). lia.
Qed.
Lemma zsorted_NoDup l : StronglySorted Z.lt l -> NoDup l.
Proof.
  induction 1 as [|x l Hs IH Hf]; constructor; [|exact IH].
  intro Hx. rewrite Forall_forall in Hf. specialize (Hf x Hx). lia.
Qed.
Lemma zsorted_leb l : StronglySorted Z.lt l -> StronglySorted (fun x y => Z.leb x y = true) l.
Proof.
  induction 1 as [|x l Hs IH Hf]; constructor; [exact IH|].
  eapply Forall_impl; [|exact Hf]. intros y Hy. cbn. apply Z.leb_le. lia.
Qed.
Lemma zsort_id l : StronglySorted Z.lt l -> zsort l = l.
Proof.
  intro H. apply (sorted_perm_eq Z.leb zleb_antisym).
  - apply isort_sorted; [apply zleb_total | apply zleb_trans].
  - apply zsorted_leb, H.
  - symmetry. apply zsort_perm.
Qed.
Lemma zsorted_perm_eq l1 l2 :
  StronglySorted Z.lt l1 -> StronglySorted Z.lt l2 -> Permutation l1 l2 -> l1 = l2.
Proof.
  intros H1 H2. apply (sorted_perm_eq Z.leb zleb_antisym); apply zsorted_leb; assumption.
Qed.
Lemma zsorted_ext l1 l2 :
  StronglySorted Z.lt l1 -> StronglySorted Z.lt l2 -> (forall x, In x l1 <-> In x l2) -> l1 = l2.
Proof.
  intros H1 H2 H. apply zsorted_perm_eq; try assumption.
  apply NoDup_Permutation; try apply zsorted_NoDup; assumption.
Qed.

Lemma zlist_eqb_eq a b : zlist_eqb a b = true <-> a = b.
Proof.
  revert b; induction a as [|x a IH]; intros [|y b]; cbn [zlist_eqb]; try (split; congruence).
  rewrite andb_true_iff, Z.eqb_eq, IH. split; [intros [-> ->]; reflexivity | intros [= -> ->]; auto].
Qed.
Lemma zlist_eqb_neq a b : zlist_eqb a b = false <-> a <> b.
Proof. rewrite <- zlist_eqb_eq. destruct (zlist_eqb a b); split; congruence. Qed.
Lemma zlist_eqb_refl a : zlist_eqb a a = true.
Proof. apply zlist_eqb_eq. reflexivity. Qed.
Lemma blocks_eqb_eq a b : blocks_eqb a b = true <-> a = b.
Proof.
  revert b; induction a as [|x a IH]; intros [|y b]; cbn [blocks_eqb]; try (split; congruence).
  rewrite andb_true_iff, zlist_eqb_eq, IH. split; [intros [-> ->]; reflexivity | intros [= -> ->]; auto].
Qed.
Lemma block_memb_In x l : block_memb x l = true <-> In x l.
Proof.
  unfold block_memb. rewrite existsb_exists. split.
  - intros [y [Hy E]]. apply zlist_eqb_eq in E. subst. exact Hy.
  - intro H. exists x. split; [exact H | apply zlist_eqb_refl].
Qed.
Lemma block_remove_perm x l : In x l -> Permutation l (x :: block_remove x l).
Proof.
  induction l as [|y l IH]; [intros []|]. cbn [block_remove].
  destruct (zlist_eqb x y) eqn:E.
  - apply zlist_eqb_eq in E. subst. reflexivity.
  - intros [->|H]; [rewrite zlist_eqb_refl in E; discriminate|].
    etransitivity; [apply perm_skip, IH, H | apply perm_swap].
Qed.

Lemma zlist_leb_total a b : zlist_leb a b = true \/ zlist_leb b a = true.
Proof.
  revert b; induction a as [|x a IH]; intros [|y b]; cbn [zlist_leb]; auto.
  destruct (IH b) as [H|H]; rewrite H;
    destruct (Z.ltb_spec x y), (Z.eqb_spec x y), (Z.ltb_spec y x), (Z.eqb_spec y x);
    cbn; try lia; auto.
Qed.
Lemma zlist_leb_trans a b c : zlist_leb a b = true -> zlist_leb b c = true -> zlist_leb a c = true.
Proof.
  revert b c; induction a as [|x a IH]; intros [|y b] [|z c]; cbn [zlist_leb]; try congruence.
  rewrite !orb_true_iff, !andb_true_iff, !Z.ltb_lt, !Z.eqb_eq.
  intros [H1|[H1 H1']] [H2|[H2 H2']]; try (left; lia).
  right. split; [lia | eapply IH; eassumption].
Qed.
Lemma zlist_leb_antisym a b : zlist_leb a b = true -> zlist_leb b a = true -> a = b.
Proof.
  revert b; induction a as [|x a IH]; intros [|y b]; cbn [zlist_leb]; try congruence.
  rewrite !orb_true_iff, !andb_true_iff, !Z.ltb_lt, !Z.eqb_eq.
  intros [H1|[H1 H1']] [H2|[H2 H2']]; try lia.
  f_equal; [lia | apply IH; assumption].
Qed.

(** * The index dict *)

Lemma zdset_get d k v k' : zdget (zdset d k v) k' = if Z.eqb k' k then Some v else zdget d k'.
Proof.
  induction d as [|[k0 v0] d IH]; cbn [zdset zdget]; [reflexivity|].
  destruct (Z.eqb_spec k k0) as [->|Hk]; cbn [zdget].
  - destruct (Z.eqb_spec k' k0); reflexivity.
  - rewrite IH. destruct (Z.eqb_spec k' k0) as [->|]; [|reflexivity].
    destruct (Z.eqb_spec k0 k); [congruence | reflexivity].
Qed.
Lemma zdset_keys d k v x : In x (map fst (zdset d k v)) <-> x = k \/ In x (map fst d).
Proof.
  induction d as [|[k0 v0] d IH]; cbn [zdset map fst In]; [intuition congruence|].
  destruct (Z.eqb_spec k k0) as [->|Hk]; cbn [map fst In]; [intuition congruence|].
  rewrite IH. intuition congruence.
Qed.
Lemma zdset_NoDup d k v : NoDup (map fst d) -> NoDup (map fst (zdset d k v)).
Proof.
  induction d as [|[k0 v0] d IH]; cbn [zdset map fst]; intro H; [repeat constructor; intros []|].
  inversion H as [|? ? H1 H2]; subst.
  destruct (Z.eqb_spec k k0) as [->|Hk]; cbn [map fst]; constructor; auto.
  rewrite zdset_keys. intros [->|Hin]; [congruence | contradiction].
Qed.
Lemma zdget_keys d x : (exists i, zdget d x = Some i) <-> In x (map fst d).
Proof.
  induction d as [|[k v] d IH]; cbn [zdget map fst In]; [split; [intros [i H]; discriminate | intros []]|].
  destruct (Z.eqb_spec x k) as [->|Hk].
  - split; [left; reflexivity | intros _; eauto].
  - rewrite IH. intuition congruence.
Qed.
Lemma zdget_none d x : zdget d x = None <-> ~ In x (map fst d).
Proof.
  rewrite <- zdget_keys. destruct (zdget d x); split; try congruence; intro H.
  - exfalso. apply H. eauto.
  - intros [i Hi]. discriminate.
Qed.

Lemma fold_zdset_keys (b : list Z) k d x :
  In x (map fst (fold_left (fun d e => zdset d e k) b d)) <-> In x b \/ In x (map fst d).
Proof.
  revert d; induction b as [|y b IH]; intro d; cbn [fold_left In]; [tauto|].
  rewrite IH, zdset_keys. intuition congruence.
Qed.
Lemma fold_zdset_NoDup (b : list Z) k d :
  NoDup (map fst d) -> NoDup (map fst (fold_left (fun d e => zdset d e k) b d)).
Proof.
  revert d; induction b as [|y b IH]; intros d H; cbn [fold_left]; [exact H|].
  apply IH, zdset_NoDup, H.
Qed.
Lemma fold_zdset_get (b : list Z) k d x :
  zdget (fold_left (fun d e => zdset d e k) b d) x = if zmemb x b then Some k else zdget d x.
Proof.
  revert d; induction b as [|y b IH]; intro d; cbn [fold_left]; [reflexivity|].
  rewrite IH, zdset_get. cbn [zmemb existsb]. fold (zmemb x b).
  destruct (Z.eqb x y), (zmemb x b); reflexivity.
Qed.
Lemma index_blocks_keys bs k d x :
  In x (map fst (index_blocks bs k d)) <-> In x (concat bs) \/ In x (map fst d).
Proof.
  revert k d; induction bs as [|b bs IH]; intros k d; cbn [index_blocks concat In]; [tauto|].
  rewrite IH, fold_zdset_keys, in_app_iff. tauto.
Qed.
Lemma index_blocks_NoDup bs k d : NoDup (map fst d) -> NoDup (map fst (index_blocks bs k d)).
Proof.
  revert k d; induction bs as [|b bs IH]; intros k d H; cbn [index_blocks]; [exact H|].
  apply IH, fold_zdset_NoDup, H.
Qed.
Lemma index_blocks_get bs k d x i : NoDup (concat bs) ->
  (zdget (index_blocks bs k d) x = Some i <->
   (exists j b, nth_error bs j = Some b /\ In x b /\ i = (k + j)%nat) \/
   (~ In x (concat bs) /\ zdget d x = Some i)).
Proof.
  revert k d; induction bs as [|b bs IH]; intros k d Hn; cbn [index_blocks concat].
  - split; [intro H; right; auto | intros [(j & b & H & _)|[_ H]]; [destruct j; discriminate | exact H]].
  - cbn [concat] in Hn. assert (Hn2 : NoDup (concat bs)) by (eapply NoDup_app_remove_l; exact Hn).
    rewrite (IH (S k) _ Hn2), fold_zdset_get, in_app_iff.
    destruct (zmemb x b) eqn:E.
    + apply zmemb_In in E.
      assert (Hnot : ~ In x (concat bs)).
      { intro Hc. clear IH Hn2. induction b as [|y b IHb]; [destruct E|].
        cbn [app] in Hn. inversion Hn as [|? ? Hy Hn']; subst.
        destruct E as [->|E]; [apply Hy, in_app_iff; right; exact Hc | apply (IHb Hn' E)]. }
      split.
      * intros [(j & b' & Hj & Hx & ->)|[_ [= ->]]].
        -- exfalso. apply Hnot, in_concat. exists b'. split; [eapply nth_error_In; exact Hj | exact Hx].
        -- left. exists 0%nat, b. repeat split; [exact E | lia].
      * intros [(j & b' & Hj & Hx & ->)|[Hc _]]; [|tauto].
        destruct j as [|j]; cbn [nth_error] in Hj.
        -- right. split; [exact Hnot | f_equal; lia].
        -- exfalso. apply Hnot, in_concat. exists b'. split; [eapply nth_error_In; exact Hj | exact Hx].
    + apply zmemb_false in E. split.
      * intros [(j & b' & Hj & Hx & ->)|[Hc Hd]].
        -- left. exists (S j), b'. repeat split; [exact Hj | exact Hx | lia].
        -- right. tauto.
      * intros [(j & b' & Hj & Hx & ->)|[Hc Hd]]; [|tauto].
        destruct j as [|j]; cbn [nth_error] in Hj.
        -- injection Hj as ->. contradiction.
        -- left. exists j, b'. repeat split; [exact Hj | exact Hx | lia].
Qed.

Lemma sum_length_concat (bs : list (list Z)) : list_sum_nat (map (@length Z) bs) = length (concat bs).
Proof.
  induction bs as [|b bs IH]; [reflexivity|]. cbn [map concat]. rewrite app_length, <- IH. reflexivity.
Qed.

Lemma index_length bs :
  length (index_blocks bs 0 []) = list_sum_nat (map (@length Z) bs) <-> NoDup (concat bs).
Proof.
  rewrite sum_length_concat, <- (map_length fst (index_blocks bs 0 [])).
  assert (Hn : NoDup (map fst (index_blocks bs 0 []))) by (apply index_blocks_NoDup; constructor).
  assert (Hk : forall x, In x (map fst (index_blocks bs 0 [])) <-> In x (concat bs)).
  { intro x. rewrite index_blocks_keys. cbn [map In]. tauto. }
  split; intro H.
  - eapply NoDup_incl_NoDup; [exact Hn | rewrite H; apply le_n | intros x; apply Hk].
  - apply Permutation_length, NoDup_Permutation; assumption.
Qed.

(** * Disjoint blocks *)

Lemma NoDup_concat_block (bs : list (list Z)) b : NoDup (concat bs) -> In b bs -> NoDup b.
Proof.
  induction bs as [|c bs IH]; [intros _ []|]. cbn [concat]. intros Hn [->|H].
  - eapply NoDup_app_remove_r, Hn.
  - apply IH; [eapply NoDup_app_remove_l, Hn | exact H].
Qed.
Lemma NoDup_app_disj {A} (a b : list A) x : NoDup (a ++ b) -> In x a -> In x b -> False.
Proof.
  induction a as [|y a IH]; [intros _ []|]. cbn [app]. intros Hn Hx Hb.
  inversion Hn as [|? ? Hy Hn']; subst. destruct Hx as [->|Hx]; [|apply IH; assumption].
  apply Hy, in_app_iff. right. exact Hb.
Qed.
Lemma NoDup_concat_disj (bs : list (list Z)) b c x : NoDup (concat bs) -> In b bs -> In c bs -> In x b -> In x c -> b = c.
Proof.
  induction bs as [|d bs IH]; [intros _ []|]. cbn [concat]. intros Hn Hb Hc Hxb Hxc.
  destruct Hb as [->|Hb], Hc as [->|Hc].
  - reflexivity.
  - exfalso. eapply NoDup_app_disj; [exact Hn | exact Hxb | apply in_concat; eauto].
  - exfalso. eapply NoDup_app_disj; [exact Hn | exact Hxc | apply in_concat; eauto].
  - apply IH; try assumption. eapply NoDup_app_remove_l, Hn.
Qed.

Lemma concat_perm (a b : list (list Z)) : Permutation a b -> Permutation (concat a) (concat b).
Proof.
  induction 1 as [|x a b H IH|x y a|a b c H1 IH1 H2 IH2]; cbn [concat].
  - constructor.
  - apply Permutation_app_head, IH.
  - rewrite !app_assoc. apply Permutation_app_tail, Permutation_app_comm.
  - etransitivity; eassumption.
Qed.
Lemma concat_map_zsort_perm bs : Permutation (concat bs) (concat (map zsort bs)).
Proof.
  induction bs as [|b bs IH]; [constructor|]. cbn [map concat]. apply Permutation_app; [apply zsort_perm | exact IH].
Qed.

Lemma together_perm a b x y : Permutation a b -> together a x y <-> together b x y.
Proof.
  intro H. split; intros (c & Hc & Hx & Hy); exists c; repeat split; try assumption.
  - eapply Permutation_in; eassumption.
  - eapply Permutation_in; [symmetry; exact H | exact Hc].
Qed.
Lemma together_zsort bs x y : together (map zsort bs) x y <-> together bs x y.
Proof.
  split.
  - intros (c & Hc & Hx & Hy). apply in_map_iff in Hc as (b & <- & Hb).
    exists b. rewrite zsort_In in Hx, Hy. auto.
  - intros (b & Hb & Hx & Hy). exists (zsort b). split; [apply in_map, Hb|]. rewrite !zsort_In. auto.
Qed.
Lemma together_filter bs x y : x <> y ->
  together (filter (fun b => Nat.ltb 1 (length b)) bs) x y <-> together bs x y.
Proof.
  intro Hxy. split; intros (b & Hb & Hx & Hy).
  - apply filter_In in Hb as [Hb _]. exists b; auto.
  - exists b. split; [|auto]. apply filter_In. split; [exact Hb|]. apply Nat.ltb_lt.
    destruct b as [|u [|v b]]; [destruct Hx | | cbn [length]; lia].
    destruct Hx as [<-|[]], Hy as [<-|[]]. congruence.
Qed.
Lemma same_sym bs x y : same bs x y -> same bs y x.
Proof. intros [->|(b & Hb & Hx & Hy)]; [left; reflexivity | right; exists b; auto]. Qed.
Lemma together_sym bs x y : together bs x y -> together bs y x.
Proof. intros (b & Hb & Hx & Hy). exists b; auto. Qed.
Lemma together_trans bs x y z : NoDup (concat bs) -> together bs x y -> together bs y z -> together bs x z.
Proof.
  intros Hn (b & Hb & Hx & Hy) (c & Hc & Hy' & Hz).
  rewrite <- (NoDup_concat_disj bs b c y Hn Hb Hc Hy Hy') in Hz. exists b; auto.
Qed.
Lemma same_trans bs x y z : NoDup (concat bs) -> same bs x y -> same bs y z -> same bs x z.
Proof.
  intros Hn [->|H1] [->|H2]; [left; reflexivity | right; exact H2 | right; exact H1|].
  right. eapply together_trans; eassumption.
Qed.
Lemma together_concat bs x : together bs x x <-> In x (concat bs).
Proof.
  rewrite in_concat. split; intros (b & H); exists b; tauto.
Qed.

(** ** canonical lists *)

Lemma canonical_NoDup bs : canonical bs -> NoDup (concat bs).
Proof.
  intros (H1 & H2 & H3). induction H3 as [|b bs Hs IH Hf]; [constructor|].
  cbn [concat].
  assert (Hb : NoDup b) by (apply zsorted_NoDup, H1; left; reflexivity).
  assert (Hbs : NoDup (concat bs)).
  { apply IH; [intros c Hc; apply H1; right; exact Hc|].
    intros c d x Hc Hd. apply H2; right; assumption. }
  clear IH. assert (Hd : forall x, In x b -> ~ In x (concat bs)).
  { intros x Hx Hc. apply in_concat in Hc as (c & Hc & Hxc).
    assert (E : b = c) by (eapply H2; [left; reflexivity | right; exact Hc | exact Hx | exact Hxc]).
    subst c. rewrite Forall_forall in Hf. specialize (Hf b Hc). lia. }
  clear - Hb Hbs Hd. induction Hb as [|x b Hx Hb IH]; [exact Hbs|].
  cbn [app]. constructor.
  - rewrite in_app_iff. intros [H|H]; [contradiction|]. apply (Hd x); [left; reflexivity | exact H].
  - apply IH. intros y Hy. apply Hd. right. exact Hy.
Qed.

Lemma sorted_hd_le b x : StronglySorted Z.lt b -> In x b -> hd 0 b <= x.
Proof.
  intros H Hx. destruct H as [|y b Hs Hf]; [destruct Hx|]. cbn [hd].
  destruct Hx as [->|Hx]; [lia|]. rewrite Forall_forall in Hf. specialize (Hf x Hx). lia.
Qed.
Lemma hd_In (b : list Z) : (2 <= length b)%nat -> In (hd 0 b) b.
Proof. destruct b; cbn [length hd In]; [lia | auto]. Qed.
Lemma other_element (b : list Z) x : (2 <= length b)%nat -> NoDup b -> exists y, In y b /\ y <> x.
Proof.
  destruct b as [|u [|v b]]; cbn [length]; try lia. intros _ Hn.
  destruct (Z.eq_dec u x) as [->|]; [|exists u; cbn; auto].
  exists v. split; [cbn; auto|]. inversion Hn as [|? ? H _]; subst. intros ->. apply H. left. reflexivity.
Qed.

Lemma isort_canonical bs : (forall b, In b bs -> (2 <= length b)%nat) -> NoDup (concat bs) ->
  canonical (isort zlist_leb (map zsort bs)).
Proof.
  intros Hl Hn. assert (Hp := isort_perm zlist_leb (map zsort bs)).
  set (r := isort zlist_leb (map zsort bs)) in *.
  assert (Hn2 : NoDup (concat r)).
  { eapply Permutation_NoDup; [apply concat_perm, Hp|].
    eapply Permutation_NoDup; [apply concat_map_zsort_perm | exact Hn]. }
  assert (H1 : forall b, In b r -> (2 <= length b)%nat /\ StronglySorted Z.lt b).
  { intros b Hb. apply (Permutation_in _ (Permutation_sym Hp)) in Hb.
    apply in_map_iff in Hb as (c & <- & Hc). split; [rewrite zsort_length; apply Hl, Hc|].
    apply zsort_sorted, (NoDup_concat_block bs); assumption. }
  split; [exact H1|]. split; [intros b c x; apply NoDup_concat_disj, Hn2|].
  assert (Hs := isort_sorted zlist_leb zlist_leb_total zlist_leb_trans (map zsort bs)).
  fold r in Hs. clearbody r. clear Hp Hn Hl. induction Hs as [|b r Hs IH Hf]; constructor.
  - apply IH; [eapply NoDup_app_remove_l, Hn2 | intros c Hc; apply H1; right; exact Hc].
  - rewrite Forall_forall in *. intros c Hc. specialize (Hf c Hc).
    destruct (H1 b (or_introl eq_refl)) as [Hb _]. destruct (H1 c (or_intror Hc)) as [Hc' _].
    assert (hd 0 b <> hd 0 c).
    { intro E. cbn [concat] in Hn2. apply (NoDup_app_disj _ _ (hd 0 b) Hn2); [apply hd_In, Hb|].
      rewrite E. apply in_concat. exists c. split; [exact Hc | apply hd_In, Hc']. }
    destruct b as [|u b]; [cbn in Hb; lia|]. destruct c as [|v c]; [cbn in Hc'; lia|].
    cbn [zlist_leb hd] in *. rewrite orb_true_iff, andb_true_iff, Z.ltb_lt, Z.eqb_eq in Hf. lia.
Qed.

Lemma canonical_hd_NoDup bs : canonical bs -> NoDup bs.
Proof.
  intros (_ & _ & H). induction H as [|b bs Hs IH Hf]; constructor; [|exact IH].
  intro Hb. rewrite Forall_forall in Hf. specialize (Hf b Hb). lia.
Qed.

(** canonical lists with the same relation are equal *)
Lemma canonical_ext a b : canonical a -> canonical b ->
  (forall x y, x <> y -> together a x y <-> together b x y) -> a = b.
Proof.
  assert (Hin : forall a b, canonical a -> canonical b ->
    (forall x y, x <> y -> together a x y <-> together b x y) -> forall c, In c a -> In c b).
  { clear. intros a b Ha Hb H c Hc.
    assert (Hna := canonical_NoDup a Ha). assert (Hnb := canonical_NoDup b Hb).
    destruct Ha as (Ha1 & Ha2 & _). destruct Hb as (Hb1 & Hb2 & _).
    destruct (Ha1 c Hc) as [Hl Hs].
    destruct (other_element c (hd 0 c) Hl (zsorted_NoDup c Hs)) as (y & Hy & Hyn).
    assert (Ht : together b (hd 0 c) y).
    { apply H; [auto|]. exists c. repeat split; [exact Hc | apply hd_In, Hl | exact Hy]. }
    destruct Ht as (d & Hd & Hhd & Hyd).
    assert (E : c = d); [|subst; exact Hd].
    destruct (Hb1 d Hd) as [Hld Hsd]. apply zsorted_ext; try assumption.
    intro z. destruct (Z.eq_dec z (hd 0 c)) as [->|Hz]; [split; intros _; [exact Hhd | apply hd_In, Hl]|].
    split; intro Hz'.
    - assert (T : together b (hd 0 c) z).
      { apply H; [auto|]. exists c. repeat split; [exact Hc | apply hd_In, Hl | exact Hz']. }
      destruct T as (e & He & Hhe & Hze). rewrite (Hb2 d e (hd 0 c)); assumption.
    - assert (T : together a (hd 0 c) z).
      { apply H; [auto|]. exists d. repeat split; assumption. }
      destruct T as (e & He & Hhe & Hze). rewrite (Ha2 c e (hd 0 c)); try assumption. apply hd_In, Hl. }
  intros Ha Hb H.
  assert (Hp : Permutation a b).
  { apply NoDup_Permutation; try (apply canonical_hd_NoDup; assumption).
    intro c. split; [apply (Hin a b); assumption|].
    apply (Hin b a); try assumption. intros x y Hxy. symmetry. apply H, Hxy. }
  destruct Ha as (_ & _ & Ha). destruct Hb as (_ & _ & Hb). clear - Ha Hb Hp.
  revert b Hb Hp. induction Ha as [|c a Hs IH Hf]; intros b Hb Hp.
  - apply Permutation_nil in Hp. congruence.
  - destruct Hb as [|d b Hs' Hf']; [symmetry in Hp; apply Permutation_nil in Hp; discriminate|].
    assert (c = d) as ->.
    { assert (Hc : In c (d :: b)) by (eapply Permutation_in; [exact Hp | left; reflexivity]).
      assert (Hd : In d (c :: a)) by (eapply Permutation_in; [symmetry; exact Hp | left; reflexivity]).
      destruct Hc as [Hc|Hc]; [congruence|]. destruct Hd as [Hd|Hd]; [congruence|].
      rewrite Forall_forall in Hf, Hf'. specialize (Hf d Hd). specialize (Hf' c Hc). lia. }
    f_equal. apply IH; [exact Hs' | eapply Permutation_cons_inv; exact Hp].
Qed.

(** * The object *)

Definition index_ok (blocks : list (list Z)) (index : zdict) : Prop :=
  NoDup (map fst index) /\
  forall x i, zdget index x = Some i <-> exists b, nth_error blocks i = Some b /\ In x b.

Definition length_ok (s : setpart) : Prop :=
  match sp_domain s, sp_length s with
  | DomN, Some n => match sp_blocks s with [] => n = 0 | _ => is_max (concat (sp_blocks s)) (n - 1) end
  | DomN, None => False
  | _, None => True
  | _, Some _ => False
  end.

Definition labels_ok (ls : labels) : Prop := NoDup (map fst ls) /\ NoDup (map snd ls).

Definition dom_ok (d : domain) : Prop := match d with DomSet l => NoDup l | _ => True end.

Record sp_wf (s : setpart) : Prop := mk_wf {
  wf_canonical : canonical (sp_blocks s);
  wf_index : index_ok (sp_blocks s) (sp_index s);
  wf_length : length_ok s;
  wf_labels : labels_ok (sp_labels s);
  wf_dom : dom_ok (sp_domain s)
}.

Definition norm_dom (d : domain) : domain := match d with DomSet l => DomSet (znodup l) | d => d end.

Lemma norm_dom_id d : dom_ok d -> norm_dom d = d.
Proof. destruct d; cbn; intro H; try reflexivity. rewrite znodup_id; auto. Qed.

Lemma zmax_list_spec l x : is_max (x :: l) (zmax_list x l).
Proof.
  unfold zmax_list. revert x; induction l as [|y l IH]; intro x; cbn [fold_left].
  - split; [left; reflexivity | intros z [->|[]]; lia].
  - destruct (IH (Z.max x y)) as [H1 H2]. split.
    + destruct H1 as [H1|H1]; [|right; right; exact H1].
      rewrite <- H1. destruct (Z.max_spec x y) as [[_ ->]|[_ ->]]; [right; left | left]; reflexivity.
    + intros z [->|[->|Hz]]; [| |apply H2; right; exact Hz];
        specialize (H2 _ (or_introl eq_refl)); lia.
Qed.
Lemma zmin_list_spec l x : In (zmin_list x l) (x :: l) /\ forall y, In y (x :: l) -> zmin_list x l <= y.
Proof.
  unfold zmin_list. revert x; induction l as [|y l IH]; intro x; cbn [fold_left].
  - split; [left; reflexivity | intros z [->|[]]; lia].
  - destruct (IH (Z.min x y)) as [H1 H2]. split.
    + destruct H1 as [H1|H1]; [|right; right; exact H1].
      rewrite <- H1. destruct (Z.min_spec x y) as [[_ ->]|[_ ->]]; [left | right; left]; reflexivity.
    + intros z [->|[->|Hz]]; [| |apply H2; right; exact Hz];
        specialize (H2 _ (or_introl eq_refl)); lia.
Qed.

(** bidict *)

Lemma label_get_In d b l : NoDup (map fst d) -> label_get d b = Some l <-> In (b, l) d.
Proof.
  induction d as [|[b' l'] d IH]; cbn [label_get map fst In]; [split; [discriminate | intros []]|].
  intro Hn. inversion Hn as [|? ? H1 H2]; subst.
  destruct (zlist_eqb b b') eqn:E.
  - apply zlist_eqb_eq in E. subst b'. split; [intros [= ->]; left; reflexivity|].
    intros [[= ->]|H]; [reflexivity|]. exfalso. apply H1. apply in_map_iff. exists (b, l). auto.
  - apply zlist_eqb_neq in E. rewrite (IH H2). split; [right; assumption|].
    intros [[= -> ->]|H]; [congruence | exact H].
Qed.
Lemma label_get_none d b : label_get d b = None <-> ~ In b (map fst d).
Proof.
  induction d as [|[b' l'] d IH]; cbn [label_get map fst In]; [tauto|].
  destruct (zlist_eqb b b') eqn:E.
  - apply zlist_eqb_eq in E. subst b'. split; [discriminate | tauto].
  - apply zlist_eqb_neq in E. rewrite IH. intuition congruence.
Qed.
Lemma label_inv_In d b l : NoDup (map snd d) -> label_inv d l = Some b <-> In (b, l) d.
Proof.
  induction d as [|[b' l'] d IH]; cbn [label_inv map snd In]; [split; [discriminate | intros []]|].
  intro Hn. inversion Hn as [|? ? H1 H2]; subst.
  destruct (Z.eqb_spec l l') as [<-|E].
  - split; [intros [= ->]; left; reflexivity|].
    intros [[= ->]|H]; [reflexivity|]. exfalso. apply H1. apply in_map_iff. exists (b, l). auto.
  - rewrite (IH H2). split; [right; assumption|].
    intros [[= -> ->]|H]; [congruence | exact H].
Qed.
Lemma label_inv_none d l : label_inv d l = None <-> ~ In l (map snd d).
Proof.
  induction d as [|[b' l'] d IH]; cbn [label_inv map snd In]; [tauto|].
  destruct (Z.eqb_spec l l') as [<-|E].
  - split; [discriminate | tauto].
  - rewrite IH. intuition congruence.
Qed.
Lemma label_pop_In d b p : In p (label_pop d b) <-> In p d /\ fst p <> b.
Proof.
  unfold label_pop. rewrite filter_In, negb_true_iff, zlist_eqb_neq. intuition congruence.
Qed.
Lemma NoDup_map_filter {A B} (f : A -> B) p l : NoDup (map f l) -> NoDup (map f (filter p l)).
Proof.
  induction l as [|x l IH]; cbn [map filter]; intro H; [constructor|].
  inversion H as [|? ? H1 H2]; subst. destruct (p x); [|apply IH, H2].
  cbn [map]. constructor; [|apply IH, H2]. intro Hin. apply H1.
  apply in_map_iff in Hin as (y & <- & Hy). apply in_map. apply filter_In in Hy. tauto.
Qed.
Lemma label_pop_ok d b : labels_ok d -> labels_ok (label_pop d b).
Proof. intros [H1 H2]. split; apply NoDup_map_filter; assumption. Qed.
Lemma label_pop_id d b : ~ In b (map fst d) -> label_pop d b = d.
Proof.
  unfold label_pop. induction d as [|[b' l] d IH]; cbn [map fst In filter]; intro H; [reflexivity|].
  destruct (zlist_eqb b b') eqn:E.
  - apply zlist_eqb_eq in E. subst. tauto.
  - cbn [negb]. rewrite IH by tauto. reflexivity.
Qed.
Lemma NoDup_snoc {A} (l : list A) x : NoDup l -> ~ In x l -> NoDup (l ++ [x]).
Proof.
  intros Hn Hx. eapply Permutation_NoDup; [apply Permutation_cons_append|]. constructor; assumption.
Qed.
Lemma label_put_new d b l : labels_ok d -> ~ In l (map snd d) ->
  exists d', label_put d b l = Ok d' /\ labels_ok d' /\
    forall p, In p d' <-> p = (b, l) \/ (In p d /\ fst p <> b).
Proof.
  intros Hok Hl. unfold label_put. apply label_inv_none in Hl as E. rewrite E.
  exists (label_pop d b ++ [(b, l)]). split; [reflexivity|]. split.
  - destruct (label_pop_ok d b Hok) as [H1 H2]. unfold labels_ok. rewrite !map_app. cbn [map fst snd].
    split; apply NoDup_snoc; try assumption.
    + rewrite in_map_iff. intros (p & Hp1 & Hp2). apply label_pop_In in Hp2. tauto.
    + rewrite in_map_iff. intros (p & Hp1 & Hp2). apply label_pop_In in Hp2 as [Hp2 _].
      apply Hl. apply in_map_iff. exists p. auto.
  - intro p. rewrite in_app_iff, label_pop_In. cbn [In]. intuition congruence.
Qed.
Lemma label_put_same d b l : labels_ok d -> In (b, l) d -> label_put d b l = Ok d.
Proof.
  intros [_ H2] H. unfold label_put. apply (label_inv_In d b l H2) in H. rewrite H, zlist_eqb_refl. reflexivity.
Qed.
Lemma label_put_dup d b b' l : labels_ok d -> In (b', l) d -> b <> b' -> label_put d b l = Err ValueDuplicationError.
Proof.
  intros [_ H2] H Hb. unfold label_put. apply (label_inv_In d b' l H2) in H. rewrite H.
  apply zlist_eqb_neq in Hb. rewrite Hb. reflexivity.
Qed.
Lemma label_put_ok d b l d' : labels_ok d -> label_put d b l = Ok d' -> labels_ok d'.
Proof.
  intros Hok H. destruct (label_inv d l) as [b'|] eqn:E.
  - unfold label_put in H. rewrite E in H. destruct (zlist_eqb b b'); [|discriminate]. congruence.
  - apply label_inv_none in E. destruct (label_put_new d b l Hok E) as (d2 & H1 & H2 & _). congruence.
Qed.
Lemma bidict_of_ok d : labels_ok d -> bidict_of d = Ok d.
Proof.
  unfold bidict_of. enough (forall a, labels_ok (a ++ d) ->
    foldM (fun acc p => label_put acc (fst p) (snd p)) d a = Ok (a ++ d)) as H by (intro Hd; apply (H []), Hd).
  induction d as [|[b l] d IH]; intros a Hok; cbn [foldM]; [rewrite app_nil_r; reflexivity|].
  assert (Ha : labels_ok a /\ ~ In b (map fst a) /\ ~ In l (map snd a)).
  { destruct Hok as [H1 H2]. rewrite map_app in H1, H2. cbn [map fst snd] in H1, H2.
    apply NoDup_remove in H1 as [H1 H1']. apply NoDup_remove in H2 as [H2 H2'].
    rewrite in_app_iff in H1', H2'. split; [|tauto].
    split; eapply NoDup_app_remove_r; eassumption. }
  destruct Ha as (Ha & Hb & Hl). unfold label_put at 1. cbn [fst snd].
  apply label_inv_none in Hl. rewrite Hl. cbn [bind]. rewrite label_pop_id by exact Hb.
  rewrite IH; rewrite <- app_assoc; [reflexivity | exact Hok].
Qed.

(** ** the constructor *)

Definition big (b : list Z) : bool := Nat.ltb 1 (length b).

Lemma no_overlap_big bs : no_overlap bs = NoDup (concat (filter big bs)).
Proof. reflexivity. Qed.

Lemma index_ok_intro bs : NoDup (concat bs) -> index_ok bs (index_blocks bs 0 []).
Proof.
  intro Hn. split; [apply index_blocks_NoDup; constructor|]. intros x i.
  rewrite (index_blocks_get bs 0 [] x i Hn). cbn [zdget]. split.
  - intros [(j & b & Hj & Hx & ->)|[_ H]]; [|discriminate]. exists b. auto.
  - intros (b & Hb & Hx). left. exists i, b. auto.
Qed.

Lemma sp_init_spec c obs dom ols :
  let bs := match obs with Some bs => bs | None => [] end in
  let ls := match ols with Some ls => ls | None => [] end in
  no_overlap bs -> labels_ok ls ->
  exists s, sp_init c obs dom ols = Ok s /\ sp_wf s /\
    sp_domain s = norm_dom dom /\ sp_caches s = c /\
    sp_labels s = match sp_blocks s with [] => [] | _ => ls end /\
    (forall x y, x <> y -> together (sp_blocks s) x y <-> together bs x y).
Proof.
  intros bs ls Hn Hls. unfold sp_init. rewrite no_overlap_big in Hn.
  set (blocks := match obs with None => [] | Some bs => _ end).
  assert (E : blocks = isort zlist_leb (map zsort (filter big bs))) by (destruct obs; reflexivity).
  clearbody blocks.
  assert (Hcan : canonical blocks).
  { rewrite E. apply isort_canonical; [|exact Hn]. intros b Hb. apply filter_In in Hb as [_ Hb].
    apply Nat.ltb_lt in Hb. lia. }
  assert (Ht : forall x y, x <> y -> together blocks x y <-> together bs x y).
  { intros x y Hxy. rewrite E. rewrite <- (together_perm _ _ x y (isort_perm zlist_leb _)).
    rewrite together_zsort. apply together_filter, Hxy. }
  assert (Hnb := canonical_NoDup blocks Hcan).
  fold (norm_dom dom).
  assert (Hdom : dom_ok (norm_dom dom)) by (destruct dom; cbn; auto using znodup_NoDup).
  destruct blocks as [|b0 blocks'] eqn:Eb.
  - eexists. split; [reflexivity|]. cbn [sp_domain sp_caches sp_labels sp_blocks].
    split; [|repeat split; apply Ht; assumption].
    constructor; cbn [sp_domain sp_labels sp_blocks sp_index]; try assumption.
    + split; [constructor|]. intros x i. cbn [zdget]. split; [discriminate|].
      intros (b & Hb & _). destruct i; discriminate.
    + unfold length_ok. cbn [sp_domain sp_length sp_blocks]. destruct dom; cbn; auto.
    + split; constructor.
  - rewrite <- Eb in *. clear E.
    assert (HI := index_ok_intro blocks Hnb).
    apply index_length in Hnb as HL. rewrite HL, Nat.eqb_refl. cbn [true_except bind].
    assert (Hlen : exists len,
      match norm_dom dom with
      | DomN => match map fst (index_blocks blocks 0 []) with
                | [] => Err ValueErr | x :: l => Ok (Some (zmax_list x l + 1)) end
      | _ => Ok None end = Ok len /\
      length_ok (mkSP (norm_dom dom) blocks (index_blocks blocks 0 []) len ls c)).
    { unfold length_ok. cbn [sp_domain sp_length sp_blocks]. destruct (norm_dom dom); [|exists None; auto|exists None; auto].
      destruct (map fst (index_blocks blocks 0 [])) as [|x l] eqn:Ek.
      - exfalso. assert (Hb0 : In b0 blocks) by (rewrite Eb; left; reflexivity).
        destruct Hcan as (H1 & _). destruct (H1 b0 Hb0) as [H2 _].
        assert (Hin : In (hd 0 b0) (map fst (index_blocks blocks 0 []))).
        { apply index_blocks_keys. left. apply in_concat. exists b0. split; [exact Hb0 | apply hd_In, H2]. }
        rewrite Ek in Hin. destruct Hin.
      - exists (Some (zmax_list x l + 1)). split; [reflexivity|].
        enough (HM : is_max (concat blocks) (zmax_list x l + 1 - 1))
          by (clear - HM Eb; destruct blocks; [discriminate | exact HM]).
        destruct (zmax_list_spec l x) as [M1 M2].
        rewrite <- Ek in M1, M2. replace (zmax_list x l + 1 - 1) with (zmax_list x l) by lia. split.
        + apply index_blocks_keys in M1 as [M1|[]]. exact M1.
        + intros y Hy. apply M2, index_blocks_keys. left. exact Hy. }
    destruct Hlen as (len & -> & Hlen). cbn [bind].
    exists (mkSP (norm_dom dom) blocks (index_blocks blocks 0 []) len ls c).
    split; [unfold ls in *; destruct ols as [d|]; [rewrite (bidict_of_ok d Hls)|]; reflexivity|].
    cbn [sp_domain sp_caches sp_labels sp_blocks].
    split; [constructor; assumption|]. repeat split; try (apply Ht; assumption).
    rewrite Eb. reflexivity.
Qed.

(** the constructor rejects exactly overlapping blocks *)
Lemma sp_init_reject c bs dom ols : ~ no_overlap bs ->
  sp_init c (Some bs) dom ols = Err DuplicateElementsError.
Proof.
  intro Hn. rewrite no_overlap_big in Hn. unfold sp_init. fold (norm_dom dom).
  change (fun b => Nat.ltb 1 (length b)) with big.
  set (blocks := isort zlist_leb (map zsort (filter big bs))).
  assert (Hnb : ~ NoDup (concat blocks)).
  { intro H. apply Hn. eapply Permutation_NoDup; [|exact H].
    etransitivity; [apply concat_perm; symmetry; apply isort_perm|].
    symmetry. apply concat_map_zsort_perm. }
  destruct blocks as [|b blocks'] eqn:E; [exfalso; apply Hnb; constructor|]. rewrite <- E in *.
  destruct (Nat.eqb_spec (length (index_blocks blocks 0 [])) (list_sum_nat (map (@length Z) blocks))) as [H|H].
  - apply index_length in H. contradiction.
  - reflexivity.
Qed.

Lemma sp_init_wf c bs dom ols s : labels_ok (match ols with Some ls => ls | None => [] end) ->
  sp_init c bs dom ols = Ok s -> sp_wf s.
Proof.
  intros Hl H. destruct bs as [bs|].
  - destruct (ListDec.NoDup_dec Z.eq_dec (concat (filter big bs))) as [Hn|Hn].
    + destruct (sp_init_spec c (Some bs) dom ols Hn Hl) as (s' & E & W & _). congruence.
    + rewrite (sp_init_reject c bs dom ols Hn) in H. discriminate.
  - destruct (sp_init_spec c None dom ols) as (s' & E & W & _); [constructor | exact Hl | congruence].
Qed.

(** ** lookups *)

Section Lookup.
  Variable s : setpart.
  Hypothesis W : sp_wf s.

  Lemma wf_nodup : NoDup (concat (sp_blocks s)).
  Proof using W. apply canonical_NoDup, W. Qed.

  Lemma index_some x i : zdget (sp_index s) x = Some i ->
    (i < length (sp_blocks s))%nat /\ In (nth i (sp_blocks s) []) (sp_blocks s) /\ In x (nth i (sp_blocks s) []).
  Proof using W.
    intro H. apply (proj2 (wf_index s W)) in H as (b & Hb & Hx).
    assert (Hi : (i < length (sp_blocks s))%nat) by (apply nth_error_Some; congruence).
    assert (E := nth_error_nth _ _ [] Hb). rewrite E. split; [exact Hi|]. split; [eapply nth_error_In; exact Hb | exact Hx].
  Qed.

  Lemma index_none x : zdget (sp_index s) x = None <-> ~ In x (concat (sp_blocks s)).
  Proof using W.
    split.
    - intros H Hin. apply in_concat in Hin as (b & Hb & Hx). apply In_nth_error in Hb as (i & Hi).
      assert (E : zdget (sp_index s) x = Some i) by (apply (wf_index s W); eauto). congruence.
    - intro H. destruct (zdget (sp_index s) x) as [i|] eqn:E; [|reflexivity]. exfalso. apply H.
      apply index_some in E as (_ & H1 & H2). apply in_concat. eauto.
  Qed.

  Lemma non_singletons_In x : In x (sp_non_singletons s) <-> In x (concat (sp_blocks s)).
  Proof using W.
    unfold sp_non_singletons. rewrite <- zdget_keys. split.
    - intros [i Hi]. apply index_some in Hi as (_ & H1 & H2). apply in_concat. eauto.
    - intro H. destruct (zdget (sp_index s) x) as [i|] eqn:E; [eauto|]. apply index_none in E. contradiction.
  Qed.

  Lemma index_eq x y i j : zdget (sp_index s) x = Some i -> zdget (sp_index s) y = Some j ->
    i = j <-> together (sp_blocks s) x y.
  Proof using W.
    intros Hi Hj. split.
    - intros <-. apply index_some in Hi as (_ & H1 & H2). apply index_some in Hj as (_ & _ & H3).
      eexists. eauto.
    - intros (b & Hb & Hx & Hy). apply In_nth_error in Hb as (k & Hk).
      assert (E1 : zdget (sp_index s) x = Some k) by (apply (wf_index s W); eauto).
      assert (E2 : zdget (sp_index s) y = Some k) by (apply (wf_index s W); eauto). congruence.
  Qed.

  Lemma pair_in_same_block_spec x y : pair_in_same_block s x y = true <-> together (sp_blocks s) x y.
  Proof using W.
    unfold pair_in_same_block. destruct (zdget (sp_index s) x) as [i|] eqn:Ei.
    - destruct (zdget (sp_index s) y) as [j|] eqn:Ej.
      + rewrite Nat.eqb_eq. apply index_eq; assumption.
      + split; [discriminate|]. intros (b & Hb & Hx & Hy). apply index_none in Ej. exfalso. apply Ej, in_concat. eauto.
    - split; [discriminate|]. intros (b & Hb & Hx & Hy). apply index_none in Ei. exfalso. apply Ei, in_concat. eauto.
  Qed.

  Lemma element_to_block_In x y : In y (element_to_block s x) <-> same (sp_blocks s) x y.
  Proof using W.
    unfold element_to_block. destruct (zdget (sp_index s) x) as [i|] eqn:E.
    - apply index_some in E as (_ & H1 & H2). split.
      + intro Hy. right. eexists. eauto.
      + intros [<-|(b & Hb & Hx & Hy)]; [exact H2|].
        rewrite (NoDup_concat_disj _ _ b x wf_nodup H1 Hb H2 Hx). exact Hy.
    - apply index_none in E. cbn [In]. split.
      + intros [<-|[]]. left. reflexivity.
      + intros [<-|(b & Hb & Hx & Hy)]; [auto|]. exfalso. apply E, in_concat. eauto.
  Qed.

  Lemma element_to_block_block x : In x (concat (sp_blocks s)) -> In (element_to_block s x) (sp_blocks s).
  Proof using W.
    unfold element_to_block. intro H. destruct (zdget (sp_index s) x) as [i|] eqn:E.
    - apply index_some in E. tauto.
    - apply index_none in E. contradiction.
  Qed.
  Lemma element_to_block_single x : ~ In x (concat (sp_blocks s)) -> element_to_block s x = [x].
  Proof using W. intro H. apply index_none in H. unfold element_to_block. rewrite H. reflexivity. Qed.

  Lemma element_to_block_sorted x : StronglySorted Z.lt (element_to_block s x).
  Proof using W.
    destruct (in_dec Z.eq_dec x (concat (sp_blocks s))) as [H|H].
    - apply element_to_block_block in H. apply (wf_canonical s W). exact H.
    - rewrite element_to_block_single by exact H. repeat constructor.
  Qed.

  Lemma element_to_block_eq x y : element_to_block s x = element_to_block s y <-> same (sp_blocks s) x y.
  Proof using W.
    split.
    - intro E. apply element_to_block_In. rewrite E. apply element_to_block_In. left. reflexivity.
    - intro H. apply zsorted_ext; try apply element_to_block_sorted. intro z. rewrite !element_to_block_In. split.
      + apply same_trans; [apply wf_nodup | apply same_sym, H].
      + apply same_trans; [apply wf_nodup | exact H].
  Qed.
End Lookup.

Lemma sp_eq_spec s t : sp_wf s -> sp_wf t -> domain_eqb (sp_domain s) (sp_domain t) = true ->
  exists b, sp_eq s t = Ok b /\
    (b = true <-> forall x y, same (sp_blocks s) x y <-> same (sp_blocks t) x y).
Proof.
  intros Ws Wt Hd. unfold sp_eq. rewrite Hd. cbn [true_except bind]. eexists. split; [reflexivity|].
  rewrite blocks_eqb_eq. split; [intros ->; reflexivity|]. intro H.
  apply canonical_ext; [apply Ws | apply Wt|]. intros x y Hxy. specialize (H x y). unfold same in H.
  intuition congruence.
Qed.
