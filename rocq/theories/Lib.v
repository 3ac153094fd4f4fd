(** Lib: general lemmas about the vocabulary of Model_Base. *)

From Coq Require Import List Arith NArith ZArith Bool Lia Permutation Sorted RelationClasses.
From Verif Require Import Model_Base.
Import ListNotations.

(** * Results *)

Lemma bind_ok {A B} (m : res A) (f : A -> res B) b :
  bind m f = Ok b -> exists a, m = Ok a /\ f a = Ok b.
Proof. destruct m as [a|e]; simpl; intro H; [eauto | discriminate]. Qed.

Lemma guard_ok {B} (c : bool) e (k : res B) b :
  bind (true_except c e) (fun _ => k) = Ok b -> c = true /\ k = Ok b.
Proof. destruct c; simpl; intro H; [auto | discriminate]. Qed.

Lemma mapM_ok {A B} (f : A -> res B) (g : A -> B) l :
  (forall x, In x l -> f x = Ok (g x)) -> mapM f l = Ok (map g l).
Proof.
  induction l as [|x l IH]; intro H; [reflexivity|].
  cbn [mapM map]. rewrite H by (left; reflexivity). cbn [bind].
  rewrite IH by (intros y Hy; apply H; right; exact Hy). reflexivity.
Qed.

Lemma mapM_inv {A B} (f : A -> res B) l r :
  mapM f l = Ok r -> Forall2 (fun x y => f x = Ok y) l r.
Proof.
  revert r; induction l as [|x l IH]; intros r H; cbn [mapM] in H.
  - inversion H; constructor.
  - apply bind_ok in H as [y [Hy H]]. apply bind_ok in H as [ys [Hys H]].
    inversion H; subst. constructor; auto.
Qed.

Lemma forallM_ok {A} (f : A -> res bool) (g : A -> bool) l :
  (forall x, In x l -> f x = Ok (g x)) -> forallM f l = Ok (forallb g l).
Proof.
  induction l as [|x l IH]; intro H; [reflexivity|].
  cbn [forallM forallb]. rewrite H by (left; reflexivity). cbn [bind].
  destruct (g x); [|reflexivity]. cbn [andb]. apply IH. intros y Hy; apply H; right; exact Hy.
Qed.

Lemma forallM_true {A} (f : A -> res bool) l :
  forallM f l = Ok true <-> forall x, In x l -> f x = Ok true.
Proof.
  induction l as [|x l IH]; cbn [forallM].
  - split; [intros _ y [] | reflexivity].
  - split.
    + intro H. destruct (f x) as [[|]|e] eqn:E; cbn [bind] in H; try discriminate.
      intros y [<-|Hy]; [exact E | apply IH; auto].
    + intro H. rewrite (H x) by (left; reflexivity). cbn [bind]. apply IH.
      intros y Hy; apply H; right; exact Hy.
Qed.

Lemma lget_ok {A} (l : list A) i d : i < length l -> lget l i = Ok (nth i l d).
Proof.
  intro H. unfold lget. rewrite (nth_error_nth' l d H). reflexivity.
Qed.

Lemma lget_err {A} (l : list A) i : length l <= i -> lget l i = Err IndexErr.
Proof. intro H. unfold lget. apply nth_error_None in H. rewrite H. reflexivity. Qed.

(** * Boolean tests *)

Lemma memb_In x l : memb x l = true <-> In x l.
Proof.
  unfold memb. rewrite existsb_exists. split.
  - intros [y [Hy E]]. apply Nat.eqb_eq in E. subst. exact Hy.
  - intro H. exists x. split; [exact H | apply Nat.eqb_refl].
Qed.

Lemma memb_false x l : memb x l = false <-> ~ In x l.
Proof. rewrite <- memb_In. destruct (memb x l); split; congruence. Qed.

Lemma list_eqb_eq a b : list_eqb a b = true <-> a = b.
Proof.
  revert b; induction a as [|x a IH]; intros [|y b]; cbn [list_eqb]; try (split; congruence).
  rewrite andb_true_iff, Nat.eqb_eq, IH. split; [intros [-> ->]; reflexivity | intros [= -> ->]; auto].
Qed.

Lemma bvec_eqb_eq a b : bvec_eqb a b = true <-> a = b.
Proof.
  revert b; induction a as [|x a IH]; intros [|y b]; cbn [bvec_eqb]; try (split; congruence).
  rewrite andb_true_iff, Bool.eqb_true_iff, IH.
  split; [intros [-> ->]; reflexivity | intros [= -> ->]; auto].
Qed.

Lemma nodupb_In x l : In x (nodupb l) <-> In x l.
Proof.
  induction l as [|y l IH]; [reflexivity|]. cbn [nodupb].
  destruct (memb y l) eqn:E.
  - rewrite IH. split; [right; assumption | intros [<-|H]; [apply memb_In; exact E | exact H]].
  - split; (intros [H|H]; [left; exact H | right; apply IH; exact H]).
Qed.

Lemma nodupb_NoDup l : NoDup (nodupb l).
Proof.
  induction l as [|y l IH]; [constructor|]. cbn [nodupb].
  destruct (memb y l) eqn:E; [exact IH|]. constructor; [|exact IH].
  rewrite nodupb_In. apply memb_false. exact E.
Qed.

Lemma set_union_In x a b : In x (set_union a b) <-> In x a \/ In x b.
Proof. unfold set_union. rewrite nodupb_In, in_app_iff. reflexivity. Qed.

Lemma range_In x n : In x (range n) <-> x < n.
Proof. unfold range. rewrite in_seq. lia. Qed.

Lemma range2_In x a b : In x (range2 a b) <-> a <= x < b.
Proof. unfold range2. rewrite in_seq. lia. Qed.

Lemma range_NoDup n : NoDup (range n).
Proof. apply seq_NoDup. Qed.

Lemma range_length n : length (range n) = n.
Proof. apply seq_length. Qed.

Lemma nth_range i n d : i < n -> nth i (range n) d = i.
Proof. intro H. unfold range. rewrite seq_nth; lia. Qed.

(** * Sorting *)

Section Sorting.
  Context {A : Type} (leb : A -> A -> bool).
  Hypothesis leb_total : forall x y, leb x y = true \/ leb y x = true.
  Hypothesis leb_trans : forall x y z, leb x y = true -> leb y z = true -> leb x z = true.
  Hypothesis leb_antisym : forall x y, leb x y = true -> leb y x = true -> x = y.

  Lemma insert_perm x l : Permutation (x :: l) (insert leb x l).
  Proof.
    induction l as [|y l IH]; cbn [insert]; [reflexivity|].
    destruct (leb x y); [reflexivity|].
    etransitivity; [apply perm_swap|]. constructor. exact IH.
  Qed.

  Lemma isort_perm l : Permutation l (isort leb l).
  Proof.
    induction l as [|x l IH]; cbn [isort]; [reflexivity|].
    etransitivity; [apply perm_skip; exact IH | apply insert_perm].
  Qed.

  Let le x y := leb x y = true.

  Lemma insert_sorted x l : StronglySorted le l -> StronglySorted le (insert leb x l).
  Proof using leb_total leb_trans.
    clear leb_antisym.
    induction l as [|y l IH]; cbn [insert]; intro H.
    - repeat constructor.
    - inversion H as [|? ? Hs Hf]; subst.
      destruct (leb x y) eqn:E.
      + constructor; [exact H|]. constructor; [exact E|].
        eapply Forall_impl; [|exact Hf]. intros z Hz. eapply leb_trans; eauto.
      + constructor; [apply IH; exact Hs|].
        assert (Hyx : leb y x = true) by (destruct (leb_total x y); congruence).
        assert (Hp := insert_perm x l).
        eapply Permutation_Forall; [exact Hp|]. constructor; [exact Hyx | exact Hf].
  Qed.

  Lemma isort_sorted l : StronglySorted le (isort leb l).
  Proof using leb_total leb_trans.
    clear leb_antisym.
    induction l as [|x l IH]; cbn [isort]; [constructor | apply insert_sorted; exact IH].
  Qed.

  Lemma sorted_perm_eq l1 l2 :
    StronglySorted le l1 -> StronglySorted le l2 -> Permutation l1 l2 -> l1 = l2.
  Proof using leb_antisym.
    clear leb_total leb_trans.
    revert l2; induction l1 as [|x l1 IH]; intros l2 H1 H2 Hp.
    - apply Permutation_nil in Hp. congruence.
    - destruct l2 as [|y l2]; [symmetry in Hp; apply Permutation_nil in Hp; discriminate|].
      assert (x = y) as ->.
      { inversion H1 as [|? ? Hs1 Hf1]; inversion H2 as [|? ? Hs2 Hf2]; subst.
        assert (Hx : In x (y :: l2)) by (eapply Permutation_in; [exact Hp | left; reflexivity]).
        assert (Hy : In y (x :: l1))
          by (eapply Permutation_in; [symmetry; exact Hp | left; reflexivity]).
        destruct Hx as [Hx|Hx]; [congruence|]. destruct Hy as [Hy|Hy]; [congruence|].
        rewrite Forall_forall in Hf1, Hf2. apply leb_antisym; [apply Hf1 | apply Hf2]; assumption. }
      f_equal. apply IH.
      + inversion H1; assumption.
      + inversion H2; assumption.
      + eapply Permutation_cons_inv; exact Hp.
  Qed.

  Lemma isort_eq_iff l1 l2 : isort leb l1 = isort leb l2 <-> Permutation l1 l2.
  Proof using leb_total leb_trans leb_antisym.
    split; intro H.
    - etransitivity; [apply isort_perm|]. rewrite H. symmetry. apply isort_perm.
    - apply sorted_perm_eq; try apply isort_sorted.
      etransitivity; [symmetry; apply isort_perm|]. etransitivity; [exact H | apply isort_perm].
  Qed.
End Sorting.

Lemma nat_leb_total x y : Nat.leb x y = true \/ Nat.leb y x = true.
Proof. rewrite !Nat.leb_le. lia. Qed.
Lemma nat_leb_trans x y z : Nat.leb x y = true -> Nat.leb y z = true -> Nat.leb x z = true.
Proof. rewrite !Nat.leb_le. lia. Qed.
Lemma nat_leb_antisym x y : Nat.leb x y = true -> Nat.leb y x = true -> x = y.
Proof. rewrite !Nat.leb_le. lia. Qed.
#[export] Hint Resolve nat_leb_total nat_leb_trans nat_leb_antisym : sortdb.

Lemma sort_nat_perm l : Permutation l (sort_nat l).
Proof. apply isort_perm. Qed.

Lemma sort_nat_In x l : In x (sort_nat l) <-> In x l.
Proof.
  split; apply Permutation_in; [symmetry|]; apply sort_nat_perm.
Qed.

Lemma sort_nat_length l : length (sort_nat l) = length l.
Proof. symmetry. apply Permutation_length, sort_nat_perm. Qed.

Lemma sort_nat_sorted_le l : StronglySorted le (sort_nat l).
Proof.
  assert (H := isort_sorted Nat.leb nat_leb_total nat_leb_trans l).
  unfold sort_nat. induction H as [|x l' Hs IH Hf]; constructor; [exact IH|].
  eapply Forall_impl; [|exact Hf]. intros y Hy. apply Nat.leb_le. exact Hy.
Qed.

Lemma sorted_le_lt l : StronglySorted le l -> NoDup l -> StronglySorted lt l.
Proof.
  induction l as [|x l IH]; intros Hs Hn; [constructor|].
  inversion Hs as [|? ? Hs' Hf]; inversion Hn as [|? ? Hni Hn']; subst.
  constructor; [apply IH; assumption|].
  rewrite Forall_forall in *. intros y Hy. specialize (Hf y Hy).
  assert (x <> y) by (intros ->; contradiction). lia.
Qed.

Lemma sort_nat_sorted_lt l : NoDup l -> StronglySorted lt (sort_nat l).
Proof.
  intro H. apply sorted_le_lt; [apply sort_nat_sorted_le|].
  eapply Permutation_NoDup; [apply sort_nat_perm | exact H].
Qed.

Lemma sorted_lt_NoDup l : StronglySorted lt l -> NoDup l.
Proof.
  induction 1 as [|x l Hs IH Hf]; constructor; [|exact IH].
  intro Hx. rewrite Forall_forall in Hf. specialize (Hf x Hx). lia.
Qed.

Lemma sorted_lt_ext l1 l2 :
  StronglySorted lt l1 -> StronglySorted lt l2 -> (forall x, In x l1 <-> In x l2) -> l1 = l2.
Proof.
  intros H1 H2 H.
  apply (sorted_perm_eq Nat.leb nat_leb_antisym).
  - eapply StronglySorted_ind with (P := StronglySorted (fun x y => Nat.leb x y = true));
      [constructor| |exact H1]. intros a l _ IH Hf. constructor; [exact IH|].
    eapply Forall_impl; [|exact Hf]. intros y Hy. apply Nat.leb_le. lia.
  - eapply StronglySorted_ind with (P := StronglySorted (fun x y => Nat.leb x y = true));
      [constructor| |exact H2]. intros a l _ IH Hf. constructor; [exact IH|].
    eapply Forall_impl; [|exact Hf]. intros y Hy. apply Nat.leb_le. lia.
  - apply NoDup_Permutation; [apply sorted_lt_NoDup; assumption ..| exact H].
Qed.

Lemma sort_nat_eq_iff l1 l2 : sort_nat l1 = sort_nat l2 <-> Permutation l1 l2.
Proof. apply isort_eq_iff; eauto with sortdb. Qed.

Lemma range_sorted_lt a n : StronglySorted lt (seq a n).
Proof.
  revert a; induction n as [|n IH]; intro a; cbn [seq]; [constructor|].
  constructor; [apply IH|]. rewrite Forall_forall. intros x Hx. apply in_seq in Hx. lia.
Qed.

Lemma sort_nat_id l : StronglySorted le l -> sort_nat l = l.
Proof.
  intro H. apply (sorted_perm_eq Nat.leb nat_leb_antisym).
  - apply isort_sorted; [apply nat_leb_total | apply nat_leb_trans].
  - induction H as [|x l Hs IH Hf]; constructor; [exact IH|].
    eapply Forall_impl; [|exact Hf]. intros y Hy. apply Nat.leb_le. exact Hy.
  - symmetry. apply sort_nat_perm.
Qed.

Lemma sort_nat_range l n : sort_nat l = range n <-> Permutation l (range n).
Proof.
  rewrite <- (sort_nat_id (range n)) at 1; [apply sort_nat_eq_iff|].
  unfold range. generalize 0. induction n as [|n IH]; intro a; cbn [seq]; constructor; [apply IH|].
  rewrite Forall_forall. intros x Hx. apply in_seq in Hx. lia.
Qed.

Lemma list_max_nat_ge x l : In x l -> x <= list_max_nat l.
Proof.
  induction l as [|y l IH]; [intros []|]. cbn [list_max_nat fold_right]. fold (list_max_nat l).
  intros [->|H]; [lia | specialize (IH H); lia].
Qed.

Lemma list_max_nat_In l : l <> [] -> In (list_max_nat l) l.
Proof.
  induction l as [|y l IH]; [congruence|]. intros _. cbn [list_max_nat fold_right].
  fold (list_max_nat l). destruct l as [|z l]; [left; cbn; lia|].
  destruct (Nat.max_dec y (list_max_nat (z :: l))) as [E|E]; rewrite E.
  - left; reflexivity.
  - right. apply IH. discriminate.
Qed.

Lemma list_max_nat_lt l n : l <> [] -> (list_max_nat l < n <-> forall x, In x l -> x < n).
Proof.
  intro Hl. split.
  - intros H x Hx. apply list_max_nat_ge in Hx. lia.
  - intro H. apply H, list_max_nat_In, Hl.
Qed.

(** * Dicts *)

Lemma dget_In d k v : dget d k = Some v -> In (k, v) d.
Proof.
  induction d as [|[k' v'] d IH]; cbn [dget]; [discriminate|].
  destruct (Nat.eqb_spec k k') as [->|Hk]; [intros [= ->]; left; reflexivity|].
  intro H. right. auto.
Qed.

Lemma In_dget d k v : NoDup (dkeys d) -> In (k, v) d -> dget d k = Some v.
Proof.
  induction d as [|[k' v'] d IH]; [intros _ []|]. cbn [dkeys map fst].
  intros Hn Hin. inversion Hn as [|? ? Hni Hn']; subst. cbn [dget].
  destruct Hin as [[= -> ->]|Hin]; [rewrite Nat.eqb_refl; reflexivity|].
  destruct (Nat.eqb_spec k k') as [->|Hk]; [|apply IH; assumption].
  exfalso. apply Hni. apply (in_map fst) in Hin. exact Hin.
Qed.

Lemma dget_iff d k v : NoDup (dkeys d) -> (dget d k = Some v <-> In (k, v) d).
Proof. intro H. split; [apply dget_In | apply In_dget; exact H]. Qed.

Lemma dget_None d k : dget d k = None <-> ~ In k (dkeys d).
Proof.
  induction d as [|[k' v'] d IH]; cbn [dget dkeys map fst]; [tauto|].
  destruct (Nat.eqb_spec k k') as [->|Hk].
  - split; [discriminate | intro H; exfalso; apply H; left; reflexivity].
  - rewrite IH. change (map fst d) with (dkeys d). cbn [In]. intuition congruence.
Qed.

Lemma dget_key d k : In k (dkeys d) -> exists v, dget d k = Some v.
Proof.
  intro H. destruct (dget d k) eqn:E; [eauto|]. apply dget_None in E. contradiction.
Qed.

Lemma dget_Some_key d k v : dget d k = Some v -> In k (dkeys d).
Proof. intro H. apply dget_In in H. apply (in_map fst) in H. exact H. Qed.

Lemma dget_Some_val d k v : dget d k = Some v -> In v (dvals d).
Proof. intro H. apply dget_In in H. apply (in_map snd) in H. exact H. Qed.

Lemma dset_get d k v k' : dget (dset d k v) k' = if Nat.eqb k' k then Some v else dget d k'.
Proof.
  induction d as [|[k0 v0] d IH]; cbn [dset dget].
  - destruct (Nat.eqb k' k); reflexivity.
  - destruct (Nat.eqb_spec k k0) as [<-|Hk]; cbn [dget].
    + destruct (Nat.eqb k' k); reflexivity.
    + rewrite IH. destruct (Nat.eqb_spec k' k0) as [->|H0]; [|reflexivity].
      destruct (Nat.eqb_spec k0 k) as [->|]; [congruence | reflexivity].
Qed.

Lemma dset_keys_In d k v x : In x (dkeys (dset d k v)) <-> x = k \/ In x (dkeys d).
Proof.
  induction d as [|[k0 v0] d IH]; cbn [dset dkeys map fst]; [cbn; intuition congruence|].
  destruct (Nat.eqb_spec k k0) as [->|Hk]; cbn [dkeys map fst].
  - cbn. intuition congruence.
  - change (map fst (dset d k v)) with (dkeys (dset d k v)).
    change (map fst d) with (dkeys d). cbn [In]. rewrite IH. tauto.
Qed.

Lemma dset_NoDup d k v : NoDup (dkeys d) -> NoDup (dkeys (dset d k v)).
Proof.
  induction d as [|[k0 v0] d IH]; cbn [dset dkeys map fst]; intro H.
  - constructor; [intros [] | constructor].
  - inversion H as [|? ? Hni Hn]; subst.
    destruct (Nat.eqb_spec k k0) as [->|Hk]; cbn [dkeys map fst]; [constructor; assumption|].
    constructor; [|apply IH; exact Hn].
    change (map fst (dset d k v)) with (dkeys (dset d k v)).
    rewrite dset_keys_In. intros [E|Hi]; [congruence | contradiction].
Qed.

Lemma dset_fresh d k v : ~ In k (dkeys d) -> dset d k v = d ++ [(k, v)].
Proof.
  induction d as [|[k0 v0] d IH]; intro H; [reflexivity|]. cbn [dset].
  destruct (Nat.eqb_spec k k0) as [->|Hk]; [exfalso; apply H; left; reflexivity|].
  cbn [app]. f_equal. apply IH. intro Hi. apply H. right. exact Hi.
Qed.

Lemma dict_eqb_spec a b : NoDup (dkeys a) -> NoDup (dkeys b) ->
  (dict_eqb a b = true <-> forall k, dget a k = dget b k).
Proof.
  intros Ha Hb. unfold dict_eqb. rewrite andb_true_iff, Nat.eqb_eq, forallb_forall.
  split.
  - intros [Hl Hf] k.
    assert (Hsub : forall k v, dget a k = Some v -> dget b k = Some v).
    { intros k0 v0 E. apply dget_In in E. specialize (Hf _ E). cbn [fst snd] in Hf.
      destruct (dget b k0) as [w|]; [|discriminate]. apply Nat.eqb_eq in Hf. congruence. }
    destruct (dget a k) as [v|] eqn:E; [symmetry; apply Hsub; exact E|].
    destruct (dget b k) as [w|] eqn:E2; [|reflexivity]. exfalso.
    apply dget_None in E. apply E.
    assert (Hincl : incl (dkeys b) (dkeys a)).
    { apply NoDup_length_incl; [exact Ha| |].
      - unfold dkeys. rewrite !map_length. lia.
      - intros x Hx. apply dget_key in Hx as [v Hv]. apply Hsub in Hv.
        eapply dget_Some_key; exact Hv. }
    apply Hincl. eapply dget_Some_key; exact E2.
  - intro H. split.
    + assert (Hp : Permutation (dkeys a) (dkeys b)).
      { apply NoDup_Permutation; try assumption. intro x.
        split; intro Hx; apply dget_key in Hx as [v Hv]; [rewrite H in Hv | rewrite <- H in Hv];
          eapply dget_Some_key; exact Hv. }
      apply Permutation_length in Hp. unfold dkeys in Hp. rewrite !map_length in Hp. exact Hp.
    + intros [k v] Hin. cbn [fst snd]. rewrite <- H, (In_dget a k v Ha Hin). apply Nat.eqb_refl.
Qed.

(** * Bits *)

Lemma b2n_lt l : b2n l < 2 ^ length l.
Proof.
  induction l as [|b l IH]; cbn [b2n length]; [cbn; lia|].
  rewrite Nat.pow_succ_r'. destruct b; cbn [Nat.b2n]; lia.
Qed.

Lemma n2b_length len n : length (n2b len n) = len.
Proof. revert n; induction len as [|len IH]; intro n; cbn [n2b length]; [reflexivity | rewrite IH; reflexivity]. Qed.

Lemma odd_div2 n : n = Nat.b2n (Nat.odd n) + 2 * Nat.div2 n.
Proof. rewrite Nat.add_comm. apply Nat.div2_odd. Qed.

Lemma odd_b2n_double b m : Nat.odd (Nat.b2n b + 2 * m) = b.
Proof.
  rewrite Nat.odd_add_mul_2. destruct b; reflexivity.
Qed.

Lemma div2_b2n_double b m : Nat.div2 (Nat.b2n b + 2 * m) = m.
Proof. destruct b; cbn [Nat.b2n]; [apply Nat.div2_succ_double | apply Nat.div2_double]. Qed.

Lemma n2b_b2n l : n2b (length l) (b2n l) = l.
Proof.
  induction l as [|b l IH]; cbn [n2b length b2n]; [reflexivity|].
  rewrite odd_b2n_double, div2_b2n_double, IH. reflexivity.
Qed.

Lemma b2n_n2b len n : n < 2 ^ len -> b2n (n2b len n) = n.
Proof.
  revert n; induction len as [|len IH]; intros n H.
  - cbn in *. lia.
  - cbn [n2b b2n]. rewrite IH; [symmetry; apply odd_div2|].
    rewrite Nat.pow_succ_r' in H. assert (E := odd_div2 n). lia.
Qed.

Lemma b2n_inj a b : length a = length b -> b2n a = b2n b -> a = b.
Proof. intros Hl H. rewrite <- (n2b_b2n a), <- (n2b_b2n b), Hl, H. reflexivity. Qed.
