(** Proof_EcMore: a total order of functions, and families with their complements. *)

From Coq Require Import List Arith ZArith Bool Lia Sorted Permutation.
From Verif Require Import Model_Base Model_Binary Model_Boolf Model_BoolfMore Model_MinRep Model_Ec Spec_Bits Spec_Boolf Spec_MinRep Lib Proof_Binary Proof_Boolf Proof_BoolfTable Proof_BoolfMake Proof_Noble Proof_MinRep Proof_MinRepMale Props_MinRep Props_Boolf.
Import ListNotations.
Open Scope nat_scope.

(** * A total order *)

Fixpoint lex_leb (a b : list nat) : bool :=
  match a, b with
  | [], _ => true
  | _, [] => false
  | x :: a', y :: b' => if x <? y then true else if y <? x then false else lex_leb a' b'
  end.
Definition boolf_code (f : boolf) : list nat := length (root f) :: map Nat.b2n (root f) ++ Nat.b2n (is_constant f) :: Nat.b2n (is_inflated f) :: atomvals f.
Definition boolf_leb (f g : boolf) : bool := lex_leb (boolf_code f) (boolf_code g).
Definition boolf_sort : list boolf -> list boolf := isort boolf_leb.

Lemma lex_total a b : lex_leb a b = true \/ lex_leb b a = true.
Proof. revert b. induction a as [|x a IH]; intros [|y b]; cbn [lex_leb]; auto. destruct (Nat.ltb_spec x y), (Nat.ltb_spec y x); auto. Qed.
Lemma lex_antisym a b : lex_leb a b = true -> lex_leb b a = true -> a = b.
Proof.
  revert b. induction a as [|x a IH]; intros [|y b]; cbn [lex_leb]; auto; try discriminate. destruct (Nat.ltb_spec x y), (Nat.ltb_spec y x); try discriminate; try lia.
  intros H1 H2. f_equal; [lia | apply IH; assumption].
Qed.
Lemma lex_trans a b c : lex_leb a b = true -> lex_leb b c = true -> lex_leb a c = true.
Proof.
  revert b c. induction a as [|x a IH]; intros [|y b] [|z c]; cbn [lex_leb]; auto; try discriminate.
  destruct (Nat.ltb_spec x y), (Nat.ltb_spec y x), (Nat.ltb_spec y z), (Nat.ltb_spec z y), (Nat.ltb_spec x z), (Nat.ltb_spec z x); try discriminate; try lia; auto. apply IH.
Qed.

Lemma b2n_map_inj u v : map Nat.b2n u = map Nat.b2n v -> u = v.
Proof. revert v. induction u as [|x u IH]; intros [|y v]; cbn [map]; intro H; try discriminate; [reflexivity|]. injection H as H1 H2. f_equal; [destruct x, y; cbn in H1; congruence | apply IH, H2]. Qed.
Lemma code_inj f g : boolf_code f = boolf_code g -> f = g.
Proof.
  destruct f as [r av c i], g as [r' av' c' i']. unfold boolf_code. cbn [root atomvals is_constant is_inflated]. intro H. injection H as Hl H.
  assert (X : map Nat.b2n r = map Nat.b2n r' /\ Nat.b2n c :: Nat.b2n i :: av = Nat.b2n c' :: Nat.b2n i' :: av').
  { split; [apply (f_equal (firstn (length r))) in H; rewrite Hl in H at 2 | apply (f_equal (skipn (length r))) in H; rewrite Hl in H at 2].
    - rewrite <- (map_length Nat.b2n r), <- (map_length Nat.b2n r') in H. rewrite !firstn_app, !firstn_all, !Nat.sub_diag, !firstn_O, !app_nil_r in H. exact H.
    - rewrite <- (map_length Nat.b2n r), <- (map_length Nat.b2n r') in H. rewrite !skipn_app, !skipn_all, !Nat.sub_diag in H. exact H. }
  destruct X as [X Y]. apply b2n_map_inj in X as ->. injection Y as Hc Hi ->. destruct c, c', i, i'; try discriminate Hc; try discriminate Hi; reflexivity.
Qed.

Lemma boolf_sort_perm l : Permutation (boolf_sort l) l.
Proof. symmetry. apply isort_perm. Qed.
Lemma boolf_sort_inv l l' : Permutation l l' -> boolf_sort l = boolf_sort l'.
Proof.
  intro H. apply isort_eq_iff; [intros x y; apply lex_total | intros x y z; apply lex_trans | | exact H]. intros x y H1 H2. apply code_inj, lex_antisym; assumption.
Qed.

(** * Self-complementary families *)

Lemma filter_split {A} (p : A -> bool) l : length (filter p l) + length (filter (fun x => negb (p x)) l) = length l.
Proof. induction l as [|x l IH]; [reflexivity|]. cbn [filter length]. destruct (p x); cbn [negb length]; lia. Qed.
Lemma filter_id_map {A} (p : A -> bool) l : length (filter (fun b => b) (map p l)) = length (filter p l).
Proof. induction l as [|x l IH]; [reflexivity|]. cbn [map filter]. destruct (p x); cbn [length]; rewrite IH; reflexivity. Qed.
Lemma filter_map_length {A B} (g : A -> B) (p : B -> bool) l : length (filter p (map g l)) = length (filter (fun x => p (g x)) l).
Proof. induction l as [|x l IH]; [reflexivity|]. cbn [map filter]. destruct (p (g x)); cbn [length]; rewrite IH; reflexivity. Qed.
Lemma perm_filter_length {A} (p : A -> bool) l l' : Permutation l l' -> length (filter p l) = length (filter p l').
Proof. induction 1 as [|x l l' H IH|x y l|l1 l2 l3 H1 IH1 H2 IH2]; cbn [filter]; [reflexivity | destruct (p x); cbn [length]; rewrite IH; reflexivity | destruct (p x), (p y); reflexivity | congruence]. Qed.

Lemma half_weight f : fitting f -> family_class (sem f) (fun e => negb (sem f e)) -> 2 * binv_weight (root f) = length (root f).
Proof.
  intros Hf (m & H). set (v := valency f). assert (Hl : length (root f) = 2 ^ v) by apply Hf.
  set (u := b2n (map m (atomvals f))). assert (Hu : u < 2 ^ v). { unfold u, v, valency. rewrite <- (map_length m). apply b2n_lt. }
  assert (T : forall k, k < 2 ^ v -> tab (rb f) (Nat.lxor k u) = negb (tab (rb f) k)).
  { intros k Hk. unfold tab at 2. rewrite (rb_sem f _ Hf), H, sem_rb. unfold tab. apply sem_ext. intros i Hi. cbn [rb atomvals] in Hi. apply range_In in Hi. rewrite Nat.lxor_spec, (lift_nth f _ i Hf Hi). f_equal.
    unfold u. rewrite testbit_b2n, (nth_indep _ false (m 0)) by (rewrite map_length; exact Hi). apply map_nth. }
  assert (E : root f = map (tab (rb f)) (seq 0 (2 ^ v))).
  { apply (nth_ext _ _ false false); [rewrite map_length, seq_length; exact Hl|]. intros k Hk. rewrite Hl in Hk. rewrite (nth_indep (map _ _) false (tab (rb f) 0)) by (rewrite map_length, seq_length; exact Hk). rewrite map_nth, seq_nth by exact Hk. symmetry. apply tab_rb; assumption. }
  rewrite weight_filter, E, filter_id_map, map_length. rewrite <- (filter_split (tab (rb f)) (seq 0 (2 ^ v))).
  assert (X : length (filter (tab (rb f)) (seq 0 (2 ^ v))) = length (filter (fun x => negb (tab (rb f) x)) (seq 0 (2 ^ v)))); [|lia].
  rewrite <- (perm_filter_length _ _ _ (lxor_perm u v Hu)), filter_map_length. f_equal. apply filter_ext_in. intros k Hk. apply in_seq in Hk. apply T. lia.
Qed.

Lemma self_complementary_spec oz on f : (forall l, Permutation (oz l) l) -> (forall l, StronglySorted lt l -> on l = l) -> made false f ->
  exists b, family_is_self_complementary oz on f = Ok b /\ (b = true <-> family_class (sem f) (fun e => negb (sem f e))).
Proof.
  intros Hz Hn Hf. apply m_red in Hf as R. unfold family_is_self_complementary. destruct (Nat.eqb_spec (2 * binv_weight (root f)) (length (root f))) as [W|W].
  - destruct (not_spec f (proj1 R)) as (h & E & Rh & Sh). assert (Hh := reduced_made h Rh). destruct (C42_family oz on f Hz Hn Hf) as (a & Ea & Ma & _). destruct (C42_family oz on h Hz Hn Hh) as (b & Eb & Mb & _).
    rewrite Ea, E. cbn [bind]. rewrite Eb. cbn [bind]. eexists. split; [reflexivity|]. assert (X := C42_family_class oz on f h Hz Hn Hf Hh). rewrite Ea, Eb in X.
    assert (Y : family_class (sem f) (sem h) <-> family_class (sem f) (fun e => negb (sem f e))) by (split; intros (m & H); exists m; intro e; [rewrite <- Sh | rewrite Sh]; apply H).
    rewrite <- Y, <- X. rewrite (boolf_eqb_true a b (m_red a Ma) (m_red b Mb)).
    split; [intro Z; do 2 f_equal; exact Z | intro Z; injection Z as Z; exact Z].
  - exists false. split; [reflexivity|]. split; [discriminate|]. intro C. destruct W. apply half_weight; [apply R | exact C].
Qed.
