(** Proof_Bloatless: representatives of the equality blocks, the function without bloat. *)

From Coq Require Import List Arith ZArith Bool Lia Permutation Sorted.
From Verif Require Import Model_Base Lib Model_Binary Model_Splits Model_Perm Model_SetPart Model_SetPartComp Model_Boolf Model_SetPartBoolf Model_Blight.
From Verif Require Import Spec_SetPart Proof_SetPart Proof_SetPartMore Spec_SetPartComp Proof_SetPartComp Proof_SetPartCompMore Props_SetPartComp.
From Verif Require Import Spec_Bits Spec_Boolf Spec_Splits Spec_Blight Proof_Binary Proof_Linear Proof_Boolf Proof_BoolfTable Proof_BoolfApply Proof_Noble Proof_Perm Proof_BoolfMake Proof_Splits Props_Boolf Proof_SetPartBoolf Props_SetPartBoolf Proof_Blight Proof_BlightBoolf Proof_Blocks Proof_BlightBlocks.
Import ListNotations.
Open Scope nat_scope.

Definition blocks_ok (f : boolf) (B : list (list nat)) (P : list (option nat)) : Prop :=
  length P = length B /\ classes (valency f) (tied f) B /\
  (forall bp, In bp (combine B P) -> preferred f (fst bp) (snd bp)) /\ ascending (map representative (combine B P)).

Definition reps (B : list (list nat)) (P : list (option nat)) : list nat := map representative (combine B P).

Lemma combine_len {A B} (l : list A) (m : list B) : length m = length l -> length (combine l m) = length l.
Proof. intro H. rewrite combine_length. lia. Qed.

Lemma nth_combine {A B} (l : list A) (m : list B) i a b : length m = length l -> nth i (combine l m) (a, b) = (nth i l a, nth i m b).
Proof. intro H. apply combine_nth. symmetry. exact H. Qed.

Lemma reps_nth f B P i : blocks_ok f B P -> i < length B -> nth i (reps B P) 0 = representative (nth i B [], nth i P None).
Proof.
  intros (L & _) Hi. unfold reps. rewrite (nth_indep _ 0 (representative ([], None))) by (rewrite map_length, combine_len; lia).
  rewrite map_nth, nth_combine by exact L. reflexivity.
Qed.

Lemma reps_length f B P : blocks_ok f B P -> length (reps B P) = length B.
Proof. intros (L & _). unfold reps. rewrite map_length. apply combine_len. exact L. Qed.

Lemma side_nth f B P i : blocks_ok f B P -> i < length B -> preferred f (nth i B []) (nth i P None).
Proof.
  intros (L & _ & H & _) Hi. assert (X : In (nth i B [], nth i P None) (combine B P)) by (rewrite <- (nth_combine B P i [] None L); apply nth_In; rewrite combine_len; lia).
  apply (H _ X).
Qed.

Lemma rep_in f B P i : blocks_ok f B P -> i < length B -> In (nth i (reps B P) 0) (nth i B []).
Proof.
  intros K Hi. rewrite (reps_nth f) by assumption. apply (representative_In f); [|apply side_nth; assumption]. destruct K as (_ & (C1 & _) & _). apply C1. apply nth_In. exact Hi.
Qed.

Lemma block_of f B P x : blocks_ok f B P -> x < valency f -> exists i, i < length B /\ In x (nth i B []).
Proof.
  intros (_ & (_ & C2 & _) & _) Hx. destruct (C2 x Hx) as [b [Hb Hxb]]. destruct (In_nth B b [] Hb) as [i [Hi <-]]. exists i. auto.
Qed.

Lemma block_index f B P x i j : blocks_ok f B P -> i < length B -> j < length B -> In x (nth i B []) -> In x (nth j B []) -> i = j.
Proof.
  intros (_ & C & _) Hi Hj Hx Hy. assert (nth i B [] = nth j B []) by (apply (classes_disjoint (valency f) (tied f) B _ _ x (tied_trans f) C); try (apply nth_In; assumption); assumption).
  destruct C as (_ & _ & N). rewrite NoDup_nth in N. apply (N i j Hi Hj H).
Qed.

Lemma block_valency f B P x i : blocks_ok f B P -> i < length B -> In x (nth i B []) -> x < valency f.
Proof. intros (_ & (C1 & _) & _) Hi Hx. destruct (C1 (nth i B []) (nth_In _ _ Hi)) as (_ & _ & H). exact (proj1 (H x Hx)). Qed.

Lemma block_tied f B P x y i : blocks_ok f B P -> i < length B -> In x (nth i B []) -> (In y (nth i B []) <-> y < valency f /\ tied f x y).
Proof. intros (_ & (C1 & _) & _) Hi Hx. destruct (C1 (nth i B []) (nth_In _ _ Hi)) as (_ & _ & H). exact (proj2 (H x Hx) y). Qed.

Lemma reps_valency f B P k : blocks_ok f B P -> In k (reps B P) -> k < valency f.
Proof.
  intros K Hk. destruct (In_nth _ _ 0 Hk) as [i [Hi <-]]. rewrite (reps_length f) in Hi by exact K. apply (block_valency f B P _ i K Hi). apply (rep_in f); assumption.
Qed.

Lemma reps_cover f B P x : blocks_ok f B P -> x < valency f -> exists k, In k (reps B P) /\ tied f x k.
Proof.
  intros K Hx. destruct (block_of f B P x K Hx) as [i [Hi Hb]]. exists (nth i (reps B P) 0). split; [apply nth_In; rewrite (reps_length f) by exact K; exact Hi|].
  apply (block_tied f B P x _ i K Hi Hb). apply (rep_in f); assumption.
Qed.

Lemma reps_independent f B P k l : blocks_ok f B P -> In k (reps B P) -> In l (reps B P) -> tied f k l -> k = l.
Proof.
  intros K Hk Hl T. assert (Hlv := reps_valency f B P l K Hl). destruct (In_nth _ _ 0 Hk) as [i [Hi <-]], (In_nth _ _ 0 Hl) as [j [Hj <-]]. rewrite (reps_length f) in Hi, Hj by exact K.
  f_equal. apply (block_index f B P (nth j (reps B P) 0) i j K Hi Hj).
  - apply (block_tied f B P (nth i (reps B P) 0) _ i K Hi); [apply (rep_in f); assumption | auto].
  - apply (rep_in f); assumption.
Qed.

(** * bloatless_atomkeys_undeflated *)

Lemma combine_enumerate {A B} (l : list A) (m : list B) d : length m = length l -> combine l m = map (fun ib => (snd ib, nth (fst ib) m d)) (enumerate l).
Proof.
  intro H. unfold enumerate.
  assert (G : forall a m', length m' = a + length l -> combine l (skipn a m') = map (fun ib => (snd ib, nth (fst ib) m' d)) (combine (seq a (length l)) l)).
  { clear. induction l as [|x l IH]; intros a m' Hm; [reflexivity|]. cbn [length seq combine map fst snd] in *.
    destruct (skipn a m') as [|y r] eqn:E; [exfalso; assert (X := skipn_length a m'); rewrite E in X; cbn in X; lia|].
    f_equal; [f_equal|].
    - rewrite <- (firstn_skipn a m'), E. rewrite app_nth2 by (rewrite firstn_length; lia). rewrite firstn_length, Nat.min_l by lia. rewrite Nat.sub_diag. reflexivity.
    - rewrite <- IH by lia. f_equal. assert (X : skipn 1 (skipn a m') = r) by (rewrite E; reflexivity). rewrite <- X. clear.
      revert m'. induction a as [|a IH]; intros [|z m']; try reflexivity. cbn [skipn]. apply IH. }
  rewrite <- G by (cbn; lia). reflexivity.
Qed.

Lemma enumerate_nth {A} (l : list A) i x d : In (i, x) (enumerate l) -> i < length l /\ nth i l d = x.
Proof. intro H. apply enumerate_In in H. split; [apply nth_error_Some; congruence | apply nth_error_nth; exact H]. Qed.

Lemma undeflated_spec order f B P : (forall l, Permutation (order l) l) -> splittable f -> blocks_and_sides order f = Ok (B, P) -> blocks_ok f B P ->
  bloatless_atomkeys_undeflated order f = Ok (reps B P).
Proof.
  intros Ho R E K. unfold bloatless_atomkeys_undeflated. rewrite E. cbn [bind fst snd].
  rewrite (mapM_ok _ (fun ib => representative (snd ib, nth (fst ib) P None))).
  - unfold reps. rewrite (combine_enumerate B P None) by apply K. rewrite map_map. reflexivity.
  - intros [i b] Hin. cbn [fst snd]. destruct (enumerate_nth B i b [] Hin) as [Hi Hb]. rewrite (lget_ok P i None) by (rewrite (proj1 K); exact Hi). cbn [bind].
    assert (S := side_nth f B P i K Hi). rewrite Hb in S. unfold representative. cbn [fst snd]. destruct (nth i P None) as [k|].
    + destruct (bloat_forced order f Ho R) as [s [st [Es [H [_ Fo]]]]]. rewrite Es. cbn [bind]. f_equal.
      destruct S as (Hk & _ & _ & Hmin). destruct (C48_derived order s st H Ho) as (_ & Hr & _). destruct (Hr (Z.of_nat k)) as [G1 G2].
      assert (G3 := G2 (Z.of_nat k) (forced_refl st _)). apply Fo in G1 as [[X _]|[_ [X L]]]; [rewrite <- X; apply Nat2Z.id|].
      apply is_key_nat in X as [y [X Hy]]. rewrite X in L, G3 |- *. rewrite Nat2Z.id. apply (proj1 (zlinked_keys f k y false)) in L.
      assert (k <= y); [|lia]. apply Hmin; [|exact L]. rewrite <- Hb. apply (block_tied f B P k y i K Hi); [rewrite Hb; exact Hk|]. split; [exact Hy | exists false; exact L].
    + destruct K as (_ & (C1 & _) & _). destruct (C1 b) as (Hne & Ha & _); [rewrite <- Hb; apply nth_In; exact Hi|].
      rewrite <- (list_min_hd b Ha Hne). destruct b; [congruence | reflexivity].
Qed.

(** * bloatless_spotint *)

Lemma matches_links order f s st n : (forall l, Permutation (order l) l) -> splittable f -> history s st ->
  (forall x y c, In (x, y, c) st <-> exists a b, x = Z.of_nat a /\ y = Z.of_nat b /\ a < b < valency f /\ linked f a b c) ->
  exists b, int_matches binary_length order s n = Ok b /\ (b = true <-> spot_keeps_links f n).
Proof.
  intros Ho R H Hst. destruct (C26_int_matches order binary_length s st n H Ho) as [b [E Hb]]. exists b. split; [exact E|]. rewrite Hb.
  assert (Zb : forall k, zbit n (Z.of_nat k) = Nat.testbit n k) by (intro k; unfold zbit; rewrite (proj2 (Z.leb_le _ _)) by lia; rewrite Nat2Z.id; reflexivity).
  split.
  - intros M u v c Hu Hv L. destruct (Nat.lt_total u v) as [Hab|[Hab|Hab]].
    + rewrite <- !Zb. apply M. apply Hst. exists u, v. auto.
    + subst v. destruct (key_satisfiable f u R Hu) as [e' He']. rewrite <- (L e' He'), !xorb_nilpotent. reflexivity.
    + rewrite xorb_comm, <- !Zb. apply M. apply Hst. exists v, u. split; [reflexivity|]. split; [reflexivity|]. split; [lia | apply linked_sym; exact L].
  - intros M x y c Hin. apply Hst in Hin as [u [v [-> [-> [Huv L]]]]]. rewrite !Zb. apply M; [lia | lia | exact L].
Qed.

Lemma spot_bit_rep f B P n x i : blocks_ok f B P -> spot_keeps_links f n -> i < length B -> In x (nth i B []) ->
  Nat.testbit n (match nth i P None with Some p => p | None => x end) = Nat.testbit n (nth i (reps B P) 0).
Proof.
  intros K S Hi Hx. rewrite (reps_nth f) by assumption. assert (Sd := side_nth f B P i K Hi). unfold representative. cbn [fst snd]. destruct (nth i P None) as [k|]; [reflexivity|].
  assert (Hh := rep_in f B P i K Hi). rewrite (reps_nth f) in Hh by assumption. assert (Sd' := Sd). cbn [preferred] in Sd.
  assert (Hne : nth i B [] <> []) by (intro X; rewrite X in Hx; destruct Hx).
  assert (Hhd : In (hd 0 (nth i B [])) (nth i B [])) by (destruct (nth i B []); [congruence | left; reflexivity]).
  apply xorb_eq. apply S; [apply (block_valency f B P x i K Hi Hx) | apply (block_valency f B P _ i K Hi Hhd) | apply Sd; assumption].
Qed.

Lemma dget_blocks f B P x : blocks_ok f B P -> x < valency f ->
  exists i, dget (flat_map (fun ib : nat * list nat => map (fun e => (e, fst ib)) (snd ib)) (enumerate B)) x = Ok i /\ i < length B /\ In x (nth i B []).
Proof.
  intros K Hx. destruct (dget_ok (flat_map (fun ib : nat * list nat => map (fun e => (e, fst ib)) (snd ib)) (enumerate B)) x) as [i [E Hin]].
  - destruct (block_of f B P x K Hx) as [i [Hi Hb]]. apply in_map_iff. exists (x, i). split; [reflexivity|]. apply in_flat_map. exists (i, nth i B []). split.
    + apply enumerate_In. apply nth_error_nth'. exact Hi.
    + apply in_map_iff. exists x. auto.
  - exists i. split; [exact E|]. apply in_flat_map in Hin as [[j b] [Hj Hin]]. cbn [fst snd] in Hin. apply in_map_iff in Hin as [y [X Hy]]. injection X as -> ->.
    destruct (enumerate_nth B i b [] Hj) as [Hi Hb]. rewrite Hb. auto.
Qed.

Lemma bloatless_spotint_spec order f : (forall l, Permutation (order l) l) -> splittable f -> is_constant f = false ->
  exists B P, blocks_and_sides order f = Ok (B, P) /\ blocks_ok f B P /\
  forall n, (2 ^ valency f <= n -> bloatless_spotint order f n = Err TooBigError) /\
    (n < 2 ^ valency f -> ~ spot_keeps_links f n -> bloatless_spotint order f n = Err BloatMismatchError) /\
    (n < 2 ^ valency f -> spot_keeps_links f n -> bloatless_spotint order f n = Ok (b2n (map (Nat.testbit n) (reps B P)))).
Proof.
  intros Ho R Ec. destruct (blocks_and_sides_spec order f Ho R) as (B & P & E & K). exists B, P. split; [exact E|]. split; [exact K|]. assert (F : fitting f) by apply R.
  assert (Hv : valency f <> 0). { intro X. assert (atomvals f = []) by (destruct (atomvals f) eqn:Y; [reflexivity | unfold valency in X; rewrite Y in X; discriminate]). apply R in H. congruence. }
  intro n. unfold bloatless_spotint. rewrite Ec. destruct (bloat_spec order f Ho R) as [s [st [Es [H Hst]]]]. rewrite Es, E.
  destruct (matches_links order f s st n Ho R H Hst) as [m [Em Hm]].
  split; [intro Hn; rewrite (proj2 (Nat.ltb_ge _ _) Hn); reflexivity|].
  assert (Common : n < 2 ^ valency f -> exists v, Binv_intval n (Some (valency f)) = Ok v /\ binv_intval v = n /\ length v = valency f) by (intro; apply Binv_int_len; assumption).
  split.
  - intros Hn Hk. rewrite (proj2 (Nat.ltb_lt _ _) Hn). cbn [true_except bind]. destruct (Common Hn) as [v [Ev [Hv1 Hv2]]]. rewrite Ev. cbn [bind]. rewrite Em. cbn [bind].
    destruct m; [destruct Hk; apply Hm; reflexivity | reflexivity].
  - intros Hn Hk. rewrite (proj2 (Nat.ltb_lt _ _) Hn). cbn [true_except bind]. destruct (Common Hn) as [v [Ev [Hv1 Hv2]]]. rewrite Ev. cbn [bind]. rewrite Em. cbn [bind].
    rewrite (proj2 Hm Hk). cbn [true_except bind]. unfold number_of_distinct_splits. rewrite E. cbn [bind fst snd]. rewrite Hv2.
    set (md := flat_map _ _).
    set (step := fun (minor_exposet : list nat) (major_place : nat) => _).
    assert (Nv : forall k, nth k v false = Nat.testbit n k) by (intro k; rewrite <- Hv1, binv_intval_eq, testbit_b2n; reflexivity).
    assert (Step : forall acc x, x < valency f -> exists i, i < length B /\ In x (nth i B []) /\
       step acc x = Ok (if Nat.testbit n (nth i (reps B P) 0) then set_union acc [i] else acc)).
    { intros acc x Hx. destruct (dget_blocks f B P x K Hx) as [i [Ed [Hi Hxi]]]. exists i. split; [exact Hi|]. split; [exact Hxi|]. unfold step, md. rewrite Ed. cbn [bind].
      rewrite (proj2 (memb_In _ _)) by (apply range_In; exact Hi). rewrite (lget_ok P i None) by (rewrite (proj1 K); exact Hi). cbn [bind].
      assert (Hu : (match nth i P None with Some p => p | None => x end) < length v).
      { rewrite Hv2. assert (Sd := side_nth f B P i K Hi). destruct (nth i P None) as [k|]; [|exact Hx]. apply (block_valency f B P k i K Hi). apply Sd. }
      rewrite (lget_ok v _ false) by exact Hu. cbn [bind]. rewrite Nv. rewrite (spot_bit_rep f B P n x i K Hk Hi Hxi). reflexivity. }
    assert (Fold : forall l acc, (forall x, In x l -> x < valency f) -> exists r, foldM step l acc = Ok r /\
       forall i, In i r <-> In i acc \/ (i < length B /\ (exists x, In x l /\ In x (nth i B [])) /\ Nat.testbit n (nth i (reps B P) 0) = true)).
    { clear - Step K. induction l as [|x l IH]; intros acc Hl; cbn [foldM].
      - exists acc. split; [reflexivity|]. intro i. split; [intro Q; left; exact Q | intros [Q|[_ [[x [[] _]] _]]]; exact Q].
      - destruct (Step acc x (Hl x (or_introl eq_refl))) as [j [Hj [Hxj Es]]]. rewrite Es.
        destruct (IH (if Nat.testbit n (nth j (reps B P) 0) then set_union acc [j] else acc)) as [r [Er Hr]]; [intros; apply Hl; right; assumption|].
        exists r. split; [exact Er|]. intro i. rewrite Hr.
        assert (Acc : In i (if Nat.testbit n (nth j (reps B P) 0) then set_union acc [j] else acc) <-> In i acc \/ (i = j /\ Nat.testbit n (nth j (reps B P) 0) = true)).
        { destruct (Nat.testbit n (nth j (reps B P) 0)); [rewrite set_union_In; cbn [In]; intuition | intuition discriminate]. }
        rewrite Acc. split.
        + intros [[Q|[-> T]]|[Hi [[y [Hy Hyb]] T]]]; [left; exact Q | right | right].
          * split; [exact Hj|]. split; [exists x; split; [left; reflexivity | exact Hxj] | exact T].
          * split; [exact Hi|]. split; [exists y; split; [right; exact Hy | exact Hyb] | exact T].
        + intros [Q|[Hi [[y [[<-|Hy] Hyb]] T]]]; [left; left; exact Q | | right].
          * left. right. rewrite (block_index f B P x i j K Hi Hj Hyb Hxj) in T |- *. auto.
          * split; [exact Hi|]. split; [exists y; auto | exact T]. }
    destruct (Fold (range (valency f)) []) as [r [Er Hr]]; [intros x Hx; apply range_In; exact Hx|]. rewrite Er. cbn [bind].
    destruct (Binv_exposet_min r) as [w [Ew [Nw _]]]. rewrite Ew. cbn [bind]. f_equal. rewrite binv_intval_eq.
    apply Nat.bits_inj. intro i. rewrite !testbit_b2n, Nw. apply eq_iff_eq_true. rewrite memb_In, Hr.
    assert (Lr := reps_length f B P K). split.
    + intros [[]|[Hi [_ T]]]. rewrite (nth_indep _ false (Nat.testbit n 0)) by (rewrite map_length; lia). rewrite map_nth. exact T.
    + intro T. destruct (Nat.lt_ge_cases i (length B)) as [Hi|Hge]; [|rewrite nth_overflow in T by (rewrite map_length; lia); discriminate]. right. split; [exact Hi|].
      rewrite (nth_indep _ false (Nat.testbit n 0)) in T by (rewrite map_length; lia). rewrite map_nth in T. split; [|exact T].
      exists (nth i (reps B P) 0). assert (Q := rep_in f B P i K Hi). split; [apply range_In; apply (block_valency f B P _ i K Hi Q) | exact Q].
Qed.

(** * bloatless_boolf *)

Lemma full_spot_keeps f n : fitting f -> nth n (root f) false = true -> spot_keeps_links f n.
Proof. intros F Hn a b c Ha Hb L. apply (proj1 (linked_spots f a b c F Ha Hb) L n Hn). Qed.

Lemma satisfying_keeps_links f e : sem f e = true -> keeps_links f e.
Proof. intros He a b c _ _ L. apply L, He. Qed.
Lemma satisfying_keeps_fixed f e : sem f e = true -> keeps_fixed f e.
Proof. intros He a q _ L. apply L, He. Qed.

(** an assignment of the representatives has just one extension with the links *)
Lemma links_determined f B P e e' : blocks_ok f B P -> keeps_links f e -> keeps_links f e' ->
  (forall k, In k (reps B P) -> e' (nth_atom f k) = e (nth_atom f k)) -> sem f e' = sem f e.
Proof.
  intros K H H' He. apply sem_ext. intros a Ha. destruct (In_nth _ _ 0 Ha) as [x [Hx <-]]. fold (nth_atom f x). change (x < valency f) in Hx.
  destruct (reps_cover f B P x K Hx) as [k [Hk [c L]]]. assert (Hkv := reps_valency f B P k K Hk).
  assert (X := H x k c Hx Hkv L). assert (X' := H' x k c Hx Hkv L). rewrite (He k Hk) in X'. rewrite <- X' in X. destruct (e (nth_atom f x)), (e' (nth_atom f x)), (e (nth_atom f k)); cbn in X; congruence.
Qed.

Lemma links_extend f B P e : blocks_ok f B P -> splittable f -> 0 < valency f -> exists e', (forall k, In k (reps B P) -> e' (nth_atom f k) = e (nth_atom f k)) /\ keeps_links f e'.
Proof.
  intros K R Hv. assert (F : fitting f) by apply R. destruct (key_satisfiable f 0 R Hv) as [e0 He0].
  set (idx := fun x : nat => match find (fun b => memb x b) B with Some b => b | None => [] end).
  set (rp := fun x : nat => match find (fun k => memb k (idx x)) (reps B P) with Some k => k | None => 0 end).
  assert (Idx : forall x, x < valency f -> In (idx x) B /\ In x (idx x)).
  { intros x Hx. unfold idx. destruct (find (fun b => memb x b) B) as [b|] eqn:E.
    - apply find_some in E as [E1 E2]. split; [exact E1 | apply memb_In; exact E2].
    - destruct (block_of f B P x K Hx) as [i [Hi Hb]]. assert (X := find_none _ _ E (nth i B []) (nth_In _ _ Hi)). cbv beta in X. apply memb_In in Hb. congruence. }
  assert (Rp : forall x, x < valency f -> In (rp x) (reps B P) /\ tied f x (rp x)).
  { intros x Hx. destruct (Idx x Hx) as [Hi Hxi]. destruct (In_nth _ _ [] Hi) as [i [Hib Hie]]. unfold rp. destruct (find (fun k => memb k (idx x)) (reps B P)) as [k|] eqn:E.
    - apply find_some in E as [E1 E2]. split; [exact E1|]. apply memb_In in E2. rewrite <- Hie in E2, Hxi. apply (block_tied f B P x k i K Hib Hxi). exact E2.
    - assert (Hr := rep_in f B P i K Hib). rewrite Hie in Hr. assert (X := find_none _ _ E (nth i (reps B P) 0) ltac:(apply nth_In; rewrite (reps_length f) by exact K; exact Hib)). cbv beta in X. apply memb_In in Hr. congruence. }
  assert (Key : forall v, In v (atomvals f) -> exists x, x < valency f /\ nth_atom f x = v) by (intros v Hv'; destruct (In_nth _ _ 0 Hv') as [x [Hx E]]; exists x; auto).
  set (key := fun v : nat => match find (fun x => Nat.eqb (nth_atom f x) v) (range (valency f)) with Some x => x | None => 0 end).
  assert (Kk : forall x, x < valency f -> key (nth_atom f x) = x).
  { intros x Hx. unfold key. destruct (find _ _) as [y|] eqn:E.
    - apply find_some in E as [E1 E2]. apply range_In in E1. apply Nat.eqb_eq in E2. destruct (Nat.lt_total x y) as [L|[L|L]]; [assert (Q := nth_atom_lt f x y F ltac:(lia)); lia | auto | assert (Q := nth_atom_lt f y x F ltac:(lia)); lia].
    - assert (X := find_none _ _ E x ltac:(apply range_In; exact Hx)). cbv beta in X. rewrite Nat.eqb_refl in X. discriminate. }
  set (e' := fun v => xorb (e (nth_atom f (rp (key v)))) (xorb (e0 v) (e0 (nth_atom f (rp (key v)))))).
  assert (Ev : forall x, x < valency f -> e' (nth_atom f x) = xorb (e (nth_atom f (rp x))) (xorb (e0 (nth_atom f x)) (e0 (nth_atom f (rp x))))) by (intros x Hx; unfold e'; rewrite (Kk x Hx); reflexivity).
  exists e'. split.
  - intros k Hk. assert (Hkv := reps_valency f B P k K Hk). rewrite (Ev k Hkv). destruct (Rp k Hkv) as [R1 R2]. rewrite <- (reps_independent f B P k (rp k) K Hk R1 R2). rewrite xorb_nilpotent, xorb_false_r. reflexivity.
  - intros a b c Ha Hb L. rewrite (Ev a Ha), (Ev b Hb). destruct (Rp a Ha) as [A1 A2], (Rp b Hb) as [B1 B2].
    assert (X : rp a = rp b). { apply (reps_independent f B P _ _ K A1 B1). apply (tied_trans f _ a _); [apply tied_sym; exact A2|]. apply (tied_trans f _ b _); [exists c; exact L | exact B2]. }
    rewrite X. assert (Y := L e0 He0). rewrite <- Y. destruct (e (nth_atom f (rp b))), (e0 (nth_atom f a)), (e0 (nth_atom f b)), (e0 (nth_atom f (rp b))); reflexivity.
Qed.

Lemma not_constant_valency f : splittable f -> is_constant f = false -> 0 < valency f.
Proof.
  intros R H. destruct (Nat.eq_dec (valency f) 0) as [E|]; [|lia]. exfalso. assert (X : atomvals f = []) by (unfold valency in E; destruct (atomvals f); [reflexivity | discriminate]). apply R in X. congruence.
Qed.

Lemma constant_no_atoms f : splittable f -> is_constant f = true -> atomvals f = [].
Proof. intros R H. apply R. exact H. Qed.

Lemma constant_reduced f : splittable f -> is_constant f = true -> reduced f.
Proof.
  intros R H. assert (E := constant_no_atoms f R H). apply wellmade_reduced; [apply R|]. apply not_true_is_false. intro X.
  apply R in X as [a [Ha _]]. rewrite E in Ha. destruct Ha.
Qed.

Lemma eqb_sem f g : boolf_eqb f g = true -> forall e, sem f e = sem g e.
Proof. intros H e. apply boolf_eqb_eq in H as [H1 H2]. unfold sem. rewrite H1, H2. reflexivity. Qed.

Lemma constant_blocks order f B P : splittable f -> is_constant f = true -> blocks_and_sides order f = Ok (B, P) -> B = [] /\ P = [].
Proof. intros R H E. unfold blocks_and_sides in E. rewrite H in E. injection E as <- <-. auto. Qed.

Lemma bloatless_boolf_spec order f B P : (forall l, Permutation (order l) l) -> splittable f -> blocks_and_sides order f = Ok (B, P) -> blocks_ok f B P ->
  exists g, bloatless_boolf order f = Ok g /\ reduced g /\ forall e, sem g e = true <-> extends f (reps B P) e.
Proof.
  intros Ho R E K. assert (F : fitting f) by apply R. unfold bloatless_boolf. destruct (is_constant f) eqn:Ec.
  { exists f. split; [reflexivity|]. split; [apply constant_reduced; assumption|]. intro e. split.
    - intro H. exists e. auto.
    - intros [e' [_ H]]. rewrite <- H. apply sem_ext. rewrite (constant_no_atoms f R Ec). intros a []. }
  assert (Hv := not_constant_valency f R Ec).
  destruct (bloat_boolf_spec order f Ho R) as [bb [Eb [Rb Sb]]]. rewrite Eb. cbn [bind]. destruct (boolf_eqb bb f) eqn:Ebb.
  { exists (set_constant true). destruct (set_constant_reduced true) as [Rt St]. split; [reflexivity|]. split; [exact Rt|]. intro e. rewrite St. split; [|reflexivity]. intros _.
    destruct (links_extend f B P e K R Hv) as [e' [H1 H2]]. exists e'. split; [exact H1|]. rewrite <- (eqb_sem bb f Ebb e'). apply Sb. exact H2. }
  destruct (bloatless_spotint_spec order f Ho R Ec) as (B' & P' & E' & _ & Sp). rewrite E in E'. injection E' as <- <-.
  rewrite (mapM_ok _ (fun n => b2n (map (Nat.testbit n) (reps B P)))).
  2: { intros n Hn. apply binv_exposet_In in Hn. apply Sp; [apply (place_bound f n F Hn) | apply (full_spot_keeps f n F Hn)]. }
  cbn [bind]. unfold number_of_distinct_splits. rewrite E. cbn [bind fst].
  set (spots := map _ (binv_exposet (root f))).
  destruct (Binv_exposet_len spots (2 ^ length B)) as [v [Ev [Lv Nv]]].
  { intros i Hi. unfold spots in Hi. apply in_map_iff in Hi as [n [<- _]]. assert (X := b2n_lt (map (Nat.testbit n) (reps B P))). rewrite map_length, (reps_length f) in X by exact K. exact X. }
  rewrite Ev. cbn [bind]. rewrite (undeflated_spec order f B P Ho R E K). cbn [bind].
  rewrite atoms_at by (try exact F; intros k Hk; apply (reps_valency f B P k K Hk)). cbn [bind].
  destruct (Boolf_vec_sorted v (map (nth_atom f) (reps B P))) as [g [Eg [Rg Sg]]].
  { apply atoms_at_asc; [exact F | apply K | intros k Hk; apply (reps_valency f B P k K Hk)]. }
  { rewrite map_length, (reps_length f) by exact K. exact Lv. }
  exists g. split; [exact Eg|]. split; [exact Rg|]. intro e. rewrite Sg. unfold table. rewrite map_map, Nv, memb_In. unfold spots. rewrite in_map_iff. split.
  - intros [n [X Hn]]. apply binv_exposet_In in Hn. assert (Hb := place_bound f n F Hn). apply b2n_inj in X; [|rewrite !map_length; reflexivity].
    exists (asg (atomvals f) n). split; [|rewrite sem_place_asg by assumption; exact Hn]. intros k Hk. rewrite asg_key by (try exact F; apply (reps_valency f B P k K Hk)).
    apply (ext_in_map X k Hk).
  - intros [e' [H1 H2]]. exists (b2n (map e' (atomvals f))). split; [|apply binv_exposet_In; exact H2]. f_equal. apply map_ext_in. intros k Hk.
    rewrite bit_of_place by (apply (reps_valency f B P k K Hk)). apply H1. exact Hk.
Qed.
