(** Proof_MinRepCoset: the indices of the permutations that map one set of bits onto another
    (schoute_coset_gen), and the layers by weight (flat_to_layered). *)

From Coq Require Import List Arith ZArith Bool Lia Permutation Sorted Factorial.
From Verif Require Import Model_Base Lib Model_Splits Model_Perm Model_Binary Model_SigPerm Model_Boolf Model_Twin Model_BoolfMore Model_MinRep
  Spec_Bits Spec_Boolf Spec_Twin Proof_Binary Proof_Perm Proof_PermMore Proof_Inversions Proof_SigPerm Proof_SigPermOps
  Proof_Helpers Proof_Linear Proof_WalshLinear Proof_Boolf Proof_Deflate Proof_BoolfTable Proof_BoolfApply Proof_BoolfMake Proof_Twin
  Proof_Noble Proof_BoolfMore Proof_Splits Proof_MinRepTwin Proof_MinRepClass.
From Verif Require Proof_SegmentsMore.
Import ListNotations.
Open Scope nat_scope.

Lemma nth_map0 (g : nat -> nat) l i : i < length l -> nth i (map g l) 0 = g (nth i l 0).
Proof. intro H. rewrite (nth_indep _ 0 (g 0)) by (rewrite map_length; exact H). apply map_nth. Qed.

(** * Arrangements *)

Lemma selections_In {A} (l : list A) x l' : In (x, l') (selections l) -> Permutation l (x :: l').
Proof.
  revert x l'. induction l as [|y l IH]; intros x l' H; [destruct H|]. cbn [selections] in H. destruct H as [E|H].
  - injection E as -> ->. reflexivity.
  - apply in_map_iff in H as ((x0 & l0) & E & H). cbn [fst snd] in E. injection E as -> <-. rewrite (IH _ _ H). apply perm_swap.
Qed.
Lemma selections_all {A} (l : list A) x : In x l -> exists l', In (x, l') (selections l).
Proof.
  induction l as [|y l IH]; intro H; [destruct H|]. cbn [selections]. destruct H as [->|H]; [exists l; left; reflexivity|].
  destruct (IH H) as (l' & Hl). exists (y :: l'). right. apply in_map_iff. exists (x, l'). split; [reflexivity | exact Hl].
Qed.

Lemma permutations_In {A} (l p : list A) : In p (permutations l) <-> Permutation p l.
Proof.
  unfold permutations. assert (G : forall n (l p : list A), length l = n -> In p (permutations_fuel n l) <-> Permutation p l).
  { clear l p. induction n as [|n IH]; intros l p Hl; cbn [permutations_fuel].
    - destruct l; [|discriminate Hl]. split; [intros [<-|[]]; reflexivity|]. intro H. apply Permutation_sym, Permutation_nil in H. left. symmetry. exact H.
    - rewrite in_flat_map. split.
      + intros ((x & l') & Hs & Hp). apply in_map_iff in Hp as (q & <- & Hq). cbn [fst snd] in *. assert (P := selections_In _ _ _ Hs).
        assert (Ll := Permutation_length P). cbn [length] in Ll. apply (proj1 (IH l' q ltac:(lia))) in Hq. rewrite Hq. symmetry. exact P.
      + intro H. destruct p as [|x q]; [apply Permutation_nil in H; subst l; discriminate Hl|].
        destruct (selections_all l x) as (l' & Hs); [eapply Permutation_in; [exact H | left; reflexivity]|]. exists (x, l'). split; [exact Hs|].
        cbn [fst snd]. apply in_map. assert (P := selections_In _ _ _ Hs). assert (Ll := Permutation_length P). cbn [length] in Ll.
        apply (IH l' q ltac:(lia)). apply Permutation_cons_inv with x. rewrite H, P. reflexivity. }
  apply G. reflexivity.
Qed.

Lemma permutations_length_fact {A} (l : list A) : length (permutations l) = fact (length l).
Proof.
  unfold permutations. assert (G : forall n (l : list A), length l = n -> length (permutations_fuel n l) = fact n).
  { clear l. induction n as [|n IH]; intros l Hl; [reflexivity|]. cbn [permutations_fuel].
    assert (S1 : forall (l : list A), length (selections l) = length l) by (clear; induction l as [|y l IH]; [reflexivity|]; cbn [selections length]; rewrite map_length, IH; reflexivity).
    assert (K : forall (s : list (A * list A)), (forall x l', In (x, l') s -> length l' = n) -> length (flat_map (fun p => map (cons (fst p)) (permutations_fuel n (snd p))) s) = length s * fact n).
    { induction s as [|(x & l') s IHs]; intro Hs; [reflexivity|]. cbn [flat_map fst snd]. rewrite app_length, map_length, (IH l'), IHs.
      - cbn [length]. lia.
      - intros. eapply Hs. right. eassumption.
      - eapply Hs. left. reflexivity. }
    rewrite K, S1, Hl; [cbn [fact]; lia|]. intros x l' Hx. apply selections_In, Permutation_length in Hx. cbn [length] in Hx. lia. }
  apply G. reflexivity.
Qed.

(** * Writing at places *)

Lemma write_at_spec keys vals perm : length vals = length keys -> NoDup keys -> (forall k, In k keys -> k < length perm) ->
  exists p', write_at keys vals perm = Ok p' /\ length p' = length perm /\
    (forall i, i < length keys -> nth (nth i keys 0) p' 0 = nth i vals 0) /\ (forall k, ~ In k keys -> nth k p' 0 = nth k perm 0).
Proof.
  intros Hl Hn Hk. unfold write_at, enumerate.
  assert (G : forall vs a perm, length perm = length perm -> a + length vs = length keys -> (forall k, In k keys -> k < length perm) ->
    exists p', foldM (fun perm (iv : nat * nat) => let* key := lget keys (fst iv) in list_assign perm key (snd iv)) (combine (seq a (length vs)) vs) perm = Ok p' /\
      length p' = length perm /\ (forall i, i < length vs -> nth (nth (a + i) keys 0) p' 0 = nth i vs 0) /\
      (forall k, (forall i, i < length vs -> k <> nth (a + i) keys 0) -> nth k p' 0 = nth k perm 0)).
  { clear vals perm Hl Hk. induction vs as [|v vs IH]; intros a perm _ Hl Hk.
    - exists perm. split; [reflexivity|]. split; [reflexivity|]. split; [cbn [length]; intros; lia | reflexivity].
    - cbn [length] in Hl. cbn [length seq combine foldM fst snd]. rewrite (lget_ok keys a 0) by lia. cbn [bind].
      assert (Ha : nth a keys 0 < length perm) by (apply Hk, nth_In; lia).
      unfold list_assign at 1. rewrite (lget_ok perm _ 0) by exact Ha. cbn [bind].
      destruct (IH (S a) (lset perm (nth a keys 0) v) eq_refl) as (p' & E & L & V & O); [lia | intros k Hin; rewrite lset_length; auto|].
      exists p'. split; [exact E|]. split; [rewrite L; apply lset_length|]. split.
      + intros [|i] Hi.
        * rewrite Nat.add_0_r. cbn [nth]. rewrite O; [rewrite nth_lset by exact Ha; rewrite Nat.eqb_refl; reflexivity|].
          intros i Hi' Eq. apply (NoDup_nth keys 0) in Eq; [lia | exact Hn | lia | lia].
        * cbn [nth]. rewrite <- (V i) by lia. f_equal. f_equal. lia.
      + intros k Ho. rewrite O.
        * rewrite nth_lset by exact Ha. destruct (Nat.eqb_spec k (nth a keys 0)) as [Eq|_]; [|reflexivity]. exfalso. apply (Ho 0); [lia | rewrite Nat.add_0_r; exact Eq].
        * intros i Hi. specialize (Ho (S i)). replace (a + S i) with (S a + i) in Ho by lia. apply Ho. lia. }
  destruct (G vals 0 perm eq_refl Hl Hk) as (p' & E & L & V & O). exists p'. split; [exact E|]. split; [exact L|]. split.
  - intros i Hi. rewrite <- (V i) by lia. reflexivity.
  - intros k Ho. apply O. intros i Hi ->. apply Ho, nth_In. lia.
Qed.

(** * The action of an index *)

Definition act (r : nat) : nat -> nat := match int_to_perm r with Ok p => pget p | Err _ => fun a => a end.

Lemma act_perm r n : r < fact n -> permutes (act r) n /\ from_factoradic (left_inversion_count (map (act r) (range n))) = r.
Proof. intro H. destruct (rank_perm r n H) as (p & E & P & R). unfold act. rewrite E. split; assumption. Qed.

Lemma act_list s n : Permutation s (range n) ->
  let r := from_factoradic (left_inversion_count s) in r < fact n /\ forall x, x < n -> act r x = nth x s 0.
Proof. intro H. destruct (rank_list s n H) as (p & E & V & L). cbn zeta. split; [exact L|]. unfold act. rewrite E. exact V. Qed.

Lemma act_inj r r' n : r < fact n -> r' < fact n -> (forall x, x < n -> act r x = act r' x) -> r = r'.
Proof.
  intros H H' E. rewrite <- (proj2 (act_perm r n H)), <- (proj2 (act_perm r' n H')). do 2 f_equal. apply map_ext_in.
  intros x Hx. apply E, range_In, Hx.
Qed.

Definition off (n z : nat) : list nat := filter (fun k => negb (memb k (int_to_exposet z))) (range n).
Lemma off_In n z k : In k (off n z) <-> k < n /\ Nat.testbit z k = false.
Proof.
  unfold off. rewrite filter_In, range_In, negb_true_iff. split; intros [H1 H2]; (split; [exact H1|]).
  - apply not_true_iff_false. intro H. apply (int_to_exposet_spec z), memb_In in H. congruence.
  - apply not_true_iff_false. intro H. apply memb_In, (int_to_exposet_spec z) in H. congruence.
Qed.
Lemma on_In z k : In k (int_to_exposet z) <-> Nat.testbit z k = true.
Proof. apply int_to_exposet_spec. Qed.
Lemma on_NoDup z : NoDup (int_to_exposet z).
Proof. apply sorted_lt_NoDup, int_to_exposet_spec. Qed.
Lemma off_NoDup n z : NoDup (off n z).
Proof. apply NoDup_filter. apply seq_NoDup. Qed.
Lemma on_off_perm n z : z < 2 ^ n -> Permutation (int_to_exposet z ++ off n z) (range n).
Proof.
  intro H. apply NoDup_Permutation.
  - apply NoDup_app_intro; [apply on_NoDup | apply off_NoDup|]. intros k H1 H2. apply on_In in H1. apply off_In in H2 as [_ H2]. congruence.
  - apply seq_NoDup.
  - intro k. rewrite in_app_iff, on_In, off_In, range_In. split.
    + intros [Hk|[Hk _]]; [exact (testbit_lt_pow z k n H Hk) | exact Hk].
    + intro Hk. destruct (Nat.testbit z k); auto.
Qed.
Lemma length_on z : length (int_to_exposet z) = count_ones z.
Proof.
  change (count_ones z) with (length (ones z)). f_equal. apply sorted_lt_ext; [apply int_to_exposet_spec | apply filter_sorted, range_sorted_lt|].
  intro k. rewrite on_In, ones_In. reflexivity.
Qed.
Lemma length_off n z : z < 2 ^ n -> length (off n z) = n - count_ones z.
Proof. intro H. assert (E := Permutation_length (on_off_perm n z H)). rewrite app_length, range_length, length_on in E. lia. Qed.
Lemma count_ones_le n z : z < 2 ^ n -> count_ones z <= n.
Proof. intro H. assert (E := Permutation_length (on_off_perm n z H)). rewrite app_length, range_length, length_on in E. lia. Qed.

Lemma count_ones_pre pi n k : permutes pi n -> k < 2 ^ n -> count_ones (pre pi n k) = count_ones k.
Proof.
  intros H Hk. rewrite <- !length_on, <- (map_length pi (int_to_exposet (pre pi n k))). apply Permutation_length. apply NoDup_Permutation.
  - apply NoDup_map_inj; [apply on_NoDup|]. intros a b Ha Hb E. apply on_In in Ha, Hb.
    apply (testbit_lt_pow _ _ _ (pre_lt pi n k)) in Ha, Hb. rewrite <- (range_length n) in Ha, Hb.
    assert (N : NoDup (map pi (range n))) by (eapply Permutation_NoDup; [apply Permutation_sym; exact H | apply seq_NoDup]).
    rewrite range_length in Ha, Hb. apply (proj1 (NoDup_nth _ 0) N).
    + rewrite map_length, range_length. exact Ha.
    + rewrite map_length, range_length. exact Hb.
    + rewrite !nth_map_range by assumption. exact E.
  - apply on_NoDup.
  - intro b. rewrite in_map_iff, on_In. split.
    + intros (a & <- & Ha). apply on_In in Ha. assert (La := testbit_lt_pow _ _ _ (pre_lt pi n k) Ha). rewrite pre_bits in Ha by exact La. exact Ha.
    + intro Hb. destruct (permutes_onto pi n b H (testbit_lt_pow k b n Hk Hb)) as (a & La & <-). exists a. split; [reflexivity|]. apply on_In.
      rewrite pre_bits by exact La. exact Hb.
Qed.

(** * Cosets *)

Lemma coset_step T S n rv vv : T < 2 ^ n -> S < 2 ^ n -> count_ones T = count_ones S ->
  Permutation rv (int_to_exposet S) -> Permutation vv (off n S) ->
  exists p1 p2, write_at (int_to_exposet T) rv (repeat 0 n) = Ok p1 /\ write_at (off n T) vv p1 = Ok p2 /\ Permutation p2 (range n) /\ length p2 = n /\
    (forall i, i < count_ones T -> nth (nth i (int_to_exposet T) 0) p2 0 = nth i rv 0) /\
    (forall i, i < n - count_ones T -> nth (nth i (off n T) 0) p2 0 = nth i vv 0).
Proof.
  intros HT HS Hw Hr Hv. assert (Lr := Permutation_length Hr). assert (Lv := Permutation_length Hv). rewrite length_on in Lr. rewrite length_off in Lv by exact HS.
  destruct (write_at_spec (int_to_exposet T) rv (repeat 0 n)) as (p1 & E1 & L1 & V1 & O1).
  { rewrite length_on. congruence. } { apply on_NoDup. } { intros k Hk. rewrite repeat_length. apply on_In in Hk. exact (testbit_lt_pow T k n HT Hk). }
  rewrite repeat_length in L1.
  destruct (write_at_spec (off n T) vv p1) as (p2 & E2 & L2 & V2 & O2).
  { rewrite length_off by exact HT. congruence. } { apply off_NoDup. } { intros k Hk. rewrite L1. apply off_In in Hk. apply Hk. }
  rewrite length_on in V1. rewrite length_off in V2 by exact HT.
  assert (V1' : forall i, i < count_ones T -> nth (nth i (int_to_exposet T) 0) p2 0 = nth i rv 0).
  { intros i Hi. rewrite O2; [apply V1, Hi|]. intro Hin. apply off_In in Hin as [_ Hin].
    assert (Hc : In (nth i (int_to_exposet T) 0) (int_to_exposet T)) by (apply nth_In; rewrite length_on; exact Hi). apply on_In in Hc. congruence. }
  exists p1, p2. split; [exact E1|]. split; [exact E2|]. split; [|split; [congruence | split; [exact V1' | exact V2]]].
  assert (Ep : p2 = map (fun k => nth k p2 0) (range n)).
  { apply (nth_ext _ _ 0 0); [rewrite map_length, range_length; congruence|]. intros i Hi. rewrite nth_map_range by congruence. reflexivity. }
  rewrite Ep. eapply Permutation_trans; [apply Permutation_map, Permutation_sym, (on_off_perm n T HT)|]. rewrite map_app.
  eapply Permutation_trans; [|apply (on_off_perm n S HS)]. apply Permutation_app.
  - replace (map (fun k => nth k p2 0) (int_to_exposet T)) with rv; [exact Hr|]. apply (nth_ext _ _ 0 0); [rewrite map_length, length_on; congruence|].
    intros i Hi. rewrite nth_map0 by (rewrite length_on; congruence). symmetry. apply V1'. congruence.
  - replace (map (fun k => nth k p2 0) (off n T)) with vv; [exact Hv|]. apply (nth_ext _ _ 0 0); [rewrite map_length, length_off by exact HT; congruence|].
    intros i Hi. rewrite nth_map0 by (rewrite length_off by exact HT; congruence). symmetry. apply V2. congruence.
Qed.

Lemma injective_on pi n a b : permutes pi n -> a < n -> b < n -> pi a = pi b -> a = b.
Proof.
  intros H Ha Hb E. assert (N : NoDup (map pi (range n))) by (eapply Permutation_NoDup; [apply Permutation_sym; exact H | apply seq_NoDup]).
  apply (proj1 (NoDup_nth _ 0) N); rewrite ?map_length, ?range_length; try assumption. rewrite !nth_map_range by assumption. exact E.
Qed.

Lemma schoute_coset_spec T S n : T < 2 ^ n -> S < 2 ^ n -> count_ones T = count_ones S ->
  exists l, schoute_coset T S n = Ok l /\ l <> [] /\ forall r, In r l <-> r < fact n /\ pre (act r) n S = T.
Proof.
  intros HT HS Hw. unfold schoute_coset. rewrite (proj2 (Nat.ltb_lt _ _) HT), (proj2 (Nat.ltb_lt _ _) HS). cbn [true_except bind]. cbn zeta.
  fold (off n T). fold (off n S).
  set (F := fun rv : list nat * list nat => _).
  destruct (Proof_SegmentsMore.mapM_exists F (fun rv r => exists p1 p2, write_at (int_to_exposet T) (fst rv) (repeat 0 n) = Ok p1 /\ write_at (off n T) (snd rv) p1 = Ok p2 /\
     Permutation p2 (range n) /\ length p2 = n /\ (forall i, i < count_ones T -> nth (nth i (int_to_exposet T) 0) p2 0 = nth i (fst rv) 0) /\
    (forall i, i < n - count_ones T -> nth (nth i (off n T) 0) p2 0 = nth i (snd rv) 0) /\ r = from_factoradic (left_inversion_count p2))
    (list_prod (permutations (int_to_exposet S)) (permutations (off n S)))) as (l & El & Fl).
  { intros (rv & vv) Hin. apply in_prod_iff in Hin as [H1 H2]. apply permutations_In in H1, H2.
    destruct (coset_step T S n rv vv HT HS Hw H1 H2) as (p1 & p2 & E1 & E2 & P & L & V1 & V2). unfold F. cbn [fst snd]. rewrite E1. cbn [bind]. rewrite E2. cbn [bind].
    eexists. split; [reflexivity|]. exists p1, p2. auto 10. }
  exists l. split; [exact El|]. split.
  - intros ->. assert (Hin : In (int_to_exposet S, off n S) (list_prod (permutations (int_to_exposet S)) (permutations (off n S)))) by (apply in_prod; apply permutations_In; reflexivity).
    inversion Fl as [E|]. rewrite <- E in Hin. destruct Hin.
  - intro r. split.
    + intro Hr. assert (X : exists rv, In rv (list_prod (permutations (int_to_exposet S)) (permutations (off n S))) /\ exists p2, Permutation p2 (range n) /\
        (forall i, i < count_ones T -> nth (nth i (int_to_exposet T) 0) p2 0 = nth i (fst rv) 0) /\
        (forall i, i < n - count_ones T -> nth (nth i (off n T) 0) p2 0 = nth i (snd rv) 0) /\ r = from_factoradic (left_inversion_count p2)).
      { clear El. induction Fl as [|x y l1 l2 Hxy Fl IH]; [destruct Hr|]. destruct Hr as [->|Hr].
        - exists x. split; [left; reflexivity|]. destruct Hxy as (p1 & p2 & _ & _ & Q1 & _ & Q2 & Q3 & Q4). exists p2. auto.
        - destruct (IH Hr) as (rv & Hin & X). exists rv. split; [right; exact Hin | exact X]. }
      destruct X as ((rv & vv) & Hin & p2 & P & V1 & V2 & ->). cbn [fst snd] in *. apply in_prod_iff in Hin as [H1 H2]. apply permutations_In in H1, H2.
      destruct (act_list p2 n P) as [Hf Ha]. split; [exact Hf|]. apply pre_eq; [exact HT|]. intros a Hlt. rewrite Ha by exact Hlt.
      destruct (Nat.testbit T a) eqn:Eb.
      * assert (Hi := Eb). apply on_In in Hi. apply (In_nth _ _ 0) in Hi as (i & Hi & Ei). rewrite length_on in Hi. rewrite <- Ei, V1 by exact Hi. symmetry. apply on_In.
        eapply Permutation_in; [exact H1|]. apply nth_In. rewrite (Permutation_length H1), length_on. congruence.
      * assert (Hi : In a (off n T)) by (apply off_In; auto). apply (In_nth _ _ 0) in Hi as (i & Hi & Ei). rewrite length_off in Hi by exact HT. rewrite <- Ei, V2 by exact Hi. symmetry.
        apply (off_In n). eapply Permutation_in; [exact H2|]. apply nth_In. rewrite (Permutation_length H2), length_off by exact HS. congruence.
    + intros [Hr Hp]. destruct (act_perm r n Hr) as [Pr Rr].
      assert (Bits : forall a, a < n -> Nat.testbit T a = Nat.testbit S (act r a)) by (intros a Ha; rewrite <- Hp, pre_bits by exact Ha; reflexivity).
      set (rv := map (act r) (int_to_exposet T)). set (vv := map (act r) (off n T)).
      assert (H1 : Permutation rv (int_to_exposet S)).
      { apply NoDup_Permutation.
        - apply NoDup_map_inj; [apply on_NoDup|]. intros a b Ha Hb E. apply on_In in Ha, Hb. apply (testbit_lt_pow _ _ _ HT) in Ha, Hb. exact (injective_on _ n a b Pr Ha Hb E).
        - apply on_NoDup.
        - intro b. unfold rv. rewrite in_map_iff, on_In. split.
          + intros (a & <- & Ha). apply on_In in Ha. rewrite <- Bits by exact (testbit_lt_pow _ _ _ HT Ha). exact Ha.
          + intro Hb. destruct (permutes_onto _ n b Pr (testbit_lt_pow S b n HS Hb)) as (a & La & <-). exists a. split; [reflexivity|]. apply on_In. rewrite Bits by exact La. exact Hb. }
      assert (H2 : Permutation vv (off n S)).
      { apply NoDup_Permutation.
        - apply NoDup_map_inj; [apply off_NoDup|]. intros a b Ha Hb E. apply off_In in Ha, Hb. exact (injective_on _ n a b Pr (proj1 Ha) (proj1 Hb) E).
        - apply off_NoDup.
        - intro b. unfold vv. rewrite in_map_iff, off_In. split.
          + intros (a & <- & Ha). apply off_In in Ha as [Ha Hf]. split; [apply permutes_lt; assumption|]. rewrite <- Bits by exact Ha. exact Hf.
          + intros [Hb Hf]. destruct (permutes_onto _ n b Pr Hb) as (a & La & <-). exists a. split; [reflexivity|]. apply off_In. split; [exact La|]. rewrite Bits by exact La. exact Hf. }
      assert (Hin : In (rv, vv) (list_prod (permutations (int_to_exposet S)) (permutations (off n S)))) by (apply in_prod; apply permutations_In; assumption).
      assert (X : exists y, In y l /\ F (rv, vv) = Ok y).
      { clear - El Hin. apply mapM_inv in El. induction El as [|x y l1 l2 Hxy Fl IH]; [destruct Hin|]. destruct Hin as [->|Hin].
        - exists y. split; [left; reflexivity | exact Hxy].
        - destruct (IH Hin) as (z & Hz & Ez). exists z. split; [right; exact Hz | exact Ez]. }
      destruct X as (y & Hy & Fy). replace r with y; [exact Hy|].
      destruct (coset_step T S n rv vv HT HS Hw H1 H2) as (p1 & p2 & E1 & E2 & P & L & V1 & V2). unfold F in Fy. cbn [fst snd] in Fy.
      rewrite E1 in Fy. cbn [bind] in Fy. rewrite E2 in Fy. cbn [bind] in Fy. injection Fy as <-. rewrite <- Rr. do 2 f_equal.
      apply (nth_ext _ _ 0 0); [rewrite map_length, range_length; congruence|]. intros a Ha. rewrite L in Ha. rewrite nth_map_range by exact Ha.
      destruct (Nat.testbit T a) eqn:Eb.
      * assert (Hi := Eb). apply on_In in Hi. apply (In_nth _ _ 0) in Hi as (i & Hi & Ei). rewrite length_on in Hi. rewrite <- Ei, V1 by exact Hi.
        unfold rv. apply nth_map0. rewrite length_on. exact Hi.
      * assert (Hi : In a (off n T)) by (apply off_In; auto). apply (In_nth _ _ 0) in Hi as (i & Hi & Ei). rewrite length_off in Hi by exact HT. rewrite <- Ei, V2 by exact Hi.
        unfold vv. apply nth_map0. rewrite length_off by exact HT. exact Hi.
Qed.

(** * Layers *)

Lemma bucket_fold {A B} (w : B -> nat) (up : A -> B -> A) (d : A) kvs : forall init, (forall kv, In kv kvs -> w kv < length init) ->
  exists r, foldM (fun result kv => let* layer := lget result (w kv) in list_assign result (w kv) (up layer kv)) kvs init = Ok r /\
    length r = length init /\ forall j, j < length init -> nth j r d = fold_left up (filter (fun kv => Nat.eqb (w kv) j) kvs) (nth j init d).
Proof.
  induction kvs as [|kv kvs IH]; intros init H.
  - exists init. split; [reflexivity|]. split; reflexivity.
  - cbn [foldM filter]. assert (Hk := H kv (or_introl eq_refl)). rewrite (lget_ok init _ d) by exact Hk. cbn [bind].
    unfold list_assign at 1. rewrite (lget_ok init _ d) by exact Hk. cbn [bind].
    destruct (IH (lset init (w kv) (up (nth (w kv) init d) kv))) as (r & E & L & V).
    { intros x Hx. rewrite lset_length. apply H. right. exact Hx. }
    rewrite lset_length in L, V. exists r. split; [exact E|]. split; [exact L|]. intros j Hj. rewrite V by exact Hj. rewrite nth_lset by exact Hk.
    rewrite (Nat.eqb_sym (w kv) j). destruct (Nat.eqb_spec j (w kv)) as [->|_]; reflexivity.
Qed.

Lemma enumerate_map {A} (F : nat -> A) N : enumerate (map F (range N)) = map (fun k => (k, F k)) (range N).
Proof.
  unfold enumerate, range. rewrite map_length, seq_length. generalize 0 as a. induction N as [|N IH]; intro a; [reflexivity|].
  cbn [seq map combine]. f_equal. apply IH.
Qed.

Lemma filter_map_swap {A B} (g : A -> B) (P : B -> bool) l : filter P (map g l) = map g (filter (fun x => P (g x)) l).
Proof. induction l as [|x l IH]; [reflexivity|]. cbn [map filter]. rewrite IH. destruct (P (g x)); reflexivity. Qed.

Definition weights (n w : nat) : list nat := filter (fun k => Nat.eqb (count_ones k) w) (range (2 ^ n)).

Theorem flat_to_layered_spec {A} (F : nat -> A) n :
  flat_to_layered (map F (range (2 ^ n))) = Ok (map (fun w => map F (weights n w)) (range (n + 1))).
Proof.
  unfold flat_to_layered. rewrite map_length, range_length, log_int_pow. cbn [bind].
  destruct (bucket_fold (fun kv : nat * A => int_to_weight (fst kv)) (fun layer kv => layer ++ [snd kv]) [] (enumerate (map F (range (2 ^ n)))) (repeat [] (n + 1))) as (r & E & L & V).
  { intros kv Hkv. rewrite enumerate_map in Hkv. apply in_map_iff in Hkv as (k & <- & Hk). apply range_In in Hk. cbn [fst]. rewrite int_to_weight_eq, repeat_length.
    assert (X := count_ones_le n k Hk). lia. }
  rewrite repeat_length in L, V. cbv beta in E. rewrite E. f_equal. apply (nth_ext _ _ [] []); [rewrite map_length, range_length; exact L|].
  intros j Hj. rewrite L in Hj. rewrite (Proof_SigPerm.nth_map_range (fun w => map F (weights n w)) (n + 1) j []) by exact Hj. rewrite V by exact Hj.
  rewrite nth_repeat. rewrite enumerate_map, filter_map_swap. cbn [fst].
  assert (G : forall l (acc : list A), fold_left (fun layer (kv : nat * A) => layer ++ [snd kv]) (map (fun k => (k, F k)) l) acc = acc ++ map F l).
  { clear. induction l as [|x l IH]; intro acc; [cbn; rewrite app_nil_r; reflexivity|]. cbn [map fold_left snd]. rewrite IH, <- app_assoc. reflexivity. }
  rewrite G. cbn [app]. f_equal. apply filter_ext. intro k. rewrite int_to_weight_eq. reflexivity.
Qed.

Theorem flat_to_places_spec (F : nat -> bool) n :
  flat_to_places (map F (range (2 ^ n))) = Ok (map (fun w => (filter (fun k => negb (F k)) (weights n w), filter F (weights n w))) (range (n + 1))).
Proof.
  unfold flat_to_places. rewrite map_length, range_length, log_int_pow. cbn [bind].
  destruct (bucket_fold (fun kv : nat * bool => int_to_weight (fst kv))
    (fun layer kv => if snd kv : bool then (fst layer, snd layer ++ [fst kv]) else (fst layer ++ [fst kv], snd layer)) ([], []) (enumerate (map F (range (2 ^ n)))) (repeat ([], []) (n + 1))) as (r & E & L & V).
  { intros kv Hkv. rewrite enumerate_map in Hkv. apply in_map_iff in Hkv as (k & <- & Hk). apply range_In in Hk. cbn [fst]. rewrite int_to_weight_eq, repeat_length.
    assert (X := count_ones_le n k Hk). lia. }
  rewrite repeat_length in L, V. cbv beta in E. rewrite E. f_equal. apply (nth_ext _ _ ([], []) ([], [])); [rewrite map_length, range_length; exact L|].
  intros j Hj. rewrite L in Hj. rewrite (Proof_SigPerm.nth_map_range _ (n + 1) j ([], [])) by exact Hj. rewrite V by exact Hj. rewrite nth_repeat.
  rewrite enumerate_map, filter_map_swap. cbn [fst].
  rewrite (filter_ext (fun x => Nat.eqb (int_to_weight x) j) (fun x => Nat.eqb (count_ones x) j)) by (intro k; rewrite int_to_weight_eq; reflexivity).
  fold (weights n j).
  assert (G : forall l (acc : list nat * list nat), fold_left (fun layer (kv : nat * bool) => if snd kv : bool then (fst layer, snd layer ++ [fst kv]) else (fst layer ++ [fst kv], snd layer)) (map (fun k => (k, F k)) l) acc =
      (fst acc ++ filter (fun k => negb (F k)) l, snd acc ++ filter F l)).
  { clear. induction l as [|x l IH]; intro acc; [cbn; rewrite !app_nil_r; destruct acc; reflexivity|]. cbn [map fold_left snd fst filter]. rewrite IH.
    destruct (F x); cbn [fst snd negb]; rewrite <- ?app_assoc; reflexivity. }
  rewrite G. reflexivity.
Qed.

(** * The wrappers *)

Definition layer_of (F : nat -> bool) (n w : nat) : list nat * list nat := (filter (fun k => negb (F k)) (weights n w), filter F (weights n w)).
Definition layers_of (F : nat -> bool) (n : nat) : list (list nat * list nat) := map (layer_of F n) (range (n + 1)).

Lemma lget_layers F n s : s < 2 ^ n -> lget (layers_of F n) (int_to_weight s) = Ok (layer_of F n (count_ones s)).
Proof.
  intro H. rewrite int_to_weight_eq. assert (X := count_ones_le n s H). unfold layers_of.
  rewrite (lget_ok _ _ ([], [])) by (rewrite map_length, range_length; lia). rewrite (Proof_SigPerm.nth_map_range (layer_of F n)) by lia. reflexivity.
Qed.

Lemma weights_In n w k : In k (weights n w) <-> k < 2 ^ n /\ count_ones k = w.
Proof. unfold weights. rewrite filter_In, range_In, Nat.eqb_eq. reflexivity. Qed.

Lemma find_needles_spec needles s n : s < 2 ^ n -> (forall k, In k needles -> k < 2 ^ n /\ count_ones k = count_ones s) ->
  exists l, find_needles needles s n = Ok l /\ NoDup l /\ (needles <> [] -> l <> []) /\ forall r, In r l <-> r < fact n /\ In (pre (act r) n s) needles.
Proof.
  intros Hs H. unfold find_needles.
  destruct (Proof_SegmentsMore.mapM_exists (fun needle => schoute_coset needle s n) (fun needle l => l <> [] /\ forall r, In r l <-> r < fact n /\ pre (act r) n s = needle) needles) as (found & E & Ff).
  { intros k Hk. destruct (H k Hk) as [H1 H2]. destruct (schoute_coset_spec k s n H1 Hs H2) as (l & El & Ne & Hl). exists l. auto. }
  rewrite E. cbn [bind]. eexists. split; [reflexivity|]. split; [apply NoDup_nodup|].
  assert (M : forall r, In r (nodup Nat.eq_dec (concat found)) <-> r < fact n /\ In (pre (act r) n s) needles).
  { intro r. rewrite nodup_In. clear E H. induction Ff as [|x y l1 l2 [_ Hxy] Ff IH]; cbn [concat]; [cbn; tauto|]. rewrite in_app_iff, Hxy, IH. cbn [In]. intuition. }
  split; [|exact M]. intros Hne Enil. destruct Ff as [|x y l1 l2 [Hy Hxy] Ff]; [apply Hne; reflexivity|]. destruct y as [|r y]; [apply Hy; reflexivity|].
  assert (Hr : In r (nodup Nat.eq_dec (concat ((r :: y) :: l2)))) by (apply nodup_In; left; reflexivity). rewrite Enil in Hr. destruct Hr.
Qed.

Lemma complement_below_In n l r : In r (complement_below n l) <-> r < n /\ ~ In r l.
Proof.
  unfold complement_below. rewrite filter_In, range_In, negb_true_iff. split; intros [H1 H2]; (split; [exact H1|]).
  - intro H. apply memb_In in H. congruence.
  - apply not_true_iff_false. intro H. apply H2, memb_In, H.
Qed.

Lemma layer_In F n s r : s < 2 ^ n -> r < fact n ->
  (In (pre (act r) n s) (fst (layer_of F n (count_ones s))) <-> F (pre (act r) n s) = false) /\
  (In (pre (act r) n s) (snd (layer_of F n (count_ones s))) <-> F (pre (act r) n s) = true).
Proof.
  intros Hs Hr. assert (P := proj1 (act_perm r n Hr)). assert (W : In (pre (act r) n s) (weights n (count_ones s))) by (apply weights_In; split; [apply pre_lt | apply count_ones_pre; assumption]).
  cbn [layer_of fst snd]. rewrite !filter_In, negb_true_iff. tauto.
Qed.

Lemma layer_needles F n s k : In k (fst (layer_of F n (count_ones s))) \/ In k (snd (layer_of F n (count_ones s))) -> k < 2 ^ n /\ count_ones k = count_ones s.
Proof. cbn [layer_of fst snd]. rewrite !filter_In, weights_In. tauto. Qed.

Theorem faction_wrapper_spec F n s : s < 2 ^ n -> exists l, faction_wrapper s n (layer_of F n (count_ones s)) = Ok l /\ NoDup l /\
  forall r, In r l <-> r < fact n /\ F (pre (act r) n s) = false.
Proof.
  intro Hs. unfold faction_wrapper. destruct (ratio_below_half _) eqn:Eb.
  - destruct (find_needles_spec (snd (layer_of F n (count_ones s))) s n Hs) as (l & El & Nl & _ & Hl).
    { intros k Hk. apply (layer_needles F n s). right. exact Hk. }
    rewrite El. cbn [bind]. eexists. split; [reflexivity|]. split; [apply NoDup_filter, seq_NoDup|]. intro r. rewrite complement_below_In, Hl. split.
    + intros [Hr Hn]. split; [exact Hr|]. apply not_true_iff_false. intro Ht. apply Hn. split; [exact Hr|]. apply (layer_In F n s r Hs Hr). exact Ht.
    + intros [Hr Hn]. split; [exact Hr|]. intros [_ Hi]. apply (layer_In F n s r Hs Hr) in Hi. congruence.
  - destruct (find_needles_spec (fst (layer_of F n (count_ones s))) s n Hs) as (l & El & Nl & _ & Hl).
    { intros k Hk. apply (layer_needles F n s). left. exact Hk. }
    rewrite El. cbn [bind]. eexists. split; [reflexivity|]. split; [exact Nl|]. intro r. rewrite Hl. split; intros [Hr Hi]; (split; [exact Hr|]); apply (layer_In F n s r Hs Hr); exact Hi.
Qed.

Theorem clan_wrapper_spec F n s : s < 2 ^ n -> exists l, clan_wrapper s n (layers_of F n) = Ok l /\
  forall r, In r l <-> r < fact n /\ F (pre (act r) n s) = true.
Proof.
  intro Hs. unfold clan_wrapper. rewrite lget_layers by exact Hs. cbn [bind]. destruct (ratio_above_half _) eqn:Eb.
  - destruct (find_needles_spec (fst (layer_of F n (count_ones s))) s n Hs) as (l & El & Nl & _ & Hl).
    { intros k Hk. apply (layer_needles F n s). left. exact Hk. }
    rewrite El. cbn [bind]. eexists. split; [reflexivity|]. intro r. rewrite complement_below_In, Hl. split.
    + intros [Hr Hn]. split; [exact Hr|]. apply not_false_iff_true. intro Ht. apply Hn. split; [exact Hr|]. apply (layer_In F n s r Hs Hr). exact Ht.
    + intros [Hr Hn]. split; [exact Hr|]. intros [_ Hi]. apply (layer_In F n s r Hs Hr) in Hi. congruence.
  - destruct (find_needles_spec (snd (layer_of F n (count_ones s))) s n Hs) as (l & El & Nl & _ & Hl).
    { intros k Hk. apply (layer_needles F n s). right. exact Hk. }
    rewrite El. cbn [bind]. eexists. split; [reflexivity|]. intro r. rewrite Hl. split; intros [Hr Hi]; (split; [exact Hr|]); apply (layer_In F n s r Hs Hr); exact Hi.
Qed.

(** * The row of coefficients *)

Lemma twin_row f : wellmade f -> exists t, boolf_twin f None = Ok t /\ boolf_tt t (TtArity (adicity f)) = Ok (map (anf (adicity f) (tab f)) (range (2 ^ adicity f))).
Proof.
  intro R. rewrite twin_default. destruct (twin_spec f (adicity f) (proj1 R) (le_n _)) as (t & E & Rt & At & Tt). exists t. split; [exact E|].
  rewrite tt_spec; [|apply Rt | exact At]. f_equal. apply map_ext_in. intros j Hj. apply range_In in Hj. apply Tt, Hj.
Qed.
