(** Proof_SigPermMore: the constructor of SigPerm, product, inverse, equality, application,
    indices, Schoute permutations. *)

From Coq Require Import List Arith ZArith Bool Lia Permutation Sorted.
From Verif Require Import Model_Base Lib Model_Perm Model_Binary Model_SigPerm Spec_Perm Spec_SigPerm Spec_Bits.
From Verif Require Import Proof_Perm Proof_PermGroup Proof_Inversions Proof_Listing Proof_PermMore Proof_Binary Proof_Helpers Proof_Linear Proof_SigPerm.
Import ListNotations.
Open Scope nat_scope.

(** * From sequences *)

Definition tight (s : sigperm) : Prop := length (sg_binv s) = sg_length s.

Lemma exposet_raw l :
  exists raw, Binv None None (Some (map tilde (filter (fun z => (z <? 0)%Z) l))) None None = Ok raw /\
    (forall i, nth i raw false = memb i (map atom (filter negated l))) /\ length raw <= binv_required_length raw.
Proof.
  assert (E : map tilde (filter (fun z => (z <? 0)%Z) l) = map Z.of_nat (map atom (filter negated l))).
  { rewrite map_map. change (filter (fun z => (z <? 0)%Z) l) with (filter negated l).
    apply map_ext_in. intros z Hz. apply filter_In in Hz as [_ Hz]. rewrite tilde_neg.
    assert (L := literal_split z). rewrite Hz in L. rewrite L at 1. rewrite neg_neg. reflexivity. }
  rewrite E. set (s := map atom (filter negated l)).
  destruct (Binv_exposet_min s) as [raw [Er [Hn Hl]]]. exists raw. split; [exact Er|]. split; [exact Hn|].
  destruct s as [|x s0] eqn:Es; [lia|]. rewrite <- Es in *.
  assert (Hne : s <> []) by (rewrite Es; discriminate).
  replace (match s with [] => 0 | _ => list_max_nat s + 1 end) with (list_max_nat s + 1) in Hl by (rewrite Es; reflexivity).
  destruct (Nat.le_gt_cases (length raw) (binv_required_length raw)) as [|Hgt]; [assumption|]. exfalso.
  assert (Hr : binv_required_length raw <= list_max_nat s) by lia.
  assert (Hf := proj1 (required_length_spec raw _) Hr (list_max_nat s) (le_n _)). rewrite Hn in Hf.
  apply memb_false in Hf. apply Hf, list_max_nat_In. exact Hne.
Qed.

Lemma NoDup_map_eq {A B} (f : A -> B) l : NoDup (map f l) -> forall x y, In x l -> In y l -> f x = f y -> x = y.
Proof.
  induction l as [|a l IH]; intros H x y Hx Hy E; [destruct Hx|]. cbn [map] in H. inversion H as [|? ? Hni Hnd]; subst.
  destruct Hx as [->|Hx]; destruct Hy as [->|Hy]; [reflexivity | | | apply IH; assumption].
  - exfalso. apply Hni. rewrite E. apply in_map. exact Hy.
  - exfalso. apply Hni. rewrite <- E. apply in_map. exact Hx.
Qed.

Lemma seq_of_sequence l : Permutation (map atom l) (seq 0 (length l)) ->
  exists s, sig_of_sequence l = Ok s /\ swf s /\ tight s /\ forall k, sf s k = nth k l (Z.of_nat k).
Proof.
  intro H. unfold sig_of_sequence.
  assert (Ea : logic_abs_vector l = map atom l) by (unfold logic_abs_vector; apply map_ext; apply logic_abs_atom). rewrite Ea.
  destruct (ctor_finite (ArgSeq (map atom l)) I) as [p [Ep [Hb [Hf [Hs Hu]]]]].
  { cbn. rewrite map_length. exact H. }
  rewrite Ep. cbn [bind]. destruct (exposet_raw l) as [raw [Er [Hn Hl]]]. rewrite Er. cbn [bind].
  assert (Hw : wf p) by (eapply (Perm_wf (ArgSeq (map atom l))); [exact I | exact Ep]).
  destruct (sig_finish_spec raw p Hw Hf) as [Hsw [Hbit Hti]].
  exists (sig_finish raw p). split; [reflexivity|]. split; [exact Hsw|]. split; [apply Hti; lia|].
  assert (Hnd : NoDup (map atom l)).
  { eapply Permutation_NoDup; [symmetry; exact H | apply seq_NoDup]. }
  intro k. unfold sf. change (sg_perm (sig_finish raw p)) with p. rewrite Hbit, Hn.
  destruct (Nat.lt_ge_cases k (length l)) as [Hk|Hk].
  - set (z := nth k l (Z.of_nat k)). assert (Hz : nth_error l k = Some z) by (apply nth_error_nth'; exact Hk).
    rewrite (Hs k (atom z)) by (constructor; rewrite nth_error_map, Hz; reflexivity).
    assert (Eb : memb (atom z) (map atom (filter negated l)) = negated z).
    { destruct (negated z) eqn:En.
      - apply memb_In, in_map, filter_In. split; [eapply nth_error_In; exact Hz | exact En].
      - apply memb_false. intro Hin. apply in_map_iff in Hin as [z' [Ez' Hin]]. apply filter_In in Hin as [Hin Hneg].
        assert (z' = z); [|congruence].
        apply (NoDup_map_eq atom l Hnd z' z Hin); [eapply nth_error_In; exact Hz | exact Ez']. }
    rewrite Eb. apply lit_of.
  - rewrite nth_overflow by exact Hk. rewrite Hu.
    + rewrite (proj2 (memb_false _ _)); [reflexivity|]. intro Hin. apply in_map_iff in Hin as [z' [Ez' Hin]]. apply filter_In in Hin as [Hin _].
      assert (Hin' : In k (seq 0 (length l))).
      { eapply Permutation_in; [exact H|]. rewrite <- Ez'. apply in_map. exact Hin. }
      apply in_seq in Hin'. lia.
    + intros j Hj. inversion Hj as [l' i j' Hnth| | |]; subst. rewrite nth_error_map in Hnth.
      rewrite (proj2 (nth_error_None l k) Hk) in Hnth. discriminate.
Qed.

Lemma seq_of_sequence_reject l : ~ Permutation (map atom l) (seq 0 (length l)) -> sig_of_sequence l = Err SequenceError.
Proof.
  intro H. unfold sig_of_sequence.
  assert (Ea : logic_abs_vector l = map atom l) by (unfold logic_abs_vector; apply map_ext; apply logic_abs_atom). rewrite Ea.
  rewrite ctor_reject_seq; [reflexivity|]. rewrite map_length. exact H.
Qed.

Lemma Permutation_dec_nat (l l' : list nat) : {Permutation l l'} + {~ Permutation l l'}.
Proof.
  destruct (list_eq_dec Nat.eq_dec (sort_nat l) (sort_nat l')) as [E|E].
  - left. apply sort_nat_eq_iff. exact E.
  - right. intro H. apply E. apply sort_nat_eq_iff. exact H.
Defined.

Lemma seq_of_fun n f : (forall k, k < n -> atom (f k) < n) ->
  (forall i j, i < n -> j < n -> atom (f i) = atom (f j) -> i = j) ->
  exists s, sig_of_sequence (map f (range n)) = Ok s /\ swf s /\ tight s /\
    forall k, sf s k = if Nat.ltb k n then f k else Z.of_nat k.
Proof.
  intros H Hi. destruct (seq_of_sequence (map f (range n))) as [s [E [Hw [Ht Hf]]]].
  - rewrite map_map, map_length, range_length. apply NoDup_Permutation_bis.
    + apply NoDup_map_inj; [apply range_NoDup|]. intros i j Hi' Hj'. apply range_In in Hi'. apply range_In in Hj'. apply Hi; assumption.
    + rewrite map_length. apply le_n.
    + intros x Hx. apply in_map_iff in Hx as [k [<- Hk]]. apply range_In in Hk. apply in_seq. apply H in Hk. lia.
  - exists s. split; [exact E|]. split; [exact Hw|]. split; [exact Ht|]. intro k. rewrite Hf.
    destruct (Nat.ltb_spec k n) as [Hk|Hk]; [apply nth_map_range; exact Hk|].
    apply nth_overflow. rewrite map_length, range_length. exact Hk.
Qed.

Lemma matrix_form m : SigPerm_matrix m = let* l := matrix_to_sequence m in sig_of_sequence l.
Proof. reflexivity. Qed.
Lemma sequence_form l : SigPerm_sequence l = sig_of_sequence l.
Proof. reflexivity. Qed.

Lemma matrix_of_fun n f : (forall k, k < n -> atom (f k) < n) ->
  (forall i j, i < n -> j < n -> atom (f i) = atom (f j) -> i = j) ->
  exists s, SigPerm_matrix (fmat n f) = Ok s /\ swf s /\ tight s /\
    forall k, sf s k = if Nat.ltb k n then f k else Z.of_nat k.
Proof.
  intros H Hi. rewrite matrix_form, matrix_to_sequence_ok by exact H. cbn [bind]. apply seq_of_fun; assumption.
Qed.

(** * Product and inverse *)

Lemma matrix_ok s n : swf s -> sg_length s <= n -> sg_matrix s (Some n) = Ok (fmat n (sf s)).
Proof.
  intros Hs H. unfold sg_matrix. rewrite (proj2 (Nat.leb_le _ _) H). cbn [true_except bind].
  rewrite sequence_ok by assumption. cbn [bind]. apply sequence_to_matrix_ok. intros k Hk. apply sf_stays; assumption.
Qed.

Lemma matrix_none s : swf s -> sg_matrix s None = Ok (fmat (sg_length s) (sf s)).
Proof.
  intro Hs. rewrite <- (matrix_ok s (sg_length s) Hs (le_n _)). unfold sg_matrix. rewrite (proj2 (Nat.leb_le _ _) (le_n _)). reflexivity.
Qed.

Lemma on_literals_sf s z : atom (on_literals (sf s) z) = pget (sg_perm s) (atom z).
Proof. unfold on_literals. destruct (negated z); [rewrite atom_neg|]; apply sf_atom. Qed.

Lemma mul_spec a b : swf a -> swf b ->
  exists c, sg_mul a b = Ok c /\ swf c /\ tight c /\ forall k, sf c k = on_literals (sf a) (sf b k).
Proof.
  intros Ha Hb. unfold sg_mul. cbv zeta. set (n := Nat.max (sg_length a) (sg_length b)).
  rewrite (matrix_ok a n Ha), (matrix_ok b n Hb) by lia. cbn [bind].
  rewrite mat_dot_ok by (intros k Hk; apply sf_stays; [exact Hb | lia | exact Hk]).
  destruct (matrix_of_fun n (fun k => on_literals (sf a) (sf b k))) as [c [E [Hc [Ht Hf]]]].
  - intros k Hk. rewrite on_literals_sf, sf_atom. apply s_stays; [exact Ha | lia|]. apply s_stays; [exact Hb | lia | exact Hk].
  - intros i j _ _ Hij. rewrite !on_literals_sf, !sf_atom in Hij. apply (proj1 (s_bij a Ha)) in Hij.
    apply (proj1 (s_bij b Hb)). exact Hij.
  - exists c. split; [exact E|]. split; [exact Hc|]. split; [exact Ht|]. intro k. rewrite Hf.
    destruct (Nat.ltb_spec k n) as [Hk|Hk]; [reflexivity|].
    rewrite (sf_high b Hb) by lia. unfold on_literals. rewrite negated_nat, atom_nat. symmetry. apply sf_high; [exact Ha | lia].
Qed.

Lemma inv_spec s : swf s ->
  exists t, sg_inv s = Ok t /\ swf t /\ tight t /\ sg_length t = sg_length s /\
    (forall k, on_literals (sf s) (sf t k) = Z.of_nat k) /\ (forall k, on_literals (sf t) (sf s k) = Z.of_nat k) /\
    (forall k, sbit s k = negated (sf t k)).
Proof.
  intro Hs. destruct (pinv_spec (sg_perm s) (sw_perm s Hs)) as [r [_ [_ [H1 [H2 _]]]]].
  set (g := fun k => lit (pget r k) (sbit s k)). set (n := sg_length s).
  assert (G1 : forall k, on_literals (sf s) (g k) = Z.of_nat k).
  { intro k. unfold g. rewrite on_lit. unfold sf. rewrite H2. destruct (sbit s k); cbn [lit]; [apply neg_neg | reflexivity]. }
  assert (G2 : forall k, on_literals g (sf s k) = Z.of_nat k).
  { intro k. unfold sf. rewrite on_lit. unfold g. rewrite H1. destruct (sbit s (pget (sg_perm s) k)); cbn [lit]; [apply neg_neg | reflexivity]. }
  assert (Gh : forall k, n <= k -> pget r k = k).
  { intros k Hk. rewrite <- (s_fix s Hs k Hk) at 1. apply H1. }
  assert (Gs : forall k, k < n -> atom (g k) < n).
  { intros k Hk. unfold g. rewrite atom_lit. destruct (Nat.lt_ge_cases (pget r k) n) as [|Hge]; [assumption|]. exfalso.
    assert (E := H2 k). rewrite (s_fix s Hs _ Hge) in E. lia. }
  unfold sg_inv. rewrite matrix_none by exact Hs. cbn [bind]. fold n.
  rewrite (transpose_ok n (sf s) g).
  2: { intros k Hk. apply sf_stays; [exact Hs | apply le_n | exact Hk]. }
  2: { exact Gs. }
  2: { intros k _. apply G1. }
  2: { intros k _. apply G2. }
  destruct (matrix_of_fun n g Gs) as [t [E [Ht [Hti Hf]]]].
  { intros i j _ _ Hij. unfold g in Hij. rewrite !atom_lit in Hij. rewrite <- (H2 i), <- (H2 j). congruence. }
  assert (Hf' : forall k, sf t k = g k).
  { intro k. rewrite Hf. destruct (Nat.ltb_spec k n) as [Hk|Hk]; [reflexivity|]. unfold g.
    rewrite Gh by exact Hk. rewrite (sbit_high s Hs) by exact Hk. reflexivity. }
  exists t. split; [exact E|]. split; [exact Ht|]. split; [exact Hti|]. split; [|split; [|split]].
  - assert (Hle : sg_length t <= n).
    { apply length_least; [exact Ht|]. intros k Hk. rewrite Hf'. unfold g. rewrite Gh by exact Hk. rewrite (sbit_high s Hs) by exact Hk. reflexivity. }
    assert (Hge : n <= sg_length t); [|lia]. apply length_least; [exact Hs|]. intros k Hk.
    assert (E1 := sf_high t Ht k Hk). assert (E2 := G1 k). rewrite <- Hf', E1 in E2. unfold on_literals in E2.
    rewrite negated_nat, atom_nat in E2. exact E2.
  - intro k. rewrite Hf'. apply G1.
  - intro k. transitivity (on_literals g (sf s k)); [|apply G2]. unfold on_literals. rewrite Hf'. reflexivity.
  - intro k. rewrite Hf'. symmetry. apply negated_lit.
Qed.

(** * Objects *)

Lemma src_perm_obj a p : good_src (Some a) -> src_perm a = Ok p -> is_Perm p.
Proof.
  destruct a as [x|q]; cbn; intros H E; [eapply obj_new; eassumption | injection E as <-; exact H].
Qed.

Lemma ctor_cases v vi k ki pm pi pair seq mat s : good_src pm ->
  SigPerm v vi k ki pm pi pair seq mat = Ok s ->
  (exists raw p, is_Perm p /\ s = sig_finish raw p) \/ (exists l, sig_of_sequence l = Ok s).
Proof.
  intros Hg E. unfold SigPerm in E.
  apply bind_ok in E as [k' [_ E]]. apply bind_ok in E as [v' [_ E]]. apply bind_ok in E as [pm' [Epm E]].
  apply guard_ok in E as [_ E]. cbv zeta in E.
  apply bind_ok in E as [v2 [_ E]]. apply bind_ok in E as [k2 [_ E]]. apply bind_ok in E as [p2 [Ep2 E]].
  assert (Hp2 : forall p, p2 = Some p -> is_Perm p).
  { intros p ->. destruct (match pair with Some vp => Some (snd vp) | None => pi end) as [i|].
    - apply bind_ok in Ep2 as [q [Eq Ep2]]. injection Ep2 as ->. destruct (rank_roundtrip i) as [q' [Eq' [Hq _]]]. congruence.
    - injection Ep2 as ->. destruct pm as [a|]; cbn [optM] in Epm; [|discriminate].
      apply bind_ok in Epm as [q [Eq Epm]]. injection Epm as ->. eapply src_perm_obj; eassumption. }
  destruct v2 as [v2|], k2 as [k2|], p2 as [p2|], seq as [l|], mat as [m|]; try discriminate;
    try (injection E as <-; left; eauto; fail); try (right; eauto; fail);
    try (apply bind_ok in E as [l' [_ E]]; right; eauto; fail).
Qed.

Lemma is_SigPerm_swf s : is_SigPerm s -> swf s.
Proof.
  induction 1 as [v vi k ki pm pi pair sq mat s Hg E Hp|a b s _ Ha _ Hb E|a s _ Ha E].
  - destruct (ctor_cases _ _ _ _ _ _ _ _ _ _ Hg E) as [[raw [p [Hpo ->]]]|[l El]].
    + apply sig_finish_spec; [apply is_Perm_wf; exact Hpo | exact Hp].
    + destruct (Permutation_dec_nat (map atom l) (seq 0 (length l))) as [Hl|Hl].
      * destruct (seq_of_sequence l Hl) as [s' [E' [Hs' _]]]. congruence.
      * rewrite seq_of_sequence_reject in El by exact Hl. discriminate.
  - destruct (mul_spec a b Ha Hb) as [c [E' [Hc _]]]. congruence.
  - destruct (inv_spec a Ha) as [c [E' [Hc _]]]. congruence.
Qed.
