(** Props_SigPerm: properties C12 (Schoute permutations), C13 (signed permutations), C14
    (equality), C49 (matrix acceptance), C50 (negating literals). *)

From Coq Require Import List Arith ZArith Bool Lia Permutation.
From Verif Require Import Model_Base Lib Model_Perm Model_Binary Model_SigPerm Spec_Perm Spec_SigPerm.
From Verif Require Import Proof_Perm Proof_PermGroup Proof_PermMore Proof_SigPerm Proof_SigPermMore Proof_SigPermOps.
Import ListNotations.
Open Scope nat_scope.

Ltac to_sf H Hf := let T := fresh in assert (T := proj1 (acts_sf _ H _) Hf); clear Hf; rename T into Hf.

(** * C13 *)

(** the sequence method lists one bijective action, at every sufficient length; the length
    is the least one *)
Theorem C13_sequence : forall s, is_SigPerm s -> exists f, acts s f /\
  bijective (fun k => atom (f k)) /\
  (forall n, sg_length s <= n <-> forall k, n <= k -> f k = Z.of_nat k) /\
  (forall n, sg_length s <= n -> sg_sequence s (Some n) = Ok (map f (seq 0 n))) /\
  (forall n, n < sg_length s -> sg_sequence s (Some n) = Err ValueErr) /\
  sg_sequence s None = Ok (map f (seq 0 (sg_length s))) /\
  (forall k, sg_get s k = if Nat.ltb k (sg_length s) then Ok (f k) else Err IndexErr).
Proof.
  intros s H. apply is_SigPerm_swf in H. exists (sf s). split; [apply (proj2 (acts_sf _ H _)); reflexivity|].
  split; [|split; [|split; [|split; [|split]]]].
  - destruct (s_bij s H) as [Hi Ho]. split.
    + intros x y E. rewrite !sf_atom in E. apply Hi. exact E.
    + intro y. destruct (Ho y) as [x Hx]. exists x. rewrite sf_atom. exact Hx.
  - apply length_least. exact H.
  - apply sequence_ok. exact H.
  - apply sequence_short.
  - apply sequence_none. exact H.
  - intro k. unfold sg_get. rewrite sequence_minimal_spec by exact H. cbn [bind]. destruct (Nat.ltb_spec k (sg_length s)) as [Hk|Hk].
    + rewrite (lget_ok _ k 0%Z) by (rewrite map_length, range_length; exact Hk). rewrite nth_map_range by exact Hk. reflexivity.
    + apply lget_err. rewrite map_length, range_length. exact Hk.
Qed.
Print Assumptions C13_sequence.

Theorem C13_action_unique : forall s f g, is_SigPerm s -> acts s f -> acts s g -> forall k, f k = g k.
Proof.
  intros s f g H Hf Hg k. apply is_SigPerm_swf in H. to_sf H Hf. to_sf H Hg.
  rewrite Hf, Hg. reflexivity.
Qed.
Print Assumptions C13_action_unique.

Theorem C13_from_sequence : forall l, Permutation (map atom l) (seq 0 (length l)) ->
  exists s, SigPerm_sequence l = Ok s /\ is_SigPerm s /\ acts s (fun k => nth k l (Z.of_nat k)).
Proof.
  intros l H. destruct (seq_of_sequence l H) as [s [E [Hs [_ Hf]]]]. exists s. split; [exact E|]. split.
  - apply (sig_new None None None None None None None (Some l) None s); [exact I | exact E | apply Hs].
  - apply (proj2 (acts_sf _ Hs _)). intro k. symmetry. apply Hf.
Qed.
Print Assumptions C13_from_sequence.

Theorem C13_from_sequence_rejected : forall l, ~ Permutation (map atom l) (seq 0 (length l)) ->
  SigPerm_sequence l = Err SequenceError.
Proof. exact seq_of_sequence_reject. Qed.
Print Assumptions C13_from_sequence_rejected.

(** valneg negates by value, keyneg by key *)
Theorem C13_valneg : forall a pm p, good_neg a -> good_src (Some pm) -> src_perm pm = Ok p -> perilen p = None ->
  exists s, SigPerm_valneg a pm = Ok s /\ is_SigPerm s /\
    acts s (fun k => let v := pget p k in if given_bit a v then neg (Z.of_nat v) else Z.of_nat v).
Proof.
  intros a pm p Ha Hg Ep Hn. destruct (valneg_spec a pm p Ha Hg Ep Hn) as [s [E [Hs Hf]]]. exists s. split; [exact E|]. split.
  - apply (sig_new (Some a) None None None (Some pm) None None None None s); [exact Hg | exact E | apply Hs].
  - apply (proj2 (acts_sf _ Hs _)). intro k. symmetry. apply Hf.
Qed.
Print Assumptions C13_valneg.

Theorem C13_keyneg : forall a pm p, good_neg a -> good_src (Some pm) -> src_perm pm = Ok p -> perilen p = None ->
  exists s, SigPerm_keyneg a pm = Ok s /\ is_SigPerm s /\
    acts s (fun k => let v := pget p k in if given_bit a k then neg (Z.of_nat v) else Z.of_nat v).
Proof.
  intros a pm p Ha Hg Ep Hn. destruct (keyneg_spec a pm p Ha Hg Ep Hn) as [s [E [Hs [_ Hf]]]]. exists s. split; [exact E|]. split.
  - apply (sig_new None None (Some a) None (Some pm) None None None None s); [exact Hg | exact E | apply Hs].
  - apply (proj2 (acts_sf _ Hs _)). intro k. symmetry. apply Hf.
Qed.
Print Assumptions C13_keyneg.

(** index pairs: a bijection between pairs of naturals and signed permutations *)
Theorem C13_pair : forall i j, exists s, SigPerm_pair i j = Ok s /\ is_SigPerm s /\ sg_pair s = Ok (i, j).
Proof.
  intros i j. destruct (pair_spec i j) as [s [E [Hs [_ Hp]]]]. exists s. split; [exact E|]. split; [|exact Hp].
  apply (sig_new None None None None None None (Some (i, j)) None None s); [exact I | exact E | apply Hs].
Qed.
Print Assumptions C13_pair.

Theorem C13_pair_back : forall s f, is_SigPerm s -> acts s f ->
  exists i j s', sg_pair s = Ok (i, j) /\ SigPerm_pair i j = Ok s' /\ acts s' f.
Proof.
  intros s f H Hf. apply is_SigPerm_swf in H. to_sf H Hf.
  destruct (pair_back s H) as [i [j [s' [E [E' Hx]]]]]. exists i, j, s'. split; [exact E|]. split; [exact E'|].
  destruct (pair_spec i j) as [s2 [E2 [H2 _]]]. assert (s2 = s') by congruence. subst s2.
  apply (proj2 (acts_sf _ H2 _)). intro k. rewrite Hx. apply Hf.
Qed.
Print Assumptions C13_pair_back.

Theorem C13_negator_indices : forall s f, is_SigPerm s -> acts s f ->
  (forall k, Nat.testbit (sg_valneg_index s) (atom (f k)) = negated (f k)) /\
  exists n, sg_keyneg_index s = Ok n /\ forall k, Nat.testbit n k = negated (f k).
Proof.
  intros s f H Hf. apply is_SigPerm_swf in H. to_sf H Hf. split.
  - intro k. rewrite Hf. apply valneg_index_spec.
  - destruct (keyneg_index_spec s H) as [n [E Hn]]. exists n. split; [exact E|]. intro k. rewrite Hf. apply Hn.
Qed.
Print Assumptions C13_negator_indices.

(** matrices *)
Theorem C13_matrix : forall s f n, is_SigPerm s -> acts s f -> sg_length s <= n ->
  exists m s', sg_matrix s (Some n) = Ok m /\ shows n m f /\ SigPerm_matrix m = Ok s' /\ acts s' f.
Proof.
  intros s f n H Hf Hn. apply is_SigPerm_swf in H. to_sf H Hf.
  exists (fmat n (sf s)). destruct (matrix_of_fun n (sf s)) as [s' [E' [Hs' [_ Hf']]]].
  - intros k Hk. apply sf_stays; assumption.
  - intros i j _ _ E. rewrite !sf_atom in E. apply (proj1 (s_bij s H)). exact E.
  - exists s'. split; [apply matrix_ok; assumption|]. split; [|split; [exact E'|]].
    + apply shows_fmat. apply mkmat_ext. intros i j _ _. rewrite Hf. reflexivity.
    + apply acts_sf; [exact Hs'|]. intro k. rewrite Hf', Hf. destruct (Nat.ltb_spec k n) as [|Hk]; [reflexivity|].
      apply sf_high; [exact H | lia].
Qed.
Print Assumptions C13_matrix.

Theorem C13_from_matrix : forall n m f, shows n m f ->
  (forall k, k < n -> atom (f k) < n) -> (forall i j, i < n -> j < n -> atom (f i) = atom (f j) -> i = j) ->
  exists s, SigPerm_matrix m = Ok s /\ is_SigPerm s /\ acts s (fun k => if Nat.ltb k n then f k else Z.of_nat k).
Proof.
  intros n m f Hm H1 H2. apply shows_fmat in Hm. subst m. destruct (matrix_of_fun n f H1 H2) as [s [E [Hs [_ Hf]]]].
  exists s. split; [exact E|]. split.
  - apply (sig_new None None None None None None None None (Some (fmat n f)) s); [exact I | exact E | apply Hs].
  - apply (proj2 (acts_sf _ Hs _)). intro k. symmetry. apply Hf.
Qed.
Print Assumptions C13_from_matrix.

(** products: [a * b] is [a] after [b], on all literals *)
Theorem C13_product : forall a b f g, is_SigPerm a -> is_SigPerm b -> acts a f -> acts b g ->
  exists c h, sg_mul a b = Ok c /\ acts c h /\ forall z, on_literals h z = on_literals f (on_literals g z).
Proof.
  intros a b f g Ha Hb Hf Hg. apply is_SigPerm_swf in Ha. apply is_SigPerm_swf in Hb.
  to_sf Ha Hf. to_sf Hb Hg.
  destruct (mul_spec a b Ha Hb) as [c [E [Hc [_ Hm]]]]. exists c, (sf c). split; [exact E|].
  split; [apply (proj2 (acts_sf _ Hc _)); reflexivity|]. intro z. unfold on_literals at 1 3.
  rewrite Hm, <- Hg. destruct (negated z).
  - unfold on_literals. rewrite atom_neg, negated_neg, <- Hf. destruct (negated (g (atom z))); cbn [negb]; [apply neg_neg | reflexivity].
  - unfold on_literals. rewrite <- Hf. reflexivity.
Qed.
Print Assumptions C13_product.

Theorem C13_inverse : forall s f, is_SigPerm s -> acts s f ->
  exists t g, sg_inv s = Ok t /\ acts t g /\
    forall z, on_literals f (on_literals g z) = z /\ on_literals g (on_literals f z) = z.
Proof.
  intros s f H Hf. apply is_SigPerm_swf in H. to_sf H Hf.
  destruct (inv_spec s H) as [t [E [Ht [_ [_ [H1 [H2 _]]]]]]]. exists t, (sf t). split; [exact E|].
  split; [apply (proj2 (acts_sf _ Ht _)); reflexivity|].
  assert (G : forall f g, (forall k, on_literals f (g k) = Z.of_nat k) -> forall z, on_literals f (on_literals g z) = z).
  { intros f0 g0 Hk z. rewrite (literal_split z) at 2. unfold on_literals at 2. specialize (Hk (atom z)).
    destruct (negated z); [|exact Hk]. unfold on_literals in *. rewrite atom_neg, negated_neg.
    rewrite <- Hk. destruct (negated (g0 (atom z))); cbn [negb]; [rewrite neg_neg|]; reflexivity. }
  intro z. split; apply G; intro k.
  - rewrite <- (H1 k). unfold on_literals. rewrite Hf. reflexivity.
  - rewrite Hf, <- (H2 k). reflexivity.
Qed.
Print Assumptions C13_inverse.

Theorem C13_associative : forall a b c, is_SigPerm a -> is_SigPerm b -> is_SigPerm c ->
  exists ab bc l r, sg_mul a b = Ok ab /\ sg_mul b c = Ok bc /\ sg_mul ab c = Ok l /\ sg_mul a bc = Ok r /\ sg_eqb l r = true.
Proof.
  intros a b c Ha Hb Hc. apply is_SigPerm_swf in Ha. apply is_SigPerm_swf in Hb. apply is_SigPerm_swf in Hc.
  destruct (mul_spec a b Ha Hb) as [ab [E1 [H1 [_ F1]]]]. destruct (mul_spec b c Hb Hc) as [bc [E2 [H2 [_ F2]]]].
  destruct (mul_spec ab c H1 Hc) as [l [E3 [H3 [T3 F3]]]]. destruct (mul_spec a bc Ha H2) as [r [E4 [H4 [T4 F4]]]].
  exists ab, bc, l, r. split; [exact E1|]. split; [exact E2|]. split; [exact E3|]. split; [exact E4|].
  apply sg_eqb_complete; try assumption. intro k. rewrite F3, F4, F2. unfold on_literals. rewrite F1. unfold on_literals.
  destruct (negated (sf c k)); [|reflexivity]. rewrite atom_neg, negated_neg.
  destruct (negated (sf b (atom (sf c k)))); cbn [negb]; [apply neg_neg | reflexivity].
Qed.
Print Assumptions C13_associative.

(** application: the value at place i goes to the place of the image of i, and is
    complemented if that image is negated *)
Theorem C13_apply_vector : forall s f v, is_SigPerm s -> acts s f ->
  (sg_length s <= length v -> exists r, sg_apply s v = Ok r /\ length r = length v /\
     forall i x, nth_error v i = Some x -> nth_error r (atom (f i)) = Some (if negated (f i) then neg x else x)) /\
  (length v < sg_length s -> sg_apply s v = Err ValueErr).
Proof.
  intros s f v H Hf. apply is_SigPerm_swf in H. to_sf H Hf. split; [|apply sg_apply_short; exact H].
  intro Hl. destruct (sg_apply_spec s v H Hl) as [r [E [Hr Hn]]]. exists r. split; [exact E|]. split; [exact Hr|].
  intros i x Hx. rewrite Hf. rewrite Hn by (apply nth_error_Some; congruence). cbv zeta. rewrite (nth_error_nth v i 0%Z Hx). reflexivity.
Qed.
Print Assumptions C13_apply_vector.

Theorem C13_apply_product : forall a b c v, is_SigPerm a -> is_SigPerm b -> sg_mul a b = Ok c ->
  sg_length a <= length v -> sg_length b <= length v ->
  exists w r, sg_apply b v = Ok w /\ sg_apply a w = Ok r /\ sg_apply c v = Ok r.
Proof.
  intros a b c v Ha Hb E. apply is_SigPerm_swf in Ha. apply is_SigPerm_swf in Hb.
  destruct (mul_spec a b Ha Hb) as [c' [E' [Hc [_ Hm]]]]. assert (c' = c) by congruence. subst c'. apply sg_apply_mul; assumption.
Qed.
Print Assumptions C13_apply_product.

(** whatever the floating point binary_length returns *)
Theorem C13_apply_natural : forall bl s f n, is_SigPerm s -> acts s f ->
  exists r, sg_apply_natural bl s n = Ok r /\
    forall i, Nat.testbit r (atom (f i)) = xorb (negated (f i)) (Nat.testbit n i).
Proof.
  intros bl s f n H Hf. apply is_SigPerm_swf in H. to_sf H Hf.
  destruct (sg_apply_natural_spec bl s n H) as [r [E Hr]]. exists r. split; [exact E|]. intro i. rewrite Hf. apply Hr.
Qed.
Print Assumptions C13_apply_natural.

(** [~1, 2, ~0] *)
Example C13_ex : exists s t,
  SigPerm_sequence [-2; 2; -1]%Z = Ok s /\ sg_length s = 3 /\ sg_sequence s (Some 4) = Ok [-2; 2; -1; 3]%Z /\
  sg_pair s = Ok (3, 4) /\ sg_keyneg_index s = Ok 5 /\
  sg_matrix s None = Ok [[0; 0; -1]; [-1; 0; 0]; [0; 1; 0]]%Z /\
  sg_inv s = Ok t /\ sg_sequence t None = Ok [-3; -1; 1]%Z /\
  sg_apply s [10; 20; 30; 40]%Z = Ok [-31; -11; 20; 40]%Z /\
  sg_apply_natural binary_length s 11 = Ok 13 /\
  (exists q, sg_mul s s = Ok q /\ sg_sequence q None = Ok [-3; -1; 1]%Z).
Proof. do 2 eexists. split; [vm_compute; reflexivity|]. repeat split; try (vm_compute; reflexivity). eexists. split; vm_compute; reflexivity. Qed.
Example C13_ex_reject : SigPerm_sequence [-2; 1]%Z = Err SequenceError.
Proof. reflexivity. Qed.
Example C13_ex_negators :
  (exists s, SigPerm_valneg (NegSet [1]%Z) (SrcArg (ArgSeq [1; 2; 0])) = Ok s /\ sg_sequence s None = Ok [-2; 2; 0]%Z) /\
  (exists s, SigPerm_keyneg (NegVector [0; 1; 0; 1]%Z) (SrcArg (ArgCycles [[0; 2]])) = Ok s /\ sg_sequence s None = Ok [2; -2; 0; -4]%Z).
Proof. split; eexists; split; reflexivity. Qed.

(** * C14 *)

Theorem C14_equal_sound : forall a b f g, is_SigPerm a -> is_SigPerm b -> acts a f -> acts b g ->
  sg_eqb a b = true -> forall k, f k = g k.
Proof.
  intros a b f g Ha Hb Hf Hg E k. apply is_SigPerm_swf in Ha. apply is_SigPerm_swf in Hb.
  to_sf Ha Hf. to_sf Hb Hg. rewrite Hf, Hg. apply sg_eqb_sound; assumption.
Qed.
Print Assumptions C14_equal_sound.

(** complete for objects whose [binv] is not longer than their [length] *)
Theorem C14_equal_complete : forall a b f, is_SigPerm a -> is_SigPerm b -> acts a f -> acts b f ->
  length (sg_binv a) = sg_length a -> length (sg_binv b) = sg_length b -> sg_eqb a b = true.
Proof.
  intros a b f Ha Hb Hf Hg Ta Tb. apply is_SigPerm_swf in Ha. apply is_SigPerm_swf in Hb.
  to_sf Ha Hf. to_sf Hb Hg. apply sg_eqb_complete; try assumption.
  intro k. rewrite <- Hf. apply Hg.
Qed.
Print Assumptions C14_equal_complete.

(** that is so for everything but negator arguments with surplus zeros *)
Theorem C14_no_surplus :
  (forall l s, SigPerm_sequence l = Ok s -> length (sg_binv s) = sg_length s) /\
  (forall m s, SigPerm_matrix m = Ok s -> length (sg_binv s) = sg_length s) /\
  (forall i j s, SigPerm_pair i j = Ok s -> length (sg_binv s) = sg_length s) /\
  (forall k pm s, SigPerm_keyneg k pm = Ok s -> length (sg_binv s) = sg_length s) /\
  (forall a b s, is_SigPerm a -> is_SigPerm b -> sg_mul a b = Ok s -> length (sg_binv s) = sg_length s) /\
  (forall a s, is_SigPerm a -> sg_inv a = Ok s -> length (sg_binv s) = sg_length s) /\
  (forall v pm s, SigPerm_valneg (NegBinv v) pm = Ok s -> length v <= sg_length s -> length (sg_binv s) = sg_length s).
Proof.
  assert (S : forall l s, sig_of_sequence l = Ok s -> length (sg_binv s) = sg_length s).
  { intros l s E. destruct (Permutation_dec_nat (map atom l) (seq 0 (length l))) as [Hl|Hl].
    - destruct (seq_of_sequence l Hl) as [s' [E' [_ [T _]]]]. assert (s' = s) by congruence. subst. exact T.
    - rewrite seq_of_sequence_reject in E by exact Hl. discriminate. }
  split; [exact S|]. split; [|split; [|split; [|split; [|split]]]].
  - intros m s E. rewrite matrix_form in E. apply bind_ok in E as [l [_ E]]. eapply S. exact E.
  - intros i j s E. destruct (pair_spec i j) as [s' [E' [_ [T _]]]]. assert (s' = s) by congruence. subst. exact T.
  - intros k pm s E. unfold SigPerm_keyneg, SigPerm in E. cbn [optM] in E.
    apply bind_ok in E as [k' [Ek E]]. apply bind_ok in Ek as [k2 [_ Ek]]. injection Ek as <-. cbn [bind] in E.
    apply bind_ok in E as [p' [Ep E]]. apply bind_ok in Ep as [p2 [_ Ep]]. injection Ep as <-. cbn [bind true_except] in E. eapply S. exact E.
  - intros a b s Ha Hb E. destruct (mul_spec a b (is_SigPerm_swf a Ha) (is_SigPerm_swf b Hb)) as [c [E' [_ [T _]]]].
    assert (c = s) by congruence. subst. exact T.
  - intros a s Ha E. destruct (inv_spec a (is_SigPerm_swf a Ha)) as [c [E' [_ [T _]]]]. assert (c = s) by congruence. subst. exact T.
  - intros v pm s E. unfold SigPerm_valneg, SigPerm in E. cbn [optM neg_binv bind] in E.
    apply bind_ok in E as [p' [Ep E]]. apply bind_ok in Ep as [p2 [_ Ep]]. injection Ep as <-. cbn [bind true_except] in E. injection E as <-.
    intro H. cbn [sig_finish sg_length sg_binv] in *. rewrite app_length, repeat_length. lia.
Qed.
Print Assumptions C14_no_surplus.

Theorem C14_equal_perm : forall a b f, is_SigPerm a -> is_Perm b -> acts a f ->
  (sg_eqb_perm a b = true <-> forall k, f k = Z.of_nat (pget b k)).
Proof.
  intros a b f Ha Hb Hf. apply is_SigPerm_swf in Ha. to_sf Ha Hf.
  rewrite (sg_eqb_perm_spec a b Ha (is_Perm_wf b Hb)). split; intros H k; [rewrite Hf | rewrite <- Hf]; apply H.
Qed.
Print Assumptions C14_equal_perm.

(** with surplus zeros, equal actions compare unequal *)
Theorem C14_equal_refuted : exists a b f, is_SigPerm a /\ is_SigPerm b /\ acts a f /\ acts b f /\ sg_eqb a b = false.
Proof.
  destruct (C13_valneg (NegVector [1; 0; 0]%Z) (SrcArg (ArgSeq [1; 0])) (mkPerm false [(0, 1); (1, 0)] None 2)) as [a [Ea [Ha Aa]]].
  - intros e [<-|[<-|[<-|[]]]]; auto.
  - exact I.
  - reflexivity.
  - reflexivity.
  - destruct (C13_valneg (NegVector [1; 0]%Z) (SrcArg (ArgSeq [1; 0])) (mkPerm false [(0, 1); (1, 0)] None 2)) as [b [Eb [Hb Ab]]].
    + intros e [<-|[<-|[]]]; auto.
    + exact I.
    + reflexivity.
    + reflexivity.
    + exists a, b. eexists. split; [exact Ha|]. split; [exact Hb|]. split; [exact Aa|]. split.
      * intro k. specialize (Ab k). cbv zeta in *. cbn [given_bit] in *.
        assert (E : forall i, (nth i [1; 0] 0 =? 1)%Z = (nth i [1; 0; 0] 0 =? 1)%Z) by (intros [|[|[|[|]]]]; reflexivity).
        rewrite E in Ab. exact Ab.
      * vm_compute in Ea. vm_compute in Eb. injection Ea as <-. injection Eb as <-. reflexivity.
Qed.
Print Assumptions C14_equal_refuted.

(** * C49 *)

(** a matrix is accepted although it shows no signed permutation: two ones in a column, and
    entries that are ignored *)
Theorem C49_matrix_acceptance_refuted : exists m1 m2 s,
  SigPerm_matrix m1 = Ok s /\ SigPerm_matrix m2 = Ok s /\ sg_neutral s = true /\
  (forall n f, ~ shows n m1 f) /\ (forall n f, ~ shows n m2 f).
Proof.
  exists [[1; 0]; [1; 0]]%Z, [[1; 5]; [7; 1]]%Z, (mkSig neutral_perm [] 0).
  split; [reflexivity|]. split; [reflexivity|]. split; [reflexivity|]. split; intros n f [_ H].
  - assert (H0 := proj2 (H 0 _ eq_refl) 0 _ eq_refl). assert (H1 := proj2 (H 1 _ eq_refl) 0 _ eq_refl). cbv beta in *.
    destruct (Nat.eqb_spec (atom (f 0)) 0) as [E|E]; [|discriminate]. rewrite E in H1. discriminate.
  - assert (H0 := proj2 (H 0 _ eq_refl) 1 _ eq_refl). cbv beta in *.
    destruct (Nat.eqb (atom (f 1)) 0); [|discriminate]. destruct (negated (f 1)); discriminate.
Qed.
Print Assumptions C49_matrix_acceptance_refuted.

(** what is checked: the matrix is square, and the row numbers of the entries 1 and -1, read
    column by column, are 0, 1, 2, ... in some order *)
Theorem C49_matrix_checked : forall m,
  (exists s, SigPerm_matrix m = Ok s) <->
  (forall row, In row m -> length row = length m) /\
  let rows := flat_map (fun k => filter (fun i => let x := nth k (nth i m []) 0%Z in (x =? 1)%Z || (x =? -1)%Z)
                                        (seq 0 (length m))) (seq 0 (length m)) in
  Permutation rows (seq 0 (length rows)).
Proof.
  intro m. rewrite matrix_form. cbv zeta. rewrite <- (matrix_atoms m). rewrite map_length.
  unfold matrix_to_sequence. cbv zeta. fold (matrix_literals m). split.
  - intros [s E]. destruct (forallb (fun row => length row =? length m) m) eqn:Ef; [|discriminate]. cbn [true_except bind] in E.
    rewrite forallb_forall in Ef. split; [intros row Hr; apply Nat.eqb_eq, Ef, Hr|].
    destruct (Permutation_dec_nat (map atom (matrix_literals m)) (seq 0 (length (matrix_literals m)))) as [Hl|Hl]; [exact Hl|].
    rewrite seq_of_sequence_reject in E by exact Hl. discriminate.
  - intros [H1 H2]. rewrite (proj2 (forallb_forall _ _)).
    + cbn [true_except bind]. destruct (seq_of_sequence _ H2) as [s [E _]]. exists s. exact E.
    + intros row Hr. apply Nat.eqb_eq, H1, Hr.
Qed.
Print Assumptions C49_matrix_checked.

Example C49_ex : exists s, SigPerm_matrix [[0; -1; 0]; [1; 0; 0]; [0; 0; 0]]%Z = Ok s /\ sg_sequence s None = Ok [1; -1]%Z.
Proof. eexists. split; reflexivity. Qed.
Example C49_ex_reject : SigPerm_matrix [[1; 1]; [0; 0]]%Z = Err SequenceError /\ SigPerm_matrix [[1; 0]]%Z = Err ValueErr.
Proof. split; reflexivity. Qed.

(** * C50 *)

(** logic_negate_vector(values, which): exactly the literals of the given atoms are negated,
    the atoms stay, and doing it twice gives the original; unknown atoms are rejected *)
Theorem C50_which : forall values which, (forall w, In w which -> In w (map atom values)) ->
  exists r, logic_negate_which values which = Ok r /\ map atom r = map atom values /\
    (forall i z, nth_error values i = Some z ->
       exists y, nth_error r i = Some y /\ (In (atom z) which -> y = neg z) /\ (~ In (atom z) which -> y = z)) /\
    logic_negate_which r which = Ok values.
Proof.
  intros values which H. eexists. split; [apply negate_which_spec; exact H|].
  assert (Em : map atom (map (fun z => if memb (atom z) which then neg z else z) values) = map atom values).
  { rewrite map_map. apply map_ext. intro z. destruct (memb (atom z) which); [apply atom_neg | reflexivity]. }
  split; [exact Em|]. split.
  - intros i z Hz. eexists. split; [rewrite nth_error_map, Hz; reflexivity|]. split; intro Hin.
    + rewrite (proj2 (memb_In _ _) Hin). reflexivity.
    + rewrite (proj2 (memb_false _ _) Hin). reflexivity.
  - rewrite negate_which_spec by (rewrite Em; exact H). f_equal. rewrite map_map. rewrite <- (map_id values) at 2. apply map_ext.
    intro z. destruct (memb (atom z) which) eqn:E; [|rewrite E; reflexivity]. rewrite atom_neg, E. apply neg_neg.
Qed.
Print Assumptions C50_which.

Theorem C50_which_rejected : forall values which w, In w which -> ~ In w (map atom values) ->
  logic_negate_which values which = Err ArgMismatchError.
Proof. exact negate_which_reject. Qed.
Print Assumptions C50_which_rejected.

Theorem C50_where : forall values (wher : list bool),
  (length values = length wher -> exists r, logic_negate_where values wher = Ok r /\ length r = length values /\
     (forall i z (b : bool), nth_error values i = Some z -> nth_error wher i = Some b -> nth_error r i = Some (if b then neg z else z)) /\
     logic_negate_where r wher = Ok values) /\
  (length values <> length wher -> logic_negate_where values wher = Err ArgMismatchError).
Proof.
  intros values wher. split.
  - revert wher. induction values as [|z values IH]; intros [|b wher] H; try discriminate.
    + exists []. repeat split. intros [|i] z b Hz; discriminate.
    + cbn [length] in H. injection H as H. destruct (IH wher H) as [r [E [Hl [Hn Hb]]]].
      unfold logic_negate_where in *. cbn [length] in *. rewrite (proj2 (Nat.eqb_eq _ _) H) in E. cbn [true_except bind] in E. injection E as E.
      exists ((if b then neg z else z) :: r). cbn [Nat.eqb length]. rewrite (proj2 (Nat.eqb_eq _ _) H). cbn [true_except bind combine map fst snd].
      rewrite E, tilde_neg. split; [reflexivity|]. split; [rewrite Hl; reflexivity|]. split.
      * intros [|i] y c Hy Hc; cbn [nth_error] in *; [|apply Hn; assumption]. injection Hy as <-. injection Hc as <-. reflexivity.
      * rewrite Hl in *. rewrite (proj2 (Nat.eqb_eq _ _) H) in *. cbn [true_except bind] in *. injection Hb as Hb. rewrite Hb, tilde_neg.
        destruct b; [rewrite neg_neg|]; reflexivity.
  - intro H. unfold logic_negate_where. rewrite (proj2 (Nat.eqb_neq _ _) H). reflexivity.
Qed.
Print Assumptions C50_where.

Example C50_ex : logic_negate_which [5; -4; 7]%Z [3; 7] = Ok [5; 3; -8]%Z /\ logic_negate_which [5; -4]%Z [4] = Err ArgMismatchError /\
  logic_negate_where [5; -4; 7]%Z [true; true; false] = Ok [-6; 3; 7]%Z.
Proof. repeat split. Qed.

(** * C12 *)

(** the Schoute permutation of a Perm moves the binary digits below its length and leaves the
    others; it maps the numbers below 2^length to themselves *)
Theorem C12_digits : forall p, is_Perm p ->
  exists P, perm_schoute p = Ok P /\ is_Perm P /\ bijective (pget P) /\
    (forall x i, i < plength p -> Nat.testbit (pget P x) (pget p i) = Nat.testbit x i) /\
    (forall x i, plength p <= i -> Nat.testbit (pget P x) i = Nat.testbit x i) /\
    is_period (pget P) (2 ^ plength p) /\ (forall x, x < 2 ^ plength p -> pget P x < 2 ^ plength p).
Proof.
  intros p Hp. destruct (perm_schoute_spec p Hp) as [P [E [HP [_ [H1 [H2 [H3 H4]]]]]]]. exists P.
  split; [exact E|]. split; [exact HP|]. split; [apply obj_bij; exact HP|]. auto.
Qed.
Print Assumptions C12_digits.

(** of a signed permutation: negated digits are complemented *)
Theorem C12_signed_digits : forall s f, is_SigPerm s -> acts s f ->
  exists P, sg_schoute s = Ok P /\ is_Perm P /\ bijective (pget P) /\
    (forall x i, Nat.testbit (pget P x) (atom (f i)) = xorb (negated (f i)) (Nat.testbit x i)) /\
    is_period (pget P) (2 ^ sg_length s) /\ (forall x, x < 2 ^ sg_length s -> pget P x < 2 ^ sg_length s).
Proof.
  intros s f H Hf. apply is_SigPerm_swf in H. to_sf H Hf.
  destruct (sg_schoute_spec s H) as [P [E [HP [_ [H1 [H2 H3]]]]]]. exists P. split; [exact E|]. split; [exact HP|].
  split; [apply obj_bij; exact HP|]. split; [|split; assumption]. intros x i. rewrite Hf. apply H3.
Qed.
Print Assumptions C12_signed_digits.

Theorem C12_product : forall a b, is_Perm a -> is_Perm b -> perilen a = None -> perilen b = None ->
  exists c A B C D, pmul a b = Ok c /\ perm_schoute a = Ok A /\ perm_schoute b = Ok B /\ perm_schoute c = Ok C /\
    pmul A B = Ok D /\ perm_eqb C D = true.
Proof.
  intros a b Ha Hb Na Nb. destruct (mul_ok a b Ha Hb) as [c [Ec [Hc [Gc Kc]]]]; [tauto|]. specialize (Kc Na Nb).
  destruct (perm_schoute_spec a Ha) as [A [EA [HA [KA [_ [_ [DA1 DA2]]]]]]].
  destruct (perm_schoute_spec b Hb) as [B [EB [HB [KB [_ [_ [DB1 DB2]]]]]]].
  destruct (perm_schoute_spec c Hc) as [C [EC [HC [_ [_ [_ [DC1 DC2]]]]]]].
  destruct (schoute_mul_ok A B HA HB KA KB) as [D [ED [HD GD]]].
  exists c, A, B, C, D. repeat (split; [assumption|]). apply eq_actions; [exact HC | exact HD|].
  apply (digits_unique C D (fun k => Z.of_nat (pget c k)) (fun k => on_literals (fun k => Z.of_nat (pget a k)) (Z.of_nat (pget b k)))).
  - apply nat_onto, is_Perm_wf, Hc.
  - apply finite_digits; try assumption. apply is_Perm_wf, Hc.
  - apply (digits_mul A B D (fun k => Z.of_nat (pget a k)) (fun k => Z.of_nat (pget b k)) GD).
    + apply finite_digits; try assumption. apply is_Perm_wf, Ha.
    + apply finite_digits; try assumption. apply is_Perm_wf, Hb.
  - intro k. unfold on_literals. rewrite negated_nat, atom_nat, Gc. reflexivity.
Qed.
Print Assumptions C12_product.

Theorem C12_inverse : forall a, is_Perm a -> perilen a = None ->
  exists b A B C, pinv a = Ok b /\ perm_schoute a = Ok A /\ perm_schoute b = Ok B /\ pinv A = Ok C /\ perm_eqb B C = true.
Proof.
  intros a Ha Na. destruct (inv_ok a Ha) as [b [Eb [Hb [G1 [G2 Kb]]]]]. assert (Nb := proj1 Kb Na).
  destruct (perm_schoute_spec a Ha) as [A [EA [HA [KA [_ [_ [DA1 DA2]]]]]]].
  destruct (perm_schoute_spec b Hb) as [B [EB [HB [KB [_ [_ [DB1 DB2]]]]]]].
  destruct (inv_ok A HA) as [C [EC [HC [C1 [C2 _]]]]]. exists b, A, B, C. repeat (split; [assumption|]).
  apply eq_actions; [exact HB | exact HC|]. intro x. rewrite <- (C1 (pget B x)). f_equal.
  assert (FA := finite_digits a A (is_Perm_wf a Ha) Na DA1 DA2). assert (FB := finite_digits b B (is_Perm_wf b Hb) Nb DB1 DB2).
  apply Nat.bits_inj. intro i. assert (E1 := FA (pget B x) (pget b i)). assert (E2 := FB x i).
  cbv beta in E1, E2. rewrite atom_nat, negated_nat, xorb_false_l in E1. rewrite atom_nat, negated_nat, xorb_false_l in E2. rewrite G2 in E1. congruence.
Qed.
Print Assumptions C12_inverse.

(** different finite permutations have different Schoute permutations *)
Theorem C12_faithful : forall a b A B, is_Perm a -> is_Perm b -> perilen a = None -> perilen b = None ->
  perm_schoute a = Ok A -> perm_schoute b = Ok B -> perm_eqb A B = perm_eqb a b.
Proof.
  intros a b A B Ha Hb Na Nb EA EB.
  destruct (perm_schoute_spec a Ha) as [A' [EA' [HA [KA [_ [_ [DA1 DA2]]]]]]]. assert (A' = A) by congruence. subst A'.
  destruct (perm_schoute_spec b Hb) as [B' [EB' [HB [KB [_ [_ [DB1 DB2]]]]]]]. assert (B' = B) by congruence. subst B'.
  assert (FA := finite_digits a A (is_Perm_wf a Ha) Na DA1 DA2). assert (FB := finite_digits b B (is_Perm_wf b Hb) Nb DB1 DB2).
  assert (Oa := nat_onto a (is_Perm_wf a Ha)). assert (Ob := nat_onto b (is_Perm_wf b Hb)).
  apply eq_iff_eq_true. rewrite (eq_actions A B HA HB), (eq_actions a b Ha Hb). split; intro H.
  - intro k. apply Nat2Z.inj. apply (digits_faithful A B _ _ Oa Ob FA FB H).
  - apply (digits_unique A B _ _ Oa FA FB). intro k. rewrite H. reflexivity.
Qed.
Print Assumptions C12_faithful.

Theorem C12_signed_product : forall a b, is_SigPerm a -> is_SigPerm b ->
  exists c A B C D, sg_mul a b = Ok c /\ sg_schoute a = Ok A /\ sg_schoute b = Ok B /\ sg_schoute c = Ok C /\
    pmul A B = Ok D /\ perm_eqb C D = true.
Proof.
  intros a b Ha Hb. apply is_SigPerm_swf in Ha. apply is_SigPerm_swf in Hb. destruct (mul_spec a b Ha Hb) as [c [Ec [Hc [_ Gc]]]].
  destruct (sg_schoute_spec a Ha) as [A [EA [HA [KA [_ [_ DA]]]]]].
  destruct (sg_schoute_spec b Hb) as [B [EB [HB [KB [_ [_ DB]]]]]].
  destruct (sg_schoute_spec c Hc) as [C [EC [HC [_ [_ [_ DC]]]]]].
  destruct (schoute_mul_ok A B HA HB KA KB) as [D [ED [HD GD]]].
  exists c, A, B, C, D. repeat (split; [assumption|]). apply eq_actions; [exact HC | exact HD|].
  apply (digits_unique C D (sf c) (fun k => on_literals (sf a) (sf b k)) (sf_onto c Hc) DC (digits_mul A B D _ _ GD DA DB) Gc).
Qed.
Print Assumptions C12_signed_product.

Theorem C12_signed_inverse : forall a, is_SigPerm a ->
  exists b A B C, sg_inv a = Ok b /\ sg_schoute a = Ok A /\ sg_schoute b = Ok B /\ pinv A = Ok C /\ perm_eqb B C = true.
Proof.
  intros a Ha. apply is_SigPerm_swf in Ha. destruct (inv_spec a Ha) as [b [Eb [Hb [_ [_ [G1 [G2 _]]]]]]].
  destruct (sg_schoute_spec a Ha) as [A [EA [HA [KA [_ [_ DA]]]]]].
  destruct (sg_schoute_spec b Hb) as [B [EB [HB [KB [_ [_ DB]]]]]].
  destruct (inv_ok A HA) as [C [EC [HC [C1 [C2 _]]]]]. exists b, A, B, C. repeat (split; [assumption|]).
  apply eq_actions; [exact HB | exact HC|]. intro x. rewrite <- (C1 (pget B x)). f_equal.
  apply Nat.bits_inj. intro i. assert (E1 := DA (pget B x) (atom (sf b i))). assert (E2 := DB x i).
  rewrite (inverse_entry (sf b) (sf a) i (G1 i)), atom_lit, negated_lit, E2 in E1. rewrite E1.
  destruct (negated (sf b i)), (Nat.testbit x i); reflexivity.
Qed.
Print Assumptions C12_signed_inverse.

Theorem C12_signed_faithful : forall a b f g A B, is_SigPerm a -> is_SigPerm b -> acts a f -> acts b g ->
  sg_schoute a = Ok A -> sg_schoute b = Ok B -> (perm_eqb A B = true <-> forall k, f k = g k).
Proof.
  intros a b f g A B Ha Hb Hf Hg EA EB. apply is_SigPerm_swf in Ha. apply is_SigPerm_swf in Hb.
  to_sf Ha Hf. to_sf Hb Hg.
  destruct (sg_schoute_spec a Ha) as [A' [EA' [HA [KA [_ [_ DA]]]]]]. assert (A' = A) by congruence. subst A'.
  destruct (sg_schoute_spec b Hb) as [B' [EB' [HB [KB [_ [_ DB]]]]]]. assert (B' = B) by congruence. subst B'.
  rewrite (eq_actions A B HA HB). split; intro H.
  - intro k. rewrite Hf, Hg. apply (digits_faithful A B _ _ (sf_onto a Ha) (sf_onto b Hb) DA DB H).
  - apply (digits_unique A B _ _ (sf_onto a Ha) DA DB). intro k. rewrite <- Hf, <- Hg. apply H.
Qed.
Print Assumptions C12_signed_faithful.

Example C12_ex : exists p P, Perm (ArgSeq [1; 2; 0]) None = Ok p /\ is_Perm p /\ perm_schoute p = Ok P /\
  psequence P None = Ok [0; 2; 4; 6; 1; 3; 5; 7] /\ pget P 12 = 9.
Proof.
  do 2 eexists. split; [reflexivity|]. split; [eapply (obj_new (ArgSeq [1; 2; 0]) None); [exact I | reflexivity]|].
  split; [vm_compute; reflexivity|]. split; reflexivity.
Qed.
Example C12_ex_signed : exists s P, SigPerm_sequence [-2; 0]%Z = Ok s /\ sg_schoute s = Ok P /\ psequence P None = Ok [2; 0; 3; 1].
Proof. do 2 eexists. split; [reflexivity|]. split; [vm_compute; reflexivity | reflexivity]. Qed.
