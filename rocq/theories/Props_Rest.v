(** Props_Rest: property C103: inversion vectors, solid tables, blocks of labelled elements, the
    number of affected elements. *)

From Coq Require Import List Arith ZArith Bool Lia Permutation Sorted.
From Verif Require Import Model_Base Lib Model_Binary Model_Twin Model_Boolf Model_BoolfMore Model_SetPart Model_SetPartComp Model_Perm Model_Rest
  Spec_Bits Spec_Boolf Spec_Twin Spec_SetPart Spec_SetPartComp Proof_Binary Proof_Deflate Proof_Boolf Proof_BoolfTable Proof_Twin Proof_BoolfMake Proof_Noble Proof_BoolfMore
  Proof_SetPart Proof_SetPartLabels Proof_SetPartCompMore Props_Boolf Props_Twin Props_BoolfMore Props_SetPart Props_SetPartComp.
From Verif Require Props_Perm Proof_SetPartBoolf.
Import ListNotations.
Local Open Scope nat_scope.

(** * Inversion vectors *)

Lemma lset_nth (l : list nat) i x j : i < length l -> nth j (lset l i x) 0 = if Nat.eqb j i then x else nth j l 0.
Proof.
  revert i j. induction l as [|a l IH]; intros i j H; [cbn in H; lia|]. destruct i as [|i]; [destruct j; reflexivity|]. destruct j as [|j]; [reflexivity|]. cbn [lset nth]. rewrite IH by (cbn in H; lia). reflexivity.
Qed.
Lemma lset_len (l : list nat) i x : length (lset l i x) = length l.
Proof. revert i. induction l as [|a l IH]; intros [|i]; try reflexivity. cbn. rewrite IH. reflexivity. Qed.

Definition inv_step (p : list nat) (v : list nat) (i : nat) : res (list nat) :=
  let count := length (filter (fun k => Nat.ltb (nth i p 0) (nth k p 0)) (range i)) in
  guard Nat.ltb (nth i p 0) (length p) else IndexErr ;; Ok (lset v (nth i p 0) count).

Lemma table_nth (F : nat -> nat) n i : i < n -> nth i (map F (range n)) 0 = F i.
Proof. intro H. rewrite (nth_indep _ 0 (F 0)) by (rewrite map_length, range_length; exact H). rewrite map_nth, nth_range by exact H. reflexivity. Qed.

Lemma inv_loop p n m : length p = n -> (forall i, i < n -> nth i p 0 < n) -> (forall i j, i < n -> j < n -> nth i p 0 = nth j p 0 -> i = j) -> m <= n ->
  exists v, foldM (inv_step p) (range m) (repeat 0 n) = Ok v /\ length v = n /\ forall i, i < m -> nth (nth i p 0) v 0 = nth i (left_inversion_count p) 0.
Proof.
  intros Hl B I. induction m as [|m IH]; intro Hm; [exists (repeat 0 n); split; [reflexivity|]; split; [apply repeat_length | lia]|]. destruct IH as (v & E & Lv & V); [lia|].
  unfold range in *. rewrite seq_S, Proof_SetPartBoolf.foldM_app. cbn [Nat.add]. rewrite E. cbn [bind foldM]. unfold inv_step at 1. rewrite Hl, (proj2 (Nat.ltb_lt _ _) (B m ltac:(lia))). cbn [true_except bind].
  eexists. split; [reflexivity|]. split; [rewrite lset_len; exact Lv|]. intros i Hi. rewrite lset_nth by (rewrite Lv; apply B; lia). destruct (Nat.eqb_spec (nth i p 0) (nth m p 0)) as [Ee|Ne].
  - assert (i = m) by (apply I; [lia | lia | exact Ee]). subst i. unfold left_inversion_count. rewrite table_nth by lia. reflexivity.
  - apply V. destruct (Nat.eq_dec i m) as [->|]; [congruence | lia].
Qed.

Theorem C103_inversion_vector : forall p n, Permutation p (seq 0 n) ->
  exists v, inversion_vector p = Ok v /\ length v = n /\ (forall i, i < n -> nth (nth i p 0) v 0 = nth i (left_inversion_count p) 0) /\
    forall q, length q = n -> (forall i, i < n -> nth (nth i p 0) q 0 = i) -> v = right_inversion_count q /\ right_inversion_count_to_permutation v = Ok q.
Proof.
  intros p n P. assert (Hl : length p = n) by (rewrite (Permutation_length P), seq_length; reflexivity).
  assert (Nd : NoDup p) by (eapply Permutation_NoDup; [apply Permutation_sym, P | apply seq_NoDup]).
  assert (B : forall i, i < n -> nth i p 0 < n). { intros i Hi. assert (X : In (nth i p 0) p) by (apply nth_In; lia). apply (Permutation_in _ P), in_seq in X. lia. }
  assert (I : forall i j, i < n -> j < n -> nth i p 0 = nth j p 0 -> i = j) by (intros i j Hi Hj; apply (proj1 (NoDup_nth p 0) Nd); lia).
  destruct (inv_loop p n n Hl B I (le_n n)) as (v & E & Lv & V). exists v. split; [unfold inversion_vector; rewrite Hl; unfold inv_step in E; rewrite Hl in E; exact E|]. split; [exact Lv|]. split; [exact V|].
  intros q Lq Q. assert (On : forall x, x < n -> exists i, i < n /\ nth i p 0 = x).
  { intros x Hx. assert (X : In x p) by (apply (Permutation_in _ (Permutation_sym P)), in_seq; lia). apply (In_nth _ _ 0) in X as (i & Hi & <-). exists i. split; [lia | reflexivity]. }
  assert (Ev : v = right_inversion_count q).
  { apply (nth_ext _ _ 0 0); [unfold right_inversion_count; rewrite map_length, range_length; lia|]. intros x Hx. rewrite Lv in Hx. destruct (On x Hx) as (i & Hi & <-). rewrite (V i Hi).
    unfold right_inversion_count, left_inversion_count. rewrite (table_nth _ _ i) by lia. rewrite (table_nth _ _ (nth i p 0)) by (rewrite Lq; apply B, Hi).
    rewrite Lq, (Q i Hi). unfold range2. rewrite <- (map_length (fun k => nth k p 0) (filter _ (range i))). apply Permutation_length. apply NoDup_Permutation.
    - apply Proof_Helpers.NoDup_map_inj; [apply NoDup_filter, range_NoDup|]. intros a b Ha Hb. apply filter_In in Ha as [Ha _], Hb as [Hb _]. apply range_In in Ha, Hb. apply I; lia.
    - apply NoDup_filter, seq_NoDup.
    - intro y. rewrite in_map_iff, filter_In, in_seq. split.
      + intros (k & <- & Hk). apply filter_In in Hk as [Hk L]. apply range_In in Hk. apply Nat.ltb_lt in L. rewrite (Q k ltac:(lia)). assert (X := B k ltac:(lia)). split; [lia | apply Nat.ltb_lt; lia].
      + intros (Hy & L). apply Nat.ltb_lt in L. destruct (On y ltac:(lia)) as (k & Hk & <-). rewrite (Q k Hk) in L. exists k. split; [reflexivity|]. apply filter_In. split; [apply range_In; exact L|]. apply Nat.ltb_lt.
        destruct (Nat.eq_dec (nth i p 0) (nth k p 0)) as [Ee|]; [|lia]. apply I in Ee; lia. }
  split; [exact Ev|]. rewrite Ev. apply (Props_Perm.C04_right q n). apply NoDup_Permutation_bis.
  - apply (proj2 (NoDup_nth q 0)). intros a b Ha Hb Ee. rewrite Lq in Ha, Hb. destruct (On a Ha) as (i & Hi & <-). destruct (On b Hb) as (j & Hj & <-). rewrite (Q i Hi), (Q j Hj) in Ee. congruence.
  - rewrite seq_length. lia.
  - intros y Hy. apply (In_nth _ _ 0) in Hy as (x & Hx & <-). rewrite Lq in Hx. destruct (On x Hx) as (i & Hi & <-). rewrite (Q i Hi). apply in_seq. lia.
Qed.
Print Assumptions C103_inversion_vector.

(** a number that is not a place of the list is an IndexError *)
Theorem C103_inversion_rejected : forall p x, In x p -> length p <= x -> inversion_vector p = Err IndexErr.
Proof.
  intros p x Hx L. unfold inversion_vector. fold (inv_step p). assert (G : forall l v, (exists i, In i l /\ length p <= nth i p 0) -> foldM (inv_step p) l v = Err IndexErr).
  { induction l as [|a l IH]; intros v (i & Hi & Li); [destruct Hi|]. cbn [foldM]. unfold inv_step at 1. destruct (Nat.ltb_spec (nth a p 0) (length p)) as [H|H]; [|reflexivity]. cbn [true_except bind].
    apply IH. destruct Hi as [->|Hi]; [lia|]. exists i. auto. }
  apply G. apply (In_nth _ _ 0) in Hx as (i & Hi & <-). exists i. split; [apply range_In, Hi | exact L].
Qed.
Print Assumptions C103_inversion_rejected.

(** * Solid tables: an odd number of the four places in the middle of the table are true *)

Theorem C103_solid : forall i f n, made i f ->
  (within (S (S n)) f -> let h := 2 ^ S n in
     is_solid f (S (S n)) = Ok (Nat.b2n (xorb (xorb (value f (h - 2)) (value f (h - 1))) (xorb (value f h) (value f (h + 1)))))) /\
  (within 1 f -> is_solid f 1 = Err ValueErr) /\ (within 0 f -> is_solid f 0 = Err TypeErr) /\ (~ within n f -> is_solid f n = Err ArgTooSmallError).
Proof.
  intros i f n M. assert (Hf := m_fit i f M). split; [|split; [|split]].
  - intros W h. destruct (C54_hasse i f (S n) M W) as (x & y & t & E & Hx & Hy & B & _). unfold is_solid. rewrite E. cbn [bind fst snd]. fold h in Hx, Hy, B |- *.
    assert (H2 : 2 <= h) by (unfold h; assert (Hp := pow2_pos n); cbn; lia). rewrite (proj2 (Nat.leb_le _ _) H2). cbn [true_except bind]. apply (f_equal Ok).
    rewrite int_to_weight_eq. rewrite <- Nat.bit0_mod, Nat.bit0_odd. f_equal. rewrite odd_count_ones.
    set (s := Nat.lxor (Nat.shiftr x (h - 2)) (Nat.shiftr y (h - 2))).
    assert (Hs : s < 2 ^ 2).
    { apply lxor_lt; rewrite Nat.shiftr_div_pow2; apply Nat.div_lt_upper_bound; try (apply Nat.pow_nonzero; lia); rewrite <- Nat.pow_add_r; replace (h - 2 + 2) with h by lia; assumption. }
    assert (X : xor_all (map (fun _ => true) (ones s)) = xorb (Nat.testbit s 0) (Nat.testbit s 1)). { rewrite (ones_bound 2 s Hs). cbn [seq filter]. destruct (Nat.testbit s 0), (Nat.testbit s 1); reflexivity. }
    rewrite X. unfold s. rewrite !Nat.lxor_spec, !Nat.shiftr_spec'. replace (0 + (h - 2)) with (h - 2) by lia. replace (1 + (h - 2)) with (h - 1) by lia.
    destruct (B (h - 2) ltac:(lia)) as [B1 B2]. destruct (B (h - 1) ltac:(lia)) as [B3 B4]. rewrite B1, B2, B3, B4.
    replace (2 ^ S (S n)) with (h + h) by (unfold h; cbn; lia). replace (h + h - 1 - (h - 2)) with (h + 1) by lia. replace (h + h - 1 - (h - 1)) with h by lia.
    destruct (value f (h - 2)), (value f (h - 1)), (value f h), (value f (h + 1)); reflexivity.
  - intro W. apply within_adicity in W. unfold is_solid, hasse_matrix_coordinates. rewrite tt_spec by assumption. reflexivity.
  - intro W. apply within_adicity in W. unfold is_solid, hasse_matrix_coordinates. rewrite tt_spec by assumption. reflexivity.
  - intro W. rewrite within_adicity in W. unfold is_solid, hasse_matrix_coordinates. assert (E : boolf_tt f (TtArity n) = Err ArgTooSmallError) by (unfold boolf_tt; rewrite (proj2 (Nat.leb_gt _ _)) by lia; reflexivity). rewrite E. reflexivity.
Qed.
Print Assumptions C103_solid.

(** * The block with the label of an element *)

(** after any calls of add_label_to_element: the block of the element, if it got a label, and else None *)
Theorem C103_block_from_element : forall dom calls s0 x, NoDup dom -> SetPart (Some []) (DomSet dom) = Ok s0 -> In x dom ->
  let s := fold_left label_step calls s0 in
  get_block_from_element s x = match first_label calls x with Some _ => Some (element_to_block s x) | None => None end.
Proof.
  intros dom calls s0 x Hd E Hx. cbn zeta. destruct (C22_history dom calls Hd) as (s0' & E' & L & _ & B). rewrite E in E'. injection E' as <-.
  unfold get_block_from_element. rewrite (L x Hx). destruct (first_label calls x) as [l|] eqn:F; [|reflexivity]. apply B. exists x. auto.
Qed.
Print Assumptions C103_block_from_element.

(** * The number of affected elements *)

Theorem C103_affected : forall order s st, history s st -> (forall l, Permutation (order l) l) ->
  exists l, number_of_affected_elements order s = Ok (length l) /\ NoDup l /\ forall x, In x l <-> exists y c, y <> x /\ forced st x y c.
Proof.
  intros order s st H Ho. destruct (C48_derived order s st H Ho) as (_ & _ & _ & _ & _ & (l & E & S & T) & _). exists l. unfold number_of_affected_elements. rewrite E. cbn [bind]. split; [reflexivity|]. split; [apply zsorted_NoDup, S | exact T].
Qed.
Print Assumptions C103_affected.

Example C103_example : inversion_vector [2; 0; 3; 1] = Ok [1; 2; 0; 0] /\ right_inversion_count [1; 3; 0; 2] = [1; 2; 0; 0] /\ inversion_vector [0; 4; 1] = Err IndexErr /\
  is_solid Props_Boolf.ex_and 2 = Ok 1 /\ is_solid Props_Boolf.ex_and 3 = Ok 1 /\ is_solid Props_Boolf.ex_and 1 = Err ArgTooSmallError /\ is_solid (set_constant true) 2 = Ok 0 /\
  is_solid (set_constant true) 1 = Err ValueErr /\ is_solid (set_constant true) 0 = Err TypeErr.
Proof. repeat (split; [vm_compute; reflexivity|]). vm_compute; reflexivity. Qed.
Example C103_example_blocks : exists s0, SetPart (Some []) (DomSet [1; 2; 3]%Z) = Ok s0 /\ let s := fold_left label_step [(1, 8); (3, 8); (1, 9); (4, 8)]%Z s0 in
  get_block_from_element s 3 = Some [1; 3]%Z /\ get_block_from_element s 2 = None.
Proof. eexists. split; [vm_compute; reflexivity|]. vm_compute. repeat split. Qed.
Example C103_example_affected : exists s, SetPartComp (Some [[1; 2]; [3; 4]]%Z) (Some [(4, 2); (6, -5)]%Z) = Ok s /\ number_of_affected_elements id_order s = Ok 6.
Proof. eexists. split; vm_compute; reflexivity. Qed.
