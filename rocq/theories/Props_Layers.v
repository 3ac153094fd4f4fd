(** Props_Layers: property C80 (true places by weight, their links, layers, symmetric functions). *)

From Coq Require Import List Arith ZArith Bool Lia Permutation Sorted.
From Verif Require Import Model_Base Lib Model_Binary Model_Splits Model_Perm Model_Boolf Model_Segments Model_Helpers Model_Hyper Model_Layers.
From Verif Require Import Spec_Bits Spec_Boolf Spec_Segments Spec_Layers Proof_Binary Proof_Boolf Proof_BoolfMake Proof_MinRepCoset Proof_Splits Proof_Segments Proof_Layers Proof_Fission Props_Boolf.
Import ListNotations.
Open Scope nat_scope.

(** fullspots_by_weight has one entry for each number of ones of a true place: the true places
    with this number of ones, each with its atoms in increasing order; layered_fullspots has the
    same places in increasing order; fullspot_weights the occurring numbers *)
Theorem C80_by_weight : forall order f, (forall l, Permutation (order l) l) -> exists b, fullspots_by_weight order f = Ok b /\
  NoDup (map fst (bw_detailed b)) /\
  (forall w d, In (w, d) (bw_detailed b) -> d <> [] /\ NoDup (map fst d) /\ (forall n, In n (map fst d) <-> full f n /\ count_ones n = w) /\
     forall n keys, In (n, keys) d -> ascending keys /\ forall k, In k keys <-> Nat.testbit n k = true) /\
  (forall n, full f n -> In (count_ones n) (map fst (bw_detailed b))) /\
  length (bw_simple b) = valency f + 1 /\
  (forall w, w <= valency f -> ascending (nth w (bw_simple b) []) /\ forall n, In n (nth w (bw_simple b) []) <-> full f n /\ count_ones n = w) /\
  ascending (bw_weights b) /\ (forall w, In w (bw_weights b) <-> exists n, full f n /\ count_ones n = w).
Proof.
  intros order f Ho. destruct (fullspots_by_weight_ok order f Ho) as (b & E & N & D & S & A & W). exists b. split; [exact E|].
  set (L := order (fullspots f)) in *.
  assert (HL : forall n, In n L <-> full f n) by (intro n; rewrite <- fullspots_In; split; intro H; [eapply Permutation_in; [apply Ho | exact H] | eapply Permutation_in; [apply Permutation_sym, Ho | exact H]]).
  assert (NL : NoDup L) by (eapply Permutation_NoDup; [apply Permutation_sym, Ho | apply fullspots_NoDup]).
  assert (HW : forall w n, In n (of_weight w L) <-> full f n /\ count_ones n = w) by (intros w n; unfold of_weight; rewrite filter_In, Nat.eqb_eq, HL; reflexivity).
  assert (Dv : forall w d, In (w, d) (bw_detailed b) -> dfind (bw_detailed b) w = Some d).
  { clear - N. induction (bw_detailed b) as [|[w' d'] l IH]; intros w d H; [destruct H|]. cbn in N. apply NoDup_cons_iff in N as [N1 N2]. cbn. destruct H as [[= -> ->]|H]; [rewrite Nat.eqb_refl; reflexivity|].
    destruct (Nat.eqb_spec w w') as [->|]; [exfalso; apply N1; apply in_map_iff; exists (w', d); split; [reflexivity | exact H] | apply IH; assumption]. }
  split; [exact N|]. split; [|split; [|split; [|split; [|split; [exact A|]]]]].
  - intros w d H. apply Dv in H. rewrite D in H. assert (Ed : d = map with_keys (of_weight w L)) by (destruct (map with_keys (of_weight w L)); cbn in H; congruence).
    assert (Ne : d <> []) by (rewrite Ed in *; intro Z; rewrite Z in H; discriminate). split; [exact Ne|]. subst d.
    assert (M : map fst (map with_keys (of_weight w L)) = of_weight w L) by (rewrite map_map; apply map_id).
    rewrite M. split; [apply NoDup_filter, NL|]. split; [apply HW|]. intros n keys Hi. apply in_map_iff in Hi as (n' & [= <- <-] & _). split; [apply int_to_exposet_spec | intro k; apply on_In].
  - intros n Hn. destruct (in_dec Nat.eq_dec (count_ones n) (map fst (bw_detailed b))) as [H|H]; [exact H|]. exfalso. assert (X := proj2 (Proof_HyperCores.dfind_None (bw_detailed b) (count_ones n)) H).
    rewrite D, found_None in X. apply map_eq_nil in X. assert (Y := proj2 (HW (count_ones n) n) (conj Hn eq_refl)). rewrite X in Y. destruct Y.
  - rewrite S, map_length, range_length. reflexivity.
  - intros w Hw. rewrite S. rewrite (nth_indep (map _ _) [] (sort_nat (of_weight 0 L))) by (rewrite map_length, range_length; lia). rewrite (map_nth (fun w => sort_nat (of_weight w L))), nth_range by lia.
    split; [apply sort_nat_ascending, NoDup_filter, NL|]. intro n. rewrite sort_nat_In. apply HW.
  - intro w. rewrite W. split; intros (n & H1 & H2); exists n; split; [apply HL | | apply HL |]; assumption.
Qed.
Print Assumptions C80_by_weight.

(** fullspotlinks_by_weight has one entry for each w such that there are true places with w and
    with w + 1 ones: the pairs of true places that are an edge upwards from w ones, in
    lexicographic order *)
Theorem C80_links : forall order f, (forall l, Permutation (order l) l) -> exists d number, fullspotlinks_by_weight order f = Ok (d, number) /\
  ascending (map fst d) /\
  (forall w, In w (map fst d) <-> (exists n, full f n /\ count_ones n = w) /\ exists n, full f n /\ count_ones n = w + 1) /\
  (forall w l, In (w, l) d -> StronglySorted pair_lt l /\ forall a b, In (a, b) l <-> full f a /\ full f b /\ count_ones a = w /\ edge_up a b) /\
  exists edges, NoDup edges /\ length edges = number /\ forall a b, In (a, b) edges <-> full f a /\ full f b /\ edge_up a b.
Proof.
  intros order f Ho. destruct (fullspotlinks_ok order f Ho) as (L & W & HL & NL & A & HW & E). eexists _, _. split; [exact E|].
  assert (G : forall w, In w (good_weights W) <-> (exists n, full f n /\ count_ones n = w) /\ exists n, full f n /\ count_ones n = w + 1).
  { intro w. unfold good_weights. rewrite filter_In, memb_In, !HW. split; intros [(n & H1 & H2) (m & H3 & H4)]; (split; [exists n | exists m]); split; try apply HL; assumption. }
  assert (M : map fst (map (fun w => (w, links_at L w)) (good_weights W)) = good_weights W) by (rewrite map_map; apply map_id).
  rewrite M. split; [apply Proof_Deflate.filter_sorted, A|]. split; [exact G|]. split.
  - intros w l Hi. apply in_map_iff in Hi as (w' & [= <- <-] & _). split; [apply links_at_sorted, NL|]. intros a b. rewrite links_at_In, !HL. reflexivity.
  - exists (flat_map (links_at L) (good_weights W)). split; [|split].
    + assert (NG : NoDup (good_weights W)) by (apply NoDup_filter, sorted_lt_NoDup, A). clear - NG NL. induction NG as [|w l Hw N IH]; [constructor|]. cbn [flat_map].
      apply Proof_SetPartLattice.NoDup_app_intro'; [| exact IH |].
      * assert (S := links_at_sorted L w NL). clear - S. induction S as [|p q S IH F]; constructor; [|exact IH]. rewrite Forall_forall in F. intro Hi. apply F in Hi. unfold pair_lt in Hi. lia.
      * intros [a b] H1 H2. apply links_at_In in H1 as (_ & _ & H1 & _). apply in_flat_map in H2 as (w' & Hw' & H2). apply links_at_In in H2 as (_ & _ & H2 & _). congruence.
    + clear. induction (good_weights W) as [|w l IH]; [reflexivity|]. cbn [flat_map map]. rewrite app_length, IH. reflexivity.
    + intros a b. rewrite in_flat_map. split.
      * intros (w & _ & H). apply links_at_In in H as (H1 & H2 & _ & H3). rewrite HL in H1, H2. auto.
      * intros (H1 & H2 & H3). exists (count_ones a). split; [|apply links_at_In; rewrite !HL; auto]. apply G. split; [exists a; auto|]. exists b. split; [exact H2|]. apply edge_up_weight in H3. lia.
Qed.
Print Assumptions C80_links.

(** layered_weight: entry w is the number of true places with w ones *)
Theorem C80_layered_weight : forall i f, made i f -> exists r, layered_weight f = Ok r /\ length r = valency f + 1 /\
  forall w, w <= valency f -> exists l, NoDup l /\ length l = nth w r 0 /\ forall n, In n l <-> full f n /\ count_ones n = w.
Proof.
  intros i f Mf. assert (F := m_fit i f Mf). rewrite layered_weight_ok by exact F. eexists. split; [reflexivity|]. split; [rewrite map_length; apply range_length|].
  intros w Hw. exists (filter (fun k => nth k (root f) false) (weights (valency f) w)). split; [apply NoDup_filter, NoDup_filter, seq_NoDup|]. split.
  - rewrite (nth_indep (map _ _) 0 ((fun w => length (filter (fun k => nth k (root f) false) (weights (valency f) w))) 0)) by (rewrite map_length, range_length; lia).
    rewrite (map_nth (fun w => length (filter (fun k => nth k (root f) false) (weights (valency f) w)))), nth_range by lia. reflexivity.
  - intro n. rewrite filter_In, weights_In. unfold full. split; [tauto|]. intros [H1 H2]. split; [split; [|exact H2] | exact H1].
    destruct F as [_ F]. unfold valency. rewrite <- F. destruct (Nat.lt_ge_cases n (length (root f))) as [Hl|Hl]; [exact Hl|]. rewrite nth_overflow in H1 by exact Hl. discriminate.
Qed.
Print Assumptions C80_layered_weight.

(** is_symmetric: the value depends only on the number of true atoms; equivalently, no
    permutation of the atoms changes the function *)
Theorem C80_symmetric : forall i f, made i f -> exists b, is_symmetric f = Ok b /\ (b = true <-> counting f) /\ (b = true <-> permutable f).
Proof.
  intros i f Mf. assert (F := m_fit i f Mf). destruct (is_symmetric_places f F) as (b & E & Hb). exists b. split; [exact E|].
  rewrite <- (counting_permutable f F), (counting_places f F). split; exact Hb.
Qed.
Print Assumptions C80_symmetric.

(** the majority of three atoms, and an implication *)
Example C80_ex : exists f g, Boolf_vec [false; false; false; true; false; true; true; true] [1; 2; 4] = Ok f /\ made false f /\ Boolf_vec [true; false; true; true] [0; 3] = Ok g /\ made false g /\
  fullspots_by_weight (@rev nat) f = Ok (mkByWeight [(3, [(7, [0; 1; 2])]); (2, [(6, [1; 2]); (5, [0; 2]); (3, [0; 1])])] [[]; []; [3; 5; 6]; [7]] [2; 3]) /\
  fullspotlinks_by_weight (@rev nat) f = Ok ([(2, [(3, 7); (5, 7); (6, 7)])], 3) /\
  fullspotlinks_by_weight (fun l => l) g = Ok ([(0, [(0, 2)]); (1, [(2, 3)])], 2) /\
  layered_weight f = Ok [0; 0; 3; 1] /\ is_symmetric f = Ok true /\ is_symmetric g = Ok false.
Proof.
  destruct (Boolf_vec_sorted [false; false; false; true; false; true; true; true] [1; 2; 4]) as (f & E & R & _); [repeat constructor | reflexivity|].
  destruct (Boolf_vec_sorted [true; false; true; true] [0; 3]) as (g & E' & R' & _); [repeat constructor | reflexivity|].
  exists f, g. split; [exact E|]. split; [apply reduced_made; exact R|]. split; [exact E'|]. split; [apply reduced_made; exact R'|]. vm_compute in E, E'. injection E as <-. injection E' as <-. repeat split.
Qed.
