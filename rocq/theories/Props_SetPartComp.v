(** Properties C24 - C26 and C46 - C48: the class SetPartComp. *)

From Coq Require Import List Arith ZArith Bool Lia Permutation Sorting.Sorted.
From Verif Require Import Model_Base Lib Model_Binary Model_SetPart Spec_SetPart Proof_SetPart Proof_SetPartMore Model_SetPartComp
  Spec_SetPartComp Proof_SetPartComp Proof_SetPartCompMore.
Import ListNotations.
Open Scope Z_scope.

(** ** C24 *)

(** Objects are built by the constructor and then changed by set_equal and set_comp calls
    on two different elements; an exception is caught and the object used on ([history],
    with the list of the accepted statements). *)
Theorem C24_reported s st x y : history s st ->
  (x <> y -> are_equal s x y = true <-> forced st x y false) /\
  (are_comp s x y = true <-> forced st x y true).
Proof.
  intro H. apply history_says in H as [C H]. split.
  - intro Hxy. rewrite (are_equal_spec s C), <- H. cbn. unfold same. tauto.
  - rewrite (are_comp_spec s C). apply H.
Qed.

(** The same without chains: what all assignments have in common that fulfil the statements. *)
Theorem C24_semantic s st x y : history s st ->
  (exists v, models v st) /\
  (x <> y -> are_equal s x y = true <-> (forall v, models v st -> v x = v y)) /\
  (are_comp s x y = true <-> (forall v, models v st -> v x <> v y)).
Proof.
  intro H. assert (S := history_says s st H). destruct (C24_reported s st x y H) as [R1 R2].
  split; [exact (says_satisfiable s st S)|]. destruct S as [C S0]. assert (S : says s st) by (split; assumption). split.
  - intro Hxy. rewrite (R1 Hxy), <- S0, (says_entails s st x y false S). unfold entails. split; intros E v M.
    + apply xorb_eq, E, M.
    + rewrite (E v M). apply xorb_nilpotent.
  - rewrite R2, <- S0, (says_entails s st x y true S). unfold entails. split; intros E v M; specialize (E v M);
      destruct (v x), (v y); cbn in *; congruence.
Qed.

(** A call is rejected iff it contradicts the earlier statements; then nothing changes.
    Otherwise it is accepted and the statement is added. *)
Theorem C24_calls order s st a b : history s st -> (forall l, Permutation (order l) l) -> a <> b ->
  ((forced st a b true /\ set_equal order s a b = (s, Some SetEqualComplementsError)) \/
   (~ forced st a b true /\ exists s', set_equal order s a b = (s', None) /\ history s' (st ++ [(a, b, false)]))) /\
  ((forced st a b false /\ set_comp order s a b = (s, Some SetCompEqualsError)) \/
   (~ forced st a b false /\ exists s', set_comp order s a b = (s', None) /\ history s' (st ++ [(a, b, true)]))).
Proof.
  intros H Ho Hab. assert (S := history_says s st H). split.
  - destruct (spc_call_spec order s st a b false Ho S Hab) as [K|(K & s' & E & _)]; [left; exact K | right].
    split; [exact K|]. exists s'. split; [exact E|]. exact (hist_ok order s st a b false s' H Ho Hab E).
  - destruct (spc_call_spec order s st a b true Ho S Hab) as [K|(K & s' & E & _)]; [left; exact K | right].
    split; [exact K|]. exists s'. split; [exact E|]. exact (hist_ok order s st a b true s' H Ho Hab E).
Qed.

Definition id_order (l : list (Z * Z)) := l.
Lemma id_order_ok l : Permutation (id_order l) l.
Proof. reflexivity. Qed.

Lemma empty_history : exists s, SetPartComp None None = Ok s /\ history s [].
Proof.
  destruct (SetPartComp None None) as [s|] eqn:E; [|discriminate]. exists s. split; [reflexivity|].
  apply (hist_new None None s E); [constructor|]. split; [intros ? ? [] | intros ? ? ? ? []].
Qed.

(** 1 = 2, 3 = 4, 1 /= 3, 5 /= 2, then 5 = 1 and 4 /= 5 are contradictions *)
Example C24_ex :
  exists s0, SetPartComp None None = Ok s0 /\
  exists s, fold_left (fun st t => fst (spc_call id_order st t))
    [(1, 2, false); (3, 4, false); (1, 3, true); (5, 2, true); (5, 1, false); (4, 5, true)] s0 = s /\
    sp_blocks (equal_part s) = [[1; 2]; [3; 4; 5]] /\ comp_pairs s = [(1, 3)] /\
    are_equal s 4 5 = true /\ are_comp s 2 5 = true /\ are_equal s 1 5 = false /\
    snd (spc_call id_order s (5, 1, false)) = Some SetEqualComplementsError /\
    snd (spc_call id_order s (4, 5, true)) = Some SetCompEqualsError.
Proof. eexists. split; [reflexivity|]. eexists. repeat split. Qed.

(** ** C25 *)

(** set_comp(a, a) raises iff [a] is in a block with another element or has a complement;
    in the first case nothing is changed. *)
Theorem C25_set_comp_self order s st a : history s st -> (forall l, Permutation (order l) l) ->
  ((exists y, y <> a /\ forced st a y false) -> set_comp order s a a = (s, Some SetCompEqualsError)) /\
  (snd (set_comp order s a a) <> None <-> exists y, (y <> a /\ forced st a y false) \/ forced st a y true).
Proof.
  intros H Ho. apply history_says in H as [C H].
  assert (K : are_equal s a a = true <-> exists y, y <> a /\ forced st a y false).
  { rewrite (self_in_block s a C). split; intros (y & Hy & R); exists y; (split; [exact Hy|]); apply H, R. }
  split.
  - intro R. apply K in R. unfold set_comp. rewrite R. reflexivity.
  - destruct (are_equal s a a) eqn:E.
    + unfold set_comp. rewrite E. cbn [snd]. split; [|discriminate]. intros _. destruct (proj1 K eq_refl) as (y & R). eauto.
    + assert (G := get_comp_spec s C order a Ho). destruct (get_comp order s a) as [ac|] eqn:Eg.
      * destruct (self_call order s a true ac Ho C E Eg) as (s' & E' & _). cbn [spc_call] in E'. rewrite E'. cbn [snd].
        split; [|discriminate]. intros _. exists ac. right. apply H, G.
      * assert (Ec : are_comp s a a = false) by (apply not_true_is_false; rewrite (are_comp_spec s C); apply rel_consistent, C).
        unfold set_comp. rewrite E, Ec, Eg. cbn. split; [congruence|]. intros (y & [R|R]).
        -- destruct K as [_ K]. discriminate K. eauto.
        -- apply H in R. destruct (G y R).
Qed.

(** It is accepted for an element without relations, which is then its own complement. *)
Theorem C25_set_comp_self_refuted : exists s st s',
  history s st /\ set_comp id_order s 5 5 = (s', None) /\ are_comp s' 5 5 = true.
Proof. destruct empty_history as (s & E & H). injection E as <-. eexists _, [], _. split; [exact H|]. split; reflexivity. Qed.

(** ** C26 (the integer filter) *)

(** for every value of the floating point binary length [bl] *)
Theorem C26_int_matches order bl s st n : history s st -> (forall l, Permutation (order l) l) ->
  exists b, int_matches bl order s n = Ok b /\ (b = true <-> models (zbit n) st).
Proof.
  intros H Ho. assert (S := history_says s st H). destruct (int_matches_spec s (proj1 S) order Ho bl n) as (b & E & Hb).
  exists b. split; [exact E|]. rewrite Hb. symmetry. apply says_models, S.
Qed.

Example C26_ex : exists s, SetPartComp (Some [[0; 2]; [1; 3]]) (Some [(2, 1)]) = Ok s /\
  map (int_matches binary_length id_order s) [5; 10; 4; 15; 16; 26]%nat =
    map (@Ok bool) [true; true; false; false; false; true].
Proof. eexists. split; reflexivity. Qed.

(** ** C46 *)

(** The constructor with disjoint blocks and pairs of different elements, where pairs that
    meet a common block are the same pair of blocks: it raises iff a pair lies in a block,
    and the object says exactly what follows from the arguments. *)
Theorem C46_constructor obs ops :
  (obs = None -> ops = None) ->
  let bs := match obs with Some bs => bs | None => [] end in
  let ps := match ops with Some ps => ps | None => [] end in
  no_overlap bs -> proper bs ps ->
  ((exists a b, In (a, b) ps /\ together bs a b) /\ SetPartComp obs ops = Err PartCompMismatchError) \/
  ((~ exists a b, In (a, b) ps /\ together bs a b) /\
   exists s, SetPartComp obs ops = Ok s /\ history s (given bs ps) /\
     (forall x y, x <> y -> are_equal s x y = true <-> forced (given bs ps) x y false) /\
     (forall x y, are_comp s x y = true <-> forced (given bs ps) x y true)).
Proof.
  intros Hnone bs ps Hn Hp. destruct (ctor_spec obs ops Hnone Hn Hp) as [K|(K & s & E & _)]; [left; exact K | right].
  split; [exact K|]. assert (H : history s (given bs ps)) by exact (hist_new obs ops s E Hn Hp).
  exists s. split; [exact E|]. split; [exact H|].
  split; intros x y; [intro Hxy; apply (C24_reported s _ x y H); exact Hxy | apply (C24_reported s _ x y H)].
Qed.

(** Complementary pairs without a part are rejected. *)
Lemma C46_pairs_without_part ps : SetPartComp None (Some ps) = Err CompWithoutPartError.
Proof. reflexivity. Qed.

(** Without the condition on the pairs: 1 /= 2 and 2 /= 3 are stored, but 1 = 3 is not
    reported, and 1 /= 1 is accepted. *)
Theorem C46_constructor_refuted :
  (exists s, SetPartComp (Some []) (Some [(1, 2); (2, 3)]) = Ok s /\
     forced (given [] [(1, 2); (2, 3)]) 1 3 false /\ are_equal s 1 3 = false) /\
  (exists s, SetPartComp (Some []) (Some [(1, 1)]) = Ok s /\ are_comp s 1 1 = true).
Proof.
  split; eexists; (split; [reflexivity|]); [split; [|reflexivity] | reflexivity].
  apply (forced_trans _ 1 2 3 true true); apply forced_step; cbn; auto.
Qed.

Example C46_ex : exists s, SetPartComp (Some [[1; 2]; [3; 4]]) (Some [(4, 2); (6, 5); (1, 3)]) = Ok s /\
  comp_pairs s = [(1, 3); (5, 6)] /\ proper [[1; 2]; [3; 4]] [(4, 2); (6, 5); (1, 3)].
Proof.
  eexists. split; [reflexivity|]. split; [reflexivity|].
  assert (T : forall x y, same [[1; 2]; [3; 4]] x y <-> x = y \/ ((x = 1 \/ x = 2) /\ (y = 1 \/ y = 2)) \/ ((x = 3 \/ x = 4) /\ (y = 3 \/ y = 4))).
  { intros x y. unfold same, together. split.
    - intros [H|(b & [<-|[<-|[]]] & Hx & Hy)]; [auto | |]; cbn in Hx, Hy; intuition.
    - intros [H|[[Hx Hy]|[Hx Hy]]]; [auto | |]; right; [exists [1; 2] | exists [3; 4]]; cbn; intuition. }
  split.
  - intros a b [[= <- <-]|[[= <- <-]|[[= <- <-]|[]]]]; discriminate.
  - intros a b c d [[= <- <-]|[[= <- <-]|[[= <- <-]|[]]]] [[= <- <-]|[[= <- <-]|[[= <- <-]|[]]]]; rewrite !T; intuition (try lia).
Qed.

(** ** C47 *)

(** set_equal(a, a) has no effect for an element in a block or without a complement. *)
Theorem C47_set_equal_self order s st a : history s st -> (forall l, Permutation (order l) l) ->
  (exists y, y <> a /\ forced st a y false) \/ (forall y, ~ forced st a y true) ->
  exists s', set_equal order s a a = (s', None) /\
    (forall x y, are_equal s' x y = are_equal s x y) /\ (forall x y, are_comp s' x y = are_comp s x y).
Proof.
  intros H Ho Ha. apply history_says in H as [C H]. unfold set_equal.
  assert (Ec : are_comp s a a = false) by (apply not_true_is_false; rewrite (are_comp_spec s C); apply rel_consistent, C).
  rewrite Ec. destruct (are_equal s a a) eqn:E; [exists s; auto|].
  destruct Ha as [(y & Hy & R)|Ha].
  { exfalso. assert (K : are_equal s a a = true) by (apply (self_in_block s a C); exists y; split; [exact Hy | apply H, R]). congruence. }
  assert (G := get_comp_spec s C order a Ho). destruct (get_comp order s a) as [ac|].
  { destruct (Ha ac). apply H, G. }
  destruct (merge_Z (equal_part s) a a (c_wf s C) (c_dom s C) (c_lab s C)) as (p' & Ep & W' & D' & L' & T).
  exists (mkSPC p' (comp_pairs s)). split.
  { unfold set_equal_no_comp, spc_do, act_merge. cbn [fold_left]. rewrite Ep. reflexivity. }
  assert (Ts : forall x y, same (sp_blocks p') x y <-> same (sp_blocks (equal_part s)) x y).
  { intros x y. rewrite T. unfold Proof_SetPartMerge.joined. assert (N := wf_nodup _ (c_wf s C)).
    split; [intros [K|[[K1 K2]|[K1 K2]]]; eauto using same_trans | auto]. }
  assert (Eb : sp_blocks p' = sp_blocks (equal_part s)).
  { apply canonical_ext; [apply W' | apply (c_wf s C)|]. intros x y Hxy. specialize (Ts x y). unfold same in Ts. tauto. }
  assert (R : forall z, rep p' z = rep (equal_part s) z).
  { intro z. apply rep_ext; [exact W' | apply (c_wf s C) | intro; apply Ts]. }
  split; intros x y; apply eq_true_iff_eq.
  - rewrite (are_equal_spec s C). etransitivity; [apply (pair_in_same_block_spec p' W')|]. rewrite Eb. reflexivity.
  - unfold are_comp. rewrite !(s_repr s C), !(spc_repr_rep p' W'), !R. reflexivity.
Qed.

(** For a lone element with a complement the call fails with a KeyError and the complement
    is forgotten. *)
Theorem C47_set_equal_self_loses order s st a y : history s st -> (forall l, Permutation (order l) l) ->
  (forall z, forced st a z false -> z = a) -> forced st a y true ->
  exists s', set_equal order s a a = (s', Some KeyErr) /\
    are_comp s a y = true /\ forall z, are_comp s' a z = false.
Proof.
  intros H Ho Ha Hy. apply history_says in H as [C H].
  assert (E : are_equal s a a = false).
  { apply not_true_is_false. rewrite (self_in_block s a C). intros (z & Hz & R). apply H, Ha in R. congruence. }
  assert (G := get_comp_spec s C order a Ho). destruct (get_comp order s a) as [ac|] eqn:Eg; [|apply H in Hy; destruct (G y Hy)].
  destruct (self_call order s a false ac Ho C E Eg) as (s' & E' & Ep & Hp). exists s'. split; [exact E'|].
  split; [apply (are_comp_spec s C), H, Hy|]. intro z. apply not_true_is_false. intro K.
  destruct s' as [p' cps']. cbn [equal_part comp_pairs] in Ep, Hp. subst p'.
  unfold are_comp in K. rewrite !(spc_repr_rep _ (c_wf s C)) in K. apply Proof_SetPartLattice.pair_memb_In in K.
  cbn [comp_pairs] in K. destruct (pair_sorted (rep (equal_part s) a) (rep (equal_part s) z)) as [u v] eqn:F.
  apply Hp in K as [K1 K2]. apply K2. apply (own_pair s C a ac u v (proj1 G) (proj2 G) K1).
  destruct (pair_sorted_cases (rep (equal_part s) a) (rep (equal_part s) z)) as [[F' _]|[F' _]]; rewrite F' in F; injection F as <- <-.
  - exists false. apply same_sym, rep_same, (c_wf s C).
  - exists true. rewrite <- F' in K1. assert (Rz : rel s a z true) by exact K1.
    apply (rel_trans s C _ z _ false true); [apply same_sym, rep_same, (c_wf s C) | apply rel_sym, Rz].
Qed.

Theorem C47_set_equal_self_refuted : exists s st s' e,
  history s st /\ set_equal id_order s 7 7 = (s', Some e) /\ are_comp s 7 8 = true /\ are_comp s' 7 8 = false.
Proof.
  destruct empty_history as (s0 & E0 & H0). injection E0 as <-.
  eexists _, _, _, _. split.
  - eapply (hist_ok id_order _ _ 7 8 true _ H0 id_order_ok); [discriminate | reflexivity].
  - repeat split.
Qed.

(** ** C48 *)

(** Derived values in terms of the accepted statements. *)
Theorem C48_derived order s st : history s st -> (forall l, Permutation (order l) l) ->
  (* get_block, get_repr *)
  (forall x, StronglySorted Z.lt (get_block s x) /\ forall y, In y (get_block s x) <-> forced st x y false) /\
  (forall x, forced st x (get_repr s x) false /\ forall y, forced st x y false -> get_repr s x <= y) /\
  (* get_comp: the smallest complement, or None *)
  (forall x, match get_comp order s x with
             | Some y => forced st x y true /\ forall z, forced st x z true -> y <= z
             | None => forall z, ~ forced st x z true
             end) /\
  (* all_complement_pairs *)
  (NoDup (all_complement_pairs s) /\ forall x y, In (x, y) (all_complement_pairs s) <-> x < y /\ forced st x y true) /\
  (* related_part *)
  (exists r, related_part order s = Ok r /\ canonical (sp_blocks r) /\
     forall x y, same (sp_blocks r) x y <-> exists c, forced st x y c) /\
  (* affected_elements *)
  (exists l, affected_elements order s = Ok l /\ StronglySorted Z.lt l /\
     forall x, In x l <-> exists y c, y <> x /\ forced st x y c) /\
  (* length *)
  match spc_length order s with
  | Ok m => (exists y c, y <> m - 1 /\ forced st (m - 1) y c) /\ forall x y c, y <> x -> forced st x y c -> x < m
  | Err e => e = ValueErr /\ forall x y c, forced st x y c -> x = y
  end.
Proof.
  intros H Ho. apply history_says in H as [C H]. split; [|split; [|split; [|split; [|split; [|split]]]]].
  - intro x. split; [apply get_block_sorted, C|]. intro y. rewrite (get_block_In s C). apply H.
  - intro x. destruct (get_repr_spec s C x) as [R1 R2]. split; [apply H, R1|]. intros y R. apply R2, H, R.
  - intro x. assert (G := get_comp_spec s C order x Ho). destruct (get_comp order s x) as [y|].
    + destruct G as [G1 G2]. split; [apply H, G1|]. intros z R. apply H in R.
      assert (Ryz : rel s y z false) by exact (rel_trans s C _ _ _ _ _ (rel_sym s _ _ _ G1) R).
      apply (element_to_block_In _ (c_wf s C)) in Ryz. rewrite <- G2. unfold rep.
      assert (St := element_to_block_sorted _ (c_wf s C) y).
      destruct (element_to_block (equal_part s) y) as [|u l]; [destruct Ryz|]. cbn [hd]. inversion St as [|? ? _ F]; subst.
      rewrite Forall_forall in F. destruct Ryz as [<-|Ryz]; [lia|]. apply F in Ryz. lia.
    + intros z R. apply H in R. destruct (G z R).
  - destruct (all_complement_pairs_spec s C) as [N A]. split; [exact N|]. intros x y. rewrite A, H. reflexivity.
  - destruct (related_part_spec s C order Ho) as (r & E & W & T). exists r. split; [exact E|]. split; [apply W|].
    intros x y. rewrite T. split; intros [c R]; exists c; apply H, R.
  - destruct (affected_elements_spec s C order Ho) as (l & E & S & T). exists l. split; [exact E|]. split; [exact S|].
    intro x. rewrite T. split; intros (y & c & Hy & R); exists y, c; (split; [exact Hy | apply H, R]).
  - assert (K := spc_length_spec s C order Ho). destruct (spc_length order s) as [m|e].
    + destruct K as [(y & c & Hy & R) K]. split; [exists y, c; split; [exact Hy | apply H, R]|].
      intros x z d Hz R'. apply (K x z d Hz), H, R'.
    + destruct K as [K1 K2]. split; [exact K1|]. intros x y c R. apply (K2 x y c), H, R.
Qed.

(** Objects are equal iff the statements given to them have the same consequences. *)
Theorem C48_equality s st o st' : history s st -> history o st' ->
  exists b, spc_eq s o = Ok b /\ (b = true <-> forall x y c, forced st x y c <-> forced st' x y c).
Proof.
  intros H H'. apply history_says in H as [C H], H' as [C' H']. destruct (spc_eq_spec s C o C') as (b & E & Hb).
  exists b. split; [exact E|]. rewrite Hb. split; intros K x y c.
  - rewrite <- H, <- H'. apply K.
  - rewrite H, H'. apply K.
Qed.

Example C48_ex : exists s, SetPartComp (Some [[1; 2]; [3; 4]]) (Some [(4, 2); (6, -5)]) = Ok s /\
  get_comp id_order s 4 = Some 1 /\ get_comp (@rev _) s 4 = Some 1 /\ get_comp id_order s 9 = None /\
  all_complement_pairs s = [(1, 3); (1, 4); (2, 3); (2, 4); (-5, 6)] /\
  affected_elements id_order s = Ok [-5; 1; 2; 3; 4; 6] /\ spc_length id_order s = Ok 7 /\
  exists r, related_part id_order s = Ok r /\ sp_blocks r = [[-5; 6]; [1; 2; 3; 4]].
Proof. eexists. repeat (split; [reflexivity|]). eexists. split; reflexivity. Qed.

Print Assumptions C24_reported.
Print Assumptions C24_semantic.
Print Assumptions C24_calls.
Print Assumptions C25_set_comp_self.
Print Assumptions C25_set_comp_self_refuted.
Print Assumptions C26_int_matches.
Print Assumptions C46_constructor.
Print Assumptions C46_constructor_refuted.
Print Assumptions C47_set_equal_self.
Print Assumptions C47_set_equal_self_loses.
Print Assumptions C47_set_equal_self_refuted.
Print Assumptions C48_derived.
Print Assumptions C48_equality.
