(** Proof_SetPartComp: histories of set_equal and set_comp. *)

From Coq Require Import List Arith ZArith Bool Lia Permutation Sorting.Sorted Relations.
From Verif Require Import Model_Base Lib Model_SetPart Model_SetPartComp Spec_SetPart Spec_SetPartComp
  Proof_SetPart Proof_SetPartMerge Proof_SetPartMore Proof_SetPartLattice.
Import ListNotations.
Open Scope Z_scope.

(** * pairs *)

Lemma pair_eqb_eq p q : pair_eqb p q = true <-> p = q.
Proof.
  destruct p, q. unfold pair_eqb. cbn. rewrite andb_true_iff, !Z.eqb_eq. split; [intros [-> ->]; reflexivity | intros [= -> ->]; auto].
Qed.
Lemma pairs_add_In l p q : In q (pairs_add l p) <-> In q l \/ q = p.
Proof.
  unfold pairs_add. destruct (pair_memb p l) eqn:E.
  - apply pair_memb_In in E. split; [auto | intros [H | ->]; auto].
  - rewrite in_app_iff. cbn. intuition.
Qed.
Lemma pairs_add_NoDup l p : NoDup l -> NoDup (pairs_add l p).
Proof.
  intro H. unfold pairs_add. destruct (pair_memb p l) eqn:E; [exact H|].
  apply NoDup_app_intro'; [exact H | repeat constructor; intros [] |].
  intros x Hx [<-|[]]. apply pair_memb_In in Hx. congruence.
Qed.
Lemma pair_sorted_sym a b : pair_sorted a b = pair_sorted b a.
Proof.
  unfold pair_sorted. destruct (Z.leb_spec a b), (Z.leb_spec b a); try reflexivity; [|lia].
  assert (a = b) by lia. subst. reflexivity.
Qed.
Lemma pair_sorted_cases a b : (pair_sorted a b = (a, b) /\ a <= b) \/ (pair_sorted a b = (b, a) /\ b < a).
Proof. unfold pair_sorted. destruct (Z.leb_spec a b); auto. Qed.
Lemma pair_sorted_lt a b : a < b -> pair_sorted a b = (a, b).
Proof. intro H. unfold pair_sorted. destruct (Z.leb_spec a b); [reflexivity | lia]. Qed.
Lemma pair_sorted_eq a b c d : pair_sorted a b = pair_sorted c d -> (a = c /\ b = d) \/ (a = d /\ b = c).
Proof.
  destruct (pair_sorted_cases a b) as [[-> _]|[-> _]], (pair_sorted_cases c d) as [[-> _]|[-> _]];
    intros [= -> ->]; auto.
Qed.

(** * The invariant *)

Definition rep (p : setpart) (x : Z) : Z := hd 0 (element_to_block p x).

Section Rep.
  Variable p : setpart.
  Hypothesis W : sp_wf p.
  Lemma rep_same x : same (sp_blocks p) x (rep p x).
  Proof using W.
    apply (element_to_block_In p W). unfold rep.
    assert (H : In x (element_to_block p x)) by (apply (element_to_block_In p W); left; reflexivity).
    destruct (element_to_block p x); [destruct H | left; reflexivity].
  Qed.
  Lemma rep_iff x y : rep p x = rep p y <-> same (sp_blocks p) x y.
  Proof using W.
    split.
    - intro H. eapply same_trans; [apply wf_nodup, W | apply rep_same|]. rewrite H. apply same_sym, rep_same.
    - intro H. unfold rep. apply (element_to_block_eq p W) in H. rewrite H. reflexivity.
  Qed.
  Lemma rep_rep x : rep p (rep p x) = rep p x.
  Proof using W. apply rep_iff, same_sym, rep_same. Qed.
  Lemma spc_repr_rep cps x : spc_repr (mkSPC p cps) x = rep p x.
  Proof using W.
    unfold spc_repr, rep. cbn [equal_part]. assert (S := element_to_block_sorted p W x).
    destruct (element_to_block p x) as [|y l] eqn:E.
    - exfalso. assert (H : In x (element_to_block p x)) by (apply (element_to_block_In p W); left; reflexivity).
      rewrite E in H. destruct H.
    - destruct (zmin_list_spec l y) as [M1 M2]. cbn [hd].
      assert (H := M2 y (or_introl eq_refl)). assert (H' := sorted_hd_le (y :: l) (zmin_list y l) S M1). cbn [hd] in H'. lia.
  Qed.
End Rep.

Lemma rep_ext p q x : sp_wf p -> sp_wf q -> (forall z, same (sp_blocks p) x z <-> same (sp_blocks q) x z) -> rep p x = rep q x.
Proof.
  intros Wp Wq H. unfold rep. f_equal. apply zsorted_ext; try apply element_to_block_sorted; try assumption.
  intro z. rewrite (element_to_block_In p Wp), (element_to_block_In q Wq). apply H.
Qed.

Record cwf (s : spc) : Prop := mk_cwf {
  c_wf : sp_wf (equal_part s);
  c_dom : sp_domain (equal_part s) = DomZ;
  c_lab : sp_labels (equal_part s) = [];
  c_nodup : NoDup (comp_pairs s);
  c_canon : forall u v, In (u, v) (comp_pairs s) -> u < v /\ rep (equal_part s) u = u /\ rep (equal_part s) v = v;
  c_uniq : forall u v u' v', In (u, v) (comp_pairs s) -> In (u', v') (comp_pairs s) ->
             u = u' \/ u = v' \/ v = u' \/ v = v' -> u = u' /\ v = v'
}.

(** what the object says about two elements *)
Definition rel (s : spc) (x y : Z) (c : bool) : Prop :=
  if c then In (pair_sorted (rep (equal_part s) x) (rep (equal_part s) y)) (comp_pairs s)
  else same (sp_blocks (equal_part s)) x y.

Section Rel.
  Variable s : spc.
  Hypothesis C : cwf s.
  Let p := equal_part s.

  Lemma s_repr x : spc_repr s x = rep p x.
  Proof using C. destruct s as [q cps]. apply spc_repr_rep. apply (c_wf _ C). Qed.

  Lemma rel_refl x : rel s x x false.
  Proof using. left. reflexivity. Qed.
  Lemma rel_sym x y c : rel s x y c -> rel s y x c.
  Proof using. destruct c; cbn; [rewrite pair_sorted_sym; auto | apply same_sym]. Qed.
  Lemma rel_true_pair x y : rel s x y true -> exists u v, In (u, v) (comp_pairs s) /\ u < v /\
    ((rep p x = u /\ rep p y = v) \/ (rep p x = v /\ rep p y = u)).
  Proof using C.
    cbn. intro H. destruct (pair_sorted_cases (rep (equal_part s) x) (rep (equal_part s) y)) as [[E _]|[E _]];
      rewrite E in H; destruct (c_canon s C _ _ H); eauto 8.
  Qed.
  Lemma rel_trans x y z c d : rel s x y c -> rel s y z d -> rel s x z (xorb c d).
  Proof using C.
    assert (W := c_wf s C). destruct c, d; cbn [xorb].
    - intros H1 H2. apply rel_true_pair in H1 as (u & v & H1 & L1 & E1). apply rel_true_pair in H2 as (u' & v' & H2 & L2 & E2).
      fold p. cbn. apply (rep_iff p W). destruct (c_uniq s C u v u' v' H1 H2) as [-> ->].
      { intuition congruence. }
      destruct E1 as [[E1 E1']|[E1 E1']], E2 as [[E2 E2']|[E2 E2']]; try congruence; lia.
    - cbn. intros H1 H2. apply (rep_iff (equal_part s) W) in H2. rewrite <- H2. exact H1.
    - cbn. intros H1 H2. apply (rep_iff (equal_part s) W) in H1. rewrite H1. exact H2.
    - cbn. apply same_trans, wf_nodup, W.
  Qed.
  Lemma rel_consistent x : ~ rel s x x true.
  Proof using C. intro H. apply rel_true_pair in H as (u & v & _ & L & [[? ?]|[? ?]]); lia. Qed.
  Lemma rel_unique x y c d : rel s x y c -> rel s x y d -> c = d.
  Proof using C.
    intros H1 H2. assert (H := rel_trans x y x c d H1 (rel_sym _ _ _ H2)).
    destruct c, d; auto; cbn in H; exfalso; eapply rel_consistent; eassumption.
  Qed.

  Lemma are_comp_spec a b : are_comp s a b = true <-> rel s a b true.
  Proof using C. unfold are_comp. rewrite !s_repr. apply pair_memb_In. Qed.
  Lemma are_equal_spec a b : are_equal s a b = true <-> together (sp_blocks p) a b.
  Proof using C. apply (pair_in_same_block_spec p (c_wf s C)). Qed.

  Lemma get_comp_loop_spec x cands : (forall q e, In (q, e) cands -> In q (comp_pairs s) /\ (e = fst q \/ e = snd q)) ->
    match get_comp_loop s x cands with
    | Some y => rel s x y true /\ rep p y = y
    | None => forall q e, In (q, e) cands -> ~ same (sp_blocks p) x e
    end.
  Proof using C.
    assert (W := c_wf s C).
    induction cands as [|[[u v] e] cands IH]; intro H; cbn [get_comp_loop]; [intros q e []|].
    destruct (zmemb x (element_to_block (equal_part s) e)) eqn:E.
    - apply zmemb_In, (element_to_block_In _ W) in E. apply same_sym in E.
      destruct (H (u, v) e (or_introl eq_refl)) as [Hin He]. destruct (c_canon s C u v Hin) as (L & Ru & Rv).
      apply (rep_iff _ W) in E. unfold other_element_in_pair. cbn [fst snd] in *. unfold rel, p.
      destruct He as [->| ->].
      + rewrite Z.eqb_refl, E, Ru, Rv, pair_sorted_lt by lia. auto.
      + destruct (Z.eqb_spec u v); [lia|]. rewrite E, Ru, Rv, pair_sorted_sym, pair_sorted_lt by lia. auto.
    - specialize (IH (fun q e' Hq => H q e' (or_intror Hq))).
      destruct (get_comp_loop s x cands); [exact IH|].
      intros q e' [Eq|Hq] Hs; [injection Eq as <- <-|exact (IH q e' Hq Hs)].
      apply same_sym in Hs. apply (element_to_block_In _ W), zmemb_In in Hs. unfold p in Hs. rewrite Hs in E. discriminate.
  Qed.
  Lemma get_comp_spec order x : (forall l, Permutation (order l) l) ->
    match get_comp order s x with
    | Some y => rel s x y true /\ rep p y = y
    | None => forall y, ~ rel s x y true
    end.
  Proof using C.
    intro Ho. unfold get_comp. set (cands := flat_map _ _).
    assert (Hc : forall q e, In (q, e) cands <-> In q (comp_pairs s) /\ (e = fst q \/ e = snd q)).
    { intros q e. unfold cands. rewrite in_flat_map. split.
      - intros (r & Hr & [[= <- <-]|[[= <- <-]|[]]]); (split; [eapply Permutation_in; [apply Ho | exact Hr]|auto]).
      - intros [Hq He]. exists q. split; [eapply Permutation_in; [symmetry; apply Ho | exact Hq]|].
        destruct He as [->| ->]; cbn; auto. }
    assert (H := get_comp_loop_spec x cands (fun q e => proj1 (Hc q e))).
    destruct (get_comp_loop s x cands); [exact H|]. intros y Hy.
    assert (W := c_wf s C). apply rel_true_pair in Hy as (u & v & Hin & L & E). destruct (c_canon s C u v Hin) as (_ & Ru & Rv).
    destruct E as [[E _]|[E _]].
    - apply (H (u, v) u); [apply Hc; cbn; auto|]. apply (rep_iff p W). unfold p in *. congruence.
    - apply (H (u, v) v); [apply Hc; cbn; auto|]. apply (rep_iff p W). unfold p in *. congruence.
  Qed.
End Rel.

(** * One step *)

(** the relation after adding the statement (a, b, q) *)
Definition side (s : spc) (a b : Z) (q : bool) (x : Z) (c : bool) : Prop :=
  rel s x a c \/ rel s x b (xorb c q).
Definition added (s : spc) (a b : Z) (q : bool) (x y : Z) (c : bool) : Prop :=
  rel s x y c \/ exists c1 c2, side s a b q x c1 /\ side s a b q y c2 /\ c = xorb c1 c2.

Section Step.
  Variable s : spc.
  Hypothesis C : cwf s.
  Variables a b : Z.
  Variable q : bool.
  Hypothesis Hnot : forall c, ~ rel s a b c.
  Let S := side s a b q.

  Lemma side_unique x c d : S x c -> S x d -> c = d.
  Proof using C Hnot.
    intros [H1|H1] [H2|H2].
    - eapply rel_unique; eassumption.
    - exfalso. eapply Hnot. eapply rel_trans; [exact C | apply rel_sym, H1 | exact H2].
    - exfalso. eapply Hnot. eapply rel_trans; [exact C | apply rel_sym, H2 | exact H1].
    - assert (H := rel_unique s C _ _ _ _ H1 H2). destruct c, d, q; cbn in H; congruence.
  Qed.
  Lemma side_move x y c d : rel s x y c -> S y d -> S x (xorb c d).
  Proof using C.
    intros H [H1|H1]; [left | right].
    - eapply rel_trans; eassumption.
    - assert (G := rel_trans s C _ _ _ _ _ H H1). rewrite <- xorb_assoc in G. exact G.
  Qed.

  (** the new object: [x0], [y0] stand for the two sides, [new] says whether there is a
      second side *)
  Variable s' : spc.
  Hypothesis W' : sp_wf (equal_part s').
  Hypothesis D' : sp_domain (equal_part s') = DomZ.
  Hypothesis L' : sp_labels (equal_part s') = [].
  Hypothesis N' : NoDup (comp_pairs s').
  Hypothesis same' : forall x y, same (sp_blocks (equal_part s')) x y <->
    same (sp_blocks (equal_part s)) x y \/ exists c, S x c /\ S y c.
  Variables x0 y0 : Z.
  Variable new : bool.
  Hypothesis Hnew : if new then S x0 false /\ S y0 true else forall x, ~ S x true.
  Hypothesis pairs' : forall u v, In (u, v) (comp_pairs s') <->
    (In (u, v) (comp_pairs s) /\ forall c, ~ S u c) \/
    (new = true /\ (u, v) = pair_sorted (rep (equal_part s') x0) (rep (equal_part s') y0)).

  Let p := equal_part s.
  Let p' := equal_part s'.

  Lemma side_same' x y c : same (sp_blocks p') x y -> S x c -> S y c.
  Proof using C Hnot same'.
    intros H Hs. apply same' in H as [H|(d & H1 & H2)].
    - assert (G : S y (xorb false c)) by (eapply side_move; [apply rel_sym; exact H | exact Hs]). destruct c; exact G.
    - rewrite (side_unique x c d Hs H1). exact H2.
  Qed.
  Lemma rep_untouched x : (forall c, ~ S x c) -> rep p' x = rep p x.
  Proof using C Hnot W' same'.
    intro H. apply rep_ext; [exact W' | apply (c_wf s C)|]. intro z. unfold p, p'. rewrite same'. split; [|auto].
    intros [G|(c & G & _)]; [exact G | destruct (H c G)].
  Qed.
  Lemma side_rep' x c : S x c -> S (rep p' x) c.
  Proof using C Hnot W' same'. apply side_same'. apply rep_same, W'. Qed.

  Lemma pair_touched u v c : In (u, v) (comp_pairs s) -> S v c -> S u (negb c).
  Proof using C.
    intros H Hs. destruct (c_canon s C u v H) as (L & Ru & Rv).
    assert (R : rel s u v true) by (cbn; rewrite Ru, Rv, pair_sorted_lt by lia; exact H).
    assert (G := side_move u v true c R Hs). destruct c; exact G.
  Qed.

  Lemma new_pair u v : new = true -> (u, v) = pair_sorted (rep p' x0) (rep p' y0) ->
    u < v /\ rep p' u = u /\ rep p' v = v /\ (exists c, S u c) /\ (exists c, S v c).
  Proof using C Hnot W' same' Hnew.
    intros Hn E. assert (K := Hnew). rewrite Hn in K. clear pairs' Hnew. destruct K as [H0 H1]. apply side_rep' in H0, H1.
    assert (Hne : rep p' x0 <> rep p' y0).
    { intro F. rewrite F in H0. assert (G := side_unique _ _ _ H0 H1). discriminate. }
    destruct (pair_sorted_cases (rep p' x0) (rep p' y0)) as [[F L]|[F L]]; rewrite F in E; injection E as -> ->;
      rewrite !(rep_rep p' W'); repeat split; eauto; lia.
  Qed.

  Lemma step_cwf : cwf s'.
  Proof using C Hnot W' D' L' N' same' Hnew pairs'.
    constructor; try assumption.
    - intros u v H. apply pairs' in H as [[H Hu]|[Hn H]].
      + destruct (c_canon s C u v H) as (L & Ru & Rv). split; [exact L|]. fold p'.
        rewrite rep_untouched by exact Hu. rewrite rep_untouched; [exact (conj Ru Rv)|].
        intros c Hc. eapply Hu, pair_touched; eassumption.
      + apply new_pair in H; [|exact Hn]. intuition.
    - intros u v u' v' H H' E. apply pairs' in H, H'.
      destruct H as [[H Hu]|[Hn H]], H' as [[H' Hu']|[Hn' H']].
      + apply (c_uniq s C); assumption.
      + exfalso. apply new_pair in H' as (_ & _ & _ & [c Hc] & [d Hd]); [|exact Hn'].
        destruct E as [->|[->|[->| ->]]]; try (eapply Hu; eassumption); eapply Hu; eapply pair_touched; eassumption.
      + exfalso. apply new_pair in H as (_ & _ & _ & [c Hc] & [d Hd]); [|exact Hn].
        destruct E as [<-|[<-|[<-| <-]]]; try (eapply Hu'; eassumption); eapply Hu'; eapply pair_touched; eassumption.
      + rewrite <- H in H'. injection H' as -> ->. auto.
  Qed.

  Lemma step_rel x y c : rel s' x y c <-> added s a b q x y c.
  Proof using C Hnot W' same' Hnew pairs'.
    unfold added. fold S. destruct c.
    2:{ cbn [rel]. rewrite same'. split.
        - intros [H|(c & H1 & H2)]; [left; exact H | right; exists c, c; destruct c; auto].
        - intros [H|(c & d & H1 & H2 & E)]; [left; exact H | right; exists c].
          destruct c, d; try discriminate; auto. }
    unfold rel at 1. fold p'.
    assert (Rt : rel s x y true -> forall c, S x c -> S y (negb c)).
    { intros H c Hs. apply rel_sym in H. assert (G := side_move _ _ _ _ H Hs). destruct c; exact G. }
    assert (Rt' : rel s x y true -> forall c, S y c -> S x (negb c)).
    { intros H c Hs. assert (G := side_move _ _ _ _ H Hs). destruct c; exact G. }
    split.
    - intro H. destruct (pair_sorted (rep p' x) (rep p' y)) as [u v] eqn:E. apply pairs' in H as [[H Hu]|[Hn H]].
      + assert (Hv : forall c, ~ S v c) by (intros c Hc; eapply Hu, pair_touched; eassumption).
        assert (Hx : forall c, ~ S x c /\ ~ S y c).
        { destruct (pair_sorted_cases (rep p' x) (rep p' y)) as [[F _]|[F _]]; rewrite F in E; injection E as <- <-;
          intro c; split; intro G; apply side_rep' in G; firstorder. }
        left. change (In (pair_sorted (rep p x) (rep p y)) (comp_pairs s)).
        rewrite <- (rep_untouched x), <- (rep_untouched y), E by (intro c; apply Hx). exact H.
      + right. fold p' in H. rewrite <- E in H. rewrite Hn in Hnew. destruct Hnew as [S0 S1].
        apply pair_sorted_eq in H as [[E1 E2]|[E1 E2]].
        * exists false, true. apply (rep_iff p' W'), same_sym in E1. apply (rep_iff p' W'), same_sym in E2.
          repeat split; eapply side_same'; eassumption.
        * exists true, false. apply (rep_iff p' W'), same_sym in E1. apply (rep_iff p' W'), same_sym in E2.
          repeat split; eapply side_same'; eassumption.
    - intros H.
      assert (G : (exists c, S x c /\ S y (negb c)) -> In (pair_sorted (rep p' x) (rep p' y)) (comp_pairs s')).
      { intros (c & H1 & H2). destruct new.
        - destruct Hnew as [S0 S1].
          assert (E : pair_sorted (rep p' x) (rep p' y) = pair_sorted (rep p' x0) (rep p' y0)).
          { destruct c.
            - replace (rep p' x) with (rep p' y0) by (apply (rep_iff p' W'), same'; right; exists true; auto).
              replace (rep p' y) with (rep p' x0) by (apply (rep_iff p' W'), same'; right; exists false; auto).
              apply pair_sorted_sym.
            - replace (rep p' x) with (rep p' x0) by (apply (rep_iff p' W'), same'; right; exists false; auto).
              replace (rep p' y) with (rep p' y0) by (apply (rep_iff p' W'), same'; right; exists true; auto).
              reflexivity. }
          destruct (pair_sorted (rep p' x) (rep p' y)) as [u v] eqn:F. apply pairs'. right. split; [reflexivity | exact E].
        - exfalso. destruct c; eapply Hnew; eassumption. }
      destruct H as [H|(c & d & H1 & H2 & E)].
      2:{ apply G. exists c. split; [exact H1|]. destruct c, d; try discriminate; exact H2. }
      (* touched or not *)
      assert (Dec : (exists c, S x c) \/ forall c, ~ S x c).
      { unfold S, side.
        assert (R : forall u v c, rel s u v c \/ ~ rel s u v c).
        { intros u v [|]; cbn.
          - destruct (pair_memb (pair_sorted (rep (equal_part s) u) (rep (equal_part s) v)) (comp_pairs s)) eqn:Em;
              [left | right]; [|intro Hin]; apply pair_memb_In in Em || apply pair_memb_In in Hin; congruence || assumption.
          - destruct (Z.eq_dec (rep p u) (rep p v)) as [e|n]; [left | right]; [|intro Hs; apply n];
              apply (rep_iff p (c_wf s C)); assumption. }
        destruct (R x a false), (R x a true), (R x b false), (R x b true);
          try (left; exists false; cbn; tauto); try (left; exists true; cbn; tauto);
          try (left; destruct q; first [exists false; cbn; tauto | exists true; cbn; tauto]).
        right. intros [|] [?|?]; destruct q; cbn in *; tauto. }
      destruct Dec as [[c Hc]|Hn].
      + apply G. exists c. auto.
      + assert (Hny : forall c, ~ S y c) by (intros c Hc; eapply Hn, Rt'; eassumption).
        rewrite !rep_untouched by assumption.
        destruct (pair_sorted (rep p x) (rep p y)) as [u v] eqn:E. apply pairs'. left.
        change (In (pair_sorted (rep p x) (rep p y)) (comp_pairs s)) in H. rewrite E in H. split; [exact H|]. intros c Hc.
        destruct (pair_sorted_cases (rep p x) (rep p y)) as [[F _]|[F _]]; rewrite F in E; injection E as <- <-.
        * rewrite <- rep_untouched in Hc by assumption. eapply Hn. eapply side_same'; [|exact Hc]. apply same_sym, rep_same, W'.
        * rewrite <- (rep_untouched y) in Hc by assumption. eapply Hny. eapply side_same'; [|exact Hc]. apply same_sym, rep_same, W'.
  Qed.
End Step.

(** * The cases *)

Lemma merge_Z p u v : sp_wf p -> sp_domain p = DomZ -> sp_labels p = [] ->
  exists p', merge_pair p u v = (p', None) /\ sp_wf p' /\ sp_domain p' = DomZ /\ sp_labels p' = [] /\
    forall x y, same (sp_blocks p') x y <-> joined (same (sp_blocks p)) u v x y.
Proof.
  intros W D L. destruct (merge_pair_spec p u v W) as (p' & e & E & W' & D' & L' & T & _). exists p'.
  destruct e as [e|].
  - destruct T as (_ & _ & [[_ [T|T]]|(_ & _ & T)]); [| |contradiction];
      unfold element_in_domain in T; rewrite D in T; discriminate.
  - split; [exact E|]. split; [exact W'|]. split; [congruence|]. split; [auto | exact T].
Qed.

Lemma pairs_remove_spec l p : In p l -> exists l', pairs_remove l p = Ok l' /\ (NoDup l -> NoDup l') /\
  forall x, In x l' <-> In x l /\ x <> p.
Proof.
  intro H. unfold pairs_remove. apply pair_memb_In in H. rewrite H. eexists. split; [reflexivity|]. split.
  - apply NoDup_filter.
  - intro x. rewrite filter_In, negb_true_iff. split; intros [H1 H2]; (split; [exact H1|]).
    + intros ->. assert (E : pair_eqb p p = true) by (apply pair_eqb_eq; reflexivity). congruence.
    + destruct (pair_eqb p x) eqn:E; [|reflexivity]. apply pair_eqb_eq in E. congruence.
Qed.

Lemma joined_swap (R : Z -> Z -> Prop) u v x y : joined R u v x y <-> joined R v u x y.
Proof. unfold joined. tauto. Qed.

Section Cases.
  Variable s : spc.
  Hypothesis C : cwf s.
  Let p := equal_part s.

  Lemma rel_comp_iff x a ac c : rel s a ac true -> rel s x a c <-> rel s x ac (negb c).
  Proof using C.
    intro H. split; intro G.
    - assert (K := rel_trans s C _ _ _ _ _ G H). destruct c; exact K.
    - assert (K := rel_trans s C _ _ _ _ _ G (rel_sym s _ _ _ H)). destruct c; exact K.
  Qed.
  Lemma pair_rel u v : In (u, v) (comp_pairs s) -> rel s u v true.
  Proof using C. intro H. destruct (c_canon s C u v H) as (L & Ru & Rv). cbn. rewrite Ru, Rv, pair_sorted_lt by lia. exact H. Qed.
  Lemma own_pair_In a ac : rel s a ac true -> rep p ac = ac -> In (pair_sorted (rep p a) ac) (comp_pairs s).
  Proof using. intros H R. cbn in H. fold p in H. rewrite R in H. exact H. Qed.
  Lemma own_pair a ac u v : rel s a ac true -> rep p ac = ac -> In (u, v) (comp_pairs s) ->
    (u, v) = pair_sorted (rep p a) ac <-> exists c, rel s u a c.
  Proof using C.
    assert (W := c_wf s C). intros H R Hin. destruct (c_canon s C u v Hin) as (L & Ru & Rv). fold p in Ru, Rv, W. split.
    - intro E. destruct (pair_sorted_cases (rep p a) ac) as [[F _]|[F _]]; rewrite F in E; injection E as -> ->.
      + exists false. apply same_sym, (rep_same _ W).
      + exists true. apply rel_sym, H.
    - intros [c Hc]. assert (Huv := pair_rel u v Hin). assert (Hac := own_pair_In a ac H R).
      destruct (pair_sorted (rep p a) ac) as [u' v'] eqn:E.
      destruct (c_uniq s C u v u' v' Hin Hac) as [-> ->]; [|reflexivity].
      destruct c.
      + apply (rel_comp_iff _ _ _ _ H) in Hc. cbn in Hc. apply (rep_iff _ W) in Hc.
        destruct (pair_sorted_cases (rep p a) ac) as [[F _]|[F _]]; rewrite F in E; injection E as <- <-; intuition congruence.
      + cbn in Hc. apply (rep_iff _ W) in Hc.
        destruct (pair_sorted_cases (rep p a) ac) as [[F _]|[F _]]; rewrite F in E; injection E as <- <-; intuition congruence.
  Qed.
  Lemma no_pair a u v c : (forall y, ~ rel s a y true) -> In (u, v) (comp_pairs s) -> ~ rel s u a c.
  Proof using C.
    intros H Hin Hc. assert (Huv := pair_rel u v Hin). destruct c.
    - apply (H u), rel_sym, Hc.
    - apply (H v). apply rel_sym in Hc. exact (rel_trans s C _ _ _ _ _ Hc Huv).
  Qed.

  Variables a b : Z.
  Hypothesis Hnot : forall c, ~ rel s a b c.

  Let result (op : spc * option exn) (q : bool) : Prop :=
    exists s', op = (s', None) /\ cwf s' /\ forall x y c, rel s' x y c <-> added s a b q x y c.

  Hypothesis Nn : NoDup (comp_pairs s).

  (** set_equal, no complements *)
  Lemma case_equal_none : (forall y, ~ rel s a y true) -> (forall y, ~ rel s b y true) ->
    result (set_equal_no_comp s a b) false.
  Proof using C Hnot.
    intros Ha Hb. destruct (merge_Z p a b (c_wf s C) (c_dom s C) (c_lab s C)) as (p' & E & W' & D' & L' & T).
    exists (mkSPC p' (comp_pairs s)). split.
    { unfold set_equal_no_comp, spc_do. cbn [fold_left]. unfold act_merge. fold p. rewrite E. reflexivity. }
    assert (S0 : forall x, side s a b false x false <-> same (sp_blocks p) x a \/ same (sp_blocks p) x b).
    { intro x. unfold side. cbn. reflexivity. }
    assert (S1 : forall x, ~ side s a b false x true).
    { intros x [H|H]; [apply (Ha x) | apply (Hb x)]; apply rel_sym, H. }
    assert (Hs : forall x y, same (sp_blocks p') x y <->
       same (sp_blocks p) x y \/ exists c, side s a b false x c /\ side s a b false y c).
    { intros x y. rewrite T. unfold joined. split.
      - intros [H|[[H1 H2]|[H1 H2]]]; [left; exact H | |]; right; exists false; rewrite !S0; auto using same_sym.
      - intros [H|([|] & H1 & H2)]; [auto | destruct (S1 _ H1) |]. rewrite S0 in H1, H2.
        assert (N := wf_nodup p (c_wf s C)).
        destruct H1 as [H1|H1], H2 as [H2|H2]; eauto using same_trans, same_sym. }
    assert (Hp : forall u v, In (u, v) (comp_pairs s) <->
       (In (u, v) (comp_pairs s) /\ forall c, ~ side s a b false u c) \/
       (false = true /\ (u, v) = pair_sorted (rep p' 0) (rep p' 0))).
    { intros u v. split; [|intros [[H _]|[F _]]; [exact H | discriminate]]. intro H. left. split; [exact H|].
      intros c [G|G]; eapply no_pair in G; eauto. }
    split.
    - exact (step_cwf s C a b false Hnot (mkSPC p' (comp_pairs s)) W' D' L' (c_nodup s C) Hs 0 0 false S1 Hp).
    - exact (step_rel s C a b false Hnot (mkSPC p' (comp_pairs s)) W' Hs 0 0 false S1 Hp).
  Qed.

  Lemma add_repr p0 l u v : sp_wf p0 ->
    act_add u v (mkSPC p0 l) = (mkSPC p0 (pairs_add l (pair_sorted (rep p0 u) (rep p0 v))), None).
  Proof using. intro W. unfold act_add. rewrite !spc_repr_rep by exact W. reflexivity. Qed.

  (** set_equal, complement of the first *)
  Lemma case_equal_first ac : rel s a ac true -> rep p ac = ac -> (forall y, ~ rel s b y true) ->
    result (set_equal_first_comp s a b ac) false.
  Proof using C Hnot Nn.
    intros Ha Ra Hb. destruct (merge_Z p a b (c_wf s C) (c_dom s C) (c_lab s C)) as (p' & E & W' & D' & L' & T).
    destruct (pairs_remove_spec (comp_pairs s) _ (own_pair_In a ac Ha Ra)) as (l & El & Nl & Hl).
    exists (mkSPC p' (pairs_add l (pair_sorted (rep p' a) (rep p' ac)))). split.
    { unfold set_equal_first_comp, spc_do. cbn [fold_left]. unfold act_remove. rewrite (s_repr s C). fold p. rewrite El.
      unfold act_merge. cbn [equal_part comp_pairs]. fold p. rewrite E. apply add_repr, W'. }
    assert (S0 : forall x, side s a b false x false <-> same (sp_blocks p) x a \/ same (sp_blocks p) x b).
    { intro x. unfold side. cbn. reflexivity. }
    assert (S1 : forall x, side s a b false x true <-> same (sp_blocks p) x ac).
    { intro x. unfold side. split.
      - intros [H|H]; [|destruct (Hb x); apply rel_sym, H]. apply (rel_comp_iff _ _ _ _ Ha) in H. exact H.
      - intro H. left. apply (rel_comp_iff _ _ _ _ Ha). exact H. }
    assert (N := wf_nodup p (c_wf s C)).
    assert (Hs : forall x y, same (sp_blocks p') x y <->
       same (sp_blocks p) x y \/ exists c, side s a b false x c /\ side s a b false y c).
    { intros x y. rewrite T. unfold joined. split.
      - intros [H|[[H1 H2]|[H1 H2]]]; [left; exact H | |]; right; exists false; rewrite !S0; auto using same_sym.
      - intros [H|([|] & H1 & H2)]; [auto | |].
        + rewrite S1 in H1, H2. eauto using same_trans, same_sym.
        + rewrite S0 in H1, H2. destruct H1 as [H1|H1], H2 as [H2|H2]; eauto using same_trans, same_sym. }
    assert (Hn : if true then side s a b false a false /\ side s a b false ac true else forall x, ~ side s a b false x true).
    { rewrite S0, S1. split; [left|]; left; reflexivity. }
    set (s' := mkSPC p' (pairs_add l (pair_sorted (rep p' a) (rep p' ac)))).
    assert (Hp : forall u v, In (u, v) (comp_pairs s') <->
       (In (u, v) (comp_pairs s) /\ forall c, ~ side s a b false u c) \/
       (true = true /\ (u, v) = pair_sorted (rep p' a) (rep p' ac))).
    { intros u v. unfold s'. cbn [comp_pairs]. rewrite pairs_add_In, Hl. split.
      - intros [[H1 H2]|H]; [left|right; auto]. split; [exact H1|]. intros c [G|G].
        + apply H2, (own_pair a ac u v Ha Ra H1). eauto.
        + exact (no_pair b u v _ Hb H1 G).
      - intros [[H1 H2]|[_ H]]; [left|right; exact H]. split; [exact H1|]. intro F.
        apply (own_pair a ac u v Ha Ra H1) in F as [c F]. apply (H2 c). left. exact F. }
    assert (N' : NoDup (comp_pairs s')) by (apply pairs_add_NoDup, Nl, Nn).
    split.
    - exact (step_cwf s C a b false Hnot s' W' D' L' N' Hs a ac true Hn Hp).
    - exact (step_rel s C a b false Hnot s' W' Hs a ac true Hn Hp).
  Qed.

  Lemma joined2_iff (R : Z -> Z -> Prop) u v u' v' x y (E : forall z, R z z) (Sy : forall z w, R z w -> R w z)
      (Tr : forall z w t, R z w -> R w t -> R z t) :
    (forall z, (R z u \/ R z v) -> ~ (R z u' \/ R z v')) ->
    joined (joined R u v) u' v' x y <-> R x y \/ ((R x u \/ R x v) /\ (R y u \/ R y v)) \/ ((R x u' \/ R x v') /\ (R y u' \/ R y v')).
  Proof using.
    intros Hd. unfold joined.
    assert (Dx : forall z, R z u -> R z u' -> False) by (intros z ? ?; apply (Hd z); auto).
    assert (Dy : forall z, R z u -> R z v' -> False) by (intros z ? ?; apply (Hd z); auto).
    assert (Dz : forall z, R z v -> R z u' -> False) by (intros z ? ?; apply (Hd z); auto).
    assert (Dw : forall z, R z v -> R z v' -> False) by (intros z ? ?; apply (Hd z); auto).
    split.
    - intros [[H|[[H1 H2]|[H1 H2]]]|[[[H|[[H1 H2]|[H1 H2]]] [H'|[[H1' H2']|[H1' H2']]]]|[[H|[[H1 H2]|[H1 H2]]] [H'|[[H1' H2']|[H1' H2']]]]]];
        try (exfalso; eauto; fail); eauto 8.
      all: try (right; right; split; eauto; fail).
      all: try (right; left; split; eauto; fail).
      all: try (exfalso; first [eapply Dx; [|solve [eauto]]; solve [eauto] | eapply Dy; [|solve [eauto]]; solve [eauto]
                 | eapply Dz; [|solve [eauto]]; solve [eauto] | eapply Dw; [|solve [eauto]]; solve [eauto]]).
    - intros [H|[[[H1|H1] [H2|H2]]|[[H1|H1] [H2|H2]]]]; eauto 10.
  Qed.

  (** set_comp, no complements *)
  Lemma case_comp_none : (forall y, ~ rel s a y true) -> (forall y, ~ rel s b y true) ->
    result (set_comp_no_comp s a b) true.
  Proof using C Hnot Nn.
    intros Ha Hb. assert (W := c_wf s C). assert (N := wf_nodup p W).
    set (s' := mkSPC p (pairs_add (comp_pairs s) (pair_sorted (rep p a) (rep p b)))).
    exists s'. split.
    { unfold set_comp_no_comp, spc_do. cbn [fold_left]. unfold act_add. rewrite !(s_repr s C). reflexivity. }
    assert (S0 : forall x, side s a b true x false <-> same (sp_blocks p) x a).
    { intro x. unfold side. split; [|intro H; left; exact H]. intros [H|H]; [exact H|].
      destruct (Hb x). apply rel_sym, H. }
    assert (S1 : forall x, side s a b true x true <-> same (sp_blocks p) x b).
    { intro x. unfold side. split; [|intro H; right; exact H]. intros [H|H]; [|exact H].
      destruct (Ha x). apply rel_sym, H. }
    assert (Hs : forall x y, same (sp_blocks p) x y <->
       same (sp_blocks p) x y \/ exists c, side s a b true x c /\ side s a b true y c).
    { intros x y. split; [auto|]. intros [H|([|] & H1 & H2)]; [exact H| |];
        rewrite ?S0, ?S1 in H1, H2; eauto using same_trans, same_sym. }
    assert (Hn : if true then side s a b true a false /\ side s a b true b true else forall x, ~ side s a b true x true).
    { rewrite S0, S1. split; left; reflexivity. }
    assert (Hp : forall u v, In (u, v) (comp_pairs s') <->
       (In (u, v) (comp_pairs s) /\ forall c, ~ side s a b true u c) \/
       (true = true /\ (u, v) = pair_sorted (rep p a) (rep p b))).
    { intros u v. unfold s'. cbn [comp_pairs]. rewrite pairs_add_In. split.
      - intros [H|H]; [left|right; auto]. split; [exact H|].
        intros c [G|G]; eapply no_pair in G; eauto.
      - intros [[H _]|[_ H]]; auto. }
    assert (N' : NoDup (comp_pairs s')) by (apply pairs_add_NoDup, Nn).
    split.
    - exact (step_cwf s C a b true Hnot s' W (c_dom s C) (c_lab s C) N' Hs a b true Hn Hp).
    - exact (step_rel s C a b true Hnot s' W Hs a b true Hn Hp).
  Qed.

  (** set_comp, complement of the first *)
  Lemma case_comp_first ac : rel s a ac true -> rep p ac = ac -> (forall y, ~ rel s b y true) ->
    result (set_comp_first_comp s a b ac) true.
  Proof using C Hnot Nn.
    intros Ha Ra Hb. destruct (merge_Z p ac b (c_wf s C) (c_dom s C) (c_lab s C)) as (p' & E & W' & D' & L' & T).
    destruct (pairs_remove_spec (comp_pairs s) _ (own_pair_In a ac Ha Ra)) as (l & El & Nl & Hl).
    set (s' := mkSPC p' (pairs_add l (pair_sorted (rep p' a) (rep p' b)))).
    exists s'. split.
    { unfold set_comp_first_comp, spc_do. cbn [fold_left]. unfold act_remove. rewrite (s_repr s C). fold p. rewrite El.
      unfold act_merge. cbn [equal_part comp_pairs]. fold p. rewrite E. apply add_repr, W'. }
    assert (S0 : forall x, side s a b true x false <-> same (sp_blocks p) x a).
    { intro x. unfold side. split; [|intro H; left; exact H]. intros [H|H]; [exact H|].
      destruct (Hb x). apply rel_sym, H. }
    assert (S1 : forall x, side s a b true x true <-> same (sp_blocks p) x ac \/ same (sp_blocks p) x b).
    { intro x. unfold side. rewrite (rel_comp_iff x _ _ true Ha). reflexivity. }
    assert (N := wf_nodup p (c_wf s C)).
    assert (Hs : forall x y, same (sp_blocks p') x y <->
       same (sp_blocks p) x y \/ exists c, side s a b true x c /\ side s a b true y c).
    { intros x y. rewrite T. unfold joined. split.
      - intros [H|[[H1 H2]|[H1 H2]]]; [left; exact H | |]; right; exists true; rewrite !S1; auto using same_sym.
      - intros [H|([|] & H1 & H2)]; [auto | |].
        + rewrite S1 in H1, H2. destruct H1 as [H1|H1], H2 as [H2|H2]; eauto using same_trans, same_sym.
        + rewrite S0 in H1, H2. eauto using same_trans, same_sym. }
    assert (Hn : if true then side s a b true a false /\ side s a b true b true else forall x, ~ side s a b true x true).
    { rewrite S0, S1. split; [|right]; left; reflexivity. }
    assert (Hp : forall u v, In (u, v) (comp_pairs s') <->
       (In (u, v) (comp_pairs s) /\ forall c, ~ side s a b true u c) \/
       (true = true /\ (u, v) = pair_sorted (rep p' a) (rep p' b))).
    { intros u v. unfold s'. cbn [comp_pairs]. rewrite pairs_add_In, Hl. split.
      - intros [[H1 H2]|H]; [left|right; auto]. split; [exact H1|]. intros c [G|G].
        + apply H2, (own_pair a ac u v Ha Ra H1). eauto.
        + exact (no_pair b u v _ Hb H1 G).
      - intros [[H1 H2]|[_ H]]; [left|right; exact H]. split; [exact H1|]. intro F.
        apply (own_pair a ac u v Ha Ra H1) in F as [c F]. apply (H2 c). left. exact F. }
    assert (N' : NoDup (comp_pairs s')) by (apply pairs_add_NoDup, Nl, Nn).
    split.
    - exact (step_cwf s C a b true Hnot s' W' D' L' N' Hs a b true Hn Hp).
    - exact (step_rel s C a b true Hnot s' W' Hs a b true Hn Hp).
  Qed.

  (** both complements *)
  Lemma case_both (q : bool) ac bc b0 b1 p' l : rel s a ac true -> rep p ac = ac -> rel s b bc true -> rep p bc = bc ->
    (b0, b1) = (if q then (bc, b) else (b, bc)) ->
    sp_wf p' -> sp_domain p' = DomZ -> sp_labels p' = [] ->
    (forall x y, same (sp_blocks p') x y <-> joined (joined (same (sp_blocks p)) a b0) ac b1 x y) ->
    NoDup l -> (forall x, In x l <-> (In x (comp_pairs s) /\ x <> pair_sorted (rep p a) ac) /\ x <> pair_sorted (rep p b) bc) ->
    let s' := mkSPC p' (pairs_add l (pair_sorted (rep p' a) (rep p' ac))) in
    cwf s' /\ forall x y c, rel s' x y c <-> added s a b q x y c.
  Proof using C Hnot.
    intros Ha Ra Hb Rb Eb W' D' L' T Nl Hl s'.
    assert (N := wf_nodup p (c_wf s C)).
    assert (S0 : forall x, side s a b q x false <-> same (sp_blocks p) x a \/ same (sp_blocks p) x b0).
    { intro x. unfold side. destruct q; injection Eb as -> ->; cbn [xorb].
      - rewrite (rel_comp_iff x _ _ true Hb). reflexivity.
      - reflexivity. }
    assert (S1 : forall x, side s a b q x true <-> same (sp_blocks p) x ac \/ same (sp_blocks p) x b1).
    { intro x. unfold side. rewrite (rel_comp_iff x _ _ true Ha). destruct q; injection Eb as -> ->; cbn [xorb].
      - reflexivity.
      - rewrite (rel_comp_iff x _ _ true Hb). reflexivity. }
    assert (Hs : forall x y, same (sp_blocks p') x y <->
       same (sp_blocks p) x y \/ exists c, side s a b q x c /\ side s a b q y c).
    { intros x y. rewrite T.
      assert (Hd : forall z, same (sp_blocks p) z a \/ same (sp_blocks p) z b0 -> ~ (same (sp_blocks p) z ac \/ same (sp_blocks p) z b1)).
      { intros z H1 H2. rewrite <- S0 in H1. rewrite <- S1 in H2.
        assert (F := side_unique s C a b q Hnot _ _ _ H1 H2). discriminate. }
      rewrite (joined2_iff (same (sp_blocks p)) a b0 ac b1 x y).
      - split.
        + intros [H|[[H1 H2]|[H1 H2]]]; [auto | |]; right; [exists false; rewrite !S0 | exists true; rewrite !S1]; auto.
        + intros [H|([|] & H1 & H2)]; [auto| |]; rewrite ?S0, ?S1 in H1, H2; auto.
      - intro; left; reflexivity.
      - intros z w; apply same_sym.
      - intros z w t; apply same_trans, N.
      - exact Hd. }
    assert (Hn : if true then side s a b q a false /\ side s a b q ac true else forall x, ~ side s a b q x true).
    { rewrite S0, S1. split; left; left; reflexivity. }
    assert (Hp : forall u v, In (u, v) (comp_pairs s') <->
       (In (u, v) (comp_pairs s) /\ forall c, ~ side s a b q u c) \/
       (true = true /\ (u, v) = pair_sorted (rep p' a) (rep p' ac))).
    { intros u v. unfold s'. cbn [comp_pairs]. rewrite pairs_add_In, Hl. split.
      - intros [[[H1 H2] H3]|H]; [left|right; auto]. split; [exact H1|]. intros c [G|G].
        + apply H2, (own_pair a ac u v Ha Ra H1). eauto.
        + apply H3, (own_pair b bc u v Hb Rb H1). eauto.
      - intros [[H1 H2]|[_ H]]; [left|right; exact H]. split; [split; [exact H1|]|]; intro F.
        + apply (own_pair a ac u v Ha Ra H1) in F as [c F]. apply (H2 c). left. exact F.
        + apply (own_pair b bc u v Hb Rb H1) in F as [c F]. apply (H2 (xorb c q)). right. 
          rewrite xorb_assoc, xorb_nilpotent, xorb_false_r. exact F. }
    assert (N' : NoDup (comp_pairs s')) by (apply pairs_add_NoDup, Nl).
    split.
    - exact (step_cwf s C a b q Hnot s' W' D' L' N' Hs a ac true Hn Hp).
    - exact (step_rel s C a b q Hnot s' W' Hs a ac true Hn Hp).
  Qed.

  Lemma remove_both ac bc : rel s a ac true -> rep p ac = ac -> rel s b bc true -> rep p bc = bc ->
    exists l l', pairs_remove (comp_pairs s) (pair_sorted (rep p a) ac) = Ok l /\
      pairs_remove l (pair_sorted (rep p b) bc) = Ok l' /\ NoDup l' /\
      forall x, In x l' <-> (In x (comp_pairs s) /\ x <> pair_sorted (rep p a) ac) /\ x <> pair_sorted (rep p b) bc.
  Proof using C Hnot Nn.
    intros Ha Ra Hb Rb.
    destruct (pairs_remove_spec _ _ (own_pair_In a ac Ha Ra)) as (l & El & Nl & Hl).
    assert (Hbl : In (pair_sorted (rep p b) bc) l).
    { apply Hl. assert (H := own_pair_In b bc Hb Rb). split; [exact H|]. intro F.
      destruct (pair_sorted (rep p b) bc) as [u v] eqn:E.
      apply (own_pair a ac u v Ha Ra H) in F as [c F].
      assert (G : (u, v) = pair_sorted (rep p b) bc) by auto.
      apply (own_pair b bc u v Hb Rb H) in G as [d G].
      apply (Hnot (xorb c d)). eapply (rel_trans s C); [apply rel_sym, F | exact G]. }
    destruct (pairs_remove_spec _ _ Hbl) as (l' & El' & Nl' & Hl').
    exists l, l'. split; [exact El|]. split; [exact El'|]. split; [auto|].
    intro x. rewrite Hl', Hl. reflexivity.
  Qed.

  Lemma case_equal_both ac bc : rel s a ac true -> rep p ac = ac -> rel s b bc true -> rep p bc = bc ->
    result (set_equal_both_comp s a b ac bc) false.
  Proof using C Hnot Nn.
    intros Ha Ra Hb Rb. destruct (remove_both ac bc Ha Ra Hb Rb) as (l & l' & El & El' & Nl & Hl).
    destruct (merge_Z p a b (c_wf s C) (c_dom s C) (c_lab s C)) as (p1 & E1 & W1 & D1 & L1 & T1).
    destruct (merge_Z p1 ac bc W1 D1 L1) as (p2 & E2 & W2 & D2 & L2 & T2).
    eexists. split.
    { unfold set_equal_both_comp, spc_do. cbn [fold_left]. unfold act_remove. rewrite !(s_repr s C). fold p. rewrite El.
      cbn [equal_part comp_pairs]. fold p. rewrite El'.
      unfold act_merge. cbn [equal_part comp_pairs]. fold p. rewrite E1. cbn [equal_part comp_pairs]. rewrite E2.
      apply add_repr, W2. }
    apply (case_both false ac bc b bc p2 l'); auto.
    intros x y. rewrite T2. unfold joined at 1 3. rewrite !T1. reflexivity.
  Qed.

  Lemma case_comp_both ac bc : rel s a ac true -> rep p ac = ac -> rel s b bc true -> rep p bc = bc ->
    result (set_comp_both_comp s a b ac bc) true.
  Proof using C Hnot Nn.
    intros Ha Ra Hb Rb. destruct (remove_both ac bc Ha Ra Hb Rb) as (l & l' & El & El' & Nl & Hl).
    destruct (merge_Z p a bc (c_wf s C) (c_dom s C) (c_lab s C)) as (p1 & E1 & W1 & D1 & L1 & T1).
    destruct (merge_Z p1 b ac W1 D1 L1) as (p2 & E2 & W2 & D2 & L2 & T2).
    eexists. split.
    { unfold set_comp_both_comp, spc_do. cbn [fold_left]. unfold act_remove. rewrite !(s_repr s C). fold p. rewrite El.
      cbn [equal_part comp_pairs]. fold p. rewrite El'.
      unfold act_merge. cbn [equal_part comp_pairs]. fold p. rewrite E1. cbn [equal_part comp_pairs]. rewrite E2.
      apply add_repr, W2. }
    apply (case_both true ac bc bc b p2 l'); auto.
    intros x y. rewrite T2, joined_swap. unfold joined at 1 3. rewrite !T1. reflexivity.
  Qed.
End Cases.

Lemma added_swap s a b q x y c : added s a b q x y c -> added s b a q x y c.
Proof.
  unfold added, side. intros [H|(c1 & c2 & H1 & H2 & ->)]; [auto|]. right.
  exists (xorb c1 q), (xorb c2 q). split; [|split].
  - destruct H1 as [H1|H1]; [right|left; exact H1]. rewrite xorb_assoc, xorb_nilpotent, xorb_false_r. exact H1.
  - destruct H2 as [H2|H2]; [right|left; exact H2]. rewrite xorb_assoc, xorb_nilpotent, xorb_false_r. exact H2.
  - destruct c1, c2, q; reflexivity.
Qed.

Lemma set_equal_spec order s a b : (forall l, Permutation (order l) l) -> cwf s -> a <> b ->
  (rel s a b true /\ set_equal order s a b = (s, Some SetEqualComplementsError)) \/
  (~ rel s a b true /\ exists s', set_equal order s a b = (s', None) /\ cwf s' /\
     forall x y c, rel s' x y c <-> added s a b false x y c).
Proof.
  intros Ho C Hab. unfold set_equal. destruct (are_comp s a b) eqn:E1.
  { left. apply (are_comp_spec s C) in E1. auto. }
  right. assert (N1 : ~ rel s a b true) by (rewrite <- (are_comp_spec s C); congruence). split; [exact N1|].
  destruct (are_equal s a b) eqn:E2.
  { exists s. split; [reflexivity|]. split; [exact C|]. intros x y c. unfold added. split; [auto|].
    intros [H|(c1 & c2 & H1 & H2 & ->)]; [exact H|].
    assert (Rab : rel s a b false) by (right; apply (are_equal_spec s C), E2).
    assert (K : forall z d, side s a b false z d -> rel s z a d).
    { intros z d [G|G]; [exact G|]. apply (rel_sym s) in Rab.
      assert (G' := rel_trans s C _ _ _ _ _ G Rab). destruct d; exact G'. }
    eapply (rel_trans s C); [apply K, H1 | apply rel_sym, K, H2]. }
  assert (N2 : ~ rel s a b false).
  { intros [H|H]; [contradiction|]. apply (are_equal_spec s C) in H. congruence. }
  assert (Hnot : forall c, ~ rel s a b c) by (intros [|]; assumption).
  assert (Hnot' : forall c, ~ rel s b a c) by (intros c H; apply (Hnot c), rel_sym, H).
  assert (Ga := get_comp_spec s C order a Ho). assert (Gb := get_comp_spec s C order b Ho).
  assert (Nn := c_nodup s C).
  destruct (get_comp order s a) as [ac|], (get_comp order s b) as [bc|].
  - destruct Ga as [Ga Ra], Gb as [Gb Rb]. apply case_equal_both; assumption.
  - destruct Ga as [Ga Ra]. apply case_equal_first; assumption.
  - destruct Gb as [Gb Rb].
    destruct (case_equal_first s C b a Hnot' Nn bc Gb Rb Ga) as (s' & E & C' & R). exists s'. split; [exact E|].
    split; [exact C'|]. intros x y c. rewrite R. split; apply added_swap.
  - apply case_equal_none; assumption.
Qed.

Lemma set_comp_spec order s a b : (forall l, Permutation (order l) l) -> cwf s -> a <> b ->
  (rel s a b false /\ set_comp order s a b = (s, Some SetCompEqualsError)) \/
  (~ rel s a b false /\ exists s', set_comp order s a b = (s', None) /\ cwf s' /\
     forall x y c, rel s' x y c <-> added s a b true x y c).
Proof.
  intros Ho C Hab. unfold set_comp. destruct (are_equal s a b) eqn:E2.
  { left. split; [|reflexivity]. right. apply (are_equal_spec s C), E2. }
  assert (N2 : ~ rel s a b false).
  { intros [H|H]; [contradiction|]. apply (are_equal_spec s C) in H. congruence. }
  right. split; [exact N2|].
  destruct (are_comp s a b) eqn:E1.
  { exists s. split; [reflexivity|]. split; [exact C|]. intros x y c. unfold added. split; [auto|].
    intros [H|(c1 & c2 & H1 & H2 & ->)]; [exact H|].
    assert (Rab : rel s a b true) by (apply (are_comp_spec s C), E1).
    assert (K : forall z d, side s a b true z d -> rel s z a d).
    { intros z d [G|G]; [exact G|]. apply (rel_sym s) in Rab.
      assert (G' := rel_trans s C _ _ _ _ _ G Rab). destruct d; exact G'. }
    eapply (rel_trans s C); [apply K, H1 | apply rel_sym, K, H2]. }
  assert (N1 : ~ rel s a b true) by (rewrite <- (are_comp_spec s C); congruence).
  assert (Hnot : forall c, ~ rel s a b c) by (intros [|]; assumption).
  assert (Hnot' : forall c, ~ rel s b a c) by (intros c H; apply (Hnot c), rel_sym, H).
  assert (Ga := get_comp_spec s C order a Ho). assert (Gb := get_comp_spec s C order b Ho).
  assert (Nn := c_nodup s C).
  destruct (get_comp order s a) as [ac|], (get_comp order s b) as [bc|].
  - destruct Ga as [Ga Ra], Gb as [Gb Rb]. apply case_comp_both; assumption.
  - destruct Ga as [Ga Ra]. apply case_comp_first; assumption.
  - destruct Gb as [Gb Rb].
    destruct (case_comp_first s C b a Hnot' Nn bc Gb Rb Ga) as (s' & E & C' & R). exists s'. split; [exact E|].
    split; [exact C'|]. intros x y c. rewrite R. split; apply added_swap.
  - apply case_comp_none; assumption.
Qed.
