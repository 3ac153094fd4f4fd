(** Props_SetPartBoolf: property C26, the Boolean function of a SetPartComp. *)

From Coq Require Import List Arith ZArith Bool Lia Permutation Sorting.Sorted.
From Verif Require Import Model_Base Lib Model_Binary Model_SetPart Spec_SetPart Proof_SetPart Proof_SetPartMore Model_SetPartComp
  Spec_SetPartComp Proof_SetPartComp Proof_SetPartCompMore.
From Verif Require Import Model_Boolf Model_SetPartBoolf Spec_Bits Spec_Boolf Proof_Boolf Proof_BoolfTable Proof_BoolfMake Props_Boolf Props_SetPartComp Proof_SetPartBoolf.
Import ListNotations.
Open Scope Z_scope.

Lemma forced_occurs st x y c : forced st x y c -> x = y \/ (exists z d, In (x, z, d) st \/ In (z, x, d) st) /\ (exists z d, In (y, z, d) st \/ In (z, y, d) st).
Proof.
  induction 1 as [x|a b p H|x y c _ IH|x y z c d _ IH1 _ IH2]; [left; reflexivity | right; split; [exists b, p | exists a, p]; tauto | intuition congruence |].
  destruct IH1 as [->|[H1 H2]]; [exact IH2|]. destruct IH2 as [<-|[H3 H4]]; right; split; assumption.
Qed.

(** the function is true exactly under the assignments that fulfil all statements that were
    accepted *)
Theorem C26_boolf : forall order s st, history s st -> (forall l, Permutation (order l) l) ->
  (forall a b p, In (a, b, p) st -> 0 <= a /\ 0 <= b) ->
  exists f, spc_boolf order s = Ok f /\ made false f /\
    forall e, sem f e = true <-> models (fun z => e (Z.to_nat z)) st.
Proof.
  intros order s st H Ho Hpos. assert (S := history_says s st H). assert (C := proj1 S). rewrite spc_boolf_form.
  destruct (steps_ok (constraints order s) (set_constant true)) as [f [E [R Sf]]]; [apply set_constant_reduced | |].
  - intros a b c Hin. destruct (constraints_rel s C order Ho a b c Hin) as [Hab Hr]. split; [|exact Hab].
    apply (proj2 S) in Hr. destruct (forced_occurs st a b c Hr) as [->|[[z [d [Hz|Hz]]] _]]; [lia | |]; apply Hpos in Hz; apply Hz.
  - exists f. split; [exact E|]. split; [apply reduced_made; exact R|]. intro e. rewrite Sf.
    rewrite (proj2 (set_constant_reduced true) e). cbn [andb]. rewrite (says_models s st _ S). rewrite <- (constraints_models s C order Ho).
    rewrite forallb_forall. split.
    + intros G a b c Hin. apply G in Hin. cbn [fst snd] in Hin. apply eqb_prop in Hin. exact Hin.
    + intros G [[a b] c] Hin. apply G in Hin. cbn [fst snd]. unfold val. rewrite Hin. apply eqb_reflx.
Qed.
Print Assumptions C26_boolf.

(** the atoms are those that are related to another one *)
Theorem C26_boolf_atoms : forall order s st f a, history s st -> (forall l, Permutation (order l) l) ->
  (forall a b p, In (a, b, p) st -> 0 <= a /\ 0 <= b) -> spc_boolf order s = Ok f ->
  (In a (atomvals f) <-> exists x c, x <> Z.of_nat a /\ entails st (Z.of_nat a) x c).
Proof.
  intros order s st f a H Ho Hpos E. destruct (C26_boolf order s st H Ho Hpos) as [f' [E' [M Hm]]]. assert (f' = f) by congruence. subst f'.
  assert (S := history_says s st H). assert (C := proj1 S). rewrite (atoms_essential f a (m_red f M)).
  assert (He : essential (sem f) a <-> exists e, sem f (upd e a true) = true /\ sem f (upd e a false) = false \/ sem f (upd e a true) = false /\ sem f (upd e a false) = true).
  { split.
    - intros [e Hne]. exists e. destruct (sem f (upd e a true)), (sem f (upd e a false)); try (exfalso; apply Hne; reflexivity); tauto.
    - intros [e G]. exists e. destruct G as [[-> ->]|[-> ->]]; discriminate. }
  split.
  - intro Hess. destruct (existsb (fun abp => negb (Z.eqb (fst (fst abp)) (snd (fst abp))) && (Z.eqb (fst (fst abp)) (Z.of_nat a) || Z.eqb (snd (fst abp)) (Z.of_nat a))) st) eqn:Ex.
    + apply existsb_exists in Ex as [[[u v] p] [Hin G]]. cbn [fst snd] in G. apply andb_true_iff in G as [Gn G]. apply negb_true_iff, Z.eqb_neq in Gn.
      apply orb_true_iff in G as [G|G]; apply Z.eqb_eq in G; subst.
      * exists v, p. split; [auto|]. intros w Hw. apply (Hw _ _ _ Hin).
      * exists u, p. split; [auto|]. intros w Hw. rewrite xorb_comm. apply (Hw _ _ _ Hin).
    + exfalso. apply He in Hess as [e G].
      assert (Hsame : forall q, models (fun z => upd e a q (Z.to_nat z)) st <-> models (fun z => upd e a (negb q) (Z.to_nat z)) st).
      { assert (K : forall q, models (fun z => upd e a q (Z.to_nat z)) st -> models (fun z => upd e a (negb q) (Z.to_nat z)) st).
        { intros q Hq u v p Hin. assert (B := Hq u v p Hin). cbv beta in *. destruct (Hpos u v p Hin) as [Hu Hv].
          assert (Nx : negb (Z.eqb u v) && (Z.eqb u (Z.of_nat a) || Z.eqb v (Z.of_nat a)) = false).
          { apply not_true_is_false. intro T. apply not_true_iff_false in Ex. apply Ex, existsb_exists. exists (u, v, p). split; [exact Hin | exact T]. }
          destruct (Z.eqb_spec u v) as [->|Huv]; [rewrite xorb_nilpotent in *; exact B|]. cbn [negb andb] in Nx. apply orb_false_iff in Nx as [N1 N2].
          apply Z.eqb_neq in N1, N2. rewrite !upd_neq by lia. rewrite !upd_neq in B by lia. exact B. }
        intro q. split; [apply K|]. intro G'. apply K in G'. rewrite negb_involutive in G'. exact G'. }
      assert (T := Hsame true). rewrite <- !Hm in T. cbn [negb] in T. destruct G as [[G1 G2]|[G1 G2]]; rewrite G1, G2 in T; destruct T as [T1 T2]; [discriminate (T1 eq_refl) | discriminate (T2 eq_refl)].
  - intros [x [c [Hne Hent]]]. apply He. destruct (says_satisfiable s st S) as [v Hv].
    assert (Hx : 0 <= x).
    { apply (says_entails s st _ _ _ S), (proj2 S) in Hent. destruct (forced_occurs _ _ _ _ Hent) as [E2|[_ [z [d [Hz|Hz]]]]]; [congruence | |]; apply Hpos in Hz; apply Hz. }
    set (e := fun n => v (Z.of_nat n)). exists e.
    assert (He1 : forall z, 0 <= z -> e (Z.to_nat z) = v z) by (intros z Hz; unfold e; rewrite Z2Nat.id by exact Hz; reflexivity).
    assert (T : sem f (upd e a (e a)) = true).
    { apply Hm. intros u w p Hin. cbv beta. destruct (Hpos u w p Hin) as [Hu Hw]. assert (Eu : forall z, 0 <= z -> upd e a (e a) (Z.to_nat z) = v z).
      { intros z Hz. unfold upd. destruct (Nat.eqb_spec (Z.to_nat z) a) as [<-|]; apply He1; exact Hz. }
      rewrite !Eu by assumption. apply Hv. exact Hin. }
    assert (F : sem f (upd e a (negb (e a))) = false).
    { apply not_true_is_false. intro F. apply Hm in F. assert (B := Hent _ F). assert (B0 := Hent _ Hv). cbv beta in B. rewrite Nat2Z.id, upd_eq in B.
      rewrite upd_neq in B by lia. rewrite He1 in B by exact Hx. unfold e in B. destruct (v (Z.of_nat a)), (v x); cbn [negb xorb] in *; congruence. }
    destruct (e a); cbn [negb] in *; [left | right]; auto.
Qed.
Print Assumptions C26_boolf_atoms.

(** it agrees with the integer filter *)
Theorem C26_boolf_int : forall order order' bl s st f n, history s st -> (forall l, Permutation (order l) l) -> (forall l, Permutation (order' l) l) ->
  (forall a b p, In (a, b, p) st -> 0 <= a /\ 0 <= b) -> spc_boolf order s = Ok f ->
  exists b, boolf_get f n = Ok b /\ int_matches bl order' s n = Ok b.
Proof.
  intros order order' bl s st f n H Ho Ho' Hpos E. destruct (C26_boolf order s st H Ho Hpos) as [f' [E' [M Hm]]]. assert (f' = f) by congruence. subst f'.
  destruct (C26_int_matches order' bl s st n H Ho') as [b [Eb Hb]]. exists b. split; [|exact Eb]. rewrite get_spec by apply (m_red f M). f_equal.
  apply eq_iff_eq_true. rewrite Hm, Hb. split; intros G u v p Hin; destruct (Hpos u v p Hin) as [Hu Hv]; assert (B := G u v p Hin); unfold zbit in *; cbv beta in *;
    rewrite !(proj2 (Z.leb_le 0 _)) in * by assumption; exact B.
Qed.
Print Assumptions C26_boolf_int.

(** a negative element that is related to another one is rejected *)
Theorem C26_boolf_negative : forall order s st x y c, history s st -> (forall l, Permutation (order l) l) ->
  entails st x y c -> x <> y -> x < 0 -> spc_boolf order s = Err AtomvalNegativeError.
Proof.
  intros order s st x y c H Ho He Hne Hneg. assert (S := history_says s st H). assert (C := proj1 S). rewrite spc_boolf_form. apply (says_entails s st _ _ _ S) in He.
  apply steps_bad; [apply set_constant_reduced | |].
  - intros a b d Hin. apply (constraints_rel s C order Ho a b d Hin).
  - destruct (negative_constraint s C order Ho x y c He Hne Hneg) as [a [b [d G]]]. exists a, b, d. exact G.
Qed.
Print Assumptions C26_boolf_negative.

Example C26_ex_boolf : exists s f, SetPartComp (Some [[0; 2]; [1; 3]]) (Some [(2, 1)]) = Ok s /\ spc_boolf id_order s = Ok f /\
  atomvals f = [0; 1; 2; 3]%nat /\ map (boolf_get f) [5; 10; 4; 15]%nat = map (@Ok bool) [true; true; false; false].
Proof.
  destruct (SetPartComp (Some [[0; 2]; [1; 3]]) (Some [(2, 1)])) as [s|] eqn:E; [|vm_compute in E; discriminate E].
  destruct (spc_boolf id_order s) as [f|] eqn:F; [|vm_compute in E; injection E as <-; vm_compute in F; discriminate F].
  exists s, f. split; [reflexivity|]. split; [exact F|]. vm_compute in E. injection E as <-. vm_compute in F. injection F as <-. split; vm_compute; reflexivity.
Qed.

Example C26_ex_negative : exists s, SetPartComp (Some [[-1; 2]]) None = Ok s /\ spc_boolf id_order s = Err AtomvalNegativeError.
Proof. eexists. split; vm_compute; reflexivity. Qed.
