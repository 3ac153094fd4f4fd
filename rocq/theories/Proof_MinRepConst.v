(** Proof_MinRepConst: the representatives of constant functions that have atoms (objects made with
    the argument skip_deflation). *)

From Coq Require Import List Arith ZArith Bool Lia Permutation Sorted Factorial.
From Verif Require Import Model_Base Lib Model_Splits Model_Perm Model_Binary Model_SigPerm Model_Boolf Model_Twin Model_BoolfMore Model_MinRep
  Spec_Bits Spec_Boolf Spec_Twin Spec_MinRep Proof_Binary Proof_Perm Proof_PermMore Proof_Inversions Proof_SigPerm Proof_SigPermOps
  Proof_Helpers Proof_Linear Proof_WalshLinear Proof_Boolf Proof_Deflate Proof_BoolfTable Proof_BoolfApply Proof_BoolfMake Proof_Twin
  Proof_Noble Proof_BoolfMore Proof_Splits Proof_MinRepTwin Proof_MinRepClass Proof_MinRepCoset Proof_MinRep Proof_MinRepMin.
Import ListNotations.
Local Open Scope nat_scope.

Section Constant.
Context (f : boolf) (R : wellmade f) (q : bool) (Q : forall e, sem f e = q) (V : 0 < valency f).
Let n := adicity f.
Let A := anf n (tab f).

Lemma const_n : 0 < n.
Proof.
  unfold valency in V. destruct (atomvals f) as [|a l] eqn:E; [cbn in V; lia|]. assert (H : In a (atomvals f)) by (rewrite E; left; reflexivity). apply adicity_bound in H. fold n in H. lia.
Qed.

Lemma const_valued : is_constant f = false.
Proof. apply not_true_is_false. intro C. apply (proj2 (proj2 R)) in C. unfold valency in V. rewrite C in V. cbn in V. lia. Qed.

Lemma const_anf g k : fitting g -> adicity g <= n -> (forall e, sem g e = q) -> k < 2 ^ n -> anf n (tab g) k = q && Nat.eqb k 0.
Proof.
  intros F L S Hk. destruct (boolf_zhe_spec g F) as (z & _ & _ & Z & E). specialize (Z n L).
  assert (Ez : z = Nat.b2n q). { apply zhegalkin_inj. intro e. rewrite E, S. destruct q; reflexivity. }
  rewrite <- (place_bits (anf n (tab g)) (2 ^ n)) by exact Hk. rewrite <- Z, Ez. destruct q; cbn [Nat.b2n andb]; [|apply Nat.bits_0].
  destruct k; [reflexivity|]. cbn [Nat.eqb]. apply Nat.bits_above_log2. cbn. lia.
Qed.

Lemma const_A k : k < 2 ^ n -> A k = q && Nat.eqb k 0.
Proof. apply const_anf; [apply R | apply le_n | exact Q]. Qed.
Lemma const_colp c k : boundp f c -> k < 2 ^ n -> colp f c k = q && Nat.eqb k 0.
Proof.
  intros B Hk. destruct (obj_spec f R c B) as (s & g & _ & _ & Rg & Ag & Sg & Cg). rewrite <- (Cg k Hk). apply const_anf; [apply Rg | exact Ag | | exact Hk]. intro e. rewrite Sg. apply Q.
Qed.

(** ** Families *)

Lemma const_family_loop oz on k : (forall l, StronglySorted lt l -> on l = l) -> forall j, j + k = 2 ^ n ->
  family_loop oz on f n (map A (range (2 ^ n))) (seq j k) true None = Ok None.
Proof.
  intro Hon. induction k as [|k IH]; intros j Hj; [reflexivity|]. cbn [seq family_loop]. set (s := 2 ^ n - j - 1). assert (Hs : s < 2 ^ n) by lia.
  rewrite (lget_ok _ s false) by (rewrite map_length, range_length; exact Hs). rewrite nth_table by exact Hs. cbn [bind]. destruct (A s) eqn:Es; cbn [negb]; [|apply IH; lia].
  rewrite const_A in Es by exact Hs. apply andb_true_iff in Es as [_ Es]. apply Nat.eqb_eq in Es. assert (k = 0) by lia. subst k. rewrite Es in *. clear Es.
  assert (Ej : int_to_sierpinski_row on j = row n 0) by (rewrite <- (sierpinski_row_row on n 0 Hon); f_equal; unfold comp; lia). rewrite Ej.
  rewrite (mapM_ok _ (fun p => A (0 + p))).
  2:{ intros p Hp. apply row_lt in Hp. rewrite (lget_ok _ _ false) by (rewrite map_length, range_length; exact Hp). cbn [Nat.add]. rewrite nth_table by exact Hp. reflexivity. }
  cbn [bind]. assert (Et : tl (map (fun p => A (0 + p)) (row n 0)) = map (fun p => A (0 + p)) (tl (row n 0))) by (destruct (row n 0); reflexivity).
  rewrite Et, existsb_map. assert (Ex : existsb (fun p => A (0 + p)) (tl (row n 0)) = false).
  { apply not_true_is_false. intro X. apply existsb_exists in X as (p & Hp & Ap). destruct (row_head f 0 ltac:(fold n; lia)) as [_ H]. fold n in H. apply H in Hp as [P0 Hp]. apply row_lt in Hp.
    cbn [Nat.add] in Ap. rewrite const_A in Ap by exact Hp. apply andb_true_iff in Ap as [_ Ap]. apply Nat.eqb_eq in Ap. lia. }
  rewrite Ex. reflexivity.
Qed.

Lemma const_family oz on : (forall l, StronglySorted lt l -> on l = l) -> family_minrep oz on f = Ok None.
Proof.
  intro Hon. unfold family_minrep. rewrite const_valued. destruct (twin_row f R) as (t & E1 & E2). rewrite E1. cbn [bind]. rewrite E2. cbn [bind]. apply const_family_loop; [exact Hon | reflexivity].
Qed.

(** ** Factions *)

Lemma const_faction : faction_minrep f = Ok (Some f).
Proof.
  unfold faction_minrep. rewrite const_valued. destruct (twin_row f R) as (t & E1 & E2). rewrite E1. cbn [bind]. rewrite E2. cbn [bind].
  fold n A. rewrite flat_to_places_spec. cbn [bind]. change (map _ (range (n + 1))) with (layers_of A n).
  assert (X : forallb ratio_is_0_or_1 (layers_of A n) = true); [|rewrite X; reflexivity].
  apply forallb_forall. intros l Hl. apply in_map_iff in Hl as (w & <- & _). apply not_false_is_true. intro Hw.
  destruct (mixed_layer f w Hw) as (k & k' & Hk & Hk' & Ak & Ak'). apply weights_In in Hk as [Hk Wk]. apply weights_In in Hk' as [Hk' Wk']. fold n in Hk, Hk', Ak, Ak'. fold A in Ak, Ak'. rewrite const_A in Ak, Ak' by assumption.
  assert (Z : forall x, x < 2 ^ n -> count_ones x = 0 -> x = 0).
  { intros x _. clear - x. induction x as [x IH] using lt_wf_ind. intro Hx. destruct (Nat.eq_dec x 0) as [E|E]; [exact E|]. rewrite (Nat.div2_odd x) in Hx. rewrite count_ones_double in Hx.
    assert (L : Nat.div2 x < x) by (apply Nat.lt_div2; lia). specialize (IH _ L ltac:(lia)). rewrite (Nat.div2_odd x), IH. lia. }
  destruct q; cbn [andb] in *; [|congruence].
  destruct (Nat.eqb_spec k 0) as [->|N]; destruct (Nat.eqb_spec k' 0) as [->|N']; try congruence.
  - apply N', Z; [exact Hk' | rewrite Wk', <- Wk; reflexivity].
Qed.

(** ** Clans *)

Lemma const_winner D s : s < 2 ^ n -> (forall c, In c D <-> boundp f c /\ colp f c s = false) -> q && Nat.eqb s 0 = false ->
  exists g, rep_candidate f D [] = Ok (Some g) /\ reduced g /\ forall e, sem g e = q.
Proof.
  intros Hs HD Hq. assert (B0 : boundp f (0, 0)) by (split; [apply pow2_pos | apply lt_O_fact]).
  assert (Dn : D <> []). { intro E. assert (X : In (0, 0) D) by (apply HD; split; [exact B0 | rewrite const_colp by assumption; exact Hq]). rewrite E in X. destruct X. }
  assert (Ag : forall c i lo, boundp f c -> boundp f i -> agree (2 ^ n) (fun c => colp f c) c i lo). { intros c i lo Bc Bi t _ Ht. rewrite !const_colp by assumption. reflexivity. }
  assert (X2 : inv (2 ^ n) (fun c => colp f c) (boundp f) D s) by (apply inv_first; [exact Hs | intros c i Bc Bi; apply Ag; assumption | exact Dn | exact HD]).
  destruct (rep_outcome_clan f R D s X2) as [(c & g & H1 & H2 & H3)|[H1 (_ & c & i & Hc & Hi & H)]].
  - exists g. split; [exact H1|]. destruct (belongs_spec f R c g (proj1 H2) H3) as (Rg & _ & Sg & _). split; [exact Rg|]. intro e. rewrite Sg. apply Q.
  - exfalso. apply H, Ag; apply HD; assumption.
Qed.

Lemma const_first : 2 ^ n - 1 = S (2 ^ n - 2) /\ 2 ^ n - 1 - 1 = 2 ^ n - 2 /\ 2 ^ n - 2 < 2 ^ n.
Proof. assert (P := const_n). assert (2 <= 2 ^ n) by (change 2 with (2 ^ 1) at 1; apply Nat.pow_le_mono_r; lia). lia. Qed.

Lemma const_zero : Nat.eqb (2 ^ n - 2) 0 = Nat.eqb n 1.
Proof.
  assert (P := const_n). destruct (Nat.eqb_spec n 1) as [E|E]; [rewrite E; reflexivity|]. apply Nat.eqb_neq. assert (4 <= 2 ^ n) by (change 4 with (2 ^ 2); apply Nat.pow_le_mono_r; lia). lia.
Qed.

Lemma const_clan oz on : (forall l, Permutation (oz l) l) -> (forall l, StronglySorted lt l -> on l = l) ->
  (q && Nat.eqb n 1 = false -> exists g, clan_minrep oz on f = Ok (Some g) /\ reduced g /\ forall e, sem g e = q) /\
  (q && Nat.eqb n 1 = true -> clan_minrep oz on f = Ok None).
Proof.
  intros Hoz Hon. destruct const_first as (F1 & F2 & F3). unfold clan_minrep. rewrite const_valued. destruct (twin_row f R) as (t & E1 & E2). rewrite E1. cbn [bind]. rewrite E2. cbn [bind].
  fold n A. rewrite flat_to_places_spec. cbn [bind]. change (map _ (range (n + 1))) with (layers_of A n). rewrite range2_seq, F1. cbn [seq clan_loop].
  rewrite F2. set (s := 2 ^ n - 2) in *. assert (Ej : int_to_sierpinski_row on 1 = row n s) by (rewrite <- (sierpinski_row_row on n s Hon); f_equal; unfold comp; lia). rewrite Ej.
  rewrite (blue_keys_eq f), (blue_sorted f) by exact F3. rewrite (proj2 (list_eqb_eq _ _) eq_refl). cbn [true_except bind].
  destruct (clan_applicants_spec f oz s Hoz F3) as (D & ED & HD). fold n A in ED. fold n. rewrite ED. cbn [bind]. rewrite <- const_zero. fold s. split; intro Hq.
  - destruct (const_winner D s F3 HD Hq) as (g & Eg & Rg & Sg). exists g. split; [|auto]. destruct D as [|c D]; [discriminate Eg|]. rewrite Eg. reflexivity.
  - destruct D as [|c D]; [|exfalso; destruct (proj1 (HD c) (or_introl eq_refl)) as [Bc Hc]; rewrite const_colp in Hc by assumption; congruence].
    apply andb_true_iff in Hq as [_ Hq]. apply Nat.eqb_eq in Hq. rewrite Hq. reflexivity.
Qed.

Lemma const_prototype oz on : (forall l, Permutation (oz l) l) -> (forall l, StronglySorted lt l -> on l = l) ->
  (q && Nat.eqb n 1 = false -> exists g, clan_minrep_prototype oz on f = Ok (Some g) /\ reduced g /\ forall e, sem g e = q) /\
  (q && Nat.eqb n 1 = true -> clan_minrep_prototype oz on f = Ok None).
Proof.
  intros Hoz Hon. destruct const_first as (F1 & F2 & F3). unfold clan_minrep_prototype. rewrite const_valued. destruct (twin_row f R) as (t & E1 & E2). rewrite E1. cbn [bind]. rewrite E2. cbn [bind].
  fold n A. rewrite flat_to_places_spec. cbn [bind]. change (map _ (range (n + 1))) with (layers_of A n). rewrite range2_seq, F1. cbn [seq clan_prototype_loop].
  rewrite F2. set (s := 2 ^ n - 2) in *. assert (Ej : int_to_sierpinski_row on 1 = row n s) by (rewrite <- (sierpinski_row_row on n s Hon); f_equal; unfold comp; lia). rewrite Ej.
  rewrite (blue_keys_eq f) by exact F3.
  destruct (clan_applicants_spec f oz s Hoz F3) as (D & ED & HD). fold n A in ED. fold n. rewrite ED. cbn [bind].
  assert (HL : forall c, In c (filter (fun p => existsb (pair_eqb p) D) (list_prod (range (2 ^ n)) (range (fact n)))) <-> boundp f c /\ colp f c s = false).
  { intros (m & r). rewrite filter_In, pair_eqb_In, HD, in_prod_iff, !range_In. unfold boundp. cbn [fst snd]. fold n. tauto. }
  destruct (filter (fun p => existsb (pair_eqb p) D) (list_prod (range (2 ^ n)) (range (fact n)))) as [|c C] eqn:EC; rewrite <- const_zero; fold s; split; intro Hq.
  - destruct (const_winner [] s F3 HL Hq) as (g & Eg & _). discriminate Eg.
  - apply andb_true_iff in Hq as [_ Hq]. apply Nat.eqb_eq in Hq. rewrite Hq. reflexivity.
  - destruct (const_winner (c :: C) s F3 HL Hq) as (g & Eg & Rg & Sg). exists g. split; [|auto]. rewrite Eg. reflexivity.
  - exfalso. destruct (proj1 (HL c) (or_introl eq_refl)) as [Bc Hc]. rewrite const_colp in Hc by assumption. congruence.
Qed.
End Constant.
