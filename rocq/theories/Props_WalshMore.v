(** Props_WalshMore: property C108 (a Walsh permutation as a permutation: cycles, order,
    vectors, products; its matrix as the image of a group). *)

From Coq Require Import List Arith ZArith Bool Lia Permutation Sorted.
From Verif Require Import Model_Base Lib Model_Perm Model_Binary Model_WalshPerm Model_WalshMore Spec_Bits Spec_Perm Spec_WalshPerm
  Proof_Perm Proof_PermCycles Proof_PermGroup Proof_PermMore Proof_Binary Proof_Listing Proof_Schoute Proof_WalshLinear Proof_WalshPerm Proof_WalshOps Proof_WalshMore.
Import ListNotations.
Open Scope nat_scope.

(** * Cycles *)

(** the cycles are disjoint, contain exactly the moved numbers of one period, follow the
    map, begin with their smallest element and are sorted by it *)
Theorem C108_cycles linv w f : exact_inverse linv -> is_Walsh linv w -> is_map w f ->
  exists cs, walsh_cycles w = Ok cs /\ NoDup (concat cs) /\
    (forall x, In x (concat cs) <-> f x <> x /\ x < 2 ^ w_degree w) /\
    (forall i j, says (ArgCycles cs) i j -> f i = j) /\
    (forall c, In c cs -> 2 <= length c /\ forall x, In x c -> hd 0 c <= x) /\
    StronglySorted lt (map (hd 0) cs).
Proof.
  intros Hl Hw Hm. assert (Hv := object_map linv w f Hl Hw Hm). destruct (valid_view w f Hv) as [p [Ep [Hp [Hg [Hn Hq]]]]].
  destruct (cycles_wf p Hp) as [cs [E [Hd [Hin [Hs [Hc Hsort]]]]]]. exists cs. unfold walsh_cycles. rewrite Ep. cbn [bind].
  split; [exact E|]. split; [exact Hd|]. split; [|split; [intros i j Hij; rewrite <- Hg; apply Hs; exact Hij | split; [exact Hc | exact Hsort]]].
  intro x. rewrite Hin, Hg, Hq. destruct (w_neutral w) eqn:N; [|tauto].
  assert (I : f x = x) by (rewrite <- Hg; apply (wf_moves p Hp); exact Hn). tauto.
Qed.

(** the moved numbers of one period *)
Theorem C108_moved linv w f : exact_inverse linv -> is_Walsh linv w -> is_map w f ->
  exists l, walsh_moved w = Ok l /\ NoDup l /\ forall x, In x l <-> f x <> x /\ x < 2 ^ w_degree w.
Proof.
  intros Hl Hw Hm. assert (Hv := object_map linv w f Hl Hw Hm). destruct (valid_view w f Hv) as [p [Ep [Hp [Hg [Hn Hq]]]]].
  assert (Em : walsh_mapping w = Ok (mapping p)).
  { unfold walsh_perm in Ep. destruct (w_neutral w) eqn:N; [injection Ep as <-; unfold walsh_mapping; rewrite N; reflexivity|].
    destruct (walsh_mapping w) as [m|e]; cbn [bind] in Ep; [injection Ep as <-; reflexivity | discriminate]. }
  unfold walsh_moved. rewrite Em. cbn [bind]. exists (moved p). split; [reflexivity|].
  split; [apply (wf_map p Hp)|]. intro x. rewrite (moved_upto_In p x Hp). unfold moved_upto. rewrite Hg, Hq.
  destruct (w_neutral w) eqn:N; [|tauto]. assert (I : f x = x) by (rewrite <- Hg; apply (wf_moves p Hp); exact Hn). tauto.
Qed.

(** all cycles below a power of two, however it is given *)
Theorem C108_cycles_dynamic linv w f n : exact_inverse linv -> is_Walsh linv w -> is_map w f ->
  w_neutral w = false -> w_degree w <= n ->
  exists cs, walsh_cycles_dynamic w None (Some n) = Ok cs /\ walsh_cycles_dynamic w (Some (2 ^ n)) None = Ok cs /\
    NoDup (concat cs) /\ (forall x, In x (concat cs) <-> f x <> x /\ x < 2 ^ n) /\
    (forall i j, says (ArgCycles cs) i j -> f i = j).
Proof.
  intros Hl Hw Hm N Hn. assert (Hv := object_map linv w f Hl Hw Hm). destruct (valid_view w f Hv) as [p [Ep [Hp [Hg [_ Hq]]]]].
  rewrite N in Hq. destruct (cycles_dynamic_wf p _ (2 ^ (n - w_degree w)) Hp Hq) as [cs [E [Hd [Hin Hs]]]].
  rewrite <- Nat.pow_add_r in E, Hin. replace (n - w_degree w + w_degree w) with n in E, Hin by lia.
  exists cs. unfold walsh_cycles_dynamic. rewrite N, (proj2 (Nat.leb_le _ _) Hn). cbn [true_except bind negb].
  unfold is_power_of_two. rewrite Nat.log2_pow2, Nat.eqb_refl by lia.
  rewrite (proj2 (Nat.ltb_lt 0 (2 ^ n))) by (apply Nat.neq_0_lt_0, Nat.pow_nonzero; lia). cbn [andb true_except bind].
  rewrite (proj2 (Nat.leb_le (2 ^ w_degree w) (2 ^ n))) by (apply Nat.pow_le_mono_r; lia). cbn [true_except bind].
  rewrite Ep. cbn [bind]. split; [exact E|]. split; [exact E|]. split; [exact Hd|].
  split; [intro x; rewrite Hin, Hg; reflexivity | intros i j Hij; rewrite <- Hg; apply Hs; exact Hij].
Qed.

(** without an argument: the same as [cycles] *)
Theorem C108_cycles_dynamic_default linv w : exact_inverse linv -> is_Walsh linv w -> w_neutral w = false ->
  walsh_cycles_dynamic w None None = walsh_cycles w.
Proof.
  intros Hl Hw N. destruct (object_valid linv w Hl Hw) as [f Hv]. destruct (valid_view w f Hv) as [p [Ep [Hp [_ [_ Hq]]]]].
  rewrite N in Hq. unfold walsh_cycles_dynamic, walsh_cycles. cbn [bind]. rewrite Ep. cbn [bind].
  unfold cycles_dynamic. rewrite Hq. assert (H0 : 2 ^ w_degree w <> 0) by (apply Nat.pow_nonzero; lia).
  rewrite Nat.mod_same, Nat.div_same by exact H0. cbn [Nat.eqb true_except bind].
  destruct (cycles_wf p Hp) as [cs [E _]]. rewrite E. cbn [bind]. apply (f_equal Ok). cbn [range seq flat_map]. rewrite app_nil_r.
  rewrite <- (map_id cs) at 2. apply map_ext. intro c. rewrite <- (map_id c) at 2. apply map_ext. intro x. lia.
Qed.

(** what is refused *)
Theorem C108_cycles_dynamic_refused w l d n :
  walsh_cycles_dynamic w (Some l) (Some d) = Err RedundantParametersError /\
  ((forall k, l <> 2 ^ k) -> walsh_cycles_dynamic w (Some l) None = Err NotPowerOfTwoError) /\
  (w_neutral w = false -> n < w_degree w ->
     walsh_cycles_dynamic w None (Some n) = Err RequestedDegreeSmallerActualDegreeError /\
     walsh_cycles_dynamic w (Some (2 ^ n)) None = Err RequestedDegreeSmallerActualDegreeError).
Proof.
  split; [reflexivity|]. split.
  - intro H. unfold walsh_cycles_dynamic, is_power_of_two. destruct (Nat.eqb_spec (2 ^ Nat.log2 l) l) as [E|E]; [exfalso; apply (H (Nat.log2 l)); auto|].
    rewrite andb_false_r. reflexivity.
  - intros N Hn. unfold walsh_cycles_dynamic. rewrite N, (proj2 (Nat.leb_gt _ _) Hn). split; [reflexivity|].
    unfold is_power_of_two. rewrite Nat.log2_pow2, Nat.eqb_refl by lia.
    rewrite (proj2 (Nat.ltb_lt 0 (2 ^ n))) by (apply Nat.neq_0_lt_0, Nat.pow_nonzero; lia). cbn [andb true_except bind negb].
    rewrite (proj2 (Nat.leb_gt _ _)) by (apply Nat.pow_lt_mono_r; lia). reflexivity.
Qed.

(** the neutral element has the degree 0, but no request for its cycles is met, not even the
    one without arguments *)
Theorem C108_neutral_cycles_refuted n : WalshPerm None None None false = Ok walsh_neutral /\ w_degree walsh_neutral <= n /\
  walsh_cycles_dynamic walsh_neutral None (Some n) = Err NotPeriodicError /\
  walsh_cycles_dynamic walsh_neutral (Some (2 ^ n)) None = Err TypeErr /\
  walsh_cycles_dynamic walsh_neutral None None = Err NotPeriodicError.
Proof.
  split; [reflexivity|]. split; [cbn; lia|]. split; [reflexivity|]. split; [|reflexivity].
  unfold walsh_cycles_dynamic, is_power_of_two. rewrite Nat.log2_pow2, Nat.eqb_refl by lia.
  rewrite (proj2 (Nat.ltb_lt 0 (2 ^ n))) by (apply Nat.neq_0_lt_0, Nat.pow_nonzero; lia). reflexivity.
Qed.

(** * Order *)

Lemma order_valid w f : valid w f -> exists n, walsh_order w = Ok n /\ 0 < n /\ forall k, (forall x, iter f k x = x) <-> Nat.divide n k.
Proof.
  intro Hv. destruct (valid_view w f Hv) as [p [Ep [Hp [Hg _]]]]. destruct (porder_spec p Hp) as [n [E [Hn Hk]]].
  exists n. unfold walsh_order. rewrite Ep. cbn [bind]. split; [exact E|]. split; [exact Hn|]. intro k.
  assert (I : forall x, iter (pget p) k x = iter f k x) by (intro x; induction k as [|k IH]; cbn [iter]; [reflexivity | rewrite IH, Hg; reflexivity]).
  rewrite <- (Hk k : _ <-> Nat.divide n k). split; intros H x; [rewrite I | rewrite <- I]; apply H.
Qed.

Lemma valid_neutral w f : valid w f -> (w_neutral w = true <-> forall v, f v = v).
Proof.
  intro Hv. destruct (valid_view w f Hv) as [p [_ [Hp [Hg [Hn _]]]]]. rewrite <- Hn, (wf_moves p Hp). split; intros H v; specialize (H v); rewrite Hg in *; exact H.
Qed.

(** the powers with the exponents k and l are equal exactly if the order divides k - l; the
    power is neutral exactly if the order divides the exponent *)
Theorem C108_order linv w : exact_inverse linv -> is_Walsh linv w ->
  exists n, walsh_order w = Ok n /\ 0 < n /\
    (forall k, (exists r, walsh_pow linv w k = Ok r /\ w_neutral r = true) <-> (Z.of_nat n | k)%Z) /\
    (forall k l, exists r s, walsh_pow linv w k = Ok r /\ walsh_pow linv w l = Ok s /\
       (walsh_eqb r s = true <-> (Z.of_nat n | k - l)%Z)).
Proof.
  intros Hl Hw. destruct (object_valid linv w Hl Hw) as [f Hv]. destruct (order_valid w f Hv) as [n [E [Hn Hk]]].
  assert (Bf := valid_bijective w f Hv).
  assert (Add : forall a b x, iter f (a + b) x = iter f a (iter f b x)) by (induction a as [|a IH]; intros b x; cbn [Nat.add iter]; [|rewrite IH]; reflexivity).
  assert (Inj : forall a x y, iter f a x = iter f a y -> x = y) by (induction a as [|a IH]; intros x y H; [exact H | apply IH, (proj1 Bf), H]).
  (* a power is the map that the non-negative powers undo *)
  assert (Pow : forall k, exists r g, walsh_pow linv w k = Ok r /\ valid r g /\ forall a, (0 <= Z.of_nat a + k)%Z -> forall x, iter f a (g x) = iter f (Z.to_nat (Z.of_nat a + k)) x).
  { intro k. destruct (pow_spec linv w f k Hl Hv) as [r [g [Er [Hr [P N]]]]]. exists r, g. split; [exact Er|]. split; [exact Hr|].
    intros a Ha x. destruct (Z.le_ge_cases 0 k) as [H0|H0].
    - rewrite P, <- Add by exact H0. f_equal. lia.
    - replace a with (Z.to_nat (Z.of_nat a + k) + Z.to_nat (- k)) at 1 by lia. rewrite Add, N by exact H0. reflexivity. }
  assert (Eq : forall k l, exists r s, walsh_pow linv w k = Ok r /\ walsh_pow linv w l = Ok s /\ (walsh_eqb r s = true <-> (Z.of_nat n | k - l)%Z)).
  { intros k l. destruct (Pow k) as [r [g [Er [Hr Pr]]]]. destruct (Pow l) as [s [h [Es [Hs Ps]]]]. exists r, s.
    split; [exact Er|]. split; [exact Es|]. rewrite (valid_eqb r s g h Hr Hs).
    set (a := Z.to_nat (Z.abs k + Z.abs l)). assert (Hak : (0 <= Z.of_nat a + k)%Z) by lia. assert (Hal : (0 <= Z.of_nat a + l)%Z) by lia.
    assert (S1 : (forall v, g v = h v) <-> forall v, iter f (Z.to_nat (Z.of_nat a + k)) v = iter f (Z.to_nat (Z.of_nat a + l)) v).
    { split; intros H v; [rewrite <- Pr, <- Ps, H by assumption; reflexivity | apply (Inj a); rewrite Pr, Ps by assumption; apply H]. }
    rewrite S1. clearbody a. clear S1 Pr Ps.
    assert (Sub : forall x y, x <= y -> (forall v, iter f y v = iter f x v) <-> Nat.divide n (y - x)).
    { intros x y Hxy. rewrite <- Hk. split; intros H v.
      - apply (Inj x). rewrite <- Add. replace (x + (y - x)) with y by lia. apply H.
      - replace y with (x + (y - x)) by lia. rewrite Add, H. reflexivity. }
    assert (Dz : forall x y, x <= y -> Nat.divide n (y - x) <-> (Z.of_nat n | Z.of_nat y - Z.of_nat x)%Z).
    { intros x y Hxy. split; intros [c Hc]; [exists (Z.of_nat c); lia|]. exists (Z.to_nat c). assert (0 <= c)%Z by nia. apply Nat2Z.inj. rewrite Nat2Z.inj_mul, Z2Nat.id, Nat2Z.inj_sub by lia. exact Hc. }
    destruct (Z.le_ge_cases k l) as [H|H].
    - transitivity (forall v, iter f (Z.to_nat (Z.of_nat a + l)) v = iter f (Z.to_nat (Z.of_nat a + k)) v); [split; intros G v; symmetry; apply G|].
      rewrite Sub, Dz by lia. rewrite !Z2Nat.id by lia. replace (Z.of_nat a + l - (Z.of_nat a + k))%Z with (- (k - l))%Z by lia. apply Z.divide_opp_r.
    - rewrite Sub, Dz by lia. rewrite !Z2Nat.id by lia. replace (Z.of_nat a + k - (Z.of_nat a + l))%Z with (k - l)%Z by lia. reflexivity. }
  exists n. split; [exact E|]. split; [exact Hn|]. split; [|exact Eq].
  intro k. destruct (Eq k 0%Z) as [r [s [Er [Es H]]]]. rewrite Z.sub_0_r in H. rewrite <- H.
  destruct (Pow k) as [r' [g [Er' [Hr _]]]]. replace r' with r in * by congruence.
  assert (Hs : valid s (fun v => v)) by (replace s with walsh_neutral by (cbn in Es; congruence); left; auto).
  rewrite (valid_eqb r s g _ Hr Hs), <- (valid_neutral r g Hr). split; [intros [q [Eq' N]]; congruence | intro N; exists r; auto].
Qed.

(** * Matrices *)

Lemma ent_comp a f g n i j : valid a f -> w_degree a <= n -> i < n -> ent (fun v => f (g v)) i j = mat_mat n (ent f) (ent g) i j.
Proof. intros Ha Hn Hi. unfold ent at 1. destruct (valid_acts a f n Ha Hn) as [_ A]. rewrite A, (proj2 (Nat.ltb_lt _ _) Hi). reflexivity. Qed.

(** the matrix of a product is the product of the matrices modulo two, in every sufficient
    size *)
Theorem C108_matrix_product linv a b c n : exact_inverse linv -> is_Walsh linv a -> is_Walsh linv b -> walsh_mul a b = Ok c ->
  w_degree a <= n -> w_degree b <= n ->
  w_degree c <= n /\ exists ma mb mc, walsh_matrix a (Some n) = Ok ma /\ walsh_matrix b (Some n) = Ok mb /\ walsh_matrix c (Some n) = Ok mc /\
    forall i j, i < n -> j < n -> bit_entry mc i j = mat_mat n (bit_entry ma) (bit_entry mb) i j.
Proof.
  intros Hl Ha Hb E Na Nb. destruct (object_valid linv a Hl Ha) as [f Va]. destruct (object_valid linv b Hl Hb) as [g Vb].
  destruct (mul_spec a b f g Va Vb) as [c' [E' Vc]]. replace c' with c in * by congruence.
  assert (Nc : w_degree c <= n).
  { apply (valid_degree c _ n (mat_mat n (ent f) (ent g)) Vc). destruct (valid_acts a f n Va Na) as [_ Aa]. destruct (valid_acts b g n Vb Nb) as [_ Ab].
    apply acts_comp; assumption. }
  split; [exact Nc|]. exists (mk n (ent f)), (mk n (ent g)), (mk n (ent (fun v => f (g v)))).
  split; [apply valid_matrix; assumption|]. split; [apply valid_matrix; assumption|]. split; [apply valid_matrix; assumption|].
  intros i j Hi Hj. rewrite bit_mk, (ent_comp a f g n i j Va Na Hi) by assumption. unfold mat_mat, mat_vec. f_equal. apply map_ext_in.
  intros k Hk. apply in_seq in Hk. rewrite !bit_mk by lia. reflexivity.
Qed.

(** the matrix of the transpose is the transpose of the matrix *)
Theorem C108_matrix_transposed linv a t n : exact_inverse linv -> is_Walsh linv a -> walsh_transposed a = Ok t -> w_degree a <= n ->
  exists m mt, walsh_matrix a (Some n) = Ok m /\ walsh_matrix t (Some n) = Ok mt /\ w_degree t = w_degree a /\
    forall i j, i < n -> j < n -> bit_entry mt i j = bit_entry m j i.
Proof.
  intros Hl Ha E Na. destruct (object_valid linv a Hl Ha) as [f Va]. destruct (transposed_spec a f Va) as [t' [g [E' [Vt H]]]]. replace t' with t in * by congruence.
  assert (le_deg : forall x y u v, valid x u -> valid y v -> (forall i j, ent v i j = ent u j i) -> w_degree y <= w_degree x).
  { intros x y u v Vx Vy D. set (d := w_degree x). apply (valid_degree y v d (ent v) Vy).
    destruct (valid_acts x u d Vx (le_n _)) as [_ A]. destruct (acts_ent d d (ent u) u A (le_n _)) as [G _].
    apply (acts_fext d (ent v) (full d (ent v))); [apply full_acts|].
    apply linear_ext; [eapply acts_linear; apply full_acts | apply (valid_linear y v Vy)|]. intro j. apply Nat.bits_inj. intro i.
    rewrite (acts_pow d (ent v) _ j i (full_acts d (ent v))). change (Nat.testbit (v (2 ^ j)) i) with (ent v i j).
    assert (Gv := G j i). rewrite <- D in Gv. unfold grow in *. rewrite (andb_comm (j <? d)) in Gv.
    destruct ((i <? d) && (j <? d)); [reflexivity | rewrite Gv; apply Nat.eqb_sym]. }
  assert (Hd : w_degree t = w_degree a).
  { apply Nat.le_antisymm; [apply (le_deg a t f g Va Vt H) | apply (le_deg t a g f Vt Va); intros; symmetry; apply H]. }
  exists (mk n (ent f)), (mk n (ent g)). split; [apply valid_matrix; assumption|]. split; [apply valid_matrix; [exact Vt | lia]|].
  split; [exact Hd|]. intros i j Hi Hj. rewrite !bit_mk by assumption. apply H.
Qed.

(** transposing reverses products, commutes with the inverse, is undone by itself and keeps
    the order *)
Lemma dual_comp a b c d f g ft gt : valid a f -> valid b g -> valid c ft -> valid d gt ->
  (forall i j, ent ft i j = ent f j i) -> (forall i j, ent gt i j = ent g j i) ->
  forall i j, ent (fun v => gt (ft v)) i j = ent (fun v => f (g v)) j i.
Proof.
  intros Va Vb Vc Vd Df Dg i j. set (n := S i + S j + w_degree a + w_degree d).
  rewrite (ent_comp d gt ft n i j Vd) by lia. rewrite (ent_comp a f g n j i Va) by lia.
  unfold mat_mat, mat_vec. f_equal. apply map_ext. intro k. rewrite Df, Dg. apply andb_comm.
Qed.

Lemma dual_unique f g h : linear g -> linear h -> (forall i j, ent g i j = ent f j i) -> (forall i j, ent h i j = ent f j i) -> forall v, g v = h v.
Proof.
  intros Lg Lh Dg Dh. apply linear_ext; [exact Lg | exact Lh|]. intro k. apply Nat.bits_inj. intro i. change (ent g i k = ent h i k). rewrite Dg, Dh. reflexivity.
Qed.

Theorem C108_transposed_product linv a b c ta tb tc r : exact_inverse linv -> is_Walsh linv a -> is_Walsh linv b ->
  walsh_mul a b = Ok c -> walsh_transposed a = Ok ta -> walsh_transposed b = Ok tb -> walsh_transposed c = Ok tc ->
  walsh_mul tb ta = Ok r -> walsh_eqb tc r = true.
Proof.
  intros Hl Ha Hb Ec Eta Etb Etc Er. destruct (object_valid linv a Hl Ha) as [f Va]. destruct (object_valid linv b Hl Hb) as [g Vb].
  destruct (mul_spec a b f g Va Vb) as [c' [E' Vc]]. replace c' with c in * by congruence.
  destruct (transposed_spec a f Va) as [ta' [ft [E1 [Vta Df]]]]. replace ta' with ta in * by congruence.
  destruct (transposed_spec b g Vb) as [tb' [gt [E2 [Vtb Dg]]]]. replace tb' with tb in * by congruence.
  destruct (transposed_spec c _ Vc) as [tc' [ct [E3 [Vtc Dc]]]]. replace tc' with tc in * by congruence.
  destruct (mul_spec tb ta gt ft Vtb Vta) as [r' [E4 Vr]]. replace r' with r in * by congruence.
  apply (valid_eqb tc r ct _ Vtc Vr). apply (dual_unique (fun v => f (g v))); [apply (valid_linear tc ct Vtc) | apply (valid_linear r _ Vr) | exact Dc|].
  apply (dual_comp a b ta tb f g ft gt); assumption.
Qed.

Theorem C108_transposed_twice linv a t u : exact_inverse linv -> is_Walsh linv a ->
  walsh_transposed a = Ok t -> walsh_transposed t = Ok u -> walsh_eqb u a = true.
Proof.
  intros Hl Ha Et Eu. destruct (object_valid linv a Hl Ha) as [f Va].
  destruct (transposed_spec a f Va) as [t' [g [E1 [Vt D1]]]]. replace t' with t in * by congruence.
  destruct (transposed_spec t g Vt) as [u' [h [E2 [Vu D2]]]]. replace u' with u in * by congruence.
  apply (valid_eqb u a h f Vu Va). apply (dual_unique g); [apply (valid_linear u h Vu) | apply (valid_linear a f Va) | exact D2|]. intros i j. symmetry. apply D1.
Qed.

Lemma dual_id f g : linear g -> (forall i j, ent g i j = ent f j i) -> (forall v, f v = v) -> forall v, g v = v.
Proof.
  intros Lg D H. apply (dual_unique f g (fun v => v)); [exact Lg | intros x y; reflexivity | exact D|].
  intros i j. rewrite (ent_id f H). rewrite (ent_id (fun v => v)) by reflexivity. apply Nat.eqb_sym.
Qed.

Theorem C108_transposed_inverse linv a t i s : exact_inverse linv -> is_Walsh linv a ->
  walsh_transposed a = Ok t -> walsh_inverse linv a = Ok i -> walsh_inverse linv t = Ok s ->
  exists u, walsh_transposed i = Ok u /\ walsh_eqb u s = true.
Proof.
  intros Hl Ha Et Ei Es. destruct (object_valid linv a Hl Ha) as [f Va].
  destruct (transposed_spec a f Va) as [t' [g [E1 [Vt D1]]]]. replace t' with t in * by congruence.
  destruct (inverse_spec linv a f Hl Va) as [i' [fi [E2 [Vi [I1 I2]]]]]. replace i' with i in * by congruence.
  destruct (inverse_spec linv t g Hl Vt) as [s' [gi [E3 [Vs [I3 I4]]]]]. replace s' with s in * by congruence.
  destruct (transposed_spec i fi Vi) as [u [h [E4 [Vu D2]]]]. exists u. split; [exact E4|].
  apply (valid_eqb u s h gi Vu Vs). intro v. apply (proj1 (valid_bijective t g Vt)). rewrite I3.
  destruct (mul_spec t u g h Vt Vu) as [m [_ Vm]]. refine (dual_id (fun v => fi (f v)) (fun v => g (h v)) (valid_linear m _ Vm) _ _ v).
  - apply (dual_comp i a u t fi f h g); assumption.
  - exact I2.
Qed.

Theorem C108_transposed_order linv a t : exact_inverse linv -> is_Walsh linv a -> walsh_transposed a = Ok t ->
  walsh_order t = walsh_order a.
Proof.
  intros Hl Ha Et. destruct (object_valid linv a Hl Ha) as [f Va].
  destruct (transposed_spec a f Va) as [t' [g [E1 [Vt D]]]]. replace t' with t in * by congruence.
  destruct (order_valid a f Va) as [n [En [_ Hn]]]. destruct (order_valid t g Vt) as [m [Em [_ Hm]]]. rewrite En, Em. apply (f_equal Ok).
  assert (P : forall w u, valid w u -> forall k, exists r, valid r (iter u k)).
  { intros w u Vw k. destruct (pow_spec linv w u (Z.of_nat k) Hl Vw) as [r [h [_ [Vr [H _]]]]]. exists r. apply (valid_ext r h _ Vr). intro v. rewrite H by lia. rewrite Nat2Z.id. reflexivity. }
  assert (C : forall u k v, iter u k (u v) = u (iter u k v)) by (induction k as [|k IH]; intro v; cbn [iter]; [|rewrite IH]; reflexivity).
  assert (Dk : forall k i j, ent (iter g k) i j = ent (iter f k) j i).
  { induction k as [|k IH]; intros i j; [rewrite !(ent_id (iter _ 0)) by reflexivity; apply Nat.eqb_sym|].
    destruct (P a f Va k) as [rf Vf]. destruct (P t g Vt k) as [rg Vg].
    assert (E : ent (iter g (S k)) i j = ent (fun v => iter g k (g v)) i j) by (unfold ent; rewrite C; reflexivity). rewrite E.
    exact (dual_comp a rf t rg f (iter f k) g (iter g k) Va Vf Vt Vg D IH i j). }
  apply Nat.divide_antisym.
  - apply Hm. destruct (P t g Vt n) as [r Vr]. apply (dual_id (iter f n)); [apply (valid_linear r _ Vr) | apply Dk | apply Hn, Nat.divide_refl].
  - apply Hn. destruct (P a f Va m) as [r Vr]. apply (dual_id (iter g m)); [apply (valid_linear r _ Vr) | intros i j; symmetry; apply Dk | apply Hm, Nat.divide_refl].
Qed.

(** * Vectors and products with a Perm on the left *)

Lemma walsh_apply_perm {A} linv w f (v : list A) p : exact_inverse linv -> valid w f -> walsh_perm w = Ok p -> wf p -> (forall x, pget p x = f x) ->
  walsh_apply linv w v = papply p v.
Proof.
  intros Hl Vw Ep Hp Hg. destruct (inverse_spec linv w f Hl Vw) as [r [g [Er [Vr [I1 I2]]]]].
  destruct (pinv_spec p Hp) as [q [Eq [Hq [J1 [J2 _]]]]]. unfold walsh_apply, papply. rewrite Er, Eq. cbn [bind].
  apply mapM_ext. intros i _. rewrite (valid_map r g Vr i). cbn [bind]. f_equal.
  apply (proj1 (valid_bijective w f Vw)). rewrite I1, <- Hg. symmetry. apply J2.
Qed.

(** applied on a list, the entry at place i moves to the place f i; lists of the lengths 2^n
    with a sufficient n are accepted; a list that is not mapped into itself is refused *)
Theorem C108_apply (A : Type) linv w f (v : list A) : exact_inverse linv -> is_Walsh linv w -> is_map w f ->
  (forall i, i < length v -> f i < length v) ->
  exists r, walsh_apply linv w v = Ok r /\ length r = length v /\ forall i, i < length v -> nth_error r (f i) = nth_error v i.
Proof.
  intros Hl Hw Hm Hin. assert (Hv := object_map linv w f Hl Hw Hm). destruct (valid_view w f Hv) as [p [Ep [Hp [Hg _]]]].
  rewrite (walsh_apply_perm linv w f v p Hl Hv Ep Hp Hg). destruct (papply_spec p v Hp) as [r [E [Hlen Hr]]]; [intros i Hi; rewrite Hg; apply Hin; exact Hi|].
  exists r. split; [exact E|]. split; [exact Hlen|]. intros i Hi. rewrite <- Hg. apply Hr. exact Hi.
Qed.

Theorem C108_apply_length linv w f n i : exact_inverse linv -> is_Walsh linv w -> is_map w f -> w_degree w <= n -> i < 2 ^ n -> f i < 2 ^ n.
Proof.
  intros Hl Hw Hm Hn Hi. assert (Hv := object_map linv w f Hl Hw Hm). destruct (valid_acts w f n Hv Hn) as [_ A].
  destruct (Nat.lt_ge_cases (f i) (2 ^ n)) as [|Hge]; [assumption|]. exfalso.
  assert (Hlog : n <= Nat.log2 (f i)) by (rewrite <- (Nat.log2_pow2 n) by lia; apply Nat.log2_le_mono; exact Hge).
  assert (H0 : 0 < f i) by (apply Nat.lt_le_trans with (2 ^ n); [apply Nat.neq_0_lt_0, Nat.pow_nonzero; lia | exact Hge]).
  assert (B := Nat.bit_log2 (f i) ltac:(lia)). rewrite A, (proj2 (Nat.ltb_ge _ _) Hlog), testbit_high in B; [discriminate|].
  apply Nat.lt_le_trans with (2 ^ n); [exact Hi | apply Nat.pow_le_mono_r; lia].
Qed.

Theorem C108_apply_short (A : Type) linv w f (v : list A) i : exact_inverse linv -> is_Walsh linv w -> is_map w f ->
  i < length v -> length v <= f i -> walsh_apply linv w v = Err IndexErr.
Proof.
  intros Hl Hw Hm Hi Hf. assert (Hv := object_map linv w f Hl Hw Hm). destruct (valid_view w f Hv) as [p [Ep [Hp [Hg _]]]].
  rewrite (walsh_apply_perm linv w f v p Hl Hv Ep Hp Hg). apply (papply_err p v i Hp Hi). rewrite Hg. exact Hf.
Qed.

(** with a Perm on the left; a finite Perm that is not neutral is refused *)
Theorem C108_left_product linv w f p : exact_inverse linv -> is_Walsh linv w -> is_map w f -> is_Perm p ->
  (w_neutral w = true \/ neutral p = true \/ perilen p <> None ->
     exists r, perm_mul_walsh p w = Ok r /\ forall v, pget r v = pget p (f v)) /\
  (w_neutral w = false -> neutral p = false -> perilen p = None -> perm_mul_walsh p w = Err OtherPerilenMismatchError).
Proof.
  intros Hl Hw Hm Hpp. assert (Hv := object_map linv w f Hl Hw Hm). assert (Hp := is_Perm_wf p Hpp).
  destruct (valid_view w f Hv) as [q [Eq [Hq [Hg [Hn Hqq]]]]]. unfold perm_mul_walsh. rewrite Eq. cbn [bind]. split.
  - intro Hk. destruct (pmul_spec p q Hp Hq) as [s [Es [_ [Hs _]]]].
    + destruct Hk as [Hk|[Hk|Hk]]; [right; left; congruence | left; exact Hk|]. destruct (w_neutral w); [right; left; congruence|].
      right. right. rewrite Hqq. split; [intro; contradiction | discriminate].
    + exists s. split; [exact Es|]. intro v. rewrite Hs, Hg. reflexivity.
  - intros N Np Pp. apply pmul_reject; [exact Hp | exact Hq | exact Np | congruence|]. rewrite Hqq, N, Pp. intros [H _]. specialize (H eq_refl). discriminate.
Qed.

Example C108_ex :
  (let* w := WalshPerm (Some [3; 1]) None None false in
   let* c := walsh_cycles w in let* d := walsh_cycles_dynamic w None (Some 3) in let* n := walsh_order w in
   let* l := walsh_apply (fun _ => Ok None) w [10; 11; 12; 13] in
   let* t := walsh_transposed w in let* m := walsh_order t in
   let* p := Perm (ArgSeq [1; 2; 0]) (Some 3) in let* q := perm_mul_walsh p w in
   Ok (c, d, n, l, m, map (pget q) (seq 0 5), perilen q))
  = Ok ([[1; 3; 2]], [[1; 3; 2]; [5; 7; 6]], 3, [10; 12; 13; 11], 3, [1; 4; 2; 0; 5], Some 12) /\
  (let* w := WalshPerm (Some [3; 1]) None None false in walsh_cycles_dynamic w (Some 6) None) = Err NotPowerOfTwoError.
Proof. split; vm_compute; reflexivity. Qed.

Print Assumptions C108_cycles.
Print Assumptions C108_moved.
Print Assumptions C108_cycles_dynamic.
Print Assumptions C108_cycles_dynamic_default.
Print Assumptions C108_cycles_dynamic_refused.
Print Assumptions C108_neutral_cycles_refuted.
Print Assumptions C108_order.
Print Assumptions C108_matrix_product.
Print Assumptions C108_matrix_transposed.
Print Assumptions C108_transposed_product.
Print Assumptions C108_transposed_twice.
Print Assumptions C108_transposed_inverse.
Print Assumptions C108_transposed_order.
Print Assumptions C108_apply.
Print Assumptions C108_apply_length.
Print Assumptions C108_apply_short.
Print Assumptions C108_left_product.
