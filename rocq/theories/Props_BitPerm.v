(** Props_BitPerm: property C109 (permutations of binary digits as Walsh permutations and as
    Schoute permutations). *)

From Coq Require Import List Arith ZArith Bool Lia Permutation.
From Verif Require Import Model_Base Lib Model_Perm Model_Binary Model_SigPerm Model_WalshPerm Model_WalshMore Spec_Bits Spec_Perm Spec_WalshPerm
  Proof_Perm Proof_PermCycles Proof_PermGroup Proof_PermMore Proof_Binary Proof_Listing Proof_SigPermOps Proof_WalshLinear Proof_WalshPerm Proof_WalshOps
  Proof_WalshMore Proof_WalshIndex Proof_Inversions Props_WalshPerm Props_WalshMore.
From Verif Require Proof_Hyper.
Import ListNotations.
Open Scope nat_scope.

(** ** Specification *)

(** the list of the powers of two with the exponents p(0), p(1), ..., p(n-1) *)
Definition bit_vector (p : perm) (n : nat) : list nat := map (fun k => 2 ^ pget p k) (seq 0 n).

(** [f] moves every binary digit to the place given by [p] *)
Definition moves_bits (p : perm) (f : nat -> nat) : Prop :=
  forall x i, Nat.testbit (f x) (pget p i) = Nat.testbit x i.

(** ** Proofs *)

Definition pmat (p : perm) (i j : nat) : bool := pget p j =? i.

Lemma mat_vec_perm p r n x i : (forall k, pget r (pget p k) = k) -> (forall k, pget p (pget r k) = k) -> pget r i < n ->
  mat_vec n (pmat p) x i = x (pget r i).
Proof.
  intros H1 H2 Hi. unfold mat_vec. rewrite <- (xor_all_single x n (pget r i) Hi). apply xor_all_ext. intros j _. f_equal. unfold pmat.
  destruct (Nat.eqb_spec (pget p j) i) as [E|E], (Nat.eqb_spec (pget r i) j) as [E'|E']; try reflexivity; exfalso.
  - apply E'. rewrite <- E. apply H1.
  - apply E. rewrite <- E'. apply H2.
Qed.

Lemma stays_below p n : wf p -> perilen p = None -> plength p <= n -> forall i, i < n -> pget p i < n.
Proof.
  intros Hw Hn Hl i Hi. assert (F := proj1 (plength_finite p n Hw Hn) Hl).
  destruct (Nat.lt_ge_cases (pget p i) n) as [|Hge]; [assumption|]. assert (E := F _ Hge).
  apply (proj1 (pget_bij p Hw)) in E. lia.
Qed.

Lemma moves_unique p f g : bijective (pget p) -> moves_bits p f -> moves_bits p g -> forall x, f x = g x.
Proof. intros [_ Ho] Hf Hg x. apply Nat.bits_inj. intro i. destruct (Ho i) as [k <-]. rewrite Hf, Hg. reflexivity. Qed.

Lemma moves_pow p f k : bijective (pget p) -> moves_bits p f -> f (2 ^ k) = 2 ^ pget p k.
Proof.
  intros [Hi Ho] Hf. apply Nat.bits_inj. intro i. destruct (Ho i) as [j <-]. rewrite Hf, !testbit_pow.
  destruct (Nat.eqb_spec k j) as [->|E]; [rewrite Nat.eqb_refl; reflexivity|].
  destruct (Nat.eqb_spec (pget p k) (pget p j)) as [E'|]; [|reflexivity]. exfalso. apply E. apply Hi. exact E'.
Qed.

Lemma moves_acts p r n f : (forall k, pget r (pget p k) = k) -> (forall k, pget p (pget r k) = k) -> (forall i, n <= i -> pget p i = i) ->
  moves_bits p f <-> acts_as n (pmat p) f.
Proof.
  intros H1 H2 F. assert (Fr : forall i, n <= i -> pget r i = i) by (intros i Hi; rewrite <- (F i Hi) at 1; apply H1).
  assert (St : forall i, i < n -> pget r i < n).
  { intros i Hi. destruct (Nat.lt_ge_cases (pget r i) n) as [|Hge]; [assumption|]. assert (E := F _ Hge). rewrite H2 in E. lia. }
  split.
  - intros Hf x i. destruct (Nat.ltb_spec i n) as [Hi|Hi].
    + rewrite (mat_vec_perm p r n _ i H1 H2 (St i Hi)). rewrite <- (H2 i) at 1. apply Hf.
    + rewrite <- (F i Hi) at 1. apply Hf.
  - intros Hf x i. rewrite Hf. destruct (Nat.ltb_spec (pget p i) n) as [Hi|Hi].
    + rewrite (mat_vec_perm p r n _ _ H1 H2 (St _ Hi)). rewrite H1. reflexivity.
    + f_equal. rewrite <- (Fr _ Hi). apply H1.
Qed.

Lemma bit_core p n trust : is_Perm p -> perilen p = None -> plength p <= n ->
  exists w f, WalshPerm (Some (bit_vector p n)) None None trust = Ok w /\ valid w f /\ moves_bits p f /\ w_degree w = plength p.
Proof.
  intros Hp Np Hl. assert (Hw := is_Perm_wf p Hp). destruct (inv_ok p Hp) as [r [_ [Hr [H1 [H2 Kr]]]]].
  assert (F := proj1 (plength_finite p n Hw Np) Hl). assert (St := stays_below p n Hw Np Hl).
  assert (Str : forall i, i < n -> pget r i < n).
  { intros i Hi. destruct (Nat.lt_ge_cases (pget r i) n) as [|Hge]; [assumption|]. assert (E := F _ Hge). rewrite H2 in E. lia. }
  assert (Inv : invertible n (pmat p)).
  { exists (pmat r). intros i j Hi Hj. unfold mat_mat.
    rewrite (mat_vec_perm p r n _ i H1 H2 (Str i Hi)). rewrite (mat_vec_perm r p n _ i H2 H1 (St i Hi)). unfold pmat. split.
    - destruct (Nat.eqb_spec i j) as [->|E]; [apply Nat.eqb_refl|]. apply Nat.eqb_neq. intro E'. apply E. rewrite <- (H2 i), <- (H2 j), E'. reflexivity.
    - destruct (Nat.eqb_spec i j) as [->|E]; [apply Nat.eqb_refl|]. apply Nat.eqb_neq. intro E'. apply E. rewrite <- (H1 i), <- (H1 j), E'. reflexivity. }
  destruct (of_matrix_ok n (pmat p) (full n (pmat p)) trust Inv (full_acts _ _)) as [w [E [Hv Hd]]].
  assert (Hm : moves_bits p (full n (pmat p))) by (apply (moves_acts p r n _ H1 H2 F), full_acts).
  exists w, (full n (pmat p)). split; [|split; [exact Hv | split; [exact Hm|]]].
  - cbn [WalshPerm]. assert (Hlen : length (bit_vector p n) = n) by (unfold bit_vector; rewrite map_length, seq_length; reflexivity).
    rewrite of_vector_eq; rewrite Hlen.
    + rewrite <- E. f_equal. apply mk_ext. intros i j Hi Hj. unfold colbits, bit_vector, pmat.
      rewrite (nth_indep _ 0 (2 ^ pget p 0)) by (rewrite map_length, seq_length; exact Hj). rewrite (map_nth (fun k => 2 ^ pget p k)), seq_nth by exact Hj. apply testbit_pow.
    + intros v Hv'. unfold bit_vector in Hv'. apply in_map_iff in Hv' as [k [<- Hk]]. apply in_seq in Hk. apply pow_lt, St. lia.
  - apply Nat.le_antisymm.
    + apply (valid_degree w _ (plength p) (pmat p) Hv). apply (moves_acts p r (plength p) _ H1 H2 (proj1 (plength_finite p _ Hw Np) (le_n _))), Hm.
    + apply (plength_finite p _ Hw Np). intros k Hk. assert (E2 := valid_high w _ k Hv Hk). rewrite (moves_pow p _ k (pget_bij p Hw) Hm) in E2.
      apply Nat.pow_inj_r in E2; [exact E2 | lia].
Qed.

Lemma period_ext f g t : t <> 0 -> is_period f t -> is_period g t -> (forall x, x < t -> f x = g x) -> forall x, f x = g x.
Proof.
  intros Ht Hf Hg H x. rewrite (Nat.div_mod x t Ht). rewrite Nat.add_comm, Nat.mul_comm.
  rewrite (period_mul f t (x / t) Hf), (period_mul g t (x / t) Hg). f_equal. apply H. apply Nat.mod_upper_bound. exact Ht.
Qed.

Lemma neutral_listing P : wf P -> neutral P = true -> psequence P None = Ok [].
Proof.
  intros H N. assert (W := wf_peri P H). assert (M := proj1 (wf_neutral P H) N). unfold psequence. rewrite M in W.
  destruct (perilen P) as [q|]; [destruct W as [W _]; congruence|]. rewrite W. reflexivity.
Qed.

(** * Statements *)

(** the vector of powers of two is accepted; the object moves the binary digits like p, its
    degree is the length of p *)
Theorem C109_digits p n trust : is_Perm p -> perilen p = None -> plength p <= n ->
  exists w f, WalshPerm (Some (bit_vector p n)) None None trust = Ok w /\ is_map w f /\ moves_bits p f /\ w_degree w = plength p.
Proof.
  intros Hp Np Hl. destruct (bit_core p n trust Hp Np Hl) as [w [f [E [Hv [Hm Hd]]]]]. exists w, f.
  split; [exact E|]. split; [apply valid_map; exact Hv|]. auto.
Qed.

(** it is equal to the Schoute permutation of p *)
Theorem C109_schoute p n w : is_Perm p -> perilen p = None -> plength p <= n ->
  WalshPerm (Some (bit_vector p n)) None None false = Ok w ->
  exists P, perm_schoute p = Ok P /\ walsh_eqb_perm w P = Ok true.
Proof.
  intros Hp Np Hl E. destruct (bit_core p n false Hp Np Hl) as [w' [f [E' [Hv [Hm Hd]]]]].
  rewrite E in E'. injection E' as <-. destruct (perm_schoute_spec p Hp) as [P [EP [HP [_ [_ [_ [D1 D2]]]]]]]. exists P. split; [exact EP|].
  destruct (eqb_perm_spec w f P Hv (is_Perm_wf P HP)) as [q [Eq Hq]]. rewrite Eq. f_equal. apply Hq.
  apply (moves_unique p); [apply obj_bij; exact Hp | exact Hm|]. intros x i. destruct (Nat.lt_ge_cases i (plength p)) as [Hi|Hi]; [apply D1; exact Hi|].
  rewrite (proj1 (plength_finite p _ (is_Perm_wf p Hp) Np) (le_n _) i Hi). apply D2. exact Hi.
Qed.

(** the other way round: made from the Schoute permutation of p it is the same object, unless
    p is neutral; the Schoute permutation of the neutral permutation is refused *)
Theorem C109_from_schoute p n w P : is_Perm p -> perilen p = None -> plength p <= n ->
  WalshPerm (Some (bit_vector p n)) None None false = Ok w -> perm_schoute p = Ok P ->
  (neutral p = false -> exists w', WalshPerm None None (Some (WPerm P)) false = Ok w' /\ walsh_eqb w w' = true) /\
  (neutral p = true -> WalshPerm None None (Some (WPerm P)) false = Err ValueErr /\ w = walsh_neutral).
Proof.
  intros Hp Np Hl E EP0. destruct (bit_core p n false Hp Np Hl) as [w0 [f [E' [Hv [Hm Hd]]]]]. rewrite E in E'. injection E' as <-.
  destruct (perm_schoute_spec p Hp) as [P' [EP [HP [KP [Per [_ [D1 D2]]]]]]]. rewrite EP0 in EP. injection EP as <-.
  assert (HwP := is_Perm_wf P HP). assert (Hw := is_Perm_wf p Hp).
  assert (Ef : forall x, f x = pget P x).
  { apply (moves_unique p); [apply obj_bij; exact Hp | exact Hm|]. intros x i. destruct (Nat.lt_ge_cases i (plength p)) as [Hi|Hi]; [apply D1; exact Hi|].
    rewrite (proj1 (plength_finite p _ (is_Perm_wf p Hp) Np) (le_n _) i Hi). apply D2. exact Hi. }
  split; intro N.
  - assert (NP : neutral P = false).
    { destruct (neutral P) eqn:NP; [|reflexivity]. exfalso. assert (I := proj1 (wf_moves P HwP) NP).
      assert (T : neutral p = true); [|congruence]. apply (wf_moves p Hw). intro k. assert (T := I (2 ^ k)).
      rewrite <- Ef, (moves_pow p f k (pget_bij p Hw) Hm) in T. apply Nat.pow_inj_r in T; [exact T | lia]. }
    destruct KP as [KP|KP]; [congruence|]. destruct (perilen P) as [q|] eqn:Eq; [|congruence].
    assert (Min := pget_period P q HwP Eq). destruct Min as [Hq Hmin].
    assert (Dv : exists e, 2 ^ plength p = e * q) by (apply Hmin; [apply Nat.neq_0_lt_0, Nat.pow_nonzero; lia | exact Per]).
    destruct (pow2_divisor q (plength p)) as [k [_ Ek]]; [intros ->; destruct Dv as [e De]; rewrite Nat.mul_0_r in De; apply (Nat.pow_nonzero 2 (plength p)); lia | exact Dv|].
    destruct (C15_from_perm P false HP) as [l [Pl [Ll [Nl El]]]]. rewrite Eq in Ll. rewrite Ll, Ek in Pl.
    destruct (C15_from_list k l Pl) as [[_ [w' [g [Ew' [Mg [Pg Hg]]]]]] | [NL _]].
    + exists w'. split; [rewrite El; exact Ew'|].
      assert (Vw' : valid w' g).
      { destruct (seq_spec k l Pl) as [[_ [w2 [g2 [E2 [V2 _]]]]] | [_ E2]]; [|congruence].
        assert (w2 = w') by congruence. subst w2. apply (valid_ext w' g2); [exact V2|]. apply (valid_is_map w'); assumption. }
      apply (valid_eqb w w' f g Hv Vw'). intro v. rewrite Ef.
      apply (period_ext _ _ (2 ^ k)); [apply Nat.pow_nonzero; lia | rewrite <- Ek; exact Hq | exact Pg|].
      intros x Hx. rewrite Hg by exact Hx. symmetry. apply Nl. rewrite Ll, Ek. exact Hx.
    + exfalso. apply NL. intros i j Hi Hj. assert (Hij : Nat.lxor i j < 2 ^ k) by (apply Proof_Linear.lxor_lt; assumption).
      rewrite !Nl by (rewrite Ll, Ek; assumption). rewrite <- !Ef. apply (valid_linear w f Hv).
  - assert (I := proj1 (wf_moves p Hw) N). assert (If : forall x, f x = x).
    { intro x. apply (moves_unique p f (fun x => x)); [apply obj_bij; exact Hp | exact Hm|]. intros y i. rewrite I. reflexivity. }
    assert (NP : neutral P = true) by (apply (wf_moves P HwP); intro x; rewrite <- Ef; apply If).
    assert (Nw := proj2 (valid_neutral w f Hv) If). split.
    + cbn [WalshPerm]. unfold perm_to_matrix. rewrite (neutral_listing P HwP NP). reflexivity.
    + destruct Hv as [[-> _] | [d [b [Hb _]]]]; [reflexivity|]. rewrite (ww_neutral _ _ _ Hb) in Nw. discriminate.
Qed.

(** products and inverses correspond; the inverse is the transpose *)
Theorem C109_product p q n m l a b : is_Perm p -> is_Perm q -> perilen p = None -> perilen q = None ->
  plength p <= n -> plength q <= m -> plength p <= l -> plength q <= l ->
  WalshPerm (Some (bit_vector p n)) None None false = Ok a -> WalshPerm (Some (bit_vector q m)) None None false = Ok b ->
  exists c r s, pmul p q = Ok c /\ WalshPerm (Some (bit_vector c l)) None None false = Ok r /\ walsh_mul a b = Ok s /\ walsh_eqb r s = true.
Proof.
  intros Hp Hq Np Nq Ln Lm L1 L2 Ea Eb. destruct (mul_ok p q Hp Hq) as [c [Ec [Hc [Gc Kc]]]]; [tauto|]. specialize (Kc Np Nq).
  destruct (bit_core p n false Hp Np Ln) as [a' [f [Ea' [Va [Ma _]]]]]. rewrite Ea in Ea'. injection Ea' as <-.
  destruct (bit_core q m false Hq Nq Lm) as [b' [g [Eb' [Vb [Mb _]]]]]. rewrite Eb in Eb'. injection Eb' as <-.
  assert (Lc : plength c <= l).
  { apply (plength_finite c l (is_Perm_wf c Hc) Kc). intros x Hx. rewrite Gc, (proj1 (plength_finite q l (is_Perm_wf q Hq) Nq) L2 x Hx).
    apply (proj1 (plength_finite p l (is_Perm_wf p Hp) Np) L1). exact Hx. }
  destruct (bit_core c l false Hc Kc Lc) as [r [h [Er [Vr [Mr _]]]]]. destruct (mul_spec a b f g Va Vb) as [s [Es Vs]].
  exists c, r, s. split; [exact Ec|]. split; [exact Er|]. split; [exact Es|]. apply (valid_eqb r s _ _ Vr Vs).
  apply (moves_unique c); [apply obj_bij; exact Hc | exact Mr|]. intros x i. rewrite Gc, Ma, Mb. reflexivity.
Qed.

Theorem C109_inverse linv p n a : exact_inverse linv -> is_Perm p -> perilen p = None -> plength p <= n ->
  WalshPerm (Some (bit_vector p n)) None None false = Ok a ->
  exists q b i t, pinv p = Ok q /\ WalshPerm (Some (bit_vector q n)) None None false = Ok b /\
    walsh_inverse linv a = Ok i /\ walsh_transposed a = Ok t /\ walsh_eqb i b = true /\ walsh_eqb t b = true.
Proof.
  intros Hl Hp Np Ln Ea. destruct (bit_core p n false Hp Np Ln) as [a' [f [Ea' [Va [Ma _]]]]]. rewrite Ea in Ea'. injection Ea' as <-.
  destruct (inv_ok p Hp) as [q [Eq [Hq [H1 [H2 Kq]]]]]. assert (Nq := proj1 Kq Np).
  assert (Lq : plength q <= n).
  { apply (plength_finite q n (is_Perm_wf q Hq) Nq). intros x Hx. rewrite <- (proj1 (plength_finite p n (is_Perm_wf p Hp) Np) Ln x Hx) at 1. apply H1. }
  destruct (bit_core q n false Hq Nq Lq) as [b [g [Eb [Vb [Mb _]]]]].
  destruct (inverse_spec linv a f Hl Va) as [i [h [Ei [Vi [I1 I2]]]]]. destruct (transposed_spec a f Va) as [t [k [Et [Vt Ht]]]].
  exists q, b, i, t. repeat (split; [assumption|]). split.
  - apply (valid_eqb i b h g Vi Vb). intro v. rewrite <- (I2 (g v)). f_equal. symmetry. apply Nat.bits_inj. intro j.
    rewrite <- (H2 j) at 1. rewrite Ma. apply Mb.
  - apply (valid_eqb t b k g Vt Vb). apply linear_ext; [apply (valid_linear t k Vt) | apply (valid_linear b g Vb)|]. intro j.
    rewrite (moves_pow q g j (obj_bij q Hq) Mb). apply Nat.bits_inj. intro m. change (Nat.testbit (k (2 ^ j)) m) with (ent k m j). rewrite Ht. unfold ent.
    rewrite (moves_pow p f m (obj_bij p Hp) Ma), !testbit_pow.
    destruct (Nat.eqb_spec (pget p m) j) as [E|E], (Nat.eqb_spec (pget q j) m) as [E'|E']; try reflexivity; exfalso;
      [apply E'; rewrite <- E; apply H1 | apply E; rewrite <- E'; apply H2].
Qed.

Lemma moves_iter p f k : moves_bits p f -> forall x i, Nat.testbit (iter f k x) (iter (pget p) k i) = Nat.testbit x i.
Proof. intros Hf. induction k as [|k IH]; intros x i; cbn [iter]; [reflexivity|]. rewrite Hf. apply IH. Qed.

Lemma iter_inj f k : injective f -> injective (iter f k).
Proof. intro H. induction k as [|k IH]; intros x y E; cbn [iter] in E; [exact E | apply IH, H, E]. Qed.

(** both have the same order *)
Theorem C109_order p n a : is_Perm p -> perilen p = None -> plength p <= n ->
  WalshPerm (Some (bit_vector p n)) None None false = Ok a ->
  exists o, porder p = Ok o /\ walsh_order a = Ok o.
Proof.
  intros Hp Np Ln Ea. destruct (bit_core p n false Hp Np Ln) as [a' [f [Ea' [Va [Ma _]]]]]. rewrite Ea in Ea'. injection Ea' as <-.
  destruct (porder_spec p (is_Perm_wf p Hp)) as [o [Eo [Ho Hk]]]. destruct (order_valid a f Va) as [u [Eu [Hu Hku]]].
  exists o. split; [exact Eo|]. rewrite Eu. f_equal.
  assert (Eq : forall k, (forall x, iter f k x = x) <-> (forall i, iter (pget p) k i = i)).
  { intro k. split; intros H i.
    - assert (T := moves_iter p f k Ma (2 ^ i)). rewrite H in T. assert (T2 := T i). rewrite !testbit_pow, Nat.eqb_refl in T2. apply Nat.eqb_eq in T2. symmetry. exact T2.
    - apply Nat.bits_inj. intro j. rewrite <- (H j) at 1. apply moves_iter. exact Ma. }
  apply Nat.divide_antisym.
  - apply Hku. apply Eq, Hk. exists 1. lia.
  - apply (Hk u), Eq, Hku. exists 1. lia.
Qed.

(** different permutations make different objects *)
Theorem C109_faithful p q n m a b : is_Perm p -> is_Perm q -> perilen p = None -> perilen q = None ->
  plength p <= n -> plength q <= m ->
  WalshPerm (Some (bit_vector p n)) None None false = Ok a -> WalshPerm (Some (bit_vector q m)) None None false = Ok b ->
  walsh_eqb a b = perm_eqb p q.
Proof.
  intros Hp Hq Np Nq Ln Lm Ea Eb.
  destruct (bit_core p n false Hp Np Ln) as [a' [f [Ea' [Va [Ma _]]]]]. rewrite Ea in Ea'. injection Ea' as <-.
  destruct (bit_core q m false Hq Nq Lm) as [b' [g [Eb' [Vb [Mb _]]]]]. rewrite Eb in Eb'. injection Eb' as <-.
  apply eq_iff_eq_true. rewrite (valid_eqb a b f g Va Vb), (eq_actions p q Hp Hq). split; intro H.
  - intro k. assert (E := H (2 ^ k)). rewrite (moves_pow p f k (obj_bij p Hp) Ma), (moves_pow q g k (obj_bij q Hq) Mb) in E. apply Nat.pow_inj_r in E; [exact E | lia].
  - apply (moves_unique p); [apply obj_bij; exact Hp | exact Ma|]. intros x i. rewrite H. apply Mb.
Qed.

(** every Walsh permutation whose vector consists of powers of two is of this kind *)
Theorem C109_only linv w v : exact_inverse linv -> is_Walsh linv w -> walsh_vector w None = Ok v -> (forall x, In x v -> exists k, x = 2 ^ k) ->
  exists p r, is_Perm p /\ perilen p = None /\ plength p <= w_degree w /\ v = bit_vector p (w_degree w) /\
    WalshPerm (Some (bit_vector p (w_degree w))) None None false = Ok r /\ walsh_eqb w r = true.
Proof.
  intros Hl Hw Ev Hpow. destruct (object_valid linv w Hl Hw) as [f Hv]. set (n := w_degree w) in *.
  assert (E2 := vector_spec w f n Hv (le_n _)).
  assert (Ev' : v = map (fun k => f (2 ^ k)) (range n)).
  { unfold walsh_vector, walsh_extend in Ev, E2. fold n in Ev, E2. rewrite Ev in E2. injection E2 as ->. reflexivity. }
  set (s := map Nat.log2 v).
  assert (Es : s = map (fun k => Nat.log2 (f (2 ^ k))) (range n)) by (unfold s; rewrite Ev'; apply map_map).
  assert (Fk : forall k, k < n -> f (2 ^ k) = 2 ^ Nat.log2 (f (2 ^ k))).
  { intros k Hk. destruct (Hpow (f (2 ^ k))) as [j Hj]; [rewrite Ev'; apply (in_map (fun k => f (2 ^ k))), range_In; exact Hk|].
    rewrite Hj, Nat.log2_pow2 by lia. reflexivity. }
  assert (Bd : forall k, k < n -> Nat.log2 (f (2 ^ k)) < n).
  { intros k Hk. assert (B : f (2 ^ k) < 2 ^ n) by (apply (C108_apply_length linv w f n); [exact Hl | exact Hw | apply valid_map; exact Hv | apply le_n | apply pow_lt; exact Hk]).
    rewrite Fk in B by exact Hk. apply Nat.pow_lt_mono_r_iff in B; [exact B | lia]. }
  assert (ND : NoDup s).
  { rewrite Es. apply Proof_Hyper.NoDup_map_inj; [|apply seq_NoDup]. intros a b Ha Hb Hab. apply range_In in Ha. apply range_In in Hb.
    assert (E : f (2 ^ a) = f (2 ^ b)) by (rewrite (Fk a Ha), (Fk b Hb), Hab; reflexivity).
    apply (proj1 (valid_bijective w f Hv)) in E. apply Nat.pow_inj_r in E; [exact E | lia]. }
  assert (Ls : length s = n) by (rewrite Es, map_length; apply range_length).
  assert (Ps : Permutation s (range (length s))).
  { rewrite Ls. apply NoDup_Permutation_bis; [exact ND | rewrite Ls, range_length; lia|]. intros x Hx. rewrite Es in Hx.
    apply in_map_iff in Hx as [k [<- Hk]]. apply range_In in Hk. apply range_In, Bd. exact Hk. }
  destruct (Perm_seq_spec s Ps) as [p [Ep [Wp [Np Gp]]]]. rewrite Ls in Gp.
  assert (Hp : is_Perm p) by (apply (Spec_Perm.obj_new (ArgSeq s) None); [exact I | exact Ep]).
  assert (Lp : plength p <= n) by (apply (plength_finite p n Wp Np); intros x Hx; rewrite Gp, (proj2 (Nat.ltb_ge _ _) Hx); reflexivity).
  assert (Gk : forall k, 2 ^ pget p k = f (2 ^ k)).
  { intro k. rewrite Gp. destruct (Nat.ltb_spec k n) as [Hk|Hk]; [|symmetry; apply (valid_high w f k Hv Hk)].
    rewrite Es, (nth_indep _ 0 (Nat.log2 (f (2 ^ 0)))) by (rewrite map_length, range_length; exact Hk).
    rewrite (map_nth (fun k => Nat.log2 (f (2 ^ k)))), nth_range by exact Hk. symmetry. apply Fk. exact Hk. }
  destruct (bit_core p n false Hp Np Lp) as [r [g [Er [Vr [Mr _]]]]]. exists p, r.
  split; [exact Hp|]. split; [exact Np|]. split; [exact Lp|]. split; [rewrite Ev'; unfold bit_vector; apply map_ext; intro k; symmetry; apply Gk|].
  split; [exact Er|]. apply (valid_eqb w r f g Hv Vr). apply linear_ext; [apply (valid_linear w f Hv) | apply (valid_linear r g Vr)|].
  intro k. rewrite (moves_pow p g k (obj_bij p Hp) Mr). symmetry. apply Gk.
Qed.

(** the vector is what the inverse of p makes of 1, 2, 4, ... *)
Theorem C109_vector p q n : is_Perm p -> perilen p = None -> plength p <= n -> pinv p = Ok q ->
  papply q (map (fun k => 2 ^ k) (seq 0 n)) = Ok (bit_vector p n).
Proof.
  intros Hp Np Ln Eq. destruct (inv_ok p Hp) as [q' [Eq' [Hq [H1 [H2 Kq]]]]]. rewrite Eq in Eq'. injection Eq' as <-. assert (Nq := proj1 Kq Np).
  assert (Lq : plength q <= n).
  { apply (plength_finite q n (is_Perm_wf q Hq) Nq). intros x Hx. rewrite <- (proj1 (plength_finite p n (is_Perm_wf p Hp) Np) Ln x Hx) at 1. apply H1. }
  destruct (papply_spec q (map (fun k => 2 ^ k) (seq 0 n)) (is_Perm_wf q Hq)) as [r [E [Lr Hr]]].
  { rewrite map_length, seq_length. apply (stays_below q n (is_Perm_wf q Hq) Nq Lq). }
  rewrite map_length, seq_length in Lr, Hr. rewrite E. apply (f_equal Ok). unfold bit_vector. apply nth_error_ext'. intro i.
  destruct (Nat.lt_ge_cases i n) as [Hi|Hi].
  - assert (Hpi := stays_below p n (is_Perm_wf p Hp) Np Ln i Hi). assert (T := Hr _ Hpi). rewrite H1 in T. rewrite T.
    rewrite !nth_error_map, !(nth_error_nth' (seq 0 n) 0) by (rewrite seq_length; assumption). rewrite !seq_nth by assumption. reflexivity.
  - rewrite (proj2 (nth_error_None r i)) by lia. symmetry. apply nth_error_None. rewrite map_length, seq_length. exact Hi.
Qed.

(** permuting the binary digits of all numbers below 2^n is permuting the list of these
    numbers: with the object made from what p makes of 1, 2, 4, ... *)
Theorem C109_reorder linv p n : exact_inverse linv -> is_Perm p -> perilen p = None -> plength p <= n ->
  exists v w r, papply p (map (fun k => 2 ^ k) (seq 0 n)) = Ok v /\ WalshPerm (Some v) None None false = Ok w /\
    walsh_apply linv w (seq 0 (2 ^ n)) = Ok r /\ length r = 2 ^ n /\
    forall x, x < 2 ^ n -> exists bits, papply p (map (Nat.testbit x) (seq 0 n)) = Ok bits /\ length bits = n /\
      nth x r 0 < 2 ^ n /\ forall i, i < n -> Nat.testbit (nth x r 0) i = nth i bits false.
Proof.
  intros Hl Hp Np Ln. destruct (inv_ok p Hp) as [q [Eq [Hq [H1 [H2 Kq]]]]]. assert (Nq := proj1 Kq Np).
  assert (Lq : plength q <= n).
  { apply (plength_finite q n (is_Perm_wf q Hq) Nq). intros x Hx. rewrite <- (proj1 (plength_finite p n (is_Perm_wf p Hp) Np) Ln x Hx) at 1. apply H1. }
  destruct (inv_ok q Hq) as [p' [Eq' [Hp' [J1 [J2 _]]]]].
  assert (Epp : forall x, pget p' x = pget p x) by (intro x; rewrite <- (J1 (pget p x)), H1; reflexivity).
  destruct (bit_core q n false Hq Nq Lq) as [w [g [Ew [Vw [Mw Dw]]]]].
  exists (bit_vector q n), w.
  assert (Ev : papply p (map (fun k => 2 ^ k) (seq 0 n)) = Ok (bit_vector q n)).
  { destruct (papply_spec p (map (fun k => 2 ^ k) (seq 0 n)) (is_Perm_wf p Hp)) as [r [E [Lr Hr]]].
    { rewrite map_length, seq_length. apply (stays_below p n (is_Perm_wf p Hp) Np Ln). }
    rewrite map_length, seq_length in Lr, Hr. rewrite E. apply (f_equal Ok). unfold bit_vector. apply nth_error_ext'. intro i.
    destruct (Nat.lt_ge_cases i n) as [Hi|Hi].
    - assert (Hpi := stays_below q n (is_Perm_wf q Hq) Nq Lq i Hi). assert (T := Hr _ Hpi). rewrite H2 in T. rewrite T.
      rewrite !nth_error_map, !(nth_error_nth' (seq 0 n) 0) by (rewrite seq_length; assumption). rewrite !seq_nth by assumption. reflexivity.
    - rewrite (proj2 (nth_error_None r i)) by lia. symmetry. apply nth_error_None. rewrite map_length, seq_length. exact Hi. }
  assert (Bg : forall x, x < 2 ^ n -> g x < 2 ^ n).
  { intros x Hx. apply (C108_apply_length linv w g n); [exact Hl | apply (walsh_vec linv (bit_vector q n)); exact Ew | apply valid_map; exact Vw | lia | exact Hx]. }
  destruct (valid_view w g Vw) as [P [EP [HP [GP _]]]].
  destruct (papply_spec P (seq 0 (2 ^ n)) HP) as [r [E [Lr Hr]]]; [intros i Hi; rewrite seq_length in *; rewrite GP; apply Bg; exact Hi|].
  rewrite seq_length in Lr, Hr. exists r. split; [exact Ev|]. split; [exact Ew|].
  split; [rewrite (walsh_apply_perm linv w g _ P Hl Vw EP HP GP); exact E|]. split; [exact Lr|]. intros x Hx.
  destruct (papply_spec p (map (Nat.testbit x) (seq 0 n)) (is_Perm_wf p Hp)) as [bits [Eb [Lb Hb]]].
  { rewrite map_length, seq_length. apply (stays_below p n (is_Perm_wf p Hp) Np Ln). }
  rewrite map_length, seq_length in Lb, Hb. exists bits. split; [exact Eb|]. split; [exact Lb|].
  destruct (proj2 (valid_bijective w g Vw) x) as [y Hy].
  assert (Hy2 : y < 2 ^ n).
  { destruct (bit_core p n false Hp Np Ln) as [u [h [Eu [Vu [Mu Du]]]]]. assert (Eh : h x = y).
    { apply (proj1 (valid_bijective w g Vw)). rewrite Hy. apply Nat.bits_inj. intro i. rewrite <- (H1 i) at 1. rewrite Mw. apply Mu. }
    rewrite <- Eh. apply (C108_apply_length linv u h n); [exact Hl | apply (walsh_vec linv (bit_vector p n)); exact Eu | apply valid_map; exact Vu | lia | exact Hx]. }
  assert (Nx : nth x r 0 = y).
  { assert (T := Hr y Hy2). rewrite GP, Hy in T. rewrite (nth_error_nth' (seq 0 (2 ^ n)) 0), seq_nth in T by (try rewrite seq_length; exact Hy2).
    apply nth_error_nth. exact T. }
  rewrite Nx. split; [exact Hy2|]. intros i Hi. assert (Hqi := stays_below q n (is_Perm_wf q Hq) Nq Lq i Hi).
  assert (T := Hb _ Hqi). rewrite H2 in T.
  rewrite nth_error_map, (nth_error_nth' (seq 0 n) 0), seq_nth in T by (try rewrite seq_length; exact Hqi). cbn [option_map Nat.add] in T.
  rewrite (nth_error_nth _ _ false T), <- Hy. symmetry. apply Mw.
Qed.

Print Assumptions C109_digits.
Print Assumptions C109_schoute.
Print Assumptions C109_from_schoute.
Print Assumptions C109_product.
Print Assumptions C109_inverse.
Print Assumptions C109_order.
Print Assumptions C109_faithful.
Print Assumptions C109_only.
Print Assumptions C109_vector.
Print Assumptions C109_reorder.

(** the permutation 2, 0, 1 and the vector 4, 1, 2 *)
Example C109_ex : exists p w P, Perm (ArgSeq [2; 0; 1]) None = Ok p /\ is_Perm p /\ perilen p = None /\ bit_vector p 3 = [4; 1; 2] /\
  WalshPerm (Some [4; 1; 2]) None None false = Ok w /\ walsh_sequence w None None = Ok [0; 4; 1; 5; 2; 6; 3; 7] /\
  perm_schoute p = Ok P /\ psequence P None = Ok [0; 4; 1; 5; 2; 6; 3; 7] /\
  papply p [1; 2; 4] = Ok [2; 4; 1] /\ papply p [true; true; false] = Ok [true; false; true] /\ walsh_order w = Ok 3.
Proof.
  do 3 eexists. split; [vm_compute; reflexivity|]. split; [apply (Spec_Perm.obj_new (ArgSeq [2; 0; 1]) None); [exact I | vm_compute; reflexivity]|].
  repeat split; vm_compute; reflexivity.
Qed.
