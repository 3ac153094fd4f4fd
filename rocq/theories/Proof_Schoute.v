(** Proof_Schoute: lemmas about Model_Schoute. *)

From Coq Require Import List Arith ZArith Bool Lia Permutation.
From Verif Require Import Model_Base Lib Model_Perm Model_Binary Model_SigPerm Model_WalshPerm Model_Boolf Model_Schoute Spec_Bits Spec_Perm Spec_SigPerm Spec_Boolf.
From Verif Require Import Proof_Perm Proof_Inversions Proof_PermGroup Proof_PermMore Proof_SigPerm Proof_SigPermMore Proof_SigPermOps Proof_Binary Proof_WalshLinear.
From Verif Require Import Proof_Twin Proof_Deflate Proof_WalshIndex Proof_Boolf Proof_BoolfTable Proof_BoolfMake Proof_Noble Proof_BoolfWalsh.
Import ListNotations.
Open Scope nat_scope.

(** * Atom patterns *)

Lemma atompattern_hit F n a b : a < n -> (forall x, x < 2 ^ n -> F x = xorb b (Nat.testbit x a)) ->
  atompattern_to_signed_index (map F (range (2 ^ n))) = Ok (a, b).
Proof.
  intros Ha HF. destruct (root_object F n) as [g [E [R [Hg Ht]]]]. unfold atompattern_to_signed_index. rewrite E. cbn [bind].
  destruct (set_unary_spec (lit a b)) as [Ru Su].
  assert (Ea : atomvals (set_unary (lit a b)) = [a]).
  { unfold set_unary, lit, neg. destruct b; [rewrite (proj2 (Z.ltb_lt _ _)) by lia | rewrite (proj2 (Z.ltb_ge _ _)) by lia]; cbn [atomvals]; f_equal; lia. }
  assert (Hu : adicity (set_unary (lit a b)) <= n).
  { apply adicity_least. rewrite Ea. intros x [<-|[]]. exact Ha. }
  assert (Eg : g = set_unary (lit a b)).
  { apply reduced_unique; [exact R | exact Ru |]. apply (tab_inj _ _ n Hg Hu). intros i Hi. rewrite Ht, HF by exact Hi. unfold tab. rewrite Su. unfold litval.
    rewrite atom_lit, negated_lit. apply xorb_comm. }
  rewrite tt_default by (apply R). cbn [bind]. assert (Hp := pow2_pos (adicity g)).
  rewrite (lget_ok _ 0 false) by (rewrite map_length, range_length; exact Hp). cbn [bind]. rewrite nth_map_range by exact Hp.
  assert (H0 := pow2_pos n). rewrite Ht, HF by exact H0. rewrite Nat.bits_0, xorb_false_r. subst g. rewrite Ea. reflexivity.
Qed.

Lemma atompattern_dec F n :
  (exists a b, a < n /\ (forall x, x < 2 ^ n -> F x = xorb b (Nat.testbit x a)) /\ atompattern_to_signed_index (map F (range (2 ^ n))) = Ok (a, b)) \/
  atompattern_to_signed_index (map F (range (2 ^ n))) = Err AssertErr.
Proof.
  destruct (root_object F n) as [g [E [R [Hg Ht]]]].
  destruct (Nat.eq_dec (length (atomvals g)) 1) as [El|El].
  2: { right. unfold atompattern_to_signed_index. rewrite E. cbn [bind]. rewrite tt_default by (apply R). cbn [bind]. assert (Hp := pow2_pos (adicity g)).
       rewrite (lget_ok _ 0 false) by (rewrite map_length, range_length; exact Hp). cbn [bind]. rewrite (proj2 (Nat.eqb_neq _ _) El). reflexivity. }
  left. enough (H : exists a b, a < n /\ forall x, x < 2 ^ n -> F x = xorb b (Nat.testbit x a)).
  { destruct H as [a [b [Ha Hb]]]. exists a, b. split; [exact Ha|]. split; [exact Hb|]. apply atompattern_hit; assumption. }
  destruct (atomvals g) as [|a [|? ?]] eqn:Ea; try discriminate El. exists a.
  assert (Hs : forall e, sem g e = nth (Nat.b2n (e a)) (root g) false).
  { intro e. unfold sem, table. rewrite Ea. cbn [map b2n]. rewrite Nat.mul_0_r, Nat.add_0_r. reflexivity. }
  assert (He : essential (sem g) a) by (apply (proj1 (proj2 R)); rewrite Ea; left; reflexivity).
  destruct He as [e He]. rewrite !Hs, !upd_eq in He. cbn [Nat.b2n] in He.
  exists (nth 0 (root g) false). split; [apply Nat.lt_le_trans with (adicity g); [apply adicity_bound; rewrite Ea; left; reflexivity | exact Hg]|].
  intros x Hx. rewrite <- Ht by exact Hx. unfold tab. rewrite Hs. destruct (Nat.testbit x a); cbn [Nat.b2n].
  - rewrite xorb_true_r. destruct (nth 1 (root g) false), (nth 0 (root g) false); try reflexivity; exfalso; apply He; reflexivity.
  - rewrite xorb_false_r. reflexivity.
Qed.

(** * The inverse sequence *)

Lemma mapM_ext {A B} (f g : A -> res B) l : (forall x, In x l -> f x = g x) -> mapM f l = mapM g l.
Proof.
  induction l as [|x l IH]; intro H; [reflexivity|]. cbn [mapM]. rewrite (H x (or_introl eq_refl)), IH by (intros; apply H; right; assumption). reflexivity.
Qed.

Lemma finite_inverse_form P n : is_Perm P -> neutral P = false -> plength P = 2 ^ n -> n <> 0 ->
  schoute_to_finite_inverse (SchoutePerm P) =
  mapM (fun i => let* an := atompattern_to_signed_index (map (fun x => Nat.testbit (pget P x) i) (range (2 ^ n))) in
                 Ok (if snd an : bool then tilde (Z.of_nat (fst an)) else Z.of_nat (fst an))) (range n).
Proof.
  intros HP Hn Hl H0. unfold schoute_to_finite_inverse. cbn [bind]. rewrite Hn, Hl, is_power_true. cbn [true_except bind].
  rewrite Nat.log2_pow2 by lia. rewrite (mapM_ok _ (fun x => map (Nat.testbit (pget P x)) (range n))).
  2: { intros x Hx. apply range_In in Hx. apply Binv_vec; [|exact H0]. rewrite <- Hl. apply perm_stays; [apply is_Perm_wf; exact HP | lia]. }
  cbn [bind]. apply mapM_ext. intros i Hi. apply range_In in Hi. cbv zeta. rewrite map_map.
  rewrite (map_ext_in _ (fun x => Nat.testbit (pget P x) i)); [reflexivity|]. intros x _. apply nth_map_range. exact Hi.
Qed.

(** bit i of the image is a literal of the argument *)
Definition bit_is (P : perm) (n i : nat) (z : Z) : Prop :=
  atom z < n /\ forall x, x < 2 ^ n -> Nat.testbit (pget P x) i = xorb (negated z) (Nat.testbit x (atom z)).

Lemma finite_inverse_hit P n g : is_Perm P -> neutral P = false -> plength P = 2 ^ n -> n <> 0 -> (forall i, i < n -> bit_is P n i (g i)) ->
  schoute_to_finite_inverse (SchoutePerm P) = Ok (map g (range n)).
Proof.
  intros HP Hn Hl H0 Hg. rewrite (finite_inverse_form P n HP Hn Hl H0). apply mapM_ok. intros i Hi. apply range_In in Hi. destruct (Hg i Hi) as [Ha Hb].
  rewrite (atompattern_hit _ n (atom (g i)) (negated (g i)) Ha Hb). cbn [bind fst snd]. rewrite tilde_neg. f_equal. apply lit_of.
Qed.

Lemma mapM_dec {A B} (f : A -> res B) (R : A -> B -> Prop) e l : (forall x, In x l -> (exists y, f x = Ok y /\ R x y) \/ f x = Err e) ->
  (exists r, mapM f l = Ok r /\ Forall2 R l r) \/ mapM f l = Err e.
Proof.
  induction l as [|a l IH]; intro H; [left; exists []; split; constructor|]. cbn [mapM].
  destruct (H a (or_introl eq_refl)) as [[y [Ey Ry]]|Ea]; [|right; rewrite Ea; reflexivity]. rewrite Ey. cbn [bind].
  destruct IH as [[r [Er Hr]]|Er]; [intros; apply H; right; assumption | |]; rewrite Er; [left | right; reflexivity].
  exists (y :: r). split; [reflexivity | constructor; assumption].
Qed.

Lemma finite_inverse_dec P n : is_Perm P -> neutral P = false -> plength P = 2 ^ n -> n <> 0 ->
  (exists g, (forall i, i < n -> bit_is P n i (g i)) /\ schoute_to_finite_inverse (SchoutePerm P) = Ok (map g (range n))) \/
  schoute_to_finite_inverse (SchoutePerm P) = Err AssertErr.
Proof.
  intros HP Hn Hl H0. rewrite (finite_inverse_form P n HP Hn Hl H0).
  match goal with |- context [mapM ?f _] => destruct (mapM_dec f (bit_is P n) AssertErr (range n)) as [[r [Er Hr]]|Er] end.
  - intros i _. destruct (atompattern_dec (fun x => Nat.testbit (pget P x) i) n) as [[a [b [Ha [Hb E]]]]|E]; rewrite E; [left | right; reflexivity].
    exists (lit a b). split; [cbn [bind fst snd]; rewrite tilde_neg; reflexivity|]. split; rewrite atom_lit; [exact Ha|]. rewrite negated_lit. exact Hb.
  - left. exists (fun i => nth i r 0%Z). rewrite Er. assert (Lr := Forall2_len _ _ _ Hr). rewrite range_length in Lr. split.
    + intros i Hi. assert (G := Forall2_at _ _ _ i 0 0%Z Hr). rewrite range_length, nth_range in G by exact Hi. apply G. exact Hi.
    + f_equal. apply nth_ext with (d := 0%Z) (d' := 0%Z); [rewrite map_length, range_length; auto|]. intros i Hi. rewrite nth_map_range by lia. reflexivity.
  - right. exact Er.
Qed.

(** * The constructor *)

Lemma bit_inj P n g : is_Perm P -> plength P = 2 ^ n -> (forall i, i < n -> bit_is P n i (g i)) ->
  forall i j, i < n -> j < n -> atom (g i) = atom (g j) -> i = j.
Proof.
  intros HP Hl Hg i j Hi Hj E. destruct (Nat.eq_dec i j) as [|Hne]; [assumption|]. exfalso.
  assert (Hpre : forall y, y < 2 ^ n -> exists x, x < 2 ^ n /\ pget P x = y).
  { intros y Hy. destruct (inv_ok P HP) as [r [Er [Hro [H1 [H2 Hk]]]]]. exists (pget r y). split; [|apply H2].
    assert (Hlr := plength_inv P r HP Hro H1 H2 Hk). rewrite <- Hl, <- Hlr. apply perm_stays; [apply is_Perm_wf; exact Hro | lia]. }
  destruct (Hpre 0 (pow2_pos n)) as [x [Hx Ex]]. destruct (Hpre (2 ^ i)) as [y [Hy Ey]]; [apply Nat.pow_lt_mono_r; lia|].
  assert (A1 := proj2 (Hg i Hi) x Hx). assert (A2 := proj2 (Hg j Hj) x Hx). assert (A3 := proj2 (Hg i Hi) y Hy). assert (A4 := proj2 (Hg j Hj) y Hy).
  rewrite Ex, Nat.bits_0 in A1, A2. rewrite Ey in A3, A4. rewrite Nat.pow2_bits_true in A3. rewrite Nat.pow2_bits_false in A4 by congruence.
  rewrite <- E in A2, A4. destruct (negated (g i)), (negated (g j)), (Nat.testbit x (atom (g i))), (Nat.testbit y (atom (g i))); discriminate.
Qed.

Lemma from_inverse n g : (forall k, k < n -> atom (g k) < n) -> (forall i j, i < n -> j < n -> atom (g i) = atom (g j) -> i = j) ->
  exists t, (let* matrix := sequence_to_matrix (map g (range n)) true in let* sequence := matrix_to_sequence matrix in sig_of_sequence sequence) = Ok t /\
    is_SigPerm t /\ swf t /\ sg_length t <= n /\ forall k, k < n -> on_literals g (sf t k) = Z.of_nat k.
Proof.
  intros Hst Hi. destruct (seq_of_fun n g Hst Hi) as [u [Eu [Hu [_ Fu]]]]. destruct (inv_spec u Hu) as [v [Ev [Hv [_ [Lv [H1 [H2 _]]]]]]].
  assert (Lu : sg_length u <= n) by (apply (length_least u Hu); intros k Hk; rewrite Fu, (proj2 (Nat.ltb_ge _ _) Hk); reflexivity).
  assert (Hg : forall k, k < n -> sf u k = g k) by (intros k Hk; rewrite Fu, (proj2 (Nat.ltb_lt _ _) Hk); reflexivity).
  assert (Hvs : forall k, k < n -> atom (sf v k) < n) by (intros k Hk; apply sf_stays; [exact Hv | lia | exact Hk]).
  assert (Hlit : forall k, k < n -> on_literals g (sf v k) = Z.of_nat k).
  { intros k Hk. rewrite <- (H1 k). unfold on_literals. rewrite <- (Hg (atom (sf v k))) by (apply Hvs; exact Hk). reflexivity. }
  assert (Em : sequence_to_matrix (map g (range n)) true = Ok (fmat n (sf v))).
  { assert (Em := sequence_to_matrix_ok n g Hst). unfold sequence_to_matrix in *. cbv zeta in *. rewrite map_length, range_length in *.
    destruct (foldM _ (enumerate (map g (range n))) _) as [mat|]; [|discriminate Em]. cbn [bind] in *. injection Em as ->. f_equal.
    apply transpose_ok; [exact Hst | exact Hvs | exact Hlit|]. intros k Hk. rewrite <- (Hg k Hk). apply H2. }
  rewrite Em. cbn [bind]. rewrite matrix_to_sequence_ok by exact Hvs. cbn [bind].
  destruct (seq_of_fun n (sf v) Hvs) as [t [Et [Ht [_ Ft]]]].
  { intros i j Hi' Hj' E. rewrite !sf_atom in E. apply (proj1 (s_bij v Hv)). exact E. }
  assert (Hl : sg_length t <= n) by (apply (length_least t Ht); intros k Hk; rewrite Ft, (proj2 (Nat.ltb_ge _ _) Hk); reflexivity).
  exists t. split; [exact Et|]. split; [|split; [exact Ht|]; split; [exact Hl|]].
  - apply (sig_new None None None None None None None (Some (map (sf v) (range n))) None); [exact I | exact Et | apply sw_fin; exact Ht].
  - intros k Hk. rewrite Ft, (proj2 (Nat.ltb_lt _ _) Hk). apply Hlit. exact Hk.
Qed.

Lemma schoute_hit P n g : is_Perm P -> neutral P = false -> plength P = 2 ^ n -> n <> 0 -> (forall i, i < n -> bit_is P n i (g i)) ->
  exists t, SigPerm_schoute (SchoutePerm P) = Ok t /\ is_SigPerm t /\ swf t /\ sg_length t <= n /\
    forall x i, x < 2 ^ n -> Nat.testbit (pget P x) (atom (sf t i)) = xorb (negated (sf t i)) (Nat.testbit x i).
Proof.
  intros HP Hn Hl H0 Hg. unfold SigPerm_schoute. rewrite (finite_inverse_hit P n g HP Hn Hl H0 Hg). cbn [bind].
  destruct (from_inverse n g) as [t [Et [Ho [Ht [Hlt Hlit]]]]]; [intros k Hk; apply (Hg k Hk) | apply (bit_inj P n g HP Hl Hg)|].
  exists t. split; [exact Et|]. split; [exact Ho|]. split; [exact Ht|]. split; [exact Hlt|]. intros x i Hx.
  destruct (Nat.lt_ge_cases i n) as [Hi|Hi].
  - assert (Ha : atom (sf t i) < n) by (apply sf_stays; [exact Ht | exact Hlt | exact Hi]).
    rewrite (proj2 (Hg _ Ha) x Hx). rewrite (inverse_entry (sf t) g i (Hlit i Hi)). rewrite atom_lit, negated_lit. reflexivity.
  - rewrite sf_high by (exact Ht || lia). rewrite atom_nat, negated_nat, xorb_false_l.
    rewrite (bit_bound_lt x n Hx i Hi). apply (bit_bound_lt (pget P x) n); [|exact Hi]. rewrite <- Hl. apply perm_stays; [apply is_Perm_wf; exact HP | lia].
Qed.

(** the period of a Schoute permutation is 2^length *)
Lemma schoute_length s P : swf s -> sg_schoute s = Ok P ->
  is_Perm P /\ (neutral P = true <-> sg_length s = 0) /\ (neutral P = false -> plength P = 2 ^ sg_length s /\ perilen P <> None) /\ digits P (sf s) /\
  is_period (pget P) (2 ^ sg_length s).
Proof.
  intros Hs E. destruct (sg_schoute_spec s Hs) as [P' [E' [HP [Hk [Hper [Hst Hd]]]]]]. assert (P' = P) by congruence. subst P'.
  assert (Hw := is_Perm_wf P HP). split; [exact HP|].
  assert (Hneut : neutral P = true <-> sg_length s = 0).
  { split; intro H.
    - apply Nat.le_0_r, (length_least s Hs). intros k _. assert (Hid : forall x, pget P x = x) by (intro x; unfold pget; rewrite H; reflexivity).
      assert (A : forall x, Nat.testbit x (atom (sf s k)) = xorb (negated (sf s k)) (Nat.testbit x k)) by (intro x; rewrite <- Hd, Hid; reflexivity).
      assert (A0 := A 0). rewrite !Nat.bits_0, xorb_false_r in A0. assert (A1 := A (2 ^ k)). rewrite <- A0, xorb_false_l, Nat.pow2_bits_true in A1.
      rewrite Nat.pow2_bits_eqb in A1. apply Nat.eqb_eq in A1. rewrite <- (lit_of (sf s k)), <- A0, <- A1. reflexivity.
    - assert (Hid : forall x, pget P x = x).
      { intro x. apply Nat.bits_inj. intro i. assert (G := Hd x i). rewrite (sf_high s Hs i) in G by lia. rewrite atom_nat, negated_nat, xorb_false_l in G. exact G. }
      assert (Hw0 : is_Perm neutral_perm) by (apply (obj_new ArgNone None); [exact I | reflexivity]).
      assert (Ee := proj2 (eq_actions P neutral_perm HP Hw0) Hid). unfold perm_eqb in Ee. destruct (neutral P) eqn:En; [reflexivity|]. cbn [andb] in Ee.
      apply andb_true_iff in Ee as [_ Ee]. cbn [perilen neutral_perm] in Ee. destruct Hk as [Hk|Hk]; [congruence|]. destruct (perilen P); [discriminate Ee | congruence]. }
  split; [exact Hneut|]. split; [|split; assumption].
  intro Hf. destruct Hk as [Hk|Hk]; [congruence|]. split; [|exact Hk]. destruct (perilen P) as [q|] eqn:Eq; [|congruence]. 
  destruct (min_period P q HP Eq) as [Hq [Hpq Hmin]]. destruct (Hmin (2 ^ sg_length s)) as [c Hc]; [apply pow2_pos | exact Hper|].
  destruct (pow2_divisor q (sg_length s)) as [m [Hm Em]]; [lia | exists c; exact Hc|].
  assert (Hl : plength P = q) by (assert (W := wf_peri P Hw); rewrite Eq in W; apply W). rewrite Hl, Em. f_equal.
  apply Nat.le_antisymm; [exact Hm|]. apply (length_least s Hs). intros k Hk'.
  assert (H0 : pget P 0 < 2 ^ m) by (rewrite <- Em, <- Hl; apply perm_stays; [exact Hw | lia]).
  assert (Hkm : 2 ^ m <= 2 ^ k) by (apply Nat.pow_le_mono_r; lia).
  assert (Hx : pget P (2 ^ k) = 2 ^ k + pget P 0).
  { assert (Ek : 2 ^ k = 0 + 2 ^ (k - m) * q) by (rewrite Nat.add_0_l, Em, <- Nat.pow_add_r; f_equal; lia). rewrite Ek at 1. rewrite (period_mult _ _ _ _ Hpq). lia. }
  assert (D0 := Hd 0 k). rewrite Nat.bits_0, xorb_false_r in D0. assert (D1 := Hd (2 ^ k) k). rewrite Hx, Nat.pow2_bits_true, <- D0, xorb_true_r in D1.
  assert (Hb : forall i, Nat.testbit (2 ^ k + pget P 0) i = xorb (Nat.eqb k i) (Nat.testbit (pget P 0) i)).
  { intro i. rewrite <- Nat.pow2_bits_eqb, <- Nat.lxor_spec. f_equal. apply Nat.add_nocarry_lxor.
    apply Nat.bits_inj; intro j; rewrite Nat.land_spec, Nat.bits_0, Nat.pow2_bits_eqb; destruct (Nat.eqb_spec k j) as [<-|]; try reflexivity;
    rewrite (bit_bound_lt (pget P 0) k); try reflexivity; lia. }
  rewrite Hb in D1. destruct (Nat.eqb_spec k (atom (sf s k))) as [Ek|Ek].
  2: { rewrite xorb_false_l in D1. destruct (Nat.testbit (pget P 0) (atom (sf s k))); discriminate D1. }
  rewrite <- (lit_of (sf s k)), <- D0, <- Ek. rewrite (bit_bound_lt (pget P 0) m H0 k Hk'). reflexivity.
Qed.

Lemma schoute_roundtrip s P : swf s -> sg_schoute s = Ok P ->
  exists t, SigPerm_schoute (SchoutePerm P) = Ok t /\ is_SigPerm t /\ swf t /\ forall k, sf t k = sf s k.
Proof.
  intros Hs E. destruct (schoute_length s P Hs E) as [HP [Hneut [Hl [Hd Hper]]]]. destruct (neutral P) eqn:En.
  - assert (E0 := proj1 Hneut eq_refl). destruct (from_inverse 0 (fun k => Z.of_nat k)) as [t [Et [Ho [Ht [Hlt _]]]]]; [lia | lia|].
    exists t. split; [unfold SigPerm_schoute, schoute_to_finite_inverse; cbn [bind]; rewrite En; exact Et|]. split; [exact Ho|]. split; [exact Ht|].
    intro k. rewrite (sf_high t Ht k), (sf_high s Hs k) by lia. reflexivity.
  - destruct (Hl eq_refl) as [Hlen Hpk]. assert (H0 : sg_length s <> 0) by (intro H0; apply Hneut in H0; congruence).
    destruct (inv_spec s Hs) as [v [Ev [Hv [_ [Lv [H1 [H2 _]]]]]]].
    destruct (schoute_hit P (sg_length s) (sf v) HP En Hlen H0) as [t [Et [Ho [Ht [Hlt Hbit]]]]].
    { intros i Hi. assert (Ha : atom (sf v i) < sg_length s) by (apply sf_stays; [exact Hv | lia | exact Hi]). split; [exact Ha|]. intros x Hx.
      assert (D := Hd x (atom (sf v i))). rewrite (inverse_entry (sf v) (sf s) i (H1 i)), atom_lit, negated_lit in D. exact D. }
    exists t. split; [exact Et|]. split; [exact Ho|]. split; [exact Ht|]. intro k.
    destruct (Nat.lt_ge_cases k (sg_length s)) as [Hk|Hk]; [|rewrite (sf_high t Ht k), (sf_high s Hs k) by lia; reflexivity].
    assert (Hp := pow2_pos (sg_length s)). assert (Hk2 : 2 ^ k < 2 ^ sg_length s) by (apply Nat.pow_lt_mono_r; lia).
    (* the only bits in which the images of 0 and 2^k differ *)
    assert (A0 := Hbit 0 k Hp). assert (A1 := Hbit (2 ^ k) k Hk2). rewrite Nat.bits_0, xorb_false_r in A0. rewrite Nat.pow2_bits_true, xorb_true_r in A1.
    assert (Ea : atom (sf s k) = atom (sf t k)).
    { destruct (sf_onto s Hs (atom (sf t k))) as [j Hj]. assert (B0 := Hd 0 j). assert (B1 := Hd (2 ^ k) j). rewrite Hj in B0, B1.
      rewrite Nat.bits_0, xorb_false_r in B0. rewrite Nat.pow2_bits_eqb in B1. rewrite A0 in B0. rewrite A1, <- B0 in B1.
      destruct (Nat.eqb_spec k j) as [<-|Hne]; [exact Hj|]. rewrite xorb_false_r in B1. destruct (negated (sf t k)); discriminate B1. }
    rewrite <- (lit_of (sf t k)), <- (lit_of (sf s k)), Ea. f_equal. assert (B0 := Hd 0 k). rewrite Nat.bits_0, xorb_false_r, Ea in B0. congruence.
Qed.

Lemma schoute_cong P Q : is_Perm P -> is_Perm Q -> (forall x, pget P x = pget Q x) -> schoute_to_finite_inverse (SchoutePerm P) = schoute_to_finite_inverse (SchoutePerm Q).
Proof.
  intros HP HQ E. destruct (eq_attributes P Q HP HQ E) as [_ [El [En _]]]. unfold schoute_to_finite_inverse. cbn [bind]. rewrite En, El.
  rewrite (mapM_ext (fun i => Binv_intval (pget P i) (Some (Nat.log2 (plength Q)))) (fun i => Binv_intval (pget Q i) (Some (Nat.log2 (plength Q)))));
    [reflexivity|]. intros i _. rewrite E. reflexivity.
Qed.

(** the sequence of a periodic permutation, read with its length as the period *)
Lemma sequence_again P q : is_Perm P -> perilen P = Some q ->
  exists Q, Perm (ArgSeq (map (pget P) (range q))) (Some q) = Ok Q /\ is_Perm Q /\ forall x, pget P x = pget Q x.
Proof.
  intros HP Eq. destruct (min_period P q HP Eq) as [Hq [Hper _]].
  assert (Hperm : Permutation (map (pget P) (range q)) (seq 0 (length (map (pget P) (range q))))).
  { rewrite map_length, range_length. destruct (sequence_default P HP) as [n [_ [Hp Hn]]]. rewrite Eq in Hn. subst n. exact Hp. }
  assert (Hsays : forall x j, says (ArgSeq (map (pget P) (range q))) x j -> x < q).
  { intros x j Hs. inversion Hs as [l i j' Hnth| | |]; subst. assert (Hl : nth_error (map (pget P) (range q)) x <> None) by congruence.
    apply nth_error_Some in Hl. rewrite map_length, range_length in Hl. exact Hl. }
  destruct (ctor_periodic (ArgSeq (map (pget P) (range q))) q) as [Q [EQ [Hb [HperQ [Hval _]]]]]; [exact I | exact Hperm | | exact Hq |].
  { intros x j Hs _. apply Hsays in Hs. exact Hs. }
  exists Q. split; [exact EQ|]. split; [eapply obj_new; [|exact EQ]; exact I|].
  assert (Hsm : forall x, x < q -> pget P x = pget Q x).
  { intros x Hx. symmetry. apply Hval; [exact Hx|]. constructor. rewrite nth_error_map. rewrite (nth_error_nth' _ 0) by (rewrite range_length; exact Hx).
    rewrite nth_range by exact Hx. reflexivity. }
  intro x. assert (Hx := Nat.div_mod x q). rewrite Hx by lia. rewrite (Nat.mul_comm q), Nat.add_comm.
  rewrite (period_mult _ _ _ _ Hper), (period_mult _ _ _ _ HperQ). f_equal. apply Hsm. apply Nat.mod_upper_bound. lia.
Qed.

Lemma nonneutral_long P : is_Perm P -> neutral P = false -> Nat.log2 (plength P) <> 0.
Proof.
  intros HP En E. assert (Hl : plength P < 2).
  { destruct (Nat.lt_ge_cases (plength P) 2) as [|Hge]; [assumption|]. apply Nat.log2_le_mono in Hge. change (Nat.log2 2) with 1 in Hge. lia. }
  assert (Hw := is_Perm_wf P HP). assert (Hid : forall x, pget P x = x).
  { destruct (perilen P) as [q|] eqn:Eq.
    - destruct (min_period P q HP Eq) as [Hq [Hper _]]. assert (Hlq : plength P = q) by (assert (W := wf_peri P Hw); rewrite Eq in W; apply W).
      assert (Hq1 : q = 1) by lia. rewrite Hq1 in Hper. assert (H0 : pget P 0 = 0) by (assert (G := perm_stays P Hw 0); lia).
      intro x. replace x with (0 + x * 1) by lia. rewrite (period_mult _ _ _ _ Hper), H0. reflexivity.
    - intro x. destruct (Nat.lt_ge_cases x (plength P)) as [Hx|Hx]; [assert (G := perm_stays P Hw x Hx); lia|]. destruct (wf_finite_seq P Hw Eq) as [_ [_ [Hfix _]]]; apply Hfix; exact Hx. }
  assert (Ee := proj2 (eq_actions P neutral_perm HP neutral_obj) Hid). destruct (eq_attributes P neutral_perm HP neutral_obj Hid) as [_ [_ [Hn _]]]. cbn [neutral neutral_perm] in Hn. congruence.
Qed.

Lemma bits_beyond P n t : is_Perm P -> plength P = 2 ^ n -> is_period (pget P) (2 ^ n) -> swf t -> sg_length t <= n ->
  (forall x i, x < 2 ^ n -> Nat.testbit (pget P x) (atom (sf t i)) = xorb (negated (sf t i)) (Nat.testbit x i)) ->
  forall x i, Nat.testbit (pget P x) (atom (sf t i)) = xorb (negated (sf t i)) (Nat.testbit x i).
Proof.
  intros HP El Hper Ht Hlt Hb x i. assert (Hp := pow2_pos n). set (r := x mod 2 ^ n). set (c := x / 2 ^ n).
  assert (Hr : r < 2 ^ n) by (apply Nat.mod_upper_bound; lia). assert (Ex : x = r + c * 2 ^ n) by (assert (G := Nat.div_mod x (2 ^ n)); unfold r, c; lia).
  assert (Hs : pget P r < 2 ^ n) by (rewrite <- El; apply perm_stays; [apply is_Perm_wf; exact HP | lia]).
  assert (B : forall y j, y < 2 ^ n -> Nat.testbit (y + c * 2 ^ n) j = if Nat.ltb j n then Nat.testbit y j else Nat.testbit c (j - n)).
  { intros y j Hy. destruct (Nat.ltb_spec j n) as [Hj|Hj].
    - rewrite <- (Nat.mod_pow2_bits_low (y + c * 2 ^ n) n j Hj). rewrite Nat.mod_add by lia. rewrite Nat.mod_small by exact Hy. reflexivity.
    - replace j with ((j - n) + n) at 1 by lia. rewrite <- Nat.div_pow2_bits. rewrite Nat.div_add by lia. rewrite Nat.div_small by exact Hy. reflexivity. }
  rewrite Ex, (period_mult _ _ _ _ Hper), !B by assumption. destruct (Nat.ltb_spec i n) as [Hi|Hi].
  - assert (Ha : atom (sf t i) < n) by (apply sf_stays; assumption). rewrite (proj2 (Nat.ltb_lt _ _) Ha). apply Hb. exact Hr.
  - rewrite (sf_high t Ht i) by lia. rewrite atom_nat, negated_nat, xorb_false_l. rewrite (proj2 (Nat.ltb_ge _ _) Hi). reflexivity.
Qed.
