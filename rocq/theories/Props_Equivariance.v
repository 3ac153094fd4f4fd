(** Props_Equivariance: property C107, what the methods do when the atoms are permuted and negated first. *)

From Coq Require Import List Arith ZArith QArith Bool Lia Permutation Sorted.
From Verif Require Import Model_Base Lib Model_Splits Model_Binary Model_Perm Model_SigPerm Model_WalshPerm Model_Twin Model_Boolf Model_BoolfMore Model_MinRep Model_Layers Model_Misc
  Spec_Bits Spec_Perm Spec_SigPerm Spec_WalshPerm Spec_Boolf Spec_Twin Spec_MinRep Spec_Misc Proof_Perm Proof_PermGroup Proof_Inversions Proof_Listing Proof_SigPerm Proof_SigPermMore Proof_SigPermOps
  Proof_Binary Proof_Deflate Proof_Boolf Proof_BoolfTable Proof_Twin Proof_BoolfMake Proof_BoolfApply Proof_Noble
  Proof_WalshLinear Proof_BoolfMore Proof_BoolfWalsh Proof_MinRepClass Proof_MinRepCoset Proof_MinRepMin Proof_MinRepMale Proof_Foibles Proof_Consul Proof_Fract
  Props_Boolf Props_Twin.
From Verif Require Proof_EcMore Proof_King.
From Verif Require Import Props_Superfluous.
Import ListNotations.
Local Open Scope nat_scope.

(** * Permutations *)

Lemma perm_filter {A} (q : A -> bool) l l' : Permutation l l' -> Permutation (filter q l) (filter q l').
Proof. induction 1 as [|x l l' H IH|x y l|l1 l2 l3 H1 IH1 H2 IH2]; cbn [filter]; [constructor | destruct (q x); [constructor|]; exact IH | destruct (q x), (q y); (apply perm_swap || apply Permutation_refl) | eapply Permutation_trans; eassumption]. Qed.

Section Perm.
Variables (p : perm) (n : nat).
Hypothesis Hp : is_Perm p.
Hypothesis Hn : perilen p = None.
Hypothesis Hl : plength p <= n.

Lemma perm_permutes : Proof_MinRepClass.permutes (pget p) n.
Proof. apply (finite_range_perm p n); [apply is_Perm_wf, Hp | exact Hn | exact Hl]. Qed.

Lemma same_object a b : reduced a -> reduced b -> adicity a <= n -> adicity b <= n -> (forall j, j < 2 ^ n -> tab a j = tab b j) -> a = b.
Proof. intros Ra Rb Aa Ab T. apply reduced_unique; [exact Ra | exact Rb|]. intro e. rewrite (sem_place a n e Aa), (sem_place b n e Ab). apply T, place_lt. Qed.

Lemma perm_object f : reduced f -> adicity f <= n -> exists g, apply_perm f p = Ok g /\ reduced g /\ adicity g <= n /\ (forall e, sem g e = sem f (fun a => e (pget p a))) /\
  forall j, tab g j = tab f (pre (pget p) n j).
Proof.
  intros R A. destruct (C34_perm f p (reduced_made f R) Hp Hn) as (g & E & M & S). assert (Rg := m_red g M). exists g. split; [exact E|]. split; [exact Rg|]. split; [|split; [exact S|]].
  - apply (adicity_le g n Rg). intros e e' H. rewrite !S. apply (sem_low f n _ _ A). intros a Ha. apply H. apply (permutes_lt _ _ _ perm_permutes Ha).
  - intro j. unfold tab. rewrite S. apply (sem_low f n _ _ A). intros a Ha. symmetry. apply pre_bits, Ha.
Qed.
End Perm.

(** the methods commute with a permutation of the atoms *)
Lemma perm_commutes : forall p n f, is_Perm p -> perilen p = None -> plength p <= n -> made false f -> within n f ->
  exists g, apply_perm f p = Ok g /\ within n g /\
    (exists t t', boolf_twin f (Some n) = Ok t /\ boolf_twin g (Some n) = Ok t' /\ apply_perm t p = Ok t') /\
    (exists t t', patron_boolf f n = Ok t /\ patron_boolf g n = Ok t' /\ apply_perm t p = Ok t') /\
    (exists t t', leader f (Some n) = Ok t /\ leader g (Some n) = Ok t' /\ apply_perm t p = Ok t') /\
    (exists t t', reverse f = Ok t /\ reverse g = Ok t' /\ apply_perm t p = Ok t') /\
    (exists t t', boolf_not f = Ok t /\ boolf_not g = Ok t' /\ apply_perm t p = Ok t').
Proof.
  intros p n f Hp Hn Hl M W. assert (R := m_red f M). apply within_adicity in W. destruct (perm_object p n Hp Hn Hl f R W) as (g & E & Rg & Ag & S & T).
  exists g. split; [exact E|]. split; [intros a Ha; apply adicity_bound in Ha; lia|]. assert (P := perm_permutes p n Hp Hn Hl). assert (Ff := proj1 R). assert (Fg := proj1 Rg). split; [|split; [|split; [|split]]].
  - destruct (twin_spec f n Ff W) as (t & Et & Rt & At & Tt). destruct (twin_spec g n Fg Ag) as (u & Eu & Ru & Au & Tu). exists t, u. split; [exact Et|]. split; [exact Eu|].
    destruct (perm_object p n Hp Hn Hl t Rt At) as (h & Eh & Rh & Ah & _ & Th). rewrite Eh. f_equal. apply (same_object n); [assumption..|]. intros j Hj.
    rewrite Th, Tt, Tu by (exact Hj || apply pre_lt). rewrite (anf_ext n (tab g) (fun k => tab f (pre (pget p) n k))) by (intros; apply T). symmetry. apply anf_perm, P.
  - destruct (patron_boolf_spec f n Ff W) as (t & Et & Rt & At & Tt). destruct (patron_boolf_spec g n Fg Ag) as (u & Eu & Ru & Au & Tu). exists t, u. split; [exact Et|]. split; [exact Eu|].
    destruct (perm_object p n Hp Hn Hl t Rt At) as (h & Eh & Rh & Ah & _ & Th). rewrite Eh. f_equal. apply (same_object n); [assumption..|]. intros j Hj.
    rewrite Th, Tt, Tu by (exact Hj || apply pre_lt). rewrite (anf_ext n (tab g) (fun k => tab f (pre (pget p) n k))) by (intros; apply T). rewrite (anf_perm _ _ (tab f)), T by exact P. reflexivity.
  - destruct (leader_spec f n R W) as (t & Et & Rt & At & Tt). destruct (leader_spec g n Rg Ag) as (u & Eu & Ru & Au & Tu). exists t, u. split; [exact Et|]. split; [exact Eu|].
    destruct (perm_object p n Hp Hn Hl t Rt At) as (h & Eh & Rh & Ah & _ & Th). rewrite Eh. f_equal. apply (same_object n); [assumption..|]. intros j Hj. assert (H0 := pow2_pos n).
    rewrite Th, Tt, Tu by (exact Hj || apply pre_lt). rewrite T. f_equal. rewrite (quadrant_tab f n Ff W), (quadrant_tab g n Fg Ag), !T, Proof_King.pre_zero, Proof_King.pre_last by exact P. 
    unfold leader_diff. rewrite (Nat.eqb_sym _ 0), (Nat.eqb_sym j 0), (Proof_King.pre_eqb _ _ j 0 P Hj H0 (Proof_King.pre_zero _ _)). reflexivity.
  - destruct (reverse_spec f Ff) as (t & Et & Rt & St). destruct (reverse_spec g Fg) as (u & Eu & Ru & Su). exists t, u. split; [exact Et|]. split; [exact Eu|].
    destruct (C34_perm t p (reduced_made t Rt) Hp Hn) as (h & Eh & Mh & Sh). rewrite Eh. f_equal. apply reduced_unique; [apply (m_red h Mh) | exact Ru|]. intro e. rewrite Sh, St, Su, S. reflexivity.
  - destruct (not_spec f Ff) as (t & Et & Rt & St). destruct (not_spec g Fg) as (u & Eu & Ru & Su). exists t, u. split; [exact Et|]. split; [exact Eu|].
    destruct (C34_perm t p (reduced_made t Rt) Hp Hn) as (h & Eh & Mh & Sh). rewrite Eh. f_equal. apply reduced_unique; [apply (m_red h Mh) | exact Ru|]. intro e. rewrite Sh, St, Su, S. reflexivity.
Qed.
Theorem C107_commute : forall {i} p n f, is_Perm p -> perilen p = None -> plength p <= n -> made i f -> within n f ->
  exists g, apply_perm f p = Ok g /\ within n g /\
    (exists t t', boolf_twin f (Some n) = Ok t /\ boolf_twin g (Some n) = Ok t' /\ apply_perm t p = Ok t') /\
    (exists t t', patron_boolf f n = Ok t /\ patron_boolf g n = Ok t' /\ apply_perm t p = Ok t') /\
    (exists t t', leader f (Some n) = Ok t /\ leader g (Some n) = Ok t' /\ apply_perm t p = Ok t') /\
    (exists t t', reverse f = Ok t /\ reverse g = Ok t' /\ apply_perm t p = Ok t') /\
    (exists t t', boolf_not f = Ok t /\ boolf_not g = Ok t' /\ apply_perm t p = Ok t').
Proof.
  intros i p n f Hp Hn Hl M W. destruct (deflated f n M W) as (f0 & F0 & F1 & A0 & S0). assert (Mt := made_any f M). destruct (perm_commutes p n f0 Hp Hn Hl F0 A0) as (g & E & Wg & C1 & C2 & C3 & C4 & C5).
  destruct (C122_same_apply f f0 Mt F1 S0) as (_ & Ap & _). destruct (C122_same_arity f f0 n Mt F1 S0 W A0) as (_ & T & _ & P & _). destruct (C122_same f f0 Mt F1 S0) as (_ & _ & Q & _ & _ & _ & _ & _ & _ & No & Re & _).
  exists g. split; [rewrite (Ap p Hp Hn); exact E|]. split; [exact Wg|]. rewrite T, P, Re, No. do 2 (split; [assumption|]). split; [|split; assumption].
  destruct (C122_leader f f0 n Mt F1 S0 W A0) as (L0 & L1). destruct C3 as (t & t' & Et & Et' & H). destruct (Nat.eq_dec (quadrant f) 0) as [Z|Z].
  - destruct (L0 Z) as (X & Y). rewrite Y in Et. injection Et as <-. exists f, t'. split; [exact X|]. split; [exact Et'|]. rewrite (Ap p Hp Hn). exact H.
  - destruct (L1 Z) as (h & X & Y & _). rewrite Y in Et. injection Et as <-. exists h, t'. auto.
Qed.
Print Assumptions C107_commute.

(** numbers: the digits of the Zhegalkin index are moved with the places, those of the prefect and the
    consul with the atoms; the foibles and the patron's quadrant stay *)
Lemma perm_numbers : forall p n f g, is_Perm p -> perilen p = None -> plength p <= n -> made false f -> within n f -> apply_perm f p = Ok g ->
  (exists z z', boolf_zhe f = Ok z /\ boolf_zhe g = Ok z' /\ z < 2 ^ 2 ^ n /\ z' < 2 ^ 2 ^ n /\
     forall j k, j < 2 ^ n -> k < 2 ^ n -> (forall a, a < n -> Nat.testbit k a = Nat.testbit j (pget p a)) -> Nat.testbit z' j = Nat.testbit z k) /\
  (exists w w' q, prefect_walsh_and_oddness f = Ok (w, q) /\ prefect_walsh_and_oddness g = Ok (w', q) /\ forall a, Nat.testbit w' (pget p a) = Nat.testbit w a) /\
  (exists c c', consul f (TtArity n) = Ok c /\ consul g (TtArity n) = Ok c' /\ forall a, Nat.testbit c' (pget p a) = Nat.testbit c a) /\
  is_odd g = is_odd f /\ is_odious g = is_odious f /\ is_ugly g = is_ugly f /\ is_rude g n = is_rude f n /\ is_rough g n = is_rough f n /\ is_acute g n = is_acute f n /\
  patron_quadrant g n = patron_quadrant f n.
Proof.
  intros p n f g Hp Hn Hl M W E. assert (R := m_red f M). apply within_adicity in W. destruct (perm_object p n Hp Hn Hl f R W) as (g' & E' & Rg & Ag & S & T). rewrite E in E'. injection E' as <-.
  assert (P := perm_permutes p n Hp Hn Hl). assert (Ff := proj1 R). assert (Fg := proj1 Rg). assert (High := proj1 (proj2 (proj2 (wf_finite_seq p (is_Perm_wf p Hp) Hn)))).
  assert (Onto : forall b, b < n -> exists a, a < n /\ pget p a = b) by (intros b Hb; destruct (permutes_onto _ n b P Hb) as (a & Ha & Ea); eauto).
  destruct (boolf_zhe_spec f Ff) as (z & Ez & Bz & Z & _). destruct (boolf_zhe_spec g Fg) as (z' & Ez' & Bz' & Z' & _). specialize (Z n W). specialize (Z' n Ag).
  assert (Lz : z < 2 ^ 2 ^ n) by (eapply Nat.lt_le_trans; [exact Bz|]; apply Nat.pow_le_mono_r; [lia|]; apply Nat.pow_le_mono_r; lia).
  assert (Lz' : z' < 2 ^ 2 ^ n) by (eapply Nat.lt_le_trans; [exact Bz'|]; apply Nat.pow_le_mono_r; [lia|]; apply Nat.pow_le_mono_r; lia).
  assert (D : forall j, j < 2 ^ n -> Nat.testbit z' j = Nat.testbit z (pre (pget p) n j)).
  { intros j Hj. rewrite Z, Z', !testbit_table, (proj2 (Nat.ltb_lt j _) Hj), (proj2 (Nat.ltb_lt _ _) (pre_lt (pget p) n j)). cbn [andb]. rewrite (anf_ext n (tab g) (fun k => tab f (pre (pget p) n k))) by (intros; apply T). apply anf_perm, P. }
  assert (Od : is_odd g = is_odd f) by (rewrite !is_odd_tab, T, Proof_King.pre_zero; reflexivity).
  assert (Oi : is_odious g = is_odious f) by (rewrite (is_odious_tab f n Ff W), (is_odious_tab g n Fg Ag), T, Proof_King.pre_last by exact P; reflexivity).
  assert (Sh : sharp g n = sharp f n) by (apply (sharp_moved n (pget p) (fun _ => false) Onto f g W); intro e; rewrite S; apply sem_ext; intros a _; symmetry; apply xorb_false_r).
  split; [|split; [|split]].
  - exists z, z'. do 4 (split; [assumption|]). intros j k Hj Hk H. rewrite D by exact Hj. f_equal. apply pre_eq; assumption.
  - exists (prefect_w z), (prefect_w z'), (prefect_q z). rewrite (prefect_index_spec f z Ff Ez), (prefect_index_spec g z' Fg Ez').
    assert (Pm : Permutation (ones z) (map (pre (pget p) n) (ones z'))).
    { rewrite (ones_bound _ z Lz), (ones_bound _ z' Lz'). rewrite (filter_ext_in (Nat.testbit z') (fun j => Nat.testbit z (pre (pget p) n j)) (seq 0 (2 ^ n))) by (intros j Hj; apply in_seq in Hj; apply D; lia).
      rewrite <- filter_map_comm. apply perm_filter. symmetry. apply pre_perm, P. }
    split; [reflexivity|]. split.
    + do 2 f_equal. unfold prefect_q. rewrite (xor_all_perm _ _ (Permutation_map _ Pm)), map_map. apply xor_all_ext. intros k Hk. rewrite count_ones_pre; [reflexivity | exact P|]. rewrite (ones_bound _ z' Lz') in Hk. apply filter_In in Hk as [Hk _]. apply in_seq in Hk. lia.
    + intro a. destruct (Nat.lt_ge_cases a n) as [Ha|Ha].
      * unfold prefect_w. rewrite !lxor_all_bit, (xor_all_perm _ _ (Permutation_map _ Pm)), map_map. apply xor_all_ext. intros k _. symmetry. apply pre_bits, Ha.
      * rewrite High by lia. assert (Lw : forall y, y < 2 ^ 2 ^ n -> Nat.testbit (prefect_w y) a = false); [|rewrite !Lw by assumption; reflexivity].
        intros y Hy. apply (bit_bound_lt _ n); [|exact Ha]. unfold prefect_w. apply lxor_all_lt. intros x Hx. rewrite (ones_bound _ y Hy) in Hx. apply filter_In in Hx as [Hx _]. apply in_seq in Hx. lia.
  - exists (consul_of f n), (consul_of g n). split; [apply consul_of_spec; assumption|]. split; [apply consul_of_spec; assumption|]. intro a. destruct (Nat.lt_ge_cases a n) as [Ha|Ha].
    + rewrite (consul_moved n (pget p) (fun _ => false) Onto f g W); [rewrite andb_false_r; apply xorb_false_r | | exact Ha]. intro e. rewrite S. apply sem_ext. intros b _. symmetry. apply xorb_false_r.
    + rewrite High by lia. rewrite (bit_bound_lt _ n (consul_of_lt g n) a Ha), (bit_bound_lt _ n (consul_of_lt f n) a Ha). reflexivity.
  - unfold is_ugly, is_rude, is_rough, is_acute, is_ugly. rewrite !sharp_spec by assumption. cbn [bind]. rewrite Od, Oi, Sh. do 6 (split; [reflexivity|]).
    destruct n as [|n]; [unfold patron_quadrant; rewrite !patron_0 by (assumption || lia); reflexivity|]. rewrite (patron_quadrant_spec f n Ff W), (patron_quadrant_spec g n Fg Ag), Od, Oi, Sh. reflexivity.
Qed.
Theorem C107_numbers : forall {i} p n f g, is_Perm p -> perilen p = None -> plength p <= n -> made i f -> within n f -> apply_perm f p = Ok g ->
  (exists z z', boolf_zhe f = Ok z /\ boolf_zhe g = Ok z' /\ z < 2 ^ 2 ^ n /\ z' < 2 ^ 2 ^ n /\
     forall j k, j < 2 ^ n -> k < 2 ^ n -> (forall a, a < n -> Nat.testbit k a = Nat.testbit j (pget p a)) -> Nat.testbit z' j = Nat.testbit z k) /\
  (exists w w' q, prefect_walsh_and_oddness f = Ok (w, q) /\ prefect_walsh_and_oddness g = Ok (w', q) /\ forall a, Nat.testbit w' (pget p a) = Nat.testbit w a) /\
  (exists c c', consul f (TtArity n) = Ok c /\ consul g (TtArity n) = Ok c' /\ forall a, Nat.testbit c' (pget p a) = Nat.testbit c a) /\
  is_odd g = is_odd f /\ is_odious g = is_odious f /\ is_ugly g = is_ugly f /\ is_rude g n = is_rude f n /\ is_rough g n = is_rough f n /\ is_acute g n = is_acute f n /\
  patron_quadrant g n = patron_quadrant f n.
Proof.
  intros i p n f g Hp Hn Hl M W E. destruct (deflated f n M W) as (f0 & F0 & F1 & A0 & S0). assert (Mt := made_any f M). destruct (C122_same_apply f f0 Mt F1 S0) as (_ & Ap & _). rewrite (Ap p Hp Hn) in E.
  assert (H := perm_numbers p n f0 g Hp Hn Hl F0 A0 E). destruct (C122_same_arity f f0 n Mt F1 S0 W A0) as (_ & _ & _ & _ & PQ & _ & _ & Co & _ & _ & _ & Ac & Ru & Ro). destruct (C122_same f f0 Mt F1 S0) as (_ & Zh & _ & _ & _ & _ & _ & Pr & _).
  rewrite Zh, Pr, Co, Ru, Ro, Ac, PQ, (same_odd f f0 S0), (same_odious f f0 Mt F1 S0), (same_ugly f f0 Mt F1 S0). exact H.
Qed.
Print Assumptions C107_numbers.

(** * Signed permutations *)

Section Signed.
Variables (s : sigperm).
Hypothesis Hs : swf s.

Lemma signed_inj a b : atom (sf s a) = atom (sf s b) -> a = b.
Proof. rewrite !sf_atom. apply (pget_bij (sg_perm s)). apply Hs. Qed.
Lemma signed_onto b : exists a, atom (sf s a) = b.
Proof. destruct (proj2 (pget_bij (sg_perm s) (sw_perm s Hs)) b) as [a Ha]. exists a. rewrite sf_atom. exact Ha. Qed.

Lemma signed_atoms f g : reduced f -> reduced g -> (forall e, sem g e = sem f (fun a => litval e (sf s a))) ->
  Permutation (map (fun a => atom (sf s a)) (atomvals f)) (atomvals g).
Proof.
  intros Rf Rg S.
  assert (X : forall a, In a (atomvals f) <-> In (atom (sf s a)) (atomvals g)).
  { intro a. rewrite (atoms_essential f a Rf), (atoms_essential g _ Rg).
    assert (Y : forall e b, sem g (upd e (atom (sf s a)) b) = sem f (upd (fun x => litval e (sf s x)) a (xorb b (negated (sf s a))))).
    { intros e b. rewrite S. apply sem_ext. intros x _. unfold litval, upd. destruct (Nat.eqb_spec x a) as [->|Hx]; [rewrite Nat.eqb_refl; reflexivity|].
      destruct (Nat.eqb_spec (atom (sf s x)) (atom (sf s a))) as [E|_]; [apply signed_inj in E; contradiction | reflexivity]. }
    split; intros [e He].
    - destruct (inv_spec s Hs) as (t & _ & _ & _ & _ & _ & I & _). set (back := fun b => atom (sf t b)).
      assert (back_ok : forall x, back (atom (sf s x)) = x).
      { intro x. assert (Q := f_equal atom (I x)). rewrite atom_nat in Q. unfold on_literals in Q. unfold back. destruct (negated (sf s x)); [rewrite atom_neg in Q|]; exact Q. }
      exists (fun b => xorb (e (back b)) (negated (sf s (back b)))). rewrite !Y. intro Q. apply He.
      assert (Z : forall c, sem f (upd e a c) = sem f (upd (fun x => litval (fun b => xorb (e (back b)) (negated (sf s (back b)))) (sf s x)) a c)).
      { intro c. apply sem_ext. intros x _. unfold upd. destruct (Nat.eqb_spec x a); [reflexivity|]. unfold litval. replace (back (atom (sf s x))) with x by (symmetry; apply back_ok). destruct (e x), (negated (sf s x)); reflexivity. }
      rewrite !Z. destruct (negated (sf s a)); cbn [xorb negb] in Q; [symmetry|]; exact Q.
    - exists (fun x => litval e (sf s x)). intro Q. apply He. rewrite !Y. destruct (negated (sf s a)); cbn [xorb negb]; [symmetry|]; exact Q. }
  apply NoDup_Permutation.
  - apply Proof_Helpers.NoDup_map_inj; [apply fitting_NoDup, Rf|]. intros x y _ _. apply signed_inj.
  - apply fitting_NoDup, Rg.
  - intro b. rewrite in_map_iff. split; [intros (a & <- & Ha); apply X, Ha|]. intro Hb. destruct (signed_onto b) as (a & <-). exists a. split; [reflexivity | apply X, Hb].
Qed.

Lemma signed_object n f : reduced f -> adicity f <= n -> sg_length s <= n -> exists g, apply_sigperm f s = Ok g /\ reduced g /\ adicity g <= n /\ forall e, sem g e = sem f (fun a => litval e (sf s a)).
Proof.
  intros R A L. destruct (apply_sigperm_spec f s R Hs) as (g & E & Rg & S). exists g. split; [exact E|]. split; [exact Rg|]. split; [|exact S].
  apply (adicity_le g n Rg). intros e e' H. rewrite !S. apply (sem_low f n _ _ A). intros a Ha. unfold litval. rewrite H; [reflexivity|]. apply sf_stays; assumption.
Qed.

Lemma signed_low n b : sg_length s <= n -> b < n -> exists a, a < n /\ atom (sf s a) = b.
Proof.
  intros L Hb. destruct (signed_onto b) as (a & Ha). exists a. split; [|exact Ha]. destruct (Nat.lt_ge_cases a n) as [|Hge]; [assumption|]. exfalso.
  rewrite (sf_high s Hs a) in Ha by lia. rewrite atom_nat in Ha. lia.
Qed.

Lemma signed_weight n f g : adicity f <= n -> sg_length s <= n -> (forall e, sem g e = sem f (fun a => litval e (sf s a))) -> true_places n g = true_places n f.
Proof.
  intros A L S. unfold true_places. rewrite <- (Proof_EcMore.perm_filter_length (value f) _ _ (sigma_perm n (fun a => atom (sf s a)) (fun a => negated (sf s a)) (fun b Hb => signed_low n b L Hb))).
  rewrite Proof_EcMore.filter_map_length. f_equal. apply filter_ext. intro j. apply (tab_sigma n (fun a => atom (sf s a)) (fun a => negated (sf s a)) f g A S).
Qed.
End Signed.

(** the atoms are moved; the number of atoms, the share of the true places and the gender stay *)
Theorem C107_signed_atoms : forall f s F, made false f -> is_SigPerm s -> acts s F ->
  exists g, apply_sigperm f s = Ok g /\ Permutation (map (fun a => atom (F a)) (atomvals f)) (atomvals g) /\ valency g = valency f /\ is_constant g = is_constant f /\
    weight_fract g = weight_fract f /\ is_male g = is_male f.
Proof.
  intros f s F M Hs HF. apply is_SigPerm_swf in Hs. assert (HF' := proj1 (acts_sf _ Hs _) HF). assert (R := m_red f M). set (n := Nat.max (adicity f) (sg_length s)).
  destruct (signed_object s Hs n f R ltac:(lia) ltac:(lia)) as (g & E & Rg & Ag & S). exists g. split; [exact E|]. assert (P := signed_atoms s Hs f g R Rg S).
  assert (V : valency g = valency f) by (unfold valency; rewrite <- (Permutation_length P), map_length; reflexivity).
  assert (T := signed_weight s Hs n f g ltac:(lia) ltac:(lia) S). rewrite !true_places_root in T by (apply R || apply Rg || lia). rewrite V in T.
  assert (Wg : binv_weight (root g) = binv_weight (root f)) by (apply Nat.mul_cancel_l in T; [exact T | apply Nat.pow_nonzero; lia]).
  split; [rewrite (map_ext _ (fun a => atom (sf s a))) by (intro a; rewrite HF'; reflexivity); exact P|]. split; [exact V|]. split.
  - apply bool_iff. destruct R as (_ & _ & _ & C). destruct Rg as (_ & _ & _ & C'). rewrite C, C', <- !length_zero_iff_nil. unfold valency in V. rewrite V. reflexivity.
  - split; [rewrite !weight_fract_ok by (apply R || apply Rg); rewrite V, Wg; reflexivity|]. unfold is_male. rewrite Wg. reflexivity.
Qed.
Print Assumptions C107_signed_atoms.

(** the Walsh spectrum: the entries are moved with the atoms of their index; the sign is that of the negated
    atoms in the index; the consul is moved and, if the number of true places is odd, changed by the negated atoms *)
Lemma signed_spectrum : forall f s F n, made false f -> within n f -> is_SigPerm s -> acts s F -> sg_length s <= n ->
  exists g ws ws' c c' q, apply_sigperm f s = Ok g /\ within n g /\ walsh_spectrum f (TtArity n) = Ok ws /\ walsh_spectrum g (TtArity n) = Ok ws' /\
    consul f (TtArity n) = Ok c /\ consul g (TtArity n) = Ok c' /\ is_sharp f n = Ok q /\ is_sharp g n = Ok q /\
    (forall j k, j < 2 ^ n -> k < 2 ^ n -> (forall a, a < n -> Nat.testbit j (atom (F a)) = Nat.testbit k a) ->
       nth j ws' 0%Z = (Spec_Twin.sgn (Nat.odd (length (filter (fun a => Nat.testbit k a && negated (F a)) (seq 0 n)))) * nth k ws 0)%Z) /\
    (forall a, a < n -> Nat.testbit c' (atom (F a)) = xorb (Nat.testbit c a) (q && negated (F a))).
Proof.
  intros f s F n M W Hs HF L. apply is_SigPerm_swf in Hs. assert (HF' := proj1 (acts_sf _ Hs _) HF). assert (R := m_red f M). apply within_adicity in W.
  destruct (signed_object s Hs n f R W L) as (g & E & Rg & Ag & S). assert (Ff := proj1 R). assert (Fg := proj1 Rg).
  exists g. do 4 eexists. exists (sharp f n). split; [exact E|]. split; [intros a Ha; apply adicity_bound in Ha; lia|].
  split; [apply spectrum_entries; assumption|]. split; [apply spectrum_entries; assumption|]. split; [apply consul_of_spec; assumption|]. split; [apply consul_of_spec; assumption|].
  split; [apply sharp_spec; assumption|]. assert (O := fun b Hb => signed_low s Hs n b L Hb). split; [rewrite sharp_spec by assumption; f_equal; apply (sharp_moved n _ _ O f g W S)|]. split.
  - intros j k Hj Hk H. rewrite !(nth_table) by assumption. rewrite (entry_moved n _ _ O f g W S k j); [|intros a Ha; rewrite <- HF'; apply H, Ha]. f_equal. f_equal.
    rewrite <- (odd_cnt (fun a => Nat.testbit k a && negated (sf s a)) n). unfold cnt. do 2 f_equal. apply filter_ext. intro a. rewrite HF'. reflexivity.
  - intros a Ha. rewrite HF'. apply (consul_moved n _ _ O f g W S a Ha).
Qed.
Theorem C107_signed_spectrum : forall {i} f s F n, made i f -> within n f -> is_SigPerm s -> acts s F -> sg_length s <= n ->
  exists g ws ws' c c' q, apply_sigperm f s = Ok g /\ within n g /\ walsh_spectrum f (TtArity n) = Ok ws /\ walsh_spectrum g (TtArity n) = Ok ws' /\
    consul f (TtArity n) = Ok c /\ consul g (TtArity n) = Ok c' /\ is_sharp f n = Ok q /\ is_sharp g n = Ok q /\
    (forall j k, j < 2 ^ n -> k < 2 ^ n -> (forall a, a < n -> Nat.testbit j (atom (F a)) = Nat.testbit k a) ->
       nth j ws' 0%Z = (Spec_Twin.sgn (Nat.odd (length (filter (fun a => Nat.testbit k a && negated (F a)) (seq 0 n)))) * nth k ws 0)%Z) /\
    (forall a, a < n -> Nat.testbit c' (atom (F a)) = xorb (Nat.testbit c a) (q && negated (F a))).
Proof.
  intros i f s F n M W Hs HF L. destruct (deflated f n M W) as (f0 & F0 & F1 & A0 & S0). assert (Mt := made_any f M). destruct (C122_same_apply f f0 Mt F1 S0) as (Ap & _).
  assert (H := signed_spectrum f0 s F n F0 A0 Hs HF L). destruct (C122_same_arity f f0 n Mt F1 S0 W A0) as (_ & _ & _ & _ & _ & _ & _ & Co & Ws & _ & Sh & _). rewrite (Ap s Hs), Co, Ws, Sh. exact H.
Qed.
Print Assumptions C107_signed_spectrum.

(** the shift 0 -> 1 -> 2 -> 0 and the signed permutation [~2, ~0, 1], applied to a function with three atoms *)
Definition ex_perm : perm := match Perm (ArgSeq [1; 2; 0]) None with Ok p => p | Err _ => neutral_perm end.
Definition ex_fun : boolf := mkBoolf [false; true; false; false; true; true; false; false] [0; 1; 2] false false.
Lemma ex_perm_ok : is_Perm ex_perm /\ perilen ex_perm = None /\ plength ex_perm <= 3.
Proof. split; [apply (obj_new (ArgSeq [1; 2; 0]) None); [exact I | vm_compute; reflexivity]|]. split; [reflexivity|]. vm_compute. lia. Qed.
Lemma ex_fun_ok : made false ex_fun /\ within 3 ex_fun.
Proof.
  split; [apply (made_by false 1 (table_args [false; true; false; false; true; true; false; false] [0; 1; 2])); [discriminate | intros g [] | vm_compute; reflexivity]|].
  intros a [<-|[<-|[<-|[]]]]; lia.
Qed.
Example C107_ex : exists g t t', apply_perm ex_fun ex_perm = Ok g /\ boolf_twin ex_fun (Some 3) = Ok t /\ boolf_twin g (Some 3) = Ok t' /\ apply_perm t ex_perm = Ok t' /\
  root g = [false; true; true; true; false; false; false; false] /\ atomvals t = [0; 2] /\ atomvals t' = [0; 1] /\
  boolf_zhe ex_fun = Ok 250 /\ boolf_zhe g = Ok 238 /\ prefect_walsh_and_oddness ex_fun = Ok (2, true) /\ prefect_walsh_and_oddness g = Ok (4, true).
Proof. do 3 eexists. repeat (split; [vm_compute; reflexivity|]). vm_compute; reflexivity. Qed.
Example C107_signed_ex : exists s g, SigPerm_pair 5 3 = Ok s /\ sg_sequence s None = Ok [-3; -1; 1]%Z /\ apply_sigperm ex_fun s = Ok g /\
  walsh_spectrum ex_fun (TtArity 3) = Ok [3; -1; 3; -1; -1; -1; -1; -1]%Z /\ walsh_spectrum g (TtArity 3) = Ok [3; -3; -1; 1; 1; -1; 1; -1]%Z /\
  consul ex_fun (TtArity 3) = Ok 0 /\ consul g (TtArity 3) = Ok 5 /\ is_sharp ex_fun 3 = Ok true.
Proof. do 2 eexists. repeat (split; [vm_compute; reflexivity|]). vm_compute; reflexivity. Qed.
