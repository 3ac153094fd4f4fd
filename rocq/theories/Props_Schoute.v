(** Props_Schoute: property C13, the constructor argument schoute_perm of SigPerm. *)

From Coq Require Import List Arith ZArith Bool Lia Permutation.
From Verif Require Import Model_Base Lib Model_Perm Model_Binary Model_SigPerm Model_WalshPerm Model_Boolf Model_Schoute Spec_Perm Spec_SigPerm.
From Verif Require Import Proof_Perm Proof_PermGroup Proof_PermMore Proof_SigPerm Proof_SigPermMore Proof_SigPermOps Proof_BoolfMake Proof_BoolfWalsh Proof_Schoute.
Import ListNotations.
Open Scope nat_scope.

(** a truth table of length 2^n is recognized iff it is that of a literal *)
Theorem C13_atompattern : forall F n a b,
  (atompattern_to_signed_index (map F (seq 0 (2 ^ n))) = Ok (a, b) <->
     a < n /\ forall x, x < 2 ^ n -> F x = xorb b (Nat.testbit x a)) /\
  ((forall a b, a < n -> exists x, x < 2 ^ n /\ F x <> xorb b (Nat.testbit x a)) ->
     atompattern_to_signed_index (map F (seq 0 (2 ^ n))) = Err AssertErr).
Proof.
  intros F n a b. assert (D := atompattern_dec F n). fold (range (2 ^ n)). split; [split|].
  - intro E. destruct D as [[a' [b' [Ha [Hb E']]]]|E']; rewrite E' in E; [|discriminate E]. injection E as <- <-. auto.
  - intros [Ha Hb]. apply atompattern_hit; assumption.
  - intro H. destruct D as [[a' [b' [Ha [Hb _]]]]|E']; [|exact E']. destruct (H a' b' Ha) as [x [Hx Hne]]. exfalso. apply Hne, Hb, Hx.
Qed.
Print Assumptions C13_atompattern.

Example C13_ex_atompattern :
  atompattern_to_signed_index [true; true; false; false; true; true; false; false] = Ok (1, true) /\
  atompattern_to_signed_index [false; true; true; false] = Err AssertErr.
Proof. split; vm_compute; reflexivity. Qed.

(** from its Schoute permutation a signed permutation is recovered *)
Theorem C13_schoute : forall s f P, is_SigPerm s -> acts s f -> sg_schoute s = Ok P ->
  exists t l, SigPerm_schoute (SchoutePerm P) = Ok t /\ psequence P None = Ok l /\ SigPerm_schoute (SchouteList l) = Ok t /\
    is_SigPerm t /\ acts t f.
Proof.
  intros s f P H Hf E. apply is_SigPerm_swf in H. assert (Hf2 := proj1 (acts_sf _ H _) Hf). clear Hf. rename Hf2 into Hf.
  destruct (schoute_length s P H E) as [HP [Hneut [Hl [Hd Hper]]]]. destruct (schoute_roundtrip s P H E) as [t [Et [Ho [Ht Ft]]]]. exists t.
  assert (Hg : acts t f) by (apply (proj2 (acts_sf _ Ht _)); intro k; rewrite Hf, Ft; reflexivity).
  assert (Hw := is_Perm_wf P HP). destruct (neutral P) eqn:En.
  - assert (Ep : P = neutral_perm).
    { assert (Em := proj1 (wf_neutral P Hw) En). assert (W := wf_peri P Hw). rewrite Em in W. destruct P as [b m q k]. cbn [neutral mapping perilen plength] in *. subst b m.
      destruct q as [q|]; [destruct W as [W _]; discriminate W|]. subst k. reflexivity. }
    subst P. exists []. split; [exact Et|]. split; [reflexivity|]. split; [exact Et|]. split; assumption.
  - destruct (Hl eq_refl) as [Hlen Hpk]. destruct (perilen P) as [q|] eqn:Eq; [|congruence].
    assert (Eq2 : q = plength P) by (assert (W := wf_peri P Hw); rewrite Eq in W; symmetry; apply W).
    exists (map (pget P) (range q)). split; [exact Et|]. split; [unfold psequence; rewrite Eq; reflexivity|]. split; [|split; assumption].
    destruct (sequence_again P q HP Eq) as [Q [EQ [HQ GQ]]]. rewrite <- Et. unfold SigPerm_schoute. rewrite (schoute_cong P Q HP HQ GQ).
    unfold schoute_to_finite_inverse at 1. rewrite map_length, range_length, EQ. reflexivity.
Qed.
Print Assumptions C13_schoute.

(** what is accepted is the Schoute permutation of the result (up to the part beyond the
    length if the given permutation is finite) *)
Theorem C13_schoute_sound : forall P t, is_Perm P -> SigPerm_schoute (SchoutePerm P) = Ok t ->
  exists f, is_SigPerm t /\ acts t f /\
    forall x i, x < plength P \/ neutral P = true \/ perilen P <> None ->
      Nat.testbit (pget P x) (atom (f i)) = xorb (negated (f i)) (Nat.testbit x i).
Proof.
  intros P t HP E. destruct (neutral P) eqn:En.
  - destruct (from_inverse 0 (fun k => Z.of_nat k)) as [t' [Et [Ho [Ht [Hlt _]]]]]; [lia | lia|].
    assert (t' = t) by (unfold SigPerm_schoute, schoute_to_finite_inverse in E; cbn [bind] in E; rewrite En in E; cbn [bind] in E; cbn [range seq map] in Et; congruence). subst t'.
    exists (sf t). split; [exact Ho|]. split; [apply (proj2 (acts_sf _ Ht _)); reflexivity|]. intros x i _. rewrite (sf_high t Ht i) by lia.
    rewrite atom_nat, negated_nat, xorb_false_l. unfold pget. rewrite En. reflexivity.
  - destruct (is_power_of_two (plength P)) eqn:Ep.
    2: { unfold SigPerm_schoute, schoute_to_finite_inverse in E. cbn [bind] in E. rewrite En, Ep in E. discriminate E. }
    assert (El := is_power_pow _ Ep). set (n := Nat.log2 (plength P)) in *.
    assert (H0 : n <> 0) by (apply nonneutral_long; assumption).
    destruct (finite_inverse_dec P n HP En El H0) as [[g [Hg _]]|Ee]; [|unfold SigPerm_schoute in E; rewrite Ee in E; discriminate E].
    destruct (schoute_hit P n g HP En El H0 Hg) as [t' [Et [Ho [Ht [Hlt Hbit]]]]]. assert (t' = t) by congruence. subst t'.
    exists (sf t). split; [exact Ho|]. split; [apply (proj2 (acts_sf _ Ht _)); reflexivity|]. intros x i [Hx|[Hx|Hx]]; [apply Hbit; rewrite <- El; exact Hx | congruence |].
    destruct (perilen P) as [q|] eqn:Eq; [|congruence]. assert (W := wf_peri P (is_Perm_wf P HP)). rewrite Eq in W. destruct W as [_ [_ [Hlq _]]].
    apply (bits_beyond P n t); try assumption. rewrite <- El, Hlq. apply (min_period P q HP Eq).
Qed.
Print Assumptions C13_schoute_sound.

(** everything else is rejected *)
Theorem C13_schoute_rejected : forall P n, is_Perm P -> neutral P = false ->
  ((forall m, plength P <> 2 ^ m) -> SigPerm_schoute (SchoutePerm P) = Err ArgValueError) /\
  (plength P = 2 ^ n ->
   (forall f, (forall i, n <= i -> f i = Z.of_nat i) -> bijective (fun i => atom (f i)) ->
     exists x i, x < 2 ^ n /\ Nat.testbit (pget P x) (atom (f i)) <> xorb (negated (f i)) (Nat.testbit x i)) ->
   SigPerm_schoute (SchoutePerm P) = Err AssertErr).
Proof.
  intros P n HP En. split.
  - intro H. unfold SigPerm_schoute, schoute_to_finite_inverse. cbn [bind]. rewrite En. destruct (is_power_of_two (plength P)) eqn:Ep; [|reflexivity].
    exfalso. apply (H _ (is_power_pow _ Ep)).
  - intros El H. assert (H0 : n <> 0) by (assert (G := nonneutral_long P HP En); rewrite El, Nat.log2_pow2 in G by lia; exact G).
    destruct (finite_inverse_dec P n HP En El H0) as [[g [Hg _]]|Ee]; [|unfold SigPerm_schoute; rewrite Ee; reflexivity].
    destruct (schoute_hit P n g HP En El H0 Hg) as [t [Et [Ho [Ht [Hlt Hbit]]]]]. exfalso. destruct (H (sf t)) as [x [i [Hx Hne]]].
    + intros i Hi. apply sf_high; [exact Ht | lia].
    + destruct (s_bij t Ht) as [Hi Hs]. split; [intros x y Exy; rewrite !sf_atom in Exy; apply Hi; exact Exy | intro y; destruct (Hs y) as [x Hx]; exists x; rewrite sf_atom; exact Hx].
    + apply Hne, Hbit, Hx.
Qed.
Print Assumptions C13_schoute_rejected.

Theorem C13_schoute_list_rejected : forall l, ~ Permutation l (seq 0 (length l)) -> SigPerm_schoute (SchouteList l) = Err SequenceError.
Proof. intros l H. unfold SigPerm_schoute, schoute_to_finite_inverse. rewrite ctor_reject_seq by exact H. reflexivity. Qed.
Print Assumptions C13_schoute_list_rejected.

Example C13_ex_schoute : exists s P, SigPerm_sequence [-3; 0; 1]%Z = Ok s /\ sg_schoute s = Ok P /\ is_SigPerm s /\
  psequence P None = Ok [4; 0; 5; 1; 6; 2; 7; 3] /\ SigPerm_schoute (SchouteList [4; 0; 5; 1; 6; 2; 7; 3]) = Ok s /\
  SigPerm_schoute (SchouteList [1; 0; 2; 3]) = Err AssertErr /\ SigPerm_schoute (SchouteList [2; 0; 1]) = Err ArgValueError.
Proof.
  destruct (SigPerm_sequence [-3; 0; 1]%Z) as [s|] eqn:E; [|vm_compute in E; discriminate E].
  destruct (sg_schoute s) as [P|] eqn:EP; [|vm_compute in E; injection E as <-; vm_compute in EP; discriminate EP].
  exists s, P. split; [reflexivity|]. split; [exact EP|].
  split; [apply (sig_new None None None None None None None (Some [-3; 0; 1]%Z) None); [exact I | exact E | vm_compute in E; injection E as <-; reflexivity]|].
  vm_compute in E. injection E as <-. vm_compute in EP. injection EP as <-. do 3 (split; [vm_compute; reflexivity|]). vm_compute; reflexivity.
Qed.
