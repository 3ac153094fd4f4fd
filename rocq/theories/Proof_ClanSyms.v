(** Proof_ClanSyms: the number of the symmetry partition of a member of a clan. *)

From Coq Require Import List Arith ZArith Bool Lia Permutation Sorted Factorial.
From Verif Require Import Model_Base Lib Model_Splits Model_Perm Model_Binary Model_SigPerm Model_SetPart Model_Boolf Model_BoolfMore Model_MinRep
  Model_Helpers Model_Ec Spec_Bits Spec_Perm Spec_SigPerm Spec_Boolf Spec_SetPart Spec_MinRep Spec_Helpers Spec_Ec Spec_ClanMatrix
  Proof_Binary Proof_Perm Proof_PermMore Proof_Inversions Proof_SigPerm Proof_SigPermOps Proof_SigPermMore Proof_Helpers Proof_SetPart Proof_SetPartLabels Proof_SetPartMore Proof_SetPartObj
  Proof_Boolf Proof_Deflate Proof_BoolfTable Proof_BoolfApply Proof_BoolfMake Proof_BoolfMore Proof_MinRepTwin Proof_MinRepClass Proof_MinRepCoset Proof_MinRep Proof_MinRepMin
  Proof_Twin Proof_Listing Proof_Splits Proof_Noble Proof_Seqs Proof_HelpersBits Proof_Blight Proof_Ec Proof_EcClass Proof_EcMembers Proof_EcCount Proof_EcSplinters Proof_EcSymmetry Proof_EcMore Proof_EcPartitioned Model_ClanMatrix
  Proof_MinRepMale Proof_ClanSizes.
Import ListNotations.
Open Scope nat_scope.

(** * Merging does not read *)

Definition unread (s : setpart) : Prop := c_pairs (sp_caches s) = None /\ c_intval (sp_caches s) = None.

Lemma sp_init_caches c bs dom ls s : sp_init c bs dom ls = Ok s -> sp_caches s = c.
Proof.
  unfold sp_init. cbv zeta.
  match goal with |- match ?b with [] => _ | _ => _ end = _ -> _ => generalize b end. intros [|b blocks] E; [injection E as <-; reflexivity|]. revert E.
  destruct (Nat.eqb _ _); cbn [true_except bind]; [|discriminate].
  match goal with |- bind ?m _ = _ -> _ => destruct m as [len|] end; cbn [bind]; [|discriminate].
  match goal with |- bind ?m _ = _ -> _ => destruct m as [ls'|] end; cbn [bind]; [|discriminate]. intro E. injection E as <-. reflexivity.
Qed.

Lemma reinit_unread s bs ls c : c_pairs c = None -> c_intval c = None -> unread (fst (reinit s bs ls c)).
Proof.
  intros U V. unfold reinit. rewrite U, V. destruct (sp_init _ _ _ _) as [s'|] eqn:E; [|split; reflexivity]. apply sp_init_caches in E. unfold unread. cbn [fst]. rewrite E. split; reflexivity.
Qed.

Lemma merge_pair_unread s a b : unread s -> unread (fst (merge_pair s a b)).
Proof.
  intros [U V]. assert (UV : unread s) by (split; assumption). unfold merge_pair. destruct (Z.eqb a b); [exact UV|]. destruct (negb _); [exact UV|]. destruct (merge_block_labels s a b); [|exact UV].
  assert (A : forall x y, c_pairs (alias_append (sp_caches s) x y) = None /\ c_intval (alias_append (sp_caches s) x y) = None) by (intros x y; unfold alias_append; destruct (c_alias _); split; assumption).
  destruct (zdget (sp_index s) a), (zdget (sp_index s) b); [destruct (Nat.eqb _ _); [exact UV | apply reinit_unread; assumption] | apply reinit_unread; apply A | apply reinit_unread; apply A | apply reinit_unread; assumption].
Qed.

Lemma merge_all_unread pairs s s' : unread s -> Model_Ec.merge_all pairs s = Ok s' -> unread s'.
Proof.
  unfold Model_Ec.merge_all. intro U. destruct (iterate _ pairs s) as [s1 [e|]] eqn:E; [discriminate|]. intro H. injection H as <-. revert s U s1 E. induction pairs as [|[a b] pairs IH]; intros s U s1 E; cbn [iterate] in E; [injection E as <-; exact U|].
  cbn [fst snd] in E. assert (X := merge_pair_unread s a b U). destruct (merge_pair s a b) as [s2 [e|]]; [discriminate E|]. apply (IH s2 X s1 E).
Qed.

Lemma perm_symmetry_unread bl f s : perm_symmetry_partition bl f = Ok s -> unread s.
Proof.
  unfold perm_symmetry_partition. destruct (root_boolf f) as [b|]; [|discriminate]. cbn [bind]. destruct (boolf_tt b _) as [tt|]; [|discriminate]. cbn [bind].
  destruct (SetPart (Some []) _) as [s0|] eqn:E0; [|discriminate]. cbn [bind]. destruct (ec_faction b None false) as [c|]; [|discriminate]. cbn [bind]. destruct (ec_block c b) as [block|]; [|discriminate].
  destruct (is_root b); [|discriminate]. cbn [bind]. destruct (mapM _ _) as [pairs|]; [|discriminate]. cbn [bind]. apply merge_all_unread. unfold SetPart in E0. apply sp_init_caches in E0. unfold unread. rewrite E0. split; reflexivity.
Qed.

(** * Symmetries of the members of a clan *)

Section Clan.
Context (f : boolf) (R : reduced f) (Root : adicity f = valency f) (L5 : valency f <= 5) (bl : nat -> nat).
Let n := valency f.

Definition sy (z : nat) : Z := match sym_intval bl z with Ok i => i | Err _ => 0%Z end.

(** the number is that of a canonical partition *)
Lemma sy_blocks z : cz f z -> exists bs, sym_intval bl z = Ok (sy z) /\ sy z = intval_of (pairs_of bs) /\ canonical bs /\ (forall x, In x (concat bs) -> (0 <= x)%Z) /\
  forall u v, u <> v -> (together bs u v <-> exists x y, u = Z.of_nat x /\ v = Z.of_nat y /\ x < 2 ^ n /\ y < 2 ^ n /\ perm_orbit n (zhegalkin z) x y).
Proof.
  intro Hz. destruct (cz_obj f R Root L5 z Hz) as (g & Eg & Rg & _ & Ag & Vg & Sg & _). destruct (perm_symmetry_partition_spec bl g Rg ltac:(lia)) as (s & Es & Cs & Ds & Ts).
  assert (Irb : rb g = g). { apply reduced_unique; [apply (proj1 (rb_facts g Rg)) | exact Rg|]. intro e. assert (X := root_boolf_rb g Rg). unfold root_boolf in X. unfold is_root in X. rewrite Ag, Vg, Nat.eqb_refl in X. injection X as <-. reflexivity. }
  rewrite Ag, Vg, Irb in Ts. assert (U := perm_symmetry_unread bl g s Es).
  assert (E : sym_intval bl z = Ok (intval_of (pairs_of (sp_blocks s)))). { unfold sym_intval. rewrite Eg. cbn [bind]. rewrite Es. cbn [bind]. rewrite fresh_intval by apply U. reflexivity. }
  assert (PO : forall x y, perm_orbit n (sem g) x y <-> perm_orbit n (zhegalkin z) x y).
  { intros x y. unfold perm_orbit, symmetry, replaced. split; intros (pi & (A & B & H) & M); exists pi; (split; [|exact M]); (split; [exact A|]); (split; [exact B|]); intro e; specialize (H e); [rewrite !Sg in H | rewrite !Sg]; exact H. }
  exists (sp_blocks s). assert (Ey : sy z = intval_of (pairs_of (sp_blocks s))) by (unfold sy; rewrite E; reflexivity). split; [rewrite Ey; exact E|]. split; [exact Ey|]. split; [exact Cs|].
  assert (T' : forall u v, u <> v -> (together (sp_blocks s) u v <-> exists x y, u = Z.of_nat x /\ v = Z.of_nat y /\ x < 2 ^ n /\ y < 2 ^ n /\ perm_orbit n (zhegalkin z) x y)).
  { intros u v Huv. fold n in Ts. rewrite (Ts u v Huv). split; intros (x & y & H1 & H2 & H3 & H4 & H5); exists x, y; apply PO in H5; auto. }
  split; [|exact T']. intros x Hx. apply in_concat in Hx as (b & Hb & Hx). destruct (proj1 Cs b Hb) as [Lb Sb].
  assert (exists y, In y b /\ x <> y) as (y & Hy & Hxy).
  { destruct b as [|a [|c b]]; cbn in Lb; try lia. inversion Sb as [|? ? _ Fa]; subst. inversion Fa as [|? ? Hac]; subst. destruct (Z.eq_dec x a) as [->|]; [exists c; split; [right; left; reflexivity | lia] | exists a; split; [left; reflexivity | assumption]]. }
  destruct (proj1 (T' x y Hxy)) as (i & j & -> & _); [exists b; auto | lia].
Qed.

Lemma sy_ok z : cz f z -> sym_intval bl z = Ok (sy z).
Proof. intro H. destruct (sy_blocks z H) as (bs & E & _). exact E. Qed.

Lemma sy_eq y z : cz f y -> cz f z -> (sy y = sy z <-> same_orbits n (zhegalkin y) (zhegalkin z)).
Proof.
  intros Hy Hz. destruct (sy_blocks y Hy) as (bs & _ & Ey & Cy & Py & Ty). destruct (sy_blocks z Hz) as (bs' & _ & Ez & Cz & Pz & Tz). rewrite Ey, Ez, intval_inj by assumption. split.
  - intros <- x w Hx Hw. destruct (Nat.eq_dec x w) as [->|Hxw]; [split; intros _; apply perm_orbit_refl; apply num_ext|].
    assert (Huv : Z.of_nat x <> Z.of_nat w) by lia. assert (X := Ty _ _ Huv). rewrite (Tz _ _ Huv) in X. split; intro O.
    + destruct (proj2 X) as (x' & w' & E1 & E2 & _ & _ & H); [exists x, w; auto|]. apply Nat2Z.inj in E1, E2. subst. exact H.
    + destruct (proj1 X) as (x' & w' & E1 & E2 & _ & _ & H); [exists x, w; auto|]. apply Nat2Z.inj in E1, E2. subst. exact H.
  - intro S. apply canonical_ext; [exact Cy | exact Cz|]. intros u v Huv. rewrite (Ty u v Huv), (Tz u v Huv). split; intros (x & w & -> & -> & Hx & Hw & O); exists x, w; apply S in O; auto.
Qed.

(** no symmetry at all *)
Lemma sy_zero z : cz f z -> (sy z = 0%Z <-> forall x y, x < 2 ^ n -> y < 2 ^ n -> perm_orbit n (zhegalkin z) x y -> x = y).
Proof.
  intro Hz. destruct (sy_blocks z Hz) as (bs & _ & Ey & Cy & Py & Ty). rewrite Ey. change 0%Z with (intval_of (pairs_of [])). rewrite intval_inj; [|exact Cy | split; [intros ? [] | split; [intros ? ? ? [] | constructor]] | exact Py | intros ? []]. split.
  - intros -> x y Hx Hy O. destruct (Nat.eq_dec x y) as [|Hxy]; [assumption|]. assert (Huv : Z.of_nat x <> Z.of_nat y) by lia. destruct (proj2 (Ty _ _ Huv)) as (b & [] & _). exists x, y. auto.
  - intro H. destruct bs as [|b bs]; [reflexivity|]. exfalso. destruct (proj1 Cy b (or_introl eq_refl)) as [Lb Sb]. destruct b as [|a [|c b]]; cbn in Lb; try lia. inversion Sb as [|? ? _ Fa]; subst. inversion Fa as [|? ? Hac]; subst.
    destruct (proj1 (Ty a c ltac:(lia))) as (x & y & -> & -> & Hx & Hy & O); [exists (Z.of_nat x :: Z.of_nat y :: b) || (eexists; split; [left; reflexivity|]; split; [left; reflexivity | right; left; reflexivity])|]. specialize (H x y Hx Hy O). lia.
Qed.

(** all members of a faction have symmetries, or none of them *)
Lemma sy_zero_faction y z : cz f y -> cz f z -> faction_class (zhegalkin y) (zhegalkin z) -> sy z = 0%Z -> sy y = 0%Z.
Proof.
  intros Hy Hz F. destruct (cz_faction f R Root L5 y z Hy Hz F) as (r & Hr & E). fold n in Hr, E. rewrite (sy_zero z Hz), (sy_zero y Hy). intros H x w Hx Hw (pi & (B & Fix & Inv) & M).
  destruct (act_bijection r n Hr) as (inv & Hi). assert (High : forall b, n <= b -> inv b = b) by (intros b Hb; rewrite <- (act_high r n b Hr Hb) at 1; apply Hi).
  assert (Bits : forall v, v < 2 ^ n -> forall b, Nat.testbit (pre inv n v) b = Nat.testbit v (inv b)).
  { intros v Hv b. destruct (Nat.lt_ge_cases b n) as [Lb|Lb]; [apply pre_bits, Lb|]. rewrite High by exact Lb. rewrite !testbit_high; [reflexivity | | ].
    - eapply Nat.lt_le_trans; [exact Hv | apply Nat.pow_le_mono_r; lia].
    - eapply Nat.lt_le_trans; [apply pre_lt | apply Nat.pow_le_mono_r; lia]. }
  assert (X : pre inv n x = pre inv n w).
  { apply H; [apply pre_lt | apply pre_lt|]. exists (fun b => act r (pi (inv b))). split; [|intro b].
    - split; [|split].
      + destruct B as (pinv & Hp). exists (fun b => act r (pinv (inv b))). intro b. rewrite !(proj1 (Hi _)). rewrite (proj1 (Hp _)), (proj2 (Hp _)). split; apply Hi.
      + intros b Hb. split; [|reflexivity]. rewrite High by exact Hb. rewrite (proj1 (Fix b Hb)). apply (act_high r n b Hr Hb).
      + intro e. unfold replaced. rewrite E. rewrite !(ren_spec n r y _ Hr (cz_lt f y Hy)). rewrite <- (Inv (fun a => e (act r a))). unfold replaced. apply num_ext. intro a. rewrite (proj1 (Hi a)). reflexivity.
    - rewrite !Bits, (proj1 (Hi _)) by assumption. apply M. }
  apply Nat.bits_inj. intro a. rewrite <- (proj1 (Hi a)), <- !Bits by assumption. rewrite X. reflexivity.
Qed.
End Clan.
