(** Proof_ClanSizes: permutations of atoms acting on Zhegalkin numbers; intersections of factions and families. *)

From Coq Require Import List Arith ZArith Bool Lia Permutation Sorted Factorial.
From Verif Require Import Model_Base Lib Model_Splits Model_Perm Model_Binary Model_SigPerm Model_SetPart Model_Boolf Model_BoolfMore Model_MinRep
  Model_Helpers Model_Ec Spec_Bits Spec_Perm Spec_SigPerm Spec_Boolf Spec_SetPart Spec_MinRep Spec_Helpers Spec_Ec Spec_ClanMatrix
  Proof_Binary Proof_Perm Proof_PermMore Proof_Inversions Proof_SigPerm Proof_SigPermOps Proof_SigPermMore Proof_Helpers Proof_SetPart Proof_SetPartLabels Proof_SetPartMore Proof_SetPartObj
  Proof_Boolf Proof_Deflate Proof_BoolfTable Proof_BoolfApply Proof_BoolfMake Proof_BoolfMore Proof_MinRepTwin Proof_MinRepClass Proof_MinRepCoset Proof_MinRep Proof_MinRepMin
  Proof_Twin Proof_Listing Proof_Splits Proof_Noble Proof_Seqs Proof_HelpersBits Proof_Blight Proof_Ec Proof_EcClass Proof_EcMembers Proof_EcCount Proof_EcSplinters Proof_EcSymmetry Proof_EcMore Proof_EcPartitioned Model_ClanMatrix.
Import ListNotations.
Open Scope nat_scope.

(** * Renaming atoms *)

Definition ren (n r z : nat) : nat := b2n (map (fun s => Nat.testbit z (pre (act r) n s)) (range (2 ^ n))).

Lemma ren_bits n r z s : s < 2 ^ n -> Nat.testbit (ren n r z) s = Nat.testbit z (pre (act r) n s).
Proof. intro H. unfold ren. rewrite testbit_b2n. rewrite (nth_map_range (fun s => Nat.testbit z (pre (act r) n s))) by exact H. reflexivity. Qed.
Lemma ren_lt n r z : ren n r z < 2 ^ 2 ^ n.
Proof. unfold ren. eapply Nat.lt_le_trans; [apply b2n_lt|]. rewrite map_length, range_length. lia. Qed.

Lemma ren_spec n r z e : r < fact n -> z < 2 ^ 2 ^ n -> zhegalkin (ren n r z) e = zhegalkin z (fun a => e (act r a)).
Proof.
  intros Hr Hz. set (j := b2n (map e (range n))). assert (Hj : j < 2 ^ n) by (eapply Nat.lt_le_trans; [apply b2n_lt|]; rewrite map_length, range_length; lia).
  assert (Ej : forall a, a < n -> Nat.testbit j a = e a) by (intros a Ha; unfold j; rewrite testbit_b2n, nth_map_range by exact Ha; reflexivity).
  assert (Pn := permutes_act r n Hr).
  rewrite (zhegalkin_ext (ren n r z) n e (Nat.testbit j)) by (try apply ren_lt; intros; symmetry; apply Ej; assumption). rewrite (zhegalkin_anf _ n) by apply ren_lt.
  rewrite (anf_ext n _ (fun s => Nat.testbit z (pre (act r) n s))) by (intros k Hk; apply ren_bits; lia). rewrite (anf_perm (act r) n (Nat.testbit z) j Pn), <- zhegalkin_anf by exact Hz.
  apply (zhegalkin_ext z n); [exact Hz|]. intros a Ha. rewrite pre_bits by exact Ha. apply Ej, (permutes_lt _ n a Pn Ha).
Qed.

Lemma ones_count_filter n z : z < 2 ^ n -> length (ones z) = length (filter (Nat.testbit z) (seq 0 n)).
Proof. intro H. rewrite (ones_bound n z H). reflexivity. Qed.

Lemma ren_ones n r z : r < fact n -> z < 2 ^ 2 ^ n -> length (ones (ren n r z)) = length (ones z).
Proof.
  intros Hr Hz. rewrite !(ones_count_filter (2 ^ n)) by (assumption || apply ren_lt).
  rewrite (filter_ext_in _ (fun s => Nat.testbit z (pre (act r) n s))) by (intros s Hs; apply in_seq in Hs; apply ren_bits; lia).
  rewrite <- (filter_map_length (pre (act r) n) (Nat.testbit z)). apply perm_filter_length, pre_perm, permutes_act, Hr.
Qed.

(** * The Zhegalkin numbers of a clan *)

Section Clan.
Context (f : boolf) (R : reduced f) (Root : adicity f = valency f) (L5 : valency f <= 5).
Let n := valency f.
Definition cz (z : nat) : Prop := in_clan f (zhegalkin z).

Lemma cz_lt z : cz z -> z < 2 ^ 2 ^ n.
Proof. intros [_ H]. apply local_num, H. Qed.

Lemma cz_obj z : cz z -> exists g, subinit_zhe (Z.of_nat z) = Ok g /\ reduced g /\ zn g = z /\ adicity g = n /\ valency g = n /\ (forall e, sem g e = zhegalkin z e) /\ clan_class (sem f) (sem g).
Proof.
  intro H. destruct (zhe_spec z) as (g & E & Rg & S). exists g. destruct (zn_spec g Rg) as (_ & Zg & _). assert (Ez : zn g = z) by (apply zhegalkin_inj; intro e; rewrite Zg; apply S).
  assert (C : clan_class (sem f) (sem g)) by (apply (clan_class_ext (sem f) (sem f) (zhegalkin z)); [reflexivity | intro; symmetry; apply S | apply H]).
  assert (A : adicity g <= n) by (apply (zn_bound g n Rg); rewrite Ez; apply cz_lt, H). assert (V := clan_valency_le f g R Rg C). assert (V2 := valency_le_adicity g Rg). fold n in V.
  repeat (split; [first [assumption | lia]|]). exact C.
Qed.

Lemma cz_self : cz (zn f).
Proof.
  destruct (zn_spec f R) as (_ & S & _). apply (in_clan_ext f (sem f)); [intro; symmetry; apply S|]. split; [apply faction_clan, faction_refl | apply local_sem; [exact R | lia]].
Qed.

Lemma cz_between y z : cz y -> cz z -> exists m r, m < 2 ^ n /\ r < fact n /\ forall e, zhegalkin z e = zhegalkin y (fun a => xorb (e (act r a)) (Nat.testbit m (act r a))).
Proof.
  intros Hy Hz. destruct (cz_obj y Hy) as (g & _ & Rg & _ & Ag & _ & Sg & Cg). destruct (cz_obj z Hz) as (h & _ & Rh & _ & Ah & _ & Sh & Ch).
  destruct (proj2 (clan_members g h n Rg ltac:(lia))) as (m & r & Hm & Hr & _ & H).
  { split; [exact Rh|]. split; [lia|]. apply (clan_same f g Cg), Ch. }
  exists m, r. split; [exact Hm|]. split; [exact Hr|]. intro e. rewrite <- Sh, H, Sg. reflexivity.
Qed.

Lemma cz_faction y z : cz y -> cz z -> faction_class (zhegalkin y) (zhegalkin z) -> exists r, r < fact n /\ z = ren n r y.
Proof.
  intros Hy Hz F. destruct (cz_obj y Hy) as (g & _ & Rg & _ & Ag & _ & Sg & Cg). destruct (cz_obj z Hz) as (h & _ & Rh & _ & Ah & _ & Sh & Ch).
  destruct (proj2 (faction_members g h n Rg ltac:(lia))) as (r & Hr & _ & H).
  { split; [exact Rh|]. split; [lia|]. apply (faction_class_ext (zhegalkin y) _ (zhegalkin z)); [intro; symmetry; apply Sg | intro; symmetry; apply Sh | exact F]. }
  exists r. split; [exact Hr|]. apply zhegalkin_inj. intro e. rewrite (ren_spec n r y e Hr (cz_lt y Hy)), <- Sh, H, Sg. reflexivity.
Qed.

Lemma cz_clan F : clan_class (sem f) F -> local n F -> forall z, (forall e, zhegalkin z e = F e) -> cz z.
Proof. intros C Lo z H. apply (in_clan_ext f F); [intro; symmetry; apply H | split; assumption]. Qed.

Lemma num_faction_sym y z : faction_class (zhegalkin y) (zhegalkin z) -> faction_class (zhegalkin z) (zhegalkin y).
Proof.
  destruct (zn_of y) as (g & Rg & <-). destruct (zn_of z) as (h & Rh & <-). destruct (zn_spec g Rg) as (_ & Sg & _). destruct (zn_spec h Rh) as (_ & Sh & _). intro F.
  apply (faction_class_ext (sem h) _ (sem g)); [intro; symmetry; apply Sh | intro; symmetry; apply Sg|].
  apply (faction_class_ext _ (sem g) _ (sem h) Sg Sh) in F. apply (proj1 (faction_same g h F (sem g))), faction_refl.
Qed.
Lemma num_faction_trans x y z : faction_class (zhegalkin x) (zhegalkin y) -> faction_class (zhegalkin y) (zhegalkin z) -> faction_class (zhegalkin x) (zhegalkin z).
Proof.
  intros (p & (p' & Hp) & E) (q & (q' & Hq) & E'). exists (fun a => q (p a)). split.
  - exists (fun a => p' (q' a)). intro a. rewrite (proj1 (Hq _)), (proj2 (Hp _)). split; [apply Hp | apply Hq].
  - intro e. rewrite E', E. reflexivity.
Qed.
Lemma num_family_sym y z : family_class (zhegalkin y) (zhegalkin z) -> family_class (zhegalkin z) (zhegalkin y).
Proof.
  destruct (zn_of y) as (g & Rg & <-). destruct (zn_of z) as (h & Rh & <-). destruct (zn_spec g Rg) as (_ & Sg & _). destruct (zn_spec h Rh) as (_ & Sh & _). intro F.
  apply (family_class_ext (sem h) _ (sem g)); [intro; symmetry; apply Sh | intro; symmetry; apply Sg|].
  apply (family_class_ext _ (sem g) _ (sem h) Sg Sh) in F. apply (proj1 (family_same g h F (sem g))), family_refl.
Qed.
Lemma num_family_trans x y z : family_class (zhegalkin x) (zhegalkin y) -> family_class (zhegalkin y) (zhegalkin z) -> family_class (zhegalkin x) (zhegalkin z).
Proof.
  intros F G. destruct (zn_of x) as (g & Rg & <-). destruct (zn_of y) as (h & Rh & <-). destruct (zn_spec g Rg) as (_ & Sg & _). destruct (zn_spec h Rh) as (_ & Sh & _).
  apply (family_class_ext (sem g) _ (zhegalkin z)); [intro; symmetry; apply Sg | reflexivity|].
  apply (proj2 (family_same g h (family_class_ext _ _ _ _ Sg Sh F) (zhegalkin z))). apply (family_class_ext (zhegalkin (zn h)) _ (zhegalkin z)); [apply Sh | reflexivity | exact G].
Qed.

(** ** renamed members of the clan *)

Lemma ren_faction r y : r < fact n -> y < 2 ^ 2 ^ n -> faction_class (zhegalkin y) (zhegalkin (ren n r y)).
Proof. intros Hr Hy. exists (act r). split; [apply (act_bijection r n Hr)|]. intro e. apply ren_spec; assumption. Qed.

Lemma num_ext y (e e' : assignment) : (forall a, e a = e' a) -> zhegalkin y e = zhegalkin y e'.
Proof. destruct (zn_of y) as (g & Rg & <-). destruct (zn_spec g Rg) as (_ & Sg & _). intro H. rewrite !Sg. apply sem_ext_all, H. Qed.

Lemma ren_cz r y : r < fact n -> cz y -> cz (ren n r y).
Proof.
  intros Hr Hy. split.
  - destruct (cz_obj y Hy) as (g & _ & Rg & _ & Ag & _ & Sg & Cg). apply (clan_same f g Cg). apply (faction_clan g).
    apply (faction_class_ext (zhegalkin y) _ (zhegalkin (ren n r y))); [intro; symmetry; apply Sg | reflexivity | apply ren_faction; [exact Hr | apply cz_lt, Hy]].
  - apply local_num, ren_lt.
Qed.

Lemma ren_inj r y z : r < fact n -> y < 2 ^ 2 ^ n -> z < 2 ^ 2 ^ n -> ren n r y = ren n r z -> y = z.
Proof.
  intros Hr Hy Hz E. apply zhegalkin_inj. intro e. destruct (act_bijection r n Hr) as (inv & Hi).
  assert (X : forall w, w < 2 ^ 2 ^ n -> zhegalkin w e = zhegalkin (ren n r w) (fun a => e (inv a))) by (intros w Hw; rewrite (ren_spec n r w _ Hr Hw); apply num_ext; intro a; rewrite (proj1 (Hi a)); reflexivity).
  rewrite !X, E by assumption. reflexivity.
Qed.

(** renaming moves families to families *)
Lemma ren_family r y z : r < fact n -> y < 2 ^ 2 ^ n -> z < 2 ^ 2 ^ n -> family_class (zhegalkin y) (zhegalkin z) -> family_class (zhegalkin (ren n r y)) (zhegalkin (ren n r z)).
Proof.
  intros Hr Hy Hz (m & H). destruct (act_bijection r n Hr) as (inv & Hi). exists (fun a => m (inv a)). intro e. rewrite !ren_spec, H by assumption. apply num_ext. intro a. rewrite (proj1 (Hi a)). reflexivity.
Qed.

Lemma some_ren y z : cz y -> cz z -> exists r, r < fact n /\ family_class (zhegalkin z) (zhegalkin (ren n r y)).
Proof.
  intros Hy Hz. destruct (cz_between y z Hy Hz) as (m & r & Hm & Hr & H). exists r. split; [exact Hr|]. apply num_family_sym. exists (Nat.testbit m). intro e. rewrite H, (ren_spec n r y _ Hr (cz_lt y Hy)). reflexivity.
Qed.

(** ** the intersection of a faction and a family *)

Definition is_splinter (p q : nat) (l : list nat) : Prop :=
  StronglySorted lt l /\ forall z, In z l <-> cz z /\ faction_class (zhegalkin p) (zhegalkin z) /\ family_class (zhegalkin q) (zhegalkin z).

Lemma splinter_le p q q' l l' : cz q -> cz q' -> is_splinter p q l -> is_splinter p q' l' -> length l <= length l'.
Proof.
  intros Hq Hq' [S H] [S' H']. destruct (some_ren q q' Hq Hq') as (r & Hr & F). apply (injection_length l l' (ren n r)).
  - apply sorted_lt_NoDup, S.
  - intros z Hz. apply H in Hz as (Cz & Fz & Mz). apply H'. split; [apply ren_cz; assumption|]. split; [apply (num_faction_trans p z); [exact Fz | apply ren_faction; [exact Hr | apply cz_lt, Cz]]|].
    apply (num_family_trans q' (ren n r q)); [exact F|]. apply ren_family; auto using cz_lt.
  - intros x y Hx Hy. apply H in Hx as (Cx & _). apply H in Hy as (Cy & _). apply ren_inj; auto using cz_lt.
Qed.
Lemma splinter_size p q q' l l' : cz q -> cz q' -> is_splinter p q l -> is_splinter p q' l' -> length l = length l'.
Proof. intros Hq Hq' H H'. apply Nat.le_antisymm; [apply (splinter_le p q q') | apply (splinter_le p q' q)]; assumption. Qed.

Lemma splinter_some p q l : cz p -> cz q -> is_splinter p q l -> 1 <= length l.
Proof.
  intros Hp Hq [_ H]. destruct (some_ren p q Hp Hq) as (r & Hr & F). assert (I : In (ren n r p) l) by (apply H; split; [apply ren_cz; assumption|]; split; [apply ren_faction; [exact Hr | apply cz_lt, Hp] | exact F]).
  destruct l; [destruct I | cbn; lia].
Qed.

Lemma faction_weight p z : cz p -> cz z -> faction_class (zhegalkin p) (zhegalkin z) -> length (ones z) = length (ones p).
Proof. intros Hp Hz F. destruct (cz_faction p z Hp Hz F) as (r & Hr & ->). apply ren_ones; [exact Hr | apply cz_lt, Hp]. Qed.
End Clan.
