(** Proof_King: permutations of the atoms act on nobles; the least royal of a faction. *)

From Coq Require Import List Arith ZArith Bool Lia Permutation Sorted Factorial.
From Verif Require Import Model_Base Lib Model_Binary Model_Twin Model_Boolf Model_BoolfMore Model_MinRep Model_King
  Spec_Bits Spec_SigPerm Spec_Boolf Spec_Twin Spec_MinRep Proof_Binary Proof_Deflate Proof_Boolf Proof_BoolfTable Proof_Twin Proof_BoolfMake Proof_Noble
  Proof_MinRepClass Proof_MinRepCoset Proof_MinRepMin Proof_EcClass Proof_EcMembers Props_Boolf Props_MinRep.
Import (coercions) Proof_BoolfApply.
Import ListNotations.
Local Open Scope nat_scope.

(** the table with the number [u] is that with the number [t], with the atoms permuted *)
Definition moved (n : nat) (pi : nat -> nat) (t u : nat) : Prop := permutes pi n /\ forall j, j < 2 ^ n -> Nat.testbit u j = Nat.testbit t (pre pi n j).
Definition same_faction (n t u : nat) : Prop := exists pi, moved n pi t u.

Lemma moved_own n pi t u : moved n pi t u -> own_twin n t -> own_twin n u.
Proof.
  intros [P M] O. rewrite own_twin_anf in *. intros j Hj. rewrite (anf_ext n _ _ j M), (anf_perm pi n (Nat.testbit t) j P), <- O by apply pre_lt. apply M, Hj.
Qed.

Lemma anf_zero n F : anf n F 0 = F 0.
Proof.
  induction n as [|n IH].
  - unfold anf. cbn. destruct (F 0); reflexivity.
  - rewrite anf_low by apply pow2_pos. exact IH.
Qed.
Lemma anf_atom n : forall F a, a < n -> anf n F (2 ^ a) = xorb (F 0) (F (2 ^ a)).
Proof.
  induction n as [|n IH]; intros F a Ha; [lia|]. destruct (Nat.eq_dec a n) as [->|Hn].
  - assert (E := anf_high n F 0 (pow2_pos n)). cbn [Nat.add] in E. rewrite E, !anf_zero. reflexivity.
  - rewrite anf_low by (apply Nat.pow_lt_mono_r; lia). apply IH. lia.
Qed.
(** a noble has the same value at all places with one true atom *)
Lemma noble_atoms n t a : own_twin (S n) t -> a < S n -> Nat.testbit t (2 ^ a) = Nat.testbit t 1.
Proof.
  intros O Ha. rewrite (noble_bit_1 n t O). destruct (Nat.eq_dec a n) as [->|Hn].
  - assert (E := testbit_high_half n t 0). rewrite Nat.add_0_l in E. exact E.
  - rewrite (proj1 (own_twin_halves n t) O (2 ^ a)) by (apply Nat.pow_lt_mono_r; lia). rewrite anf_atom by lia.
    destruct (Nat.testbit (t / 2 ^ 2 ^ n) 0), (Nat.testbit (t / 2 ^ 2 ^ n) (2 ^ a)); reflexivity.
Qed.

Lemma moved_quad n pi t u : moved (S n) pi t u -> own_twin (S n) t -> nquad (S n) u = nquad (S n) t.
Proof.
  intros [P M] O. assert (Hp := pow2_pos n). unfold nquad. rewrite (M 1), (M (2 ^ S n - 1)) by (rewrite Nat.pow_succ_r'; lia).
  assert (E1 : Nat.testbit t (pre pi (S n) 1) = Nat.testbit t 1); [|assert (E2 : pre pi (S n) (2 ^ S n - 1) = 2 ^ S n - 1); [|rewrite E1, E2; reflexivity]].
  - destruct (permutes_onto pi (S n) 0 P (Nat.lt_0_succ n)) as (a & Ha & Ea). rewrite (pre_eq pi (S n) 1 (2 ^ a)); [apply (noble_atoms n); assumption | apply Nat.pow_lt_mono_r; lia|].
    intros i Hi. rewrite Nat.pow2_bits_eqb. replace (Nat.testbit 1 (pi i)) with (Nat.testbit (2 ^ 0) (pi i)) by reflexivity. rewrite Nat.pow2_bits_eqb. apply bool_iff. rewrite !Nat.eqb_eq. split; [intros <-; congruence|]. intro E. apply (injective_on pi (S n) a i P Ha Hi). congruence.
  - apply pre_eq; [rewrite Nat.pow_succ_r'; lia|]. intros i Hi. rewrite !testbit_ones_low; [reflexivity | apply (permutes_lt _ _ _ P Hi) | exact Hi].
Qed.

Lemma moved_sym n pi t u : moved n pi t u -> exists rho, moved n rho u t.
Proof.
  intros [P M]. set (rho := fun b => match find (fun a => Nat.eqb (pi a) b) (range n) with Some a => a | None => b end).
  assert (R : forall a, a < n -> rho (pi a) = a).
  { intros a Ha. unfold rho. destruct (find _ (range n)) as [a'|] eqn:E.
    - apply find_some in E as [H1 H2]. apply range_In in H1. apply Nat.eqb_eq in H2. apply (injective_on pi n a' a P H1 Ha H2).
    - pose proof (find_none _ _ E a (proj2 (range_In _ _) Ha)) as H. cbn beta in H. rewrite Nat.eqb_refl in H. discriminate H. }
  assert (R2 : forall b, b < n -> rho b < n /\ pi (rho b) = b). { intros b Hb. destruct (permutes_onto pi n b P Hb) as (a & Ha & <-). rewrite R by exact Ha. auto. }
  exists rho. split.
  - apply NoDup_Permutation_bis; [|rewrite map_length; lia|].
    + apply Proof_Helpers.NoDup_map_inj; [apply range_NoDup|]. intros x y Hx Hy E. apply range_In in Hx, Hy. rewrite <- (proj2 (R2 x Hx)), <- (proj2 (R2 y Hy)), E. reflexivity.
    + intros x Hx. apply in_map_iff in Hx as (b & <- & Hb). apply range_In in Hb. apply range_In, R2, Hb.
  - intros j Hj. rewrite M by apply pre_lt. f_equal. symmetry. apply pre_eq; [exact Hj|]. intros a Ha. rewrite pre_bits by (apply (permutes_lt _ _ _ P Ha)). rewrite R by exact Ha. reflexivity.
Qed.
Lemma moved_trans n pi rho t u v : moved n pi t u -> moved n rho u v -> moved n (fun a => rho (pi a)) t v.
Proof.
  intros [P M] [Q N]. split.
  - unfold permutes in *. rewrite <- (map_map pi rho). eapply Permutation_trans; [apply Permutation_map, P | exact Q].
  - intros j Hj. rewrite N, M by (exact Hj || apply pre_lt). f_equal. symmetry. apply pre_eq; [apply pre_lt|]. intros a Ha. rewrite !pre_bits; [reflexivity | apply (permutes_lt _ _ _ P Ha) | exact Ha].
Qed.
Lemma faction_refl n t : same_faction n t t.
Proof. exists (fun a => a). split; [unfold permutes; rewrite map_id; reflexivity|]. intros j Hj. rewrite (pre_eq _ n j j Hj); reflexivity. Qed.
Lemma faction_symm n t u : same_faction n t u -> same_faction n u t.
Proof. intros (pi & M). destruct (moved_sym n pi t u M) as (rho & M'). exists rho. exact M'. Qed.
Lemma faction_trans n t u v : same_faction n t u -> same_faction n u v -> same_faction n t v.
Proof. intros (pi & M) (rho & N). exists (fun a => rho (pi a)). apply (moved_trans n pi rho t u v M N). Qed.

(** the classes of objects and of numbers are the same *)
Lemma faction_tables n f g t u : reduced f -> reduced g -> adicity f <= n -> adicity g <= n ->
  (forall j, j < 2 ^ n -> tab f j = Nat.testbit t j) -> (forall j, j < 2 ^ n -> tab g j = Nat.testbit u j) ->
  (faction_class (sem f) (sem g) <-> same_faction n t u).
Proof.
  intros Rf Rg Af Ag Tf Tg. split.
  - intro C. destruct (proj2 (faction_members f g n Rf Af) (conj Rg (conj Ag C))) as (r & Hr & _ & S). exists (act r). split; [apply permutes_act, Hr|].
    intros j Hj. rewrite <- Tg by exact Hj. rewrite <- Tf by apply pre_lt. unfold tab. rewrite S. apply (sem_low f n _ _ Af). intros a Ha. symmetry. apply pre_bits, Ha.
  - intros (pi & P & M). destruct (extend_perm n pi (atomvals f)) as (r & Hr & E).
    + apply fitting_NoDup, Rf.
    + intros a Ha. apply adicity_bound in Ha. split; [lia|]. apply (permutes_lt _ _ _ P). lia.
    + intros a b Ha Hb. apply adicity_bound in Ha, Hb. apply (injective_on pi n); [exact P | lia | lia].
    + apply (proj1 (faction_members f g n Rf Af)). exists r. split; [exact Hr|]. split; [exact Rg|]. intro e. rewrite (sem_place g n e Ag), Tg by apply place_lt. rewrite M by apply place_lt. rewrite <- Tf by apply pre_lt. unfold tab. apply sem_ext. intros a Ha.
      assert (La := adicity_bound _ _ Ha). rewrite pre_bits by lia. rewrite place_bits by (apply (permutes_lt _ _ _ P); lia). rewrite (E a Ha). reflexivity.
Qed.

(** a noble is its own Zhegalkin number *)
Lemma noble_zhegalkin n f t : adicity f <= n -> t < 2 ^ 2 ^ n -> own_twin n t -> (forall j, j < 2 ^ n -> tab f j = Nat.testbit t j) -> forall e, zhegalkin t e = sem f e.
Proof.
  intros A Ht O T e. rewrite (sem_place f n e A), T by apply place_lt. rewrite (proj1 (own_twin_anf n t) O) by apply place_lt. rewrite <- (zhegalkin_anf t n) by exact Ht.
  apply (zhegalkin_ext t n); [exact Ht|]. intros a Ha. symmetry. apply place_bits, Ha.
Qed.

Lemma pre_zero pi n : pre pi n 0 = 0.
Proof. apply pre_eq; [apply pow2_pos|]. intros a _. rewrite !Nat.bits_0. reflexivity. Qed.
Lemma pre_last pi n : permutes pi n -> pre pi n (2 ^ n - 1) = 2 ^ n - 1.
Proof.
  intro P. assert (Hp := pow2_pos n). apply pre_eq; [lia|]. intros i Hi. rewrite !testbit_ones_low; [reflexivity | apply (permutes_lt _ _ _ P Hi) | exact Hi].
Qed.
Lemma pre_eqb pi n j k : permutes pi n -> j < 2 ^ n -> k < 2 ^ n -> pre pi n k = k -> Nat.eqb k (pre pi n j) = Nat.eqb k j.
Proof.
  intros P Hj Hk E. apply bool_iff. rewrite !Nat.eqb_eq. split; intro H; [|congruence]. apply (pre_inj pi n); [exact P | exact Hk | exact Hj|]. congruence.
Qed.
Lemma moved_mask n pi q : permutes pi n -> moved n pi (royal_mask n q) (royal_mask n q).
Proof.
  intro P. split; [exact P|]. intros j Hj. assert (Hp := pow2_pos n).
  assert (E1 := pre_eqb pi n j 0 P Hj Hp (pre_zero pi n)). assert (E2 := pre_eqb pi n j (2 ^ n - 1) P Hj ltac:(lia) (pre_last pi n P)).
  destruct q as [|[|[|q]]]; cbn [royal_mask]; rewrite ?Nat.lxor_spec, ?last_only_bit, ?but_first_bit, ?Nat.bits_0, ?E1, ?E2, ?(proj2 (Nat.ltb_lt _ _) (pre_lt pi n j)), ?(proj2 (Nat.ltb_lt _ _) Hj); reflexivity.
Qed.
Lemma moved_lxor n pi t u t' u' : moved n pi t u -> moved n pi t' u' -> moved n pi (Nat.lxor t t') (Nat.lxor u u').
Proof. intros [P M] [_ M']. split; [exact P|]. intros j Hj. rewrite !Nat.lxor_spec, M, M' by exact Hj. reflexivity. Qed.
Lemma lxor_twice a b : Nat.lxor (Nat.lxor a b) b = a.
Proof. rewrite Nat.lxor_assoc, Nat.lxor_nilpotent, Nat.lxor_0_r. reflexivity. Qed.

Definition royal_of (n t : nat) : nat := Nat.lxor t (royal_mask n (nquad n t)).
Lemma royal_of_lt n t : t < 2 ^ 2 ^ n -> royal_of n t < 2 ^ 2 ^ n.
Proof. intro H. apply lxor_lt; [exact H | apply royal_mask_lt]. Qed.
Lemma royal_of_own n t : own_twin n t -> own_twin n (royal_of n t).
Proof. intro H. apply own_twin_lxor; [exact H | apply royal_mask_own]. Qed.

(** nobles are in the same faction iff their royals are and they have the same quadrant *)
Lemma faction_royal n t u : own_twin (S n) t -> own_twin (S n) u ->
  (same_faction (S n) t u <-> same_faction (S n) (royal_of (S n) t) (royal_of (S n) u) /\ nquad (S n) t = nquad (S n) u).
Proof.
  intros Ot Ou. unfold royal_of. split.
  - intros (pi & M). assert (Q := moved_quad n pi t u M Ot). rewrite Q. split; [|reflexivity]. exists pi. apply moved_lxor; [exact M | apply moved_mask, M].
  - intros ((pi & M) & Q). rewrite Q in M. exists pi. assert (X := moved_lxor (S n) pi _ _ _ _ M (moved_mask (S n) pi (nquad (S n) u) (proj1 M))). rewrite !lxor_twice in X. exact X.
Qed.

(** the king of a number that is its own twin *)
Lemma king_of n r : r < 2 ^ 2 ^ n -> own_twin n r -> exists f g k, Boolf_int r n = Ok f /\ faction_minrep f = Ok (Some g) /\ boolf_tt g (TtArity n) = Ok (map (tab g) (range (2 ^ n))) /\
  b2n (map (tab g) (range (2 ^ n))) = k /\ k < 2 ^ 2 ^ n /\ same_faction n r k /\ forall u, u < 2 ^ 2 ^ n -> same_faction n r u -> k <= u.
Proof.
  intros Hr O. destruct (Boolf_int_tab r n Hr) as (f & Ef & Rf & Af & Tf). destruct (faction_minrep_smallest f Rf) as (g & Eg & Rg & (Cg & z & Zg & Sg)).
  assert (Zr := noble_zhegalkin n f r Af Hr O Tf).
  assert (Lz : z <= r). { apply (Sg (sem f) r); [exists (fun a => a); split; [exists (fun a => a); auto | reflexivity] | exact Zr]. }
  assert (Hz : z < 2 ^ 2 ^ n) by lia.
  assert (Ag : adicity g <= n). { apply (adicity_le g n Rg). intros e e' He. rewrite <- !Zg. apply (zhegalkin_ext z n); assumption. }
  set (k := b2n (map (tab g) (range (2 ^ n)))). assert (Hk : k < 2 ^ 2 ^ n). { assert (X := b2n_lt (map (tab g) (range (2 ^ n)))). rewrite map_length, range_length in X. exact X. }
  assert (Tg : forall j, j < 2 ^ n -> tab g j = Nat.testbit k j). { intros j Hj. unfold k. symmetry. apply (place_bits (tab g)). exact Hj. }
  assert (F : same_faction n r k) by (apply (faction_tables n f g r k); assumption).
  assert (Ok : own_twin n k) by (destruct F as (pi & M); apply (moved_own n pi r k M O)).
  assert (Zk : z = k). { apply zhegalkin_inj. intro e. rewrite Zg. symmetry. apply (noble_zhegalkin n g k Ag Hk Ok Tg). }
  exists f, g, k. split; [exact Ef|]. split; [exact Eg|]. split; [apply tt_spec; [apply Rg | exact Ag]|]. split; [reflexivity|]. split; [exact Hk|]. split; [exact F|].
  intros u Hu Fu. rewrite <- Zk. destruct (Boolf_int_tab u n Hu) as (h & _ & Rh & Ah & Th). apply (Sg (sem h) u).
  - apply (faction_tables n f h r u); assumption.
  - apply (noble_zhegalkin n h u Ah Hu); [|exact Th]. destruct Fu as (pi & M). apply (moved_own n pi r u M O).
Qed.

Lemma king_spec n t : t < 2 ^ 2 ^ S n -> own_twin (S n) t -> exists k, noble_to_king_and_quadrant t (S n) = Ok (k, nquad (S n) t) /\ k < 2 ^ 2 ^ S n /\
  same_faction (S n) (royal_of (S n) t) k /\ forall u, u < 2 ^ 2 ^ S n -> same_faction (S n) (royal_of (S n) t) u -> k <= u.
Proof.
  intros Ht O. destruct (king_of (S n) (royal_of (S n) t) (royal_of_lt _ _ Ht) (royal_of_own _ _ O)) as (f & g & k & Ef & Eg & Et & Ek & Hk & F & L).
  exists k. split; [|auto]. unfold noble_to_king_and_quadrant. rewrite (royal_spec n t Ht O). cbn [bind fst snd]. fold (royal_of (S n) t). rewrite Ef. cbn [bind]. rewrite Eg. cbn [bind]. rewrite Et. cbn [bind].
  rewrite binv_intval_eq, Ek. reflexivity.
Qed.
