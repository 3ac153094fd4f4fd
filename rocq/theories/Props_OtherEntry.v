(** C129: every outcome of a/other_entry_in_pair *)

From Coq Require Import List ZArith Bool Arith Lia Permutation.
From Verif Require Import Model_Base Model_Splits Model_OtherEntry.
Import ListNotations.
Local Open Scope Z_scope.

(** the order of a set is any order of its entries *)
Definition lists_sets (order : list Z -> list Z) : Prop := forall l, Permutation (order l) l.

(** the argument is a list or tuple with the entries a and b, or a set with these two entries *)
Definition holds_pair (p : pair_arg) (a b : Z) : Prop :=
  p = PList [a; b] \/ p = PTuple [a; b] \/
  (exists l, p = PSet l /\ a <> b /\ forall x, In x l <-> x = a \/ x = b).

Definition is_other_type (p : pair_arg) : Prop := p = POther.

Lemma once_nodup l : NoDup (entries_once l).
Proof. apply NoDup_nodup. Qed.

Lemma once_in l x : In x (entries_once l) <-> In x l.
Proof. apply nodup_In. Qed.

Lemma holds_len p a b : holds_pair p a b -> pair_len p = 2%nat.
Proof.
  intros [H|[H|[l [H [N E]]]]]; subst p; try reflexivity. cbn [pair_len].
  assert (P : Permutation (entries_once l) [a; b]).
  { apply NoDup_Permutation; [apply once_nodup | |].
    - constructor; [intros [X|[]]; congruence | constructor; [intros [] | constructor]].
    - intro x. rewrite once_in, E. cbn. intuition congruence. }
  apply Permutation_length in P. exact P.
Qed.

Lemma holds_in p a b x : holds_pair p a b -> In x (pair_entries p) <-> x = a \/ x = b.
Proof.
  intros [H|[H|[l [H [N E]]]]]; subst p; cbn [pair_entries]; [cbn; intuition congruence .. | apply E].
Qed.

Lemma len_holds p : pair_len p = 2%nat -> exists a b, holds_pair p a b.
Proof.
  destruct p as [l|l|l|]; cbn [pair_len]; intro L.
  - destruct l as [|a [|b [|c l]]]; try discriminate. exists a, b. left. reflexivity.
  - destruct l as [|a [|b [|c l]]]; try discriminate. exists a, b. right; left. reflexivity.
  - assert (D := once_nodup l). assert (I := once_in l).
    destruct (entries_once l) as [|a [|b [|c r]]]; try discriminate. exists a, b. right; right. exists l.
    split; [reflexivity|]. split.
    + inversion D as [|? ? X _]; subst. intro Q. apply X. left. congruence.
    + intro x. rewrite <- I. cbn. intuition congruence.
  - discriminate.
Qed.

(** the outcome of the filter: the entries that differ, each once *)
Lemma rest_in p entry a b x : holds_pair p a b ->
  In x (filter (fun x => negb (Z.eqb x entry)) (entries_once (pair_entries p))) <-> (x = a \/ x = b) /\ x <> entry.
Proof.
  intro H. rewrite filter_In, once_in, (holds_in p a b x H), negb_true_iff, Z.eqb_neq. reflexivity.
Qed.

Lemma other_unfold order p entry a b : holds_pair p a b ->
  other_entry order p entry =
  match order (filter (fun x => negb (Z.eqb x entry)) (entries_once (pair_entries p))) with
  | [] => inr PairIndexError
  | x :: _ => inl x
  end.
Proof.
  intro H. assert (L := holds_len p a b H). unfold other_entry. rewrite L. cbn [Nat.eqb].
  destruct p; try reflexivity. cbn in L. discriminate.
Qed.

(** if one entry of the pair is given, and the other one differs, the result is the other one, whatever the order of sets *)
Theorem C129_other : forall order p a b, lists_sets order -> holds_pair p a b -> a <> b ->
  other_entry order p a = inl b /\ other_entry order p b = inl a.
Proof.
  intros order p a b O H N. rewrite !(other_unfold order p _ a b H). split.
  - assert (R := fun x => rest_in p a a b x H). assert (P := O (filter (fun x => negb (x =? a)) (entries_once (pair_entries p)))).
    destruct (order _) as [|x r].
    + exfalso. assert (X : In b []). { apply (Permutation_in _ (Permutation_sym P)), R. split; [right; reflexivity | congruence]. } exact X.
    + assert (X := proj1 (R x) (Permutation_in _ P (or_introl eq_refl))). destruct X as [[X|X] Y]; [contradiction|]. congruence.
  - assert (R := fun x => rest_in p b a b x H). assert (P := O (filter (fun x => negb (x =? b)) (entries_once (pair_entries p)))).
    destruct (order _) as [|x r].
    + exfalso. assert (X : In a []). { apply (Permutation_in _ (Permutation_sym P)), R. split; [left; reflexivity | congruence]. } exact X.
    + assert (X := proj1 (R x) (Permutation_in _ P (or_introl eq_refl))). destruct X as [[X|X] Y]; [congruence | contradiction].
Qed.

(** what is refused, and with which exception: every other type; every length but two; a pair with both entries equal
    to the given one.  Everything else gives an entry of the pair that is not the given one *)
Theorem C129_outcome : forall order p entry, lists_sets order ->
  match other_entry order p entry with
  | inr WrongTypeError => is_other_type p
  | inr WrongLengthError => ~ is_other_type p /\ forall a b, ~ holds_pair p a b
  | inr PairIndexError => holds_pair p entry entry
  | inl x => x <> entry /\ exists y, holds_pair p x y \/ holds_pair p y x
  end.
Proof.
  intros order p entry O. destruct (Nat.eq_dec (pair_len p) 2) as [L|L].
  - destruct (len_holds p L) as (a & b & H). rewrite (other_unfold order p entry a b H).
    assert (R := fun x => rest_in p entry a b x H).
    assert (P := O (filter (fun x => negb (x =? entry)) (entries_once (pair_entries p)))).
    destruct (order _) as [|x r].
    + assert (A : forall x, ~ ((x = a \/ x = b) /\ x <> entry)).
      { intros x X. apply R in X. apply (Permutation_in _ (Permutation_sym P)) in X. exact X. }
      assert (Ea : a = entry) by (destruct (Z.eq_dec a entry); [assumption | exfalso; apply (A a); auto]).
      assert (Eb : b = entry) by (destruct (Z.eq_dec b entry); [assumption | exfalso; apply (A b); auto]).
      subst. exact H.
    + destruct (proj1 (R x) (Permutation_in _ P (or_introl eq_refl))) as [X Y]. split; [exact Y|].
      destruct X as [X|X]; subst x; [exists b; left | exists a; right]; exact H.
  - destruct p as [l|l|l|]; unfold other_entry; [rewrite (proj2 (Nat.eqb_neq _ _) L) .. | reflexivity];
      (split; [discriminate | intros a b H; apply L, (holds_len _ a b H)]).
Qed.

(** the three refusals happen exactly then *)
Theorem C129_refused : forall order p entry, lists_sets order ->
  (other_entry order p entry = inr WrongTypeError <-> is_other_type p) /\
  (other_entry order p entry = inr WrongLengthError <-> ~ is_other_type p /\ forall a b, ~ holds_pair p a b) /\
  (other_entry order p entry = inr PairIndexError <-> holds_pair p entry entry).
Proof.
  intros order p entry O. assert (S := C129_outcome order p entry O).
  assert (T : forall a b, is_other_type p -> ~ holds_pair p a b).
  { intros a b Q H. apply holds_len in H. rewrite Q in H. discriminate. }
  assert (I : forall x, holds_pair p entry entry -> In x (pair_entries p) -> x = entry).
  { intros x H X. apply (holds_in p entry entry x H) in X. destruct X; assumption. }
  destruct (other_entry order p entry) as [x|[]].
  - destruct S as [N [y Hy]]. repeat split; try discriminate.
    + intro Q. exfalso. destruct Hy as [Hy|Hy]; exact (T _ _ Q Hy).
    + intros [_ Q]. exfalso. destruct Hy as [Hy|Hy]; exact (Q _ _ Hy).
    + intro Q. exfalso. apply N, (I x Q). destruct Hy as [Hy|Hy]; apply (holds_in _ _ _ x Hy); auto.
  - repeat split; try discriminate; auto.
    + intros [Q _]. contradiction.
    + intro Q. exfalso. exact (T _ _ S Q).
  - destruct S as [S1 S2]. repeat split; try discriminate; auto.
    + intro Q. contradiction.
    + intro Q. exfalso. exact (S2 _ _ Q).
  - repeat split; try discriminate; auto.
    + intro Q. exfalso. exact (T _ _ Q S).
    + intros [_ Q]. exfalso. exact (Q _ _ S).
Qed.

(** the case that atom_to_crossing_atoms needs (modelled in Model_Splits): a pair of two different naturals and one of them *)
Theorem C129_naturals : forall order a b k, lists_sets order -> a <> b -> k = a \/ k = b ->
  other_entry order (PTuple [Z.of_nat a; Z.of_nat b]) (Z.of_nat k) = inl (Z.of_nat (other_entry_in_pair (a, b) k)).
Proof.
  intros order a b k O N K.
  destruct (C129_other order (PTuple [Z.of_nat a; Z.of_nat b]) (Z.of_nat a) (Z.of_nat b) O) as [A B];
    [right; left; reflexivity | lia|].
  unfold other_entry_in_pair. cbn [fst snd]. destruct K as [K|K]; subst k.
  - rewrite Nat.eqb_refl. exact A.
  - rewrite (proj2 (Nat.eqb_neq a b) N). exact B.
Qed.

(** false: the result is determined by the arguments.  If the entry is not in the pair, nothing is raised, and the
    result is the first entry in the order of the set *)
Theorem C129_refuted : exists order order' p entry x y, lists_sets order /\ lists_sets order' /\
  ~ In entry (pair_entries p) /\ other_entry order p entry = inl x /\ other_entry order' p entry = inl y /\ x <> y.
Proof.
  exists (fun l => l), (@rev Z), (PTuple [3; 5]), 4, 3, 5.
  split; [intro l; apply Permutation_refl|]. split; [intro l; apply Permutation_sym, Permutation_rev|].
  split; [cbn; intros [X|[X|[]]]; discriminate|].
  split; [vm_compute; reflexivity|]. split; [vm_compute; reflexivity | discriminate].
Qed.

Print Assumptions C129_other.
Print Assumptions C129_outcome.
Print Assumptions C129_refused.
Print Assumptions C129_naturals.
Print Assumptions C129_refuted.

(** both orders are orders of sets; a set given with a repeated entry is a pair *)
Example C129_ex : lists_sets (@rev Z) /\
  other_entry (@rev Z) (PSet [7; 2; 7]) 7 = inl 2 /\ other_entry (@rev Z) (PList [7; 2; 7]) 7 = inr WrongLengthError /\
  other_entry (@rev Z) (PList [7; 7]) 7 = inr PairIndexError /\ other_entry (@rev Z) (PSet [7; 7]) 7 = inr WrongLengthError /\
  other_entry (@rev Z) (PList [-1; 7]) 7 = inl (-1) /\ other_entry (@rev Z) POther 7 = inr WrongTypeError.
Proof. split; [intro l; apply Permutation_sym, Permutation_rev | repeat split; vm_compute; reflexivity]. Qed.
Example C129_ex_pair : holds_pair (PSet [7; 2; 7]) 7 2.
Proof. right; right. exists [7; 2; 7]. split; [reflexivity|]. split; [discriminate|]. intro x. cbn. intuition congruence. Qed.
