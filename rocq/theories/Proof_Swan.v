(** Proof_Swan: orders on lists, pretty strings, representatives by layers, permuted tables. *)

From Coq Require Import List Arith ZArith Bool Lia Permutation Sorted.
From Verif Require Import Model_Base Lib Model_Binary Model_WalshPerm Model_Splits Model_Perm Model_Boolf Model_Twin Model_BoolfMore Model_MinRep Model_Helpers Model_Layers Model_Misc.
From Verif Require Import Spec_Bits Spec_Boolf Spec_Twin Spec_Splits Spec_Layers Spec_Misc Spec_WalshPerm Proof_Binary Proof_Numbers Proof_Boolf Proof_BoolfTable Proof_BoolfMake Proof_Deflate Proof_Noble Proof_MinRepCoset Proof_Splits Proof_Layers Proof_Fission Proof_FissionMore Proof_WalshLinear Proof_WalshPerm Proof_WalshOps Proof_Perm Proof_PermGroup Proof_Inversions Proof_Listing Proof_SigPerm Proof_Reorder Proof_Misc.
Import ListNotations.
Open Scope nat_scope.

(** * Comparisons *)

Section Orders.
  Context {A : Type} (cmp : A -> A -> comparison) (H : total_order cmp).
  Lemma ord_refl a : cmp a a = Eq.
  Proof. apply (proj1 H). reflexivity. Qed.
  Lemma ord_eq a b : cmp a b = Eq -> a = b.
  Proof. apply (proj1 H). Qed.
  Lemma ord_gt a b : cmp a b = Gt -> cmp b a = Lt.
  Proof. intro G. destruct H as (_ & S & _). rewrite S, G. reflexivity. Qed.
  Lemma ord_lt a b : cmp a b = Lt -> cmp b a = Gt.
  Proof. intro G. destruct H as (_ & S & _). rewrite S, G. reflexivity. Qed.
  Lemma leb_total' a b : leb_of cmp a b = true \/ leb_of cmp b a = true.
  Proof. unfold leb_of. destruct (cmp a b) eqn:E; auto. rewrite (ord_gt _ _ E). auto. Qed.
  Lemma leb_cases a b : leb_of cmp a b = true <-> a = b \/ cmp a b = Lt.
  Proof.
    unfold leb_of. split.
    - destruct (cmp a b) eqn:E; intro X; [left; apply ord_eq; exact E | auto | discriminate].
    - intros [->|E]; [rewrite ord_refl|rewrite E]; reflexivity.
  Qed.
  Lemma leb_trans' a b c : leb_of cmp a b = true -> leb_of cmp b c = true -> leb_of cmp a c = true.
  Proof. intros X0 Y0. apply leb_cases in X0, Y0. apply leb_cases. destruct X0 as [X|X], Y0 as [Y|Y]; subst; auto. right. apply (proj2 (proj2 H) a b c X Y). Qed.
  Lemma leb_antisym' a b : leb_of cmp a b = true -> leb_of cmp b a = true -> a = b.
  Proof. intros X0 Y0. apply leb_cases in X0, Y0. destruct X0 as [X|X], Y0 as [Y|Y]; subst; auto. apply ord_lt in X. congruence. Qed.

  Lemma lex_order : total_order (lex_compare cmp).
  Proof.
    split; [|split].
    - induction a as [|x l IH]; intros [|y m]; cbn [lex_compare]; try (split; [discriminate | discriminate]); [split; reflexivity|].
      destruct (cmp x y) eqn:E.
      + apply ord_eq in E. subst y. rewrite IH. split; [intros ->; reflexivity | intros [= ->]; reflexivity].
      + split; [discriminate|]. intros [= -> ->]. rewrite ord_refl in E. discriminate.
      + split; [discriminate|]. intros [= -> ->]. rewrite ord_refl in E. discriminate.
    - induction a as [|x l IH]; intros [|y m]; cbn [lex_compare]; try reflexivity. rewrite (proj1 (proj2 H) x y). destruct (cmp x y); cbn [CompOpp]; [apply IH | reflexivity | reflexivity].
    - induction a as [|x l IH]; intros [|y m] [|z n]; cbn [lex_compare]; try congruence.
      destruct (cmp x y) eqn:E1; intro L1; try discriminate.
      + apply ord_eq in E1. subst y. destruct (cmp x z) eqn:E2; intro L2; try discriminate; [apply (IH m n); assumption | reflexivity].
      + destruct (cmp y z) eqn:E2; intro L2; try discriminate.
        * apply ord_eq in E2. subst z. rewrite E1. reflexivity.
        * rewrite (proj2 (proj2 H) x y z E1 E2). reflexivity.
  Qed.

  Lemma lex_lt_iff l : forall m, lex_compare cmp l m = Lt <-> lex_less (fun a b => cmp a b = Lt) l m.
  Proof.
    induction l as [|x l IH]; intros [|y m]; cbn [lex_compare].
    - split; [discriminate|]. intros [(s & Hs & E)|(p & a & b & s & t & E & _)]; [cbn in E; congruence | destruct p; discriminate].
    - split; [|reflexivity]. intros _. left. exists (y :: m). split; [discriminate | reflexivity].
    - split; [discriminate|]. intros [(s & Hs & E)|(p & a & b & s & t & _ & E & _)]; [discriminate | destruct p; discriminate].
    - destruct (cmp x y) eqn:E.
      + apply ord_eq in E. subst y. rewrite IH. split.
        * intros [(s & Hs & ->)|(p & a & b & s & t & -> & -> & L)]; [left; exists s; auto | right; exists (x :: p), a, b, s, t; auto].
        * intros [(s & Hs & E)|(p & a & b & s & t & E1 & E2 & L)]; [left; exists s; split; [exact Hs|]; cbn in E; congruence|].
          destruct p as [|z p]; cbn in E1, E2; injection E1 as -> ->; injection E2; intros; subst; [rewrite ord_refl in L; discriminate|]. right. exists p, a, b, s, t. auto.
      + split; [|reflexivity]. intros _. right. exists [], x, y, l, m. auto.
      + split; [discriminate|]. intros [(s & Hs & E1)|(p & a & b & s & t & E1 & E2 & L)]; [injection E1 as -> _; rewrite ord_refl in E; discriminate|].
        destruct p as [|z p]; cbn in E1, E2; injection E1 as -> ->; injection E2; intros; subst; [congruence | rewrite ord_refl in E; discriminate].
  Qed.
End Orders.

Lemma nat_order : total_order Nat.compare.
Proof.
  split; [exact Nat.compare_eq_iff|]. split; [intros a b; apply Nat.compare_antisym|]. intros a b c. rewrite !Nat.compare_lt_iff. lia.
Qed.
Lemma char_order : total_order char_compare.
Proof.
  unfold char_compare. split; [|split].
  - intros [|[|]] [|[|]]; cbn; split; congruence || discriminate.
  - intros a b. apply Nat.compare_antisym.
  - intros a b c. rewrite !Nat.compare_lt_iff. lia.
Qed.
Lemma pair_order {A B} (ca : A -> A -> comparison) (cb : B -> B -> comparison) : total_order ca -> total_order cb ->
  total_order (fun p q : A * B => match ca (fst p) (fst q) with Eq => cb (snd p) (snd q) | c => c end).
Proof.
  intros Ha Hb. split; [|split].
  - intros [a b] [c d]. cbn. destruct (ca a c) eqn:E.
    + apply (ord_eq ca Ha) in E. subst c. rewrite (proj1 Hb). split; congruence.
    + split; [discriminate|]. intros [= -> ->]. rewrite (ord_refl ca Ha) in E. discriminate.
    + split; [discriminate|]. intros [= -> ->]. rewrite (ord_refl ca Ha) in E. discriminate.
  - intros [a b] [c d]. cbn. rewrite (proj1 (proj2 Ha) a c). destruct (ca a c); cbn [CompOpp]; [apply Hb | reflexivity | reflexivity].
  - intros [a b] [c d] [e f]. cbn. destruct (ca a c) eqn:E1; intro L1; try discriminate.
    + apply (ord_eq ca Ha) in E1. subst c. destruct (ca a e) eqn:E2; intro L2; try discriminate; [apply (proj2 (proj2 Hb) b d f L1 L2) | reflexivity].
    + destruct (ca c e) eqn:E2; intro L2; try discriminate; [apply (ord_eq ca Ha) in E2; subst e; rewrite E1; reflexivity|]. rewrite (proj2 (proj2 Ha) a c e E1 E2). reflexivity.
Qed.
Lemma swan_order : total_order swan_compare.
Proof.
  assert (X := pair_order _ _ (pair_order _ _ (lex_order _ nat_order) (lex_order _ (lex_order _ nat_order))) (lex_order _ char_order)).
  assert (E : forall r s : swan_row, swan_compare r s = (fun p q : swan_row => match (match lex_compare Nat.compare (fst (fst p)) (fst (fst q)) with Eq => lex_compare (lex_compare Nat.compare) (snd (fst p)) (snd (fst q)) | c => c end) with Eq => lex_compare char_compare (snd p) (snd q) | c => c end) r s).
  { intros r s. unfold swan_compare. destruct (lex_compare Nat.compare (fst (fst r)) (fst (fst s))); reflexivity. }
  destruct X as (X1 & X2 & X3). split; [|split].
  - intros a b. rewrite E. apply X1.
  - intros a b. rewrite !E. apply X2.
  - intros a b c. rewrite !E. apply X3.
Qed.

(** * sorted_colex *)

Lemma colex_lex {A} (less : A -> A -> Prop) l m : lex_less less (rev l) (rev m) <-> colex_less less l m.
Proof.
  unfold lex_less, colex_less. split.
  - intros [(s & Hs & E)|(p & a & b & s & t & E1 & E2 & L)].
    + left. exists (rev s). split; [intro X; apply Hs; rewrite <- (rev_involutive s), X; reflexivity|]. apply (f_equal (@rev A)) in E. rewrite rev_involutive, rev_app_distr, rev_involutive in E. exact E.
    + right. exists (rev s), (rev t), (rev p), a, b. apply (f_equal (@rev A)) in E1, E2. rewrite rev_involutive, rev_app_distr in E1, E2. cbn [rev] in E1, E2. rewrite <- app_assoc in E1, E2. auto.
  - intros [(s & Hs & ->)|(s & t & p & a & b & -> & -> & L)].
    + left. exists (rev s). split; [intro X; apply Hs; rewrite <- (rev_involutive s), X; reflexivity | apply rev_app_distr].
    + right. exists (rev p), a, b, (rev s), (rev t). rewrite !rev_app_distr. cbn [rev]. rewrite <- !app_assoc. auto.
Qed.
Lemma sorted_colex_ok {A} (cmp : A -> A -> comparison) ls : total_order cmp ->
  Permutation (sorted_colex cmp ls) ls /\ StronglySorted (fun l m => l = m \/ colex_less (fun a b => cmp a b = Lt) l m) (sorted_colex cmp ls).
Proof.
  intro H. assert (HL := lex_order cmp H). unfold sorted_colex. split.
  - rewrite <- (isort_perm (leb_of (lex_compare cmp)) (map (@rev A) ls)). rewrite map_map. rewrite (map_ext _ (fun l => l)) by (intro; apply rev_involutive). rewrite map_id. reflexivity.
  - assert (S := isort_sorted (leb_of (lex_compare cmp)) (leb_total' _ HL) (leb_trans' _ HL) (map (@rev A) ls)). induction S as [|x l S IH F]; [constructor|]. cbn [map]. constructor; [exact IH|].
    apply Forall_forall. intros y Hy. apply in_map_iff in Hy as (z & <- & Hz). rewrite Forall_forall in F. specialize (F z Hz). apply (leb_cases _ HL) in F. destruct F as [->|F]; [left; reflexivity|]. right.
    apply colex_lex. rewrite !rev_involutive. apply (lex_lt_iff cmp H). exact F.
Qed.

(** * Pretty strings *)

Definition gap (len i : nat) : list pretty_char :=
  if negb (Nat.eqb (i + 1) len) && Nat.eqb ((i + 1) mod 4) 0 then if Nat.eqb ((i + 1) mod 16) 0 then [Space; Space] else [Space] else [].
Fixpoint pretty_from (i : nat) (v : list bool) : list pretty_char :=
  match v with [] => [] | b :: v' => Digit b :: (gap (i + length v) i) ++ pretty_from (S i) v' end.
Lemma pretty_flat v : forall i len, len = i + length v -> flat_map (fun id : nat * bool => Digit (snd id) :: (if negb (Nat.eqb (fst id + 1) len) && Nat.eqb ((fst id + 1) mod 4) 0 then if Nat.eqb ((fst id + 1) mod 16) 0 then [Space; Space] else [Space] else [])) (combine (seq i (length v)) v) = pretty_from i v.
Proof.
  induction v as [|b v IH]; intros i len E; [reflexivity|]. cbn [length seq combine flat_map pretty_from fst snd]. rewrite (IH (S i) len) by (cbn [length] in E; lia). unfold gap. cbn [length] in E. rewrite <- E. reflexivity.
Qed.
Definition pretty_length (len : nat) : Prop := exists d, d <= 6 /\ len = 2 ^ d.
Lemma pretty_guard len : memb len (map (fun i => 2 ^ i) (range 7)) = true <-> pretty_length len.
Proof.
  rewrite memb_In, in_map_iff. split; [intros (d & E & Hd); apply range_In in Hd; exists d; split; [lia | auto] | intros (d & Hd & E); exists d; split; [auto | apply range_In; lia]].
Qed.
Lemma pretty_ok v : pretty_length (length v) -> to_pretty_string v = Ok (pretty_from 0 v).
Proof. intro H. unfold to_pretty_string. rewrite (proj2 (pretty_guard _) H). cbn [true_except bind]. unfold enumerate. rewrite (pretty_flat v 0 (length v)) by lia. reflexivity. Qed.
Lemma pretty_err v : ~ pretty_length (length v) -> to_pretty_string v = Err ValueErr.
Proof. intro H. unfold to_pretty_string. destruct (memb _ _) eqn:E; [apply pretty_guard in E; contradiction | reflexivity]. Qed.
Lemma digits_gap len i : digits_of (gap len i) = [].
Proof. unfold gap. destruct (_ && _); [|reflexivity]. destruct (Nat.eqb _ _); reflexivity. Qed.
Lemma digits_pretty v : forall i, digits_of (pretty_from i v) = v.
Proof.
  unfold digits_of. induction v as [|b v IH]; intro i; [reflexivity|]. cbn [pretty_from flat_map app]. rewrite flat_map_app. fold (digits_of (gap (i + length (b :: v)) i)). rewrite digits_gap, IH. reflexivity.
Qed.

Definition bit_compare (a b : bool) : comparison := Nat.compare (Nat.b2n a) (Nat.b2n b).
Lemma bit_order : total_order bit_compare.
Proof.
  unfold bit_compare. split; [|split].
  - intros [|] [|]; cbn; split; congruence || discriminate.
  - intros a b. apply Nat.compare_antisym.
  - intros a b c. rewrite !Nat.compare_lt_iff. lia.
Qed.
Lemma bit_compare_lt a b : bit_compare a b = Lt <-> bit_less a b.
Proof. unfold bit_compare, bit_less. destruct a, b; cbn; intuition congruence. Qed.
Lemma lex_app_same {A} (cmp : A -> A -> comparison) p l m : total_order cmp -> lex_compare cmp (p ++ l) (p ++ m) = lex_compare cmp l m.
Proof. intro H. induction p as [|x p IH]; [reflexivity|]. cbn. rewrite (ord_refl cmp H). exact IH. Qed.
Lemma pretty_compare v : forall w i, lex_compare char_compare (pretty_from i v) (pretty_from i w) = lex_compare bit_compare v w.
Proof.
  induction v as [|a v IH]; intros [|b w] i; try reflexivity. cbn [pretty_from lex_compare].
  assert (C : char_compare (Digit a) (Digit b) = bit_compare a b) by (destruct a, b; reflexivity). rewrite C. destruct (bit_compare a b); [|reflexivity|reflexivity].
  destruct v as [|a' v], w as [|b' w].
  - cbn [length pretty_from]. rewrite lex_app_same by apply char_order. reflexivity.
  - cbn [length pretty_from]. unfold gap at 1. rewrite Nat.eqb_refl. cbn [negb andb app lex_compare]. destruct (gap _ i); reflexivity.
  - cbn [length pretty_from]. unfold gap at 3. rewrite Nat.eqb_refl. cbn [negb andb app lex_compare]. destruct (gap _ i); reflexivity.
  - assert (G : gap (i + length (a :: a' :: v)) i = gap (i + length (b :: b' :: w)) i).
    { unfold gap. cbn [length]. rewrite !(proj2 (Nat.eqb_neq (i + 1) _)) by lia. reflexivity. }
    rewrite G, lex_app_same by apply char_order. apply IH.
Qed.

(** the place of the k-th digit *)
Lemma gap_length len i : i + 1 < len -> length (gap len i) = ((i + 1) / 4 + (i + 1) / 16) - (i / 4 + i / 16).
Proof.
  intro H. unfold gap. rewrite (proj2 (Nat.eqb_neq (i + 1) len)) by lia. cbn [negb andb].
  assert (E4 := Nat.div_mod i 4 ltac:(lia)). assert (E16 := Nat.div_mod i 16 ltac:(lia)). assert (F4 := Nat.div_mod (i + 1) 4 ltac:(lia)). assert (F16 := Nat.div_mod (i + 1) 16 ltac:(lia)).
  assert (B1 := Nat.mod_upper_bound i 4 ltac:(lia)). assert (B2 := Nat.mod_upper_bound i 16 ltac:(lia)). assert (B3 := Nat.mod_upper_bound (i + 1) 4 ltac:(lia)). assert (B4 := Nat.mod_upper_bound (i + 1) 16 ltac:(lia)).
  destruct (Nat.eqb_spec ((i + 1) mod 4) 0), (Nat.eqb_spec ((i + 1) mod 16) 0); cbn [length]; lia.
Qed.
Lemma pretty_places v : forall i k, k < length v -> nth (k + ((i + k) / 4 + (i + k) / 16) - (i / 4 + i / 16)) (pretty_from i v) Space = Digit (nth k v false).
Proof.
  induction v as [|b v IH]; intros i k Hk; [cbn in Hk; lia|]. cbn [pretty_from]. destruct k as [|k].
  - rewrite Nat.add_0_r, Nat.add_0_l, Nat.sub_diag. reflexivity.
  - cbn [length] in Hk. assert (M : forall d, d <> 0 -> i / d <= (i + 1) / d <= (i + S k) / d) by (intros d Hd; split; apply Nat.div_le_mono; lia). assert (M4 := M 4 ltac:(lia)). assert (M16 := M 16 ltac:(lia)).
    replace (S k + ((i + S k) / 4 + (i + S k) / 16) - (i / 4 + i / 16)) with (S (((i + 1) / 4 + (i + 1) / 16 - (i / 4 + i / 16)) + (k + ((i + S k) / 4 + (i + S k) / 16) - ((i + 1) / 4 + (i + 1) / 16)))) by lia.
    cbn [nth]. rewrite <- (gap_length (i + length (b :: v)) i) by (cbn [length]; lia). rewrite app_nth2_plus. replace (i + S k) with (S i + k) by lia. replace (i + 1) with (S i) by lia. apply IH. lia.
Qed.
Lemma pretty_len v : forall i, v <> [] -> length (pretty_from i v) + (i / 4 + i / 16) = length v + ((i + length v - 1) / 4 + (i + length v - 1) / 16).
Proof.
  induction v as [|b v IH]; intros i Hv; [congruence|]. cbn [pretty_from length]. rewrite app_length. destruct v as [|b' v].
  - cbn [length pretty_from]. unfold gap. rewrite Nat.eqb_refl. cbn [negb andb length]. replace (i + 1 - 1) with i by lia. lia.
  - rewrite gap_length by (cbn [length]; lia). specialize (IH (S i) ltac:(discriminate)). assert (M : forall d, d <> 0 -> i / d <= (i + 1) / d) by (intros d Hd; apply Nat.div_le_mono; lia). assert (M4 := M 4 ltac:(lia)). assert (M16 := M 16 ltac:(lia)). replace (S i) with (i + 1) in IH by lia. cbn [length] in *.
    replace (i + S (S (length v)) - 1) with (i + 1 + S (length v) - 1) by lia. replace (S i) with (i + 1) by lia. lia.
Qed.

(** * Representatives *)

Definition bits_layers (v : bool) (f : boolf) : list (list bool) := if v then root_layers f else map (@rev bool) (rev (root_layers f)).
Definition row (v : bool) (f : boolf) : swan_row :=
  (if v then layer_sizes f else rev (layer_sizes f), map (map Nat.b2n) (bits_layers v f), pretty_from 0 (truth_table f)).

Lemma layered_tt_bits f : fitting f -> layered_tt f = Ok (map (map Nat.b2n) (root_layers f)).
Proof.
  intro F. rewrite layered_tt_ok by exact F. f_equal. unfold root_layers. rewrite map_map. unfold valency, range. rewrite Nat.add_1_r. apply map_ext. intro w. rewrite map_map. reflexivity.
Qed.
Lemma layered_weight_bits f : fitting f -> layered_weight f = Ok (layer_sizes f).
Proof.
  intro F. unfold layered_weight. rewrite layered_tt_bits by exact F. cbn [bind]. f_equal. rewrite map_map. unfold layer_sizes. apply map_ext. intro l. unfold list_sum_nat. induction l as [|b l IH]; [reflexivity|]. cbn [map fold_right filter]. rewrite IH. destruct b; reflexivity.
Qed.
Lemma table_length f : length (truth_table f) = 2 ^ adicity f.
Proof. unfold truth_table. rewrite map_length. apply seq_length. Qed.
Lemma pretty_table f : pretty_length (length (truth_table f)) <-> adicity f <= 6.
Proof.
  rewrite table_length. split; [intros (d & Hd & E); apply Nat.pow_inj_r in E; lia | intro H; exists (adicity f); auto].
Qed.
Lemma swan_entry_ok v f : fitting f -> adicity f <= 6 -> swan_entry v f = Ok (row v f).
Proof.
  intros F H. unfold swan_entry. rewrite layered_weight_bits, layered_tt_bits, tt_default by exact F. cbn [bind]. change (map (tab f) (range (2 ^ adicity f))) with (truth_table f). rewrite pretty_ok by (apply pretty_table; exact H). cbn [bind].
  unfold row, bits_layers. destruct v; [reflexivity|]. do 3 f_equal. rewrite <- map_rev, !map_map. apply map_ext. intro l. symmetry. apply map_rev.
Qed.
Lemma swan_entry_err v f : fitting f -> 6 < adicity f -> swan_entry v f = Err ValueErr.
Proof.
  intros F H. unfold swan_entry. rewrite layered_weight_bits, layered_tt_bits, tt_default by exact F. cbn [bind]. change (map (tab f) (range (2 ^ adicity f))) with (truth_table f). rewrite pretty_err; [reflexivity|]. rewrite pretty_table. lia.
Qed.

Lemma lex_map {A B} (g : A -> B) (ca : A -> A -> comparison) (cb : B -> B -> comparison) : (forall a b, cb (g a) (g b) = ca a b) -> forall l m, lex_compare cb (map g l) (map g m) = lex_compare ca l m.
Proof. intro H. induction l as [|a l IH]; intros [|b m]; try reflexivity. cbn [map lex_compare]. rewrite H, IH. reflexivity. Qed.
Lemma lex_less_ext {A} (r s : A -> A -> Prop) : (forall a b, r a b <-> s a b) -> forall l m, lex_less r l m <-> lex_less s l m.
Proof.
  intros H l m. unfold lex_less. split; (intros [X|(p & a & b & t & u & E1 & E2 & L)]; [left; exact X | right; exists p, a, b, t, u; split; [exact E1|]; split; [exact E2|]; apply H; exact L]).
Qed.
Lemma swan_lt v f g : swan_compare (row v f) (row v g) = Lt <-> swan_less v f g.
Proof.
  unfold swan_compare, row, swan_less. cbn [fst snd].
  rewrite pretty_compare. rewrite (lex_map (map Nat.b2n) (lex_compare bit_compare)) by (intros a b; apply lex_map; reflexivity).
  rewrite <- (lex_less_ext (fun a b => Nat.compare a b = Lt) lt Nat.compare_lt_iff), <- (lex_lt_iff _ nat_order).
  rewrite <- (lex_less_ext (fun a b => lex_compare bit_compare a b = Lt) (lex_less bit_less)), <- (lex_lt_iff _ (lex_order _ bit_order)).
  2:{ intros a b. rewrite (lex_lt_iff _ bit_order). apply lex_less_ext, bit_compare_lt. }
  rewrite <- (lex_less_ext (fun a b => bit_compare a b = Lt) bit_less bit_compare_lt), <- (lex_lt_iff _ bit_order).
  fold (bits_layers v f) (bits_layers v g). set (X := lex_compare Nat.compare _ _). destruct X eqn:EX; unfold X in EX; clear X.
  - apply (ord_eq _ (lex_order _ nat_order)) in EX. rewrite EX. set (Y := lex_compare (lex_compare bit_compare) _ _). destruct Y eqn:EY; unfold Y in EY; clear Y.
    + apply (ord_eq _ (lex_order _ (lex_order _ bit_order))) in EY. rewrite EY. split; [intro L; right; split; [reflexivity|]; right; auto|]. intros [L|[_ [L|[_ L]]]]; [discriminate | discriminate | exact L].
    + split; [intros _; right; split; [reflexivity|]; left; reflexivity | reflexivity].
    + split; [discriminate|]. intros [L|[_ [L|[L _]]]]; [discriminate | discriminate|]. rewrite L, (ord_refl _ (lex_order _ (lex_order _ bit_order))) in EY. discriminate.
  - split; [auto | reflexivity].
  - split; [discriminate|]. intros [L|[L _]]; [discriminate|]. rewrite L, (ord_refl _ (lex_order _ nat_order)) in EX. discriminate.
Qed.
Lemma row_inj v f g : reduced f -> reduced g -> row v f = row v g -> f = g.
Proof.
  intros Rf Rg E. injection E as _ _ E. apply (f_equal digits_of) in E. rewrite !digits_pretty in E. apply reduced_unique; try assumption.
  assert (A : adicity f = adicity g) by (apply (f_equal (@length bool)) in E; rewrite !table_length in E; apply Nat.pow_inj_r in E; lia).
  apply (tab_inj f g (adicity f)); [lia | lia|]. intros i Hi. apply (f_equal (fun l => nth i l false)) in E. unfold truth_table in E. rewrite <- A in E. change (seq 0) with range in E. rewrite !nth_map_r in E by exact Hi. exact E.
Qed.
Lemma root_table f : reduced f -> Boolf_root (truth_table f) = Ok f.
Proof.
  intro R. destruct (root_object (tab f) (adicity f)) as (g & E & Rg & A & T). unfold truth_table. change (seq 0 (2 ^ adicity f)) with (range (2 ^ adicity f)). change (value f) with (tab f). rewrite E. f_equal. apply reduced_unique; try assumption. apply (tab_inj g f (adicity f)); [exact A | lia | exact T].
Qed.

Lemma sorted_last {A} (R : A -> A -> Prop) d l x : StronglySorted R l -> In x l -> x = nth (length l - 1) l d \/ R x (nth (length l - 1) l d).
Proof.
  intros W. revert x. induction W as [|y l W IH F]; intros x [].
  - subst y. destruct l as [|z l]; [left; reflexivity|]. right. rewrite Forall_forall in F. apply F. cbn [length]. replace (S (S (length l)) - 1) with (S (length l)) by lia. cbn [nth]. apply (nth_In (z :: l)). cbn. lia.
  - destruct l as [|z l]; [destruct H|]. specialize (IH x H). cbn [length] in *. replace (S (S (length l)) - 1) with (S (S (length l) - 1)) by lia. cbn [nth]. exact IH.
Qed.
Lemma swan_ok v l : l <> [] -> (forall f, In f l -> reduced f /\ adicity f <= 6) ->
  exists f, boolfs_to_swan l v = Ok f /\ In f l /\ forall g, In g l -> g = f \/ if v then swan_less v g f else swan_less v f g.
Proof.
  intros Hl H. unfold boolfs_to_swan. rewrite (mapM_ok _ (row v)) by (intros f Hf; apply swan_entry_ok; [apply (proj1 (proj1 (H f Hf))) | apply H; exact Hf]). cbn [bind].
  set (s := isort (leb_of swan_compare) (map (row v) l)). assert (P : Permutation (map (row v) l) s) by apply isort_perm.
  assert (S : StronglySorted (fun a b => leb_of swan_compare a b = true) s) by (apply isort_sorted; [apply (leb_total' _ swan_order) | apply (leb_trans' _ swan_order)]).
  assert (L : length s = length l) by (rewrite <- P; apply map_length). assert (L0 : 0 < length s) by (destruct l; [congruence | rewrite L; cbn; lia]). rewrite (proj2 (Nat.eqb_neq (length s) 0)) by lia. cbn [negb true_except bind].
  set (k := if v then length s - 1 else 0). assert (Hk : k < length s) by (unfold k; destruct v; lia). set (d := (@nil nat, @nil (list nat), @nil pretty_char) : swan_row). rewrite (lget_ok _ _ d) by exact Hk. cbn [bind].
  assert (I : In (nth k s d) (map (row v) l)) by (rewrite P; apply nth_In; exact Hk). apply in_map_iff in I as (f & E & If). rewrite <- E. cbn [row snd]. rewrite digits_pretty. exists f. split; [apply root_table; apply H; exact If|]. split; [exact If|].
  intros g Ig. assert (Is : In (row v g) s) by (rewrite <- P; apply in_map; exact Ig).
  assert (T : row v g = row v f \/ if v then swan_compare (row v g) (row v f) = Lt else swan_compare (row v f) (row v g) = Lt).
  { rewrite E. unfold k. destruct v.
    - destruct (sorted_last _ d s _ S Is) as [X|X]; [left; exact X|]. apply (leb_cases _ swan_order) in X. exact X.
    - clear k Hk E. clearbody s. destruct S as [|y s' S' F]; [cbn in L0; lia|]. cbn [nth]. destruct Is as [<-|Is]; [left; reflexivity|]. rewrite Forall_forall in F. specialize (F _ Is). apply (leb_cases _ swan_order) in F. destruct F as [<-|F]; [left; reflexivity | right; exact F]. }
  destruct T as [T|T]; [left; apply (row_inj v); [apply H, Ig | apply H, If | exact T]|]. right. destruct v; apply swan_lt; exact T.
Qed.
Lemma swan_perm v l m : Permutation l m -> (forall f, In f l -> reduced f /\ adicity f <= 6) -> boolfs_to_swan l v = boolfs_to_swan m v.
Proof.
  intros P H. unfold boolfs_to_swan. assert (H' : forall f, In f m -> reduced f /\ adicity f <= 6) by (intros f Hf; apply H; rewrite P; exact Hf).
  assert (K : forall k, (forall f, In f k -> reduced f /\ adicity f <= 6) -> mapM (swan_entry v) k = Ok (map (row v) k)) by (intros k Hk; apply mapM_ok; intros f Hf; apply swan_entry_ok; [apply (proj1 (proj1 (Hk f Hf))) | apply Hk; exact Hf]). rewrite (K l H), (K m H'). cbn [bind].
  assert (E : isort (leb_of swan_compare) (map (row v) l) = isort (leb_of swan_compare) (map (row v) m)) by (apply isort_eq_iff; [apply (leb_total' _ swan_order) | apply (leb_trans' _ swan_order) | apply (leb_antisym' _ swan_order) | apply Permutation_map; exact P]).
  rewrite E. reflexivity.
Qed.
Lemma swan_reject v l f : (forall g, In g l -> reduced g) -> In f l -> 6 < adicity f -> boolfs_to_swan l v = Err ValueErr.
Proof.
  intros H Hf Ha. unfold boolfs_to_swan. assert (E : mapM (swan_entry v) l = Err ValueErr); [|rewrite E; reflexivity].
  induction l as [|g l IH]; [destruct Hf|]. cbn [mapM]. assert (Fg : fitting g) by (apply (H g (or_introl eq_refl))). destruct (Nat.le_gt_cases (adicity g) 6) as [Hg|Hg].
  - rewrite swan_entry_ok by assumption. cbn [bind]. destruct Hf as [->|Hf]; [lia|]. rewrite IH; [reflexivity | intros h Hh; apply H; right; exact Hh | exact Hf].
  - rewrite swan_entry_err by assumption. reflexivity.
Qed.

(** * Permuted truth tables *)

Lemma mod_tt_perm_ok linv tt perm n : exact_inverse linv -> Permutation perm (range n) -> length tt = 2 ^ n ->
  exists r, mod_tt_perm linv tt perm = Ok r /\ length r = 2 ^ n /\
    forall p q, p < 2 ^ n -> q < 2 ^ n -> (forall k, k < n -> Nat.testbit q (nth k perm 0) = Nat.testbit p k) -> nth p r false = nth q tt false.
Proof.
  intros Hl HP Ht. assert (Lp : length perm = n) by (rewrite HP; apply range_length).
  destruct (Perm_seq_spec perm) as (p & Ep & Hp & _ & Hg); [rewrite Lp; exact HP|]. destruct (pinv_spec p Hp) as (q & Eq & Hq & QP & PQ & _). rewrite Lp in Hg. clear Ep Eq Hq.
  assert (Hrk : forall k, k < n -> nth k perm 0 < n) by (intros k Hk; apply range_In; rewrite <- HP; apply nth_In; lia).
  assert (Plt : forall x, x < n -> pget p x < n) by (intros x Hx; rewrite Hg, (proj2 (Nat.ltb_lt x n) Hx); apply Hrk; exact Hx).
  assert (Pge : forall x, n <= x -> pget p x = x) by (intros x Hx; rewrite Hg, (proj2 (Nat.ltb_ge x n) Hx); reflexivity).
  set (bv := map (fun i => 2 ^ i) perm). assert (Hbl : length bv = n) by (unfold bv; rewrite map_length; exact Lp).
  assert (Hbv : forall k, k < n -> nth k bv 0 = 2 ^ pget p k).
  { intros k Hk. unfold bv. rewrite (nth_indep (map _ _) 0 (2 ^ 0)) by (rewrite map_length; lia). rewrite (map_nth (fun i => 2 ^ i)). rewrite Hg, (proj2 (Nat.ltb_lt k n) Hk). reflexivity. }
  unfold mod_tt_perm. fold bv. cbn [WalshPerm]. rewrite of_vector_eq.
  2:{ intros x Hx. apply (In_nth _ _ 0) in Hx as [k [Hk <-]]. rewrite Hbl in *. rewrite Hbv by exact Hk. apply Nat.pow_lt_mono_r; [lia|]. apply Plt. exact Hk. }
  rewrite Hbl. rewrite (mk_ext n (colbits bv) (pmat (pget p))).
  2:{ intros i j Hi Hj. unfold colbits, pmat. rewrite Hbv by exact Hj. rewrite testbit_pow. apply Nat.eqb_sym. }
  destruct (of_matrix_ok n (pmat (pget p)) (Proof_WalshLinear.full n (pmat (pget p))) false) as [w [Ew [Hw _]]].
  { apply (pmat_invertible n (pget p) (pget q)); assumption. } { apply full_acts. }
  rewrite Ew. cbn [bind]. destruct (inverse_spec linv w _ Hl Hw) as (wi & g & Ei & Hwi & Hfg & Hgf). rewrite Ei. cbn [bind].
  destruct (inverse_spec linv wi _ Hl Hwi) as (w2 & h & E2 & Hw2 & Hgh & Hhg). rewrite E2. cbn [bind].
  assert (Eh : forall x, h x = Proof_WalshLinear.full n (pmat (pget p)) x) by (intro x; rewrite <- (Hfg (h x)), Hgh; reflexivity).
  assert (Hbits : forall x k, Nat.testbit (h x) k = Nat.testbit x (pget q k)) by (intros x k; rewrite Eh; apply (pmat_acts n (pget p) (pget q)); assumption).
  assert (Hlt : forall x, x < 2 ^ n -> h x < 2 ^ n).
  { intros x Hx. apply bits_lt_pow. intros k Hk. rewrite Hbits, (Qge n (pget p) (pget q)) by assumption. apply (bit_above x n); assumption. }
  rewrite Ht. rewrite (mapM_ok _ (fun i => nth (h i) tt false)).
  2:{ intros i Hi. apply range_In in Hi. rewrite (valid_map w2 h Hw2 i). cbn [bind]. apply lget_ok. rewrite Ht. apply Hlt. exact Hi. }
  eexists. split; [reflexivity|]. split; [rewrite map_length; apply range_length|]. intros a b Ha Hb Hk. rewrite nth_map_r by exact Ha. f_equal. apply Nat.bits_inj. intro k. rewrite Hbits.
  destruct (Nat.lt_ge_cases k n) as [C|C].
  - assert (C' := Qlt n (pget p) (pget q) PQ Pge k C). specialize (Hk (pget q k) C'). rewrite <- Hk. rewrite <- (PQ k) at 2. rewrite (Hg (pget q k)), (proj2 (Nat.ltb_lt _ _) C'). reflexivity.
  - rewrite (Qge n (pget p) (pget q)) by assumption. rewrite !(bit_above _ n) by assumption. reflexivity.
Qed.
