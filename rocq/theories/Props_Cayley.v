(** Props_Cayley: C89 – the Cayley tables of the scripts, for every size. *)

From Coq Require Import List Arith ZArith Bool Lia Factorial.
From Verif Require Import Model_Base Lib Model_Binary Model_Splits Model_Perm Model_SigPerm Model_SetPart Model_ClanMatrix Model_Cayley
  Spec_Bits Spec_Perm Spec_SigPerm Spec_Cayley Proof_Binary Proof_Perm Proof_PermGroup Proof_PermMore Proof_Inversions Proof_Listing
  Proof_SigPerm Proof_SigPermMore Proof_SigPermOps Proof_Cayley.
Import ListNotations.
Open Scope nat_scope.
Open Scope bool_scope.

(** the numbers (m, k) of the signed permutations of n things *)
Definition number (n : nat) (id : nat * nat) : Prop := fst id < 2 ^ n /\ snd id < fact n.
Lemma number_In n id : number n id <-> In id (signed_ids n).
Proof. destruct id as [m k]. rewrite signed_ids_In. reflexivity. Qed.

(** The table from the signed permutations, the one from their matrices and the one from the cube vertex permutations
    are the same; every pair of numbers has exactly one entry, and that is the number of the product. *)
Theorem C89_tables : forall n, exists T,
  cayley_sigperm n = Ok T /\ cayley_matrix n = Ok T /\ cayley_cvp n = Ok T /\
  NoDup (map fst T) /\
  (forall a b, In (a, b) (map fst T) <-> number n a /\ number n b) /\
  (forall a b p, In ((a, b), p) T -> signed_product n a b p).
Proof.
  intro n. destruct (sigperm_table n) as (T & E & S). destruct (matrix_table n) as (T2 & E2 & S2). destruct (cvp_table n) as (T3 & E3 & S3).
  rewrite (signed_table_unique n T2 T S2 S) in E2. rewrite (signed_table_unique n T3 T S3 S) in E3.
  exists T. split; [exact E|]. split; [exact E2|]. split; [exact E3|]. destruct S as [ES HS]. rewrite ES. split; [|split].
  - apply NoDup_prod; apply signed_ids_NoDup.
  - intros a b. rewrite in_prod_iff, !number_In. reflexivity.
  - intros a b p H. apply HS, H.
Qed.
Print Assumptions C89_tables.

(** The table is that of a group: one neutral number, associative, every number once in every row and column. *)
Theorem C89_group : forall n T, cayley_sigperm n = Ok T ->
  (forall a, number n a -> In (((0, 0), a), a) T /\ In ((a, (0, 0)), a) T) /\
  (forall a b c d e f, In ((a, b), d) T -> In ((d, c), e) T -> In ((b, c), f) T -> In ((a, f), e) T) /\
  (forall a p, number n a -> number n p -> exists! b, In ((a, b), p) T) /\
  (forall b p, number n b -> number n p -> exists! a, In ((a, b), p) T).
Proof.
  intros n T E. destruct (sigperm_table n) as (T' & E' & S). rewrite E in E'. injection E' as <-. destruct S as [ES HS].
  assert (Full : forall a b p, In a (signed_ids n) -> In b (signed_ids n) -> In p (signed_ids n) -> signed_product n a b p -> In ((a, b), p) T).
  { intros a b p Ha Hb Hp P. assert (K : In (a, b) (map fst T)) by (rewrite ES; apply in_prod_iff; auto). apply in_map_iff in K as ([ab q] & Eab & K). cbn [fst] in Eab. subst ab.
    destruct (HS a b q K) as (_ & _ & Hq & Q). rewrite (product_unique n a b p q Ha Hb Hp Hq P Q). exact K. }
  split; [|split; [|split]].
  - intros a Ha. apply number_In in Ha. destruct (id_sig n a Ha) as (s & _ & Rs).
    assert (H0 : In (0, 0) (signed_ids n)). { apply signed_ids_In. split; [assert (Nat.pow 2 n <> 0) by (apply Nat.pow_nonzero; lia); lia | apply lt_O_fact]. }
    destruct (id_sig n (0, 0) H0) as (z & _ & Rz).
    assert (Fz : forall k, sf z k = Z.of_nat k).
    { intro k. destruct (Nat.lt_ge_cases k n) as [Hk|Hk]; [|apply Rz, Hk]. rewrite (proj2 (proj2 (proj2 Rz)) k Hk). cbn [fst snd]. rewrite Nat.bits_0. unfold lit. f_equal.
      unfold listed. destruct (rev_colex_int_to_perm n 0 (lt_O_fact n)) as (p & Ep & Es). injection Ep as <-.
      cbn [psequence neutral_perm perilen plength Nat.leb bind] in Es. unfold true_except in Es. injection Es as <-. rewrite nth_map_range by exact Hk. reflexivity. }
    split; apply Full; try assumption.
    + apply (product_iff n (0, 0) a a z s s); try assumption. intro k. apply literal_eq; [rewrite on_atom, Fz; symmetry; apply atom_nat | rewrite on_negated, Fz, negated_nat; symmetry; apply xorb_false_r].
    + apply (product_iff n a (0, 0) a s z s); try assumption. intro k. rewrite Fz, on_literals_nat. reflexivity.
  - intros a b c d e f H1 H2 H3. destruct (HS _ _ _ H1) as (Ha & Hb & Hd & P1). destruct (HS _ _ _ H2) as (_ & Hc & He & P2). destruct (HS _ _ _ H3) as (_ & _ & Hf & P3).
    apply Full; try assumption. exact (products_assoc n a b c d e f Ha Hb Hc Hd He Hf P1 P2 P3).
  - intros a p Ha Hp. apply number_In in Ha, Hp. destruct (divide_right n a p Ha Hp) as (b & Hb & P). exists b. split; [apply Full; assumption|].
    intros b' K. destruct (HS _ _ _ K) as (_ & Hb' & _ & P'). exact (cancel_right n a b b' p Ha Hb Hb' Hp P P').
  - intros b p Hb Hp. apply number_In in Hb, Hp. destruct (divide_left n b p Hb Hp) as (a & Ha & P). exists a. split; [apply Full; assumption|].
    intros a' K. destruct (HS _ _ _ K) as (Ha' & _ & _ & P'). exact (cancel_left n b a a' p Hb Ha Ha' Hp P P').
Qed.
Print Assumptions C89_group.

(** The formulas in the comments of the script for (pm, pn) = (am, an) * (bm, bn): the sign part is cvp(am, an)[bm] and
    am ^ cvp(0, an)[bm], where cvp is the cube vertex permutation of the object with that number. *)
Theorem C89_sign_part : forall n T am an bm bn pm pn, cayley_sigperm n = Ok T -> In (((am, an), (bm, bn)), (pm, pn)) T ->
  exists s cvp s0 cvp0,
    id_sigperm n (am, an) = Ok s /\ sg_schoute s = Ok cvp /\ pm = pget cvp bm /\
    id_sigperm n (0, an) = Ok s0 /\ sg_schoute s0 = Ok cvp0 /\ pm = Nat.lxor am (pget cvp0 bm).
Proof.
  intros n T am an bm bn pm pn E H. destruct (sigperm_table n) as (T' & E' & S). rewrite E in E'. injection E' as <-. destruct (proj2 S _ _ _ H) as (Ha & Hb & Hp & P).
  destruct (id_sig n (am, an) Ha) as (s & Es & Rs). destruct (sg_schoute_spec s (proj1 Rs)) as (cvp & Ec & _ & _ & _ & _ & D).
  assert (Ha0 : In (0, an) (signed_ids n)). { apply signed_ids_In in Ha. apply signed_ids_In. split; [lia | apply Ha]. }
  destruct (id_sig n (0, an) Ha0) as (s0 & Es0 & Rs0). destruct (sg_schoute_spec s0 (proj1 Rs0)) as (cvp0 & Ec0 & _ & _ & _ & _ & D0).
  exists s, cvp, s0, cvp0. split; [exact Es|]. split; [exact Ec|]. assert (K := sign_part n am an bm bn (pm, pn) s cvp Ha Hb Hp P Rs D). cbn [fst] in K. split; [exact K|].
  split; [exact Es0|]. split; [exact Ec0|]. rewrite K. clear K. apply signed_ids_In in Ha as [Ham Han]. apply Nat.bits_inj. intro y. rewrite Nat.lxor_spec.
  destruct (Nat.lt_ge_cases y n) as [Hy|Hy].
  - destruct (listed_onto n an y Han Hy) as (x & Hx & <-). rewrite <- (rep_atom n am an s x Rs Hx) at 1. rewrite D, (rep_negated n am an s x Rs Hx).
    rewrite <- (rep_atom n 0 an s0 x Rs0 Hx) at 3. rewrite D0, (rep_negated n 0 an s0 x Rs0 Hx), Nat.bits_0. rewrite xorb_false_l. reflexivity.
  - rewrite (small_bit am n y Ham Hy). assert (K := D bm y). assert (K0 := D0 bm y). rewrite (proj1 (proj2 (proj2 Rs)) y Hy) in K. rewrite (proj1 (proj2 (proj2 Rs0)) y Hy) in K0.
    rewrite atom_nat, negated_nat in K, K0. rewrite K, K0, !xorb_false_l. reflexivity.
Qed.
Print Assumptions C89_sign_part.

(** "those in the same row are equal": the sign part does not depend on bn; "there are 6 different matrices": it
    determines an. *)
Theorem C89_sign_matrices : forall n T an bn an' bn', cayley_sigperm n = Ok T ->
  an < fact n -> bn < fact n -> an' < fact n -> bn' < fact n ->
  ((forall am bm pm pn pm' pn', In (((am, an), (bm, bn)), (pm, pn)) T -> In (((am, an'), (bm, bn')), (pm', pn')) T -> pm = pm') <-> an = an').
Proof.
  intros n T an bn an' bn' E Han Hbn Han' Hbn'. destruct (sigperm_table n) as (T' & E' & S). rewrite E in E'. injection E' as <-.
  assert (Sg : forall am ar bm br pm pr, In (((am, ar), (bm, br)), (pm, pr)) T -> exists s P, rep n (am, ar) s /\ id_sigperm n (am, ar) = Ok s /\ sg_schoute s = Ok P /\ digits P (sf s) /\ pm = pget P bm).
  { intros am ar bm br pm pr H. destruct (proj2 S _ _ _ H) as (Ha & Hb & Hp & P). destruct (id_sig n (am, ar) Ha) as (s & Es & Rs). destruct (sg_schoute_spec s (proj1 Rs)) as (cvp & Ec & _ & _ & _ & _ & D).
    exists s, cvp. split; [exact Rs|]. split; [exact Es|]. split; [exact Ec|]. split; [exact D|]. exact (sign_part n am ar bm br (pm, pr) s cvp Ha Hb Hp P Rs D). }
  split.
  - intro H. assert (Pos : 0 < 2 ^ n) by (assert (Nat.pow 2 n <> 0) by (apply Nat.pow_nonzero; lia); lia).
    apply (listed_inj n an an' Han Han'). intros x Hx.
    assert (Hb : forall r, r < fact n -> In (0, r) (signed_ids n)) by (intros; apply signed_ids_In; auto).
    assert (Hbx : forall r, r < fact n -> In (2 ^ x, r) (signed_ids n)). { intros. apply signed_ids_In. split; [apply Nat.pow_lt_mono_r; lia | assumption]. }
    assert (K : exists pm pn, In (((0, an), (2 ^ x, bn)), (pm, pn)) T).
    { assert (I : In ((0, an), (2 ^ x, bn)) (map fst T)) by (rewrite (proj1 S); apply in_prod_iff; auto). apply in_map_iff in I as ([ab [pm pn]] & Ei & I). cbn [fst] in Ei. subst ab. eauto. }
    assert (K' : exists pm pn, In (((0, an'), (2 ^ x, bn')), (pm, pn)) T).
    { assert (I : In ((0, an'), (2 ^ x, bn')) (map fst T)) by (rewrite (proj1 S); apply in_prod_iff; auto). apply in_map_iff in I as ([ab [pm pn]] & Ei & I). cbn [fst] in Ei. subst ab. eauto. }
    destruct K as (pm & pn & K). destruct K' as (pm' & pn' & K'). assert (Epm := H _ _ _ _ _ _ K K').
    destruct (Sg _ _ _ _ _ _ K) as (s & P & R & _ & _ & D & ->). destruct (Sg _ _ _ _ _ _ K') as (s' & P' & R' & _ & _ & D' & ->).
    assert (B : Nat.testbit (pget P (2 ^ x)) (listed n an x) = true).
    { rewrite <- (rep_atom n 0 an s x R Hx), D, (rep_negated n 0 an s x R Hx), Nat.bits_0, Nat.pow2_bits_eqb, Nat.eqb_refl. reflexivity. }
    rewrite Epm in B. destruct (listed_onto n an' (listed n an x) Han' (listed_lt n an x Han Hx)) as (x' & Hx' & Ex). rewrite <- Ex in B.
    rewrite <- (rep_atom n 0 an' s' x' R' Hx'), D', (rep_negated n 0 an' s' x' R' Hx'), Nat.bits_0, Nat.pow2_bits_eqb in B. rewrite xorb_false_l in B. apply Nat.eqb_eq in B. subst x'. symmetry. exact Ex.
  - intros <- am bm pm pn pm' pn' K K'. destruct (Sg _ _ _ _ _ _ K) as (s & P & _ & Es & EP & _ & ->). destruct (Sg _ _ _ _ _ _ K') as (s' & P' & _ & Es' & EP' & _ & ->).
    rewrite Es in Es'. injection Es' as <-. rewrite EP in EP'. injection EP' as <-. reflexivity.
Qed.
Print Assumptions C89_sign_matrices.

(** The table of the unsigned permutations; it is the move part of the signed one and its part without signs. *)
Theorem C89_permutations : forall n, exists T S, cayley_perm n = Ok T /\ cayley_sigperm n = Ok S /\
  (forall a b, In (a, b) (map fst T) <-> a < fact n /\ b < fact n) /\
  (forall a b p, In ((a, b), p) T -> perm_product n a b p) /\
  (forall a b p, In ((a, b), p) S -> In ((snd a, snd b), snd p) T) /\
  (forall a b p, In ((a, b), p) T <-> In (((0, a), (0, b)), (0, p)) S).
Proof.
  intro n. destruct (perm_table n) as (T & ET & FT & HT). destruct (sigperm_table n) as (S & ES & FS & HS). exists T, S. split; [exact ET|]. split; [exact ES|].
  assert (Dom : forall a b, In (a, b) (map fst T) <-> a < fact n /\ b < fact n) by (intros; rewrite FT, in_prod_iff, !range_In; reflexivity).
  split; [exact Dom|]. split; [exact HT|].
  assert (Move : forall a b p, In ((a, b), p) S -> In ((snd a, snd b), snd p) T).
  { intros [am a] [bm b] [pm p] H. cbn [snd]. destruct (HS _ _ _ H) as (Ha & Hb & _ & (_ & P & _)). cbn [snd] in P. apply signed_ids_In in Ha, Hb.
    assert (K : In (a, b) (map fst T)) by (apply Dom; split; [apply Ha | apply Hb]). apply in_map_iff in K as ([ab q] & Eab & K). cbn [fst] in Eab. subst ab.
    rewrite (listed_product_unique n a b p q P (HT _ _ _ K)). exact K. }
  split; [exact Move|]. assert (Pos : 0 < 2 ^ n) by (assert (Nat.pow 2 n <> 0) by (apply Nat.pow_nonzero; lia); lia).
  intros a b p. split; [|intro H; apply (Move _ _ _ H)]. intro H.
  assert (D : a < fact n /\ b < fact n) by (apply Dom; apply in_map_iff; exists ((a, b), p); auto).
  assert (K : In ((0, a), (0, b)) (map fst S)) by (rewrite FS, in_prod_iff, !signed_ids_In; tauto). apply in_map_iff in K as ([ab [qm q]] & Eab & K). cbn [fst] in Eab. subst ab.
  destruct (HS _ _ _ K) as (_ & _ & Hq & (_ & Pq & Bq)). cbn [fst snd] in Pq, Bq. apply signed_ids_In in Hq as [Hqm Hq].
  rewrite (listed_product_unique n a b p q (HT _ _ _ H) Pq). assert (Z : qm = 0).
  { apply Nat.bits_inj. intro y. rewrite Nat.bits_0. destruct (Nat.lt_ge_cases y n) as [Hy|Hy]; [|apply (small_bit qm n y Hqm Hy)].
    destruct (listed_onto n q y Hq Hy) as (x & Hx & <-). rewrite Bq, !Nat.bits_0 by exact Hx. reflexivity. }
  subst qm. exact K.
Qed.
Print Assumptions C89_permutations.

Example C89_ex : match cayley_sigperm 2 with Ok T => nth_error T 61 = Some (((3, 1), (2, 1)), (2, 0)) /\ length T = 64 | Err _ => False end /\
  cayley_matrix 2 = cayley_sigperm 2 /\ cayley_cvp 2 = cayley_sigperm 2 /\
  match cayley_perm 3 with Ok T => nth_error T 20 = Some ((3, 2), 5) | Err _ => False end.
Proof. vm_compute. auto. Qed.
