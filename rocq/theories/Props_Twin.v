(** Props_Twin: properties C32 and C33: Zhegalkin numbers, twins, nobles, patrons. *)

From Coq Require Import List Arith ZArith Bool Lia Permutation Sorted.
From Verif Require Import Model_Base Lib Model_Perm Model_Binary Model_SigPerm Model_WalshPerm Model_Twin Model_Boolf Model_BoolfMore
  Spec_Bits Spec_SigPerm Spec_Boolf Spec_Twin Proof_Binary Proof_Deflate Proof_Boolf Proof_BoolfTable Proof_Twin Proof_BoolfMake Proof_Noble Props_Boolf.
Import ListNotations.
Open Scope nat_scope.

Lemma within_adicity n f : within n f <-> adicity f <= n.
Proof. split; [apply adicity_least|]. intros H a Ha. apply adicity_bound in Ha. lia. Qed.

Lemma forallb_false_ex {A} (p : A -> bool) l : forallb p l = false -> exists x, In x l /\ p x = false.
Proof.
  induction l as [|x l IH]; [discriminate|]. cbn. intro H. apply andb_false_iff in H as [H|H]; [exists x; auto|].
  destruct (IH H) as [y [Hy Ey]]. exists y. auto.
Qed.

Lemma noble_moebius n f : (forall j, j < 2 ^ n -> tab f j = anf n (tab f) j) <-> forall j, j < 2 ^ n -> value f j = moebius n (value f) j.
Proof. split; intros H j Hj; [rewrite moebius_anf | rewrite <- moebius_anf]; apply H, Hj. Qed.

(** * C32 *)

Theorem C32_vector : forall v n, length v = 2 ^ n ->
  exists t, vector_to_twin_gen v n = Ok t /\ length t = 2 ^ n /\
    (forall j, j < 2 ^ n -> nth j t false = moebius n (fun k => nth k v false) j) /\
    vector_to_twin_gen t n = Ok v.
Proof.
  intros v n Hv. set (F := fun k => nth k v false). exists (map (anf n F) (range (2 ^ n))). split; [apply twin_vector_spec; exact Hv|].
  assert (Hl : length (map (anf n F) (range (2 ^ n))) = 2 ^ n) by (rewrite map_length, range_length; reflexivity).
  split; [exact Hl|]. split.
  - intros j Hj. rewrite moebius_anf. apply nth_table. exact Hj.
  - rewrite twin_vector_spec by exact Hl. f_equal. apply nth_ext with (d := false) (d' := false); [rewrite map_length, range_length; symmetry; exact Hv|].
    intros j Hj. rewrite map_length, range_length in Hj. rewrite nth_table by exact Hj. rewrite (anf_ext n _ (anf n F)) by (intros k Hk; apply nth_table; exact Hk).
    rewrite anf_involution by exact Hj. reflexivity.
Qed.
Print Assumptions C32_vector.

Theorem C32_vector_rejected : forall v n, length v <> 2 ^ n -> vector_to_twin_gen v n = Err AssertErr.
Proof. exact twin_vector_reject. Qed.
Print Assumptions C32_vector_rejected.

Theorem C32_int : forall z n, z < 2 ^ 2 ^ n ->
  exists t, twin_int z n = Ok t /\ t < 2 ^ 2 ^ n /\ (forall j, j < 2 ^ n -> Nat.testbit t j = moebius n (Nat.testbit z) j) /\
    twin_int t n = Ok z.
Proof.
  intros z n Hz. destruct (twin_int_spec z n Hz) as [t [E [Ht T]]]. exists t. split; [exact E|]. split; [exact Ht|]. split.
  - intros j Hj. rewrite moebius_anf. apply T. exact Hj.
  - destruct (twin_int_spec t n Ht) as [u [Eu [Hu Tu]]]. rewrite Eu. f_equal. apply Nat.bits_inj. intro j. destruct (Nat.lt_ge_cases j (2 ^ n)) as [Hj|Hj].
    + rewrite Tu by exact Hj. rewrite (anf_ext n _ (anf n (Nat.testbit z))) by exact T. apply anf_involution. exact Hj.
    + rewrite (bit_bound_lt u _ Hu j Hj), (bit_bound_lt z _ Hz j Hj). reflexivity.
Qed.
Print Assumptions C32_int.

Theorem C32_int_rejected : forall z n, 2 ^ 2 ^ n <= z -> twin_int z n = Err AssertErr.
Proof. exact twin_int_reject. Qed.
Print Assumptions C32_int_rejected.

(** the property zhe is the number of the Zhegalkin polynomial of the function, whatever the
    arity it is read at *)
Theorem C32_zhe : forall i f, made i f ->
  exists z, boolf_zhe f = Ok z /\ (forall e, zhegalkin z e = sem f e) /\
    forall n, within n f -> z < 2 ^ 2 ^ n /\ forall j, j < 2 ^ n -> Nat.testbit z j = moebius n (value f) j.
Proof.
  intros i f M. destruct (boolf_zhe_spec f (m_fit i f M)) as [z [E [Hz [Z S]]]]. exists z. split; [exact E|]. split; [exact S|].
  intros n Hn. apply within_adicity in Hn. assert (Ez := Z n Hn). split; [rewrite Ez; apply table_lt|].
  intros j Hj. rewrite Ez, testbit_table, moebius_anf, (proj2 (Nat.ltb_lt _ _) Hj). reflexivity.
Qed.
Print Assumptions C32_zhe.

(** different numbers are different polynomials *)
Theorem C32_polynomials_differ : forall z z', z <> z' -> exists e, zhegalkin z e <> zhegalkin z' e.
Proof.
  intros z z' H. set (n := Nat.max z z').
  assert (Hz : z < 2 ^ 2 ^ n) by (apply Nat.le_lt_trans with n; [lia|]; apply Nat.lt_trans with (2 ^ n); apply Nat.pow_gt_lin_r; lia).
  assert (Hz' : z' < 2 ^ 2 ^ n) by (apply Nat.le_lt_trans with n; [lia|]; apply Nat.lt_trans with (2 ^ n); apply Nat.pow_gt_lin_r; lia).
  destruct (forallb (fun j => Bool.eqb (zhegalkin z (Nat.testbit j)) (zhegalkin z' (Nat.testbit j))) (range (2 ^ n))) eqn:A.
  - exfalso. apply H. apply zhegalkin_inj. intro e. rewrite forallb_forall in A.
    assert (P := A (b2n (map e (range n))) (proj2 (range_In _ _) (place_lt e n))). apply eqb_prop in P.
    rewrite (zhegalkin_ext z n e (Nat.testbit (b2n (map e (range n)))) Hz), (zhegalkin_ext z' n e (Nat.testbit (b2n (map e (range n)))) Hz'), P; [reflexivity | |]; intros a Ha; symmetry; apply place_bits; exact Ha.
  - apply forallb_false_ex in A. destruct A as [j [_ A]]. exists (Nat.testbit j). intro C. rewrite C, Bool.eqb_reflx in A. discriminate.
Qed.
Print Assumptions C32_polynomials_differ.

Theorem C32_zhe_determines : forall f g, made false f -> made false g -> (boolf_zhe f = boolf_zhe g <-> f = g).
Proof.
  intros f g Mf Mg. split; [|intros ->; reflexivity]. intro E. destruct (C32_zhe _ _ Mf) as [z [Ez [Z _]]]. destruct (C32_zhe _ _ Mg) as [z' [Ez' [Z' _]]].
  rewrite Ez, Ez' in E. injection E as ->. apply reduced_unique; [apply m_red; exact Mf | apply m_red; exact Mg|]. intro e. rewrite <- Z, <- Z'. reflexivity.
Qed.
Print Assumptions C32_zhe_determines.

Definition zhe_args (z : nat) : bargs := mkArgs None None None None None None None None None (Some (Z.of_nat z)) None false.

Lemma Boolf_zhe_args n z : Boolf (S n) (zhe_args z) = subinit_zhe (Z.of_nat z).
Proof.
  rewrite one_round.
  - cbn [Boolf]. unfold boolf_round. cbn [zhe_args subinit_bouncer present a_tt a_av a_atom a_arity a_fs a_mu_a a_mu_o a_mu_xo a_mu_xa a_zhe a_ws a_sd have forallb
      existsb akey_eqb all_keys app andb orb negb]. destruct (subinit_zhe (Z.of_nat z)); reflexivity.
  - right. right. right. left. split; [|reflexivity]. intros [] H; cbn in *; try discriminate H; tauto.
Qed.

(** Boolf(zhe=z): the object of that polynomial; both directions of the round trip *)
Theorem C32_zhe_roundtrip : forall n z, exists f, Boolf (S n) (zhe_args z) = Ok f /\ made false f /\
  (forall e, sem f e = zhegalkin z e) /\ boolf_zhe f = Ok z.
Proof.
  intros n z. destruct (zhe_spec z) as [f [E [R S]]]. exists f. rewrite Boolf_zhe_args. split; [exact E|]. assert (M := reduced_made f R). split; [exact M|]. split; [exact S|].
  destruct (C32_zhe _ _ M) as [z' [Ez [Z _]]]. rewrite Ez. f_equal. apply zhegalkin_inj. intro e. rewrite Z. apply S.
Qed.
Print Assumptions C32_zhe_roundtrip.

Theorem C32_zhe_inverse : forall n f, made false f -> exists z, boolf_zhe f = Ok z /\ Boolf (S n) (zhe_args z) = Ok f.
Proof.
  intros n f M. destruct (C32_zhe _ _ M) as [z [E [Z _]]]. exists z. split; [exact E|]. destruct (C32_zhe_roundtrip n z) as [g [Eg [Mg [S _]]]]. rewrite Eg. f_equal.
  apply reduced_unique; [apply m_red; exact Mg | apply m_red; exact M|]. intro e. rewrite S. apply Z.
Qed.
Print Assumptions C32_zhe_inverse.

Theorem C32_twin : forall i f n, made i f -> within n f ->
  exists g, boolf_twin f (Some n) = Ok g /\ made false g /\ within n g /\
    (forall j, j < 2 ^ n -> value g j = moebius n (value f) j) /\
    exists h, boolf_twin g (Some n) = Ok h /\ made false h /\ forall e, sem h e = sem f e.
Proof.
  intros i f n M Hn. apply within_adicity in Hn. destruct (twin_spec f n (m_fit i f M) Hn) as [g [E [R [A T]]]]. exists g. split; [exact E|].
  split; [apply reduced_made; exact R|]. split; [apply within_adicity; exact A|]. split; [intros j Hj; rewrite moebius_anf; apply T; exact Hj|].
  destruct (twin_spec g n (proj1 R) A) as [h [Eh [Rh [Ah Th]]]]. exists h. split; [exact Eh|]. split; [apply reduced_made; exact Rh|].
  apply (tab_inj h f n Ah Hn). intros j Hj. rewrite Th by exact Hj. rewrite (anf_ext n (tab g) (anf n (tab f))) by exact T. apply anf_involution. exact Hj.
Qed.
Print Assumptions C32_twin.

(** the twin of the twin is the same object *)
Theorem C32_twin_twice : forall f n, made false f -> within n f ->
  exists g, boolf_twin f (Some n) = Ok g /\ boolf_twin g (Some n) = Ok f.
Proof.
  intros f n M Hn. destruct (C32_twin _ f n M Hn) as [g [E [_ [_ [_ [h [Eh [Mh S]]]]]]]]. exists g. split; [exact E|]. rewrite Eh. f_equal.
  apply reduced_unique; [apply m_red; exact Mh | apply m_red; exact M | exact S].
Qed.
Print Assumptions C32_twin_twice.

(** without an argument the arity is the least possible one; a smaller one is rejected *)
Theorem C32_twin_arity : forall i f, made i f ->
  exists m, within m f /\ boolf_twin f None = boolf_twin f (Some m) /\ is_noble f None = is_noble f (Some m) /\
    forall n, (within n f <-> m <= n) /\ (n < m -> boolf_twin f (Some n) = Err AssertErr /\ is_noble f (Some n) = Err AssertErr).
Proof.
  intros i f M. exists (adicity f). split; [apply within_adicity; reflexivity|]. split; [apply twin_default|]. split; [reflexivity|].
  intro n. split; [apply within_adicity|]. intro H. assert (E := twin_reject f n H). split; [exact E|]. unfold is_noble. rewrite E. reflexivity.
Qed.
Print Assumptions C32_twin_arity.

Theorem C32_is_noble : forall f n, made false f -> within n f ->
  exists q, is_noble f (Some n) = Ok q /\ (q = true <-> forall j, j < 2 ^ n -> value f j = moebius n (value f) j).
Proof.
  intros f n M Hn. apply within_adicity in Hn. destruct (is_noble_spec f n (m_red f M) Hn) as [q [E Hq]]. exists q. split; [exact E|].
  rewrite Hq. apply noble_moebius.
Qed.
Print Assumptions C32_is_noble.

Example C32_ex : vector_to_twin_gen [false; true; true; true] 2 = Ok [false; true; true; true] /\ twin_int 6 2 = Ok 6 /\ twin_int 14 2 = Ok 14 /\ twin_int 7 2 = Ok 9 /\
  moebius 2 (Nat.testbit 7) 3 = true /\ boolf_zhe ex_and = Ok 8 /\ within 2 ex_and /\ within 3 ex_and /\
  boolf_twin ex_and (Some 3) = Ok (mkBoolf [false; false; false; true; false; false; false; false] [0; 1; 2] false false) /\
  boolf_twin ex_lit (Some 2) = Ok (mkBoolf [false; false; true; false] [0; 1] false false) /\
  is_noble ex_lit (Some 2) = Ok false /\ is_noble ex_and (Some 2) = Ok true.
Proof.
  do 6 (split; [vm_compute; reflexivity|]). split; [intros a [<- | [<- | []]]; lia|]. split; [intros a [<- | [<- | []]]; lia|].
  do 3 (split; [vm_compute; reflexivity|]). vm_compute; reflexivity.
Qed.

(** * C33 *)

Theorem C33_enumerates : forall n t, t < 2 ^ 2 ^ S n -> (own_twin (S n) t <-> exists i, index_to_noble i (S n) = Ok t).
Proof.
  intros n t Ht. split.
  - intro O. exists (t / 2 ^ 2 ^ n). apply (index_to_noble_onto n t Ht O).
  - intros [i E]. destruct (Nat.lt_ge_cases i (2 ^ 2 ^ n)) as [Hi|Hi].
    + destruct (index_to_noble_spec i n Hi) as [t' [E' [_ [O _]]]]. rewrite E in E'. injection E' as ->. exact O.
    + rewrite index_to_noble_reject in E by exact Hi. discriminate.
Qed.
Print Assumptions C33_enumerates.

(** exactly the indices below 2^2^(arity-1) are accepted *)
Theorem C33_index : forall n i,
  (i < 2 ^ 2 ^ n -> exists t, index_to_noble i (S n) = Ok t /\ t < 2 ^ 2 ^ S n /\ own_twin (S n) t /\
     forall trust, noble_to_index t (S n) trust = Ok i) /\
  (2 ^ 2 ^ n <= i -> index_to_noble i (S n) = Err ArgTooBigError).
Proof.
  intros n i. split; [|apply index_to_noble_reject]. intro Hi. destruct (index_to_noble_spec i n Hi) as [t [E [Ht [O D]]]]. exists t.
  split; [exact E|]. split; [exact Ht|]. split; [exact O|]. intro trust. rewrite noble_to_index_spec by assumption. rewrite D. reflexivity.
Qed.
Print Assumptions C33_index.

(** the number of a noble is its upper half; everything else is rejected *)
Theorem C33_noble : forall n t,
  (t < 2 ^ 2 ^ S n -> own_twin (S n) t -> forall trust, noble_to_index t (S n) trust = Ok (t / 2 ^ 2 ^ n) /\ index_to_noble (t / 2 ^ 2 ^ n) (S n) = Ok t) /\
  (t < 2 ^ 2 ^ S n -> ~ own_twin (S n) t -> exists e, noble_to_index t (S n) false = Err e /\ (e = ArgValueError \/ e = ArgTooBigError)) /\
  (2 ^ 2 ^ S n <= t -> forall trust, noble_to_index t (S n) trust = Err ArgTooBigError).
Proof.
  intros n t. split; [|split].
  - intros Ht O trust. split; [apply noble_to_index_spec; assumption | apply index_to_noble_onto; assumption].
  - intros Ht O. destruct (Nat.le_gt_cases t (2 ^ 2 ^ S n - 2)) as [Hm|Hm].
    + exists ArgValueError. split; [apply noble_to_index_reject; assumption | left; reflexivity].
    + exists ArgTooBigError. split; [apply noble_to_index_big; exact Hm | right; reflexivity].
  - intros Ht trust. apply noble_to_index_big. assert (Hp := pow2_pos (2 ^ S n)). lia.
Qed.
Print Assumptions C33_noble.

(** at arity 0 both tables are their own twins, but only one of them is in the enumeration *)
Theorem C33_arity_zero_refuted : exists t, t < 2 ^ 2 ^ 0 /\ own_twin 0 t /\ (exists f, Boolf_int t 0 = Ok f /\ is_noble f (Some 0) = Ok true) /\
  (forall i, index_to_noble i 0 <> Ok t) /\ noble_to_index t 0 false = Err ArgTooBigError.
Proof.
  exists 1. split; [cbn; lia|]. split; [apply own_twin_0; lia|]. split; [exists (set_constant true); vm_compute; auto|]. split; [|reflexivity].
  intros i H. unfold index_to_noble in H. destruct (Nat.eqb i 0); discriminate H.
Qed.
Print Assumptions C33_arity_zero_refuted.

Theorem C33_patron : forall i f n, made i f -> within n f ->
  exists p g k, patron_int f n = Ok p /\ patron_boolf f n = Ok g /\ patron_index f n = Ok k /\
    p < 2 ^ 2 ^ n /\ own_twin n p /\ (forall j, j < 2 ^ n -> Nat.testbit p j = xorb (value f j) (moebius n (value f) j)) /\
    made false g /\ within n g /\ (forall j, j < 2 ^ n -> value g j = Nat.testbit p j) /\
    index_to_noble k n = Ok p /\ is_noble g (Some n) = Ok true.
Proof.
  intros i f n M Hn. apply within_adicity in Hn. assert (Hf := m_fit i f M). destruct (patron_int_spec f n Hf Hn) as [p [E [Hp [O B]]]].
  destruct (patron_boolf_spec f n Hf Hn) as [g [Eg [Rg [Ag Tg]]]]. destruct (patron_index_spec f n Hf Hn) as [p' [k [E' [Ek Ei]]]].
  rewrite E in E'. injection E' as <-. exists p, g, k. repeat (split; [assumption|]). split; [intros j Hj; rewrite moebius_anf; apply B; exact Hj|].
  split; [apply reduced_made; exact Rg|]. split; [apply within_adicity; exact Ag|].
  assert (V : forall j, j < 2 ^ n -> tab g j = Nat.testbit p j) by (intros j Hj; rewrite Tg, B by exact Hj; reflexivity).
  split; [exact V|]. split; [exact Ei|]. destruct (is_noble_spec g n Rg Ag) as [q [Eq Hq]]. rewrite Eq. f_equal. apply Hq.
  intros j Hj. rewrite (anf_ext n _ _ _ V), V by exact Hj. apply own_twin_anf; assumption.
Qed.
Print Assumptions C33_patron.

Theorem C33_patron_arity_rejected : forall i f n, made i f -> ~ within n f ->
  patron_int f n = Err ArgTooSmallError /\ patron_index f n = Err ArgTooSmallError /\ patron_boolf f n = Err AssertErr.
Proof.
  intros i f n _ H. rewrite within_adicity in H. assert (H' : n < adicity f) by lia. unfold patron_index, patron_boolf. rewrite (patron_int_reject f n H'), (twin_reject f n H'). auto.
Qed.
Print Assumptions C33_patron_arity_rejected.

(** the quadrant computed from the index and the one computed from the table *)
Theorem C33_quadrants : forall n t, t < 2 ^ 2 ^ S n -> own_twin (S n) t ->
  exists f, Boolf_int t (S n) = Ok f /\ made false f /\ 
    noble_to_quadrant t (S n) = Ok (Nat.b2n (Nat.testbit t 1) + 2 * Nat.b2n (Nat.testbit t (2 ^ S n - 1))) /\
    noble_quadrant f (Some (S n)) = noble_to_quadrant t (S n).
Proof.
  intros n t Ht O. destruct (Boolf_int_tab t (S n) Ht) as [f [E [R [A T]]]]. exists f. split; [exact E|]. split; [apply reduced_made; exact R|].
  assert (Hp := pow2_pos n). rewrite (noble_to_quadrant_spec n t Ht O). unfold nquad. split; [rewrite (Nat.mul_comm 2); reflexivity|].
  rewrite (noble_quadrant_spec f n R A).
  - rewrite !T by (cbn; lia). reflexivity.
  - intros j Hj. rewrite (anf_ext (S n) _ _ _ T), T by exact Hj. apply own_twin_anf; assumption.
Qed.
Print Assumptions C33_quadrants.

Theorem C33_quadrant_not_noble : forall f n, made false f -> within n f -> ~ (forall j, j < 2 ^ n -> value f j = moebius n (value f) j) ->
  noble_quadrant f (Some n) = Err ValueErr.
Proof. intros f n M Hn H. apply within_adicity in Hn. apply noble_quadrant_reject; [apply m_red; exact M | exact Hn|]. rewrite noble_moebius. exact H. Qed.
Print Assumptions C33_quadrant_not_noble.

(** at arity 0 the two computations differ: one raises an IndexError for the constants, which
    are their own twins *)
Theorem C33_quadrants_arity_zero_refuted : exists f, made false f /\ is_noble f (Some 0) = Ok true /\
  noble_quadrant f (Some 0) = Err IndexErr /\ noble_to_quadrant 0 0 = Ok 0 /\ Boolf_int 0 0 = Ok f.
Proof.
  exists (set_constant false). split; [|vm_compute; auto]. apply (made_by false 1 (table_args [false] [])); [discriminate | intros g [] | vm_compute; reflexivity].
Qed.
Print Assumptions C33_quadrants_arity_zero_refuted.

(** the royal: a noble of quadrant 0 that differs from the given one in none, all or all but
    one of the places of a fixed set *)
Theorem C33_royal : forall n t, t < 2 ^ 2 ^ S n -> own_twin (S n) t ->
  exists r q, noble_to_royal_and_quadrant t (S n) = Ok (r, q) /\ noble_to_royal t (S n) = Ok r /\ noble_to_quadrant t (S n) = Ok q /\
    r < 2 ^ 2 ^ S n /\ own_twin (S n) r /\ noble_to_quadrant r (S n) = Ok 0 /\
    forall j, j < 2 ^ S n -> xorb (Nat.testbit r j) (Nat.testbit t j) =
      match q with
      | 0 => false
      | 1 => negb (j =? 0) && negb (j =? 2 ^ S n - 1)
      | 2 => j =? 2 ^ S n - 1
      | _ => negb (j =? 0)
      end.
Proof.
  intros n t Ht O. set (q := nquad (S n) t). set (r := Nat.lxor t (royal_mask (S n) q)). exists r, q.
  assert (E := royal_spec n t Ht O). fold q in E. fold r in E. split; [exact E|]. split; [unfold noble_to_royal; rewrite E; reflexivity|].
  split; [apply noble_to_quadrant_spec; assumption|]. assert (Hr : r < 2 ^ 2 ^ S n) by (apply lxor_lt; [exact Ht | apply royal_mask_lt]). split; [exact Hr|].
  assert (Or : own_twin (S n) r) by (apply own_twin_lxor; [exact O | apply royal_mask_own]). split; [exact Or|]. split.
  - rewrite noble_to_quadrant_spec by assumption. f_equal. apply royal_quad.
  - intros j Hj. unfold r. rewrite Nat.lxor_spec. assert (X : forall a b, xorb (xorb a b) a = b) by (intros [] []; reflexivity). rewrite X.
    assert (Hp := pow2_pos n). destruct q as [|[|[|q']]]; cbn [royal_mask]; rewrite ?Nat.lxor_spec, ?last_only_bit, ?but_first_bit, ?(proj2 (Nat.ltb_lt j (2 ^ S n)) Hj), ?(Nat.eqb_sym 0 j), ?(Nat.eqb_sym (2 ^ S n - 1) j), ?Nat.bits_0; try reflexivity.
    destruct (Nat.eqb_spec j 0) as [E0|]; destruct (Nat.eqb_spec j (2 ^ S n - 1)) as [E1|]; try reflexivity; cbn in *; lia.
Qed.
Print Assumptions C33_royal.

Example C33_ex : index_to_noble 1 2 = Ok 6 /\ noble_to_index 6 2 false = Ok 1 /\ noble_to_index 7 2 false = Err ArgValueError /\
  patron_int ex_lit 2 = Ok 8 /\ patron_index ex_lit 2 = Ok 2 /\ own_twin 2 6 /\ noble_to_quadrant 6 2 = Ok 1 /\
  noble_to_royal_and_quadrant 6 2 = Ok (0, 1) /\ noble_to_royal_and_quadrant 14 2 = Ok (0, 3).
Proof. repeat (split; [vm_compute; reflexivity|]). split; [intros j Hj; do 4 (destruct j as [|j]; [vm_compute; reflexivity|]); cbn in Hj; lia|]. repeat (split; [vm_compute; reflexivity|]). vm_compute; reflexivity. Qed.
