(** Props_King: properties C101 and C102: kings, patrons and prefects. *)

From Coq Require Import List Arith ZArith Bool Lia Permutation Sorted Factorial.
From Verif Require Import Model_Base Lib Model_Binary Model_Twin Model_Boolf Model_BoolfMore Model_MinRep Model_King
  Spec_Bits Spec_SigPerm Spec_Boolf Spec_Twin Spec_MinRep Proof_Binary Proof_Deflate Proof_Boolf Proof_BoolfTable Proof_Twin Proof_BoolfMake Proof_Noble Proof_Foibles
  Proof_MinRepClass Proof_MinRepCoset Proof_MinRepMin Proof_EcClass Proof_EcMembers Proof_WalshLinear Proof_WalshIndex Proof_WalshMore Proof_BoolfMore Props_Boolf Props_Twin Props_MinRep Proof_King Proof_Prefect.
From Verif Require Proof_Numbers.
From Verif Require Import Props_Superfluous.
Import ListNotations.
Local Open Scope nat_scope.

(** * C101: kings *)

(** the number [u] is the table with the number [t] with its atoms permuted *)
Definition permuted (n t u : nat) : Prop :=
  exists pi : nat -> nat, (forall a, a < n -> pi a < n) /\ (forall a b, a < n -> b < n -> pi a = pi b -> a = b) /\
    forall j k, j < 2 ^ n -> k < 2 ^ n -> (forall a, a < n -> Nat.testbit k a = Nat.testbit j (pi a)) -> Nat.testbit u j = Nat.testbit t k.

Lemma permuted_faction n t u : permuted n t u <-> same_faction n t u.
Proof.
  split; intros (pi & H).
  - destruct H as (B & I & M). exists pi. split.
    + apply NoDup_Permutation_bis; [|rewrite map_length; lia|].
      * apply Proof_Helpers.NoDup_map_inj; [apply range_NoDup|]. intros x y Hx Hy. apply range_In in Hx, Hy. apply I; assumption.
      * intros x Hx. apply in_map_iff in Hx as (b & <- & Hb). apply range_In in Hb. apply range_In, B, Hb.
    + intros j Hj. apply M; [exact Hj | apply pre_lt|]. intros a Ha. apply pre_bits, Ha.
  - destruct H as (P & M). exists pi. split; [intros a; apply permutes_lt, P|]. split; [intros a b; apply injective_on, P|].
    intros j k Hj Hk E. rewrite (M j Hj), (pre_eq pi n j k Hk E). reflexivity.
Qed.

(** the king of a noble: the least number that the royal gets by permuting its atoms; it is a royal *)
Theorem C101_king : forall n t, t < 2 ^ 2 ^ S n -> own_twin (S n) t ->
  exists r q k i, noble_to_royal_and_quadrant t (S n) = Ok (r, q) /\ noble_to_king_and_quadrant t (S n) = Ok (k, q) /\ noble_to_king_index_and_quadrant t (S n) = Ok (i, q) /\
    k < 2 ^ 2 ^ S n /\ own_twin (S n) k /\ noble_to_quadrant k (S n) = Ok 0 /\ index_to_noble i (S n) = Ok k /\
    permuted (S n) r k /\ forall u, u < 2 ^ 2 ^ S n -> permuted (S n) r u -> k <= u.
Proof.
  intros n t Ht O. destruct (king_spec n t Ht O) as (k & E & Hk & F & L). assert (Ok' : own_twin (S n) k) by (destruct F as (pi & M); apply (moved_own _ _ _ _ M), royal_of_own, O).
  exists (royal_of (S n) t), (nquad (S n) t), k, (k / 2 ^ 2 ^ n). split; [apply (royal_spec n t Ht O)|]. split; [exact E|].
  split; [unfold noble_to_king_index_and_quadrant; rewrite E; cbn [bind fst snd]; rewrite (noble_to_index_spec n k false Hk Ok'); reflexivity|].
  split; [exact Hk|]. split; [exact Ok'|]. split; [|split; [apply (index_to_noble_onto n k Hk Ok')|]].
  - rewrite (noble_to_quadrant_spec n k Hk Ok'). f_equal. destruct F as (pi & M). rewrite (moved_quad n pi _ _ M (royal_of_own _ _ O)). apply royal_quad.
  - split; [apply permuted_faction, F|]. intros u Hu P. apply L; [exact Hu | apply permuted_faction, P].
Qed.
Print Assumptions C101_king.

(** king and quadrant together characterize the nobles that differ by a permutation of the atoms *)
Theorem C101_classes : forall n t u, t < 2 ^ 2 ^ S n -> u < 2 ^ 2 ^ S n -> own_twin (S n) t -> own_twin (S n) u ->
  (noble_to_king_and_quadrant t (S n) = noble_to_king_and_quadrant u (S n) <-> permuted (S n) t u) /\
  (noble_to_king_index_and_quadrant t (S n) = noble_to_king_index_and_quadrant u (S n) <-> permuted (S n) t u).
Proof.
  intros n t u Ht Hu Ot Ou. destruct (king_spec n t Ht Ot) as (k & E & Hk & F & L). destruct (king_spec n u Hu Ou) as (k' & E' & Hk' & F' & L').
  assert (A : noble_to_king_and_quadrant t (S n) = noble_to_king_and_quadrant u (S n) <-> permuted (S n) t u).
  { rewrite permuted_faction, (faction_royal n t u Ot Ou), E, E'. split.
    - intro X. injection X as -> Q. split; [|exact Q]. apply (faction_trans _ _ k'); [exact F | apply faction_symm, F'].
    - intros (X & Q). rewrite Q. do 2 f_equal. apply Nat.le_antisymm.
      + apply L; [exact Hk'|]. apply (faction_trans _ _ (royal_of (S n) u)); assumption.
      + apply L'; [exact Hk|]. apply (faction_trans _ _ (royal_of (S n) t)); [apply faction_symm, X | exact F]. }
  split; [exact A|]. rewrite <- A.
  destruct (C101_king n t Ht Ot) as (r1 & q1 & k1 & i1 & _ & E1 & I1 & _ & _ & _ & N1 & _). destruct (C101_king n u Hu Ou) as (r2 & q2 & k2 & i2 & _ & E2 & I2 & _ & _ & _ & N2 & _).
  rewrite E1, E2, I1, I2. split; intro X; injection X as X ->; subst.
  - rewrite N1 in N2. injection N2 as ->. reflexivity.
  - assert (Y : i1 = i2); [|rewrite Y; reflexivity].
    unfold noble_to_king_index_and_quadrant in I1, I2. rewrite E1 in I1. rewrite E2 in I2. cbn [bind fst snd] in I1, I2. rewrite I1 in I2. injection I2 as ->. reflexivity.
Qed.
Print Assumptions C101_classes.

(** a king is its own king *)
Theorem C101_king_of_king : forall n t k q, t < 2 ^ 2 ^ S n -> own_twin (S n) t -> noble_to_king_and_quadrant t (S n) = Ok (k, q) -> noble_to_king_and_quadrant k (S n) = Ok (k, 0).
Proof.
  intros n t k q Ht O E. destruct (C101_king n t Ht O) as (r & q' & k' & i & Er & E' & _ & Hk & Ok' & Q & _ & P & L). rewrite E in E'. injection E' as <- <-.
  destruct (C101_king n k Hk Ok') as (r2 & q2 & k2 & i2 & Er2 & E2 & _ & Hk2 & _ & _ & _ & P2 & L2).
  rewrite (noble_to_quadrant_spec n k Hk Ok') in Q. injection Q as Q. rewrite (royal_spec n k Hk Ok'), Q in Er2. cbn [royal_mask] in Er2. rewrite Nat.lxor_0_r in Er2. injection Er2 as <- <-.
  rewrite E2. do 2 f_equal. rewrite permuted_faction in P, P2. apply Nat.le_antisymm.
  - apply L2; [exact Hk|]. apply permuted_faction, faction_refl.
  - apply L; [exact Hk2|]. apply permuted_faction. apply (faction_trans _ _ k); assumption.
Qed.
Print Assumptions C101_king_of_king.

(** everything else is rejected; at arity 0 the only accepted number is 0 *)
Theorem C101_rejected : forall n t,
  (~ (t < 2 ^ 2 ^ S n /\ own_twin (S n) t) -> exists e, noble_to_king_and_quadrant t (S n) = Err e /\ noble_to_king_index_and_quadrant t (S n) = Err e /\ e = (if t <=? 2 ^ 2 ^ S n - 2 then ArgValueError else ArgTooBigError)) /\
  noble_to_king_and_quadrant t 0 = (if t =? 0 then Ok (0, 0) else Err ArgTooBigError) /\ noble_to_king_index_and_quadrant t 0 = (if t =? 0 then Ok (0, 0) else Err ArgTooBigError).
Proof.
  intros n t. split.
  - intro H. assert (E : noble_to_index t (S n) false = Err (if t <=? 2 ^ 2 ^ S n - 2 then ArgValueError else ArgTooBigError)).
    { destruct (Nat.leb_spec t (2 ^ 2 ^ S n - 2)) as [Hm|Hm]; [|apply noble_to_index_big, Hm]. apply (noble_to_index_reject n t Hm). intro O. apply H. split; [|exact O]. assert (Hp := pow2_pos (2 ^ S n)). lia. }
    assert (K : noble_to_king_and_quadrant t (S n) = Err (if t <=? 2 ^ 2 ^ S n - 2 then ArgValueError else ArgTooBigError)).
    { unfold noble_to_king_and_quadrant, noble_to_royal_and_quadrant, noble_to_quadrant. rewrite E. reflexivity. }
    eexists. split; [exact K|]. split; [unfold noble_to_king_index_and_quadrant; rewrite K; reflexivity | reflexivity].
  - destruct (Nat.eqb_spec t 0) as [->|Hn]; [split; vm_compute; reflexivity|].
    assert (K : noble_to_king_and_quadrant t 0 = Err ArgTooBigError) by (unfold noble_to_king_and_quadrant, noble_to_royal_and_quadrant; rewrite (proj2 (Nat.eqb_neq t 0) Hn); reflexivity).
    split; [exact K | unfold noble_to_king_index_and_quadrant; rewrite K; reflexivity].
Qed.
Print Assumptions C101_rejected.

(** the king of the patron: the same for all functions of a faction, and the quadrant is that of the patron *)
Lemma patron_kings : forall f g n, made false f -> made false g -> within (S n) f -> within (S n) g ->
  exists p p' i i' q q', patron_int f (S n) = Ok p /\ patron_int g (S n) = Ok p' /\
    patron_king_index_and_quadrant f (S n) = Ok (i, q) /\ patron_king_index_and_quadrant g (S n) = Ok (i', q') /\ patron_quadrant f (S n) = Ok q /\
    ((i, q) = (i', q') <-> permuted (S n) p p') /\
    (faction_class (sem f) (sem g) -> (i, q) = (i', q')).
Proof.
  intros f g n Mf Mg Wf Wg. apply within_adicity in Wf, Wg. assert (Rf := m_red f Mf). assert (Rg := m_red g Mg).
  destruct (patron_int_spec f (S n) (m_fit _ f Mf) Wf) as (p & Ep & Hp & Op & Bp). destruct (patron_int_spec g (S n) (m_fit _ g Mg) Wg) as (p' & Ep' & Hp' & Op' & Bp').
  destruct (C101_king n p Hp Op) as (r & q & k & i & Er & _ & Ei & _). destruct (C101_king n p' Hp' Op') as (r' & q' & k' & i' & Er' & _ & Ei' & _).
  exists p, p', i, i', q, q'. split; [exact Ep|]. split; [exact Ep'|]. unfold patron_king_index_and_quadrant, patron_quadrant. rewrite Ep, Ep'. cbn [bind]. rewrite Ei, Ei'. split; [reflexivity|]. split; [reflexivity|].
  split; [rewrite (royal_spec n p Hp Op) in Er; injection Er as _ <-; apply noble_to_quadrant_spec; assumption|].
  assert (A : (i, q) = (i', q') <-> permuted (S n) p p').
  { rewrite <- (proj2 (C101_classes n p p' Hp Hp' Op Op')), Ei, Ei'. split; [intros ->; reflexivity | intro X; injection X as -> ->; reflexivity]. }
  split; [exact A|]. intro C. apply A, permuted_faction.
  set (t := b2n (map (tab f) (range (2 ^ S n)))). set (u := b2n (map (tab g) (range (2 ^ S n)))).
  assert (Tf : forall j, j < 2 ^ S n -> tab f j = Nat.testbit t j) by (intros j Hj; unfold t; symmetry; apply (place_bits (tab f)), Hj).
  assert (Tg : forall j, j < 2 ^ S n -> tab g j = Nat.testbit u j) by (intros j Hj; unfold u; symmetry; apply (place_bits (tab g)), Hj).
  destruct (proj1 (faction_tables (S n) f g t u Rf Rg Wf Wg Tf Tg) C) as (pi & P & M). exists pi. split; [exact P|].
  intros j Hj. rewrite Bp' by exact Hj. rewrite Bp by apply pre_lt. rewrite Tg by exact Hj. rewrite Tf by apply pre_lt. rewrite M by exact Hj. f_equal.
  rewrite <- (anf_perm pi (S n) (tab f) j P). apply anf_ext. intros k0 Hk0. rewrite Tg by exact Hk0. rewrite M by exact Hk0. rewrite Tf by apply pre_lt. reflexivity.
Qed.
Theorem C101_patron : forall {b c} f g n, made b f -> made c g -> within (S n) f -> within (S n) g ->
  exists p p' i i' q q', patron_int f (S n) = Ok p /\ patron_int g (S n) = Ok p' /\
    patron_king_index_and_quadrant f (S n) = Ok (i, q) /\ patron_king_index_and_quadrant g (S n) = Ok (i', q') /\ patron_quadrant f (S n) = Ok q /\
    ((i, q) = (i', q') <-> permuted (S n) p p') /\
    (faction_class (sem f) (sem g) -> (i, q) = (i', q')).
Proof.
  intros b c f g n Mf Mg Wf Wg. destruct (deflated f (S n) Mf Wf) as (f0 & F0 & F1 & A0 & S0). destruct (deflated g (S n) Mg Wg) as (g0 & G0 & G1 & B0 & T0).
  destruct (patron_kings f0 g0 n F0 G0 A0 B0) as (p & p' & i & i' & q & q' & E1 & E2 & E3 & E4 & E5 & H & K). exists p, p', i, i', q, q'.
  destruct (C122_same_arity f f0 (S n) (made_any f Mf) F1 S0 Wf A0) as (_ & _ & X & _ & Y & _). destruct (C122_same_arity g g0 (S n) (made_any g Mg) G1 T0 Wg B0) as (_ & _ & X' & _).
  unfold patron_king_index_and_quadrant in *. rewrite X, X', Y. do 5 (split; [assumption|]). split; [exact H|]. intros (pi & P & C). apply K. exists pi. split; [exact P|]. intro e. rewrite <- T0, C, S0. reflexivity.
Qed.
Print Assumptions C101_patron.

Theorem C101_patron_rejected : forall i f n, made i f -> ~ within n f -> patron_king_index_and_quadrant f n = Err ArgTooSmallError.
Proof. intros i f n M H. unfold patron_king_index_and_quadrant. rewrite (proj1 (C33_patron_arity_rejected i f n M H)). reflexivity. Qed.
Print Assumptions C101_patron_rejected.

(** the cases in the tests of the project: nobles 200 and 168 at arity 3; the patron of
    Boolf('0100 1100') at arities 3 and 4 *)
Definition ex_king : boolf := {| atomvals := [0; 1; 2]; root := [false; true; false; false; true; true; false; false]; is_constant := false; is_inflated := false |}.
Example C101_example : noble_to_royal_and_quadrant 200 3 = Ok (72, 2) /\ noble_to_king_and_quadrant 200 3 = Ok (40, 2) /\ noble_to_king_index_and_quadrant 200 3 = Ok (2, 2) /\
  patron_king_index_and_quadrant ex_king 3 = Ok (2, 2) /\ patron_king_index_and_quadrant ex_king 4 = Ok (14, 0) /\ patron_king_index_and_quadrant ex_king 2 = Err ArgTooSmallError /\
  noble_to_king_and_quadrant 201 3 = Err ArgValueError /\ noble_to_king_and_quadrant 256 3 = Err ArgTooBigError.
Proof. repeat (split; [vm_compute; reflexivity|]). vm_compute; reflexivity. Qed.
Example C101_nonvacuous : own_twin 3 200 /\ 200 < 2 ^ 2 ^ 3 /\ permuted 3 72 40.
Proof.
  split; [intros j Hj; do 8 (destruct j as [|j]; [vm_compute; reflexivity|]); cbn in Hj; lia|]. split; [cbn; lia|].
  exists (fun a => match a with 0 => 1 | 1 => 0 | _ => 2 end). split; [intros [|[|a]] Ha; lia|].
  split; [intros [|[|[|a]]] [|[|[|b]]] Ha Hb E; lia|]. intros j k Hj Hk H.
  assert (H0 := H 0 ltac:(lia)). assert (H1 := H 1 ltac:(lia)). assert (H2 := H 2 ltac:(lia)). cbn [Nat.pow Nat.mul Nat.add] in Hj, Hk.
  do 8 (destruct j as [|j]; [do 8 (destruct k as [|k]; [first [reflexivity | discriminate H0 | discriminate H1 | discriminate H2]|]); exfalso; lia|]). exfalso; lia.
Qed.

(** * C102: prefects and patrons *)

Definition parity (p : nat -> bool) (l : list nat) : bool := Nat.odd (length (filter p l)).
Lemma parity_xor p l : parity p l = xor_all (map p l).
Proof.
  unfold parity, xor_all. induction l as [|x l IH]; [reflexivity|]. cbn [filter map fold_right]. rewrite <- IH. destruct (p x); [|rewrite xorb_false_l; reflexivity].
  cbn [length]. rewrite Nat.odd_succ, <- Nat.negb_odd. destruct (Nat.odd _); reflexivity.
Qed.

(** from the Zhegalkin number: atom i is in the prefect iff it is in an odd number of monomials,
    and the prefect is negated iff the number of monomials of even size is odd *)
Theorem C102_zhe : forall z n,
  (z < 2 ^ 2 ^ n -> exists w q, zhe_to_prefect z n = Ok (w, q) /\ (forall i, Nat.testbit w i = parity (fun k => Nat.testbit k i) (ones z)) /\ q = parity (fun k => Nat.even (length (ones k))) (ones z)) /\
  (2 ^ 2 ^ n <= z -> zhe_to_prefect z n = Err BinvLengthError).
Proof.
  intros z n. split; intro Hz.
  - exists (prefect_w z), (prefect_q z). split; [apply zhe_prefect, Hz|]. split; [intro i; rewrite prefect_w_bit, parity_xor; reflexivity | rewrite parity_xor; reflexivity].
  - unfold zhe_to_prefect. rewrite (Binv_int_reject z (2 ^ n) Hz). reflexivity.
Qed.
Print Assumptions C102_zhe.

(** the same from the object, whatever the arity *)
Theorem C102_zhe_object : forall i f n z, made i f -> within n f -> boolf_zhe f = Ok z -> zhe_to_prefect z n = prefect_walsh_and_oddness f.
Proof.
  intros i f n z M W E. apply within_adicity in W. assert (Hf := m_fit i f M). rewrite (prefect_index_spec f z Hf E). apply zhe_prefect.
  destruct (boolf_zhe_spec f Hf) as (z' & E' & H & _). rewrite E in E'. injection E' as <-. eapply Nat.lt_le_trans; [exact H|]. apply Nat.pow_le_mono_r; [lia|]. apply Nat.pow_le_mono_r; lia.
Qed.
Print Assumptions C102_zhe_object.

(** from the set of monomials to the set of true places of the prefect: place i is in it iff an odd
    number of the monomials have an even number of false atoms at place i *)
Theorem C102_exposet : forall E n, (forall k, In k E -> k < 2 ^ n) ->
  exists r, zhe_exposet_to_prefect_gen E n = Ok r /\ ascending r /\
    forall i, In i r <-> i < 2 ^ n /\ parity (fun k => Nat.even (length (filter (fun a => negb (Nat.testbit i a)) (ones k)))) E = true.
Proof.
  intros E n H. unfold zhe_exposet_to_prefect_gen, atoms_to_xand_gen. destruct (raw_exposet_spec XAND E n H) as (r & Er & A & I). exists r. split; [exact Er|]. split; [exact A|].
  intro i. rewrite I. assert (X : combined (gen_value XAND) E i = parity (fun k => Nat.even (length (filter (fun a => negb (Nat.testbit i a)) (ones k)))) E); [|rewrite X; reflexivity].
  rewrite parity_xor. unfold combined. apply xor_all_ext. intros k Hk. rewrite (xand_value n k i (H k Hk)), (dot_over_ones n k i (H k Hk)). unfold count_ones. fold (ones k).
  generalize (ones k). intro l. induction l as [|x l IH]; [reflexivity|]. cbn [map filter length xor_all fold_right]. fold (xor_all (map (Nat.testbit i) l)).
  rewrite Nat.even_succ, <- Nat.negb_even. destruct (Nat.testbit i x); cbn [negb length].
  - rewrite <- IH. destruct (xor_all (map (Nat.testbit i) l)), (Nat.even (length l)); reflexivity.
  - rewrite Nat.even_succ, <- Nat.negb_even, <- IH. destruct (xor_all (map (Nat.testbit i) l)), (Nat.even (length l)); reflexivity.
Qed.
Print Assumptions C102_exposet.

(** the prefect of a XOR is the XOR of the prefects *)
Theorem C102_sum : forall f g, made true f -> made true g ->
  exists h w q w' q', boolf_xor f g = Ok h /\ prefect_walsh_and_oddness f = Ok (w, q) /\ prefect_walsh_and_oddness g = Ok (w', q') /\
    prefect_walsh_and_oddness h = Ok (Nat.lxor w w', xorb q q').
Proof.
  intros f g Mf Mg. destruct (C29_xor f g Mf Mg) as (h & E & Mh & Sh). assert (Hf := m_fit _ f Mf). assert (Hg := m_fit _ g Mg). assert (Hh := m_fit _ h Mh).
  destruct (boolf_zhe_spec f Hf) as (a & Ea & _ & _ & Za). destruct (boolf_zhe_spec g Hg) as (b & Eb & _ & _ & Zb). destruct (boolf_zhe_spec h Hh) as (c & Ec & _ & _ & Zc).
  exists h, (prefect_w a), (prefect_q a), (prefect_w b), (prefect_q b). split; [exact E|]. split; [apply prefect_index_spec; assumption|]. split; [apply prefect_index_spec; assumption|].
  rewrite (prefect_index_spec h c Hh Ec). assert (X : c = Nat.lxor a b). { apply zhegalkin_inj. intro e. rewrite zhegalkin_lxor, Za, Zb, Zc. apply Sh. }
  rewrite X, prefect_w_lxor, prefect_q_lxor. reflexivity.
Qed.
Print Assumptions C102_sum.

(** exactly the linear functions are their own prefects; every prefect is one *)
Theorem C102_linear : forall f, made false f ->
  (prefect_boolf f = Ok f <-> exists w q, forall e, sem f e = xorb (xor_all (map e (ones w))) q) /\
  exists g, prefect_boolf f = Ok g /\ prefect_boolf g = Ok g /\ prefect_walsh_and_oddness g = prefect_walsh_and_oddness f /\ prefect_leader_and_quadrant g = prefect_leader_and_quadrant f.
Proof.
  intros f M. assert (Hf := m_fit _ f M). destruct (boolf_zhe_spec f Hf) as (z & E & _ & _ & Z). destruct (prefect_boolf_spec f z Hf E) as (g & Eg & Rg & Sg).
  assert (L : forall h w q, reduced h -> (forall e, sem h e = xorb (xor_all (map e (ones w))) q) -> prefect_boolf h = Ok h).
  { intros h w q Rh Sh. destruct (boolf_zhe_spec h (proj1 Rh)) as (y & Ey & _). destruct (prefect_boolf_spec h y (proj1 Rh) Ey) as (k & Ek & Rk & Sk). rewrite Ek. f_equal. apply reduced_unique; [exact Rk | exact Rh|].
    intro e. rewrite Sk, Sh. assert (P := prefect_linear h w q (proj1 Rh) Sh). rewrite (prefect_index_spec h y (proj1 Rh) Ey) in P. injection P as -> ->. reflexivity. }
  split.
  - split; [intro H; rewrite Eg in H; injection H as ->; exists (prefect_w z), (prefect_q z); exact Sg|]. intros (w & q & S). apply (L f w q (m_red f M) S).
  - exists g. split; [exact Eg|]. split; [apply (L g _ _ Rg Sg)|].
    assert (P := prefect_linear g _ _ (proj1 Rg) Sg). split; [rewrite P; symmetry; apply prefect_index_spec; assumption|].
    destruct (boolf_zhe_spec g (proj1 Rg)) as (y & Ey & _). rewrite (prefect_leader_spec f z Hf E), (prefect_leader_spec g y (proj1 Rg) Ey). rewrite (prefect_index_spec g y (proj1 Rg) Ey) in P. injection P as -> ->. reflexivity.
Qed.
Print Assumptions C102_linear.

(** the same for all objects, also those with redundant atoms *)
Theorem C102_linear_inflated : forall i f, made i f ->
  exists g, prefect_boolf f = Ok g /\ made false g /\ prefect_boolf g = Ok g /\
    ((forall e, sem g e = sem f e) <-> exists w q, forall e, sem f e = xorb (xor_all (map e (ones w))) q).
Proof.
  intros i f M. assert (Hf := m_fit _ f M). destruct (boolf_zhe_spec f Hf) as (z & E & _ & _ & Z). destruct (prefect_boolf_spec f z Hf E) as (g & Eg & Rg & Sg).
  assert (Mg := reduced_made g Rg). exists g. split; [exact Eg|]. split; [exact Mg|]. split.
  - apply (proj1 (C102_linear g Mg)). exists (prefect_w z), (prefect_q z). exact Sg.
  - split.
    + intro H. exists (prefect_w z), (prefect_q z). intro e. rewrite <- H. apply Sg.
    + intros (w & q & S) e. assert (P := prefect_linear f w q Hf S). rewrite (prefect_index_spec f z Hf E) in P. injection P as P1 P2.
      rewrite Sg, S, P1, P2. reflexivity.
Qed.
Print Assumptions C102_linear_inflated.

(** the patron of a noble is the contradiction, and only of nobles *)
Theorem C102_patron_zero : forall i f n, made i f -> within n f ->
  exists p, patron_int f n = Ok p /\ (p = 0 <-> forall j, j < 2 ^ n -> value f j = moebius n (value f) j).
Proof.
  intros i f n M W. apply within_adicity in W. destruct (patron_int_spec f n (m_fit i f M) W) as (p & E & Hp & _ & B). exists p. split; [exact E|]. split.
  - intros -> j Hj. assert (X := B j Hj). rewrite Nat.bits_0 in X. rewrite moebius_anf. change (value f) with (tab f). destruct (tab f j), (anf n (tab f) j); try reflexivity; discriminate X.
  - intro H. apply Nat.bits_inj. intro j. rewrite Nat.bits_0. destruct (Nat.lt_ge_cases j (2 ^ n)) as [Hj|Hj]; [|apply (bit_bound_lt p _ Hp j Hj)].
    rewrite (B j Hj). assert (X := H j Hj). rewrite moebius_anf in X. change (value f) with (tab f) in X. rewrite <- X. apply xorb_nilpotent.
Qed.
Print Assumptions C102_patron_zero.

(** the patron of the tautology is true except at place 0, that of the contradiction is the contradiction *)
Theorem C102_patron_constant : forall i f n b, made i f -> (forall e, sem f e = b) -> within n f -> patron_int f n = Ok (if b then 2 ^ 2 ^ n - 2 else 0).
Proof.
  intros i f n b M S W. apply within_adicity in W. destruct (patron_int_spec f n (m_fit i f M) W) as (p & E & Hp & _ & B). rewrite E. f_equal.
  assert (T : forall j, tab f j = b) by (intro j; apply S). destruct b.
  - change (2 ^ 2 ^ n - 2) with (but_first n). apply Nat.bits_inj. intro j. rewrite but_first_bit. destruct (Nat.ltb_spec j (2 ^ n)) as [Hj|Hj]; [|apply (bit_bound_lt p _ Hp j Hj)].
    rewrite (B j Hj), T. rewrite (anf_ext n (tab f) (fun _ => true) j) by (intros; apply T). cbn [andb].
    assert (X : anf n (fun _ => true) j = Nat.eqb 0 j); [|rewrite X; destruct (Nat.eqb 0 j); reflexivity].
    clear - Hj. revert j Hj. induction n as [|n IH]; intros j Hj; [cbn in Hj; assert (j = 0) by lia; subst; reflexivity|].
    destruct (Nat.lt_ge_cases j (2 ^ n)) as [Hl|Hl]; [rewrite anf_low by exact Hl; apply IH, Hl|].
    replace j with ((j - 2 ^ n) + 2 ^ n) at 1 by lia. rewrite anf_high by (cbn in Hj; lia). rewrite xorb_nilpotent. symmetry. apply Nat.eqb_neq. assert (Hp := pow2_pos n). lia.
  - apply Nat.bits_inj. intro j. rewrite Nat.bits_0. destruct (Nat.lt_ge_cases j (2 ^ n)) as [Hj|Hj]; [|apply (bit_bound_lt p _ Hp j Hj)].
    rewrite (B j Hj), T. rewrite xorb_false_l. unfold anf. apply xor_all_zero. intros k _. rewrite T. apply andb_false_r.
Qed.
Print Assumptions C102_patron_constant.

(** the index of the patron at the next arity is the number of the table *)
Theorem C102_patron_index : forall i f n, made i f -> within n f ->
  exists t k, boolf_tt f (TtArity n) = Ok t /\ patron_index f (S n) = Ok k /\ binv_intval t = k /\ forall j, j < 2 ^ n -> Nat.testbit k j = value f j.
Proof.
  intros i f n M W. apply within_adicity in W. assert (Hf := m_fit i f M). destruct (patron_int_spec f (S n) Hf ltac:(lia)) as (p & E & Hp & O & B).
  exists (map (tab f) (range (2 ^ n))), (p / 2 ^ 2 ^ n). split; [apply tt_spec; assumption|]. split; [unfold patron_index; rewrite E; cbn [bind]; apply noble_to_index_spec; assumption|].
  assert (X : forall j, j < 2 ^ n -> Nat.testbit (p / 2 ^ 2 ^ n) j = tab f j).
  { intros j Hj. rewrite <- testbit_high_half, B by (cbn; lia). rewrite anf_high by exact Hj.
    rewrite (anf_ext n (fun k => tab f (k + 2 ^ n)) (tab f) j) by (intros k Hk; unfold tab; apply (sem_low f n _ _ W); intros a Ha; apply Proof_Numbers.testbit_add_high; exact Ha).
    rewrite xorb_nilpotent, xorb_false_r. unfold tab. apply (sem_low f n _ _ W). intros a Ha. apply Proof_Numbers.testbit_add_high. exact Ha. }
  split; [|exact X]. rewrite binv_intval_eq. apply Nat.bits_inj. intro j. destruct (Nat.lt_ge_cases j (2 ^ n)) as [Hj|Hj]; [rewrite X by exact Hj; apply (place_bits (tab f)), Hj|].
  rewrite (bit_bound_lt _ (2 ^ n)); [|assert (Y := b2n_lt (map (tab f) (range (2 ^ n)))); rewrite map_length, range_length in Y; exact Y | exact Hj]. symmetry. apply (bit_bound_lt _ (2 ^ n)); [|exact Hj].
  apply Nat.div_lt_upper_bound; [apply Nat.pow_nonzero; lia|]. rewrite <- Nat.pow_add_r. replace (2 ^ n + 2 ^ n) with (2 ^ S n) by (cbn; lia). exact Hp.
Qed.
Print Assumptions C102_patron_index.

(** the royal of the patron: a noble of quadrant 0 that differs from the patron as the quadrant says *)
Theorem C102_patron_royal : forall i f n, made i f -> within (S n) f ->
  exists p r q, patron_int f (S n) = Ok p /\ patron_royal f (S n) = Ok r /\ patron_quadrant f (S n) = Ok q /\ own_twin (S n) r /\ r < 2 ^ 2 ^ S n /\ noble_to_quadrant r (S n) = Ok 0 /\
    forall j, j < 2 ^ S n -> xorb (Nat.testbit r j) (Nat.testbit p j) =
      match q with 0 => false | 1 => negb (j =? 0) && negb (j =? 2 ^ S n - 1) | 2 => j =? 2 ^ S n - 1 | _ => negb (j =? 0) end.
Proof.
  intros i f n M W. apply within_adicity in W. destruct (patron_int_spec f (S n) (m_fit i f M) W) as (p & E & Hp & O & _). destruct (C33_royal n p Hp O) as (r & q & _ & Er & Eq & Hr & Or & Q & D).
  exists p, r, q. unfold patron_royal, patron_quadrant. rewrite E. cbn [bind]. auto 10.
Qed.
Print Assumptions C102_patron_royal.

(** the prefect of the patron at the next arity: that of the function, with the new atom added and
    the constant changed iff the function is sharp *)
Theorem C102_patron_prefect : forall i f n, made i f -> within n f ->
  exists g s w q, patron_boolf f (S n) = Ok g /\ is_sharp f n = Ok s /\ prefect_walsh_and_oddness f = Ok (w, q) /\
    prefect_walsh_and_oddness g = Ok (if s then w + 2 ^ n else w, xorb q s).
Proof.
  intros i f n M W. apply within_adicity in W. assert (Hf := m_fit i f M). assert (W' : adicity f <= S n) by lia.
  destruct (patron_int_spec f (S n) Hf W') as (p & E & Hp & O & B). destruct (patron_boolf_spec f (S n) Hf W') as (g & Eg & Rg & Ag & Tg).
  destruct (boolf_zhe_spec f Hf) as (z & Ez & Lz & Zz & _). exists g, (sharp f n), (prefect_w z), (prefect_q z). split; [exact Eg|]. split; [apply sharp_spec; assumption|]. split; [apply prefect_index_spec; assumption|].
  assert (Ep : boolf_zhe g = Ok p).
  { destruct (boolf_zhe_spec g (proj1 Rg)) as (y & Ey & _ & _ & Sy). rewrite Ey. f_equal. apply zhegalkin_inj. intro e. rewrite Sy. symmetry. apply (noble_zhegalkin (S n) g p Ag Hp O). intros j Hj. rewrite Tg, B by exact Hj. reflexivity. }
  rewrite (prefect_index_spec g p (proj1 Rg) Ep). specialize (Zz n W).
  assert (Hz : z < 2 ^ 2 ^ n) by (eapply Nat.lt_le_trans; [exact Lz|]; apply Nat.pow_le_mono_r; [lia|]; apply Nat.pow_le_mono_r; lia).
  assert (V : forall F, over F p = xorb (over F z) (xor_all (map (fun j => tab f j && xorb (F j) (F (2 ^ n + j))) (seq 0 (2 ^ n))))).
  { intro F. rewrite (over_patron F f n p W Hp B). f_equal. rewrite (over_bound F z _ Hz). apply xor_all_ext. intros j Hj. apply in_seq in Hj. f_equal. rewrite Zz. symmetry. apply (place_bits (anf n (tab f))). lia. }
  assert (Hw : prefect_w z < 2 ^ n) by (apply lxor_all_lt; intros x Hx; apply (ones_lt _ _ _ Hz Hx)).
  assert (Ew : prefect_w p = if sharp f n then prefect_w z + 2 ^ n else prefect_w z).
  { assert (L : Nat.land (prefect_w z) (2 ^ n) = 0). { apply Nat.bits_inj. intro a. rewrite Nat.land_spec, Nat.bits_0, Nat.pow2_bits_eqb. destruct (Nat.eqb_spec n a) as [<-|]; [|apply andb_false_r]. rewrite (bit_bound_lt _ n Hw n (le_n n)). reflexivity. }
    apply Nat.bits_inj. intro a. rewrite prefect_w_bit, V, <- prefect_w_bit.
    assert (X : xor_all (map (fun j => tab f j && xorb (Nat.testbit j a) (Nat.testbit (2 ^ n + j) a)) (seq 0 (2 ^ n))) = sharp f n && Nat.eqb n a).
    { unfold sharp. destruct (Nat.eqb_spec n a) as [<-|Hn].
      - rewrite andb_true_r. apply xor_all_ext. intros j Hj. apply in_seq in Hj. assert (Hj' : j < 2 ^ n) by lia. rewrite (bit_bound_lt j n Hj' n (le_n n)), xorb_false_l.
        rewrite Nat.add_comm. rewrite <- (Nat.mul_1_l (2 ^ n)). rewrite Nat.testbit_eqb, Nat.div_add, Nat.div_small by lia. apply andb_true_r.
      - rewrite andb_false_r. apply xor_all_zero. intros j Hj. apply in_seq in Hj. assert (Hj' : j < 2 ^ n) by lia.
        assert (Lj : Nat.land (2 ^ n) j = 0). { apply Nat.bits_inj. intro b. rewrite Nat.land_spec, Nat.bits_0, Nat.pow2_bits_eqb. destruct (Nat.eqb_spec n b) as [<-|]; [|reflexivity]. rewrite (bit_bound_lt j n Hj' n (le_n n)). reflexivity. }
        rewrite (Nat.add_nocarry_lxor _ _ Lj), Nat.lxor_spec, Nat.pow2_bits_eqb, (proj2 (Nat.eqb_neq n a) Hn), xorb_false_l, xorb_nilpotent. apply andb_false_r. }
    rewrite X. destruct (sharp f n); cbn [andb]; [|apply xorb_false_r]. rewrite (Nat.add_nocarry_lxor _ _ L), Nat.lxor_spec, Nat.pow2_bits_eqb. reflexivity. }
  assert (Eq : prefect_q p = xorb (prefect_q z) (sharp f n)).
  { rewrite !prefect_q_over, V. f_equal. unfold sharp. apply xor_all_ext. intros j Hj. apply in_seq in Hj. rewrite count_high by lia. rewrite Nat.even_succ, <- Nat.negb_even. destruct (Nat.even (count_ones j)); apply andb_true_r. }
  rewrite Ew, Eq. reflexivity.
Qed.
Print Assumptions C102_patron_prefect.

(** the tests of the project (arity 2) find the oddness of that prefect to be the oddness of the
    function; with three atoms this is false *)
Theorem C102_oddness_refuted : exists f n g w, made false f /\ within n f /\ patron_boolf f (S n) = Ok g /\ prefect_walsh_and_oddness g = Ok (w, true) /\ is_odd f = false.
Proof.
  exists Props_Boolf.ex_and, 3. destruct (patron_boolf Props_Boolf.ex_and 4) as [g|] eqn:E; [|vm_compute in E; discriminate E]. exists g, 3. split; [apply Props_Boolf.ex_and_made|].
  split; [intros a [<-|[<-|[]]]; lia|]. split; [reflexivity|]. split; [|reflexivity]. vm_compute in E. injection E as <-. vm_compute. reflexivity.
Qed.
Print Assumptions C102_oddness_refuted.

(** README of the prefect: Zhegalkin number 123; tests of the patron *)
Example C102_example : zhe_to_prefect 123 3 = Ok (5, false) /\ zhe_to_prefect 256 3 = Err BinvLengthError /\ zhe_exposet_to_prefect_gen [0; 1; 3; 4; 5; 6] 3 = Ok [1; 3; 4; 6] /\
  patron_int ex_king 3 = Ok 200 /\ patron_royal ex_king 3 = Ok 72 /\ patron_index ex_king 4 = Ok 50 /\ is_sharp ex_king 3 = Ok true /\ prefect_walsh_and_oddness ex_king = Ok (2, true) /\
  (let* g := patron_boolf ex_king 4 in prefect_walsh_and_oddness g) = Ok (10, false).
Proof. repeat (split; [vm_compute; reflexivity|]). vm_compute; reflexivity. Qed.
(** an object with a redundant atom: x0 = x1, with the atoms 0, 1, 2 *)
Example C102_ex_inflated : exists f g, made true f /\ valency f = 3 /\ root f = [true; false; false; true; true; false; false; true] /\
  prefect_boolf f = Ok g /\ valency g = 2 /\ root g = [true; false; false; true].
Proof.
  set (a := mkArgs (Some (TtVector [1; 0; 0; 1; 1; 0; 0; 1]%Z)) None None None None None None None None None None true).
  destruct (Boolf 1 a) as [f|e] eqn:E; [|vm_compute in E; discriminate].
  assert (M : made true f) by (apply (made_by true 1 a); [reflexivity | intros x [] | exact E]).
  vm_compute in E. injection E as <-. eexists _, _. split; [exact M|]. repeat split; vm_compute; reflexivity.
Qed.

(** ** C51_leader (Props_BoolfMore) for all objects, also those with redundant atoms *)
Lemma made_weaken i f : made false f -> made i f.
Proof.
  intro M. induction M as [n a f S E IH B]. apply (made_by i n a f); [intro F; specialize (S F); discriminate | exact IH | exact B].
Qed.

Theorem C51_leader_inflated : forall i f n, made i f -> within n f ->
  exists g, leader f (Some n) = Ok g /\ made i g /\ within n g /\ quadrant g = 0 /\
    forall j, j < 2 ^ n -> xorb (value g j) (value f j) =
      match quadrant f with 0 => false | 1 => j =? 0 | 2 => negb (j =? 0) | _ => true end.
Proof.
  intros i f n M W. assert (Hf := m_fit i f M). apply within_adicity in W as Hn.
  assert (X : exists g, leader f (Some n) = Ok g /\ made i g /\ fitting g /\ adicity g <= n /\ forall j, j < 2 ^ n -> tab g j = xorb (tab f j) (leader_diff (quadrant f) j)).
  { assert (Red : forall g, reduced g -> made i g) by (intros g R; apply made_weaken, reduced_made, R).
    unfold leader. destruct (quadrant f) as [|[|[|q]]]; cbn [leader_diff].
    - exists f. split; [reflexivity|]. split; [exact M|]. split; [exact Hf|]. split; [exact Hn|]. intros j _. symmetry. apply xorb_false_r.
    - destruct (twin_not_twin f n Hf Hn) as [g [h [k [Eg [Eh [Ek [Rk [Ak Tk]]]]]]]]. exists k. rewrite Eg. cbn [bind]. rewrite Eh. cbn [bind].
      split; [exact Ek|]. split; [apply Red, Rk|]. split; [apply Rk|]. split; [exact Ak | exact Tk].
    - destruct (not_spec f Hf) as [c [Ec [Rc Sc]]]. rewrite Ec. cbn [bind].
      assert (Ac : adicity c <= n) by (apply (adicity_le c n Rc); intros e e' He; rewrite !Sc; f_equal; apply (sem_low f n e e' Hn He)).
      destruct (twin_not_twin c n (proj1 Rc) Ac) as [g [h [k [Eg [Eh [Ek [Rk [Ak Tk]]]]]]]]. exists k. rewrite Eg. cbn [bind]. rewrite Eh. cbn [bind].
      split; [exact Ek|]. split; [apply Red, Rk|]. split; [apply Rk|]. split; [exact Ak|]. intros j Hj. rewrite Tk by exact Hj. unfold tab at 1. rewrite Sc. fold (tab f j). destruct (tab f j), (j =? 0); reflexivity.
    - destruct (not_spec f Hf) as [c [Ec [Rc Sc]]]. exists c. split; [exact Ec|]. split; [apply Red, Rc|]. split; [apply Rc|]. split.
      + apply (adicity_le c n Rc). intros e e' He. rewrite !Sc. f_equal. apply (sem_low f n e e' Hn He).
      + intros j _. unfold tab at 1. rewrite Sc. symmetry. apply xorb_true_r. }
  destruct X as (g & E & Mg & Fg & A & T). exists g. split; [exact E|]. split; [exact Mg|]. split; [apply within_adicity, A|]. split.
  - assert (Hp := pow2_pos n). rewrite (quadrant_tab g n Fg A), !T by lia. rewrite (quadrant_tab f n Hf Hn). destruct n as [|n].
    + change (2 ^ 0 - 1) with 0. destruct (tab f 0); reflexivity.
    + assert (E0 : (2 ^ S n - 1 =? 0) = false) by (apply Nat.eqb_neq; assert (H2 := pow2_pos n); cbn; lia).
      destruct (tab f 0), (tab f (2 ^ S n - 1)); cbn [Nat.b2n Nat.add Nat.mul leader_diff]; rewrite ?E0; reflexivity.
  - intros j Hj. assert (Tj := T j Hj). unfold tab in Tj. unfold value. rewrite Tj. fold (leader_diff (quadrant f) j). destruct (sem f (Nat.testbit j)), (leader_diff (quadrant f) j); reflexivity.
Qed.
Print Assumptions C51_leader_inflated.

Example C51_ex_leader_inflated : exists f g, made true f /\ root f = [false; false; true; true; false; false; true; true] /\ quadrant f = 2 /\
  leader f (Some 3) = Ok g /\ root g = [false; true; false; false; true; true; false; false] /\ quadrant g = 0.
Proof.
  set (a := mkArgs (Some (TtVector [0; 0; 1; 1; 0; 0; 1; 1]%Z)) None None None None None None None None None None true).
  destruct (Boolf 1 a) as [f|e] eqn:E; [|vm_compute in E; discriminate].
  assert (M : made true f) by (apply (made_by true 1 a); [reflexivity | intros x [] | exact E]).
  vm_compute in E. injection E as <-. eexists _, _. split; [exact M|]. repeat split; vm_compute; reflexivity.
Qed.
