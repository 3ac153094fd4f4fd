(** Props_SigArray: property C106, the array of signed permutations, transposed matrices and the products of
    unmoved and unsigned permutations (sig_perm/README.md). *)

From Coq Require Import List Arith ZArith Bool Lia Permutation Factorial.
From Verif Require Import Model_Base Lib Proof_Binary Model_Perm Model_Binary Model_SigPerm Spec_Perm Spec_SigPerm.
From Verif Require Import Proof_Perm Proof_PermGroup Proof_Inversions Proof_PermMore Proof_Listing Proof_SigPerm Proof_SigPermMore Proof_SigPermOps Props_SigPerm.
Import ListNotations.
Local Open Scope nat_scope.

Lemma left_rank_same p q : wf p -> perilen p = None -> wf q -> perilen q = None -> (forall k, pget p k = pget q k) -> left_rank p = left_rank q.
Proof.
  intros Hp Np Hq Nq H. rewrite (left_rank_long p (Nat.max (plength p) (plength q))), (left_rank_long q (Nat.max (plength p) (plength q))) by (assumption || lia).
  do 3 f_equal. apply map_ext. exact H.
Qed.

Lemma sg_pair_same a b : swf a -> swf b -> (forall k, sf a k = sf b k) -> sg_pair a = sg_pair b.
Proof.
  intros Ha Hb H. apply sf_eq_parts in H as [H1 H2]; [|assumption..]. unfold sg_pair, sg_perm_index.
  rewrite (left_rank_same (sg_perm a) (sg_perm b)); [|apply Ha|apply Ha|apply Hb|apply Hb|exact H1].
  destruct (left_rank (sg_perm b)) as [j|e]; [|reflexivity]. cbn [bind]. do 2 f_equal. apply Nat.bits_inj. intro k. unfold sg_valneg_index.
  rewrite !binv_intval_eq, !testbit_b2n. apply H2.
Qed.

Lemma pair_sf i j p s : int_to_perm j = Ok p -> SigPerm_pair i j = Ok s -> swf s /\ forall k, sf s k = Proof_SigPerm.lit (pget p k) (Nat.testbit i (pget p k)).
Proof.
  intros Ep Es. destruct (pair_spec i j) as [s' [Es' [Hs _]]]. rewrite Es in Es'. injection Es' as <-. split; [exact Hs|].
  rewrite pair_form in Es. destruct (Binv_int_min i) as [v [Ev [Hv Hl]]]. rewrite Ev in Es. cbn [bind] in Es. rewrite Ep in Es. cbn [bind] in Es. injection Es as <-.
  destruct (rank_roundtrip j) as [p2 [E2 [H2 [H3 _]]]]. assert (p2 = p) by congruence. subst p2.
  destruct (sig_finish_spec v p (is_Perm_wf p H2) H3) as [_ [Hb _]]. intro k. unfold sf. rewrite Hb. cbn [sg_perm sig_finish]. rewrite (intval_bits v _ Hv). reflexivity.
Qed.

Lemma unmoved : exists p, int_to_perm 0 = Ok p /\ forall k, pget p k = k.
Proof. destruct (rank_roundtrip 0) as [p [E [Hp [Hn R]]]]. exists p. split; [exact E|]. intro k. apply (proj2 (factorial_count p 0 0 Hp Hn R)); [apply lt_O_fact | lia]. Qed.

(** the pair of numbers: the image of k is that of the numbered permutation, negated if the bit of the image is 1 *)
Theorem C106_pair_acts : forall i j p s, int_to_perm j = Ok p -> SigPerm_pair i j = Ok s ->
  acts s (fun k => let v := pget p k in if Nat.testbit i v then neg (Z.of_nat v) else Z.of_nat v).
Proof. intros i j p s Ep Es. destruct (pair_sf i j p s Ep Es) as [Hs H]. apply (proj2 (acts_sf _ Hs _)). intro k. rewrite H. reflexivity. Qed.
Print Assumptions C106_pair_acts.

(** every signed permutation of n elements has one place in the array with 2^n rows and n! columns *)
Theorem C106_array : forall n,
  (forall s, is_SigPerm s -> exists i j, sg_pair s = Ok (i, j) /\ (sg_length s <= n <-> i < 2 ^ n /\ j < fact n)) /\
  (forall i j, exists s, SigPerm_pair i j = Ok s /\ is_SigPerm s /\ (sg_length s <= n <-> i < 2 ^ n /\ j < fact n)) /\
  (forall a b f g, is_SigPerm a -> is_SigPerm b -> acts a f -> acts b g -> (sg_pair a = sg_pair b <-> forall k, f k = g k)).
Proof.
  intro n.
  assert (K : forall i j s, SigPerm_pair i j = Ok s -> (sg_length s <= n <-> i < 2 ^ n /\ j < fact n)).
  { intros i j s Es. destruct (rank_roundtrip j) as [p [Ep [Hp [Hn Rj]]]]. destruct (pair_sf i j p s Ep Es) as [Hs H].
    rewrite (length_least s Hs n), <- (factorial_count p n j Hp Hn Rj). split.
    - intro X. assert (A : forall x, n <= x -> pget p x = x /\ Nat.testbit i x = false).
      { intros x Hx. assert (Y := X x Hx). assert (Pa := f_equal atom Y). rewrite H, atom_lit, atom_nat in Pa. rewrite H, Pa in Y. split; [exact Pa|]. assert (Z := f_equal negated Y). rewrite negated_lit, negated_nat in Z. exact Z. }
      split; [|intros x Hx; apply A, Hx]. apply bits_lt_pow. intros x Hx. apply A, Hx.
    - intros [Hi Hx] k Hk. rewrite H, (Hx k Hk). rewrite testbit_high; [reflexivity|]. apply (Nat.lt_le_trans _ _ _ Hi). apply Nat.pow_le_mono_r; lia. }
  split; [|split].
  - intros s H. apply is_SigPerm_swf in H. destruct (pair_back s H) as [i [j [s' [E [E' X]]]]]. exists i, j. split; [exact E|].
    rewrite <- (K i j s' E'). destruct (pair_spec i j) as [s2 [E2 [H2 _]]]. assert (s2 = s') by congruence. subst s2. rewrite (sg_length_ext s' s H2 H X). reflexivity.
  - intros i j. destruct (C13_pair i j) as [s [E [H _]]]. exists s. split; [exact E|]. split; [exact H|]. apply K, E.
  - intros a b f g Ha Hb Hf Hg. apply is_SigPerm_swf in Ha. apply is_SigPerm_swf in Hb. to_sf Ha Hf. to_sf Hb Hg. split.
    + intros E k. rewrite Hf, Hg. destruct (pair_back a Ha) as [i [j [s [E1 [E2 X]]]]]. destruct (pair_back b Hb) as [i' [j' [s' [E1' [E2' X']]]]].
      rewrite E, E1' in E1. injection E1 as <- <-. rewrite E2 in E2'. injection E2' as <-. rewrite <- X, <- X'. reflexivity.
    + intro X. apply sg_pair_same; [assumption..|]. intro k. rewrite <- Hf, <- Hg. apply X.
Qed.
Print Assumptions C106_array.

(** unmoved * unsigned: the negators belong to the rows, that is to the values *)
Theorem C106_unmoved_unsigned : forall m r, exists a b c s, SigPerm_pair m 0 = Ok a /\ SigPerm_pair 0 r = Ok b /\ sg_mul a b = Ok c /\ SigPerm_pair m r = Ok s /\
  sg_eqb c s = true /\ sg_pair c = Ok (m, r).
Proof.
  intros m r. destruct (pair_spec m 0) as [a [Ea [Ha _]]]. destruct (pair_spec 0 r) as [b [Eb [Hb _]]]. destruct (pair_spec m r) as [s [Es [Hs [Ts Ps]]]].
  destruct (mul_spec a b Ha Hb) as [c [Ec [Hc [Tc F]]]]. exists a, b, c, s. do 4 (split; [assumption|]).
  destruct unmoved as [q [Eq Iq]]. destruct (rank_roundtrip r) as [p [Ep _]].
  assert (X : forall k, sf c k = sf s k).
  { intro k. rewrite F, (proj2 (pair_sf 0 r p b Ep Eb)), (proj2 (pair_sf m r p s Ep Es)). rewrite Nat.bits_0. cbn [Proof_SigPerm.lit]. unfold on_literals. rewrite negated_nat, atom_nat.
    rewrite (proj2 (pair_sf m 0 q a Eq Ea)), Iq. reflexivity. }
  split; [apply sg_eqb_complete; assumption|]. rewrite (sg_pair_same c s Hc Hs X). exact Ps.
Qed.
Print Assumptions C106_unmoved_unsigned.

(** unsigned * unmoved: the negators belong to the columns, that is to the keys *)
Theorem C106_unsigned_unmoved : forall m r, exists a b c, SigPerm_pair 0 r = Ok a /\ SigPerm_pair m 0 = Ok b /\ sg_mul a b = Ok c /\
  sg_keyneg_index c = Ok m /\ sg_perm_index c = Ok r /\ exists p, int_to_perm r = Ok p /\ forall k, Nat.testbit (sg_valneg_index c) (pget p k) = Nat.testbit m k.
Proof.
  intros m r. destruct (pair_spec 0 r) as [a [Ea [Ha _]]]. destruct (pair_spec m 0) as [b [Eb [Hb _]]]. destruct (mul_spec a b Ha Hb) as [c [Ec [Hc [Tc F]]]].
  exists a, b, c. do 3 (split; [assumption|]). destruct unmoved as [q [Eq Iq]]. destruct (rank_roundtrip r) as [p [Ep [Hp [Hn Rr]]]].
  assert (X : forall k, sf c k = Proof_SigPerm.lit (pget p k) (Nat.testbit m k)).
  { intro k. rewrite F, (proj2 (pair_sf m 0 q b Eq Eb)), Iq. unfold on_literals. rewrite negated_lit, atom_lit. rewrite (proj2 (pair_sf 0 r p a Ep Ea)), Nat.bits_0. destruct (Nat.testbit m k); reflexivity. }
  split; [|split].
  - destruct (keyneg_index_spec c Hc) as [n [E H]]. rewrite E. f_equal. apply Nat.bits_inj. intro k. rewrite H, X. apply negated_lit.
  - unfold sg_perm_index. rewrite (left_rank_same (sg_perm c) p); [exact Rr | apply Hc | apply Hc | apply is_Perm_wf, Hp | exact Hn|]. intro k. rewrite <- sf_atom, X. apply atom_lit.
  - exists p. split; [exact Ep|]. intro k. assert (Y := valneg_index_spec c k). rewrite X, atom_lit, negated_lit in Y. exact Y.
Qed.
Print Assumptions C106_unsigned_unmoved.

(** the inverse has the transposed matrix, at each sufficient size *)
Theorem C106_transposed : forall s t n, is_SigPerm s -> sg_inv s = Ok t -> sg_length s <= n ->
  sg_length t = sg_length s /\ exists m m', sg_matrix s (Some n) = Ok m /\ sg_matrix t (Some n) = Ok m' /\ length m' = n /\ (forall row, In row m' -> length row = n) /\
    forall i j, i < n -> j < n -> nth j (nth i m' []) 0%Z = nth i (nth j m []) 0%Z.
Proof.
  intros s t n H E Hn. apply is_SigPerm_swf in H. destruct (inv_spec s H) as [t' [E' [Ht [_ [L [I1 [I2 _]]]]]]]. rewrite E in E'. injection E' as <-.
  split; [exact L|]. exists (fmat n (sf s)), (fmat n (sf t)). split; [apply matrix_ok; assumption|]. split; [apply matrix_ok; [exact Ht | lia]|].
  split; [apply mkmat_length|]. split; [intros row Hr; apply in_map_iff in Hr as [i [<- _]]; rewrite map_length, range_length; reflexivity|].
  intros i j Hi Hj. rewrite <- (transpose_ok n (sf s) (sf t)); [| intros k Hk; apply sf_stays; (assumption || lia) .. | intros k _; apply I1 | intros k _; apply I2].
  apply (mkmat_entry n (fun i j => mat_entry (fmat n (sf s)) j i)); assumption.
Qed.
Print Assumptions C106_transposed.

(** README: (6, 0) after (0, 3) is (6, 3); (0, 4) after (6, 0) is (5, 4), the inverse of (6, 3) *)
Definition ex_6_3 : res sigperm := let* a := SigPerm_pair 6 0 in let* b := SigPerm_pair 0 3 in sg_mul a b.
Definition ex_5_4 : res sigperm := let* a := SigPerm_pair 0 4 in let* b := SigPerm_pair 6 0 in sg_mul a b.
Example C106_ex : (let* c := ex_6_3 in sg_pair c) = Ok (6, 3) /\ (let* c := ex_6_3 in sg_sequence c None) = Ok [-3; 0; -2]%Z /\
  (let* c := ex_5_4 in sg_pair c) = Ok (5, 4) /\ (let* c := ex_5_4 in sg_keyneg_index c) = Ok 6 /\
  (let* c := ex_6_3 in let* t := sg_inv c in sg_pair t) = Ok (5, 4) /\ (let* c := ex_6_3 in let* t := sg_inv c in Ok (sg_length c, sg_length t)) = Ok (3, 3) /\
  (let* c := ex_6_3 in sg_matrix c None) = Ok [[0; 1; 0]; [0; 0; -1]; [-1; 0; 0]]%Z /\ (let* c := ex_5_4 in sg_matrix c None) = Ok [[0; 0; -1]; [1; 0; 0]; [0; -1; 0]]%Z.
Proof. vm_compute. repeat split. Qed.
