(** Proof_Prefect: prefects as XOR over the monomials; prefects of sums, of linear functions and of patrons. *)

From Coq Require Import List Arith ZArith Bool Lia Permutation Sorted Factorial.
From Verif Require Import Model_Base Lib Model_Binary Model_Twin Model_Boolf Model_BoolfMore Model_WalshPerm
  Spec_Bits Spec_SigPerm Spec_Boolf Spec_Twin Proof_Binary Proof_Deflate Proof_Boolf Proof_BoolfTable Proof_Twin Proof_BoolfMake Proof_WalshLinear Proof_WalshIndex Proof_WalshMore Proof_Noble Proof_BoolfMore Proof_Foibles
  Proof_King.
From Verif Require Proof_Numbers.
Import ListNotations.
Local Open Scope nat_scope.

Definition over (F : nat -> bool) (z : nat) : bool := xor_all (map F (ones z)).
Lemma over_bound F z N : z < 2 ^ N -> over F z = xor_all (map (fun k => Nat.testbit z k && F k) (seq 0 N)).
Proof. intro H. unfold over. rewrite (ones_bound _ _ H), xor_all_filter. reflexivity. Qed.
Lemma over_lxor F a b : over F (Nat.lxor a b) = xorb (over F a) (over F b).
Proof.
  set (N := a + b). assert (Ha : a < 2 ^ N) by (apply (Nat.le_lt_trans _ N); [lia | apply Nat.pow_gt_lin_r; lia]). assert (Hb : b < 2 ^ N) by (apply (Nat.le_lt_trans _ N); [lia | apply Nat.pow_gt_lin_r; lia]).
  rewrite (over_bound F _ N (lxor_lt _ _ _ Ha Hb)), (over_bound F a N Ha), (over_bound F b N Hb), <- xor_all_xorb. apply xor_all_ext. intros k _. rewrite Nat.lxor_spec.
  destruct (Nat.testbit a k), (Nat.testbit b k), (F k); reflexivity.
Qed.
Lemma over_pow F k : over F (2 ^ k) = F k.
Proof.
  assert (E : ones (2 ^ k) = [k]). { apply sorted_lt_ext; [apply ones_ascending | repeat constructor|]. intro i. rewrite ones_In, Nat.pow2_bits_eqb, Nat.eqb_eq. cbn. intuition lia. }
  unfold over. rewrite E. cbn. apply xorb_false_r.
Qed.
Lemma over_0 F : over F 0 = false.
Proof. reflexivity. Qed.

Lemma prefect_w_bit z i : Nat.testbit (prefect_w z) i = over (fun k => Nat.testbit k i) z.
Proof. apply lxor_all_bit. Qed.
Lemma prefect_q_over z : prefect_q z = over (fun k => Nat.even (count_ones k)) z.
Proof. reflexivity. Qed.
Lemma prefect_w_lxor a b : prefect_w (Nat.lxor a b) = Nat.lxor (prefect_w a) (prefect_w b).
Proof. apply Nat.bits_inj. intro i. rewrite Nat.lxor_spec, !prefect_w_bit. apply over_lxor. Qed.
Lemma prefect_q_lxor a b : prefect_q (Nat.lxor a b) = xorb (prefect_q a) (prefect_q b).
Proof. apply over_lxor. Qed.
Lemma prefect_w_pow k : prefect_w (2 ^ k) = k.
Proof. apply Nat.bits_inj. intro i. rewrite prefect_w_bit. apply (over_pow (fun j => Nat.testbit j i)). Qed.
Lemma prefect_q_pow k : prefect_q (2 ^ k) = Nat.even (count_ones k).
Proof. exact (over_pow (fun j => Nat.even (count_ones j)) k). Qed.

Lemma zhegalkin_lxor a b e : zhegalkin (Nat.lxor a b) e = xorb (zhegalkin a e) (zhegalkin b e).
Proof. apply (over_lxor (fun k => monomial k e)). Qed.

(** the Zhegalkin number of a linear function *)
Definition lin_zhe (l : list nat) (q : bool) : nat := fold_right (fun i z => Nat.lxor (2 ^ 2 ^ i) z) (Nat.b2n q) l.
Lemma zhegalkin_lin l q e : zhegalkin (lin_zhe l q) e = xorb (xor_all (map e l)) q.
Proof.
  induction l as [|i l IH]; [destruct q; reflexivity|]. cbn [lin_zhe fold_right map]. fold (lin_zhe l q). rewrite zhegalkin_lxor, IH.
  assert (E : zhegalkin (2 ^ 2 ^ i) e = e i).
  { unfold zhegalkin. change (xor_all (map (fun k => monomial k e) (ones (2 ^ 2 ^ i)))) with (over (fun k => monomial k e) (2 ^ 2 ^ i)). rewrite over_pow. unfold monomial.
    assert (Eo : ones (2 ^ i) = [i]). { apply sorted_lt_ext; [apply ones_ascending | repeat constructor|]. intro j. rewrite ones_In, Nat.pow2_bits_eqb, Nat.eqb_eq. cbn. intuition lia. }
    rewrite Eo. cbn. apply andb_true_r. }
  rewrite E. cbn. rewrite xorb_assoc. reflexivity.
Qed.
Lemma prefect_w_lin l q : prefect_w (lin_zhe l q) = fold_right (fun i w => Nat.lxor (2 ^ i) w) 0 l.
Proof.
  induction l as [|i l IH]; [destruct q; reflexivity|]. cbn [lin_zhe fold_right]. fold (lin_zhe l q). rewrite prefect_w_lxor, prefect_w_pow, IH. reflexivity.
Qed.
Lemma prefect_q_lin l q : prefect_q (lin_zhe l q) = q.
Proof.
  induction l as [|i l IH]; [destruct q; reflexivity|]. cbn [lin_zhe fold_right]. fold (lin_zhe l q). rewrite prefect_q_lxor, prefect_q_pow, IH.
  assert (Eo : ones (2 ^ i) = [i]). { apply sorted_lt_ext; [apply ones_ascending | repeat constructor|]. intro j. rewrite ones_In, Nat.pow2_bits_eqb, Nat.eqb_eq. cbn. intuition lia. }
  unfold count_ones. fold (ones (2 ^ i)). rewrite Eo. apply xorb_false_l.
Qed.
Lemma fold_pow_bit l j : NoDup l -> Nat.testbit (fold_right (fun i w => Nat.lxor (2 ^ i) w) 0 l) j = existsb (Nat.eqb j) l.
Proof.
  induction 1 as [|x l N H IH]; [apply Nat.bits_0|]. cbn [fold_right existsb]. rewrite Nat.lxor_spec, IH, Nat.pow2_bits_eqb, (Nat.eqb_sym j). destruct (Nat.eqb_spec x j) as [->|]; [|apply xorb_false_l].
  destruct (existsb (Nat.eqb j) l) eqn:E; [|reflexivity]. apply existsb_exists in E as (y & Hy & E). apply Nat.eqb_eq in E. subst. contradiction.
Qed.
Lemma fold_pow_ones w : fold_right (fun i v => Nat.lxor (2 ^ i) v) 0 (ones w) = w.
Proof.
  apply Nat.bits_inj. intro j. rewrite fold_pow_bit by apply sorted_lt_NoDup, ones_ascending. apply bool_iff. rewrite existsb_exists. split.
  - intros (x & Hx & E). apply Nat.eqb_eq in E. subst. apply ones_In, Hx.
  - intro H. exists j. split; [apply ones_In, H | apply Nat.eqb_refl].
Qed.

(** a function whose values are XORs of some atoms and a constant: its prefect is given by these *)
Lemma prefect_linear f w q : fitting f -> (forall e, sem f e = xorb (xor_all (map e (ones w))) q) -> prefect_walsh_and_oddness f = Ok (w, q).
Proof.
  intros Hf S. destruct (boolf_zhe_spec f Hf) as (z & E & _ & _ & Z). rewrite (prefect_index_spec f z Hf E).
  assert (Ez : z = lin_zhe (ones w) q) by (apply zhegalkin_inj; intro e; rewrite Z, S, zhegalkin_lin; reflexivity). rewrite Ez, prefect_w_lin, prefect_q_lin, fold_pow_ones. reflexivity.
Qed.

Lemma zhe_prefect z n : z < 2 ^ 2 ^ n -> zhe_to_prefect z n = Ok (prefect_w z, prefect_q z).
Proof.
  intro Hz. assert (Hp := pow2_pos n). unfold zhe_to_prefect. destruct (Binv_int_len z (2 ^ n) Hz) as (v & E & Ei & El); [lia|]. rewrite E. cbn [bind]. rewrite binv_intval_eq in Ei. rewrite (prefect_vector z v n El Ei). cbn [bind].
  assert (Hw : prefect_w z < 2 ^ n) by (apply lxor_all_lt; intros x Hx; apply (ones_lt _ _ _ Hz Hx)). destruct n as [|n].
  - cbn in Hw. assert (H0 : prefect_w z = 0) by lia. rewrite H0. cbn. destruct (prefect_q z); reflexivity.
  - apply (oddness_spec (S n)); [lia | exact Hw | rewrite map_length; apply range_length|]. intros i Hi. rewrite nth_table by exact Hi. reflexivity.
Qed.

Lemma count_high n j : j < 2 ^ n -> count_ones (2 ^ n + j) = S (count_ones j).
Proof.
  intro Hj. unfold count_ones. fold (ones (2 ^ n + j)) (ones j).
  assert (E : Permutation (ones (2 ^ n + j)) (n :: ones j)).
  { apply NoDup_Permutation; [apply sorted_lt_NoDup, ones_ascending | constructor; [|apply sorted_lt_NoDup, ones_ascending]|].
    - rewrite ones_In, (bit_bound_lt j n Hj n (le_n n)). discriminate.
    - intro x. cbn [In]. rewrite !ones_In. assert (L : Nat.land (2 ^ n) j = 0). { apply Nat.bits_inj. intro i. rewrite Nat.land_spec, Nat.bits_0, Nat.pow2_bits_eqb. destruct (Nat.eqb_spec n i) as [<-|]; [|reflexivity]. rewrite (bit_bound_lt j n Hj n (le_n n)). reflexivity. }
      rewrite (Nat.add_nocarry_lxor _ _ L), Nat.lxor_spec, Nat.pow2_bits_eqb. destruct (Nat.eqb_spec n x) as [<-|Hn]; [rewrite (bit_bound_lt j n Hj n (le_n n)); cbn; tauto|]. rewrite xorb_false_l. intuition congruence. }
  exact (Permutation_length E).
Qed.

(** sums over the places of the patron at the next arity *)
Lemma over_patron F f n p : adicity f <= n -> p < 2 ^ 2 ^ S n -> (forall j, j < 2 ^ S n -> Nat.testbit p j = xorb (tab f j) (anf (S n) (tab f) j)) ->
  over F p = xorb (xor_all (map (fun j => anf n (tab f) j && F j) (seq 0 (2 ^ n)))) (xor_all (map (fun j => tab f j && xorb (F j) (F (2 ^ n + j))) (seq 0 (2 ^ n)))).
Proof.
  intros A Hp B. assert (H2 : 2 ^ S n = 2 ^ n + 2 ^ n) by (cbn; lia). rewrite (over_bound F p _ Hp), H2, seq_app, map_app, Proof_WalshIndex.xor_all_app.
  assert (Es : seq (0 + 2 ^ n) (2 ^ n) = map (fun j => 2 ^ n + j) (seq 0 (2 ^ n))).
  { generalize (2 ^ n) at 2 4. intro m. generalize (2 ^ n). intro c. cbn [Nat.add]. induction m as [|m IH]; [reflexivity|]. rewrite !seq_S, map_app, IH. reflexivity. }
  rewrite Es, map_map, <- !xor_all_xorb. apply xor_all_ext. intros j Hj. apply in_seq in Hj. assert (Hj' : j < 2 ^ n) by lia.
  assert (T : tab f (2 ^ n + j) = tab f j).
  { unfold tab. apply (sem_low f n _ _ A). intros a Ha. rewrite Nat.add_comm. apply Proof_Numbers.testbit_add_high. exact Ha. }
  rewrite (B j) by lia. rewrite (B (2 ^ n + j)) by lia. rewrite T. rewrite anf_low by exact Hj'. rewrite (Nat.add_comm (2 ^ n) j), anf_high by exact Hj'.
  rewrite (anf_ext n (fun k => tab f (k + 2 ^ n)) (tab f) j); [|intros k Hk; unfold tab; apply (sem_low f n _ _ A); intros a Ha; apply Proof_Numbers.testbit_add_high; exact Ha].
  destruct (tab f j), (anf n (tab f) j), (F j), (F (j + 2 ^ n)); reflexivity.
Qed.
