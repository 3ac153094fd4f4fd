(** Proof_Linear: atom patterns, linear truth tables and the Walsh matrix. *)

From Coq Require Import List Arith ZArith Bool Lia.
From Verif Require Import Model_Base Lib Model_Binary Spec_Bits Proof_Binary Proof_Helpers.
Import ListNotations.

Lemma half_period i a : (2 ^ a <=? i mod (2 ^ a * 2)) = Nat.testbit i a.
Proof.
  assert (Hp : 2 ^ a <> 0) by (apply Nat.pow_nonzero; lia).
  rewrite Nat.mod_mul_r by lia. rewrite <- Nat.testbit_spec'.
  assert (H := Nat.mod_upper_bound i (2 ^ a) Hp).
  destruct (Nat.testbit i a); cbn [Nat.b2n]; [apply Nat.leb_le | apply Nat.leb_gt]; lia.
Qed.

Definition atom_of (z : Z) : nat := Z.to_nat (if (z <? 0)%Z then - z - 1 else z).

Lemma atompattern_spec z n negate : atom_of z < n ->
  exists v, make_atompattern z n negate = Ok v /\ length v = 2 ^ n /\
    forall i, i < 2 ^ n -> nth i v false = xorb (Nat.testbit i (atom_of z)) (xorb negate (z <? 0)%Z).
Proof.
  intro H. unfold make_atompattern. fold (atom_of z). cbv zeta. rewrite (proj2 (Nat.ltb_lt _ _) H). cbn [true_except bind].
  eexists. split; [reflexivity|]. split; [rewrite map_length; apply range_length|].
  intros i Hi. set (f := fun i => _). rewrite (nth_indep _ false (f 0)) by (rewrite map_length, range_length; exact Hi).
  rewrite map_nth, nth_range by exact Hi. unfold f. rewrite <- half_period.
  destruct (xorb negate (z <? 0)%Z).
  - rewrite xorb_true_r, Nat.ltb_antisym. reflexivity.
  - rewrite xorb_false_r. reflexivity.
Qed.

Lemma atompattern_reject z n negate : n <= atom_of z -> make_atompattern z n negate = Err AssertErr.
Proof.
  intro H. unfold make_atompattern. fold (atom_of z). cbv zeta. rewrite (proj2 (Nat.ltb_ge _ _) H). reflexivity.
Qed.

Lemma atom_of_nat k : atom_of (Z.of_nat k) = k.
Proof. unfold atom_of. destruct (Z.ltb_spec (Z.of_nat k) 0); lia. Qed.

Lemma atompatterns_spec n : 0 < n ->
  exists ps, make_atompatterns n = Ok ps /\ length ps = n /\
    forall a, a < n -> exists v, nth_error ps a = Some v /\ length v = 2 ^ n /\ forall i, i < 2 ^ n -> nth i v false = Nat.testbit i a.
Proof.
  intro Hn. unfold make_atompatterns. rewrite (proj2 (Nat.ltb_lt _ _) Hn). cbn [true_except bind].
  assert (G : forall l, (forall a, In a l -> a < n) ->
     exists ps, mapM (fun atom => make_atompattern (Z.of_nat atom) n false) l = Ok ps /\ length ps = length l /\
       forall j a, nth_error l j = Some a -> exists v, nth_error ps j = Some v /\ length v = 2 ^ n /\ forall i, i < 2 ^ n -> nth i v false = Nat.testbit i a).
  { induction l as [|a l IH]; intro H; cbn [mapM].
    - exists []. repeat split. intros [|j] a; discriminate.
    - destruct (atompattern_spec (Z.of_nat a) n false) as [v [E [Hl Hv]]]; [rewrite atom_of_nat; apply H; left; reflexivity|].
      destruct IH as [ps [Eps [Hps Hn']]]; [intros b Hb; apply H; right; exact Hb|].
      rewrite E, Eps. cbn [bind]. exists (v :: ps). split; [reflexivity|]. split; [cbn; lia|].
      intros [|j] b; cbn [nth_error].
      + intros [= <-]. exists v. split; [reflexivity|]. split; [exact Hl|]. intros i Hi. rewrite Hv by exact Hi.
        rewrite atom_of_nat, (proj2 (Z.ltb_ge _ _)) by lia. cbn. apply xorb_false_r.
      + apply Hn'. }
  destruct (G (range n)) as [ps [E [Hl Hps]]]; [intros a; apply range_In|].
  exists ps. split; [exact E|]. rewrite range_length in Hl. split; [exact Hl|].
  intros a Ha. apply (Hps a a). unfold range. rewrite nth_error_nth' with (d := 0) by (rewrite seq_length; exact Ha).
  rewrite seq_nth by exact Ha. reflexivity.
Qed.

Lemma xor_all_app a b : xor_all (a ++ b) = xorb (xor_all a) (xor_all b).
Proof. unfold xor_all. induction a as [|x a IH]; cbn [app fold_right]; [destruct (fold_right xorb false b); reflexivity|]. rewrite IH, xorb_assoc. reflexivity. Qed.

Lemma linear_loop_spec n w ps odd : length ps = n ->
  (forall a, a < n -> exists v, nth_error ps a = Some v /\ length v = 2 ^ n /\ forall i, i < 2 ^ n -> nth i v false = Nat.testbit i a) ->
  exists v, linear_binv_loop ps w n odd = Ok v /\ length v = 2 ^ n /\ forall i, i < 2 ^ n -> nth i v false = xorb (dot n w i) odd.
Proof.
  intros Hl Hps. unfold linear_binv_loop.
  assert (G : forall l v0, (forall a, In a l -> a < n) -> length v0 = 2 ^ n ->
    exists v, foldM (fun binv k => if Nat.testbit w k then let* p := lget ps k in binv_bitwise xorb binv p else Ok binv) l v0 = Ok v /\
      length v = 2 ^ n /\ forall i, i < 2 ^ n ->
        nth i v false = xorb (nth i v0 false) (xor_all (map (fun k => Nat.testbit w k && Nat.testbit i k) l))).
  { induction l as [|a l IH]; intros v0 Hall Hv0; cbn [foldM].
    - exists v0. split; [reflexivity|]. split; [exact Hv0|]. intros i _. cbn. rewrite xorb_false_r. reflexivity.
    - assert (Ha : a < n) by (apply Hall; left; reflexivity). destruct (Nat.testbit w a) eqn:Ew.
      + destruct (Hps a Ha) as [p [Ep [Hlp Hp]]]. unfold lget. rewrite Ep. cbn [bind].
        destruct (bitwise_ok xorb v0 p) as [v1 [E1 [Hl1 H1]]]; [lia|]. rewrite E1. cbn [bind].
        destruct (IH v1) as [v [E [Hlv Hv]]]; [intros b Hb; apply Hall; right; exact Hb | lia |].
        exists v. split; [exact E|]. split; [exact Hlv|]. intros i Hi. rewrite Hv, H1, Hp by lia.
        cbn [map xor_all fold_right]. rewrite Ew. cbn [andb]. rewrite xorb_assoc. reflexivity.
      + cbn [bind]. destruct (IH v0) as [v [E [Hlv Hv]]]; [intros b Hb; apply Hall; right; exact Hb | exact Hv0 |].
        exists v. split; [exact E|]. split; [exact Hlv|]. intros i Hi. rewrite Hv by exact Hi.
        cbn [map xor_all fold_right]. rewrite Ew. cbn [andb]. rewrite xorb_false_l. reflexivity. }
  destruct (G (range n) (repeat false (2 ^ n))) as [v [E [Hlv Hv]]]; [intros a; apply range_In | apply repeat_length |].
  unfold range in *. rewrite E. cbn [bind].
  assert (Hv' : forall i, i < 2 ^ n -> nth i v false = dot n w i).
  { intros i Hi. rewrite Hv, nth_repeat, xorb_false_l by exact Hi. reflexivity. }
  destruct odd.
  - exists (binv_complement v). split; [reflexivity|]. unfold binv_complement. split; [rewrite map_length; exact Hlv|].
    intros i Hi. rewrite (nth_indep _ false (negb false)) by (rewrite map_length; lia). rewrite map_nth, Hv', xorb_true_r by exact Hi. reflexivity.
  - exists v. split; [reflexivity|]. split; [exact Hlv|]. intros i Hi. rewrite Hv', xorb_false_r by exact Hi. reflexivity.
Qed.

Lemma linear_walsh w n parity : 0 < n -> w < 2 ^ n ->
  exists v, make_linear_binv (Some w) n parity None None = Ok v /\ length v = 2 ^ n /\
    forall i, i < 2 ^ n -> nth i v false = xorb (dot n w i) (match parity with Some p => p | None => false end).
Proof.
  intros Hn Hw. unfold make_linear_binv. rewrite (proj2 (Nat.ltb_lt _ _) Hn). cbn [true_except bind fst snd].
  rewrite (proj2 (Nat.ltb_lt _ _) Hw). cbn [true_except bind].
  destruct (atompatterns_spec n Hn) as [ps [E [Hl Hps]]]. rewrite E. cbn [bind]. apply linear_loop_spec; assumption.
Qed.

Lemma linear_walsh_reject w n parity : 0 < n -> 2 ^ n <= w -> make_linear_binv (Some w) n parity None None = Err ArgTooBigError.
Proof.
  intros Hn Hw. unfold make_linear_binv. rewrite (proj2 (Nat.ltb_lt _ _) Hn). cbn [true_except bind fst snd].
  rewrite (proj2 (Nat.ltb_ge _ _) Hw). reflexivity.
Qed.

Lemma linear_leader l q n : 0 < n -> q < 4 -> l < 2 ^ (n - 1) ->
  exists v w, make_linear_binv None n None (Some l) (Some q) = Ok v /\ length v = 2 ^ n /\
    w / 2 = l /\ (if Nat.eqb q 0 || Nat.eqb q 3 then evil w else odious w) /\
    forall i, i < 2 ^ n -> nth i v false = xorb (dot n w i) (Nat.eqb q 1 || Nat.eqb q 3).
Proof.
  intros Hn Hq Hlb. unfold make_linear_binv. rewrite (proj2 (Nat.ltb_lt _ _) Hn), (proj2 (Nat.ltb_lt _ _) Hq). cbn [true_except bind].
  assert (E : exists w, (if (q =? 0) || (q =? 3) then index_to_evil (Z.of_nat l) else index_to_odious (Z.of_nat l)) = Ok w /\
     w / 2 = l /\ (if Nat.eqb q 0 || Nat.eqb q 3 then evil w else odious w)).
  { destruct (Nat.eqb q 0 || Nat.eqb q 3).
    - destruct (evil_index l) as [e [E1 [E2 [E3 _]]]]. exists e. auto.
    - destruct (odious_index l) as [e [E1 [E2 [E3 _]]]]. exists e. auto. }
  destruct E as [w [-> [E2 E3]]]. cbn [bind fst snd].
  assert (Hw : w < 2 ^ n).
  { replace n with (S (n - 1)) by lia. rewrite Nat.pow_succ_r'. assert (D := split_bit w). rewrite E2 in D.
    destruct (Nat.odd w); cbn in D; lia. }
  rewrite (proj2 (Nat.ltb_lt _ _) Hw). cbn [true_except bind].
  destruct (atompatterns_spec n Hn) as [ps [Ep [Hl Hps]]]. rewrite Ep. cbn [bind].
  destruct (linear_loop_spec n w ps (Nat.eqb q 1 || Nat.eqb q 3) Hl Hps) as [v [Ev [Hlv Hv]]].
  exists v, w. auto.
Qed.

(** * the scalar product *)

Lemma dot_comm n a b : dot n a b = dot n b a.
Proof. unfold dot. f_equal. apply map_ext. intro i. apply andb_comm. Qed.

Lemma dot_lxor n a b c : dot n (Nat.lxor a b) c = xorb (dot n a c) (dot n b c).
Proof.
  unfold dot, xor_all. induction (seq 0 n) as [|i l IH]; [reflexivity|]. cbn [map fold_right]. rewrite IH, Nat.lxor_spec.
  destruct (Nat.testbit a i), (Nat.testbit b i), (Nat.testbit c i); cbn; try reflexivity;
  destruct (fold_right xorb false (map (fun i => Nat.testbit a i && Nat.testbit c i) l)),
           (fold_right xorb false (map (fun i => Nat.testbit b i && Nat.testbit c i) l)); reflexivity.
Qed.

Lemma dot_pow n a k : k < n -> dot n a (2 ^ k) = Nat.testbit a k.
Proof.
  intro H. unfold dot.
  assert (G : forall m s, s <= k -> k < s + m -> xor_all (map (fun i => Nat.testbit a i && Nat.testbit (2 ^ k) i) (seq s m)) = Nat.testbit a k).
  { assert (G0 : forall m s, k < s -> xor_all (map (fun i => Nat.testbit a i && Nat.testbit (2 ^ k) i) (seq s m)) = false).
    { induction m as [|m IH]; intros s Hs; [reflexivity|]. cbn [seq map xor_all fold_right].
      rewrite Nat.pow2_bits_eqb, (proj2 (Nat.eqb_neq k s)) by lia. rewrite andb_false_r, xorb_false_l. apply IH. lia. }
    induction m as [|m IH]; intros s H1 H2; [lia|]. cbn [seq map xor_all fold_right]. rewrite Nat.pow2_bits_eqb.
    destruct (Nat.eqb_spec k s) as [<-|Hne].
    - rewrite andb_true_r. fold (xor_all (map (fun i => Nat.testbit a i && Nat.testbit (2 ^ k) i) (seq (S k) m))).
      rewrite G0 by lia. apply xorb_false_r.
    - rewrite andb_false_r, xorb_false_l. apply IH; lia. }
  apply G; lia.
Qed.

Lemma dot_inj n a b : a < 2 ^ n -> b < 2 ^ n -> (forall i, i < 2 ^ n -> dot n a i = dot n b i) -> a = b.
Proof.
  intros Ha Hb H. apply Nat.bits_inj. intro k. destruct (Nat.lt_ge_cases k n) as [Hk|Hk].
  - rewrite <- !(dot_pow n _ k) by exact Hk. apply H. apply Nat.pow_lt_mono_r; lia.
  - rewrite !testbit_high; [reflexivity | |]; (eapply Nat.lt_le_trans; [eassumption | apply Nat.pow_le_mono_r; lia]).
Qed.

Lemma lxor_lt n a b : a < 2 ^ n -> b < 2 ^ n -> Nat.lxor a b < 2 ^ n.
Proof.
  intros Ha Hb. apply bits_lt_pow. intros i Hi. rewrite Nat.lxor_spec, !testbit_high; [reflexivity | |];
  (eapply Nat.lt_le_trans; [eassumption | apply Nat.pow_le_mono_r; lia]).
Qed.

(** * the Walsh matrix *)

Definition mat (m : list (list bool)) (i j : nat) : bool := nth j (nth i m []) false.

Lemma walsh_matrix_spec n negate :
  exists m, arity_to_walsh_matrix n negate = Ok m /\ length m = 2 ^ n /\
    (forall i, i < 2 ^ n -> length (nth i m []) = 2 ^ n) /\
    forall i j, i < 2 ^ n -> j < 2 ^ n -> mat m i j = xorb (dot n i j) negate.
Proof.
  unfold arity_to_walsh_matrix. destruct (Nat.eqb_spec n 0) as [->|Hn].
  - exists [[negate]]. split; [reflexivity|]. split; [reflexivity|]. cbn [Nat.pow]. split.
    + intros i Hi. assert (i = 0) by lia. subst. reflexivity.
    + intros i j Hi Hj. assert (i = 0) by lia. assert (j = 0) by lia. subst. cbn. destruct negate; reflexivity.
  - assert (G : forall l, (forall w, In w l -> w < 2 ^ n) ->
      exists m, mapM (fun i => make_linear_binv (Some i) n (Some negate) None None) l = Ok m /\ length m = length l /\
        forall k w, nth_error l k = Some w -> length (nth k m []) = 2 ^ n /\ forall j, j < 2 ^ n -> nth j (nth k m []) false = xorb (dot n w j) negate).
    { induction l as [|w l IH]; intro H; cbn [mapM].
      - exists []. repeat split; destruct k; discriminate.
      - destruct (linear_walsh w n (Some negate)) as [v [E [Hl Hv]]]; [lia | apply H; left; reflexivity |].
        destruct IH as [m [Em [Hlm Hm]]]; [intros x Hx; apply H; right; exact Hx|].
        rewrite E, Em. cbn [bind]. exists (v :: m). split; [reflexivity|]. split; [cbn; lia|].
        intros [|k] x; cbn [nth_error nth]; [intros [= <-]; auto | apply Hm]. }
    destruct (G (range (2 ^ n))) as [m [E [Hl Hm]]]; [intros w; apply range_In|].
    exists m. split; [exact E|]. rewrite range_length in Hl. split; [exact Hl|].
    assert (Hr : forall i, i < 2 ^ n -> nth_error (range (2 ^ n)) i = Some i).
    { intros i Hi. unfold range. rewrite nth_error_nth' with (d := 0) by (rewrite seq_length; exact Hi). rewrite seq_nth by exact Hi. reflexivity. }
    split; [intros i Hi; apply (Hm i i (Hr i Hi))|]. intros i j Hi Hj. unfold mat. apply (Hm i i (Hr i Hi)). exact Hj.
Qed.
