(** Proof_Binary: lemmas on bits, Binv and the binary helpers. *)

From Coq Require Import List Arith ZArith Bool Lia Permutation Sorted.
From Verif Require Import Model_Base Lib Model_Binary Spec_Bits.
Import ListNotations.

Lemma testbit_S n i : Nat.testbit n (S i) = Nat.testbit (Nat.div2 n) i.
Proof. reflexivity. Qed.

Lemma testbit_b2n l i : Nat.testbit (b2n l) i = nth i l false.
Proof.
  revert i; induction l as [|b l IH]; intro i; cbn [b2n].
  - rewrite Nat.bits_0. destruct i; reflexivity.
  - destruct i as [|i].
    + rewrite Nat.bit0_odd, odd_b2n_double. reflexivity.
    + rewrite testbit_S, div2_b2n_double. apply IH.
Qed.

Lemma nth_n2b len n i : nth i (n2b len n) false = (i <? len) && Nat.testbit n i.
Proof.
  revert n i; induction len as [|len IH]; intros n i; cbn [n2b].
  - destruct i; reflexivity.
  - destruct i as [|i]; cbn [nth]; [rewrite Nat.bit0_odd; reflexivity|]. rewrite IH. reflexivity.
Qed.

Lemma testbit_high n i : n < 2 ^ i -> Nat.testbit n i = false.
Proof.
  intro H. destruct (Nat.eq_dec n 0) as [->|Hn]; [apply Nat.bits_0|].
  apply Nat.bits_above_log2. apply Nat.log2_lt_pow2; lia.
Qed.

Lemma testbit_lt_pow n i len : n < 2 ^ len -> Nat.testbit n i = true -> i < len.
Proof.
  intros H Ht. destruct (Nat.lt_ge_cases i len) as [|Hge]; [assumption|]. exfalso.
  rewrite testbit_high in Ht; [discriminate|].
  apply Nat.lt_le_trans with (2 ^ len); [exact H | apply Nat.pow_le_mono_r; lia].
Qed.

Lemma bits_lt_pow n len : (forall i, len <= i -> Nat.testbit n i = false) -> n < 2 ^ len.
Proof.
  intro H. rewrite <- (b2n_n2b (Nat.max len (S (Nat.log2 n))) n).
  2: { apply Nat.lt_le_trans with (2 ^ S (Nat.log2 n)); [|apply Nat.pow_le_mono_r; lia].
       destruct (Nat.eq_dec n 0) as [->|]; [cbn; lia | apply Nat.log2_spec; lia]. }
  assert (E : b2n (n2b (Nat.max len (S (Nat.log2 n))) n) = b2n (n2b len n)).
  { apply Nat.bits_inj. intro i. rewrite !testbit_b2n, !nth_n2b.
    destruct (Nat.ltb_spec i len).
    - destruct (Nat.ltb_spec i (Nat.max len (S (Nat.log2 n)))); [reflexivity | lia].
    - rewrite H by assumption. apply andb_false_r. }
  rewrite E. assert (B := b2n_lt (n2b len n)). rewrite n2b_length in B. exact B.
Qed.

Lemma pow_log2 n : n < 2 ^ S (Nat.log2 n).
Proof. destruct (Nat.eq_dec n 0) as [->|]; [cbn; lia | apply Nat.log2_spec; lia]. Qed.

Lemma lt_pow2 n : n < 2 ^ n.
Proof. apply Nat.pow_gt_lin_r. lia. Qed.

(** * exponent sets *)

Lemma div2_lt n : 0 < n -> Nat.div2 n < n.
Proof. intro. apply Nat.lt_div2. exact H. Qed.

Lemma int_to_exposet_loop_spec fuel n count : n <= fuel ->
  StronglySorted lt (int_to_exposet_loop fuel n count) /\
  forall i, In i (int_to_exposet_loop fuel n count) <-> count <= i /\ Nat.testbit n (i - count) = true.
Proof.
  revert n count; induction fuel as [|fuel IH]; intros n count Hn.
  - assert (n = 0) by lia. subst. cbn [int_to_exposet_loop]. split; [constructor|].
    intro i. rewrite Nat.bits_0. cbn. split; [tauto | intros [_ H]; discriminate].
  - cbn [int_to_exposet_loop]. destruct (Nat.ltb_spec 0 n) as [Hpos|Hz].
    + rewrite <- Nat.div2_div. assert (Hd := div2_lt n Hpos).
      destruct (IH (Nat.div2 n) (S count) ltac:(lia)) as [Hs Hin].
      assert (Hodd : Nat.eqb (n mod 2) 0 = negb (Nat.testbit n 0)).
      { rewrite <- (Nat.bit0_mod n). destruct (Nat.testbit n 0); reflexivity. }
      rewrite Hodd.
      assert (Hbody : forall i, In i (int_to_exposet_loop fuel (Nat.div2 n) (S count)) <->
                       S count <= i /\ Nat.testbit n (i - count) = true).
      { intro i. rewrite Hin. split; intros [H1 H2]; (split; [exact H1|]).
        - replace (i - count) with (S (i - S count)) by lia. exact H2.
        - replace (i - count) with (S (i - S count)) in H2 by lia. exact H2. }
      destruct (Nat.testbit n 0) eqn:E0; cbn [negb app].
      * split.
        -- constructor; [exact Hs|]. apply Forall_forall. intros i Hi. apply Hbody in Hi. lia.
        -- intro i. cbn [In]. rewrite Hbody. split.
           ++ intros [<-|[H1 H2]]; [split; [lia | rewrite Nat.sub_diag; exact E0] | split; [lia | exact H2]].
           ++ intros [H1 H2]. destruct (Nat.eq_dec count i); [left; assumption | right; split; [lia | exact H2]].
      * split; [exact Hs|]. intro i. rewrite Hbody. split; [intros [H1 H2]; split; [lia | exact H2]|].
        intros [H1 H2]. split; [|exact H2]. destruct (Nat.eq_dec count i) as [->|]; [|lia].
        rewrite Nat.sub_diag in H2. congruence.
    + assert (n = 0) by lia. subst. split; [constructor|]. intro i. rewrite Nat.bits_0.
      cbn. split; [tauto | intros [_ H]; discriminate].
Qed.

Lemma int_to_exposet_spec n :
  StronglySorted lt (int_to_exposet n) /\ forall i, In i (int_to_exposet n) <-> Nat.testbit n i = true.
Proof.
  destruct (int_to_exposet_loop_spec n n 0 (le_n n)) as [H1 H2]. split; [exact H1|].
  intro i. rewrite (H2 i), Nat.sub_0_r. split; [tauto|]. split; [lia | assumption].
Qed.

Lemma testbit_add_pow m e i : Nat.testbit m e = false ->
  Nat.testbit (2 ^ e + m) i = (i =? e) || Nat.testbit m i.
Proof.
  intro H.
  assert (Hl : Nat.land (2 ^ e) m = 0).
  { apply Nat.bits_inj. intro k. rewrite Nat.land_spec, Nat.bits_0, Nat.pow2_bits_eqb.
    destruct (Nat.eqb_spec e k) as [->|]; [exact H | reflexivity]. }
  rewrite Nat.add_nocarry_lxor by exact Hl. rewrite Nat.lxor_spec, Nat.pow2_bits_eqb.
  rewrite (Nat.eqb_sym e i). destruct (Nat.eqb_spec i e) as [->|]; [rewrite H; reflexivity|].
  rewrite xorb_false_l. reflexivity.
Qed.

Lemma exposet_to_int_testbit s i : NoDup s -> Nat.testbit (exposet_to_int s) i = memb i s.
Proof.
  unfold exposet_to_int, list_sum_nat, memb. intro H. revert i.
  induction H as [|e s He Hs IH]; intro i; cbn [map fold_right existsb].
  - apply Nat.bits_0.
  - rewrite testbit_add_pow, IH; [reflexivity|]. rewrite IH. apply (memb_false e s). exact He.
Qed.

Lemma exposet_roundtrip n : exposet_to_int (int_to_exposet n) = n.
Proof.
  destruct (int_to_exposet_spec n) as [Hs Hin]. apply Nat.bits_inj. intro i.
  rewrite exposet_to_int_testbit by (apply sorted_lt_NoDup; exact Hs).
  destruct (memb i (int_to_exposet n)) eqn:E.
  - apply memb_In, Hin in E. congruence.
  - apply memb_false in E. destruct (Nat.testbit n i) eqn:T; [|reflexivity]. apply Hin in T. contradiction.
Qed.

Lemma exposet_back s : NoDup s -> int_to_exposet (exposet_to_int s) = sort_nat s.
Proof.
  intro H. destruct (int_to_exposet_spec (exposet_to_int s)) as [Hs Hin].
  apply sorted_lt_ext; [exact Hs | apply sort_nat_sorted_lt; exact H|].
  intro i. rewrite Hin, exposet_to_int_testbit, sort_nat_In by exact H. apply memb_In.
Qed.

Lemma vector_to_int_eq v : vector_to_int v = b2n v.
Proof.
  unfold vector_to_int.
  assert (H : forall v r p, fst (fold_left (fun (rp : nat * nat) (digit : bool) =>
     let (result, place) := rp in ((if digit then result + 2 ^ place else result), S place)) v (r, p))
     = r + 2 ^ p * b2n v).
  { clear v. induction v as [|b v IH]; intros r p; cbn [fold_left b2n]; [cbn; lia|].
    rewrite IH. rewrite Nat.pow_succ_r'. destruct b; cbn [Nat.b2n]; lia. }
  rewrite H. cbn. lia.
Qed.

Lemma binv_intval_eq v : binv_intval v = b2n v.
Proof.
  unfold binv_intval. rewrite <- (rev_involutive v) at 2. generalize (rev v). clear v. intro r.
  assert (H : forall r a, fold_left (fun acc (d : bool) => 2 * acc + Nat.b2n d) r a = 2 ^ length r * a + b2n (rev r)).
  { clear r. induction r as [|b r IH]; intro a; cbn [fold_left rev length]; [cbn; lia|].
    rewrite IH.
    assert (Hb : forall l, b2n (l ++ [b]) = b2n l + 2 ^ length l * Nat.b2n b).
    { induction l as [|c l IHl]; cbn [app b2n length]; [cbn; lia|]. rewrite IHl, Nat.pow_succ_r'. lia. }
    rewrite Hb, rev_length, Nat.pow_succ_r'. lia. }
  rewrite H. lia.
Qed.

(** * weights *)

Lemma filter_id_map {A} (f : A -> bool) l : length (filter (fun b => b) (map f l)) = length (filter f l).
Proof. induction l as [|x l IH]; [reflexivity|]. cbn [map filter]. destruct (f x); cbn [length]; rewrite IH; reflexivity. Qed.

Lemma n2b_map len n : n2b len n = map (Nat.testbit n) (seq 0 len).
Proof.
  apply nth_ext with (d := false) (d' := Nat.testbit n 0).
  - rewrite n2b_length, map_length, seq_length. reflexivity.
  - intros i Hi. rewrite n2b_length in Hi. rewrite nth_n2b, map_nth, seq_nth by exact Hi.
    rewrite (proj2 (Nat.ltb_lt i len) Hi). reflexivity.
Qed.

Lemma ones_ext n L L' : n < 2 ^ L -> L <= L' ->
  length (filter (Nat.testbit n) (seq 0 L')) = length (filter (Nat.testbit n) (seq 0 L)).
Proof.
  intros H Hl. replace L' with (L + (L' - L)) by lia. rewrite seq_app, filter_app, app_length. cbn [Nat.add].
  assert (E : forall a k, L <= a -> filter (Nat.testbit n) (seq a k) = []).
  { intros a k; revert a; induction k as [|k IH]; intros a Ha; cbn [seq filter]; [reflexivity|].
    rewrite testbit_high; [apply IH; lia|].
    apply Nat.lt_le_trans with (2 ^ L); [exact H | apply Nat.pow_le_mono_r; lia]. }
  rewrite (E L) by lia. cbn [length]. apply Nat.add_0_r.
Qed.

Lemma count_ones_eq n L : n < 2 ^ L -> count_ones n = length (filter (fun b => b) (n2b L n)).
Proof.
  intro H. rewrite n2b_map, filter_id_map. unfold count_ones.
  destruct (Nat.le_ge_cases n L) as [Hl|Hl].
  - symmetry. apply ones_ext; [apply lt_pow2 | exact Hl].
  - apply ones_ext; [exact H | exact Hl].
Qed.

Lemma int_to_weight_eq n : int_to_weight n = count_ones n.
Proof. unfold int_to_weight, bin_digits. symmetry. apply count_ones_eq. apply pow_log2. Qed.

Lemma weight_filter v : binv_weight v = length (filter (fun b => b) v).
Proof.
  unfold binv_weight, list_sum_nat. induction v as [|b v IH]; cbn [map fold_right filter]; [reflexivity|].
  rewrite IH. destruct b; reflexivity.
Qed.

Lemma binv_weight_eq v : binv_weight v = count_ones (binv_intval v).
Proof.
  rewrite binv_intval_eq, (count_ones_eq (b2n v) (length v)) by apply b2n_lt.
  rewrite n2b_b2n. apply weight_filter.
Qed.

Lemma count_ones_double n b : count_ones (2 * n + Nat.b2n b) = count_ones n + Nat.b2n b.
Proof.
  rewrite (count_ones_eq n n) by apply lt_pow2.
  rewrite (count_ones_eq (2 * n + Nat.b2n b) (S n)).
  - rewrite Nat.add_comm. cbn [n2b]. rewrite odd_b2n_double, div2_b2n_double.
    cbn [filter]. destruct b; cbn [length Nat.b2n]; lia.
  - rewrite Nat.pow_succ_r'. assert (H := lt_pow2 n). destruct b; cbn [Nat.b2n]; lia.
Qed.

Lemma mod2_odd n : n mod 2 = Nat.b2n (Nat.odd n).
Proof. rewrite <- Nat.bit0_mod, <- Nat.bit0_odd. destruct (Nat.testbit n 0); reflexivity. Qed.

(** * evil and odious *)

Lemma evil_index (i : nat) :
  exists e, index_to_evil (Z.of_nat i) = Ok e /\ evil e /\ e / 2 = i /\
    evil_to_index (Z.of_nat e) = Ok i.
Proof.
  unfold index_to_evil. rewrite (proj2 (Z.leb_le _ _)) by lia. cbn [true_except bind]. rewrite Nat2Z.id.
  rewrite int_to_weight_eq, mod2_odd. set (b := Nat.odd (count_ones i)).
  exists (2 * i + Nat.b2n b). split; [reflexivity|].
  assert (Hev : evil (2 * i + Nat.b2n b)).
  { unfold evil. rewrite count_ones_double, Nat.even_add. unfold b. rewrite <- Nat.negb_even.
    destruct (Nat.even (count_ones i)); reflexivity. }
  assert (Hd : (2 * i + Nat.b2n b) / 2 = i).
  { symmetry. apply Nat.div_unique with (Nat.b2n b); [destruct b; cbn; lia | reflexivity]. }
  split; [exact Hev|]. split; [exact Hd|].
  unfold evil_to_index. rewrite (proj2 (Z.leb_le _ _)) by lia. cbn [true_except bind]. rewrite Nat2Z.id.
  rewrite int_to_weight_eq, mod2_odd. unfold evil in Hev. rewrite <- Nat.negb_even, Hev. cbn [negb Nat.b2n Nat.eqb true_except bind].
  rewrite Hd. reflexivity.
Qed.

Lemma odious_index (i : nat) :
  exists e, index_to_odious (Z.of_nat i) = Ok e /\ odious e /\ e / 2 = i /\
    odious_to_index (Z.of_nat e) = Ok i.
Proof.
  unfold index_to_odious. rewrite (proj2 (Z.leb_le _ _)) by lia. cbn [true_except bind]. rewrite Nat2Z.id.
  rewrite int_to_weight_eq, mod2_odd. set (b := Nat.odd (count_ones i)).
  replace (if Nat.b2n b =? 0 then 1 else 0) with (Nat.b2n (negb b)) by (destruct b; reflexivity).
  exists (2 * i + Nat.b2n (negb b)). split; [reflexivity|].
  assert (Hev : odious (2 * i + Nat.b2n (negb b))).
  { unfold odious. rewrite count_ones_double, Nat.odd_add. unfold b.
    destruct (Nat.odd (count_ones i)); reflexivity. }
  assert (Hd : (2 * i + Nat.b2n (negb b)) / 2 = i).
  { symmetry. apply Nat.div_unique with (Nat.b2n (negb b)); [destruct b; cbn; lia | reflexivity]. }
  split; [exact Hev|]. split; [exact Hd|].
  unfold odious_to_index. rewrite (proj2 (Z.leb_le _ _)) by lia. cbn [true_except bind]. rewrite Nat2Z.id.
  rewrite int_to_weight_eq, mod2_odd. unfold odious in Hev. rewrite Hev. cbn [Nat.b2n Nat.eqb true_except bind].
  rewrite Hd. reflexivity.
Qed.

Lemma split_bit e : e = 2 * (e / 2) + Nat.b2n (Nat.odd e).
Proof. rewrite <- mod2_odd. apply Nat.div_mod. lia. Qed.

Lemma evil_back e : evil e -> exists i, evil_to_index (Z.of_nat e) = Ok i /\ index_to_evil (Z.of_nat i) = Ok e.
Proof.
  intro H. unfold evil_to_index. rewrite (proj2 (Z.leb_le _ _)) by lia. cbn [true_except bind]. rewrite Nat2Z.id.
  rewrite int_to_weight_eq, mod2_odd. unfold evil in H. rewrite <- Nat.negb_even, H.
  cbn [negb Nat.b2n Nat.eqb true_except bind]. exists (e / 2). split; [reflexivity|].
  unfold index_to_evil. rewrite (proj2 (Z.leb_le _ _)) by lia. cbn [true_except bind]. rewrite Nat2Z.id.
  rewrite int_to_weight_eq, mod2_odd. f_equal. rewrite (split_bit e) at 3. f_equal. f_equal.
  rewrite (split_bit e), count_ones_double, Nat.even_add in H.
  rewrite <- Nat.negb_even. destruct (Nat.even (count_ones (e / 2))), (Nat.odd e); cbn in *; congruence.
Qed.

Lemma odious_back e : odious e -> exists i, odious_to_index (Z.of_nat e) = Ok i /\ index_to_odious (Z.of_nat i) = Ok e.
Proof.
  intro H. unfold odious_to_index. rewrite (proj2 (Z.leb_le _ _)) by lia. cbn [true_except bind]. rewrite Nat2Z.id.
  rewrite int_to_weight_eq, mod2_odd. unfold odious in H. rewrite H.
  cbn [Nat.b2n Nat.eqb true_except bind]. exists (e / 2). split; [reflexivity|].
  unfold index_to_odious. rewrite (proj2 (Z.leb_le _ _)) by lia. cbn [true_except bind]. rewrite Nat2Z.id.
  rewrite int_to_weight_eq, mod2_odd. f_equal. rewrite (split_bit e) at 3. f_equal.
  rewrite (split_bit e), count_ones_double, Nat.odd_add in H.
  destruct (Nat.odd (count_ones (e / 2))), (Nat.odd e); cbn in *; congruence.
Qed.

Lemma evil_reject (e : nat) : odious e -> evil_to_index (Z.of_nat e) = Err ArgValueError.
Proof.
  intro H. unfold evil_to_index. rewrite (proj2 (Z.leb_le _ _)) by lia. cbn [true_except bind]. rewrite Nat2Z.id.
  rewrite int_to_weight_eq, mod2_odd. unfold odious in H. rewrite H. reflexivity.
Qed.
Lemma odious_reject (e : nat) : evil e -> odious_to_index (Z.of_nat e) = Err ArgValueError.
Proof.
  intro H. unfold odious_to_index. rewrite (proj2 (Z.leb_le _ _)) by lia. cbn [true_except bind]. rewrite Nat2Z.id.
  rewrite int_to_weight_eq, mod2_odd. unfold evil in H. rewrite <- Nat.negb_even, H. reflexivity.
Qed.

Lemma evil_mono (i j : nat) a b : i < j -> index_to_evil (Z.of_nat i) = Ok a -> index_to_evil (Z.of_nat j) = Ok b -> a < b.
Proof.
  intros Hij Ha Hb. destruct (evil_index i) as [a' [Ea [_ [Da _]]]]. destruct (evil_index j) as [b' [Eb [_ [Db _]]]].
  assert (a' = a) by congruence. assert (b' = b) by congruence. subst.
  destruct (Nat.lt_ge_cases a b) as [|Hge]; [assumption|]. exfalso.
  assert (b / 2 <= a / 2) by (apply Nat.div_le_mono; lia). lia.
Qed.
Lemma odious_mono (i j : nat) a b : i < j -> index_to_odious (Z.of_nat i) = Ok a -> index_to_odious (Z.of_nat j) = Ok b -> a < b.
Proof.
  intros Hij Ha Hb. destruct (odious_index i) as [a' [Ea [_ [Da _]]]]. destruct (odious_index j) as [b' [Eb [_ [Db _]]]].
  assert (a' = a) by congruence. assert (b' = b) by congruence. subst.
  destruct (Nat.lt_ge_cases a b) as [|Hge]; [assumption|]. exfalso.
  assert (b / 2 <= a / 2) by (apply Nat.div_le_mono; lia). lia.
Qed.
Lemma evil_negative (z : Z) : (z < 0)%Z ->
  index_to_evil z = Err ArgValueError /\ index_to_odious z = Err ArgValueError /\
  evil_to_index z = Err ArgValueError /\ odious_to_index z = Err ArgValueError.
Proof.
  intro H. unfold index_to_evil, index_to_odious, evil_to_index, odious_to_index.
  rewrite (proj2 (Z.leb_gt _ _) H). auto.
Qed.

(** * Binv *)

Lemma b2n_app_false v k : b2n (v ++ repeat false k) = b2n v.
Proof.
  apply Nat.bits_inj. intro i. rewrite !testbit_b2n.
  destruct (Nat.lt_ge_cases i (length v)) as [H|H].
  - apply app_nth1. exact H.
  - rewrite app_nth2 by exact H. rewrite (nth_overflow v) by exact H.
    destruct (Nat.lt_ge_cases (i - length v) k) as [Hk|Hk].
    + apply nth_repeat.
    + apply nth_overflow. rewrite repeat_length. exact Hk.
Qed.

Lemma bin_digits_val n : b2n (bin_digits n) = n.
Proof. unfold bin_digits. apply b2n_n2b. apply pow_log2. Qed.

Lemma zfill_val l n : binv_intval (zfill l (bin_digits n)) = n.
Proof. rewrite binv_intval_eq. unfold zfill. rewrite b2n_app_false. apply bin_digits_val. Qed.

Lemma zfill_length l v : length (zfill l v) = Nat.max l (length v).
Proof. unfold zfill. rewrite app_length, repeat_length. lia. Qed.

Lemma binary_length_spec n l : binary_length n <= l <-> n < 2 ^ l.
Proof.
  unfold binary_length. destruct (Nat.eqb_spec n 0) as [->|Hn].
  - split; intro H; [apply Nat.neq_0_lt_0, Nat.pow_nonzero; lia | lia].
  - rewrite Nat.log2_lt_pow2 by lia. lia.
Qed.

Lemma Binv_int_min n : exists v, Binv_intval n None = Ok v /\ binv_intval v = n /\ length v = binary_length n.
Proof.
  unfold Binv_intval, Binv, Binv_with. rewrite (proj2 (Z.leb_le _ _)) by lia. cbn [true_except bind]. rewrite Nat2Z.id.
  destruct (Nat.eqb_spec n 0) as [->|Hn].
  - exists []. auto.
  - exists (bin_digits n). split; [reflexivity|]. split; [rewrite binv_intval_eq; apply bin_digits_val|].
    unfold bin_digits, binary_length. rewrite n2b_length. destruct (Nat.eqb_spec n 0); lia.
Qed.

Lemma Binv_int_len n l : n < 2 ^ l -> l <> 0 ->
  exists v, Binv_intval n (Some l) = Ok v /\ binv_intval v = n /\ length v = l.
Proof.
  intros H Hl. unfold Binv_intval, Binv, Binv_with. rewrite (proj2 (Z.leb_le _ _)) by lia. cbn [true_except bind].
  rewrite Nat2Z.id. apply binary_length_spec in H. rewrite (proj2 (Nat.leb_le _ _) H). cbn [true_except bind].
  exists (zfill l (bin_digits n)). split; [reflexivity|]. split; [apply zfill_val|].
  rewrite zfill_length. unfold bin_digits. rewrite n2b_length. unfold binary_length in H.
  destruct (Nat.eqb_spec n 0) as [->|]; [change (Nat.log2 0) with 0; lia | lia].
Qed.

Lemma Binv_int_reject n l : 2 ^ l <= n -> Binv_intval n (Some l) = Err BinvLengthError.
Proof.
  intro H. unfold Binv_intval, Binv, Binv_with. rewrite (proj2 (Z.leb_le _ _)) by lia. cbn [true_except bind].
  rewrite Nat2Z.id. destruct (Nat.leb_spec (binary_length n) l) as [Hl|Hl]; [|reflexivity].
  apply binary_length_spec in Hl. lia.
Qed.

Lemma Binv_int_minlen n l : l <> 0 -> exists v, Binv None (Some (Z.of_nat n)) None None (Some l) = Ok v /\
  binv_intval v = n /\ length v = Nat.max l (binary_length n).
Proof.
  intro Hl. unfold Binv, Binv_with. rewrite (proj2 (Z.leb_le _ _)) by lia. cbn [true_except bind]. rewrite Nat2Z.id.
  eexists. split; [reflexivity|]. split; [apply zfill_val|]. rewrite zfill_length. unfold bin_digits. rewrite n2b_length.
  unfold binary_length. destruct (Nat.eqb_spec n 0) as [->|]; [change (Nat.log2 0) with 0; lia | lia].
Qed.

Lemma Binv_any_log bl n l :
  (l < bl n -> Binv_with bl None (Some (Z.of_nat n)) None (Some l) None = Err BinvLengthError) /\
  (bl n <= l -> exists v, Binv_with bl None (Some (Z.of_nat n)) None (Some l) None = Ok v /\
     binv_intval v = n /\ (n < 2 ^ l -> l <> 0 -> length v = l)).
Proof.
  unfold Binv_with. rewrite (proj2 (Z.leb_le _ _)) by lia. cbn [true_except bind]. rewrite Nat2Z.id. split.
  - intro H. rewrite (proj2 (Nat.leb_gt _ _) H). reflexivity.
  - intro H. rewrite (proj2 (Nat.leb_le _ _) H). cbn [true_except bind]. eexists. split; [reflexivity|].
    split; [apply zfill_val|]. intros H2 Hl. apply binary_length_spec in H2. rewrite zfill_length. unfold bin_digits. rewrite n2b_length.
    unfold binary_length in H2. destruct (Nat.eqb_spec n 0) as [->|]; [change (Nat.log2 0) with 0; lia | lia].
Qed.

Lemma Binv_vec_int v : v <> [] -> Binv_intval (binv_intval v) (Some (length v)) = Ok v.
Proof.
  intro Hv. rewrite binv_intval_eq.
  assert (Hl : length v <> 0) by (destruct v; [congruence | discriminate]).
  destruct (Binv_int_len (b2n v) (length v) (b2n_lt v) Hl) as [w [E [Ei El]]]. rewrite E. f_equal.
  rewrite binv_intval_eq in Ei. apply b2n_inj; [exact El | exact Ei].
Qed.

Lemma Binv_vector_bool (v : list bool) : Binv_vector (map (fun b : bool => if b then 1%Z else 0%Z) v) = Ok v.
Proof.
  unfold Binv_vector, Binv, Binv_with. rewrite (proj2 (forallb_forall _ _)).
  - cbn [true_except bind]. f_equal. rewrite map_map. rewrite <- (map_id v) at 2. apply map_ext. intros []; reflexivity.
  - intros e He. apply in_map_iff in He as [[] [<- _]]; reflexivity.
Qed.

Lemma Binv_vector_reject v e : In e v -> e <> 0%Z -> e <> 1%Z -> Binv_vector v = Err VectorEntryError.
Proof.
  intros Hin H0 H1. unfold Binv_vector, Binv, Binv_with.
  destruct (forallb (fun e => (e =? 0)%Z || (e =? 1)%Z) v) eqn:E; [|reflexivity]. exfalso.
  rewrite forallb_forall in E. specialize (E e Hin). apply orb_true_iff in E as [E|E]; apply Z.eqb_eq in E; congruence.
Qed.

Lemma binv_exposet_In v i : In i (binv_exposet v) <-> nth i v false = true.
Proof.
  unfold binv_exposet. rewrite in_map_iff.
  assert (H : forall a, In (i, true) (combine (seq a (length v)) v) <-> a <= i /\ nth (i - a) v false = true).
  { induction v as [|b v IH]; intro a.
    - cbn [length seq combine In]. split; [tauto|]. intros [_ H]. destruct (i - a); discriminate.
    - cbn [length seq combine In]. rewrite IH. split.
      + intros [[= <- ->]|[H1 H2]]; [split; [lia | rewrite Nat.sub_diag; reflexivity]|].
        split; [lia|]. replace (i - a) with (S (i - S a)) by lia. exact H2.
      + intros [H1 H2]. destruct (Nat.eq_dec a i) as [->|Hne].
        * left. rewrite Nat.sub_diag in H2. cbn in H2. congruence.
        * right. split; [lia|]. replace (i - a) with (S (i - S a)) in H2 by lia. exact H2. }
  split.
  - intros [[k b] [<- Hf]]. apply filter_In in Hf as [Hf Hb]. cbn [fst snd] in *. subst b.
    apply H in Hf. rewrite Nat.sub_0_r in Hf. tauto.
  - intro Hn. exists (i, true). split; [reflexivity|]. apply filter_In. split; [|reflexivity].
    apply H. rewrite Nat.sub_0_r. split; [lia | exact Hn].
Qed.

Lemma binv_exposet_sorted v : StronglySorted lt (binv_exposet v).
Proof.
  unfold binv_exposet. generalize 0. induction v as [|b v IH]; intro a; cbn [length seq combine filter map]; [constructor|].
  cbn [snd]. destruct b; [|apply IH]. cbn [map fst]. constructor; [apply IH|]. apply Forall_forall.
  intros x Hx. apply in_map_iff in Hx as [[k c] [<- Hk]]. apply filter_In in Hk as [Hk _].
  apply in_combine_l, in_seq in Hk. cbn. lia.
Qed.

Lemma lset_length {A} (l : list A) i x : length (lset l i x) = length l.
Proof. revert i; induction l as [|y l IH]; intros [|i]; cbn; auto. Qed.

Lemma lset_nth {A} (l : list A) i j x d : i < length l -> nth j (lset l i x) d = if Nat.eqb j i then x else nth j l d.
Proof.
  revert i j; induction l as [|y l IH]; intros i j H; [cbn in H; lia|].
  destruct i as [|i]; destruct j as [|j]; cbn [lset nth Nat.eqb]; try reflexivity.
  apply IH. cbn [length] in H. lia.
Qed.

Lemma foldM_zset (s : list nat) v : (forall i, In i s -> i < length v) ->
  exists w, foldM (fun v i => zset v i true) (map Z.of_nat s) v = Ok w /\ length w = length v /\
    forall j, nth j w false = memb j s || nth j v false.
Proof.
  revert v; induction s as [|i s IH]; intros v H; cbn [map foldM].
  - exists v. auto.
  - unfold zset. assert (Hi : i < length v) by (apply H; left; reflexivity).
    rewrite (proj2 (Z.leb_le _ _)), (proj2 (Z.ltb_lt _ _)) by lia. cbn [andb bind]. rewrite Nat2Z.id.
    destruct (IH (lset v i true)) as [w [E [Hl Hn]]].
    { intros k Hk. rewrite lset_length. apply H. right. exact Hk. }
    exists w. split; [exact E|]. split; [rewrite Hl; apply lset_length|].
    intro j. rewrite Hn, lset_nth by exact Hi. unfold memb. cbn [existsb]. fold (memb j s).
    destruct (Nat.eqb j i), (memb j s); reflexivity.
Qed.

Lemma zmax_nat (s : list nat) : s <> [] -> zmax (map Z.of_nat s) = Ok (Z.of_nat (list_max_nat s)).
Proof.
  destruct s as [|x s]; [congruence|]. intros _. cbn [map zmax]. f_equal.
  assert (H : forall x, fold_left Z.max (map Z.of_nat s) (Z.of_nat x) = Z.of_nat (Nat.max x (list_max_nat s))).
  { clear x. induction s as [|y s IH]; intro x; cbn [map fold_left list_max_nat fold_right].
    - rewrite Nat.max_0_r. reflexivity.
    - rewrite <- Nat2Z.inj_max, IH. f_equal. unfold list_max_nat. lia. }
  apply H.
Qed.

Lemma Binv_exposet_len s l : (forall i, In i s -> i < l) ->
  exists v, Binv_exposet s (Some l) = Ok v /\ length v = l /\ forall i, nth i v false = memb i s.
Proof.
  intro H. unfold Binv_exposet, Binv, Binv_with.
  assert (E : (match map Z.of_nat s with
     | [] => Ok (Z.of_nat l)
     | _ :: _ => let* m := zmax (map Z.of_nat s) in guard (m <? Z.of_nat l)%Z else BinvLengthError ;; Ok (Z.of_nat l)
     end) = Ok (Z.of_nat l)).
  { destruct s as [|x s0] eqn:Es; [reflexivity|]. rewrite <- Es in *. assert (Hs : s <> []) by (rewrite Es; discriminate).
    rewrite zmax_nat by exact Hs. cbn [bind]. assert (Hm := H _ (list_max_nat_In s Hs)).
    rewrite (proj2 (Z.ltb_lt _ _)) by lia. rewrite Es. reflexivity. }
  rewrite E. cbn [bind]. rewrite Nat2Z.id.
  destruct (foldM_zset s (repeat false l)) as [v [Ev [Hl Hn]]]; [rewrite repeat_length; exact H|].
  exists v. split; [exact Ev|]. split; [rewrite Hl; apply repeat_length|].
  intro i. rewrite Hn. assert (Er : nth i (repeat false l) false = false).
  { destruct (Nat.lt_ge_cases i l); [apply nth_repeat | apply nth_overflow; rewrite repeat_length; assumption]. }
  rewrite Er. apply orb_false_r.
Qed.

Lemma Binv_exposet_reject s l i : In i s -> l <= i -> Binv_exposet s (Some l) = Err BinvLengthError.
Proof.
  intros Hi Hl. unfold Binv_exposet, Binv, Binv_with.
  destruct s as [|x s0] eqn:Es; [destruct Hi|]. rewrite <- Es in *. assert (Hs : s <> []) by (rewrite Es; discriminate).
  replace (map Z.of_nat s) with (Z.of_nat x :: map Z.of_nat s0) at 1 by (rewrite Es; reflexivity).
  cbv beta iota. rewrite zmax_nat by exact Hs. cbn [bind]. assert (Hm := list_max_nat_ge i s Hi).
  destruct (Z.ltb_spec (Z.of_nat (list_max_nat s)) (Z.of_nat l)); [lia | reflexivity].
Qed.

Lemma Binv_exposet_min s :
  exists v, Binv_exposet s None = Ok v /\ (forall i, nth i v false = memb i s) /\
    length v = match s with [] => 0 | _ => list_max_nat s + 1 end.
Proof.
  destruct s as [|x s0] eqn:Es.
  - exists []. split; [reflexivity|]. split; [intros []; reflexivity | reflexivity].
  - rewrite <- Es in *. assert (Hs : s <> []) by (rewrite Es; discriminate).
    unfold Binv_exposet, Binv, Binv_with.
    assert (E : (match map Z.of_nat s with
       | [] => Ok 0%Z
       | _ :: _ => let* m := zmax (map Z.of_nat s) in Ok (m + 1)%Z
       end) = Ok (Z.of_nat (list_max_nat s) + 1)%Z).
    { rewrite zmax_nat by exact Hs. rewrite Es. reflexivity. }
    rewrite E. cbn [bind].
    replace (Z.to_nat (Z.of_nat (list_max_nat s) + 1)) with (list_max_nat s + 1) by lia.
    destruct (foldM_zset s (repeat false (list_max_nat s + 1))) as [v [Ev [Hl Hn]]].
    { intros i Hi. rewrite repeat_length. apply list_max_nat_ge in Hi. lia. }
    exists v. split; [exact Ev|]. rewrite repeat_length in Hl. split; [|exact Hl].
    intro i. rewrite Hn. assert (Er : nth i (repeat false (list_max_nat s + 1)) false = false).
    { destruct (Nat.lt_ge_cases i (list_max_nat s + 1)); [apply nth_repeat | apply nth_overflow; rewrite repeat_length; assumption]. }
    rewrite Er. apply orb_false_r.
Qed.

Lemma Binv_vec_exposet v : Binv_exposet (binv_exposet v) (Some (length v)) = Ok v.
Proof.
  destruct (Binv_exposet_len (binv_exposet v) (length v)) as [w [E [Hl Hn]]].
  - intros i Hi. apply binv_exposet_In in Hi. destruct (Nat.lt_ge_cases i (length v)) as [|Hge]; [assumption|].
    rewrite nth_overflow in Hi by exact Hge. discriminate.
  - rewrite E. f_equal. apply nth_ext with (d := false) (d' := false); [exact Hl|].
    intros i _. rewrite Hn. destruct (nth i v false) eqn:En.
    + apply memb_In, binv_exposet_In. exact En.
    + apply memb_false. intro Hi. apply binv_exposet_In in Hi. congruence.
Qed.

Lemma exposet_intval v : binv_exposet v = int_to_exposet (binv_intval v).
Proof.
  apply sorted_lt_ext; [apply binv_exposet_sorted | apply int_to_exposet_spec|].
  intro i. rewrite binv_exposet_In, (proj2 (int_to_exposet_spec _) i), binv_intval_eq, testbit_b2n. reflexivity.
Qed.

Lemma has_index_spec v i : binv_has_index v i = Nat.testbit (binv_intval v) i.
Proof.
  unfold binv_has_index. rewrite binv_intval_eq, testbit_b2n. destruct (nth i v false) eqn:E.
  - apply memb_In, binv_exposet_In. exact E.
  - apply memb_false. intro H. apply binv_exposet_In in H. congruence.
Qed.

Lemma flip_bit_spec v p : p < length v -> exists w, binv_flip_bit v p = Ok w /\ length w = length v /\
  forall i, nth i w false = if i =? p then negb (nth i v false) else nth i v false.
Proof.
  intro H. unfold binv_flip_bit. rewrite (proj2 (Nat.ltb_lt _ _) H). cbn [true_except bind].
  eexists. split; [reflexivity|]. split; [apply lset_length|]. intro i. rewrite lset_nth by exact H.
  destruct (Nat.eqb_spec i p) as [->|]; reflexivity.
Qed.

Lemma flip_bit_reject v p : length v <= p -> binv_flip_bit v p = Err AssertErr.
Proof. intro H. unfold binv_flip_bit. rewrite (proj2 (Nat.ltb_ge _ _) H). reflexivity. Qed.

Lemma changes_spec v : binv_changes v = length (filter (fun i => xorb (nth i v false) (nth (S i) v false)) (seq 0 (length v - 1))).
Proof.
  unfold binv_changes. destruct (Nat.ltb_spec (length v) 2) as [H|H].
  - replace (length v - 1) with 0 by lia. reflexivity.
  - unfold range2.
    assert (G : forall k a r, fold_left (fun result i => if Bool.eqb (nth (i - 1) v false) (nth i v false) then result else S result) (seq (S a) k) r
        = r + length (filter (fun i => xorb (nth i v false) (nth (S i) v false)) (seq a k))).
    { induction k as [|k IH]; intros a r; cbn [seq fold_left filter]; [cbn; lia|].
      rewrite IH. replace (S a - 1) with a by lia.
      destruct (nth a v false), (nth (S a) v false); cbn [Bool.eqb xorb length]; lia. }
    rewrite G. reflexivity.
Qed.

Lemma bitwise_ok op a b : length a <= length b -> exists r, binv_bitwise op a b = Ok r /\ length r = length a /\
  forall i, i < length a -> nth i r false = op (nth i a false) (nth i b false).
Proof.
  intro H. unfold binv_bitwise. rewrite (mapM_ok _ (fun i => op (nth i a false) (nth i b false))).
  - eexists. split; [reflexivity|]. split; [rewrite map_length; apply range_length|].
    intros i Hi. rewrite (nth_indep _ false (op (nth 0 a false) (nth 0 b false))) by (rewrite map_length, range_length; exact Hi).
    rewrite (map_nth (fun i => op (nth i a false) (nth i b false))), nth_range by exact Hi. reflexivity.
  - intros i Hi. apply range_In in Hi. rewrite (lget_ok a i false), (lget_ok b i false) by lia. reflexivity.
Qed.

Lemma bitwise_short op a b : length b < length a -> binv_bitwise op a b = Err IndexErr.
Proof.
  intro H. unfold binv_bitwise.
  assert (Hin : In (length b) (range (length a))) by (apply range_In; exact H).
  assert (Hall : forall i, In i (range (length a)) -> i < length a) by (intros i; apply range_In).
  induction (range (length a)) as [|i l IH]; [destruct Hin|]. cbn [mapM].
  rewrite (lget_ok a i false) by (apply Hall; left; reflexivity). cbn [bind].
  destruct (Nat.lt_ge_cases i (length b)) as [Hb|Hb].
  - rewrite (lget_ok b i false) by exact Hb. cbn [bind]. destruct Hin as [->|Hin]; [lia|].
    rewrite IH; [reflexivity | exact Hin | intros k Hk; apply Hall; right; exact Hk].
  - rewrite lget_err by exact Hb. reflexivity.
Qed.

Lemma bitwise_smaller_spec a b : length a = length b ->
  exists r, binv_bitwise_smaller a b = Ok r /\
    (r = true <-> a <> b /\ forall i, nth i a false = true -> nth i b false = true).
Proof.
  intro H. unfold binv_bitwise_smaller. destruct (bvec_eqb a b) eqn:E.
  - apply bvec_eqb_eq in E. exists false. split; [reflexivity|]. split; [discriminate | intros [Hc _]; contradiction].
  - assert (Hne : a <> b) by (intro Hc; apply bvec_eqb_eq in Hc; congruence).
    rewrite (forallM_ok _ (fun i => negb (nth i a false && negb (nth i b false)))).
    + eexists. split; [reflexivity|]. rewrite forallb_forall. split.
      * intro Hf. split; [exact Hne|]. intros i Hi.
        assert (Hl : i < length a) by (destruct (Nat.lt_ge_cases i (length a)); [assumption | rewrite nth_overflow in Hi by assumption; discriminate]).
        specialize (Hf i (proj2 (range_In i (length a)) Hl)). rewrite Hi in Hf. destruct (nth i b false); [reflexivity | discriminate].
      * intros [_ Hf] i _. destruct (nth i a false) eqn:Ei; [rewrite (Hf i Ei)|]; reflexivity.
    + intros i Hi. apply range_In in Hi. rewrite (lget_ok a i false), (lget_ok b i false) by lia. reflexivity.
Qed.

Lemma required_length_spec v n : binv_required_length v <= n <-> forall i, n <= i -> nth i v false = false.
Proof.
  unfold binv_required_length. destruct (binv_exposet v) as [|x e] eqn:E.
  - split; [|lia]. intros _ i _. destruct (nth i v false) eqn:Ei; [|reflexivity].
    apply binv_exposet_In in Ei. rewrite E in Ei. destruct Ei.
  - rewrite <- E. assert (Hne : binv_exposet v <> []) by (rewrite E; discriminate). split.
    + intros H i Hi. destruct (nth i v false) eqn:Ei; [|reflexivity].
      apply binv_exposet_In, list_max_nat_ge in Ei. lia.
    + intro H. assert (Hm := list_max_nat_In _ Hne). apply binv_exposet_In in Hm.
      destruct (Nat.lt_ge_cases (list_max_nat (binv_exposet v)) n) as [|Hge]; [lia|].
      rewrite H in Hm by exact Hge. discriminate.
Qed.


Lemma binv_lt_spec a b : binv_lt a b = true <->
  exists i, firstn i a = firstn i b /\ i < length b /\
    (i = length a \/ (i < length a /\ nth i a false = false /\ nth i b false = true)).
Proof.
  revert b. induction a as [|x a IH]; intros [|y b]; cbn [binv_lt].
  - split; [discriminate|]. intros [i [_ [H _]]]. cbn in H. lia.
  - split; [|reflexivity]. intros _. exists 0. cbn. split; [reflexivity|]. split; [lia | left; reflexivity].
  - split; [discriminate|]. intros [i [_ [H _]]]. cbn in H. lia.
  - destruct (Bool.eqb x y) eqn:E.
    + apply eqb_prop in E. subst y. rewrite IH. split; intros [i [H1 [H2 H3]]].
      * exists (S i). cbn. rewrite H1. split; [reflexivity|]. split; [lia|]. destruct H3 as [H3 | [H3 [H4 H5]]]; [left; lia | right].
        split; [lia | split; assumption].
      * destruct i as [|i].
        -- destruct H3 as [H3 | [_ [H4 H5]]]; [discriminate|]. cbn in H4, H5. congruence.
        -- cbn in H1, H2. injection H1 as H1. exists i. split; [exact H1|]. split; [lia|].
           destruct H3 as [H3 | [H3 [H4 H5]]]; cbn in *; [left; lia | right]. split; [lia | split; assumption].
    + split.
      * intro H. apply andb_true_iff in H. destruct H as [Hx Hy]. exists 0. cbn. split; [reflexivity|]. split; [lia|].
        right. split; [lia|]. split; [destruct x; [discriminate | reflexivity] | exact Hy].
      * intros [i [H1 [H2 H3]]]. destruct i as [|i].
        -- destruct H3 as [H3 | [_ [H4 H5]]]; [discriminate|]. cbn in H4, H5. subst. reflexivity.
        -- cbn in H1. injection H1 as H1 _. subst. rewrite eqb_reflx in E. discriminate.
Qed.

Lemma complement_val v : binv_intval (binv_complement v) + binv_intval v + 1 = 2 ^ length v.
Proof. rewrite !binv_intval_eq. induction v as [|x v IH]; [reflexivity|]. cbn [b2n binv_complement map length Nat.pow] in *. destruct x; cbn [negb Nat.b2n] in *; unfold binv_complement in IH; lia. Qed.
