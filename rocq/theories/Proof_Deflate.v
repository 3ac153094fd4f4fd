(** Proof_Deflate: halving a table by an atom, the loop of [deflate]. *)

From Coq Require Import List Arith ZArith Bool Lia Sorted Permutation.
From Verif Require Import Model_Base Lib Model_Binary Model_Boolf Spec_Bits Spec_Boolf Proof_Binary Proof_Helpers Proof_Linear.
Import ListNotations.
Open Scope nat_scope.

(** * Inserting a bit *)

Definition ins (k : nat) (q : bool) (j : nat) : nat := j mod 2 ^ k + Nat.b2n q * 2 ^ k + 2 * 2 ^ k * (j / 2 ^ k).

Lemma pow2_pos k : 0 < 2 ^ k.
Proof. apply Nat.neq_0_lt_0, Nat.pow_nonzero. lia. Qed.

Lemma b2n_app a b : b2n (a ++ b) = b2n a + 2 ^ length a * b2n b.
Proof. induction a as [|x a IH]; cbn [app b2n length Nat.pow]; [lia|]. rewrite IH. nia. Qed.

Lemma b2n_ins a q b : b2n (a ++ q :: b) = ins (length a) q (b2n (a ++ b)).
Proof.
  rewrite !b2n_app. unfold ins. assert (H := b2n_lt a). assert (Hp := pow2_pos (length a)).
  rewrite (Nat.mul_comm (2 ^ length a) (b2n b)), Nat.mod_add by lia. rewrite Nat.mod_small by exact H.
  rewrite Nat.div_add by lia. rewrite Nat.div_small by exact H. cbn [b2n]. nia.
Qed.

Lemma ins_lt k q j n : k <= n -> j < 2 ^ n -> ins k q j < 2 ^ S n.
Proof.
  intros Hk Hj. unfold ins. assert (Hp := pow2_pos k).
  assert (Hm := Nat.mod_upper_bound j (2 ^ k)). assert (Hd := Nat.div_mod_eq j (2 ^ k)).
  assert (E : 2 ^ n = 2 ^ k * 2 ^ (n - k)) by (rewrite <- Nat.pow_add_r; f_equal; lia).
  assert (Hq : j / 2 ^ k < 2 ^ (n - k)) by (apply Nat.div_lt_upper_bound; [lia | rewrite <- E; exact Hj]).
  rewrite Nat.pow_succ_r', E. assert (Nat.b2n q <= 1) by (destruct q; cbn; lia). nia.
Qed.

Lemma ins_mono k q i j : i < j -> ins k q i < ins k q j.
Proof.
  intro H. unfold ins. assert (Hp := pow2_pos k).
  assert (Hi := Nat.div_mod_eq i (2 ^ k)). assert (Hj := Nat.div_mod_eq j (2 ^ k)).
  assert (Mi := Nat.mod_upper_bound i (2 ^ k)). assert (Mj := Nat.mod_upper_bound j (2 ^ k)).
  assert (Hq : i / 2 ^ k <= j / 2 ^ k) by (apply Nat.div_le_mono; lia).
  destruct (Nat.eq_dec (i / 2 ^ k) (j / 2 ^ k)); nia.
Qed.

Lemma testbit_div x k : Nat.testbit x k = Nat.odd (x / 2 ^ k).
Proof. rewrite Nat.testbit_odd, Nat.shiftr_div_pow2. reflexivity. Qed.

Lemma ins_bit k q j : Nat.testbit (ins k q j) k = q.
Proof.
  rewrite testbit_div. unfold ins. assert (Hp := pow2_pos k). assert (Hm := Nat.mod_upper_bound j (2 ^ k)).
  replace (j mod 2 ^ k + Nat.b2n q * 2 ^ k + 2 * 2 ^ k * (j / 2 ^ k))
    with (j mod 2 ^ k + (Nat.b2n q + 2 * (j / 2 ^ k)) * 2 ^ k) by lia.
  rewrite Nat.div_add by lia. rewrite Nat.div_small by lia. cbn [Nat.add]. apply odd_b2n_double.
Qed.

Definition del (k i : nat) : nat := i mod 2 ^ k + 2 ^ k * (i / 2 ^ S k).

Lemma ins_del k i : ins k (Nat.testbit i k) (del k i) = i.
Proof.
  unfold ins, del. assert (Hp := pow2_pos k). assert (Hm := Nat.mod_upper_bound i (2 ^ k)).
  rewrite (Nat.mul_comm (2 ^ k) (i / 2 ^ S k)), Nat.mod_add by lia. rewrite Nat.mod_mod by lia.
  rewrite Nat.div_add by lia. rewrite (Nat.div_small (i mod 2 ^ k)) by lia. rewrite testbit_div.
  assert (H1 := Nat.div_mod_eq i (2 ^ k)). assert (H2 := odd_div2 (i / 2 ^ k)).
  rewrite Nat.div2_div, Nat.div_div in H2 by lia. replace (2 ^ k * 2) with (2 ^ S k) in H2 by (cbn; lia). nia.
Qed.

Lemma del_lt k i n : k <= n -> i < 2 ^ S n -> del k i < 2 ^ n.
Proof.
  intros Hk Hi. unfold del. assert (Hp := pow2_pos k). assert (Hm := Nat.mod_upper_bound i (2 ^ k)).
  assert (E : 2 ^ n = 2 ^ k * 2 ^ (n - k)) by (rewrite <- Nat.pow_add_r; f_equal; lia).
  assert (Hq : i / 2 ^ S k < 2 ^ (n - k)).
  { apply Nat.div_lt_upper_bound; [apply Nat.pow_nonzero; lia|]. rewrite <- Nat.pow_add_r. replace (S k + (n - k)) with (S n) by lia. exact Hi. }
  rewrite E. nia.
Qed.

Lemma map_mono_sorted (g : nat -> nat) l : (forall i j, i < j -> g i < g j) -> StronglySorted lt l -> StronglySorted lt (map g l).
Proof.
  intros Hg. induction 1 as [|x l Hs IH Hf]; cbn [map]; constructor; [exact IH|].
  apply Forall_forall. intros y Hy. apply in_map_iff in Hy as [z [<- Hz]]. apply Hg. rewrite Forall_forall in Hf. apply Hf. exact Hz.
Qed.

Lemma filter_sorted (p : nat -> bool) l : StronglySorted lt l -> StronglySorted lt (filter p l).
Proof.
  induction 1 as [|x l Hs IH Hf]; cbn [filter]; [constructor|]. destruct (p x); [|exact IH]. constructor; [exact IH|].
  apply Forall_forall. intros y Hy. apply filter_In in Hy as [Hy _]. rewrite Forall_forall in Hf. apply Hf. exact Hy.
Qed.

Lemma filter_bit n k q : k <= n -> filter (fun i => Bool.eqb (Nat.testbit i k) q) (seq 0 (2 ^ S n)) = map (ins k q) (seq 0 (2 ^ n)).
Proof.
  intro Hk. apply sorted_lt_ext.
  - apply filter_sorted, range_sorted_lt.
  - apply map_mono_sorted; [intros i j; apply ins_mono | apply range_sorted_lt].
  - intro i. rewrite filter_In, in_seq, in_map_iff. split.
    + intros [[_ Hi] Hb]. apply eqb_prop in Hb. subst q. exists (del k i). split; [apply ins_del|]. apply in_seq. split; [lia|]. apply del_lt; [exact Hk | exact Hi].
    + intros [j [<- Hj]]. apply in_seq in Hj. split; [split; [lia | apply (ins_lt k q j n); [exact Hk | lia]]|]. rewrite ins_bit. apply eqb_reflx.
Qed.

(** * The two halves *)

Lemma combine_nth_seq {A B} (v : list A) (w : list B) a b : length v = length w ->
  combine v w = map (fun i => (nth i v a, nth i w b)) (seq 0 (length v)).
Proof.
  revert w; induction v as [|x v IH]; intros [|y w] H; try discriminate H; [reflexivity|].
  cbn [combine length seq map nth]. f_equal. rewrite (IH w) by (injection H; auto). rewrite <- seq_shift, map_map. reflexivity.
Qed.

Lemma filter_map_comm {A B} (g : A -> B) (p : B -> bool) l : filter p (map g l) = map g (filter (fun x => p (g x)) l).
Proof. induction l as [|x l IH]; [reflexivity|]. cbn [map filter]. destruct (p (g x)); cbn [map]; rewrite IH; reflexivity. Qed.

Definition half (n k : nat) (q : bool) (v : list bool) : list bool := map (fun j => nth (ins k q j) v false) (seq 0 (2 ^ n)).

Lemma half_length n k q v : length (half n k q v) = 2 ^ n.
Proof. unfold half. rewrite map_length, seq_length. reflexivity. Qed.

Lemma half_nth n k q v j : j < 2 ^ n -> nth j (half n k q v) false = nth (ins k q j) v false.
Proof.
  intro H. unfold half. rewrite (nth_indep _ false (nth (ins k q 0) v false)) by (rewrite map_length, seq_length; exact H).
  rewrite (map_nth (fun j => nth (ins k q j) v false)), seq_nth by exact H. reflexivity.
Qed.

Lemma halves_eq n k v : k <= n -> length v = 2 ^ S n ->
  exists p, make_atompattern (Z.of_nat k) (S n) false = Ok p /\
    vector_zip_apart v (map Nat.b2n p) = Ok [half n k false v; half n k true v].
Proof.
  intros Hk Hv. destruct (atompattern_spec (Z.of_nat k) (S n) false) as [p [E [Hl Hp]]]; [rewrite atom_of_nat; lia|].
  exists p. split; [exact E|].
  assert (Hp' : forall i, i < 2 ^ S n -> nth i p false = Nat.testbit i k).
  { intros i Hi. rewrite Hp by exact Hi. rewrite atom_of_nat, (proj2 (Z.ltb_ge _ _)) by lia. apply xorb_false_r. }
  assert (Hlen : length v = length (map Nat.b2n p)) by (rewrite map_length; lia).
  destruct (zip_apart_spec v (map Nat.b2n p) Hlen) as [rows [Er [Hr Hn]]].
  { intro H. apply map_eq_nil in H. subst p. cbn [length] in Hl. assert (H := pow2_pos (S n)). lia. }
  rewrite Er. f_equal.
  assert (Hpk : forall q : bool, picks v (map Nat.b2n p) (Nat.b2n q) = half n k q v).
  { intro q. unfold picks, half. rewrite (combine_nth_seq v (map Nat.b2n p) false 0 Hlen), filter_map_comm, map_map. cbn [fst snd].
    rewrite <- (map_map (ins k q) (fun i => nth i v false)), <- filter_bit by exact Hk. f_equal. rewrite Hv.
    apply filter_ext_in. intros i Hi. apply in_seq in Hi.
    change 0 with (Nat.b2n false). rewrite map_nth. rewrite Hp' by lia. destruct (Nat.testbit i k), q; reflexivity. }
  assert (Hmax : list_max_nat (map Nat.b2n p) = 1).
  { apply Nat.le_antisymm.
    - apply Nat.lt_succ_r. apply list_max_nat_lt.
      + intro H. apply map_eq_nil in H. subst p. cbn [length] in Hl. assert (H := pow2_pos (S n)). lia.
      + intros x Hx. apply in_map_iff in Hx as [q [<- _]]. destruct q; cbn; lia.
    - apply list_max_nat_ge. assert (Hi : ins k true 0 < 2 ^ S n) by (apply (ins_lt k true 0 n); [exact Hk | apply pow2_pos]).
      change 1 with (Nat.b2n true). apply in_map. rewrite <- (ins_bit k true 0), <- Hp' by exact Hi. apply nth_In. lia. }
  rewrite Hmax in Hr. destruct rows as [|a [|b [|c rows]]]; try discriminate Hr.
  assert (Ha := Hn (Nat.b2n false)). assert (Hb := Hn (Nat.b2n true)). cbn [Nat.b2n nth] in Ha, Hb.
  change 0 with (Nat.b2n false) in Ha. change 1 with (Nat.b2n true) in Hb. rewrite Hpk in Ha, Hb. congruence.
Qed.

(** * Tables and atoms *)

Lemma table_half (q : bool) v l1 a l2 e : length v = 2 ^ S (length (l1 ++ l2)) ->
  e a = q -> table v (l1 ++ a :: l2) e = table (half (length (l1 ++ l2)) (length l1) q v) (l1 ++ l2) e.
Proof.
  intros Hv Hq. unfold table. rewrite map_app. cbn [map]. rewrite b2n_ins, map_length, Hq, <- map_app.
  assert (Hlt := b2n_lt (map e (l1 ++ l2))). rewrite map_length in Hlt.
  rewrite half_nth by exact Hlt. reflexivity.
Qed.

Lemma weight_seq v : binv_weight v = list_sum_nat (map (fun i => Nat.b2n (nth i v false)) (seq 0 (length v))).
Proof.
  unfold binv_weight. f_equal. rewrite <- (map_map (fun i => nth i v false) Nat.b2n). f_equal.
  induction v as [|x v IH]; [reflexivity|]. cbn [length seq map nth]. f_equal. rewrite <- seq_shift, map_map. exact IH.
Qed.

Lemma list_sum_perm a b : Permutation a b -> list_sum_nat a = list_sum_nat b.
Proof. unfold list_sum_nat. induction 1; cbn; lia. Qed.

Lemma list_sum_app a b : list_sum_nat (a ++ b) = list_sum_nat a + list_sum_nat b.
Proof. unfold list_sum_nat. induction a; cbn; lia. Qed.

Lemma filter_split_perm {A} (p : A -> bool) l : Permutation l (filter p l ++ filter (fun x => negb (p x)) l).
Proof.
  induction l as [|x l IH]; [constructor|]. cbn [filter]. destruct (p x); cbn [negb app].
  - constructor. exact IH.
  - apply Permutation_cons_app. exact IH.
Qed.

(** an even number of ones if the halves agree *)
Lemma weight_halves n k v : k <= n -> length v = 2 ^ S n -> binv_weight v = binv_weight (half n k false v) + binv_weight (half n k true v).
Proof.
  intros Hk Hv. rewrite weight_seq, Hv.
  assert (P := filter_split_perm (fun i => Bool.eqb (Nat.testbit i k) false) (seq 0 (2 ^ S n))).
  apply (Permutation_map (fun i => Nat.b2n (nth i v false))) in P. apply list_sum_perm in P. rewrite P.
  rewrite map_app, list_sum_app.
  assert (E : filter (fun i => negb (Bool.eqb (Nat.testbit i k) false)) (seq 0 (2 ^ S n)) = filter (fun i => Bool.eqb (Nat.testbit i k) true) (seq 0 (2 ^ S n))).
  { apply filter_ext. intro i. destruct (Nat.testbit i k); reflexivity. }
  rewrite E, !filter_bit by exact Hk. unfold binv_weight, half. rewrite !map_map. reflexivity.
Qed.

Lemma odd_weight_halves n k v : k <= n -> length v = 2 ^ S n -> Nat.even (binv_weight v) = false ->
  half n k false v <> half n k true v.
Proof.
  intros Hk Hv Ho E. rewrite (weight_halves n k v Hk Hv), E in Ho.
  replace (binv_weight (half n k true v) + binv_weight (half n k true v)) with (2 * binv_weight (half n k true v)) in Ho by lia.
  rewrite Nat.even_mul in Ho. discriminate Ho.
Qed.

(** * The loop *)

(** an atom at a place whose halves differ is essential *)
Definition differs (v : list bool) (n k : nat) : Prop := half (n - 1) k false v <> half (n - 1) k true v.

Inductive deflation {A} (v : list bool) (l : list A) : list bool -> list A -> Prop :=
| defl_refl : deflation v l v l
| defl_step l1 a l2 v' l' : l = l1 ++ a :: l2 ->
    half (length (l1 ++ l2)) (length l1) false v = half (length (l1 ++ l2)) (length l1) true v ->
    deflation (half (length (l1 ++ l2)) (length l1) false v) (l1 ++ l2) v' l' -> deflation v l v' l'.

Lemma deflate_loop_spec {A} fuel : forall v (l : list A) k, length v = 2 ^ length l -> k <= length l ->
  (forall i, i < k -> differs v (length l) i) ->
  length l * S (length l) + (length l - k) < fuel ->
  exists v' l', deflate_loop fuel v l k = Ok (v', l') /\ deflation v l v' l' /\
    length v' = 2 ^ length l' /\ forall i, i < length l' -> differs v' (length l') i.
Proof.
  induction fuel as [|fuel IH]; intros v l k Hv Hk Hd Hf; [lia|]. cbn [deflate_loop].
  destruct (Nat.even (binv_weight v)) eqn:Ew.
  - destruct (Nat.leb_spec (length l) k) as [H|H].
    + exists v, l. split; [reflexivity|]. split; [constructor|]. split; [exact Hv|]. intros i Hi. apply Hd. lia.
    + destruct (length l) as [|n] eqn:El; [lia|].
      destruct (halves_eq n k v) as [p [Ep Ez]]; [lia | exact Hv |]. rewrite Ep. cbn [bind]. rewrite Ez. cbn [bind].
      assert (Hsplit : exists l1 a l2, l = l1 ++ a :: l2 /\ length l1 = k).
      { assert (Hk' : k < length l) by lia. destruct (skipn k l) as [|a l2] eqn:Es.
        - apply (f_equal (@length A)) in Es. rewrite skipn_length in Es. cbn in Es. lia.
        - exists (firstn k l), a, l2. split; [rewrite <- Es; symmetry; apply firstn_skipn | rewrite firstn_length; lia]. }
      destruct Hsplit as [l1 [a [l2 [-> Hk1]]]].
      assert (Hn : length (l1 ++ l2) = n) by (rewrite app_length in El |- *; cbn [length] in El; lia).
      destruct (bvec_eqb (half n k false v) (half n k true v)) eqn:Eb.
      * apply bvec_eqb_eq in Eb.
        replace (firstn k (l1 ++ a :: l2) ++ skipn (S k) (l1 ++ a :: l2)) with (l1 ++ l2).
        2:{ subst k. rewrite firstn_app, Nat.sub_diag, firstn_all, firstn_O, app_nil_r.
            rewrite skipn_app, (skipn_all2 l1) by lia. replace (S (length l1) - length l1) with 1 by lia. reflexivity. }
        destruct (IH (half n k false v) (l1 ++ l2) 0) as [v' [l' [E [D [L F]]]]].
        { rewrite Hn. apply half_length. } { lia. } { intros i Hi; lia. } { rewrite Hn. nia. }
        exists v', l'. split; [exact E|]. split; [|split; assumption]. subst k n. apply (defl_step v _ l1 a l2 v' l'); [reflexivity | exact Eb | exact D].
      * assert (El' : length (l1 ++ a :: l2) = S n) by exact El.
        destruct (IH v (l1 ++ a :: l2) (S k)) as [v' [l' [E [D [L F]]]]].
        { rewrite El'. exact Hv. } { lia. }
        { intros i Hi. rewrite El'. unfold differs in *. replace (S n - 1) with n by lia. destruct (Nat.eq_dec i k) as [-> | Hne].
          - intro C. rewrite C in Eb. rewrite (proj2 (bvec_eqb_eq _ _) eq_refl) in Eb. discriminate Eb.
          - specialize (Hd i). replace (S n - 1) with n in Hd by lia. apply Hd. lia. }
        { rewrite El'. lia. }
        exists v', l'. split; [exact E|]. split; [exact D|]. split; assumption.
  - exists v, l. split; [reflexivity|]. split; [constructor|]. split; [exact Hv|]. intros i Hi. unfold differs.
    destruct (length l) as [|n]; [lia|]. replace (S n - 1) with n by lia. apply odd_weight_halves; [lia | exact Hv | exact Ew].
Qed.

Lemma deflate_spec {A} v (l : list A) : length v = 2 ^ length l ->
  exists v' l', deflate v l = Ok (v', l') /\ deflation v l v' l' /\
    length v' = 2 ^ length l' /\ forall i, i < length l' -> differs v' (length l') i.
Proof. intro H. unfold deflate. apply deflate_loop_spec; [exact H | lia | intros i Hi; lia | nia]. Qed.
