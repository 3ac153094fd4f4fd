(** Proof_BoolfMore: leader, reverse, foibles, consul, prefect, Walsh spectra of [Boolf] objects. *)

From Coq Require Import List Arith ZArith Bool Lia Permutation Sorted.
From Verif Require Import Model_Base Lib Model_Perm Model_Binary Model_SigPerm Model_WalshPerm Model_Twin Model_Boolf Model_BoolfMore
  Spec_Bits Spec_SigPerm Spec_WalshPerm Spec_Boolf Spec_Twin Proof_Binary Proof_Helpers Proof_Linear Proof_Deflate Proof_Reorder Proof_Boolf Proof_BoolfTable Proof_BoolfApply
  Proof_WalshLinear Proof_WalshIndex Proof_WalshMore Proof_Twin Proof_BoolfMake Proof_Noble.
Import ListNotations.
Open Scope nat_scope.

(** * Quadrant and leader *)

Lemma quadrant_tab f n : fitting f -> adicity f <= n -> quadrant f = Nat.b2n (tab f 0) + Nat.b2n (tab f (2 ^ n - 1)) * 2.
Proof. intros Hf Hn. unfold quadrant. rewrite is_odd_tab, (is_odious_tab f n Hf Hn). reflexivity. Qed.

(** the twin of the complement of the twin differs only at place 0 *)
Lemma twin_not_twin f n : fitting f -> adicity f <= n ->
  exists g h k, boolf_twin f (Some n) = Ok g /\ boolf_not g = Ok h /\ boolf_twin h (Some n) = Ok k /\ reduced k /\ adicity k <= n /\
    forall j, j < 2 ^ n -> tab k j = xorb (tab f j) (j =? 0).
Proof.
  intros Hf Hn. destruct (twin_spec f n Hf Hn) as [g [Eg [Rg [Ag Tg]]]]. destruct (not_spec g (proj1 Rg)) as [h [Eh [Rh Sh]]].
  assert (Ah : adicity h <= n) by (apply (adicity_le h n Rh); intros e e' He; rewrite !Sh; f_equal; apply (sem_low g n e e' Ag He)).
  destruct (twin_spec h n (proj1 Rh) Ah) as [k [Ek [Rk [Ak Tk]]]]. exists g, h, k. do 5 (split; [assumption|]). intros j Hj. rewrite Tk by exact Hj.
  rewrite (anf_ext n (tab h) (fun i => xorb true (anf n (tab f) i))).
  - rewrite (anf_xorb n (fun _ => true)), anf_all, anf_involution, (Nat.eqb_sym 0 j) by exact Hj. apply xorb_comm.
  - intros i Hi. unfold tab at 1. rewrite Sh. fold (tab g i). rewrite Tg by exact Hi. reflexivity.
Qed.

Definition leader_diff (q j : nat) : bool :=
  match q with 0 => false | 1 => j =? 0 | 2 => negb (j =? 0) | _ => true end.

Lemma leader_spec f n : reduced f -> adicity f <= n ->
  exists g, leader f (Some n) = Ok g /\ reduced g /\ adicity g <= n /\ forall j, j < 2 ^ n -> tab g j = xorb (tab f j) (leader_diff (quadrant f) j).
Proof.
  intros R Hn. unfold leader. destruct (quadrant f) as [|[|[|q]]]; cbn [leader_diff].
  - exists f. split; [reflexivity|]. split; [exact R|]. split; [exact Hn|]. intros j _. symmetry. apply xorb_false_r.
  - destruct (twin_not_twin f n (proj1 R) Hn) as [g [h [k [Eg [Eh [Ek [Rk [Ak Tk]]]]]]]]. exists k. rewrite Eg. cbn [bind]. rewrite Eh. cbn [bind].
    split; [exact Ek|]. split; [exact Rk|]. split; [exact Ak | exact Tk].
  - destruct (not_spec f (proj1 R)) as [c [Ec [Rc Sc]]]. rewrite Ec. cbn [bind].
    assert (Ac : adicity c <= n) by (apply (adicity_le c n Rc); intros e e' He; rewrite !Sc; f_equal; apply (sem_low f n e e' Hn He)).
    destruct (twin_not_twin c n (proj1 Rc) Ac) as [g [h [k [Eg [Eh [Ek [Rk [Ak Tk]]]]]]]]. exists k. rewrite Eg. cbn [bind]. rewrite Eh. cbn [bind].
    split; [exact Ek|]. split; [exact Rk|]. split; [exact Ak|]. intros j Hj. rewrite Tk by exact Hj. unfold tab at 1. rewrite Sc. fold (tab f j). destruct (tab f j), (j =? 0); reflexivity.
  - destruct (not_spec f (proj1 R)) as [c [Ec [Rc Sc]]]. exists c. split; [exact Ec|]. split; [exact Rc|]. split.
    + apply (adicity_le c n Rc). intros e e' He. rewrite !Sc. f_equal. apply (sem_low f n e e' Hn He).
    + intros j _. unfold tab at 1. rewrite Sc. symmetry. apply xorb_true_r.
Qed.

Lemma leader_quadrant f g n : reduced f -> adicity f <= n -> leader f (Some n) = Ok g -> quadrant g = 0.
Proof.
  intros R Hn E. destruct (leader_spec f n R Hn) as [g' [E' [Rg [Ag T]]]]. rewrite E in E'. injection E' as <-.
  assert (Hp := pow2_pos n). rewrite (quadrant_tab g n (proj1 Rg) Ag), !T by lia. rewrite (quadrant_tab f n (proj1 R) Hn). destruct n as [|n].
  - change (2 ^ 0 - 1) with 0. destruct (tab f 0); reflexivity.
  - assert (E0 : (2 ^ S n - 1 =? 0) = false) by (apply Nat.eqb_neq; assert (H2 := pow2_pos n); cbn; lia).
    destruct (tab f 0), (tab f (2 ^ S n - 1)); cbn [Nat.b2n Nat.add Nat.mul leader_diff]; rewrite ?E0; reflexivity.
Qed.

Lemma leader_reject f n : n < adicity f -> reduced f -> quadrant f = 1 \/ quadrant f = 2 -> leader f (Some n) = Err AssertErr.
Proof.
  intros H R Hq. unfold leader. destruct Hq as [-> | ->].
  - rewrite (twin_reject f n H). reflexivity.
  - destruct (not_spec f (proj1 R)) as [c [Ec [Rc Sc]]]. rewrite Ec. cbn [bind].
    rewrite twin_reject; [reflexivity|]. apply Nat.lt_le_trans with (adicity f); [exact H|].
    apply adicity_least. intros a Ha. apply adicity_bound. apply (atoms_essential c a Rc). apply (atoms_essential f a R) in Ha.
    destruct Ha as [e He]. exists e. rewrite !Sc. intro C. apply He. destruct (sem f (upd e a true)), (sem f (upd e a false)); (reflexivity || discriminate C).
Qed.

(** * Reverse *)

Lemma b2n_negb l : b2n (map negb l) = 2 ^ length l - 1 - b2n l.
Proof.
  induction l as [|x l IH]; [reflexivity|]. cbn [map b2n length]. rewrite IH, Nat.pow_succ_r'. assert (H := b2n_lt l). destruct x; cbn [negb Nat.b2n]; lia.
Qed.

Lemma reverse_spec f : fitting f -> exists g, reverse f = Ok g /\ reduced g /\ forall e, sem g e = sem f (fun a => negb (e a)).
Proof.
  intros [Hs Hl]. unfold reverse. destruct (Boolf_vec_sorted (rev (root f)) (atomvals f) Hs) as [h [Eh [Rh Sh]]]; [rewrite rev_length; exact Hl|].
  exists h. split; [exact Eh|]. split; [exact Rh|]. intro e. rewrite Sh. unfold sem, table. assert (Hlt := b2n_lt (map e (atomvals f))). rewrite map_length in Hlt.
  rewrite rev_nth by (rewrite Hl; exact Hlt). f_equal. rewrite <- (map_map e negb), b2n_negb, map_length, Hl. lia.
Qed.

(** * Foibles *)

Lemma odd_weight v : Nat.eqb (binv_weight v mod 2) 1 = xor_all v.
Proof.
  rewrite <- odd_bsum, <- Nat.bit0_odd. rewrite Nat.bit0_eqb. reflexivity.
Qed.

Lemma is_male_spec f : is_male f = xor_all (root f).
Proof. apply odd_weight. Qed.

Lemma is_sharp_spec f n : fitting f -> adicity f <= n -> is_sharp f n = Ok (xor_all (map (tab f) (range (2 ^ n)))).
Proof. intros Hf Hn. unfold is_sharp. rewrite tt_spec by assumption. cbn [bind]. rewrite odd_weight. reflexivity. Qed.

Lemma xor_all_perm l l' : Permutation l l' -> xor_all l = xor_all l'.
Proof.
  unfold xor_all. intro H. induction H; cbn; [reflexivity | rewrite IHPermutation; reflexivity | destruct x, y; cbn; destruct (fold_right xorb false l); reflexivity | congruence].
Qed.

(** places come in pairs that differ in bit a *)
Lemma xor_pairs n a F : a < n -> (forall j, j < 2 ^ n -> F (Nat.lxor j (2 ^ a)) = F j) -> xor_all (map F (seq 0 (2 ^ n))) = false.
Proof.
  intros Ha H. set (p := fun j => Nat.testbit j a).
  assert (Hpow : 2 ^ a < 2 ^ n) by (apply Nat.pow_lt_mono_r; lia).
  assert (P1 : Permutation (seq 0 (2 ^ n)) (filter p (seq 0 (2 ^ n)) ++ filter (fun j => negb (p j)) (seq 0 (2 ^ n)))).
  { generalize (seq 0 (2 ^ n)). intro l. induction l as [|x l IH]; [constructor|]. cbn [filter]. destruct (p x); cbn [negb app]; [constructor; exact IH|].
    apply Permutation_cons_app. exact IH. }
  assert (P2 : Permutation (filter (fun j => negb (p j)) (seq 0 (2 ^ n))) (map (fun j => Nat.lxor j (2 ^ a)) (filter p (seq 0 (2 ^ n))))).
  { apply NoDup_Permutation.
    - apply NoDup_filter, seq_NoDup.
    - apply FinFun.Injective_map_NoDup; [|apply NoDup_filter, seq_NoDup]. intros x y E. apply (f_equal (fun z => Nat.lxor z (2 ^ a))) in E.
      rewrite !Nat.lxor_assoc, Nat.lxor_nilpotent, !Nat.lxor_0_r in E. exact E.
    - intro x. rewrite filter_In, in_seq, in_map_iff. split.
      + intros [Hx Hb]. exists (Nat.lxor x (2 ^ a)). split; [rewrite Nat.lxor_assoc, Nat.lxor_nilpotent; apply Nat.lxor_0_r|].
        apply filter_In. split; [apply in_seq; split; [lia|]; apply lxor_lt; [lia | exact Hpow]|]. unfold p in *. rewrite Nat.lxor_spec, Nat.pow2_bits_true. rewrite xorb_true_r. exact Hb.
      + intros [y [<- Hy]]. apply filter_In in Hy as [Hy Hb]. apply in_seq in Hy. split; [split; [lia|]; apply lxor_lt; [lia | exact Hpow]|].
        unfold p in *. rewrite Nat.lxor_spec, Nat.pow2_bits_true, Hb. reflexivity. }
  rewrite (xor_all_perm _ _ (Permutation_map F P1)), map_app, xor_all_app. rewrite (xor_all_perm _ _ (Permutation_map F P2)), map_map.
  assert (E : map (fun x => F (Nat.lxor x (2 ^ a))) (filter p (seq 0 (2 ^ n))) = map F (filter p (seq 0 (2 ^ n)))).
  { apply map_ext_in. intros x Hx. apply filter_In in Hx as [Hx _]. apply in_seq in Hx. apply H. lia. }
  unfold range in *. rewrite E. apply xorb_nilpotent.
Qed.

Lemma ascending_full l n : ascending l -> (forall a, In a l -> a < n) -> length l = n -> l = seq 0 n.
Proof.
  intros Hs Hb Hl. apply sorted_lt_ext; [exact Hs | apply range_sorted_lt|]. intro a. rewrite in_seq. split; [intro Ha; apply Hb in Ha; lia|]. intros [_ Ha].
  assert (Hn : NoDup l) by (apply sorted_lt_NoDup; exact Hs). assert (P : Permutation l (seq 0 n)).
  { apply NoDup_Permutation_bis; [exact Hn | rewrite seq_length; lia|]. intros x Hx. apply in_seq. apply Hb in Hx. lia. }
  apply (Permutation_in _ (Permutation_sym P)). apply in_seq. lia.
Qed.

Lemma is_sharp_male f n : fitting f -> adicity f <= n -> is_sharp f n = Ok (is_male f && Nat.eqb (length (atomvals f)) n).
Proof.
  intros Hf Hn. rewrite is_sharp_spec by assumption. f_equal. destruct (Nat.eqb_spec (length (atomvals f)) n) as [E|E].
  - rewrite andb_true_r, is_male_spec. f_equal. destruct Hf as [Hs Hl].
    assert (Ea : atomvals f = seq 0 n) by (apply ascending_full; [exact Hs | intros a Ha; apply adicity_bound in Ha; lia | exact E]).
    apply nth_ext with (d := false) (d' := false); [rewrite map_length, range_length; congruence|]. intros i Hi. rewrite map_length, range_length in Hi. rewrite nth_table by exact Hi.
    unfold tab, sem, table. rewrite Ea. f_equal. apply Nat.bits_inj. intro k. fold (range n). rewrite testbit_table.
    destruct (Nat.ltb_spec k n) as [Hk|Hk]; [reflexivity|]. symmetry. apply (bit_bound_lt i n Hi k Hk).
  - rewrite andb_false_r. assert (Ha : exists a, a < n /\ ~ In a (atomvals f)).
    { destruct (forallb (fun a => existsb (Nat.eqb a) (atomvals f)) (seq 0 n)) eqn:A.
      - exfalso. apply E. rewrite forallb_forall in A. assert (Hinc : incl (seq 0 n) (atomvals f)).
        { intros a Ha. apply A in Ha. apply existsb_exists in Ha as [b [Hb Eb]]. apply Nat.eqb_eq in Eb. subst. exact Hb. }
        assert (H1 := NoDup_incl_length (seq_NoDup n 0) Hinc). rewrite seq_length in H1.
        assert (Hinc2 : incl (atomvals f) (seq 0 n)) by (intros a Ha; apply adicity_bound in Ha; apply in_seq; lia).
        assert (H2 := NoDup_incl_length (sorted_lt_NoDup _ (proj1 Hf)) Hinc2). rewrite seq_length in H2. lia.
      - apply not_true_iff_false in A. destruct (existsb (fun a => negb (existsb (Nat.eqb a) (atomvals f))) (seq 0 n)) eqn:B.
        + apply existsb_exists in B as [a [Ha Hb]]. apply in_seq in Ha. exists a. split; [lia|]. intro C. apply negb_true_iff in Hb.
          assert (existsb (Nat.eqb a) (atomvals f) = true) by (apply existsb_exists; exists a; split; [exact C | apply Nat.eqb_refl]). congruence.
        + exfalso. apply A. apply forallb_forall. intros a Ha. destruct (existsb (Nat.eqb a) (atomvals f)) eqn:C; [reflexivity|].
          assert (existsb (fun a => negb (existsb (Nat.eqb a) (atomvals f))) (seq 0 n) = true) by (apply existsb_exists; exists a; rewrite C; auto). congruence. }
    destruct Ha as [a [Ha Hna]]. apply (xor_pairs n a (tab f) Ha). intros j Hj. unfold tab. apply sem_ext. intros b Hb. rewrite Nat.lxor_spec.
    rewrite Nat.pow2_bits_false by (intros ->; contradiction). apply xorb_false_r.
Qed.

(** * Consul *)

Lemma lxor_all_bit l k : Nat.testbit (lxor_all l) k = xor_all (map (fun i => Nat.testbit i k) l).
Proof. induction l as [|x l IH]; [apply Nat.bits_0|]. cbn. rewrite Nat.lxor_spec. unfold lxor_all in IH. rewrite IH. reflexivity. Qed.

Lemma lxor_all_lt l n : (forall x, In x l -> x < 2 ^ n) -> lxor_all l < 2 ^ n.
Proof. induction l as [|x l IH]; intro H; [apply pow2_pos|]. cbn. apply lxor_lt; [apply H; left; reflexivity | apply IH; intros y Hy; apply H; right; exact Hy]. Qed.

Lemma consul_fold (t : list bool) : fold_left (fun result kv => if snd kv : bool then Nat.lxor result (fst kv) else result) (combine (range (length t)) t) 0
  = lxor_all (filter (fun k => nth k t false) (seq 0 (length t))).
Proof.
  unfold range. assert (G : forall t a acc, fold_left (fun result kv => if snd kv : bool then Nat.lxor result (fst kv) else result) (combine (seq a (length t)) t) acc
    = Nat.lxor acc (lxor_all (filter (fun k => nth (k - a) t false) (seq a (length t))))).
  { clear t. induction t as [|x t IH]; intros a acc; [cbn; rewrite Nat.lxor_0_r; reflexivity|]. cbn [length seq combine fold_left fst snd filter]. rewrite Nat.sub_diag. change (nth 0 (x :: t) false) with x.
    rewrite IH. assert (E : filter (fun k => nth (k - a) (x :: t) false) (seq (S a) (length t)) = filter (fun k => nth (k - S a) t false) (seq (S a) (length t))).
    { apply filter_ext_in. intros k Hk. apply in_seq in Hk. replace (k - a) with (S (k - S a)) by lia. reflexivity. }
    rewrite E. destruct x; [|reflexivity]. cbn [lxor_all fold_right]. rewrite Nat.lxor_assoc. reflexivity. }
  rewrite G, Nat.lxor_0_l. f_equal. apply filter_ext. intro k. rewrite Nat.sub_0_r. reflexivity.
Qed.

Lemma consul_spec f n : fitting f -> adicity f <= n -> consul f (TtArity n) = Ok (lxor_all (filter (tab f) (seq 0 (2 ^ n)))).
Proof.
  intros Hf Hn. unfold consul. rewrite tt_spec by assumption. cbn [bind]. f_equal. rewrite consul_fold, map_length, range_length. f_equal.
  apply filter_ext_in. intros k Hk. apply in_seq in Hk. apply nth_table. lia.
Qed.

Lemma xor_all_dot l n j : xor_all (map (fun i => dot n i j) l) = dot n (lxor_all l) j.
Proof.
  induction l as [|x l IH]; [cbn; unfold dot; rewrite xor_all_zero; [reflexivity|]; intros i _; rewrite Nat.bits_0; reflexivity|].
  cbn [map lxor_all fold_right]. rewrite dot_lxor. unfold lxor_all in IH. rewrite <- IH. reflexivity.
Qed.

Lemma consul_slow_spec f n : fitting f -> adicity f <= n -> consul_slow f n = consul f (TtArity n).
Proof.
  intros Hf Hn. rewrite consul_spec by assumption. unfold consul_slow. rewrite tt_spec by assumption. cbn [bind]. rewrite map_length, range_length.
  unfold log_int, is_power_of_two. assert (Hp := pow2_pos n). rewrite Nat.log2_pow2 by lia. rewrite Nat.eqb_refl, (proj2 (Nat.ltb_lt 0 (2 ^ n)) Hp). cbn [andb true_except bind]. rewrite Nat.eqb_refl. cbn [true_except bind].
  destruct (walsh_matrix_spec n false) as [m [Em [_ [_ M]]]]. rewrite Em. cbn [bind]. set (c := lxor_all (filter (tab f) (seq 0 (2 ^ n)))).
  assert (Hc : c < 2 ^ n) by (apply lxor_all_lt; intros x Hx; apply filter_In in Hx as [Hx _]; apply in_seq in Hx; lia).
  match goal with |- walsh_function_to_index ?v false = _ => set (w := v) end.
  assert (Hw : walsh_row n c w).
  { split; [unfold w; rewrite map_length; apply range_length|]. intros j Hj. unfold w. rewrite nth_table by exact Hj.
    unfold c. rewrite <- xor_all_dot, xor_all_filter.
    transitivity (Nat.odd (bsum (map (fun i => nth i (map (tab f) (range (2 ^ n))) false && nth j (nth i m []) false) (range (2 ^ n))))); [unfold bsum; rewrite map_map; reflexivity|].
    rewrite odd_bsum. apply xor_all_ext. intros i Hi. apply in_seq in Hi. rewrite nth_table by lia. f_equal. fold (mat m i j). rewrite M by lia. apply xorb_false_r. }
  destruct n as [|n].
  - assert (W : forall u : list bool, length u = 1 -> nth 0 u false = false -> u = [false]) by (intros [|x [|y u]]; cbn; intros; (discriminate || congruence)).
    assert (H : w = [false]) by (apply W; [apply Hw | rewrite (proj2 Hw) by (cbn; lia); reflexivity]).
    rewrite H. assert (H0 : c = 0) by (apply Nat.lt_1_r; exact Hc). rewrite H0. reflexivity.
  - destruct (index_cases (S n) w ltac:(lia) (proj1 Hw)) as [[c' [H1 [H2 H3]]] | [H1 _]].
    + rewrite H3. f_equal. apply (walsh_row_inj (S n) c' c w H1 Hc H2 Hw).
    + exfalso. apply (H1 c Hc Hw).
Qed.

(** * Prefect *)

Lemma odd_count_ones k : Nat.odd (count_ones k) = xor_all (map (fun _ => true) (ones k)).
Proof.
  unfold count_ones. fold (ones k). induction (ones k) as [|x l IH]; [reflexivity|]. cbn [length map]. rewrite Nat.odd_succ, <- Nat.negb_odd, IH. reflexivity.
Qed.

Lemma dot_over_ones n k i : k < 2 ^ n -> dot n k i = xor_all (map (Nat.testbit i) (ones k)).
Proof. intro H. rewrite (ones_bound n k H), xor_all_filter. reflexivity. Qed.

Lemma mod2_eqb a b : Nat.eqb (a mod 2) (b mod 2) = negb (xorb (Nat.odd a) (Nat.odd b)).
Proof. rewrite !mod2_odd. destruct (Nat.odd a), (Nat.odd b); reflexivity. Qed.

Lemma xand_value n k i : k < 2 ^ n -> gen_value XAND k i = xorb (dot n k i) (Nat.even (count_ones k)).
Proof.
  intro H. rewrite (dot_over_ones n k i H), <- Nat.negb_odd. unfold gen_value, count_ones. fold (ones k). destruct (ones k) as [|x l] eqn:E; [reflexivity|].
  rewrite <- E. cbn [op_criterion]. rewrite mod2_eqb, odd_bsum. destruct (xor_all (map (Nat.testbit i) (ones k))), (Nat.odd (length (ones k))); reflexivity.
Qed.

Definition prefect_w (z : nat) : nat := lxor_all (ones z).
Definition prefect_q (z : nat) : bool := xor_all (map (fun k => Nat.even (count_ones k)) (ones z)).

Lemma prefect_vector z v n : length v = 2 ^ n -> b2n v = z ->
  zhe_vector_to_prefect_gen v n = Ok (map (fun i => xorb (dot n (prefect_w z) i) (prefect_q z)) (range (2 ^ n))).
Proof.
  intros Hv Hz. unfold zhe_vector_to_prefect_gen, atoms_to_xand_gen. rewrite raw_tt_spec by exact Hv. f_equal. apply map_ext. intro i. unfold combined.
  assert (Hlt : z < 2 ^ 2 ^ n) by (rewrite <- Hz, <- Hv; apply b2n_lt).
  assert (Ee : binv_exposet v = ones z).
  { rewrite exposet_filter, (ones_bound _ _ Hlt), Hv. apply filter_ext. intro k. rewrite <- Hz, testbit_b2n. reflexivity. }
  rewrite Ee. unfold prefect_w, prefect_q. rewrite <- xor_all_dot, <- xor_all_xorb. apply xor_all_ext. intros k Hk. apply xand_value.
  apply (ones_lt _ _ _ Hlt Hk).
Qed.

Lemma prefect_tt_spec f z : fitting f -> boolf_zhe f = Ok z ->
  prefect_tt f = Ok (map (fun i => xorb (dot (adicity f) (prefect_w z) i) (prefect_q z)) (range (2 ^ adicity f))) /\ prefect_w z < 2 ^ adicity f.
Proof.
  intros Hf E. destruct (boolf_zhe_spec f Hf) as [z' [E' [Hz [Z _]]]]. rewrite E in E'. injection E' as <-. unfold boolf_zhe in E. unfold prefect_tt.
  destruct (boolf_tt f TtDefault) as [tt|] eqn:Et; [|discriminate E]. cbn [bind] in *. destruct (vector_to_twin_gen tt (adicity f)) as [tw|] eqn:Ew; [|discriminate E]. cbn [bind] in *.
  injection E as E. rewrite vector_to_int_eq in E. split; [|unfold prefect_w; apply lxor_all_lt; intros x Hx; apply (ones_lt _ _ _ Hz Hx)].
  apply prefect_vector; [|exact E]. rewrite tt_default in Et by exact Hf. injection Et as <-. rewrite twin_vector_spec in Ew by (rewrite map_length; apply range_length).
  injection Ew as <-. rewrite map_length. apply range_length.
Qed.

Lemma odd_weight_w n w : w < 2 ^ n -> dot n w (2 ^ n - 1) = Nat.odd (count_ones w).
Proof.
  intro H. rewrite (dot_over_ones n w _ H), odd_count_ones. apply xor_all_ext. intros i Hi. apply testbit_ones_low. apply (ones_lt _ _ _ H Hi).
Qed.

Lemma prefect_index_spec f z : fitting f -> boolf_zhe f = Ok z -> prefect_walsh_and_oddness f = Ok (prefect_w z, prefect_q z).
Proof.
  intros Hf E. destruct (prefect_tt_spec f z Hf E) as [Et Hw]. unfold prefect_walsh_and_oddness. rewrite Et. cbn [bind]. destruct (adicity f) as [|n] eqn:En.
  - cbn in Hw. assert (H0 : prefect_w z = 0) by lia. rewrite H0. cbn. destruct (prefect_q z); reflexivity.
  - apply (oddness_spec (S n)); [lia | exact Hw | rewrite map_length; apply range_length|]. intros i Hi. rewrite nth_table by exact Hi. reflexivity.
Qed.

Lemma prefect_leader_spec f z : fitting f -> boolf_zhe f = Ok z ->
  prefect_leader_and_quadrant f = Ok (prefect_w z / 2, Nat.b2n (prefect_q z) + 2 * Nat.b2n (xorb (Nat.odd (count_ones (prefect_w z))) (prefect_q z))).
Proof.
  intros Hf E. assert (H := prefect_index_spec f z Hf E). unfold prefect_walsh_and_oddness in H. unfold prefect_leader_and_quadrant. destruct (prefect_tt f) as [t|]; [|discriminate H]. cbn [bind] in *.
  unfold linear_to_leader_and_quadrant. rewrite H. cbn [bind fst snd]. rewrite int_to_weight_eq. set (w := prefect_w z). destruct (Nat.odd (count_ones w)) eqn:Ho.
  - destruct (odious_back w Ho) as [i [E1 E2]]. rewrite E1. cbn [bind]. destruct (odious_index i) as [e [E3 [_ [E4 _]]]]. assert (e = w) by congruence. subst e. rewrite E4. reflexivity.
  - assert (Hev : evil w) by (unfold evil; rewrite <- Nat.negb_odd, Ho; reflexivity).
    destruct (evil_back w Hev) as [i [E1 E2]]. rewrite E1. cbn [bind]. destruct (evil_index i) as [e [E3 [_ [E4 _]]]]. assert (e = w) by congruence. subst e. rewrite E4. reflexivity.
Qed.

Lemma prefect_boolf_spec f z : fitting f -> boolf_zhe f = Ok z ->
  exists g, prefect_boolf f = Ok g /\ reduced g /\ forall e, sem g e = xorb (xor_all (map e (ones (prefect_w z)))) (prefect_q z).
Proof.
  intros Hf E. destruct (prefect_tt_spec f z Hf E) as [Et Hw]. unfold prefect_boolf. rewrite Et. cbn [bind].
  destruct (root_object (fun i => xorb (dot (adicity f) (prefect_w z) i) (prefect_q z)) (adicity f)) as [g [Eg [Rg [Ag Tg]]]]. exists g. split; [exact Eg|]. split; [exact Rg|].
  intro e. rewrite (sem_place g _ e Ag), Tg by apply place_lt. f_equal. rewrite (dot_over_ones _ _ _ Hw). apply xor_all_ext. intros a Ha. apply place_bits. apply (ones_lt _ _ _ Hw Ha).
Qed.
