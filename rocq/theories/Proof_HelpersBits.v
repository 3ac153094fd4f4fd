(** Proof_HelpersBits: linear Boolean functions, ring count vectors, sequences of chosen bits, negated
    truth tables, balanced ternary Walsh matrices, the order of layered integer partitions. *)

From Coq Require Import List Arith ZArith Bool Lia Sorted Permutation.
From Verif Require Import Model_Base Model_Binary Model_Perm Model_Boolf Model_BoolfMore Model_Helpers Spec_Bits Spec_SigPerm Spec_Boolf Spec_Helpers
  Lib Proof_Binary Proof_Boolf Proof_BoolfTable Proof_BoolfMake Proof_Noble Proof_Seqs.
Import ListNotations.
Open Scope nat_scope.

(** ** One bits *)

Lemma litval_nat e i : litval e (Z.of_nat i) = e i.
Proof.
  unfold litval, atom, negated, neg. rewrite Z.max_l by lia. rewrite Nat2Z.id.
  destruct (Z.ltb_spec (Z.of_nat i) 0); [lia|]. apply xorb_false_r.
Qed.

Lemma exposet_NoDup v : NoDup (binv_exposet v).
Proof.
  unfold binv_exposet. apply sorted_lt_NoDup. generalize 0.
  induction v as [|b v IH]; intros k; cbn; [constructor|]. destruct b; cbn; [|apply IH].
  constructor; [apply IH|]. rewrite Forall_map. apply Forall_forall. intros [i c] H. apply filter_In in H.
  destruct H as [H _]. apply in_combine_l in H. apply in_seq in H. cbn. lia.
Qed.

Lemma Binv_ones n : exists v, Binv_intval n None = Ok v /\ ones_of n (binv_exposet v).
Proof.
  destruct (Binv_int_min n) as [v [E [V _]]]. exists v. split; [exact E|]. split; [apply exposet_NoDup|].
  intros i. rewrite binv_exposet_In, <- testbit_b2n. rewrite <- V, binv_intval_eq. tauto.
Qed.

Lemma testbit_lt n a : Nat.testbit n a = true -> a < n.
Proof.
  intros H. destruct (Nat.eq_dec n 0) as [->|N]; [rewrite Nat.bits_0 in H; discriminate|].
  assert (a <= Nat.log2 n).
  { destruct (le_lt_dec a (Nat.log2 n)); [assumption|]. rewrite Nat.bits_above_log2 in H by assumption. discriminate. }
  pose proof (Nat.log2_lt_lin n). lia.
Qed.

Lemma ones_perm n l l' : ones_of n l -> ones_of n l' -> Permutation l l'.
Proof. intros [N I] [N' I']. apply NoDup_Permutation; auto. intros i. now rewrite I, I'. Qed.

Lemma ones_count n l : ones_of n l -> length l = count_ones n.
Proof.
  intros H. apply Permutation_length, (ones_perm n); [exact H|]. split.
  - apply NoDup_filter, seq_NoDup.
  - intros i. rewrite filter_In, in_seq. split; [tauto|]. intros T. split; [|exact T].
    apply testbit_lt in T. lia.
Qed.

(** ** Linear functions *)

Lemma odd_filter_perm (e : nat -> bool) l l' : Permutation l l' -> Nat.odd (length (filter e l)) = Nat.odd (length (filter e l')).
Proof.
  induction 1; cbn; try congruence.
  - destruct (e x); cbn; [|exact IHPermutation]. rewrite !Nat.odd_succ, <- !Nat.negb_odd. now rewrite IHPermutation.
  - destruct (e x), (e y); reflexivity.
Qed.

Lemma fold_xorb l q : fold_left xorb l q = xorb q (Nat.odd (length (filter (fun b => b) l))).
Proof.
  revert q. induction l as [|b l IH]; intros q; cbn; [now destruct q|]. rewrite IH.
  destruct b; cbn [length]; [rewrite Nat.odd_succ, <- Nat.negb_odd|]; destruct q, (Nat.odd _); reflexivity.
Qed.

Lemma linear_xor w : exists v f,
  Binv_intval w None = Ok v /\
  Boolf 1 (mkArgs None None None None None None None (Some (map (fun i => MuInt (Z.of_nat i)) (binv_exposet v))) None None None false) = Ok f /\
  reduced f /\ forall e l, ones_of w l -> sem f e = Nat.odd (length (filter e l)).
Proof.
  destruct (Binv_ones w) as [v [E O]]. exists v.
  destruct (multi_spec boolf_xor xorb false (map (fun i => MuInt (Z.of_nat i)) (binv_exposet v)) (bitwise_spec xorb)) as [f [Ef [R S]]].
  { intros x Hx. apply in_map_iff in Hx. destruct Hx as [i [<- _]]. exact I. }
  exists f. split; [exact E|]. split.
  { cbn [Boolf]. unfold boolf_round. 
    repeat match goal with |- context [subinit_bouncer ?a ?k ?o] =>
      let b := eval vm_compute in (subinit_bouncer (mkArgs None None None None None None None (Some []) None None None false) k o) in
      change (subinit_bouncer a k o) with b end.
    cbn [subinit_multi a_mu_a a_mu_o a_mu_xo a_mu_xa]. rewrite Ef. reflexivity. }
  split; [exact R|].
  intros e l Hl. rewrite S, fold_xorb, xorb_false_l, map_map.
  rewrite (odd_filter_perm e l (binv_exposet v)) by (now apply (ones_perm w)). clear.
  rewrite (map_ext _ e) by (intros i; apply litval_nat).
  f_equal. induction (binv_exposet v) as [|i l IH]; [reflexivity|]. cbn [map filter].
  destruct (e i); [|exact IH]. cbn [length]. now rewrite IH.
Qed.

Lemma linear_walsh w p : exists f, make_linear_boolf (Some w) p None None = Ok f /\ reduced f /\
  forall e l, ones_of w l -> sem f e = xorb (match p with Some q => q | None => false end) (Nat.odd (length (filter e l))).
Proof.
  destruct (linear_xor w) as [v [f [E [Ef [R S]]]]]. unfold make_linear_boolf. cbn [have negb andb true_except bind fst snd].
  rewrite E. cbn [bind]. rewrite Ef. cbn [bind].
  destruct (match p with Some q => q | None => false end).
  - destruct (not_spec f (proj1 R)) as [g [Eg [Rg Sg]]]. exists g. split; [exact Eg|]. split; [exact Rg|].
    intros e l Hl. rewrite Sg, (S e l Hl). now destruct (Nat.odd _).
  - exists f. split; [reflexivity|]. split; [exact R|]. intros e l Hl. rewrite (S e l Hl). now destruct (Nat.odd _).
Qed.

Lemma is_odd_sem f : fitting f -> is_odd f = sem f (fun _ => false).
Proof.
  intros _. unfold is_odd, sem, table.
  assert (G : forall l : list nat, b2n (map (fun _ => false) l) = 0) by (induction l as [|a l IH]; cbn; [reflexivity | rewrite IH; reflexivity]).
  now rewrite G.
Qed.

Lemma filter_true {A} (l : list A) : filter (fun _ => true) l = l.
Proof. induction l; cbn; congruence. Qed.
Lemma filter_false {A} (l : list A) : filter (fun _ => false) l = [].
Proof. induction l; cbn; congruence. Qed.

Lemma linear_quadrant (leader q : nat) : q < 4 -> exists w f,
  make_linear_boolf None None (Some (Z.of_nat leader)) (Some q) = Ok f /\ reduced f /\ quadrant f = q /\
  w / 2 = leader /\
  forall e l, ones_of w l -> sem f e = xorb (Nat.odd q) (Nat.odd (length (filter e l))).
Proof.
  intros Hq.
  assert (W : exists w, (if Nat.eqb q 0 || Nat.eqb q 3 then index_to_evil (Z.of_nat leader) else index_to_odious (Z.of_nat leader)) = Ok w
              /\ w / 2 = leader /\ Nat.odd (count_ones w) = negb (Nat.eqb q 0 || Nat.eqb q 3)).
  { destruct (Nat.eqb q 0 || Nat.eqb q 3).
    - destruct (evil_index leader) as [w [E [V [_ B]]]]. exists w. split; [exact E|]. split.
      + unfold evil_to_index in B. destruct (Z.leb_spec 0 (Z.of_nat w)); [|lia]. cbn [true_except bind] in B. rewrite Nat2Z.id in B.
        destruct (Nat.eqb _ 0); [|discriminate]. now injection B.
      + unfold evil in V. rewrite <- Nat.negb_even, V. reflexivity.
    - destruct (odious_index leader) as [w [E [V [_ B]]]]. exists w. split; [exact E|]. split.
      + unfold odious_to_index in B. destruct (Z.leb_spec 0 (Z.of_nat w)); [|lia]. cbn [true_except bind] in B. rewrite Nat2Z.id in B.
        destruct (Nat.eqb _ 1); [|discriminate]. now injection B.
      + exact V. }
  destruct W as [w [Ew [Hw C]]]. destruct (linear_walsh w (Some (Nat.eqb q 1 || Nat.eqb q 3))) as [f [Ef [R S]]].
  assert (P : Nat.eqb q 1 || Nat.eqb q 3 = Nat.odd q) by (destruct q as [|[|[|[|q]]]]; reflexivity || lia).
  exists w, f. split; [|split; [exact R|split; [|split; [exact Hw|]]]].
  - unfold make_linear_boolf in *. cbn [have negb andb true_except bind fst snd] in *.
    apply Nat.ltb_lt in Hq. rewrite Hq. cbn [true_except bind].
    rewrite Ew. cbn [bind fst snd]. exact Ef.
  - unfold quadrant. rewrite is_odd_sem, is_odious_spec by exact (proj1 R).
    destruct (Binv_ones w) as [v [_ O]]. rewrite !(S _ _ O), filter_true, filter_false. cbn [length].
    rewrite (ones_count w _ O), C. destruct q as [|[|[|[|q]]]]; try reflexivity. lia.
  - intros e l Hl. rewrite <- P. now apply S.
Qed.

(** ** Ring count vectors *)

Definition exps (n : nat) : list nat := match Binv_intval n None with Ok v => binv_exposet v | Err _ => [] end.
Lemma exps_ok n : exists v, Binv_intval n None = Ok v /\ binv_exposet v = exps n.
Proof. unfold exps. destruct (Binv_ones n) as [v [E _]]. exists v. now rewrite E. Qed.
Lemma exps_ones n : ones_of n (exps n).
Proof. destruct (Binv_ones n) as [v [E O]]. unfold exps. now rewrite E. Qed.

Lemma next_level old : forall acc,
  foldM (fun new e => let* v := Binv_intval e None in Ok (new ++ binv_exposet v)) old acc = Ok (acc ++ flat_map exps old).
Proof.
  induction old as [|e old IH]; intros acc; cbn [foldM flat_map]; [now rewrite app_nil_r|].
  destruct (exps_ok e) as [v [E X]]. rewrite E. cbn [bind]. rewrite IH, X. now rewrite app_assoc.
Qed.

Fixpoint level (k : nat) (old : list nat) : list nat :=
  match k with 0 => old | S k' => level k' (flat_map exps old) end.
Fixpoint chains (k n : nat) : list (list nat) :=
  match k with 0 => [[]] | S k' => flat_map (fun a => map (cons a) (chains k' a)) (exps n) end.

Lemma level_nil k : level k [] = [].
Proof. induction k; cbn; auto. Qed.

Lemma level_chains k : forall old, length (level k old) = fold_right plus 0 (map (fun e => length (chains k e)) old).
Proof.
  induction k as [|k IH]; intros old; cbn [level chains].
  - induction old as [|e old IHo]; cbn; [reflexivity|]. now rewrite IHo.
  - rewrite IH. induction old as [|e old IHo]; [reflexivity|]. cbn [flat_map map fold_right].
    rewrite map_app. rewrite fold_right_app. rewrite <- IHo. clear.
    generalize (fold_right plus 0 (map (fun e => length (chains k e)) (flat_map exps old))). intros m.
    induction (exps e) as [|a l IH]; cbn; [reflexivity|]. rewrite app_length, map_length, IH. lia.
Qed.

Lemma chains_In k : forall n l, In l (chains k n) <-> chain n l /\ length l = k.
Proof.
  induction k as [|k IH]; intros n l; cbn [chains].
  - split.
    + intros [<-|[]]. split; [constructor | reflexivity].
    + intros [_ L]. left. now destruct l.
  - rewrite in_flat_map. split.
    + intros [a [Ia H]]. apply in_map_iff in H. destruct H as [l' [<- H]]. apply IH in H. destruct H as [H <-].
      split; [|reflexivity]. constructor; [now apply (exps_ones n) | exact H].
    + intros [H L]. inversion H as [|n' a l' Ha Hc]; subst; [discriminate|]. exists a.
      split; [now apply (exps_ones n)|]. apply in_map_iff. exists l'. split; [reflexivity|]. apply IH.
      split; [exact Hc | now injection L].
Qed.

Lemma chains_NoDup k : forall n, NoDup (chains k n).
Proof.
  induction k as [|k IH]; intros n; cbn [chains]; [repeat constructor; cbn; tauto|].
  destruct (exps_ones n) as [N _]. induction N as [|a l Na _ IHl]; cbn; [constructor|].
  apply NoDup_app'.
  - apply FinFun.Injective_map_NoDup; [|apply IH]. intros x y E. now injection E.
  - exact IHl.
  - intros x I1 I2. apply in_map_iff in I1. destruct I1 as [y [<- _]]. apply in_flat_map in I2.
    destruct I2 as [b [Ib I2]]. apply in_map_iff in I2. destruct I2 as [z [E _]]. injection E as -> _. contradiction.
Qed.

Lemma level_empty m : forall old, (forall e, In e old -> e < m) -> level m old = [].
Proof.
  induction m as [|m IH]; intros old H; cbn.
  - destruct old as [|e old]; [reflexivity|]. specialize (H e (or_introl eq_refl)). lia.
  - apply IH. intros a Ha. apply in_flat_map in Ha. destruct Ha as [e [He Ha]].
    apply (exps_ones e) in Ha. apply testbit_lt in Ha. specialize (H e He). lia.
Qed.

Lemma rcv_loop_ok fuel : forall old acc, level fuel old = [] ->
  exists m, m <= fuel /\ level m old = [] /\ (forall k, k < m -> level k old <> []) /\
    rcv_loop (S fuel) old acc = Ok (acc ++ map (fun k => length (level k old)) (seq 0 (S m))).
Proof.
  induction fuel as [|fuel IH]; intros old acc H.
  - cbn in H. subst old. exists 0. split; [lia|]. split; [reflexivity|]. split; [lia|]. reflexivity.
  - change (rcv_loop (S (S fuel)) old acc) with
      (let* new := foldM (fun new e => let* v := Binv_intval e None in Ok (new ++ binv_exposet v)) old [] in
       let rcv := acc ++ [length old] in
       if Nat.eqb (length old) 0 then Ok rcv else rcv_loop (S fuel) new rcv).
    rewrite next_level. cbn [bind app]. destruct old as [|e old].
    + exists 0. split; [lia|]. split; [reflexivity|]. split; [lia|]. reflexivity.
    + cbn zeta. destruct (Nat.eqb_spec (length (e :: old)) 0) as [Z|_]; [discriminate|].
      destruct (IH (flat_map exps (e :: old)) (acc ++ [length (e :: old)]) H) as [m [Hm [Lm [Bm Em]]]].
      exists (S m). split; [lia|]. split; [exact Lm|]. split.
      * intros [|k] Hk; [discriminate|]. apply Bm. lia.
      * rewrite Em, <- app_assoc. do 2 f_equal.
        change (seq 0 (S (S m))) with (0 :: seq 1 (S m)). rewrite <- (seq_shift (S m) 0).
        cbn [app map]. rewrite map_map. reflexivity.
Qed.

Lemma removelast_map {A B} (f : A -> B) l x : removelast (map f (l ++ [x])) = map f l.
Proof. rewrite map_app. cbn [map]. apply removelast_last. Qed.

Lemma int_to_rcv_ok n : exists r, int_to_rcv n None = Ok r /\
  (forall c, In c r -> c <> 0) /\
  forall i, exists L, NoDup L /\ (forall l, In l L <-> chain n l /\ length l = S i) /\ length L = nth i r 0.
Proof.
  unfold int_to_rcv. replace (n + 2) with (S (S n)) by lia.
  destruct (rcv_loop_ok (S n) [n] []) as [m [Hm [Lm [Bm Em]]]].
  { apply level_empty. intros e [<-|[]]. lia. }
  rewrite Em. cbn [bind app].
  destruct m as [|m]; [cbn in Lm; discriminate|].
  exists (map (fun k => length (level k [n])) (seq 1 m)).
  assert (E : removelast (tl (map (fun k => length (level k [n])) (seq 0 (S (S m))))) = map (fun k => length (level k [n])) (seq 1 m)).
  { change (seq 0 (S (S m))) with (0 :: seq 1 (S m)). cbn [map tl]. rewrite seq_S. apply removelast_map. }
  rewrite E. split; [reflexivity|]. split.
  - intros c Hc. apply in_map_iff in Hc. destruct Hc as [k [<- Hk]]. apply in_seq in Hk.
    intros Z. apply (Bm k); [lia|]. now destruct (level k [n]).
  - intros i. exists (chains (S i) n). split; [apply chains_NoDup|]. split; [intros l; apply chains_In|].
    assert (G : length (chains (S i) n) = length (level (S i) [n])).
    { rewrite level_chains. cbn [map fold_right]. lia. }
    rewrite G. destruct (le_lt_dec m i) as [C|C].
    + rewrite nth_overflow by (now rewrite map_length, seq_length).
      assert (LE : forall k old, level k old = [] -> forall j, level (k + j) old = []).
      { induction k as [|k IHk]; intros old H j; cbn in *; [subst; apply level_nil | now apply IHk]. }
      replace (S i) with (S m + (i - m)) by lia. now rewrite (LE (S m) [n] Lm).
    + rewrite (nth_indep _ 0 (length (level 0 [n]))) by (now rewrite map_length, seq_length).
      rewrite (map_nth (fun k => length (level k [n]))). rewrite seq_nth by exact C. reflexivity.
Qed.

Lemma int_to_rcv_len n len r : int_to_rcv n None = Ok r ->
  int_to_rcv n (Some len) = if Nat.leb (length r) len then Ok (r ++ repeat 0 (len - length r)) else Err SpecifiedLengthTooShortError.
Proof.
  unfold int_to_rcv. destruct (rcv_loop (n + 2) [n] []) as [rcv|e]; [|discriminate]. cbn [bind]. intros E. injection E as <-.
  destruct (Nat.leb _ len); reflexivity.
Qed.

(** ** Sequences of chosen bits *)

Lemma b2n_snoc l b : b2n (l ++ [b]) = b2n l + (if b then 2 ^ length l else 0).
Proof.
  induction l as [|x l IH]; [destruct b; reflexivity|]. cbn [app b2n length]. rewrite IH, Nat.pow_succ_r'. destruct b; lia.
Qed.

Lemma foldM_add (g : nat -> bool) p (get : nat -> res bool) : (forall j, get j = Ok (g j)) -> forall js result,
  NoDup js -> (forall j, In j js -> j < length result) -> exists r,
  foldM (fun result j => let* b := get j in if b then let* x := lget result j in Ok (lset result j (x + p)) else Ok result) js result = Ok r /\
  length r = length result /\ forall j, nth j r 0 = nth j result 0 + (if memb j js && g j then p else 0).
Proof.
  intros Hg. induction js as [|j js IH]; intros result N H; cbn [foldM].
  - exists result. split; [reflexivity|]. split; [reflexivity|]. intros; cbn; lia.
  - inversion_clear N as [|? ? Nj Njs]. rewrite Hg. cbn [bind].
    assert (X : exists r1, (if g j then let* x := lget result j in Ok (lset result j (x + p)) else Ok result) = Ok r1 /\
      length r1 = length result /\ forall i, nth i r1 0 = nth i result 0 + (if Nat.eqb i j && g j then p else 0)).
    { destruct (g j).
      - rewrite (lget_ok result j 0) by (apply H; now left). cbn [bind]. eexists. split; [reflexivity|].
        split; [apply length_lset|]. intros i. rewrite nth_lset.
        replace (Nat.ltb j (length result)) with true by (symmetry; apply Nat.ltb_lt, H; now left).
        rewrite !andb_true_r. destruct (Nat.eqb_spec i j) as [->|]; lia.
      - exists result. split; [reflexivity|]. split; [reflexivity|]. intros i. rewrite andb_false_r. lia. }
    destruct X as [r1 [E1 [L1 N1]]]. rewrite E1. cbn [bind].
    destruct (IH r1 Njs) as [r [E [L R]]]; [intros i Hi; rewrite L1; apply H; now right|].
    exists r. split; [exact E|]. split; [congruence|]. intros i. rewrite R, N1.
    cbn [memb existsb]. change (existsb (Nat.eqb i) js) with (memb i js).
    destruct (Nat.eqb_spec i j) as [->|]; [|cbn; lia].
    replace (memb j js) with false by (symmetry; now apply memb_false). cbn. destruct (g j); lia.
Qed.

Lemma atom_get a j : boolf_get (set_unary (Z.of_nat a)) j = Ok (Nat.testbit j a).
Proof.
  destruct (set_unary_spec (Z.of_nat a)) as [R S]. rewrite get_spec by exact (proj1 R). rewrite S.
  now rewrite litval_nat.
Qed.

Lemma atoms_loop len : forall post pre result, length result = len ->
  (forall j, j < len -> nth j result 0 = b2n (map (Nat.testbit j) pre)) -> exists r,
  foldM (fun result (ia : nat * nat) =>
           let boolf := set_unary (Z.of_nat (snd ia)) in
           let place_value := 2 ^ fst ia in
           foldM (fun result j =>
                    let* b := boolf_get boolf j in
                    if b then let* x := lget result j in Ok (lset result j (x + place_value)) else Ok result)
                 (range len) result)
        (combine (seq (length pre) (length post)) post) result = Ok r /\
  length r = len /\ forall j, j < len -> nth j r 0 = b2n (map (Nat.testbit j) (pre ++ post)).
Proof.
  induction post as [|a post IH]; intros pre result L H.
  - exists result. rewrite app_nil_r. auto.
  - cbn [length seq combine foldM fst snd].
    destruct (foldM_add (fun j => Nat.testbit j a) (2 ^ length pre) (boolf_get (set_unary (Z.of_nat a))) (atom_get a) (range len) result)
      as [r1 [E1 [L1 R1]]]; [apply range_NoDup | intros j Hj; apply range_In in Hj; lia|].
    cbn zeta. rewrite E1. cbn [bind].
    destruct (IH (pre ++ [a]) r1) as [r [E [Lr R]]]; [congruence| |].
    + intros j Hj. rewrite R1, H by exact Hj. rewrite map_app. cbn [map]. rewrite b2n_snoc, map_length.
      replace (memb j (range len)) with true by (symmetry; now apply memb_In, range_In). reflexivity.
    + exists r. replace (S (length pre)) with (length (pre ++ [a])) by (rewrite app_length; cbn; lia).
      split; [exact E|]. split; [exact Lr|]. intros j Hj. rewrite R by exact Hj. now rewrite <- app_assoc.
Qed.

Lemma nodupb_length l : length (nodupb l) = length l <-> NoDup l.
Proof.
  split.
  - intros H. apply (NoDup_incl_NoDup (nodupb_NoDup l)); [lia|]. intros x. apply nodupb_In.
  - intros H. apply Permutation_length, NoDup_Permutation; [apply nodupb_NoDup | exact H|]. intros x. apply nodupb_In.
Qed.

Lemma atom_sequence_ok atoms : NoDup atoms -> atoms <> [] -> exists r,
  atom_indices_to_sequence atoms None = Ok r /\ length r = 2 ^ (list_max_nat atoms + 1) /\
  forall j, j < length r -> nth j r 0 = b2n (map (Nat.testbit j) atoms).
Proof.
  intros N NE. unfold atom_indices_to_sequence.
  replace (Nat.eqb _ _) with true by (symmetry; now apply Nat.eqb_eq, nodupb_length). cbn [true_except bind].
  destruct atoms as [|a0 atoms0] eqn:Ea; [congruence|]. rewrite <- Ea in *. clear NE.
  destruct (atoms_loop (2 ^ (list_max_nat atoms + 1)) atoms [] (repeat 0 (2 ^ (list_max_nat atoms + 1)))) as [r [E [L R]]].
  - apply repeat_length.
  - intros j Hj. cbn. apply nth_repeat.
  - cbn zeta. unfold enumerate. cbn [length] in E. rewrite E. cbn [bind]. exists r. split; [reflexivity|]. split; [exact L|].
    intros j Hj. apply R. lia.
Qed.

Lemma atom_sequence_repeat atoms t : NoDup atoms -> atoms <> [] -> t mod 2 ^ (list_max_nat atoms + 1) = 0 -> exists r,
  atom_indices_to_sequence atoms (Some t) = Ok r /\ length r = t /\
  forall j, j < t -> nth j r 0 = b2n (map (Nat.testbit j) atoms).
Proof.
  intros N NE M. destruct (atom_sequence_ok atoms N NE) as [r [E [L R]]].
  assert (P : 2 ^ (list_max_nat atoms + 1) <> 0) by (apply Nat.pow_nonzero; lia).
  assert (X : atom_indices_to_sequence atoms (Some t) = repeat_sequence r t).
  { unfold atom_indices_to_sequence in *. destruct (Nat.eqb _ _); [|discriminate]. cbn [true_except bind] in *.
    destruct atoms; [congruence|]. cbn zeta in *.
    destruct (foldM _ _ _) as [r'|e]; [|discriminate]. cbn [bind] in *. now injection E as ->. }
  rewrite X.
  assert (Hr : r <> []) by (intros ->; cbn in L; congruence).
  assert (LR : length r <> 0) by lia.
  destruct (repeat_sequence r t) as [r'|e] eqn:Er.
  - exists r'. split; [reflexivity|]. apply (repeat_sequence_ok r t 0 r') in Er. destruct Er as [_ [L' [_ H]]].
    split; [exact L'|]. intros j Hj. rewrite H by exact Hj. rewrite R by (now apply Nat.mod_upper_bound).
    f_equal. apply map_ext_in. intros a Ha. rewrite L.
    apply Nat.mod_pow2_bits_low. apply list_max_nat_ge in Ha. lia.
  - exfalso. unfold repeat_sequence in Er. destruct (Nat.eqb_spec (length r) 0); [congruence|].
    rewrite L, M in Er. discriminate.
Qed.

(** ** Negated truth tables *)

Lemma lxor_lt k a b : a < 2 ^ k -> b < 2 ^ k -> Nat.lxor a b < 2 ^ k.
Proof.
  intros Ha Hb. destruct (Nat.eq_dec (Nat.lxor a b) 0) as [E|E]; [rewrite E; apply Nat.neq_0_lt_0, Nat.pow_nonzero; lia|].
  apply Nat.log2_lt_pow2; [lia|]. pose proof (Nat.log2_lxor a b) as L.
  assert (forall x, x < 2 ^ k -> Nat.log2 x < k \/ x = 0) by (intros x Hx; destruct x; [now right | left; apply Nat.log2_lt_pow2; lia]).
  destruct (H a Ha) as [A| ->], (H b Hb) as [B| ->]; rewrite ?Nat.lxor_0_l, ?Nat.lxor_0_r in *; try lia.
Qed.

Lemma mod_tt_neg_ok tt k n : length tt = 2 ^ k -> n < 2 ^ k -> exists r,
  mod_tt_neg tt (SignetInt n) = Ok r /\ length r = 2 ^ k /\
  (forall j, j < 2 ^ k -> nth j r false = nth (Nat.lxor j n) tt false) /\
  mod_tt_neg r (SignetInt n) = Ok tt.
Proof.
  intros L H.
  assert (G : forall t : list bool, length t = 2 ^ k -> mod_tt_neg t (SignetInt n) = Ok (map (fun j => nth (Nat.lxor j n) t false) (range (2 ^ k)))).
  { intros t Lt. unfold mod_tt_neg. rewrite Lt. rewrite (mapM_ok (lget t) (fun i => nth i t false)).
    - now rewrite map_map.
    - intros x Hx. apply in_map_iff in Hx. destruct Hx as [j [<- Hj]]. apply range_In in Hj.
      apply lget_ok. rewrite Lt. now apply lxor_lt. }
  eexists. split; [now apply G|].
  assert (LR : forall t, length (map (fun j => nth (Nat.lxor j n) t false) (range (2 ^ k))) = 2 ^ k)
    by (intros t; now rewrite map_length, range_length).
  assert (NR : forall t j, j < 2 ^ k -> nth j (map (fun j => nth (Nat.lxor j n) t false) (range (2 ^ k))) false = nth (Nat.lxor j n) t false).
  { intros t j Hj. set (F := fun j => nth (Nat.lxor j n) t false).
    rewrite (nth_indep (map F (range (2 ^ k))) false (F 0)) by (now rewrite map_length, range_length).
    rewrite map_nth. now rewrite nth_range. }
  split; [apply LR|]. split; [intros j Hj; now apply NR|].
  rewrite G by apply LR. f_equal. apply nth_ext with false false; [now rewrite LR|].
  intros j Hj. rewrite LR in Hj. rewrite !NR by (assumption || now apply lxor_lt).
  now rewrite Nat.lxor_assoc, Nat.lxor_nilpotent, Nat.lxor_0_r.
Qed.

(** ** Balanced ternary Walsh matrices *)

Definition trits : list Z := [-1; 0; 1]%Z.
Lemma product_spec n : length (product_repeat trits n) = 3 ^ n /\
  forall i, i < 3 ^ n -> let v := rev (nth i (product_repeat trits n) []) in
    length v = n /\ Forall (fun d => -1 <= d <= 1)%Z v /\ (2 * ternary_value v = 2 * Z.of_nat i - 3 ^ Z.of_nat n + 1)%Z.
Proof.
  induction n as [|n [L IH]].
  - split; [reflexivity|]. intros i Hi. assert (i = 0) by (cbn in Hi; lia). subst. cbn. repeat split; constructor.
  - change (product_repeat trits (S n)) with
      (map (cons (-1)%Z) (product_repeat trits n) ++ map (cons 0%Z) (product_repeat trits n) ++ map (cons 1%Z) (product_repeat trits n) ++ []).
    rewrite app_nil_r. set (P := product_repeat trits n) in *.
    rewrite !app_length, !map_length, L. rewrite Nat.pow_succ_r'. split; [lia|].
    intros i Hi.
    assert (TV : forall v d, ternary_value (v ++ [d]) = (ternary_value v + d * 3 ^ Z.of_nat (length v))%Z).
    { clear. induction v as [|x v IH]; intros d; [cbn; lia|]. cbn [app ternary_value length]. rewrite IH.
      rewrite Nat2Z.inj_succ, Z.pow_succ_r by lia. lia. }
    assert (S3 : (3 ^ Z.of_nat (S n) = 3 * 3 ^ Z.of_nat n)%Z) by (rewrite Nat2Z.inj_succ, Z.pow_succ_r by lia; lia).
    assert (P3 : Z.of_nat (3 ^ n) = (3 ^ Z.of_nat n)%Z) by (rewrite Nat2Z.inj_pow; reflexivity).
    assert (C : exists j d, j < 3 ^ n /\ (-1 <= d <= 1)%Z /\ (Z.of_nat i = Z.of_nat j + (d + 1) * 3 ^ Z.of_nat n)%Z /\
      nth i (map (cons (-1)%Z) P ++ map (cons 0%Z) P ++ map (cons 1%Z) P) [] = d :: nth j P []).
    { assert (MN : forall d j, j < 3 ^ n -> nth j (map (cons d) P) [] = d :: nth j P []).
      { intros d j Hj. rewrite (nth_indep (map (cons d) P) [] (d :: [])) by (rewrite map_length; lia). apply map_nth. }
      destruct (lt_dec i (3 ^ n)) as [C1|C1].
      - exists i, (-1)%Z. split; [lia|]. split; [lia|]. split; [lia|]. rewrite app_nth1 by (rewrite map_length; lia). now apply MN.
      - rewrite app_nth2 by (rewrite map_length; lia). rewrite map_length, L. destruct (lt_dec (i - 3 ^ n) (3 ^ n)) as [C2|C2].
        + exists (i - 3 ^ n), 0%Z. split; [lia|]. split; [lia|]. split; [lia|]. rewrite app_nth1 by (rewrite map_length; lia). now apply MN.
        + exists (i - 3 ^ n - 3 ^ n), 1%Z. split; [lia|]. split; [lia|]. split; [lia|].
          rewrite app_nth2 by (rewrite map_length; lia). rewrite map_length, L. apply MN. lia. }
    destruct C as [j [d [Hj [Hd [Ei En]]]]]. rewrite En. cbn [rev]. destruct (IH j Hj) as [Lv [Fv Tv]].
    cbn zeta. rewrite app_length, Lv. cbn [length]. split; [lia|]. split.
    + apply Forall_app. split; [exact Fv|]. constructor; [exact Hd | constructor].
    + rewrite TV, Lv, S3, Ei. lia.
Qed.

(** ** The order of layers *)

Section Lex.
Context {A : Type} (eqb ltb : A -> A -> bool) (lt : A -> A -> Prop).
Hypothesis Heq : forall x y, eqb x y = true <-> x = y.
Hypothesis Hlt : forall x y, ltb x y = true <-> lt x y.
Hypothesis irr : forall x, ~ lt x x.
Hypothesis tr : forall x y z, lt x y -> lt y z -> lt x z.
Hypothesis tot : forall x y, x = y \/ lt x y \/ lt y x.

Lemma lists_eqb_spec a b : lists_eqb eqb a b = true <-> a = b.
Proof.
  revert b. induction a as [|x a IH]; intros [|y b]; cbn; try (split; [discriminate | congruence]); [tauto|].
  rewrite andb_true_iff, Heq, IH. split; [intros [-> ->]; reflexivity | intros E; injection E as -> ->; auto].
Qed.
Lemma lex_ltb_spec a b : lex_ltb eqb ltb a b = true <-> lex_less lt a b.
Proof.
  revert b. induction a as [|x a IH]; intros [|y b]; cbn.
  - split; [discriminate | intros H; inversion H].
  - split; [constructor | reflexivity].
  - split; [discriminate | intros H; inversion H].
  - destruct (eqb x y) eqn:E.
    + apply Heq in E. subst y. rewrite IH. split; [apply less_tail|]. intros H. inversion H; subst; [now apply irr in H1 | assumption].
    + rewrite Hlt. split; [apply less_head|]. intros H. inversion H; subst; [assumption|].
      assert (eqb y y = true) by (now apply Heq). congruence.
Qed.
Lemma lex_irr a : ~ lex_less lt a a.
Proof. induction a as [|x a IH]; intros H; inversion H; subst; [now apply irr in H1 | auto]. Qed.
Lemma lex_tr a : forall b c, lex_less lt a b -> lex_less lt b c -> lex_less lt a c.
Proof.
  induction a as [|x a IH]; intros b c H1 H2; inversion H1; subst; inversion H2; subst;
    try (now constructor); try (apply less_head; eauto; fail); apply less_tail; eauto.
Qed.
Lemma lex_tot a : forall b, a = b \/ lex_less lt a b \/ lex_less lt b a.
Proof.
  induction a as [|x a IH]; intros [|y b]; [now left | right; left; constructor | right; right; constructor|].
  destruct (tot x y) as [<-|[H|H]].
  - destruct (IH b) as [<-|[H|H]]; [now left | right; left; now apply less_tail | right; right; now apply less_tail].
  - right; left. now apply less_head.
  - right; right. now apply less_head.
Qed.
End Lex.

Lemma Zlt_tot x y : (x = y \/ x < y \/ y < x)%Z.
Proof. lia. Qed.

Lemma layers_eqb_spec a b : layers_eqb a b = true <-> a = b.
Proof. apply lists_eqb_spec. intros x y. apply lists_eqb_spec. intros; apply Z.eqb_eq. Qed.
Lemma zlist_eqb_spec a b : lists_eqb Z.eqb a b = true <-> a = b.
Proof. apply lists_eqb_spec. intros; apply Z.eqb_eq. Qed.
Lemma zlist_ltb_spec a b : lex_ltb Z.eqb Z.ltb a b = true <-> lex_less Z.lt a b.
Proof. apply lex_ltb_spec; [intros; apply Z.eqb_eq | intros; apply Z.ltb_lt | intros; lia]. Qed.
Lemma layers_ltb_spec a b : layers_ltb a b = true <-> lex_less (lex_less Z.lt) a b.
Proof.
  apply lex_ltb_spec; [intros; apply zlist_eqb_spec | intros; apply zlist_ltb_spec|].
  intros x. apply lex_irr. intros; lia.
Qed.

Lemma layered_irr a : ~ layered_less a a.
Proof.
  intros [H|[_ [H|[_ H]]]]; [lia | revert H; apply lex_irr; intros; lia|].
  revert H. apply lex_irr. intros x. apply lex_irr. intros; lia.
Qed.
Lemma layered_tr a b c : layered_less a b -> layered_less b c -> layered_less a c.
Proof.
  assert (TZ : forall x y z, lex_less Z.lt x y -> lex_less Z.lt y z -> lex_less Z.lt x z) by (intros x y z; apply lex_tr; intros; lia).
  assert (TL : forall x y z, lex_less (lex_less Z.lt) x y -> lex_less (lex_less Z.lt) y z -> lex_less (lex_less Z.lt) x z)
    by (intros x y z; apply lex_tr; exact TZ).
  intros [H|[E H]] [K|[F K]]; [left; lia | left; lia | left; lia|]. right. split; [lia|].
  destruct H as [H|[H1 H2]], K as [K|[K1 K2]].
  - left. eauto.
  - left. now rewrite <- K1.
  - left. now rewrite H1.
  - right. split; [congruence | eauto].
Qed.
Lemma layered_tot a b : a = b \/ layered_less a b \/ layered_less b a.
Proof.
  assert (TZ : forall x y, x = y \/ lex_less Z.lt x y \/ lex_less Z.lt y x) by (intros x y; apply lex_tot; apply Zlt_tot).
  destruct (lex_tot (lex_less Z.lt) TZ a b) as [H|H]; [now left|]. right.
  unfold layered_less.
  destruct (Zlt_tot (total_of (map total_of a)) (total_of (map total_of b))) as [E|[E|E]]; [|tauto|tauto].
  rewrite E. destruct (TZ (map total_of a) (map total_of b)) as [F|[F|F]]; [|tauto|tauto]. rewrite F. intuition.
Qed.

Lemma layered_is_greater_spec a b : layered_is_greater a b = true <-> layered_less b a.
Proof.
  unfold layered_is_greater. destruct (layers_eqb a b) eqn:E.
  - apply layers_eqb_spec in E. subst b. split; [discriminate|]. intros H. now apply layered_irr in H.
  - assert (NE : a <> b) by (intros H; apply layers_eqb_spec in H; congruence).
    cbn zeta. change (map zsum a) with (map total_of a). change (map zsum b) with (map total_of b).
    change (zsum (map total_of a)) with (total_of (map total_of a)). change (zsum (map total_of b)) with (total_of (map total_of b)).
    set (c := if Z.eqb (total_of (map total_of b)) (total_of (map total_of a))
              then if lists_eqb Z.eqb (map total_of b) (map total_of a) then layers_ltb b a else lex_ltb Z.eqb Z.ltb (map total_of b) (map total_of a)
              else Z.ltb (total_of (map total_of b)) (total_of (map total_of a))).
    assert (C : c = true <-> layered_less b a).
    { unfold c, layered_less. destruct (Z.eqb_spec (total_of (map total_of b)) (total_of (map total_of a))) as [->|N].
      - destruct (lists_eqb Z.eqb (map total_of b) (map total_of a)) eqn:X.
        + apply zlist_eqb_spec in X. rewrite X, layers_ltb_spec. split; [tauto|].
          intros [H|[_ [H|[_ H]]]]; [lia | | exact H]. apply lex_irr in H; [destruct H | intros; lia].
        + rewrite zlist_ltb_spec. split; [tauto|]. intros [H|[_ [H|[H _]]]]; [lia | exact H|].
          apply zlist_eqb_spec in H. congruence.
      - rewrite Z.ltb_lt. split; [tauto|]. intros [H|[H _]]; [exact H | congruence]. }
    rewrite <- C. destruct c.
    + split; [reflexivity|]. intros _. now apply layers_eqb_spec.
    + split; [|discriminate]. intros H. apply layers_eqb_spec in H. congruence.
Qed.
