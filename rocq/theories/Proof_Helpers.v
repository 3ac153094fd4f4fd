(** Proof_Helpers: Sierpinski rows, zipping, prime factors, lcm, binomials, atom patterns,
    linear tables, Walsh matrices, hypercube edges, integer partitions. *)

From Coq Require Import List Arith ZArith Bool Lia Permutation Sorted.
From Verif Require Import Model_Base Lib Model_Binary Spec_Bits Proof_Binary.
Import ListNotations.

(** * Sierpinski rows *)

Fixpoint sel (l : list nat) (i : nat) : list nat :=
  match l with
  | [] => []
  | e :: l' => (if Nat.odd i then [e] else []) ++ sel l' (Nat.div2 i)
  end.

Lemma fold_left_map {A B C} (f : A -> B -> A) (g : C -> B) l a :
  fold_left f (map g l) a = fold_left (fun a c => f a (g c)) l a.
Proof. revert a; induction l as [|x l IH]; intro a; cbn; auto. Qed.

Lemma sierpinski_val l i :
  fold_left (fun acc j => if nth j (n2b (length l) i) false then acc + nth j (map (fun i => 2 ^ i) l) 0 else acc)
            (seq 0 (length l)) 0 = exposet_to_int (sel l i).
Proof.
  assert (H : forall i a, fold_left (fun acc j => if nth j (n2b (length l) i) false then acc + nth j (map (fun i => 2 ^ i) l) 0 else acc)
            (seq 0 (length l)) a = a + exposet_to_int (sel l i)).
  { clear i. unfold exposet_to_int, list_sum_nat. induction l as [|e l IH]; intros i a; [cbn; lia|].
    cbn [length seq fold_left n2b map nth sel]. rewrite <- seq_shift, fold_left_map. cbn [nth].
    rewrite IH. destruct (Nat.odd i); cbn [app map fold_right]; lia. }
  apply H.
Qed.

Lemma sierpinski_of_eq l : sierpinski_of l = map (fun i => exposet_to_int (sel l i)) (seq 0 (2 ^ length l)).
Proof.
  destruct l as [|e l0] eqn:E; [reflexivity|]. rewrite <- E. unfold sierpinski_of. rewrite E at 1.
  cbv zeta. rewrite map_length. unfold range. apply map_ext. intro i. apply sierpinski_val.
Qed.

Lemma sel_In l i k : In k (sel l i) <-> exists j, nth_error l j = Some k /\ Nat.testbit i j = true.
Proof.
  revert i; induction l as [|e l IH]; intro i; cbn [sel].
  - split; [intros [] | intros [j [H _]]; destruct j; discriminate].
  - rewrite in_app_iff, IH. split.
    + intros [H|[j [H1 H2]]].
      * exists 0. rewrite Nat.bit0_odd. destruct (Nat.odd i); [|destruct H]. destruct H as [->|[]]. auto.
      * exists (S j). auto.
    + intros [[|j] [H1 H2]].
      * left. rewrite Nat.bit0_odd in H2. rewrite H2. cbn in H1. injection H1 as ->. left; reflexivity.
      * right. exists j. auto.
Qed.

Lemma sel_incl l i k : In k (sel l i) -> In k l.
Proof. intro H. apply sel_In in H as [j [H _]]. eapply nth_error_In; eassumption. Qed.

Lemma sel_NoDup l i : NoDup l -> NoDup (sel l i).
Proof.
  intro H. revert i; induction H as [|e l He Hl IH]; intro i; cbn [sel]; [constructor|].
  destruct (Nat.odd i); cbn [app]; [|apply IH]. constructor; [|apply IH].
  intro Hc. apply sel_incl in Hc. contradiction.
Qed.

Lemma sel_testbit l i k : NoDup l ->
  Nat.testbit (exposet_to_int (sel l i)) k = true <-> exists j, nth_error l j = Some k /\ Nat.testbit i j = true.
Proof. intro H. rewrite exposet_to_int_testbit, memb_In, sel_In by (apply sel_NoDup; exact H). reflexivity. Qed.

Lemma sel_inj l i i' : NoDup l -> i < 2 ^ length l -> i' < 2 ^ length l ->
  exposet_to_int (sel l i) = exposet_to_int (sel l i') -> i = i'.
Proof.
  intros Hn Hi Hi' E.
  assert (G : forall a b, a < 2 ^ length l -> exposet_to_int (sel l a) = exposet_to_int (sel l b) ->
             forall j, Nat.testbit a j = true -> Nat.testbit b j = true).
  { intros a b Ha Eab j Hj. assert (Hlt := testbit_lt_pow _ _ _ Ha Hj).
    destruct (nth_error l j) as [k|] eqn:Ek; [|apply nth_error_None in Ek; lia].
    assert (T : Nat.testbit (exposet_to_int (sel l a)) k = true) by (apply sel_testbit; eauto).
    rewrite Eab in T. apply sel_testbit in T as [j' [E1 E2]]; [|exact Hn].
    assert (j = j'); [|congruence]. eapply NoDup_nth_error; [exact Hn | exact Hlt | congruence]. }
  apply Nat.bits_inj. intro j.
  destruct (Nat.testbit i j) eqn:E1; destruct (Nat.testbit i' j) eqn:E2; try reflexivity; exfalso.
  - rewrite (G i i' Hi E j E1) in E2. discriminate.
  - rewrite (G i' i Hi' (eq_sym E) j E2) in E1. discriminate.
Qed.

Lemma NoDup_map_inj {A B} (f : A -> B) l : NoDup l -> (forall x y, In x l -> In y l -> f x = f y -> x = y) -> NoDup (map f l).
Proof.
  induction 1 as [|x l Hx Hl IH]; intro H; cbn [map]; [constructor|]. constructor.
  - intro Hc. apply in_map_iff in Hc as [y [E Hy]]. apply H in E; [subst; contradiction | right; exact Hy | left; reflexivity].
  - apply IH. intros a b Ha Hb. apply H; right; assumption.
Qed.

Lemma sierpinski_of_spec l n : NoDup l -> (forall k, In k l <-> Nat.testbit n k = true) ->
  NoDup (sierpinski_of l) /\ forall k, In k (sierpinski_of l) <-> submask k n.
Proof.
  intros Hn Hl. rewrite sierpinski_of_eq. split.
  - apply NoDup_map_inj; [apply seq_NoDup|]. intros i i' Hi Hi' E. apply in_seq in Hi. apply in_seq in Hi'.
    apply (sel_inj l); [exact Hn | lia | lia | exact E].
  - intro k. rewrite in_map_iff. split.
    + intros [i [<- Hi]] j Hj. apply sel_testbit in Hj as [j' [E _]]; [|exact Hn].
      apply Hl. eapply nth_error_In; eassumption.
    + intro Hk. exists (b2n (map (Nat.testbit k) l)). split.
      * apply Nat.bits_inj. intro j. apply eq_iff_eq_true. rewrite sel_testbit by exact Hn. split.
        -- intros [j' [E T]]. rewrite testbit_b2n in T.
           assert (Hj' : j' < length l) by (apply nth_error_Some; congruence).
           rewrite (nth_indep _ false (Nat.testbit k 0)) in T by (rewrite map_length; exact Hj').
           rewrite map_nth in T. rewrite (nth_error_nth l j' 0 E) in T. exact T.
        -- intro T. destruct (In_nth_error l j (proj2 (Hl j) (Hk j T))) as [j' E]. exists j'. split; [exact E|].
           assert (Hj' : j' < length l) by (apply nth_error_Some; congruence).
           rewrite testbit_b2n, (nth_indep _ false (Nat.testbit k 0)) by (rewrite map_length; exact Hj').
           rewrite map_nth, (nth_error_nth l j' 0 E). exact T.
      * apply in_seq. assert (B := b2n_lt (map (Nat.testbit k) l)). rewrite map_length in B. lia.
Qed.

Lemma exposet_bin_digits n : binv_exposet (bin_digits n) = int_to_exposet n.
Proof. rewrite exposet_intval, binv_intval_eq, bin_digits_val. reflexivity. Qed.

Lemma sierpinski_row_spec order n : Permutation (order (binv_exposet (bin_digits n))) (binv_exposet (bin_digits n)) ->
  NoDup (int_to_sierpinski_row order n) /\ forall k, In k (int_to_sierpinski_row order n) <-> submask k n.
Proof.
  intro HP. unfold int_to_sierpinski_row. destruct (int_to_exposet_spec n) as [Hs Hin].
  apply sierpinski_of_spec.
  - eapply Permutation_NoDup; [apply Permutation_sym; exact HP|]. rewrite exposet_bin_digits. apply sorted_lt_NoDup. exact Hs.
  - intro k. rewrite <- Hin, <- exposet_bin_digits. split; apply Permutation_in; [exact HP | apply Permutation_sym; exact HP].
Qed.

Lemma sel_bound l e i : Forall (lt e) l -> exists c, exposet_to_int (sel l i) = 2 ^ S e * c.
Proof.
  intro H. revert i; induction H as [|x l Hx Hl IH]; intro i; [exists 0; cbn [sel]; unfold exposet_to_int; cbn; lia|].
  cbn [sel]. destruct (IH (Nat.div2 i)) as [c Ec]. unfold exposet_to_int, list_sum_nat in *.
  destruct (Nat.odd i); cbn [app map fold_right]; [|exists c; exact Ec].
  exists (2 ^ (x - S e) + c). rewrite Ec, Nat.mul_add_distr_l, <- Nat.pow_add_r. f_equal. f_equal. lia.
Qed.

Lemma sel_mono l i i' : StronglySorted lt l -> i < i' -> i' < 2 ^ length l ->
  exposet_to_int (sel l i) < exposet_to_int (sel l i').
Proof.
  intro H. revert i i'; induction H as [|e l Hl IH Hall]; intros i i' Hlt Hb; [cbn in Hb; lia|].
  cbn [sel].
  assert (Hadd : forall j, exposet_to_int ((if Nat.odd j then [e] else []) ++ sel l (Nat.div2 j))
     = 2 ^ e * Nat.b2n (Nat.odd j) + exposet_to_int (sel l (Nat.div2 j))).
  { intro j. unfold exposet_to_int, list_sum_nat. destruct (Nat.odd j); cbn [app map fold_right Nat.b2n]; lia. }
  rewrite !Hadd. cbn [length] in Hb. rewrite Nat.pow_succ_r' in Hb.
  assert (D : i = 2 * Nat.div2 i + Nat.b2n (Nat.odd i)) by (rewrite Nat.div2_div; apply split_bit).
  assert (D' : i' = 2 * Nat.div2 i' + Nat.b2n (Nat.odd i')) by (rewrite Nat.div2_div; apply split_bit).
  destruct (Nat.lt_ge_cases (Nat.div2 i) (Nat.div2 i')) as [Hd|Hd].
  - assert (Hm := IH _ _ Hd ltac:(lia)).
    destruct (sel_bound l e (Nat.div2 i) Hall) as [c Ec]. destruct (sel_bound l e (Nat.div2 i') Hall) as [c' Ec'].
    rewrite Ec, Ec' in *. rewrite Nat.pow_succ_r' in *. assert (0 < 2 ^ e) by (apply Nat.neq_0_lt_0, Nat.pow_nonzero; lia).
    assert (c < c') by nia. destruct (Nat.odd i), (Nat.odd i'); cbn [Nat.b2n]; nia.
  - assert (Hoi : Nat.odd i = false /\ Nat.odd i' = true /\ Nat.div2 i = Nat.div2 i').
    { destruct (Nat.odd i), (Nat.odd i'); cbn [Nat.b2n] in *; try lia; repeat split; lia. }
    destruct Hoi as [-> [-> ->]]. cbn [Nat.b2n]. assert (0 < 2 ^ e) by (apply Nat.neq_0_lt_0, Nat.pow_nonzero; lia). lia.
Qed.

Lemma sorted_nth (l : list nat) d : StronglySorted lt l <-> forall i j, i < j -> j < length l -> nth i l d < nth j l d.
Proof.
  split.
  - induction 1 as [|x l Hl IH Hall]; intros i j Hij Hj; [cbn in Hj; lia|].
    destruct j as [|j]; [lia|]. cbn [length] in Hj. destruct i as [|i]; cbn [nth].
    + rewrite Forall_forall in Hall. apply Hall, nth_In. lia.
    + apply IH; lia.
  - induction l as [|x l IH]; intro H; [constructor|]. constructor.
    + apply IH. intros i j Hij Hj. apply (H (S i) (S j)); cbn [length]; lia.
    + apply Forall_forall. intros y Hy. apply (In_nth _ _ d) in Hy as [j [Hj <-]]. apply (H 0 (S j)); cbn [length]; lia.
Qed.

Lemma sierpinski_nth l i : i < 2 ^ length l -> nth i (sierpinski_of l) 0 = exposet_to_int (sel l i).
Proof.
  intro H. rewrite sierpinski_of_eq.
  rewrite (nth_indep _ 0 (exposet_to_int (sel l 0))) by (rewrite map_length, seq_length; exact H).
  rewrite (map_nth (fun i => exposet_to_int (sel l i))), seq_nth by exact H. reflexivity.
Qed.

Lemma sierpinski_length l : length (sierpinski_of l) = 2 ^ length l.
Proof. rewrite sierpinski_of_eq, map_length, seq_length. reflexivity. Qed.

Lemma sierpinski_pow l j : NoDup l -> j < length l -> nth (2 ^ j) (sierpinski_of l) 0 = 2 ^ nth j l 0.
Proof.
  intros Hn Hj. rewrite sierpinski_nth by (apply Nat.pow_lt_mono_r; lia).
  apply Nat.bits_inj. intro k. apply eq_iff_eq_true. rewrite sel_testbit by exact Hn.
  rewrite Nat.pow2_bits_eqb, Nat.eqb_eq. split.
  - intros [j' [E T]]. rewrite Nat.pow2_bits_eqb, Nat.eqb_eq in T. subst j'. apply nth_error_nth. exact E.
  - intros <-. exists j. split; [apply nth_error_nth'; exact Hj|]. rewrite Nat.pow2_bits_eqb. apply Nat.eqb_refl.
Qed.

Lemma sierpinski_sorted l : NoDup l -> StronglySorted lt (sierpinski_of l) <-> StronglySorted lt l.
Proof.
  intro Hn. split; intro H.
  - apply (sorted_nth l 0). intros i j Hij Hj. apply (Nat.pow_lt_mono_r_iff 2); [lia|].
    rewrite <- !sierpinski_pow by (try assumption; lia).
    apply (proj1 (sorted_nth _ 0) H); [apply Nat.pow_lt_mono_r; lia|].
    rewrite sierpinski_length. apply Nat.pow_lt_mono_r; lia.
  - apply (sorted_nth _ 0). intros i j Hij Hj. rewrite sierpinski_length in Hj.
    rewrite !sierpinski_nth by lia. apply sel_mono; assumption.
Qed.

Lemma sierpinski_row_sorted order n : Permutation (order (binv_exposet (bin_digits n))) (binv_exposet (bin_digits n)) ->
  StronglySorted lt (int_to_sierpinski_row order n) <-> StronglySorted lt (order (binv_exposet (bin_digits n))).
Proof.
  intro HP. apply sierpinski_sorted. eapply Permutation_NoDup; [apply Permutation_sym; exact HP|].
  apply sorted_lt_NoDup, binv_exposet_sorted.
Qed.

(** * zipping *)

Definition picks {A} (v : list A) (pattern : list nat) (k : nat) : list A :=
  map fst (filter (fun xk => Nat.eqb (snd xk) k) (combine v pattern)).

Lemma foldM_combine {A S} (f : S -> A -> nat -> res S) (v : list A) (p : list nat) s : length v = length p ->
  foldM (fun s i => let* x := lget v i in let* k := lget p i in f s x k) (seq 0 (length v)) s =
  foldM (fun s xk => f s (fst xk) (snd xk)) (combine v p) s.
Proof.
  revert p s; induction v as [|x v IH]; intros [|k p] s H; try discriminate; [reflexivity|].
  cbn [length seq foldM combine]. cbn [lget nth_error bind fst snd]. destruct (f s x k) as [s'|e]; [|reflexivity].
  cbn [bind]. rewrite <- (IH p s') by (cbn in H; lia). rewrite <- seq_shift.
  generalize (seq 0 (length v)). intro l. clear. revert s'. induction l as [|i l IH]; intro s; [reflexivity|].
  cbn [map foldM]. unfold lget. cbn [nth_error].
  destruct (nth_error v i) as [y|]; cbn [bind]; [|reflexivity]. destruct (nth_error p i) as [k'|]; cbn [bind]; [|reflexivity].
  destruct (f s y k') as [s'|e]; cbn [bind]; [apply IH | reflexivity].
Qed.

Lemma foldM_ext {A S} (f g : S -> A -> res S) l s : (forall s x, f s x = g s x) -> foldM f l s = foldM g l s.
Proof. intro H. revert s; induction l as [|x l IH]; intro s; cbn [foldM]; [reflexivity|]. rewrite H. destruct (g s x); cbn [bind]; auto. Qed.

Lemma zip_apart_loop {A} (xs : list (A * nat)) rows : (forall xk, In xk xs -> snd xk < length rows) ->
  exists r, foldM (fun result (xk : A * nat) => let* row := lget result (snd xk) in Ok (lset result (snd xk) (row ++ [fst xk]))) xs rows = Ok r /\
    length r = length rows /\
    forall k, nth k r [] = nth k rows [] ++ map fst (filter (fun xk => Nat.eqb (snd xk) k) xs) \/ length rows <= k.
Proof.
  revert rows; induction xs as [|[x k] xs IH]; intros rows H; cbn [foldM].
  - exists rows. split; [reflexivity|]. split; [reflexivity|]. intro k. left. cbn. rewrite app_nil_r. reflexivity.
  - assert (Hk : k < length rows) by (apply (H (x, k)); left; reflexivity). cbn [fst snd].
    rewrite (lget_ok rows k []) by exact Hk. cbn [bind].
    destruct (IH (lset rows k (nth k rows [] ++ [x]))) as [r [E [El En]]].
    { intros xk Hxk. rewrite lset_length. apply H. right. exact Hxk. }
    exists r. split; [exact E|]. rewrite lset_length in El, En. split; [exact El|]. intro j.
    destruct (En j) as [Ej|Ej]; [left | right; exact Ej]. rewrite Ej, lset_nth by exact Hk. cbn [filter snd].
    rewrite (Nat.eqb_sym k j). destruct (Nat.eqb_spec j k) as [->|]; [|reflexivity].
    cbn [map fst]. rewrite <- app_assoc. reflexivity.
Qed.

Lemma zip_apart_spec {A} (v : list A) (pattern : list nat) : length v = length pattern -> pattern <> [] ->
  exists rows, vector_zip_apart v pattern = Ok rows /\ length rows = S (list_max_nat pattern) /\
    forall k, nth k rows [] = picks v pattern k.
Proof.
  intros H Hp. unfold vector_zip_apart. rewrite (proj2 (Nat.eqb_eq _ _) H). cbn [true_except bind].
  destruct pattern as [|p0 ps] eqn:Ep; [congruence|]. rewrite <- Ep in *. clear Hp. cbv zeta. unfold range.
  rewrite (foldM_combine (fun result x k => let* row := lget result k in Ok (lset result k (row ++ [x]))) v pattern _ H).
  assert (Hb : forall xk, In xk (combine v pattern) -> snd xk < length (@repeat (list A) [] (list_max_nat pattern + 1))).
  { intros [x k] Hx. apply in_combine_r in Hx. apply list_max_nat_ge in Hx. rewrite repeat_length. cbn. lia. }
  destruct (zip_apart_loop (combine v pattern) (repeat [] (list_max_nat pattern + 1)) Hb) as [r [E [El En]]].
  exists r. split; [exact E|]. rewrite repeat_length in El, En. split; [lia|].
  intro k. destruct (En k) as [Ek|Hk].
  - rewrite Ek. destruct (Nat.lt_ge_cases k (list_max_nat pattern + 1)).
    + rewrite nth_repeat. reflexivity.
    + rewrite nth_overflow by (rewrite repeat_length; assumption). reflexivity.
  - rewrite nth_overflow by lia. unfold picks.
    assert (Ef : filter (fun xk : A * nat => Nat.eqb (snd xk) k) (combine v pattern) = []).
    { destruct (filter _ _) as [|[x k'] l] eqn:Ef; [reflexivity|]. exfalso.
      assert (Hin : In (x, k') (filter (fun xk : A * nat => Nat.eqb (snd xk) k) (combine v pattern))) by (rewrite Ef; left; reflexivity).
      apply filter_In in Hin as [Hin Hk']. apply Nat.eqb_eq in Hk'. cbn in Hk'. subst k'. apply Hb in Hin. rewrite repeat_length in Hin. cbn in Hin. lia. }
    rewrite Ef. reflexivity.
Qed.

Lemma zip_apart_reject {A} (v : list A) (pattern : list nat) : length v <> length pattern ->
  vector_zip_apart v pattern = Err ZipLengthError.
Proof. intro H. unfold vector_zip_apart. rewrite (proj2 (Nat.eqb_neq _ _) H). reflexivity. Qed.

Definition zip_step {A} (rs : list A * list (list A)) (i : nat) : res (list A * list (list A)) :=
  let* row := lget (snd rs) i in
  match row with
  | [] => Err IndexErr
  | x :: row' => Ok (fst rs ++ [x], lset (snd rs) i row')
  end.

Lemma zip_together_loop {A} (v : list A) pattern acc rows : length v = length pattern ->
  (forall k, In k pattern -> k < length rows) ->
  (forall k, k < length rows -> nth k rows [] = picks v pattern k) ->
  exists rows', foldM zip_step pattern (acc, rows) = Ok (acc ++ v, rows').
Proof.
  revert v acc rows; induction pattern as [|k pattern IH]; intros [|x v] acc rows Hl Hb Hn; try discriminate.
  - exists rows. cbn [foldM]. rewrite app_nil_r. reflexivity.
  - cbn [foldM]. assert (Hk : k < length rows) by (apply Hb; left; reflexivity).
    unfold zip_step at 1. cbn [fst snd]. rewrite (lget_ok rows k []) by exact Hk. cbn [bind].
    assert (E := Hn k Hk). unfold picks in E. cbn [combine filter snd] in E. rewrite Nat.eqb_refl in E. cbn [map fst] in E.
    rewrite E. cbn [bind].
    destruct (IH v (acc ++ [x]) (lset rows k (picks v pattern k))) as [r Er].
    + cbn in Hl; lia.
    + intros j Hj. rewrite lset_length. apply Hb. right. exact Hj.
    + intros j Hj. rewrite lset_length in Hj. rewrite lset_nth by exact Hk.
      destruct (Nat.eqb_spec j k) as [->|Hne]; [reflexivity|]. rewrite (Hn j Hj). unfold picks. cbn [combine filter snd].
      rewrite (proj2 (Nat.eqb_neq k j)) by congruence. reflexivity.
    + exists r. rewrite <- app_assoc in Er. exact Er.
Qed.

Lemma sum_map_length_lset {A} (rows : list (list A)) k r : k < length rows ->
  list_sum_nat (map (@length A) (lset rows k r)) + length (nth k rows []) = list_sum_nat (map (@length A) rows) + length r.
Proof.
  unfold list_sum_nat. revert k; induction rows as [|x rows IH]; intros k H; [cbn in H; lia|].
  destruct k as [|k]; cbn [lset map fold_right nth]; [lia|]. cbn [length] in H. specialize (IH k ltac:(lia)). lia.
Qed.

Lemma zip_apart_sum {A} (xs : list (A * nat)) rows : (forall xk, In xk xs -> snd xk < length rows) ->
  forall r, foldM (fun result (xk : A * nat) => let* row := lget result (snd xk) in Ok (lset result (snd xk) (row ++ [fst xk]))) xs rows = Ok r ->
  list_sum_nat (map (@length A) r) = list_sum_nat (map (@length A) rows) + length xs.
Proof.
  revert rows; induction xs as [|[x k] xs IH]; intros rows H r; cbn [foldM fst snd].
  - intros [= <-]. cbn; lia.
  - assert (Hk : k < length rows) by (apply (H (x, k)); left; reflexivity).
    rewrite (lget_ok rows k []) by exact Hk. cbn [bind]. intro E.
    rewrite (IH _ (fun xk Hxk => eq_ind_r (fun n => snd xk < n) (H xk (or_intror Hxk)) (lset_length _ _ _)) r E).
    assert (S1 := sum_map_length_lset rows k (nth k rows [] ++ [x]) Hk). rewrite app_length in S1. cbn [length] in *. lia.
Qed.

Lemma zip_roundtrip {A} (v : list A) (pattern : list nat) : length v = length pattern -> pattern <> [] ->
  exists rows, vector_zip_apart v pattern = Ok rows /\ vector_zip_together rows pattern = Ok v.
Proof.
  intros H Hp. destruct (zip_apart_spec v pattern H Hp) as [rows [E [El En]]]. exists rows. split; [exact E|].
  unfold vector_zip_together.
  assert (Hsum : list_sum_nat (map (@length A) rows) = length pattern).
  { unfold vector_zip_apart in E. rewrite (proj2 (Nat.eqb_eq _ _) H) in E. cbn [true_except bind] in E.
    destruct pattern as [|p0 ps] eqn:Ep; [congruence|]. rewrite <- Ep in *. cbv zeta in E. unfold range in E.
    rewrite (foldM_combine (fun result x k => let* row := lget result k in Ok (lset result k (row ++ [x]))) v pattern _ H) in E.
    rewrite (zip_apart_sum (combine v pattern) _) with (2 := E).
    - rewrite combine_length, H, Nat.min_id. replace (list_sum_nat _) with 0; [lia|].
      generalize (list_max_nat pattern + 1). intro n. induction n as [|n IHn]; [reflexivity|]. exact IHn.
    - intros [x k] Hx. apply in_combine_r in Hx. apply list_max_nat_ge in Hx. rewrite repeat_length. cbn. lia. }
  rewrite Hsum, Nat.eqb_refl. cbn [true_except bind].
  destruct (zip_together_loop v pattern [] rows H) as [r Er].
  - intros k Hk. apply list_max_nat_ge in Hk. lia.
  - intros k _. apply En.
  - change (foldM (fun (rs : list A * list (list A)) i => zip_step rs i) pattern ([], rows)) with (foldM (@zip_step A) pattern ([], rows)) || idtac.
    unfold zip_step in Er. rewrite Er. cbn [bind fst app]. destruct rows; [cbn in El; discriminate | reflexivity].
Qed.

Lemma zip_together_inv {A} pattern (acc : list A) rows res rows' :
  foldM zip_step pattern (acc, rows) = Ok (res, rows') ->
  exists v, res = acc ++ v /\ length v = length pattern /\ length rows' = length rows /\
    (forall k, In k pattern -> k < length rows) /\
    forall k, nth k rows [] = picks v pattern k ++ nth k rows' [].
Proof.
  revert acc rows; induction pattern as [|k pattern IH]; intros acc rows; cbn [foldM].
  - intros [= <- <-]. exists []. rewrite app_nil_r. repeat split; auto. intros k [].
  - unfold zip_step at 1. cbn [fst snd]. unfold lget. destruct (nth_error rows k) as [row|] eqn:Ek; cbn [bind]; [|discriminate].
    destruct row as [|x row']; cbn [bind]; [discriminate|]. intro E. apply IH in E as [v [-> [Hl [Hr [Hb Hn]]]]].
    assert (Hk : k < length rows) by (apply nth_error_Some; congruence). rewrite lset_length in *.
    exists (x :: v). rewrite <- app_assoc. split; [reflexivity|]. split; [cbn; lia|]. split; [exact Hr|]. split.
    + intros j [<-|Hj]; [exact Hk | apply Hb; exact Hj].
    + intro j. specialize (Hn j). rewrite lset_nth in Hn by exact Hk. unfold picks. cbn [combine filter snd].
      rewrite (Nat.eqb_sym k j). destruct (Nat.eqb_spec j k) as [e|]; [|exact Hn]; subst j.
      cbn [map fst app]. rewrite (nth_error_nth rows k [] Ek). f_equal. exact Hn.
Qed.

Lemma picks_sum {A} (v : list A) pattern n : length v = length pattern -> (forall k, In k pattern -> k < n) ->
  list_sum_nat (map (fun k => length (picks v pattern k)) (seq 0 n)) = length pattern.
Proof.
  revert v; induction pattern as [|k pattern IH]; intros [|x v] Hl Hb; try discriminate.
  - unfold picks, list_sum_nat. cbn [combine filter map length]. clear. generalize (seq 0 n). induction l as [|x l IH]; [reflexivity | exact IH].
  - cbn [length]. rewrite <- (IH v); [|cbn in Hl; lia | intros j Hj; apply Hb; right; exact Hj].
    assert (Hk : k < n) by (apply Hb; left; reflexivity).
    assert (G : forall a m, a <= k -> k < a + m ->
       list_sum_nat (map (fun j => length (picks (x :: v) (k :: pattern) j)) (seq a m)) =
       S (list_sum_nat (map (fun j => length (picks v pattern j)) (seq a m))) ).
    { assert (G0 : forall j, j <> k -> picks (x :: v) (k :: pattern) j = picks v pattern j).
      { intros j Hj. unfold picks. cbn [combine filter snd]. rewrite (proj2 (Nat.eqb_neq k j)) by congruence. reflexivity. }
      assert (G1 : forall m a, k < a -> map (fun j => length (picks (x :: v) (k :: pattern) j)) (seq a m) = map (fun j => length (picks v pattern j)) (seq a m)).
      { intros m a Ha. apply map_ext_in. intros j Hj. apply in_seq in Hj. rewrite G0 by lia. reflexivity. }
      intros a m; revert a; induction m as [|m IHm]; intros a H1 H2; [lia|]. cbn [seq map]. unfold list_sum_nat in *. cbn [fold_right].
      destruct (Nat.eq_dec a k) as [->|Hne].
      - rewrite G1 by lia. unfold picks at 1. cbn [combine filter snd]. rewrite Nat.eqb_refl. cbn [map length]. fold (picks v pattern k). unfold picks. lia.
      - rewrite G0 by congruence. rewrite IHm by lia. lia. }
    apply G; lia.
Qed.

Lemma list_sum_zero l : list_sum_nat l = 0 -> forall x, In x l -> x = 0.
Proof.
  unfold list_sum_nat. induction l as [|y l IH]; cbn [fold_right]; intros H x Hx; [destruct Hx|].
  destruct Hx as [<-|Hx]; [lia | apply IH; [lia | exact Hx]].
Qed.

Lemma map_nth_seq {A B} (f : A -> B) (l : list A) d : map f l = map (fun k => f (nth k l d)) (seq 0 (length l)).
Proof.
  induction l as [|x l IH]; [reflexivity|]. cbn [length seq map nth]. f_equal. rewrite <- seq_shift, map_map. exact IH.
Qed.

Lemma sum_map_add {A} (f g : A -> nat) l :
  list_sum_nat (map (fun x => f x + g x) l) = list_sum_nat (map f l) + list_sum_nat (map g l).
Proof. unfold list_sum_nat. induction l as [|x l IH]; cbn [map fold_right]; lia. Qed.

Lemma zip_together_spec {A} (rows : list (list A)) (pattern : list nat) v :
  vector_zip_together rows pattern = Ok v ->
  length v = length pattern /\ (forall k, In k pattern -> k < length rows) /\ (forall k, nth k rows [] = picks v pattern k).
Proof.
  unfold vector_zip_together. destruct (Nat.eqb_spec (length pattern) (list_sum_nat (map (@length A) rows))) as [Hs|]; cbn [true_except bind]; [|discriminate].
  change (foldM (fun (rs : list A * list (list A)) i => zip_step rs i) pattern ([], rows)) with (foldM (@zip_step A) pattern ([], rows)).
  fold (@zip_step A). destruct (foldM _ pattern ([], rows)) as [[r rows']|e] eqn:E; cbn [bind]; [|discriminate].
  apply (zip_together_inv pattern [] rows r rows') in E as [v' [-> [Hl [Hr [Hb Hn]]]]]. cbn [fst app].
  destruct rows as [|r0 rs] eqn:Er; [discriminate|]. rewrite <- Er in *. intros [= <-]. split; [exact Hl|]. split; [exact Hb|].
  intro k. rewrite Hn. replace (nth k rows' []) with (@nil A); [apply app_nil_r|]. symmetry.
  destruct (Nat.lt_ge_cases k (length rows')) as [Hk|Hk]; [|apply nth_overflow; exact Hk].
  assert (Z : list_sum_nat (map (@length A) rows') = 0).
  { rewrite (map_nth_seq (@length A) rows []) in Hs.
    rewrite (map_ext _ (fun k => length (picks v' pattern k) + length (nth k rows' []))) in Hs.
    2: { intro j. rewrite Hn, app_length. reflexivity. }
    rewrite sum_map_add, picks_sum in Hs by assumption.
    rewrite (map_nth_seq (@length A) rows' []), Hr. lia. }
  apply length_zero_iff_nil. apply (list_sum_zero _ Z). apply in_map. apply nth_In. exact Hk.
Qed.

Lemma zip_back {A} (rows : list (list A)) (pattern : list nat) v :
  vector_zip_together rows pattern = Ok v -> length rows = S (list_max_nat pattern) ->
  vector_zip_apart v pattern = Ok rows \/ pattern = [].
Proof.
  intros H Hl. apply zip_together_spec in H as [H1 [H2 H3]]. destruct pattern as [|p ps] eqn:Ep; [right; reflexivity|left].
  rewrite <- Ep in *. destruct (zip_apart_spec v pattern H1) as [rows' [E [El En]]]; [rewrite Ep; discriminate|].
  rewrite E. f_equal. apply nth_ext with (d := []) (d' := []); [lia|]. intros k _. rewrite En, H3. reflexivity.
Qed.
