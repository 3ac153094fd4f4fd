(** Proof_Seqs: ranges, transpositions, repeated and counted sequences, powersets, dictionaries,
    multisets and Cartesian products. *)

From Coq Require Import List Arith ZArith Bool Lia Sorted Permutation.
From Verif Require Import Model_Base Model_Binary Model_Perm Model_Helpers Spec_Helpers Lib Proof_Numbers.
Import ListNotations.
Open Scope nat_scope.

(** ** Ranges and slices *)

Lemma py_range_up a b s : (0 < s)%Z -> exists l, py_range a b s = Ok l /\
  (forall x, In x l <-> exists k, (0 <= k /\ x = a + k * s /\ x < b)%Z) /\ StronglySorted Z.lt l.
Proof.
  intros Hs. unfold py_range. replace (Z.eqb s 0) with false by (symmetry; apply Z.eqb_neq; lia).
  replace (0 <? s)%Z with true by (symmetry; apply Z.ltb_lt; lia).
  eexists. split; [reflexivity|].
  set (c := ((b - a + s - 1) / s)%Z).
  assert (Hc : forall k, (k < c <-> a + k * s < b)%Z).
  { intros k. unfold c. pose proof (Z.div_mod (b - a + s - 1) s ltac:(lia)) as D.
    pose proof (Z.mod_pos_bound (b - a + s - 1) s Hs) as M. set (q := ((b - a + s - 1) / s)%Z) in *.
    set (r := ((b - a + s - 1) mod s)%Z) in *. split; intros H; nia. }
  split.
  - intros x. rewrite in_map_iff. split.
    + intros [i [<- Hi]]. apply range_In in Hi. exists (Z.of_nat i). split; [lia|]. split; [reflexivity|].
      apply Hc. lia.
    + intros [k [Hk [-> H]]]. exists (Z.to_nat k). rewrite Z2Nat.id by lia. split; [reflexivity|].
      apply range_In. apply Hc in H. lia.
  - unfold range. generalize 0. induction (Z.to_nat c) as [|n IH]; intros i; cbn; constructor; [apply IH|].
    rewrite Forall_map. apply Forall_forall. intros j Hj. apply in_seq in Hj. nia.
Qed.

Lemma py_range_down a b s : (s < 0)%Z -> exists l, py_range a b s = Ok l /\
  (forall x, In x l <-> exists k, (0 <= k /\ x = a + k * s /\ b < x)%Z) /\ StronglySorted Z.gt l.
Proof.
  intros Hs. unfold py_range. replace (Z.eqb s 0) with false by (symmetry; apply Z.eqb_neq; lia).
  replace (0 <? s)%Z with false by (symmetry; apply Z.ltb_ge; lia).
  eexists. split; [reflexivity|].
  set (c := ((a - b - s - 1) / - s)%Z).
  assert (Hc : forall k, (k < c <-> b < a + k * s)%Z).
  { intros k. unfold c. pose proof (Z.div_mod (a - b - s - 1) (- s) ltac:(lia)) as D.
    pose proof (Z.mod_pos_bound (a - b - s - 1) (- s) ltac:(lia)) as M. set (q := ((a - b - s - 1) / - s)%Z) in *.
    set (r := ((a - b - s - 1) mod - s)%Z) in *. split; intros H; nia. }
  split.
  - intros x. rewrite in_map_iff. split.
    + intros [i [<- Hi]]. apply range_In in Hi. exists (Z.of_nat i). split; [lia|]. split; [reflexivity|].
      apply Hc. lia.
    + intros [k [Hk [-> H]]]. exists (Z.to_nat k). rewrite Z2Nat.id by lia. split; [reflexivity|].
      apply range_In. apply Hc in H. lia.
  - unfold range. generalize 0. induction (Z.to_nat c) as [|n IH]; intros i; cbn; constructor; [apply IH|].
    rewrite Forall_map. apply Forall_forall. intros j Hj. apply in_seq in Hj. nia.
Qed.

Lemma pslice_up p a b s : (0 <= a)%Z -> (0 < s)%Z -> forall start stop step,
  start = Some a \/ (start = None /\ a = 0%Z) ->
  stop = Some b \/ (stop = None /\ b = Z.of_nat (plength p)) ->
  step = Some s \/ (step = None /\ s = 1%Z) ->
  exists idx, pslice p start stop step = Ok (map (fun i => Some (pget p i)) idx) /\ StronglySorted lt idx /\
    forall i, In i idx <-> exists k, (0 <= k /\ Z.of_nat i = a + k * s /\ Z.of_nat i < b)%Z.
Proof.
  intros Ha Hs start stop step H1 H2 H3.
  destruct (py_range_up a b s Hs) as [l [E [I S]]].
  assert (P : Forall (fun x => 0 <= x)%Z l).
  { apply Forall_forall. intros x Hx. apply I in Hx. destruct Hx as [k [Hk [-> _]]]. nia. }
  exists (map Z.to_nat l). split; [|split].
  - unfold pslice, slice_to_range.
    assert (E' : match stop with Some x => Some x | None => Some (Z.of_nat (plength p)) end = Some b)
      by (destruct H2 as [->|[-> ->]]; reflexivity).
    rewrite E'. replace (match start with Some x => x | None => 0%Z end) with a by (destruct H1 as [->|[-> ->]]; reflexivity).
    replace (match step with Some x => x | None => 1%Z end) with s by (destruct H3 as [->|[-> ->]]; reflexivity).
    rewrite E. cbn [bind]. f_equal. rewrite map_map. apply map_ext_in. intros x Hx.
    rewrite Forall_forall in P. specialize (P x Hx). replace (x <? 0)%Z with false by (symmetry; apply Z.ltb_ge; lia).
    reflexivity.
  - clear -S P. induction S as [|x l _ IH F]; cbn; constructor.
    + apply IH. now inversion P.
    + rewrite Forall_map. inversion_clear P as [|? ? Px Pl]. rewrite Forall_forall in *.
      intros y Hy. specialize (F y Hy). specialize (Pl y Hy). lia.
  - intros i. rewrite in_map_iff. rewrite Forall_forall in P. split.
    + intros [x [<- Hx]]. specialize (P x Hx). rewrite Z2Nat.id by lia. now apply I.
    + intros H. exists (Z.of_nat i). split; [apply Nat2Z.id|]. now apply I.
Qed.

(** ** Transpositions and rows *)

Lemma nth_lset {A} (l : list A) i x j d : nth j (lset l i x) d = if Nat.eqb j i && Nat.ltb i (length l) then x else nth j l d.
Proof.
  revert i j. induction l as [|y l IH]; intros i j.
  - destruct i, j; cbn; rewrite ?andb_false_r; reflexivity.
  - destruct i as [|i], j as [|j]; try reflexivity. apply IH.
Qed.
Lemma length_lset {A} (l : list A) i x : length (lset l i x) = length l.
Proof. revert i. induction l as [|y l IH]; intros [|i]; cbn; auto. Qed.

Lemma zset_nat {A} (l : list A) i x : i < length l -> zset l (Z.of_nat i) x = Ok (lset l i x).
Proof.
  intros H. unfold zset. replace (Z.leb 0 (Z.of_nat i)) with true by (symmetry; apply Z.leb_le; lia).
  replace (Z.ltb (Z.of_nat i) (Z.of_nat (length l))) with true by (symmetry; apply Z.ltb_lt; lia).
  cbn. now rewrite Nat2Z.id.
Qed.

Lemma make_transposition_ok a b n : a < n -> b < n -> a <> b -> exists s,
  make_transposition (Z.of_nat a) (Z.of_nat b) n = Ok s /\ length s = n /\
  forall i, i < n -> nth i s 0%Z = Z.of_nat (if Nat.eqb i a then b else if Nat.eqb i b then a else i).
Proof.
  intros Ha Hb N. unfold make_transposition.
  replace (Z.eqb (Z.of_nat a) (Z.of_nat b)) with false by (symmetry; apply Z.eqb_neq; lia).
  replace (Z.of_nat a <? Z.of_nat n)%Z with true by (symmetry; apply Z.ltb_lt; lia).
  replace (Z.of_nat b <? Z.of_nat n)%Z with true by (symmetry; apply Z.ltb_lt; lia).
  cbn [negb andb true_except bind].
  assert (L : length (map Z.of_nat (range n)) = n) by (now rewrite map_length, range_length).
  rewrite zset_nat by (rewrite L; lia). cbn [bind].
  rewrite zset_nat by (rewrite length_lset, L; lia).
  eexists. split; [reflexivity|]. split; [now rewrite !length_lset|].
  intros i Hi. rewrite !nth_lset, length_lset, L.
  assert (E : nth i (map Z.of_nat (range n)) 0%Z = Z.of_nat i)
    by (change 0%Z with (Z.of_nat 0); rewrite map_nth; now rewrite nth_range).
  rewrite E. clear E.
  apply Nat.ltb_lt in Ha as Ha', Hb as Hb'. rewrite Ha', Hb', !andb_true_r.
  destruct (Nat.eqb_spec i a), (Nat.eqb_spec i b); try lia; reflexivity.
Qed.

Lemma make_transposition_errors a b n :
  (a = b \/ Z.of_nat n <= a \/ Z.of_nat n <= b)%Z -> make_transposition a b n = Err ArgValueError.
Proof.
  intros H. unfold make_transposition. destruct (Z.eqb_spec a b); [reflexivity|]. cbn [negb true_except bind].
  destruct (Z.ltb_spec a (Z.of_nat n)), (Z.ltb_spec b (Z.of_nat n)); cbn; try reflexivity. lia.
Qed.

Lemma swap_rows_ok {A} (m : list (list A)) a b : a < length m -> b < length m -> exists m',
  swap_matrix_rows m a b = Ok m' /\ length m' = length m /\
  nth a m' [] = nth b m [] /\ nth b m' [] = nth a m [] /\
  (forall i, i <> a -> i <> b -> nth i m' [] = nth i m []) /\
  swap_matrix_rows m' a b = Ok m.
Proof.
  intros Ha Hb.
  assert (E : forall m : list (list A), a < length m -> b < length m ->
     swap_matrix_rows m a b = Ok (lset (lset m a (nth b m [])) b (nth a m []))).
  { intros k Ka Kb. unfold swap_matrix_rows. apply Nat.ltb_lt in Ka as Ka', Kb as Kb'. rewrite Ka', Kb'. cbn [andb true_except bind].
    rewrite (lget_ok k b []), (lget_ok k a []) by assumption. reflexivity. }
  eexists. split; [now apply E|].
  set (m' := lset (lset m a (nth b m [])) b (nth a m [])).
  assert (L : length m' = length m) by (unfold m'; now rewrite !length_lset).
  assert (N : forall i, nth i m' [] = if Nat.eqb i b then nth a m [] else if Nat.eqb i a then nth b m [] else nth i m []).
  { intros i. unfold m'. rewrite !nth_lset, !length_lset. apply Nat.ltb_lt in Ha as Ha', Hb as Hb'.
    rewrite Ha', Hb', !andb_true_r. reflexivity. }
  split; [exact L|]. split.
  { rewrite N. destruct (Nat.eqb_spec a b) as [<-|]; [reflexivity|]. now rewrite Nat.eqb_refl. }
  split; [now rewrite N, Nat.eqb_refl|]. split.
  { intros i Ia Ib. rewrite N. destruct (Nat.eqb_spec i b); [congruence|]. destruct (Nat.eqb_spec i a); congruence. }
  rewrite E by (rewrite L; assumption). f_equal.
  apply nth_ext with [] []; [now rewrite !length_lset|]. intros i Hi.
  rewrite !nth_lset, !length_lset, L. apply Nat.ltb_lt in Ha as Ha', Hb as Hb'.
  rewrite Ha', Hb', !andb_true_r, !N.
  destruct (Nat.eqb_spec i b), (Nat.eqb_spec i a), (Nat.eqb_spec a b), (Nat.eqb_spec b a), (Nat.eqb_spec a a), (Nat.eqb_spec b b); subst; congruence.
Qed.

(** ** Repeated and counted sequences *)

Lemma nth_concat_repeat {A} (l : list A) d : l <> [] -> forall k i, i < k * length l ->
  nth i (concat (repeat l k)) d = nth (i mod length l) l d.
Proof.
  intros N. assert (L : length l <> 0) by (destruct l; [congruence | discriminate]).
  induction k as [|k IH]; intros i Hi; [lia|]. cbn [repeat concat].
  destruct (lt_dec i (length l)) as [C|C].
  - rewrite app_nth1 by exact C. now rewrite Nat.mod_small.
  - rewrite app_nth2 by lia. rewrite IH by lia. f_equal.
    rewrite <- (Nat.mod_add (i - length l) 1) by exact L. f_equal. lia.
Qed.

Lemma repeat_sequence_ok {A} (l : list A) t d r : repeat_sequence l t = Ok r <->
  l <> [] /\ length r = t /\ t mod length l = 0 /\ forall i, i < t -> nth i r d = nth (i mod length l) l d.
Proof.
  unfold repeat_sequence. destruct (Nat.eqb_spec (length l) 0) as [Z|Z].
  - destruct l; [|discriminate]. split; [discriminate|]. intros [H _]. congruence.
  - assert (N : l <> []) by (now intros ->).
    destruct (Nat.eqb_spec (t mod length l) 0) as [M|M].
    + assert (T : t = t / length l * length l) by (pose proof (Nat.div_mod t (length l) Z); lia).
      assert (LC : forall k, length (concat (repeat l k)) = k * length l)
        by (induction k as [|k IH]; cbn; [reflexivity | now rewrite app_length, IH]).
      assert (G : forall i, i < t -> nth i (concat (repeat l (t / length l))) d = nth (i mod length l) l d).
      { intros i Hi. apply nth_concat_repeat; [exact N|]. lia. }
      split.
      * intros E. injection E as <-. repeat split; try assumption. rewrite LC. lia.
      * intros [_ [H1 [_ H2]]]. f_equal. apply nth_ext with d d; [rewrite LC; lia|].
        intros i Hi. rewrite LC in Hi. rewrite G, H2 by lia. reflexivity.
    + split; [discriminate|]. intros [_ [_ [H _]]]. congruence.
Qed.

Lemma sequence_counts_ok l : length (sequence_to_entry_counts l) = length l /\
  forall i, i < length l ->
    nth i (sequence_to_entry_counts l) 0 = count_occ Nat.eq_dec (firstn i l) (nth i l 0).
Proof.
  unfold sequence_to_entry_counts.
  set (f := fun (st : dict * list nat) element =>
              let count := match dget (fst st) element with Some c => c | None => 0 end in
              (dset (fst st) element (count + 1), snd st ++ [count])).
  assert (G : forall post pre d r,
     (forall x, match dget d x with Some c => c | None => 0 end = count_occ Nat.eq_dec pre x) ->
     length r = length pre ->
     (forall i, i < length pre -> nth i r 0 = count_occ Nat.eq_dec (firstn i (pre ++ post)) (nth i (pre ++ post) 0)) ->
     let r' := snd (fold_left f post (d, r)) in
     length r' = length (pre ++ post) /\
     forall i, i < length (pre ++ post) -> nth i r' 0 = count_occ Nat.eq_dec (firstn i (pre ++ post)) (nth i (pre ++ post) 0)).
  { induction post as [|x post IH]; intros pre d r D L N; cbn [fold_left].
    - rewrite app_nil_r in *. split; assumption.
    - replace (pre ++ x :: post) with ((pre ++ [x]) ++ post) in * by (now rewrite <- app_assoc).
      unfold f at 2. cbn [fst snd]. apply IH.
      + intros y. rewrite dset_get, count_occ_app. cbn [count_occ]. rewrite <- D.
        destruct (Nat.eqb_spec y x) as [->|E].
        * destruct (Nat.eq_dec x x); [|congruence]. rewrite D. lia.
        * destruct (Nat.eq_dec x y); [congruence|]. lia.
      + rewrite !app_length, L. reflexivity.
      + intros i Hi. rewrite app_length in Hi. cbn in Hi. destruct (Nat.eq_dec i (length pre)) as [->|E].
        * rewrite app_nth2 by lia. rewrite L, Nat.sub_diag. cbn [nth].
          rewrite <- app_assoc. rewrite app_nth2 by lia. rewrite Nat.sub_diag. cbn [app nth].
          rewrite firstn_app, Nat.sub_diag, firstn_all. cbn. rewrite app_nil_r. apply D.
        * rewrite app_nth1 by lia. apply N. lia. }
  specialize (G l [] [] []). cbn in G. apply G; intros; try reflexivity. lia.
Qed.

(** ** Powersets *)

Lemma combinations_In {A} (l : list A) : forall r s, In s (combinations l r) <-> sublist s l /\ length s = r.
Proof.
  induction l as [|x l IH]; intros [|r] s; cbn.
  - split.
    + intros [<-|[]]. split; [constructor | reflexivity].
    + intros [H L]. left. now destruct s.
  - split; [tauto|]. intros [H L]. inversion H. subst. discriminate.
  - split.
    + intros [<-|[]]. split; [|reflexivity]. clear. induction l as [|y l IH].
      * apply sub_drop. constructor.
      * apply sub_drop. inversion IH; subst; assumption || (apply sub_drop; assumption).
    + intros [H L]. left. now destruct s.
  - rewrite in_app_iff, in_map_iff, IH. split.
    + intros [[s' [<- H]]|[H L]].
      * apply IH in H. destruct H as [H <-]. split; [now apply sub_keep | reflexivity].
      * split; [now apply sub_drop | exact L].
    + intros [H L]. inversion H as [|y s' l' H'|y s' l' H']; subst.
      * left. exists s'. split; [reflexivity|]. apply IH. split; [exact H' | cbn in L; lia].
      * right. split; assumption.
Qed.

Lemma sublist_In {A} (s l : list A) x : sublist s l -> In x s -> In x l.
Proof. induction 1; cbn; tauto. Qed.
Lemma sublist_length {A} (s l : list A) : sublist s l -> length s <= length l.
Proof. induction 1; cbn; lia. Qed.

Lemma NoDup_app' {A} (l1 l2 : list A) : NoDup l1 -> NoDup l2 -> (forall x, In x l1 -> ~ In x l2) -> NoDup (l1 ++ l2).
Proof.
  intros H1 H2 H. induction H1 as [|x l N _ IH]; cbn; [exact H2|]. constructor.
  - rewrite in_app_iff. intros [I|I]; [contradiction|]. exact (H x (or_introl eq_refl) I).
  - apply IH. intros; apply H; now right.
Qed.

Lemma combinations_NoDup {A} (l : list A) : NoDup l -> forall r, NoDup (combinations l r).
Proof.
  induction 1 as [|x l N _ IH]; intros [|r]; cbn; try (repeat constructor; cbn; tauto).
  apply NoDup_app'.
  - apply FinFun.Injective_map_NoDup; [|apply IH]. intros a b E. now injection E.
  - apply IH.
  - intros s I1 I2. apply in_map_iff in I1. destruct I1 as [s' [<- _]].
    apply combinations_In in I2. apply N. apply (sublist_In (x :: s') l); [tauto | now left].
Qed.

Lemma powerset_In {A} (l : list A) s : In s (powerset l) <-> sublist s l.
Proof.
  unfold powerset. rewrite in_flat_map. split.
  - intros [r [_ H]]. now apply combinations_In in H.
  - intros H. exists (length s). split; [|now apply combinations_In].
    apply range_In. apply sublist_length in H. lia.
Qed.

Lemma powerset_sorted {A} (l : list A) : StronglySorted (fun s t => length s <= length t) (powerset l).
Proof.
  unfold powerset, range. generalize (length l + 1) as m. intros m. generalize 0. induction m as [|n IH]; intros k; cbn; [constructor|].
  assert (G : forall c, (forall s, In s c -> length s = k) -> StronglySorted (fun s t : list A => length s <= length t)
     (c ++ flat_map (combinations l) (seq (S k) n))).
  { induction c as [|s c IHc]; intros H; cbn; [apply IH|]. constructor.
    - apply IHc. intros; apply H; now right.
    - apply Forall_forall. intros t Ht. rewrite (H s (or_introl eq_refl)). apply in_app_iff in Ht.
      destruct Ht as [Ht|Ht]; [rewrite (H t (or_intror Ht)); lia|].
      apply in_flat_map in Ht. destruct Ht as [j [Hj Ht]]. apply in_seq in Hj. apply combinations_In in Ht. lia. }
  apply G. intros s Hs. now apply combinations_In in Hs.
Qed.

Lemma powerset_NoDup {A} (l : list A) : NoDup l -> NoDup (powerset l).
Proof.
  intros N. unfold powerset, range. generalize (length l + 1) as m. intros m. generalize 0. induction m as [|n IH]; intros k; cbn; [constructor|].
  apply NoDup_app'; [now apply combinations_NoDup | apply IH|].
  intros s H1 H2. apply combinations_In in H1. apply in_flat_map in H2. destruct H2 as [j [Hj H2]].
  apply in_seq in Hj. apply combinations_In in H2. lia.
Qed.

Lemma flat_map_shift {A} (l : list A) : forall n k,
  length (flat_map (combinations l) (seq k n)) = fold_right plus 0 (map (fun r => length (combinations l r)) (seq k n)).
Proof. induction n as [|n IH]; intros k; cbn; [reflexivity|]. now rewrite app_length, IH. Qed.

Lemma combinations_big {A} (l : list A) : forall r, length l < r -> combinations l r = [].
Proof.
  induction l as [|x l IH]; intros [|r] H; cbn in *; try lia; [reflexivity|].
  rewrite !IH by lia. reflexivity.
Qed.

Lemma powerset_length {A} (l : list A) : length (powerset l) = 2 ^ length l.
Proof.
  unfold powerset, range. rewrite flat_map_shift.
  assert (G : forall (l : list A) n, length l < n -> fold_right plus 0 (map (fun r => length (combinations l r)) (seq 0 n)) = 2 ^ length l).
  { clear. induction l as [|x l IH]; intros n Hn.
    - destruct n as [|n]; [lia|]. cbn. rewrite <- seq_shift, map_map. cbn.
      assert (E : forall m k, fold_right plus 0 (map (fun _ : nat => 0) (seq k m)) = 0)
        by (induction m as [|m IHm]; intros k; cbn; auto). now rewrite E.
    - destruct n as [|n]; [lia|]. cbn [seq map fold_right].
      rewrite <- seq_shift, map_map. cbn [combinations length].
      assert (E : forall m k, fold_right plus 0 (map (fun r => length (map (cons x) (combinations l r) ++ combinations l (S r))) (seq k m)) =
         fold_right plus 0 (map (fun r => length (combinations l r)) (seq k m)) +
         fold_right plus 0 (map (fun r => length (combinations l r)) (seq (S k) m))).
      { induction m as [|m IHm]; intros k; cbn [seq map fold_right]; [reflexivity|].
        rewrite IHm, app_length, map_length. cbn [seq map fold_right]. lia. }
      rewrite E. cbn in Hn. rewrite (IH n) by lia. pose proof (IH (S n) ltac:(lia)) as I2.
      cbn [seq map fold_right] in I2. rewrite Nat.pow_succ_r'.
      replace (length (combinations l 0)) with 1 in I2 by (destruct l; reflexivity). lia. }
  apply G. lia.
Qed.

(** ** Dictionaries and multisets *)

Lemma foldM_dset original ks : NoDup ks -> (forall k, In k ks -> In k (dkeys original)) -> forall d,
  exists r, foldM (fun result key => let* v := dlookup original key in Ok (dset result key v)) ks d = Ok r /\
    forall k, dget r k = if memb k ks then dget original k else dget d k.
Proof.
  induction 1 as [|k ks N _ IH]; intros H d; [exists d; split; reflexivity|]. cbn [foldM].
  destruct (dget_key original k (H k (or_introl eq_refl))) as [v E].
  assert (E' : dlookup original k = Ok v) by (unfold dlookup; now rewrite E). rewrite E'. cbn [bind].
  destruct (IH (fun k' I => H k' (or_intror I)) (dset d k v)) as [r [R D]].
  exists r. split; [exact R|]. intros k'. rewrite D, dset_get. cbn [memb existsb].
  change (existsb (Nat.eqb k') ks) with (memb k' ks).
  destruct (memb k' ks) eqn:M; [now rewrite orb_true_r|]. rewrite orb_false_r.
  destruct (Nat.eqb_spec k' k) as [->|]; [now rewrite E | reflexivity].
Qed.

Lemma fold_dset d : NoDup (dkeys d) -> forall r k,
  dget (fold_left (fun result (kv : nat * nat) => dset result (fst kv) (snd kv)) d r) k =
  match dget d k with Some v => Some v | None => dget r k end.
Proof.
  induction d as [|[k v] d IH]; intros N r k'; [reflexivity|]. cbn [fold_left fst snd].
  cbn in N. inversion_clear N as [|? ? N1 N2]. rewrite IH by exact N2. rewrite dset_get. cbn [dget].
  destruct (Nat.eqb_spec k' k) as [->|E].
  - rewrite ?Nat.eqb_refl. destruct (dget d k) eqn:G; [|reflexivity]. apply dget_Some_key in G. contradiction.
  - destruct (Nat.eqb_spec k k'); [congruence|]. reflexivity.
Qed.

Lemma subdict_ok order original drop fresh : (forall l, Permutation (order l) l) -> NoDup (dkeys original) -> NoDup (dkeys fresh) ->
  exists r, subdict order original (Some drop) (Some fresh) = Ok r /\
  forall k, dget r k = match dget fresh k with
                       | Some v => Some v
                       | None => if memb k drop then None else dget original k
                       end.
Proof.
  intros O No Nf. unfold subdict.
  set (ks := filter (fun k => negb (memb k (dkeys fresh))) (filter (fun k => negb (memb k drop)) (nodupb (dkeys original)))).
  assert (NK : NoDup (order ks)).
  { apply (Permutation_NoDup (Permutation_sym (O ks))). apply NoDup_filter, NoDup_filter, nodupb_NoDup. }
  assert (IK : forall k, In k (order ks) <-> In k (dkeys original) /\ ~ In k drop /\ ~ In k (dkeys fresh)).
  { intros k. rewrite (Permutation_in' eq_refl (O ks)). unfold ks.
    rewrite !filter_In, nodupb_In, !negb_true_iff, !memb_false. tauto. }
  destruct (foldM_dset original (order ks) NK (fun k I => proj1 (proj1 (IK k) I)) []) as [r [R D]].
  cbn zeta. fold ks. rewrite R. cbn [bind]. eexists. split; [reflexivity|].
  intros k. rewrite fold_dset by exact Nf. destruct (dget fresh k) eqn:F; [reflexivity|].
  apply dget_None in F. rewrite D. destruct (memb k (order ks)) eqn:M.
  - apply memb_In, IK in M. destruct (memb k drop) eqn:X; [|reflexivity]. apply memb_In in X. tauto.
  - apply memb_false in M. destruct (memb k drop) eqn:X; [reflexivity|]. apply memb_false in X.
    symmetry. cbn. apply dget_None. intros I. apply M. apply IK. auto.
Qed.

Lemma multiplicity_dget d x c : NoDup (dkeys d) ->
  (multiplicity d x c <-> c = match dget d x with Some v => v | None => 0 end).
Proof.
  intros N. unfold multiplicity. change (map fst d) with (dkeys d). split.
  - intros [H|[H ->]].
    + now rewrite (In_dget d x c N H).
    + apply dget_None in H. now rewrite H.
  - intros ->. destruct (dget d x) as [v|] eqn:E; [left; now apply dget_In | right].
    now apply dget_None in E.
Qed.

Lemma is_multisubset_ok a b : NoDup (dkeys a) -> NoDup (dkeys b) ->
  (is_multisubset a b = true <-> forall x m n, multiplicity a x m -> multiplicity b x n -> m <= n).
Proof.
  intros Na Nb. unfold is_multisubset. rewrite forallb_forall. split.
  - intros H x m n Hm Hn. apply multiplicity_dget in Hn; [|exact Nb]. subst n.
    destruct Hm as [Hm|[_ ->]]; [|lia]. specialize (H _ Hm). cbn [fst snd] in H.
    destruct (Nat.ltb_spec 0 m); [|lia]. destruct (dget b x); [|discriminate].
    apply negb_true_iff, Nat.ltb_ge in H. lia.
  - intros H [x m] I. cbn [fst snd]. destruct (Nat.ltb_spec 0 m) as [L|L]; [|reflexivity].
    pose proof (H x m _ (or_introl I) (proj2 (multiplicity_dget b x _ Nb) eq_refl)) as G.
    destruct (dget b x) as [n|]; [|lia]. apply negb_true_iff, Nat.ltb_ge. lia.
Qed.

Lemma multiset_to_distri_ok d vs r : NoDup (dkeys d) ->
  (multiset_to_distri d vs = Ok r <->
   (forall x, In x (map fst d) -> In x vs) /\ length r = length vs /\
   forall i, i < length vs -> multiplicity d (nth i vs 0) (nth i r 0)).
Proof.
  intros N. unfold multiset_to_distri.
  destruct (forallb (fun k => memb k vs) (dkeys d)) eqn:F.
  - rewrite forallb_forall in F.
    set (g := fun value => match dget d value with Some c => c | None => 0 end).
    assert (G : forall i, i < length vs -> nth i (map g vs) 0 = g (nth i vs 0)).
    { intros i Hi. rewrite (nth_indep (map g vs) 0 (g 0)) by (now rewrite map_length). apply map_nth. }
    split.
    + intros E. injection E as <-. split; [intros x Hx; apply memb_In; now apply F|].
      split; [apply map_length|]. intros i Hi. rewrite G by exact Hi. now apply multiplicity_dget.
    + intros [_ [L H]]. f_equal. apply nth_ext with 0 0; [now rewrite map_length|].
      intros i Hi. rewrite map_length in Hi. rewrite G by exact Hi. specialize (H i Hi).
      apply multiplicity_dget in H; [|exact N]. now rewrite H.
  - split; [discriminate|]. intros [H _]. exfalso.
    assert (X : forallb (fun k => memb k vs) (dkeys d) = true).
    { apply forallb_forall. intros x Hx. apply memb_In. now apply H. }
    congruence.
Qed.

(** ** Bitwise operations on many integers *)

Lemma bit_op_spec op x y i : Nat.testbit (apply_bit_op op x y) i =
  (match op with OpAnd => andb | OpOr => orb | OpXor => xorb end) (Nat.testbit x i) (Nat.testbit y i).
Proof. destruct op; cbn; [apply Nat.land_spec | apply Nat.lor_spec | apply Nat.lxor_spec]. Qed.

Lemma multigrade_ok l op : 2 <= length l -> exists n, multigrade_bitwise l op = inl n /\
  forall i, Nat.testbit n i = match op with
                              | OpAnd => forallb (fun x => Nat.testbit x i) l
                              | OpOr => existsb (fun x => Nat.testbit x i) l
                              | OpXor => Nat.odd (length (filter (fun x => Nat.testbit x i) l))
                              end.
Proof.
  intros L. destruct l as [|a [|b l]]; cbn in L; try lia. eexists. split; [reflexivity|]. intros i.
  generalize (b :: l). clear. intros l. revert a.
  assert (O : forall a : nat, Nat.odd (length (filter (fun x => Nat.testbit x i) [a])) = Nat.testbit a i)
    by (intros a; cbn; now destruct (Nat.testbit a i)).
  induction l as [|b l IH]; intros a; cbn [fold_left].
  - destruct op; cbn; [now rewrite andb_true_r | now rewrite orb_false_r | now destruct (Nat.testbit a i)].
  - rewrite IH. destruct op; cbn [forallb existsb filter]; rewrite bit_op_spec.
    + now rewrite andb_assoc.
    + now rewrite orb_assoc.
    + destruct (Nat.testbit a i), (Nat.testbit b i); cbn [xorb length]; rewrite ?Nat.odd_succ, ?Nat.even_succ, <- ?Nat.negb_odd, ?Nat.odd_succ, <- ?Nat.negb_odd, ?negb_involutive; reflexivity.
Qed.

(** ** Cartesian products *)

Lemma pairs_eqb_eq a b : pairs_eqb a b = true <-> a = b.
Proof.
  revert b. induction a as [|[x y] a IH]; intros [|[u v] b]; cbn; try (split; [discriminate|congruence]); [tauto|].
  rewrite !andb_true_iff, !Nat.eqb_eq, IH. split; [intros [[-> ->] ->]; reflexivity | intros E; injection E as -> -> ->; auto].
Qed.
Lemma pair_leb_antisym a b : pair_leb a b = true -> pair_leb b a = true -> a = b.
Proof.
  unfold pair_leb. destruct a as [a1 a2], b as [b1 b2]. cbn [fst snd].
  rewrite !orb_true_iff, !andb_true_iff, !Nat.ltb_lt, !Nat.eqb_eq, !Nat.leb_le. intros. f_equal; lia.
Qed.
Lemma isort_pairs_iff l1 l2 : isort pair_leb l1 = isort pair_leb l2 <-> Permutation l1 l2.
Proof. apply isort_eq_iff; [apply pair_leb_total | apply pair_leb_trans | apply pair_leb_antisym]. Qed.

Lemma icp_sound pairs ls rs : inverse_cartesian_product pairs = Ok (ls, rs) ->
  StronglySorted lt ls /\ StronglySorted lt rs /\ Permutation pairs (list_prod ls rs) /\
  (forall x, In x ls <-> In x (map fst pairs)) /\ (forall x, In x rs <-> In x (map snd pairs)).
Proof.
  unfold inverse_cartesian_product.
  destruct (pairs_eqb _ _) eqn:E; [|discriminate]. intros X. injection X as <- <-.
  apply pairs_eqb_eq, isort_pairs_iff in E.
  split; [apply sort_nat_sorted_lt, nodupb_NoDup|]. split; [apply sort_nat_sorted_lt, nodupb_NoDup|].
  split; [|split; intros x; now rewrite sort_nat_In, nodupb_In].
  apply (Permutation_trans (Permutation_sym E)). clear E.
  assert (G : forall (a a' b b' : list nat), Permutation a a' -> Permutation b b' -> Permutation (list_prod a b) (list_prod a' b')).
  { intros a a' b b' P Q. transitivity (list_prod a' b).
    - induction P; cbn; auto.
      + now apply Permutation_app_head.
      + rewrite !app_assoc. apply Permutation_app_tail, Permutation_app_comm.
      + etransitivity; eassumption.
    - clear P a. induction a' as [|x a' IH]; cbn; [constructor|]. apply Permutation_app; [now apply Permutation_map | exact IH]. }
  apply G; apply sort_nat_perm.
Qed.

Lemma NoDup_list_prod {A B} (l : list A) (r : list B) : NoDup l -> NoDup r -> NoDup (list_prod l r).
Proof.
  intros Nl Nr. induction Nl as [|x l N _ IH]; cbn; [constructor|]. apply NoDup_app'.
  - apply FinFun.Injective_map_NoDup; [|exact Nr]. intros a b E. now injection E.
  - exact IH.
  - intros [u v] I1 I2. apply in_map_iff in I1. destruct I1 as [w [E _]]. injection E as <- <-.
    apply in_prod_iff in I2. tauto.
Qed.

Lemma icp_complete pairs l r : NoDup l -> NoDup r -> l <> [] -> r <> [] -> Permutation pairs (list_prod l r) ->
  inverse_cartesian_product pairs = Ok (sort_nat l, sort_nat r).
Proof.
  intros Nl Nr El Er P. unfold inverse_cartesian_product.
  assert (IL : forall x, In x (map fst pairs) <-> In x l).
  { intros x. rewrite in_map_iff. split.
    - intros [[u v] [<- I]]. rewrite P in I. now apply in_prod_iff in I.
    - intros I. destruct r as [|y r]; [congruence|]. exists (x, y). split; [reflexivity|]. rewrite P.
      apply in_prod_iff. split; [exact I | now left]. }
  assert (IR : forall x, In x (map snd pairs) <-> In x r).
  { intros x. rewrite in_map_iff. split.
    - intros [[u v] [<- I]]. rewrite P in I. now apply in_prod_iff in I.
    - intros I. destruct l as [|y l]; [congruence|]. exists (y, x). split; [reflexivity|]. rewrite P.
      apply in_prod_iff. split; [now left | exact I]. }
  assert (PL : Permutation (nodupb (map fst pairs)) l).
  { apply NoDup_Permutation; [apply nodupb_NoDup | exact Nl|]. intros x. now rewrite nodupb_In. }
  assert (PR : Permutation (nodupb (map snd pairs)) r).
  { apply NoDup_Permutation; [apply nodupb_NoDup | exact Nr|]. intros x. now rewrite nodupb_In. }
  replace (pairs_eqb _ _) with true.
  - f_equal. f_equal; now apply sort_nat_eq_iff.
  - symmetry. apply pairs_eqb_eq, isort_pairs_iff. refine (Permutation_trans _ (Permutation_sym P)).
    apply NoDup_Permutation.
    + apply NoDup_list_prod; apply nodupb_NoDup.
    + now apply NoDup_list_prod.
    + intros [u v]. rewrite !in_prod_iff, !nodupb_In, IL, IR. tauto.
Qed.
