(** Props_Negative: property C118 (negative numbers in the exponent sets of Binv and in the full spots of Boolf, and
    the atoms that are only checked after superfluous ones are removed). *)

From Coq Require Import List Arith ZArith Bool Lia Permutation Sorted.
From Verif Require Import Model_Base Lib Model_Binary Model_WalshPerm Model_Boolf Model_Twin Spec_Bits Spec_SigPerm Spec_Boolf Proof_Binary Proof_Deflate Proof_Boolf Proof_Reorder Proof_BoolfMake Proof_Twin Proof_FissionMore Proof_Misc Props_Boolf Props_Args.
Import ListNotations.
Local Open Scope nat_scope.
Local Open Scope bool_scope.

(** place j of l places is meant by the number j and by the number j - l *)
Definition marked (l : nat) (s : list Z) (j : nat) : bool :=
  existsb (fun i => Z.eqb i (Z.of_nat j) || Z.eqb i (Z.of_nat j - Z.of_nat l)) s.
(** v has l places and exactly the marked ones are true *)
Definition marks (l : nat) (s : list Z) (v : list bool) : Prop :=
  length v = l /\ forall j, j < l -> nth j v false = marked l s j.
Definition in_range (l : nat) (i : Z) : Prop := (- Z.of_nat l <= i < Z.of_nat l)%Z.
Definition too_great (l : nat) (i : Z) : Prop := (Z.of_nat l <= i)%Z.
Definition too_small (l : nat) (i : Z) : Prop := (i < - Z.of_nat l)%Z.
(** m is the greatest member of s *)
Definition greatest (s : list Z) (m : Z) : Prop := In m s /\ forall i, In i s -> (i <= m)%Z.

Lemma foldmax_spec l : forall x, (In (fold_left Z.max l x) (x :: l)) /\ forall i, In i (x :: l) -> (i <= fold_left Z.max l x)%Z.
Proof.
  induction l as [|y l IH]; intro x; cbn [fold_left].
  - split; [left; reflexivity|]. intros i [<-|[]]. lia.
  - destruct (IH (Z.max x y)) as (H1 & H2). split.
    + destruct H1 as [H1|H1]; [|right; right; exact H1]. rewrite <- H1. destruct (Z.max_spec x y) as [(_ & ->)|(_ & ->)]; [right; left; reflexivity|left; reflexivity].
    + intros i [<-|[<-|H]]; [|  |apply H2; right; exact H]; specialize (H2 _ (or_introl eq_refl)); lia.
Qed.
Lemma zmax_ok s m : greatest s m -> zmax s = Ok m.
Proof.
  destruct s as [|x l]; [intros ([] & _)|]. intros (Hi & Hm). cbn [zmax]. f_equal. destruct (foldmax_spec l x) as (H1 & H2).
  specialize (Hm _ H1). specialize (H2 _ Hi). lia.
Qed.
Lemma greatest_exists s : s <> [] -> exists m, greatest s m.
Proof. destruct s as [|x l]; [congruence|]. intros _. exists (fold_left Z.max l x). apply foldmax_spec. Qed.

Definition zplace (l : nat) (i : Z) : nat := if Z.leb 0 i then Z.to_nat i else Z.to_nat (Z.of_nat l + i).
Lemma zset_in_range {A} (v : list A) i x : in_range (length v) i -> zset v i x = Ok (lset v (zplace (length v) i) x).
Proof.
  intros (H1 & H2). unfold zset, zplace. destruct (Z.leb_spec 0 i) as [H|H]; cbn [andb].
  - rewrite (proj2 (Z.ltb_lt _ _) H2). reflexivity.
  - rewrite (proj2 (Z.leb_le _ _) H1), (proj2 (Z.ltb_lt _ _) H). reflexivity.
Qed.
Lemma zset_small {A} (v : list A) i x : too_small (length v) i -> zset v i x = Err IndexErr.
Proof.
  unfold too_small. intro H. unfold zset. replace (Z.leb 0 i) with false by (symmetry; apply Z.leb_gt; lia).
  replace (Z.leb (- Z.of_nat (length v)) i) with false by (symmetry; apply Z.leb_gt; lia). reflexivity.
Qed.
Lemma lset_len {A} (v : list A) k x : length (lset v k x) = length v.
Proof. revert k. induction v as [|y v IH]; intros [|k]; cbn; [reflexivity..|]. f_equal. apply IH. Qed.
Lemma lset_at (v : list bool) k j x : k < length v -> nth j (lset v k x) false = if Nat.eqb j k then x else nth j v false.
Proof.
  revert k j. induction v as [|y v IH]; intros [|k] j H; cbn in *; [lia|lia|destruct j; reflexivity|].
  destruct j as [|j]; cbn; [reflexivity|]. apply IH. lia.
Qed.
Lemma zplace_lt l i : in_range l i -> zplace l i < l.
Proof. unfold in_range, zplace. intros (H1 & H2). destruct (Z.leb_spec 0 i); lia. Qed.
Lemma zplace_eq l i j : in_range l i -> j < l -> Nat.eqb j (zplace l i) = Z.eqb i (Z.of_nat j) || Z.eqb i (Z.of_nat j - Z.of_nat l).
Proof.
  unfold in_range, zplace. intros (H1 & H2) Hj. apply Proof_Twin.bool_iff. rewrite orb_true_iff, !Z.eqb_eq, Nat.eqb_eq. destruct (Z.leb_spec 0 i); lia.
Qed.

Lemma fold_marks s : forall w, (forall i, In i s -> in_range (length w) i) ->
  exists v, foldM (fun v i => zset v i true) s w = Ok v /\ length v = length w /\
    forall j, j < length w -> nth j v false = nth j w false || marked (length w) s j.
Proof.
  induction s as [|i s IH]; intros w H; cbn [foldM].
  - exists w. split; [reflexivity|]. split; [reflexivity|]. intros j _. cbn. rewrite orb_false_r. reflexivity.
  - assert (Hi := H i (or_introl eq_refl)). rewrite zset_in_range by exact Hi. cbn [bind].
    destruct (IH (lset w (zplace (length w) i) true)) as (v & E & L & N); [intros k Hk; rewrite lset_len; apply H; right; exact Hk|].
    rewrite lset_len in *. exists v. split; [exact E|]. split; [exact L|]. intros j Hj. rewrite N by exact Hj. rewrite lset_at by (apply zplace_lt; exact Hi).
    rewrite (zplace_eq _ _ _ Hi Hj). cbn [marked existsb]. destruct (Z.eqb i (Z.of_nat j) || Z.eqb i (Z.of_nat j - Z.of_nat (length w))); cbn [orb]; [rewrite orb_true_r; reflexivity|].
    reflexivity.
Qed.
Lemma fold_small s : forall w, (forall i, In i s -> ~ too_great (length w) i) -> (exists i, In i s /\ too_small (length w) i) ->
  foldM (fun v i => zset v i true) s w = Err IndexErr.
Proof.
  induction s as [|i s IH]; intros w H (k & Hk & Hs); [destruct Hk|]. cbn [foldM].
  destruct (Z.lt_ge_cases i (- Z.of_nat (length w))) as [Hi|Hi]; [rewrite zset_small by exact Hi; reflexivity|].
  assert (Hg := H i (or_introl eq_refl)). unfold too_great in Hg. rewrite zset_in_range by (split; lia). cbn [bind]. apply IH.
  - intros x Hx. rewrite lset_len. apply H. right. exact Hx.
  - rewrite lset_len. exists k. split; [|exact Hs]. destruct Hk as [<-|Hk]; [unfold too_small in Hs; lia|exact Hk].
Qed.
Lemma repeat_marks l s v : (forall j, j < l -> nth j v false = nth j (repeat false l) false || marked l s j) -> forall j, j < l -> nth j v false = marked l s j.
Proof. intros H j Hj. rewrite H by exact Hj. rewrite nth_repeat. reflexivity. Qed.

(** ** Exponent sets of Binv *)

(** Binv(exposet=s, length=l) refuses a number that is too great, and next a number that is too small (with the
    IndexError of the assignment to a list); otherwise a negative number counts from the end of the vector.  The
    result is the same with and without a minimal length. *)
Theorem C118_length : forall s l ml,
  ((exists i, In i s /\ too_great l i) -> Binv None None (Some s) (Some l) ml = Err BinvLengthError) /\
  ((forall i, In i s -> ~ too_great l i) -> (exists i, In i s /\ too_small l i) -> Binv None None (Some s) (Some l) ml = Err IndexErr) /\
  ((forall i, In i s -> in_range l i) -> exists v, Binv None None (Some s) (Some l) ml = Ok v /\ marks l s v).
Proof.
  intros s l ml. unfold Binv, Binv_with.
  assert (G : (forall i, In i s -> ~ too_great l i) -> (match s with [] => Ok (Z.of_nat l) | _ :: _ => let* m := zmax s in guard Z.ltb m (Z.of_nat l) else BinvLengthError ;; Ok (Z.of_nat l) end) = Ok (Z.of_nat l)).
  { intro H. destruct s as [|x s']; [reflexivity|]. destruct (greatest_exists (x :: s')) as (m & Hm); [discriminate|]. rewrite (zmax_ok _ _ Hm). cbn [bind].
    specialize (H _ (proj1 Hm)). unfold too_great in H. rewrite (proj2 (Z.ltb_lt _ _)) by lia. reflexivity. }
  split; [|split].
  - intros (i & Hi & Ht). destruct s as [|x s']; [destruct Hi|]. destruct (greatest_exists (x :: s')) as (m & Hm); [discriminate|]. rewrite (zmax_ok _ _ Hm). cbn [bind].
    apply (proj2 Hm) in Hi. unfold too_great in Ht. rewrite (proj2 (Z.ltb_ge _ _)) by lia. reflexivity.
  - intros H Hs. rewrite (G H). cbn [bind]. rewrite Nat2Z.id. apply fold_small; rewrite repeat_length; assumption.
  - intro H. rewrite G by (intros i Hi; specialize (H i Hi); unfold in_range, too_great in *; lia). cbn [bind]. rewrite Nat2Z.id.
    destruct (fold_marks s (repeat false l)) as (v & E & L & N); [rewrite repeat_length; exact H|]. rewrite repeat_length in *. exists v. split; [exact E|]. split; [exact L|].
    apply repeat_marks. exact N.
Qed.
Print Assumptions C118_length.

(** Without a length the greatest number decides: one place more than it says; a set of negative numbers only is
    refused with an IndexError.  With a minimal length k the length is the greater of k and that one; the empty set,
    which is fine otherwise, is refused with the ValueError of max. *)
Theorem C118_no_length : forall s m, greatest s m ->
  ((0 <= m)%Z -> Binv None None (Some s) None None = Binv None None (Some s) (Some (S (Z.to_nat m))) None) /\
  ((m < 0)%Z -> Binv None None (Some s) None None = Err IndexErr) /\
  (forall k, Binv None None (Some s) None (Some k) = Binv None None (Some s) (Some (Nat.max k (Z.to_nat (m + 1)))) None) /\
  Binv None None (Some []) None None = Ok [] /\
  forall k, Binv None None (Some []) None (Some k) = Err ValueErr.
Proof.
  intros s m Hm. assert (Hz := zmax_ok _ _ Hm). destruct s as [|x s'] eqn:Es; [destruct Hm as ([] & _)|]. rewrite <- Es in *.
  assert (Hl : forall l, (m < Z.of_nat l)%Z -> Binv None None (Some s) (Some l) None = foldM (fun v i => zset v i true) s (repeat false l)).
  { intros l Hl. unfold Binv, Binv_with. rewrite Es at 1. rewrite Hz. cbn [bind]. rewrite (proj2 (Z.ltb_lt _ _) Hl). cbn [true_except bind]. rewrite Nat2Z.id. reflexivity. }
  split; [|split; [|split; [|split; [reflexivity|intro k; reflexivity]]]].
  - intro H. rewrite Hl by lia. unfold Binv, Binv_with. rewrite Es at 1. rewrite Hz. cbn [bind]. f_equal. f_equal. lia.
  - intro H. unfold Binv, Binv_with. rewrite Es at 1. rewrite Hz. cbn [bind]. replace (Z.to_nat (m + 1)) with 0 by lia. apply fold_small; cbn [repeat length].
    + intros i Hi. apply (proj2 Hm) in Hi. unfold too_great. lia.
    + exists m. split; [apply Hm|]. unfold too_small. lia.
  - intro k. rewrite Hl by lia. unfold Binv, Binv_with. rewrite Hz. cbn [bind]. f_equal. f_equal. lia.
Qed.
Print Assumptions C118_no_length.

(** ** Full spots of Boolf *)

Lemma marked_ext l s s' : (forall j, j < l -> marked l s j = marked l s' j) -> forall v v', marks l s v -> marks l s' v' -> v = v'.
Proof.
  intros H v v' (L & N) (L' & N'). apply (nth_ext _ _ false false); [congruence|]. intros j Hj. rewrite L in Hj. rewrite N, N' by exact Hj. apply H. exact Hj.
Qed.
Lemma mod_in_range l i : in_range l i -> in_range l (i mod Z.of_nat l).
Proof. unfold in_range. intro H. assert (0 <= i mod Z.of_nat l < Z.of_nat l)%Z by (apply Z.mod_pos_bound; lia). lia. Qed.
Lemma mod_marked l s : (forall i, In i s -> in_range l i) -> forall j, j < l -> marked l (map (fun i => i mod Z.of_nat l)%Z s) j = marked l s j.
Proof.
  intros H j Hj. unfold marked. induction s as [|i s IH]; [reflexivity|]. cbn [map existsb]. rewrite IH by (intros k Hk; apply H; right; exact Hk). f_equal.
  assert (Hi := H i (or_introl eq_refl)). unfold in_range in Hi. assert (Hm : (0 <= i mod Z.of_nat l < Z.of_nat l)%Z) by (apply Z.mod_pos_bound; lia).
  apply Proof_Twin.bool_iff. rewrite !orb_true_iff, !Z.eqb_eq.
  destruct (Z.lt_ge_cases i 0) as [Hn|Hn].
  - assert (E : (i mod Z.of_nat l = i + Z.of_nat l)%Z) by (symmetry; apply (Z.mod_unique _ _ (-1)); lia). rewrite E. lia.
  - rewrite Z.mod_small by lia. lia.
Qed.

Lemma fs_table s av sd : s <> [] -> av <> [] -> subinit_fs s (Some av) None sd =
  (let* binv := Binv None None (Some s) (Some (2 ^ length av)) None in
   if sd then tt_inflated binv (Some av) else let* ba := deflate binv av in tt_deflated (fst ba) (Some (snd ba))).
Proof. intros Hs Hav. unfold subinit_fs. destruct s; [congruence|]. destruct av; [congruence|]. reflexivity. Qed.

(** A negative full spot means the place that many from the end: the object is the one for the remainders, whatever
    the atoms are, and also when deflation is skipped. *)
Theorem C118_fullspots : forall s av sd, av <> [] -> (forall i, In i s -> in_range (2 ^ length av) i) ->
  Boolf 1 (mkArgs None (Some av) None None (Some s) None None None None None None sd) =
  Boolf 1 (mkArgs None (Some av) None None (Some (map (fun i => i mod Z.of_nat (2 ^ length av))%Z s)) None None None None None None sd).
Proof.
  intros s av sd Hav H. rewrite !round_fs. destruct (list_eq_dec Z.eq_dec s []) as [->|Hs]; [reflexivity|].
  rewrite (fs_table s av sd Hs Hav), fs_table; [|intro E; apply map_eq_nil in E; contradiction|exact Hav].
  assert (E : Binv None None (Some s) (Some (2 ^ length av)) None = Binv None None (Some (map (fun i => i mod Z.of_nat (2 ^ length av))%Z s)) (Some (2 ^ length av)) None).
  { destruct (proj2 (proj2 (C118_length s (2 ^ length av) None)) H) as (v & Ev & Mv).
    destruct (proj2 (proj2 (C118_length (map (fun i => i mod Z.of_nat (2 ^ length av))%Z s) (2 ^ length av) None))) as (v' & Ev' & Mv').
    { intros k Hk. apply in_map_iff in Hk as (i & <- & Hi). apply mod_in_range. apply H. exact Hi. }
    rewrite Ev, Ev'. f_equal. apply (marked_ext (2 ^ length av) s (map (fun i => i mod Z.of_nat (2 ^ length av))%Z s)); [|exact Mv|exact Mv'].
    intros j Hj. symmetry. apply mod_marked; assumption. }
  rewrite E. reflexivity.
Qed.
Print Assumptions C118_fullspots.

(** What is out of range is refused, again with two different errors; without atoms only zero is in range. *)
Theorem C118_fullspots_refused : forall s av sd,
  let B := Boolf 1 (mkArgs None (Some av) None None (Some s) None None None None None None sd) in
  (av <> [] -> (exists i, In i s /\ too_great (2 ^ length av) i) -> B = Err BinvLengthError) /\
  (av <> [] -> (forall i, In i s -> ~ too_great (2 ^ length av) i) -> (exists i, In i s /\ too_small (2 ^ length av) i) -> B = Err IndexErr) /\
  (av = [] -> (exists i, In i s /\ i <> 0%Z) -> B = Err ArgMismatchError).
Proof.
  intros s av sd B. unfold B. rewrite round_fs.
  assert (P : forall (P : Z -> Prop), (exists i, In i s /\ P i) -> s <> []) by (intros P (i & Hi & _); destruct s as [|x s']; [destruct Hi|discriminate]).
  destruct (C118_length s (2 ^ length av) None) as (C1 & C2 & _).
  split; [|split].
  - intros Hav H. rewrite (fs_table s av sd (P _ H) Hav), C1 by exact H. reflexivity.
  - intros Hav Hg H. rewrite (fs_table s av sd (P _ H) Hav), C2 by assumption. reflexivity.
  - intros -> (i & Hi & H0). unfold subinit_fs. cbn [have xorb true_except]. destruct s as [|x s'] eqn:Es; [destruct Hi|]. rewrite <- Es in *.
    destruct (forallb (Z.eqb 0) s) eqn:F; [|reflexivity]. rewrite forallb_forall in F. apply F, Z.eqb_eq in Hi. congruence.
Qed.
Print Assumptions C118_fullspots_refused.

(** ** Atoms are checked after the superfluous ones are gone *)

(** the table changes somewhere when bit k of the place is flipped *)
Definition matters (n : nat) (F : nat -> bool) (k : nat) : Prop :=
  k < n /\ exists j, j < 2 ^ n /\ F j <> F (Nat.lxor j (2 ^ k)).

Lemma seq_asg_bit n j k : k < n -> j < 2 ^ n -> asg (range n) j k = Nat.testbit j k.
Proof.
  intros Hk Hj. assert (E : b2n (map (asg (range n) j) (range n)) = j) by (apply asg_b2n; [apply seq_NoDup|rewrite range_length; exact Hj]).
  rewrite <- E at 2. rewrite testbit_b2n. rewrite (nth_indep _ false (asg (range n) j 0)) by (rewrite map_length, range_length; exact Hk). rewrite map_nth.
  unfold range. rewrite seq_nth by exact Hk. reflexivity.
Qed.
Lemma b2n_bits (e : assignment) n k : Nat.testbit (b2n (map e (range n))) k = if Nat.ltb k n then e k else false.
Proof.
  rewrite testbit_b2n. destruct (Nat.ltb_spec k n) as [H|H].
  - rewrite (nth_indep _ false (e 0)) by (rewrite map_length, range_length; exact H). rewrite map_nth. unfold range. rewrite seq_nth by exact H. reflexivity.
  - apply nth_overflow. rewrite map_length, range_length. exact H.
Qed.
Lemma pow_bit k j : Nat.testbit (2 ^ k) j = Nat.eqb j k.
Proof. destruct (Nat.eqb_spec j k) as [->|H]; [apply Nat.pow2_bits_true|apply Nat.pow2_bits_false; congruence]. Qed.
Lemma matters_essential n v k : length v = 2 ^ n -> matters n (fun j => nth j v false) k <-> k < n /\ essential (table v (range n)) k.
Proof.
  intro Hv. unfold matters. split.
  - intros (Hk & j & Hj & Hd). split; [exact Hk|]. exists (fun x => Nat.testbit j x). unfold table.
    assert (Q : forall q, b2n (map (upd (fun x => Nat.testbit j x) k q) (range n)) = if Bool.eqb (Nat.testbit j k) q then j else Nat.lxor j (2 ^ k)).
    { intro q. apply Nat.bits_inj. intro x. rewrite b2n_bits. unfold upd.
      assert (Hi : n <= x -> Nat.testbit j x = false) by (intro Hx; destruct (Nat.eq_dec j 0) as [->|Hz]; [apply Nat.bits_0|]; apply Nat.bits_above_log2; apply Nat.log2_lt_pow2 in Hj; lia).
      destruct (Bool.eqb_spec (Nat.testbit j k) q) as [E|E].
      - destruct (Nat.ltb_spec x n) as [Hx|Hx]; [|symmetry; apply Hi; exact Hx]. destruct (Nat.eqb_spec x k) as [->|Hn]; congruence.
      - rewrite Nat.lxor_spec, pow_bit. destruct (Nat.ltb_spec x n) as [Hx|Hx].
        + destruct (Nat.eqb_spec x k) as [->|Hn]; [destruct (Nat.testbit j k), q; cbn; congruence|rewrite xorb_false_r; reflexivity].
        + rewrite Hi by exact Hx. destruct (Nat.eqb_spec x k) as [->|Hn]; [lia|reflexivity]. }
    rewrite !Q. destruct (Nat.testbit j k); cbn [Bool.eqb]; congruence.
  - intros (Hk & e & Hd). split; [exact Hk|]. unfold table in Hd. exists (b2n (map (upd e k true) (range n))).
    assert (Hl := b2n_lt (map (upd e k true) (range n))). rewrite map_length, range_length in Hl. split; [exact Hl|].
    replace (Nat.lxor (b2n (map (upd e k true) (range n))) (2 ^ k)) with (b2n (map (upd e k false) (range n))); [exact Hd|].
    apply Nat.bits_inj. intro x. rewrite Nat.lxor_spec, pow_bit, !b2n_bits. unfold upd. destruct (Nat.ltb_spec x n) as [Hx|Hx]; destruct (Nat.eqb_spec x k) as [->|Hn]; try lia; cbn; first [reflexivity | destruct (e x); reflexivity].
Qed.

Lemma range_essential (F : assignment -> bool) v' l' k : (forall e, F e = table v' l' e) -> essential F k -> In k l'.
Proof.
  intros T (e & He). destruct (in_dec Nat.eq_dec k l') as [H|H]; [exact H|]. exfalso. apply He. rewrite !T. apply table_ext. intros a Ha. rewrite !upd_neq; [reflexivity|congruence|congruence].
Qed.
Lemma list_nth_range (av : list Z) : av = map (fun k => nth k av 0%Z) (range (length av)).
Proof. symmetry. apply (nth_ext _ _ 0%Z 0%Z); [rewrite map_length, range_length; reflexivity|]. intros k Hk. rewrite map_length, range_length in Hk.
  rewrite (nth_indep _ 0%Z (nth 0 av 0%Z)) by (rewrite map_length, range_length; exact Hk). rewrite (map_nth (fun k => nth k av 0%Z)). unfold range. rewrite seq_nth by exact Hk. reflexivity. Qed.

Lemma tt_negative v av : zunique av = true -> length v = 2 ^ length av -> ~ constantly false v -> ~ constantly true v -> (exists z, In z av /\ (z < 0)%Z) ->
  tt_deflated v (Some av) = Err AtomvalNegativeError.
Proof.
  intros U L C0 C1 (z & Hz & Hn). unfold tt_deflated. rewrite (tt_start_other v (Some av) false (pow_length_nonempty v _ L) (or_intror (conj C0 C1)) (conj U L)).
  destruct (zmin_spec av) as (m & Em & _ & Hm); [destruct av; [destruct Hz|discriminate]|]. rewrite Em. cbn [bind]. specialize (Hm z Hz).
  rewrite (proj2 (Z.leb_gt _ _)) by lia. reflexivity.
Qed.
Lemma map_to_nat_id av : (forall z, In z av -> (0 <= z)%Z) -> map Z.of_nat (map Z.to_nat av) = av.
Proof. intro H. rewrite map_map. rewrite <- (map_id av) at 2. apply map_ext_in. intros z Hz. apply Z2Nat.id. apply H. exact Hz. Qed.
Lemma map_nth_distinct (l : list nat) (av : list Z) : NoDup l ->
  NoDup (map (fun k => nth k av 0%Z) l) <-> (forall k k', In k l -> In k' l -> nth k av 0%Z = nth k' av 0%Z -> k = k').
Proof.
  intro Hn. split.
  - intros H k k' Hk Hk' E. apply (In_nth _ _ 0) in Hk as (i & Hi & <-). apply (In_nth _ _ 0) in Hk' as (i' & Hi' & <-).
    f_equal. rewrite (NoDup_nth _ (nth 0 av 0%Z)) in H. rewrite map_length in H. apply H; [exact Hi|exact Hi'|]. rewrite !(map_nth (fun k => nth k av 0%Z)). exact E.
  - intro H. induction Hn as [|x l Hx Hn IH]; [constructor|]. cbn [map]. constructor.
    + intro Hin. apply in_map_iff in Hin as (k & E & Hk). assert (k = x) as -> by (apply H; [right; exact Hk|left; reflexivity|exact E]). exact (Hx Hk).
    + apply IH. intros k k' Hk Hk'. apply H; right; assumption.
Qed.

(** The full spots s for the atoms av (possibly repeated, possibly negative): the constructor works exactly when the
    entries of av that matter are different from each other and not negative; of two complaints it makes the one
    about repetition.  When the entries that matter are increasing, the object stands for the table of av. *)
Theorem C118_superfluous : forall s av, s <> [] -> av <> [] -> (forall i, In i s -> in_range (2 ^ length av) i) ->
  let B := Boolf 1 (mkArgs None (Some av) None None (Some s) None None None None None None false) in
  let used := matters (length av) (marked (2 ^ length av) s) in
  let repeated := exists k k', used k /\ used k' /\ k <> k' /\ nth k av 0%Z = nth k' av 0%Z in
  let negative := exists k, used k /\ (nth k av 0 < 0)%Z in
  (repeated -> B = Err AtomvalsNotUniqueError) /\
  (~ repeated -> negative -> B = Err AtomvalNegativeError) /\
  (~ repeated -> ~ negative -> exists f, B = Ok f /\ made false f /\ (forall a, In a (atomvals f) <-> exists k, used k /\ Z.of_nat a = nth k av 0%Z) /\
     ((forall k k', used k -> used k' -> k < k' -> (nth k av 0 < nth k' av 0)%Z) ->
      forall e, sem f e = marked (2 ^ length av) s (b2n (map (fun z => e (Z.to_nat z)) av)))).
Proof.
  intros s av Hs Hav Hr B used repeated negative. set (n := length av) in *.
  destruct (proj2 (proj2 (C118_length s (2 ^ n) None)) Hr) as (v & Ev & Lv & Nv).
  assert (EB : B = (let* ba := deflate v av in tt_deflated (fst ba) (Some (snd ba)))).
  { unfold B. rewrite round_fs, (fs_table s av false Hs Hav). fold n. rewrite Ev. reflexivity. }
  assert (Hu : forall k, used k <-> k < n /\ essential (table v (range n)) k).
  { intro k. rewrite <- (matters_essential n v k Lv). unfold used, matters. split; intros (Hk & j & Hj & Hd); (split; [exact Hk|]); exists j; (split; [exact Hj|]).
    - rewrite !Nv; [exact Hd| |exact Hj]. destruct (Nat.eq_dec (Nat.lxor j (2 ^ k)) 0) as [->|Hz]; [lia|]. apply Nat.log2_lt_pow2; [lia|].
      apply (Nat.le_lt_trans _ (Nat.max (Nat.log2 j) (Nat.log2 (2 ^ k)))); [apply Nat.log2_lxor|]. rewrite Nat.log2_pow2 by lia. destruct (Nat.eq_dec j 0) as [->|Hj0]; [cbn; lia|]. apply Nat.log2_lt_pow2 in Hj; lia.
    - rewrite !Nv in Hd; [exact Hd| |exact Hj]. destruct (Nat.eq_dec (Nat.lxor j (2 ^ k)) 0) as [->|Hz]; [lia|]. apply Nat.log2_lt_pow2; [lia|].
      apply (Nat.le_lt_trans _ (Nat.max (Nat.log2 j) (Nat.log2 (2 ^ k)))); [apply Nat.log2_lxor|]. rewrite Nat.log2_pow2 by lia. destruct (Nat.eq_dec j 0) as [->|Hj0]; [cbn; lia|]. apply Nat.log2_lt_pow2 in Hj; lia. }
  assert (A : ascending (range n)) by apply range_ascending.
  assert (Lr : length v = 2 ^ length (range n)) by (rewrite range_length; exact Lv).
  destruct (deflate_red v (range n) A Lr) as (v' & l' & Ed & Rd & Td & Id).
  assert (Hl' : forall k, In k l' <-> used k).
  { intro k. rewrite Hu. split.
    - intro Hk. split; [apply Id in Hk; apply in_seq in Hk; lia|]. destruct Rd as (_ & _ & He). destruct (He k Hk) as (e & De). exists e. rewrite !Td. exact De.
    - intros (_ & He). apply (range_essential (table v (range n)) v' l' k); assumption. }
  destruct Rd as (Al & Ll & He).
  assert (Nl := sorted_lt_NoDup _ Al).
  set (g := fun k => nth k av 0%Z) in *.
  assert (EB2 : B = tt_deflated v' (Some (map g l'))).
  { rewrite EB. rewrite (list_nth_range av). change (length av) with n. fold g. rewrite deflate_map, Ed. reflexivity. }
  assert (Er : ~ repeated <-> NoDup (map g l')).
  { unfold g. rewrite (map_nth_distinct l' av Nl). split.
    - intros H k k' Hk Hk' E. destruct (Nat.eq_dec k k') as [|Hne]; [assumption|]. exfalso. apply H. exists k, k'. rewrite <- !Hl'. tauto.
    - intros H (k & k' & Hk & Hk' & Hne & E). apply Hne. apply H; [apply Hl'; exact Hk|apply Hl'; exact Hk'|exact E]. }
  assert (Lm : length v' = 2 ^ length (map g l')) by (rewrite map_length; exact Ll).
  split; [|split].
  - intro H. rewrite EB2. unfold tt_deflated, tt_start. destruct (zunique (map g l')) eqn:U; [|reflexivity].
    apply zunique_NoDup in U. apply Er in U. contradiction.
  - intros H (k & Hk & Hneg). rewrite EB2. apply Er in H. apply tt_negative; [apply zunique_NoDup; exact H|exact Lm| | |].
    + intro C. apply Hl' in Hk. destruct (He k Hk) as (e & De). apply De. rewrite !(constantly_table false v' l' Ll C). reflexivity.
    + intro C. apply Hl' in Hk. destruct (He k Hk) as (e & De). apply De. rewrite !(constantly_table true v' l' Ll C). reflexivity.
    + exists (g k). split; [apply in_map; apply Hl'; exact Hk|exact Hneg].
  - intros H Hneg. apply Er in H.
    assert (Hpos : forall z, In z (map g l') -> (0 <= z)%Z).
    { intros z Hz. apply in_map_iff in Hz as (k & <- & Hk). destruct (Z.lt_ge_cases (g k) 0) as [Hlt|]; [|assumption]. exfalso. apply Hneg. exists k. split; [apply Hl'; exact Hk|exact Hlt]. }
    assert (Em := map_to_nat_id _ Hpos). set (w := map Z.to_nat (map g l')) in *.
    assert (Nw : NoDup w) by (apply (NoDup_map_inv Z.of_nat); rewrite Em; exact H).
    assert (Lw : length v' = 2 ^ length w) by (unfold w; rewrite map_length; exact Lm).
    destruct (Boolf_vec_spec v' w Nw Lw) as (f & Ef & Rf & eff & Heff & Sf). exists f. unfold Boolf_vec in Ef. rewrite Em in Ef.
    split; [rewrite EB2; exact Ef|]. split; [apply reduced_made; exact Rf|]. split.
    + destruct Rf as ((Af & Lf) & Hef & _ & _).
      assert (Ne : NoDup eff /\ (forall a, In a eff <-> In a w) /\ length eff = length w).
      { destruct Heff as (r & Pr & _ & _ & ->). assert (Ls : length (sort_nat w) = length w) by apply sort_nat_length.
        assert (Ps : Permutation (map (fun i => nth i (sort_nat w) 0) r) w).
        { rewrite Pr. rewrite <- Ls. rewrite <- nth_ext_map. apply Permutation_sym, sort_nat_perm. }
        split; [apply (Permutation_NoDup (Permutation_sym Ps)); exact Nw|]. split; [intro a; split; apply Permutation_in; [exact Ps|apply Permutation_sym; exact Ps]|apply Permutation_length; exact Ps]. }
      destruct Ne as (Ne & Ie & Le).
      assert (Es : forall a, In a eff -> essential (table v' eff) a).
      { apply differs_essential; [exact Ne|rewrite Le; exact Lw|]. rewrite Le. unfold w. rewrite !map_length. apply differs_essential; assumption. }
      intro a. assert (Ea : In a (atomvals f) <-> In a eff).
      { split.
        - intro Ha. destruct (Hef a Ha) as (e & De). apply (range_essential (sem f) v' eff a Sf). exists e. exact De.
        - intro Ha. destruct (Es a Ha) as (e & De). apply (range_essential (sem f) (root f) (atomvals f) a (fun _ => eq_refl)). exists e. rewrite !Sf. exact De. }
      rewrite Ea, Ie. unfold w. rewrite map_map, in_map_iff. split.
      * intros (k & <- & Hk). exists k. split; [apply Hl'; exact Hk|]. apply Z2Nat.id. exact (Hpos _ (in_map g _ _ Hk)).
      * intros (k & Hk & E). exists k. split; [change (Z.of_nat a = g k) in E; rewrite <- E; apply Nat2Z.id|apply Hl'; exact Hk].
    + intros Hasc e.
      assert (Aw : ascending w).
      { unfold w. rewrite map_map. clear - Al Hasc Hl' Hpos. assert (Q : forall k, In k l' -> used k) by (intros k; apply Hl'). assert (P : forall k, In k l' -> (0 <= g k)%Z) by (intros k Hk; exact (Hpos _ (in_map g _ _ Hk))). clear Hl' Hpos.
        induction Al as [|x l Hs IH Hx]; [constructor|]. cbn [map]. constructor.
        - apply IH; intros k Hk; [apply Q|apply P]; right; exact Hk.
        - apply Forall_forall. intros y Hy. apply in_map_iff in Hy as (k & <- & Hk). rewrite Forall_forall in Hx. specialize (Hx k Hk).
          assert (H1 := Hasc x k (Q x (or_introl eq_refl)) (Q k (or_intror Hk)) Hx). change (g x < g k)%Z in H1. assert (H2 := P x (or_introl eq_refl)). lia. }
      destruct (Boolf_vec_sorted v' w Aw Lw) as (f' & Ef' & _ & Sf'). unfold Boolf_vec in Ef'. rewrite Em in Ef'. rewrite Ef in Ef'. injection Ef' as <-. rewrite Sf'.
      assert (T : table v' w e = table v' l' (fun k => e (Z.to_nat (g k)))) by (unfold table, w; rewrite !map_map; reflexivity).
      rewrite T, <- Td. unfold table. rewrite Nv.
      * assert (EE : map (fun z => e (Z.to_nat z)) av = map (fun k => e (Z.to_nat (g k))) (range n)) by (rewrite (list_nth_range av) at 1; rewrite map_map; reflexivity).
        rewrite EE. reflexivity.
      * assert (Hb := b2n_lt (map (fun k => e (Z.to_nat (g k))) (range n))). rewrite map_length, range_length in Hb. exact Hb.
Qed.
Print Assumptions C118_superfluous.

(** The same table given as a list is refused for the same atoms (a repeated atom; a negative atom), as are the full
    spots when deflation is skipped. *)
Theorem C118_superfluous_refuted : exists s t av av' f f', (forall i, In i s -> in_range (2 ^ length av) i) /\ marks (length t) s t /\
  let tt a := Boolf 1 (mkArgs (Some (TtVector (bit_entries t))) (Some a) None None None None None None None None None false) in
  let fs a sd := Boolf 1 (mkArgs None (Some a) None None (Some s) None None None None None None sd) in
  fs av false = Ok f /\ tt av = Err AtomvalsNotUniqueError /\ fs av true = Err AtomvalsNotUniqueError /\
  fs av' false = Ok f' /\ tt av' = Err AtomvalNegativeError /\ fs av' true = Err AtomvalNegativeError.
Proof.
  exists [1; -1]%Z, [false; true; false; true], [4; 4]%Z, [4; -2]%Z, (mkBoolf [false; true] [4] false false), (mkBoolf [false; true] [4] false false).
  split; [intros i [<-|[<-|[]]]; unfold in_range; cbn; lia|]. split; [split; [reflexivity|]; intros j Hj; cbn [length] in Hj; do 4 (destruct j as [|j]; [reflexivity|]); lia|].
  cbv zeta. repeat split; vm_compute; reflexivity.
Qed.
Print Assumptions C118_superfluous_refuted.

(** ** Examples *)

Example C118_ex_length : Binv None None (Some [3; -1; -6]%Z) (Some 6) None = Ok [true; false; false; true; false; true] /\
  Binv None None (Some [3; -1; -7]%Z) (Some 6) None = Err IndexErr /\ Binv None None (Some [6; -7]%Z) (Some 6) None = Err BinvLengthError /\
  (forall i, In i [3; -1; -6]%Z -> in_range 6 i) /\ too_small 6 (-7) /\ too_great 6 6.
Proof. repeat split; try reflexivity; try (unfold too_small, too_great; cbn; lia); unfold in_range; destruct H as [<-|[<-|[<-|[]]]]; cbn; lia. Qed.

Example C118_ex_no_length : greatest [2; -3; -1]%Z 2 /\ Binv None None (Some [2; -3; -1]%Z) None None = Ok [true; false; true] /\
  greatest [-3; -2]%Z (-2) /\ Binv None None (Some [-3; -2]%Z) None None = Err IndexErr /\
  Binv None None (Some [-3; -2]%Z) None (Some 4) = Ok [false; true; true; false].
Proof.
  split; [split; [left; reflexivity|intros i [<-|[<-|[<-|[]]]]; lia]|]. split; [reflexivity|].
  split; [split; [right; left; reflexivity|intros i [<-|[<-|[]]]; lia]|]. split; reflexivity.
Qed.

Example C118_ex_fullspots : exists f,
  Boolf 1 (mkArgs None (Some [2; 5]%Z) None None (Some [-1; 1; -4]%Z) None None None None None None false) = Ok f /\
  Boolf 1 (mkArgs None (Some [2; 5]%Z) None None (Some [3; 1; 0]%Z) None None None None None None false) = Ok f /\
  root f = [true; true; false; true] /\ atomvals f = [2; 5].
Proof. eexists. split; [vm_compute; reflexivity|]. split; [vm_compute; reflexivity|]. split; reflexivity. Qed.

(** three atoms, of which the first two (3 and 7) matter; the third is negative and superfluous *)
Example C118_ex_superfluous : exists f,
  Boolf 1 (mkArgs None (Some [3; 7; -5]%Z) None None (Some [3; -1]%Z) None None None None None None false) = Ok f /\
  root f = [false; false; false; true] /\ atomvals f = [3; 7] /\
  matters 3 (marked 8 [3; -1]%Z) 0 /\ matters 3 (marked 8 [3; -1]%Z) 1 /\ ~ matters 3 (marked 8 [3; -1]%Z) 2.
Proof.
  eexists. split; [vm_compute; reflexivity|]. split; [reflexivity|]. split; [reflexivity|].
  split; [split; [lia|]; exists 3; split; [cbn; lia|]; vm_compute; discriminate|].
  split; [split; [lia|]; exists 3; split; [cbn; lia|]; vm_compute; discriminate|].
  intros (_ & j & Hj & Hd). change (2 ^ 3) with 8 in Hj. do 8 (destruct j as [|j]; [apply Hd; reflexivity|]). lia.
Qed.
