(** Props_Nonlinear: property C120, what the README of [walsh_distances] says about the nonlinearity. *)

From Coq Require Import List Arith ZArith Bool Lia Permutation Sorted.
From Verif Require Proof_WalshIndex Proof_HelpersBits Spec_Helpers.
From Verif Require Import Model_Base Lib Model_Binary Model_WalshPerm Model_Twin Model_Boolf Model_BoolfMore Model_MinRep Model_Ec
  Spec_Bits Spec_SigPerm Spec_WalshPerm Spec_Boolf Spec_Twin Spec_MinRep Spec_Ec Proof_Binary Proof_Deflate Proof_Boolf Proof_BoolfTable Proof_Twin Proof_BoolfMake Proof_Noble
  Proof_WalshLinear Proof_BoolfMore Proof_BoolfWalsh Proof_Linear Proof_MinRepMale Proof_EcPartitioned Proof_EcMembers Proof_Foibles Proof_Consul
  Props_Boolf Props_Twin Props_BoolfMore Props_Ec Props_Foibles.
From Verif Require Import Props_Superfluous.
Import ListNotations.
Local Open Scope nat_scope.

(** the number of places of the truth table of arity n where the functions differ *)
Definition differences (n : nat) (f g : boolf) : nat := length (filter (fun j => xorb (value f j) (value g j)) (seq 0 (2 ^ n))).
(** boolf/methods/walsh_distances/README.md:5-8: "either the minimum, or the difference of length and maximum, depending
    on which is smaller" *)
Definition nonlinearity (ds : list nat) : nat := Nat.min (fold_right Nat.min (length ds) ds) (length ds - fold_right Nat.max 0 ds).

Lemma fold_min_le N l d : In d l -> fold_right Nat.min N l <= d.
Proof. induction l as [|x l IH]; [intros []|]. cbn [fold_right]. intros [->|H]; [lia|]. specialize (IH H). lia. Qed.
Lemma fold_min_in N l : fold_right Nat.min N l = N \/ In (fold_right Nat.min N l) l.
Proof. induction l as [|x l IH]; [left; reflexivity|]. cbn [fold_right In]. destruct (Nat.min_spec x (fold_right Nat.min N l)) as [(_ & ->)|(_ & ->)]; [right; left; reflexivity|]. destruct IH as [IH|IH]; [left; exact IH|right; right; exact IH]. Qed.
Lemma fold_max_ge l d : In d l -> d <= fold_right Nat.max 0 l.
Proof. induction l as [|x l IH]; [intros []|]. cbn [fold_right]. intros [->|H]; [lia|]. specialize (IH H). lia. Qed.
Lemma fold_max_in l : fold_right Nat.max 0 l = 0 \/ In (fold_right Nat.max 0 l) l.
Proof. induction l as [|x l IH]; [left; reflexivity|]. cbn [fold_right In]. destruct (Nat.max_spec x (fold_right Nat.max 0 l)) as [(_ & ->)|(_ & ->)]; [|right; left; reflexivity]. destruct IH as [IH|IH]; [left; exact IH|right; right; exact IH]. Qed.

(** the smallest of all distances and their differences to the length *)
Definition is_nonlinearity (ds : list nat) (N : nat) : Prop := (forall d, In d ds -> N <= d /\ N <= length ds - d) /\ exists d, In d ds /\ (N = d \/ N = length ds - d).
Lemma nonlinearity_spec ds : ds <> [] -> (forall d, In d ds -> d <= length ds) -> is_nonlinearity ds (nonlinearity ds).
Proof.
  intros Hn Hd. unfold nonlinearity. set (L := length ds) in *. split.
  - intros d H. assert (A := fold_min_le L ds d H). assert (B := fold_max_ge ds d H). lia.
  - destruct (Nat.min_spec (fold_right Nat.min L ds) (L - fold_right Nat.max 0 ds)) as [(_ & ->)|(Hle & ->)].
    + destruct (fold_min_in L ds) as [E|E]; [|exists (fold_right Nat.min L ds); auto]. destruct ds as [|x ds]; [congruence|]. exists x. split; [left; reflexivity|]. left.
      assert (A := fold_min_le L (x :: ds) x (or_introl eq_refl)). assert (B := Hd x (or_introl eq_refl)). lia.
    + destruct (fold_max_in ds) as [E|E]; [|exists (fold_right Nat.max 0 ds); auto]. destruct ds as [|x ds]; [congruence|]. exists x. split; [left; reflexivity|]. right.
      assert (B := fold_max_ge (x :: ds) x (or_introl eq_refl)). lia.
Qed.
Lemma is_nonlinearity_unique ds N N' : is_nonlinearity ds N -> is_nonlinearity ds N' -> N = N'.
Proof. intros (A & d & Hd & E) (A' & d' & Hd' & E'). assert (X := A d' Hd'). assert (Y := A' d Hd). lia. Qed.

Definition dis (f : boolf) (n k : nat) : nat := cnt (fun i => xorb (tab f i) (dot n k i)) (2 ^ n).
Lemma filter_len {A} (p : A -> bool) l : length (filter p l) <= length l.
Proof. induction l as [|x l IH]; [apply Nat.le_refl|]. cbn [filter]. destruct (p x); cbn [length]; lia. Qed.
Lemma cnt_le p N : cnt p N <= N.
Proof. unfold cnt. rewrite <- (seq_length N 0) at 2. apply filter_len. Qed.
Lemma cnt_ext p q N : (forall i, i < N -> p i = q i) -> cnt p N = cnt q N.
Proof. intro H. unfold cnt. f_equal. apply filter_ext_in. intros i Hi. apply in_seq in Hi. apply H. lia. Qed.
Lemma cnt_negb p N : cnt (fun i => negb (p i)) N = N - cnt p N.
Proof. assert (X : cnt p N + cnt (fun i => negb (p i)) N = N); [|lia]. unfold cnt. rewrite <- (seq_length N 0) at 3. generalize (seq 0 N). intro l. induction l as [|x l IH]; [reflexivity|]. cbn [filter length]. destruct (p x); cbn [negb length]; lia. Qed.

Lemma distances_list f n : fitting f -> adicity f <= n -> walsh_distances f (TtArity n) = Ok (map (dis f n) (range (2 ^ n))).
Proof. intros Hf Hn. rewrite walsh_distances_spec by assumption. reflexivity. Qed.
Lemma in_distances f n d : In d (map (dis f n) (range (2 ^ n))) <-> exists k, k < 2 ^ n /\ d = dis f n k.
Proof. rewrite in_map_iff. split; intros (k & A & B); exists k; [apply range_In in B; auto|split; [auto|apply range_In; exact A]]. Qed.
Lemma distances_nonlinearity f n : is_nonlinearity (map (dis f n) (range (2 ^ n))) (nonlinearity (map (dis f n) (range (2 ^ n)))).
Proof.
  assert (Hp := pow2_pos n). apply nonlinearity_spec.
  - intro E. apply (f_equal (@length nat)) in E. rewrite map_length, range_length in E. cbn in E. lia.
  - intros d H. apply in_distances in H as (k & _ & ->). rewrite map_length, range_length. apply cnt_le.
Qed.

(** linear functions on the first n atoms *)
Lemma linear_low g l (c : bool) n : (forall e, sem g e = xorb (xor_all (map e l)) c) -> exists k, k < 2 ^ n /\ forall j, j < 2 ^ n -> value g j = xorb (dot n k j) c.
Proof.
  intro H. assert (X : exists k, k < 2 ^ n /\ forall j, j < 2 ^ n -> xor_all (map (Nat.testbit j) l) = dot n k j).
  { clear H. induction l as [|a l IH].
    - exists 0. split; [apply pow2_pos|]. intros j _. rewrite dot_comm, Proof_WalshIndex.dot_0. reflexivity.
    - destruct IH as (k & Hk & E). destruct (Nat.lt_ge_cases a n) as [Ha|Ha].
      + exists (Nat.lxor (2 ^ a) k). split.
        * apply Proof_Linear.lxor_lt; [apply Nat.pow_lt_mono_r; lia|exact Hk].
        * intros j Hj. change (xor_all (map (Nat.testbit j) (a :: l))) with (xorb (Nat.testbit j a) (xor_all (map (Nat.testbit j) l))). rewrite (E j Hj), dot_lxor. f_equal. rewrite dot_comm, dot_pow by exact Ha. reflexivity.
      + exists k. split; [exact Hk|]. intros j Hj. change (xor_all (map (Nat.testbit j) (a :: l))) with (xorb (Nat.testbit j a) (xor_all (map (Nat.testbit j) l))). rewrite (bit_bound_lt j n Hj a Ha), (E j Hj). apply xorb_false_l. }
  destruct X as (k & Hk & E). exists k. split; [exact Hk|]. intros j Hj. unfold value. rewrite H, (E j Hj). reflexivity.
Qed.
Lemma linear_exists n k (c : bool) : k < 2 ^ n -> exists g, made false g /\ within n g /\ is_linear g = Ok true /\ forall j, j < 2 ^ n -> value g j = xorb (dot n k j) c.
Proof.
  intro Hk. destruct (Proof_HelpersBits.linear_walsh k (Some c)) as (g & _ & R & S).
  assert (O : Spec_Helpers.ones_of k (ones k)) by (split; [apply sorted_lt_NoDup, ones_ascending|intro a; apply ones_In]).
  assert (S2 : forall e, sem g e = xorb (xor_all (map e (ones k))) c).
  { intro e. rewrite (S e (ones k) O). rewrite xorb_comm. f_equal. generalize (ones k). intro l. induction l as [|x l IH]; [reflexivity|]. cbn [filter map]. change (xor_all (e x :: map e l)) with (xorb (e x) (xor_all (map e l))). rewrite <- IH. destruct (e x); [|rewrite xorb_false_l; reflexivity]. cbn [length]. rewrite Nat.odd_succ, <- Nat.negb_odd. reflexivity. }
  exists g. split; [apply reduced_made; exact R|]. split; [|split].
  - apply within_adicity. apply (adicity_le g n R). intros e e' He. rewrite !S2. f_equal. f_equal. apply map_ext_in. intros a Ha. apply He. apply ones_In in Ha. destruct (Nat.lt_ge_cases a n) as [|Hn]; [assumption|]. rewrite (bit_bound_lt k n Hk a Hn) in Ha. discriminate.
  - destruct (is_linear_spec g R) as (q & E & Hq). rewrite E. f_equal. apply Hq. exists (ones k), c. exact S2.
  - intros j Hj. unfold value. rewrite S2. f_equal. symmetry. apply dot_over_ones. exact Hk.
Qed.

Lemma differences_linear f g n k (c : bool) : (forall j, j < 2 ^ n -> value g j = xorb (dot n k j) c) -> differences n f g = if c then 2 ^ n - dis f n k else dis f n k.
Proof.
  intro H. unfold differences. fold (cnt (fun j => xorb (value f j) (value g j)) (2 ^ n)). destruct c.
  - unfold dis. rewrite <- cnt_negb. apply cnt_ext. intros j Hj. rewrite H by exact Hj. change (value f j) with (tab f j). destruct (tab f j), (dot n k j); reflexivity.
  - apply cnt_ext. intros j Hj. rewrite H by exact Hj. rewrite xorb_false_r. reflexivity.
Qed.

(** * C120 *)

(** The number in the README is the smallest number of places that have to be changed to make the function linear. *)
Theorem C120_nonlinearity : forall i f n, made i f -> within n f -> exists ds, walsh_distances f (TtArity n) = Ok ds /\
  (forall i' g, made i' g -> (exists l (c : bool), forall e, sem g e = xorb (xor_all (map e l)) c) -> nonlinearity ds <= differences n f g) /\
  exists g, made false g /\ within n g /\ is_linear g = Ok true /\ differences n f g = nonlinearity ds.
Proof.
  intros i f n M W. apply within_adicity in W. assert (Hf := m_fit i f M). exists (map (dis f n) (range (2 ^ n))). split; [apply distances_list; assumption|].
  destruct (distances_nonlinearity f n) as (A & d & Hd & E). rewrite map_length, range_length in *. split.
  - intros i' g _ (l & c & H). destruct (linear_low g l c n H) as (k & Hk & Hg). rewrite (differences_linear f g n k c Hg). specialize (A (dis f n k) (proj2 (in_distances f n _) (ex_intro _ k (conj Hk eq_refl)))). destruct c; lia.
  - apply in_distances in Hd as (k & Hk & ->). destruct E as [E|E].
    + destruct (linear_exists n k false Hk) as (g & Mg & Wg & Lg & Hg). exists g. rewrite (differences_linear f g n k false Hg). auto.
    + destruct (linear_exists n k true Hk) as (g & Mg & Wg & Lg & Hg). exists g. rewrite (differences_linear f g n k true Hg). auto.
Qed.
Print Assumptions C120_nonlinearity.

(** ** Amplitudes *)

Definition amp (f : boolf) (n k : nat) : Z := (Z.of_nat (2 ^ n) - 2 * Z.of_nat (dis f n k))%Z.
Lemma amp_spec f n N : is_nonlinearity (map (dis f n) (range (2 ^ n))) N <->
  (forall k, k < 2 ^ n -> (Z.abs (amp f n k) <= Z.of_nat (2 ^ n) - 2 * Z.of_nat N)%Z) /\ exists k, k < 2 ^ n /\ Z.abs (amp f n k) = (Z.of_nat (2 ^ n) - 2 * Z.of_nat N)%Z.
Proof.
  unfold is_nonlinearity. rewrite map_length, range_length. unfold amp.
  assert (B : forall k, dis f n k <= 2 ^ n) by (intro k; apply cnt_le). split.
  - intros (A & d & Hd & E). apply in_distances in Hd as (k & Hk & ->). split; [|exists k; split; [exact Hk|]].
    + intros k' Hk'. specialize (A _ (proj2 (in_distances f n _) (ex_intro _ k' (conj Hk' eq_refl)))). specialize (B k'). lia.
    + assert (A' := A _ (proj2 (in_distances f n _) (ex_intro _ k (conj Hk eq_refl)))). specialize (B k). lia.
  - intros (A & k & Hk & E). split.
    + intros d Hd. apply in_distances in Hd as (k' & Hk' & ->). specialize (A k' Hk'). specialize (B k'). lia.
    + exists (dis f n k). split; [apply in_distances; exists k; auto|]. specialize (B k). lia.
Qed.
Lemma amp_entry f n k : k < 2 ^ n -> amp f n k = (if Nat.eqb k 0 then Z.of_nat (2 ^ n) - 2 * entry_of f n k else - 2 * entry_of f n k)%Z.
Proof.
  intro Hk. unfold amp, dis. rewrite distance_counts, entry_counts. assert (Ww := walsh_weight n k Hk). destruct (k =? 0); lia.
Qed.
Lemma entry_zero f n : entry_of f n 0 = Z.of_nat (cnt (tab f) (2 ^ n)).
Proof. rewrite entry_counts. rewrite (cnt_ext (fun i => tab f i && dot n 0 i) (fun _ => false)); [|intros i _; rewrite dot_comm, Proof_WalshIndex.dot_0, andb_false_r; reflexivity]. replace (cnt (fun _ => false) (2 ^ n)) with 0; [lia|]. unfold cnt. generalize (seq 0 (2 ^ n)). intro l. induction l; [reflexivity|exact IHl]. Qed.
Lemma amp_squares f n : zsum (fun k => amp f n k * amp f n k)%Z (2 ^ n) = (Z.of_nat (2 ^ n) * Z.of_nat (2 ^ n))%Z.
Proof.
  set (L := Z.of_nat (2 ^ n)). set (w := Z.of_nat (cnt (tab f) (2 ^ n))).
  rewrite (zsum_ext _ (fun k => 4 * (entry_of f n k * entry_of f n k) + (if Nat.eqb 0 k then L * L - 4 * L * w else 0))%Z).
  - unfold zsum. rewrite zsum_list_add, zsum_list_scale. fold (zsum (fun k => entry_of f n k * entry_of f n k)%Z (2 ^ n)). rewrite parseval.
    fold (zsum (fun k => if Nat.eqb 0 k then L * L - 4 * L * w else 0)%Z (2 ^ n)). rewrite (zsum_single (fun _ => L * L - 4 * L * w)%Z (2 ^ n) 0) by apply pow2_pos. fold L w. ring.
  - intros k Hk. rewrite (amp_entry f n k Hk). rewrite (Nat.eqb_sym k 0). destruct (Nat.eqb_spec 0 k) as [<-|]; [|ring]. rewrite entry_zero. fold L w. ring.
Qed.
Lemma zsum_le F G N : (forall i, i < N -> (F i <= G i)%Z) -> (zsum F N <= zsum G N)%Z.
Proof.
  intro H. unfold zsum. assert (X : forall l, (forall i, In i l -> (F i <= G i)%Z) -> (fold_right Z.add 0 (map F l) <= fold_right Z.add 0 (map G l))%Z).
  { induction l as [|x l IH]; intro Hl; [cbn; lia|]. cbn [map fold_right]. assert (A := Hl x (or_introl eq_refl)). assert (B := IH (fun i Hi => Hl i (or_intror Hi))). lia. }
  apply X. intros i Hi. apply in_seq in Hi. apply H. lia.
Qed.
Lemma zsum_const c N : zsum (fun _ => c) N = (Z.of_nat N * c)%Z.
Proof. unfold zsum. rewrite <- (seq_length N 0) at 2. generalize (seq 0 N). intro l. induction l as [|x l IH]; [reflexivity|]. cbn [map fold_right length]. rewrite IH. lia. Qed.
Lemma zsum_all_equal F c N : (forall i, i < N -> (F i <= c)%Z) -> zsum F N = (Z.of_nat N * c)%Z -> forall i, i < N -> F i = c.
Proof.
  intros H E i Hi. destruct (Z.eq_dec (F i) c) as [|Hne]; [assumption|]. exfalso.
  assert (X : (zsum F N <= zsum (fun j => c - (if Nat.eqb i j then 1 else 0)) N)%Z).
  { apply zsum_le. intros j Hj. destruct (Nat.eqb_spec i j) as [<-|]; [specialize (H i Hi); lia|specialize (H j Hj); lia]. }
  assert (Y : zsum (fun j => c - (if Nat.eqb i j then 1 else 0))%Z N = (Z.of_nat N * c - 1)%Z).
  { rewrite (zsum_ext _ (fun j => c + (-1) * (if Nat.eqb i j then 1 else 0))%Z) by (intros; lia). unfold zsum. rewrite zsum_list_add, zsum_list_scale.
    fold (zsum (fun _ => c) N). fold (zsum (fun j => if Nat.eqb i j then 1 else 0)%Z N). rewrite zsum_const, (zsum_single (fun _ => 1)%Z N i Hi). lia. }
  rewrite Y, E in X. lia.
Qed.

(** The nonlinearity is 0 exactly for linear functions.  It is at most half of the length, less half of its square root;
    it is equal to that exactly if the distances are all half of the length plus or minus half of its root. *)
Theorem C120_bound : forall i f n, made i f -> within n f -> exists ds, walsh_distances f (TtArity n) = Ok ds /\
  let N := Z.of_nat (nonlinearity ds) in let L := Z.of_nat (2 ^ n) in
  (N = 0%Z <-> exists l (c : bool), forall e, sem f e = xorb (xor_all (map e l)) c) /\
  (2 * N <= L)%Z /\ (L <= (L - 2 * N) * (L - 2 * N))%Z /\
  ((L - 2 * N) * (L - 2 * N) = L <-> forall d, In d ds -> (L - 2 * Z.of_nat d) * (L - 2 * Z.of_nat d) = L)%Z.
Proof.
  intros i f n M W. assert (W' := W). apply within_adicity in W. assert (Hf := m_fit i f M). exists (map (dis f n) (range (2 ^ n))). split; [apply distances_list; assumption|].
  assert (Hn := distances_nonlinearity f n). set (NN := nonlinearity _) in *. assert (Ha := proj1 (amp_spec f n NN) Hn). destruct Ha as (Hle & k0 & Hk0 & Ek0). cbv zeta. split; [|split; [|split]].
  - split.
    + intro E0. destruct Hn as (_ & d & Hd & Ed). rewrite map_length, range_length in Ed. apply in_distances in Hd as (k & Hk & ->).
      assert (X : exists c : bool, forall j, j < 2 ^ n -> tab f j = xorb (dot n k j) c).
      { assert (Z0 : forall p, cnt p (2 ^ n) = 0 -> forall j, j < 2 ^ n -> p j = false).
        { intros p Hp j Hj. destruct (p j) eqn:Ep; [|reflexivity]. exfalso. assert (I : In j (filter p (seq 0 (2 ^ n)))) by (apply filter_In; split; [apply in_seq; lia|exact Ep]). unfold cnt in Hp. destruct (filter p (seq 0 (2 ^ n))); [destruct I|discriminate]. }
        destruct Ed as [Ed|Ed].
        - exists false. intros j Hj. assert (Q : dis f n k = 0) by lia. specialize (Z0 _ Q j Hj). cbv beta in Z0. destruct (tab f j), (dot n k j); (reflexivity || discriminate).
        - exists true. intros j Hj. assert (Q : cnt (fun i => negb (xorb (tab f i) (dot n k i))) (2 ^ n) = 0) by (rewrite cnt_negb; fold (dis f n k); lia). specialize (Z0 _ Q j Hj). cbv beta in Z0. destruct (tab f j), (dot n k j); (reflexivity || discriminate). }
      destruct X as (c & X). exists (ones k), c. intro e. rewrite (sem_low f n e (Nat.testbit (b2n (map e (range n)))) W) by (intros a Ha; rewrite (place_bits e) by exact Ha; reflexivity).
      change (tab f (b2n (map e (range n))) = xorb (xor_all (map e (ones k))) c). rewrite X by apply (place_lt e). f_equal. rewrite dot_over_ones by exact Hk. f_equal. apply map_ext_in. intros a Ha.
      apply (place_bits e). apply ones_In in Ha. destruct (Nat.lt_ge_cases a n) as [|Hna]; [assumption|]. rewrite (bit_bound_lt k n Hk a Hna) in Ha. discriminate.
    + intros (l & c & H). destruct (linear_low f l c n H) as (k & Hk & Hg). destruct Hn as (A & _). specialize (A _ (proj2 (in_distances f n _) (ex_intro _ k (conj Hk eq_refl)))). rewrite map_length, range_length in A.
      assert (D := differences_linear f f n k c Hg). unfold differences in D. rewrite (filter_ext _ (fun _ => false)) in D by (intro j; apply xorb_nilpotent).
      assert (F : forall l : list nat, length (filter (fun _ => false) l) = 0) by (intro l0; induction l0; [reflexivity|assumption]). rewrite F in D. destruct c; lia.
  - specialize (Hle k0 Hk0). lia.
  - destruct (Z.le_gt_cases (Z.of_nat (2 ^ n)) ((Z.of_nat (2 ^ n) - 2 * Z.of_nat NN) * (Z.of_nat (2 ^ n) - 2 * Z.of_nat NN))) as [|Hlt]; [assumption|]. exfalso.
    assert (X : (zsum (fun k => amp f n k * amp f n k) (2 ^ n) <= zsum (fun _ => Z.of_nat (2 ^ n) - 1) (2 ^ n))%Z).
    { apply zsum_le. intros k Hk. specialize (Hle k Hk). assert (Hs : (amp f n k * amp f n k = Z.abs (amp f n k) * Z.abs (amp f n k))%Z) by (rewrite Z.abs_square; reflexivity || lia). assert (H0 := Z.abs_nonneg (amp f n k)). nia. }
    rewrite amp_squares, zsum_const in X. assert (Hp := pow2_pos n). nia.
  - split.
    + intros E d Hd. apply in_distances in Hd as (k & Hk & ->). change (amp f n k * amp f n k = Z.of_nat (2 ^ n))%Z. apply (zsum_all_equal (fun k => amp f n k * amp f n k)%Z _ (2 ^ n)); [|apply amp_squares|exact Hk].
      intros j Hj. specialize (Hle j Hj). assert (H0 := Z.abs_nonneg (amp f n j)). assert (Hs := Z.abs_square (amp f n j)). nia.
    + intro H. assert (E := H _ (proj2 (in_distances f n _) (ex_intro _ k0 (conj Hk0 eq_refl)))). change (amp f n k0 * amp f n k0 = Z.of_nat (2 ^ n))%Z in E. rewrite <- Ek0, Z.abs_square. exact E.
Qed.
Print Assumptions C120_bound.

(** The complement, the functions of the same clan and the longer truth table. *)
Lemma clan_nonlinearity : forall f g n, made false f -> made false g -> within n f -> within n g -> clan_class (sem f) (sem g) \/ (forall e, sem g e = negb (sem f e)) ->
  exists ds ds', walsh_distances f (TtArity n) = Ok ds /\ walsh_distances g (TtArity n) = Ok ds' /\ nonlinearity ds = nonlinearity ds'.
Proof.
  intros f g n Mf Mg Wf Wg H. apply within_adicity in Wf, Wg. assert (Rf := m_red f Mf). assert (Rg := m_red g Mg).
  exists (map (dis f n) (range (2 ^ n))), (map (dis g n) (range (2 ^ n))). split; [apply distances_list; [apply Rf|assumption]|]. split; [apply distances_list; [apply Rg|assumption]|].
  assert (X : forall f g N N', is_nonlinearity (map (dis f n) (range (2 ^ n))) N -> is_nonlinearity (map (dis g n) (range (2 ^ n))) N' ->
    (forall k', k' < 2 ^ n -> exists k, k < 2 ^ n /\ Z.abs (amp g n k') = Z.abs (amp f n k)) -> N <= N').
  { intros f' g' N N' HN HN' Hk. apply amp_spec in HN as (A & _). apply amp_spec in HN' as (_ & k' & Hk' & E). destruct (Hk k' Hk') as (k & Hkk & E'). specialize (A k Hkk). lia. }
  destruct H as [C|C].
  - assert (Y : forall f g, reduced f -> reduced g -> adicity f <= n -> adicity g <= n -> clan_class (sem f) (sem g) -> forall k', k' < 2 ^ n -> exists k, k < 2 ^ n /\ Z.abs (amp g n k') = Z.abs (amp f n k)).
    { clear. intros f g Rf Rg Wf Wg C k' Hk'. destruct (clan_low f g n Rf Rg Wf Wg C) as (pi & m & Hl & Ho & S). set (k := b2n (map (fun a => Nat.testbit k' (pi a)) (range n))).
      assert (Hk : k < 2 ^ n) by apply (place_lt (fun a => Nat.testbit k' (pi a))). exists k. split; [exact Hk|].
      assert (E := entry_moved n pi m Ho f g Wf S k k'). rewrite (amp_entry g n k' Hk'), (amp_entry f n k Hk).
      assert (Bits : forall a, a < n -> Nat.testbit k' (pi a) = Nat.testbit k a) by (intros a Ha; symmetry; apply (place_bits (fun a => Nat.testbit k' (pi a))); exact Ha). specialize (E Bits).
      assert (Zk : Nat.eqb k' 0 = Nat.eqb k 0).
      { apply bool_iff. rewrite !Nat.eqb_eq. split.
        - intros ->. apply Nat.bits_inj_0. intro a. destruct (Nat.lt_ge_cases a n) as [Ha|Ha]; [rewrite <- Bits by exact Ha; apply Nat.bits_0|apply (bit_bound_lt k n Hk a Ha)].
        - intro E0. apply Nat.bits_inj_0. intro b. destruct (Nat.lt_ge_cases b n) as [Hb|Hb]; [|apply (bit_bound_lt k' n Hk' b Hb)]. destruct (Ho b Hb) as (a & Ha & <-). rewrite Bits by exact Ha. rewrite E0. apply Nat.bits_0. }
      rewrite Zk. destruct (Nat.eqb_spec k 0) as [E0|_].
      - assert (Ek' : k' = 0) by (apply Nat.eqb_eq; exact Zk). clear Zk Bits. clearbody k. subst k k'. rewrite !entry_zero in *.
        assert (P : (Z.of_nat (cnt (tab g) (2 ^ n)) = Z.of_nat (cnt (tab f) (2 ^ n)))%Z) by (destruct (xor_all _); cbn [sgn] in E; lia). rewrite P. reflexivity.
      - rewrite E. destruct (xor_all _); cbn [sgn]; lia. }
    apply Nat.le_antisymm; [apply (X f g)|apply (X g f)]; try apply distances_nonlinearity; apply Y; try assumption. apply Props_MinRep.clan_sym. exact C.
  - assert (Y : forall f g, (forall e, sem g e = negb (sem f e)) -> forall k', k' < 2 ^ n -> exists k, k < 2 ^ n /\ Z.abs (amp g n k') = Z.abs (amp f n k)).
    { clear. intros f g S k Hk. exists k. split; [exact Hk|]. unfold amp. assert (D : dis g n k = 2 ^ n - dis f n k).
      { unfold dis. rewrite <- cnt_negb. apply cnt_ext. intros j _. unfold tab. rewrite S. destruct (sem f (Nat.testbit j)), (dot n k j); reflexivity. }
      assert (B : dis f n k <= 2 ^ n) by apply cnt_le. rewrite D. lia. }
    apply Nat.le_antisymm; [apply (X f g)|apply (X g f)]; try apply distances_nonlinearity; apply Y; [exact C|]. intro e. rewrite C. symmetry. apply negb_involutive.
Qed.
Theorem C120_clan : forall {i j} f g n, made i f -> made j g -> within n f -> within n g -> clan_class (sem f) (sem g) \/ (forall e, sem g e = negb (sem f e)) ->
  exists ds ds', walsh_distances f (TtArity n) = Ok ds /\ walsh_distances g (TtArity n) = Ok ds' /\ nonlinearity ds = nonlinearity ds'.
Proof.
  intros i j f g n Mf Mg Wf Wg C. destruct (deflated f n Mf Wf) as (f0 & F0 & F1 & A0 & S0). destruct (deflated g n Mg Wg) as (g0 & G0 & G1 & B0 & T0).
  destruct (clan_nonlinearity f0 g0 n F0 G0 A0 B0) as (ds & ds' & E & E' & H).
  { destruct C as [(pi & m & P & C)|C]; [left; exists pi, m; split; [exact P|]; intro e; rewrite <- T0, C, S0; reflexivity | right; intro e; rewrite <- T0, C, S0; reflexivity]. }
  exists ds, ds'. destruct (C122_same_arity f f0 n (made_any f Mf) F1 S0 Wf A0) as (_ & _ & _ & _ & _ & _ & _ & _ & _ & X & _). destruct (C122_same_arity g g0 n (made_any g Mg) G1 T0 Wg B0) as (_ & _ & _ & _ & _ & _ & _ & _ & _ & Y & _).
  rewrite X, Y. auto.
Qed.
Print Assumptions C120_clan.

Theorem C120_arity : forall i f n, made i f -> within n f ->
  exists ds ds', walsh_distances f (TtArity n) = Ok ds /\ walsh_distances f (TtArity (S n)) = Ok ds' /\ nonlinearity ds' = 2 * nonlinearity ds /\
    (2 <= n -> Nat.odd (nonlinearity ds) = Nat.odd (length (filter (value f) (seq 0 (2 ^ n))))).
Proof.
  intros i f n M W. apply within_adicity in W. assert (Hf := m_fit i f M). exists (map (dis f n) (range (2 ^ n))), (map (dis f (S n)) (range (2 ^ S n))).
  split; [apply distances_list; assumption|]. split; [apply distances_list; [assumption|lia]|]. split.
  - apply (is_nonlinearity_unique _ _ _ (distances_nonlinearity f (S n))). apply amp_spec. assert (H := distances_nonlinearity f n). apply amp_spec in H. set (N := nonlinearity _) in *. destruct H as (A & k & Hk & E).
    assert (P2 : 2 ^ S n = 2 ^ n + 2 ^ n) by (cbn; lia). assert (Hp := pow2_pos n).
    assert (Low : forall k, k < 2 ^ n -> amp f (S n) k = (2 * amp f n k)%Z).
    { intros j Hj. rewrite (amp_entry f (S n)), (amp_entry f n) by lia. rewrite (proj1 (entry_inflated f n j W Hj)). destruct (Nat.eqb j 0); lia. }
    split.
    + intros j Hj. destruct (Nat.lt_ge_cases j (2 ^ n)) as [Hl|Hl]; [rewrite Low by exact Hl; specialize (A j Hl); lia|].
      assert (E0 : entry_of f (S n) j = 0%Z) by (replace j with (2 ^ n + (j - 2 ^ n)) by lia; apply entry_inflated; [exact W|lia]). rewrite amp_entry by exact Hj. rewrite E0, (proj2 (Nat.eqb_neq j 0)) by lia. specialize (A k Hk). lia.
    + exists k. split; [lia|]. rewrite Low by exact Hk. lia.
  - intro Hn. destruct (distances_nonlinearity f n) as (_ & d & Hd & E). set (N := nonlinearity _) in *. rewrite map_length, range_length in E. apply in_distances in Hd as (k & Hk & ->).
    assert (P4 : exists q, 2 ^ n = 4 * q) by (exists (2 ^ (n - 2)); replace n with (2 + (n - 2)) at 1 by lia; rewrite Nat.pow_add_r; reflexivity). destruct P4 as (q & P4).
    assert (D := distance_counts f n k). fold (dis f n k) in D. assert (Ww := walsh_weight n k Hk). change (filter (value f)) with (filter (tab f)). fold (cnt (tab f) (2 ^ n)).
    assert (B : dis f n k <= 2 ^ n) by apply cnt_le.
    assert (Q : exists a b, N + 2 * a = cnt (tab f) (2 ^ n) + 2 * b).
    { set (x := cnt (fun i => tab f i && dot n k i) (2 ^ n)) in *. set (c := cnt (dot n k) (2 ^ n)) in *. set (w := cnt (tab f) (2 ^ n)) in *.
      assert (Hc : c = 0 \/ c = 2 * q) by (destruct (Nat.eqb k 0); lia). destruct E as [E|E]; [exists x; destruct Hc; [exists 0|exists q]; lia|]. exists w. destruct Hc as [Hc|Hc]; [exists (2 * q + x)|exists (q + x)]; lia. }
    destruct Q as (a & b & Q). rewrite <- (Nat.odd_add_mul_2 N a), Q. apply Nat.odd_add_mul_2.
Qed.
Print Assumptions C120_arity.

(** x0 x1 + x2 x3 (6 places, as many as possible), and the conjunction of three atoms *)
Example C120_ex : (let* ds := walsh_distances (mkBoolf [false; false; false; true; false; false; false; true; false; false; false; true; true; true; true; false] [0; 1; 2; 3] false false) (TtArity 4) in Ok (ds, nonlinearity ds)) =
    Ok ([6; 6; 6; 10; 6; 6; 6; 10; 6; 6; 6; 10; 10; 10; 10; 6], 6) /\
  (let* ds := walsh_distances (mkBoolf [false; false; false; false; false; false; false; true] [0; 1; 2] false false) (TtArity 3) in Ok (ds, nonlinearity ds)) = Ok ([1; 3; 3; 5; 3; 5; 5; 3], 1) /\
  (let* ds := walsh_distances (mkBoolf [false; false; false; false; false; false; false; true] [0; 1; 2] false false) (TtArity 4) in Ok (nonlinearity ds)) = Ok 2 /\
  (let* ds := walsh_distances (mkBoolf [true; false; false; true] [0; 2] false false) (TtArity 3) in Ok (ds, nonlinearity ds)) = Ok ([4; 4; 4; 4; 4; 8; 4; 4], 0) /\
  within 4 ex_or /\ made false ex_or.
Proof. do 4 (split; [vm_compute; reflexivity|]). split; [intros a [<- | [<- | []]]; lia|apply ex_or_made]. Qed.
