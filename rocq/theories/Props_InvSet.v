(** Props_InvSet: property C128 (vectors and permutations from sets of pairs). *)

From Coq Require Import List Arith Bool Lia Permutation.
From Verif Require Import Model_Base Lib Model_Perm Model_InvSet Spec_Perm Proof_Perm Proof_PermGroup Proof_Inversions Proof_Seqs Proof_Listing Props_Perm.
Import ListNotations.
Local Open Scope nat_scope.

Definition key (left : bool) (ab : nat * nat) : nat := if left then snd ab else fst ab.
(** how many of the pairs have the key [k] *)
Definition times (left : bool) (pairs : list (nat * nat)) (k : nat) : nat := count_occ Nat.eq_dec (map (key left) pairs) k.

Lemma steps left pairs : forall len d t,
  (forall k, match dget d k with Some c => c | None => 0 end = t k) -> NoDup (dkeys d) -> (forall k, In k (dkeys d) -> k < len) ->
  let st := fold_left (count_step left) pairs (len, d) in
  (forall n, fst st <= n <-> len <= n /\ forall a b, In (a, b) pairs -> a < n /\ b < n) /\
  (forall k, match dget (snd st) k with Some c => c | None => 0 end = t k + times left pairs k) /\
  NoDup (dkeys (snd st)) /\ forall k, In k (dkeys (snd st)) -> k < fst st.
Proof.
  induction pairs as [|[a b] pairs IH]; intros len d t Ht Nd Lt; cbn [fold_left].
  - cbn [fst snd]. split; [intro n; split; [intro; split; [assumption | intros ? ? []] | tauto]|]. split; [intro k; rewrite Ht; unfold times; cbn; lia|]. auto.
  - unfold count_step at 2. cbn [fst snd]. set (k0 := if left then b else a).
    specialize (IH (Nat.max len (Nat.max (a + 1) (b + 1))) (dset d k0 (match dget d k0 with Some c => c | None => 0 end + 1)) (fun k => t k + if Nat.eqb k k0 then 1 else 0)).
    destruct IH as (I1 & I2 & I3 & I4).
    + intro k. rewrite dset_get. destruct (Nat.eqb_spec k k0) as [->|]; [rewrite Ht; reflexivity | rewrite Ht; lia].
    + apply dset_NoDup, Nd.
    + intros k Hk. apply dset_keys_In in Hk as [->|Hk]; [unfold k0; destruct left; lia|]. specialize (Lt k Hk). lia.
    + split; [|split; [|split; [exact I3 | exact I4]]].
      * intro n. rewrite I1. split.
        -- intros (H1 & H2). split; [lia|]. intros c e [H|H]; [injection H as <- <-; lia | apply H2, H].
        -- intros (H1 & H2). split; [specialize (H2 a b (or_introl eq_refl)); lia | intros c e H; apply H2; right; exact H].
      * intro k. rewrite I2. unfold times. cbn [map count_occ]. change (key left (a, b)) with k0. destruct (Nat.eq_dec k0 k) as [->|H]; [rewrite Nat.eqb_refl; lia|].
        destruct (Nat.eqb_spec k k0); [congruence | lia].
Qed.

Lemma fill d : forall v, NoDup (dkeys d) -> (forall k, In k (dkeys d) -> k < length v) ->
  exists r, foldM (fun vector (kc : nat * nat) => guard Nat.ltb (fst kc) (length vector) else IndexErr ;; Ok (lset vector (fst kc) (snd kc))) d v = Ok r /\
    length r = length v /\ forall k, nth k r 0 = match dget d k with Some c => c | None => nth k v 0 end.
Proof.
  induction d as [|[k0 c0] d IH]; intros v Nd Lt; [exists v; cbn; auto|]. cbn [foldM fst snd]. cbn [dkeys map fst] in Nd. inversion_clear Nd as [|? ? N1 N2].
  rewrite (proj2 (Nat.ltb_lt _ _)) by (apply Lt; left; reflexivity). cbn [true_except bind].
  destruct (IH (lset v k0 c0)) as (r & E & L & V); [exact N2 | intros k Hk; rewrite length_lset; apply Lt; right; exact Hk|]. exists r. split; [exact E|]. rewrite length_lset in L. split; [exact L|].
  intro k. rewrite V. cbn [dget]. rewrite nth_lset. destruct (Nat.eqb_spec k k0) as [->|H].
  - replace (dget d k0) with (@None nat); [rewrite (proj2 (Nat.ltb_lt _ _)) by (apply Lt; left; reflexivity); reflexivity|]. symmetry.
    destruct (dget d k0) as [c|] eqn:G; [|reflexivity]. exfalso. apply N1. apply dget_In in G. apply in_map_iff. exists (k0, c). auto.
  - reflexivity.
Qed.

(** ** Any list of pairs: the vector is as long as needed for all entries of the pairs, and counts
    the second (left variant) or first (right variant) entries *)
Theorem C128_count : forall pairs left, exists v, set_to_count pairs left = Ok v /\
  (forall n, length v <= n <-> forall a b, In (a, b) pairs -> a < n /\ b < n) /\
  forall k, nth k v 0 = times left pairs k.
Proof.
  intros pairs left. unfold set_to_count. cbn zeta. set (st := fold_left _ _ _).
  assert (S := steps left pairs 0 [] (fun _ => 0)). cbn zeta in S. change (fold_left (count_step left) pairs (0, @nil (nat * nat))) with st in S.
  destruct S as (H1 & H2 & H3 & H4); [reflexivity | constructor | intros k []|].
  destruct (fill (snd st) (repeat 0 (fst st)) H3) as (r & E & L & V); [intros k Hk; rewrite repeat_length; apply H4, Hk|].
  exists r. split; [exact E|]. rewrite repeat_length in L. split.
  - intro n. rewrite L, H1. split; [intros (_ & H); exact H | intro H; split; [lia | exact H]].
  - intro k. rewrite V, nth_repeat. specialize (H2 k). rewrite Nat.add_0_l in H2. exact H2.
Qed.
Print Assumptions C128_count.

(** ** The pairs are the inversions of a permutation *)

Definition inversions_of (s : list nat) (pairs : list (nat * nat)) : Prop :=
  NoDup pairs /\ forall a b, In (a, b) pairs <-> a < b /\ b < length s /\ nth b s 0 < nth a s 0.

Lemma times_filter left pairs k : times left pairs k = length (filter (fun ab => Nat.eqb (key left ab) k) pairs).
Proof.
  unfold times. induction pairs as [|ab pairs IH]; [reflexivity|]. cbn [map count_occ filter]. destruct (Nat.eq_dec (key left ab) k) as [H|H].
  - rewrite (proj2 (Nat.eqb_eq _ _) H). cbn [length]. rewrite IH. reflexivity.
  - rewrite (proj2 (Nat.eqb_neq _ _) H). exact IH.
Qed.

Lemma times_left s pairs k : inversions_of s pairs -> k < length s -> times true pairs k = nth k (left_inversion_count s) 0.
Proof.
  intros (Nd & H) Hk. rewrite times_filter. unfold left_inversion_count. rewrite nth_map_range by exact Hk.
  rewrite <- (map_length (fun j => (j, k)) (filter _ (range k))). apply Permutation_length, NoDup_Permutation.
  - apply NoDup_filter, Nd.
  - apply FinFun.Injective_map_NoDup; [intros x y E; congruence | apply NoDup_filter, range_NoDup].
  - intros [a b]. rewrite filter_In, H, in_map_iff. cbn [key snd]. rewrite Nat.eqb_eq. split.
    + intros ((H1 & H2 & H3) & ->). exists a. split; [reflexivity|]. apply filter_In. rewrite range_In, Nat.ltb_lt. auto.
    + intros (j & E & Hj). injection E as <- <-. apply filter_In in Hj. rewrite range_In, Nat.ltb_lt in Hj. tauto.
Qed.
Lemma times_right s pairs k : inversions_of s pairs -> k < length s -> times false pairs k = nth k (right_inversion_count s) 0.
Proof.
  intros (Nd & H) Hk. rewrite times_filter. unfold right_inversion_count. rewrite nth_map_range by exact Hk.
  rewrite <- (map_length (fun j => (k, j)) (filter _ (range2 k (length s)))). apply Permutation_length, NoDup_Permutation.
  - apply NoDup_filter, Nd.
  - apply FinFun.Injective_map_NoDup; [intros x y E; congruence | apply NoDup_filter, seq_NoDup].
  - intros [a b]. rewrite filter_In, H, in_map_iff. cbn [key fst]. rewrite Nat.eqb_eq. split.
    + intros ((H1 & H2 & H3) & ->). exists b. split; [reflexivity|]. apply filter_In. unfold range2. rewrite in_seq, Nat.ltb_lt. split; [lia | exact H3].
    + intros (j & E & Hj). injection E as <- <-. apply filter_In in Hj. unfold range2 in Hj. rewrite in_seq, Nat.ltb_lt in Hj. destruct Hj as (H1 & H2). split; [|reflexivity].
      assert (j <> k) by (intros ->; lia). lia.
Qed.

(** the left variant is the function of Model_Perm *)
Lemma fold_bound (pairs : list (nat * nat)) : forall len n, fold_left (fun l ab => Nat.max l (Nat.max (S (fst ab)) (S (snd ab)))) pairs len <= n <-> len <= n /\ forall a b, In (a, b) pairs -> a < n /\ b < n.
Proof.
  induction pairs as [|[a b] pairs IH]; intros len n; cbn [fold_left fst snd].
  - split; [intro; split; [assumption | intros ? ? []] | tauto].
  - rewrite IH. split.
    + intros (H1 & H2). split; [lia|]. intros c e [H|H]; [injection H as <- <-; lia | apply H2, H].
    + intros (H1 & H2). split; [specialize (H2 a b (or_introl eq_refl)); lia | intros c e H; apply H2; right; exact H].
Qed.
Theorem C128_same : forall pairs, set_to_count pairs true = Ok (inversion_set_to_count pairs) /\ set_to_permutation pairs = inversion_set_to_permutation pairs.
Proof.
  intro pairs. assert (A : set_to_count pairs true = Ok (inversion_set_to_count pairs)).
  { destruct (C128_count pairs true) as (v & Ev & Lv & V). rewrite Ev. f_equal. unfold inversion_set_to_count. set (m := fold_left _ pairs 0).
    assert (L : length v = m).
    { assert (B := fold_bound pairs 0). fold m in B. apply Nat.le_antisymm; [apply Lv, (B m), le_n | apply (B (length v)); split; [lia | apply Lv, le_n]]. }
    apply (nth_ext _ _ 0 0); [rewrite map_length, range_length; exact L|]. intros k Hk. rewrite V, nth_map_range by lia. apply times_filter. }
  split; [exact A|]. unfold set_to_permutation. rewrite A. reflexivity.
Qed.
Print Assumptions C128_same.

(** for the inversion set of a finite permutation, in any order: the left variant gives the left
    inversion count, and the right variant gives the right one, so either gives the permutation back *)
Theorem C128_inversions : forall p pairs, is_Perm p -> perilen p = None ->
  NoDup pairs -> (forall a b, In (a, b) pairs <-> a < b /\ pget p b < pget p a) ->
  let s := map (pget p) (seq 0 (plength p)) in
  set_to_count pairs true = Ok (left_inversion_count s) /\ set_to_count pairs false = Ok (right_inversion_count s) /\
  set_to_permutation pairs = Ok s /\ (let* v := set_to_count pairs false in right_inversion_count_to_permutation v) = Ok s.
Proof.
  intros p pairs H E Nd Hin s. assert (W := is_Perm_wf p H). destruct (wf_finite_seq p W E) as (_ & Hp & Hfix & Hlast). fold (range (plength p)) in s. fold s in Hp.
  assert (Ls : length s = plength p) by (unfold s; rewrite map_length; apply range_length).
  assert (Hlt : forall x, x < plength p -> pget p x < plength p) by (intros x Hx; apply range_In, (Permutation_in _ Hp), in_map, range_In, Hx).
  assert (I : inversions_of s pairs).
  { split; [exact Nd|]. intros a b. rewrite Hin, Ls. split.
    - intros (H1 & H2). assert (B : b < plength p).
      { destruct (Nat.lt_ge_cases b (plength p)) as [|G]; [assumption|]. exfalso. rewrite (Hfix b G) in H2. destruct (Nat.lt_ge_cases a (plength p)) as [G'|G']; [specialize (Hlt a G') | rewrite (Hfix a G') in H2]; lia. }
      unfold s. rewrite !nth_map_range by lia. auto.
    - intros (H1 & H2 & H3). unfold s in H3. rewrite !nth_map_range in H3 by lia. auto. }
  assert (Len : forall v : list nat, (forall n, length v <= n <-> forall a b, In (a, b) pairs -> a < n /\ b < n) -> length v = length s).
  { intros v Hv. rewrite Ls. apply Nat.le_antisymm.
    - apply Hv. intros a b Hab. apply (proj2 I) in Hab. lia.
    - destruct (plength p) as [|m] eqn:Em; [lia|]. destruct (Nat.lt_ge_cases m (length v)) as [|G]; [lia|]. exfalso.
      specialize (Hlast ltac:(lia)). replace (S m - 1) with m in Hlast by lia.
      assert (Hn : In m s) by (apply (Permutation_in m (Permutation_sym Hp)), range_In; lia).
      unfold s in Hn. apply in_map_iff in Hn as (k & Ek & Hk). apply range_In in Hk. assert (k <> m) by (intros ->; contradiction). specialize (Hlt m ltac:(lia)).
      assert (P : In (k, m) pairs) by (apply Hin; lia). apply (proj1 (Hv m) G) in P. lia. }
  assert (L : forall left, set_to_count pairs left = Ok (if left then left_inversion_count s else right_inversion_count s)).
  { intro left. destruct (C128_count pairs left) as (v & Ev & Lv & V). rewrite Ev. f_equal. specialize (Len v Lv). apply (nth_ext _ _ 0 0).
    - rewrite Len. destruct left; unfold left_inversion_count, right_inversion_count; rewrite map_length, range_length; reflexivity.
    - intros k Hk. rewrite V. destruct left; [apply times_left | apply times_right]; try exact I; lia. }
  assert (A := L true). assert (B := L false). cbn iota in A, B. split; [exact A|]. split; [exact B|]. unfold set_to_permutation. rewrite A, B. cbn [bind].
  split; [apply (left_roundtrip s _ Hp) | apply (right_roundtrip s _ Hp)].
Qed.
Print Assumptions C128_inversions.

(** ** Any set of ascending pairs gives a permutation; its inversions are the given pairs exactly
    when they are transitive and their complement is *)

Section order.
Variable P : nat -> nat -> Prop.
Variable dec : forall a b, {P a b} + {~ P a b}.
Variable n : nat.
Hypothesis Pasc : forall a b, P a b -> a < b.
Hypothesis Ptrans : forall a b c, P a b -> P b c -> P a c.
Hypothesis Pco : forall a b c, a < b -> b < c -> P a c -> P a b \/ P b c.

(** x comes before y *)
Definition before (x y : nat) : bool :=
  if Nat.ltb x y then if dec x y then false else true else if Nat.ltb y x then if dec y x then true else false else false.
Lemma before_spec x y : before x y = true <-> (x < y /\ ~ P x y) \/ P y x.
Proof.
  unfold before. destruct (Nat.ltb_spec x y) as [H|H].
  - destruct (dec x y) as [D|D]; split; try discriminate; try tauto. intros [F|F]; [tauto | apply Pasc in F; lia].
  - destruct (Nat.ltb_spec y x) as [H'|H'].
    + destruct (dec y x) as [D|D]; split; try discriminate; try tauto. intros [F|F]; [lia | contradiction].
    + split; [discriminate|]. intros [F|F]; [lia | apply Pasc in F; lia].
Qed.
Lemma before_irrefl x : before x x = false.
Proof. destruct (before x x) eqn:E; [|reflexivity]. apply before_spec in E as [F|F]; [lia | apply Pasc in F; lia]. Qed.
Lemma before_trans x y z : before x y = true -> before y z = true -> before x z = true.
Proof.
  rewrite !before_spec. intros [(H1 & H2)|H1] [(H3 & H4)|H3].
  - left. split; [lia|]. intro F. destruct (Pco x y z H1 H3 F); contradiction.
  - destruct (Nat.lt_trichotomy x z) as [H|[H|H]]; [left; split; [exact H|]; intro F; apply H2, (Ptrans x z y F H3) | subst; contradiction|].
    right. destruct (Pco z x y H H1 H3); [assumption | contradiction].
  - destruct (Nat.lt_trichotomy x z) as [H|[H|H]]; [left; split; [exact H|]; intro F; apply H4, (Ptrans y x z H1 F) | subst; contradiction|].
    right. apply Pasc in H1 as H5. destruct (Pco y z x H3 H H1); [contradiction | assumption].
  - right. exact (Ptrans z y x H3 H1).
Qed.
Lemma before_total x y : x <> y -> before x y = true \/ before y x = true.
Proof.
  intro H. rewrite !before_spec. destruct (Nat.lt_trichotomy x y) as [G|[G|G]]; [|contradiction|].
  - destruct (dec x y); auto.
  - destruct (dec y x); auto.
Qed.

Definition place (x : nat) : nat := length (filter (fun z => before z x) (range n)).
Lemma filter_strict (l : list nat) (f g : nat -> bool) x : (forall z, f z = true -> g z = true) -> In x l -> f x = false -> g x = true -> length (filter f l) < length (filter g l).
Proof.
  intros Hfg. assert (LE : forall l, length (filter f l) <= length (filter g l)).
  { clear x l. intro l. induction l as [|z l IH]; [reflexivity|]. cbn [filter]. destruct (f z) eqn:F; [rewrite (Hfg z F); cbn; lia | destruct (g z); cbn; lia]. }
  intros Hx Fx Gx. induction l as [|z l IH]; [destruct Hx|]. cbn [filter]. destruct Hx as [->|Hx].
  - rewrite Fx, Gx. cbn [length]. specialize (LE l). lia.
  - specialize (IH Hx). destruct (f z) eqn:F; [rewrite (Hfg z F); cbn; lia | destruct (g z); cbn; lia].
Qed.
Lemma place_mono x y : x < n -> before x y = true -> place x < place y.
Proof.
  intros Hx B. apply (filter_strict _ _ _ x); [intros z Hz; apply (before_trans z x y Hz B) | apply range_In, Hx | apply before_irrefl | exact B].
Qed.
Lemma place_lt x : x < n -> place x < n.
Proof.
  intro Hx. apply Nat.lt_le_trans with (length (filter (fun _ => true) (range n))).
  - apply (filter_strict _ _ _ x); [reflexivity | apply range_In, Hx | apply before_irrefl | reflexivity].
  - assert (L : forall l : list nat, filter (fun _ => true) l = l) by (induction l as [|y l IH]; [reflexivity | cbn; rewrite IH; reflexivity]). rewrite L, range_length. reflexivity.
Qed.
Lemma place_perm : Permutation (map place (range n)) (range n).
Proof.
  apply NoDup_Permutation_bis.
  - assert (G : forall l, NoDup l -> (forall x, In x l -> x < n) -> NoDup (map place l)).
    { induction l as [|x l IH]; intros Nd Hl; [constructor|]. inversion_clear Nd as [|? ? N1 N2]. cbn [map]. constructor; [|apply IH; [exact N2 | intros z Hz; apply Hl; right; exact Hz]].
      intro F. apply in_map_iff in F as (y & E & Hy). assert (D : x <> y) by (intros ->; contradiction). assert (Hx := Hl x (or_introl eq_refl)). assert (Hy' := Hl y (or_intror Hy)).
      destruct (before_total x y D) as [B|B]; [apply (place_mono x y Hx) in B | apply (place_mono y x Hy') in B]; lia. }
    apply G; [apply range_NoDup | intros x; apply range_In].
  - rewrite map_length. lia.
  - intros z Hz. apply in_map_iff in Hz as (x & <- & Hx). apply range_In in Hx. apply range_In, place_lt, Hx.
Qed.
Lemma place_inv a b : a < b -> b < n -> (place b < place a <-> P a b).
Proof.
  intros H Hb. split.
  - intro L. destruct (dec a b) as [D|D]; [exact D|]. exfalso. assert (B : before a b = true) by (apply before_spec; auto). apply place_mono in B; lia.
  - intro D. apply place_mono; [exact Hb|]. apply before_spec. right. exact D.
Qed.
End order.

Lemma times_bound pairs k : NoDup pairs -> (forall a b, In (a, b) pairs -> a < b) -> times true pairs k <= k.
Proof.
  intros Nd H. rewrite times_filter. rewrite <- (map_length fst). apply Nat.le_trans with (length (seq 0 k)); [|rewrite seq_length; lia]. apply NoDup_incl_length.
  - assert (G : forall l : list (nat * nat), NoDup l -> (forall ab, In ab l -> snd ab = k) -> NoDup (map fst l)).
    { induction l as [|[a b] l IH]; intros N K; [constructor|]. inversion_clear N as [|? ? N1 N2]. cbn [map fst]. constructor; [|apply IH; [exact N2 | intros ab Hab; apply K; right; exact Hab]].
      intro F. apply in_map_iff in F as ([a' b'] & E & F). cbn [fst] in E. subst a'. assert (K1 := K _ (or_introl eq_refl)). assert (K2 := K _ (or_intror F)). cbn [snd] in *. subst. contradiction. }
    apply G; [apply NoDup_filter, Nd|]. intros ab Hab. apply filter_In in Hab as [_ Hab]. apply Nat.eqb_eq, Hab.
  - intros a Ha. apply in_map_iff in Ha as ([a' b] & E & Hab). cbn [fst] in E. subst a'. apply filter_In in Hab as [Hab K]. cbn [key snd] in K. apply Nat.eqb_eq in K. subst b. apply in_seq. specialize (H a k Hab). lia.
Qed.

Theorem C128_any : forall pairs, NoDup pairs -> (forall a b, In (a, b) pairs -> a < b) ->
  exists s, set_to_permutation pairs = Ok s /\ Permutation s (seq 0 (length s)) /\
  (forall k, nth k (left_inversion_count s) 0 = times true pairs k) /\
  ((forall a b, In (a, b) pairs <-> a < b /\ b < length s /\ nth b s 0 < nth a s 0) <->
   (forall a b c, In (a, b) pairs -> In (b, c) pairs -> In (a, c) pairs) /\
   (forall a b c, a < b -> b < c -> In (a, c) pairs -> In (a, b) pairs \/ In (b, c) pairs)).
Proof.
  intros pairs Nd Asc. destruct (C128_count pairs true) as (v & Ev & Lv & V). unfold set_to_permutation. rewrite Ev. cbn [bind].
  destruct (left_total v) as (s & Es & Ps & Cs); [intros i Hi; rewrite V; apply times_bound; assumption|]. exists s. split; [exact Es|].
  assert (Ls : length s = length v) by (apply Permutation_length in Ps; rewrite range_length in Ps; exact Ps). split; [rewrite Ls; exact Ps|].
  split; [intro k; rewrite Cs; apply V|]. split.
  - intro H. split.
    + intros a b c H1 H2. apply H in H1, H2. apply H. lia.
    + intros a b c L1 L2 H1. apply H in H1. destruct (Nat.lt_ge_cases (nth b s 0) (nth a s 0)) as [G|G]; [left | right]; apply H; lia.
  - intros (Tr & Co). assert (dec : forall a b, {In (a, b) pairs} + {~ In (a, b) pairs}) by (intros a b; apply in_dec; decide equality; apply Nat.eq_dec).
    set (pl := place (fun a b => In (a, b) pairs) dec (length v)). set (t := map pl (range (length v))).
    assert (Pt : Permutation t (range (length v))) by (apply (place_perm (fun a b => In (a, b) pairs) dec (length v) Asc Tr Co)).
    assert (Lt : length t = length v) by (unfold t; rewrite map_length; apply range_length).
    assert (It : inversions_of t pairs).
    { split; [exact Nd|]. intros a b. rewrite Lt. split.
      - intro H. assert (B := proj1 (Lv (length v)) (le_n _) a b H). specialize (Asc a b H) as L. split; [exact L|]. split; [lia|]. unfold t. rewrite !nth_map_range by lia.
        apply (place_inv (fun a b => In (a, b) pairs) dec (length v) Asc Tr Co); try lia. exact H.
      - intros (L & B & H). unfold t in H. rewrite !nth_map_range in H by lia. apply (place_inv (fun a b => In (a, b) pairs) dec (length v) Asc Tr Co a b L B), H. }
    assert (Cv : left_inversion_count t = v).
    { apply (nth_ext _ _ 0 0); [unfold left_inversion_count; rewrite map_length, range_length; exact Lt|]. intros k Hk. rewrite V. symmetry. apply times_left; [exact It|].
      unfold left_inversion_count in Hk. rewrite map_length, range_length in Hk. exact Hk. }
    assert (E : s = t) by (assert (R := left_roundtrip t (length v) Pt); rewrite Cv, Es in R; congruence). rewrite E. apply (proj2 It).
Qed.
Print Assumptions C128_any.

(** other sets are not refused, and give a permutation with other inversions *)
Theorem C128_refuted : exists pairs s, NoDup pairs /\ (forall a b, In (a, b) pairs -> a < b) /\ set_to_permutation pairs = Ok s /\
  In (0, 2) pairs /\ nth 0 s 0 < nth 2 s 0.
Proof.
  exists [(0, 2)], [0; 2; 1]. split; [repeat constructor; intros []|]. split; [intros a b [E|[]]; injection E as <- <-; lia|]. split; [reflexivity|]. split; [left; reflexivity|]. cbn. lia.
Qed.
Print Assumptions C128_refuted.

(** the list with the inversions (0, 1), (0, 3), (2, 3) is 2 0 3 1; a repeated pair can be too many for the place *)
Example C128_ex : exists p, Perm (ArgSeq [2; 0; 3; 1]) None = Ok p /\ is_Perm p /\ perilen p = None /\
  (forall a b, In (a, b) [(2, 3); (0, 1); (0, 3)] -> a < b /\ pget p b < pget p a) /\
  set_to_count [(2, 3); (0, 1); (0, 3)] true = Ok [0; 1; 0; 2] /\ set_to_count [(2, 3); (0, 1); (0, 3)] false = Ok [2; 0; 1; 0] /\
  set_to_permutation [(2, 3); (0, 1); (0, 3)] = Ok [2; 0; 3; 1] /\ set_to_permutation [(0, 1); (0, 1)] = Err IndexErr.
Proof.
  eexists. split; [vm_compute; reflexivity|]. split; [eapply (obj_new (ArgSeq [2; 0; 3; 1]) None); [exact I | vm_compute; reflexivity]|]. split; [reflexivity|]. split; [|repeat split].
  intros a b H. cbn [In] in H. repeat destruct H as [H|H]; try contradiction; injection H as <- <-; cbn; lia.
Qed.
