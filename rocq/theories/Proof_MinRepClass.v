(** Proof_MinRepClass: the Zhegalkin coefficients of the functions obtained by negating and
    permuting the arguments. *)

From Coq Require Import List Arith ZArith Bool Lia Permutation Sorted Factorial.
From Verif Require Import Model_Base Lib Model_Perm Model_Binary Model_SigPerm Model_Boolf Model_Twin Model_BoolfMore Model_MinRep
  Spec_Bits Spec_Boolf Spec_Twin Proof_Binary Proof_Perm Proof_PermGroup Proof_PermMore Proof_Inversions Proof_SigPerm Proof_SigPermOps
  Proof_Helpers Proof_Linear Proof_WalshLinear Proof_Boolf Proof_Deflate Proof_BoolfTable Proof_BoolfApply Proof_BoolfMake Proof_Twin
  Proof_Noble Proof_BoolfMore Proof_MinRepTwin.
Import ListNotations.
Open Scope nat_scope.

(** * Negation *)

Lemma seq_plus m a b : seq (a + b) m = map (fun k => k + b) (seq a m).
Proof. revert a b. induction m as [|m IH]; intros a b; [reflexivity|]. cbn [seq map]. f_equal. apply (IH (S a) b). Qed.

Lemma split_bits n j q (op : nat -> nat -> nat) (o : bool -> bool -> bool) m b :
  (forall x y i, Nat.testbit (op x y) i = o (Nat.testbit x i) (Nat.testbit y i)) -> o false false = false ->
  j < 2 ^ n -> m < 2 ^ n -> op (j + 2 ^ n * Nat.b2n q) (m + 2 ^ n * Nat.b2n b) = op j m + 2 ^ n * Nat.b2n (o q b) /\ op j m < 2 ^ n.
Proof.
  intros Hop Ho Hj Hm. assert (L : op j m < 2 ^ n).
  { apply bits_lt_pow. intros i Hi. rewrite Hop, !testbit_high; [exact Ho | |]; (eapply Nat.lt_le_trans; [eassumption | apply Nat.pow_le_mono_r; lia]). }
  split; [|exact L]. apply Nat.bits_inj. intro i. rewrite Hop, !testbit_split by assumption. destruct (Nat.eqb i n); [reflexivity|]. symmetry. apply Hop.
Qed.

(** the coefficient at [T] counts for the place [s] when [m] negates *)
Definition counts (s m T : nat) : bool := subm s T && subm T (Nat.lor s m).

Lemma anf_shift n : forall F m s, m < 2 ^ n -> s < 2 ^ n ->
  anf n (fun k => F (Nat.lxor k m)) s = xor_all (map (fun T => counts s m T && anf n F T) (seq 0 (2 ^ n))).
Proof.
  induction n as [|n IH]; intros F m s Hm Hs.
  - assert (m = 0) by (cbn in Hm; lia). assert (s = 0) by (cbn in Hs; lia). subst. unfold anf, counts, xor_all. cbn. destruct (F 0); reflexivity.
  - destruct (split_pow n m Hm) as (m' & b & Hm' & ->). destruct (split_pow n s Hs) as (j & q & Hj & ->).
    rewrite anf_step by exact Hj. replace (2 ^ S n) with (2 ^ n + 2 ^ n) by (cbn; lia). rewrite seq_app, map_app, xor_all_app.
    rewrite (seq_plus (2 ^ n) 0 (2 ^ n)), map_map.
    set (R := fun G => xor_all (map (fun T => counts j m' T && anf n G T) (seq 0 (2 ^ n)))).
    set (F1 := fun k => F (k + 2 ^ n)).
    assert (E1 : xor_all (map (fun T => counts (j + 2 ^ n * Nat.b2n q) (m' + 2 ^ n * Nat.b2n b) T && anf (S n) F T) (seq 0 (2 ^ n))) = R F && negb q).
    { unfold R. rewrite <- xor_all_and. apply xor_all_ext. intros T HT. apply in_seq in HT.
      replace T with (T + 2 ^ n * Nat.b2n false) at 1 2 by (cbn; lia). rewrite anf_step by lia.
      unfold counts. destruct (split_bits n j q Nat.lor orb m' b Nat.lor_spec eq_refl Hj Hm') as [-> Hl]. rewrite !subm_split by lia. cbn [negb orb andb].
      rewrite xorb_false_r. destruct q, (subm j T), (subm T (Nat.lor j m')), (anf n F T); reflexivity. }
    assert (E2 : xor_all (map (fun T => counts (j + 2 ^ n * Nat.b2n q) (m' + 2 ^ n * Nat.b2n b) (T + 2 ^ n) && anf (S n) F (T + 2 ^ n)) (seq 0 (2 ^ n)))
                 = xorb (R F) (R F1) && (q || b)).
    { unfold R. rewrite <- xor_all_xorb, <- xor_all_and. apply xor_all_ext. intros T HT. apply in_seq in HT.
      replace (T + 2 ^ n) with (T + 2 ^ n * Nat.b2n true) by (cbn; lia). rewrite anf_step by lia. fold F1.
      unfold counts. destruct (split_bits n j q Nat.lor orb m' b Nat.lor_spec eq_refl Hj Hm') as [-> Hl]. rewrite !subm_split by lia. cbn [negb orb andb].
      rewrite orb_true_r. destruct (q || b), (subm j T), (subm T (Nat.lor j m')), (anf n F T), (anf n F1 T); reflexivity. }
    etransitivity; [|symmetry; exact (f_equal2 xorb E1 E2)].
    assert (E3 : anf n (fun k => F (Nat.lxor k (m' + 2 ^ n * Nat.b2n b))) j = if b then R F1 else R F).
    { rewrite (anf_ext n _ (fun k => (if b then F1 else F) (Nat.lxor k m'))).
      - rewrite IH by assumption. destruct b; reflexivity.
      - intros k Hk. replace k with (k + 2 ^ n * Nat.b2n false) at 1 by (cbn; lia).
        destruct (split_bits n k false Nat.lxor xorb m' b Nat.lxor_spec eq_refl Hk Hm') as [-> _]. cbn [xorb]. unfold F1. destruct b; cbn [Nat.b2n xorb]; f_equal; lia. }
    assert (E4 : anf n (fun k => F (Nat.lxor (k + 2 ^ n) (m' + 2 ^ n * Nat.b2n b))) j = if b then R F else R F1).
    { rewrite (anf_ext n _ (fun k => (if b then F else F1) (Nat.lxor k m'))).
      - rewrite IH by assumption. destruct b; reflexivity.
      - intros k Hk. replace (k + 2 ^ n) with (k + 2 ^ n * Nat.b2n true) by (cbn; lia).
        destruct (split_bits n k true Nat.lxor xorb m' b Nat.lxor_spec eq_refl Hk Hm') as [-> _]. unfold F1. destruct b; cbn [Nat.b2n xorb negb]; f_equal; lia. }
    rewrite E3, E4. destruct b, q, (R F), (R F1); reflexivity.
Qed.

(** the places that count, as sums *)
Lemma counts_row n s m : s < 2 ^ n ->
  filter (counts s m) (seq 0 (2 ^ n)) = map (Nat.add s) (filter (fun p => subm p m) (row n s)).
Proof.
  intro Hs.
  assert (D : forall p, submask p (comp n s) -> forall i, Nat.testbit (s + p) i = Nat.testbit s i || Nat.testbit p i).
  { intros p Hp i. assert (L : Nat.land s p = 0).
    { apply Nat.bits_inj. intro k. rewrite Nat.land_spec, Nat.bits_0. destruct (Nat.testbit p k) eqn:E; [|apply andb_false_r].
      apply Hp in E. rewrite comp_bits in E by exact Hs. destruct (Nat.testbit s k); [rewrite andb_false_r in E; discriminate | reflexivity]. }
    rewrite (Nat.add_nocarry_lxor _ _ L), Nat.lxor_spec. assert (Li := f_equal (fun z => Nat.testbit z i) L). cbn beta in Li.
    rewrite Nat.land_spec, Nat.bits_0 in Li. destruct (Nat.testbit s i), (Nat.testbit p i); try reflexivity. discriminate Li. }
  apply sorted_lt_ext.
  - apply filter_sorted, range_sorted_lt.
  - assert (S1 : StronglySorted lt (filter (fun p => subm p m) (row n s))) by apply filter_sorted, row_sorted.
    induction S1 as [|x l Hl IH Hf]; cbn; constructor; [exact IH|]. rewrite Forall_forall in *. intros y Hy. apply in_map_iff in Hy as (z & <- & Hz).
    specialize (Hf z Hz). lia.
  - intro T. rewrite filter_In, in_seq. unfold counts. rewrite andb_true_iff, !subm_spec, in_map_iff. split.
    + intros [HT [H1 H2]]. exists (Nat.ldiff T s).
      assert (B : forall i, Nat.testbit (Nat.ldiff T s) i = Nat.testbit T i && negb (Nat.testbit s i)) by (intro i; apply Nat.ldiff_spec).
      assert (P : submask (Nat.ldiff T s) (comp n s)).
      { intros i Hi. rewrite B in Hi. apply andb_true_iff in Hi as [Hi1 Hi2]. rewrite comp_bits, Hi2 by exact Hs.
        rewrite (proj2 (Nat.ltb_lt _ _)); [reflexivity|]. apply (testbit_lt_pow T); [lia | exact Hi1]. }
      split.
      * apply Nat.bits_inj. intro i. rewrite D, B by exact P. specialize (H1 i). destruct (Nat.testbit s i), (Nat.testbit T i); try reflexivity. discriminate (H1 eq_refl).
      * apply filter_In. split; [apply row_In; exact P|]. apply subm_spec. intros i Hi. rewrite B in Hi. apply andb_true_iff in Hi as [Hi1 Hi2].
        apply H2 in Hi1. rewrite Nat.lor_spec in Hi1. destruct (Nat.testbit s i); [discriminate Hi2 | exact Hi1].
    + intros (p & <- & Hp). apply filter_In in Hp as [Hp Hpm]. apply row_In in Hp. apply subm_spec in Hpm. split; [|split].
      * split; [lia|]. cbn. apply bits_lt_pow. intros i Hi. rewrite D by exact Hp.
        rewrite (testbit_high s i) by (eapply Nat.lt_le_trans; [exact Hs | apply Nat.pow_le_mono_r; lia]). cbn [orb].
        destruct (Nat.testbit p i) eqn:E; [|reflexivity]. apply Hp in E. rewrite comp_bits in E by exact Hs. rewrite (proj2 (Nat.ltb_ge _ _)) in E by exact Hi. discriminate.
      * intros i Hi. rewrite D, Hi by exact Hp. reflexivity.
      * intros i Hi. rewrite D in Hi by exact Hp. rewrite Nat.lor_spec. apply orb_true_iff in Hi as [->|Hi]; [reflexivity|]. rewrite (Hpm i Hi). apply orb_true_r.
Qed.

Lemma anf_green n F m s : m < 2 ^ n -> s < 2 ^ n ->
  anf n (fun k => F (Nat.lxor k m)) s = green (fun p => anf n F (s + p)) (row n s) m.
Proof.
  intros Hm Hs. rewrite anf_shift by assumption. rewrite <- xor_all_filter, counts_row, map_map by exact Hs. unfold green. apply xor_all_filter.
Qed.

(** * Permutation *)

(** the place with bit [pi a] of [k] at [a] *)
Definition pre (pi : nat -> nat) (n k : nat) : nat := b2n (map (fun a => Nat.testbit k (pi a)) (range n)).

Lemma pre_bits pi n k a : a < n -> Nat.testbit (pre pi n k) a = Nat.testbit k (pi a).
Proof. apply (place_bits (fun a => Nat.testbit k (pi a))). Qed.
Lemma pre_lt pi n k : pre pi n k < 2 ^ n.
Proof. apply (place_lt (fun a => Nat.testbit k (pi a))). Qed.

Lemma pre_eq pi n k T : T < 2 ^ n -> (forall a, a < n -> Nat.testbit T a = Nat.testbit k (pi a)) -> pre pi n k = T.
Proof.
  intros HT H. apply Nat.bits_inj. intro a. destruct (Nat.lt_ge_cases a n) as [Ha|Ha].
  - rewrite pre_bits, H by exact Ha. reflexivity.
  - rewrite !testbit_high; [reflexivity | |]; (eapply Nat.lt_le_trans; [|apply Nat.pow_le_mono_r; [lia | exact Ha]]); [exact HT | apply pre_lt].
Qed.

(** [pi] permutes the atoms below [n] *)
Definition permutes (pi : nat -> nat) (n : nat) : Prop := Permutation (map pi (range n)) (range n).

Lemma permutes_lt pi n a : permutes pi n -> a < n -> pi a < n.
Proof. intros H Ha. apply range_In. eapply Permutation_in; [exact H|]. apply in_map, range_In, Ha. Qed.
Lemma permutes_onto pi n b : permutes pi n -> b < n -> exists a, a < n /\ pi a = b.
Proof.
  intros H Hb. apply range_In in Hb. apply (Permutation_in _ (Permutation_sym H)) in Hb. apply in_map_iff in Hb as (a & E & Ha). apply range_In in Ha. eauto.
Qed.

Lemma pre_sub pi n k j : permutes pi n -> k < 2 ^ n -> subm (pre pi n k) (pre pi n j) = subm k j.
Proof.
  intros H Hk. apply bool_iff. rewrite !subm_spec. split; intros Hs i Hi.
  - assert (Hin : i < n) by exact (testbit_lt_pow k i n Hk Hi). destruct (permutes_onto pi n i H Hin) as (a & Ha & <-).
    rewrite <- (pre_bits pi n j a Ha). apply Hs. rewrite pre_bits by exact Ha. exact Hi.
  - assert (Hin : i < n) by exact (testbit_lt_pow _ i n (pre_lt pi n k) Hi). rewrite pre_bits in * by exact Hin. apply Hs. exact Hi.
Qed.

Lemma pre_inj pi n k j : permutes pi n -> k < 2 ^ n -> j < 2 ^ n -> pre pi n k = pre pi n j -> k = j.
Proof.
  intros H Hk Hj E. apply Nat.bits_inj. intro i. destruct (Nat.lt_ge_cases i n) as [Hi|Hi].
  - destruct (permutes_onto pi n i H Hi) as (a & Ha & <-). rewrite <- !(pre_bits pi n _ a Ha), E. reflexivity.
  - rewrite !testbit_high; [reflexivity | |]; (eapply Nat.lt_le_trans; [|apply Nat.pow_le_mono_r; [lia | exact Hi]]); assumption.
Qed.

Lemma pre_perm pi n : permutes pi n -> Permutation (map (pre pi n) (seq 0 (2 ^ n))) (seq 0 (2 ^ n)).
Proof.
  intro H. apply NoDup_Permutation_bis.
  - apply NoDup_map_inj; [apply seq_NoDup|]. intros i j Hi Hj. apply in_seq in Hi, Hj. apply pre_inj; [exact H | lia | lia].
  - rewrite map_length. lia.
  - intros x Hx. apply in_map_iff in Hx as (k & <- & _). apply in_seq. assert (L := pre_lt pi n k). lia.
Qed.

Lemma anf_perm pi n F s : permutes pi n -> anf n (fun k => F (pre pi n k)) s = anf n F (pre pi n s).
Proof.
  intro H. unfold anf.
  rewrite (xor_all_perm (map (fun k => subm k (pre pi n s) && F k) (seq 0 (2 ^ n))) (map (fun k => subm k (pre pi n s) && F k) (map (pre pi n) (seq 0 (2 ^ n))))).
  - rewrite map_map. apply xor_all_ext. intros k Hk. apply in_seq in Hk. rewrite pre_sub by (try exact H; lia). reflexivity.
  - apply Permutation_map, Permutation_sym, pre_perm, H.
Qed.

(** * Ranks *)

Lemma lic_map (g : nat -> nat) n : left_inversion_count (map g (range n)) = map (fun i => length (filter (fun k => Nat.ltb (g i) (g k)) (range i))) (range n).
Proof.
  unfold left_inversion_count. rewrite map_length, range_length. apply map_ext_in. intros i Hi. apply range_In in Hi. f_equal.
  apply filter_ext_in. intros k Hk. apply range_In in Hk. rewrite !nth_map_range by lia. reflexivity.
Qed.

Lemma from_fact_zeros i ds n : (forall d, In d ds -> d = 0) -> from_factoradic_at i (n ++ ds) = from_factoradic_at i n.
Proof.
  intro H. revert i. induction n as [|d n IH]; intro i; cbn [app from_factoradic_at].
  - revert i. induction ds as [|d ds IH]; intro i; [reflexivity|]. cbn [from_factoradic_at]. rewrite (H d) by (left; reflexivity).
    rewrite IH by (intros x Hx; apply H; right; exact Hx). reflexivity.
  - rewrite IH. reflexivity.
Qed.

Lemma rank_long p n : wf p -> perilen p = None -> plength p <= n ->
  left_rank p = Ok (from_factoradic (left_inversion_count (map (pget p) (range n)))).
Proof.
  intros W P L. rewrite left_rank_eq by assumption. f_equal. rewrite !lic_map. unfold from_factoradic, range.
  destruct (wf_finite_seq p W P) as (_ & HP & Hfix & _).
  replace n with (plength p + (n - plength p)) by lia. rewrite seq_app, map_app. symmetry. apply from_fact_zeros.
  intros d Hd. apply in_map_iff in Hd as (i & <- & Hi). apply in_seq in Hi.
  rewrite (filter_ext_in _ (fun _ => false)).
  - clear. generalize (seq 0 i). induction l; [reflexivity | exact IHl].
  - intros k Hk. apply in_seq in Hk. apply Nat.ltb_ge. rewrite (Hfix i) by lia.
    destruct (Nat.lt_ge_cases k (plength p)) as [Hk'|Hk']; [|rewrite Hfix by exact Hk'; lia].
    assert (Hin : In (pget p k) (range (plength p))) by (eapply Permutation_in; [exact HP | apply in_map, range_In; exact Hk']).
    apply range_In in Hin. lia.
Qed.

Lemma permutes_long p n : wf p -> perilen p = None -> plength p <= n -> permutes (pget p) n.
Proof.
  intros W P L. destruct (wf_finite_seq p W P) as (_ & HP & Hfix & _). unfold permutes, range in *.
  replace n with (plength p + (n - plength p)) by lia. rewrite seq_app, map_app. apply Permutation_app; [exact HP|].
  rewrite (map_ext_in _ (fun x => x)); [rewrite map_id; reflexivity|]. intros x Hx. apply in_seq in Hx. apply Hfix. lia.
Qed.

Lemma rank_perm r n : r < fact n -> exists p, int_to_perm r = Ok p /\ permutes (pget p) n /\
  from_factoradic (left_inversion_count (map (pget p) (range n))) = r.
Proof.
  intro H. destruct (rank_roundtrip r) as (p & E & Hp & Hn & Hr). exists p. split; [exact E|].
  destruct (int_to_perm_spec r) as (p2 & E2 & W & _). assert (p2 = p) by congruence. subst p2. assert (L := proj2 (int_to_perm_length n r p E) H).
  split; [apply permutes_long; assumption|]. rewrite (rank_long p n W Hn L) in Hr. injection Hr as Hr. exact Hr.
Qed.

Lemma rank_list s n : Permutation s (range n) ->
  exists p, int_to_perm (from_factoradic (left_inversion_count s)) = Ok p /\ (forall x, x < n -> pget p x = nth x s 0) /\
    from_factoradic (left_inversion_count s) < fact n.
Proof.
  intro H. assert (Hl : length s = n) by (rewrite (Permutation_length H); apply range_length).
  assert (Hs := H). rewrite <- Hl in Hs. destruct (Perm_seq_spec s Hs) as (p & Ep & Wp & Pp & Gp). rewrite Hl in Gp.
  assert (Hfix : forall x, n <= x -> pget p x = x). { intros x Hx. rewrite Gp, (proj2 (Nat.ltb_ge _ _) Hx). reflexivity. }
  assert (L : plength p <= n).
  { destruct (Nat.le_gt_cases (plength p) n) as [|G]; [assumption|]. exfalso. destruct (wf_finite_seq p Wp Pp) as (_ & _ & _ & Hz).
    apply Hz; [lia|]. apply Hfix. lia. }
  assert (Es : map (pget p) (range n) = s).
  { apply (nth_ext _ _ 0 0); [rewrite map_length, range_length; symmetry; exact Hl|]. intros i Hi. rewrite map_length, range_length in Hi.
    rewrite nth_map_range by exact Hi. rewrite Gp, (proj2 (Nat.ltb_lt _ _) Hi). reflexivity. }
  destruct (int_to_perm_left_rank p Wp Pp) as (r & p' & Er & Ep' & Eq). rewrite (rank_long p n Wp Pp L), Es in Er. injection Er as Er. rewrite Er.
  exists p'. split; [exact Ep'|]. destruct (int_to_perm_spec r) as (p2 & E2 & W2 & P2 & _). assert (p2 = p') by congruence. subst p2.
  assert (Hg : forall x, pget p' x = pget p x) by (apply (perm_eqb_spec p' p W2 Wp); exact Eq).
  split.
  - intros x Hx. rewrite Hg, Gp, (proj2 (Nat.ltb_lt _ _) Hx). reflexivity.
  - apply (int_to_perm_length n r p' Ep'). destruct (Nat.le_gt_cases (plength p') n) as [|G]; [assumption|]. exfalso.
    destruct (wf_finite_seq p' W2 P2) as (_ & _ & _ & Hz). apply Hz; [lia|]. rewrite Hg. apply Hfix. lia.
Qed.

(** * The functions of a class *)

Lemma pair_apply f m r : wellmade f -> exists s p g, SigPerm_pair m r = Ok s /\ int_to_perm r = Ok p /\ apply_sigperm f s = Ok g /\ reduced g /\
  forall e, sem g e = sem f (fun a => xorb (e (pget p a)) (Nat.testbit m (pget p a))).
Proof.
  intro R. destruct (pair_spec m r) as (s & Es & Ws & _ & Hp). assert (F := Es). rewrite pair_form in F.
  destruct (Binv_int_min m) as (v & Ev & _). rewrite Ev in F. cbn [bind] in F. destruct (int_to_perm r) as [p|] eqn:Ep; [|discriminate F].
  cbn [bind] in F. injection F as F. assert (Esp : sg_perm s = p) by (rewrite <- F; reflexivity).
  unfold sg_pair in Hp. destruct (sg_perm_index s) as [r'|]; [|discriminate Hp]. cbn [bind] in Hp. injection Hp as Hv _.
  destruct (apply_sigperm_spec f s R Ws) as (g & Eg & Rg & Sg). exists s, p, g.
  split; [exact Es|]. split; [reflexivity|]. split; [exact Eg|]. split; [exact Rg|]. intro e. rewrite Sg. apply sem_ext. intros a _.
  unfold litval. rewrite <- valneg_index_spec, Hv, sf_atom, Esp. reflexivity.
Qed.

(** the value of the pair [(m, r)] in the column [s]: the coefficient of the monomial [s] *)
Definition col (f : boolf) (n : nat) (pi : nat -> nat) (m s : nat) : bool :=
  green (fun p => anf n (tab f) (pre pi n (s + p))) (row n s) m.

Lemma class_object f n m r : wellmade f -> adicity f <= n -> m < 2 ^ n -> r < fact n ->
  exists s p g, SigPerm_pair m r = Ok s /\ int_to_perm r = Ok p /\ permutes (pget p) n /\ apply_sigperm f s = Ok g /\ reduced g /\ adicity g <= n /\
    (forall e, sem g e = sem f (fun a => xorb (e (pget p a)) (Nat.testbit m (pget p a)))) /\
    (forall k, k < 2 ^ n -> anf n (tab g) k = col f n (pget p) m k).
Proof.
  intros R A Hm Hr. destruct (pair_apply f m r R) as (s & p & g & Es & Ep & Eg & Rg & Sg).
  destruct (rank_perm r n Hr) as (p' & Ep' & Pp & _). assert (p' = p) by congruence. subst p'.
  exists s, p, g. do 5 (split; [assumption|]). split; [|split; [exact Sg|]].
  - apply adicity_le; [exact Rg|]. intros e e' H. rewrite !Sg. apply sem_ext. intros a Ha. apply adicity_bound in Ha.
    rewrite H by (apply permutes_lt; [exact Pp | lia]). reflexivity.
  - intros k Hk. unfold col.
    assert (E1 : anf n (tab g) k = anf n (fun j => (fun i => tab f (pre (pget p) n i)) (Nat.lxor j m)) k).
    { apply anf_ext. intros j Hj. unfold tab. rewrite Sg. apply sem_ext. intros a Ha. apply adicity_bound in Ha.
      rewrite pre_bits by lia. rewrite Nat.lxor_spec. reflexivity. }
    rewrite E1, (anf_green n (fun i => tab f (pre (pget p) n i)) m k Hm Hk). unfold green. apply xor_all_ext. intros q Hq. f_equal.
    apply anf_perm. exact Pp.
Qed.

(** reduced objects below [n] are the same iff their coefficients are *)
Lemma coefs_equal f g n : reduced f -> reduced g -> adicity f <= n -> adicity g <= n ->
  (f = g <-> forall k, k < 2 ^ n -> anf n (tab f) k = anf n (tab g) k).
Proof.
  intros Rf Rg Af Ag. split; [intros ->; reflexivity|]. intro H. apply reduced_unique; [exact Rf | exact Rg|]. intro e.
  destruct (boolf_zhe_spec f (proj1 Rf)) as (z & _ & _ & Zf & Sf). destruct (boolf_zhe_spec g (proj1 Rg)) as (z' & _ & _ & Zg & Sg).
  rewrite <- Sf, <- Sg. f_equal. rewrite (Zf n Af), (Zg n Ag). f_equal. apply map_ext_in. intros k Hk. apply range_In in Hk. apply H, Hk.
Qed.

Lemma tab_lt_b2n n F G : (exists s, s < 2 ^ n /\ F s = true /\ G s = false /\ forall t, s < t -> t < 2 ^ n -> F t = G t) ->
  b2n (map G (range (2 ^ n))) < b2n (map F (range (2 ^ n))).
Proof.
  intros (s & Hs & HF & HG & Hhi). set (N := 2 ^ n) in *. clearbody N. unfold range.
  assert (EN : N = s + S (N - S s)) by lia. rewrite EN, seq_app, !map_app, !b2n_app. cbn [seq map Nat.add]. rewrite HF, HG.
  rewrite (map_ext_in G F (seq (S s) (N - S s))) by (intros t Ht; apply in_seq in Ht; symmetry; apply Hhi; lia).
  rewrite !map_length, !seq_length. cbn [b2n Nat.b2n]. assert (L := b2n_lt (map G (seq 0 s))). rewrite map_length, seq_length in L.
  set (X := b2n (map F (seq (S s) (N - S s)))). set (Y := b2n (map F (seq 0 s))). set (Z0 := b2n (map G (seq 0 s))) in *. clearbody X Y Z0. nia.
Qed.
