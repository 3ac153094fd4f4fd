(** Proof_MinRepTwin: the partitions and columns used by the minimal representatives
    (atom_partition, sierpinski_partition, sierpinski_twin). *)

From Coq Require Import List Arith ZArith Bool Lia Permutation Sorted Relations.
From Verif Require Import Model_Base Lib Model_Perm Model_Binary Model_SetPart Model_Boolf Model_Twin Model_Splits Model_MinRep
  Spec_Bits Spec_SetPart Spec_Boolf Spec_Twin Proof_Binary Proof_Perm Proof_SetPart Proof_SetPartLattice
  Proof_Helpers Proof_Linear Proof_WalshLinear Proof_Boolf Proof_Deflate Proof_Twin Proof_Splits.
Import ListNotations.
Open Scope nat_scope.

(** * Bits *)

(** the complement of [N] below [2 ^ n] *)
Definition comp (n N : nat) : nat := 2 ^ n - 1 - N.

Lemma comp_bits n N i : N < 2 ^ n -> Nat.testbit (comp n N) i = Nat.ltb i n && negb (Nat.testbit N i).
Proof.
  intro H. unfold comp. replace (2 ^ n - 1) with (Nat.ones n) by (rewrite Nat.ones_equiv; lia).
  rewrite Nat.sub_nocarry_ldiff.
  - rewrite Nat.ldiff_spec. destruct (Nat.ltb_spec i n) as [Hi|Hi]; [rewrite Nat.ones_spec_low by exact Hi | rewrite Nat.ones_spec_high by exact Hi]; reflexivity.
  - destruct (Nat.eq_dec N 0) as [->|HN]; [apply Nat.ldiff_0_l|]. apply Nat.ldiff_ones_r_low. apply Nat.log2_lt_pow2; lia.
Qed.

Lemma comp_lt n N : comp n N < 2 ^ n.
Proof. unfold comp. assert (H := pow2_pos n). lia. Qed.

Lemma comp_comp n N : N < 2 ^ n -> comp n (comp n N) = N.
Proof. unfold comp. lia. Qed.

Lemma submask_le p q : submask p q -> p <= q.
Proof.
  intro H. destruct (Nat.le_gt_cases p q) as [|G]; [assumption|exfalso].
  assert (E : q = p + Nat.ldiff q p).
  { assert (L : Nat.land (Nat.ldiff q p) p = 0).
    { apply Nat.bits_inj. intro i. rewrite Nat.land_spec, Nat.ldiff_spec, Nat.bits_0. destruct (Nat.testbit q i), (Nat.testbit p i); reflexivity. }
    rewrite (Nat.add_comm p), (Nat.add_nocarry_lxor _ _ L).
    apply Nat.bits_inj. intro i. rewrite Nat.lxor_spec, Nat.ldiff_spec. specialize (H i).
    destruct (Nat.testbit p i), (Nat.testbit q i); try reflexivity. discriminate (H eq_refl). }
  lia.
Qed.

Lemma land_lt a b n : b < 2 ^ n -> Nat.land a b < 2 ^ n.
Proof. intro H. apply bits_lt_pow. intros i Hi. rewrite Nat.land_spec, (testbit_high b i), andb_false_r; [reflexivity|]. eapply Nat.lt_le_trans; [exact H|]. apply Nat.pow_le_mono_r; lia. Qed.

Lemma land_sub a b : submask (Nat.land a b) b.
Proof. intro i. rewrite Nat.land_spec. intro H. apply andb_true_iff in H. tauto. Qed.

Lemma land_sub_eq p q : submask p q <-> Nat.land p q = p.
Proof.
  split.
  - intro H. apply Nat.bits_inj. intro i. rewrite Nat.land_spec. specialize (H i). destruct (Nat.testbit p i); [rewrite H by reflexivity; reflexivity | reflexivity].
  - intros <-. apply land_sub.
Qed.

(** the submasks of the complement of [N], in increasing order *)
Definition row (n N : nat) : list nat := filter (fun p => subm p (comp n N)) (range (2 ^ n)).

Lemma row_In n N p : In p (row n N) <-> submask p (comp n N).
Proof.
  unfold row. rewrite filter_In, range_In, subm_spec. split; [tauto|]. intro H. split; [|exact H].
  apply submask_le in H. assert (L := comp_lt n N). lia.
Qed.

Lemma row_sorted n N : StronglySorted lt (row n N).
Proof. apply filter_sorted, range_sorted_lt. Qed.

Lemma row_lt n N p : In p (row n N) -> p < 2 ^ n.
Proof. unfold row. rewrite filter_In, range_In. tauto. Qed.

Lemma sierpinski_row_row (on : list nat -> list nat) n N : (forall l, StronglySorted lt l -> on l = l) ->
  int_to_sierpinski_row on (comp n N) = row n N.
Proof.
  intro Ho. assert (E : on (binv_exposet (bin_digits (comp n N))) = binv_exposet (bin_digits (comp n N))) by (apply Ho, binv_exposet_sorted).
  assert (P : Permutation (on (binv_exposet (bin_digits (comp n N)))) (binv_exposet (bin_digits (comp n N)))) by (rewrite E; reflexivity).
  apply sorted_lt_ext; [| apply row_sorted |].
  - apply sierpinski_row_sorted; [exact P|]. rewrite E. apply binv_exposet_sorted.
  - intro x. rewrite (proj2 (sierpinski_row_spec on _ P)), row_In. reflexivity.
Qed.

(** the row as a deposit of the bits of the index *)
Lemma row_sierpinski n N : row n N = sierpinski_of (int_to_exposet (comp n N)).
Proof.
  rewrite <- (sierpinski_row_row (fun l => l) n N) by reflexivity. unfold int_to_sierpinski_row. rewrite exposet_bin_digits. reflexivity.
Qed.

Lemma count_ones_comp n N : N < 2 ^ n -> count_ones N + length (int_to_exposet (comp n N)) = n.
Proof.
  intro H. unfold count_ones. rewrite !ones_exposet || idtac.
  assert (A : forall z, z < 2 ^ n -> length (ones z) = length (filter (Nat.testbit z) (seq 0 n))) by (intros z Hz; rewrite (ones_bound n z Hz); reflexivity).
  rewrite (A (comp n N) (comp_lt n N)). fold (ones N). rewrite (A N H).
  assert (G : forall l, (forall i, In i l -> i < n) -> length (filter (Nat.testbit N) l) + length (filter (Nat.testbit (comp n N)) l) = length l).
  { induction l as [|x l IH]; intro Hl; [reflexivity|]. cbn [filter length]. assert (Hx := Hl x (or_introl eq_refl)).
    specialize (IH (fun i Hi => Hl i (or_intror Hi))). rewrite (comp_bits n N x H), (proj2 (Nat.ltb_lt x n) Hx). cbn [andb].
    destruct (Nat.testbit N x); cbn [negb length]; lia. }
  rewrite G by (intros i Hi; apply in_seq in Hi; lia). apply seq_length.
Qed.

(** * The partitions *)

(** two places below [2 ^ n] with the same bits, except those in [l] *)
Definition agree_off (l : list nat) (n : nat) (x y : Z) : Prop :=
  exists i j, x = Z.of_nat i /\ y = Z.of_nat j /\ i < 2 ^ n /\ j < 2 ^ n /\
    forall b, ~ In b l -> Nat.testbit i b = Nat.testbit j b.

Lemma agree_sym l n x y : agree_off l n x y -> agree_off l n y x.
Proof. intros (i & j & Hx & Hy & Hi & Hj & H). exists j, i. repeat split; try assumption. intros b Hb. symmetry. apply H, Hb. Qed.

Lemma agree_trans l n x y z : agree_off l n x y -> agree_off l n y z -> agree_off l n x z.
Proof.
  intros (i & j & Hx & Hy & Hi & Hj & H) (j' & k & Hy' & Hz & Hj' & Hk & H'). assert (j = j') by lia. subst j'.
  exists i, k. repeat split; try assumption. intros b Hb. rewrite H, H' by exact Hb. reflexivity.
Qed.

Lemma agree_mono l l' n x y : (forall b, In b l -> In b l') -> agree_off l n x y -> agree_off l' n x y.
Proof. intros Hl (i & j & Hx & Hy & Hi & Hj & H). exists i, j. repeat split; try assumption. intros b Hb. apply H. intro Hc. apply Hb, Hl, Hc. Qed.

Lemma testbit_plus_pow i a b : Nat.testbit i a = false -> Nat.testbit (i + 2 ^ a) b = if Nat.eqb b a then true else Nat.testbit i b.
Proof.
  intro H. assert (L : Nat.land i (2 ^ a) = 0).
  { apply Nat.bits_inj. intro k. rewrite Nat.land_spec, Nat.pow2_bits_eqb, Nat.bits_0. destruct (Nat.eqb_spec a k) as [<-|]; [rewrite H; reflexivity | apply andb_false_r]. }
  rewrite (Nat.add_nocarry_lxor _ _ L), Nat.lxor_spec, Nat.pow2_bits_eqb. rewrite (Nat.eqb_sym a b).
  destruct (Nat.eqb_spec b a) as [->|]; [rewrite H; reflexivity | apply xorb_false_r].
Qed.

Lemma plus_pow_lt i a n : a < n -> i < 2 ^ n -> Nat.testbit i a = false -> i + 2 ^ a < 2 ^ n.
Proof.
  intros Ha Hi H. apply bits_lt_pow. intros b Hb. rewrite testbit_plus_pow by exact H. destruct (Nat.eqb_spec b a); [lia|].
  apply testbit_high. eapply Nat.lt_le_trans; [exact Hi | apply Nat.pow_le_mono_r; lia].
Qed.

Lemma flat_enum {B} (P : nat -> bool) (F : nat -> B) : forall m k0, (forall i, i < length m -> nth i m false = P (k0 + i)) ->
  flat_map (fun kv : nat * bool => if snd kv then [F (fst kv)] else []) (combine (seq k0 (length m)) m) = map F (filter P (seq k0 (length m))).
Proof.
  induction m as [|v m IH]; intros k0 H; [reflexivity|]. cbn [length seq combine flat_map filter fst snd].
  assert (Ev := H 0 ltac:(cbn; lia)). cbn [nth] in Ev. rewrite Nat.add_0_r in Ev. rewrite <- Ev.
  rewrite (IH (S k0)). 2:{ intros i Hi. replace (S k0 + i) with (k0 + S i) by lia. apply (H (S i)). cbn; lia. }
  destruct v; reflexivity.
Qed.

Lemma atom_partition_spec a n : a < n -> exists s, atom_partition a n = Ok s /\ sp_wf s /\
  forall x y, x <> y -> together (sp_blocks s) x y <-> agree_off [a] n x y.
Proof.
  intro Ha. unfold atom_partition.
  destruct (atompattern_spec (Z.of_nat a) n true) as (gen & Eg & Lg & Hg); [rewrite atom_of_nat; exact Ha|].
  rewrite Eg. cbn [bind]. rewrite atom_of_nat in Hg.
  set (F := fun k : nat => [Z.of_nat k; Z.of_nat (k + 2 ^ a)]).
  assert (EB : flat_map (fun kv : nat * bool => if snd kv then [[Z.of_nat (fst kv); Z.of_nat (fst kv + 2 ^ a)]] else []) (enumerate gen)
             = map F (filter (fun k => negb (Nat.testbit k a)) (range (2 ^ n)))).
  { unfold enumerate. unfold range. rewrite <- Lg. apply (flat_enum (fun k => negb (Nat.testbit k a)) F gen 0).
    intros i Hi. rewrite Lg in Hi. rewrite Hg by exact Hi. rewrite (proj2 (Z.ltb_ge _ _)) by lia. cbn [Nat.add]. destruct (Nat.testbit i a); reflexivity. }
  rewrite EB. set (bs := map F _).
  assert (Hn : no_overlap bs).
  { unfold no_overlap. assert (Ef : filter (fun b => Nat.leb 2 (length b)) bs = bs).
    { unfold bs. clear. induction (filter (fun k => negb (Nat.testbit k a)) (range (2 ^ n))) as [|x l IH]; [reflexivity|]. cbn [map filter]. rewrite IH. reflexivity. }
    rewrite Ef. unfold bs.
    assert (G : forall l, NoDup l -> (forall k, In k l -> Nat.testbit k a = false) -> NoDup (concat (map F l))).
    { induction l as [|k l IH]; intros Hl Hb; [constructor|]. inversion Hl as [|? ? Hk Hl']; subst.
      assert (Hkb := Hb k (or_introl eq_refl)). assert (Hlb : forall k', In k' l -> Nat.testbit k' a = false) by (intros; apply Hb; right; assumption).
      assert (Hp := pow2_pos a).
      assert (NI : forall z, In z (concat (map F l)) -> exists k', In k' l /\ (z = Z.of_nat k' \/ z = Z.of_nat (k' + 2 ^ a))).
      { intros z Hz. apply in_concat in Hz as (b & Hb' & Hz). apply in_map_iff in Hb' as (k' & <- & Hk'). exists k'. split; [exact Hk'|]. destruct Hz as [<-|[<-|[]]]; auto. }
      cbn [map concat F app]. constructor; [|constructor; [|apply IH; assumption]].
      - intros [E|Hc]; [lia|]. apply NI in Hc as (k' & Hk' & [E|E]).
        + assert (k = k') by lia. subst k'. contradiction.
        + assert (E' : k = k' + 2 ^ a) by lia. rewrite E', testbit_plus_pow, Nat.eqb_refl in Hkb by (apply Hlb, Hk'). discriminate.
      - intro Hc. apply NI in Hc as (k' & Hk' & [E|E]).
        + assert (E' : k' = k + 2 ^ a) by lia. assert (T := Hlb k' Hk'). rewrite E', testbit_plus_pow, Nat.eqb_refl in T by exact Hkb. discriminate.
        + assert (k = k') by lia. subst k'. contradiction. }
    apply G.
    - apply NoDup_filter, seq_NoDup.
    - intros k Hk. apply filter_In in Hk as [_ Hk]. apply negb_true_iff in Hk. exact Hk. }
  destruct (sp_init_spec no_caches (Some bs) DomN None Hn) as (s & E & W & _ & _ & _ & T); [split; constructor|].
  exists s. split; [exact E|]. split; [exact W|]. intros x y Hxy. rewrite (T x y Hxy). clear T E W Hn EB. unfold bs. split.
  - intros (b & Hb & Hx & Hy). apply in_map_iff in Hb as (k & <- & Hk). apply filter_In in Hk as [Hk Hb]. apply range_In in Hk. apply negb_true_iff in Hb.
    assert (G : agree_off [a] n (Z.of_nat k) (Z.of_nat (k + 2 ^ a))).
    { exists k, (k + 2 ^ a). repeat split; [exact Hk | apply plus_pow_lt; assumption|]. intros b Hba. rewrite testbit_plus_pow by exact Hb.
      destruct (Nat.eqb_spec b a) as [->|]; [|reflexivity]. exfalso. apply Hba. left; reflexivity. }
    destruct Hx as [<-|[<-|[]]], Hy as [<-|[<-|[]]]; try (exfalso; apply Hxy; reflexivity); [exact G | apply agree_sym; exact G].
  - assert (G : forall i j, i < 2 ^ n -> j < 2 ^ n -> i <> j -> (forall b, ~ In b [a] -> Nat.testbit i b = Nat.testbit j b) -> Nat.testbit i a = false ->
        j = i + 2 ^ a).
    { intros i j Hi Hj Hij H Hia. apply Nat.bits_inj. intro b. rewrite testbit_plus_pow by exact Hia. destruct (Nat.eqb_spec b a) as [->|Hb].
      - destruct (Nat.testbit j a) eqn:Hja; [reflexivity|]. exfalso. apply Hij. apply Nat.bits_inj. intro b.
        destruct (Nat.eq_dec b a) as [->|Hb]; [congruence|]. apply H. intros [E|[]]. congruence.
      - symmetry. apply H. intros [E|[]]. congruence. }
    intros (i & j & -> & -> & Hi & Hj & H). assert (Hij : i <> j) by congruence.
    destruct (Nat.testbit i a) eqn:Hia.
    + destruct (Nat.testbit j a) eqn:Hja.
      { exfalso. apply Hij. apply Nat.bits_inj. intro b. destruct (Nat.eq_dec b a) as [->|Hb]; [congruence|]. apply H. intros [E|[]]. congruence. }
      assert (E : i = j + 2 ^ a) by (apply G; try assumption; [congruence | intros b Hb; symmetry; apply H, Hb]).
      exists (F j). split; [apply in_map, filter_In; split; [apply range_In; exact Hj | rewrite Hja; reflexivity]|]. rewrite E. unfold F. split; cbn; auto.
    + assert (E : j = i + 2 ^ a) by (apply G; assumption).
      exists (F i). split; [apply in_map, filter_In; split; [apply range_In; exact Hi | rewrite Hia; reflexivity]|]. rewrite E. unfold F. split; cbn; auto.
Qed.

(** bit [a] of [i] set to [q] *)
Lemma change_bit i a n (q : bool) : a < n -> i < 2 ^ n -> exists k, k < 2 ^ n /\ forall b, Nat.testbit k b = if Nat.eqb b a then q else Nat.testbit i b.
Proof.
  intros Ha Hi. exists (if q then Nat.setbit i a else Nat.clearbit i a).
  assert (G : forall b, Nat.testbit (if q then Nat.setbit i a else Nat.clearbit i a) b = if Nat.eqb b a then q else Nat.testbit i b).
  { intro b. destruct q.
    - rewrite Nat.setbit_eqb, (Nat.eqb_sym a b). destruct (Nat.eqb b a); reflexivity.
    - rewrite Nat.clearbit_eqb, (Nat.eqb_sym a b). destruct (Nat.eqb b a); [apply andb_false_r | apply andb_true_r]. }
  split; [|exact G]. apply bits_lt_pow. intros b Hb. rewrite G. destruct (Nat.eqb_spec b a); [lia|]. apply testbit_high.
  eapply Nat.lt_le_trans; [exact Hi | apply Nat.pow_le_mono_r; lia].
Qed.

Lemma partition_loop oz n : (forall l, Permutation (oz l) l) -> forall l done s, (forall a, In a l -> a < n) -> sp_wf s ->
  (forall x y, x <> y -> together (sp_blocks s) x y <-> agree_off done n x y) ->
  exists t, foldM (fun result atomval => let* p := atom_partition atomval n in join oz result p) l s = Ok t /\ sp_wf t /\
    forall x y, x <> y -> together (sp_blocks t) x y <-> agree_off (done ++ l) n x y.
Proof.
  intro Ho. induction l as [|a l IH]; intros done s Hl W T.
  - exists s. split; [reflexivity|]. split; [exact W|]. rewrite app_nil_r. exact T.
  - cbn [foldM]. assert (Ha := Hl a (or_introl eq_refl)). destruct (atom_partition_spec a n Ha) as (p & Ep & Wp & Tp). rewrite Ep. cbn [bind].
    destruct (join_spec s p W Wp oz Ho) as (j & Ej & Wj & _ & _ & Tj). rewrite Ej. cbn [bind].
    destruct (IH (done ++ [a]) j (fun b Hb => Hl b (or_intror Hb)) Wj) as (t & Et & Wt & Tt).
    + intros x y Hxy. rewrite <- app_nil_r with (l := done ++ [a]), app_nil_r.
      assert (S1 : together (sp_blocks j) x y <-> same (sp_blocks j) x y) by (unfold same; split; [auto | intros [E|E]; [contradiction | exact E]]).
      rewrite S1, Tj. split.
      * assert (G : forall u v, generated (fun u v => together (sp_blocks s) u v \/ together (sp_blocks p) u v) u v -> u = v \/ agree_off (done ++ [a]) n u v).
        { intros u v H. induction H as [u v H|u|u v H IH'|u v w H1 IH1 H2 IH2].
          - destruct (Z.eq_dec u v) as [E|Huv]; [left; exact E|]. right. destruct H as [H|H].
            + apply T in H; [|exact Huv]. eapply agree_mono; [|exact H]. intros b Hb. apply in_app_iff. auto.
            + apply Tp in H; [|exact Huv]. eapply agree_mono; [|exact H]. intros b Hb. apply in_app_iff. auto.
          - left; reflexivity.
          - destruct IH' as [E|E]; [left; congruence | right; apply agree_sym; exact E].
          - destruct IH1 as [->|IH1]; [exact IH2|]. destruct IH2 as [<-|IH2]; [right; exact IH1 | right; eapply agree_trans; eassumption]. }
        intro H. apply G in H as [H|H]; [contradiction | exact H].
      * intros (i & k & -> & -> & Hi & Hk & H).
        destruct (change_bit i a n (Nat.testbit k a) Ha Hi) as (m & Hm & Bm).
        apply rst_trans with (Z.of_nat m).
        -- destruct (Nat.eq_dec i m) as [->|Him]; [apply rst_refl|]. apply rst_step. right. apply Tp; [lia|]. exists i, m. repeat split; try assumption.
           intros b Hb. rewrite Bm. destruct (Nat.eqb_spec b a) as [->|]; [|reflexivity]. exfalso. apply Hb. left; reflexivity.
        -- destruct (Nat.eq_dec m k) as [->|Hmk]; [apply rst_refl|]. apply rst_step. left. apply T; [lia|]. exists m, k. repeat split; try assumption.
           intros b Hb. rewrite Bm. destruct (Nat.eqb_spec b a) as [->|Hba]; [reflexivity|]. apply H. rewrite in_app_iff. intros [Hc|[Hc|[]]]; [contradiction | congruence].
    + exists t. split; [exact Et|]. split; [exact Wt|]. rewrite <- app_assoc in Tt. exact Tt.
Qed.

Lemma sierpinski_partition_rel oz N n : (forall l, Permutation (oz l) l) -> N < 2 ^ n ->
  exists t, sierpinski_partition oz N n = Ok t /\ sp_wf t /\
    forall x y, x <> y -> together (sp_blocks t) x y <-> agree_off (int_to_exposet N) n x y.
Proof.
  intros Ho HN. unfold sierpinski_partition.
  destruct (sp_init_spec no_caches None DomN None) as (s & E & W & _ & _ & _ & T); [constructor | split; constructor|].
  change (SetPart None DomN = Ok s) in E. rewrite E. cbn [bind]. apply (partition_loop oz n Ho (int_to_exposet N) [] s).
  - intros a Ha. apply int_to_exposet_spec in Ha. eapply testbit_lt_pow; eassumption.
  - exact W.
  - intros x y Hxy. rewrite (T x y Hxy). split.
    + intros (b & [] & _).
    + intros (i & j & -> & -> & _ & _ & H). exfalso. apply Hxy. f_equal. apply Nat.bits_inj. intro b. apply H. intros [].
Qed.

(** the block of the places whose bits outside of [N] are those of [r] *)
Definition block (n N r : nat) : list nat := filter (fun x => Nat.eqb (Nat.land x (comp n N)) r) (range (2 ^ n)).

Lemma block_In n N r x : In x (block n N r) <-> x < 2 ^ n /\ Nat.land x (comp n N) = r.
Proof. unfold block. rewrite filter_In, range_In, Nat.eqb_eq. reflexivity. Qed.

Lemma block_hd n N r : In r (row n N) -> hd 0%Z (map Z.of_nat (block n N r)) = Z.of_nat r /\ In r (block n N r).
Proof.
  intro Hr. assert (In r (block n N r)).
  { apply block_In. split; [apply (row_lt n N); exact Hr|]. apply land_sub_eq. apply row_In. exact Hr. }
  split; [|assumption]. assert (S1 : StronglySorted lt (block n N r)) by apply filter_sorted, range_sorted_lt.
  assert (M : forall x, In x (block n N r) -> r <= x). { intros x Hx. apply block_In in Hx as [_ <-]. apply submask_le. intros i Hi. rewrite Nat.land_spec in Hi. apply andb_true_iff in Hi. tauto. }
  destruct (block n N r) as [|x l]; [destruct H|]. cbn [map hd]. f_equal. inversion S1 as [|? ? _ Hf]; subst. rewrite Forall_forall in Hf.
  destruct H as [->|H]; [reflexivity|]. specialize (Hf r H). specialize (M x (or_introl eq_refl)). lia.
Qed.

Lemma sorted_map_Z l : StronglySorted lt l -> StronglySorted Z.lt (map Z.of_nat l).
Proof.
  induction 1 as [|x l Hs IH Hf]; cbn; constructor; [exact IH|]. rewrite Forall_forall in *. intros y Hy. apply in_map_iff in Hy as (z & <- & Hz). specialize (Hf z Hz). lia.
Qed.

Lemma block_canonical n N : 0 < N -> N < 2 ^ n -> canonical (map (fun r => map Z.of_nat (block n N r)) (row n N)).
Proof.
  intros H0 HN. split; [|split].
  - intros b Hb. apply in_map_iff in Hb as (r & <- & Hr). split.
    + rewrite map_length. set (a := Nat.log2 N). assert (Ha : Nat.testbit N a = true) by (apply Nat.bit_log2; lia).
      assert (Han : a < n) by (eapply testbit_lt_pow; eassumption). assert (Hrc := proj1 (row_In n N r) Hr).
      assert (Hra : Nat.testbit r a = false).
      { destruct (Nat.testbit r a) eqn:E; [|reflexivity]. apply Hrc in E. rewrite comp_bits, Ha, andb_false_r in E by exact HN. discriminate. }
      assert (I1 := proj2 (block_hd n N r Hr)).
      assert (I2 : In (r + 2 ^ a) (block n N r)).
      { apply block_In. split; [apply plus_pow_lt; try assumption; apply (row_lt n N); exact Hr|]. apply Nat.bits_inj. intro b.
        rewrite Nat.land_spec, testbit_plus_pow, comp_bits by assumption. destruct (Nat.eqb_spec b a) as [->|Hb].
        - rewrite Ha, Hra, andb_false_r. reflexivity.
        - destruct (Nat.testbit r b) eqn:E; [|reflexivity]. apply Hrc in E. rewrite comp_bits in E by exact HN. rewrite E. reflexivity. }
      assert (Hp := pow2_pos a). destruct (block n N r) as [|x [|y l]]; cbn in *; [tauto | | lia]. destruct I1 as [->|[]], I2 as [E|[]]. lia.
    + apply sorted_map_Z, filter_sorted, range_sorted_lt.
  - intros b c x Hb Hc Hxb Hxc. apply in_map_iff in Hb as (r & <- & Hr). apply in_map_iff in Hc as (r' & <- & Hr').
    apply in_map_iff in Hxb as (i & <- & Hi). apply in_map_iff in Hxc as (j & E & Hj). assert (i = j) by lia. subst j.
    apply block_In in Hi as [_ Hi]. apply block_In in Hj as [_ Hj]. congruence.
  - assert (S1 := row_sorted n N). assert (A : forall r, In r (row n N) -> hd 0%Z (map Z.of_nat (block n N r)) = Z.of_nat r) by (intros r Hr; apply block_hd; exact Hr).
    revert A. induction S1 as [|r l Hs IH Hf]; intro A; cbn; constructor.
    + apply IH. intros r' Hr'. apply A. right; exact Hr'.
    + rewrite Forall_forall in *. intros b Hb. apply in_map_iff in Hb as (r' & <- & Hr'). rewrite (A r), (A r') by (cbn; auto). specialize (Hf r' Hr'). lia.
Qed.

Lemma sierpinski_partition_spec oz N n : (forall l, Permutation (oz l) l) -> 0 < N -> N < 2 ^ n ->
  exists t, sierpinski_partition oz N n = Ok t /\ sp_wf t /\ sp_blocks t = map (fun r => map Z.of_nat (block n N r)) (row n N).
Proof.
  intros Ho H0 HN. destruct (sierpinski_partition_rel oz N n Ho HN) as (t & E & W & T). exists t. split; [exact E|]. split; [exact W|].
  apply canonical_ext; [apply W | apply block_canonical; assumption|]. intros x y Hxy. rewrite (T x y Hxy). split.
  - intros (i & j & -> & -> & Hi & Hj & H). exists (map Z.of_nat (block n N (Nat.land i (comp n N)))). split; [|split].
    + apply in_map_iff. eexists. split; [reflexivity|]. apply row_In, land_sub.
    + apply in_map, block_In. auto.
    + apply in_map, block_In. split; [exact Hj|]. apply Nat.bits_inj. intro b. rewrite !Nat.land_spec, comp_bits by exact HN.
      destruct (Nat.testbit N b) eqn:Hb; [rewrite !andb_false_r; reflexivity|]. rewrite H; [reflexivity|]. rewrite (proj2 (int_to_exposet_spec N)). congruence.
  - intros (b & Hb & Hx & Hy). apply in_map_iff in Hb as (r & <- & Hr). apply in_map_iff in Hx as (i & <- & Hi). apply in_map_iff in Hy as (j & <- & Hj).
    apply block_In in Hi as [Hi Ei]. apply block_In in Hj as [Hj Ej]. exists i, j. repeat split; try assumption. intros b Hb.
    rewrite (proj2 (int_to_exposet_spec N)) in Hb. apply not_true_is_false in Hb.
    destruct (Nat.lt_ge_cases b n) as [Hbn|Hbn].
    + assert (Eb : Nat.testbit (Nat.land i (comp n N)) b = Nat.testbit (Nat.land j (comp n N)) b) by congruence.
      rewrite !Nat.land_spec, comp_bits, Hb, (proj2 (Nat.ltb_lt _ _) Hbn) in Eb by exact HN. cbn in Eb. rewrite !andb_true_r in Eb. exact Eb.
    + rewrite !testbit_high; [reflexivity | |]; (eapply Nat.lt_le_trans; [eassumption | apply Nat.pow_le_mono_r; lia]).
Qed.

(** * sierpinski_twin *)

Lemma deposit_sub l i j : NoDup l -> i < 2 ^ length l -> j < 2 ^ length l ->
  subm i j = subm (exposet_to_int (sel l i)) (exposet_to_int (sel l j)).
Proof.
  intros Hn Hi Hj. apply bool_iff. rewrite !subm_spec. split; intros H k Hk.
  - apply sel_testbit in Hk as (b & Eb & Hb); [|exact Hn]. apply sel_testbit; [exact Hn|]. exists b. split; [exact Eb | apply H; exact Hb].
  - assert (Hkl : k < length l) by exact (testbit_lt_pow i k _ Hi Hk).
    assert (Ek := nth_error_nth' l 0 Hkl).
    assert (Hs : Nat.testbit (exposet_to_int (sel l i)) (nth k l 0) = true) by (apply sel_testbit; [exact Hn | exists k; auto]).
    apply H, sel_testbit in Hs as (b & Eb & Hb); [|exact Hn].
    assert (b = k).
    { rewrite NoDup_nth_error in Hn. apply Hn; [apply nth_error_Some; congruence | congruence]. }
    subst b. exact Hb.
Qed.

(** the green column: entry [k] is the XOR of the entries at the submasks of [k] *)
Definition green (G : nat -> bool) (rs : list nat) (k : nat) : bool := xor_all (map (fun p => subm p k && G p) rs).

Lemma small_twin_spec n N G m : m = length (int_to_exposet (comp n N)) ->
  vector_to_twin_gen (map G (row n N)) m = Ok (map (green G (row n N)) (row n N)).
Proof.
  intros ->. set (l := int_to_exposet (comp n N)).
  assert (Hn : NoDup l) by (apply sorted_lt_NoDup, int_to_exposet_spec).
  rewrite row_sierpinski, sierpinski_of_eq. fold l. set (D := fun i => exposet_to_int (sel l i)).
  rewrite twin_vector_spec by (rewrite !map_length, seq_length; reflexivity). f_equal. unfold range. rewrite !map_map. apply map_ext_in.
  intros j Hj. apply in_seq in Hj. unfold anf, green. rewrite map_map. apply xor_all_ext. intros i Hi. apply in_seq in Hi.
  unfold D at 2. unfold D at 2. rewrite <- (deposit_sub l i j Hn) by lia. f_equal.
  rewrite (nth_indep _ false ((fun x => G (D x)) 0)) by (rewrite map_length, seq_length; lia).
  rewrite (map_nth (fun x => G (D x)) (seq 0 (2 ^ length l)) 0 i), seq_nth by lia. reflexivity.
Qed.

Lemma assign_block v : forall (ks : list nat) l, (forall k, In k ks -> k < length l) ->
  exists l', foldM (fun b k => list_assign b (Z.to_nat k) v) (map Z.of_nat ks) l = Ok l' /\ length l' = length l /\
    forall x, nth x l' false = if memb x ks then v else nth x l false.
Proof.
  induction ks as [|k ks IH]; intros l H.
  - exists l. split; [reflexivity|]. split; [reflexivity|]. reflexivity.
  - cbn [map foldM]. rewrite Nat2Z.id. unfold list_assign at 1. assert (Hk := H k (or_introl eq_refl)).
    rewrite (lget_ok l k false Hk). cbn [bind]. destruct (IH (lset l k v)) as (l' & E & L & N').
    { intros k' Hk'. rewrite lset_length. apply H. right; exact Hk'. }
    exists l'. split; [exact E|]. split; [rewrite L; apply lset_length|]. intro x. rewrite N', nth_lset by exact Hk.
    unfold memb. cbn [existsb]. destruct (Nat.eqb x k) eqn:Ex; cbn [orb]; [|reflexivity]. destruct (existsb (Nat.eqb x) ks); reflexivity.
Qed.

Lemma assign_blocks (B : nat -> list nat) blocks (V : nat -> bool) : forall (kvs : list (nat * bool)) l,
  (forall j v, In (j, v) kvs -> lget blocks j = Ok (map Z.of_nat (B j)) /\ forall x, In x (B j) -> x < length l /\ v = V x) ->
  exists l', foldM (fun b kv => let* bl := lget blocks (fst kv) in foldM (fun b k => list_assign b (Z.to_nat k) (snd kv)) bl b) kvs l = Ok l' /\
    length l' = length l /\ forall x, (exists j v, In (j, v) kvs /\ In x (B j)) \/ nth x l false = V x -> nth x l' false = V x.
Proof.
  induction kvs as [|[j v] kvs IH]; intros l H.
  - exists l. split; [reflexivity|]. split; [reflexivity|]. intros x [(j & v & [] & _)|E]. exact E.
  - cbn [foldM fst snd]. destruct (H j v (or_introl eq_refl)) as [E Hx]. rewrite E. cbn [bind].
    destruct (assign_block v (B j) l) as (l1 & E1 & L1 & N1); [intros k Hk; apply Hx; exact Hk|]. rewrite E1. cbn [bind].
    destruct (IH l1) as (l' & E' & L' & N').
    { intros j' v' Hj'. destruct (H j' v' (or_intror Hj')) as [Ej Hxj]. split; [exact Ej|]. rewrite L1. exact Hxj. }
    exists l'. split; [exact E'|]. split; [congruence|]. intros x Hor. apply N'.
    destruct (memb x (B j)) eqn:M.
    + right. rewrite N1, M. apply memb_In in M. apply (proj2 (Hx x M)).
    + destruct Hor as [(j' & v' & [Ej|Hj'] & Hxj)|E0].
      * injection Ej as <- <-. apply memb_In in Hxj. congruence.
      * left. exists j', v'. auto.
      * right. rewrite N1, M. exact E0.
Qed.

Lemma length_row n N : N < 2 ^ n -> length (row n N) = 2 ^ length (int_to_exposet (comp n N)).
Proof. intro H. rewrite row_sierpinski. apply sierpinski_length. Qed.

Lemma subm_land p k c : submask p c -> subm p (Nat.land k c) = subm p k.
Proof.
  intro H. apply bool_iff. rewrite !subm_spec. split; intros Hs i Hi; specialize (Hs i Hi); specialize (H i Hi).
  - rewrite Nat.land_spec in Hs. apply andb_true_iff in Hs. tauto.
  - rewrite Nat.land_spec, Hs, H. reflexivity.
Qed.

Theorem sierpinski_twin_spec oz n N G : (forall l, Permutation (oz l) l) -> N < 2 ^ n ->
  sierpinski_twin oz (map G (row n N)) N n = Ok (map (green G (row n N)) (range (2 ^ n))).
Proof.
  intros Ho HN. unfold sierpinski_twin. set (m := length (int_to_exposet (comp n N))).
  assert (Lr : length (row n N) = 2 ^ m) by (apply length_row; exact HN).
  rewrite map_length, Lr, log_int_pow. cbn [bind]. rewrite int_to_weight_eq.
  assert (Ew := count_ones_comp n N HN). fold m in Ew. rewrite Ew, Nat.eqb_refl. cbn [true_except bind].
  rewrite (small_twin_spec n N G m eq_refl). cbn [bind]. destruct (Nat.eqb_spec N 0) as [->|H0].
  - f_equal. f_equal. unfold row.
    apply sorted_lt_ext; [apply filter_sorted, range_sorted_lt | apply range_sorted_lt|]. intro p. rewrite filter_In, range_In. split; [tauto|].
    intro Hp. split; [exact Hp|]. apply subm_spec. intros i Hi. rewrite comp_bits, Nat.bits_0 by lia.
    rewrite (proj2 (Nat.ltb_lt _ _)); [reflexivity|]. eapply testbit_lt_pow; eassumption.
  - destruct (sierpinski_partition_spec oz N n Ho ltac:(lia) HN) as (t & Et & Wt & Bt). rewrite Et. cbn [bind].
    rewrite Bt, !map_length, Lr, Nat.eqb_refl. cbn [andb true_except bind].
    set (blocks := map (fun r => map Z.of_nat (block n N r)) (row n N)).
    destruct (assign_blocks (fun j => block n N (nth j (row n N) 0)) blocks (green G (row n N)) (enumerate (map (green G (row n N)) (row n N))) (repeat false (2 ^ n)))
      as (l' & E' & L' & N').
    + intros j v Hj. apply enumerate_In in Hj. assert (Hjl : j < length (row n N)) by (rewrite <- (map_length (green G (row n N)) (row n N)); apply nth_error_Some; congruence).
      split.
      * unfold blocks. rewrite (lget_ok _ j ((fun r => map Z.of_nat (block n N r)) 0)) by (rewrite map_length; exact Hjl). f_equal.
        apply (map_nth (fun r => map Z.of_nat (block n N r))).
      * intros x Hx. apply block_In in Hx as [Hx Ex]. rewrite repeat_length. split; [exact Hx|].
        apply (nth_error_nth _ _ false) in Hj. rewrite <- Hj, (nth_indep _ false (green G (row n N) 0)), map_nth, <- Ex by (rewrite map_length; exact Hjl).
        unfold green. apply xor_all_ext. intros p Hp. f_equal. apply subm_land. apply row_In. exact Hp.
    + etransitivity; [exact E'|]. f_equal. apply (nth_ext _ _ false false).
      * rewrite L', repeat_length, map_length, range_length. reflexivity.
      * intros x Hx. rewrite L', repeat_length in Hx. 
        assert (Eg : nth x (map (green G (row n N)) (range (2 ^ n))) false = green G (row n N) x).
        { rewrite (nth_indep _ false (green G (row n N) 0)) by (rewrite map_length, range_length; exact Hx). rewrite map_nth, nth_range by exact Hx. reflexivity. }
        rewrite Eg. apply N'. left.
        assert (Hr : In (Nat.land x (comp n N)) (row n N)) by apply row_In, land_sub.
        apply (In_nth _ _ 0) in Hr as (j & Hj & Ej). exists j, (nth j (map (green G (row n N)) (row n N)) false). split.
        -- apply enumerate_In. apply nth_error_nth'. rewrite map_length. exact Hj.
        -- apply block_In. split; [exact Hx | symmetry; exact Ej].
Qed.
