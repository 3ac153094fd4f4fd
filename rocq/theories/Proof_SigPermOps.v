(** Proof_SigPermOps: equality, application, indices and constructors of SigPerm, and Schoute
    permutations. *)

From Coq Require Import List Arith ZArith Bool Lia Permutation Sorted.
From Verif Require Import Model_Base Lib Model_Perm Model_Binary Model_SigPerm Spec_Perm Spec_SigPerm Spec_Bits.
From Verif Require Import Proof_Perm Proof_PermGroup Proof_Inversions Proof_Listing Proof_PermMore Proof_Binary Proof_Helpers Proof_Linear Proof_SigPerm Proof_SigPermMore.
Import ListNotations.
Open Scope nat_scope.

(** * Equality *)

Lemma unsigned_spec s : sg_unsigned s = true <-> forall k, sbit s k = false.
Proof.
  unfold sg_unsigned, sbit. rewrite Nat.eqb_eq, binv_intval_eq. split.
  - intros H k. rewrite <- testbit_b2n, H. apply Nat.bits_0.
  - intro H. apply Nat.bits_inj. intro i. rewrite testbit_b2n, H, Nat.bits_0. reflexivity.
Qed.

Lemma neutral_action p : wf p -> (neutral p = true <-> forall x, pget p x = x).
Proof.
  intro H. assert (E := perm_eqb_spec p neutral_perm H wf_neutral_perm). unfold perm_eqb in E. cbn [neutral neutral_perm] in E.
  rewrite andb_true_r in E. split.
  - intros Hn x. unfold pget. rewrite Hn. reflexivity.
  - intro Hx. destruct (neutral p) eqn:En; [reflexivity|].
    assert (E' := proj2 E). cbn [mapping neutral_perm] in E'.
    assert (Hd : dict_eqb (mapping p) [] = true).
    { assert (E'' := E' (fun x => Hx x)). apply andb_true_iff in E'' as [E'' _]. exact E''. }
    assert (Hm : mapping p = []); [|apply (wf_neutral p H) in Hm; congruence].
    destruct (mapping p) as [|kv m]; [reflexivity|]. cbn in Hd. discriminate.
Qed.

Lemma sg_neutral_spec s : swf s -> (sg_neutral s = true <-> forall k, sf s k = Z.of_nat k).
Proof.
  intro Hs. unfold sg_neutral. rewrite andb_true_iff, unsigned_spec, (neutral_action _ (sw_perm s Hs)). split.
  - intros [H1 H2] k. unfold sf. rewrite H1, H2. reflexivity.
  - intro H. split.
    + intro k. destruct (proj2 (s_bij s Hs) k) as [i <-]. rewrite <- sf_negated, H. apply negated_nat.
    + intro k. rewrite <- sf_atom, H. apply atom_nat.
Qed.

Lemma sf_eq_parts a b : swf a -> swf b ->
  ((forall k, sf a k = sf b k) <-> (forall k, pget (sg_perm a) k = pget (sg_perm b) k) /\ (forall k, sbit a k = sbit b k)).
Proof.
  intros Ha Hb. split.
  - intro H. assert (Hp : forall k, pget (sg_perm a) k = pget (sg_perm b) k) by (intro k; rewrite <- !sf_atom, H; reflexivity).
    split; [exact Hp|]. intro k. destruct (proj2 (s_bij a Ha) k) as [i <-]. rewrite <- sf_negated, H, sf_negated, Hp. reflexivity.
  - intros [H1 H2] k. unfold sf. rewrite H1, H2. reflexivity.
Qed.

Lemma sg_eqb_sound a b : swf a -> swf b -> sg_eqb a b = true -> forall k, sf a k = sf b k.
Proof.
  intros Ha Hb E. unfold sg_eqb in E. destruct (sg_neutral a && sg_neutral b) eqn:En.
  - apply andb_true_iff in En as [E1 E2].
    intro k. rewrite (proj1 (sg_neutral_spec a Ha) E1), (proj1 (sg_neutral_spec b Hb) E2). reflexivity.
  - apply andb_true_iff in E as [E1 E2]. apply sf_eq_parts; [exact Ha | exact Hb|]. split.
    + apply perm_eqb_spec; [apply Ha | apply Hb | exact E1].
    + apply bvec_eqb_eq in E2. intro k. unfold sbit. rewrite E2. reflexivity.
Qed.

Lemma sg_length_ext a b : swf a -> swf b -> (forall k, sf a k = sf b k) -> sg_length a = sg_length b.
Proof.
  intros Ha Hb H. apply Nat.le_antisymm; apply length_least; try assumption; intros k Hk.
  - rewrite H. apply sf_high; assumption.
  - rewrite <- H. apply sf_high; assumption.
Qed.

Lemma sg_eqb_complete a b : swf a -> swf b -> tight a -> tight b -> (forall k, sf a k = sf b k) -> sg_eqb a b = true.
Proof.
  intros Ha Hb Ta Tb H. unfold sg_eqb. destruct (sg_neutral a && sg_neutral b); [reflexivity|].
  destruct (proj1 (sf_eq_parts a b Ha Hb) H) as [H1 H2]. apply andb_true_iff. split.
  - apply perm_eqb_spec; [apply Ha | apply Hb | exact H1].
  - apply bvec_eqb_eq. apply nth_ext with (d := false) (d' := false); [|intros k _; apply H2].
    rewrite Ta, Tb. apply sg_length_ext; assumption.
Qed.

Lemma sg_eqb_perm_spec a b : swf a -> wf b ->
  (sg_eqb_perm a b = true <-> forall k, sf a k = Z.of_nat (pget b k)).
Proof.
  intros Ha Hb. unfold sg_eqb_perm. destruct (sg_neutral a && neutral b) eqn:En.
  - apply andb_true_iff in En as [E1 E2]. split; [|reflexivity]. intros _ k.
    rewrite (proj1 (sg_neutral_spec a Ha) E1). rewrite (proj1 (neutral_action b Hb) E2). reflexivity.
  - fold (sg_unsigned a). destruct (sg_unsigned a) eqn:Eu; cbn [negb].
    + rewrite (perm_eqb_spec (sg_perm a) b (sw_perm a Ha) Hb). assert (Hz := proj1 (unsigned_spec a) Eu). split.
      * intros H k. unfold sf. rewrite Hz, H. reflexivity.
      * intros H k. rewrite <- sf_atom, H. apply atom_nat.
    + split; [discriminate|]. intro H. exfalso. assert (Hu : sg_unsigned a = true); [|congruence].
      apply unsigned_spec. intro k. destruct (proj2 (s_bij a Ha) k) as [i <-]. rewrite <- sf_negated, H. apply negated_nat.
Qed.

(** * Application *)

Lemma inverse_entry f g i : on_literals g (f i) = Z.of_nat i -> g (atom (f i)) = lit i (negated (f i)).
Proof.
  unfold on_literals. intro H. destruct (negated (f i)); cbn [lit]; [|exact H]. rewrite <- H, neg_neg. reflexivity.
Qed.

Lemma sg_apply_spec s (v : list Z) : swf s -> sg_length s <= length v ->
  exists r, sg_apply s v = Ok r /\ length r = length v /\
    forall i, i < length v -> nth_error r (atom (sf s i)) = Some (let x := nth i v 0%Z in if negated (sf s i) then neg x else x).
Proof.
  intros Hs Hl. destruct (inv_spec s Hs) as [t [Et [Ht [_ [Hlen [_ [H2 _]]]]]]].
  unfold sg_apply. rewrite Et. cbn [bind]. rewrite sequence_ok by (try exact Ht; lia). cbn [bind].
  set (F := fun z => if negated z then neg (nth (atom z) v 0%Z) else nth (atom z) v 0%Z).
  rewrite (mapM_ok _ F).
  - eexists. split; [reflexivity|]. split; [rewrite !map_length; apply range_length|].
    intros i Hi. assert (Hk : atom (sf s i) < length v) by (apply sf_stays; assumption).
    rewrite map_map, nth_error_map. rewrite (nth_error_nth' _ 0) by (rewrite range_length; exact Hk). cbn [option_map].
    rewrite nth_range by exact Hk. rewrite (inverse_entry (sf s) (sf t) i (H2 i)). unfold F. rewrite negated_lit, atom_lit. reflexivity.
  - intros z Hz. apply in_map_iff in Hz as [k [<- Hk]]. apply range_In in Hk. rewrite logic_abs_atom.
    rewrite (lget_ok v (atom (sf t k)) 0%Z) by (apply sf_stays; [exact Ht | lia | exact Hk]). cbn [bind]. f_equal. rewrite tilde_neg. reflexivity.
Qed.

Lemma sg_apply_short s v : swf s -> length v < sg_length s -> sg_apply s v = Err ValueErr.
Proof.
  intros Hs Hl. destruct (inv_spec s Hs) as [t [Et [Ht [_ [Hlen _]]]]]. unfold sg_apply. rewrite Et. cbn [bind].
  rewrite sequence_short by lia. reflexivity.
Qed.

Lemma sg_apply_natural_spec bl s n : swf s ->
  exists r, sg_apply_natural bl s n = Ok r /\
    forall i, Nat.testbit r (atom (sf s i)) = xorb (negated (sf s i)) (Nat.testbit n i).
Proof.
  intro Hs. unfold sg_apply_natural.
  assert (Eb : Binv_with bl None (Some (Z.of_nat n)) None None (Some (sg_length s)) =
               Ok (zfill (Nat.max (sg_length s) (bl n)) (bin_digits n))).
  { unfold Binv_with. rewrite (proj2 (Z.leb_le _ _)) by lia. cbn [true_except bind]. rewrite Nat2Z.id. reflexivity. }
  rewrite Eb. cbn [bind]. set (v := zfill _ _).
  assert (Hv : forall i, nth i v false = Nat.testbit n i).
  { intro i. rewrite <- testbit_b2n, <- binv_intval_eq. unfold v. rewrite zfill_val. reflexivity. }
  assert (Hlv : sg_length s <= length v) by (unfold v; rewrite zfill_length; lia).
  set (zv := map (fun b : bool => if b then 1%Z else 0%Z) v).
  assert (Hzl : length zv = length v) by apply map_length.
  destruct (sg_apply_spec s zv Hs) as [r [Er [Hr Hn]]]; [lia|]. rewrite Er. cbn [bind].
  set (w := map (fun z => Z.odd z) r).
  assert (Ew : map (fun z => (z mod 2)%Z) r = map (fun b : bool => if b then 1%Z else 0%Z) w).
  { unfold w. rewrite map_map. apply map_ext. intro z. apply Zmod_odd. }
  rewrite Ew, Binv_vector_bool. cbn [bind]. eexists. split; [reflexivity|]. intro i.
  rewrite binv_intval_eq, testbit_b2n. destruct (Nat.lt_ge_cases i (length v)) as [Hi|Hi].
  - assert (Hk : atom (sf s i) < length v) by (apply sf_stays; assumption).
    assert (E := Hn i ltac:(lia)).
    assert (Enth : nth (atom (sf s i)) w false = Z.odd (let x := nth i zv 0%Z in if negated (sf s i) then neg x else x)).
    { unfold w. apply (nth_error_nth (map (fun z => Z.odd z) r)). rewrite nth_error_map, E. reflexivity. }
    rewrite Enth. cbv zeta. assert (Ez : nth i zv 0%Z = if nth i v false then 1%Z else 0%Z) by apply (map_nth (fun b : bool => if b then 1%Z else 0%Z) v false i).
    rewrite Ez, Hv.
    destruct (negated (sf s i)), (Nat.testbit n i); reflexivity.
  - rewrite (sf_high s Hs) by lia. rewrite atom_nat, negated_nat. rewrite nth_overflow by (unfold w; rewrite map_length; lia).
    rewrite <- Hv, nth_overflow by exact Hi. reflexivity.
Qed.

(** * Indices *)

Lemma keyneg_fold l : forall c acc, fold_left (fun (acc : nat) (kv : nat * Z) => if (snd kv <? 0)%Z then acc + 2 ^ fst kv else acc)
  (combine (seq c (length l)) l) acc = acc + 2 ^ c * b2n (map negated l).
Proof.
  induction l as [|z l IH]; intros c acc; cbn [length seq combine fold_left map b2n]; [lia|].
  rewrite IH. cbn [fst snd]. change (z <? 0)%Z with (negated z). cbn [Nat.pow]. destruct (negated z); cbn [Nat.b2n]; lia.
Qed.

Lemma keyneg_index_spec s : swf s ->
  exists n, sg_keyneg_index s = Ok n /\ forall k, Nat.testbit n k = negated (sf s k).
Proof.
  intro Hs. unfold sg_keyneg_index. rewrite sequence_none by exact Hs. cbn [bind]. eexists. split; [reflexivity|]. intro k.
  unfold enumerate. rewrite keyneg_fold. cbn [Nat.add Nat.pow]. rewrite Nat.mul_1_l, testbit_b2n.
  destruct (Nat.lt_ge_cases k (sg_length s)) as [Hk|Hk].
  - rewrite map_map. apply (nth_map_range (fun k => negated (sf s k))). exact Hk.
  - rewrite (sf_high s Hs) by exact Hk. rewrite negated_nat. apply nth_overflow. rewrite !map_length, range_length. exact Hk.
Qed.

Lemma valneg_index_spec s k : Nat.testbit (sg_valneg_index s) (atom (sf s k)) = negated (sf s k).
Proof. unfold sg_valneg_index. rewrite binv_intval_eq, testbit_b2n, sf_atom, sf_negated. reflexivity. Qed.

Lemma pair_form i j : SigPerm_pair i j = let* v := Binv_intval i None in let* p := int_to_perm j in Ok (sig_finish v p).
Proof.
  unfold SigPerm_pair, SigPerm. cbn [optM bind true_except fst snd].
  destruct (Binv_intval i None) as [v|e]; [|reflexivity]. cbn [bind]. destruct (int_to_perm j); reflexivity.
Qed.

Lemma intval_bits v n : binv_intval v = n -> forall k, nth k v false = Nat.testbit n k.
Proof. intros <- k. rewrite binv_intval_eq. symmetry. apply testbit_b2n. Qed.

Lemma binary_length_required v n : binv_intval v = n -> length v = binary_length n -> length v <= binv_required_length v.
Proof.
  intros Hv Hl. rewrite Hl. apply binary_length_spec. rewrite <- Hv, binv_intval_eq. apply bits_lt_pow.
  intros k Hk. rewrite testbit_b2n. eapply required_length_spec; [|exact Hk]. apply le_n.
Qed.

Lemma pair_spec i j : exists s, SigPerm_pair i j = Ok s /\ swf s /\ tight s /\ sg_pair s = Ok (i, j).
Proof.
  rewrite pair_form. destruct (Binv_int_min i) as [v [Ev [Hv Hl]]]. destruct (rank_roundtrip j) as [p [Ep [Hp [Hn Hr]]]].
  rewrite Ev. cbn [bind]. rewrite Ep. cbn [bind]. eexists. split; [reflexivity|].
  destruct (sig_finish_spec v p (is_Perm_wf p Hp) Hn) as [Hs [Hb Ht]]. split; [exact Hs|]. split.
  - apply Ht. assert (H := binary_length_required v i Hv Hl). lia.
  - unfold sg_pair, sg_perm_index, sg_valneg_index. cbn [sg_perm sig_finish]. rewrite Hr. cbn [bind]. f_equal. f_equal.
    apply Nat.bits_inj. intro k. rewrite binv_intval_eq, testbit_b2n. fold (sbit (sig_finish v p) k). rewrite Hb. apply intval_bits. exact Hv.
Qed.

Lemma pair_back s : swf s -> exists i j s', sg_pair s = Ok (i, j) /\ SigPerm_pair i j = Ok s' /\ forall k, sf s' k = sf s k.
Proof.
  intro Hs. destruct (int_to_perm_left_rank (sg_perm s) (sw_perm s Hs) (sw_fin s Hs)) as [j [p' [Ej [Ep' Heq]]]].
  destruct (pair_spec (sg_valneg_index s) j) as [s' [Es' [Hs' [_ Hpair]]]].
  exists (sg_valneg_index s), j, s'. split; [|split; [exact Es'|]].
  - unfold sg_pair, sg_perm_index. rewrite Ej. reflexivity.
  - rewrite pair_form in Es'. destruct (Binv_int_min (sg_valneg_index s)) as [v [Ev [Hv Hl]]]. rewrite Ev in Es'. cbn [bind] in Es'.
    rewrite Ep' in Es'. cbn [bind] in Es'. injection Es' as <-.
    assert (Hw' : wf p' /\ perilen p' = None).
    { destruct (rank_roundtrip j) as [p2 [E2 [H2 [H3 _]]]]. assert (p2 = p') by congruence. subst p2. split; [apply is_Perm_wf; exact H2 | exact H3]. }
    destruct (sig_finish_spec v p' (proj1 Hw') (proj2 Hw')) as [_ [Hb _]].
    apply sf_eq_parts; [exact Hs' | exact Hs|]. split.
    + apply perm_eqb_spec; [apply Hw' | apply Hs | exact Heq].
    + intro k. rewrite Hb, (intval_bits v _ Hv). unfold sg_valneg_index. rewrite binv_intval_eq, testbit_b2n. reflexivity.
Qed.

(** * Negator arguments *)

Lemma neg_binv_spec a : good_neg a -> exists raw, neg_binv a = Ok raw /\ forall i, nth i raw false = given_bit a i.
Proof.
  destruct a as [v|l|b]; cbn [good_neg neg_binv given_bit]; intro H.
  - exists (map (fun e => Z.eqb e 1) v). split.
    + assert (E : v = map (fun b : bool => if b then 1%Z else 0%Z) (map (fun e => Z.eqb e 1) v)).
      { rewrite map_map. rewrite <- (map_id v) at 1. apply map_ext_in. intros e He. destruct (H e He) as [-> | ->]; reflexivity. }
      rewrite E at 1. apply Binv_vector_bool.
    + intro i. change false with ((fun e => Z.eqb e 1) 0%Z). rewrite map_nth. reflexivity.
  - assert (E : l = map Z.of_nat (map Z.to_nat l)).
    { rewrite map_map. rewrite <- (map_id l) at 1. apply map_ext_in. intros e He. apply H in He. lia. }
    destruct (Binv_exposet_min (map Z.to_nat l)) as [raw [Er [Hn _]]]. exists raw. split.
    + rewrite E. exact Er.
    + intro i. rewrite Hn. apply eq_iff_eq_true. rewrite memb_In, existsb_exists, in_map_iff. split.
      * intros [e [<- He]]. exists e. split; [exact He|]. apply Z.eqb_eq. apply H in He. lia.
      * intros [e [He Hi]]. apply Z.eqb_eq in Hi. subst e. exists (Z.of_nat i). split; [apply Nat2Z.id | exact He].
  - exists b. auto.
Qed.

Lemma valneg_spec a pm p : good_neg a -> good_src (Some pm) -> src_perm pm = Ok p -> perilen p = None ->
  exists s, SigPerm_valneg a pm = Ok s /\ swf s /\
    forall k, sf s k = if given_bit a (pget p k) then neg (Z.of_nat (pget p k)) else Z.of_nat (pget p k).
Proof.
  intros Ha Hg Ep Hn. destruct (neg_binv_spec a Ha) as [raw [Er Hr]]. unfold SigPerm_valneg, SigPerm.
  cbn [optM bind]. rewrite Er. cbn [bind]. rewrite Ep. cbn [bind true_except].
  eexists. split; [reflexivity|]. assert (Hp := src_perm_obj pm p Hg Ep).
  destruct (sig_finish_spec raw p (is_Perm_wf p Hp) Hn) as [Hs [Hb _]]. split; [exact Hs|].
  intro k. unfold sf. cbn [sg_perm sig_finish]. fold (sig_finish raw p). rewrite Hb, Hr. reflexivity.
Qed.

Lemma keyneg_spec a pm p : good_neg a -> good_src (Some pm) -> src_perm pm = Ok p -> perilen p = None ->
  exists s, SigPerm_keyneg a pm = Ok s /\ swf s /\ tight s /\
    forall k, sf s k = if given_bit a k then neg (Z.of_nat (pget p k)) else Z.of_nat (pget p k).
Proof.
  intros Ha Hg Ep Hn. destruct (neg_binv_spec a Ha) as [raw [Er Hr]]. unfold SigPerm_keyneg, SigPerm.
  cbn [optM bind]. rewrite Er. cbn [bind]. rewrite Ep. cbn [bind true_except].
  assert (Hp := src_perm_obj pm p Hg Ep). assert (Hw := is_Perm_wf p Hp).
  set (f := fun k => lit (pget p k) (given_bit a k)). set (n := Nat.max (binv_required_length raw) (plength p)).
  assert (E : keyneg_sequence raw p = map f (range n)).
  { unfold keyneg_sequence. apply map_ext. intro k. unfold logic_negate, f, lit.
    rewrite has_index_spec, (intval_bits raw _ eq_refl k) || rewrite has_index_spec, binv_intval_eq, testbit_b2n.
    rewrite Hr, tilde_neg. reflexivity. }
  rewrite E. destruct (seq_of_fun n f) as [s [Es [Hs [Ht Hf]]]].
  - intros k Hk. unfold f. rewrite atom_lit. apply finite_stays; [exact Hw | exact Hn | lia | exact Hk].
  - intros i j _ _ Hij. unfold f in Hij. rewrite !atom_lit in Hij. apply (proj1 (pget_bij p Hw)). exact Hij.
  - exists s. split; [exact Es|]. split; [exact Hs|]. split; [exact Ht|]. intro k. rewrite Hf.
    destruct (Nat.ltb_spec k n) as [Hk|Hk]; [reflexivity|].
    assert (Hb : given_bit a k = false). { rewrite <- Hr. eapply required_length_spec; [|exact Hk]. lia. }
    rewrite Hb. destruct (wf_finite_seq p Hw Hn) as [_ [_ [Hfix _]]]. rewrite Hfix by lia. reflexivity.
Qed.

(** * Matrices that show a signed permutation *)

Lemma shows_fmat n mat f : shows n mat f <-> mat = fmat n f.
Proof.
  split.
  - intros [Hl H]. apply nth_ext with (d := []) (d' := []); [rewrite Hl; symmetry; apply mkmat_length|].
    intros m Hm. rewrite Hl in Hm. assert (Er : nth_error mat m = Some (nth m mat [])) by (apply nth_error_nth'; lia).
    destruct (H m _ Er) as [Hrl Hr]. unfold fmat, mkmat. rewrite nth_map_range by exact Hm.
    apply nth_ext with (d := 0%Z) (d' := 0%Z); [rewrite Hrl, map_length, range_length; reflexivity|].
    intros k Hk. rewrite Hrl in Hk. rewrite nth_map_range by exact Hk. apply Hr. apply nth_error_nth'. lia.
  - intros ->. split; [apply mkmat_length|]. intros m row Hrow. unfold fmat, mkmat in Hrow. rewrite nth_error_map in Hrow.
    destruct (nth_error (range n) m) as [m'|] eqn:Em; [|discriminate]. cbn in Hrow. injection Hrow as <-.
    assert (Hm : m < n). { assert (H2 : nth_error (range n) m <> None) by congruence. apply nth_error_Some in H2. rewrite range_length in H2. exact H2. }
    apply nth_error_nth with (d := 0) in Em. rewrite nth_range in Em by exact Hm. subst m'.
    split; [rewrite map_length; apply range_length|]. intros k x Hx. rewrite nth_error_map in Hx.
    destruct (nth_error (range n) k) as [k'|] eqn:Ek; [|discriminate]. cbn in Hx. injection Hx as <-.
    assert (Hk : k < n). { assert (H2 : nth_error (range n) k <> None) by congruence. apply nth_error_Some in H2. rewrite range_length in H2. exact H2. }
    apply nth_error_nth with (d := 0) in Ek. rewrite nth_range in Ek by exact Hk. subst k'. reflexivity.
Qed.

(** * Schoute permutations *)

Lemma testbit_join n a c i : a < 2 ^ n -> Nat.testbit (a + c * 2 ^ n) i = if Nat.ltb i n then Nat.testbit a i else Nat.testbit c (i - n).
Proof.
  intro Ha. assert (Hp : 2 ^ n <> 0) by (apply Nat.pow_nonzero; lia). destruct (Nat.ltb_spec i n) as [Hi|Hi].
  - rewrite <- (Nat.mod_pow2_bits_low (a + c * 2 ^ n) n i Hi). rewrite Nat.mod_add, Nat.mod_small by assumption. reflexivity.
  - replace i with (i - n + n) at 1 by lia. rewrite <- Nat.div_pow2_bits, Nat.div_add, Nat.div_small by assumption. reflexivity.
Qed.

Lemma testbit_parts n x i : Nat.testbit x i = if Nat.ltb i n then Nat.testbit (x mod 2 ^ n) i else Nat.testbit (x / 2 ^ n) (i - n).
Proof.
  assert (Hp : 2 ^ n <> 0) by (apply Nat.pow_nonzero; lia).
  rewrite (Nat.div_mod x (2 ^ n) Hp) at 1. rewrite Nat.add_comm, Nat.mul_comm. apply testbit_join.
  apply Nat.mod_upper_bound. exact Hp.
Qed.

Definition scol (f : nat -> Z) (n x : nat) : nat :=
  b2n (map (fun i => xorb (Nat.testbit x (atom (f i))) (negated (f i))) (range n)).

Lemma scol_bit f n x i : Nat.testbit (scol f n x) i = Nat.ltb i n && xorb (Nat.testbit x (atom (f i))) (negated (f i)).
Proof.
  unfold scol. rewrite testbit_b2n. destruct (Nat.ltb_spec i n) as [Hi|Hi]; cbn [andb].
  - apply (nth_map_range (fun i => xorb (Nat.testbit x (atom (f i))) (negated (f i)))). exact Hi.
  - apply nth_overflow. rewrite map_length, range_length. exact Hi.
Qed.

Lemma scol_lt f n x : scol f n x < 2 ^ n.
Proof. unfold scol. eapply Nat.lt_le_trans; [apply b2n_lt|]. rewrite map_length, range_length. apply le_n. Qed.

Lemma period_mult g t c x : is_period g t -> g (x + c * t) = g x + c * t.
Proof.
  intro H. induction c as [|c IH]; [rewrite !Nat.add_0_r; reflexivity|].
  replace (x + S c * t) with (x + c * t + t) by lia. rewrite H, IH. lia.
Qed.

Lemma schoute_of_spec n f : (forall k, k < n -> atom (f k) < n) -> (forall i, i < n -> exists k, k < n /\ atom (f k) = i) ->
  exists P, schoute_of n (map f (range n)) = Ok P /\ is_Perm P /\ (neutral P = true \/ perilen P <> None) /\
    is_period (pget P) (2 ^ n) /\ (forall x, x < 2 ^ n -> pget P x < 2 ^ n) /\
    forall x i, Nat.testbit (pget P x) i =
      if Nat.ltb i n then xorb (Nat.testbit x (atom (f i))) (negated (f i)) else Nat.testbit x i.
Proof.
  intros Hin Hon. unfold schoute_of.
  set (row := fun z => map (fun x => xorb (Nat.testbit x (atom z)) (negated z)) (range (2 ^ n))).
  rewrite (mapM_ok _ row).
  2: { intros z Hz. apply in_map_iff in Hz as [k [<- Hk]]. apply range_In in Hk.
       assert (Ea : atom_of (f k) = atom (f k)) by (rewrite <- logic_abs_atom; reflexivity).
       destruct (atompattern_spec (f k) n false) as [v [Ev [Hl Hv]]]; [rewrite Ea; apply Hin; exact Hk|].
       rewrite Ev. f_equal. apply nth_ext with (d := false) (d' := false).
       - unfold row. rewrite Hl, map_length, range_length. reflexivity.
       - rewrite Hl. intros x Hx. rewrite Hv by exact Hx. unfold row. rewrite nth_map_range by exact Hx. rewrite Ea, xorb_false_l. reflexivity. }
  cbn [bind].
  assert (E : map (fun colnum => binv_intval (map (fun row => nth colnum row false) (map row (map f (range n))))) (range (2 ^ n)) =
              map (scol f n) (range (2 ^ n))).
  { apply map_range_ext. intros x Hx. rewrite binv_intval_eq, !map_map. unfold scol. f_equal. apply map_ext. intro i.
    apply (nth_map_range (fun x => xorb (Nat.testbit x (atom (f i))) (negated (f i)))). exact Hx. }
  rewrite E.
  assert (Hinj : forall x y, x < 2 ^ n -> y < 2 ^ n -> scol f n x = scol f n y -> x = y).
  { intros x y Hx Hy Exy. apply Nat.bits_inj. intro i. destruct (Nat.lt_ge_cases i n) as [Hi|Hi].
    - destruct (Hon i Hi) as [k [Hk <-]]. assert (Eb : Nat.testbit (scol f n x) k = Nat.testbit (scol f n y) k) by (rewrite Exy; reflexivity).
      rewrite !scol_bit in Eb. rewrite (proj2 (Nat.ltb_lt _ _) Hk) in Eb. cbn [andb] in Eb.
      destruct (Nat.testbit x (atom (f k))), (Nat.testbit y (atom (f k))), (negated (f k)); try reflexivity; discriminate.
    - rewrite !testbit_high; [reflexivity | |]; (eapply Nat.lt_le_trans; [eassumption | apply Nat.pow_le_mono_r; lia]). }
  assert (Hp : 2 ^ n <> 0) by (apply Nat.pow_nonzero; lia).
  assert (Hperm : Permutation (map (scol f n) (range (2 ^ n))) (seq 0 (length (map (scol f n) (range (2 ^ n)))))).
  { rewrite map_length, range_length. apply NoDup_Permutation_bis.
    - apply NoDup_map_inj; [apply range_NoDup|]. intros x y Hx Hy. apply range_In in Hx. apply range_In in Hy. apply Hinj; assumption.
    - rewrite map_length. apply le_n.
    - intros y Hy. apply in_map_iff in Hy as [x [<- _]]. apply range_In. apply scol_lt. }
  assert (Hsays : forall x j, says (ArgSeq (map (scol f n) (range (2 ^ n)))) x j -> x < 2 ^ n /\ j = scol f n x).
  { intros x j Hs. inversion Hs as [l i j' Hnth| | |]; subst. rewrite nth_error_map in Hnth.
    destruct (nth_error (range (2 ^ n)) x) as [x'|] eqn:Ex; [|discriminate]. cbn in Hnth. injection Hnth as <-.
    assert (Hx : x < 2 ^ n).
    { assert (H2 : nth_error (range (2 ^ n)) x <> None) by congruence. apply nth_error_Some in H2. rewrite range_length in H2. exact H2. }
    split; [exact Hx|]. apply nth_error_nth with (d := 0) in Ex. rewrite nth_range in Ex by exact Hx. congruence. }
  destruct (ctor_periodic (ArgSeq (map (scol f n) (range (2 ^ n)))) (2 ^ n)) as [P [EP [Hb [Hper [Hval _]]]]].
  - exact I.
  - exact Hperm.
  - intros x j Hs _. apply Hsays in Hs. apply Hs.
  - lia.
  - assert (Hsm : forall x, x < 2 ^ n -> pget P x = scol f n x).
    { intros x Hx. apply Hval; [exact Hx|]. constructor. rewrite nth_error_map.
      rewrite (nth_error_nth' _ 0) by (rewrite range_length; exact Hx). rewrite nth_range by exact Hx. reflexivity. }
    exists P. split; [exact EP|]. split; [|split; [|split; [|split]]].
    + eapply obj_new; [|exact EP]. exact I.
    + unfold Perm in EP. apply bind_ok in EP as [m [_ EP]]. destruct m as [|kv m]; [injection EP as <-; left; reflexivity|].
      apply guard_ok in EP as [_ EP]. apply guard_ok in EP as [_ EP]. apply bind_ok in EP as [mq [_ EP]]. injection EP as <-. right. discriminate.
    + exact Hper.
    + intros x Hx. rewrite Hsm by exact Hx. apply scol_lt.
    + intros x i. rewrite (Nat.div_mod x (2 ^ n) Hp) at 1. rewrite Nat.add_comm, Nat.mul_comm. rewrite (period_mult _ _ _ _ Hper).
      assert (Hm : x mod 2 ^ n < 2 ^ n) by (apply Nat.mod_upper_bound; exact Hp). rewrite Hsm by exact Hm.
      rewrite testbit_join by apply scol_lt. destruct (Nat.ltb_spec i n) as [Hi|Hi].
      * rewrite scol_bit. rewrite (proj2 (Nat.ltb_lt _ _) Hi). cbn [andb]. f_equal.
        rewrite (testbit_parts n x (atom (f i))). rewrite (proj2 (Nat.ltb_lt _ _) (Hin i Hi)). reflexivity.
      * rewrite (testbit_parts n x i). rewrite (proj2 (Nat.ltb_ge _ _) Hi). reflexivity.
Qed.

(** the permutation [P] of the naturals moves and negates binary digits as [g] tells *)
Definition digits (P : perm) (g : nat -> Z) : Prop :=
  forall x i, Nat.testbit (pget P x) (atom (g i)) = xorb (negated (g i)) (Nat.testbit x i).

Lemma sg_schoute_spec s : swf s ->
  exists P, sg_schoute s = Ok P /\ is_Perm P /\ (neutral P = true \/ perilen P <> None) /\
    is_period (pget P) (2 ^ sg_length s) /\ (forall x, x < 2 ^ sg_length s -> pget P x < 2 ^ sg_length s) /\ digits P (sf s).
Proof.
  intro Hs. destruct (inv_spec s Hs) as [t [Et [Ht [_ [Hlen [H1 [H2 _]]]]]]]. unfold sg_schoute. rewrite Et. cbn [bind].
  rewrite sequence_none by exact Ht. cbn [bind]. rewrite Hlen. set (n := sg_length s).
  destruct (schoute_of_spec n (sf t)) as [P [EP [HP [Hk [Hper [Hst Hbit]]]]]].
  - intros k Hk. apply sf_stays; [exact Ht | lia | exact Hk].
  - intros i Hi. exists (atom (sf s i)). split; [apply sf_stays; [exact Hs | apply le_n | exact Hi]|].
    rewrite (inverse_entry (sf s) (sf t) i (H2 i)). apply atom_lit.
  - exists P. split; [exact EP|]. split; [exact HP|]. split; [exact Hk|]. split; [exact Hper|]. split; [exact Hst|].
    intros x i. rewrite Hbit. destruct (Nat.ltb_spec (atom (sf s i)) n) as [Hi|Hi].
    + rewrite (inverse_entry (sf s) (sf t) i (H2 i)), atom_lit, negated_lit. apply xorb_comm.
    + assert (Hi' : n <= i).
      { destruct (Nat.lt_ge_cases i n) as [Hlt|]; [|assumption]. exfalso.
        assert (H := sf_stays s Hs n i (le_n _) Hlt). lia. }
      rewrite (sf_high s Hs i Hi'), atom_nat, negated_nat. symmetry. apply xorb_false_l.
Qed.

Lemma perm_stays p : wf p -> forall k, k < plength p -> pget p k < plength p.
Proof.
  intro Hw. destruct (perilen p) as [q|] eqn:Eq.
  - intros k Hk. assert (W := wf_peri p Hw). rewrite Eq in W. destruct W as [_ [Hb [Hn [Hq _]]]]. rewrite Hn in *.
    rewrite pget_act, Eq by exact Hw. cbn [act]. rewrite ext_eq by exact Hq. rewrite Nat.mod_small, Nat.div_small by exact Hk.
    assert (Hf := fapp_below (mapping p) q k (wf_map p Hw) Hb Hk). lia.
  - apply finite_stays; [exact Hw | exact Eq | apply le_n].
Qed.

Lemma plength_finite p n : wf p -> perilen p = None -> (plength p <= n <-> forall x, n <= x -> pget p x = x).
Proof.
  intros Hw Hn. destruct (wf_finite_seq p Hw Hn) as [_ [_ [Hfix Hlast]]]. split; [intros H x Hx; apply Hfix; lia|].
  intro H. destruct (Nat.le_gt_cases (plength p) n) as [|Hgt]; [assumption|]. exfalso. apply Hlast; [lia|]. apply H. lia.
Qed.

Lemma plength_inv p r : is_Perm p -> is_Perm r -> (forall x, pget r (pget p x) = x) -> (forall x, pget p (pget r x) = x) ->
  (perilen p = None <-> perilen r = None) -> plength r = plength p.
Proof.
  intros Hp Hr H1 H2 Hk. assert (Wp := is_Perm_wf p Hp). assert (Wr := is_Perm_wf r Hr).
  destruct (perilen p) as [q|] eqn:Ep; destruct (perilen r) as [q'|] eqn:Er; try (exfalso; destruct Hk; intuition congruence).
  - destruct (min_period p q Hp Ep) as [Hq [Pq Mq]]. destruct (min_period r q' Hr Er) as [Hq' [Pq' Mq']].
    assert (T : forall a b t, (forall x, pget b (pget a x) = x) -> (forall x, pget a (pget b x) = x) -> is_period (pget a) t -> is_period (pget b) t).
    { intros a b t Hab Hba Ht x. rewrite <- (Hba x) at 1. rewrite <- Ht. apply Hab. }
    destruct (Mq q' Hq' (T r p q' H2 H1 Pq')) as [c Ec]. destruct (Mq' q Hq (T p r q H1 H2 Pq)) as [d Ed].
    assert (W1 := wf_peri p Wp). rewrite Ep in W1. destruct W1 as [_ [_ [L1 _]]].
    assert (W2 := wf_peri r Wr). rewrite Er in W2. destruct W2 as [_ [_ [L2 _]]]. rewrite L1, L2.
    assert (Ecd : q * (c * d) = q * 1) by (rewrite Ec in Ed; nia). apply Nat.mul_cancel_l in Ecd; [|lia].
    apply Nat.eq_mul_1 in Ecd as [Ec1 _]. rewrite Ec1 in Ec. lia.
  - apply Nat.le_antisymm; apply plength_finite; try assumption; intros x Hx.
    + rewrite <- (proj1 (plength_finite p _ Wp Ep) (le_n _) x Hx) at 1. apply H1.
    + rewrite <- (proj1 (plength_finite r _ Wr Er) (le_n _) x Hx) at 1. apply H2.
Qed.

Lemma perm_schoute_spec p : is_Perm p ->
  exists P, perm_schoute p = Ok P /\ is_Perm P /\ (neutral P = true \/ perilen P <> None) /\
    is_period (pget P) (2 ^ plength p) /\ (forall x, x < 2 ^ plength p -> pget P x < 2 ^ plength p) /\
    (forall x i, i < plength p -> Nat.testbit (pget P x) (pget p i) = Nat.testbit x i) /\
    (forall x i, plength p <= i -> Nat.testbit (pget P x) i = Nat.testbit x i).
Proof.
  intro Hp. assert (Hw := is_Perm_wf p Hp). destruct (inv_ok p Hp) as [r [Er [Hro [H1 [H2 Hkind]]]]].
  assert (Hr := is_Perm_wf r Hro). unfold perm_schoute. rewrite Er. cbn [bind].
  assert (Hst := perm_stays p Hw). assert (Hrst := perm_stays r Hr).
  assert (Hlen : plength r = plength p) by (apply plength_inv; assumption). rewrite Hlen in Hrst.
  set (n := plength p) in *.
  assert (Es : psequence r None = Ok (map (pget r) (range n))).
  { unfold psequence. assert (W := wf_peri r Hr). destruct (perilen r) as [q|]; [|rewrite Hlen; reflexivity].
    destruct W as [_ [_ [Hq _]]]. rewrite <- Hq, Hlen. reflexivity. }
  rewrite Es. cbn [bind]. rewrite map_map.
  destruct (schoute_of_spec n (fun k => Z.of_nat (pget r k))) as [P [EP [HP [Hk [Hper [Hs Hbit]]]]]].
  - intros k Hk. rewrite atom_nat. apply Hrst. exact Hk.
  - intros i Hi. exists (pget p i). split; [apply Hst; exact Hi|]. rewrite atom_nat. apply H1.
  - exists P. split; [exact EP|]. split; [exact HP|]. split; [exact Hk|]. split; [exact Hper|]. split; [exact Hs|]. split.
    + intros x i Hi. rewrite Hbit. rewrite (proj2 (Nat.ltb_lt _ _) (Hst i Hi)), atom_nat, negated_nat, H1. apply xorb_false_r.
    + intros x i Hi. rewrite Hbit. rewrite (proj2 (Nat.ltb_ge _ _) Hi). reflexivity.
Qed.

Definition onto (g : nat -> Z) : Prop := forall i, exists k, atom (g k) = i.

Lemma digits_unique P Q g h : onto g -> digits P g -> digits Q h -> (forall k, g k = h k) -> forall x, pget P x = pget Q x.
Proof.
  intros Ho HP HQ E x. apply Nat.bits_inj. intro i. destruct (Ho i) as [k <-]. rewrite HP. rewrite (E k), HQ. reflexivity.
Qed.

Lemma digits_mul P Q R g h : (forall x, pget R x = pget P (pget Q x)) -> digits P g -> digits Q h ->
  digits R (fun k => on_literals g (h k)).
Proof.
  intros HR HP HQ x i. rewrite HR. unfold on_literals. destruct (negated (h i)) eqn:E.
  - rewrite atom_neg, negated_neg, HP, HQ, E. destruct (negated (g (atom (h i)))), (Nat.testbit x i); reflexivity.
  - rewrite HP, HQ, E. destruct (negated (g (atom (h i)))), (Nat.testbit x i); reflexivity.
Qed.

(** an action on digits determines the action on atoms *)
Lemma digits_faithful P Q g h : onto g -> onto h -> digits P g -> digits Q h -> (forall x, pget P x = pget Q x) -> forall k, g k = h k.
Proof.
  intros Hg Hh HP HQ E k.
  assert (E0 : forall i, negated (g i) = Nat.testbit (pget P 0) (atom (g i))) by (intro i; rewrite HP, Nat.bits_0, xorb_false_r; reflexivity).
  assert (E1 : forall i, negated (h i) = Nat.testbit (pget P 0) (atom (h i))) by (intro i; rewrite E, HQ, Nat.bits_0, xorb_false_r; reflexivity).
  assert (B : forall i, Nat.testbit (2 ^ k) i = Nat.eqb i k) by (intro i; rewrite Nat.pow2_bits_eqb; apply Nat.eqb_sym).
  assert (G : forall i, xorb (Nat.testbit (pget P (2 ^ k)) (atom (g i))) (Nat.testbit (pget P 0) (atom (g i))) = Nat.eqb i k).
  { intro i. rewrite !HP, B, Nat.bits_0. destruct (negated (g i)), (Nat.eqb i k); reflexivity. }
  assert (H : forall i, xorb (Nat.testbit (pget P (2 ^ k)) (atom (h i))) (Nat.testbit (pget P 0) (atom (h i))) = Nat.eqb i k).
  { intro i. rewrite !E, !HQ, B, Nat.bits_0. destruct (negated (h i)), (Nat.eqb i k); reflexivity. }
  assert (Ea : atom (g k) = atom (h k)).
  { destruct (Hg (atom (h k))) as [i Ei]. assert (Gi := G i). rewrite Ei in Gi. rewrite H in Gi. rewrite Nat.eqb_refl in Gi.
    symmetry in Gi. apply Nat.eqb_eq in Gi. subst i. exact Ei. }
  rewrite <- (lit_of (g k)), <- (lit_of (h k)). rewrite E0, E1, Ea. reflexivity.
Qed.

Lemma sf_onto s : swf s -> onto (sf s).
Proof. intros Hs i. destruct (proj2 (s_bij s Hs) i) as [k Hk]. exists k. rewrite sf_atom. exact Hk. Qed.

Lemma finite_digits p P : wf p -> perilen p = None ->
  (forall x i, i < plength p -> Nat.testbit (pget P x) (pget p i) = Nat.testbit x i) ->
  (forall x i, plength p <= i -> Nat.testbit (pget P x) i = Nat.testbit x i) -> digits P (fun k => Z.of_nat (pget p k)).
Proof.
  intros Hw Hn H1 H2 x i. rewrite atom_nat, negated_nat, xorb_false_l.
  destruct (Nat.lt_ge_cases i (plength p)) as [Hi|Hi]; [apply H1; exact Hi|].
  rewrite (proj1 (plength_finite p _ Hw Hn) (le_n _) i Hi). apply H2. exact Hi.
Qed.

Lemma nat_onto p : wf p -> onto (fun k => Z.of_nat (pget p k)).
Proof. intros Hw i. destruct (proj2 (pget_bij p Hw) i) as [k Hk]. exists k. rewrite atom_nat. exact Hk. Qed.

Lemma schoute_mul_ok A B : is_Perm A -> is_Perm B -> (neutral A = true \/ perilen A <> None) -> (neutral B = true \/ perilen B <> None) ->
  exists D, pmul A B = Ok D /\ is_Perm D /\ forall x, pget D x = pget A (pget B x).
Proof.
  intros HA HB KA KB. destruct (mul_ok A B HA HB) as [D [ED [HD [Hx _]]]]; [tauto|]. exists D. auto.
Qed.

(** * Application of a product *)

Lemma sg_apply_mul a b c v : swf a -> swf b -> swf c -> (forall k, sf c k = on_literals (sf a) (sf b k)) ->
  sg_length a <= length v -> sg_length b <= length v ->
  exists w r, sg_apply b v = Ok w /\ sg_apply a w = Ok r /\ sg_apply c v = Ok r.
Proof.
  intros Ha Hb Hc Hm La Lb. destruct (sg_apply_spec b v Hb Lb) as [w [Ew [Hlw Hw]]].
  destruct (sg_apply_spec a w Ha) as [r [Er [Hlr Hr]]]; [lia|].
  assert (Lc : sg_length c <= length v).
  { apply length_least; [exact Hc|]. intros k Hk. rewrite Hm, (sf_high b Hb) by lia. unfold on_literals. rewrite negated_nat, atom_nat.
    apply sf_high; [exact Ha | lia]. }
  destruct (sg_apply_spec c v Hc Lc) as [r' [Er' [Hlr' Hr']]]. exists w, r. split; [exact Ew|]. split; [exact Er|]. rewrite Er'. f_equal.
  apply nth_ext with (d := 0%Z) (d' := 0%Z); [lia|]. intros j Hj. rewrite Hlr' in Hj.
  destruct (sf_onto c Hc j) as [i Hi]. assert (Hil : i < length v).
  { destruct (Nat.lt_ge_cases i (length v)) as [|Hge]; [assumption|]. rewrite (sf_high c Hc) in Hi by lia. rewrite atom_nat in Hi. lia. }
  assert (E1 := Hr' i Hil). assert (E2 := Hw i Hil).
  assert (Hbi : atom (sf b i) < length w) by (rewrite Hlw; apply sf_stays; assumption).
  assert (E3 := Hr (atom (sf b i)) Hbi). rewrite Hi in E1.
  assert (Hj2 : atom (sf a (atom (sf b i))) = j).
  { rewrite <- Hi, Hm, on_literals_sf, sf_atom. reflexivity. }
  rewrite Hj2 in E3. rewrite (nth_error_nth r' j 0%Z E1), (nth_error_nth r j 0%Z E3). rewrite (nth_error_nth w _ 0%Z E2). cbv zeta.
  rewrite Hm. unfold on_literals. destruct (negated (sf b i)).
  - rewrite negated_neg. destruct (negated (sf a (atom (sf b i)))); cbn [negb]; [rewrite neg_neg|]; reflexivity.
  - reflexivity.
Qed.

(** * Helpers on lists of literals *)

Lemma negate_which_spec values which :
  (forall w, In w which -> In w (map atom values)) ->
  logic_negate_which values which = Ok (map (fun z => if memb (atom z) which then neg z else z) values).
Proof.
  intro H. unfold logic_negate_which.
  assert (Ea : logic_abs_vector values = map atom values) by (unfold logic_abs_vector; apply map_ext; apply logic_abs_atom). rewrite Ea.
  rewrite (proj2 (forallb_forall _ _)).
  - cbn [true_except bind]. f_equal. apply map_ext. intro z. rewrite logic_abs_atom, tilde_neg. reflexivity.
  - intros w Hw. apply memb_In. apply H. exact Hw.
Qed.

Lemma negate_which_reject values which w : In w which -> ~ In w (map atom values) ->
  logic_negate_which values which = Err ArgMismatchError.
Proof.
  intros Hw Hn. unfold logic_negate_which.
  assert (Ea : logic_abs_vector values = map atom values) by (unfold logic_abs_vector; apply map_ext; apply logic_abs_atom). rewrite Ea.
  destruct (forallb (fun w => memb w (map atom values)) which) eqn:E; [|reflexivity]. exfalso.
  rewrite forallb_forall in E. apply E in Hw. apply memb_In in Hw. contradiction.
Qed.

(** * The entries that matrix_to_sequence reads *)

Definition matrix_literals (m : list (list Z)) : list Z :=
  flat_map (fun n => flat_map (fun i =>
      if (mat_entry m i n =? 1)%Z then [Z.of_nat i]
      else if (mat_entry m i n =? -1)%Z then [tilde (Z.of_nat i)] else []) (range (length m))) (range (length m)).

Lemma matrix_atoms m : map atom (matrix_literals m) =
  flat_map (fun k => filter (fun i => (nth k (nth i m []) 0 =? 1)%Z || (nth k (nth i m []) 0 =? -1)%Z) (seq 0 (length m))) (seq 0 (length m)).
Proof.
  unfold matrix_literals, range. generalize (seq 0 (length m)) at 2 4 as cols.
  induction cols as [|c cols IHc]; [reflexivity|]. cbn [flat_map]. rewrite map_app, IHc. f_equal.
  generalize (seq 0 (length m)) as rows. induction rows as [|i rows IHr]; [reflexivity|]. cbn [flat_map filter]. rewrite map_app, IHr.
  unfold mat_entry. cbv zeta. destruct (nth c (nth i m []) 0 =? 1)%Z; cbn [orb map app].
  - rewrite atom_nat. reflexivity.
  - destruct (nth c (nth i m []) 0 =? -1)%Z; cbn [map app]; [rewrite tilde_neg, atom_neg, atom_nat|]; reflexivity.
Qed.
