(** Proof_Listing: lexicographic rank, rev_colex_perms, parity, vectors. *)

From Coq Require Import List Arith ZArith Bool Lia Permutation Sorted.
From Verif Require Import Model_Base Lib Model_Perm Spec_Perm Spec_Rank Proof_Perm Proof_PermGroup
  Proof_Inversions.
Import ListNotations.

(** * Lexicographic rank *)

Definition rr (s : list nat) : nat := from_factoradic (rev (ric s)).

Lemma from_fact_snoc i l d : from_factoradic_at i (l ++ [d]) = from_factoradic_at i l + d * fact (i + length l).
Proof.
  revert i; induction l as [|x l IH]; intro i; cbn [app from_factoradic_at length].
  - rewrite !Nat.add_0_r. lia.
  - rewrite IH. replace (i + S (length l)) with (S i + length l) by lia. lia.
Qed.

Lemma rr_cons x p : rr (x :: p) = cnt (lts x) p * fact (length p) + rr p.
Proof.
  unfold rr, from_factoradic. cbn [ric rev]. rewrite from_fact_snoc, rev_length, ric_length. cbn [Nat.add]. lia.
Qed.

Lemma rr_bound p : rr p < fact (length p).
Proof.
  unfold rr, from_factoradic.
  assert (H := from_fact_bound 0 (rev (ric p))).
  rewrite rev_length, ric_length in H. cbn [Nat.add fact] in H.
  assert (Ha : fadm 0 (rev (ric p))).
  { apply ladm_fadm, ladm_rev. rewrite rev_involutive. apply ric_radm. }
  specialize (H Ha). lia.
Qed.

Lemma cnt_lts_head x p : cnt (lts x) (x :: p) = cnt (lts x) p.
Proof. unfold cnt. cbn [filter]. unfold lts at 1. rewrite Nat.ltb_irrefl. reflexivity. Qed.

Lemma cnt_lts_mono x y l : x < y -> In x l -> cnt (lts x) l < cnt (lts y) l.
Proof.
  intros Hxy Hin. apply in_split in Hin as [a [b ->]].
  assert (Hle : forall l, cnt (lts x) l <= cnt (lts y) l).
  { unfold cnt, lts. induction l as [|z l IH]; [reflexivity|]. cbn [filter].
    destruct (Nat.ltb_spec z x); destruct (Nat.ltb_spec z y); cbn [length]; lia. }
  rewrite !cnt_app, cnt_lts_head. assert (H1 := Hle a). assert (H2 := Hle b).
  unfold cnt at 4. cbn [filter]. unfold lts at 4. rewrite (proj2 (Nat.ltb_lt x y) Hxy). cbn [length].
  fold (cnt (lts y) b). lia.
Qed.

Lemma lexlt_rr p p' : Permutation p p' -> lexlt p p' -> rr p < rr p'.
Proof.
  intros Hp H. induction H as [x y a b Hxy|x a b H IH].
  - rewrite !rr_cons.
    assert (Hl : length a = length b) by (apply Permutation_length in Hp; cbn in Hp; lia).
    assert (Hx := cnt_lts_head x a). assert (Hy := cnt_lts_head y b).
    rewrite (cnt_perm _ _ _ Hp) in Hx.
    assert (Hm : cnt (lts x) (y :: b) < cnt (lts y) (y :: b)).
    { apply cnt_lts_mono; [exact Hxy|]. apply (Permutation_in x Hp). left. reflexivity. }
    assert (Hb := rr_bound a). rewrite Hl in *. nia.
  - rewrite !rr_cons. apply Permutation_cons_inv in Hp. specialize (IH Hp).
    rewrite (cnt_perm _ _ _ Hp), (Permutation_length Hp). lia.
Qed.

Lemma lexlt_total a b : length a = length b -> lexlt a b \/ a = b \/ lexlt b a.
Proof.
  revert b; induction a as [|x a IH]; intros [|y b] H; try discriminate; [auto|].
  destruct (lt_eq_lt_dec x y) as [[Hlt|<-]|Hgt].
  - left. constructor. exact Hlt.
  - destruct (IH b ltac:(cbn in H; lia)) as [H1|[->|H1]]; [left | right; left | right; right];
      try apply lex_next; auto.
  - right. right. constructor. exact Hgt.
Qed.

Lemma lexlt_iff p p' : Permutation p p' -> (lexlt p p' <-> rr p < rr p').
Proof.
  intro Hp. split; [apply lexlt_rr; exact Hp|]. intro H.
  destruct (lexlt_total p p' (Permutation_length Hp)) as [H1|[->|H1]]; [exact H1 | lia|].
  apply lexlt_rr in H1; [lia | symmetry; exact Hp].
Qed.

Lemma rr_inj p p' : Permutation p p' -> rr p = rr p' -> p = p'.
Proof.
  intros Hp E. destruct (lexlt_total p p' (Permutation_length Hp)) as [H1|[->|H1]]; [|reflexivity|];
    apply lexlt_rr in H1; auto; [lia | lia | symmetry; exact Hp].
Qed.

(** * itertools.permutations *)

Lemma selects_length {A} (s : list A) : length (selects s) = length s.
Proof. induction s as [|x s IH]; cbn [selects length]; [reflexivity|]. rewrite map_length, IH. reflexivity. Qed.

Lemma selects_nth s b : b < length s -> lpop s b = Ok (nth b (selects s) (0, [])).
Proof.
  revert b; induction s as [|x s IH]; intros b Hb; [cbn in Hb; lia|].
  destruct b as [|b]; cbn [lpop selects nth]; [reflexivity|].
  cbn [length] in Hb. rewrite IH by lia. cbn [bind]. f_equal.
  set (g := fun p : nat * list nat => (fst p, x :: snd p)).
  rewrite (nth_indep (map g (selects s)) (0, []) (g (0, []))) by (rewrite map_length, selects_length; lia).
  rewrite map_nth. reflexivity.
Qed.

Lemma flat_map_nth {A B} (f : A -> list B) l c b r (da : A) (d : B) :
  (forall x, In x l -> length (f x) = c) -> b < length l -> r < c ->
  nth (b * c + r) (flat_map f l) d = nth r (f (nth b l da)) d.
Proof.
  revert b; induction l as [|x l IH]; intros b Hc Hb Hr; [cbn in Hb; lia|].
  cbn [flat_map]. assert (Hx := Hc x (or_introl eq_refl)). destruct b as [|b]; cbn [nth Nat.mul Nat.add].
  - apply app_nth1. lia.
  - rewrite app_nth2 by lia. rewrite Hx. replace (c + b * c + r - c) with (b * c + r) by lia.
    apply IH; [intros y Hy; apply Hc; right; exact Hy | cbn [length] in Hb; lia | exact Hr].
Qed.

Lemma flat_map_len {A B} (f : A -> list B) l c :
  (forall x, In x l -> length (f x) = c) -> length (flat_map f l) = length l * c.
Proof.
  induction l as [|x l IH]; intro Hc; [reflexivity|]. cbn [flat_map length]. rewrite app_length.
  rewrite (Hc x (or_introl eq_refl)), IH by (intros y Hy; apply Hc; right; exact Hy). reflexivity.
Qed.

Lemma perms_spec n s : length s = n -> StronglySorted lt s ->
  length (permutations_fuel n s) = fact n /\
  (forall j, j < fact n -> Permutation (nth j (permutations_fuel n s) []) s /\
                           rr (nth j (permutations_fuel n s) []) = j).
Proof.
  revert s; induction n as [|n IH]; intros s Hl Hs.
  - destruct s; [|discriminate]. cbn. split; [reflexivity|]. intros j Hj.
    assert (j = 0) by lia. subst. split; [reflexivity | reflexivity].
  - cbn [permutations_fuel].
    assert (Hsel : forall b, b < length s -> let xr := nth b (selects s) (0, []) in
       Permutation s (fst xr :: snd xr) /\ StronglySorted lt (snd xr) /\ cnt (lts (fst xr)) (snd xr) = b).
    { intros b Hb. destruct (lpop_lt s b Hs Hb) as [x [s' [E [H1 [H2 H3]]]]].
      rewrite (selects_nth s b Hb) in E. injection E as Exr. cbv zeta. rewrite Exr. cbn [fst snd]. auto. }
    assert (Hblk : forall xr, In xr (selects s) -> length (map (cons (fst xr)) (permutations_fuel n (snd xr))) = fact n).
    { intros xr Hin. apply (In_nth _ _ (0, [])) in Hin as [b [Hb <-]]. rewrite selects_length in Hb.
      destruct (Hsel b Hb) as [H1 [H2 _]]. rewrite map_length. apply IH; [|exact H2].
      apply Permutation_length in H1. cbn [length] in H1. lia. }
    split.
    + rewrite (flat_map_len _ _ (fact n)) by exact Hblk. rewrite selects_length, Hl. reflexivity.
    + intros j Hj. assert (Hf := fact_pos n). assert (Hf0 : fact n <> 0) by lia.
      assert (Ej := Nat.div_mod j (fact n) Hf0). assert (Hr := Nat.mod_upper_bound j (fact n) Hf0).
      set (b := j / fact n) in *. set (r := j mod fact n) in *.
      assert (Hb : b < length s).
      { rewrite Hl. unfold b. apply Nat.div_lt_upper_bound; [exact Hf0|]. change (fact (S n)) with (S n * fact n) in Hj. lia. }
      replace j with (b * fact n + r) at 1 2 by lia.
      rewrite (flat_map_nth _ _ (fact n) b r (0, [])) by (try exact Hblk; rewrite ?selects_length; assumption).
      destruct (Hsel b Hb) as [H1 [H2 H3]].
      set (xr := nth b (selects s) (0, [])) in *.
      assert (Hln : length (snd xr) = n) by (apply Permutation_length in H1; cbn [length] in H1; lia).
      destruct (IH (snd xr) Hln H2) as [Hlen Hn]. destruct (Hn r Hr) as [Hp Hrr].
      rewrite (nth_indep _ [] (fst xr :: [])) by (rewrite map_length, Hlen; exact Hr).
      rewrite map_nth. split.
      * rewrite H1. constructor. exact Hp.
      * rewrite rr_cons, Hrr, (cnt_perm _ _ _ Hp), H3, (Permutation_length Hp), Hln. lia.
Qed.

Lemma permutations_range n :
  length (permutations (range n)) = fact n /\
  (forall j, j < fact n -> Permutation (nth j (permutations (range n)) []) (range n) /\
                           rr (nth j (permutations (range n)) []) = j).
Proof.
  unfold permutations. rewrite range_length. apply perms_spec; [apply range_length | apply range_sorted_lt].
Qed.

Lemma rev_colex_eq n : rev_colex_perms n = rev (map (@rev nat) (permutations (range n))).
Proof.
  unfold rev_colex_perms. generalize (permutations (range n)). intro l.
  assert (H : forall acc, fold_left (fun result (p : list nat) => rev p :: result) l acc = rev (map (@rev nat) l) ++ acc).
  { induction l as [|p l IH]; intro acc; [reflexivity|]. cbn [fold_left map rev]. rewrite IH, <- app_assoc. reflexivity. }
  rewrite H, app_nil_r. reflexivity.
Qed.

Lemma rr_lrec r : NoDup r -> rr r + from_factoradic (rev (lrec r)) + 1 = fact (length r).
Proof.
  induction r as [|x r IH]; intro Hn; [reflexivity|]. inversion Hn as [|? ? Hx Hn']; subst. specialize (IH Hn').
  rewrite rr_cons. unfold from_factoradic in *. cbn [lrec rev]. rewrite from_fact_snoc, rev_length.
  assert (Hll : length (lrec r) = length r) by (clear; induction r as [|y r IH]; cbn; [reflexivity | rewrite IH; reflexivity]).
  rewrite Hll. cbn [Nat.add length].
  assert (Hc : cnt (lts x) r + cnt (fun y => x <? y) r = length r).
  { clear -Hx. unfold cnt, lts. induction r as [|y r IH]; [reflexivity|]. cbn [filter].
    assert (Hy : y <> x) by (intros ->; apply Hx; left; reflexivity).
    assert (Hr : ~ In x r) by (intro Hi; apply Hx; right; exact Hi). specialize (IH Hr).
    destruct (Nat.ltb_spec y x); destruct (Nat.ltb_spec x y); cbn [length]; lia. }
  change (fact (S (length r))) with (S (length r) * fact (length r)). nia.
Qed.

Lemma rev_colex_nth n k : k < fact n ->
  Permutation (nth k (rev_colex_perms n) []) (range n) /\
  from_factoradic (left_inversion_count (nth k (rev_colex_perms n) [])) = k.
Proof.
  intro Hk. rewrite rev_colex_eq. destruct (permutations_range n) as [Hlen Hn].
  rewrite rev_nth by (rewrite map_length, Hlen; exact Hk). rewrite map_length, Hlen.
  set (j := fact n - S k). assert (Hj : j < fact n) by (unfold j; lia).
  destruct (Hn j Hj) as [Hp Hr].
  rewrite (nth_indep _ [] (rev [])) by (rewrite map_length, Hlen; exact Hj). rewrite map_nth.
  set (s := nth j (permutations (range n)) []) in *.
  split; [etransitivity; [symmetry; apply Permutation_rev | exact Hp]|].
  rewrite lic_eq, rev_involutive.
  assert (Hnd : NoDup s) by (apply (Permutation_NoDup (Permutation_sym Hp)), range_NoDup).
  assert (E := rr_lrec s Hnd). rewrite Hr, (Permutation_length Hp), range_length in E. unfold j in E. lia.
Qed.

Lemma lic_snoc_fixed f n : f n = n -> (forall k, k < n -> f k < n) ->
  left_inversion_count (map f (range (S n))) = left_inversion_count (map f (range n)) ++ [0].
Proof.
  intros Hf Hlt. unfold left_inversion_count. rewrite !map_length, !range_length.
  assert (Hm : forall g : nat -> nat, map g (range (S n)) = map g (range n) ++ [g n]).
  { intro g. unfold range. rewrite seq_S, map_app. reflexivity. }
  etransitivity; [apply Hm|]. cbv beta. f_equal.
  - apply map_ext_in. intros i Hi. apply range_In in Hi. apply filter_ext_in_len. intros k Hk. apply range_In in Hk.
    rewrite !nth_map_range by lia. reflexivity.
  - f_equal. rewrite (filter_ext_in_len _ (fun _ => false)).
    + generalize (range n). intro l. clear. induction l as [|x l IH]; [reflexivity | exact IH].
    + intros k Hk. apply range_In in Hk. rewrite !nth_map_range by lia. rewrite Hf. apply Nat.ltb_ge.
      specialize (Hlt k Hk). lia.
Qed.

Lemma finite_stays p n : wf p -> perilen p = None -> plength p <= n -> forall k, k < n -> pget p k < n.
Proof.
  intros H E Hl k Hk. destruct (wf_finite_seq p H E) as [_ [Hp [Hfix _]]].
  destruct (Nat.lt_ge_cases k (plength p)) as [Hk2|Hk2]; [|rewrite Hfix by exact Hk2; exact Hk].
  assert (pget p k < plength p); [|lia]. apply range_In, (Permutation_in _ Hp), in_map, range_In. exact Hk2.
Qed.

Lemma finite_range_perm p n : wf p -> perilen p = None -> plength p <= n ->
  Permutation (map (pget p) (range n)) (range n).
Proof.
  intros H E Hl. apply NoDup_Permutation_bis.
  - apply FinFun.Injective_map_NoDup; [apply (pget_bij p H) | apply range_NoDup].
  - rewrite map_length. lia.
  - intros y Hy. apply in_map_iff in Hy as [x [<- Hx]]. apply range_In in Hx. apply range_In.
    eapply finite_stays; eassumption.
Qed.

Lemma left_rank_long p n : wf p -> perilen p = None -> plength p <= n ->
  left_rank p = Ok (from_factoradic (left_inversion_count (map (pget p) (range n)))).
Proof.
  intros H E Hl. rewrite left_rank_eq by assumption. f_equal.
  destruct (wf_finite_seq p H E) as [_ [Hp [Hfix _]]].
  assert (Hd : exists d, n = d + plength p) by (exists (n - plength p); lia). destruct Hd as [d ->].
  clear Hl. induction d as [|d IH]; [reflexivity|]. rewrite IH. cbn [Nat.add].
  rewrite lic_snoc_fixed.
  - unfold from_factoradic. rewrite from_fact_snoc. lia.
  - apply Hfix. lia.
  - intros k Hk. eapply finite_stays; [exact H | exact E | | exact Hk]. lia.
Qed.

Lemma rev_colex_int_to_perm n k : k < fact n ->
  exists p, int_to_perm k = Ok p /\ psequence p (Some n) = Ok (nth k (rev_colex_perms n) []).
Proof.
  intro Hk. destruct (rev_colex_nth n k Hk) as [Hp Hr].
  set (s := nth k (rev_colex_perms n) []) in *.
  assert (Hls : length s = n) by (apply Permutation_length in Hp; rewrite range_length in Hp; exact Hp).
  assert (Hp' := Hp). rewrite <- Hls in Hp'.
  destruct (Perm_seq_spec s Hp') as [p2 [E2 [Hw2 [En2 Hg2]]]].
  destruct (wf_finite_seq p2 Hw2 En2) as [_ [_ [_ Hlast2]]].
  assert (Hpl2 : plength p2 <= n).
  { destruct (Nat.le_gt_cases (plength p2) n) as [|Hgt]; [assumption|]. exfalso.
    apply Hlast2; [lia|]. rewrite Hg2, Hls. destruct (Nat.ltb_spec (plength p2 - 1) n); [lia | reflexivity]. }
  assert (Hs2 : map (pget p2) (range n) = s).
  { apply nth_ext with (d := 0) (d' := 0); [rewrite map_length, range_length; congruence|].
    intros i Hi. rewrite map_length, range_length in Hi. rewrite nth_map_range by exact Hi.
    rewrite Hg2, Hls. destruct (Nat.ltb_spec i n); [reflexivity | lia]. }
  destruct (int_to_perm_left_rank p2 Hw2 En2) as [k' [p [Ek [Ep Heq]]]].
  rewrite (left_rank_long p2 n Hw2 En2 Hpl2), Hs2, Hr in Ek. inversion Ek; subst k'.
  exists p. split; [exact Ep|].
  destruct (int_to_perm_spec k) as [p' [E' [Hw [En [Hpl _]]]]].
  assert (p' = p) by congruence. subst p'.
  assert (Hpn := proj2 (int_to_perm_length n k p Ep) Hk).
  unfold psequence. rewrite En. rewrite (proj2 (Nat.leb_le _ _) Hpn). cbn [true_except bind]. f_equal.
  rewrite <- Hs2. apply map_ext. intro x. apply (perm_eqb_spec p p2 Hw Hw2). exact Heq.
Qed.

Lemma rev_colex_complete n s : In s (rev_colex_perms n) <-> Permutation s (range n).
Proof.
  destruct (permutations_range n) as [Hlen Hn].
  rewrite rev_colex_eq. rewrite <- in_rev, in_map_iff. split.
  - intros [r [<- Hin]]. apply (In_nth _ _ []) in Hin as [j [Hj <-]]. rewrite Hlen in Hj.
    destruct (Hn j Hj) as [Hp _]. etransitivity; [symmetry; apply Permutation_rev | exact Hp].
  - intro Hp. exists (rev s). split; [apply rev_involutive|].
    assert (Hpr : Permutation (rev s) (range n)) by (etransitivity; [symmetry; apply Permutation_rev | exact Hp]).
    assert (Hb := rr_bound (rev s)). rewrite (Permutation_length Hpr), range_length in Hb.
    destruct (Hn _ Hb) as [Hp2 Hr2].
    replace (rev s) with (nth (rr (rev s)) (permutations (range n)) []).
    + apply nth_In. rewrite Hlen. exact Hb.
    + apply rr_inj; [|exact Hr2]. etransitivity; [exact Hp2 | symmetry; exact Hpr].
Qed.

Lemma rev_colex_NoDup n : NoDup (rev_colex_perms n).
Proof.
  rewrite rev_colex_eq. destruct (permutations_range n) as [Hlen Hn].
  apply NoDup_rev. apply FinFun.Injective_map_NoDup.
  - intros a b E. rewrite <- (rev_involutive a), <- (rev_involutive b), E. reflexivity.
  - apply (NoDup_nth _ []). intros i j Hi Hj E. rewrite Hlen in Hi, Hj.
    destruct (Hn i Hi) as [_ Hri]. destruct (Hn j Hj) as [_ Hrj]. congruence.
Qed.

Lemma rev_colex_length n : length (rev_colex_perms n) = fact n.
Proof. rewrite rev_colex_eq, rev_length, map_length. apply permutations_range. Qed.

Lemma rev_colex_sorted n i j : i < j -> j < fact n ->
  rev_colex_lt (nth i (rev_colex_perms n) []) (nth j (rev_colex_perms n) []).
Proof.
  intros Hij Hj. unfold rev_colex_lt. rewrite rev_colex_eq.
  destruct (permutations_range n) as [Hlen Hn].
  rewrite !rev_nth by (rewrite map_length, Hlen; lia). rewrite map_length, Hlen.
  rewrite !(nth_indep _ [] (rev [])) by (rewrite map_length, Hlen; lia). rewrite !map_nth, !rev_involutive.
  destruct (Hn (fact n - S i) ltac:(lia)) as [Hpi Hri]. destruct (Hn (fact n - S j) ltac:(lia)) as [Hpj Hrj].
  apply lexlt_iff; [rewrite Hpj; symmetry; exact Hpi | lia].
Qed.

Lemma right_rank_eq p : wf p -> perilen p = None ->
  right_rank p = Ok (rr (map (pget p) (range (plength p)))).
Proof.
  intros H E. unfold right_rank. rewrite E. destruct (wf_finite_seq p H E) as [Es _].
  rewrite Es. cbn [bind]. rewrite ric_eq. reflexivity.
Qed.

Lemma rr_surj n k : k < fact n -> exists s, Permutation s (range n) /\ rr s = k.
Proof. intro H. exists (nth k (permutations (range n)) []). apply permutations_range. exact H. Qed.

(** * Vectors *)

Lemma bij_stays (f g : nat -> nat) n : (forall x, g (f x) = x) -> (forall x, f (g x) = x) ->
  (forall i, i < n -> f i < n) -> forall i, i < n -> g i < n.
Proof.
  intros Hgf Hfg Hst i Hi.
  assert (Hincl : incl (range n) (map f (range n))).
  { apply NoDup_length_incl.
    - apply FinFun.Injective_map_NoDup; [|apply range_NoDup].
      intros x y E. rewrite <- (Hgf x), <- (Hgf y), E. reflexivity.
    - rewrite map_length. lia.
    - intros y Hy. apply in_map_iff in Hy as [x [<- Hx]]. apply range_In, Hst, range_In. exact Hx. }
  assert (Hin : In i (map f (range n))) by (apply Hincl, range_In; exact Hi).
  apply in_map_iff in Hin as [x [<- Hx]]. rewrite Hgf. apply range_In. exact Hx.
Qed.

Lemma papply_spec {A} (p : perm) (v : list A) : wf p -> (forall i, i < length v -> pget p i < length v) ->
  exists r, papply p v = Ok r /\ length r = length v /\
    forall i, i < length v -> nth_error r (pget p i) = nth_error v i.
Proof.
  intros H Hst. destruct (pinv_spec p H) as [q [Eq [Hq [Hl [Hr _]]]]].
  unfold papply. rewrite Eq. cbn [bind].
  assert (Hst' := bij_stays (pget p) (pget q) (length v) Hl Hr Hst).
  destruct v as [|d v'] eqn:Ev.
  { exists []. cbn. repeat split; intros i Hi; lia. }
  rewrite <- Ev in *.
  rewrite (mapM_ok _ (fun i => nth (pget q i) v d)).
  - exists (map (fun i => nth (pget q i) v d) (range (length v))). split; [reflexivity|].
    split; [rewrite map_length; apply range_length|].
    intros i Hi. assert (Hpi := Hst i Hi).
    rewrite (nth_error_nth' (map _ _) d) by (rewrite map_length, range_length; exact Hpi).
    rewrite (nth_error_nth' v d) by exact Hi. f_equal.
    rewrite (nth_indep _ d ((fun i => nth (pget q i) v d) 0)) by (rewrite map_length, range_length; exact Hpi).
    rewrite (map_nth (fun i => nth (pget q i) v d)), nth_range by exact Hpi. rewrite Hl. reflexivity.
  - intros i Hi. apply range_In in Hi. apply lget_ok, Hst'. exact Hi.
Qed.

Lemma papply_err {A} (p : perm) (v : list A) i : wf p -> i < length v -> length v <= pget p i ->
  papply p v = Err IndexErr.
Proof.
  intros H Hi Hge. destruct (pinv_spec p H) as [q [Eq [Hq [Hl [Hr _]]]]].
  unfold papply. rewrite Eq. cbn [bind].
  (* some place below length v has a preimage outside *)
  assert (Hex : exists j, j < length v /\ length v <= pget q j).
  { destruct (forallb (fun j => Nat.ltb (pget q j) (length v)) (range (length v))) eqn:F.
    - exfalso. rewrite forallb_forall in F.
      assert (Hst : forall j, j < length v -> pget q j < length v).
      { intros j Hj. apply Nat.ltb_lt. apply F, range_In. exact Hj. }
      assert (Hst2 := bij_stays (pget q) (pget p) (length v) Hr Hl Hst i Hi). lia.
    - assert (Hn : ~ forall j, In j (range (length v)) -> Nat.ltb (pget q j) (length v) = true).
      { intro Hc. apply forallb_forall in Hc. congruence. }
      clear - F. induction (range (length v)) as [|j l IH] eqn:Er in F |- *.
      + discriminate.
      + destruct (existsb (fun j => Nat.leb (length v) (pget q j)) (range (length v))) eqn:Ex.
        * apply existsb_exists in Ex as [j' [Hj' E']]. exists j'. split; [apply range_In; exact Hj' | apply Nat.leb_le; exact E'].
        * exfalso. assert (Ht : forallb (fun j => Nat.ltb (pget q j) (length v)) (range (length v)) = true).
          { apply forallb_forall. intros y Hy. apply Nat.ltb_lt.
            destruct (Nat.lt_ge_cases (pget q y) (length v)) as [|Hc]; [assumption|]. exfalso.
            assert (existsb (fun j => Nat.leb (length v) (pget q j)) (range (length v)) = true); [|congruence].
            apply existsb_exists. exists y. split; [exact Hy | apply Nat.leb_le; exact Hc]. }
          rewrite Er in Ht. congruence. }
  destruct Hex as [j [Hj Hqj]].
  assert (Hin : In j (range (length v))) by (apply range_In; exact Hj).
  induction (range (length v)) as [|y l IH]; [destruct Hin|]. cbn [mapM].
  destruct Hin as [->|Hin].
  - rewrite lget_err by exact Hqj. reflexivity.
  - destruct (lget v (pget q y)) as [z|e] eqn:El; cbn [bind].
    + rewrite IH by exact Hin. reflexivity.
    + unfold lget in El. destruct (nth_error v (pget q y)); [discriminate | inversion El; reflexivity].
Qed.

Lemma nth_error_ext' {A} (l l' : list A) : (forall i, nth_error l i = nth_error l' i) -> l = l'.
Proof.
  revert l'; induction l as [|x l IH]; intros [|y l'] H; auto.
  - specialize (H 0). discriminate.
  - specialize (H 0). discriminate.
  - assert (H0 := H 0). cbn in H0. inversion H0; subst. f_equal. apply IH. intro i. apply (H (S i)).
Qed.

Lemma papply_mul {A} (a b c : perm) (v : list A) : wf a -> wf b -> pmul a b = Ok c ->
  (forall i, i < length v -> pget a i < length v) -> (forall i, i < length v -> pget b i < length v) ->
  exists w r, papply b v = Ok w /\ papply a w = Ok r /\ papply c v = Ok r.
Proof.
  intros Ha Hb Ec Sa Sb. destruct (pmul_inv a b c Ha Hb Ec) as [Hc Hg].
  destruct (papply_spec b v Hb Sb) as [w [Ew [Lw Hw]]].
  destruct (papply_spec a w Ha) as [r [Er [Lr Hr]]]; [rewrite Lw; exact Sa|].
  assert (Sc : forall i, i < length v -> pget c i < length v) by (intros i Hi; rewrite Hg; auto).
  destruct (papply_spec c v Hc Sc) as [r' [Er' [Lr' Hr']]].
  exists w, r. split; [exact Ew|]. split; [exact Er|]. rewrite Er'. f_equal.
  apply nth_error_ext'. intro j. destruct (Nat.lt_ge_cases j (length v)) as [Hj|Hj].
  - destruct (pinv_spec c Hc) as [q [_ [_ [Hl [Hrr _]]]]].
    assert (Hqj : pget q j < length v) by (eapply (bij_stays (pget c) (pget q)); eassumption).
    rewrite <- (Hrr j). rewrite Hr' by exact Hqj. rewrite Hg.
    rewrite Hr by (rewrite Lw; apply Sb; exact Hqj). rewrite Hw by exact Hqj. reflexivity.
  - rewrite (proj2 (nth_error_None r' j)), (proj2 (nth_error_None r j)) by lia. reflexivity.
Qed.

(** * Parity *)

Definition inverted (f : nat -> nat) (ab : nat * nat) : bool := f (snd ab) <? f (fst ab).
Definition ninv (f : nat -> nat) (n : nat) : nat := length (filter (inverted f) (pairs_of (range n))).

Lemma pairs_of_In (l : list nat) a b : StronglySorted lt l ->
  (In (a, b) (pairs_of l) <-> In a l /\ In b l /\ a < b).
Proof.
  induction 1 as [|x l Hs IH Hf]; cbn [pairs_of]; [cbn; tauto|]. rewrite Forall_forall in Hf.
  rewrite in_app_iff, in_map_iff, IH. cbn [In]. split.
  - intros [[y [[= -> ->] Hy]]|H]; [specialize (Hf b Hy); auto | tauto].
  - intros [[->|Ha] [[->|Hb] Hlt]]; try lia.
    + left. exists b. auto.
    + specialize (Hf a Ha). lia.
    + right. auto.
Qed.

Lemma pairs_of_NoDup (l : list nat) : NoDup l -> NoDup (pairs_of l).
Proof.
  induction l as [|x l IH]; intro H; cbn [pairs_of]; [constructor|]. inversion H as [|? ? Hx Hn]; subst.
  assert (Hm : NoDup (map (fun y => (x, y)) l)).
  { apply FinFun.Injective_map_NoDup; [intros y z E; congruence | exact Hn]. }
  assert (Hd : forall p, In p (map (fun y => (x, y)) l) -> ~ In p (pairs_of l)).
  { intros p Hp Hp2. apply in_map_iff in Hp as [y [<- Hy]]. apply Hx.
    clear -Hp2. induction l as [|z l IH]; cbn [pairs_of] in Hp2; [destruct Hp2|].
    apply in_app_or in Hp2 as [Hp2|Hp2].
    - apply in_map_iff in Hp2 as [w [E _]]. left. congruence.
    - right. apply IH. exact Hp2. }
  specialize (IH Hn). induction Hm as [|p m Hp Hm IHm]; [exact IH|]. cbn [app]. constructor.
  - rewrite in_app_iff. intros [Hi|Hi]; [contradiction|]. apply (Hd p); [left; reflexivity | exact Hi].
  - apply IHm. intros p' Hp'. apply Hd. right. exact Hp'.
Qed.

Lemma filter_length_perm {A} (f : A -> bool) l1 l2 : Permutation l1 l2 -> length (filter f l1) = length (filter f l2).
Proof. induction 1; cbn [filter]; try destruct (f x); try destruct (f y); cbn [length]; congruence. Qed.

Lemma filter_xor {A} (f g : A -> bool) l :
  length (filter (fun x => xorb (f x) (g x)) l) + 2 * length (filter (fun x => f x && g x) l)
  = length (filter f l) + length (filter g l).
Proof.
  induction l as [|x l IH]; [reflexivity|]. cbn [filter]. destruct (f x), (g x); cbn [xorb andb length]; lia.
Qed.

Lemma filter_map_len {A B} (f : B -> bool) (g : A -> B) l :
  length (filter f (map g l)) = length (filter (fun x => f (g x)) l).
Proof. induction l as [|x l IH]; [reflexivity|]. cbn [map filter]. destruct (f (g x)); cbn [length]; rewrite IH; reflexivity. Qed.

Lemma ninv_comp f g n : injective f -> injective g -> (forall i, i < n -> g i < n) ->
  ninv (fun x => f (g x)) n mod 2 = (ninv f n + ninv g n) mod 2.
Proof.
  intros Hf Hg Hst. unfold ninv. set (P := pairs_of (range n)).
  set (phi := fun ab : nat * nat => (Nat.min (g (fst ab)) (g (snd ab)), Nat.max (g (fst ab)) (g (snd ab)))).
  assert (HP : forall a b, In (a, b) P <-> a < b /\ b < n).
  { intros a b. unfold P. rewrite pairs_of_In by apply range_sorted_lt. rewrite !range_In. lia. }
  assert (HN : NoDup P) by apply pairs_of_NoDup, range_NoDup.
  assert (Hphi : Permutation (map phi P) P).
  { apply NoDup_Permutation_bis.
    - assert (Hinj : forall x y, In x P -> In y P -> phi x = phi y -> x = y).
      { intros [a b] [c d] Hx Hy E. apply HP in Hx, Hy. unfold phi in E. cbn [fst snd] in E.
        inversion E as [[E1 E2]].
        assert (Hcase : (g a = g c /\ g b = g d) \/ (g a = g d /\ g b = g c)) by lia.
        destruct Hcase as [[Ea Eb]|[Ea Eb]]; apply Hg in Ea, Eb; subst; [reflexivity | lia]. }
      clear -HN Hinj. induction HN as [|x l Hx Hn IH]; cbn [map]; constructor.
      + intro Hi. apply in_map_iff in Hi as [y [E Hy]].
        assert (y = x) by (apply Hinj; [right; exact Hy | left; reflexivity | exact E]). subst. contradiction.
      + apply IH. intros a b Ha Hb. apply Hinj; right; assumption.
    - rewrite map_length. lia.
    - intros [a b] Hi. apply in_map_iff in Hi as [[c d] [E Hcd]]. apply HP in Hcd. apply HP.
      unfold phi in E. cbn [fst snd] in E. inversion E; subst.
      assert (g c < n) by (apply Hst; lia). assert (g d < n) by (apply Hst; lia).
      assert (g c <> g d) by (intro Hc; apply Hg in Hc; lia). lia. }
  rewrite (filter_ext_in_len (inverted (fun x => f (g x))) (fun ab => xorb (inverted g ab) (inverted f (phi ab)))).
  2: { intros [a b] Hab. apply HP in Hab. unfold inverted, phi. cbn [fst snd].
       assert (Hne : g a <> g b) by (intro Hc; apply Hg in Hc; lia).
       assert (Hne2 : f (g a) <> f (g b)) by (intro Hc; apply Hf in Hc; contradiction).
       destruct (Nat.ltb_spec (g b) (g a)) as [Hlt|Hge].
       - rewrite Nat.min_r, Nat.max_l by lia. cbn [xorb].
         destruct (Nat.ltb_spec (f (g b)) (f (g a))); destruct (Nat.ltb_spec (f (g a)) (f (g b))); auto; lia.
       - rewrite Nat.min_l, Nat.max_r by lia. rewrite xorb_false_l. reflexivity. }
  assert (E := filter_xor (inverted g) (fun ab => inverted f (phi ab)) P).
  rewrite <- (filter_map_len (inverted f) phi P), (filter_length_perm _ _ _ Hphi) in E.
  set (X := length (filter (fun x => xorb (inverted g x) (inverted f (phi x))) P)) in *.
  set (Y := length (filter (fun x => inverted g x && inverted f (phi x)) P)) in *.
  set (F := length (filter (inverted f) P)) in *. set (G := length (filter (inverted g) P)) in *.
  replace (F + G) with (X + Y * 2) by lia. rewrite Nat.mod_add by lia. reflexivity.
Qed.

Lemma ninv_fixed f n : f n = n -> (forall k, k < n -> f k < n) -> ninv f (S n) = ninv f n.
Proof.
  intros Hf Hst. unfold ninv.
  rewrite (filter_length_perm _ (pairs_of (range (S n))) (pairs_of (range n) ++ map (fun k => (k, n)) (range n))).
  - rewrite filter_app, app_length, filter_map_len.
    rewrite (filter_ext_in_len _ (fun _ => false) (range n)).
    + assert (E : length (filter (fun _ : nat => false) (range n)) = 0)
        by (generalize (range n); intro l; induction l as [|x l IH]; [reflexivity | exact IH]).
      rewrite E. lia.
    + intros k Hk. apply range_In in Hk. unfold inverted. cbn [fst snd]. rewrite Hf. apply Nat.ltb_ge.
      specialize (Hst k Hk). lia.
  - apply NoDup_Permutation.
    + apply pairs_of_NoDup, range_NoDup.
    + assert (Hd : forall p, In p (pairs_of (range n)) -> ~ In p (map (fun k => (k, n)) (range n))).
      { intros [a b] H1 H2. apply pairs_of_In in H1; [|apply range_sorted_lt]. rewrite !range_In in H1.
        apply in_map_iff in H2 as [k [E _]]. inversion E; subst. lia. }
      assert (H1 : NoDup (pairs_of (range n))) by apply pairs_of_NoDup, range_NoDup.
      assert (H2 : NoDup (map (fun k => (k, n)) (range n))).
      { apply FinFun.Injective_map_NoDup; [intros y z E; congruence | apply range_NoDup]. }
      induction H1 as [|p l Hp Hl IH]; [exact H2|]. cbn [app]. constructor.
      * rewrite in_app_iff. intros [Hi|Hi]; [contradiction|]. apply (Hd p); [left; reflexivity | exact Hi].
      * apply IH. intros p' Hp'. apply Hd. right. exact Hp'.
    + intros [a b]. rewrite in_app_iff, !pairs_of_In by apply range_sorted_lt. rewrite !range_In, in_map_iff.
      split.
      * intros [Ha [Hb Hlt]]. destruct (Nat.eq_dec b n) as [->|Hne].
        -- right. exists a. split; [reflexivity | apply range_In; lia].
        -- left. lia.
      * intros [H|[k [E Hk]]]; [lia|]. apply range_In in Hk. inversion E; subst. lia.
Qed.

Lemma pparity_long p n : wf p -> perilen p = None -> plength p <= n -> pparity p = ninv (pget p) n mod 2.
Proof.
  intros H E Hl. unfold pparity, inversion_set.
  change (length (filter (fun ab => pget p (snd ab) <? pget p (fst ab)) (pairs_of (range (plength p)))))
    with (ninv (pget p) (plength p)). f_equal.
  destruct (wf_finite_seq p H E) as [_ [Hp [Hfix _]]].
  assert (Hd : exists d, n = d + plength p) by (exists (n - plength p); lia). destruct Hd as [d ->].
  clear Hl. induction d as [|d IH]; [reflexivity|]. rewrite IH. cbn [Nat.add]. symmetry. apply ninv_fixed.
  - apply Hfix. lia.
  - intros k Hk. eapply finite_stays; [exact H | exact E | | exact Hk]. lia.
Qed.

Lemma pparity_mul a b c : wf a -> wf b -> perilen a = None -> perilen b = None -> pmul a b = Ok c ->
  pparity c = (pparity a + pparity b) mod 2.
Proof.
  intros Ha Hb Ea Eb Ec. destruct (pmul_inv a b c Ha Hb Ec) as [Hc Hg].
  assert (Ec' : perilen c = None).
  { destruct (pmul_spec a b Ha Hb) as [c' [E' [_ [_ Hk]]]].
    - right. right. rewrite Ea, Eb. tauto.
    - assert (c' = c) by congruence. subst c'.
      assert (K : kind c true) by (apply Hk; right; split; auto).
      destruct K as [K|K]; [|apply K; reflexivity].
      assert (W := wf_peri c Hc). destruct (perilen c); [|reflexivity]. destruct W. congruence. }
  set (n := plength a + plength b + plength c).
  rewrite (pparity_long a n), (pparity_long b n), (pparity_long c n) by (try assumption; unfold n; lia).
  rewrite <- Nat.add_mod by lia.
  rewrite <- (ninv_comp (pget a) (pget b) n).
  - f_equal. unfold ninv. apply filter_ext_in_len. intros [x y] _. unfold inverted. cbn [fst snd]. rewrite !Hg. reflexivity.
  - apply (pget_bij a Ha).
  - apply (pget_bij b Hb).
  - apply (finite_stays b n Hb Eb). unfold n. lia.
Qed.

(** * Recovering a permutation from its inversion set *)

Lemma inversion_set_In p a b : In (a, b) (inversion_set p) <-> a < b /\ b < plength p /\ pget p b < pget p a.
Proof.
  unfold inversion_set. rewrite filter_In, pairs_of_In by apply range_sorted_lt.
  cbn [fst snd]. rewrite !range_In, Nat.ltb_lt. lia.
Qed.

Lemma fold_max_spec pairs len n :
  (forall a b, In (a, b) pairs -> a < n /\ b < n) -> len <= n ->
  (len = n \/ exists a b, In (a, b) pairs /\ (S a = n \/ S b = n)) ->
  fold_left (fun l ab => Nat.max l (Nat.max (S (fst ab)) (S (snd ab)))) pairs len = n.
Proof.
  revert len; induction pairs as [|[a b] pairs IH]; intros len Hlt Hle Hex; cbn [fold_left fst snd].
  - destruct Hex as [->|[a [b [[] _]]]]. reflexivity.
  - assert (Hab := Hlt a b (or_introl eq_refl)). apply IH.
    + intros c d Hin. apply Hlt. right. exact Hin.
    + lia.
    + destruct Hex as [->|[c [d [[E|Hin] Hcd]]]].
      * left. lia.
      * inversion E; subst. left. lia.
      * right. exists c, d. auto.
Qed.

Lemma inversion_set_recovers p pairs : wf p -> perilen p = None -> Permutation pairs (inversion_set p) ->
  inversion_set_to_permutation pairs = psequence p None.
Proof.
  intros H E Hperm. destruct (wf_finite_seq p H E) as [Es [Hp [Hfix Hlast]]].
  rewrite Es. unfold inversion_set_to_permutation.
  set (s := map (pget p) (range (plength p))) in *.
  assert (Hc : inversion_set_to_count pairs = left_inversion_count s).
  { unfold inversion_set_to_count.
    assert (Hin : forall a b, In (a, b) pairs <-> a < b /\ b < plength p /\ pget p b < pget p a).
    { intros a b. rewrite <- inversion_set_In. split; apply Permutation_in; [|symmetry]; exact Hperm. }
    rewrite (fold_max_spec pairs 0 (plength p)).
    - unfold left_inversion_count. unfold s at 3. rewrite map_length, range_length.
      apply map_ext_in. intros key Hkey. apply range_In in Hkey.
      rewrite (filter_length_perm _ _ _ Hperm).
      transitivity (length (map (fun k => (k, key)) (filter (fun k => nth key s 0 <? nth k s 0) (range key)))).
      2: apply map_length.
      apply Permutation_length, NoDup_Permutation.
      + apply NoDup_filter. unfold inversion_set. apply NoDup_filter, pairs_of_NoDup, range_NoDup.
      + apply FinFun.Injective_map_NoDup; [intros y z Eyz; congruence | apply NoDup_filter, range_NoDup].
      + intros [a b]. rewrite filter_In, inversion_set_In, in_map_iff. cbn [snd]. rewrite Nat.eqb_eq. split.
        * intros [[H1 [H2 H3]] ->]. exists a. split; [reflexivity|]. apply filter_In. rewrite range_In.
          split; [exact H1|]. unfold s. rewrite !nth_map_range by lia. apply Nat.ltb_lt. exact H3.
        * intros [k [Ek Hk]]. inversion Ek; subst. apply filter_In in Hk as [Hk1 Hk2]. apply range_In in Hk1.
          unfold s in Hk2. rewrite !nth_map_range in Hk2 by lia. apply Nat.ltb_lt in Hk2. lia.
    - intros a b Hab. apply Hin in Hab. lia.
    - lia.
    - destruct (plength p) as [|n] eqn:En; [left; reflexivity|]. right.
      (* the last place is moved, so a larger value stands before it *)
      specialize (Hlast ltac:(lia)). replace (S n - 1) with n in Hlast by lia.
      assert (Hn : In n s) by (apply (Permutation_in n (Permutation_sym Hp)), range_In; lia).
      unfold s in Hn. apply in_map_iff in Hn as [k [Ek Hk]]. apply range_In in Hk.
      assert (k <> n) by (intros ->; contradiction).
      assert (Hpn : pget p n < S n).
      { apply range_In, (Permutation_in _ Hp), in_map, range_In. lia. }
      exists k, n. split; [apply Hin; lia | right; reflexivity]. }
  rewrite Hc. apply left_roundtrip with (n := plength p). exact Hp.
Qed.
