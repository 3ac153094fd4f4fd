(** Proof_Inversions: inversion counts, factorial digits, ranks, listings. *)

From Coq Require Import List Arith ZArith Bool Lia Permutation Sorted.
From Verif Require Import Model_Base Lib Model_Perm Spec_Perm Proof_Perm Proof_PermGroup.
Import ListNotations.

Definition cnt (f : nat -> bool) (l : list nat) : nat := length (filter f l).
Definition lts (x : nat) : nat -> bool := fun y => Nat.ltb y x.

(** recursive form of the right inversion count *)
Fixpoint ric (p : list nat) : list nat :=
  match p with [] => [] | x :: p' => cnt (lts x) p' :: ric p' end.

Lemma filter_seq_shift (f : nat -> bool) a n :
  length (filter f (seq (S a) n)) = length (filter (fun k => f (S k)) (seq a n)).
Proof.
  revert a; induction n as [|n IH]; intro a; [reflexivity|].
  rewrite <- !cons_seq. cbn [filter]. destruct (f (S a)); cbn [length]; rewrite IH; reflexivity.
Qed.

Lemma filter_ext_in_len {A} (f g : A -> bool) l :
  (forall x, In x l -> f x = g x) -> length (filter f l) = length (filter g l).
Proof. intro H. rewrite (filter_ext_in f g l H). reflexivity. Qed.

Lemma cnt_nth (f : nat -> bool) l :
  length (filter (fun k => f (nth k l 0)) (seq 0 (length l))) = cnt f l.
Proof.
  unfold cnt. induction l as [|x l IH]; [reflexivity|].
  cbn [length]. rewrite <- cons_seq. cbn [filter nth].
  destruct (f x); cbn [length]; rewrite filter_seq_shift; cbn [nth]; rewrite IH; reflexivity.
Qed.

Lemma ric_eq p : right_inversion_count p = ric p.
Proof.
  induction p as [|x p IH]; [reflexivity|].
  unfold right_inversion_count, range in *. cbn [length ric]. rewrite <- cons_seq. cbn [map].
  f_equal.
  - unfold range2. rewrite Nat.sub_0_r. cbn [length]. rewrite <- cons_seq. cbn [filter nth].
    rewrite Nat.ltb_irrefl, filter_seq_shift. cbn [nth]. apply (cnt_nth (lts x)).
  - rewrite <- IH, <- seq_shift, map_map. apply map_ext_in. intros i Hi. apply in_seq in Hi.
    unfold range2. cbn [length nth]. rewrite Nat.sub_succ. rewrite filter_seq_shift. reflexivity.
Qed.

Lemma ric_length p : length (ric p) = length p.
Proof. induction p as [|x p IH]; cbn; [reflexivity | rewrite IH; reflexivity]. Qed.

Lemma cnt_perm f l1 l2 : Permutation l1 l2 -> cnt f l1 = cnt f l2.
Proof.
  unfold cnt. induction 1; cbn [filter]; try destruct (f x); try destruct (f y); cbn [length]; congruence.
Qed.

Lemma cnt_app f l1 l2 : cnt f (l1 ++ l2) = cnt f l1 + cnt f l2.
Proof. unfold cnt. rewrite filter_app, app_length. reflexivity. Qed.

Lemma cnt_le f l : cnt f l <= length l.
Proof. unfold cnt. induction l as [|x l IH]; cbn [filter length]; [lia|]. destruct (f x); cbn [length]; lia. Qed.

(** popping the place of [x] from a sorted stack *)
Lemma lpop_sorted s x : StronglySorted lt s -> In x s ->
  exists s', lpop s (cnt (lts x) s) = Ok (x, s') /\ Permutation s (x :: s') /\ StronglySorted lt s'.
Proof.
  induction s as [|y s IH]; intros Hs Hin; [destruct Hin|].
  inversion Hs as [|? ? Hs' Hf]; subst. rewrite Forall_forall in Hf.
  unfold cnt. cbn [filter]. unfold lts at 1.
  destruct Hin as [->|Hin].
  - rewrite Nat.ltb_irrefl.
    assert (E : length (filter (lts x) s) = 0).
    { rewrite (filter_ext_in_len _ (fun _ => false)).
      - clear. induction s as [|y s IH]; [reflexivity | exact IH].
      - intros z Hz. specialize (Hf z Hz). apply Nat.ltb_ge. lia. }
    rewrite E. exists s. cbn [lpop]. repeat split; auto.
  - assert (Hyx := Hf x Hin). rewrite (proj2 (Nat.ltb_lt y x) Hyx). cbn [length lpop].
    destruct (IH Hs' Hin) as [s' [E [Hp Hss]]]. fold (cnt (lts x) s). rewrite E. cbn [bind fst snd].
    exists (y :: s'). split; [reflexivity|]. split.
    + etransitivity; [apply perm_skip; exact Hp | apply perm_swap].
    + constructor; [exact Hss|]. rewrite Forall_forall. intros z Hz. apply Hf.
      apply (Permutation_in z (Permutation_sym Hp)). right. exact Hz.
Qed.

Lemma lpop_lt s b : StronglySorted lt s -> b < length s ->
  exists x s', lpop s b = Ok (x, s') /\ Permutation s (x :: s') /\ StronglySorted lt s' /\
    cnt (lts x) s' = b.
Proof.
  revert b; induction s as [|y s IH]; intros b Hs Hb; [cbn in Hb; lia|].
  inversion Hs as [|? ? Hs' Hf]; subst. rewrite Forall_forall in Hf. destruct b as [|b]; cbn [lpop].
  - exists y, s. repeat split; auto. unfold cnt. rewrite (filter_ext_in_len _ (fun _ => false)).
    + clear. induction s as [|z s IH]; [reflexivity | exact IH].
    + intros z Hz. specialize (Hf z Hz). apply Nat.ltb_ge. lia.
  - destruct (IH b Hs' ltac:(cbn in Hb; lia)) as [x [s' [E [Hp [Hss Hc]]]]]. rewrite E. cbn [bind fst snd].
    exists x, (y :: s'). split; [reflexivity|]. split; [|split].
    + etransitivity; [apply perm_skip; exact Hp | apply perm_swap].
    + constructor; [exact Hss|]. rewrite Forall_forall. intros z Hz. apply Hf.
      apply (Permutation_in z (Permutation_sym Hp)). right. exact Hz.
    + unfold cnt in *. cbn [filter]. unfold lts at 1.
      assert (Hx : In x s) by (apply (Permutation_in x (Permutation_sym Hp)); left; reflexivity).
      rewrite (proj2 (Nat.ltb_lt y x) (Hf x Hx)). cbn [length]. f_equal. exact Hc.
Qed.

Lemma lpop_ge {A} (s : list A) b : length s <= b -> lpop s b = Err IndexErr.
Proof.
  revert b; induction s as [|y s IH]; intros b Hb; [destruct b; reflexivity|].
  destruct b as [|b]; [cbn in Hb; lia|]. cbn [lpop]. rewrite IH by (cbn in Hb; lia). reflexivity.
Qed.

Lemma pop_all_ric s p : StronglySorted lt s -> Permutation p s -> pop_all s (ric p) = Ok p.
Proof.
  revert s; induction p as [|x p IH]; intros s Hs Hp; [reflexivity|].
  cbn [ric pop_all].
  assert (Hx : In x s) by (apply (Permutation_in x Hp); left; reflexivity).
  assert (E : cnt (lts x) p = cnt (lts x) s).
  { rewrite <- (cnt_perm _ _ _ Hp). unfold cnt. cbn [filter]. unfold lts at 2.
    rewrite Nat.ltb_irrefl. reflexivity. }
  destruct (lpop_sorted s x Hs Hx) as [s' [El [Hp' Hs']]]. rewrite E, El. cbn [bind fst snd].
  rewrite (IH s' Hs').
  - reflexivity.
  - apply Permutation_cons_inv with (a := x). etransitivity; eassumption.
Qed.

(** right digits are admissible: entry i is at most n-1-i *)
Fixpoint radm (v : list nat) : Prop :=
  match v with [] => True | b :: v' => b <= length v' /\ radm v' end.

Lemma ric_radm p : radm (ric p).
Proof.
  induction p as [|x p IH]; cbn [ric radm]; [exact I|].
  split; [rewrite ric_length; apply cnt_le | exact IH].
Qed.

Lemma pop_all_radm s v : StronglySorted lt s -> length s = length v -> radm v ->
  exists p, pop_all s v = Ok p /\ Permutation p s /\ ric p = v.
Proof.
  revert s; induction v as [|b v IH]; intros s Hs Hl Hr.
  - destruct s; [|discriminate]. exists []. repeat split; constructor.
  - destruct Hr as [Hb Hr]. cbn [length] in Hl.
    destruct (lpop_lt s b Hs ltac:(lia)) as [x [s' [E [Hp [Hs' Hc]]]]].
    assert (Hl' : length s' = length v).
    { apply Permutation_length in Hp. cbn [length] in Hp. lia. }
    destruct (IH s' Hs' Hl' Hr) as [p [Ep [Hpp Hric]]].
    exists (x :: p). cbn [pop_all]. rewrite E. cbn [bind fst snd]. rewrite Ep. cbn [bind].
    split; [reflexivity|]. split.
    + rewrite Hp. constructor. exact Hpp.
    + cbn [ric]. rewrite Hric. f_equal. rewrite (cnt_perm _ _ _ Hpp). exact Hc.
Qed.

Lemma pop_all_not_radm s v : length s = length v -> ~ radm v -> pop_all s v = Err IndexErr.
Proof.
  revert s; induction v as [|b v IH]; intros s Hl Hr; [exfalso; apply Hr; exact I|].
  cbn [pop_all]. destruct (Nat.lt_ge_cases b (length s)) as [Hb|Hb].
  - assert (E : exists x s', lpop s b = Ok (x, s') /\ length s' = length v).
    { cbn [length] in Hl. clear -Hb Hl. revert s v Hb Hl; induction b as [|b IHb]; intros [|y s] v Hb Hl; cbn in *; try lia.
      - exists y, s. split; [reflexivity | lia].
      - destruct v as [|v0 v]; [cbn in Hl; lia|]. destruct (IHb s v ltac:(lia) ltac:(cbn in *; lia)) as [x [s' [E E2]]].
        rewrite E. cbn. exists x, (y :: s'). split; [reflexivity | cbn; lia]. }
    destruct E as [x [s' [E Hl']]]. rewrite E. cbn [bind fst snd]. rewrite IH; [reflexivity | exact Hl' |].
    intro Hr'. apply Hr. split; [cbn [length] in Hl; lia | exact Hr'].
  - rewrite lpop_ge by exact Hb. reflexivity.
Qed.

(** * Left counts through reflection *)

Definition flip (n : nat) (p : list nat) : list nat := rev (map (fun x => n - 1 - x) p).

Lemma flip_flip n p : (forall x, In x p -> x < n) -> flip n (flip n p) = p.
Proof.
  intro H. unfold flip. rewrite map_rev, rev_involutive, map_map.
  rewrite <- (map_id p) at 2. apply map_ext_in. intros x Hx. specialize (H x Hx). lia.
Qed.

Lemma flip_length n p : length (flip n p) = length p.
Proof. unfold flip. rewrite rev_length, map_length. reflexivity. Qed.

Lemma flip_perm n p : Permutation p (range n) -> Permutation (flip n p) (range n).
Proof.
  intro H. unfold flip. etransitivity; [symmetry; apply Permutation_rev|].
  apply NoDup_Permutation_bis.
  - assert (Hlt : forall x, In x p -> x < n) by (intros x Hx; apply range_In, (Permutation_in x H Hx)).
    assert (Hn : NoDup p) by (apply (Permutation_NoDup (Permutation_sym H)), range_NoDup).
    clear H. induction p as [|x p IH]; cbn [map]; [constructor|]. inversion Hn; subst.
    constructor; [|apply IH; [intros y Hy; apply Hlt; right; exact Hy | assumption]].
    intro Hi. apply in_map_iff in Hi as [y [E Hy]].
    assert (Hx := Hlt x (or_introl eq_refl)). assert (Hyl := Hlt y (or_intror Hy)).
    assert (x = y) by lia. subst. contradiction.
  - rewrite map_length, range_length. apply Permutation_length in H. rewrite range_length in H. lia.
  - intros y Hy. apply in_map_iff in Hy as [x [<- Hx]]. apply (Permutation_in x H), range_In in Hx.
    apply range_In. lia.
Qed.

(** counting greater elements on the left, recursively on the reversed list *)
Fixpoint lrec (r : list nat) : list nat :=   (* r = reversed permutation *)
  match r with [] => [] | x :: r' => cnt (fun y => Nat.ltb x y) r' :: lrec r' end.

Lemma lic_eq p : left_inversion_count p = rev (lrec (rev p)).
Proof.
  induction p as [|x p IH] using rev_ind; [reflexivity|].
  rewrite rev_app_distr. cbn [rev app lrec]. rewrite <- IH.
  unfold left_inversion_count, range. rewrite app_length. cbn [length].
  rewrite Nat.add_1_r, seq_S, map_app. cbn [map Nat.add]. f_equal.
  - apply map_ext_in. intros i Hi. apply in_seq in Hi. apply filter_ext_in_len. intros k Hk. apply in_seq in Hk.
    rewrite !app_nth1 by lia. reflexivity.
  - f_equal. rewrite app_nth2, Nat.sub_diag by lia. cbn [nth].
    rewrite (cnt_perm _ _ _ (Permutation_sym (Permutation_rev p))).
    rewrite <- (cnt_nth (fun y => Nat.ltb x y) p). apply filter_ext_in_len. intros k Hk. apply in_seq in Hk.
    rewrite app_nth1 by lia. reflexivity.
Qed.

Lemma lrec_ric n r : (forall x, In x r -> x < n) -> lrec r = ric (map (fun x => n - 1 - x) r).
Proof.
  induction r as [|x r IH]; intro H; [reflexivity|]. cbn [lrec map ric]. f_equal.
  - unfold cnt. assert (Hx := H x (or_introl eq_refl)).
    assert (Hr : forall y, In y r -> y < n) by (intros y Hy; apply H; right; exact Hy).
    clear IH H. induction r as [|y r IH]; [reflexivity|]. cbn [filter map].
    assert (Hy := Hr y (or_introl eq_refl)).
    unfold lts at 1. replace (Nat.ltb (n - 1 - y) (n - 1 - x)) with (Nat.ltb x y).
    + specialize (IH (fun z Hz => Hr z (or_intror Hz))). destruct (Nat.ltb x y); cbn [length]; rewrite IH; reflexivity.
    + destruct (Nat.ltb_spec x y); destruct (Nat.ltb_spec (n - 1 - y) (n - 1 - x)); auto; lia.
  - apply IH. intros y Hy. apply H. right. exact Hy.
Qed.

Lemma lic_ric n p : (forall x, In x p -> x < n) -> left_inversion_count p = rev (ric (flip n p)).
Proof.
  intro H. rewrite lic_eq. f_equal. unfold flip. rewrite <- map_rev. apply lrec_ric.
  intros x Hx. apply H, in_rev. exact Hx.
Qed.

Lemma lic_length p : length (left_inversion_count p) = length p.
Proof. unfold left_inversion_count. rewrite map_length. apply range_length. Qed.

(** admissible left vectors: entry i at most i *)
Definition ladm (v : list nat) : Prop := forall i, i < length v -> nth i v 0 <= i.

Lemma radm_nth v : radm v <-> forall i, i < length v -> nth i v 0 <= length v - 1 - i.
Proof.
  induction v as [|b v IH]; cbn [radm length].
  - split; [intros _ i Hi; lia | auto].
  - rewrite IH. split.
    + intros [Hb H] [|i] Hi; cbn [nth]; [lia|]. specialize (H i ltac:(lia)). lia.
    + intro H. split; [specialize (H 0 ltac:(lia)); cbn [nth] in H; lia|].
      intros i Hi. specialize (H (S i) ltac:(lia)). cbn [nth] in H. lia.
Qed.

Lemma ladm_rev v : ladm v <-> radm (rev v).
Proof.
  rewrite radm_nth, rev_length. unfold ladm. split; intros H i Hi.
  - rewrite rev_nth by exact Hi. specialize (H (length v - S i) ltac:(lia)). lia.
  - specialize (H (length v - S i) ltac:(lia)). rewrite rev_nth in H by lia.
    replace (length v - S (length v - S i)) with i in H by lia. lia.
Qed.

Lemma left_roundtrip p n : Permutation p (range n) ->
  left_inversion_count_to_permutation (left_inversion_count p) = Ok p.
Proof.
  intro H. assert (Hl : length p = n) by (apply Permutation_length in H; rewrite range_length in H; exact H).
  assert (Hlt : forall x, In x p -> x < n) by (intros x Hx; apply range_In, (Permutation_in x H Hx)).
  unfold left_inversion_count_to_permutation. cbv zeta. rewrite lic_length, Hl.
  rewrite (lic_ric n p Hlt), rev_involutive.
  rewrite pop_all_ric; [|apply range_sorted_lt | apply flip_perm; exact H]. cbn [bind].
  f_equal. apply (flip_flip n p Hlt).
Qed.

Lemma left_total v : ladm v ->
  exists p, left_inversion_count_to_permutation v = Ok p /\
    Permutation p (range (length v)) /\ left_inversion_count p = v.
Proof.
  intro H. apply ladm_rev in H. unfold left_inversion_count_to_permutation. cbv zeta.
  destruct (pop_all_radm (range (length v)) (rev v)) as [c [Ec [Hp Hr]]].
  - apply range_sorted_lt.
  - rewrite range_length, rev_length. reflexivity.
  - exact H.
  - rewrite Ec. cbn [bind]. exists (flip (length v) c). split; [reflexivity|].
    assert (Hlt : forall x, In x c -> x < length v) by (intros x Hx; apply range_In, (Permutation_in x Hp Hx)).
    split; [apply flip_perm; exact Hp|].
    rewrite (lic_ric (length v)).
    + rewrite flip_flip by exact Hlt. rewrite Hr. apply rev_involutive.
    + intros x Hx. apply range_In. apply (Permutation_in x (flip_perm _ _ Hp) Hx).
Qed.

Lemma left_reject v : ~ ladm v -> left_inversion_count_to_permutation v = Err IndexErr.
Proof.
  intro H. unfold left_inversion_count_to_permutation. cbv zeta.
  rewrite pop_all_not_radm; [reflexivity | rewrite range_length, rev_length; reflexivity|].
  rewrite <- ladm_rev. exact H.
Qed.

Lemma right_roundtrip p n : Permutation p (range n) ->
  right_inversion_count_to_permutation (right_inversion_count p) = Ok p.
Proof.
  intro H. unfold right_inversion_count_to_permutation. rewrite ric_eq, ric_length.
  assert (Hl : length p = n) by (apply Permutation_length in H; rewrite range_length in H; exact H).
  rewrite Hl. apply pop_all_ric; [apply range_sorted_lt | exact H].
Qed.

Lemma right_total v : (forall i, i < length v -> nth i v 0 <= length v - 1 - i) ->
  exists p, right_inversion_count_to_permutation v = Ok p /\
    Permutation p (range (length v)) /\ right_inversion_count p = v.
Proof.
  intro H. apply radm_nth in H. unfold right_inversion_count_to_permutation.
  destruct (pop_all_radm (range (length v)) v) as [p [E [Hp Hr]]];
    [apply range_sorted_lt | apply range_length | exact H|].
  exists p. rewrite ric_eq. auto.
Qed.

Lemma right_reject v : ~ (forall i, i < length v -> nth i v 0 <= length v - 1 - i) ->
  right_inversion_count_to_permutation v = Err IndexErr.
Proof.
  intro H. unfold right_inversion_count_to_permutation. apply pop_all_not_radm; [apply range_length|].
  rewrite radm_nth. exact H.
Qed.

Lemma lic_ladm p n : Permutation p (range n) -> ladm (left_inversion_count p).
Proof.
  intros H. apply ladm_rev.
  assert (Hlt : forall x, In x p -> x < n) by (intros x Hx; apply range_In, (Permutation_in x H Hx)).
  rewrite (lic_ric n p Hlt), rev_involutive. apply ric_radm.
Qed.

(** * Factorial base *)

(** digit i (from place [i0]) is at most its place *)
Fixpoint fadm (i : nat) (ds : list nat) : Prop :=
  match ds with [] => True | d :: ds' => d <= i /\ fadm (S i) ds' end.

Lemma ladm_fadm ds : ladm ds <-> fadm 0 ds.
Proof.
  assert (H : forall i0, (forall i, i < length ds -> nth i ds 0 <= i0 + i) <-> fadm i0 ds).
  { induction ds as [|d ds IH]; intro i0; cbn [fadm length].
    - split; [auto | intros _ i Hi; lia].
    - rewrite <- IH. split.
      + intro H. split; [specialize (H 0 ltac:(lia)); cbn [nth] in H; lia|].
        intros i Hi. specialize (H (S i) ltac:(lia)). cbn [nth] in H. lia.
      + intros [Hd H] [|i] Hi; cbn [nth]; [lia|]. specialize (H i ltac:(lia)). lia. }
  rewrite <- (H 0). reflexivity.
Qed.

Lemma fact_pos n : 0 < fact n.
Proof. apply lt_O_fact. Qed.

Lemma from_fact_bound i ds : fadm i ds -> from_factoradic_at i ds + fact i <= fact (i + length ds).
Proof.
  revert i; induction ds as [|d ds IH]; intros i H; cbn [from_factoradic_at length].
  - rewrite Nat.add_0_r. lia.
  - destruct H as [Hd H]. specialize (IH (S i) H). rewrite <- plus_n_Sm. cbn [Nat.add fact] in IH |- *.
    change (fact (S (i + length ds))) with (fact (S i + length ds)).
    change (fact i + i * fact i) with (fact (S i)) in IH. cbn [fact] in IH. nia.
Qed.

Definition last_nz (ds : list nat) : Prop := ds = [] \/ last ds 0 <> 0.

Lemma factoradic_loop_spec fuel value divisor : 1 <= divisor ->
  value + (if Nat.eqb divisor 1 then 1 else 0) < fuel \/ value = 0 ->
  let ds := factoradic_loop fuel value divisor in
  fact (divisor - 1) * value = from_factoradic_at (divisor - 1) ds /\ fadm (divisor - 1) ds /\ last_nz ds.
Proof.
  revert value divisor; induction fuel as [|fuel IH]; intros value divisor Hd Hf; cbn [factoradic_loop].
  - destruct Hf as [Hf| ->]; [lia|]. cbn. repeat split; [lia | left; reflexivity].
  - destruct (Nat.eqb_spec value 0) as [->|Hv].
    { cbn. repeat split; [lia | left; reflexivity]. }
    destruct Hf as [Hf|Hf]; [|contradiction].
    set (ds := factoradic_loop fuel (value / divisor) (S divisor)).
    assert (Hd0 : divisor <> 0) by lia.
    assert (Em := Nat.div_mod value divisor Hd0).
    assert (Hm := Nat.mod_upper_bound value divisor Hd0).
    destruct (IH (value / divisor) (S divisor) ltac:(lia)) as [H1 [H2 H3]].
    { destruct (Nat.eqb_spec (S divisor) 1); [lia|].
      destruct (Nat.eqb_spec divisor 1) as [->|Hne]; [left; rewrite Nat.div_1_r in *; lia|].
      left. assert (value / divisor < value) by (apply Nat.div_lt; lia). lia. }
    fold ds in H1, H2, H3. cbn [from_factoradic_at fadm].
    replace (S divisor - 1) with divisor in H1, H2 by lia.
    replace (S (divisor - 1)) with divisor by lia.
    split; [|split].
    + rewrite <- H1. destruct divisor as [|e]; [lia|]. replace (S e - 1) with e in * by lia. cbn [fact].
      set (D := value / S e) in *. set (R := value mod S e) in *. rewrite Em at 1. nia.
    + split; [lia | exact H2].
    + destruct H3 as [Hnil|Hl].
      * right. rewrite Hnil. cbn [last]. intro E0. rewrite Hnil in H1. cbn in H1.
        assert (Hz : value / divisor = 0) by (assert (Hfp := fact_pos divisor); nia). nia.
      * right. destruct ds as [|d ds']; [cbn in Hl; congruence | exact Hl].
Qed.

Lemma int_to_factoradic_spec n :
  from_factoradic (int_to_factoradic n) = n /\ ladm (int_to_factoradic n) /\ last_nz (int_to_factoradic n).
Proof.
  unfold int_to_factoradic, from_factoradic.
  destruct (factoradic_loop_spec (S (S n)) n 1 (le_n 1)) as [H1 [H2 H3]].
  { left. cbn [Nat.eqb]. lia. }
  cbn [Nat.sub] in *. cbn [fact] in H1. rewrite Nat.mul_1_l in H1.
  split; [congruence|]. split; [apply ladm_fadm; exact H2 | exact H3].
Qed.

Lemma from_fact_step i ds : from_factoradic_at (S i) ds = fact (S i) * (from_factoradic_at (S i) ds / fact (S i)).
Proof.
  assert (H : exists c, from_factoradic_at (S i) ds = c * fact (S i)).
  { revert i; induction ds as [|e ds IH]; intro i; cbn [from_factoradic_at]; [exists 0; reflexivity|].
    destruct (IH (S i)) as [c Hc]. exists (e + c * S (S i)).
    rewrite Hc. change (fact (S (S i))) with (S (S i) * fact (S i)). ring. }
  destruct H as [c ->]. assert (Hp := fact_pos (S i)).
  rewrite Nat.div_mul by lia. lia.
Qed.

(** digits are unique once trailing zeros are removed *)
Lemma from_fact_inj i ds es : fadm i ds -> fadm i es -> last_nz ds -> last_nz es ->
  from_factoradic_at i ds = from_factoradic_at i es -> ds = es.
Proof.
  assert (Hnz : forall ds i, last_nz ds -> from_factoradic_at i ds = 0 -> ds = []).
  { induction ds0 as [|d ds0 IH]; intros i0 Hl E; [reflexivity|]. exfalso.
    cbn [from_factoradic_at] in E. assert (Hp := fact_pos i0).
    assert (Hd : d = 0) by nia. assert (E2 : from_factoradic_at (S i0) ds0 = 0) by nia.
    destruct Hl as [Hl|Hl]; [discriminate|].
    destruct ds0 as [|d' ds0]; [cbn in Hl; congruence|].
    assert (d' :: ds0 = []) by (apply (IH (S i0)); [right; exact Hl | exact E2]). discriminate. }
  revert i es; induction ds as [|d ds IH]; intros i es Hd He Ld Le E.
  - symmetry. apply (Hnz es i Le). rewrite <- E. reflexivity.
  - destruct es as [|e es]; [apply (Hnz (d :: ds) i Ld); rewrite E; reflexivity|].
    destruct Hd as [Hd Hds]. destruct He as [He Hes]. cbn [from_factoradic_at] in E.
    rewrite (from_fact_step i ds), (from_fact_step i es) in E.
    set (A := from_factoradic_at (S i) ds / fact (S i)) in *.
    set (B := from_factoradic_at (S i) es / fact (S i)) in *.
    assert (Hp := fact_pos i).
    assert (Hmain : d = e /\ A = B).
    { change (fact (S i)) with (S i * fact i) in E.
      assert (E' : d + S i * A = e + S i * B) by nia.
      assert (d = e); [|nia].
      assert (Hdm : (d + S i * A) mod S i = d).
      { rewrite (Nat.mul_comm (S i)), Nat.mod_add by lia. apply Nat.mod_small. lia. }
      assert (Hem : (e + S i * B) mod S i = e).
      { rewrite (Nat.mul_comm (S i)), Nat.mod_add by lia. apply Nat.mod_small. lia. }
      congruence. }
    destruct Hmain as [-> HAB]. f_equal.
    apply (IH (S i)); [exact Hds | exact Hes | | |].
    + destruct Ld as [Ld|Ld]; [discriminate|]. destruct ds; [left; reflexivity | right; exact Ld].
    + destruct Le as [Le|Le]; [discriminate|]. destruct es; [left; reflexivity | right; exact Le].
    + rewrite (from_fact_step i ds), (from_fact_step i es). fold A B. rewrite HAB. reflexivity.
Qed.

(** * Finite permutations and their sequences *)

Lemma wf_finite_seq p : wf p -> perilen p = None ->
  psequence p None = Ok (map (pget p) (range (plength p))) /\
  Permutation (map (pget p) (range (plength p))) (range (plength p)) /\
  (forall x, plength p <= x -> pget p x = x) /\
  (plength p <> 0 -> pget p (plength p - 1) <> plength p - 1).
Proof.
  intros H E. unfold psequence. rewrite E. split; [reflexivity|].
  assert (Wp := wf_peri p H). rewrite E in Wp.
  assert (Hfix : forall x, plength p <= x -> pget p x = x).
  { intros x Hx. destruct (Nat.eq_dec (pget p x) x) as [|Hne]; [assumption|]. exfalso.
    apply act_moved in Hne; [|exact H]. rewrite E in Hne. unfold moved in Hne.
    assert (Hge := list_max_nat_ge _ _ Hne). destruct (mapping p); [destruct Hne | lia]. }
  split; [|split; [exact Hfix|]].
  - apply NoDup_Permutation_bis.
    + apply FinFun.Injective_map_NoDup; [apply (pget_bij p H) | apply range_NoDup].
    + rewrite map_length. lia.
    + intros y Hy. apply in_map_iff in Hy as [x [<- Hx]]. apply range_In in Hx. apply range_In.
      destruct (Nat.lt_ge_cases (pget p x) (plength p)) as [|Hge]; [assumption|]. exfalso.
      assert (E2 := Hfix _ Hge). apply (pget_bij p H) in E2. lia.
  - intro Hl. destruct (mapping p) as [|kv m] eqn:Em; [congruence|].
    assert (Hmax : plength p - 1 = list_max_nat (dkeys (mapping p))) by (rewrite Em; lia).
    rewrite Hmax. apply act_moved; [exact H|]. rewrite E. apply list_max_nat_In. unfold moved. rewrite Em. discriminate.
Qed.

Lemma nth_map_range (f : nat -> nat) n i : i < n -> nth i (map f (range n)) 0 = f i.
Proof.
  intro H. rewrite (nth_indep _ 0 (f 0)) by (rewrite map_length, range_length; exact H).
  rewrite map_nth, nth_range by exact H. reflexivity.
Qed.

(** last digit of the left count is zero iff the last element is fixed *)
Lemma lic_last p n : Permutation p (range (S n)) ->
  (nth n (left_inversion_count p) 0 = 0 <-> nth n p 0 = n).
Proof.
  intro H. unfold left_inversion_count.
  assert (Hl : length p = S n) by (apply Permutation_length in H; rewrite range_length in H; exact H).
  rewrite Hl, nth_map_range by lia.
  assert (Hn : NoDup p) by (apply (Permutation_NoDup (Permutation_sym H)), range_NoDup).
  split; intro E.
  - destruct (Nat.eq_dec (nth n p 0) n) as [|Hne]; [assumption|]. exfalso.
    assert (Hin : In n p) by (apply (Permutation_in n (Permutation_sym H)), range_In; lia).
    apply (In_nth p n 0) in Hin as [k [Hk Ek]].
    assert (Hlast : nth n p 0 < S n).
    { apply range_In, (Permutation_in _ H), nth_In. lia. }
    assert (Hkn : k <> n) by (intros ->; congruence).
    assert (Hin : In k (filter (fun k => nth n p 0 <? nth k p 0) (range n))).
    { apply filter_In. split; [apply range_In; lia|]. apply Nat.ltb_lt. lia. }
    destruct (filter _ (range n)); [destruct Hin | discriminate].
  - rewrite E. rewrite (filter_ext_in_len _ (fun _ => false)).
    + generalize (range n). intro l. clear. induction l as [|x l IH]; [reflexivity | exact IH].
    + intros k Hk. apply range_In in Hk. apply Nat.ltb_ge.
      assert (nth k p 0 < S n); [|lia]. apply range_In, (Permutation_in _ H), nth_In. lia.
Qed.

Lemma last_nth (l : list nat) d : last l d = nth (length l - 1) l d.
Proof.
  induction l as [|x l IH]; [reflexivity|]. destruct l as [|y l]; [reflexivity|].
  change (last (x :: y :: l) d) with (last (y :: l) d). rewrite IH. cbn [length]. replace (S (S (length l)) - 1) with (S (S (length l) - 1)) by lia.
  reflexivity.
Qed.

Lemma lic_last_nz p : wf p -> perilen p = None ->
  last_nz (left_inversion_count (map (pget p) (range (plength p)))).
Proof.
  intros H E. destruct (wf_finite_seq p H E) as [_ [Hp [_ Hlast]]].
  destruct (plength p) as [|n] eqn:En; [left; reflexivity|]. right.
  rewrite last_nth, lic_length, map_length, range_length.
  replace (S n - 1) with n in * by lia. rewrite (lic_last _ n Hp).
  rewrite nth_map_range by lia. apply Hlast. lia.
Qed.

(** the sequence argument determines action and length *)
Lemma Perm_seq_spec s : Permutation s (range (length s)) ->
  exists p, Perm (ArgSeq s) None = Ok p /\ wf p /\ perilen p = None /\
    (forall x, pget p x = if x <? length s then nth x s 0 else x).
Proof.
  intro Hp. destruct (Perm_spec (ArgSeq s) None I Hp I) as [p [E [Hw [Hg [Hn Hk]]]]].
  exists p. split; [exact E|]. split; [exact Hw|]. split.
  - destruct (neutral p) eqn:Np; [|apply Hk; reflexivity].
    assert (Wp := wf_peri p Hw). destruct (perilen p); [|reflexivity]. destruct Wp. congruence.
  - intro x. rewrite Hg. unfold fapp. destruct (Nat.ltb_spec x (length s)) as [Hx|Hx].
    + assert (Hin : In (x, nth x s 0) (raw (ArgSeq s))).
      { cbn [raw]. apply enumerate_In. apply nth_error_nth'. exact Hx. }
      rewrite (In_dget _ _ _ (raw_NoDup (ArgSeq s) I) Hin). reflexivity.
    + destruct (dget (raw (ArgSeq s)) x) as [v|] eqn:Ev; [|reflexivity]. exfalso.
      apply dget_In in Ev. cbn [raw] in Ev. apply enumerate_In in Ev.
      assert (nth_error s x <> None) by congruence. apply nth_error_Some in H. lia.
Qed.

Lemma plength_seq p s : wf p -> perilen p = None -> Permutation s (range (length s)) ->
  (forall x, pget p x = if x <? length s then nth x s 0 else x) ->
  (s = [] \/ nth (length s - 1) s 0 <> length s - 1) ->
  plength p = length s /\ map (pget p) (range (plength p)) = s.
Proof.
  intros H E Hs Hg Hl. destruct (wf_finite_seq p H E) as [_ [Hp [Hfix Hlast]]].
  assert (El : plength p = length s).
  { destruct (lt_eq_lt_dec (plength p) (length s)) as [[Hlt|Heq]|Hgt]; [|exact Heq|].
    - exfalso. destruct Hl as [->|Hl]; [cbn in Hlt; lia|]. apply Hl.
      specialize (Hfix (length s - 1) ltac:(lia)). rewrite Hg in Hfix.
      destruct (Nat.ltb_spec (length s - 1) (length s)); [exact Hfix | lia].
    - exfalso. apply Hlast; [lia|]. rewrite Hg.
      destruct (Nat.ltb_spec (plength p - 1) (length s)); [lia | reflexivity]. }
  split; [exact El|]. rewrite El. apply nth_ext with (d := 0) (d' := 0).
  - rewrite map_length, range_length. reflexivity.
  - intros i Hi. rewrite map_length, range_length in Hi. rewrite nth_map_range by exact Hi.
    rewrite Hg. destruct (Nat.ltb_spec i (length s)); [reflexivity | lia].
Qed.

Lemma left_rank_eq p : wf p -> perilen p = None ->
  left_rank p = Ok (from_factoradic (left_inversion_count (map (pget p) (range (plength p))))).
Proof.
  intros H E. unfold left_rank. rewrite E. destruct (neutral p) eqn:Np.
  - assert (Em := proj1 (wf_neutral p H) Np). assert (Wp := wf_peri p H). rewrite E, Em in Wp.
    rewrite Wp. reflexivity.
  - destruct (wf_finite_seq p H E) as [Es _]. rewrite Es. reflexivity.
Qed.

Lemma int_to_perm_spec n :
  exists p, int_to_perm n = Ok p /\ wf p /\ perilen p = None /\
    plength p = length (int_to_factoradic n) /\
    left_inversion_count (map (pget p) (range (plength p))) = int_to_factoradic n.
Proof.
  destruct (int_to_factoradic_spec n) as [H1 [H2 H3]]. unfold int_to_perm.
  destruct (left_total _ H2) as [s [Es [Hp Hl]]]. rewrite Es. cbn [bind].
  assert (Hls : length s = length (int_to_factoradic n))
    by (apply Permutation_length in Hp; rewrite range_length in Hp; exact Hp).
  rewrite <- Hls in Hp.
  destruct (Perm_seq_spec s Hp) as [p [Ep [Hw [En Hg]]]].
  exists p. split; [exact Ep|]. split; [exact Hw|]. split; [exact En|].
  destruct (plength_seq p s Hw En Hp Hg) as [Hpl Hps].
  - destruct (length s) as [|m] eqn:Em; [left; apply length_zero_iff_nil; exact Em|]. right.
    replace (S m - 1) with m by lia.
    intro E0. apply (lic_last s m Hp) in E0. rewrite Hl in E0.
    destruct H3 as [H3|H3]; [rewrite H3 in Hls; cbn in Hls; lia|]. apply H3.
    rewrite last_nth, <- Hls. replace (S m - 1) with m by lia. exact E0.
  - rewrite Hps, Hl. split; [lia | reflexivity].
Qed.

Lemma left_rank_int_to_perm n p : int_to_perm n = Ok p -> left_rank p = Ok n.
Proof.
  intro E. destruct (int_to_perm_spec n) as [p' [E' [Hw [Hn [_ Hl]]]]].
  assert (p' = p) by congruence. subst p'.
  rewrite (left_rank_eq p Hw Hn), Hl. f_equal. apply int_to_factoradic_spec.
Qed.

Lemma int_to_perm_left_rank p : wf p -> perilen p = None ->
  exists n p', left_rank p = Ok n /\ int_to_perm n = Ok p' /\ perm_eqb p' p = true.
Proof.
  intros H E. destruct (wf_finite_seq p H E) as [_ [Hp [Hfix _]]].
  set (s := map (pget p) (range (plength p))) in *.
  set (n := from_factoradic (left_inversion_count s)).
  destruct (int_to_perm_spec n) as [p' [E' [Hw [Hn [Hpl Hl]]]]].
  exists n, p'. split; [apply left_rank_eq; assumption|]. split; [exact E'|].
  apply perm_eqb_spec; [exact Hw | exact H|].
  destruct (int_to_factoradic_spec n) as [H1 [H2 H3]].
  assert (Hds : int_to_factoradic n = left_inversion_count s).
  { apply (from_fact_inj 0).
    - apply ladm_fadm. exact H2.
    - apply ladm_fadm. eapply lic_ladm. exact Hp.
    - exact H3.
    - apply lic_last_nz; assumption.
    - exact H1. }
  destruct (wf_finite_seq p' Hw Hn) as [_ [Hp' [Hfix' _]]].
  assert (Hs : map (pget p') (range (plength p')) = s).
  { assert (R1 := left_roundtrip _ _ Hp'). assert (R2 := left_roundtrip _ _ Hp).
    rewrite Hl, Hds in R1. congruence. }
  assert (Hlen : plength p' = plength p).
  { apply (f_equal (@length nat)) in Hs. unfold s in Hs. rewrite !map_length, !range_length in Hs. exact Hs. }
  intro x. destruct (Nat.lt_ge_cases x (plength p)) as [Hx|Hx].
  - rewrite <- (nth_map_range (pget p') (plength p') x) by lia. rewrite Hs. unfold s.
    apply nth_map_range. exact Hx.
  - rewrite Hfix, Hfix' by lia. reflexivity.
Qed.

Lemma from_fact_lower i ds : last_nz ds -> ds <> [] -> fact (i + length ds - 1) <= from_factoradic_at i ds.
Proof.
  revert i; induction ds as [|d ds IH]; intros i Hl Hne; [congruence|].
  destruct Hl as [Hl|Hl]; [discriminate|]. cbn [from_factoradic_at length].
  destruct ds as [|d' ds].
  - cbn [last] in Hl. cbn [length from_factoradic_at]. replace (i + 1 - 1) with i by lia. nia.
  - specialize (IH (S i) (or_intror Hl) ltac:(discriminate)).
    replace (i + S (length (d' :: ds)) - 1) with (S i + length (d' :: ds) - 1) by lia. lia.
Qed.

Lemma int_to_perm_length n k p : int_to_perm k = Ok p -> (plength p <= n <-> k < fact n).
Proof.
  intro E. destruct (int_to_perm_spec k) as [p' [E' [_ [_ [Hpl _]]]]].
  assert (p' = p) by congruence. subst p'. rewrite Hpl.
  destruct (int_to_factoradic_spec k) as [H1 [H2 H3]]. unfold from_factoradic in H1.
  set (ds := int_to_factoradic k) in *. split; intro H.
  - assert (Hb := from_fact_bound 0 ds (proj1 (ladm_fadm ds) H2)). rewrite H1 in Hb. cbn [fact Nat.add] in Hb.
    assert (Hm := fact_le (length ds) n H). lia.
  - destruct (Nat.le_gt_cases (length ds) n) as [|Hgt]; [assumption|]. exfalso.
    assert (Hne : ds <> []) by (intro E0; rewrite E0 in Hgt; cbn in Hgt; lia).
    assert (Hl := from_fact_lower 0 ds H3 Hne). rewrite H1 in Hl. cbn [Nat.add] in Hl.
    assert (Hm := fact_le n (length ds - 1) ltac:(lia)). lia.
Qed.
