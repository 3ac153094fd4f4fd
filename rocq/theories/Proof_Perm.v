(** Proof_Perm: lemmas about Model_Perm (constructor, period reduction, group operations). *)

From Coq Require Import List Arith ZArith Bool Lia Permutation Sorted.
From Verif Require Import Model_Base Lib Model_Perm Spec_Perm.
Import ListNotations.

(** * Maps *)

Definition fapp (m : dict) (x : nat) : nat := match dget m x with Some v => v | None => x end.
Definition ext (m : dict) (q x : nat) : nat :=
  match dget m (x mod q) with Some v => v + x - x mod q | None => x end.
Definition act (m : dict) (peri : option nat) : nat -> nat :=
  match peri with None => fapp m | Some q => ext m q end.

Definition mvd (kv : nat * nat) : bool := negb (Nat.eqb (fst kv) (snd kv)).

Record wfmap (m : dict) : Prop := {
  wm_keys : NoDup (dkeys m);
  wm_vals : NoDup (dvals m);
  wm_incl : forall v, In v (dvals m) <-> In v (dkeys m);
  wm_move : forall k v, In (k, v) m -> v <> k
}.

Lemma keys_filter_perm (d : dict) :
  Permutation (dkeys d) (dvals d) ->
  Permutation (dkeys (filter mvd d)) (dvals (filter mvd d)).
Proof.
  intro H.
  assert (Hd : Permutation d (filter mvd d ++ filter (fun x => negb (mvd x)) d)).
  { clear H. induction d as [|x d IH]; cbn [filter]; [reflexivity|].
    destruct (mvd x); cbn [negb app]; [constructor; exact IH|].
    etransitivity; [apply perm_skip; exact IH | apply Permutation_middle]. }
  assert (E : dkeys (filter (fun x => negb (mvd x)) d) = dvals (filter (fun x => negb (mvd x)) d)).
  { clear. induction d as [|[k v] d IH]; cbn [filter]; [reflexivity|]. unfold mvd. cbn [fst snd].
    rewrite negb_involutive. destruct (Nat.eqb_spec k v) as [->|]; [|exact IH].
    cbn [dkeys dvals map fst snd]. f_equal. exact IH. }
  assert (Hk := Permutation_map fst Hd). assert (Hv := Permutation_map snd Hd).
  rewrite !map_app in Hk, Hv. fold dkeys in *. unfold dkeys, dvals in *.
  rewrite E in Hk. rewrite Hk, Hv in H. eapply Permutation_app_inv_r; exact H.
Qed.

Lemma NoDup_map_filter {A B} (f : A -> B) g l : NoDup (map f l) -> NoDup (map f (filter g l)).
Proof.
  induction l as [|x l IH]; cbn [map filter]; intro H; [constructor|].
  inversion H as [|? ? Hni Hn]; subst. destruct (g x); cbn [map]; [|apply IH; exact Hn].
  constructor; [|apply IH; exact Hn]. intro Hi. apply Hni.
  apply in_map_iff in Hi as [y [Ey Hy]]. apply filter_In in Hy as [Hy _].
  apply in_map_iff. eauto.
Qed.

Lemma wfmap_filter d : NoDup (dkeys d) -> Permutation (dkeys d) (dvals d) -> wfmap (filter mvd d).
Proof.
  intros Hn Hp. assert (Hp' := keys_filter_perm d Hp).
  assert (Hk : NoDup (dkeys (filter mvd d))) by (apply NoDup_map_filter; exact Hn).
  constructor.
  - exact Hk.
  - eapply Permutation_NoDup; [exact Hp' | exact Hk].
  - intro v. split; apply Permutation_in; [symmetry|]; exact Hp'.
  - intros k v Hin. apply filter_In in Hin as [_ Hm]. unfold mvd in Hm. cbn [fst snd] in Hm.
    apply negb_true_iff, Nat.eqb_neq in Hm. congruence.
Qed.

Lemma filter_mvd_get d k : NoDup (dkeys d) ->
  dget (filter mvd d) k = match dget d k with Some v => if Nat.eqb k v then None else Some v | None => None end.
Proof.
  intro Hn. assert (Hf : NoDup (dkeys (filter mvd d))) by (apply NoDup_map_filter; exact Hn).
  destruct (dget (filter mvd d) k) as [v|] eqn:E.
  - apply dget_In, filter_In in E as [Hin Hm]. rewrite (In_dget d k v Hn Hin).
    unfold mvd in Hm. cbn [fst snd] in Hm. apply negb_true_iff in Hm. rewrite Hm. reflexivity.
  - destruct (dget d k) as [v|] eqn:E2; [|reflexivity].
    destruct (Nat.eqb k v) eqn:Ekv; [reflexivity|]. exfalso.
    apply dget_None in E. apply E. apply (in_map fst (filter mvd d) (k, v)).
    apply filter_In. split; [apply dget_In; exact E2 | unfold mvd; cbn [fst snd]; rewrite Ekv; reflexivity].
Qed.

Lemma fapp_filter d x : NoDup (dkeys d) -> fapp (filter mvd d) x = fapp d x.
Proof.
  intro Hn. unfold fapp. rewrite filter_mvd_get by exact Hn.
  destruct (dget d x) as [v|]; [|reflexivity].
  destruct (Nat.eqb_spec x v) as [->|]; reflexivity.
Qed.

Lemma ext_filter d q x : NoDup (dkeys d) -> q <> 0 -> ext (filter mvd d) q x = ext d q x.
Proof.
  intros Hn Hq. unfold ext. rewrite filter_mvd_get by exact Hn.
  destruct (dget d (x mod q)) as [v|]; [|reflexivity].
  destruct (Nat.eqb_spec (x mod q) v) as [E|]; [|reflexivity].
  pose proof (Nat.mod_le x q Hq). lia.
Qed.

Lemma fold_set_if_moved d m :
  NoDup (dkeys (m ++ d)) -> fold_left set_if_moved d m = m ++ filter mvd d.
Proof.
  revert m; induction d as [|[k v] d IH]; intros m H; cbn [fold_left filter].
  - rewrite app_nil_r. reflexivity.
  - unfold set_if_moved at 2. unfold mvd at 1. cbn [fst snd].
    assert (Hni : ~ In k (dkeys m) /\ NoDup (dkeys (m ++ d))).
    { unfold dkeys in *. rewrite map_app in *. cbn [map fst] in H.
      pose proof (NoDup_remove_1 _ _ _ H). pose proof (NoDup_remove_2 _ _ _ H) as H2.
      split; [intro Hi; apply H2; apply in_or_app; left; exact Hi | assumption]. }
    destruct (Nat.eqb k v); cbn [negb].
    + apply IH. apply Hni.
    + rewrite dset_fresh by apply Hni. rewrite IH.
      * rewrite <- app_assoc. reflexivity.
      * rewrite <- app_assoc. exact H.
Qed.

(** * The raw assignment list of an argument *)

Definition rot (c : list nat) : list nat := match c with [] => [] | x :: c' => c' ++ [x] end.
Definition raw (arg : perm_arg) : dict :=
  match arg with
  | ArgNone => []
  | ArgSeq l => enumerate l
  | ArgCycles cs => flat_map (fun c => combine c (rot c)) cs
  | ArgDict d => d
  end.

Lemma rot_perm c : Permutation c (rot c).
Proof. destruct c as [|x c]; cbn [rot]; [reflexivity | apply Permutation_cons_append]. Qed.

Lemma combine_fst {A B} (a : list A) (b : list B) :
  length a = length b -> map fst (combine a b) = a.
Proof.
  revert b; induction a as [|x a IH]; intros [|y b] H; cbn in *; try discriminate; try reflexivity.
  f_equal. apply IH. lia.
Qed.
Lemma combine_snd {A B} (a : list A) (b : list B) :
  length a = length b -> map snd (combine a b) = b.
Proof.
  revert b; induction a as [|x a IH]; intros [|y b] H; cbn in *; try discriminate; try reflexivity.
  f_equal. apply IH. lia.
Qed.

Lemma rot_length c : length (rot c) = length c.
Proof. symmetry. apply Permutation_length, rot_perm. Qed.

Lemma enumerate_keys {A} (l : list A) : map fst (enumerate l) = range (length l).
Proof. apply combine_fst. apply seq_length. Qed.
Lemma enumerate_vals {A} (l : list A) : map snd (enumerate l) = l.
Proof. apply combine_snd. apply seq_length. Qed.

Lemma enumerate_In {A} (l : list A) i x : In (i, x) (enumerate l) <-> nth_error l i = Some x.
Proof.
  unfold enumerate.
  assert (H : forall a, In (i, x) (combine (seq a (length l)) l) <-> a <= i /\ nth_error l (i - a) = Some x).
  { induction l as [|y l IH]; intro a.
    - cbn. split; [intros [] | intros [_ H]; destruct (i - a); discriminate].
    - cbn [length seq combine In]. rewrite IH. split.
      + intros [[= <- <-]|[Hle H]].
        * split; [lia|]. rewrite Nat.sub_diag. reflexivity.
        * split; [lia|]. replace (i - a) with (S (i - S a)) by lia. exact H.
      + intros [Hle H]. destruct (Nat.eq_dec a i) as [->|Hne].
        * left. rewrite Nat.sub_diag in H. cbn in H. congruence.
        * right. split; [lia|]. replace (i - a) with (S (i - S a)) in H by lia. exact H. }
  rewrite H, Nat.sub_0_r. split; [tauto | intro Hx; split; [lia | exact Hx]].
Qed.

Lemma nth_rot c i : i < length c -> nth i (rot c) 0 = nth (S i mod length c) c 0.
Proof.
  destruct c as [|x c]; cbn [length]; intro H; [lia|]. cbn [rot].
  destruct (Nat.eq_dec i (length c)) as [->|Hne].
  - rewrite Nat.mod_same by lia. cbn [nth]. rewrite app_nth2, Nat.sub_diag by lia. reflexivity.
  - rewrite Nat.mod_small by lia. cbn [nth]. rewrite app_nth1 by lia. reflexivity.
Qed.

Lemma cycle_pairs c :
  map (fun kv => (snd kv, nth (S (fst kv) mod length c) c 0)) (enumerate c) = combine c (rot c).
Proof.
  apply nth_ext with (d := (0, 0)) (d' := (0, 0)).
  - unfold enumerate. rewrite map_length, !combine_length, seq_length, rot_length. lia.
  - intros i Hi.
    assert (Hi' : i < length c).
    { unfold enumerate in Hi. rewrite map_length, combine_length, seq_length in Hi. lia. }
    rewrite (combine_nth c (rot c) i 0 0) by (symmetry; apply rot_length).
    rewrite nth_rot by exact Hi'.
    set (g := fun kv : nat * nat => (snd kv, nth (S (fst kv) mod length c) c 0)) in *.
    rewrite (nth_indep _ (0, 0) (g (0, 0))) by exact Hi.
    rewrite map_nth. unfold g, enumerate.
    rewrite (combine_nth (seq 0 (length c)) c i 0 0) by apply seq_length. cbn [fst snd].
    rewrite seq_nth by exact Hi'. reflexivity.
Qed.

Lemma fold_left_map {A B C} (f : A -> B -> A) (g : C -> B) l a :
  fold_left (fun x y => f x (g y)) l a = fold_left f (map g l) a.
Proof. revert a; induction l as [|x l IH]; intro a; cbn; [reflexivity | apply IH]. Qed.

Lemma add_cycle_eq m c : add_cycle m c = fold_left set_if_moved (combine c (rot c)) m.
Proof.
  unfold add_cycle. rewrite <- cycle_pairs.
  apply (fold_left_map set_if_moved (fun kv => (snd kv, nth (S (fst kv) mod length c) c 0))).
Qed.

Lemma fold_add_cycle cs m :
  fold_left add_cycle cs m = fold_left set_if_moved (raw (ArgCycles cs)) m.
Proof.
  revert m; induction cs as [|c cs IH]; intro m; cbn [fold_left raw flat_map]; [reflexivity|].
  rewrite fold_left_app, IH, add_cycle_eq. reflexivity.
Qed.

Lemma raw_cycles_keys cs : dkeys (raw (ArgCycles cs)) = concat cs.
Proof.
  induction cs as [|c cs IH]; [reflexivity|]. cbn [raw flat_map concat] in *. unfold dkeys in *.
  rewrite map_app, IH, combine_fst by (symmetry; apply rot_length). reflexivity.
Qed.

Lemma raw_cycles_vals cs : Permutation (concat cs) (dvals (raw (ArgCycles cs))).
Proof.
  induction cs as [|c cs IH]; [reflexivity|]. cbn [raw flat_map concat] in *. unfold dvals in *.
  rewrite map_app, combine_snd by (symmetry; apply rot_length).
  apply Permutation_app; [apply rot_perm | exact IH].
Qed.

Lemma raw_NoDup arg : meaningful arg -> NoDup (dkeys (raw arg)).
Proof.
  destruct arg as [|l|cs|d]; cbn [meaningful]; intro H.
  - constructor.
  - cbn [raw]. unfold dkeys. rewrite enumerate_keys. apply range_NoDup.
  - rewrite raw_cycles_keys. exact H.
  - exact H.
Qed.

Lemma raw_perm arg : permutes arg -> Permutation (dkeys (raw arg)) (dvals (raw arg)).
Proof.
  destruct arg as [|l|cs|d]; cbn [permutes]; intro H.
  - reflexivity.
  - cbn [raw]. unfold dkeys, dvals. rewrite enumerate_keys, enumerate_vals. symmetry. exact H.
  - rewrite raw_cycles_keys. apply raw_cycles_vals.
  - exact H.
Qed.

Lemma combine_rot_says c i j :
  In (i, j) (combine c (rot c)) <->
  (exists u v, c = u ++ i :: j :: v) \/ (exists u, c = j :: u /\ i = last c 0).
Proof.
  destruct c as [|x c]; cbn [rot].
  - cbn [combine In]. split; [intros [] |].
    intros [[u [v H]]|[u [H _]]]; [destruct u|]; discriminate.
  - assert (H : forall y, In (i, j) (combine (y :: c) (c ++ [x])) <->
      (exists u v, y :: c = u ++ i :: j :: v) \/ (j = x /\ i = last (y :: c) 0)).
    { induction c as [|z c IH]; intro y.
      - cbn. split.
        + intros [[= -> ->]|[]]. right. auto.
        + intros [[u [v H]]|[-> ->]]; [|left; reflexivity].
          destruct u as [|? [|? ?]]; discriminate.
      - change (combine (y :: z :: c) ((z :: c) ++ [x])) with ((y, z) :: combine (z :: c) (c ++ [x])).
        cbn [In]. rewrite IH. split.
        + intros [[= <- <-]|[[u [v H]]|[-> ->]]].
          * left. exists [], c. reflexivity.
          * left. exists (y :: u), v. cbn. f_equal. exact H.
          * right. auto.
        + intros [[u [v H]]|[-> ->]].
          * destruct u as [|y' u]; cbn in H; inversion H; subst; [left; reflexivity|].
            right. left. eauto.
          * right. right. auto. }
    rewrite H. split; (intros [?|H']; [left; assumption|right]).
    + destruct H' as [-> ->]. eauto.
    + destruct H' as [u [[= <- <-] ->]]. auto.
Qed.

Lemma says_raw arg i j : says arg i j <-> In (i, j) (raw arg).
Proof.
  split.
  - intro H. destruct H as [l i j H|cs c u v i j Hc E|cs c i j u Hc E Ei|d k v H]; cbn [raw].
    + apply enumerate_In. exact H.
    + apply in_flat_map. exists c. split; [exact Hc|]. apply combine_rot_says. left. eauto.
    + apply in_flat_map. exists c. split; [exact Hc|]. apply combine_rot_says. right. eauto.
    + exact H.
  - destruct arg as [|l|cs|d]; cbn [raw]; intro H.
    + destruct H.
    + constructor. apply enumerate_In. exact H.
    + apply in_flat_map in H as [c [Hc H]]. apply combine_rot_says in H as [[u [v H]]|[u [H E]]].
      * eapply says_step; eassumption.
      * eapply says_wrap; eassumption.
    + constructor. exact H.
Qed.

Lemma arg_mapping_ok arg : meaningful arg -> permutes arg ->
  arg_mapping arg = Ok (filter mvd (raw arg)).
Proof.
  intros Hm Hp. assert (Hn := raw_NoDup arg Hm).
  destruct arg as [|l|cs|d]; cbn [arg_mapping permutes raw] in *.
  - reflexivity.
  - rewrite (proj2 (list_eqb_eq _ _)) by (apply sort_nat_range; exact Hp).
    cbn [true_except bind]. rewrite fold_set_if_moved by exact Hn. reflexivity.
  - rewrite fold_add_cycle, fold_set_if_moved by exact Hn. reflexivity.
  - rewrite (proj2 (list_eqb_eq _ _)) by (apply sort_nat_eq_iff; exact Hp).
    cbn [true_except bind]. rewrite fold_set_if_moved by exact Hn. reflexivity.
Qed.

Lemma arg_mapping_inv arg m : arg_mapping arg = Ok m -> permutes arg.
Proof.
  destruct arg as [|l|cs|d]; cbn [arg_mapping permutes]; intro H; try exact I.
  - apply guard_ok in H as [H _]. apply list_eqb_eq in H. apply sort_nat_range. exact H.
  - apply guard_ok in H as [H _]. apply list_eqb_eq in H. apply sort_nat_eq_iff. exact H.
Qed.

(** * Bijectivity of maps *)

Lemma wfmap_inj m x y v : wfmap m -> dget m x = Some v -> dget m y = Some v -> x = y.
Proof.
  intros Hw Hx Hy. apply dget_In in Hx, Hy. destruct Hw as [_ Hv _ _].
  unfold dvals in Hv. induction m as [|[k w] m IH]; [destruct Hx|].
  cbn [map snd] in Hv. inversion Hv as [|? ? Hni Hn]; subst.
  destruct Hx as [[= -> ->]|Hx]; destruct Hy as [[= ->]|Hy]; auto.
  - exfalso. apply Hni. apply (in_map snd) in Hy. exact Hy.
  - subst. exfalso. apply Hni. apply (in_map snd) in Hx. exact Hx.
Qed.

Lemma wfmap_val_key m x v : wfmap m -> dget m x = Some v -> In v (dkeys m).
Proof. intros Hw H. apply (wm_incl m Hw). eapply dget_Some_val; exact H. Qed.

Lemma wfmap_key_val m v : wfmap m -> In v (dkeys m) -> exists x, dget m x = Some v.
Proof.
  intros Hw H. apply (wm_incl m Hw) in H. unfold dvals in H. apply in_map_iff in H as [[k w] [E Hin]].
  cbn [snd] in E. subst w. exists k. apply In_dget; [apply wm_keys; exact Hw | exact Hin].
Qed.

Lemma wfmap_moves m x v : wfmap m -> dget m x = Some v -> v <> x.
Proof. intros Hw H. apply dget_In in H. eapply wm_move; eassumption. Qed.

Lemma fapp_key m x : wfmap m -> (In x (dkeys m) <-> fapp m x <> x).
Proof.
  intro Hw. unfold fapp. destruct (dget m x) as [v|] eqn:E.
  - split; intros _; [eapply wfmap_moves; eassumption | eapply dget_Some_key; exact E].
  - apply dget_None in E. split; [contradiction | congruence].
Qed.

Lemma fapp_bij m : wfmap m -> bijective (fapp m).
Proof.
  intro Hw. split.
  - intros x y. unfold fapp. destruct (dget m x) as [v|] eqn:Ex; destruct (dget m y) as [w|] eqn:Ey; intro H; subst.
    + eapply wfmap_inj; eassumption.
    + exfalso. apply dget_None in Ey. apply Ey. eapply wfmap_val_key; eassumption.
    + exfalso. apply dget_None in Ex. apply Ex. eapply wfmap_val_key; eassumption.
    + reflexivity.
  - intro y. destruct (in_dec Nat.eq_dec y (dkeys m)) as [Hy|Hy].
    + apply (wfmap_key_val m y Hw) in Hy as [x Hx]. exists x. unfold fapp. rewrite Hx. reflexivity.
    + exists y. unfold fapp. apply dget_None in Hy. rewrite Hy. reflexivity.
Qed.

Definition below (m : dict) (q : nat) := forall k, In k (dkeys m) -> k < q.

Lemma ext_eq m q x : q <> 0 -> ext m q x = fapp m (x mod q) + q * (x / q).
Proof.
  intro Hq. unfold ext, fapp. assert (E := Nat.div_mod x q Hq).
  destruct (dget m (x mod q)) as [v|]; lia.
Qed.

Lemma fapp_below m q x : wfmap m -> below m q -> x < q -> fapp m x < q.
Proof.
  intros Hw Hb Hx. unfold fapp. destruct (dget m x) as [v|] eqn:E; [|exact Hx].
  apply Hb. eapply wfmap_val_key; eassumption.
Qed.

Lemma ext_mod m q x : wfmap m -> below m q -> q <> 0 ->
  ext m q x mod q = fapp m (x mod q) /\ ext m q x / q = x / q.
Proof.
  intros Hw Hb Hq. rewrite ext_eq by exact Hq.
  assert (H : fapp m (x mod q) < q) by (apply fapp_below; auto; apply Nat.mod_upper_bound; exact Hq).
  split.
  - rewrite Nat.mul_comm, Nat.mod_add by exact Hq. apply Nat.mod_small. exact H.
  - rewrite Nat.mul_comm, Nat.div_add by exact Hq. rewrite Nat.div_small by exact H. reflexivity.
Qed.

Lemma ext_bij m q : wfmap m -> below m q -> q <> 0 -> bijective (ext m q).
Proof.
  intros Hw Hb Hq. destruct (fapp_bij m Hw) as [Hi Hs]. split.
  - intros x y H. destruct (ext_mod m q x Hw Hb Hq) as [Hx1 Hx2].
    destruct (ext_mod m q y Hw Hb Hq) as [Hy1 Hy2].
    rewrite H in Hx1, Hx2. rewrite Hx1 in Hy1. rewrite Hx2 in Hy2. apply Hi in Hy1.
    rewrite (Nat.div_mod x q Hq), (Nat.div_mod y q Hq). congruence.
  - intro y. destruct (Hs (y mod q)) as [x Hx]. exists (x + q * (y / q)).
    assert (Hxq : x < q).
    { destruct (in_dec Nat.eq_dec x (dkeys m)) as [Hk|Hk]; [apply Hb; exact Hk|].
      unfold fapp in Hx. apply dget_None in Hk. rewrite Hk in Hx. subst x.
      apply Nat.mod_upper_bound. exact Hq. }
    rewrite ext_eq by exact Hq. rewrite (Nat.mul_comm q), Nat.mod_add, Nat.div_add by exact Hq.
    rewrite Nat.mod_small, Nat.div_small by exact Hxq. rewrite Hx. cbn [Nat.add].
    assert (E := Nat.div_mod y q Hq). lia.
Qed.

Lemma ext_period m q : q <> 0 -> is_period (ext m q) q.
Proof.
  intros Hq x. rewrite !ext_eq by exact Hq.
  replace (x + q) with (x + 1 * q) by lia. rewrite Nat.mod_add, Nat.div_add by exact Hq. lia.
Qed.

Lemma period_mul f t n : is_period f t -> is_period f (n * t).
Proof.
  intros H. induction n as [|n IH]; intro x; [cbn; rewrite !Nat.add_0_r; reflexivity|].
  replace (x + S n * t) with ((x + n * t) + t) by lia. rewrite H, IH. lia.
Qed.

(** * Period reduction *)

Lemma flat_map_seq_nth (f : nat -> list nat) c p a i j d :
  (forall i, length (f i) = c) -> i < p -> j < c ->
  nth (i * c + j) (flat_map f (seq a p)) d = nth j (f (a + i)) d.
Proof.
  intros Hc. revert a i; induction p as [|p IH]; intros a i Hi Hj; [lia|].
  cbn [seq flat_map]. destruct i as [|i].
  - cbn [Nat.mul Nat.add]. rewrite app_nth1 by (rewrite Hc; exact Hj). rewrite Nat.add_0_r. reflexivity.
  - rewrite app_nth2 by (rewrite Hc; nia). rewrite Hc.
    replace (S i * c + j - c) with (i * c + j) by nia. rewrite IH by lia.
    f_equal. f_equal. lia.
Qed.

Lemma flat_map_seq_length (f : nat -> list nat) c p a :
  (forall i, length (f i) = c) -> length (flat_map f (seq a p)) = p * c.
Proof.
  intro Hc. revert a; induction p as [|p IH]; intro a; [reflexivity|].
  cbn [seq flat_map]. rewrite app_length, Hc, IH. reflexivity.
Qed.

Lemma sorted_app l1 l2 : StronglySorted lt l1 -> StronglySorted lt l2 ->
  (forall x y, In x l1 -> In y l2 -> x < y) -> StronglySorted lt (l1 ++ l2).
Proof.
  induction l1 as [|x l1 IH]; intros H1 H2 H; [exact H2|].
  inversion H1 as [|? ? Hs Hf]; subst. cbn [app]. constructor.
  - apply IH; auto. intros a b Ha Hb; apply H; [right; exact Ha | exact Hb].
  - rewrite Forall_forall in *. intros y Hy. apply in_app_or in Hy as [Hy|Hy]; [apply Hf; exact Hy|].
    apply H; [left; reflexivity | exact Hy].
Qed.

Lemma blocks_sorted l0 b p a : StronglySorted lt l0 -> (forall x, In x l0 -> x < b) ->
  StronglySorted lt (flat_map (fun i => map (fun x => i * b + x) l0) (seq a p)).
Proof.
  intros Hs Hb. revert a; induction p as [|p IH]; intro a; [constructor|].
  cbn [seq flat_map]. apply sorted_app; [|apply IH|].
  - clear -Hs. induction Hs as [|x l Hs IH Hf]; cbn [map]; constructor; [exact IH|].
    rewrite Forall_forall in *. intros y Hy. apply in_map_iff in Hy as [z [<- Hz]].
    specialize (Hf z Hz). lia.
  - intros x y Hx Hy. apply in_map_iff in Hx as [x0 [<- Hx0]].
    apply in_flat_map in Hy as [i [Hi Hy]]. apply in_map_iff in Hy as [y0 [<- Hy0]].
    apply in_seq in Hi. specialize (Hb _ Hx0). nia.
Qed.

Section Reduce.
  Variables (m : dict) (q p b : nat).
  Hypothesis Hw : wfmap m.
  Hypothesis Hb : below m q.
  Hypothesis Hq : q = p * b.
  Hypothesis Hp : 2 <= p.
  Hypothesis Hq0 : q <> 0.

  Let M := sort_nat (dkeys m).
  Let M0 := sort_nat (filter (fun k => Nat.ltb k b) (dkeys m)).

  Lemma red_b : b <> 0. Proof using Hq Hq0. intro E. apply Hq0. rewrite Hq, E. apply Nat.mul_0_r. Qed.

  Lemma red_div : q / p = b.
  Proof using Hq Hp.
    clear Hw Hb Hq0. rewrite Hq, Nat.mul_comm, Nat.div_mul by lia. reflexivity.
  Qed.

  (** the pattern of moved elements and of their images repeats *)
  Definition repeats : Prop :=
    forall k i, k < b -> i < p ->
      dget m (i * b + k) = match dget m k with Some v => Some (i * b + v) | None => None end.

  Lemma repeats_val k v : repeats -> k < b -> dget m k = Some v -> v < b.
  Proof using Hw Hb Hq Hp Hq0.
    intros Hr Hk E. assert (H := Hr k (p - 1) Hk ltac:(lia)). rewrite E in H.
    assert (Hv := wfmap_val_key m _ _ Hw H). apply Hb in Hv. rewrite Hq in Hv. nia.
  Qed.

  Lemma repeats_period : repeats <-> is_period (ext m q) b.
  Proof using Hw Hb Hq Hp Hq0.
    assert (Hb0 := red_b).
    split.
    - intros Hr.
      assert (E : forall x, ext m q x = fapp m (x mod b) + b * (x / b)).
      { intro x. rewrite ext_eq by exact Hq0.
        assert (Hmm : x mod q = b * ((x / b) mod p) + x mod b).
        { rewrite Hq, (Nat.mul_comm p b), Nat.mod_mul_r by lia. lia. }
        assert (Hdd : x / q = x / b / p).
        { rewrite Hq, (Nat.mul_comm p b), Nat.div_div by lia. reflexivity. }
        assert (Hkb := Nat.mod_upper_bound x b Hb0).
        assert (Hip : (x / b) mod p < p) by (apply Nat.mod_upper_bound; lia).
        assert (Hrx := Hr (x mod b) ((x / b) mod p) Hkb Hip).
        rewrite Hmm, Hdd. unfold fapp.
        replace (b * ((x / b) mod p) + x mod b) with ((x / b) mod p * b + x mod b) by lia.
        rewrite Hrx.
        assert (Edm : x / b = p * (x / b / p) + (x / b) mod p) by (apply Nat.div_mod; lia).
        destruct (dget m (x mod b)) as [v|]; rewrite Hq; nia. }
      intro x. rewrite !E. replace (x + b) with (x + 1 * b) by lia.
      rewrite Nat.mod_add, Nat.div_add by exact Hb0. lia.
    - intros Hper k i Hk Hi.
      assert (H := period_mul _ _ i Hper k).
      assert (Hlt : i * b + k < q) by (rewrite Hq; nia).
      assert (Hkq : k < q) by (rewrite Hq; nia).
      rewrite !ext_eq in H by exact Hq0.
      rewrite !Nat.mod_small, !Nat.div_small in H by lia.
      rewrite (Nat.add_comm k) in H.
      destruct (dget m k) as [v|] eqn:E; destruct (dget m (i * b + k)) as [w|] eqn:E2;
        unfold fapp in H; rewrite E, E2 in H.
      + f_equal. lia.
      + exfalso. assert (Hne := wfmap_moves m _ _ Hw E). lia.
      + exfalso. assert (Hne := wfmap_moves m _ _ Hw E2). lia.
      + reflexivity.
  Qed.

  Lemma M0_sorted : StronglySorted lt M0.
  Proof using Hw. apply sort_nat_sorted_lt. apply NoDup_filter, wm_keys, Hw. Qed.
  Lemma M0_In x : In x M0 <-> In x (dkeys m) /\ x < b.
  Proof using. unfold M0. rewrite sort_nat_In, filter_In, Nat.ltb_lt. reflexivity. Qed.

  Lemma M_blocks : (forall k i, k < b -> i < p -> (In (i * b + k) (dkeys m) <-> In k (dkeys m))) ->
    M = flat_map (fun i => map (fun x => i * b + x) M0) (seq 0 p).
  Proof using Hw Hb Hq Hp Hq0.
    intro H. assert (Hb0 := red_b). apply sorted_lt_ext.
    - apply sort_nat_sorted_lt, wm_keys, Hw.
    - apply blocks_sorted; [apply M0_sorted | intros x Hx; apply M0_In, Hx].
    - intro x. unfold M. rewrite sort_nat_In, in_flat_map. split.
      + intro Hx. assert (Hxq := Hb x Hx).
        assert (E := Nat.div_mod x b Hb0). assert (Hm := Nat.mod_upper_bound x b Hb0).
        exists (x / b). split; [apply in_seq; rewrite Hq in Hxq; nia|].
        apply in_map_iff. exists (x mod b). split; [lia|]. apply M0_In. split; [|exact Hm].
        apply (H (x mod b) (x / b)); [exact Hm | rewrite Hq in Hxq; nia |].
        replace (x / b * b + x mod b) with x by lia. exact Hx.
      + intros [i [Hi Hx]]. apply in_seq in Hi. apply in_map_iff in Hx as [k [<- Hk]].
        apply M0_In in Hk as [Hk Hkb]. apply H; [exact Hkb | lia | exact Hk].
  Qed.

  (** the boolean pattern check on the sorted moved elements *)
  Lemma pattern_check_sound mb :
    length M = p * mb ->
    (forall j i, j < mb -> 1 <= i < p -> nth (i * mb + j) M 0 = i * b + nth j M 0) ->
    forall k i, k < b -> i < p -> (In (i * b + k) (dkeys m) <-> In k (dkeys m)).
  Proof using Hw Hb Hq Hp Hq0.
    intros Hlen Hpat. assert (Hb0 := red_b).
    assert (Hpat' : forall j i, j < mb -> i < p -> nth (i * mb + j) M 0 = i * b + nth j M 0).
    { intros j i Hj Hi. destruct i as [|i]; [reflexivity | apply Hpat; lia]. }
    assert (HM : forall x, In x (dkeys m) <-> exists i j, i < p /\ j < mb /\ x = i * b + nth j M 0).
    { intro x. rewrite <- (sort_nat_In x (dkeys m)). fold M. split.
      - intro Hx. apply (In_nth M x 0) in Hx as [n [Hn En]]. rewrite Hlen in Hn.
        assert (Hmb : mb <> 0) by (intros ->; lia).
        exists (n / mb), (n mod mb).
        assert (E := Nat.div_mod n mb Hmb). assert (Hmm := Nat.mod_upper_bound n mb Hmb).
        assert (Hi : n / mb < p) by (apply Nat.div_lt_upper_bound; [exact Hmb | lia]).
        split; [exact Hi|]. split; [exact Hmm|]. rewrite <- Hpat' by assumption.
        replace (n / mb * mb + n mod mb) with n by lia. congruence.
      - intros [i [j [Hi [Hj ->]]]]. rewrite <- Hpat' by assumption. apply nth_In. rewrite Hlen. nia. }
    assert (Hsmall : forall j, j < mb -> nth j M 0 < b).
    { intros j Hj. assert (Hin : In ((p - 1) * b + nth j M 0) (dkeys m)).
      { apply HM. exists (p - 1), j. repeat split; lia. }
      apply Hb in Hin. rewrite Hq in Hin. nia. }
    intros k i Hk Hi. rewrite !HM. split.
    - intros [i' [j [Hi' [Hj E]]]]. assert (Hs := Hsmall j Hj). exists 0, j.
      repeat split; [lia | exact Hj |]. assert (i = i') by nia. subst i'. lia.
    - intros [i' [j [Hi' [Hj E]]]]. assert (Hs := Hsmall j Hj). exists i, j.
      repeat split; [exact Hi | exact Hj |]. assert (i' = 0) by nia. subst i'. lia.
  Qed.

  Lemma block_repeats_spec :
    (block_repeats m q p = Ok true /\ repeats) \/ (block_repeats m q p = Ok false /\ ~ repeats).
  Proof using Hw Hb Hq Hp Hq0.
    assert (Hb0 := red_b). unfold block_repeats. cbv zeta.
    rewrite red_div. fold M.
    assert (Hrep_keys : repeats -> forall k i, k < b -> i < p -> (In (i * b + k) (dkeys m) <-> In k (dkeys m))).
    { intros Hr k i Hk Hi. specialize (Hr k i Hk Hi).
      destruct (dget m k) as [v|] eqn:E; split; intro Hin.
      - eapply dget_Some_key; exact E.
      - eapply dget_Some_key; exact Hr.
      - exfalso. apply dget_None in Hr. contradiction.
      - exfalso. apply dget_None in E. contradiction. }
    assert (Hrep_M : repeats -> M = flat_map (fun i => map (fun x => i * b + x) M0) (seq 0 p)).
    { intro Hr. apply M_blocks, Hrep_keys, Hr. }
    assert (Hfl : forall i, length (map (fun x => i * b + x) M0) = length M0) by (intro i; apply map_length).
    destruct (Nat.eqb_spec (length M mod p) 0) as [Hmod|Hmod]; cbn [negb].
    2: { right. split; [reflexivity|]. intro Hr. apply Hmod. rewrite (Hrep_M Hr).
         rewrite (flat_map_seq_length _ (length M0)) by exact Hfl.
         rewrite Nat.mul_comm. apply Nat.mod_mul. lia. }
    assert (Hlen : length M = p * (length M / p)) by (apply Nat.div_exact; lia).
    set (mb := length M / p) in *.
    set (g := fun key => forallb (fun i => Nat.eqb (nth (i * mb + key) M 0) (i * b + nth key M 0)) (range2 1 p)).
    rewrite (forallM_ok _ g).
    2: { intros key Hkey. apply range_In in Hkey. apply forallM_ok. intros i Hi. apply range2_In in Hi.
         rewrite (lget_ok M (i * mb + key) 0) by (rewrite Hlen; nia).
         rewrite (lget_ok M key 0) by (rewrite Hlen; nia). reflexivity. }
    cbn [bind].
    destruct (forallb g (range mb)) eqn:Hg; cbn [negb].
    2: { right. split; [reflexivity|]. intro Hr.
         assert (HM := Hrep_M Hr).
         assert (Hmb : mb = length M0).
         { unfold mb. rewrite HM. rewrite (flat_map_seq_length _ (length M0)) by exact Hfl.
           rewrite Nat.mul_comm, Nat.div_mul by lia. reflexivity. }
         assert (Ht : forallb g (range mb) = true); [|congruence].
         apply forallb_forall. intros j Hj. apply range_In in Hj. apply forallb_forall.
         intros i Hi. apply range2_In in Hi. apply Nat.eqb_eq. rewrite HM, Hmb.
         rewrite (flat_map_seq_nth _ (length M0)) by (try exact Hfl; lia).
         replace j with (0 * length M0 + j) at 2 by lia.
         rewrite (flat_map_seq_nth _ (length M0)) by (try exact Hfl; lia).
         cbn [Nat.add]. rewrite (nth_indep (map (fun x => i * b + x) M0) 0 (i * b + 0))
           by (rewrite map_length; lia).
         rewrite (map_nth (fun x => i * b + x)).
         rewrite (nth_indep (map (fun x => 0 * b + x) M0) 0 (0 * b + 0)) by (rewrite map_length; lia).
         rewrite (map_nth (fun x => 0 * b + x)). lia. }
    assert (Hkeys : forall k i, k < b -> i < p -> (In (i * b + k) (dkeys m) <-> In k (dkeys m))).
    { apply (pattern_check_sound mb Hlen). intros j i Hj Hi.
      rewrite forallb_forall in Hg. specialize (Hg j (proj2 (range_In j mb) Hj)).
      unfold g in Hg. rewrite forallb_forall in Hg.
      specialize (Hg i (proj2 (range2_In i 1 p) Hi)). apply Nat.eqb_eq in Hg. exact Hg. }
    set (h := fun key => forallb (fun i => Nat.eqb (fapp m (i * b + key)) (i * b + fapp m key)) (range2 1 p)).
    rewrite (forallM_ok _ h).
    2: { intros key Hkey. apply filter_In in Hkey as [Hkey Hlt]. apply Nat.ltb_lt in Hlt.
         apply forallM_ok. intros i Hi. apply range2_In in Hi.
         assert (Hki : In (i * b + key) (dkeys m)) by (apply Hkeys; [exact Hlt | lia | exact Hkey]).
         apply dget_key in Hki as [w Ew]. apply dget_key in Hkey as [v Ev].
         unfold dlookup, fapp. rewrite Ew, Ev. reflexivity. }
    assert (Hrh : repeats <-> forallb h (filter (fun k => Nat.ltb k b) (dkeys m)) = true).
    { rewrite forallb_forall. split.
      - intros Hr key Hkey. apply filter_In in Hkey as [Hkey Hlt]. apply Nat.ltb_lt in Hlt.
        unfold h. apply forallb_forall. intros i Hi. apply range2_In in Hi. apply Nat.eqb_eq.
        unfold fapp. rewrite (Hr key i) by lia.
        apply dget_key in Hkey as [v Ev]. rewrite Ev. reflexivity.
      - intros Hall k i Hk Hi. destruct i as [|i].
        { cbn [Nat.mul Nat.add]. destruct (dget m k); reflexivity. }
        destruct (dget m k) as [v|] eqn:E.
        + assert (Hin : In k (dkeys m)) by (eapply dget_Some_key; exact E).
          assert (Hh : h k = true) by (apply Hall, filter_In; split; [exact Hin | apply Nat.ltb_lt; exact Hk]).
          unfold h in Hh. rewrite forallb_forall in Hh.
          specialize (Hh (S i) (proj2 (range2_In (S i) 1 p) ltac:(lia))). apply Nat.eqb_eq in Hh.
          assert (Hin2 : In (S i * b + k) (dkeys m)) by (apply Hkeys; assumption).
          apply dget_key in Hin2 as [w Ew]. unfold fapp in Hh. rewrite Ew, E in Hh. congruence.
        + apply dget_None. apply dget_None in E. intro Hin. apply E.
          apply (Hkeys k (S i) Hk Hi). exact Hin. }
    destruct (forallb h (filter (fun k => Nat.ltb k b) (dkeys m))) eqn:Hh; [left | right];
      (split; [reflexivity|]); rewrite Hrh; congruence.
  Qed.

  Definition small : dict := filter (fun kv => Nat.ltb (fst kv) b) m.

  Lemma small_get k : dget small k = if Nat.ltb k b then dget m k else None.
  Proof using Hw.
    clear Hb Hq Hp Hq0. unfold small. assert (Hn : NoDup (dkeys small)) by (apply NoDup_map_filter, wm_keys, Hw).
    destruct (Nat.ltb_spec k b) as [Hk|Hk].
    - destruct (dget m k) as [v|] eqn:E.
      + apply In_dget; [exact Hn|]. apply filter_In. split; [apply dget_In; exact E|].
        cbn [fst]. apply Nat.ltb_lt. exact Hk.
      + apply dget_None. intro Hi. apply in_map_iff in Hi as [[k' v] [Ek Hi]]. cbn [fst] in Ek. subst k'.
        apply filter_In in Hi as [Hi _]. rewrite (In_dget m k v (wm_keys m Hw) Hi) in E. discriminate.
    - apply dget_None. intro Hi. apply in_map_iff in Hi as [[k' v] [Ek Hi]]. cbn [fst] in Ek. subst k'.
      apply filter_In in Hi as [_ Hi]. cbn [fst] in Hi. apply Nat.ltb_lt in Hi. lia.
  Qed.

  Lemma small_below : below small b.
  Proof using Hw.
    clear Hb Hq Hp Hq0. intros k Hk. apply dget_key in Hk as [v Hv]. rewrite small_get in Hv.
    destruct (Nat.ltb_spec k b); [assumption | discriminate].
  Qed.

  Lemma small_wf : repeats -> wfmap small.
  Proof using Hw Hb Hq Hp Hq0.
    intro Hr. constructor.
    - apply NoDup_map_filter, wm_keys, Hw.
    - apply NoDup_map_filter, wm_vals, Hw.
    - assert (Hincl : incl (dvals small) (dkeys small)).
      { intros v Hv. apply in_map_iff in Hv as [[k w] [E Hin]]. cbn [snd] in E. subst w.
        apply filter_In in Hin as [Hin Hk]. cbn [fst] in Hk. apply Nat.ltb_lt in Hk.
        assert (E := In_dget m k v (wm_keys m Hw) Hin).
        assert (Hvb := repeats_val k v Hr Hk E).
        assert (Hvk := wfmap_val_key m k v Hw E). apply dget_key in Hvk as [u Eu].
        apply (dget_Some_key small v u). rewrite small_get.
        apply Nat.ltb_lt in Hvb. rewrite Hvb. exact Eu. }
      intro v. split; [apply Hincl|].
      apply NoDup_length_incl; [apply NoDup_map_filter, wm_vals, Hw | | exact Hincl].
      unfold dkeys, dvals. rewrite !map_length. lia.
    - intros k v Hin. apply filter_In in Hin as [Hin _]. eapply wm_move; eassumption.
  Qed.

  Lemma small_ext x : repeats -> ext small b x = ext m q x.
  Proof using Hw Hb Hq Hp Hq0.
    intro Hr. assert (Hb0 := red_b).
    assert (Hper := proj1 repeats_period Hr).
    assert (E1 : forall k, k < b -> ext small b k = ext m q k).
    { intros k Hk. rewrite !ext_eq by assumption.
      assert (k < q) by (rewrite Hq; nia).
      rewrite !Nat.mod_small, !Nat.div_small by assumption. unfold fapp. rewrite small_get.
      apply Nat.ltb_lt in Hk. rewrite Hk. lia. }
    rewrite (Nat.div_mod x b Hb0), Nat.add_comm, (Nat.mul_comm b).
    rewrite (period_mul _ _ (x / b) Hper (x mod b)).
    rewrite (period_mul _ _ (x / b) (ext_period small b Hb0) (x mod b)).
    rewrite E1 by (apply Nat.mod_upper_bound; exact Hb0). reflexivity.
  Qed.
End Reduce.

(** * Prime factors *)

Lemma mod_0_divides n d : d <> 0 -> (n mod d = 0 <-> exists c, n = c * d).
Proof.
  intro Hd. rewrite Nat.mod_divide by exact Hd. reflexivity.
Qed.

Lemma is_prime_least n : 2 <= n ->
  exists d, 2 <= d <= n /\ n mod d = 0 /\ is_prime d = true.
Proof.
  induction n as [n IH] using lt_wf_ind. intro Hn.
  destruct (is_prime n) eqn:E.
  - exists n. split; [lia|]. split; [apply Nat.mod_same; lia | exact E].
  - unfold is_prime in E. apply andb_false_iff in E as [E|E]; [apply Nat.leb_gt in E; lia|].
    assert (Hex : exists k, In k (seq 2 (n - 2)) /\ n mod k = 0).
    { clear IH. induction (seq 2 (n - 2)) as [|k l IHl]; cbn [forallb] in E; [discriminate|].
      apply andb_false_iff in E as [E|E].
      - apply negb_false_iff, Nat.eqb_eq in E. exists k. split; [left; reflexivity | exact E].
      - destruct (IHl E) as [k' [Hk' E']]. exists k'. split; [right; exact Hk' | exact E']. }
    destruct Hex as [k [Hk Hkn]]. apply in_seq in Hk.
    destruct (IH k ltac:(lia) ltac:(lia)) as [d [Hd [Hdk Hpd]]].
    exists d. split; [lia|]. split; [|exact Hpd].
    apply mod_0_divides in Hkn as [c Hc]; [|lia]. apply mod_0_divides in Hdk as [e He]; [|lia].
    apply mod_0_divides; [lia|]. exists (c * e). nia.
Qed.

Lemma primefactors_In n d : n <> 0 ->
  (In d (primefactors n) <-> 2 <= d /\ n mod d = 0 /\ is_prime d = true).
Proof.
  intro Hn. unfold primefactors. rewrite filter_In, in_seq, andb_true_iff, Nat.eqb_eq.
  split; [intros [H1 [H2 H3]]; repeat split; try assumption; lia|].
  intros [H1 [H2 H3]]. repeat split; try assumption; try lia.
  apply mod_0_divides in H2 as [c Hc]; [|lia]. destruct c; [lia|]. nia.
Qed.

(** * reduce_period *)

Definition minimal_period (f : nat -> nat) (q : nat) : Prop :=
  is_period f q /\ forall t, 0 < t -> is_period f t -> exists c, t = c * q.

Lemma period_gcd f s t : s <> 0 -> is_period f s -> is_period f t -> is_period f (Nat.gcd s t).
Proof.
  intros Hs0 Hs Ht x. destruct (Nat.gcd_bezout_pos s t ltac:(lia)) as [a [b E]].
  assert (H1 := period_mul f s a Hs x).
  assert (H2 := period_mul f t b Ht (x + Nat.gcd s t)).
  replace (x + Nat.gcd s t + b * t) with (x + a * s) in H2 by lia. lia.
Qed.

Lemma first_repeating_spec m q primes :
  wfmap m -> below m q -> q <> 0 -> (forall d, In d primes -> 2 <= d /\ q mod d = 0) ->
  match first_repeating m q primes with
  | Ok (Some p) => In p primes /\ repeats m p (q / p)
  | Ok None => forall p, In p primes -> ~ repeats m p (q / p)
  | Err _ => False
  end.
Proof.
  intros Hw Hb Hq. induction primes as [|p primes IH]; intro Hpr; cbn [first_repeating].
  - intros p [].
  - destruct (Hpr p (or_introl eq_refl)) as [Hp2 Hpm].
    assert (E : q = p * (q / p)) by (apply Nat.div_exact; lia).
    destruct (block_repeats_spec m q p (q / p) Hw Hb E Hp2 Hq) as [[-> Hr]|[-> Hr]]; cbn [bind].
    + split; [left; reflexivity | exact Hr].
    + specialize (IH (fun d Hd => Hpr d (or_intror Hd))).
      destruct (first_repeating m q primes) as [[p'|]|]; [| |exact IH].
      * destruct IH as [Hi Hr']. split; [right; exact Hi | exact Hr'].
      * intros p' [<-|Hp']; [exact Hr | apply IH; exact Hp'].
Qed.

Lemma reduce_period_fuel_spec fuel m q :
  q < fuel -> wfmap m -> below m q -> q <> 0 ->
  exists m' q', reduce_period_fuel fuel m q = Ok (m', q') /\
    wfmap m' /\ below m' q' /\ q' <> 0 /\ q' <= q /\
    (forall x, ext m' q' x = ext m q x) /\ minimal_period (ext m q) q'.
Proof.
  revert m q; induction fuel as [|fuel IH]; intros m q Hf Hw Hb Hq; [lia|].
  cbn [reduce_period_fuel].
  assert (Hpr : forall d, In d (primefactors q) -> 2 <= d /\ q mod d = 0).
  { intros d Hd. apply primefactors_In in Hd; [|exact Hq]. tauto. }
  assert (Hfr := first_repeating_spec m q _ Hw Hb Hq Hpr).
  destruct (first_repeating m q (primefactors q)) as [[p|]|]; cbn [bind]; [| |contradiction].
  - destruct Hfr as [Hin Hr]. destruct (Hpr p Hin) as [Hp2 Hpm].
    assert (E : q = p * (q / p)) by (apply Nat.div_exact; lia).
    set (b := q / p) in *. assert (Hb0 : b <> 0) by (intro; nia).
    change (filter (fun kv => fst kv <? b) m) with (small m b).
    destruct (IH (small m b) b) as [m' [q' [E' [Hw' [Hb' [Hq' [Hle [Hext Hmin]]]]]]]].
    + nia.
    + eapply small_wf; eassumption.
    + apply small_below; assumption.
    + exact Hb0.
    + exists m', q'.
      assert (Hse : forall x, ext (small m b) b x = ext m q x)
        by (intro x; eapply small_ext; eassumption).
      split; [exact E'|]. split; [exact Hw'|]. split; [exact Hb'|]. split; [exact Hq'|].
      split; [nia|]. split; [intro x; rewrite Hext; apply Hse|].
      destruct Hmin as [Hp1 Hp3]. split.
      * intro x. rewrite <- !Hse. apply Hp1.
      * intros t Ht Hpt. apply Hp3; [exact Ht|]. intro x. rewrite !Hse. apply Hpt.
  - exists m, q. split; [reflexivity|]. split; [exact Hw|]. split; [exact Hb|]. split; [exact Hq|].
    split; [lia|]. split; [reflexivity|]. split; [apply ext_period; exact Hq|].
    intros t Ht Hpt.
    assert (Hg := period_gcd _ q t Hq (ext_period m q Hq) Hpt).
    set (g := Nat.gcd q t) in *.
    destruct (Nat.gcd_divide_l q t) as [c Hc]. fold g in Hc.
    destruct (Nat.gcd_divide_r q t) as [e He]. fold g in He.
    destruct (Nat.eq_dec c 1) as [->|Hc1].
    { exists e. lia. }
    exfalso. assert (Hc2 : 2 <= c) by (destruct c as [|[|c]]; [lia | congruence | lia]).
    destruct (is_prime_least c Hc2) as [p [Hp [Hpc Hpp]]].
    apply mod_0_divides in Hpc as [c' Hc']; [|lia].
    assert (Hqp : q = p * (c' * g)) by nia.
    assert (Hdiv : q / p = c' * g) by (rewrite Hqp, Nat.mul_comm, Nat.div_mul by lia; reflexivity).
    apply (Hfr p).
    + apply primefactors_In; [exact Hq|]. split; [lia|]. split; [|exact Hpp].
      apply mod_0_divides; [lia|]. exists (c' * g). lia.
    + rewrite Hdiv. apply (repeats_period m q p (c' * g) Hw Hb Hqp ltac:(lia) Hq).
      apply period_mul. exact Hg.
Qed.

(** * Well-formed permutation objects *)

Record wf (p : perm) : Prop := {
  wf_map : wfmap (mapping p);
  wf_neutral : neutral p = true <-> mapping p = [];
  wf_peri : match perilen p with
            | None => plength p = match mapping p with [] => 0 | _ => S (list_max_nat (dkeys (mapping p))) end
            | Some q => neutral p = false /\ below (mapping p) q /\ plength p = q /\ q <> 0 /\
                        minimal_period (ext (mapping p) q) q
            end
}.

Lemma wfmap_nil : wfmap [].
Proof. constructor; cbn; try constructor; tauto. Qed.

Lemma wf_neutral_perm : wf neutral_perm.
Proof. constructor; cbn; [apply wfmap_nil | tauto | reflexivity]. Qed.

Lemma pget_act p : wf p -> forall x, pget p x = act (mapping p) (perilen p) x.
Proof.
  intros [Hw Hn Hp] x. unfold pget, act. destruct (neutral p) eqn:E.
  - assert (Hm := proj1 Hn eq_refl). rewrite Hm. destruct (perilen p); reflexivity.
  - destruct (perilen p) as [q|]; reflexivity.
Qed.

Lemma pget_bij p : wf p -> bijective (pget p).
Proof.
  intro H. assert (E := pget_act p H). destruct H as [Hw Hn Hp].
  assert (Hb : bijective (act (mapping p) (perilen p))).
  { destruct (perilen p) as [q|]; cbn [act]; [apply ext_bij; tauto | apply fapp_bij; exact Hw]. }
  destruct Hb as [Hi Hs]. split.
  - intros x y. rewrite !E. apply Hi.
  - intro y. destruct (Hs y) as [x Hx]. exists x. rewrite E. exact Hx.
Qed.

(** the constructor on a raw assignment list *)
Lemma Perm_filter (arg : perm_arg) (d : dict) peri :
  arg_mapping arg = Ok (filter mvd d) -> NoDup (dkeys d) -> Permutation (dkeys d) (dvals d) ->
  match peri with None => True | Some q => forall k v, In (k, v) d -> k <> v -> k < q end ->
  exists p, Perm arg peri = Ok p /\ wf p /\
    (filter mvd d <> [] -> perilen p = None <-> peri = None) /\
    (forall x, match peri with
               | None => pget p x = fapp d x
               | Some q => q <> 0 -> pget p x = ext d q x
               end) /\
    (neutral p = true <-> filter mvd d = []).
Proof.
  intros Em Hn Hp Hfit. assert (Hw := wfmap_filter d Hn Hp).
  unfold Perm. rewrite Em. cbn [bind].
  assert (Hfil : forall k, In k (dkeys (filter mvd d)) -> exists v, In (k, v) d /\ k <> v).
  { intros k Hk. apply in_map_iff in Hk as [[k' v] [Ek Hk]]. cbn [fst] in Ek. subst k'.
    assert (Hne := wm_move _ Hw _ _ Hk). apply filter_In in Hk as [Hk _]. exists v.
    split; [exact Hk | congruence]. }
  assert (Hx : forall x, match peri with
     | None => act (filter mvd d) peri x = fapp d x
     | Some q => q <> 0 -> act (filter mvd d) peri x = ext d q x end).
  { intro x. destruct peri as [q|]; cbn [act]; [intro Hq; apply ext_filter | apply fapp_filter]; assumption. }
  set (m := filter mvd d) in *. destruct m as [|kv m0] eqn:Hm.
  - exists neutral_perm. split; [reflexivity|]. split; [apply wf_neutral_perm|].
    split; [congruence|]. split; [|split; reflexivity].
    intro x. specialize (Hx x). destruct peri as [q|]; cbn in *; [intro Hq; rewrite <- Hx by exact Hq | rewrite <- Hx]; reflexivity.
  - rewrite <- Hm in *. assert (Hm0 : m <> []) by (rewrite Hm; discriminate).
    assert (Hk0 : dkeys m <> []) by (rewrite Hm; discriminate).
    destruct peri as [q|].
    + assert (Hbel : below m q).
      { intros k Hk. destruct (Hfil k Hk) as [v [Hin Hne]]. eapply Hfit; eassumption. }
      assert (Hmax : list_max_nat (dkeys m) < q) by (apply list_max_nat_lt; assumption).
      assert (Hq2 : 2 <= q).
      { assert (Hin : In (fst kv) (dkeys m)) by (rewrite Hm; left; reflexivity).
        destruct (dget_key m _ Hin) as [v Hv].
        assert (Hne := wfmap_moves m _ _ Hw Hv). assert (Hvk := wfmap_val_key m _ _ Hw Hv).
        apply Hbel in Hin, Hvk. lia. }
      rewrite (proj2 (Nat.leb_le _ _) Hq2). cbn [true_except bind].
      rewrite (proj2 (Nat.ltb_lt _ _) Hmax). cbn [true_except bind].
      assert (Hq0 : q <> 0) by lia.
      destruct (reduce_period_fuel_spec (S q) m q (Nat.lt_succ_diag_r q) Hw Hbel Hq0)
        as [m' [q' [E' [Hw' [Hb' [Hq' [Hle [Hext Hmin]]]]]]]].
      unfold reduce_period. rewrite E'. cbn [bind fst snd].
      assert (Hm' : m' <> []).
      { intros ->. assert (Hid : forall x, ext m q x = x) by (intro x; rewrite <- Hext; reflexivity).
        assert (Hin : In (fst kv) (dkeys m)) by (rewrite Hm; left; reflexivity).
        assert (Hkq := Hbel _ Hin).
        specialize (Hid (fst kv)). rewrite ext_eq, Nat.mod_small, Nat.div_small in Hid by lia.
        apply (fapp_key m (fst kv) Hw) in Hin. lia. }
      assert (Hwfp : wf (mkPerm false m' (Some q') q')).
      { constructor; cbn [mapping neutral perilen plength].
        - exact Hw'.
        - split; [discriminate | congruence].
        - repeat split; try assumption.
          + intro x. rewrite !Hext. apply Hmin.
          + intros t Ht Hpt. apply Hmin; [exact Ht|]. intro x. rewrite <- !Hext. apply Hpt. }
      eexists. split; [reflexivity|]. split; [exact Hwfp|].
      split; [intros _; cbn; split; discriminate|].
      split; [|cbn; split; [discriminate | congruence]].
      intros x _. rewrite pget_act by exact Hwfp. cbn [mapping perilen act]. rewrite Hext.
      apply (Hx x Hq0).
    + assert (Hwfp : wf (mkPerm false m None (S (list_max_nat (dkeys m))))).
      { constructor; cbn [mapping neutral perilen plength].
        - exact Hw.
        - split; [discriminate | congruence].
        - destruct m; [congruence | reflexivity]. }
      eexists. split; [reflexivity|]. split; [exact Hwfp|].
      split; [intros _; cbn; split; reflexivity|].
      split; [|cbn; split; [discriminate | congruence]].
      intro x. rewrite pget_act by exact Hwfp. apply (Hx x).
Qed.

Lemma Perm_ok_inv arg peri p : meaningful arg -> Perm arg peri = Ok p ->
  permutes arg /\ match peri with None => True | Some q => fits arg q end.
Proof.
  intros Hm H. unfold Perm in H. apply bind_ok in H as [m [Em H]].
  assert (Hp := arg_mapping_inv arg m Em). split; [exact Hp|].
  rewrite (arg_mapping_ok arg Hm Hp) in Em. inversion Em as [Em']. clear Em.
  destruct peri as [q|]; [|exact I]. intros i j Hs Hne.
  apply says_raw in Hs.
  assert (Hin : In (i, j) m).
  { subst m. apply filter_In. split; [exact Hs|]. unfold mvd. cbn [fst snd].
    apply negb_true_iff, Nat.eqb_neq. exact Hne. }
  destruct m as [|kv m0] eqn:E; [destruct Hin|].
  apply guard_ok in H as [_ H]. apply guard_ok in H as [H _]. apply Nat.ltb_lt in H.
  apply (in_map fst) in Hin. cbn [fst] in Hin.
  pose proof (list_max_nat_ge i (dkeys (kv :: m0)) Hin). lia.
Qed.

Lemma Perm_spec arg peri : meaningful arg -> permutes arg ->
  match peri with None => True | Some q => fits arg q end ->
  exists p, Perm arg peri = Ok p /\ wf p /\
    (forall x, match peri with
               | None => pget p x = fapp (raw arg) x
               | Some q => q <> 0 -> pget p x = ext (raw arg) q x
               end) /\
    (neutral p = true <-> forall i j, says arg i j -> i = j) /\
    (neutral p = false -> perilen p = None <-> peri = None).
Proof.
  intros Hm Hp Hf.
  destruct (Perm_filter arg (raw arg) peri) as [p [E [Hw [H1 [H2 H3]]]]].
  - apply arg_mapping_ok; assumption.
  - apply raw_NoDup; exact Hm.
  - apply raw_perm; exact Hp.
  - destruct peri as [q|]; [|exact I]. intros k v Hin. apply Hf. apply says_raw. exact Hin.
  - exists p. split; [exact E|]. split; [exact Hw|]. split; [exact H2|].
    assert (Hnil : filter mvd (raw arg) = [] <-> forall i j, says arg i j -> i = j).
    { split.
      - intros Hnil i j Hs. apply says_raw in Hs. destruct (Nat.eq_dec i j) as [|Hne]; [assumption|].
        exfalso. assert (Hin : In (i, j) (filter mvd (raw arg))).
        { apply filter_In. split; [exact Hs|]. unfold mvd. cbn [fst snd].
          apply negb_true_iff, Nat.eqb_neq. exact Hne. }
        rewrite Hnil in Hin. destruct Hin.
      - intro H. destruct (filter mvd (raw arg)) as [|[k v] m] eqn:E2; [reflexivity|].
        exfalso. assert (Hin : In (k, v) (filter mvd (raw arg))) by (rewrite E2; left; reflexivity).
        apply filter_In in Hin as [Hin Hmv]. apply says_raw, H in Hin. subst v.
        unfold mvd in Hmv. cbn [fst snd] in Hmv. rewrite Nat.eqb_refl in Hmv. discriminate. }
    split; [rewrite H3; exact Hnil|].
    intro Hf0. apply H1. intro Hnil'. apply H3 in Hnil'. congruence.
Qed.

Lemma Perm_wf arg peri p : meaningful arg -> Perm arg peri = Ok p -> wf p.
Proof.
  intros Hm H. destruct (Perm_ok_inv arg peri p Hm H) as [Hp Hf].
  destruct (Perm_spec arg peri Hm Hp Hf) as [p' [E [Hw _]]]. congruence.
Qed.
