(** Props_PermInt: property C119 (permutations made from a dict with arbitrary integers). *)

From Coq Require Import List Arith ZArith Bool Lia Permutation Sorted.
From Verif Require Import Model_Base Lib Model_Binary Model_Perm Model_PermInt Spec_Perm Proof_Perm Proof_PermCycles Proof_PermGroup Proof_PermMore Proof_PermInt.
Import ListNotations.
Local Open Scope nat_scope.

(** the dict sends i to j: numbers that are no keys stay where they are *)
Definition sends (d : idict) (i j : Z) : Prop := In (i, j) d \/ ~ In i (map fst d) /\ j = i.
Definition moves (d : idict) (i : Z) : Prop := exists j, In (i, j) d /\ i <> j.
(** the keys are different, and the values are the keys in some order *)
Definition one_to_one (d : idict) : Prop := NoDup (map fst d) /\ Permutation (map fst d) (map snd d).
Definition turned (d : idict) : idict := map (fun kv => (snd kv, fst kv)) d.

Lemma imax_spec l : l <> [] -> In (imax l) l /\ forall i, In i l -> (i <= imax l)%Z.
Proof.
  destruct l as [|x l]; [congruence|]. intros _. cbn [imax]. revert x. induction l as [|y l IH]; intro x; cbn [fold_left].
  - split; [left; reflexivity|]. intros i [<-|[]]. lia.
  - destruct (IH (Z.max x y)) as (H1 & H2). split.
    + destruct H1 as [H1|H1]; [|right; right; exact H1]. rewrite <- H1. destruct (Z.max_spec x y) as [(_ & ->)|(_ & ->)]; [right; left; reflexivity|left; reflexivity].
    + intros i [<-|[<-|H]]; [|  |apply H2; right; exact H]; specialize (H2 _ (or_introl eq_refl)); lia.
Qed.
Lemma In_moved d i j : In (i, j) (filter imvd d) <-> In (i, j) d /\ i <> j.
Proof. rewrite filter_In. unfold imvd. cbn [fst snd]. rewrite negb_true_iff, Z.eqb_neq. tauto. Qed.
Lemma moved_keys d i : In i (map fst (filter imvd d)) <-> moves d i.
Proof.
  rewrite in_map_iff. split.
  - intros ([a b] & <- & H). apply In_moved in H. exists b. exact H.
  - intros (j & H). exists (i, j). split; [reflexivity|]. apply In_moved. exact H.
Qed.
Lemma iget_sends d i j : NoDup (map fst d) -> sends d i j -> match iget (filter imvd d) i with Some v => v = j | None => i = j end.
Proof.
  intros Hn H. destruct (iget (filter imvd d) i) as [v|] eqn:E.
  - apply iget_In in E. apply In_moved in E as (E & _). destruct H as [H|(H & _)]; [|exfalso; apply H; apply (in_map fst) in E; exact E].
    apply (In_iget _ _ _ Hn) in E, H. congruence.
  - apply iget_None in E. destruct H as [H|(_ & H)]; [|congruence]. destruct (Z.eq_dec i j) as [|Hd]; [assumption|]. exfalso. apply E. apply moved_keys. exists j. tauto.
Qed.
Lemma filter_keys_NoDup d : NoDup (map fst d) -> NoDup (map fst (filter imvd d)).
Proof.
  intro Hn. induction d as [|[k v] d IH]; [constructor|]. cbn [map fst filter] in *. inversion Hn as [|? ? Hni Hn']; subst. destruct (imvd (k, v)); cbn [map fst]; [|apply IH; exact Hn'].
  constructor; [|apply IH; exact Hn']. intro H. apply Hni. apply in_map_iff in H as ([a b] & E & H). apply filter_In in H as (H & _). apply (in_map fst) in H. cbn [fst] in *. subst a. exact H.
Qed.

Lemma IPerm_none d : one_to_one d -> IPerm d None = Ok (match filter imvd d with [] => ineutral_perm | _ :: _ => mkIPerm false (filter imvd d) None (imax (map fst (filter imvd d)) + 1) end).
Proof. intros (Hn & Hp). unfold IPerm. rewrite (proj2 (keys_check d) Hp). cbn [true_except bind]. rewrite fold_iset by exact Hn. destruct (filter imvd d); reflexivity. Qed.
Lemma getitem_none d p i j : one_to_one d -> IPerm d None = Ok p -> (0 <= i)%Z -> sends d i j -> igetitem p (Some i) = Some j.
Proof.
  intros Hd E Hi Hs. rewrite (IPerm_none d Hd) in E. injection E as <-. assert (G := iget_sends d i j (proj1 Hd) Hs). unfold igetitem. rewrite (proj2 (Z.leb_le _ _) Hi).
  destruct (filter imvd d) as [|kv m]; [cbn [iget] in G; cbn; congruence|]. cbn [ineutral iperilen imapping]. destruct (iget (kv :: m) i); congruence.
Qed.
Lemma getitem_neg p i : (i < 0)%Z -> igetitem p (Some i) = None.
Proof. intro H. unfold igetitem. rewrite (proj2 (Z.leb_gt _ _)) by lia. reflexivity. Qed.

(** Perm(d) exists exactly when d is one-to-one.  It has the values of the dict at the natural numbers; for a
    negative number [__getitem__] returns None.  The length is one more than the greatest number moved (possibly
    zero or negative), and zero if nothing is moved. *)
Theorem C119_dict : forall d, NoDup (map fst d) ->
  (Permutation (map fst d) (map snd d) -> exists p, IPerm d None = Ok p /\ iperilen p = None /\
     (forall i j, (0 <= i)%Z -> sends d i j -> igetitem p (Some i) = Some j) /\
     (forall i, (i < 0)%Z -> igetitem p (Some i) = None) /\
     (forall i, moves d i -> (i < ilength p)%Z) /\
     ((exists i, moves d i) -> ineutral p = false /\ moves d (ilength p - 1)) /\
     (~ (exists i, moves d i) -> ineutral p = true /\ ilength p = 0%Z)) /\
  (~ Permutation (map fst d) (map snd d) -> forall peri, IPerm d peri = Err DictError).
Proof.
  intros d Hn. split.
  - intro Hp. assert (Hd : one_to_one d) by (split; assumption). assert (E := IPerm_none d Hd). eexists. split; [exact E|].
    split; [destruct (filter imvd d); reflexivity|]. split; [intros i j Hi Hs; exact (getitem_none d _ i j Hd E Hi Hs)|]. split; [intros i Hi; apply getitem_neg; exact Hi|].
    assert (K := moved_keys d). destruct (filter imvd d) as [|kv m] eqn:Ef; cbn [ineutral ilength].
    + split; [intros i Hi; apply K in Hi; destruct Hi|]. split; [intros (i & Hi); apply K in Hi; destruct Hi|]. intros _. split; reflexivity.
    + assert (Hne : map fst (kv :: m) <> []) by discriminate. destruct (imax_spec _ Hne) as (H1 & H2).
      split; [intros i Hi; apply K, H2 in Hi; lia|]. split; [intros _; split; [reflexivity|]; apply K; replace (imax (map fst (kv :: m)) + 1 - 1)%Z with (imax (map fst (kv :: m))) by lia; exact H1|].
      intro H. exfalso. apply H. exists (imax (map fst (kv :: m))). apply K. exact H1.
  - intros H peri. unfold IPerm. destruct (ints_eqb (sort_int (map fst d)) (sort_int (map snd d))) eqn:E; [|reflexivity]. apply keys_check in E. contradiction.
Qed.
Print Assumptions C119_dict.

(** With a period that is great enough: if a negative number is moved, the period is never reduced; the object
    repeats the values of the dict at 0 ... q-1, unless the search for a smaller period ends in a KeyError.
    There is no KeyError if the number of moved numbers and the period have no common divisor. *)
Theorem C119_period : forall d q, one_to_one d -> 2 <= q -> (forall i, moves d i -> (i < Z.of_nat q)%Z) -> (exists i, moves d i /\ (i < 0)%Z) ->
  (IPerm d (Some q) = Err KeyErr \/ exists p, IPerm d (Some q) = Ok p /\ ineutral p = false /\ iperilen p = Some q /\ ilength p = Z.of_nat q /\
     (forall i, (i < 0)%Z -> igetitem p (Some i) = None) /\
     (forall i j t, (0 <= i < Z.of_nat q)%Z -> sends d i j -> igetitem p (Some (i + Z.of_nat t * Z.of_nat q)%Z) = Some (j + Z.of_nat t * Z.of_nat q)%Z)) /\
  ((exists l, NoDup l /\ (forall i, In i l <-> moves d i) /\ Nat.gcd (length l) q = 1) -> IPerm d (Some q) <> Err KeyErr).
Proof.
  intros d q (Hn & Hp) Hq Hb (x & Hx & Hneg). set (m := filter imvd d). assert (Nm : NoDup (map fst m)) by (apply filter_keys_NoDup; exact Hn).
  assert (Hm : has_negative m) by (destruct Hx as (v & Hv & Hd); exists x, v; split; [apply In_moved; tauto|exact Hneg]).
  assert (Kx : In x (map fst m)) by (apply moved_keys; exact Hx).
  assert (Hne : map fst m <> []) by (intro E; rewrite E in Kx; destruct Kx).
  assert (EI : IPerm d (Some q) = let* mq := reduce_period_int m q in Ok (mkIPerm false (fst mq) (Some (snd mq)) (Z.of_nat (snd mq)))).
  { unfold IPerm. rewrite (proj2 (keys_check d) Hp). cbn [true_except bind]. rewrite fold_iset by exact Hn. fold m. destruct m as [|kv m'] eqn:Em; [destruct Kx|]. rewrite <- Em in *.
    rewrite (proj2 (Nat.leb_le _ _) Hq). cbn [true_except bind]. destruct (imax_spec _ Hne) as (H1 & _). apply moved_keys, Hb in H1. rewrite (proj2 (Z.ltb_lt _ _) H1). reflexivity. }
  split.
  - rewrite EI. destruct (no_reduce m q ltac:(lia) Nm Hm) as [-> | ->]; [right|left; reflexivity]. cbn [bind fst snd]. eexists. split; [reflexivity|].
    split; [reflexivity|]. split; [reflexivity|]. split; [reflexivity|]. split; [intros i Hi; apply getitem_neg; exact Hi|].
    intros i j t Hi Hs. unfold igetitem. rewrite (proj2 (Z.leb_le _ _)) by nia. cbn [ineutral iperilen imapping].
    assert (Er : ((i + Z.of_nat t * Z.of_nat q) mod Z.of_nat q = i)%Z) by (rewrite Z.mod_add by lia; apply Z.mod_small; exact Hi).
    cbv zeta. rewrite Er. assert (G := iget_sends d i j Hn Hs). fold m in G. destruct (iget m i) as [v|]; subst; f_equal; lia.
  - intros (l & Nl & Hl & Hg). rewrite EI. rewrite coprime_reduce; [discriminate|lia|]. replace (length m) with (length l); [exact Hg|].
    rewrite <- (map_length fst m). apply Permutation_length. apply NoDup_Permutation; [exact Nl|exact Nm|]. intro i. rewrite Hl. symmetry. apply moved_keys.
Qed.
Print Assumptions C119_period.

(** Whether there is a KeyError depends on the order of the items. *)
Theorem C119_period_order_refuted : exists d d' q p, Permutation d d' /\ one_to_one d /\ 2 <= q /\ (forall i, moves d i -> (i < Z.of_nat q)%Z) /\
  IPerm d (Some q) = Ok p /\ IPerm d' (Some q) = Err KeyErr.
Proof.
  exists [(-1, 1); (1, -1)]%Z, [(1, -1); (-1, 1)]%Z, 4. eexists. split; [apply perm_swap|]. split; [split; [repeat constructor; cbn; intuition lia|apply perm_swap]|]. split; [lia|].
  split; [intros i (j & [E|[E|[]]] & _); injection E as <- <-; lia|]. split; vm_compute; reflexivity.
Qed.
Print Assumptions C119_period_order_refuted.

(** ** Inverse *)

Lemma iset_fresh m k v : ~ In k (map fst m) -> iset m k v = m ++ [(k, v)].
Proof.
  induction m as [|[k' v'] m IH]; [reflexivity|]. cbn [map fst iset app]. intro H. destruct (Z.eqb_spec k k') as [->|Hk]; [exfalso; apply H; left; reflexivity|].
  rewrite IH by (intro Q; apply H; right; exact Q). reflexivity.
Qed.
Lemma fold_turned m : forall acc, NoDup (map fst acc ++ map snd m) -> fold_left (fun m kv => iset m (snd kv) (fst kv)) m acc = acc ++ turned m.
Proof.
  induction m as [|[k v] m IH]; intros acc H; cbn [fold_left turned map fst snd]; [rewrite app_nil_r; reflexivity|]. cbn [map snd] in H.
  assert (Hni : ~ In v (map fst acc)) by (intro Q; apply NoDup_remove_2 in H; apply H; apply in_or_app; left; exact Q).
  rewrite iset_fresh by exact Hni. rewrite IH; [rewrite <- app_assoc; reflexivity|]. rewrite map_app, <- app_assoc. exact H.
Qed.
Lemma turned_one d : one_to_one d -> one_to_one (turned d).
Proof.
  intros (Hn & Hp). unfold one_to_one, turned. rewrite !map_map. cbn [fst snd]. split; [apply (Permutation_NoDup Hp Hn)|apply Permutation_sym; exact Hp].
Qed.
Lemma turned_filter d : turned (filter imvd d) = filter imvd (turned d).
Proof. induction d as [|[k v] d IH]; [reflexivity|]. cbn [filter turned map fst snd]. fold (turned d). change (imvd (k, v)) with (negb (Z.eqb k v)). change (imvd (v, k)) with (negb (Z.eqb v k)). rewrite (Z.eqb_sym v k). destruct (Z.eqb k v); cbn [negb turned map fst snd]; rewrite <- IH; reflexivity. Qed.
Lemma sends_turned d i j : one_to_one d -> sends d i j -> sends (turned d) j i.
Proof.
  intros (Hn & Hp) [H|(H & ->)].
  - left. apply in_map_iff. exists (i, j). split; [reflexivity|exact H].
  - right. split; [|reflexivity]. unfold turned. rewrite map_map. cbn [fst]. intro Q. apply H. apply (Permutation_in _ (Permutation_sym Hp)). exact Q.
Qed.
Lemma turned_twice d : turned (turned d) = d.
Proof. unfold turned. rewrite map_map. cbn [fst snd]. rewrite <- (map_id d) at 2. apply map_ext. intros [k v]. reflexivity. Qed.
Lemma filter_idem {A} (f : A -> bool) l : filter f (filter f l) = filter f l.
Proof. induction l as [|x l IH]; [reflexivity|]. cbn [filter]. destruct (f x) eqn:E; [cbn [filter]; rewrite E, IH; reflexivity|exact IH]. Qed.

(** The inverse is the object for the dict with keys and values exchanged; its inverse is the object itself. *)
Theorem C119_inverse : forall d p, one_to_one d -> IPerm d None = Ok p ->
  exists r, iinverse p = Ok r /\ IPerm (turned d) None = Ok r /\ one_to_one (turned d) /\ iinverse r = Ok p /\
    (forall i j, sends d i j -> sends (turned d) j i) /\
    (forall i j, (0 <= j)%Z -> sends d i j -> igetitem r (Some j) = Some i).
Proof.
  assert (Q : forall d p, one_to_one d -> IPerm d None = Ok p -> iinverse p = IPerm (turned d) None).
  { intros d p Hd E. rewrite (IPerm_none d Hd) in E. injection E as <-. assert (Ht := turned_one d Hd). rewrite (IPerm_none _ Ht). rewrite <- turned_filter.
    assert (Hf : one_to_one (filter imvd d)) by (apply bij_filter; exact Hd).
    destruct (filter imvd d) as [|kv m] eqn:Ef; [reflexivity|]. rewrite <- Ef in *. unfold iinverse. cbn [imapping iperilen]. rewrite fold_turned.
    - cbn [app]. rewrite (IPerm_none _ (turned_one _ Hf)). rewrite <- turned_filter, filter_idem. reflexivity.
    - cbn [map app]. apply (Permutation_NoDup (proj2 Hf)). apply Hf. }
  intros d p Hd E. assert (Ht := turned_one d Hd). assert (Er := IPerm_none _ Ht). eexists. split; [rewrite (Q d p Hd E); exact Er|]. split; [exact Er|]. split; [exact Ht|].
  split; [rewrite (Q _ _ Ht Er), turned_twice; exact E|]. split; [intros i j; apply sends_turned; exact Hd|].
  intros i j Hj Hs. apply (getitem_none _ _ j i Ht Er Hj). apply sends_turned; assumption.
Qed.
Print Assumptions C119_inverse.

(** ** Cycles and order *)

Definition C06f (m : dict) (Hn : NoDup (map fst m)) (Hp : Permutation (map fst m) (map snd m)) := ctor_finite (ArgDict m) Hn Hp.
Definition C10c := cycles_ok.
Lemma concat_map_map {A B} (f : A -> B) l : concat (map (map f) l) = map f (concat l).
Proof. symmetry. apply concat_map. Qed.

Lemma shifted d p : one_to_one d -> IPerm d None = Ok p -> exists N m p', d = um N m /\ Perm (ArgDict m) None = Ok p' /\ is_Perm p' /\ p = conv N p' /\ perilen p' = None /\
  (forall i j, sends d (un N i) j <-> j = un N (pget p' i)) /\ (forall z, (z < - Z.of_nat N)%Z -> forall j, sends d z j <-> j = z).
Proof.
  intros Hd E. destruct (shift_exists d) as (N & m & ->). exists N, m. rewrite IPerm_um in E. destruct (Perm (ArgDict m) None) as [p'|] eqn:Ep; [|discriminate]. cbn [on_ok] in E. injection E as <-.
  destruct Hd as (Hn & Hp). rewrite keys_um in Hn, Hp. rewrite vals_um in Hp. apply NoDup_un in Hn. apply Permutation_un in Hp.
  destruct (C06f m Hn Hp) as (p2 & E2 & _ & Hpp & H1 & H2). assert (p2 = p') as -> by congruence. exists p'. split; [reflexivity|]. split; [reflexivity|]. split; [apply (Spec_Perm.obj_new (ArgDict m) None); [exact Hn|exact Ep]|].
  split; [reflexivity|]. split; [exact Hpp|].
  assert (K : forall i, In (un N i) (map fst (um N m)) <-> exists j, In (i, j) m).
  { intro i. rewrite keys_um, in_map_iff. split.
    - intros (i' & E & H). apply un_inj in E. subst i'. unfold dkeys in H. apply in_map_iff in H as ([a b] & <- & H). exists b. exact H.
    - intros (j & H). exists i. split; [reflexivity|]. apply (in_map fst) in H. exact H. }
  split.
  - intros i j. unfold sends. rewrite K. split.
    + intros [H|(H & ->)].
      * assert (Hj : exists j', j = un N j') by (unfold um in H; apply in_map_iff in H as ([a b] & E & _); injection E as _ <-; exists b; reflexivity). destruct Hj as (j' & ->). apply In_um in H. f_equal. symmetry. apply H1. constructor. exact H.
      * f_equal. symmetry. apply H2. intros j Hs. inversion Hs; subst. apply H. exists j. assumption.
    + intros ->. destruct (dget m i) as [v|] eqn:Eg.
      * left. apply dget_In in Eg. apply In_um. replace (pget p' i) with v; [exact Eg|]. symmetry. apply H1. constructor. exact Eg.
      * right. assert (Hno : ~ exists j, In (i, j) m) by (intros (j & Hj); apply (In_dget m i j Hn) in Hj; congruence). split; [exact Hno|]. f_equal. apply H2. intros j Hs. inversion Hs; subst. apply Hno. exists j. assumption.
  - intros z Hz j. unfold sends. assert (Hno : ~ In z (map fst (um N m))) by (rewrite keys_um, in_map_iff; intros (x & E & _); unfold un in E; lia).
    split; [intros [H|(_ & ->)]; [exfalso; apply Hno; apply (in_map fst) in H; exact H|reflexivity]|]. intros ->. right. split; [exact Hno|reflexivity].
Qed.
Lemma moves_sends d i : NoDup (map fst d) -> moves d i <-> exists j, sends d i j /\ j <> i.
Proof.
  intro Hn. split.
  - intros (j & Hj & Hd). exists j. split; [left; exact Hj|congruence].
  - intros (j & [Hj|(_ & ->)] & Hd); [|congruence]. exists j. split; [exact Hj|congruence].
Qed.
Lemma says_pos (cs : list (list nat)) c i : In c cs -> i < length c -> says (ArgCycles cs) (nth i c 0) (nth (S i mod length c) c 0).
Proof.
  intros Hc Hi. destruct (Nat.eq_dec (S i) (length c)) as [E|E].
  - rewrite E, Nat.mod_same by lia. destruct c as [|x c']; [cbn in Hi; lia|]. apply (says_wrap cs (x :: c') _ _ c'); [exact Hc|reflexivity|].
    replace i with (length (x :: c') - 1) by lia. symmetry. rewrite <- (rev_involutive (x :: c')). generalize (rev (x :: c')) as l. intros [|y l]; [reflexivity|]. cbn [rev]. rewrite last_last, app_length. cbn [length].
    replace (length (rev l) + 1 - 1) with (length (rev l)) by lia. rewrite app_nth2, Nat.sub_diag by lia. reflexivity.
  - rewrite Nat.mod_small by lia. assert (Hi2 : S i < length c) by lia. apply (says_step cs c (firstn i c) (skipn (S (S i)) c)); [exact Hc|]. 
    rewrite <- (firstn_skipn i c) at 1. f_equal. clear - Hi2. revert i Hi2. induction c as [|x c IH]; intros i H; [cbn in H; lia|]. destruct i as [|i]; cbn [skipn nth].
    + destruct c as [|y c]; [cbn in H; lia|reflexivity].
    + apply IH. cbn [length] in H. lia.
Qed.

(** The cycles are those of the dict, also for negative numbers: they are disjoint and consist of the numbers that
    are moved, each number is sent to the next one, each cycle begins with its smallest number, and the cycles are
    sorted by that.  If a negative number is moved, the constructor refuses the cycles (and so what [str] shows). *)
Theorem C119_cycles : forall d p, one_to_one d -> IPerm d None = Ok p ->
  exists cs, icycles p = Ok cs /\ NoDup (concat cs) /\ (forall x, In x (concat cs) <-> moves d x) /\
    (forall c, In c cs -> 2 <= length c /\ (forall x, In x c -> (hd 0 c <= x)%Z) /\
      forall i, i < length c -> sends d (nth i c 0%Z) (nth (S i mod length c) c 0%Z)) /\
    StronglySorted Z.lt (map (hd 0%Z) cs) /\
    ((exists x, moves d x /\ (x < 0)%Z) -> forall peri, IPerm_cycles cs peri = Err CyclesError).
Proof.
  intros d p Hd E. destruct (shifted d p Hd E) as (N & m & p' & Em & Ep & Hp & -> & Hpp & Hs & Hlow). destruct (C10c p' Hp) as (cs & Ec & Hn & Hin & Hsay & Hc & Hsort).
  assert (Hin2 : forall x, In x (concat (map (map (un N)) cs)) <-> moves d x).
  { intro x. rewrite (moves_sends d x (proj1 Hd)). rewrite concat_map_map, in_map_iff. split.
    - intros (y & <- & Hy). exists (un N (pget p' y)). split; [apply Hs; reflexivity|]. intro Q. apply un_inj in Q. apply Hin in Hy. tauto.
    - intros (j & Hj & Hne). destruct (Z.lt_ge_cases x (- Z.of_nat N)) as [Hx|Hx]; [apply Hlow in Hj; [congruence|exact Hx]|]. destruct (un_exists N x Hx) as (y & ->). exists y. split; [reflexivity|].
      apply Hs in Hj. subst j. apply Hin. rewrite Hpp. split; [|exact I]. intro Q. apply Hne. rewrite Q. reflexivity. }
  exists (map (map (un N)) cs). rewrite icycles_um, Ec. split; [reflexivity|]. split; [rewrite concat_map_map; apply NoDup_un; exact Hn|]. split; [exact Hin2|].
  assert (Hhd : forall c, In c cs -> hd 0%Z (map (un N) c) = un N (hd 0 c)) by (intros c Hcc; destruct (Hc c Hcc) as (Hl & _); destruct c; [cbn in Hl; lia|reflexivity]).
  split; [|split].
  - intros c Hcc. apply in_map_iff in Hcc as (c' & <- & Hc'). rewrite map_length. destruct (Hc c' Hc') as (Hl & Hmin). split; [exact Hl|]. split.
    + intros x Hx. apply in_map_iff in Hx as (y & <- & Hy). rewrite Hhd by exact Hc'. specialize (Hmin y Hy). unfold un. lia.
    + intros i Hi. assert (Hm : S i mod length c' < length c') by (apply Nat.mod_upper_bound; lia). rewrite !(nth_indep (map (un N) c') 0%Z (un N 0)) by (rewrite map_length; assumption). rewrite !map_nth. apply Hs. f_equal. symmetry. apply Hsay. apply says_pos; assumption.
  - rewrite map_map. rewrite (map_ext_in _ (fun c => un N (hd 0 c))) by exact Hhd. clear - Hsort. rewrite <- (map_map (hd 0) (un N)). induction Hsort as [|x l Hs IH Hx]; [constructor|]. cbn [map]. constructor; [exact IH|].
    apply Forall_forall. intros y Hy. apply in_map_iff in Hy as (z & <- & Hz). rewrite Forall_forall in Hx. specialize (Hx z Hz). unfold un. lia.
  - intros (x & Hx & Hneg) peri. unfold IPerm_cycles. destruct (forallb (forallb (Z.leb 0)) (map (map (un N)) cs)) eqn:F; [|reflexivity]. exfalso. apply Hin2 in Hx. apply in_concat in Hx as (c & Hcc & Hxc).
    rewrite forallb_forall in F. specialize (F c Hcc). rewrite forallb_forall in F. specialize (F x Hxc). apply Z.leb_le in F. lia.
Qed.
Print Assumptions C119_cycles.

(** The order is the least common period of all integers under the dict. *)
Theorem C119_order : forall d p, one_to_one d -> IPerm d None = Ok p ->
  exists n, iorder p = Ok n /\ 0 < n /\
    forall (f : Z -> Z), (forall i, sends d i (f i)) -> forall k, (forall i, Nat.iter k f i = i) <-> Nat.divide n k.
Proof.
  intros d p Hd E. destruct (shifted d p Hd E) as (N & m & p' & Em & Ep & Hp & -> & Hpp & Hs & Hlow). destruct (porder_spec p' (is_Perm_wf p' Hp)) as (n & En & Hn & Hk).
  exists n. rewrite iorder_um. split; [exact En|]. split; [exact Hn|]. intros f Hf k.
  assert (F1 : forall x, f (un N x) = un N (pget p' x)) by (intro x; apply Hs; apply Hf). assert (F2 : forall z, (z < - Z.of_nat N)%Z -> f z = z) by (intros z Hz; apply (Hlow z Hz); apply Hf).
  assert (I1 : forall x, Nat.iter k f (un N x) = un N (iter (pget p') k x)) by (intro x; induction k as [|k IH]; [reflexivity|]; cbn [Nat.iter nat_rect iter]; unfold Nat.iter in IH; rewrite IH; apply F1).
  assert (I2 : forall z, (z < - Z.of_nat N)%Z -> Nat.iter k f z = z) by (intros z Hz; clear I1; induction k as [|k IH]; [reflexivity|]; cbn [Nat.iter nat_rect]; unfold Nat.iter in IH; rewrite IH; apply F2; exact Hz).
  unfold Nat.divide. rewrite <- Hk. split.
  - intros H x. apply (un_inj N). rewrite <- I1. apply H.
  - intros H z. destruct (Z.lt_ge_cases z (- Z.of_nat N)) as [Hz|Hz]; [apply I2; exact Hz|]. destruct (un_exists N z Hz) as (x & ->). rewrite I1, H. reflexivity.
Qed.
Print Assumptions C119_order.

(** ** Products *)

(** the object was made from a dict *)
Definition made_from (d : idict) (peri : option nat) (p : iperm) : Prop := one_to_one d /\ IPerm d peri = Ok p.
Definition moves_negative (d : idict) : Prop := exists x, moves d x /\ (x < 0)%Z.

Lemma made_data d peri p : made_from d peri p -> ineutral p = false ->
  (match iperilen p with None => peri = None | Some q => q <> 0 /\ peri <> None end) /\
  (moves_negative d -> imapping p = filter imvd d).
Proof.
  intros (Hd & E) Hne. unfold IPerm in E. rewrite (proj2 (keys_check d) (proj2 Hd)) in E. cbn [true_except bind] in E. rewrite fold_iset in E by apply Hd.
  destruct (filter imvd d) as [|kv m] eqn:Ef; [injection E as <-; discriminate Hne|]. rewrite <- Ef in *. destruct peri as [q|].
  - destruct (Nat.leb_spec 2 q) as [Hq|Hq]; [|discriminate]. cbn [true_except bind] in E. destruct (Z.ltb (imax (map fst (filter imvd d))) (Z.of_nat q)); [|discriminate]. cbn [true_except bind] in E.
    apply bind_ok in E as ((m', q') & Er & E). injection E as <-. cbn [iperilen imapping fst snd]. split; [split; [|discriminate]; apply (reduce_pos (S q) (filter imvd d) q m' q'); [lia|exact Er]|].
    intros (x & (v & Hv & Hx) & Hneg). destruct (no_reduce (filter imvd d) q) as [E2|E2]; [lia|apply filter_keys_NoDup; apply Hd| |rewrite Er in E2; injection E2 as -> _; reflexivity|rewrite Er in E2; discriminate].
    exists x, v. split; [apply In_moved; tauto|exact Hneg].
  - injection E as <-. split; [reflexivity|]. intros _. reflexivity.
Qed.
Lemma moved_two d x : one_to_one d -> moves d x -> exists y, moves d y /\ y <> x.
Proof.
  intros Hd (v & Hv & Hx). assert (Hf := bij_filter d Hd). assert (Hi : In v (map fst (filter imvd d))).
  { apply (Permutation_in _ (Permutation_sym (proj2 Hf))). apply in_map_iff. exists (x, v). split; [reflexivity|]. apply In_moved. tauto. }
  apply moved_keys in Hi. exists v. split; [exact Hi|congruence].
Qed.
Lemma iunion_In a b x : In x (iunion a b) <-> In x a \/ In x b.
Proof.
  unfold iunion. rewrite in_app_iff, filter_In, negb_true_iff. split; [tauto|]. intros [H|H]; [tauto|]. destruct (memi x a) eqn:E; [|tauto]. left. unfold memi in E. apply existsb_exists in E as (y & Hy & Q). apply Z.eqb_eq in Q. congruence.
Qed.
Lemma ibroaden_In l q r x : 0 < r -> In x l -> In x (ibroaden l q r).
Proof. intros Hr H. unfold ibroaden. apply in_flat_map. exists 0. split; [apply range_In; lia|]. apply in_map_iff. exists x. split; [lia|exact H]. Qed.
Lemma two_long {A} (l : list A) x y : In x l -> In y l -> x <> y -> 2 <= length l.
Proof. destruct l as [|a [|b l]]; cbn; intros; [tauto| |lia]. destruct H as [<-|[]], H0 as [<-|[]]. congruence. Qed.
Lemma values_err (F : Z -> option Z) mv peri x y : In x mv -> In y mv -> x <> y -> F x = None -> IPerm_values (map (fun i => (i, F i)) mv) peri = Err TypeErr.
Proof.
  intros Hx Hy Hne HF. unfold IPerm_values. destruct (forallb _ (map (fun i => (i, F i)) mv)) eqn:E.
  - exfalso. rewrite forallb_forall in E. specialize (E (x, F x) (in_map (fun i => (i, F i)) mv x Hx)). cbn [snd] in E. rewrite HF in E. discriminate.
  - rewrite map_length. rewrite (proj2 (Nat.leb_le _ _) (two_long mv x y Hx Hy Hne)). reflexivity.
Qed.

(** If one of two factors moves a negative number and the other is not neutral, the product raises a TypeError
    (because None is compared with numbers), or OtherPerilenMismatchError if only one of them has a period. *)
Theorem C119_product : forall d e pd pe a b, made_from d pd a -> made_from e pe b -> ineutral a = false -> ineutral b = false -> moves_negative d \/ moves_negative e ->
  (pd = None <-> pe = None) /\ imul a b = Err TypeErr \/ ~ (pd = None <-> pe = None) /\ imul a b = Err OtherPerilenMismatchError.
Proof.
  intros d e pd pe a b Ha Hb Na Nb Hneg. destruct (made_data d pd a Ha Na) as (Da & Ma). destruct (made_data e pe b Hb Nb) as (Db & Mb).
  assert (X : exists x y, x <> y /\ (x < 0)%Z /\ (In x (imoved a) /\ In y (imoved a) \/ In x (imoved b) /\ In y (imoved b))).
  { destruct Hneg as [H|H]; [assert (M := Ma H); destruct H as (x & Hx & Hn); destruct (moved_two d x (proj1 Ha) Hx) as (y & Hy & Hne)|assert (M := Mb H); destruct H as (x & Hx & Hn); destruct (moved_two e x (proj1 Hb) Hx) as (y & Hy & Hne)];
    exists x, y; (split; [congruence|]); (split; [exact Hn|]); unfold imoved; rewrite M; [left|right]; split; apply moved_keys; assumption. }
  destruct X as (x & y & Hne & Hx & Hin).
  assert (F : igetitem a (igetitem b (Some x)) = None) by (rewrite (getitem_neg b x Hx); reflexivity).
  unfold imul. rewrite Na, Nb. cbv zeta. destruct (iperilen a) as [qa|], (iperilen b) as [qb|].
  - left. split; [intuition congruence|]. apply (values_err (fun i => igetitem a (igetitem b (Some i))) _ _ x y); [| |exact Hne|exact F].
    + apply iunion_In. destruct Hin as [(Hin & _)|(Hin & _)]; [left|right]; (apply ibroaden_In; [|exact Hin]); apply Nat.div_str_pos; (split; [lia|]); apply Nat.divide_pos_le; try (apply Nat.neq_0_lt_0; rewrite Nat.lcm_eq_0; lia); [apply Nat.divide_lcm_l|apply Nat.divide_lcm_r].
    + apply iunion_In. destruct Hin as [(_ & Hin)|(_ & Hin)]; [left|right]; (apply ibroaden_In; [|exact Hin]); apply Nat.div_str_pos; (split; [lia|]); apply Nat.divide_pos_le; try (apply Nat.neq_0_lt_0; rewrite Nat.lcm_eq_0; lia); [apply Nat.divide_lcm_l|apply Nat.divide_lcm_r].
  - right. split; [intuition congruence|reflexivity].
  - right. split; [intuition congruence|reflexivity].
  - left. split; [intuition congruence|]. apply (values_err (fun i => igetitem a (igetitem b (Some i))) _ _ x y); [| |exact Hne|exact F]; apply iunion_In; tauto.
Qed.
Print Assumptions C119_product.

(** So there are no powers, except those with exponent -1, 0 and 1; the product with the inverse does not exist. *)
Theorem C119_power : forall d p k, made_from d None p -> moves_negative d ->
  ipow p 0 = Ok ineutral_perm /\ ipow p 1 = Ok p /\ (exists r, ipow p (-1) = Ok r /\ iinverse p = Ok r /\ imul p r = Err TypeErr /\ imul r p = Err TypeErr) /\
  ((1 < Z.abs k)%Z -> ipow p k = Err TypeErr).
Proof.
  intros d p k Hm Hneg. destruct (C119_inverse d p (proj1 Hm) (proj2 Hm)) as (r & Er & Et & Ht & _ & _ & _).
  assert (Hr : made_from (turned d) None r) by (split; assumption).
  assert (Np : ineutral p = false).
  { destruct (proj1 (C119_dict d (proj1 (proj1 Hm))) (proj2 (proj1 Hm))) as (p2 & E2 & _ & _ & _ & _ & Hy & _). rewrite (proj2 Hm) in E2. injection E2 as <-. destruct Hneg as (x & Hx & _). apply Hy. exists x. exact Hx. }
  assert (Tneg : moves_negative (turned d)).
  { destruct Hneg as (x & Hx & Hn). exists x. split; [|exact Hn]. apply moved_keys. rewrite <- turned_filter. unfold turned. rewrite map_map. cbn [fst].
    apply (Permutation_in _ (proj2 (bij_filter d (proj1 Hm)))). apply moved_keys. exact Hx. }
  assert (Nr : ineutral r = false).
  { destruct (proj1 (C119_dict (turned d) (proj1 Ht)) (proj2 Ht)) as (p2 & E2 & _ & _ & _ & _ & Hy & _). rewrite Et in E2. injection E2 as <-. destruct Tneg as (x & Hx & _). apply Hy. exists x. exact Hx. }
  assert (M : forall d1 d2 a b, made_from d1 None a -> made_from d2 None b -> ineutral a = false -> ineutral b = false -> moves_negative d1 -> imul a b = Err TypeErr).
  { intros d1 d2 a b H1 H2 N1 N2 H3. destruct (C119_product d1 d2 None None a b H1 H2 N1 N2 (or_introl H3)) as [(_ & E)|(E & _)]; [exact E|tauto]. }
  split; [reflexivity|]. split; [reflexivity|]. split.
  - exists r. split; [exact Er|]. split; [exact Er|]. split; [apply (M d (turned d)); assumption|apply (M (turned d) d); assumption].
  - intro Hk. unfold ipow. rewrite (proj2 (Z.eqb_neq k 0)), (proj2 (Z.eqb_neq k 1)), (proj2 (Z.eqb_neq k (-1))) by lia. destruct (Z.ltb_spec 1 k) as [H|H].
    + destruct (Z.to_nat (k - 1)) as [|n] eqn:En; [lia|]. cbn [imul_times]. rewrite (M d d p p) by assumption. reflexivity.
    + rewrite Er. cbn [bind]. destruct (Z.to_nat (- k - 1)) as [|n] eqn:En; [lia|]. cbn [imul_times]. rewrite (M (turned d) (turned d) r r) by assumption. reflexivity.
Qed.
Print Assumptions C119_power.

(** ** Application to a vector *)

Lemma sends_total d i : exists j, sends d i j.
Proof. destruct (iget d i) as [v|] eqn:E; [exists v; left; apply iget_In; exact E|]. exists i. right. split; [apply iget_None; exact E|reflexivity]. Qed.
Lemma sends_fun d i j j' : NoDup (map fst d) -> sends d i j -> sends d i j' -> j = j'.
Proof. intros Hn H H'. assert (G := iget_sends d i j Hn H). assert (G' := iget_sends d i j' Hn H'). destruct (iget (filter imvd d) i); congruence. Qed.
Lemma sends_inj d i i' j : one_to_one d -> sends d i j -> sends d i' j -> i = i'.
Proof. intros Hd H H'. apply (sends_turned d _ _ Hd) in H, H'. apply (sends_fun (turned d) j); [apply turned_one; exact Hd|exact H|exact H']. Qed.
Lemma int_index_ok {A} (v : list A) k : (- Z.of_nat (length v) <= k < Z.of_nat (length v))%Z ->
  exists x, int_index v k = Ok x /\ nth_error v (Z.to_nat (k mod Z.of_nat (length v))) = Some x.
Proof.
  intro H. unfold int_index. destruct (Z.leb_spec 0 k) as [H0|H0].
  - rewrite Z.mod_small by lia. unfold lget. destruct (nth_error v (Z.to_nat k)) as [x|] eqn:E; [eauto|]. apply nth_error_None in E. lia.
  - rewrite (proj2 (Z.leb_le _ _)) by lia. assert (E : (k mod Z.of_nat (length v) = Z.of_nat (length v) + k)%Z) by (symmetry; apply (Z.mod_unique _ _ (-1)); lia). rewrite E.
    unfold lget. destruct (nth_error v (Z.to_nat (Z.of_nat (length v) + k))) as [x|] eqn:Ex; [eauto|]. apply nth_error_None in Ex. lia.
Qed.
Lemma int_index_bad {A} (v : list A) k : ~ (- Z.of_nat (length v) <= k < Z.of_nat (length v))%Z -> int_index v k = Err IndexErr.
Proof.
  intro H. unfold int_index. destruct (Z.leb_spec 0 k) as [H0|H0].
  - unfold lget. destruct (nth_error v (Z.to_nat k)) as [x|] eqn:E; [|reflexivity]. assert (Z.to_nat k < length v) by (apply nth_error_Some; congruence). lia.
  - rewrite (proj2 (Z.leb_gt _ _)) by lia. reflexivity.
Qed.
Lemma mapM_bad {A B} (f : A -> res B) e l : (forall x, In x l -> f x = Err e \/ exists y, f x = Ok y) -> (exists x, In x l /\ f x = Err e) -> mapM f l = Err e.
Proof.
  induction l as [|x l IH]; intros H (z & Hz & Ez); [destruct Hz|]. cbn [mapM]. destruct (H x (or_introl eq_refl)) as [-> |(y & Ey)]; [reflexivity|]. rewrite Ey. cbn [bind].
  rewrite IH; [reflexivity|intros w Hw; apply H; right; exact Hw|]. exists z. split; [|exact Ez]. destruct Hz as [<-|Hz]; [congruence|exact Hz].
Qed.

(** apply_on_vector: place i gets the entry at the place that is sent to i; negative places count from the end.  If
    such a place is outside of the vector, IndexError is raised. *)
Theorem C119_apply : forall (A : Type) d p (v : list A), made_from d None p ->
  let inside k := (- Z.of_nat (length v) <= k < Z.of_nat (length v))%Z in
  ((forall i k, i < length v -> sends d k (Z.of_nat i) -> inside k) ->
     exists r, iapply p v = Ok r /\ length r = length v /\
       forall i k, i < length v -> sends d k (Z.of_nat i) -> nth_error r i = nth_error v (Z.to_nat (k mod Z.of_nat (length v)))) /\
  ((exists i k, i < length v /\ sends d k (Z.of_nat i) /\ ~ inside k) -> iapply p v = Err IndexErr).
Proof.
  intros A d p v (Hd & E) inside. destruct (C119_inverse d p Hd E) as (r & Er & _ & _ & _ & _ & Hg). unfold iapply. rewrite Er. cbn [bind].
  set (F := fun i : nat => match igetitem r (Some (Z.of_nat i)) with Some k => int_index v k | None => Err TypeErr end).
  assert (Pre : forall i : nat, exists k, sends d k (Z.of_nat i) /\ F i = int_index v k).
  { intro i. destruct (sends_total (turned d) (Z.of_nat i)) as (k & Hk). apply (sends_turned _ _ _ (turned_one d Hd)) in Hk. rewrite turned_twice in Hk. exists k. split; [exact Hk|].
    unfold F. rewrite (Hg k (Z.of_nat i)); [reflexivity|lia|exact Hk]. }
  split.
  - intro H. assert (W : exists w, mapM F (range (length v)) = Ok w /\ length w = length v /\ forall i, i < length v -> exists x, F i = Ok x /\ nth_error w i = Some x).
    { assert (G : forall l, (forall i, In i l -> i < length v) -> exists w, mapM F l = Ok w /\ length w = length l /\ forall t, t < length l -> exists x, F (nth t l 0) = Ok x /\ nth_error w t = Some x).
      { induction l as [|i l IH]; intro Hl; [exists []; split; [reflexivity|]; split; [reflexivity|]; intros t Ht; cbn in Ht; lia|]. cbn [mapM].
        destruct (Pre i) as (k & Hk & EF). destruct (int_index_ok v k (H i k (Hl i (or_introl eq_refl)) Hk)) as (x & Ex & _). rewrite EF, Ex. cbn [bind].
        destruct IH as (w & Ew & Lw & Nw); [intros z Hz; apply Hl; right; exact Hz|]. rewrite Ew. cbn [bind]. exists (x :: w). split; [reflexivity|]. split; [cbn [length]; rewrite Lw; reflexivity|].
        intros [|t] Ht; cbn [nth nth_error]; [exists x; split; [rewrite EF; exact Ex|reflexivity]|]. apply Nw. cbn [length] in Ht. lia. }
      destruct (G (range (length v))) as (w & Ew & Lw & Nw); [intros i Hi; apply range_In in Hi; exact Hi|]. rewrite range_length in *. exists w. split; [exact Ew|]. split; [exact Lw|]. intros i Hi. destruct (Nw i Hi) as (x & Hx & Hy).
      exists x. unfold range in Hx. rewrite seq_nth in Hx by exact Hi. split; assumption. }
    destruct W as (w & Ew & Lw & Nw). exists w. split; [exact Ew|]. split; [exact Lw|]. intros i k Hi Hk. destruct (Nw i Hi) as (x & Hx & Hy). rewrite Hy.
    destruct (Pre i) as (k' & Hk' & EF). assert (k' = k) as -> by (apply (sends_inj d _ _ _ Hd Hk' Hk)). destruct (int_index_ok v k (H i k Hi Hk)) as (x' & Ex & Nx). rewrite Nx. congruence.
  - intros (i & k & Hi & Hk & Hout). apply mapM_bad.
    + intros j _. destruct (Pre j) as (k' & _ & ->). assert (D : (- Z.of_nat (length v) <= k' < Z.of_nat (length v))%Z \/ ~ (- Z.of_nat (length v) <= k' < Z.of_nat (length v))%Z) by lia.
      destruct D as [D|D]; [right; destruct (int_index_ok v k' D) as (x & -> & _); eauto|left; apply int_index_bad; exact D].
    + exists i. split; [apply range_In; exact Hi|]. destruct (Pre i) as (k' & Hk' & ->). assert (k' = k) as -> by (apply (sends_inj d _ _ _ Hd Hk' Hk)). apply int_index_bad. exact Hout.
Qed.
Print Assumptions C119_apply.

(** The result is not always a rearrangement of the vector. *)
Theorem C119_apply_refuted : exists d p (v r : list nat), made_from d None p /\ iapply p v = Ok r /\ ~ Permutation r v.
Proof.
  exists [(-1, 0); (0, -1)]%Z. eexists. exists [5; 6; 7], [7; 6; 7]. split; [split; [split; [repeat constructor; cbn; intuition lia|apply perm_swap]|vm_compute; reflexivity]|].
  split; [vm_compute; reflexivity|]. intro P. assert (H : In 5 [7; 6; 7]) by (apply (Permutation_in _ (Permutation_sym P)); left; reflexivity). cbn in H. intuition lia.
Qed.
Print Assumptions C119_apply_refuted.

(** ** The sequence *)

Lemma seq_entries d p : made_from d None p ->
  isequence p = map (fun i => match iget (filter imvd d) (Z.of_nat i) with Some v => v | None => Z.of_nat i end) (range (Z.to_nat (ilength p))) /\
  forall i, moves d i -> (i < ilength p)%Z.
Proof.
  intros (Hd & E). rewrite (IPerm_none d Hd) in E. destruct (filter imvd d) as [|kv m] eqn:Ef.
  - injection E as <-. split; [reflexivity|]. intros i Hi. apply moved_keys in Hi. rewrite Ef in Hi. destruct Hi.
  - rewrite <- Ef in *. injection E as <-. split.
    + unfold isequence. cbn [iperilen ilength]. apply map_ext. intro i. unfold igetitem. rewrite (proj2 (Z.leb_le _ _)) by lia. cbn [ineutral iperilen imapping]. destruct (iget (filter imvd d) (Z.of_nat i)); reflexivity.
    + intros i Hi. apply moved_keys in Hi. assert (Hne : map fst (filter imvd d) <> []) by (rewrite Ef; discriminate). assert (G := proj2 (imax_spec _ Hne) i Hi). cbn [ilength]. lia.
Qed.
Lemma sends_get d i : NoDup (map fst d) -> sends d i (match iget (filter imvd d) i with Some v => v | None => i end).
Proof. intro Hn. destruct (sends_total d i) as (j & Hj). assert (G := iget_sends d i j Hn Hj). destruct (iget (filter imvd d) i); subst; exact Hj. Qed.

(** [sequence()] lists the numbers to which 0, 1, … are sent.  If no natural number is sent to a negative one, it
    makes a permutation that does the same with the natural numbers; otherwise it is refused. *)
Theorem C119_sequence : forall d p, made_from d None p ->
  (forall i, (Z.of_nat i < ilength p)%Z -> exists j, sends d (Z.of_nat i) j /\ nth_error (isequence p) i = Some j) /\
  (forall i, (ilength p <= Z.of_nat i)%Z -> nth_error (isequence p) i = None) /\
  ((forall i j, sends d (Z.of_nat i) j -> (0 <= j)%Z) ->
     exists q, IPerm_sequence (isequence p) None = Ok q /\ forall i, sends d (Z.of_nat i) (Z.of_nat (pget q i))) /\
  ((exists i j, sends d (Z.of_nat i) j /\ (j < 0)%Z) -> forall peri, IPerm_sequence (isequence p) peri = Err SequenceError).
Proof.
  intros d p Hm. destruct (seq_entries d p Hm) as (Es & Hlen). assert (Hd := proj1 Hm). set (L := Z.to_nat (ilength p)) in *. rewrite Es.
  set (F := fun i : nat => match iget (filter imvd d) (Z.of_nat i) with Some v => v | None => Z.of_nat i end) in *.
  assert (SF : forall i, sends d (Z.of_nat i) (F i)) by (intro i; apply sends_get; apply Hd).
  assert (Nth : forall i, i < L -> nth_error (map F (range L)) i = Some (F i)).
  { intros i Hi. rewrite nth_error_map. unfold range. rewrite (nth_error_nth' _ 0), seq_nth by (try rewrite seq_length; exact Hi). reflexivity. }
  assert (Far : forall i, L <= i -> F i = Z.of_nat i).
  { intros i Hi. unfold F. destruct (iget (filter imvd d) (Z.of_nat i)) as [v|] eqn:E; [|reflexivity]. exfalso. apply iget_In, (in_map fst) in E. cbn [fst] in E. apply moved_keys, Hlen in E. unfold L in Hi. lia. }
  split; [|split; [|split]].
  - intros i Hi. exists (F i). split; [apply SF|]. apply Nth. lia.
  - intros i Hi. apply nth_error_None. rewrite map_length, range_length. lia.
  - intro Hnat. assert (Hp : Permutation (map F (range L)) (map Z.of_nat (range L))).
    { apply NoDup_Permutation_bis.
      - apply FinFun.Injective_map_NoDup; [|apply seq_NoDup]. intros a b Hab. assert (X := sends_inj d (Z.of_nat a) (Z.of_nat b) (F b) Hd). assert (S1 := SF a). rewrite Hab in S1. specialize (X S1 (SF b)). lia.
      - rewrite !map_length. apply Nat.le_refl.
      - intros x Hx. apply in_map_iff in Hx as (i & <- & Hi). apply range_In in Hi. assert (H0 := Hnat i (F i) (SF i)). apply in_map_iff. exists (Z.to_nat (F i)). split; [lia|]. apply range_In.
        unfold F. destruct (iget (filter imvd d) (Z.of_nat i)) as [v|] eqn:E; [|lia]. unfold F in H0. rewrite E in H0. apply iget_In, (in_map snd) in E. cbn [snd] in E.
        apply (Permutation_in _ (Permutation_sym (proj2 (bij_filter d Hd)))), moved_keys, Hlen in E. lia. }
    unfold IPerm_sequence. rewrite map_length, range_length.
    assert (Q : sort_int (map F (range L)) = map Z.of_nat (range L)).
    { transitivity (sort_int (map Z.of_nat (range L))); [apply sort_int_eq; exact Hp|]. symmetry. assert (U : forall l, map Z.of_nat l = map (un 0) l) by (intro l; apply map_ext; intro a; unfold un; lia). rewrite !U, sort_un. f_equal. symmetry. apply sort_nat_range. apply Permutation_refl. }
    rewrite Q, (proj2 (ints_eqb_eq _ _) eq_refl). cbn [true_except bind]. rewrite map_map.
    assert (P2 : permutes (ArgSeq (map (fun i => Z.to_nat (F i)) (range L)))).
    { unfold permutes. rewrite map_length, range_length. apply (Permutation_map Z.to_nat) in Hp. rewrite !map_map in Hp. rewrite (map_ext (fun x => Z.to_nat (Z.of_nat x)) (fun x => x)) in Hp by (intro; apply Nat2Z.id). rewrite map_id in Hp. exact Hp. }
    destruct (ctor_finite (ArgSeq (map (fun i => Z.to_nat (F i)) (range L))) I P2) as (q & Eq & _ & _ & H1 & H2). exists q. split; [exact Eq|]. intro i. destruct (Nat.lt_ge_cases i L) as [Hi|Hi].
    + rewrite (H1 i (Z.to_nat (F i))); [rewrite Z2Nat.id; [apply SF|apply (Hnat i); apply SF]|]. constructor. rewrite nth_error_map. unfold range. rewrite (nth_error_nth' _ 0), seq_nth by (try rewrite seq_length; exact Hi). reflexivity.
    + rewrite H2; [assert (S1 := SF i); rewrite (Far i Hi) in S1; exact S1|]. intros j Hj. inversion Hj as [l i' j' Hn| | |]; subst. assert (i < length (map (fun i => Z.to_nat (F i)) (range L))) by (apply nth_error_Some; congruence). rewrite map_length, range_length in *. lia.
  - intros (i & j & Hs & Hneg) peri. assert (EF : F i = j) by (apply (sends_fun d (Z.of_nat i)); [apply Hd|apply SF|exact Hs]).
    assert (Hi : i < L) by (destruct (Nat.lt_ge_cases i L) as [H|H]; [exact H|]; rewrite (Far i H) in EF; lia).
    unfold IPerm_sequence. destruct (ints_eqb _ _) eqn:E; [|reflexivity]. exfalso. apply ints_eqb_eq in E. assert (In j (sort_int (map F (range L)))).
    { apply (Permutation_in _ (sort_int_perm _)). apply in_map_iff. exists i. split; [exact EF|apply range_In; exact Hi]. }
    rewrite E in H. apply in_map_iff in H as (x & <- & _). lia.
Qed.
Print Assumptions C119_sequence.

(** ** Natural numbers *)

Definition zd (m : dict) : idict := map (fun kv => (Z.of_nat (fst kv), Z.of_nat (snd kv))) m.
Definition zperm (p : perm) : iperm := mkIPerm (neutral p) (zd (mapping p)) (perilen p) (Z.of_nat (plength p)).
Lemma zd_um m : zd m = um 0 m.
Proof. unfold zd, um. apply map_ext. intros [k v]. unfold un. cbn [fst snd]. f_equal; lia. Qed.
Lemma zn_un l : map (un 0) l = map Z.of_nat l.
Proof. apply map_ext. intro a. unfold un. lia. Qed.
Lemma forallM_eq {A} (f g : A -> res bool) l : (forall x, In x l -> f x = g x) -> forallM f l = forallM g l.
Proof. induction l as [|x l IH]; intro H; [reflexivity|]. cbn [forallM]. rewrite (H x (or_introl eq_refl)). destruct (g x) as [b|e]; [|reflexivity]. cbn [bind]. rewrite IH; [reflexivity|]. intros y Hy. apply H. right. exact Hy. Qed.
Lemma forallM_map {A B} (h : A -> B) (f : B -> res bool) l : forallM f (map h l) = forallM (fun x => f (h x)) l.
Proof. induction l as [|x l IH]; [reflexivity|]. cbn [map forallM]. rewrite IH. reflexivity. Qed.
Lemma lget_map {A B} (h : A -> B) l i : lget (map h l) i = on_ok h (lget l i).
Proof. unfold lget. rewrite nth_error_map. destruct (nth_error l i); reflexivity. Qed.
Lemma ilookup_zd m k : ilookup (zd m) (Z.of_nat k) = on_ok Z.of_nat (dlookup m k).
Proof. unfold ilookup, dlookup. replace (Z.of_nat k) with (un 0 k) by (unfold un; lia). rewrite zd_um, iget_um. destruct (dget m k) as [v|]; [|reflexivity]. cbn. unfold un. f_equal. lia. Qed.
Lemma block_zd m q p : block_repeats_int (zd m) q p = block_repeats m q p.
Proof.
  unfold block_repeats_int, block_repeats. cbv zeta. assert (Es : sort_int (map fst (zd m)) = map Z.of_nat (sort_nat (dkeys m))) by (rewrite zd_um, keys_um, sort_un, zn_un; reflexivity).
  rewrite Es, map_length. destruct (negb _); [reflexivity|].
  match goal with |- (let* _ := ?a in _) = (let* _ := ?b in _) => assert (E : a = b) end.
  { apply forallM_eq. intros key _. apply forallM_eq. intros i _. rewrite !lget_map. destruct (lget (sort_nat (dkeys m)) _) as [a|e]; [|reflexivity]. cbn [bind on_ok]. destruct (lget (sort_nat (dkeys m)) key) as [b|e]; [|reflexivity]. cbn [bind on_ok]. f_equal.
    destruct (Nat.eqb_spec a (i * (q / p) + b)); [apply Z.eqb_eq|apply Z.eqb_neq]; rewrite <- Nat2Z.inj_mul; lia. }
  rewrite E. match goal with |- (let* _ := ?a in _) = _ => destruct a as [pat|e] end; [|reflexivity]. cbn [bind]. destruct (negb pat); [reflexivity|].
  assert (Ef : filter (fun k => Z.ltb k (Z.of_nat (q / p))) (map fst (zd m)) = map Z.of_nat (filter (fun k => Nat.ltb k (q / p)) (dkeys m))).
  { rewrite zd_um, keys_um, zn_un. clear. induction (dkeys m) as [|k l IH]; [reflexivity|]. cbn [map filter]. destruct (Nat.ltb_spec k (q / p)); [rewrite (proj2 (Z.ltb_lt _ _)) by lia; cbn [map]; rewrite IH; reflexivity|rewrite (proj2 (Z.ltb_ge _ _)) by lia; exact IH]. }
  rewrite Ef, forallM_map. apply forallM_eq. intros key _. apply forallM_eq. intros i _. rewrite <- Nat2Z.inj_mul, <- Nat2Z.inj_add, !ilookup_zd.
  destruct (dlookup m _) as [a|e]; [|reflexivity]. cbn [bind on_ok]. destruct (dlookup m key) as [b|e]; [|reflexivity]. cbn [bind on_ok]. f_equal.
  destruct (Nat.eqb_spec a (i * (q / p) + b)); [apply Z.eqb_eq|apply Z.eqb_neq]; lia.
Qed.
Lemma first_zd m q ps : first_repeating_int (zd m) q ps = first_repeating m q ps.
Proof. induction ps as [|p ps IH]; [reflexivity|]. cbn [first_repeating_int first_repeating]. rewrite block_zd, IH. reflexivity. Qed.
Lemma reduce_zd fuel : forall m q, reduce_period_int_fuel fuel (zd m) q = on_ok (fun mq => (zd (fst mq), snd mq)) (reduce_period_fuel fuel m q).
Proof.
  induction fuel as [|fuel IH]; intros m q; [reflexivity|]. cbn [reduce_period_int_fuel reduce_period_fuel]. rewrite first_zd. destruct (first_repeating m q (primefactors q)) as [[p|]|e]; [|reflexivity|reflexivity].
  cbn [bind]. cbv zeta. rewrite <- IH. f_equal. clear IH. induction m as [|[k v] m IH]; [reflexivity|]. cbn [zd map filter fst snd]. fold (zd m).
  destruct (Nat.ltb_spec k (q / p)); [rewrite (proj2 (Z.ltb_lt _ _)) by lia; cbn [zd map fst snd]; fold (zd (filter (fun kv => Nat.ltb (fst kv) (q / p)) m)); f_equal; exact IH|rewrite (proj2 (Z.ltb_ge _ _)) by lia; exact IH].
Qed.

(** For natural numbers the constructor (with and without a period) and the entries are those of Model_Perm. *)
Theorem C119_natural : forall m peri,
  IPerm (zd m) peri = on_ok zperm (Perm (ArgDict m) peri) /\
  (forall p i, igetitem (zperm p) (Some (Z.of_nat i)) = Some (Z.of_nat (pget p i))).
Proof.
  intros m peri. split.
  - unfold IPerm, Perm, arg_mapping. rewrite zd_um, keys_um, vals_um, !sort_un, ints_eqb_un. destruct (list_eqb (sort_nat (dkeys m)) (sort_nat (dvals m))); [|reflexivity]. cbn [true_except bind].
    change (@nil (Z * Z)) with (um 0 []). rewrite fold_set_um. destruct (fold_left set_if_moved m []) as [|kv t] eqn:E; [reflexivity|]. cbv zeta.
    rewrite <- !zd_um. change (zd (kv :: t)) with ((Z.of_nat (fst kv), Z.of_nat (snd kv)) :: zd t) at 1. cbv iota.
    assert (Em : imax (map fst (zd (kv :: t))) = Z.of_nat (list_max_nat (dkeys (kv :: t)))) by (rewrite zd_um, keys_um, imax_un by discriminate; unfold un; lia). rewrite Em.
    destruct peri as [q|].
    + destruct (Nat.leb 2 q); [|reflexivity]. cbn [true_except bind]. destruct (Nat.ltb_spec (list_max_nat (dkeys (kv :: t))) q) as [Hl|Hl]; [rewrite (proj2 (Z.ltb_lt _ _)) by lia|rewrite (proj2 (Z.ltb_ge _ _)) by lia; reflexivity]. cbn [true_except bind].
      unfold reduce_period_int, reduce_period. rewrite reduce_zd. destruct (reduce_period_fuel (S q) (kv :: t) q) as [(m', q')|e]; reflexivity.
    + cbn [on_ok]. unfold zperm. cbn [neutral mapping perilen plength]. f_equal. f_equal. lia.
  - intros p i. unfold igetitem, pget, zperm. cbn [ineutral iperilen imapping]. rewrite (proj2 (Z.leb_le _ _)) by lia. destruct (neutral p); [reflexivity|].
    assert (G : forall k, iget (zd (mapping p)) (Z.of_nat k) = option_map Z.of_nat (dget (mapping p) k)).
    { intro k. replace (Z.of_nat k) with (un 0 k) by (unfold un; lia). rewrite zd_um, iget_um. destruct (dget (mapping p) k); [|reflexivity]. cbn. f_equal. unfold un. lia. }
    destruct (perilen p) as [q|]; [|rewrite G; destruct (dget (mapping p) i); reflexivity].
    cbv zeta. rewrite <- Nat2Z.inj_mod, G. destruct (dget (mapping p) (i mod q)) as [v|]; [|reflexivity]. cbn [option_map]. f_equal. assert (i mod q <= i) by (destruct q; [cbn; lia|apply Nat.mod_le; lia]). lia.
Qed.
Print Assumptions C119_natural.

(** ** Examples *)

(** a cycle of three numbers with a negative one, two numbers exchanged, and one fixed number *)
Definition ex_dict : idict := [(-2, 3); (3, 0); (0, -2); (5, 5); (1, 4); (4, 1)]%Z.
Lemma ex_one : one_to_one ex_dict.
Proof. split; [repeat constructor; cbn; intuition lia|]. apply keys_check. vm_compute. reflexivity. Qed.

Example C119_ex_dict : (let* p := IPerm ex_dict None in Ok (ilength p, ineutral p, map (fun i => igetitem p (Some i)) [-2; -1; 0; 1; 2; 3; 4; 5]%Z)) =
  Ok (5%Z, false, [None; None; Some (-2); Some 4; Some 2; Some 0; Some 1; Some 5]%Z) /\
  (let* p := IPerm [(-3, -2); (-2, -3)]%Z None in Ok (ilength p)) = Ok (-1)%Z /\ IPerm [(-1, 2)]%Z None = Err DictError.
Proof. repeat split; vm_compute; reflexivity. Qed.
Example C119_ex_period : (exists i, moves ex_dict i /\ (i < 0)%Z) /\ (forall i, moves ex_dict i -> (i < 6)%Z) /\
  (let* p := IPerm ex_dict (Some 6) in Ok (iperilen p, map (fun i => igetitem p (Some i)) [-2; 0; 3; 6; 9; 13]%Z)) =
  Ok (Some 6, [None; Some (-2); Some 0; Some 4; Some 6; Some 16]%Z) /\ IPerm ex_dict (Some 4) = Err PerilenTooSmallError /\ IPerm [(1, -1); (-1, 1)]%Z (Some 4) = Err KeyErr.
Proof.
  split; [exists (-2)%Z; split; [exists 3%Z; split; [left; reflexivity|discriminate]|lia]|]. split; [intros i (j & H & _); cbn in H; (destruct H as [H|[H|[H|[H|[H|[H|[]]]]]]]; injection H as <- <-; lia)|].
  repeat split; vm_compute; reflexivity.
Qed.
Example C119_ex_inverse : (let* p := IPerm ex_dict None in let* r := iinverse p in Ok (imapping r)) = Ok [(3, -2); (0, 3); (-2, 0); (4, 1); (1, 4)]%Z.
Proof. vm_compute. reflexivity. Qed.
Example C119_ex_cycles : (let* p := IPerm ex_dict None in let* c := icycles p in let* n := iorder p in Ok (c, n)) = Ok ([[-2; 3; 0]; [1; 4]]%Z, 6).
Proof. vm_compute. reflexivity. Qed.
Example C119_ex_product : (let* p := IPerm ex_dict None in let* q := IPerm [(1, 2); (2, 1)]%Z None in let* n := IPerm [] None in
    let* t := IPerm [(0, 1); (1, 0)]%Z (Some 3) in let* u := IPerm [(-1, 0); (0, -1)]%Z (Some 3) in
    Ok (imul p q, imul q p, imul p n, imul p t, imul t u)) =
  (let* p := IPerm ex_dict None in Ok (Err TypeErr, Err TypeErr, Ok p, Err OtherPerilenMismatchError, Err TypeErr)).
Proof. vm_compute. reflexivity. Qed.
Example C119_ex_power : (let* p := IPerm ex_dict None in let* r := iinverse p in Ok (ipow p 6, ipow p (-2), ipow p 0, imul p r)) = Ok (Err TypeErr, Err TypeErr, Ok ineutral_perm, Err TypeErr).
Proof. vm_compute. reflexivity. Qed.
Example C119_ex_apply : (let* p := IPerm ex_dict None in Ok (iapply p [10; 11; 12; 13; 14; 15], iapply p [10; 11; 12])) = Ok (Ok [13; 14; 12; 14; 11; 15], Err IndexErr).
Proof. vm_compute. reflexivity. Qed.
Example C119_ex_sequence : (let* p := IPerm ex_dict None in let* q := IPerm [(-2, -1); (-1, -2); (0, 2); (2, 0)]%Z None in
    Ok (isequence p, IPerm_sequence (isequence p) None, isequence q, let* r := IPerm_sequence (isequence q) None in Ok (map (pget r) [0; 1; 2; 3]))) =
  Ok ([-2; 4; 2; 0; 1]%Z, Err SequenceError, [2; 1; 0]%Z, Ok [2; 1; 0; 3]).
Proof. vm_compute. reflexivity. Qed.
Example C119_ex_natural : (let* p := IPerm (zd [(0, 1); (1, 0); (2, 3); (3, 2); (4, 4)]) (Some 4) in Ok (iperilen p, imapping p)) = Ok (Some 2, [(0, 1); (1, 0)]%Z).
Proof. vm_compute. reflexivity. Qed.
