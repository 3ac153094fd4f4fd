(** Proof_PermInt: permutations of integers are permutations of natural numbers with shifted names. *)

From Coq Require Import List Arith ZArith Bool Lia Permutation Sorted.
From Verif Require Import Model_Base Lib Model_Binary Model_Perm Model_PermInt Spec_Perm Proof_Perm Proof_PermCycles Proof_PermGroup Proof_PermMore.
Import ListNotations.
Local Open Scope nat_scope.

Definition on_ok {A B} (f : A -> B) (r : res A) : res B := match r with Ok a => Ok (f a) | Err e => Err e end.

Section Shift.
Variable N : nat.
Definition un (n : nat) : Z := (Z.of_nat n - Z.of_nat N)%Z.
Definition um (m : dict) : idict := map (fun kv => (un (fst kv), un (snd kv))) m.

Lemma un_inj a b : un a = un b -> a = b.
Proof. unfold un. lia. Qed.
Lemma un_eqb a b : Z.eqb (un a) (un b) = Nat.eqb a b.
Proof. destruct (Nat.eqb_spec a b) as [->|H]; [apply Z.eqb_refl|]. apply Z.eqb_neq. intro E. apply un_inj in E. contradiction. Qed.
Lemma un_leb a b : Z.leb (un a) (un b) = Nat.leb a b.
Proof. unfold un. destruct (Nat.leb_spec a b); [apply Z.leb_le|apply Z.leb_gt]; lia. Qed.
Lemma iget_um m k : iget (um m) (un k) = option_map un (dget m k).
Proof. induction m as [|[k' v] m IH]; [reflexivity|]. cbn [um map iget dget fst snd]. fold (um m). rewrite un_eqb. destruct (Nat.eqb k k'); [reflexivity|exact IH]. Qed.
Lemma iset_um m k v : iset (um m) (un k) (un v) = um (dset m k v).
Proof. induction m as [|[k' v'] m IH]; [reflexivity|]. cbn [um map iset dset fst snd]. fold (um m). rewrite un_eqb. destruct (Nat.eqb k k'); [reflexivity|]. rewrite IH. reflexivity. Qed.
Lemma idel_um m k : idel (um m) (un k) = um (ddel m k).
Proof. induction m as [|[k' v'] m IH]; [reflexivity|]. cbn. unfold idel, ddel, um in IH. rewrite un_eqb, IH. destruct (Nat.eqb k k'); reflexivity. Qed.
Lemma keys_um m : map fst (um m) = map un (dkeys m).
Proof. unfold um, dkeys. rewrite !map_map. reflexivity. Qed.
Lemma vals_um m : map snd (um m) = map un (dvals m).
Proof. unfold um, dvals. rewrite !map_map. reflexivity. Qed.
Lemma insert_un x l : insert Z.leb (un x) (map un l) = map un (insert Nat.leb x l).
Proof. induction l as [|y l IH]; [reflexivity|]. cbn [map insert]. rewrite un_leb. destruct (Nat.leb x y); [reflexivity|]. cbn [map]. rewrite IH. reflexivity. Qed.
Lemma sort_un l : sort_int (map un l) = map un (sort_nat l).
Proof. unfold sort_int, sort_nat. induction l as [|x l IH]; [reflexivity|]. cbn [map isort]. rewrite IH. apply insert_un. Qed.
Lemma ints_eqb_un a b : ints_eqb (map un a) (map un b) = list_eqb a b.
Proof. revert b. induction a as [|x a IH]; intros [|y b]; [reflexivity..|]. cbn [map ints_eqb list_eqb]. rewrite un_eqb, IH. reflexivity. Qed.
Lemma memi_un x l : memi (un x) (map un l) = memb x l.
Proof. unfold memi, memb. induction l as [|y l IH]; [reflexivity|]. cbn [map existsb]. rewrite un_eqb, IH. reflexivity. Qed.
Lemma fold_set_um d : forall m, fold_left iset_if_moved (um d) (um m) = um (fold_left set_if_moved d m).
Proof.
  induction d as [|[k v] d IH]; intro m; [reflexivity|]. cbn [um map fold_left fst snd]. fold (um d). rewrite <- IH. f_equal.
  unfold iset_if_moved, set_if_moved. cbn [fst snd]. rewrite un_eqb. destruct (Nat.eqb k v); [reflexivity|]. apply iset_um.
Qed.
Lemma imax_un l : l <> [] -> imax (map un l) = un (list_max_nat l).
Proof.
  destruct l as [|x l]; [congruence|]. intros _. cbn [map imax]. revert x. induction l as [|y l IH]; intro x.
  - cbn. f_equal. lia.
  - cbn [map fold_left]. replace (Z.max (un x) (un y)) with (un (Nat.max x y)) by (unfold un; lia). rewrite IH. f_equal. cbn [list_max_nat fold_right]. lia.
Qed.

(** the object with shifted names *)
Definition conv (p : perm) : iperm :=
  mkIPerm (neutral p) (um (mapping p)) None (if neutral p then 0 else un (plength p)).

Lemma IPerm_um d : IPerm (um d) None = on_ok conv (Perm (ArgDict d) None).
Proof.
  unfold IPerm, Perm, arg_mapping. rewrite keys_um, vals_um, !sort_un, ints_eqb_un. destruct (list_eqb (sort_nat (dkeys d)) (sort_nat (dvals d))); [|reflexivity]. cbn [true_except bind].
  change (@nil (Z * Z)) with (um []). rewrite fold_set_um. destruct (fold_left set_if_moved d []) as [|kv m] eqn:E; [reflexivity|]. rewrite <- E in *. cbv zeta.
  assert (Hn : um (fold_left set_if_moved d []) <> []) by (rewrite E; discriminate).
  destruct (um (fold_left set_if_moved d [])) as [|x y] eqn:E2; [congruence|]. rewrite <- E2. cbn [on_ok]. unfold conv. cbn [neutral mapping plength].
  rewrite keys_um, imax_un by (rewrite E; discriminate). f_equal. f_equal. unfold un. lia.
Qed.
Lemma iinverse_um p : perilen p = None -> iinverse (conv p) = on_ok conv (pinv p).
Proof.
  intro H. unfold iinverse, pinv. rewrite H. cbn [conv imapping iperilen]. rewrite <- IPerm_um. f_equal. change (@nil (Z * Z)) with (um []). generalize (@nil (nat * nat)).
  induction (mapping p) as [|[k v] m IH]; intro acc; [reflexivity|]. cbn [um map fold_left fst snd]. fold (um m). rewrite iset_um. apply IH.
Qed.
Lemma ifollow_um fuel : forall m c k, ifollow_cycle fuel (um m) (map un c) (un k) = on_ok (fun cm => (map un (fst cm), um (snd cm))) (follow_cycle fuel m c k).
Proof.
  induction fuel as [|fuel IH]; intros m c k; [reflexivity|]. cbn [ifollow_cycle follow_cycle]. unfold ilookup, dlookup. rewrite iget_um. destruct (dget m k) as [k'|]; [|reflexivity].
  cbn [option_map bind]. rewrite idel_um, memi_un. destruct (memb k' c); [reflexivity|]. rewrite <- IH, map_app. reflexivity.
Qed.
Lemma icycles_loop_um fuel : forall m acc, icycles_loop fuel (um m) (map (map un) acc) = on_ok (map (map un)) (cycles_loop fuel m acc).
Proof.
  induction fuel as [|fuel IH]; intros m acc; [destruct m; reflexivity|]. destruct m as [|kv m']; [reflexivity|]. set (m := kv :: m') in *.
  change (icycles_loop (S fuel) (um m) (map (map un) acc)) with (let key := hd 0%Z (sort_int (map fst (um m))) in let* cm := ifollow_cycle (S (length (um m))) (um m) [key] key in icycles_loop fuel (snd cm) (map (map un) acc ++ [fst cm])).
  change (cycles_loop (S fuel) m acc) with (let key := hd 0 (sort_nat (dkeys m)) in let* cm := follow_cycle (S (length m)) m [key] key in cycles_loop fuel (snd cm) (acc ++ [fst cm])).
  cbv zeta. rewrite keys_um, sort_un.
  assert (Hh : hd 0%Z (map un (sort_nat (dkeys m))) = un (hd 0 (sort_nat (dkeys m)))).
  { assert (Hne : sort_nat (dkeys m) <> []) by (intro E; apply (f_equal (@length nat)) in E; rewrite sort_nat_length in E; discriminate). destruct (sort_nat (dkeys m)); [congruence|reflexivity]. }
  rewrite Hh. replace (length (um m)) with (length m) by (unfold um; rewrite map_length; reflexivity).
  change [un (hd 0 (sort_nat (dkeys m)))] with (map un [hd 0 (sort_nat (dkeys m))]). rewrite ifollow_um.
  destruct (follow_cycle (S (length m)) m [hd 0 (sort_nat (dkeys m))] (hd 0 (sort_nat (dkeys m)))) as [[c m1]|e]; [|reflexivity]. cbn [on_ok bind fst snd].
  rewrite <- IH, map_app. reflexivity.
Qed.
Lemma icycles_um p : icycles (conv p) = on_ok (map (map un)) (pcycles p).
Proof.
  unfold icycles, pcycles. cbn [conv ineutral imapping]. destruct (neutral p); [reflexivity|]. replace (length (um (mapping p))) with (length (mapping p)) by (unfold um; rewrite map_length; reflexivity).
  apply (icycles_loop_um _ (mapping p) []).
Qed.
Lemma iorder_um p : iorder (conv p) = porder p.
Proof.
  unfold iorder, porder. rewrite icycles_um. cbn [conv ineutral]. destruct (neutral p); [reflexivity|]. destruct (pcycles p) as [cs|e]; [|reflexivity]. cbn [on_ok bind]. f_equal.
  generalize 1. induction cs as [|c cs IH]; intro a; [reflexivity|]. cbn [map fold_left]. rewrite map_length. apply IH.
Qed.
Lemma iget_low m z : (z < - Z.of_nat N)%Z -> iget (um m) z = None.
Proof. intro H. induction m as [|[k v] m IH]; [reflexivity|]. cbn [um map iget fst snd]. fold (um m). rewrite (proj2 (Z.eqb_neq _ _)) by (unfold un; lia). exact IH. Qed.

Lemma NoDup_un l : NoDup (map un l) <-> NoDup l.
Proof. split; [apply NoDup_map_inv|]. apply FinFun.Injective_map_NoDup. intros a b. apply un_inj. Qed.
Lemma Permutation_un a b : Permutation (map un a) (map un b) <-> Permutation a b.
Proof.
  split; [|apply Permutation_map]. intro H. assert (Q : map (fun z => Z.to_nat (z + Z.of_nat N)) (map un a) = a /\ map (fun z => Z.to_nat (z + Z.of_nat N)) (map un b) = b).
  { rewrite !map_map. split; (erewrite map_ext; [apply map_id|]); intro x; unfold un; lia. }
  destruct Q as (<- & <-). apply Permutation_map. exact H.
Qed.
Lemma In_um m k v : In (un k, un v) (um m) <-> In (k, v) m.
Proof.
  unfold um. rewrite in_map_iff. split.
  - intros ([k' v'] & E & H). injection E as E1 E2. cbn [fst snd] in *. apply un_inj in E1, E2. subst. exact H.
  - intro H. exists (k, v). split; [reflexivity|exact H].
Qed.
End Shift.

Lemma shift_exists (d : idict) : exists N m, d = um N m.
Proof.
  assert (H : exists N, forall k v, In (k, v) d -> (- Z.of_nat N <= k /\ - Z.of_nat N <= v)%Z).
  { induction d as [|[k v] d (N & IH)]; [exists 0; intros k v []|]. exists (N + Z.to_nat (Z.abs k) + Z.to_nat (Z.abs v)). intros k' v' [E|E]; [injection E as <- <-; lia|].
    specialize (IH _ _ E). lia. }
  destruct H as (N & H). exists N, (map (fun kv => (Z.to_nat (fst kv + Z.of_nat N), Z.to_nat (snd kv + Z.of_nat N))) d).
  unfold um. rewrite map_map. cbn [fst snd]. rewrite <- (map_id d) at 1. apply map_ext_in. intros [k v] Hkv. apply H in Hkv. cbn [fst snd]. unfold un. f_equal; lia.
Qed.
Lemma un_exists N z : (- Z.of_nat N <= z)%Z -> exists n, z = un N n.
Proof. intro H. exists (Z.to_nat (z + Z.of_nat N)). unfold un. lia. Qed.

(** * Items *)
Definition imvd (kv : Z * Z) : bool := negb (Z.eqb (fst kv) (snd kv)).
Lemma fold_iset d : NoDup (map fst d) -> fold_left iset_if_moved d [] = filter imvd d.
Proof.
  intro H. destruct (shift_exists d) as (N & m & ->). rewrite keys_um in H. apply NoDup_un in H. change (@nil (Z * Z)) with (um N []). rewrite fold_set_um.
  rewrite fold_set_if_moved by exact H. cbn [app]. clear H. induction m as [|[k v] m IH]; [reflexivity|]. cbn [um map filter fst snd]. fold (um N m). unfold imvd, mvd in *. cbn [fst snd]. rewrite un_eqb.
  destruct (Nat.eqb k v); cbn [negb]; [exact IH|]. cbn [um map fst snd]. f_equal. exact IH.
Qed.
Lemma iget_In d k v : iget d k = Some v -> In (k, v) d.
Proof. induction d as [|[k' v'] d IH]; [discriminate|]. cbn [iget]. destruct (Z.eqb_spec k k') as [->|H]; [intros [= <-]; left; reflexivity|]. intro E. right. apply IH. exact E. Qed.
Lemma In_iget d k v : NoDup (map fst d) -> In (k, v) d -> iget d k = Some v.
Proof.
  induction d as [|[k' v'] d IH]; [intros _ []|]. cbn [map fst iget]. intros H Hi. inversion H as [|? ? Hni Hn]; subst. destruct Hi as [E|Hi].
  - injection E as -> ->. rewrite Z.eqb_refl. reflexivity.
  - destruct (Z.eqb_spec k k') as [->|Hk]; [exfalso; apply Hni; apply (in_map fst) in Hi; exact Hi|]. apply IH; assumption.
Qed.
Lemma iget_None d k : iget d k = None <-> ~ In k (map fst d).
Proof.
  induction d as [|[k' v'] d IH]; [cbn; tauto|]. cbn [iget map fst]. destruct (Z.eqb_spec k k') as [->|H]; [split; [discriminate|intro Q; exfalso; apply Q; left; reflexivity]|].
  rewrite IH. cbn [In]. split; [intros Q [E|E]; [congruence|contradiction]|tauto].
Qed.
Lemma sort_int_eq a b : sort_int a = sort_int b <-> Permutation a b.
Proof. unfold sort_int. apply isort_eq_iff; intros *; rewrite ?Z.leb_le; lia. Qed.
Lemma sort_int_perm l : Permutation l (sort_int l).
Proof. apply isort_perm. Qed.
Lemma sort_int_sorted l : StronglySorted (fun x y => Z.leb x y = true) (sort_int l).
Proof. apply isort_sorted; intros *; rewrite ?Z.leb_le; lia. Qed.
Lemma ints_eqb_eq a b : ints_eqb a b = true <-> a = b.
Proof.
  revert b. induction a as [|x a IH]; intros [|y b]; cbn [ints_eqb]; try (split; congruence). rewrite andb_true_iff, Z.eqb_eq, IH. split; [intros (-> & ->); reflexivity|intros [= -> ->]; tauto].
Qed.
Lemma keys_check d : ints_eqb (sort_int (map fst d)) (sort_int (map snd d)) = true <-> Permutation (map fst d) (map snd d).
Proof. rewrite ints_eqb_eq. apply sort_int_eq. Qed.

(** a bijection of the finite set of its keys *)
Definition bijection (d : idict) : Prop := NoDup (map fst d) /\ Permutation (map fst d) (map snd d).

Lemma bij_filter d : bijection d -> bijection (filter imvd d).
Proof.
  intros (Hn & Hp). split.
  - clear Hp. induction d as [|[k v] d IH]; [constructor|]. cbn [map fst filter] in *. inversion Hn as [|? ? Hni Hn']; subst. unfold imvd at 1. cbn [fst snd]. destruct (Z.eqb k v); cbn [negb map fst]; [apply IH; exact Hn'|].
    constructor; [|apply IH; exact Hn']. intro H. apply Hni. apply in_map_iff in H as ([a b] & E & H). apply filter_In in H as (H & _). apply (in_map fst) in H. cbn [fst] in *. subst a. exact H.
  - clear Hn. set (l1 := filter imvd d). set (l2 := filter (fun kv => negb (imvd kv)) d).
    assert (P : Permutation d (l2 ++ l1)).
    { unfold l1, l2. clear. induction d as [|kv d IH]; [constructor|]. cbn [filter]. destruct (imvd kv); cbn [negb app]; [|constructor; exact IH].
      apply Permutation_cons_app. exact IH. }
    assert (E : map fst l2 = map snd l2).
    { unfold l2. clear. induction d as [|[k v] d IH]; [reflexivity|]. cbn [filter]. change (imvd (k, v)) with (negb (Z.eqb k v)). destruct (Z.eqb_spec k v) as [->|H]; cbn [negb]; [|exact IH]. cbn [map fst snd]. f_equal. exact IH. }
    assert (Q : Permutation (map fst l2 ++ map fst l1) (map snd l2 ++ map snd l1)) by (rewrite <- !map_app; rewrite <- P; exact Hp).
    rewrite E in Q. apply Permutation_app_inv_l in Q. exact Q.
Qed.

Definition has_negative (m : idict) : Prop := exists k v, In (k, v) m /\ (k < 0)%Z.

Lemma forallM_cases {A} (f : A -> res bool) (E : exn -> Prop) l : (forall x, In x l -> (exists b, f x = Ok b) \/ exists e, f x = Err e /\ E e) ->
  (exists b, forallM f l = Ok b) \/ exists e, forallM f l = Err e /\ E e.
Proof.
  induction l as [|x l IH]; intro H; cbn [forallM]; [left; exists true; reflexivity|].
  destruct (H x (or_introl eq_refl)) as [([|] & ->)|(e & -> & He)]; cbn [bind].
  - apply IH. intros y Hy. apply H. right. exact Hy.
  - left. exists false. reflexivity.
  - right. exists e. split; [reflexivity|exact He].
Qed.

Lemma sorted_nth l : NoDup l -> StronglySorted (fun x y => Z.leb x y = true) l -> forall i j, i < j -> j < length l -> (nth i l 0 < nth j l 0)%Z.
Proof.
  intros Hn Hs. induction Hs as [|x l Hs IH Hx]; intros i j Hi Hj; cbn [length] in *; [lia|]. inversion Hn as [|? ? Hni Hn']; subst. destruct j as [|j]; [lia|]. destruct i as [|i]; cbn [nth].
  - rewrite Forall_forall in Hx. assert (Hin : In (nth j l 0%Z) l) by (apply nth_In; lia). specialize (Hx _ Hin). apply Z.leb_le in Hx. assert (x <> nth j l 0%Z) by (intro E; apply Hni; rewrite E; exact Hin). lia.
  - apply IH; [exact Hn'|lia|lia].
Qed.

Lemma lget_nth (l : list Z) i : i < length l -> lget l i = Ok (nth i l 0%Z).
Proof. intro H. unfold lget. rewrite (nth_error_nth' l 0%Z H). reflexivity. Qed.
Lemma ilookup_cases m k : (exists v, ilookup m k = Ok v) \/ ilookup m k = Err KeyErr.
Proof. unfold ilookup. destruct (iget m k); [left; eauto|right; reflexivity]. Qed.

(** blocks never repeat when a negative number is moved *)
Lemma no_repeat m q p : NoDup (map fst m) -> has_negative m -> 2 <= p -> block_repeats_int m q p = Ok false \/ block_repeats_int m q p = Err KeyErr.
Proof.
  intros Hn (k0 & v0 & Hk & Hneg) Hp. unfold block_repeats_int. cbv zeta. set (mv := sort_int (map fst m)). set (bl := Z.of_nat (q / p)).
  destruct (Nat.eqb_spec (length mv mod p) 0) as [Hd|Hd]; cbn [negb]; [|left; reflexivity].
  set (mb := length mv / p). assert (Hl : length mv = p * mb) by (apply Nat.div_exact; [lia|exact Hd]).
  assert (Pm : Permutation (map fst m) mv) by apply sort_int_perm.
  assert (Nm : NoDup mv) by (apply (Permutation_NoDup Pm); exact Hn).
  assert (Hk' : In k0 mv) by (apply (Permutation_in _ Pm); apply (in_map fst) in Hk; exact Hk).
  assert (Hmb : 0 < mb) by (destruct mb; [|lia]; rewrite Nat.mul_0_r in Hl; destruct mv; [destruct Hk'|discriminate]).
  assert (Sm := sorted_nth mv Nm (sort_int_sorted _)).
  assert (Hmin : (nth 0 mv 0 < 0)%Z).
  { apply (In_nth _ _ 0%Z) in Hk' as (i & Hi & E). destruct i as [|i]; [lia|]. specialize (Sm 0 (S i)). lia. }
  match goal with |- context [forallM ?f (range mb)] => set (F := f) end.
  assert (FF : forall key, In key (range mb) -> F key = Ok (forallb (fun i => Z.eqb (nth (i * mb + key) mv 0%Z) (Z.of_nat i * bl + nth key mv 0)%Z) (range2 1 p))).
  { intros key Hkey. apply range_In in Hkey. apply forallM_ok. intros i Hi. apply range2_In in Hi. rewrite !lget_nth; [reflexivity|nia|nia]. }
  rewrite (forallM_ok F _ _ FF). cbn [bind].
  match goal with |- context [forallb ?g (range mb)] => destruct (forallb g (range mb)) eqn:Epat end; cbn [negb]; [|left; reflexivity].
  assert (Pat : forall key i, key < mb -> 1 <= i < p -> nth (i * mb + key) mv 0%Z = (Z.of_nat i * bl + nth key mv 0)%Z).
  { intros key i Hkey Hi. rewrite forallb_forall in Epat. specialize (Epat key (proj2 (range_In _ _) Hkey)). cbv beta in Epat. rewrite forallb_forall in Epat.
    apply Z.eqb_eq. apply Epat. apply range2_In. exact Hi. }
  match goal with |- forallM ?g ?l = _ \/ _ => set (G := g); set (L := l) end.
  destruct (forallM_cases G (fun e => e = KeyErr) L) as [(b & Eb)|(e & Ee & ->)]; [|destruct b|right; exact Ee].
  { intros x _. apply forallM_cases. intros i _. destruct (ilookup_cases m (Z.of_nat i * bl + x)) as [(v & ->)| ->]; cbn [bind]; [|right; eauto].
    destruct (ilookup_cases m x) as [(w & ->)| ->]; cbn [bind]; [left; eauto|right; eauto]. }
  2: { left. exact Eb. }
  exfalso. rewrite forallM_true in Eb.
  assert (Y : nth mb mv 0%Z = (bl + nth 0 mv 0)%Z) by (assert (Q := Pat 0 1 ltac:(lia) ltac:(lia)); replace (1 * mb + 0) with mb in Q by lia; lia).
  assert (Hy : In (nth mb mv 0%Z) (map fst m)) by (apply (Permutation_in _ (Permutation_sym Pm)); apply nth_In; nia).
  assert (HyL : In (nth mb mv 0%Z) L) by (apply filter_In; split; [exact Hy|]; apply Z.ltb_lt; lia).
  specialize (Eb _ HyL). unfold G in Eb. rewrite forallM_true in Eb. assert (Hin : In (p - 1) (range2 1 p)) by (apply range2_In; lia). specialize (Eb (p - 1) Hin). cbv beta zeta in Eb.
  destruct (ilookup_cases m (Z.of_nat (p - 1) * bl + nth mb mv 0)%Z) as [(v & Ev)|Ev]; rewrite Ev in Eb; [|discriminate].
  unfold ilookup in Ev. destruct (iget m (Z.of_nat (p - 1) * bl + nth mb mv 0)%Z) as [w|] eqn:Ew; [|discriminate]. apply iget_In in Ew. apply (in_map fst) in Ew. cbn [fst] in Ew.
  apply (Permutation_in _ Pm) in Ew. apply (In_nth _ _ 0%Z) in Ew as (t & Ht & Et).
  assert (Htm : t = (t / mb) * mb + t mod mb) by (rewrite (Nat.div_mod t mb) at 1; lia). assert (Hr : t mod mb < mb) by (apply Nat.mod_upper_bound; lia).
  assert (Hq : t / mb < p) by (apply Nat.div_lt_upper_bound; lia).
  assert (Hmbl : mb < length mv) by nia. assert (S1 := Sm (t mod mb) mb Hr Hmbl).
  assert (B0 : (0 <= bl)%Z) by (unfold bl; lia).
  destruct (Nat.eq_dec (t / mb) 0) as [Z0|Z0].
  - assert (t = t mod mb) by (rewrite Z0 in Htm; lia). rewrite <- H in S1. rewrite Et, Y in S1. nia.
  - assert (Hq1 : 1 <= t / mb < p) by lia. assert (P1 := Pat (t mod mb) (t / mb) Hr Hq1). rewrite <- Htm, Et, Y in P1. rewrite Y in S1. nia.
Qed.

Lemma no_first m q ps : NoDup (map fst m) -> has_negative m -> (forall p, In p ps -> 2 <= p) -> first_repeating_int m q ps = Ok None \/ first_repeating_int m q ps = Err KeyErr.
Proof.
  intros Hn Hm. induction ps as [|p ps IH]; intro H; cbn [first_repeating_int]; [left; reflexivity|].
  destruct (no_repeat m q p Hn Hm (H p (or_introl eq_refl))) as [-> | ->]; cbn [bind]; [|right; reflexivity]. apply IH. intros x Hx. apply H. right. exact Hx.
Qed.
Lemma coprime_first m q ps : (forall p, In p ps -> 2 <= p /\ q mod p = 0) -> Nat.gcd (length m) q = 1 -> first_repeating_int m q ps = Ok None.
Proof.
  intros H Hg. induction ps as [|p ps IH]; [reflexivity|]. cbn [first_repeating_int]. destruct (H p (or_introl eq_refl)) as (Hp & Hq).
  assert (E : block_repeats_int m q p = Ok false).
  { unfold block_repeats_int. cbv zeta. destruct (Nat.eqb_spec (length (sort_int (map fst m)) mod p) 0) as [Hd|Hd]; cbn [negb]; [|reflexivity]. exfalso.
    rewrite <- (Permutation_length (sort_int_perm _)), map_length in Hd. apply Nat.mod_divide in Hd, Hq; [|lia|lia]. assert (D : Nat.divide p 1) by (rewrite <- Hg; apply Nat.gcd_greatest; assumption).
    apply Nat.divide_1_r in D. lia. }
  rewrite E. cbn [bind]. apply IH. intros x Hx. apply H. right. exact Hx.
Qed.
Lemma primes_ge q p : q <> 0 -> In p (primefactors q) -> 2 <= p /\ q mod p = 0.
Proof. intros Hq H. apply primefactors_In in H; [|exact Hq]. tauto. Qed.
Lemma no_reduce m q : q <> 0 -> NoDup (map fst m) -> has_negative m -> reduce_period_int m q = Ok (m, q) \/ reduce_period_int m q = Err KeyErr.
Proof.
  intros Hq Hn Hm. unfold reduce_period_int. cbn [reduce_period_int_fuel]. destruct (no_first m q (primefactors q) Hn Hm) as [-> | ->]; [|left; reflexivity|right; reflexivity].
  intros p Hp. apply (primes_ge q p Hq Hp).
Qed.
Lemma coprime_reduce m q : q <> 0 -> Nat.gcd (length m) q = 1 -> reduce_period_int m q = Ok (m, q).
Proof. intros Hq Hg. unfold reduce_period_int. cbn [reduce_period_int_fuel]. rewrite coprime_first; [reflexivity| |exact Hg]. intros p Hp. apply primes_ge; assumption. Qed.
Lemma bind_ok {A B} (m : res A) (k : A -> res B) r : (let* x := m in k x) = Ok r -> exists x, m = Ok x /\ k x = Ok r.
Proof. destruct m as [x|e]; [|discriminate]. intro H. exists x. split; [reflexivity|exact H]. Qed.
Lemma first_found m q ps p : first_repeating_int m q ps = Ok (Some p) -> In p ps.
Proof.
  induction ps as [|x ps IH]; cbn [first_repeating_int]; [discriminate|]. intro H. apply bind_ok in H as (b & _ & H). destruct b; [injection H as <-; left; reflexivity|]. right. apply IH. exact H.
Qed.
Lemma reduce_pos fuel : forall m q m' q', q <> 0 -> reduce_period_int_fuel fuel m q = Ok (m', q') -> q' <> 0.
Proof.
  induction fuel as [|fuel IH]; intros m q m' q' Hq H; [discriminate|]. cbn [reduce_period_int_fuel] in H. apply bind_ok in H as (f & Ef & H). destruct f as [p|]; [|injection H as _ <-; exact Hq].
  apply IH in H; [exact H|]. apply first_found in Ef. destruct (primes_ge q p Hq Ef) as (Hp & Hd). apply Nat.mod_divide in Hd as (c & ->); [|lia]. rewrite Nat.div_mul by lia. nia.
Qed.
