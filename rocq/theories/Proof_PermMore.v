(** Proof_PermMore: the lemmas of the Perm files in the form of the property statements. *)

From Coq Require Import List Arith ZArith Bool Lia Permutation Sorted.
From Verif Require Import Model_Base Lib Model_Perm Spec_Perm Spec_Rank Proof_Perm Proof_PermGroup
  Proof_PermCycles Proof_Inversions Proof_Listing.
Import ListNotations.

Lemma fapp_says arg i j : meaningful arg -> says arg i j -> fapp (raw arg) i = j.
Proof.
  intros Hm Hs. apply says_raw in Hs. unfold fapp. rewrite (In_dget _ _ j (raw_NoDup arg Hm) Hs). reflexivity.
Qed.

Lemma fapp_unsaid arg i : (forall j, ~ says arg i j) -> fapp (raw arg) i = i.
Proof.
  intro H. unfold fapp. destruct (dget (raw arg) i) as [v|] eqn:E; [|reflexivity].
  exfalso. apply (H v). apply says_raw, dget_In. exact E.
Qed.

Lemma ctor_finite arg : meaningful arg -> permutes arg ->
  exists p, Perm arg None = Ok p /\ bijective (pget p) /\ perilen p = None /\
    (forall i j, says arg i j -> pget p i = j) /\
    (forall i, (forall j, ~ says arg i j) -> pget p i = i).
Proof.
  intros Hm Hp. destruct (Perm_spec arg None Hm Hp I) as [p [E [Hw [Hg [Hn Hk]]]]].
  exists p. split; [exact E|]. split; [apply pget_bij; exact Hw|]. split; [|split].
  - destruct (neutral p) eqn:Np; [|apply Hk; reflexivity].
    assert (W := wf_peri p Hw). destruct (perilen p); [|reflexivity]. destruct W. congruence.
  - intros i j Hs. rewrite Hg. apply fapp_says; assumption.
  - intros i Hs. rewrite Hg. apply fapp_unsaid; assumption.
Qed.

Lemma ctor_periodic arg q : meaningful arg -> permutes arg -> fits arg q -> 0 < q ->
  exists p, Perm arg (Some q) = Ok p /\ bijective (pget p) /\ is_period (pget p) q /\
    (forall i j, i < q -> says arg i j -> pget p i = j) /\
    (forall i, i < q -> (forall j, ~ says arg i j) -> pget p i = i) /\
    (perilen p = None <-> forall i j, says arg i j -> i = j).
Proof.
  intros Hm Hp Hf Hq. destruct (Perm_spec arg (Some q) Hm Hp Hf) as [p [E [Hw [Hg [Hn Hk]]]]].
  assert (Hq0 : q <> 0) by lia.
  assert (Hg' : forall x, pget p x = ext (raw arg) q x) by (intro x; apply Hg; exact Hq0).
  exists p. split; [exact E|]. split; [apply pget_bij; exact Hw|]. split; [|split; [|split]].
  - intro x. rewrite !Hg'. apply ext_period. exact Hq0.
  - intros i j Hi Hs. rewrite Hg', ext_eq, Nat.mod_small, Nat.div_small by assumption.
    rewrite (fapp_says arg i j Hm Hs). lia.
  - intros i Hi Hs. rewrite Hg', ext_eq, Nat.mod_small, Nat.div_small by assumption.
    rewrite (fapp_unsaid arg i Hs). lia.
  - rewrite <- Hn. split; intro H.
    + destruct (neutral p) eqn:Np; [reflexivity|]. apply Hk in H; [discriminate | reflexivity].
    + assert (W := wf_peri p Hw). destruct (perilen p); [|reflexivity]. destruct W. congruence.
Qed.

Lemma ctor_reject_seq l peri : ~ Permutation l (seq 0 (length l)) -> Perm (ArgSeq l) peri = Err SequenceError.
Proof.
  intro H. unfold Perm. cbn [arg_mapping].
  destruct (list_eqb (sort_nat l) (range (length l))) eqn:E; [|reflexivity].
  exfalso. apply H. apply list_eqb_eq in E. apply sort_nat_range. exact E.
Qed.

Lemma ctor_reject_dict d peri : ~ Permutation (map fst d) (map snd d) -> Perm (ArgDict d) peri = Err DictError.
Proof.
  intro H. unfold Perm. cbn [arg_mapping].
  destruct (list_eqb (sort_nat (dkeys d)) (sort_nat (dvals d))) eqn:E; [|reflexivity].
  exfalso. apply H. apply list_eqb_eq in E. apply sort_nat_eq_iff in E. exact E.
Qed.

Lemma ctor_reject_perilen arg q : meaningful arg -> permutes arg -> ~ fits arg q ->
  Perm arg (Some q) = Err PerilenTooSmallError.
Proof.
  intros Hm Hp Hf. unfold Perm. rewrite (arg_mapping_ok arg Hm Hp). cbn [bind].
  destruct (filter mvd (raw arg)) as [|kv m] eqn:E.
  - exfalso. apply Hf. intros i j Hs Hne. apply says_raw in Hs.
    assert (Hin : In (i, j) (filter mvd (raw arg))).
    { apply filter_In. split; [exact Hs|]. unfold mvd. cbn [fst snd]. apply negb_true_iff, Nat.eqb_neq. exact Hne. }
    rewrite E in Hin. destruct Hin.
  - destruct (Nat.leb 2 q); [|reflexivity]. cbn [true_except bind].
    destruct (Nat.ltb_spec (list_max_nat (dkeys (kv :: m))) q) as [Hlt|Hge]; [|reflexivity].
    exfalso. apply Hf. intros i j Hs Hne. apply says_raw in Hs.
    assert (Hin : In (i, j) (kv :: m)).
    { rewrite <- E. apply filter_In. split; [exact Hs|]. unfold mvd. cbn [fst snd]. apply negb_true_iff, Nat.eqb_neq. exact Hne. }
    apply (in_map fst) in Hin. cbn [fst] in Hin. assert (Hge := list_max_nat_ge i (dkeys (kv :: m)) Hin). lia.
Qed.

(** * equality *)

Lemma eq_actions a b : is_Perm a -> is_Perm b ->
  (perm_eqb a b = true <-> forall x, pget a x = pget b x).
Proof. intros Ha Hb. apply perm_eqb_spec; apply is_Perm_wf; assumption. Qed.

Lemma eq_attributes a b : is_Perm a -> is_Perm b -> (forall x, pget a x = pget b x) ->
  perilen a = perilen b /\ plength a = plength b /\ neutral a = neutral b /\
  (forall k, dget (mapping a) k = dget (mapping b) k).
Proof.
  intros Ha Hb Hx. apply is_Perm_wf in Ha, Hb.
  assert (E := proj2 (perm_eqb_spec a b Ha Hb) Hx). unfold perm_eqb in E.
  assert (Hnn : neutral a = neutral b).
  { assert (W1 := wf_moves a Ha). assert (W2 := wf_moves b Hb).
    destruct (neutral a) eqn:Na; destruct (neutral b) eqn:Nb; try reflexivity; exfalso.
    - assert (false = true); [|discriminate]. apply W2. intro x. rewrite <- Hx. apply W1. reflexivity.
    - assert (false = true); [|discriminate]. apply W1. intro x. rewrite Hx. apply W2. reflexivity. }
  assert (Hneut : forall p, wf p -> neutral p = true -> perilen p = None /\ plength p = 0 /\ mapping p = []).
  { intros p Hp Np. assert (Em := proj1 (wf_neutral p Hp) Np). assert (W := wf_peri p Hp).
    destruct (perilen p); [destruct W; congruence|]. rewrite Em in W. auto. }
  destruct (neutral a && neutral b) eqn:Nab.
  - apply andb_true_iff in Nab as [Na Nb]. destruct (Hneut a Ha Na) as [-> [-> ->]].
    destruct (Hneut b Hb Nb) as [-> [-> ->]]. auto.
  - apply andb_true_iff in E as [Ed Ep].
    assert (Hd := proj1 (dict_eqb_spec _ _ (wm_keys _ (wf_map a Ha)) (wm_keys _ (wf_map b Hb))) Ed).
    assert (Hpp : perilen a = perilen b).
    { destruct (perilen a), (perilen b); try discriminate; [|reflexivity]. apply Nat.eqb_eq in Ep. congruence. }
    split; [exact Hpp|]. split; [|split; [exact Hnn | exact Hd]].
    assert (W1 := wf_peri a Ha). assert (W2 := wf_peri b Hb). rewrite <- Hpp in W2.
    destruct (perilen a) as [q|] eqn:Ep'.
    + destruct W1 as [_ [_ [-> _]]]. destruct W2 as [_ [_ [-> _]]]. reflexivity.
    + assert (Hk : forall k, In k (dkeys (mapping a)) <-> In k (dkeys (mapping b))).
      { intro k. split; intro Hk; apply dget_key in Hk as [v Hv];
          [rewrite Hd in Hv | rewrite <- Hd in Hv]; eapply dget_Some_key; exact Hv. }
      rewrite W1, W2.
      destruct (mapping a) as [|x ma] eqn:Ma; destruct (mapping b) as [|y mb] eqn:Mb; try reflexivity.
      * destruct (proj2 (Hk (fst y)) (or_introl eq_refl)).
      * destruct (proj1 (Hk (fst x)) (or_introl eq_refl)).
      * rewrite <- Ma, <- Mb in *. f_equal.
        assert (NA : dkeys (mapping a) <> []) by (rewrite Ma; discriminate).
        assert (NB : dkeys (mapping b) <> []) by (rewrite Mb; discriminate).
        assert (I1 := list_max_nat_In _ NA). assert (I2 := list_max_nat_In _ NB).
        apply Hk in I1. apply Hk in I2. apply list_max_nat_ge in I1, I2. lia.
Qed.

Lemma min_period p q : is_Perm p -> perilen p = Some q ->
  0 < q /\ is_period (pget p) q /\ (forall t, 0 < t -> is_period (pget p) t -> exists c, t = c * q).
Proof.
  intros Hp E. apply is_Perm_wf in Hp. destruct (pget_period p q Hp E) as [H1 H2].
  assert (W := wf_peri p Hp). rewrite E in W. destruct W as [_ [_ [_ [H0 _]]]].
  split; [lia|]. auto.
Qed.

Lemma finite_kind p : is_Perm p -> perilen p = None -> exists n, forall x, n <= x -> pget p x = x.
Proof.
  intros Hp E. apply is_Perm_wf in Hp. exists (plength p). apply wf_finite_seq; assumption.
Qed.

Lemma periodic_kind p q n : is_Perm p -> perilen p = Some q -> exists x, n <= x /\ pget p x <> x.
Proof.
  intros Hp E. apply is_Perm_wf in Hp. destruct (pget_period p q Hp E) as [H1 _].
  assert (W := wf_peri p Hp). rewrite E in W. destruct W as [Nn [Hb [_ [H0 _]]]].
  destruct (mapping p) as [|[k v] m] eqn:Em.
  { apply (wf_neutral p Hp) in Em. congruence. }
  assert (Hk : pget p k <> k).
  { apply (act_moved p k Hp). rewrite E. unfold moved. rewrite Em.
    assert (Hkq : k < q) by (apply Hb; left; reflexivity). rewrite Nat.mod_small by exact Hkq. left. reflexivity. }
  exists (k + n * q). split; [nia|].
  assert (Hn := period_mul (pget p) q n H1 k). rewrite Hn. lia.
Qed.

(** * group *)

Lemma mul_ok a b : is_Perm a -> is_Perm b ->
  neutral a = true \/ neutral b = true \/ (perilen a = None <-> perilen b = None) ->
  exists c, pmul a b = Ok c /\ is_Perm c /\ (forall x, pget c x = pget a (pget b x)) /\
    (perilen a = None -> perilen b = None -> perilen c = None).
Proof.
  intros Ha Hb Hk. destruct (pmul_spec a b (is_Perm_wf a Ha) (is_Perm_wf b Hb) Hk) as [c [E [Hw [Hg Hkind]]]].
  exists c. split; [exact E|]. split; [apply (obj_mul a b); assumption|]. split; [exact Hg|].
  intros Ea Eb. assert (K : kind c true) by (apply Hkind; right; split; auto).
  destruct K as [K|K]; [|apply K; reflexivity].
  assert (W := wf_peri c Hw). destruct (perilen c); [|reflexivity]. destruct W. congruence.
Qed.

Lemma mul_reject a b : is_Perm a -> is_Perm b -> neutral a = false -> neutral b = false ->
  ~ (perilen a = None <-> perilen b = None) -> pmul a b = Err OtherPerilenMismatchError.
Proof. intros Ha Hb. apply pmul_reject; apply is_Perm_wf; assumption. Qed.

Lemma inv_ok p : is_Perm p ->
  exists r, pinv p = Ok r /\ is_Perm r /\ (forall x, pget r (pget p x) = x) /\ (forall x, pget p (pget r x) = x) /\
    (perilen p = None <-> perilen r = None).
Proof.
  intro Hp. destruct (pinv_spec p (is_Perm_wf p Hp)) as [r [E [Hw [H1 [H2 Hk]]]]].
  exists r. split; [exact E|]. split; [eapply obj_inv; eassumption|]. split; [exact H1|]. split; [exact H2|].
  assert (Wp := is_Perm_wf p Hp).
  assert (Hnk : forall o, wf o -> neutral o = true -> perilen o = None).
  { intros o Ho No. assert (W := wf_peri o Ho). destruct (perilen o); [|reflexivity]. destruct W. congruence. }
  split; intro E0.
  - assert (K : kind r true) by (apply Hk; right; split; auto).
    destruct K as [K|K]; [apply Hnk; assumption | apply K; reflexivity].
  - destruct (perilen p) eqn:Ep; [|reflexivity]. exfalso.
    assert (K : kind r false) by (apply Hk; right; split; congruence).
    destruct K as [K|K]; [|apply K in E0; discriminate].
    assert (neutral p = true).
    { apply (wf_moves p Wp). intro x. assert (Hid := proj1 (wf_moves r Hw) K). rewrite <- (Hid (pget p x)). apply H1. }
    apply Hnk in H; [congruence | exact Wp].
Qed.

Lemma pow_ok p k : is_Perm p ->
  exists r, ppow p k = Ok r /\ is_Perm r /\
    ((0 <= k)%Z -> forall x, pget r x = iter (pget p) (Z.to_nat k) x) /\
    ((k <= 0)%Z -> forall x, iter (pget p) (Z.to_nat (- k)) (pget r x) = x).
Proof.
  intro Hp. destruct (ppow_spec p k (is_Perm_wf p Hp)) as [r [E [Hw [_ [H1 H2]]]]].
  exists r. split; [exact E|]. split; [eapply obj_pow; eassumption|]. auto.
Qed.

Lemma neutral_obj : is_Perm neutral_perm.
Proof. apply (obj_new ArgNone None); [exact I | reflexivity]. Qed.

Lemma group_laws a b c ab bc abc abc' : is_Perm a -> is_Perm b -> is_Perm c ->
  pmul a b = Ok ab -> pmul b c = Ok bc -> pmul ab c = Ok abc -> pmul a bc = Ok abc' ->
  perm_eqb abc abc' = true.
Proof.
  intros Ha Hb Hc Eab Ebc E1 E2.
  assert (Hab : is_Perm ab) by (eapply (obj_mul a b); eassumption).
  assert (Hbc : is_Perm bc) by (eapply (obj_mul b c); eassumption).
  apply eq_actions.
  - eapply (obj_mul ab c); eassumption.
  - eapply (obj_mul a bc); eassumption.
  - intro x.
    rewrite (proj2 (pmul_inv ab c abc (is_Perm_wf _ Hab) (is_Perm_wf _ Hc) E1)).
    rewrite (proj2 (pmul_inv a bc abc' (is_Perm_wf _ Ha) (is_Perm_wf _ Hbc) E2)).
    rewrite (proj2 (pmul_inv a b ab (is_Perm_wf _ Ha) (is_Perm_wf _ Hb) Eab)).
    rewrite (proj2 (pmul_inv b c bc (is_Perm_wf _ Hb) (is_Perm_wf _ Hc) Ebc)). reflexivity.
Qed.

Lemma inverse_laws a r : is_Perm a -> pinv a = Ok r ->
  exists s t, pmul a r = Ok s /\ pmul r a = Ok t /\ neutral s = true /\ neutral t = true.
Proof.
  intros Ha Er. destruct (inv_ok a Ha) as [r' [E' [Hr [H1 [H2 Hk]]]]]. assert (r' = r) by congruence. subst r'.
  destruct (mul_ok a r Ha Hr) as [s [Es [Hs [Gs _]]]]; [tauto|].
  destruct (mul_ok r a Hr Ha) as [t [Et [Ht [Gt _]]]]; [tauto|].
  exists s, t. split; [exact Es|]. split; [exact Et|]. split.
  - apply (wf_moves s (is_Perm_wf s Hs)). intro x. rewrite Gs. apply H2.
  - apply (wf_moves t (is_Perm_wf t Ht)). intro x. rewrite Gt. apply H1.
Qed.

(** * cycles and order *)

Definition moved_upto (p : perm) (x : nat) : Prop :=
  pget p x <> x /\ match perilen p with Some q => x < q | None => True end.

Lemma moved_upto_In p x : wf p -> (In x (moved p) <-> moved_upto p x).
Proof.
  intro H. unfold moved_upto. assert (M := act_moved p x H). assert (W := wf_peri p H).
  destruct (perilen p) as [q|]; [|tauto]. destruct W as [_ [Hb [_ [H0 _]]]]. split.
  - intro Hin. assert (Hx : x < q) by (apply Hb; exact Hin). rewrite Nat.mod_small in M by exact Hx. tauto.
  - intros [Hm Hx]. rewrite Nat.mod_small in M by exact Hx. tauto.
Qed.

Lemma map_get_pget p i j : wf p -> dget (mapping p) i = Some j -> pget p i = j.
Proof.
  intros H E. rewrite pget_act by exact H. unfold act. assert (W := wf_peri p H).
  destruct (perilen p) as [q|]; [|unfold fapp; rewrite E; reflexivity].
  destruct W as [_ [Hb [_ [H0 _]]]]. assert (Hi : i < q) by (apply Hb; eapply dget_Some_key; exact E).
  unfold ext. rewrite Nat.mod_small by exact Hi. rewrite E. lia.
Qed.

Lemma cycles_wf p : wf p ->
  exists cs, pcycles p = Ok cs /\ NoDup (concat cs) /\
    (forall x, In x (concat cs) <-> pget p x <> x /\ match perilen p with Some q => x < q | None => True end) /\
    (forall i j, says (ArgCycles cs) i j -> pget p i = j) /\
    (forall c, In c cs -> 2 <= length c /\ forall x, In x c -> hd 0 c <= x) /\
    StronglySorted lt (map (hd 0) cs).
Proof.
  intro Hp. destruct (pcycles_spec p Hp) as [cs [E [Hn [Hin [Hfa Hs]]]]].
  rewrite Forall_forall in Hfa.
  exists cs. split; [exact E|]. split; [exact Hn|]. split; [|split; [|split]].
  - intro x. rewrite Hin. apply moved_upto_In. exact Hp.
  - intros i j Hij. apply says_raw in Hij. cbn [raw] in Hij. apply in_flat_map in Hij as [c [Hc Hij]].
    apply map_get_pget; [exact Hp|]. apply (Hfa c Hc). exact Hij.
  - intros c Hc. split; apply (Hfa c Hc).
  - exact Hs.
Qed.

Lemma cycles_ok p : is_Perm p ->
  exists cs, pcycles p = Ok cs /\ NoDup (concat cs) /\
    (forall x, In x (concat cs) <-> pget p x <> x /\ match perilen p with Some q => x < q | None => True end) /\
    (forall i j, says (ArgCycles cs) i j -> pget p i = j) /\
    (forall c, In c cs -> 2 <= length c /\ forall x, In x c -> hd 0 c <= x) /\
    StronglySorted lt (map (hd 0) cs).
Proof. intro Hp. apply cycles_wf, is_Perm_wf. exact Hp. Qed.

Lemma cycles_rebuild_ok p : is_Perm p ->
  exists cs p', pcycles p = Ok cs /\ Perm (ArgCycles cs) (perilen p) = Ok p' /\ perm_eqb p' p = true.
Proof.
  intro Hp. apply is_Perm_wf in Hp. destruct (pcycles_spec p Hp) as [cs [E _]].
  destruct (cycles_rebuild p cs Hp E) as [p' [E' H]]. exists cs, p'. auto.
Qed.

Lemma order_ok p : is_Perm p ->
  exists n, porder p = Ok n /\ 0 < n /\
    forall k, (exists r, ppow p k = Ok r /\ neutral r = true) <-> (Z.of_nat n | k)%Z.
Proof.
  intro Hp. assert (Hw := is_Perm_wf p Hp). destruct (porder_spec p Hw) as [n [E [Hn Hk]]].
  exists n. split; [exact E|]. split; [exact Hn|]. intro k.
  destruct (pow_ok p k Hp) as [r [Er [Hr [H1 H2]]]].
  assert (Hiff : neutral r = true <-> exists e, Z.to_nat (Z.abs k) = e * n).
  { rewrite <- Hk. rewrite (wf_moves r (is_Perm_wf r Hr)).
    destruct (Z.le_ge_cases 0 k) as [Hk0|Hk0].
    - rewrite Z.abs_eq by exact Hk0. specialize (H1 Hk0). split; intros H x; specialize (H x); specialize (H1 x); congruence.
    - rewrite Z.abs_neq by exact Hk0. specialize (H2 Hk0). split; intros H x.
      + rewrite <- (H x) at 1. apply H2.
      + transitivity (iter (pget p) (Z.to_nat (- k)) (pget r x)); [symmetry; apply H | apply H2]. }
  assert (Hdiv : (exists e, Z.to_nat (Z.abs k) = e * n) <-> (Z.of_nat n | k)%Z).
  { rewrite <- Z.divide_abs_r. split.
    - intros [e He]. exists (Z.of_nat e). rewrite <- Nat2Z.inj_mul, <- He. rewrite Z2Nat.id by lia. reflexivity.
    - intros [e He]. exists (Z.to_nat e). assert (0 <= e)%Z by nia. rewrite He. rewrite Z2Nat.inj_mul by lia.
      rewrite Nat2Z.id. reflexivity. }
  rewrite <- Hdiv, <- Hiff. split.
  - intros [r' [E' N']]. congruence.
  - intro Nr. exists r. auto.
Qed.

Lemma says_cycles_inj (f : nat -> nat) cs i j :
  (forall x y, f x = f y -> x = y) ->
  says (ArgCycles (map (map f) cs)) i j -> exists i0 j0, i = f i0 /\ j = f j0 /\ says (ArgCycles cs) i0 j0.
Proof.
  intros Hf H. apply says_raw in H. cbn [raw] in H. apply in_flat_map in H as [c [Hc H]].
  apply in_map_iff in Hc as [c0 [<- Hc0]].
  assert (Er : rot (map f c0) = map f (rot c0)) by (destruct c0; cbn [rot map]; [reflexivity | rewrite map_app; reflexivity]).
  assert (Ec : forall a b : list nat, combine (map f a) (map f b) = map (fun ab => (f (fst ab), f (snd ab))) (combine a b)).
  { induction a as [|x a IH]; intros [|y b]; cbn [map combine]; try reflexivity. rewrite IH. reflexivity. }
  rewrite Er, Ec in H. apply in_map_iff in H as [[i0 j0] [E Hin]]. inversion E; subst.
  exists i0, j0. split; [reflexivity|]. split; [reflexivity|]. apply says_raw. cbn [raw].
  apply in_flat_map. exists c0. auto.
Qed.

Lemma concat_shift cs (f : nat -> nat) : concat (map (map f) cs) = map f (concat cs).
Proof. induction cs as [|c cs IH]; [reflexivity|]. cbn [map concat]. rewrite map_app, IH. reflexivity. Qed.

Lemma NoDup_app_intro {A} (l1 l2 : list A) : NoDup l1 -> NoDup l2 ->
  (forall x, In x l1 -> ~ In x l2) -> NoDup (l1 ++ l2).
Proof.
  intros H1 H2 Hd. induction H1 as [|x l Hx Hl IH]; [exact H2|]. cbn [app]. constructor.
  - rewrite in_app_iff. intros [Hi|Hi]; [contradiction|]. apply (Hd x); [left; reflexivity | exact Hi].
  - apply IH. intros y Hy. apply Hd. right. exact Hy.
Qed.

Lemma cycles_dynamic_wf p q r : wf p -> perilen p = Some q ->
  exists cs, cycles_dynamic p (Some (r * q)) = Ok cs /\ NoDup (concat cs) /\
    (forall x, In x (concat cs) <-> pget p x <> x /\ x < r * q) /\
    (forall i j, says (ArgCycles cs) i j -> pget p i = j).
Proof.
  intros Hp Eq. destruct (cycles_wf p Hp) as [cs [E [Hn [Hin [Hs _]]]]]. rewrite Eq in Hin.
  assert (Hq0 : q <> 0) by (assert (W := wf_peri p Hp); rewrite Eq in W; apply W).
  destruct (pget_period p q Hp Eq) as [Hper _].
  unfold cycles_dynamic. rewrite Eq, Nat.mod_mul, Nat.eqb_refl by exact Hq0. cbn [true_except bind]. rewrite E. cbn [bind].
  rewrite Nat.div_mul by exact Hq0.
  set (g := fun i => map (map (fun x => x + i * q)) cs).
  exists (flat_map g (range r)). split; [reflexivity|].
  assert (Hmem : forall l x, In x (concat (flat_map g l)) <-> exists i y, In i l /\ In y (concat cs) /\ x = y + i * q).
  { intros l x. induction l as [|i l IH]; cbn [flat_map concat]; [split; [intros [] | intros [i [y [[] _]]]]|].
    rewrite concat_app, in_app_iff, IH. unfold g at 1. rewrite concat_shift, in_map_iff. split.
    - intros [[y [<- Hy]]|[i' [y [H1 [H2 H3]]]]]; [exists i, y | exists i', y]; cbn [In]; auto.
    - intros [i' [y [[<-|H1] [H2 H3]]]]; [left; exists y; auto | right; exists i', y; auto]. }
  assert (Hlt : forall y, In y (concat cs) -> y < q) by (intros y Hy; apply Hin in Hy; tauto).
  split; [|split].
  - assert (Hr := range_NoDup r). induction Hr as [|i l Hi Hl IH]; [constructor|].
    cbn [flat_map]. rewrite concat_app. apply NoDup_app_intro.
    + unfold g. rewrite concat_shift. apply FinFun.Injective_map_NoDup; [intros x y; lia | exact Hn].
    + exact IH.
    + intros x Hx Hx2. unfold g in Hx. rewrite concat_shift in Hx. apply in_map_iff in Hx as [y [<- Hy]].
      apply Hmem in Hx2 as [i' [y' [Hi' [Hy' Exy]]]]. apply Hlt in Hy, Hy'.
      assert (i = i') by nia. subst. contradiction.
  - intro x. rewrite Hmem. split.
    + intros [i [y [Hi [Hy ->]]]]. apply range_In in Hi. assert (Hy' := proj1 (Hin y) Hy). destruct Hy' as [Hm Hyq].
      rewrite (period_mul (pget p) q i Hper y). split; [lia | nia].
    + intros [Hm Hx]. exists (x / q), (x mod q).
      assert (Ed := Nat.div_mod x q Hq0). assert (Hmq := Nat.mod_upper_bound x q Hq0).
      split; [apply range_In, Nat.div_lt_upper_bound; lia|]. split; [|lia]. apply Hin. split; [|exact Hmq].
      intro Hc. apply Hm. assert (Hpm := period_mul (pget p) q (x / q) Hper (x mod q)). rewrite Hc in Hpm.
      replace (x mod q + x / q * q) with x in Hpm by lia. exact Hpm.
  - intros i j Hij.
    assert (Hone : exists k, says (ArgCycles (g k)) i j).
    { apply says_raw in Hij. cbn [raw] in Hij. apply in_flat_map in Hij as [c [Hc Hij]].
      apply in_flat_map in Hc as [k [_ Hc]]. exists k. apply says_raw. cbn [raw]. apply in_flat_map. exists c. auto. }
    destruct Hone as [k Hk]. unfold g in Hk. apply says_cycles_inj in Hk; [|intros x y; lia].
    destruct Hk as [i0 [j0 [-> [-> H0]]]]. rewrite (period_mul (pget p) q k Hper i0). f_equal. apply Hs. exact H0.
Qed.

Lemma cycles_dynamic_ok p q r : is_Perm p -> perilen p = Some q ->
  exists cs, cycles_dynamic p (Some (r * q)) = Ok cs /\ NoDup (concat cs) /\
    (forall x, In x (concat cs) <-> pget p x <> x /\ x < r * q) /\
    (forall i j, says (ArgCycles cs) i j -> pget p i = j).
Proof. intro Hp. apply cycles_dynamic_wf, is_Perm_wf. exact Hp. Qed.

(** * ranks *)

Lemma rank_roundtrip n : exists p, int_to_perm n = Ok p /\ is_Perm p /\ perilen p = None /\ left_rank p = Ok n.
Proof.
  destruct (int_to_perm_spec n) as [p [E [Hw [Hn _]]]]. exists p. split; [exact E|].
  split; [|split; [exact Hn | apply left_rank_int_to_perm; exact E]].
  unfold int_to_perm in E. apply bind_ok in E as [s [_ E]]. eapply obj_new; [|exact E]. exact I.
Qed.

Lemma perm_roundtrip p : is_Perm p -> perilen p = None ->
  exists n p', left_rank p = Ok n /\ int_to_perm n = Ok p' /\ perm_eqb p' p = true.
Proof. intros Hp. apply int_to_perm_left_rank. apply is_Perm_wf. exact Hp. Qed.

Lemma factorial_count p n k : is_Perm p -> perilen p = None -> left_rank p = Ok k ->
  ((forall x, n <= x -> pget p x = x) <-> k < fact n).
Proof.
  intros Hp En Ek. assert (Hw := is_Perm_wf p Hp). destruct (perm_roundtrip p Hp En) as [k' [p' [E1 [E2 E3]]]].
  assert (k' = k) by congruence. subst k'. rewrite <- (int_to_perm_length n k p' E2).
  destruct (rank_roundtrip k) as [p2 [Ep2 [Hp2 [En2 _]]]]. assert (p2 = p') by congruence. subst p2.
  assert (Hx := proj1 (eq_actions p' p Hp2 Hp) E3).
  destruct (wf_finite_seq p' (is_Perm_wf _ Hp2) En2) as [_ [_ [Hfix Hlast]]].
  split; intro H.
  - destruct (Nat.le_gt_cases (plength p') n) as [|Hgt]; [assumption|]. exfalso.
    apply Hlast; [lia|]. rewrite Hx. apply H. lia.
  - intros x Hn. rewrite <- Hx. apply Hfix. lia.
Qed.

Lemma right_rank_counts p L : is_Perm p -> perilen p = None -> NoDup L ->
  (forall s, In s L <-> Permutation s (range (plength p)) /\ lexlt s (map (pget p) (range (plength p)))) ->
  right_rank p = Ok (length L).
Proof.
  intros Hp En HL Hin. assert (Hw := is_Perm_wf p Hp). rewrite (right_rank_eq p Hw En). f_equal.
  set (n := plength p) in *. set (sp := map (pget p) (range n)) in *.
  assert (Hsp : Permutation sp (range n)) by apply (wf_finite_seq p Hw En).
  destruct (permutations_range n) as [Hlen Hnth].
  assert (Hb := rr_bound sp). rewrite (Permutation_length Hsp), range_length in Hb.
  set (F := map (fun j => nth j (permutations (range n)) []) (range (rr sp))).
  replace (rr sp) with (length F) by (unfold F; rewrite map_length; apply range_length).
  apply Permutation_length, NoDup_Permutation; [|exact HL|].
  - unfold F. assert (Hr := range_NoDup (rr sp)).
    assert (Hlt : forall j, In j (range (rr sp)) -> j < fact n) by (intros j Hj; apply range_In in Hj; lia).
    induction Hr as [|j l Hj Hl IH]; cbn [map]; constructor.
    + intro Hi. apply in_map_iff in Hi as [j' [E Hj']].
      assert (j' = j); [|subst; contradiction].
      rewrite <- (proj2 (Hnth j' (Hlt j' (or_intror Hj')))), E. apply Hnth, Hlt. left. reflexivity.
    + apply IH. intros j' Hj'. apply Hlt. right. exact Hj'.
  - intro s. rewrite Hin. unfold F. rewrite in_map_iff. split.
    + intros [j [<- Hj]]. apply range_In in Hj. destruct (Hnth j ltac:(lia)) as [H1 H2].
      split; [exact H1|]. apply lexlt_iff; [rewrite H1; symmetry; exact Hsp | lia].
    + intros [H1 H2]. assert (Hps : Permutation s sp) by (rewrite H1; symmetry; exact Hsp).
      apply lexlt_rr in H2; [|exact Hps]. exists (rr s). split; [|apply range_In; exact H2].
      destruct (Hnth (rr s) ltac:(lia)) as [H3 H4]. apply rr_inj; [rewrite H3; symmetry; exact H1 | exact H4].
Qed.

Lemma right_rank_total p : is_Perm p -> perilen p = None ->
  exists r L, right_rank p = Ok r /\ length L = r /\ NoDup L /\
   (forall s, In s L <-> Permutation s (range (plength p)) /\ lexlt s (map (pget p) (range (plength p)))).
Proof.
  intros Hp En.
  set (n := plength p). set (sp := map (pget p) (range n)).
  destruct (permutations_range n) as [Hlen Hnth].
  assert (Hex : exists L, NoDup L /\ forall s, In s L <-> Permutation s (range n) /\ lexlt s sp).
  { assert (Hsp : Permutation sp (range n)) by apply (wf_finite_seq p (is_Perm_wf p Hp) En).
    exists (filter (fun s => rr s <? rr sp) (rev_colex_perms n)). split; [apply NoDup_filter, rev_colex_NoDup|].
    intro s. rewrite filter_In, rev_colex_complete, Nat.ltb_lt. split; intros [H1 H2]; (split; [exact H1|]);
      apply (lexlt_iff s sp); auto; rewrite H1; symmetry; exact Hsp. }
  destruct Hex as [L [HL Hin]]. exists (length L), L. split; [apply right_rank_counts; assumption|]. auto.
Qed.

Lemma inv_set_ok p pairs : is_Perm p -> perilen p = None -> Permutation pairs (inversion_set p) ->
  inversion_set_to_permutation pairs = Ok (map (pget p) (range (plength p))).
Proof.
  intros Hp En Hpp. assert (Hw := is_Perm_wf p Hp). rewrite (inversion_set_recovers p pairs Hw En Hpp).
  apply (wf_finite_seq p Hw En).
Qed.

Lemma inv_set_all p a b : is_Perm p -> perilen p = None ->
  (In (a, b) (inversion_set p) <-> a < b /\ pget p b < pget p a).
Proof.
  intros Hp En. assert (Hw := is_Perm_wf p Hp). rewrite inversion_set_In.
  destruct (wf_finite_seq p Hw En) as [_ [Hperm [Hfix _]]]. split; [tauto|]. intros [H1 H2].
  split; [exact H1|]. split; [|exact H2]. destruct (Nat.lt_ge_cases b (plength p)) as [|Hb]; [assumption|]. exfalso.
  rewrite (Hfix b Hb) in H2. assert (Hs := finite_stays p b Hw En Hb a H1). lia.
Qed.

(** * vectors *)

Lemma apply_ok {A} (p : perm) (v : list A) : is_Perm p -> (forall i, i < length v -> pget p i < length v) ->
  exists r, papply p v = Ok r /\ length r = length v /\
    forall i, i < length v -> nth_error r (pget p i) = nth_error v i.
Proof. intros Hp. apply papply_spec. apply is_Perm_wf. exact Hp. Qed.

Lemma apply_long {A} (p : perm) (v : list A) : is_Perm p -> perilen p = None -> plength p <= length v ->
  exists r, papply p v = Ok r /\ length r = length v /\
    forall i, i < length v -> nth_error r (pget p i) = nth_error v i.
Proof.
  intros Hp En Hl. apply apply_ok; [exact Hp|]. apply finite_stays; [apply is_Perm_wf; exact Hp | exact En | exact Hl].
Qed.

Lemma apply_err {A} (p : perm) (v : list A) i : is_Perm p -> i < length v -> length v <= pget p i ->
  papply p v = Err IndexErr.
Proof. intros Hp. apply papply_err. apply is_Perm_wf. exact Hp. Qed.

Lemma apply_mul {A} (a b c : perm) (v : list A) : is_Perm a -> is_Perm b -> pmul a b = Ok c ->
  (forall i, i < length v -> pget a i < length v) -> (forall i, i < length v -> pget b i < length v) ->
  exists w r, papply b v = Ok w /\ papply a w = Ok r /\ papply c v = Ok r.
Proof. intros Ha Hb. apply papply_mul; apply is_Perm_wf; assumption. Qed.

Lemma parity_mul a b c : is_Perm a -> is_Perm b -> perilen a = None -> perilen b = None -> pmul a b = Ok c ->
  pparity c = (pparity a + pparity b) mod 2.
Proof. intros Ha Hb. apply pparity_mul; apply is_Perm_wf; assumption. Qed.

Lemma parity_counts p L : is_Perm p -> perilen p = None -> NoDup L ->
  (forall a b, In (a, b) L <-> a < b /\ pget p b < pget p a) -> pparity p = length L mod 2.
Proof.
  intros Hp En HL Hin. unfold pparity. f_equal. apply Permutation_length, NoDup_Permutation.
  - unfold inversion_set. apply NoDup_filter, pairs_of_NoDup, range_NoDup.
  - exact HL.
  - intros [a b]. rewrite Hin. apply inv_set_all; assumption.
Qed.

Lemma obj_bij p : is_Perm p -> bijective (pget p).
Proof. intro H. apply pget_bij, is_Perm_wf. exact H. Qed.

Lemma disjoint_cycles cs : NoDup (concat cs) ->
  exists p, Perm (ArgCycles cs) None = Ok p /\ bijective (pget p).
Proof.
  intro H. destruct (ctor_finite (ArgCycles cs) H I) as [p [E [Hb _]]]. exists p. auto.
Qed.

(** * sequence *)

Lemma seq_below p n : wf p -> match perilen p with Some q => n mod q = 0 | None => plength p <= n end ->
  forall v, v < n -> pget p v < n.
Proof.
  intros H Hn v Hv. assert (W := wf_peri p H). rewrite pget_act by exact H. destruct (perilen p) as [q|] eqn:E.
  - destruct W as [_ [Hb [_ [Hq _]]]]. cbn [act]. rewrite ext_eq by exact Hq.
    assert (Hlt : fapp (mapping p) (v mod q) < q).
    { unfold fapp. assert (Hm := Nat.mod_upper_bound v q Hq).
      destruct (dget (mapping p) (v mod q)) as [y|] eqn:Ey; [|exact Hm].
      apply Hb. apply (wm_incl (mapping p) (wf_map p H)). apply dget_In in Ey. apply (in_map snd) in Ey. exact Ey. }
    assert (D1 := Nat.div_mod v q Hq). assert (D2 := Nat.div_mod n q Hq). rewrite Hn in D2.
    assert (v / q < n / q) by (apply Nat.div_lt_upper_bound; nia). nia.
  - cbn [act]. unfold fapp. destruct (dget (mapping p) v) as [y|] eqn:Ey; [|exact Hv].
    assert (Hy : In y (dkeys (mapping p))).
    { apply (wm_incl (mapping p) (wf_map p H)). apply dget_In in Ey. apply (in_map snd) in Ey. exact Ey. }
    destruct (mapping p) as [|kv m] eqn:Em; [destruct Hy|]. rewrite W in Hn. apply list_max_nat_ge in Hy. lia.
Qed.

Lemma seq_perm p n : wf p -> match perilen p with Some q => n mod q = 0 | None => plength p <= n end ->
  Permutation (map (pget p) (seq 0 n)) (seq 0 n).
Proof.
  intros H Hn. apply NoDup_Permutation_bis.
  - apply FinFun.Injective_map_NoDup; [exact (proj1 (pget_bij p H)) | apply seq_NoDup].
  - rewrite map_length. lia.
  - intros y Hy. apply in_map_iff in Hy. destruct Hy as [v [<- Hv]]. apply in_seq in Hv. apply in_seq.
    split; [lia | apply (seq_below p n H Hn); lia].
Qed.

(** the requested prefix is returned iff it is mapped onto itself *)
Lemma sequence_spec p n : is_Perm p ->
  (psequence p (Some n) = Ok (map (pget p) (seq 0 n)) /\ Permutation (map (pget p) (seq 0 n)) (seq 0 n)) \/
  (psequence p (Some n) = Err (match perilen p with Some _ => LengthMismatchPerilenError | None => LengthTooSmallError end) /\
   match perilen p with Some q => ~ Nat.divide q n | None => exists i, n <= i /\ pget p i <> i end).
Proof.
  intro Ho. assert (H := is_Perm_wf p Ho). assert (W := wf_peri p H). assert (S := seq_perm p n H). unfold psequence. destruct (perilen p) as [q|] eqn:E.
  - destruct W as [_ [_ [_ [Hq _]]]]. destruct (Nat.eqb_spec (n mod q) 0) as [e|ne].
    + left. auto.
    + right. split; [reflexivity|]. intro D. apply ne, Nat.mod_divide; assumption.
  - destruct (Nat.leb_spec (plength p) n) as [le|gt].
    + left. auto.
    + right. split; [reflexivity|]. destruct (mapping p) as [|kv m] eqn:Em; [lia|].
      exists (list_max_nat (dkeys (kv :: m))). split; [lia|].
      rewrite (act_moved p _ H), E. unfold moved. rewrite Em. apply list_max_nat_In. discriminate.
Qed.

Lemma sequence_default p : is_Perm p ->
  exists n, psequence p None = Ok (map (pget p) (seq 0 n)) /\ Permutation (map (pget p) (seq 0 n)) (seq 0 n) /\
    match perilen p with
    | Some q => n = q
    | None => (forall i, n <= i -> pget p i = i) /\ forall m, (forall i, m <= i -> pget p i = i) -> n <= m
    end.
Proof.
  intro Ho. assert (H := is_Perm_wf p Ho). assert (W := wf_peri p H). unfold psequence. destruct (perilen p) as [q|] eqn:E.
  - exists q. split; [reflexivity|]. split; [|reflexivity]. apply seq_perm; [exact H|]. rewrite E. apply Nat.mod_same. tauto.
  - exists (plength p). split; [reflexivity|]. split; [apply seq_perm; [exact H | rewrite E; lia]|].
    assert (M := fun x => act_moved p x H). rewrite E in M. split.
    + intros i Hi. destruct (Nat.eq_dec (pget p i) i) as [|ne]; [assumption|]. apply M in ne.
      unfold moved in ne. destruct (mapping p) as [|kv m] eqn:Em; [destruct ne|]. apply list_max_nat_ge in ne. lia.
    + intros k Hk. destruct (mapping p) as [|kv m] eqn:Em; [lia|].
      destruct (Nat.le_gt_cases (plength p) k) as [|gt]; [assumption|]. exfalso.
      assert (Hin : In (list_max_nat (dkeys (kv :: m))) (moved p)).
      { unfold moved. rewrite Em. apply list_max_nat_In. discriminate. }
      apply M in Hin. apply Hin, Hk. lia.
Qed.
