(** Proof_PermGroup: equality, product, inverse and power of [Perm]. *)

From Coq Require Import List Arith ZArith Bool Lia Permutation Sorted.
From Verif Require Import Model_Base Lib Model_Perm Spec_Perm Proof_Perm.
Import ListNotations.

(** * Moved elements *)

Lemma wf_moves p : wf p -> (neutral p = true <-> forall x, pget p x = x).
Proof.
  intros H. split.
  - intros Hn x. unfold pget. rewrite Hn. reflexivity.
  - intro Hid. destruct (neutral p) eqn:E; [reflexivity|]. exfalso.
    destruct (mapping p) as [|[k v] m] eqn:Em.
    { apply (wf_neutral p H) in Em. congruence. }
    assert (Hk : dget (mapping p) k = Some v) by (rewrite Em; cbn [dget]; rewrite Nat.eqb_refl; reflexivity).
    assert (Hne := wfmap_moves _ _ _ (wf_map p H) Hk).
    specialize (Hid k). rewrite pget_act in Hid by exact H. unfold act in Hid.
    assert (Hp := wf_peri p H). destruct (perilen p) as [q|].
    + destruct Hp as [_ [Hb _]]. assert (k < q) by (apply Hb; eapply dget_Some_key; exact Hk).
      unfold ext in Hid. rewrite Nat.mod_small in Hid by assumption. rewrite Hk in Hid. lia.
    + unfold fapp in Hid. rewrite Hk in Hid. contradiction.
Qed.

Lemma act_moved p x : wf p ->
  (pget p x <> x <-> In (match perilen p with Some q => x mod q | None => x end) (moved p)).
Proof.
  intro H. rewrite pget_act by exact H. unfold act, moved.
  assert (Hw := wf_map p H). destruct (perilen p) as [q|].
  - unfold ext. destruct (dget (mapping p) (x mod q)) as [v|] eqn:E.
    + assert (Hne := wfmap_moves _ _ _ Hw E).
      split; intros _; [eapply dget_Some_key; exact E|].
      assert (Hp := wf_peri p H).
      destruct (Nat.eq_dec q 0) as [->|Hq].
      * cbn in E |- *. cbn in Hne. lia.
      * assert (Hle := Nat.mod_le x q Hq). lia.
    + apply dget_None in E. split; [congruence | contradiction].
  - symmetry. apply fapp_key. exact Hw.
Qed.

(** * Equality *)

Lemma pget_period p q : wf p -> perilen p = Some q -> minimal_period (pget p) q.
Proof.
  intros H E. assert (Hp := wf_peri p H). rewrite E in Hp. destruct Hp as [_ [_ [_ [_ [H1 H2]]]]].
  assert (Ha : forall x, pget p x = ext (mapping p) q x).
  { intro x. rewrite pget_act, E by exact H. reflexivity. }
  split.
  - intro x. rewrite !Ha. apply H1.
  - intros t Ht Hper. apply H2; [exact Ht|]. intro x. rewrite <- !Ha. apply Hper.
Qed.

Lemma dget_fapp m k : wfmap m ->
  dget m k = if Nat.eqb (fapp m k) k then None else Some (fapp m k).
Proof.
  intro Hw. unfold fapp. destruct (dget m k) as [v|] eqn:E.
  - assert (Hne := wfmap_moves _ _ _ Hw E). apply Nat.eqb_neq in Hne. rewrite Hne. reflexivity.
  - rewrite Nat.eqb_refl. reflexivity.
Qed.

Lemma finite_periodic_absurd a b q : wf a -> wf b -> neutral b = false ->
  perilen a = None -> perilen b = Some q -> (forall x, pget a x = pget b x) -> False.
Proof.
  intros Ha Hb Hn Ea Eb H.
  destruct (mapping b) as [|[k v] m] eqn:Em.
  { apply (wf_neutral b Hb) in Em. congruence. }
  assert (Hp := wf_peri b Hb). rewrite Eb in Hp. destruct Hp as [_ [Hbel [_ [Hq0 _]]]].
  assert (Hk : In k (moved b)) by (unfold moved; rewrite Em; left; reflexivity).
  assert (Hkq := Hbel k Hk).
  set (x := k + (S (list_max_nat (moved a))) * q).
  assert (Hmx : pget b x <> x).
  { apply act_moved; [exact Hb|]. rewrite Eb. unfold x. rewrite Nat.mod_add by exact Hq0.
    rewrite Nat.mod_small by exact Hkq. exact Hk. }
  rewrite <- H in Hmx. apply act_moved in Hmx; [|exact Ha]. rewrite Ea in Hmx.
  apply list_max_nat_ge in Hmx. unfold x in Hmx. nia.
Qed.

Lemma perm_eqb_spec a b : wf a -> wf b ->
  (perm_eqb a b = true <-> forall x, pget a x = pget b x).
Proof.
  intros Ha Hb. unfold perm_eqb.
  destruct (neutral a) eqn:Na; destruct (neutral b) eqn:Nb; cbn [andb].
  - split; [intros _ x|reflexivity]. unfold pget. rewrite Na, Nb. reflexivity.
  - assert (Ea := proj1 (wf_neutral a Ha) Na).
    assert (Eb : mapping b <> []) by (intro E; apply (wf_neutral b Hb) in E; congruence).
    split; intro H.
    + exfalso. apply andb_true_iff in H as [H _]. rewrite Ea in H. unfold dict_eqb in H.
      destruct (mapping b); [congruence | discriminate].
    + exfalso. assert (neutral b = true); [|congruence]. apply (wf_moves b Hb). intro x.
      rewrite <- H. apply (wf_moves a Ha). exact Na.
  - assert (Eb := proj1 (wf_neutral b Hb) Nb).
    assert (Ea : mapping a <> []) by (intro E; apply (wf_neutral a Ha) in E; congruence).
    split; intro H.
    + exfalso. apply andb_true_iff in H as [H _]. rewrite Eb in H. unfold dict_eqb in H.
      destruct (mapping a); [congruence | discriminate].
    + exfalso. assert (neutral a = true); [|congruence]. apply (wf_moves a Ha). intro x.
      rewrite H. apply (wf_moves b Hb). exact Nb.
  - rewrite andb_true_iff, dict_eqb_spec by (apply wm_keys, wf_map; assumption).
    split.
    + intros [Hd Hp] x. rewrite !pget_act by assumption. unfold act, ext, fapp.
      destruct (perilen a) as [qa|]; destruct (perilen b) as [qb|]; try discriminate.
      * apply Nat.eqb_eq in Hp. subst qb. rewrite Hd. reflexivity.
      * rewrite Hd. reflexivity.
    + intro H. destruct (perilen a) as [qa|] eqn:Pa; destruct (perilen b) as [qb|] eqn:Pb.
      * assert (Ma := pget_period a qa Ha Pa). assert (Mb := pget_period b qb Hb Pb).
        assert (Wa := wf_peri a Ha). assert (Wb := wf_peri b Hb). rewrite Pa in Wa. rewrite Pb in Wb.
        assert (E : qa = qb).
        { destruct Ma as [Ma1 Ma2]. destruct Mb as [Mb1 Mb2].
          destruct (Ma2 qb) as [c Hc]; [lia | intro x; rewrite !H; apply Mb1 |].
          destruct (Mb2 qa) as [e He]; [lia | intro x; rewrite <- !H; apply Ma1 |].
          assert (qa <> 0) by tauto. assert (qb <> 0) by tauto.
          destruct c as [|c]; [lia|]. destruct e as [|e]; [lia|]. nia. }
        subst qb. split; [|apply Nat.eqb_refl].
        intro k. destruct (Nat.lt_ge_cases k qa) as [Hk|Hk].
        -- rewrite !dget_fapp by (apply wf_map; assumption).
           specialize (H k). rewrite !pget_act in H by assumption. rewrite Pa, Pb in H. cbn [act] in H.
           rewrite !ext_eq in H by tauto. rewrite Nat.mod_small, Nat.div_small in H by exact Hk.
           replace (fapp (mapping a) k) with (fapp (mapping b) k) by lia. reflexivity.
        -- assert (Na' : ~ In k (dkeys (mapping a))) by (intro Hi; apply Wa in Hi; lia).
           assert (Nb' : ~ In k (dkeys (mapping b))) by (intro Hi; apply Wb in Hi; lia).
           apply dget_None in Na', Nb'. congruence.
      * exfalso. eapply (finite_periodic_absurd b a); eauto.
      * exfalso. eapply (finite_periodic_absurd a b); eauto.
      * split; [|reflexivity]. intro k. rewrite !dget_fapp by (apply wf_map; assumption).
        specialize (H k). rewrite !pget_act in H by assumption. rewrite Pa, Pb in H. cbn [act] in H.
        rewrite H. reflexivity.
Qed.

(** * Building from a function on a closed set *)

Lemma fold_dset_map (g : nat -> nat) l m :
  NoDup (dkeys m ++ l) ->
  fold_left (fun m i => dset m i (g i)) l m = m ++ map (fun i => (i, g i)) l.
Proof.
  revert m; induction l as [|x l IH]; intros m H; cbn [fold_left map].
  - rewrite app_nil_r. reflexivity.
  - rewrite dset_fresh.
    + rewrite IH; [rewrite <- app_assoc; reflexivity|].
      unfold dkeys in *. rewrite map_app. cbn [map fst]. rewrite <- app_assoc. exact H.
    + intro Hi. apply NoDup_remove_2 in H. apply H, in_or_app. left. exact Hi.
Qed.

Lemma graph_get (g : nat -> nat) l x :
  dget (map (fun i => (i, g i)) l) x = if memb x l then Some (g x) else None.
Proof.
  induction l as [|y l IH]; cbn [map dget memb existsb]; [reflexivity|].
  destruct (Nat.eqb_spec x y) as [->|Hne]; cbn [orb]; [reflexivity | exact IH].
Qed.

Lemma graph_keys (g : nat -> nat) l : dkeys (map (fun i => (i, g i)) l) = l.
Proof. unfold dkeys. rewrite map_map. cbn [fst]. apply map_id. Qed.

Lemma graph_perm (g : nat -> nat) l : NoDup l -> injective g -> (forall x, In x l -> In (g x) l) ->
  Permutation (dkeys (map (fun i => (i, g i)) l)) (dvals (map (fun i => (i, g i)) l)).
Proof.
  intros Hn Hi Hc. rewrite graph_keys. unfold dvals. rewrite map_map. cbn [snd].
  symmetry. apply NoDup_Permutation_bis.
  - apply FinFun.Injective_map_NoDup; [exact Hi | exact Hn].
  - rewrite map_length. lia.
  - intros y Hy. apply in_map_iff in Hy as [x [<- Hx]]. apply Hc. exact Hx.
Qed.

Lemma Perm_dict_spec d peri : NoDup (dkeys d) -> Permutation (dkeys d) (dvals d) ->
  match peri with None => True | Some q => forall k v, In (k, v) d -> k <> v -> k < q end ->
  exists p, Perm (ArgDict d) peri = Ok p /\ wf p /\
    (forall x, match peri with
               | None => pget p x = fapp d x
               | Some q => q <> 0 -> pget p x = ext d q x
               end) /\
    (neutral p = false -> perilen p = None <-> peri = None).
Proof.
  intros Hn Hp Hf. destruct (Perm_spec (ArgDict d) peri) as [p [E [Hw [H1 [_ H2]]]]].
  - exact Hn.
  - exact Hp.
  - destruct peri as [q|]; [|exact I]. intros i j Hs. inversion Hs; subst. eauto.
  - exists p. auto.
Qed.

(** * Product *)

(** same kind: neutral permutations belong to both kinds *)
Definition kind (p : perm) (finite : bool) : Prop :=
  neutral p = true \/ (perilen p = None <-> finite = true).

Lemma bij_comp f g : bijective f -> bijective g -> bijective (fun x => f (g x)).
Proof.
  intros [Hf1 Hf2] [Hg1 Hg2]. split.
  - intros x y H. apply Hg1, Hf1, H.
  - intro y. destruct (Hf2 y) as [z Hz]. destruct (Hg2 z) as [x Hx]. exists x. congruence.
Qed.

Lemma image_moved p x : wf p -> pget p x <> x -> pget p (pget p x) <> pget p x.
Proof. intros H Hx E. apply Hx. apply (pget_bij p H). exact E. Qed.

Lemma broaden_sub_In l q r x : q <> 0 -> (forall k, In k l -> k < q) ->
  (In x (broaden_sub l q r) <-> x < r * q /\ In (x mod q) l).
Proof.
  intros Hq Hl. unfold broaden_sub. rewrite in_flat_map. split.
  - intros [i [Hi Hx]]. apply range_In in Hi. apply in_map_iff in Hx as [k [<- Hk]].
    assert (Hkq := Hl k Hk). split; [nia|].
    rewrite Nat.add_comm, Nat.mod_add by exact Hq. rewrite Nat.mod_small by exact Hkq. exact Hk.
  - intros [Hx Hin]. exists (x / q). split.
    + apply range_In. apply Nat.div_lt_upper_bound; lia.
    + apply in_map_iff. exists (x mod q). split; [|exact Hin].
      assert (E := Nat.div_mod x q Hq). lia.
Qed.

Lemma pmul_spec a b : wf a -> wf b ->
  neutral a = true \/ neutral b = true \/ (perilen a = None <-> perilen b = None) ->
  exists p, pmul a b = Ok p /\ wf p /\ (forall x, pget p x = pget a (pget b x)) /\
    (forall k, kind a k -> kind b k -> kind p k).
Proof.
  intros Ha Hb Hk. unfold pmul.
  destruct (neutral a) eqn:Na.
  { exists b. split; [reflexivity|]. split; [exact Hb|]. split; [|auto].
    intro x. symmetry. apply (wf_moves a Ha). exact Na. }
  destruct (neutral b) eqn:Nb.
  { exists a. split; [reflexivity|]. split; [exact Ha|]. split; [|auto].
    intro x. f_equal. symmetry. apply (wf_moves b Hb). exact Nb. }
  destruct Hk as [Hk|[Hk|Hk]]; try discriminate.
  assert (Hinj : injective (fun x => pget a (pget b x))).
  { apply bij_comp; apply pget_bij; assumption. }
  assert (Hcl : forall x, (pget a x <> x \/ pget b x <> x) ->
    pget a (pget a (pget b x)) <> pget a (pget b x) \/ pget b (pget a (pget b x)) <> pget a (pget b x)).
  { intros x Hx. destruct (Nat.eq_dec (pget a (pget b x)) (pget b x)) as [E|E].
    - right. rewrite E. destruct (Nat.eq_dec (pget b x) x) as [E2|E2].
      + rewrite E2 in E. destruct Hx; contradiction.
      + apply image_moved; assumption.
    - left. apply image_moved; assumption. }
  destruct (perilen a) as [qa|] eqn:Pa; destruct (perilen b) as [qb|] eqn:Pb.
  - assert (Wa := wf_peri a Ha). assert (Wb := wf_peri b Hb). rewrite Pa in Wa. rewrite Pb in Wb.
    destruct Wa as [_ [Ba [_ [Qa _]]]]. destruct Wb as [_ [Bb [_ [Qb _]]]].
    unfold broaden_moved. cbn [fst snd].
    destruct (Nat.divide_lcm_l qa qb) as [ra Era]. destruct (Nat.divide_lcm_r qa qb) as [rb Erb].
    set (L := Nat.lcm qa qb) in *.
    assert (L0 : L <> 0) by (unfold L; rewrite Nat.lcm_eq_0; tauto).
    assert (Da : L / qa = ra) by (rewrite Era; apply Nat.div_mul; exact Qa).
    assert (Db : L / qb = rb) by (rewrite Erb; apply Nat.div_mul; exact Qb).
    rewrite Da, Db.
    set (S := set_union (broaden_sub (moved a) qa ra) (broaden_sub (moved b) qb rb)).
    set (g := fun x => pget a (pget b x)) in *.
    assert (HS : forall x, In x S <-> x < L /\ (pget a x <> x \/ pget b x <> x)).
    { intro x. unfold S. rewrite set_union_In, !broaden_sub_In by assumption.
      rewrite !act_moved, Pa, Pb by assumption. rewrite <- Era, <- Erb. tauto. }
    assert (Pga : is_period (pget a) L).
    { rewrite Era. apply period_mul, pget_period; assumption. }
    assert (Pgb : is_period (pget b) L).
    { rewrite Erb. apply period_mul, pget_period; assumption. }
    assert (Pg : is_period g L).
    { intro x. unfold g. rewrite Pgb, Pga. reflexivity. }
    assert (Hlt : forall x p q, wf p -> perilen p = Some q -> (exists r, L = r * q) -> x < L -> pget p x < L).
    { intros x p q Hp Ep [r Er] Hx. rewrite pget_act, Ep by exact Hp. cbn [act].
      assert (Wp := wf_peri p Hp). rewrite Ep in Wp. destruct Wp as [_ [Bp [_ [Qp _]]]].
      destruct (ext_mod (mapping p) q x (wf_map p Hp) Bp Qp) as [_ Ed].
      apply Nat.div_lt_upper_bound with (a := x) (b := q) (q := r) in Qp as Hd; [|lia].
      assert (Em := Nat.div_mod (ext (mapping p) q x) q Qp).
      assert (Hm := Nat.mod_upper_bound (ext (mapping p) q x) q Qp). rewrite Ed in Em. nia. }
    assert (HcS : forall x, In x S -> In (g x) S).
    { intros x Hx. apply HS in Hx as [Hx1 Hx2]. apply HS. split; [|apply Hcl; exact Hx2].
      unfold g. eapply Hlt; [exact Ha | exact Pa | exists ra; exact Era |].
      eapply Hlt; [exact Hb | exact Pb | exists rb; exact Erb | exact Hx1]. }
    assert (Hn : NoDup S) by apply nodupb_NoDup.
    unfold compose_mapping. rewrite fold_dset_map by exact Hn. cbn [app].
    destruct (Perm_dict_spec (map (fun i => (i, g i)) S) (Some L)) as [p [E [Hw [H1 H2]]]].
    + rewrite graph_keys. exact Hn.
    + apply graph_perm; assumption.
    + intros k v Hin _. apply in_map_iff in Hin as [i [[= <- _] Hi]]. apply HS in Hi. tauto.
    + exists p. split; [exact E|]. split; [exact Hw|]. split.
      * intro x. rewrite H1, ext_eq by exact L0. unfold fapp. rewrite graph_get.
        assert (Hg : g x = g (x mod L) + L * (x / L)).
        { rewrite (Nat.div_mod x L L0) at 1. rewrite Nat.add_comm, (Nat.mul_comm L).
          apply (period_mul g L (x / L) Pg). }
        destruct (memb (x mod L) S) eqn:EM; [symmetry; exact Hg|].
        apply memb_false in EM. rewrite HS in EM.
        assert (Hm := Nat.mod_upper_bound x L L0).
        assert (Hfix : g (x mod L) = x mod L).
        { unfold g. destruct (Nat.eq_dec (pget b (x mod L)) (x mod L)) as [Eb|Eb]; [|tauto].
          rewrite Eb. destruct (Nat.eq_dec (pget a (x mod L)) (x mod L)) as [Ea|Ea]; [exact Ea | tauto]. }
        rewrite Hfix in Hg. symmetry. exact Hg.
      * intros k [Hka|Hka] Hkb; [congruence|].
        destruct (neutral p) eqn:Np; [left; exact Np|]. right.
        rewrite (H2 eq_refl). rewrite Pa in Hka. split; [discriminate|]. intro Hkt. apply Hka in Hkt. discriminate.
  - exfalso. destruct Hk as [_ Hk]. discriminate (Hk eq_refl).
  - exfalso. destruct Hk as [Hk _]. discriminate (Hk eq_refl).
  - set (S := set_union (moved a) (moved b)).
    set (g := fun x => pget a (pget b x)) in *.
    assert (HS : forall x, In x S <-> (pget a x <> x \/ pget b x <> x)).
    { intro x. unfold S. rewrite set_union_In, !act_moved, Pa, Pb by assumption. reflexivity. }
    assert (Hn : NoDup S) by apply nodupb_NoDup.
    assert (HcS : forall x, In x S -> In (g x) S).
    { intros x Hx. apply HS in Hx. apply HS. apply Hcl. exact Hx. }
    unfold compose_mapping. rewrite fold_dset_map by exact Hn. cbn [app].
    destruct (Perm_dict_spec (map (fun i => (i, g i)) S) None) as [p [E [Hw [H1 H2]]]].
    + rewrite graph_keys. exact Hn.
    + apply graph_perm; assumption.
    + exact I.
    + exists p. split; [exact E|]. split; [exact Hw|]. split.
      * intro x. rewrite H1. unfold fapp. rewrite graph_get.
        destruct (memb x S) eqn:EM; [reflexivity|]. apply memb_false in EM. rewrite HS in EM.
        symmetry. destruct (Nat.eq_dec (pget b x) x) as [Eb|Eb]; [|tauto].
        rewrite Eb. destruct (Nat.eq_dec (pget a x) x) as [Ea|Ea]; [exact Ea | tauto].
      * intros k [Hka|Hka] Hkb; [congruence|].
        destruct (neutral p) eqn:Np; [left; exact Np|]. right.
        rewrite (H2 eq_refl). rewrite Pa in Hka. exact Hka.
Qed.

Lemma pmul_reject a b : wf a -> wf b -> neutral a = false -> neutral b = false ->
  ~ (perilen a = None <-> perilen b = None) -> pmul a b = Err OtherPerilenMismatchError.
Proof.
  intros Ha Hb Na Nb Hk. unfold pmul. rewrite Na, Nb.
  destruct (perilen a); destruct (perilen b); try reflexivity; exfalso; apply Hk; split; congruence.
Qed.

Lemma pmul_inv a b p : wf a -> wf b -> pmul a b = Ok p ->
  wf p /\ (forall x, pget p x = pget a (pget b x)).
Proof.
  intros Ha Hb E.
  assert (D : (neutral a = true \/ neutral b = true \/ (perilen a = None <-> perilen b = None)) \/
              (neutral a = false /\ neutral b = false /\ ~ (perilen a = None <-> perilen b = None))).
  { destruct (neutral a), (neutral b); auto; destruct (perilen a), (perilen b); auto;
      try (left; right; right; split; congruence);
      right; repeat split; auto; intros [H1 H2]; try discriminate (H1 eq_refl); discriminate (H2 eq_refl). }
  destruct D as [D|[D1 [D2 D3]]].
  - destruct (pmul_spec a b Ha Hb D) as [p' [E' [Hw [H _]]]]. rewrite E in E'. inversion E'; subst. auto.
  - rewrite (pmul_reject a b Ha Hb D1 D2 D3) in E. discriminate.
Qed.

(** * Inverse *)

Definition swap (kv : nat * nat) : nat * nat := (snd kv, fst kv).

Lemma fold_dset_swap d m :
  NoDup (dkeys m ++ dvals d) ->
  fold_left (fun m kv => dset m (snd kv) (fst kv)) d m = m ++ map swap d.
Proof.
  revert m; induction d as [|[k v] d IH]; intros m H; cbn [fold_left map].
  - rewrite app_nil_r. reflexivity.
  - cbn [dvals map snd fst] in *. rewrite dset_fresh.
    + rewrite IH; [rewrite <- app_assoc; reflexivity|].
      unfold dkeys, dvals in *. rewrite map_app. cbn [map fst]. rewrite <- app_assoc. exact H.
    + intro Hi. apply NoDup_remove_2 in H. apply H, in_or_app. left. exact Hi.
Qed.

Lemma swap_keys d : dkeys (map swap d) = dvals d.
Proof. unfold dkeys, dvals. rewrite map_map. reflexivity. Qed.
Lemma swap_vals d : dvals (map swap d) = dkeys d.
Proof. unfold dkeys, dvals. rewrite map_map. reflexivity. Qed.

Lemma swap_get d k v : wfmap d -> (dget (map swap d) v = Some k <-> dget d k = Some v).
Proof.
  intro Hw. rewrite !dget_iff; [|apply wm_keys; exact Hw | rewrite swap_keys; apply wm_vals; exact Hw].
  rewrite in_map_iff. split.
  - intros [[k' v'] [[= -> ->] Hin]]. exact Hin.
  - intro Hin. exists (k, v). auto.
Qed.

Lemma swap_fapp d x : wfmap d -> fapp (map swap d) (fapp d x) = x.
Proof.
  intro Hw. unfold fapp at 2. destruct (dget d x) as [v|] eqn:E.
  - unfold fapp. apply (swap_get d x v Hw) in E. rewrite E. reflexivity.
  - unfold fapp. destruct (dget (map swap d) x) as [k|] eqn:E2; [|reflexivity].
    apply (swap_get d k x Hw) in E2. apply dget_None in E. exfalso. apply E.
    eapply wfmap_val_key; eassumption.
Qed.

Lemma wfmap_perm m : wfmap m -> Permutation (dkeys m) (dvals m).
Proof.
  intro Hw. apply NoDup_Permutation; [apply wm_keys, Hw | apply wm_vals, Hw|].
  intro x. symmetry. apply (wm_incl m Hw).
Qed.

Lemma pinv_spec p : wf p ->
  exists r, pinv p = Ok r /\ wf r /\ (forall x, pget r (pget p x) = x) /\
    (forall x, pget p (pget r x) = x) /\ (forall k, kind p k -> kind r k).
Proof.
  intro H. assert (Hw := wf_map p H). unfold pinv.
  rewrite fold_dset_swap by (cbn [dkeys map app]; apply wm_vals; exact Hw). cbn [app].
  destruct (Perm_dict_spec (map swap (mapping p)) (perilen p)) as [r [E [Hr [H1 H2]]]].
  - rewrite swap_keys. apply wm_vals. exact Hw.
  - rewrite swap_keys, swap_vals. symmetry. apply wfmap_perm. exact Hw.
  - destruct (perilen p) as [q|] eqn:Ep; [|exact I]. intros k v Hin _.
    assert (Wp := wf_peri p H). rewrite Ep in Wp. apply Wp.
    apply (in_map fst) in Hin. cbn [fst] in Hin. fold (dkeys (map swap (mapping p))) in Hin.
    change (map fst (map swap (mapping p))) with (dkeys (map swap (mapping p))) in Hin.
    rewrite swap_keys in Hin. apply (wm_incl _ Hw). exact Hin.
  - exists r. split; [exact E|]. split; [exact Hr|].
    assert (Hl : forall x, pget r (pget p x) = x).
    { intro x. rewrite (pget_act p H). specialize (H1 (act (mapping p) (perilen p) x)).
      assert (Wp := wf_peri p H).
      destruct (perilen p) as [q|]; cbn [act] in *.
      - destruct Wp as [_ [Bp [_ [Qp _]]]]. rewrite H1, ext_eq by exact Qp.
        destruct (ext_mod (mapping p) q x Hw Bp Qp) as [-> ->].
        rewrite swap_fapp by exact Hw. assert (Em := Nat.div_mod x q Qp). lia.
      - rewrite H1. apply swap_fapp. exact Hw. }
    split; [exact Hl|]. split.
    + intro x. destruct (proj2 (pget_bij p H) x) as [y Hy]. rewrite <- Hy, Hl. reflexivity.
    + intros k [Hk|Hk].
      * left. apply (wf_moves r Hr). intro x. rewrite <- (Hl x) at 2. f_equal. symmetry.
        apply (wf_moves p H). exact Hk.
      * destruct (neutral r) eqn:Nr; [left; exact Nr|]. right. rewrite (H2 eq_refl). exact Hk.
Qed.

(** * Power *)

Lemma pmul_times_spec n r base k : wf r -> wf base -> kind r k -> kind base k ->
  exists p, pmul_times n r base = Ok p /\ wf p /\ kind p k /\
    (forall x, pget p x = pget r (iter (pget base) n x)).
Proof.
  intros Hr Hb. revert r Hr; induction n as [|n IH]; intros r Hr Kr Kb; cbn [pmul_times].
  - exists r. split; [reflexivity|]. split; [exact Hr|]. split; [exact Kr|]. reflexivity.
  - destruct (pmul_spec r base Hr Hb) as [p [E [Hw [Hg Hk]]]].
    { destruct Kr as [Kr|Kr]; [auto|]. destruct Kb as [Kb|Kb]; [auto|]. right. right. tauto. }
    rewrite E. cbn [bind]. destruct (IH p Hw (Hk k Kr Kb) Kb) as [p' [E' [Hw' [Kp' Hg']]]].
    exists p'. split; [exact E'|]. split; [exact Hw'|]. split; [exact Kp'|].
    intro x. rewrite Hg', Hg. cbn [iter]. reflexivity.
Qed.

Lemma kind_self p : exists k, kind p k.
Proof.
  destruct (perilen p) eqn:E; [exists false | exists true]; right; rewrite E; split; congruence.
Qed.

Lemma ppow_spec p e : wf p ->
  exists r, ppow p e = Ok r /\ wf r /\ (forall k, kind p k -> kind r k) /\
    ((0 <= e)%Z -> forall x, pget r x = iter (pget p) (Z.to_nat e) x) /\
    ((e <= 0)%Z -> forall x, iter (pget p) (Z.to_nat (- e)) (pget r x) = x).
Proof.
  intro H. unfold ppow.
  destruct (Z.eqb_spec e 0) as [->|H0].
  { exists neutral_perm. split; [reflexivity|]. split; [apply wf_neutral_perm|].
    split; [intros; left; reflexivity|]. cbn. auto. }
  destruct (Z.eqb_spec e 1) as [->|H1].
  { exists p. split; [reflexivity|]. split; [exact H|]. split; [auto|].
    change (Z.to_nat 1) with 1. split; [reflexivity | lia]. }
  destruct (pinv_spec p H) as [i [Ei [Hi [Hl [Hr Hk]]]]].
  destruct (Z.eqb_spec e (-1)) as [->|Hm1].
  { exists i. split; [exact Ei|]. split; [exact Hi|]. split; [exact Hk|]. split; [lia|].
    intros _ x. cbn. apply Hr. }
  destruct (Z.ltb_spec 1 e) as [Hlt|Hge].
  - assert (Hall : forall k, kind p k -> exists q, pmul_times (Z.to_nat (e - 1)) p p = Ok q /\ wf q /\ kind q k /\
        (forall x, pget q x = pget p (iter (pget p) (Z.to_nat (e - 1)) x)))
      by (intros k Kk; apply pmul_times_spec; assumption).
    destruct (kind_self p) as [k0 K0]. destruct (Hall k0 K0) as [q [Eq [Hq [_ Hg]]]].
    exists q. split; [exact Eq|]. split; [exact Hq|]. split.
    + intros k Kk. destruct (Hall k Kk) as [q' [Eq' [_ [Kq' _]]]]. congruence.
    + split; [|lia]. intros _ x. rewrite Hg.
      replace (Z.to_nat e) with (S (Z.to_nat (e - 1))) by lia. reflexivity.
  - rewrite Ei. cbn [bind].
    assert (Hall : forall k, kind p k -> exists q, pmul_times (Z.to_nat (- e - 1)) i i = Ok q /\ wf q /\ kind q k /\
        (forall x, pget q x = pget i (iter (pget i) (Z.to_nat (- e - 1)) x)))
      by (intros k Kk; apply pmul_times_spec; auto).
    destruct (kind_self p) as [k0 K0]. destruct (Hall k0 K0) as [q [Eq [Hq [_ Hg]]]].
    exists q. split; [exact Eq|]. split; [exact Hq|]. split.
    + intros k Kk. destruct (Hall k Kk) as [q' [Eq' [_ [Kq' _]]]]. congruence.
    + split; [lia|]. intros _ x. rewrite Hg.
      replace (Z.to_nat (- e)) with (S (Z.to_nat (- e - 1))) by lia.
      change (pget i (iter (pget i) (Z.to_nat (- e - 1)) x)) with (iter (pget i) (S (Z.to_nat (- e - 1))) x).
      generalize (S (Z.to_nat (- e - 1))) as n. clear - Hr.
      assert (Hc : forall n x, iter (pget p) n (pget p x) = pget p (iter (pget p) n x)).
      { induction n as [|n IH]; intro y; [reflexivity|]. cbn [iter]. rewrite IH. reflexivity. }
      intro n. revert x.
      induction n as [|n IH]; intro x; [reflexivity|]. cbn [iter]. rewrite <- Hc, Hr. apply IH.
Qed.

(** * Reachable objects are well-formed *)

Lemma is_Perm_wf p : is_Perm p -> wf p.
Proof.
  induction 1 as [arg peri p Hm E|a b p _ Ha _ Hb E|a p _ Ha E|a k p _ Ha E].
  - eapply Perm_wf; eassumption.
  - eapply pmul_inv; [exact Ha | exact Hb | exact E].
  - destruct (pinv_spec a Ha) as [r [E' [Hr _]]]. congruence.
  - destruct (ppow_spec a k Ha) as [r [E' [Hr _]]]. congruence.
Qed.
