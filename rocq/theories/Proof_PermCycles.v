(** Proof_PermCycles: cycles and order of [Perm]. *)

From Coq Require Import List Arith ZArith Bool Lia Permutation Sorted.
From Verif Require Import Model_Base Lib Model_Perm Spec_Perm Proof_Perm Proof_PermGroup.
Import ListNotations.

Definition drop (m : dict) (l : list nat) : dict :=
  filter (fun kv => negb (memb (fst kv) l)) m.

Lemma drop_nil m : drop m [] = m.
Proof.
  unfold drop. induction m as [|kv m IH]; cbn; [reflexivity|]. f_equal. exact IH.
Qed.

Lemma ddel_drop m l k : ddel (drop m l) k = drop m (l ++ [k]).
Proof.
  unfold ddel, drop. induction m as [|[a b] m IH]; cbn [filter fst]; [reflexivity|].
  unfold memb in *. rewrite existsb_app. cbn [existsb]. rewrite orb_false_r.
  destruct (existsb (Nat.eqb a) l); cbn [negb orb]; [exact IH|]. cbn [filter fst].
  rewrite (Nat.eqb_sym k a). destruct (Nat.eqb a k); cbn [negb]; [exact IH | f_equal; exact IH].
Qed.

Lemma drop_get m l k : NoDup (dkeys m) -> dget (drop m l) k = if memb k l then None else dget m k.
Proof.
  intro Hn. induction m as [|[a b] m IH]; cbn [drop filter dget fst]; [destruct (memb k l); reflexivity|].
  cbn [dkeys map fst] in Hn. inversion Hn as [|? ? Hni Hn']; subst. specialize (IH Hn').
  change (filter (fun kv => negb (memb (fst kv) l)) m) with (drop m l).
  destruct (memb a l) eqn:Ea; cbn [negb dget].
  - rewrite IH. destruct (Nat.eqb_spec k a) as [->|]; [rewrite Ea|]; reflexivity.
  - rewrite IH. destruct (Nat.eqb_spec k a) as [->|]; [rewrite Ea|]; reflexivity.
Qed.

Lemma drop_keys_In m l k : In k (dkeys (drop m l)) <-> In k (dkeys m) /\ ~ In k l.
Proof.
  unfold drop, dkeys. rewrite !in_map_iff. split.
  - intros [[a b] [<- H]]. apply filter_In in H as [H1 H2]. cbn [fst] in *.
    apply negb_true_iff, memb_false in H2. split; [exists (a, b); auto | exact H2].
  - intros [[[a b] [<- H]] H2]. exists (a, b). split; [reflexivity|]. apply filter_In.
    split; [exact H|]. cbn [fst] in *. apply negb_true_iff, memb_false. exact H2.
Qed.

Lemma NoDup_app_r {A} (a b : list A) : NoDup (a ++ b) -> NoDup b.
Proof. induction a as [|x a IH]; [auto|]. intro H. inversion H; subst. auto. Qed.

Definition chain (m : dict) (c : list nat) : Prop :=
  forall u x y v, c = u ++ x :: y :: v -> dget m x = Some y.

(** [c] is a closed cycle of the map [m] *)
Definition closed_cycle (m : dict) (c : list nat) : Prop :=
  forall i j, In (i, j) (combine c (rot c)) -> dget m i = Some j.

Lemma NoDup_app_singleton (l : list nat) x : NoDup l -> ~ In x l -> NoDup (l ++ [x]).
Proof.
  intros Hn Hx. apply (Permutation_NoDup (Permutation_cons_append l x)). constructor; assumption.
Qed.

Lemma chain_snoc m c k k' : chain m (c ++ [k]) -> dget m k = Some k' -> chain m ((c ++ [k]) ++ [k']).
Proof.
  intros Hc Hk u x y v E.
  destruct v as [|z v] using rev_ind; [|clear IHv].
  - assert (Hr : u ++ [x; y] = (u ++ [x]) ++ [y]) by (rewrite <- app_assoc; reflexivity).
    rewrite Hr in E. apply app_inj_tail in E as [E Ey]. apply app_inj_tail in E as [_ Ex]. congruence.
  - assert (Hr : u ++ x :: y :: v ++ [z] = (u ++ x :: y :: v) ++ [z])
      by (rewrite <- app_assoc; reflexivity).
    rewrite Hr in E. apply app_inj_tail in E as [E _]. eapply Hc. exact E.
Qed.

Lemma in_split_pred (c : list nat) y k0 : In y (k0 :: c) -> y <> k0 ->
  exists u x v, k0 :: c = u ++ x :: y :: v.
Proof.
  intros Hin Hne. destruct Hin as [->|Hin]; [congruence|].
  apply in_split in Hin as [l1 [l2 ->]].
  destruct l1 as [|z l1] using rev_ind; [|clear IHl1].
  - exists [], k0, l2. reflexivity.
  - exists (k0 :: l1), z, l2. rewrite <- app_assoc. reflexivity.
Qed.

Lemma follow_cycle_spec m fuel pre key k0 :
  wfmap m -> NoDup (pre ++ [key]) -> incl (pre ++ [key]) (dkeys m) -> chain m (pre ++ [key]) ->
  hd 0 (pre ++ [key]) = k0 -> length m < fuel + length pre + 1 ->
  exists c, follow_cycle fuel (drop m pre) (pre ++ [key]) key = Ok (c, drop m c) /\
    NoDup c /\ incl c (dkeys m) /\ closed_cycle m c /\ hd 0 c = k0 /\ 2 <= length c.
Proof.
  intro Hw. revert pre key; induction fuel as [|fuel IH]; intros pre key Hn Hi Hc Hh Hf.
  - exfalso. assert (Hlen := NoDup_incl_length Hn Hi). unfold dkeys in Hlen.
    rewrite map_length, app_length in Hlen. cbn [length] in Hlen. lia.
  - cbn [follow_cycle].
    assert (Hkey : In key (dkeys m)) by (apply Hi, in_or_app; right; left; reflexivity).
    destruct (dget_key m key Hkey) as [k' Hk'].
    assert (Hnp : ~ In key pre).
    { intro Hin. apply NoDup_remove_2 in Hn. apply Hn. rewrite app_nil_r. exact Hin. }
    assert (Hl : dlookup (drop m pre) key = Ok k').
    { unfold dlookup. rewrite drop_get by (apply wm_keys; exact Hw).
      rewrite (proj2 (memb_false key pre) Hnp), Hk'. reflexivity. }
    rewrite Hl. cbn [bind]. rewrite ddel_drop.
    destruct (memb k' (pre ++ [key])) eqn:Em.
    + apply memb_In in Em. exists (pre ++ [key]). split; [reflexivity|]. split; [exact Hn|].
      split; [exact Hi|].
      destruct (pre ++ [key]) as [|z c] eqn:Ec; [destruct pre; discriminate|]. cbn [hd] in Hh. subst z.
      assert (E : k' = k0).
      { destruct (Nat.eq_dec k' k0) as [|Hne]; [assumption|]. exfalso.
        destruct (in_split_pred c k' k0 Em Hne) as [u [x [v E]]].
        assert (Hx := Hc u x k' v E). assert (x = key) by (eapply wfmap_inj; eassumption). subst x.
        (* key is the last element of the list, but here it precedes k' *)
        rewrite E in Ec. destruct v as [|w v] using rev_ind; [|clear IHv].
        - assert (Hr : u ++ [key; k'] = (u ++ [key]) ++ [k']) by (rewrite <- app_assoc; reflexivity).
          rewrite Hr in Ec. apply app_inj_tail in Ec as [E1 E2]. subst.
          apply (wfmap_moves m k' k' Hw Hk'). reflexivity.
        - assert (Hr : u ++ key :: k' :: v ++ [w] = (u ++ key :: k' :: v) ++ [w])
            by (rewrite <- app_assoc; reflexivity).
          rewrite Hr in Ec. apply app_inj_tail in Ec as [E1 E2]. subst pre.
          apply Hnp. apply in_or_app. right. left. reflexivity. }
      subst k'. split; [|split; [reflexivity|]].
      * intros i j Hin. apply combine_rot_says in Hin as [[u [v E]]|[u [E Ei]]].
        -- eapply Hc. exact E.
        -- inversion E; subst. rewrite <- Ec. rewrite last_last. exact Hk'.
      * destruct c as [|y c]; [|cbn; lia]. exfalso.
        assert (key = k0).
        { destruct pre as [|z [|z' pre]]; cbn in Ec; try discriminate. congruence. }
        subst. apply (wfmap_moves m k0 k0 Hw Hk'). reflexivity.
    + apply memb_false in Em. apply IH.
      * apply NoDup_app_singleton; assumption.
      * intros x Hx. apply in_app_or in Hx as [Hx|[<-|[]]]; [apply Hi; exact Hx|].
        eapply wfmap_val_key; eassumption.
      * apply chain_snoc; assumption.
      * rewrite <- Hh. destruct pre; reflexivity.
      * rewrite app_length. cbn [length]. lia.
Qed.

Lemma closed_cycle_next m c x : closed_cycle m c -> In x c -> exists y, dget m x = Some y /\ In y c.
Proof.
  intros Hc Hx. apply (In_nth c x 0) in Hx as [i [Hi E]].
  exists (nth i (rot c) 0).
  assert (Hin : In (nth i c 0, nth i (rot c) 0) (combine c (rot c))).
  { rewrite <- combine_nth by (symmetry; apply rot_length). apply nth_In.
    rewrite combine_length, rot_length. lia. }
  split.
  - apply Hc. rewrite E in Hin. exact Hin.
  - apply (Permutation_in _ (Permutation_sym (rot_perm c))). apply nth_In. rewrite rot_length. exact Hi.
Qed.

Lemma closed_cycle_prev m c y : closed_cycle m c -> In y c -> exists x, dget m x = Some y /\ In x c.
Proof.
  intros Hc Hy. assert (Hy' := Permutation_in _ (rot_perm c) Hy).
  apply (In_nth (rot c) y 0) in Hy' as [i [Hi E]]. rewrite rot_length in Hi.
  exists (nth i c 0). split; [|apply nth_In; exact Hi].
  apply Hc. rewrite <- E. rewrite <- combine_nth by (symmetry; apply rot_length). apply nth_In.
  rewrite combine_length, rot_length. lia.
Qed.

Lemma drop_wf m c : wfmap m -> closed_cycle m c -> wfmap (drop m c).
Proof.
  intros Hw Hc.
  assert (Hincl : incl (dvals (drop m c)) (dkeys (drop m c))).
  { intros v Hv. apply in_map_iff in Hv as [[k w] [E Hin]]. cbn [snd] in E. subst w.
    apply filter_In in Hin as [Hin Hk]. cbn [fst] in Hk. apply negb_true_iff, memb_false in Hk.
    assert (E := In_dget m k v (wm_keys m Hw) Hin). apply drop_keys_In.
    split; [eapply wfmap_val_key; eassumption|]. intro Hv.
    destruct (closed_cycle_prev m c v Hc Hv) as [x [Hx Hxc]].
    assert (x = k) by (eapply wfmap_inj; eassumption). subst. contradiction. }
  constructor.
  - apply NoDup_map_filter, wm_keys, Hw.
  - apply NoDup_map_filter, wm_vals, Hw.
  - intro v. split; [apply Hincl|].
    apply NoDup_length_incl; [apply NoDup_map_filter, wm_vals, Hw | | exact Hincl].
    unfold dkeys, dvals. rewrite !map_length. lia.
  - intros k v Hin. apply filter_In in Hin as [Hin _]. eapply wm_move; eassumption.
Qed.

Lemma drop_length m c : NoDup (dkeys m) -> c <> [] -> incl c (dkeys m) -> length (drop m c) < length m.
Proof.
  intros Hn Hc Hi.
  assert (H : NoDup (dkeys (drop m c))) by (apply NoDup_map_filter; exact Hn).
  destruct c as [|x c]; [congruence|].
  assert (Hle : length (x :: dkeys (drop m (x :: c))) <= length (dkeys m)).
  { apply NoDup_incl_length.
    - constructor; [|exact H]. rewrite drop_keys_In. intros [_ Hx]. apply Hx. left. reflexivity.
    - intros y [<-|Hy]; [apply Hi; left; reflexivity | apply drop_keys_In in Hy; tauto]. }
  cbn [length] in Hle. unfold dkeys in Hle. rewrite !map_length in Hle. lia.
Qed.

Lemma sort_hd_min l x : In x l -> hd 0 (sort_nat l) <= x.
Proof.
  intro Hx. apply (sort_nat_In x l) in Hx. assert (Hs := sort_nat_sorted_le l).
  destruct (sort_nat l) as [|y l']; [destruct Hx|]. cbn [hd].
  inversion Hs as [|? ? _ Hf]; subst. rewrite Forall_forall in Hf. destruct Hx as [->|Hx]; [lia|].
  apply Hf. exact Hx.
Qed.

Lemma sort_hd_In l : l <> [] -> In (hd 0 (sort_nat l)) l.
Proof.
  intro Hl. apply sort_nat_In. destruct (sort_nat l) as [|y l'] eqn:E; [|left; reflexivity].
  assert (H := sort_nat_length l). rewrite E in H. destruct l; [congruence | discriminate].
Qed.

Lemma combine_rot_fst c i j : In (i, j) (combine c (rot c)) -> In i c.
Proof. intro H. apply in_combine_l in H. exact H. Qed.

Lemma cycles_loop_spec fuel m result : wfmap m -> length m <= fuel ->
  exists cs, cycles_loop fuel m result = Ok (result ++ cs) /\
    NoDup (concat cs) /\ (forall x, In x (concat cs) <-> In x (dkeys m)) /\
    Forall (fun c => closed_cycle m c /\ 2 <= length c /\ (forall x, In x c -> hd 0 c <= x)) cs /\
    StronglySorted lt (map (hd 0) cs).
Proof.
  revert m result; induction fuel as [|fuel IH]; intros m result Hw Hf.
  - destruct m; [|cbn in Hf; lia]. exists []. cbn. rewrite app_nil_r. repeat split; try constructor; tauto.
  - destruct m as [|kv m0] eqn:Em.
    { exists []. cbn. rewrite app_nil_r. repeat split; try constructor; tauto. }
    rewrite <- Em in *. assert (Hm : m <> []) by (rewrite Em; discriminate).
    assert (Hk0 : dkeys m <> []) by (rewrite Em; discriminate).
    cbn [cycles_loop]. rewrite Em. cbv iota. rewrite <- Em.
    set (key := hd 0 (sort_nat (dkeys m))).
    assert (Hkey : In key (dkeys m)) by (apply sort_hd_In; exact Hk0).
    destruct (follow_cycle_spec m (S (length m)) [] key key Hw) as [c [Ec [Hnc [Hic [Hcc [Hhc Hlc]]]]]].
    + cbn. constructor; [intros [] | constructor].
    + intros x [<-|[]]. exact Hkey.
    + intros u x y v E. destruct u as [|? [|? ?]]; discriminate.
    + reflexivity.
    + cbn. lia.
    + rewrite drop_nil in Ec. cbn [app] in Ec. cbn zeta. fold key. rewrite Ec. cbn [bind fst snd].
      assert (Hd := drop_wf m c Hw Hcc).
      assert (Hdl := drop_length m c (wm_keys m Hw) ltac:(intros ->; cbn in Hlc; lia) Hic).
      destruct (IH (drop m c) (result ++ [c]) Hd ltac:(lia)) as [cs [Ecs [Hnd [Hin [Hfa Hso]]]]].
      exists (c :: cs). split; [rewrite Ecs, <- app_assoc; reflexivity|].
      split; [|split; [|split]].
      * cbn [concat].
        assert (Hdis : forall x, In x c -> ~ In x (concat cs)).
        { intros x Hx Hx2. apply Hin, drop_keys_In in Hx2. tauto. }
        clear - Hnc Hnd Hdis. induction c as [|x c IHc]; [exact Hnd|]. cbn [app].
        inversion Hnc; subst. constructor.
        -- rewrite in_app_iff. intros [Hx|Hx]; [contradiction|]. apply (Hdis x); [left; reflexivity | exact Hx].
        -- apply IHc; [assumption|]. intros y Hy; apply Hdis; right; exact Hy.
      * intro x. cbn [concat]. rewrite in_app_iff, Hin, drop_keys_In.
        split; [intros [Hx|Hx]; [apply Hic; exact Hx | tauto]|].
        intro Hx. destruct (in_dec Nat.eq_dec x c) as [Hxc|Hxc]; [left; exact Hxc | right; tauto].
      * constructor.
        -- split; [exact Hcc|]. split; [exact Hlc|]. intros x Hx. rewrite Hhc. apply sort_hd_min, Hic, Hx.
        -- rewrite Forall_forall in *. intros c' Hc'. destruct (Hfa c' Hc') as [H1 [H2 H3]].
           split; [|split; assumption]. intros i j Hij. specialize (H1 i j Hij).
           rewrite drop_get in H1 by (apply wm_keys; exact Hw).
           destruct (memb i c); [discriminate | exact H1].
      * cbn [map]. constructor; [exact Hso|]. rewrite Forall_forall. intros y Hy.
        apply in_map_iff in Hy as [c' [<- Hc']]. rewrite Hhc.
        rewrite Forall_forall in Hfa. destruct (Hfa c' Hc') as [_ [Hl2 _]].
        destruct c' as [|z c']; [cbn in Hl2; lia|]. cbn [hd].
        assert (Hz : In z (concat cs)) by (apply in_concat; exists (z :: c'); split; [exact Hc' | left; reflexivity]).
        apply Hin, drop_keys_In in Hz as [Hz1 Hz2].
        assert (Hle : key <= z) by (apply sort_hd_min; exact Hz1).
        assert (key <> z); [|lia]. intros ->. apply Hz2. rewrite <- Hhc.
        destruct c; [cbn in Hlc; lia | left; reflexivity].
Qed.

Lemma pcycles_spec p : wf p ->
  exists cs, pcycles p = Ok cs /\
    NoDup (concat cs) /\ (forall x, In x (concat cs) <-> In x (moved p)) /\
    Forall (fun c => closed_cycle (mapping p) c /\ 2 <= length c /\ (forall x, In x c -> hd 0 c <= x)) cs /\
    StronglySorted lt (map (hd 0) cs).
Proof.
  intro H. unfold pcycles. destruct (neutral p) eqn:Np.
  - exists []. assert (E := proj1 (wf_neutral p H) Np). unfold moved. rewrite E. cbn.
    repeat split; try constructor; tauto.
  - destruct (cycles_loop_spec (length (mapping p)) (mapping p) [] (wf_map p H) (le_n _))
      as [cs [E R]].
    exists cs. split; [exact E | exact R].
Qed.

Lemma cycles_rebuild p cs : wf p -> pcycles p = Ok cs ->
  exists p', Perm (ArgCycles cs) (perilen p) = Ok p' /\ perm_eqb p' p = true.
Proof.
  intros H E. destruct (pcycles_spec p H) as [cs' [E' [Hn [Hin [Hfa _]]]]].
  assert (cs' = cs) by congruence. subst cs'.
  assert (Hsay : forall i j, In (i, j) (raw (ArgCycles cs)) -> dget (mapping p) i = Some j).
  { intros i j Hij. cbn [raw] in Hij. apply in_flat_map in Hij as [c [Hc Hij]].
    rewrite Forall_forall in Hfa. apply (Hfa c Hc). exact Hij. }
  destruct (Perm_spec (ArgCycles cs) (perilen p)) as [p' [Ep' [Hw' [Hg _]]]].
  - exact Hn.
  - exact I.
  - destruct (perilen p) as [q|] eqn:Eq; [|exact I]. intros i j Hs _. apply says_raw, Hsay in Hs.
    assert (Wp := wf_peri p H). rewrite Eq in Wp. apply Wp. eapply dget_Some_key; exact Hs.
  - exists p'. split; [exact Ep'|]. apply perm_eqb_spec; [exact Hw' | exact H|].
    assert (Hfa2 : forall x, fapp (raw (ArgCycles cs)) x = fapp (mapping p) x).
    { intro x. unfold fapp. destruct (dget (raw (ArgCycles cs)) x) as [v|] eqn:Ev.
      - apply dget_In, Hsay in Ev. rewrite Ev. reflexivity.
      - apply dget_None in Ev. rewrite raw_cycles_keys in Ev.
        destruct (dget (mapping p) x) as [v|] eqn:E2; [|reflexivity].
        exfalso. apply Ev, Hin. eapply dget_Some_key; exact E2. }
    intro x. specialize (Hg x). rewrite (pget_act p H). assert (Wp := wf_peri p H).
    destruct (perilen p) as [q|]; cbn [act] in *.
    + destruct Wp as [_ [_ [_ [Hq _]]]]. rewrite Hg, !ext_eq, Hfa2 by exact Hq. reflexivity.
    + rewrite Hg. apply Hfa2.
Qed.

(** * Order *)

Lemma iter_closed m c k i : closed_cycle m c -> i < length c ->
  iter (fapp m) k (nth i c 0) = nth ((i + k) mod length c) c 0.
Proof.
  intros Hc Hi. induction k as [|k IH]; cbn [iter].
  - rewrite Nat.add_0_r, Nat.mod_small by exact Hi. reflexivity.
  - rewrite IH. set (j := (i + k) mod length c).
    assert (Hl : length c <> 0) by lia.
    assert (Hj : j < length c) by (apply Nat.mod_upper_bound; exact Hl).
    unfold fapp. rewrite (Hc (nth j c 0) (nth j (rot c) 0)).
    + rewrite nth_rot by exact Hj. f_equal. unfold j.
      rewrite <- Nat.add_1_r, Nat.add_mod_idemp_l by exact Hl. f_equal. lia.
    + rewrite <- combine_nth by (symmetry; apply rot_length). apply nth_In.
      rewrite combine_length, rot_length. lia.
Qed.

Lemma iter_closed_fix m c k x : closed_cycle m c -> NoDup c -> In x c ->
  (iter (fapp m) k x = x <-> k mod length c = 0).
Proof.
  intros Hc Hn Hx. apply (In_nth c x 0) in Hx as [i [Hi <-]].
  rewrite iter_closed by assumption. assert (Hl : length c <> 0) by lia.
  split.
  - intro E. apply NoDup_nth in E; try assumption; [|apply Nat.mod_upper_bound; exact Hl].
    assert (H1 := Nat.div_mod (i + k) (length c) Hl). rewrite E in H1.
    apply mod_0_divides; [exact Hl|]. exists ((i + k) / length c). lia.
  - intro E. apply mod_0_divides in E as [e ->]; [|exact Hl].
    rewrite Nat.mod_add by exact Hl. rewrite Nat.mod_small by exact Hi. reflexivity.
Qed.

Lemma iter_fix (f : nat -> nat) k x : f x = x -> iter f k x = x.
Proof. intro E. induction k as [|k IH]; cbn [iter]; [reflexivity | rewrite IH; exact E]. Qed.

Lemma iter_ext m q k x : wfmap m -> below m q -> q <> 0 ->
  iter (ext m q) k x = iter (fapp m) k (x mod q) + q * (x / q).
Proof.
  intros Hw Hb Hq.
  assert (H : iter (ext m q) k x = iter (fapp m) k (x mod q) + q * (x / q) /\ iter (fapp m) k (x mod q) < q).
  { induction k as [|k [IH1 IH2]]; cbn [iter].
    - split; [assert (E := Nat.div_mod x q Hq); lia | apply Nat.mod_upper_bound; exact Hq].
    - rewrite IH1. split; [|apply fapp_below; assumption].
      rewrite ext_eq by exact Hq. rewrite (Nat.mul_comm q (x / q)), Nat.mod_add, Nat.div_add by exact Hq.
      rewrite Nat.mod_small, Nat.div_small by exact IH2. lia. }
  apply H.
Qed.

Lemma iter_act p k : wf p -> (forall x, iter (pget p) k x = x) <-> (forall x, iter (fapp (mapping p)) k x = x).
Proof.
  intro H. assert (Ea : forall x, iter (pget p) k x = iter (act (mapping p) (perilen p)) k x).
  { intro x. induction k as [|k IH]; cbn [iter]; [reflexivity|]. rewrite pget_act, IH by exact H. reflexivity. }
  assert (Wp := wf_peri p H). assert (Hw := wf_map p H).
  destruct (perilen p) as [q|]; cbn [act] in *.
  - destruct Wp as [_ [Hb [_ [Hq _]]]]. split; intros Hx x.
    + destruct (Nat.lt_ge_cases x q) as [Hlt|Hge].
      * specialize (Hx x). rewrite Ea, iter_ext in Hx by assumption.
        rewrite Nat.mod_small, Nat.div_small in Hx by exact Hlt. lia.
      * apply iter_fix. unfold fapp. assert (Hn : ~ In x (dkeys (mapping p))) by (intro Hi; apply Hb in Hi; lia).
        apply dget_None in Hn. rewrite Hn. reflexivity.
    + rewrite Ea, iter_ext, Hx by assumption. assert (E := Nat.div_mod x q Hq). lia.
  - split; intros Hx x; [rewrite <- Ea | rewrite Ea]; apply Hx.
Qed.

Lemma fold_lcm_spec (ls : list (list nat)) a n :
  (fold_left (fun a c => Nat.lcm a (length c)) ls a = n) ->
  (exists c, n = c * a) /\ (forall c, In c ls -> exists e, n = e * length c) /\
  (forall k, (exists c, k = c * a) -> (forall c, In c ls -> exists e, k = e * length c) -> exists e, k = e * n) /\
  (a <> 0 -> (forall c, In c ls -> length c <> 0) -> n <> 0).
Proof.
  revert a n; induction ls as [|c ls IH]; intros a n E; cbn [fold_left] in E.
  - subst n. split; [exists 1; lia|]. split; [intros c []|]. split; [auto | auto].
  - destruct (IH _ _ E) as [[e He] [H2 [H3 H4]]]. split; [|split; [|split]].
    + destruct (Nat.divide_lcm_l a (length c)) as [u Hu]. exists (e * u). rewrite He, Hu. lia.
    + intros c' [<-|Hc']; [|apply H2; exact Hc'].
      destruct (Nat.divide_lcm_r a (length c)) as [u Hu]. exists (e * u). rewrite He, Hu. lia.
    + intros k Hk Hall. apply H3.
      * apply Nat.lcm_least; [exact Hk|]. apply Hall. left. reflexivity.
      * intros c' Hc'. apply Hall. right. exact Hc'.
    + intros Ha Hl. apply H4.
      * rewrite Nat.lcm_eq_0. intros [Hz|Hz]; [contradiction|]. apply (Hl c); [left; reflexivity | exact Hz].
      * intros c' Hc'. apply Hl. right. exact Hc'.
Qed.

Lemma porder_spec p : wf p ->
  exists n, porder p = Ok n /\ 0 < n /\
    (forall k, (forall x, iter (pget p) k x = x) <-> exists e, k = e * n).
Proof.
  intro H. unfold porder. destruct (neutral p) eqn:Np.
  - exists 1. split; [reflexivity|]. split; [lia|]. intro k. split; [exists k; lia|].
    intros _ x. apply iter_fix. apply (wf_moves p H). exact Np.
  - destruct (pcycles_spec p H) as [cs [E [Hn [Hin [Hfa _]]]]]. rewrite E. cbn [bind].
    set (n := fold_left (fun a c => Nat.lcm a (length c)) cs 1).
    destruct (fold_lcm_spec cs 1 n eq_refl) as [_ [H2 [H3 H4]]].
    rewrite Forall_forall in Hfa.
    assert (Hlen : forall c, In c cs -> length c <> 0) by (intros c Hc; specialize (Hfa c Hc); lia).
    exists n. split; [reflexivity|].
    assert (Hn0 : n <> 0) by (apply H4; [lia | exact Hlen]).
    split; [lia|]. intro k. rewrite iter_act by exact H.
    assert (Hnc : forall c, In c cs -> NoDup c).
    { intros c Hc. clear -Hn Hc. induction cs as [|c' cs IH]; [destruct Hc|]. cbn [concat] in Hn.
      destruct Hc as [->|Hc].
      - clear -Hn. induction c as [|x c IH]; [constructor|]. cbn [app] in Hn. inversion Hn; subst.
        constructor; [|apply IH; assumption]. intro Hx. apply H1. apply in_or_app. left. exact Hx.
      - apply IH; [|exact Hc]. apply NoDup_app_r in Hn. exact Hn. }
    split.
    + intro Hk. apply H3; [exists k; lia|]. intros c Hc.
      destruct (Hfa c Hc) as [Hcc [Hl _]].
      destruct c as [|x c'] eqn:Ec; [cbn in Hl; lia|]. rewrite <- Ec in *.
      apply mod_0_divides; [apply Hlen; exact Hc|].
      apply (iter_closed_fix (mapping p) c k x); [exact Hcc | apply Hnc; exact Hc | rewrite Ec; left; reflexivity | apply Hk].
    + intros [e Hk] x. destruct (in_dec Nat.eq_dec x (moved p)) as [Hx|Hx].
      * apply Hin, in_concat in Hx as [c [Hc Hx]]. destruct (Hfa c Hc) as [Hcc _].
        apply (iter_closed_fix (mapping p) c k x); [exact Hcc | apply Hnc; exact Hc | exact Hx |].
        apply mod_0_divides; [apply Hlen; exact Hc|]. destruct (H2 c Hc) as [e2 He2]. exists (e * e2). nia.
      * apply iter_fix. unfold fapp. apply dget_None in Hx. rewrite Hx. reflexivity.
Qed.
