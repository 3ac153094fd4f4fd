(** Proof_SetPartImproved: _join_prototype_improved computes the join. *)

From Coq Require Import List Arith ZArith Bool Lia Permutation Sorting.Sorted Relations.
From Verif Require Import Model_Base Lib Model_SetPart Spec_SetPart Proof_SetPart Proof_SetPartMerge Proof_SetPartMore
  Proof_SetPartLattice.
Import ListNotations.
Open Scope Z_scope.

Lemma NoDup_concat_map (key : Z -> Z) (g : list Z -> list Z) (l : list (list Z)) :
  NoDup (concat l) -> (forall b, In b l -> NoDup (g b)) ->
  (forall b x, In b l -> In x (g b) -> In (key x) b) -> NoDup (concat (map g l)).
Proof.
  induction l as [|b l IH]; intros Hn H1 H2; [constructor|]. cbn [map concat] in *.
  apply NoDup_app_intro'.
  - apply H1. left. reflexivity.
  - apply IH; [eapply NoDup_app_remove_l, Hn | intros c Hc; apply H1; right; exact Hc |
               intros c x Hc; apply H2; right; exact Hc].
  - intros x Hx Hx'. apply in_concat in Hx' as (d & Hd & Hxd). apply in_map_iff in Hd as (c & <- & Hc).
    apply (NoDup_app_disj _ _ (key x) Hn).
    + apply (H2 b); [left; reflexivity | exact Hx].
    + apply in_concat. exists c. split; [exact Hc|]. apply H2; [right; exact Hc | exact Hxd].
Qed.

Lemma concat_singles (l : list Z) : concat (map (fun x => [x]) l) = l.
Proof. induction l as [|x l IH]; cbn; [reflexivity | rewrite IH; reflexivity]. Qed.

Lemma bws_NoDup s l r : sp_wf s -> blocks_with_singletons s (BwsElements l) = Ok r -> NoDup (concat r).
Proof.
  intros W H. unfold blocks_with_singletons in H. apply bind_ok in H as (els & _ & H). injection H as <-.
  eapply Permutation_NoDup; [apply concat_perm, isort_perm|]. rewrite concat_app, concat_singles.
  apply NoDup_app_intro'; [apply wf_nodup, W | apply NoDup_filter, znodup_NoDup|].
  intros x Hx Hx'. apply zdiff_In in Hx' as [_ Hx']. apply Hx'. apply (non_singletons_In s W), Hx.
Qed.

Section Improved.
  Variables s o : setpart.
  Hypothesis Ws : sp_wf s.
  Hypothesis Wo : sp_wf o.
  Hypothesis Ps : forall x, In x (concat (sp_blocks s)) -> 0 <= x.
  Hypothesis Po : forall x, In x (concat (sp_blocks o)) -> 0 <= x.
  Variable m : setpart.
  Hypothesis Wm : sp_wf m.
  Hypothesis Tm : forall x y, same (sp_blocks m) x y <-> same (sp_blocks s) x y /\ same (sp_blocks o) x y.

  Definition rep (x : Z) : Z := hd 0 (element_to_block m x).

  Lemma rep_same x : same (sp_blocks m) x (rep x).
  Proof using Wm.
    apply (element_to_block_In m Wm). unfold rep.
    assert (H : In x (element_to_block m x)) by (apply (element_to_block_In m Wm); left; reflexivity).
    destruct (element_to_block m x); [destruct H | left; reflexivity].
  Qed.
  Lemma rep_eq x y : same (sp_blocks m) x y -> rep x = rep y.
  Proof using Wm. intro H. unfold rep. apply (element_to_block_eq m Wm) in H. rewrite H. reflexivity. Qed.
  Lemma rep_rep x : rep (rep x) = rep x.
  Proof using Wm. symmetry. apply rep_eq, rep_same. Qed.

  Definition reps : list (Z * list Z) :=
    map (fun block => match block with [] => (0, []) | x :: l =>
                     let rep := zmin_list x l in (rep, zdiff block [rep]) end) (sp_blocks m).
  Definition trash : list Z := flat_map snd reps.

  Lemma reps_In r t : In (r, t) reps -> exists b, In b (sp_blocks m) /\ In r b /\ r = hd 0 b /\
    forall x, In x t <-> In x b /\ x <> r.
  Proof using Wm.
    unfold reps. rewrite in_map_iff. intros (b & E & Hb). exists b. split; [exact Hb|].
    destruct (wf_canonical m Wm) as (H1 & _). destruct (H1 b Hb) as [Hl Hs].
    destruct b as [|x l]; [cbn in Hl; lia|]. injection E as <- <-.
    destruct (zmin_list_spec l x) as [M1 M2].
    assert (Hr : zmin_list x l = x).
    { assert (H := M2 x (or_introl eq_refl)). assert (H' := sorted_hd_le (x :: l) (zmin_list x l) Hs M1). cbn [hd] in H'. lia. }
    split; [exact M1|]. split; [exact Hr|]. intro z. change (In z (zdiff (x :: l) [zmin_list x l]) <-> In z (x :: l) /\ z <> zmin_list x l).
    rewrite zdiff_In. cbn [In]. intuition congruence.
  Qed.
  Lemma reps_ex b : In b (sp_blocks m) -> exists t, In (hd 0 b, t) reps /\ forall x, In x t <-> In x b /\ x <> hd 0 b.
  Proof using Wm.
    intro Hb. destruct (wf_canonical m Wm) as (H1 & _). destruct (H1 b Hb) as [Hl Hs].
    assert (Hin : exists p, In p reps /\ p = match b with [] => (0, []) | x :: l => let rep := zmin_list x l in (rep, zdiff b [rep]) end).
    { eexists. split; [|reflexivity]. unfold reps. apply in_map_iff. exists b. split; [destruct b; reflexivity | exact Hb]. }
    destruct Hin as (p & Hp & E). destruct b as [|x l]; [cbn in Hl; lia|].
    destruct (zmin_list_spec l x) as [M1 M2].
    assert (Hr : zmin_list x l = x).
    { assert (H := M2 x (or_introl eq_refl)). assert (H' := sorted_hd_le (x :: l) (zmin_list x l) Hs M1). cbn [hd] in H'. lia. }
    cbn zeta in E. rewrite Hr in E. subst p. exists (zdiff (x :: l) [x]). split; [exact Hp|].
    intro z. rewrite zdiff_In. cbn [In hd]. intuition congruence.
  Qed.

  Lemma block_rep b x : In b (sp_blocks m) -> In x b -> rep x = hd 0 b.
  Proof using Wm.
    intros Hb Hx. unfold rep.
    assert (Hc : In x (concat (sp_blocks m))) by (apply in_concat; eauto).
    f_equal. apply (NoDup_concat_disj (sp_blocks m) _ _ x (wf_nodup m Wm)).
    - apply (element_to_block_block m Wm), Hc.
    - exact Hb.
    - apply (element_to_block_In m Wm). left. reflexivity.
    - exact Hx.
  Qed.

  Lemma trash_In x : In x trash <-> rep x <> x.
  Proof using Wm.
    unfold trash. rewrite in_flat_map. split.
    - intros ((r, t) & Hr & Hx). cbn [snd] in Hx. destruct (reps_In r t Hr) as (b & Hb & Hrb & E & Ht).
      destruct (proj1 (Ht x) Hx) as [Hx1 Hne]. rewrite (block_rep b x Hb Hx1). congruence.
    - intro H. assert (Hm := rep_same x). destruct Hm as [Hm|(b & Hb & Hx & Hr)]; [congruence|].
      destruct (reps_ex b Hb) as (t & Ht1 & Ht2). exists (hd 0 b, t). split; [exact Ht1|]. cbn [snd].
      apply Ht2. split; [exact Hx|]. rewrite <- (block_rep b x Hb Hx). congruence.
  Qed.

  Definition clean (bs : list (list Z)) : list (list Z) := map (fun block => zsort (zdiff (znodup block) trash)) bs.

  Lemma clean_part p : sp_wf p -> (forall x, In x (concat (sp_blocks p)) -> 0 <= x) ->
    exists c, SetPart (Some (clean (sp_blocks p))) DomN = Ok c /\ sp_wf c /\ sp_domain c = DomN /\ within c /\
      forall x y, x <> y -> together (sp_blocks c) x y <-> together (sp_blocks p) x y /\ rep x = x /\ rep y = y.
  Proof using Wm.
    intros Wp Pp.
    assert (Hin : forall b x, In x (zsort (zdiff (znodup b) trash)) <-> In x b /\ rep x = x).
    { intros b x. rewrite zsort_In, zdiff_In, znodup_In, trash_In.
      destruct (Z.eq_dec (rep x) x); tauto. }
    assert (Hn : NoDup (concat (clean (sp_blocks p)))).
    { apply (NoDup_concat_map (fun x => x)); [apply wf_nodup, Wp| |].
      - intros b _. eapply Permutation_NoDup; [apply zsort_perm|]. apply NoDup_filter, znodup_NoDup.
      - intros b x _ Hx. apply Hin in Hx. tauto. }
    destruct (sp_init_spec no_caches (Some (clean (sp_blocks p))) DomN None) as (c & E & W & D & _ & _ & T).
    { apply NoDup_no_overlap, Hn. } { split; constructor. }
    exists c. split; [exact E|]. split; [exact W|]. split; [exact D|].
    assert (Ht : forall x y, x <> y -> together (sp_blocks c) x y <-> together (sp_blocks p) x y /\ rep x = x /\ rep y = y).
    { intros x y Hxy. rewrite (T x y Hxy). unfold clean. split.
      - intros (d & Hd & Hx & Hy). apply in_map_iff in Hd as (b & <- & Hb). rewrite Hin in Hx, Hy.
        split; [exists b|]; tauto.
      - intros [(b & Hb & Hx & Hy) [Rx Ry]]. eexists. split; [apply in_map_iff; exists b; split; [reflexivity | exact Hb]|].
        rewrite !Hin. auto. }
    split; [|exact Ht]. intros x Hx. unfold element_in_domain. rewrite D. apply Z.leb_le.
    apply in_concat in Hx as (b & Hb & Hx). destruct (wf_canonical c W) as (H1 & _). destruct (H1 b Hb) as [Hl Hs].
    destruct (other_element b x Hl (zsorted_NoDup b Hs)) as (y & Hy & Hyx).
    assert (H : together (sp_blocks c) x y) by (exists b; auto).
    apply Ht in H as [(d & Hd & Hxd & _) _]; [|auto]. apply Pp, in_concat. eauto.
  Qed.

  Lemma improved_tail order : (forall l, Permutation (order l) l) ->
    exists p, (let* clean_s_part := SetPart (Some (clean (sp_blocks s))) DomN in
      let* clean_o_part := SetPart (Some (clean (sp_blocks o))) DomN in
      let* clean_join_part := join_prototype order clean_s_part clean_o_part in
      let dirty_domain := zunion (concat (sp_blocks s)) (concat (sp_blocks o)) in
      let clean_domain := zdiff dirty_domain trash in
      let* clean_blocks := blocks_with_singletons clean_join_part (BwsElements clean_domain) in
      let dirty_join_blocks :=
        map (fun clean_block =>
           zsort (zunion clean_block
             (flat_map (fun element => flat_map (fun rt => if Z.eqb element (fst rt) then snd rt else []) reps)
                       clean_block)))
        clean_blocks in
      SetPart (Some dirty_join_blocks) (sp_domain s)) = Ok p /\ sp_wf p /\ sp_domain p = sp_domain s /\
      forall x y, same (sp_blocks p) x y <->
        generated (fun u v => together (sp_blocks s) u v \/ together (sp_blocks o) u v) x y.
  Proof using Ws Wo Ps Po Wm Tm.
    intro Ho.
    destruct (clean_part s Ws Ps) as (cs & Es & Wcs & Dcs & Ncs & Tcs). rewrite Es. cbn [bind].
    destruct (clean_part o Wo Po) as (co & Eo & Wco & Dco & Nco & Tco). rewrite Eo. cbn [bind].
    destruct (join_prototype_same order cs co Ho Wcs Wco Ncs Nco) as (cj & Ej & Wcj & Dcj & Tcj).
    { rewrite Dcs, Dco. reflexivity. }
    rewrite Ej. cbn [bind]. cbn zeta.
    set (cd := zdiff (zunion (concat (sp_blocks s)) (concat (sp_blocks o))) trash).
    assert (Hcd : forall x, In x cd <-> (In x (concat (sp_blocks s)) \/ In x (concat (sp_blocks o))) /\ rep x = x).
    { intro x. unfold cd. rewrite zdiff_In, zunion_In, trash_In. destruct (Z.eq_dec (rep x) x); tauto. }
    assert (Hgen : forall x y, generated (fun u v => together (sp_blocks cs) u v \/ together (sp_blocks co) u v) x y ->
              x = y \/ (In x cd /\ In y cd)).
    { intros x y. apply (generated_closed _ (fun x y => x = y \/ (In x cd /\ In y cd))).
      - auto.
      - intros u v [->|[H1 H2]]; auto.
      - intros u v w [->|[H1 H2]] [->|[H3 H4]]; auto.
      - intros u v H. destruct (Z.eq_dec u v) as [->|Huv]; [auto|]. right. rewrite !Hcd.
        destruct H as [H|H]; [apply Tcs in H as [(b & Hb & Hu & Hv) [R1 R2]] | apply Tco in H as [(b & Hb & Hu & Hv) [R1 R2]]];
          auto; rewrite !in_concat; eauto 10. }
    assert (Hns : forall x, In x (concat (sp_blocks cj)) -> In x cd).
    { intros x Hx. apply in_concat in Hx as (b & Hb & Hx). destruct (wf_canonical cj Wcj) as (H1 & _).
      destruct (H1 b Hb) as [Hl Hs]. destruct (other_element b x Hl (zsorted_NoDup b Hs)) as (y & Hy & Hyx).
      assert (H : same (sp_blocks cj) x y) by (right; exists b; auto). apply Tcj, Hgen in H. destruct H; [congruence | tauto]. }
    destruct (blocks_with_singletons cj (BwsElements cd)) as [cb|e] eqn:Ecb.
    2:{ exfalso. unfold blocks_with_singletons in Ecb.
        assert (G : zsubset (sp_non_singletons cj) cd = true).
        { apply zsubset_spec. intros x Hx. apply Hns, (non_singletons_In cj Wcj), Hx. }
        rewrite G in Ecb. discriminate. }
    cbn [bind]. assert (Hcb := blocks_with_singletons_spec cj (BwsElements cd) cb Wcj Ecb). cbn [bws_elements] in Hcb.
    assert (Hncb := bws_NoDup cj cd cb Wcj Ecb).
    assert (Hcbin : forall b x, In b cb -> In x b -> In x cd).
    { intros b x Hb Hx. apply Hcb in Hb as [Hb|(z & -> & H1 & H2)].
      - apply Hns, in_concat. eauto.
      - destruct Hx as [<-|[]]. exact H1. }
    assert (Hclean : forall b x, In b cb -> In x b -> rep x = x).
    { intros b x Hb Hx. apply (Hcbin b x Hb), Hcd in Hx. tauto. }
    set (g := fun clean_block : list Z => zsort (zunion clean_block
             (flat_map (fun element => flat_map (fun rt => if Z.eqb element (fst rt) then snd rt else []) reps) clean_block))).
    assert (Hg : forall b x, In b cb -> In x (g b) <-> In (rep x) b).
    { intros b x Hb. unfold g. rewrite zsort_In, zunion_In. split.
      - intros [Hx|Hx]; [rewrite (Hclean b x Hb Hx); exact Hx|].
        apply in_flat_map in Hx as (e & He & Hx). apply in_flat_map in Hx as ((r & t) & Hr & Hx). cbn [fst snd] in Hx.
        destruct (Z.eqb_spec e r) as [->|]; [|destruct Hx].
        destruct (reps_In r t Hr) as (d & Hd & _ & E & Ht). destruct (proj1 (Ht x) Hx) as [Hx1 _].
        rewrite (block_rep d x Hd Hx1), <- E. exact He.
      - intro Hx. destruct (Z.eq_dec (rep x) x) as [E|E]; [left; rewrite <- E; exact Hx|]. right.
        apply in_flat_map. exists (rep x). split; [exact Hx|].
        destruct (rep_same x) as [H|(d & Hd & Hxd & _)]; [congruence|].
        destruct (reps_ex d Hd) as (t & Ht1 & Ht2). apply in_flat_map. exists (hd 0 d, t). split; [exact Ht1|].
        cbn [fst snd]. rewrite (block_rep d x Hd Hxd), Z.eqb_refl. apply Ht2. split; [exact Hxd|].
        rewrite <- (block_rep d x Hd Hxd). congruence. }
    assert (Hn : NoDup (concat (map g cb))).
    { apply (NoDup_concat_map rep); [exact Hncb| |].
      - intros b _. unfold g. eapply Permutation_NoDup; [apply zsort_perm | apply znodup_NoDup].
      - intros b x Hb. apply Hg, Hb. }
    destruct (sp_init_spec no_caches (Some (map g cb)) (sp_domain s) None) as (p & E & W & D & _ & _ & T).
    { apply NoDup_no_overlap, Hn. } { split; constructor. }
    exists p. split; [exact E|]. split; [exact W|]. split; [rewrite D; apply norm_dom_id, Ws|].
    assert (Hsp : forall x y, same (sp_blocks p) x y <-> same (sp_blocks cj) (rep x) (rep y)).
    { intros x y. destruct (Z.eq_dec x y) as [->|Hxy]; [split; intros _; left; reflexivity|].
      assert (H : same (sp_blocks p) x y <-> together (map g cb) x y).
      { rewrite <- (T x y Hxy). unfold same. intuition congruence. }
      rewrite H. split.
      - intros (d & Hd & Hx & Hy). apply in_map_iff in Hd as (b & <- & Hb).
        apply (Hg b _ Hb) in Hx. apply (Hg b _ Hb) in Hy. apply Hcb in Hb as [Hb|(z & -> & H1 & H2)].
        + right. exists b. auto.
        + left. destruct Hx as [<-|[]], Hy as [<-|[]]. reflexivity.
      - assert (Hex : forall z, In z cd -> exists b, In b cb /\ In z b).
        { intros z Hz. destruct (in_dec Z.eq_dec z (concat (sp_blocks cj))) as [Hc|Hc].
          - apply in_concat in Hc as (b & Hb & Hzb). exists b. split; [apply Hcb; auto | exact Hzb].
          - exists [z]. split; [apply Hcb; right; exists z; auto | left; reflexivity]. }
        intros [Heq|(b & Hb & Hx & Hy)].
        + assert (Hm : same (sp_blocks m) x y).
          { eapply same_trans; [apply wf_nodup, Wm | apply rep_same|]. rewrite Heq. apply same_sym, rep_same. }
          apply Tm in Hm as [[Hm|(b & Hb & Hx & Hy)] _]; [congruence|].
          assert (Hrx : In (rep x) cd).
          { apply Hcd. split; [left|apply rep_rep]. assert (Hr := rep_same x). apply Tm in Hr as [Hr _].
            destruct Hr as [<-|(d & Hd & _ & Hr)]; apply in_concat; eauto. }
          destruct (Hex (rep x) Hrx) as (c & Hc & Hrc). exists (g c). split; [apply in_map, Hc|].
          rewrite (Hg c x Hc), (Hg c y Hc), <- Heq. auto.
        + assert (Hbc : In b cb) by (apply Hcb; auto). exists (g b). split; [apply in_map, Hbc|].
          rewrite (Hg b x Hbc), (Hg b y Hbc). auto. }
    intros x y. rewrite Hsp, Tcj.
    set (R := fun u v => together (sp_blocks s) u v \/ together (sp_blocks o) u v).
    assert (Rs : forall u v, same (sp_blocks s) u v -> generated R u v).
    { intros u v [->|H]; [apply rst_refl | apply rst_step; left; exact H]. }
    assert (Rrep : forall u, generated R u (rep u)).
    { intro u. apply Rs, Tm, rep_same. }
    split.
    - intro H. eapply rst_trans; [apply Rrep|]. eapply rst_trans; [|apply rst_sym, Rrep].
      revert H. apply generated_mono. intros u v H. destruct (Z.eq_dec u v) as [->|Huv]; [apply rst_refl|].
      apply rst_step. destruct H as [H|H]; [left; apply Tcs in H | right; apply Tco in H]; tauto.
    - apply (generated_closed R (fun x y => generated (fun u v => together (sp_blocks cs) u v \/ together (sp_blocks co) u v) (rep x) (rep y))).
      + intro u. apply rst_refl.
      + intros u v. apply rst_sym.
      + intros u v w H1 H2. eapply rst_trans; eassumption.
      + intros u v H. destruct (Z.eq_dec (rep u) (rep v)) as [->|Hne]; [apply rst_refl|]. apply rst_step.
        assert (Mu := rep_same u). assert (Mv := rep_same v). apply Tm in Mu as [Mu1 Mu2]. apply Tm in Mv as [Mv1 Mv2].
        destruct H as [H|H]; [left; apply Tcs | right; apply Tco]; auto; (split; [|split; apply rep_rep]).
        * assert (G : same (sp_blocks s) (rep u) (rep v)).
          { eapply same_trans; [apply wf_nodup, Ws | apply same_sym, Mu1|].
            eapply same_trans; [apply wf_nodup, Ws | right; exact H | exact Mv1]. }
          destruct G; [contradiction | assumption].
        * assert (G : same (sp_blocks o) (rep u) (rep v)).
          { eapply same_trans; [apply wf_nodup, Wo | apply same_sym, Mu2|].
            eapply same_trans; [apply wf_nodup, Wo | right; exact H | exact Mv2]. }
          destruct G; [contradiction | assumption].
  Qed.
End Improved.

Lemma join_prototype_improved_spec order s o : (forall l, Permutation (order l) l) -> sp_wf s -> sp_wf o ->
  (forall x, In x (concat (sp_blocks s)) -> 0 <= x) -> (forall x, In x (concat (sp_blocks o)) -> 0 <= x) ->
  domain_eqb (sp_domain s) (sp_domain o) = true ->
  exists p, join_prototype_improved order s o = Ok p /\ sp_wf p /\ sp_domain p = sp_domain s /\
    forall x y, same (sp_blocks p) x y <->
      generated (fun u v => together (sp_blocks s) u v \/ together (sp_blocks o) u v) x y.
Proof.
  intros Ho Ws Wo Ps Po Hd. destruct (meet_spec s o Ws Wo Hd) as (m & E & Wm & Dm & Tm).
  unfold join_prototype_improved. rewrite E. cbn [bind].
  apply (improved_tail s o Ws Wo Ps Po m Wm Tm order Ho).
Qed.
