(** Proof_SetPartLattice: meet, join, the order, and the prototypes. *)

From Coq Require Import List Arith ZArith Bool Lia Permutation Sorting.Sorted Relations.
From Verif Require Import Model_Base Lib Model_SetPart Spec_SetPart Proof_SetPart Proof_SetPartMerge Proof_SetPartMore.
Import ListNotations.
Open Scope Z_scope.

Lemma domain_eqb_refl d : domain_eqb d d = true.
Proof.
  destruct d; cbn; auto. apply andb_true_iff. split; apply zsubset_spec; auto.
Qed.

(** * meet *)

Lemma NoDup_app_intro' {A} (a b : list A) : NoDup a -> NoDup b -> (forall x, In x a -> ~ In x b) -> NoDup (a ++ b).
Proof.
  intros Ha Hb Hd. induction Ha as [|x a Hx Ha IH]; [exact Hb|].
  cbn [app]. constructor.
  - rewrite in_app_iff. intros [H|H]; [contradiction | apply (Hd x); [left; reflexivity | exact H]].
  - apply IH. intros y Hy. apply Hd. right. exact Hy.
Qed.

Lemma NoDup_concat_flat_map (f : list Z -> list (list Z)) (l : list (list Z)) :
  NoDup (concat l) ->
  (forall b, In b l -> NoDup (concat (f b))) ->
  (forall b x, In b l -> In x (concat (f b)) -> In x b) ->
  NoDup (concat (flat_map f l)).
Proof.
  induction l as [|b l IH]; intros Hn H1 H2; [constructor|]. cbn [flat_map concat] in *.
  rewrite concat_app. apply NoDup_app_intro'.
  - apply H1. left. reflexivity.
  - apply IH; [eapply NoDup_app_remove_l, Hn | intros c Hc; apply H1; right; exact Hc |
               intros c x Hc; apply H2; right; exact Hc].
  - intros x Hx Hx'. apply in_concat in Hx' as (d & Hd & Hxd). apply in_flat_map in Hd as (c & Hc & Hd).
    apply (NoDup_app_disj _ _ x Hn).
    + apply (H2 b); [left; reflexivity | exact Hx].
    + apply in_concat. exists c. split; [exact Hc|]. apply H2; [right; exact Hc|]. apply in_concat. eauto.
Qed.

Definition meet_part (s_block o_block : list Z) : list (list Z) :=
  match zinter (znodup s_block) o_block with [] => [] | x => [zsort x] end.

Lemma meet_part_In b c d x : In d (meet_part b c) -> In x d <-> In x b /\ In x c.
Proof.
  unfold meet_part. intro H. assert (Hi := fun z => zinter_In z (znodup b) c).
  destruct (zinter (znodup b) c) as [|u l] eqn:E; [destruct H|]. destruct H as [<-|[]].
  rewrite zsort_In, Hi, znodup_In. reflexivity.
Qed.
Lemma meet_part_ex b c x : In x b -> In x c -> exists d, In d (meet_part b c) /\ In x d.
Proof.
  intros Hb Hc. assert (Hx : In x (zinter (znodup b) c)) by (apply zinter_In; rewrite znodup_In; auto).
  unfold meet_part. destruct (zinter (znodup b) c) as [|u l]; [destruct Hx|].
  eexists. split; [left; reflexivity|]. apply zsort_In, Hx.
Qed.
Lemma meet_part_NoDup b c : NoDup (concat (meet_part b c)).
Proof.
  unfold meet_part. assert (H : NoDup (zinter (znodup b) c)) by (apply NoDup_filter, znodup_NoDup).
  destruct (zinter (znodup b) c) as [|u l]; [constructor|]. cbn [concat]. rewrite app_nil_r.
  eapply Permutation_NoDup; [apply zsort_perm | exact H].
Qed.

Lemma meet_spec s o : sp_wf s -> sp_wf o -> domain_eqb (sp_domain s) (sp_domain o) = true ->
  exists m, meet s o = Ok m /\ sp_wf m /\ sp_domain m = sp_domain s /\
    forall x y, same (sp_blocks m) x y <-> same (sp_blocks s) x y /\ same (sp_blocks o) x y.
Proof.
  intros Ws Wo Hd. unfold meet. rewrite Hd. cbn [true_except bind].
  set (raw := flat_map (fun b => flat_map (fun c => match zinter (znodup b) c with [] => [] | z :: l => [zsort (z :: l)] end) (sp_blocks o)) (sp_blocks s)).
  assert (Eraw : raw = flat_map (fun b => flat_map (meet_part b) (sp_blocks o)) (sp_blocks s)).
  { unfold raw, meet_part. reflexivity. }
  assert (Hn : NoDup (concat raw)).
  { rewrite Eraw. apply NoDup_concat_flat_map; [apply wf_nodup, Ws| |].
    - intros b _. apply NoDup_concat_flat_map; [apply wf_nodup, Wo | intros c _; apply meet_part_NoDup|].
      intros c x _ Hx. apply in_concat in Hx as (d & Hd' & Hx). apply (meet_part_In b c d x Hd') in Hx. tauto.
    - intros b x _ Hx. apply in_concat in Hx as (d & Hd' & Hx). apply in_flat_map in Hd' as (c & _ & Hd').
      apply (meet_part_In b c d x Hd') in Hx. tauto. }
  assert (Ht : forall x y, together raw x y <-> together (sp_blocks s) x y /\ together (sp_blocks o) x y).
  { intros x y. rewrite Eraw. split.
    - intros (d & Hd' & Hx & Hy). apply in_flat_map in Hd' as (b & Hb & Hd'). apply in_flat_map in Hd' as (c & Hc & Hd').
      apply (meet_part_In b c d x Hd') in Hx. apply (meet_part_In b c d y Hd') in Hy.
      split; [exists b | exists c]; tauto.
    - intros [(b & Hb & Hxb & Hyb) (c & Hc & Hxc & Hyc)]. destruct (meet_part_ex b c x Hxb Hxc) as (d & Hd' & Hx).
      exists d. split; [|split; [exact Hx | apply (meet_part_In b c d y Hd'); auto]].
      apply in_flat_map. exists b. split; [exact Hb|]. apply in_flat_map. exists c. auto. }
  clearbody raw. clear Eraw.
  destruct (sp_init_spec no_caches (Some raw) (sp_domain s) None) as (m & E & W & D & _ & _ & T).
  - apply NoDup_no_overlap, Hn.
  - split; constructor.
  - exists m. split; [exact E|]. split; [exact W|]. split; [rewrite D; apply norm_dom_id, Ws|].
    intros x y. unfold same. destruct (Z.eq_dec x y) as [->|Hxy]; [tauto|]. rewrite (T x y Hxy), Ht. tauto.
Qed.

(** * join *)

Section Join.
  Variables s o : setpart.
  Hypothesis Ws : sp_wf s.
  Hypothesis Wo : sp_wf o.

  Definition edge (x y : Z) : Prop := together (sp_blocks s) x y \/ together (sp_blocks o) x y.
  Definition conn : Z -> Z -> Prop := generated edge.
  Definition elements : list Z := zunion (sp_non_singletons s) (sp_non_singletons o).
  Definition closed_under (p : setpart) (l : list Z) (x : Z) : Prop :=
    forall y, same (sp_blocks p) x y -> In y l.

  Lemma join_blocks_spec p cur new :
    sp_wf p -> let (cur', new') := join_blocks p (cur, new) in
    (forall x, In x cur' <-> In x cur \/ exists z, In z new /\ same (sp_blocks p) z x) /\
    (forall x, In x new' <-> ~ In x cur /\ exists z, In z new /\ same (sp_blocks p) z x) /\
    (NoDup cur -> NoDup cur').
  Proof using.
    intros Wp. unfold join_blocks.
    assert (Ha : forall x, In x (znodup (flat_map (element_to_block p) new)) <-> exists z, In z new /\ same (sp_blocks p) z x).
    { intro x. rewrite znodup_In, in_flat_map. split; intros (z & Hz & H); exists z; split; auto;
        apply (element_to_block_In p Wp); exact H. }
    split; [intro x; rewrite zunion_In, Ha; reflexivity|]. split.
    - intro x. rewrite zdiff_In, Ha. tauto.
    - intros _. apply znodup_NoDup.
  Qed.

  Lemma same_conn_s x y : same (sp_blocks s) x y -> conn x y.
  Proof using. intros [->|H]; [apply rst_refl | apply rst_step; left; exact H]. Qed.
  Lemma same_conn_o x y : same (sp_blocks o) x y -> conn x y.
  Proof using. intros [->|H]; [apply rst_refl | apply rst_step; right; exact H]. Qed.

  (** state after the step with [o]: elements of [cur] outside of [new] are closed under
      both, all elements of [cur] are closed under [o] *)
  Definition inv_o (e : Z) (cur new : list Z) : Prop :=
    NoDup cur /\ In e cur /\ (forall x, In x new -> In x cur) /\ (forall x, In x cur -> conn e x) /\
    (forall x, In x cur -> ~ In x new -> closed_under s cur x) /\
    (forall x, In x cur -> closed_under o cur x).
  Definition inv_s (e : Z) (cur new : list Z) : Prop :=
    NoDup cur /\ In e cur /\ (forall x, In x new -> In x cur) /\ (forall x, In x cur -> conn e x) /\
    (forall x, In x cur -> closed_under s cur x) /\
    (forall x, In x cur -> ~ In x new -> closed_under o cur x).

  Lemma step_s_first e cur' new' : join_blocks s ([], [e]) = (cur', new') -> inv_s e cur' new'.
  Proof using Ws.
    intro E. assert (H := join_blocks_spec s [] [e] Ws). rewrite E in H. destruct H as (H1 & H2 & H3).
    assert (In e cur') by (apply H1; right; exists e; split; [left; reflexivity | left; reflexivity]).
    split; [apply H3; constructor|]. split; [assumption|].
    assert (Hc : forall x, In x cur' <-> same (sp_blocks s) e x).
    { intro x. rewrite H1. split.
      - intros [[]|(z & [<-|[]] & H')]. exact H'.
      - intro H'. right. exists e. split; [left; reflexivity | exact H']. }
    assert (Hn : forall x, In x new' <-> In x cur').
    { intro x. rewrite H2, H1. cbn [In]. tauto. }
    split; [intro x; apply Hn|]. split; [intros x Hx; apply same_conn_s, Hc, Hx|]. split.
    - intros x Hx y Hy. apply Hc. apply Hc in Hx. eapply same_trans; [apply wf_nodup, Ws | exact Hx | exact Hy].
    - intros x Hx Hx'. exfalso. apply Hx', Hn, Hx.
  Qed.

  Lemma step_o e cur new cur' new' : inv_s e cur new -> join_blocks o (cur, new) = (cur', new') ->
    inv_o e cur' new' /\ (new' = [] -> forall x, In x cur' -> In x cur) /\
    (length cur' >= length cur + length (nodup Z.eq_dec new'))%nat.
  Proof using Wo.
    intros (I1 & I2 & I3 & I4 & I5 & I6) E. assert (H := join_blocks_spec o cur new Wo). rewrite E in H.
    destruct H as (H1 & H2 & H3).
    assert (Hsplit : forall x, In x cur' <-> In x cur \/ In x new').
    { intro x. rewrite H1, H2. destruct (in_dec Z.eq_dec x cur); tauto. }
    split; [|split].
    - split; [apply H3, I1|]. split; [apply Hsplit; auto|]. split; [intros x Hx; apply Hsplit; auto|]. split.
      { intros x Hx. apply H1 in Hx as [Hx|(z & Hz & Hzx)]; [apply I4, Hx|].
        eapply rst_trans; [apply I4, I3, Hz | apply same_conn_o, Hzx]. }
      split.
      + intros x Hx Hx'. assert (Hxc : In x cur) by (apply Hsplit in Hx; tauto).
        intros y Hy. apply Hsplit. left. apply (I5 x Hxc y Hy).
      + intros x Hx y Hy. apply H1 in Hx as [Hx|(z & Hz & Hzx)].
        * destruct (in_dec Z.eq_dec x new) as [Hn|Hn].
          -- apply H1. right. exists x. auto.
          -- apply H1. left. apply (I6 x Hx Hn y Hy).
        * apply H1. right. exists z. split; [exact Hz|]. eapply same_trans; [apply wf_nodup, Wo | exact Hzx | exact Hy].
    - intros -> x Hx. apply Hsplit in Hx as [Hx|[]]. exact Hx.
    - rewrite <- app_length. apply NoDup_incl_length.
      + apply NoDup_app_intro'; [exact I1 | apply NoDup_nodup|]. intros x Hx Hx'.
        apply nodup_In in Hx'. apply H2 in Hx' as [Hx' _]. contradiction.
      + intros x Hx. apply in_app_iff in Hx as [Hx|Hx]; apply Hsplit; [auto|]. right. apply nodup_In in Hx. exact Hx.
  Qed.

  Lemma step_s e cur new cur' new' : inv_o e cur new -> join_blocks s (cur, new) = (cur', new') ->
    inv_s e cur' new' /\ (length cur' >= length cur + length (nodup Z.eq_dec new'))%nat.
  Proof using Ws.
    intros (I1 & I2 & I3 & I4 & I5 & I6) E. assert (H := join_blocks_spec s cur new Ws). rewrite E in H.
    destruct H as (H1 & H2 & H3).
    assert (Hsplit : forall x, In x cur' <-> In x cur \/ In x new').
    { intro x. rewrite H1, H2. destruct (in_dec Z.eq_dec x cur); tauto. }
    split.
    - split; [apply H3, I1|]. split; [apply Hsplit; auto|]. split; [intros x Hx; apply Hsplit; auto|]. split.
      { intros x Hx. apply H1 in Hx as [Hx|(z & Hz & Hzx)]; [apply I4, Hx|].
        eapply rst_trans; [apply I4, I3, Hz | apply same_conn_s, Hzx]. }
      split.
      + intros x Hx y Hy. apply H1 in Hx as [Hx|(z & Hz & Hzx)].
        * destruct (in_dec Z.eq_dec x new) as [Hn|Hn].
          -- apply H1. right. exists x. auto.
          -- apply H1. left. apply (I5 x Hx Hn y Hy).
        * apply H1. right. exists z. split; [exact Hz|]. eapply same_trans; [apply wf_nodup, Ws | exact Hzx | exact Hy].
      + intros x Hx Hx'. assert (Hxc : In x cur) by (apply Hsplit in Hx; tauto).
        intros y Hy. apply Hsplit. left. apply (I6 x Hxc y Hy).
    - rewrite <- app_length. apply NoDup_incl_length.
      + apply NoDup_app_intro'; [exact I1 | apply NoDup_nodup|]. intros x Hx Hx'.
        apply nodup_In in Hx'. apply H2 in Hx' as [Hx' _]. contradiction.
      + intros x Hx. apply in_app_iff in Hx as [Hx|Hx]; apply Hsplit; [auto|]. right. apply nodup_In in Hx. exact Hx.
  Qed.

  Lemma conn_elements x y : conn x y -> x = y \/ (In x elements /\ In y elements).
  Proof using Ws Wo.
    apply (generated_closed edge (fun x y => x = y \/ (In x elements /\ In y elements))).
    - auto.
    - intros u v [->|[H1 H2]]; auto.
    - intros u v w [->|[H1 H2]] [->|[H3 H4]]; auto.
    - intros u v [(b & Hb & Hu & Hv)|(b & Hb & Hu & Hv)]; right; unfold elements; rewrite !zunion_In,
        !(non_singletons_In s Ws), !(non_singletons_In o Wo), !in_concat; split; eauto.
  Qed.

  Lemma cur_bound e cur : In e elements -> NoDup cur -> (forall x, In x cur -> conn e x) -> (length cur <= length elements)%nat.
  Proof using Ws Wo.
    intros He Hn Hc. apply NoDup_incl_length; [exact Hn|]. intros x Hx.
    destruct (conn_elements e x (Hc x Hx)) as [<-|[_ H]]; assumption.
  Qed.

  Definition is_component (e : Z) (r : list Z) : Prop := NoDup r /\ forall x, In x r <-> conn e x.

  Lemma component_intro e cur : NoDup cur -> In e cur -> (forall x, In x cur -> conn e x) ->
    (forall x, In x cur -> closed_under s cur x) -> (forall x, In x cur -> closed_under o cur x) -> is_component e cur.
  Proof using.
    intros H1 H2 H3 H4 H5. split; [exact H1|]. intro x. split; [apply H3|].
    intro H. assert (G : In e cur <-> In x cur); [|tauto].
    revert H. apply (generated_closed edge (fun u v => In u cur <-> In v cur)).
    - reflexivity.
    - intros u v H. symmetry. exact H.
    - intros u v w Ha Hb. rewrite Ha. exact Hb.
    - intros u v [H|H]; split; intro Hu.
      + apply (H4 u Hu). right. exact H.
      + apply (H4 v Hu). right. apply together_sym, H.
      + apply (H5 u Hu). right. exact H.
      + apply (H5 v Hu). right. apply together_sym, H.
  Qed.

  Lemma empty_of_length (l : list Z) : length l = 0%nat -> l = [].
  Proof using. destruct l; [reflexivity | discriminate]. Qed.

  Lemma nodup_length_pos (l : list Z) : (0 < length l)%nat -> (0 < length (nodup Z.eq_dec l))%nat.
  Proof using.
    intro H. destruct l as [|x l]; [cbn in H; lia|].
    assert (Hx : In x (nodup Z.eq_dec (x :: l))) by (apply nodup_In; left; reflexivity).
    destruct (nodup Z.eq_dec (x :: l)); [destruct Hx | cbn; lia].
  Qed.

  Lemma finish_or_go fuel e cur1 new1 :
    In e elements -> inv_s e cur1 new1 ->
    (forall cur2 new2, inv_o e cur2 new2 -> (length cur2 >= length cur1)%nat ->
        (0 < length new1 + length new2)%nat -> (length new2 > 0 -> length cur2 > length cur1)%nat ->
        exists r, join_loop fuel s o (cur2, new2) = Ok r /\ is_component e r) ->
    exists r,
      (let cn2 := join_blocks o (cur1, new1) in
       if Nat.ltb 0 (length new1 + length (snd cn2)) then join_loop fuel s o cn2 else Ok (fst cn2)) = Ok r /\
      is_component e r.
  Proof using Wo.
    intros He I1 Hgo. destruct (join_blocks o (cur1, new1)) as [cur2 new2] eqn:E. cbn [fst snd].
    destruct (step_o e cur1 new1 cur2 new2 I1 E) as (I2 & Hstay & Hlen).
    destruct (Nat.ltb_spec 0 (length new1 + length new2)) as [Hpos|Hz].
    - apply Hgo; [exact I2 | lia | exact Hpos|]. intro Hp. apply nodup_length_pos in Hp. lia.
    - exists cur2. split; [reflexivity|].
      assert (En1 : new1 = []) by (apply empty_of_length; lia). assert (En2 : new2 = []) by (apply empty_of_length; lia).
      subst. destruct I2 as (J1 & J2 & J3 & J4 & J5 & J6). apply component_intro; auto.
  Qed.

  Lemma join_loop_spec fuel e cur new : In e elements -> inv_o e cur new ->
    (length elements < fuel + length cur)%nat ->
    exists r, join_loop fuel s o (cur, new) = Ok r /\ is_component e r.
  Proof using Ws Wo.
    revert cur new; induction fuel as [|fuel IH]; intros cur new He I Hf.
    - destruct I as (I1 & _ & _ & I4 & _). assert (H := cur_bound e cur He I1 I4). lia.
    - cbn [join_loop]. destruct (join_blocks s (cur, new)) as [cur1 new1] eqn:E1. cbn [snd].
      destruct (step_s e cur new cur1 new1 I E1) as [I1 Hlen1].
      apply finish_or_go; [exact He | exact I1|].
      intros cur2 new2 I2 Hl Hpos Hg. apply IH; [exact He | exact I2|].
      destruct (Nat.eq_dec (length new1) 0) as [Z1|Z1].
      + lia.
      + assert (0 < length (nodup Z.eq_dec new1))%nat by (apply nodup_length_pos; lia). lia.
  Qed.

  Lemma join_loop_start e : In e elements ->
    exists r, join_loop (length elements + 2) s o ([], [e]) = Ok r /\ is_component e r.
  Proof using Ws Wo.
    intro He. replace (length elements + 2)%nat with (S (S (length elements))) by lia. cbn [join_loop].
    destruct (join_blocks s ([], [e])) as [cur1 new1] eqn:E1. cbn [snd].
    assert (I1 := step_s_first e cur1 new1 E1). apply (finish_or_go (S (length elements))); [exact He | exact I1|].
    intros cur2 new2 I2 _ _ _. apply join_loop_spec; [exact He | exact I2 | lia].
  Qed.

  Lemma join_fold (els : list Z) (n : nat) acc : n = (length elements + 2)%nat ->
    (forall e, In e els -> In e elements) ->
    NoDup (concat acc) -> (forall b, In b acc -> exists e, In e elements /\ is_component e b) ->
    exists r, foldM (fun result_blocks element =>
             if existsb (zmemb element) result_blocks then Ok result_blocks
             else let* current_block := join_loop n s o ([], [element]) in
                  Ok (result_blocks ++ [current_block])) els acc = Ok r /\
      NoDup (concat r) /\ (forall b, In b r -> exists e, In e elements /\ is_component e b) /\
      (forall x, In x (concat acc) -> In x (concat r)) /\ (forall x, In x els -> In x (concat r)).
  Proof using Ws Wo.
    intro En. revert acc; induction els as [|e els IH]; intros acc He Hn Hc; cbn [foldM].
    - exists acc. repeat split; auto. intros x [].
    - destruct (existsb (zmemb e) acc) eqn:Ex; cbn [bind].
      + destruct (IH acc) as (r & E & R1 & R2 & R3 & R4); auto; [intros x Hx; apply He; right; exact Hx|].
        exists r. split; [exact E|]. split; [exact R1|]. split; [exact R2|]. split; [exact R3|].
        intros x [<-|Hx]; [|apply R4, Hx]. apply R3, in_concat.
        apply existsb_exists in Ex as (b & Hb & Hx). apply zmemb_In in Hx. eauto.
      + rewrite En. destruct (join_loop_start e) as (b & -> & Cb); [apply He; left; reflexivity|]. cbn [bind].
        assert (Hnew : forall x, In x b -> ~ In x (concat acc)).
        { intros x Hx Hx'. apply in_concat in Hx' as (c & Hc' & Hxc). destruct (Hc c Hc') as (e' & _ & Cc).
          assert (In e c).
          { apply Cc. eapply rst_trans; [apply Cc, Hxc | apply rst_sym, Cb, Hx]. }
          assert (existsb (zmemb e) acc = true); [|congruence].
          apply existsb_exists. exists c. split; [exact Hc' | apply zmemb_In; assumption]. }
        rewrite <- En. destruct (IH (acc ++ [b])) as (r & E & R1 & R2 & R3 & R4).
        * intros x Hx. apply He. right. exact Hx.
        * rewrite concat_app. cbn [concat]. rewrite app_nil_r. apply NoDup_app_intro'; [exact Hn | apply Cb|].
          intros x Hx Hx'. apply (Hnew x Hx' Hx).
        * intros c Hc'. apply in_app_iff in Hc' as [Hc'|[<-|[]]]; [apply Hc, Hc'|]. exists e. split; [apply He; left; reflexivity | exact Cb].
        * exists r. split; [exact E|]. split; [exact R1|]. split; [exact R2|]. rewrite concat_app in R3. split.
          -- intros x Hx. apply R3, in_app_iff. auto.
          -- intros x [<-|Hx]; [|apply R4, Hx]. apply R3, in_app_iff. right. cbn [concat]. rewrite app_nil_r.
             apply Cb, rst_refl.
  Qed.

  Lemma join_spec order : (forall l, Permutation (order l) l) ->
    exists j, join order s o = Ok j /\ sp_wf j /\ sp_domain j = DomN /\ sp_labels j = [] /\
      forall x y, same (sp_blocks j) x y <-> generated (fun u v => together (sp_blocks s) u v \/ together (sp_blocks o) u v) x y.
  Proof using Ws Wo.
    intro Ho. unfold join. fold elements. set (els := order elements).
    assert (P : Permutation els elements) by apply Ho.
    destruct (join_fold els (length els + 2) []) as (raw & E & R1 & R2 & _ & R4).
    - rewrite (Permutation_length P). reflexivity.
    - intros e He. eapply Permutation_in; eassumption.
    - constructor.
    - intros b [].
    - rewrite E. cbn [bind].
      destruct (sp_init_spec no_caches (Some raw) DomN None) as (j & Ej & W & D & _ & L & T).
      { apply NoDup_no_overlap, R1. }
      { split; constructor. }
      exists j. split; [exact Ej|]. split; [exact W|]. split; [exact D|].
      split; [rewrite L; destruct (sp_blocks j); reflexivity|].
      intros x y. unfold same. destruct (Z.eq_dec x y) as [->|Hxy]; [split; [intros _; apply rst_refl | auto]|].
      rewrite (T x y Hxy). fold edge. fold (conn x y). split.
      + intros [H|(b & Hb & Hx & Hy)]; [congruence|]. destruct (R2 b Hb) as (e & _ & Cb).
        eapply rst_trans; [apply rst_sym, Cb, Hx | apply Cb, Hy].
      + intro H. right. destruct (conn_elements x y H) as [Heq|[Hx _]]; [congruence|].
        assert (Hx' : In x els) by (eapply Permutation_in; [symmetry; exact P | exact Hx]).
        apply R4, in_concat in Hx' as (b & Hb & Hxb). destruct (R2 b Hb) as (e & _ & Cb).
        exists b. split; [exact Hb|]. split; [exact Hxb|]. apply Cb.
        eapply rst_trans; [apply Cb, Hxb | exact H].
  Qed.
End Join.

(** * The order *)

Lemma sp_le_spec order s o : (forall l, Permutation (order l) l) -> sp_wf s -> sp_wf o ->
  sp_domain s = DomN -> sp_domain o = DomN ->
  exists b, sp_le order s o = Ok b /\ (b = true <-> refines (same (sp_blocks s)) (same (sp_blocks o))).
Proof.
  intros Ho Ws Wo Ds Do. unfold sp_le. rewrite Ds, Do. cbn [domain_eqb true_except bind].
  destruct (join_spec s o Ws Wo order Ho) as (j & -> & Wj & Dj & _ & T). cbn [bind].
  destruct (sp_eq_spec j o Wj Wo) as (b & E & Hb); [rewrite Dj, Do; reflexivity|].
  exists b. split; [exact E|]. rewrite Hb. split.
  - intros H x y Hxy. apply H, T. destruct Hxy as [->|Hxy]; [apply rst_refl | apply rst_step; left; exact Hxy].
  - intros H x y. rewrite T. split.
    + apply generated_closed.
      * left. reflexivity.
      * intros u v. apply same_sym.
      * intros u v w. apply same_trans, wf_nodup, Wo.
      * intros u v [Huv|Huv]; [apply H|]; right; exact Huv.
    + intros [->|Hxy]; [apply rst_refl | apply rst_step; right; exact Hxy].
Qed.

Lemma sp_le_other order s o : (forall l, Permutation (order l) l) -> sp_wf s -> sp_wf o ->
  domain_eqb (sp_domain s) (sp_domain o) = true -> sp_domain o <> DomN ->
  sp_le order s o = Err DomainsNotEqualError.
Proof.
  intros Ho Ws Wo Hd Hn. unfold sp_le. rewrite Hd. cbn [true_except bind].
  destruct (join_spec s o Ws Wo order Ho) as (j & -> & Wj & Dj & _). cbn [bind].
  unfold sp_eq. rewrite Dj. destruct (sp_domain o); [congruence | reflexivity | reflexivity].
Qed.

(** * The prototypes *)

Lemma pair_memb_In p l : pair_memb p l = true <-> In p l.
Proof.
  unfold pair_memb. rewrite existsb_exists. split.
  - intros ([u v] & Hy & E). apply andb_true_iff in E as [E1 E2]. apply Z.eqb_eq in E1, E2. destruct p; cbn in *; subst. exact Hy.
  - intro H. exists p. split; [exact H|]. rewrite !Z.eqb_refl. reflexivity.
Qed.

Lemma trivial_wf dom : exists s, SetPart (Some []) dom = Ok s /\ sp_wf s /\ sp_domain s = norm_dom dom /\
  sp_labels s = [] /\ sp_blocks s = [] /\ sp_caches s = no_caches.
Proof.
  destruct (sp_init_spec no_caches (Some []) dom None) as (s & E & W & D & C & L & _).
  { constructor. } { split; constructor. }
  exists s. split; [exact E|]. split; [exact W|]. split; [exact D|]. split; [rewrite L; destruct (sp_blocks s); reflexivity|].
  unfold SetPart, sp_init in E. cbn in E. injection E as <-. auto.
Qed.

Lemma merge_pairs_spec ps dom : dom_ok dom ->
  (forall a b, In (a, b) ps -> forall x, (x = a \/ x = b) -> match dom with DomN => 0 <= x | DomZ => True | DomSet l => In x l end) ->
  exists s, merge_pairs ps dom = Ok s /\ sp_wf s /\ sp_domain s = dom /\
    forall x y, same (sp_blocks s) x y <-> generated (fun u v => In (u, v) ps) x y.
Proof.
  intros Hok Hin. unfold merge_pairs.
  destruct (trivial_wf dom) as (s0 & -> & W0 & D0 & L0 & B0 & _). cbn [bind].
  rewrite (norm_dom_id dom Hok) in D0.
  destruct (merge_all_spec ps s0 (fun _ _ => False) W0) as (s1 & e & dn & E & W1 & D1 & L1 & T1 & N1 & N2 & N3 & N4).
  { intros x y. rewrite B0. split.
    - intros [->|(b & [] & _)]. apply rst_refl.
    - apply generated_closed.
      + left; reflexivity.
      + intros u v; apply same_sym.
      + intros u v w; apply same_trans; constructor.
      + tauto. }
  unfold merge_all in E. rewrite E.
  assert (Hdn : dn = ps).
  { rewrite (N2 L0). apply accepted_prefix_all. intros a b H. right. assert (G := Hin a b H).
    unfold element_in_domain. rewrite D0. destruct dom as [| |l].
    - rewrite !Z.leb_le. split; apply G; auto.
    - auto.
    - rewrite !zmemb_In. split; apply G; auto. }
  destruct e as [e|]; [exfalso; apply (N4 e eq_refl Hdn)|].
  exists s1. split; [reflexivity|]. split; [exact W1|]. split; [congruence|].
  intros x y. rewrite T1, Hdn. split; apply generated_mono; intros u v H; apply rst_step; tauto.
Qed.

Definition within (s : setpart) : Prop := forall x, In x (concat (sp_blocks s)) -> element_in_domain s x = true.

Lemma within_dom s x : within s -> In x (concat (sp_blocks s)) ->
  match sp_domain s with DomN => 0 <= x | DomZ => True | DomSet l => In x l end.
Proof.
  intros H Hx. specialize (H x Hx). unfold element_in_domain in H. destruct (sp_domain s).
  - apply Z.leb_le, H.
  - exact I.
  - apply zmemb_In, H.
Qed.

Lemma meet_prototype_spec order s o : (forall l, Permutation (order l) l) -> sp_wf s -> sp_wf o -> within s ->
  domain_eqb (sp_domain s) (sp_domain o) = true ->
  exists m p, meet s o = Ok m /\ meet_prototype order s o = Ok p /\ sp_blocks m = sp_blocks p /\ sp_domain m = sp_domain p.
Proof.
  intros Ho Ws Wo Hw Hd. destruct (meet_spec s o Ws Wo Hd) as (m & E & Wm & Dm & Tm).
  unfold meet_prototype. rewrite Hd. cbn [true_except bind].
  set (ps := filter (fun p => pair_memb p (pairs_of (sp_blocks o))) (pairs_of (sp_blocks s))).
  assert (Hps : forall a b, In (a, b) (order ps) <-> a < b /\ together (sp_blocks s) a b /\ together (sp_blocks o) a b).
  { intros a b. assert (P := Ho ps). split.
    - intro H. apply (Permutation_in _ P) in H. apply filter_In in H as [H1 H2]. apply pair_memb_In in H2.
      apply pairs_of_In in H1; [|apply Ws]. apply pairs_of_In in H2; [|apply Wo]. tauto.
    - intros (H1 & H2 & H3). apply (Permutation_in _ (Permutation_sym P)). apply filter_In. rewrite pair_memb_In.
      rewrite !pairs_of_In; [auto | apply Wo | apply Ws]. }
  destruct (merge_pairs_spec (order ps) (sp_domain s) (wf_dom s Ws)) as (p & Ep & Wp & Dp & Tp).
  { intros a b H x Hx. apply Hps in H as (_ & (c & Hc & Ha & Hb) & _). apply within_dom; [exact Hw|].
    apply in_concat. exists c. destruct Hx as [->| ->]; auto. }
  exists m, p. split; [exact E|]. split; [exact Ep|]. split; [|congruence].
  apply canonical_ext; [apply Wm | apply Wp|]. intros x y Hxy.
  assert (G : same (sp_blocks m) x y <-> same (sp_blocks p) x y).
  { rewrite Tm, Tp. split.
    - intros [[->|H1] [H2|H2]]; try apply rst_refl; [subst; apply rst_refl|].
      destruct (Z.lt_trichotomy x y) as [H|[->|H]]; [| apply rst_refl |].
      + apply rst_step, Hps. auto.
      + apply rst_sym, rst_step, Hps. auto using together_sym.
    - apply (generated_closed _ (fun x y => same (sp_blocks s) x y /\ same (sp_blocks o) x y)).
      + split; left; reflexivity.
      + intros u v [H1 H2]. split; apply same_sym; assumption.
      + intros u v w [H1 H2] [H3 H4].
        split; eapply same_trans; eauto using (wf_nodup s Ws), (wf_nodup o Wo).
      + intros u v H. apply Hps in H as (_ & H1 & H2). split; right; assumption. }
  unfold same in G. intuition congruence.
Qed.

Lemma join_prototype_same order s o : (forall l, Permutation (order l) l) -> sp_wf s -> sp_wf o -> within s -> within o ->
  domain_eqb (sp_domain s) (sp_domain o) = true ->
  exists p, join_prototype order s o = Ok p /\ sp_wf p /\ sp_domain p = sp_domain s /\
    forall x y, same (sp_blocks p) x y <->
      generated (fun u v => together (sp_blocks s) u v \/ together (sp_blocks o) u v) x y.
Proof.
  intros Ho Ws Wo Hws Hwo Hd. unfold join_prototype. rewrite Hd. cbn [true_except bind].
  set (ps := pairs_of (sp_blocks s) ++ _).
  assert (Hps : forall a b, In (a, b) (order ps) <-> a < b /\ (together (sp_blocks s) a b \/ together (sp_blocks o) a b)).
  { intros a b. assert (P := Ho ps). split.
    - intro H. apply (Permutation_in _ P) in H. apply in_app_iff in H as [H|H].
      + apply pairs_of_In in H; [|apply Ws]. tauto.
      + apply filter_In in H as [H _]. apply pairs_of_In in H; [|apply Wo]. tauto.
    - intros (H1 & H2). apply (Permutation_in _ (Permutation_sym P)). unfold ps. apply in_app_iff.
      destruct (pair_memb (a, b) (pairs_of (sp_blocks s))) eqn:E.
      + left. apply pair_memb_In, E.
      + right. apply filter_In. rewrite E. split; [|reflexivity]. rewrite pairs_of_In by apply Wo. split; [exact H1|].
        destruct H2 as [H2|H2]; [|exact H2]. exfalso.
        assert (In (a, b) (pairs_of (sp_blocks s))) by (apply pairs_of_In; [apply Ws | auto]).
        apply pair_memb_In in H. congruence. }
  assert (Hdom : forall x, (In x (concat (sp_blocks s)) \/ In x (concat (sp_blocks o))) ->
     match sp_domain s with DomN => 0 <= x | DomZ => True | DomSet l => In x l end).
  { intros x [Hx|Hx]; [apply within_dom; assumption|]. apply (within_dom o x Hwo) in Hx.
    destruct (sp_domain s), (sp_domain o); cbn in Hd; try discriminate; auto.
    apply andb_true_iff in Hd as [_ Hd]. apply zsubset_spec with (x := x) in Hd; assumption. }
  destruct (merge_pairs_spec (order ps) (sp_domain s) (wf_dom s Ws)) as (p & Ep & Wp & Dp & Tp).
  { intros a b H x Hx. apply Hps in H as (_ & H). apply Hdom.
    destruct H as [(c & Hc & Ha & Hb)|(c & Hc & Ha & Hb)]; [left|right]; apply in_concat; exists c;
      destruct Hx as [->| ->]; auto. }
  exists p. split; [exact Ep|]. split; [exact Wp|]. split; [exact Dp|].
  intros x y. rewrite Tp. split; apply generated_mono; intros u v H.
  - apply rst_step. apply Hps in H. tauto.
  - destruct (Z.lt_trichotomy u v) as [Huv|[->|Huv]]; [|apply rst_refl|].
    + apply rst_step, Hps. tauto.
    + apply rst_sym, rst_step, Hps. destruct H; auto using together_sym.
Qed.
