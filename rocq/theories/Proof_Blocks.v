(** Proof_Blocks: the blocks of a SetPart made by merging pairs of naturals. *)

From Coq Require Import List Arith ZArith Bool Lia Permutation Sorted Relations.
From Verif Require Import Model_Base Lib Model_SetPart Model_Boolf Model_Blight Spec_SetPart Proof_SetPart Proof_SetPartMerge Proof_SetPartMore Proof_SetPartLattice Proof_SetPartImproved.
From Verif Require Import Spec_Boolf Spec_Blight.
Import ListNotations.
Open Scope nat_scope.

Definition zpair (ab : nat * nat) : Z * Z := (Z.of_nat (fst ab), Z.of_nat (snd ab)).

Lemma iterate_pairs pairs : forall s, iterate (fun s (ab : nat * nat) => merge_pair s (Z.of_nat (fst ab)) (Z.of_nat (snd ab))) pairs s = merge_all (map zpair pairs) s.
Proof.
  induction pairs as [|[a b] l IH]; intro s; [reflexivity|]. unfold merge_all. cbn [map iterate zpair fst snd].
  destruct (merge_pair s (Z.of_nat a) (Z.of_nat b)) as [s' [e|]]; [reflexivity|]. rewrite IH. reflexivity.
Qed.

Definition closure (pairs : list (nat * nat)) : nat -> nat -> Prop := clos_refl_sym_trans nat (fun a b => In (a, b) pairs).

Lemma closure_Z pairs x y : generated (fun u v => False \/ In (u, v) (map zpair pairs)) x y <->
  x = y \/ exists a b, x = Z.of_nat a /\ y = Z.of_nat b /\ closure pairs a b.
Proof.
  split.
  - intro H. induction H as [x y H|x|x y H IH|x y z H1 IH1 H2 IH2].
    + destruct H as [[]|H]. apply in_map_iff in H as [[a b] [X H]]. injection X as <- <-. right. exists a, b. split; [reflexivity|]. split; [reflexivity|]. apply rst_step. exact H.
    + left; reflexivity.
    + destruct IH as [IH|[a [b [-> [-> IH]]]]]; [left; auto|]. right. exists b, a. split; [reflexivity|]. split; [reflexivity|]. apply rst_sym. exact IH.
    + destruct IH1 as [->|[a [b [-> [-> IH1]]]]]; [exact IH2|]. destruct IH2 as [<-|[b' [c [X [-> IH2]]]]]; right.
      * exists a, b. auto.
      * apply Nat2Z.inj in X. subst b'. exists a, c. split; [reflexivity|]. split; [reflexivity|]. eapply rst_trans; eassumption.
  - intros [->|[a [b [-> [-> H]]]]]; [apply rst_refl|]. induction H as [a b H|a|a b H IH|a b c H1 IH1 H2 IH2].
    + apply rst_step. right. apply in_map_iff. exists (a, b). split; [reflexivity | exact H].
    + apply rst_refl.
    + apply rst_sym. exact IH.
    + eapply rst_trans; eassumption.
Qed.

Lemma closure_range pairs n a b : (forall a b, In (a, b) pairs -> a < b < n) -> closure pairs a b -> a = b \/ (a < n /\ b < n).
Proof.
  intros Hp H. induction H as [a b H|a|a b H IH|a b c H1 IH1 H2 IH2]; [apply Hp in H; lia | left; reflexivity | intuition | intuition (subst; auto)].
Qed.

Open Scope Z_scope.

Lemma sorted_blocks_hd r : NoDup (concat r) -> (forall b, In b r -> b <> []) -> StronglySorted (fun b c => zlist_leb b c = true) r ->
  StronglySorted (fun b c => hd 0 b < hd 0 c) r.
Proof.
  intros Hn Hne Hs. induction Hs as [|b r Hs IH Hf]; constructor.
  - apply IH; [eapply NoDup_app_remove_l, Hn | intros c Hc; apply Hne; right; exact Hc].
  - rewrite Forall_forall in *. intros c Hc. specialize (Hf c Hc). assert (Hb := Hne b (or_introl eq_refl)). assert (Hc' := Hne c (or_intror Hc)).
    destruct b as [|u b]; [congruence|]. destruct c as [|v c]; [congruence|]. cbn [hd].
    assert (u <> v). { intros ->. cbn [concat] in Hn. apply (NoDup_app_disj _ _ v Hn); [left; reflexivity|]. apply in_concat. exists (v :: c). split; [exact Hc | left; reflexivity]. }
    cbn [zlist_leb] in Hf. rewrite orb_true_iff, andb_true_iff, Z.ltb_lt, Z.eqb_eq in Hf. lia.
Qed.

Lemma bws_any_NoDup s arg r : sp_wf s -> blocks_with_singletons s arg = Ok r -> NoDup (concat r) /\ StronglySorted (fun b c => zlist_leb b c = true) r.
Proof.
  intros W H. unfold blocks_with_singletons in H. apply bind_ok in H as (els & _ & H). injection H as <-. split.
  - eapply Permutation_NoDup; [apply concat_perm, isort_perm|]. rewrite concat_app, concat_singles.
    apply NoDup_app_intro'; [apply wf_nodup, W | apply NoDup_filter, znodup_NoDup|].
    intros x Hx Hx'. apply zdiff_In in Hx' as [_ Hx']. apply Hx'. apply (non_singletons_In s W), Hx.
  - apply isort_sorted; [apply zlist_leb_total | apply zlist_leb_trans].
Qed.

Lemma in_block_same s b x y : sp_wf s -> In b (sp_blocks s) -> In x b -> (In y b <-> same (sp_blocks s) x y).
Proof.
  intros W Hb Hx. split.
  - intro Hy. right. exists b. auto.
  - intros [<-|[c [Hc [Hx' Hy]]]]; [exact Hx|]. destruct (wf_canonical s W) as [_ [H _]]. rewrite (H b c x Hb Hc Hx Hx'). exact Hy.
Qed.

Lemma blocks_of_pairs n pairs : (forall a b, In (a, b) pairs -> (a < b < n)%nat) ->
  exists p0 p zb, SetPart None DomN = Ok p0 /\
    done (iterate (fun s (ab : nat * nat) => merge_pair s (Z.of_nat (fst ab)) (Z.of_nat (snd ab))) pairs p0) = Ok p /\
    sp_wf p /\ sp_domain p = DomN /\
    (forall x y, same (sp_blocks p) x y <-> x = y \/ exists a b, x = Z.of_nat a /\ y = Z.of_nat b /\ closure pairs a b) /\
    blocks_with_singletons p (BwsLength (Z.of_nat n)) = Ok zb /\
    classes n (closure pairs) (map (map Z.to_nat) zb) /\
    StronglySorted (fun b c => (hd 0 b < hd 0 c)%nat) (map (map Z.to_nat) zb).
Proof.
  intro Hp. destruct (sp_init_spec no_caches None DomN None) as (p0 & E & W & D & L & _ & T); [constructor | split; constructor|].
  change (SetPart None DomN = Ok p0) in E. exists p0.
  assert (HR : forall x y, same (sp_blocks p0) x y <-> generated (fun _ _ => False) x y).
  { intros x y. split.
    - intros [->|H]; [apply rst_refl|]. destruct (Z.eq_dec x y) as [->|Hxy]; [apply rst_refl|]. apply (T x y Hxy) in H as [b [[] _]].
    - intro H. induction H as [x y []|x|x y H IH|x y z H1 IH1 H2 IH2]; [left; reflexivity | apply same_sym; exact IH | eapply same_trans; [apply wf_nodup, W | exact IH1 | exact IH2]]. }
  destruct (merge_all_spec (map zpair pairs) p0 _ W HR) as (p & e & dn & Em & Wp & Dp & Lp & Sp & _ & Hdn & _ & He).
  assert (L0 : sp_labels p0 = []). { unfold SetPart in E. revert E. vm_compute. intro E; injection E as <-; reflexivity. }
  assert (D0 : sp_domain p0 = DomN). { unfold SetPart in E. revert E. vm_compute. intro E; injection E as <-; reflexivity. }
  specialize (Hdn L0).
  assert (Hall : dn = map zpair pairs).
  { rewrite Hdn. clear - Hp D0. assert (In_dom : forall k, element_in_domain p0 (Z.of_nat k) = true) by (intro k; unfold element_in_domain; rewrite D0; apply Z.leb_le; lia).
    apply accepted_prefix_all. intros x y H. apply in_map_iff in H as [[a b] [X _]]. injection X as <- <-. right. split; apply In_dom. }
  assert (He0 : e = None) by (destruct e as [x|]; [destruct (He x eq_refl Hall) | reflexivity]). subst e dn.
  assert (Same : forall x y, same (sp_blocks p) x y <-> x = y \/ exists a b, x = Z.of_nat a /\ y = Z.of_nat b /\ closure pairs a b).
  { intros x y. rewrite Sp. rewrite Hall. apply closure_Z. }
  assert (Dom : sp_domain p = DomN) by congruence.
  assert (Rng : forall b x, In b (sp_blocks p) -> In x b -> 0 <= x < Z.of_nat n).
  { intros b x Hb Hx. destruct (wf_canonical p Wp) as [C1 _]. destruct (C1 b Hb) as [Hlen Hs]. destruct (other_element b x Hlen) as [y [Hy Hne]].
    { clear - Hs. induction Hs as [|u l Hs IH Hf]; constructor; [|exact IH]. intro Hu. rewrite Forall_forall in Hf. specialize (Hf u Hu). lia. }
    apply (in_block_same p b x y Wp Hb Hx) in Hy. apply Same in Hy as [Hy|[a [c [-> [-> Hc]]]]]; [congruence|].
    apply (closure_range pairs n) in Hc; [lia | exact Hp]. }
  assert (Bw : exists zb, blocks_with_singletons p (BwsLength (Z.of_nat n)) = Ok zb).
  { unfold blocks_with_singletons. rewrite Dom. assert (Wl := wf_length p Wp). unfold length_ok in Wl. rewrite Dom in Wl. destruct (sp_length p) as [own|]; [|destruct Wl].
    assert (Ho : (own <=? Z.of_nat n) = true).
    { apply Z.leb_le. destruct (sp_blocks p) as [|b0 l] eqn:Eb; [lia|]. destruct Wl as [Wl _]. apply in_concat in Wl as [b [Hb Hx]]. destruct (Rng b (own - 1) Hb Hx). lia. }
    cbn [bind true_except]. rewrite Ho. cbn [true_except bind]. eexists. reflexivity. }
  destruct Bw as [zb Ez]. exists p, zb. split; [exact E|]. split; [rewrite iterate_pairs, Em; reflexivity|]. split; [exact Wp|]. split; [exact Dom|]. split; [exact Same|]. split; [exact Ez|].
  assert (Spec := blocks_with_singletons_spec p _ zb Wp Ez). cbn [bws_elements] in Spec.
  destruct (bws_any_NoDup p _ zb Wp Ez) as [Nd Srt].
  assert (Zr : forall b x, In b zb -> In x b -> 0 <= x < Z.of_nat n).
  { intros b x Hb Hx. apply Spec in Hb as [Hb|[u [-> [Hu _]]]]; [apply (Rng b x Hb Hx)|]. destruct Hx as [<-|[]]. exact Hu. }
  assert (Zne : forall b, In b zb -> b <> []).
  { intros b Hb. apply Spec in Hb as [Hb|[u [-> _]]]; [|discriminate]. destruct (wf_canonical p Wp) as [C1 _]. destruct (C1 b Hb) as [Hl _]. intros ->. cbn in Hl. lia. }
  assert (Zs : forall b, In b zb -> StronglySorted Z.lt b).
  { intros b Hb. apply Spec in Hb as [Hb|[u [-> _]]]; [apply (wf_canonical p Wp); exact Hb | repeat constructor]. }
  assert (Zm : forall b x y, In b zb -> In x b -> (In y b <-> same (sp_blocks p) x y)).
  { intros b x y Hb Hx. apply Spec in Hb as [Hb|[u [-> [_ Hu]]]]; [apply (in_block_same p b x y Wp Hb Hx)|]. destruct Hx as [<-|[]]. split; [intros [->|[]]; left; reflexivity|].
    intros [->|[c [Hc [Hx _]]]]; [left; reflexivity|]. exfalso. apply Hu. apply in_concat. exists c. auto. }
  assert (Hmap : forall b, In b zb -> forall k, In k (map Z.to_nat b) <-> In (Z.of_nat k) b).
  { intros b Hb k. rewrite in_map_iff. split.
    - intros [x [<- Hx]]. rewrite Z2Nat.id by (apply (Zr b x Hb Hx)). exact Hx.
    - intro H. exists (Z.of_nat k). split; [apply Nat2Z.id | exact H]. }
  assert (Hd := sorted_blocks_hd zb Nd Zne Srt).
  assert (Hhd : StronglySorted (fun b c => (hd 0 b < hd 0 c)%nat) (map (map Z.to_nat) zb)).
  { clear - Hd Zr Zne. induction Hd as [|b l Hs IH Hf]; [constructor|]. cbn [map]. constructor.
    - apply IH; intros; [eapply Zr; [right|]; eassumption | apply Zne; right; assumption].
    - rewrite Forall_forall in *. intros c Hc. apply in_map_iff in Hc as [c' [<- Hc]]. specialize (Hf c' Hc).
      assert (H1 := Zne b (or_introl eq_refl)). assert (H2 := Zne c' (or_intror Hc)). destruct b as [|u b]; [congruence|]. destruct c' as [|v c']; [congruence|]. cbn [hd map] in *.
      assert (R1 := Zr (u :: b) u (or_introl eq_refl) (or_introl eq_refl)). lia. }
  split; [|exact Hhd]. split; [|split].
  - intros b Hb. apply in_map_iff in Hb as [z [<- Hz]]. split; [|split].
    + intro X. apply (Zne z Hz). destruct z; [reflexivity | discriminate X].
    + assert (S := Zs z Hz). assert (Rz := fun x => Zr z x Hz). clear - S Rz. induction S as [|u l S IH Hf]; [constructor|]. cbn [map]. constructor.
      * apply IH. intros; apply Rz; right; assumption.
      * rewrite Forall_forall in *. intros v Hv. apply in_map_iff in Hv as [w [<- Hw]]. specialize (Hf w Hw). assert (H := Rz u (or_introl eq_refl)). lia.
    + intros x Hx. apply (Hmap z Hz) in Hx. split; [apply (Zr z _ Hz) in Hx; lia|]. intro y. rewrite (Hmap z Hz), (Zm z _ _ Hz Hx), Same. split.
      * intros [X|[a [b [X [Y H]]]]].
        -- apply Nat2Z.inj in X. subst y. split; [apply (Zr z _ Hz) in Hx; lia | apply rst_refl].
        -- apply Nat2Z.inj in X, Y. subst a b. split; [|exact H]. apply (closure_range pairs n) in H; [|exact Hp]. apply (Zr z _ Hz) in Hx. lia.
      * intros [_ H]. right. exists x, y. auto.
  - intros x Hx. destruct (in_dec Z.eq_dec (Z.of_nat x) (concat (sp_blocks p))) as [Hi|Hi].
    + apply in_concat in Hi as [b [Hb Hi]]. exists (map Z.to_nat b). assert (Hz : In b zb) by (apply Spec; left; exact Hb). split; [apply in_map; exact Hz | apply (Hmap b Hz); exact Hi].
    + exists [x]. split; [|left; reflexivity]. apply in_map_iff. exists [Z.of_nat x]. split; [cbn; rewrite Nat2Z.id; reflexivity|]. apply Spec. right. exists (Z.of_nat x). split; [reflexivity|]. split; [lia | exact Hi].
  - clear - Hhd. induction Hhd as [|b l S IH Hf]; constructor; [|exact IH]. intro Hb. rewrite Forall_forall in Hf. specialize (Hf b Hb). lia.
Qed.
