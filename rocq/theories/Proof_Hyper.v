(** Proof_Hyper: the set partitions of hypersplits and the levels of independent atoms. *)

From Coq Require Import List Arith ZArith Bool Lia Permutation Sorted.
From Verif Require Import Model_Base Lib Model_Binary Model_Splits Model_Perm Model_SetPart Model_Boolf Model_Blight Model_Hyper.
From Verif Require Import Spec_SetPart Proof_SetPart Proof_SetPartMerge Proof_SetPartMore Proof_SetPartLattice Proof_SetPartImproved.
From Verif Require Import Spec_Bits Spec_Boolf Spec_Splits Spec_Blight Spec_Hyper Proof_Binary Proof_Boolf Proof_Splits Proof_Blight Proof_Gapless.
Import ListNotations.
Open Scope nat_scope.

(** * Set partitions of the true places *)

Definition part_ok (f : boolf) (keys : list nat) (s : setpart) : Prop :=
  sp_wf s /\ sp_domain s = DomN /\ forall x y, same (sp_blocks s) x y <-> x = y \/ alike f keys x y.

Lemma fullspots_In f n : In n (fullspots f) <-> spot f n.
Proof. unfold fullspots, spot. apply binv_exposet_In. Qed.

Lemma zs_In l x : In x (zs l) <-> exists n, x = Z.of_nat n /\ In n l.
Proof. unfold zs. rewrite in_map_iff. split; intros [n [H1 H2]]; exists n; auto. Qed.

Lemma zs_NoDup l : NoDup l -> NoDup (zs l).
Proof.
  induction 1 as [|x l H _ IH]; cbn; constructor; [|exact IH]. rewrite zs_In. intros [n [E Hn]].
  apply Nat2Z.inj in E. subst. contradiction.
Qed.

Lemma alike_sym f keys x y : alike f keys x y -> alike f keys y x.
Proof. intros (s & t & -> & -> & Hs & Ht & H). exists t, s. repeat split; auto. intros k Hk. symmetry. auto. Qed.
Lemma alike_trans f keys x y z : alike f keys x y -> alike f keys y z -> alike f keys x z.
Proof.
  intros (s & t & -> & -> & Hs & Ht & H) (t' & u & E & -> & _ & Hu & H'). apply Nat2Z.inj in E. subst t'.
  exists s, u. repeat split; auto. intros k Hk. rewrite H by assumption. auto.
Qed.
Lemma alike_spot f keys x y : alike f keys x y -> alike f keys x x.
Proof. intros (s & t & -> & -> & Hs & Ht & H). exists s, s. repeat split; auto. Qed.

Lemma part_of_split_ok f sp k : fitting f -> splits f = Ok sp -> k < valency f ->
  exists s, part_of_split (nth k sp ([], [])) = Ok s /\ part_ok f [k] s.
Proof.
  intros F Es Hk. destruct (splits_ok f F) as (sp' & Es' & _ & H). rewrite Es in Es'. injection Es' as <-.
  destruct (H k Hk) as (r & v & Erv & Ar & Av & Hr & Hv). rewrite Erv. unfold part_of_split, SetPart. cbn [fst snd].
  assert (Hn : NoDup (concat [zs r; zs v])).
  { cbn [concat]. rewrite app_nil_r. apply NoDup_app_intro'; [apply zs_NoDup, sorted_lt_NoDup, Ar | apply zs_NoDup, sorted_lt_NoDup, Av|].
    intros x Hx Hx'. apply zs_In in Hx as (n & -> & Hn). apply zs_In in Hx' as (m & E & Hm). apply Nat2Z.inj in E. subst m.
    apply Hr in Hn as [_ Hn]. apply Hv in Hm as [_ Hm]. congruence. }
  destruct (sp_init_spec no_caches (Some [zs r; zs v]) DomN None (NoDup_no_overlap _ Hn)) as (s & E & W & D & _ & _ & T); [split; constructor|].
  exists s. split; [exact E|]. split; [exact W|]. split; [exact D|]. intros x y. unfold same.
  destruct (Z.eq_dec x y) as [->|Hxy]; [split; left; reflexivity|]. rewrite (T x y Hxy). split.
  - intros [X|(b & Hb & Hx & Hy)]; [left; exact X|]. right. cbn in Hb.
    assert (G : exists q, forall z, In z b -> exists n, z = Z.of_nat n /\ spot f n /\ Nat.testbit n k = q).
    { destruct Hb as [<-|[<-|[]]]; [exists true | exists false]; intros z Hz; apply zs_In in Hz as (n & -> & Hin); exists n; (split; [reflexivity|]); [apply Hr in Hin | apply Hv in Hin]; exact Hin. }
    destruct G as [q G]. destruct (G x Hx) as (n & -> & S1 & B1). destruct (G y Hy) as (m & -> & S2 & B2).
    exists n, m. repeat split; auto. intros j [<-|[]]. congruence.
  - intros [X|(n & m & -> & -> & S1 & S2 & B)]; [left; exact X|]. right. specialize (B k (or_introl eq_refl)).
    destruct (Nat.testbit n k) eqn:En.
    + exists (zs r). split; [left; reflexivity|]. split; apply zs_In; [exists n | exists m]; (split; [reflexivity | apply Hr; split; [assumption | congruence]]).
    + exists (zs v). split; [right; left; reflexivity|]. split; apply zs_In; [exists n | exists m]; (split; [reflexivity | apply Hv; split; [assumption | congruence]]).
Qed.

Lemma meet_part_ok f keys1 keys2 keys s1 s2 : part_ok f keys1 s1 -> part_ok f keys2 s2 ->
  (forall k, In k keys <-> In k keys1 \/ In k keys2) -> exists m, meet s1 s2 = Ok m /\ part_ok f keys m.
Proof.
  intros (W1 & D1 & T1) (W2 & D2 & T2) Hk. destruct (meet_spec s1 s2 W1 W2) as (m & E & W & D & T); [rewrite D1, D2; reflexivity|].
  exists m. split; [exact E|]. split; [exact W|]. split; [congruence|]. intros x y. rewrite T, T1, T2. split.
  - intros [[E1|A1] [E2|A2]]; try (left; assumption). right. destruct A1 as (s & t & -> & -> & S1 & S2 & B1). destruct A2 as (s' & t' & Ex & Ey & _ & _ & B2).
    apply Nat2Z.inj in Ex, Ey. subst s' t'. exists s, t. repeat split; auto. intros k H. apply Hk in H as [H|H]; auto.
  - intros [->|(s & t & -> & -> & S1 & S2 & B)]; [auto|]. split; right; exists s, t; repeat split; auto; intros k H; apply B, Hk; auto.
Qed.

(** the blocks *)
Lemma disjoint_sorted l : NoDup (concat l) -> (forall b, In b l -> b <> []) -> StronglySorted (fun a b => zlist_leb a b = true) l ->
  StronglySorted (fun b c => (hd 0 b < hd 0 c)%Z) l.
Proof.
  intros Hn He H. induction H as [|b l H IH Hb]; constructor.
  - apply IH; [cbn in Hn; apply NoDup_app_remove_l in Hn; exact Hn | intros c Hc; apply He; right; exact Hc].
  - apply Forall_forall. intros c Hc. rewrite Forall_forall in Hb. specialize (Hb c Hc).
    destruct b as [|x b]; [destruct (He []); [left; reflexivity | reflexivity]|]. destruct c as [|y c]; [destruct (He []); [right; exact Hc | reflexivity]|].
    cbn [zlist_leb hd] in *. rewrite orb_true_iff, andb_true_iff, Z.ltb_lt, Z.eqb_eq in Hb. destruct Hb as [Hb|[-> _]]; [exact Hb|].
    exfalso. cbn in Hn. inversion Hn as [|? ? X _]; subst. apply X. apply in_or_app. right. apply in_concat. exists (y :: c). split; [exact Hc | left; reflexivity].
Qed.

Lemma spot_blocks_ok f keys s : part_ok f keys s ->
  exists r, blocks_with_singletons s (BwsElements (zs (fullspots f))) = Ok r /\ spot_blocks f keys r /\ NoDup r.
Proof.
  intros (W & D & T). assert (Hsub : zsubset (sp_non_singletons s) (zs (fullspots f)) = true).
  { unfold zsubset. apply forallb_forall. intros x Hx. apply (non_singletons_In s W) in Hx. apply in_concat in Hx as (b & Hb & Hx).
    destruct (wf_canonical s W) as [Cb _]. destruct (Cb b Hb) as [Lb Sb].
    assert (Y : exists y, In y b /\ y <> x).
    { destruct b as [|u [|v b]]; cbn in Lb; try lia. destruct (Z.eq_dec x u) as [->|Hu]; [|exists u; split; [left; reflexivity | auto]].
      exists v. split; [right; left; reflexivity|]. inversion Sb as [|? ? _ X]; subst. inversion X. lia. }
    destruct Y as (y & Hy & Hyx). assert (X : same (sp_blocks s) x y) by (right; exists b; auto). apply T in X as [X|X]; [congruence|].
    destruct X as (n & m & -> & _ & Sn & _). apply zmemb_In, zs_In. exists n. split; [reflexivity | apply fullspots_In; exact Sn]. }
  destruct (blocks_with_singletons s (BwsElements (zs (fullspots f)))) as [r|e] eqn:E; [|exfalso; unfold blocks_with_singletons in E; rewrite Hsub in E; discriminate].
  exists r. split; [reflexivity|]. assert (Hr := blocks_with_singletons_spec s _ r W E). assert (Hn := bws_NoDup s _ r W E).
  assert (Ne : forall b, In b r -> b <> [] /\ StronglySorted Z.lt b /\ forall x, In x b -> forall y, In y b <-> alike f keys x y).
  { intros b Hb. apply Hr in Hb as [Hb|(x & -> & He & Hx)].
    - destruct (wf_canonical s W) as [Cb [Cd _]]. destruct (Cb b Hb) as [Lb Sb]. split; [intros ->; cbn in Lb; lia|]. split; [exact Sb|].
      intros x Hx y.
      assert (Sx : alike f keys x x).
      { assert (Y : In x (sp_non_singletons s)) by (apply (non_singletons_In s W), in_concat; exists b; auto).
        unfold zsubset in Hsub. rewrite forallb_forall in Hsub. specialize (Hsub x Y). apply zmemb_In, zs_In in Hsub as (n & -> & Hsn).
        apply fullspots_In in Hsn. exists n, n. auto. }
      split.
      + intro Hy. assert (X : same (sp_blocks s) x y) by (right; exists b; auto). apply T in X as [<-|X]; [exact Sx | exact X].
      + intro A. assert (X : same (sp_blocks s) x y) by (apply T; right; exact A). destruct X as [<-|(c & Hc & Hxc & Hyc)]; [exact Hx|].
        rewrite (Cd b c x Hb Hc Hx Hxc). exact Hyc.
    - split; [discriminate|]. split; [repeat constructor|]. intros z [<-|[]] y. cbn in He. apply zs_In in He as (n & -> & Hsn). apply fullspots_In in Hsn. split.
      + intros [<-|[]]. exists n, n. auto.
      + intro A. assert (X : same (sp_blocks s) (Z.of_nat n) y) by (apply T; right; exact A). destruct X as [X|(c & Hc & Hxc & _)]; [left; exact X|].
        exfalso. apply Hx, in_concat. exists c. auto. }
  split.
  - split; [exact Ne|]. split.
    + intros n Hsn. destruct (in_dec Z.eq_dec (Z.of_nat n) (concat (sp_blocks s))) as [Hi|Hi].
      * apply in_concat in Hi as (b & Hb & Hx). exists b. split; [apply Hr; left; exact Hb | exact Hx].
      * exists [Z.of_nat n]. split; [|left; reflexivity]. apply Hr. right. exists (Z.of_nat n). split; [reflexivity|]. split; [|exact Hi].
        cbn. apply zs_In. exists n. split; [reflexivity | apply fullspots_In; exact Hsn].
    + apply disjoint_sorted; [exact Hn | intros b Hb; apply (Ne b Hb)|]. unfold blocks_with_singletons in E. apply bind_ok in E as (els & _ & E). injection E as <-.
      apply isort_sorted; [apply zlist_leb_total | apply zlist_leb_trans].
  - clear - Hn Ne. assert (Ne' : forall b, In b r -> b <> []) by (intros b Hb; apply (Ne b Hb)). clear Ne. induction r as [|b r IH]; constructor.
    + intro Hb. destruct b as [|x b]; [destruct (Ne' []); [left; reflexivity | reflexivity]|]. cbn in Hn. inversion Hn as [|? ? X _]; subst. apply X, in_or_app. right. apply in_concat. exists (x :: b). split; [exact Hb | left; reflexivity].
    + apply IH; [cbn in Hn; apply NoDup_app_remove_l in Hn; exact Hn | intros c Hc; apply Ne'; right; exact Hc].
Qed.

(** * Counting *)

Lemma NoDup_map_inj {A B} (g : A -> B) l : (forall a b, In a l -> In b l -> g a = g b -> a = b) -> NoDup l -> NoDup (map g l).
Proof.
  intros Hi Hn. induction Hn as [|x l Hx _ IH]; cbn; constructor.
  - intro H. apply in_map_iff in H as (y & E & Hy). apply Hi in E; [subst; contradiction | right; exact Hy | left; reflexivity].
  - apply IH. intros a b Ha Hb. apply Hi; right; assumption.
Qed.

Lemma proj_lt keys n : proj keys n < 2 ^ length keys.
Proof. unfold proj. rewrite <- (map_length (Nat.testbit n) keys). apply b2n_lt. Qed.

Lemma proj_eq keys s t : proj keys s = proj keys t <-> forall k, In k keys -> Nat.testbit s k = Nat.testbit t k.
Proof.
  unfold proj. split.
  - intros E k Hk. apply b2n_inj in E; [|rewrite !map_length; reflexivity]. exact (proj1 map_ext_in_iff E k Hk).
  - intro H. f_equal. apply map_ext_in. exact H.
Qed.

Lemma shattered_spots f n keys : fitting f -> key_set f n keys ->
  (shattered f keys <-> forall p, p < 2 ^ n -> exists s, spot f s /\ proj keys s = p).
Proof.
  intros F (A & L & B).
  assert (X : forall b : nat -> bool, (exists e, sem f e = true /\ forall k, In k keys -> e (nth_atom f k) = b k) <-> exists s, spot f s /\ forall k, In k keys -> Nat.testbit s k = b k).
  { intro b. apply (some_place f (fun u => forall k, In k keys -> u k = b k) F). intros u v E H k Hk. rewrite <- E by (apply B; exact Hk). auto. }
  unfold shattered. split.
  - intros H p Hp.
    assert (Y : exists b : nat -> bool, b2n (map b keys) = p).
    { exists (fun k => match index_of k keys with Ok i => Nat.testbit p i | Err _ => false end).
      transitivity (b2n (n2b n p)); [f_equal | apply b2n_n2b; exact Hp]. rewrite <- L. clear -A. apply nth_ext with (d := false) (d' := false); [rewrite map_length, n2b_length; reflexivity|].
      intros i Hi. rewrite map_length in Hi. set (h := fun k => match index_of k keys with Ok i => Nat.testbit p i | Err _ => false end). rewrite (nth_indep (map h keys) false (h 0)) by (rewrite map_length; exact Hi). rewrite map_nth. unfold h. clear h.
      assert (I : forall (l : list nat) i, NoDup l -> i < length l -> index_of (nth i l 0) l = Ok i).
      { clear. induction l as [|x l IH]; intros i Hn Hi; cbn in Hi; [lia|]. inversion Hn as [|? ? Hx Hn']; subst. destruct i as [|i]; cbn [nth index_of].
        - rewrite Nat.eqb_refl. reflexivity.
        - assert (E : Nat.eqb (nth i l 0) x = false) by (apply Nat.eqb_neq; intros <-; apply Hx, nth_In; lia). rewrite E, IH by (assumption || lia). reflexivity. }
      rewrite I by (try apply sorted_lt_NoDup; assumption). symmetry. revert p i Hi. clear. induction (length keys) as [|m IH]; intros p i Hi; [lia|]. cbn [n2b]. destruct i as [|i]; cbn [nth].
      + symmetry. apply Nat.bit0_odd.
      + rewrite IH by lia. rewrite Nat.div2_spec, Nat.shiftr_spec by lia. f_equal. lia. }
    destruct Y as [b <-]. destruct (proj1 (X b) (H b)) as (s & Hs & E). exists s. split; [exact Hs|]. unfold proj. f_equal. apply map_ext_in. exact E.
  - intros H b. apply X. destruct (H (b2n (map b keys))) as (s & Hs & E).
    { rewrite <- L, <- (map_length b keys). apply b2n_lt. }
    exists s. split; [exact Hs|]. unfold proj in E. apply b2n_inj in E; [|rewrite !map_length; reflexivity]. exact (proj1 map_ext_in_iff E).
Qed.

Lemma count_blocks f n keys r : fitting f -> key_set f n keys -> spot_blocks f keys r -> NoDup r ->
  (length r = 2 ^ n <-> shattered f keys).
Proof.
  intros F K (Hb & Hc & Hs) Hn. rewrite (shattered_spots f n keys F K). destruct K as (A & L & B).
  set (g := fun b : list Z => proj keys (Z.to_nat (hd 0%Z b))).
  assert (Hg : forall b x, In b r -> In x b -> exists s, x = Z.of_nat s /\ spot f s /\ g b = proj keys s).
  { intros b x Hbr Hx. destruct (Hb b Hbr) as (Ne & _ & Hal). destruct b as [|y b]; [destruct Ne; reflexivity|].
    assert (X : alike f keys y x) by (apply (Hal y (or_introl eq_refl) x); exact Hx). destruct X as (s & t & -> & -> & S1 & S2 & E). exists t. split; [reflexivity|]. split; [exact S2|].
    unfold g. cbn [hd]. rewrite Nat2Z.id. apply proj_eq. exact E. }
  assert (Ng : NoDup (map g r)).
  { apply NoDup_map_inj; [|exact Hn]. intros b c Hbr Hcr E. destruct (Hb b Hbr) as (Nb & Sb & Ab). destruct (Hb c Hcr) as (Nc & Sc & Ac).
    destruct b as [|x b]; [destruct Nb; reflexivity|]. destruct c as [|y c]; [destruct Nc; reflexivity|].
    destruct (Hg _ x Hbr (or_introl eq_refl)) as (s & -> & S1 & E1). destruct (Hg _ y Hcr (or_introl eq_refl)) as (t & -> & S2 & E2).
    assert (X : alike f keys (Z.of_nat s) (Z.of_nat t)) by (exists s, t; repeat split; auto; apply proj_eq; congruence).
    apply zsorted_ext; [exact Sb | exact Sc|]. intro z. rewrite (Ab _ (or_introl eq_refl) z), (Ac _ (or_introl eq_refl) z). split; intro Y; eapply alike_trans; eauto using alike_sym. }
  assert (Ig : forall p, In p (map g r) <-> exists s, spot f s /\ proj keys s = p).
  { intro p. rewrite in_map_iff. split.
    - intros (b & <- & Hbr). destruct (Hb b Hbr) as (Nb & _). destruct b as [|x b]; [destruct Nb; reflexivity|].
      destruct (Hg _ x Hbr (or_introl eq_refl)) as (s & _ & S1 & E1). exists s. auto.
    - intros (s & S1 & <-). destruct (Hc s S1) as (b & Hbr & Hx). exists b. split; [|exact Hbr]. destruct (Hg b _ Hbr Hx) as (t & E & _ & Et). apply Nat2Z.inj in E. subst t. exact Et. }
  assert (Hlt : incl (map g r) (seq 0 (2 ^ n))).
  { intros p Hp. apply Ig in Hp as (s & _ & <-). apply in_seq. rewrite <- L. split; [lia | apply proj_lt]. }
  rewrite <- (map_length g r). split.
  - intros E p Hp. apply Ig. assert (X : incl (seq 0 (2 ^ n)) (map g r)) by (apply NoDup_length_incl; [exact Ng | rewrite seq_length; lia | exact Hlt]).
    apply X, in_seq. lia.
  - intro H. apply Nat.le_antisymm.
    + rewrite <- (seq_length (2 ^ n) 0). apply NoDup_incl_length; assumption.
    + rewrite <- (seq_length (2 ^ n) 0) at 1. apply NoDup_incl_length; [apply seq_NoDup|]. intros p Hp. apply in_seq in Hp. apply Ig, H. lia.
Qed.
