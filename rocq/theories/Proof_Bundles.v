(** Proof_Bundles: bundles, overlap counts and grid partitions. *)

From Coq Require Import List Arith ZArith Bool Lia Permutation Sorted Relations.
From Verif Require Import Model_Base Lib Model_Binary Model_Splits Model_Perm Model_SetPart Model_SetPartComp Model_Boolf Model_SetPartBoolf Model_Blight.
From Verif Require Import Spec_SetPart Proof_SetPart Proof_SetPartMore Spec_SetPartComp Proof_SetPartComp Proof_SetPartCompMore Props_SetPartComp.
From Verif Require Import Spec_Bits Spec_Boolf Spec_Splits Spec_Blight Proof_Binary Proof_Linear Proof_Boolf Proof_BoolfTable Proof_BoolfApply Proof_Noble Proof_Perm Proof_BoolfMake Proof_Splits Props_Boolf Proof_SetPartBoolf Props_SetPartBoolf Props_Splits Proof_Blight Proof_BlightBoolf Proof_Blocks Proof_BlightBlocks Proof_Bloatless Proof_Blightless Proof_Gapless.
Import ListNotations.
Open Scope nat_scope.

Lemma bloatless_check order f : (forall l, Permutation (order l) l) -> reduced f -> exists g, bloatless_boolf order f = Ok g /\ (boolf_eqb f g = true <-> no_links f).
Proof.
  intros Ho R. destruct (blocks_and_sides_spec order f Ho R) as (B & P & E & K). destruct (bloatless_boolf_spec order f B P Ho R E K) as [g [Eg [Rg Sg]]].
  exists g. split; [exact Eg | apply (bloatless_same f B P g R K Rg Sg)].
Qed.

Lemma counts_spec f : reduced f -> exists sp, splits f = Ok sp /\ sided f sp /\
  splits_overlap_counts f = Ok (map (fun ab => (ab, nreg sp (fst ab) (snd ab))) (combinations2 (range (valency f)))).
Proof. intro R. destruct (counts_ok f (proj1 R)) as [sp [E [L [H Ec]]]]. exists sp. split; [exact E|]. split; [split; assumption | exact Ec]. Qed.

Lemma closure_chained f pairs x y : (forall a b, In (a, b) pairs <-> a < b < valency f /\ crossing f a b) -> (closure pairs x y <-> chained f x y).
Proof.
  intro Hp. unfold closure, chained. split; intro H; induction H as [a b H|a|a b H IH|a b c H1 IH1 H2 IH2]; try apply rst_refl; try (apply rst_sym; assumption); try (eapply rst_trans; eassumption).
  - apply rst_step. apply Hp in H. apply H.
  - destruct (Nat.lt_total a b) as [L|[->|L]].
    + apply rst_step, Hp. split; [split; [exact L | apply H] | exact H].
    + apply rst_refl.
    + apply rst_sym, rst_step, Hp. destruct H as [H1 [H2 H3]]. split; [lia|]. split; [exact H2|]. split; [exact H1|]. intros p q. apply occurs_swap, H3.
Qed.

Definition first_smaller (b c : list nat) : Prop := hd 0 b < hd 0 c.

Lemma bundles_spec order f : (forall l, Permutation (order l) l) -> reduced f ->
  (no_links f -> exists B, bundles order f = Ok B /\ classes (valency f) (chained f) B /\ StronglySorted first_smaller B) /\
  (~ no_links f -> bundles order f = Err BoolfNotBlightlessError).
Proof.
  intros Ho R. unfold bundles. destruct (bloatless_check order f Ho R) as [g [Eg Hg]]. rewrite Eg. cbn [bind]. split.
  - intro N. rewrite (proj2 Hg N). cbn [true_except bind]. destruct (counts_spec f R) as [sp [_ [Sd Ec]]].
    set (pairs := map fst (filter (fun kv : (nat * nat) * nat => Nat.eqb (snd kv) 4) (map (fun ab => (ab, nreg sp (fst ab) (snd ab))) (combinations2 (range (valency f)))))).
    assert (Hp : forall a b, In (a, b) pairs <-> a < b < valency f /\ crossing f a b).
    { intros a b. unfold pairs. rewrite in_map_iff. split.
      - intros [[ab c] [X Hin]]. cbn in X. subst ab. apply filter_In in Hin as [Hin Hc]. cbn in Hc. apply Nat.eqb_eq in Hc. subst c. apply in_map_iff in Hin as [ab [X Hin]]. injection X as -> X.
        apply pairs_range_In in Hin. split; [exact Hin|]. apply (crossing_four f sp a b R Sd Hin). exact X.
      - intros [Hab C]. exists ((a, b), 4). split; [reflexivity|]. apply filter_In. split; [|reflexivity]. apply in_map_iff. exists (a, b). split; [|apply pairs_range_In; exact Hab].
        cbn [fst snd]. f_equal. apply (crossing_four f sp a b R Sd Hab). exact C. }
    destruct (blocks_of_pairs (valency f) pairs) as (p0 & p & zb & E0 & E1 & _ & _ & _ & E2 & Cl & Srt); [intros a b H; apply Hp; exact H|].
    rewrite E0, Ec. cbn [bind]. fold pairs. rewrite E1. cbn [bind]. rewrite E2. cbn [bind]. eexists. split; [reflexivity|]. split; [|exact Srt].
    apply (classes_ext _ (closure pairs)); [|exact Cl]. intros x y _ _. apply closure_chained. exact Hp.
  - intro N. destruct (boolf_eqb f g) eqn:X; [destruct N; apply Hg; reflexivity | reflexivity].
Qed.

Lemma is_bundle_classes n (E : nat -> nat -> Prop) B : (forall x y, E x y -> E y x) -> (forall x y z, E x y -> E y z -> E x z) -> classes n E B ->
  (length B = 1 <-> 0 < n /\ forall x y, x < n -> y < n -> E x y).
Proof.
  intros Es Et C. assert (D := fun b c x => classes_disjoint n E B b c x Et C). destruct C as (C1 & C2 & C3). split.
  - intro L. destruct B as [|b [|c B]]; try discriminate L. destruct (C1 b (or_introl eq_refl)) as (Hne & _ & Hb). destruct b as [|x0 b]; [congruence|].
    split; [destruct (Hb x0 (or_introl eq_refl)); lia|]. intros x y Hx Hy. destruct (C2 x Hx) as [bx [[<-|[]] Hbx]], (C2 y Hy) as [by' [[<-|[]] Hby]]. apply (Hb x Hbx). exact Hby.
  - intros [Hn H]. destruct (C2 0 Hn) as [b [Hb H0]]. destruct B as [|b0 [|b1 B]]; [destruct Hb | reflexivity|]. exfalso.
    assert (All : forall c, In c (b0 :: b1 :: B) -> c = b).
    { intros c Hc. destruct (C1 c Hc) as (Hne & _ & Hcx). destruct c as [|x c]; [congruence|]. destruct (Hcx x (or_introl eq_refl)) as [Hx _]. apply (D _ _ x Hc Hb); [left; reflexivity|].
      destruct (C1 b Hb) as (_ & _ & Hbx). apply (proj2 (Hbx 0 H0) x). split; [exact Hx | apply H; assumption]. }
    inversion C3 as [|? ? Ni _]; subst. apply Ni. rewrite (All b0 (or_introl eq_refl)), <- (All b1 (or_intror (or_introl eq_refl))). left; reflexivity.
Qed.

(** two chained atoms are neither linked nor fixed *)
Lemma chained_free f x y : chained f x y -> x = y \/ ((forall q, ~ fixed f x q) /\ (forall q, ~ fixed f y q)).
Proof.
  intro H. induction H as [a b H|a|a b H IH|a b c H1 IH1 H2 IH2]; [|left; reflexivity | intuition | intuition (subst; auto)].
  right. destruct H as [_ [_ H]]. split; intros q Hq; [destruct (H (negb q) true) as [e [He [H1 H2]]] | destruct (H true (negb q)) as [e [He [H1 H2]]]]; assert (X := Hq e He); destruct q; cbn in *; congruence.
Qed.

Definition inside (bundle : list nat) (kv : (nat * nat) * nat) : bool := memb (fst (fst kv)) bundle && memb (snd (fst kv)) bundle.
Definition chosen (bundle : list nat) (c : nat) (l : list ((nat * nat) * nat)) : list (nat * nat) := map fst (filter (fun kv => inside bundle kv && Nat.eqb (snd kv) c) l).

Lemma chosen_app bundle c l m : chosen bundle c (l ++ m) = chosen bundle c l ++ chosen bundle c m.
Proof. unfold chosen. rewrite filter_app, map_app. reflexivity. Qed.

Lemma chosen_one bundle c kv : chosen bundle c [kv] = if inside bundle kv && Nat.eqb (snd kv) c then [fst kv] else [].
Proof. unfold chosen. cbn [filter]. destruct (_ && _); reflexivity. Qed.

Definition entry_of (l : list ((nat * nat) * nat)) (bundle : list nat) : list nat * (list (nat * nat) * list (nat * nat)) := (bundle, (chosen bundle 3 l, chosen bundle 4 l)).

Lemma overlap_loop B l : (forall kv b, In kv l -> In b B -> inside b kv = true -> snd kv = 3 \/ snd kv = 4) ->
  forall before,
  foldM (fun result (kv : (nat * nat) * nat) =>
           mapM (fun bd : list nat * (list (nat * nat) * list (nat * nat)) =>
                   let (bundle, d) := bd in
                   if memb (fst (fst kv)) bundle && memb (snd (fst kv)) bundle then
                     match snd kv with
                     | 3 => Ok (bundle, (fst d ++ [fst kv], snd d))
                     | 4 => Ok (bundle, (fst d, snd d ++ [fst kv]))
                     | _ => Err KeyErr
                     end
                   else Ok bd)
                result) l (map (entry_of before) B) = Ok (map (entry_of (before ++ l)) B).
Proof.
  induction l as [|kv l IH]; intros H before; cbn [foldM]; [rewrite app_nil_r; reflexivity|].
  assert (E : mapM (fun bd : list nat * (list (nat * nat) * list (nat * nat)) =>
                   let (bundle, d) := bd in
                   if memb (fst (fst kv)) bundle && memb (snd (fst kv)) bundle then
                     match snd kv with
                     | 3 => Ok (bundle, (fst d ++ [fst kv], snd d))
                     | 4 => Ok (bundle, (fst d, snd d ++ [fst kv]))
                     | _ => Err KeyErr
                     end
                   else Ok bd) (map (entry_of before) B) = Ok (map (entry_of (before ++ [kv])) B)).
  { assert (H' : forall b, In b B -> inside b kv = true -> snd kv = 3 \/ snd kv = 4) by (intros; apply (H kv b); [left; reflexivity | assumption | assumption]). clear H IH.
    induction B as [|b B IHB]; [reflexivity|]. cbn [map mapM]. rewrite IHB by (intros; apply (H' b0); [right; assumption | assumption]). unfold entry_of at 1. fold (inside b kv).
    replace (entry_of (before ++ [kv]) b) with (b, (chosen b 3 before ++ chosen b 3 [kv], chosen b 4 before ++ chosen b 4 [kv])) by (unfold entry_of; rewrite !chosen_app; reflexivity).
    rewrite !chosen_one. specialize (H' b (or_introl eq_refl)). destruct (inside b kv); cbn [andb].
    - destruct (H' eq_refl) as [X|X]; rewrite X; cbn [Nat.eqb fst snd bind]; rewrite app_nil_r; reflexivity.
    - cbn [bind]. rewrite !app_nil_r. reflexivity. }
  rewrite E. cbn [bind]. rewrite IH by (intros; apply (H kv0 b); [right; assumption | assumption | assumption]). rewrite <- app_assoc. reflexivity.
Qed.

Lemma chosen_In f sp bundle c a b : reduced f -> sided f sp ->
  (In (a, b) (chosen bundle c (map (fun ab => (ab, nreg sp (fst ab) (snd ab))) (combinations2 (range (valency f))))) <->
   In a bundle /\ In b bundle /\ a < b < valency f /\ combos f a b c).
Proof.
  intros R Sd. unfold chosen. rewrite in_map_iff. split.
  - intros [[ab c'] [X Hin]]. cbn in X. subst ab. apply filter_In in Hin as [Hin Hc]. apply andb_true_iff in Hc as [Hi Hc]. unfold inside in Hi. cbn [fst snd] in Hi, Hc. apply andb_true_iff in Hi as [Ha Hb].
    apply Nat.eqb_eq in Hc. subst c'. apply in_map_iff in Hin as [ab [X Hin]]. injection X as -> X. apply pairs_range_In in Hin. cbn [fst snd] in X. split; [apply memb_In; exact Ha|]. split; [apply memb_In; exact Hb|]. split; [exact Hin|].
    rewrite <- X. destruct (overlaps f sp a b R Sd Hin) as [m [_ [C _]]]. exact C.
  - intros [Ha [Hb [Hab C]]]. exists ((a, b), c). split; [reflexivity|]. apply filter_In. split.
    + apply in_map_iff. exists (a, b). split; [|apply pairs_range_In; exact Hab]. f_equal. cbn [fst snd]. destruct (overlaps f sp a b R Sd Hab) as [m [_ [C' _]]]. apply (combos_unique f a b _ _ C' C).
    + unfold inside. cbn [fst snd]. rewrite (proj2 (memb_In _ _) Ha), (proj2 (memb_In _ _) Hb), Nat.eqb_refl. reflexivity.
Qed.

Lemma chosen_NoDup bundle c l : NoDup (map fst l) -> NoDup (chosen bundle c l).
Proof.
  intro H. unfold chosen. induction l as [|x l IH]; [constructor|]. cbn [map] in H. inversion_clear H as [|? ? Hx Hl]. cbn [filter]. destruct (_ && _); [|apply IH; exact Hl].
  cbn [map]. constructor; [|apply IH; exact Hl]. intro Y. apply Hx. apply in_map_iff in Y as [y [Y1 Y2]]. apply filter_In in Y2 as [Y2 _]. rewrite <- Y1. apply in_map. exact Y2.
Qed.

Lemma overlap_counts_spec order f : (forall l, Permutation (order l) l) -> reduced f -> no_links f ->
  exists B d, bundles order f = Ok B /\ bundle_overlap_counts order f = Ok d /\ map fst d = B /\
    forall bundle l3 l4, In (bundle, (l3, l4)) d -> NoDup l3 /\ NoDup l4 /\
      (forall a b, In (a, b) l3 <-> In a bundle /\ In b bundle /\ a < b < valency f /\ combos f a b 3) /\
      (forall a b, In (a, b) l4 <-> In a bundle /\ In b bundle /\ a < b < valency f /\ combos f a b 4).
Proof.
  intros Ho R N. destruct (bundles_spec order f Ho R) as [HB _]. destruct (HB N) as [B [EB [Cl _]]]. exists B. unfold bundle_overlap_counts.
  destruct (bloatless_check order f Ho R) as [g [Eg Hg]]. rewrite Eg. cbn [bind]. rewrite (proj2 Hg N). cbn [true_except bind]. destruct (counts_spec f R) as [sp [_ [Sd Ec]]]. rewrite Ec, EB. cbn [bind].
  set (l := map (fun ab => (ab, nreg sp (fst ab) (snd ab))) (combinations2 (range (valency f)))).
  assert (Hl : forall kv b, In kv l -> In b B -> inside b kv = true -> snd kv = 3 \/ snd kv = 4).
  { intros kv b Hkv Hb Hi. unfold l in Hkv. apply in_map_iff in Hkv as [[u v] [<- Huv]]. apply pairs_range_In in Huv. cbn [fst snd]. unfold inside in Hi. cbn [fst snd] in Hi. apply andb_true_iff in Hi as [Hu Hv]. apply memb_In in Hu, Hv.
    destruct Cl as (C1 & _). destruct (C1 b Hb) as (_ & _ & Hx). apply (proj2 (Hx u Hu) v) in Hv as [_ Hv]. destruct (chained_free f u v Hv) as [X|[Fu Fv]]; [lia|].
    destruct (overlaps f sp u v R Sd Huv) as [m [_ [_ [_ H34]]]]. apply H34; [intro c; apply N; exact Huv | exact Fu | exact Fv]. }
  assert (X := overlap_loop B l Hl []). cbn [app] in X. unfold entry_of in X at 1. cbn [chosen filter map] in X.
  eexists. split; [reflexivity|]. split; [exact X|]. split; [rewrite map_map; apply map_id|].
  intros bundle l3 l4 Hin. apply in_map_iff in Hin as [b [Y _]]. unfold entry_of in Y. injection Y as -> <- <-.
  assert (Nd : NoDup (map fst l)) by (unfold l; rewrite map_map; cbn [fst]; rewrite map_id; apply pairs_range_NoDup).
  split; [apply chosen_NoDup; exact Nd|]. split; [apply chosen_NoDup; exact Nd|]. split; intros a b; apply chosen_In; assumption.
Qed.

Lemma grid_spec order f : (forall l, Permutation (order l) l) -> reduced f ->
  (no_links f -> none_fixed f -> exists B d, bundles order f = Ok B /\ bundle_grid_partitions order f = Ok d /\ map fst d = B /\
    forall bundle p, In (bundle, p) d -> canonical (sp_blocks p) /\
      forall x y, same (sp_blocks p) x y <-> x = y \/ exists a b, x = Z.of_nat a /\ y = Z.of_nat b /\ clos_refl_sym_trans nat (gap_in f bundle) a b) /\
  (~ (no_links f /\ none_fixed f) -> bundle_grid_partitions order f = Err BoolfNotBlightlessError).
Proof.
  intros Ho R. unfold bundle_grid_partitions. destruct (is_blightless_spec order f Ho R) as [bl [Ebl Hbl]]. rewrite Ebl. cbn [bind]. split.
  - intros NL NF. rewrite (proj2 Hbl (conj NL NF)). cbn [true_except bind]. destruct (overlap_counts_spec order f Ho R NL) as [B [d [EB [Ed [Hd Spec]]]]]. exists B. rewrite EB, Ed. cbn [bind].
    assert (G : forall l, incl l B -> exists r, mapM (fun bundle =>
          match find (fun kv => list_eqb (fst kv) bundle) d with
          | None => Err KeyErr
          | Some kv =>
              let* partition := SetPart None DomN in
              let* partition :=
                done (iterate (fun s (ab : nat * nat) => merge_pair s (Z.of_nat (fst ab)) (Z.of_nat (snd ab)))
                              (fst (snd kv)) partition) in
              Ok (bundle, partition)
          end) l = Ok r /\ map fst r = l /\ forall bundle p, In (bundle, p) r -> canonical (sp_blocks p) /\
      forall x y, same (sp_blocks p) x y <-> x = y \/ exists a b, x = Z.of_nat a /\ y = Z.of_nat b /\ clos_refl_sym_trans nat (gap_in f bundle) a b).
    { induction l as [|b l IH]; intro Hi; [exists []; split; [reflexivity|]; split; [reflexivity | intros ? ? []]|].
      destruct IH as [r [Er [Fr Hr]]]; [intros x Hx; apply Hi; right; exact Hx|]. cbn [mapM]. rewrite Er.
      destruct (find (fun kv => list_eqb (fst kv) b) d) as [[b' [l3 l4]]|] eqn:Ef.
      - apply find_some in Ef as [Hin Eb]. cbn [fst] in Eb. apply list_eqb_eq in Eb. subst b'. destruct (Spec b l3 l4 Hin) as [_ [_ [H3 _]]]. cbn [fst snd].
        destruct (blocks_of_pairs (valency f) l3) as (p0 & p & zb & E0 & E1 & Wp & _ & Sm & _); [intros u v Huv; apply H3 in Huv; apply Huv|].
        rewrite E0. cbn [bind]. rewrite E1. cbn [bind]. eexists. split; [reflexivity|]. split; [cbn [map fst]; rewrite Fr; reflexivity|].
        intros bundle q [X|X]; [|apply Hr; exact X]. injection X as <- <-. split; [apply (wf_canonical p Wp)|]. intros x y. rewrite Sm.
        assert (Cc : forall u v, closure l3 u v <-> clos_refl_sym_trans nat (gap_in f b) u v).
        { intros u v. unfold closure. split; intro Q; induction Q as [s t Q|s|s t Q IHQ|s t w Q1 IHQ1 Q2 IHQ2]; try apply rst_refl; try (apply rst_sym; assumption); try (eapply rst_trans; eassumption); apply rst_step, H3; exact Q. }
        split; (intros [Q|[u [v [-> [-> Q]]]]]; [left; exact Q | right; exists u, v; split; [reflexivity|]; split; [reflexivity | apply Cc; exact Q]]).
      - exfalso. assert (Hb : In b (map fst d)) by (rewrite Hd; apply Hi; left; reflexivity). apply in_map_iff in Hb as [kv [X Hin]]. assert (Y := find_none _ _ Ef kv Hin). cbv beta in Y. rewrite X in Y.
        assert (Z : list_eqb b b = true) by (apply list_eqb_eq; reflexivity). congruence. }
    destruct (G B (incl_refl B)) as [r [Er [Fr Hr]]]. exists r. auto.
  - intro N. destruct bl; [destruct N; apply Hbl; reflexivity | reflexivity].
Qed.
