(** Proof_HyperLevels: the while loop of hypersplits finds all sets of independent atoms. *)

From Coq Require Import List Arith ZArith Bool Lia Permutation Sorted.
From Verif Require Import Model_Base Lib Model_Binary Model_Splits Model_Perm Model_SetPart Model_Boolf Model_Blight Model_Hyper.
From Verif Require Import Spec_SetPart Proof_SetPart Proof_SetPartMerge Proof_SetPartMore Proof_SetPartLattice Proof_SetPartImproved.
From Verif Require Import Spec_Bits Spec_Boolf Spec_Splits Spec_Blight Spec_Hyper Proof_Binary Proof_Boolf Proof_Splits Proof_Blight Proof_Gapless Proof_Hyper.
Import ListNotations.
Open Scope nat_scope.

(** * Sets of keys *)

Lemma shattered_subset f ks ls : (forall k, In k ks -> In k ls) -> shattered f ls -> shattered f ks.
Proof. intros H S b. destruct (S b) as (e & He & Hb). exists e. split; [exact He|]. intros k Hk. apply Hb, H, Hk. Qed.

Lemma key_set_le f n ks : key_set f n ks -> n <= valency f.
Proof.
  intros (A & <- & B). rewrite <- (seq_length (valency f) 0). apply NoDup_incl_length; [apply sorted_lt_NoDup, A|].
  intros k Hk. apply in_seq. specialize (B k Hk). lia.
Qed.

Lemma key_set_remove f n a b ks : key_set f (S (S n)) (a :: b :: ks) -> key_set f (S n) (a :: ks) /\ key_set f (S n) (b :: ks).
Proof.
  intros (A & L & B). inversion A as [|? ? A' Ha]; subst. inversion A' as [|? ? A'' Hb]; subst. inversion Ha as [|? ? Hab Ha']; subst.
  cbn in L. split; (split; [constructor; assumption | split; [cbn; lia|]]); intros k Hk; apply B; cbn in *; tauto.
Qed.

(* two elements of a list are one of its pairs *)
Lemma combinations2_In_l {A} (l : list A) p : In p (combinations2 l) -> In (fst p) l /\ In (snd p) l.
Proof.
  induction l as [|x l IH]; cbn; [contradiction|]. rewrite in_app_iff, in_map_iff. intros [(y & <- & Hy)|H]; [cbn; auto|].
  apply IH in H. tauto.
Qed.
Lemma combinations2_complete {A} (l : list A) x y : In x l -> In y l -> x <> y -> In (x, y) (combinations2 l) \/ In (y, x) (combinations2 l).
Proof.
  induction l as [|z l IH]; [contradiction|]. intros Hx Hy Hxy. cbn [combinations2]. rewrite !in_app_iff, !in_map_iff.
  destruct Hx as [->|Hx]; destruct Hy as [->|Hy]; [contradiction | left; left; exists y; auto | right; left; exists x; auto|].
  destruct (IH Hx Hy Hxy); auto.
Qed.

(** * Levels *)

Definition level (f : boolf) (n : nat) (l : list hyper) : Prop :=
  NoDup (map fst l) /\ (forall ks, In ks (map fst l) <-> key_set f n ks /\ shattered f ks) /\
  (forall ks s, In (ks, s) l -> part_ok f ks s).

Lemma first_level f sp : splittable f -> none_fixed f -> splits f = Ok sp ->
  exists l, mapM (fun ks : nat * split => let* part := part_of_split (snd ks) in Ok ([fst ks], part)) (enumerate sp) = Ok l /\ level f 1 l /\
    map fst l = map (fun k => [k]) (seq 0 (valency f)).
Proof.
  intros R NF Es. assert (F : fitting f) by apply R. destruct (splits_ok f F) as (sp' & Es' & Lsp & _). rewrite Es in Es'. injection Es' as <-.
  assert (X : forall js, (forall k, In k js -> k < valency f) ->
     exists l, mapM (fun ks : nat * split => let* part := part_of_split (snd ks) in Ok ([fst ks], part)) (map (fun k => (k, nth k sp ([], []))) js) = Ok l /\
       map fst l = map (fun k => [k]) js /\ forall ks s, In (ks, s) l -> part_ok f ks s).
  { induction js as [|k js IH]; intro Hj; [exists []; cbn; split; [reflexivity | split; [reflexivity | intros ? ? []]]|]. destruct IH as (l & E & Em & Hp); [intros j H; apply Hj; right; exact H|].
    destruct (part_of_split_ok f sp k F Es (Hj k (or_introl eq_refl))) as (s & Eps & Ps). exists (([k], s) :: l). cbn [map mapM fst snd]. rewrite Eps. cbn [bind]. rewrite E. cbn [bind].
    split; [reflexivity|]. split; [cbn; rewrite Em; reflexivity|]. intros ks t [H|H]; [injection H as <- <-; exact Ps | apply Hp; exact H]. }
  assert (En : enumerate sp = map (fun k => (k, nth k sp ([], []))) (seq 0 (valency f))).
  { unfold enumerate. rewrite Lsp. rewrite <- Lsp. apply nth_ext with (d := (0, ([], []))) (d' := (0, nth 0 sp ([], []))); [rewrite combine_length, map_length, seq_length; lia|].
    intros i Hi. rewrite combine_length, seq_length, Nat.min_id in Hi. rewrite combine_nth by apply seq_length. rewrite seq_nth by exact Hi.
    rewrite (map_nth (fun k => (k, nth k sp ([], []))) (seq 0 (length sp)) 0 i). rewrite seq_nth by exact Hi. reflexivity. }
  destruct (X (seq 0 (valency f))) as (l & E & Em & Hp); [intros k Hk; apply in_seq in Hk; lia|]. exists l. rewrite En. split; [exact E|]. split; [|exact Em].
  split; [|split; [|exact Hp]].
  - rewrite Em. apply NoDup_map_inj; [|apply seq_NoDup]. intros a b _ _ [= H]. exact H.
  - intro ks. rewrite Em, in_map_iff. split.
    + intros (k & <- & Hk). apply in_seq in Hk. split; [split; [repeat constructor | split; [reflexivity | intros j [<-|[]]; lia]]|].
      intro b. destruct (some_value f k (b k) R) as (e & He & Hv); [lia | exact NF|]. exists e. split; [exact He|]. intros j [<-|[]]. exact Hv.
    + intros ((A & L & B) & _). destruct ks as [|k [|? ?]]; try discriminate L. exists k. split; [reflexivity|]. apply in_seq. specialize (B k (or_introl eq_refl)). lia.
Qed.

(** one turn of the inner loop *)
Lemma hyper_turn_spec f n new d1 d2 : fitting f -> part_ok f (fst d1) (snd d1) -> part_ok f (fst d2) (snd d2) ->
  (forall k, In k (fst d1) -> k < valency f) -> (forall k, In k (fst d2) -> k < valency f) ->
  NoDup (map fst new) -> (forall ks s, In (ks, s) new -> part_ok f ks s) ->
  let ks := sort_nat (set_union (fst d1) (fst d2)) in
  exists new', hyper_turn f n new (d1, d2) = Ok new' /\ NoDup (map fst new') /\ (forall ks s, In (ks, s) new' -> part_ok f ks s) /\
    forall js, In js (map fst new') <-> In js (map fst new) \/ (js = ks /\ key_set f n ks /\ shattered f ks).
Proof.
  intros F P1 P2 B1 B2 Nn Pn ks. unfold hyper_turn. fold ks.
  destruct (meet_part_ok f (fst d1) (fst d2) ks (snd d1) (snd d2) P1 P2) as (m & Em & Pm); [intro k; unfold ks; rewrite sort_nat_In, set_union_In; reflexivity|].
  rewrite Em. cbn [bind]. destruct (spot_blocks_ok f ks m Pm) as (r & Er & Br & Nr). rewrite Er. cbn [bind].
  assert (As : ascending ks) by (apply sort_nat_sorted_lt, nodupb_NoDup).
  assert (Bs : forall k, In k ks -> k < valency f) by (intros k Hk; unfold ks in Hk; rewrite sort_nat_In, set_union_In in Hk; destruct Hk; auto).
  destruct (Nat.eqb_spec (length ks) n) as [Ln|Ln]; cbn [andb].
  2:{ exists new. split; [reflexivity|]. split; [exact Nn|]. split; [exact Pn|]. intro js. split; [auto|]. intros [H|(_ & (_ & L & _) & _)]; [exact H | contradiction]. }
  assert (K : key_set f n ks) by (split; [exact As | split; [exact Ln | exact Bs]]).
  destruct (Nat.eqb_spec (length r) (2 ^ n)) as [Lr|Lr].
  2:{ exists new. split; [reflexivity|]. split; [exact Nn|]. split; [exact Pn|]. intro js. split; [auto|]. intros [H|(_ & _ & S)]; [exact H|].
      exfalso. apply Lr. apply (count_blocks f n ks r F K Br Nr). exact S. }
  assert (S : shattered f ks) by (apply (count_blocks f n ks r F K Br Nr); exact Lr).
  assert (Eq : mapM (fun already_there => hyper_eqb already_there (ks, m)) new = Ok (map (fun d : hyper => list_eqb (fst d) ks) new)).
  { apply mapM_ok. intros [js s] Hd. unfold hyper_eqb. cbn [fst snd]. destruct (list_eqb js ks) eqn:E; [|reflexivity]. apply list_eqb_eq in E. subst js.
    destruct (Pn ks s Hd) as (Ws & Ds & Ts). destruct Pm as (Wm & Dm & Tm). destruct (sp_eq_spec s m Ws Wm) as (b & Eb & Hb); [rewrite Ds, Dm; reflexivity|].
    rewrite Eb. f_equal. apply Hb. intros x y. rewrite Ts, Tm. reflexivity. }
  rewrite Eq. cbn [bind]. match goal with |- context [if ?c then _ else _] => replace c with (existsb (fun b => b) (map (fun d : hyper => list_eqb (fst d) ks) new)) by reflexivity end. destruct (existsb (fun b => b) (map (fun d : hyper => list_eqb (fst d) ks) new)) eqn:Ex.
  - exists new. split; [reflexivity|]. split; [exact Nn|]. split; [exact Pn|]. intro js. split; [auto|]. intros [H|(-> & _)]; [exact H|].
    apply existsb_exists in Ex as (b & Hb & ->). apply in_map_iff in Hb as (d & Hd & Hi). apply list_eqb_eq in Hd. rewrite <- Hd. apply in_map. exact Hi.
  - exists (new ++ [(ks, m)]). split; [reflexivity|]. split; [|split].
    + rewrite map_app. cbn [map fst]. apply NoDup_app_intro'; [exact Nn | repeat constructor; intros []|]. intros js Hj [<-|[]].
      apply in_map_iff in Hj as (d & Hd & Hi). enough (X : existsb (fun b => b) (map (fun d : hyper => list_eqb (fst d) ks) new) = true) by congruence.
      apply existsb_exists. exists true. split; [|reflexivity]. apply in_map_iff. exists d. split; [apply list_eqb_eq; exact Hd | exact Hi].
    + intros js s H. apply in_app_or in H as [H|[H|[]]]; [apply Pn; exact H | injection H as <- <-; exact Pm].
    + intro js. rewrite map_app, in_app_iff. cbn [map fst In]. split; [intros [H|[<-|[]]]; auto | intros [H|(-> & _)]; auto].
Qed.

Lemma hyper_turns_spec f n ps : fitting f ->
  (forall p, In p ps -> part_ok f (fst (fst p)) (snd (fst p)) /\ part_ok f (fst (snd p)) (snd (snd p)) /\
     (forall k, In k (fst (fst p)) -> k < valency f) /\ (forall k, In k (fst (snd p)) -> k < valency f)) ->
  forall new, NoDup (map fst new) -> (forall ks s, In (ks, s) new -> part_ok f ks s) ->
  exists new', foldM (hyper_turn f n) ps new = Ok new' /\ NoDup (map fst new') /\ (forall ks s, In (ks, s) new' -> part_ok f ks s) /\
    forall js, In js (map fst new') <-> In js (map fst new) \/ (key_set f n js /\ shattered f js /\ exists p, In p ps /\ js = sort_nat (set_union (fst (fst p)) (fst (snd p)))).
Proof.
  intro F. induction ps as [|[d1 d2] ps IH]; intros Hp new Nn Pn; cbn [foldM].
  - exists new. split; [reflexivity|]. split; [exact Nn|]. split; [exact Pn|]. intro js. split; [auto|]. intros [H|(_ & _ & p & [] & _)]. exact H.
  - destruct (Hp (d1, d2) (or_introl eq_refl)) as (P1 & P2 & B1 & B2). cbn [fst snd] in *.
    destruct (hyper_turn_spec f n new d1 d2 F P1 P2 B1 B2 Nn Pn) as (new1 & E1 & N1 & Q1 & I1). rewrite E1. cbn [bind].
    destruct (IH (fun p H => Hp p (or_intror H)) new1 N1 Q1) as (new2 & E2 & N2 & Q2 & I2). exists new2. split; [exact E2|]. split; [exact N2|]. split; [exact Q2|].
    intro js. rewrite I2, I1. split.
    + intros [[H|(-> & K & Sh)]|(K & Sh & p & Hip & Ej)]; [auto | right | right].
      * split; [exact K|]. split; [exact Sh|]. exists (d1, d2). split; [left; reflexivity | reflexivity].
      * split; [exact K|]. split; [exact Sh|]. exists p. split; [right; exact Hip | exact Ej].
    + intros [H|(K & Sh & p & [<-|Hip] & Ej)]; [auto | left; right | right].
      * cbn [fst snd] in Ej. subst js. auto.
      * split; [exact K|]. split; [exact Sh|]. exists p. auto.
Qed.

Lemma next_level f n old : fitting f -> 1 <= n -> level f n old ->
  exists new, foldM (hyper_turn f (S n)) (combinations2 old) [] = Ok new /\ level f (S n) new.
Proof.
  intros F Hn (No & Io & Po).
  assert (Bo : forall d, In d old -> part_ok f (fst d) (snd d) /\ forall k, In k (fst d) -> k < valency f).
  { intros [ks s] Hd. split; [apply Po; exact Hd|]. assert (X : In ks (map fst old)) by (apply (in_map fst) in Hd; exact Hd). apply Io in X as ((_ & _ & B) & _). exact B. }
  destruct (hyper_turns_spec f (S n) (combinations2 old) F) with (new := @nil hyper) as (new & E & Nn & Pn & In').
  - intros p Hp. apply combinations2_In_l in Hp as [H1 H2]. destruct (Bo _ H1), (Bo _ H2). auto.
  - constructor.
  - intros ks s [].
  - exists new. split; [exact E|]. split; [exact Nn|]. split; [|exact Pn]. intro js. rewrite In'. cbn [map In]. split; [tauto|].
    intros [K Sh]. right. split; [exact K|]. split; [exact Sh|]. destruct n as [|n]; [lia|].
    assert (Ks := K). destruct js as [|a [|b ks]]; [destruct K as (_ & L & _); discriminate L | destruct K as (_ & L & _); discriminate L|].
    apply key_set_remove in Ks as [Ka Kb].
    assert (Sa : shattered f (a :: ks)) by (apply (shattered_subset f _ (a :: b :: ks)); [cbn; tauto | exact Sh]).
    assert (Sb : shattered f (b :: ks)) by (apply (shattered_subset f _ (a :: b :: ks)); [cbn; tauto | exact Sh]).
    assert (Ha := proj2 (Io _) (conj Ka Sa)). assert (Hb := proj2 (Io _) (conj Kb Sb)).
    apply in_map_iff in Ha as (d1 & E1 & H1). apply in_map_iff in Hb as (d2 & E2 & H2).
    assert (Ne : d1 <> d2).
    { intros <-. rewrite E1 in E2. injection E2 as <-. destruct K as (A & _ & _). inversion A as [|? ? _ X]; subst. inversion X; lia. }
    assert (Un : forall x y, (x = a :: ks /\ y = b :: ks) \/ (x = b :: ks /\ y = a :: ks) -> a :: b :: ks = sort_nat (set_union x y)).
    { intros x y Hxy. apply sorted_lt_ext; [apply K | apply sort_nat_sorted_lt, nodupb_NoDup|]. intro z. rewrite sort_nat_In, set_union_In.
      destruct Hxy as [[-> ->]|[-> ->]]; cbn; tauto. }
    destruct (combinations2_complete old d1 d2 H1 H2 Ne) as [H|H]; [exists (d1, d2) | exists (d2, d1)]; (split; [exact H|]); cbn [fst snd]; apply Un; auto.
Qed.

Lemma level_one f n old : 1 <= n -> level f n old -> length old <= 1 -> forall ks, ~ (key_set f (S n) ks /\ shattered f ks).
Proof.
  intros Hn (No & Io & _) L ks [K Sh]. destruct n as [|n]; [lia|]. destruct ks as [|a [|b ks]]; [destruct K as (_ & X & _); discriminate X | destruct K as (_ & X & _); discriminate X|].
  assert (Ks := K). apply key_set_remove in Ks as [Ka Kb].
  assert (Sa : shattered f (a :: ks)) by (apply (shattered_subset f _ (a :: b :: ks)); [cbn; tauto | exact Sh]).
  assert (Sb : shattered f (b :: ks)) by (apply (shattered_subset f _ (a :: b :: ks)); [cbn; tauto | exact Sh]).
  assert (Ha := proj2 (Io _) (conj Ka Sa)). assert (Hb := proj2 (Io _) (conj Kb Sb)).
  assert (Hl : length (map fst old) <= 1) by (rewrite map_length; exact L). destruct (map fst old) as [|x [|y l]]; [destruct Ha | | cbn in Hl; lia].
  destruct Ha as [Ha|[]]. destruct Hb as [Hb|[]]. rewrite Ha in Hb. injection Hb as <-. destruct K as (A & _ & _). inversion A as [|? ? _ X]; subst. inversion X; lia.
Qed.

Lemma level_none f n : 1 <= n -> (forall ks, ~ (key_set f n ks /\ shattered f ks)) -> forall m ks, key_set f m ks -> shattered f ks -> m < n.
Proof.
  intros Hn H m ks. revert ks. induction m as [|m IH]; intros ks K Sh; [lia|].
  destruct (Nat.eq_dec (S m) n) as [<-|Hne]; [exfalso; apply (H ks); auto|].
  destruct ks as [|a ks]; [destruct K as (_ & L & _); discriminate L|]. assert (m < n); [|lia]. apply (IH ks).
  - destruct K as (A & L & B). inversion A; subst. split; [assumption|]. split; [cbn in L; lia|]. intros k Hk. apply B. right. exact Hk.
  - apply (shattered_subset f _ (a :: ks)); [cbn; tauto | exact Sh].
Qed.

(** the dictionary *)
Definition levels (f : boolf) (m : nat) (h : list (nat * list hyper)) : Prop :=
  map fst h = seq 1 m /\ (forall n l, In (n, l) h -> level f n l /\ (1 < n -> l <> [])).

Lemma hyper_loop_spec f fuel : fitting f -> forall n old h, 1 <= n -> level f n old -> levels f n h -> valency f + 2 <= fuel + n -> 0 < fuel ->
  exists m h', hyper_loop fuel f (S n) old h = Ok h' /\ n <= m /\ levels f m h' /\ (forall k ks, key_set f k ks -> shattered f ks -> k <= m) /\
    exists t, h' = h ++ t.
Proof.
  intro F. induction fuel as [|fuel IH]; intros n old h Hn Lo Lh Hf Hp; [lia|]. cbn [hyper_loop].
  destruct (Nat.ltb_spec 1 (length old)) as [H1|H1].
  - destruct (next_level f n old F Hn Lo) as (new & E & Ln). rewrite E. cbn [bind]. destruct new as [|d new].
    + exists n, h. split; [reflexivity|]. split; [lia|]. split; [exact Lh|]. split; [|exists []; rewrite app_nil_r; reflexivity]. intros k ks K Sh.
      apply Nat.lt_succ_r. apply (level_none f (S n)) with (ks := ks); [lia | | exact K | exact Sh]. intros js X. apply (proj1 (proj2 Ln)) in X. destruct X.
    + cbn [nonempty]. assert (Hv : S n <= valency f).
      { destruct Ln as (_ & I & _). destruct (proj1 (I (fst d))) as [K _]; [left; reflexivity|]. exact (key_set_le f _ _ K). }
      rewrite Nat.add_1_r. destruct (IH (S n) (d :: new) (h ++ [(S n, d :: new)])) as (m & h' & E' & Hm & Lm & Mx & t & Et); [lia | exact Ln | | lia | lia |].
      * destruct Lh as [Kh Vh]. split; [rewrite map_app, Kh; cbn [map fst]; rewrite seq_S; reflexivity|].
        intros k l Hi. apply in_app_or in Hi as [Hi|[Hi|[]]]; [apply Vh; exact Hi|]. injection Hi as <- <-. split; [exact Ln | discriminate].
      * exists m, h'. split; [exact E'|]. split; [lia|]. split; [exact Lm|]. split; [exact Mx|]. rewrite <- app_assoc in Et. exists ([(S n, d :: new)] ++ t). exact Et.
  - exists n, h. split; [reflexivity|]. split; [lia|]. split; [exact Lh|]. split; [|exists []; rewrite app_nil_r; reflexivity]. intros k ks K Sh.
    apply Nat.lt_succ_r. apply (level_none f (S n)) with (ks := ks); [lia | | exact K | exact Sh]. intros js X. exact (level_one f n old Hn Lo H1 js X).
Qed.

Lemma hypersplits_spec order f : (forall l, Permutation (order l) l) -> splittable f -> no_links f -> none_fixed f ->
  exists m h, hypersplits order f = Ok h /\ 1 <= m /\ levels f m h /\ (forall k ks, key_set f k ks -> shattered f ks -> k <= m) /\
    exists l t, h = (1, l) :: t /\ map fst l = map (fun k => [k]) (seq 0 (valency f)).
Proof.
  intros Ho R NL NF. assert (F : fitting f) by apply R. unfold hypersplits. destruct (is_blightless_spec order f Ho R) as (b & Eb & Hb). rewrite Eb, (proj2 Hb (conj NL NF)). cbn [bind true_except].
  destruct (splits_ok f F) as (sp & Es & _). rewrite Es. cbn [bind]. destruct (first_level f sp R NF Es) as (l & El & Ll & Ml). rewrite El. cbn [bind].
  destruct (hyper_loop_spec f (valency f + 1) F 1 l [(1, l)]) as (m & h & E & Hm & Lm & Mx & t & Et); [lia | exact Ll | | lia | lia|].
  - split; [reflexivity|]. intros n k [H|[]]. injection H as <- <-. split; [exact Ll | lia].
  - exists m, h. split; [exact E|]. split; [exact Hm|]. split; [exact Lm|]. split; [exact Mx|]. exists l, t. split; [exact Et | exact Ml].
Qed.

Lemma hypersplits_reject order f : (forall l, Permutation (order l) l) -> splittable f -> ~ (no_links f /\ none_fixed f) -> hypersplits order f = Err NotBlightlessError.
Proof.
  intros Ho R H. unfold hypersplits. destruct (is_blightless_spec order f Ho R) as (b & Eb & Hb). rewrite Eb. destruct b; [exfalso; apply H, Hb; reflexivity|]. reflexivity.
Qed.

(** * Combined splits *)

Lemma splits_combined_spec f keys : fitting f -> keys <> [] -> (forall k, In k keys -> k < valency f) ->
  exists r, splits_combined f keys = Ok r /\ spot_blocks f keys r.
Proof.
  intros F Ne B. destruct keys as [|k keys]; [contradiction|]. unfold splits_combined. destruct (splits_ok f F) as (sp & Es & Ls & _). rewrite Es. cbn [bind].
  assert (Hk := B k (or_introl eq_refl)). rewrite (lget_ok sp k ([], [])) by lia. cbn [bind]. destruct (part_of_split_ok f sp k F Es Hk) as (s & E & P). rewrite E. cbn [bind].
  assert (X : forall ks done s, (forall j, In j ks -> j < valency f) -> part_ok f done s ->
     exists s', foldM (fun combined_part atomkey => let* s := lget sp atomkey in let* atom_part := part_of_split s in meet combined_part atom_part) ks s = Ok s' /\ part_ok f (done ++ ks) s').
  { clear -F Es Ls. induction ks as [|j ks IH]; intros dn s B P; cbn [foldM]; [exists s; rewrite app_nil_r; auto|].
    assert (Hj := B j (or_introl eq_refl)). rewrite (lget_ok sp j ([], [])) by lia. cbn [bind]. destruct (part_of_split_ok f sp j F Es Hj) as (t & E & Pt). rewrite E. cbn [bind].
    destruct (meet_part_ok f dn [j] (dn ++ [j]) s t P Pt) as (m & Em & Pm); [intro x; rewrite in_app_iff; reflexivity|]. rewrite Em. cbn [bind].
    destruct (IH (dn ++ [j]) m (fun i H => B i (or_intror H)) Pm) as (s' & E' & P'). exists s'. split; [exact E'|]. rewrite <- app_assoc in P'. exact P'. }
  destruct (X keys [k] s (fun i H => B i (or_intror H)) P) as (s' & E' & P'). rewrite E'. cbn [bind].
  destruct (spot_blocks_ok f (k :: keys) s' P') as (r & Er & Br & _). exists r. auto.
Qed.
