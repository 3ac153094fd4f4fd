(** Proof_FissionMore: fissions and hyperfissions of Boolean functions, their weights and Walsh
    spectra. *)

From Coq Require Import List Arith ZArith Bool Lia Permutation Sorted.
From Verif Require Import Model_Base Lib Model_Binary Model_Determinant Model_WalshPerm Model_Splits Model_Perm Model_Boolf Model_BoolfMore Model_MinRep Model_Segments Model_Helpers Model_Hyper Model_Layers.
From Verif Require Import Spec_Bits Spec_Boolf Spec_Twin Spec_Splits Spec_Segments Spec_Layers Proof_Binary Proof_Numbers Proof_Helpers Proof_HelpersBits Proof_Linear Proof_Boolf Proof_Deflate Proof_Noble Proof_BoolfWalsh Proof_MinRepCoset Proof_Splits Proof_Layers Proof_Fission.
Import ListNotations.
Open Scope nat_scope.

Lemma mapM_nth {A B} (g : A -> res B) (h : nat -> B) (d : A) l : (forall i, i < length l -> g (nth i l d) = Ok (h i)) -> mapM g l = Ok (map h (range (length l))).
Proof.
  revert h. induction l as [|x l IH]; intros h H; [reflexivity|]. cbn [mapM]. assert (H0 := H 0 ltac:(cbn; lia)). cbn [nth] in H0. rewrite H0. cbn [bind].
  rewrite (IH (fun i => h (S i))) by (intros i Hi; apply (H (S i)); cbn; lia). cbn [bind]. f_equal. unfold range. cbn [length seq map]. f_equal. rewrite <- seq_shift, map_map. reflexivity.
Qed.
Lemma nth_map_r {A} (F : nat -> A) m i d : i < m -> nth i (map F (range m)) d = F i.
Proof. intro H. rewrite (nth_indep (map _ _) d (F 0)) by (rewrite map_length, range_length; exact H). rewrite map_nth, nth_range by exact H. reflexivity. Qed.

(** one part of the table *)
Definition hpart (f : boolf) (dims : list nat) (i : nat) : list bool :=
  map (fun j => tab f (join (adicity f) dims i j)) (range (2 ^ length (others (adicity f) dims))).
Definition hparts (f : boolf) (dims : list nat) : list (list bool) := map (hpart f dims) (range (2 ^ length dims)).

Lemma fissions_ok f : fitting f -> 0 < adicity f -> fissions f = Ok (map (fun k => (hpart f [k] 0, hpart f [k] 1)) (range (adicity f))).
Proof.
  intros F H. unfold fissions. rewrite (proj2 (Nat.ltb_lt _ _) H). cbn [true_except bind]. destruct (atompatterns_spec (adicity f) H) as (ps & E & Ll & Hp). rewrite E. cbn [bind].
  rewrite tt_default by exact F. cbn [bind]. rewrite map_length, range_length, Nat.eqb_refl. cbn [true_except bind]. rewrite <- Ll at 1. apply (mapM_nth _ _ []). intros k Hk. rewrite Ll in Hk.
  destruct (Hp k Hk) as (v & Ev & Lv & Hv). rewrite (nth_error_nth _ _ _ Ev).
  rewrite (zip_dims (adicity f) [k]); [reflexivity | repeat constructor; intros [] | intros d [<-|[]]; exact Hk | rewrite map_length; exact Lv|].
  intros p Hlt. rewrite (nth_indep (map Nat.b2n v) 0 (Nat.b2n false)) by (rewrite map_length; lia). rewrite (map_nth Nat.b2n), Hv by exact Hlt. unfold proj. cbn [map b2n]. destruct (Nat.testbit p k); reflexivity.
Qed.
Lemma fissions_constant f : adicity f = 0 -> fissions f = Err AssertErr.
Proof. intro H. unfold fissions. rewrite H. reflexivity. Qed.

Lemma sequence_ok n dims : NoDup dims -> (forall d, In d dims -> d < n) -> dims <> [] -> exists s, atom_indices_to_sequence dims (Some (2 ^ n)) = Ok s /\ length s = 2 ^ n /\ forall p, p < 2 ^ n -> nth p s 0 = proj dims p.
Proof.
  intros Nd Ld Ne. destruct (atom_sequence_repeat dims (2 ^ n) Nd Ne) as (r & E & Ll & Hr).
  - assert (M : list_max_nat dims < n) by (apply list_max_nat_lt; assumption). replace n with ((n - (list_max_nat dims + 1)) + (list_max_nat dims + 1)) by lia. rewrite Nat.pow_add_r. apply Nat.mod_mul. apply Nat.pow_nonzero. lia.
  - exists r. auto.
Qed.

Lemma others_nil n : others n [] = seq 0 n.
Proof. unfold others. cbn. induction (seq 0 n) as [|x l IH]; [reflexivity|]. cbn. rewrite IH. reflexivity. Qed.
Lemma join_nil n i j : j < 2 ^ n -> join n [] i j = j.
Proof.
  intro H. apply Nat.bits_inj. intro k. destruct (Nat.lt_ge_cases k n) as [Hk|Hk].
  - rewrite join_bit by exact Hk. change (memb k []) with false. cbv iota. f_equal. rewrite others_nil. assert (X := posn_nth (seq 0 n) k (seq_NoDup n 0)). rewrite seq_length, seq_nth in X by exact Hk. apply X. exact Hk.
  - rewrite !testbit_high; [reflexivity | |]; (eapply Nat.lt_le_trans; [|apply Nat.pow_le_mono_r; [|exact Hk]; lia]); [exact H | apply join_lt].
Qed.

Lemma hyperfission_ok f dims : fitting f -> NoDup dims -> (forall d, In d dims -> d < adicity f) -> hyperfission f dims = Ok (hparts f dims).
Proof.
  intros F Nd Ld. destruct dims as [|d [|d' dims]].
  - cbn [hyperfission]. rewrite tt_default by exact F. cbn [bind]. unfold hparts. cbn. do 2 f_equal. unfold hpart.
    assert (L := others_length (adicity f) [] Nd Ld). cbn [length Nat.add] in L. rewrite L. apply map_ext_in. intros j Hj. apply range_In in Hj. rewrite join_nil by exact Hj. reflexivity.
  - assert (H := Ld d (or_introl eq_refl)). cbn [hyperfission]. rewrite fissions_ok by (exact F || lia). cbn [bind]. rewrite (lget_ok _ _ ([], [])) by (rewrite map_length, range_length; exact H). cbn [bind]. rewrite nth_map_r by exact H. reflexivity.
  - cbn [hyperfission]. set (dims' := d :: d' :: dims) in *. destruct (sequence_ok (adicity f) dims' Nd Ld ltac:(discriminate)) as (s & E & Ll & Hs). rewrite E. cbn [bind]. rewrite tt_default by exact F. cbn [bind].
    exact (zip_dims (adicity f) dims' Nd Ld (tab f) s Ll Hs).
Qed.

(** * Walsh spectra *)

Definition hws (f : boolf) (dims : list nat) (i j : nat) : Z :=
  spectrum_entry (length (others (adicity f) dims)) (fun j' => z_of_bool (tab f (join (adicity f) dims i j'))) j.
Definition hwspectrum (f : boolf) (dims : list nat) (i : nat) : list Z := map (hws f dims i) (range (2 ^ length (others (adicity f) dims))).

Lemma fwht_part f dims i : fwht (map z_of_bool (hpart f dims i)) = hwspectrum f dims i.
Proof.
  unfold hwspectrum. rewrite (fwht_spec _ (length (others (adicity f) dims))) by (unfold hpart; rewrite !map_length, range_length; reflexivity).
  apply map_ext. intro j. unfold hws, spectrum_entry. apply zsum_ext. intros j' Hj'. f_equal. unfold hpart. rewrite map_map, nth_map_r by exact Hj'. reflexivity.
Qed.

Lemma hyper_ws_ok f dims : fitting f -> NoDup dims -> (forall d, In d dims -> d < adicity f) -> hyperfission_walsh_spectra f dims = Ok (map (hwspectrum f dims) (range (2 ^ length dims))).
Proof.
  intros F Nd Ld. unfold hyperfission_walsh_spectra. rewrite hyperfission_ok by assumption. cbn [bind]. unfold hparts. rewrite map_map. f_equal. apply map_ext. intro i. apply fwht_part.
Qed.

(** the spectrum entry as a sum over the places with the same bits at the dimensions *)
Definition zentry (f : boolf) (dims : list nat) (p : nat) : Z := part_spectrum (adicity f) (value f) dims p.

Lemma same_at_proj dims p q : same_at dims p q = Nat.eqb (proj dims q) (proj dims p).
Proof.
  apply Bool.eq_iff_eq_true. unfold same_at. rewrite forallb_forall, Nat.eqb_eq. split.
  - intro H. unfold proj. f_equal. apply map_ext_in. intros d Hd. specialize (H d Hd). apply (proj1 (eqb_true_iff _ _)) in H. congruence.
  - intros E d Hd. apply (In_nth _ _ 0) in Hd as (t & Ht & <-). rewrite <- !proj_bit by exact Ht. rewrite E. apply eqb_reflx.
Qed.
Lemma dot_filter keys p q : dot (length keys) (proj keys p) (proj keys q) = Nat.odd (length (filter (fun k => Nat.testbit p k && Nat.testbit q k) keys)).
Proof.
  unfold dot. rewrite (map_ext_in _ (fun t => Nat.testbit p (nth t keys 0) && Nat.testbit q (nth t keys 0))) by (intros t Ht; apply in_seq in Ht; rewrite !proj_bit by lia; reflexivity).
  induction keys as [|k keys IH]; [reflexivity|]. cbn [length seq map nth]. rewrite <- seq_shift, map_map. unfold xor_all in *. cbn [fold_right nth]. rewrite IH. cbn [filter]. destruct (Nat.testbit p k && Nat.testbit q k); cbn [length]; rewrite ?Nat.odd_succ, <- ?Nat.negb_odd, ?xorb_true_l, ?xorb_false_l; reflexivity.
Qed.
Lemma sum_filter (c : nat -> bool) (F : nat -> Z) l : fold_right Z.add 0%Z (map (fun q => if c q then F q else 0%Z) l) = fold_right Z.add 0%Z (map F (filter c l)).
Proof. induction l as [|x l IH]; [reflexivity|]. cbn [map fold_right filter]. rewrite IH. destruct (c x); reflexivity. Qed.

Lemma hws_zentry f dims p : NoDup dims -> (forall d, In d dims -> d < adicity f) -> p < 2 ^ adicity f -> hws f dims (proj dims p) (proj (others (adicity f) dims) p) = zentry f dims p.
Proof.
  intros Nd Ld Hp. unfold zentry, part_spectrum, sum_places. rewrite sum_filter. rewrite (filter_ext _ (fun q => Nat.eqb (proj dims q) (proj dims p))) by (intro q; apply same_at_proj).
  change (seq 0 (2 ^ adicity f)) with (range (2 ^ adicity f)). rewrite (part_places (adicity f) dims Nd Ld (proj dims p) (proj_lt dims p)), map_map. unfold hws, spectrum_entry, zsum. apply zsum_list_ext. intros j Hj. apply in_seq in Hj. f_equal.
  unfold sign_outside, sgn. rewrite <- dot_filter. rewrite proj_join_rest by (assumption || lia). reflexivity.
Qed.

Lemma hyper_zip_ok f dims : fitting f -> NoDup dims -> (forall d, In d dims -> d < adicity f) ->
  hyperfission_walsh_spectra_zipped f dims = Ok (map (zentry f dims) (range (2 ^ adicity f))).
Proof.
  intros F Nd Ld. unfold hyperfission_walsh_spectra_zipped. rewrite hyper_ws_ok by assumption. cbn [bind]. destruct dims as [|d dims].
  - change (lget (map (hwspectrum f []) (range (2 ^ @length nat []))) 0) with (Ok (hwspectrum f [] 0)). f_equal. unfold hwspectrum. assert (L := others_length (adicity f) [] Nd Ld). cbn [length Nat.add] in L. rewrite L. apply map_ext_in. intros p Hp. apply range_In in Hp.
    rewrite <- hws_zentry by assumption. f_equal. symmetry. rewrite <- (join_nil (adicity f) 0 p Hp) at 1. apply proj_join_rest. rewrite L. exact Hp.
  - set (dims' := d :: dims) in *. destruct (sequence_ok (adicity f) dims' Nd Ld ltac:(discriminate)) as (s & E & Ll & Hs). rewrite E. cbn [bind].
    transitivity (vector_zip_together (map (fun i => map (hws f dims' i) (range (2 ^ length (others (adicity f) dims')))) (range (2 ^ length dims'))) s); [reflexivity|].
    rewrite (zip_dims_back (adicity f) dims' Nd Ld (hws f dims') s Ll Hs). f_equal. apply map_ext_in. intros p Hp. apply range_In in Hp. apply hws_zentry; assumption.
Qed.

(** * Labels *)

Lemma filter_all {A} (P : A -> bool) l : (forall x, In x l -> P x = true) -> filter P l = l.
Proof. induction l as [|x l IH]; intro H; [reflexivity|]. cbn. rewrite (H x (or_introl eq_refl)), IH; [reflexivity|]. intros y Hy. apply H. right. exact Hy. Qed.
Lemma filter_no {A} (P : A -> bool) l : (forall x, In x l -> P x = false) -> filter P l = [].
Proof. induction l as [|x l IH]; intro H; [reflexivity|]. cbn. rewrite (H x (or_introl eq_refl)). apply IH. intros y Hy. apply H. right. exact Hy. Qed.
Lemma count_occ_filter (l : list nat) x : count_occ Nat.eq_dec l x = length (filter (fun y => Nat.eqb y x) l).
Proof. induction l as [|y l IH]; [reflexivity|]. cbn. destruct (Nat.eq_dec y x) as [->|H]; [rewrite Nat.eqb_refl; cbn; congruence | rewrite (proj2 (Nat.eqb_neq _ _) H); exact IH]. Qed.

(** the places before p in the same part are as many as the place of p in that part *)
Lemma rank_in_part n dims p : NoDup dims -> (forall d, In d dims -> d < n) -> p < 2 ^ n ->
  length (filter (fun q => Nat.eqb (proj dims q) (proj dims p)) (range p)) = proj (others n dims) p.
Proof.
  intros Nd Ld Hp. set (i := proj dims p). set (j := proj (others n dims) p). set (rest := others n dims).
  assert (Hi : i < 2 ^ length dims) by apply proj_lt. assert (Hj : j < 2 ^ length rest) by apply proj_lt.
  assert (E : range (2 ^ n) = range p ++ seq p (2 ^ n - p)) by (unfold range; replace (2 ^ n) with (p + (2 ^ n - p)) at 1 by lia; apply seq_app).
  assert (X := part_places n dims Nd Ld i Hi). fold rest in X. rewrite E, filter_app in X.
  assert (A : filter (fun q => Nat.ltb q p) (map (join n dims i) (range (2 ^ length rest))) = filter (fun q => Nat.eqb (proj dims q) i) (range p)).
  { rewrite <- X, filter_app. rewrite (filter_all (fun q => Nat.ltb q p)), (filter_no (fun q => Nat.ltb q p)), app_nil_r; [reflexivity | |].
    - intros q Hq. apply filter_In in Hq as [Hq _]. apply in_seq in Hq. apply Nat.ltb_ge. lia.
    - intros q Hq. apply filter_In in Hq as [Hq _]. apply range_In in Hq. apply Nat.ltb_lt. exact Hq. }
  rewrite <- A, filter_length_map. assert (J : p = join n dims i j) by (symmetry; apply join_proj; assumption).
  assert (M : forall a, a < 2 ^ length rest -> Nat.ltb (join n dims i a) p = Nat.ltb a j).
  { intros a Ha. rewrite J. destruct (Nat.lt_trichotomy a j) as [Hl|[->|Hl]].
    - rewrite !(proj2 (Nat.ltb_lt _ _)); [reflexivity | exact Hl | apply join_mono; assumption].
    - rewrite !Nat.ltb_irrefl. reflexivity.
    - rewrite !(proj2 (Nat.ltb_ge _ _)); [reflexivity | lia | apply Nat.lt_le_incl, join_mono; assumption]. }
  rewrite (filter_ext_in _ (fun a => Nat.ltb a j)) by (intros a Ha; apply range_In in Ha; apply M; exact Ha).
  unfold range. replace (2 ^ length rest) with (j + (2 ^ length rest - j)) by lia. rewrite seq_app, filter_app, app_length.
  rewrite filter_all, filter_no, seq_length; [cbn; lia | |]; intros a Ha; apply in_seq in Ha; [apply Nat.ltb_ge | apply Nat.ltb_lt]; lia.
Qed.

Lemma lset_map_range {A} (F : nat -> A) m k x : k < m -> lset (map F (range m)) k x = map (fun j => if Nat.eqb j k then x else F j) (range m).
Proof.
  intro H. apply (nth_ext _ _ x x); [rewrite lset_length, !map_length; reflexivity|]. intros t Ht. rewrite lset_length, map_length, range_length in Ht.
  rewrite Proof_Splits.nth_lset by (rewrite map_length, range_length; exact H). rewrite !nth_map_r by exact Ht. reflexivity.
Qed.
Lemma list_assign_map {A} (F : nat -> A) m k x : k < m -> list_assign (map F (range m)) k x = Ok (map (fun j => if Nat.eqb j k then x else F j) (range m)).
Proof. intro H. unfold list_assign. rewrite (lget_ok _ _ x) by (rewrite map_length, range_length; exact H). cbn [bind]. rewrite lset_map_range by exact H. reflexivity. Qed.

Definition label_rows n dims p : list (list (option nat)) :=
  map (fun i => map (fun j => if Nat.ltb (join n dims i j) p then Some (join n dims i j) else None) (range (2 ^ length (others n dims)))) (range (2 ^ length dims)).

Lemma repeat_map {A} (x : A) m : repeat x m = map (fun _ => x) (range m).
Proof. unfold range. generalize 0. induction m as [|m IH]; intro a; cbn; [reflexivity|]. f_equal. apply IH. Qed.

Lemma label_step n dims p (s c : list nat) : NoDup dims -> (forall d, In d dims -> d < n) -> p < 2 ^ n -> length s = 2 ^ n -> length c = 2 ^ n ->
  nth p s 0 = proj dims p -> nth p c 0 = proj (others n dims) p ->
  (let* outer_index := lget s p in
   let* inner_index := lget c p in
   let* row := lget (label_rows n dims p) outer_index in
   let* row := list_assign row inner_index (Some p) in
   list_assign (label_rows n dims p) outer_index row) = Ok (label_rows n dims (S p)).
Proof.
  intros Nd Ld Hp Ls Lc Es Ec. rewrite (lget_ok _ _ 0) by lia. cbn [bind]. rewrite (lget_ok c _ 0) by lia. cbn [bind]. rewrite Es, Ec.
  set (i := proj dims p). set (j := proj (others n dims) p). assert (Hi : i < 2 ^ length dims) by apply proj_lt. assert (Hj : j < 2 ^ length (others n dims)) by apply proj_lt.
  assert (J : join n dims i j = p) by (apply join_proj; assumption).
  rewrite (lget_ok _ _ []) by (unfold label_rows; rewrite map_length, range_length; exact Hi). cbn [bind]. unfold label_rows at 1. rewrite nth_map_r by exact Hi.
  rewrite list_assign_map by exact Hj. cbn [bind]. unfold label_rows. rewrite list_assign_map by exact Hi. f_equal. apply map_ext_in. intros a Ha. apply range_In in Ha.
  destruct (Nat.eqb_spec a i) as [->|Na]; apply map_ext_in; intros b Hb; apply range_In in Hb.
  - destruct (Nat.eqb_spec b j) as [->|Nb]; [rewrite J; rewrite (proj2 (Nat.ltb_lt _ _)) by lia; reflexivity|].
    assert (Ne : join n dims i b <> p) by (intro E; apply Nb; unfold j; rewrite <- E; symmetry; apply proj_join_rest; assumption).
    destruct (Nat.ltb_spec (join n dims i b) p), (Nat.ltb_spec (join n dims i b) (S p)); try lia; reflexivity.
  - assert (Ne : join n dims a b <> p) by (intro E; apply Na; unfold i; rewrite <- E; symmetry; apply proj_join_dims; assumption).
    destruct (Nat.ltb_spec (join n dims a b) p), (Nat.ltb_spec (join n dims a b) (S p)); try lia; reflexivity.
Qed.

Lemma label_put_fresh d label v : ~ In label (map fst d) -> label_put d label v = d ++ [(label, v)].
Proof.
  assert (E : forall a b, lists_eqb place_eqb a b = true -> a = b).
  { induction a as [|x a IH]; intros [|y b]; cbn; try discriminate; [reflexivity|]. intro H. apply andb_true_iff in H as [H1 H2]. rewrite (IH b H2). f_equal. destruct x, y; cbn in H1; try discriminate; [apply Nat.eqb_eq in H1; congruence | reflexivity]. }
  induction d as [|[l' v'] d IH]; cbn; intro H; [reflexivity|]. destruct (lists_eqb place_eqb label l') eqn:Q; [apply E in Q; subst; tauto|]. rewrite IH; tauto.
Qed.

Lemma label_fold (labels : list (list (option nat))) : NoDup labels -> forall ws k d, map fst d = firstn k labels -> k + length ws = length labels ->
  foldM (fun result (iw : nat * list Z) => let* label := lget labels (fst iw) in Ok (label_put result label (snd iw)))
    (combine (seq k (length ws)) ws) d = Ok (d ++ combine (skipn k labels) ws).
Proof.
  intros N. induction ws as [|w ws IH]; intros k d Hd Hl.
  - cbn. replace (combine (skipn k labels) []) with (@nil (list (option nat) * list Z)) by (destruct (skipn k labels); reflexivity). rewrite app_nil_r. reflexivity.
  - cbn [length] in *. cbn [seq combine foldM fst snd]. rewrite (lget_ok _ _ []) by lia. cbn [bind].
    assert (Sp : labels = firstn k labels ++ nth k labels [] :: skipn (S k) labels).
    { clear - Hl. assert (Hk : k < length labels) by lia. clear Hl. revert k Hk. induction labels as [|x l IH]; intros k Hk; [cbn in Hk; lia|]. destruct k as [|k]; [reflexivity|]. cbn. f_equal. apply IH. cbn in Hk. lia. }
    rewrite label_put_fresh.
    + rewrite (IH (S k)); [| |lia].
      * rewrite <- app_assoc. cbn [app]. do 2 f_equal. replace (skipn k labels) with (nth k labels [] :: skipn (S k) labels); [reflexivity|]. clear - Hl. assert (Hk : k < length labels) by lia. clear Hl. revert k Hk. induction labels as [|x l IH]; intros k Hk; [cbn in Hk; lia|]. destruct k as [|k]; [reflexivity|]. cbn [nth]. change (skipn (S k) (x :: l)) with (skipn k l). rewrite <- IH by (cbn in Hk; lia). reflexivity.
      * rewrite map_app. cbn [map fst]. rewrite Hd. clear - Hl. assert (Hk : k < length labels) by lia. clear Hl. revert k Hk. induction labels as [|x l IH]; intros k Hk; [cbn in Hk; lia|]. destruct k as [|k]; [reflexivity|]. cbn [firstn nth app]. f_equal. apply IH. cbn in Hk. lia.
    + rewrite Hd. intro Hin. rewrite Sp in N. apply NoDup_remove_2 in N. apply N. apply in_or_app. left. exact Hin.
Qed.

Definition final_rows n dims : list (list (option nat)) := map (fun i => map (fun j => Some (join n dims i j)) (range (2 ^ length (others n dims)))) (range (2 ^ length dims)).
Lemma final_rows_ok n dims : label_rows n dims (2 ^ n) = final_rows n dims.
Proof. apply map_ext. intro i. apply map_ext. intro j. rewrite (proj2 (Nat.ltb_lt _ _)) by apply join_lt. reflexivity. Qed.
Lemma final_rows_NoDup n dims : NoDup dims -> (forall d, In d dims -> d < n) -> NoDup (final_rows n dims).
Proof.
  intros Nd Ld. apply Proof_Hyper.NoDup_map_inj; [|apply seq_NoDup]. intros a b Ha Hb E. apply range_In in Ha, Hb.
  assert (P := pow2_pos (length (others n dims))). apply (f_equal (fun l => nth 0 l None)) in E. rewrite !nth_map_r in E by exact P. injection E as E.
  rewrite <- (proj_join_dims n dims Nd Ld a 0 Ha), <- (proj_join_dims n dims Nd Ld b 0 Hb), E. reflexivity.
Qed.

Lemma hyper_label_ok f dims : fitting f -> NoDup dims -> (forall d, In d dims -> d < adicity f) -> dims <> [] ->
  hyperfission_walsh_spectra_labeled f dims = Ok (inr (map (fun i => (map (fun j => Some (join (adicity f) dims i j)) (range (2 ^ length (others (adicity f) dims))), hwspectrum f dims i)) (range (2 ^ length dims)))).
Proof.
  intros F Nd Ld Ne. unfold hyperfission_walsh_spectra_labeled. rewrite hyper_ws_ok by assumption. cbn [bind]. destruct dims as [|d dims]; [congruence|]. set (dims' := d :: dims) in *. set (n := adicity f) in *.
  destruct (sequence_ok n dims' Nd Ld Ne) as (s & E & Ll & Hs). rewrite E. cbn [bind]. assert (Pd := pow2_pos (length dims')).
  set (ws := map (hwspectrum f dims') (range (2 ^ length dims'))). assert (Lw : length ws = 2 ^ length dims') by (unfold ws; rewrite map_length, range_length; reflexivity).
  rewrite (lget_ok ws _ []) by lia. cbv beta zeta. rewrite Lw. unfold ws at 1. rewrite nth_map_r by exact Pd. unfold hwspectrum at 1. fold n. 
  set (c := sequence_to_entry_counts s). destruct (Proof_Seqs.sequence_counts_ok s) as [Lc Hc]. fold c in Lc, Hc.
  set (stp := fun (labels : list (list (option nat))) i => let* outer_index := lget s i in let* inner_index := lget c i in let* row := lget labels outer_index in let* row := list_assign row inner_index (Some i) in list_assign labels outer_index row).
  assert (LP : forall m, m <= 2 ^ n -> foldM stp (range m) (label_rows n dims' 0) = Ok (label_rows n dims' m)).
  { induction m as [|m IH]; intro Hm; [reflexivity|]. unfold range. rewrite seq_S. cbn [Nat.add]. rewrite Proof_SetPartBoolf.foldM_app. change (seq 0 m) with (range m). rewrite IH by lia. cbn [bind foldM].
    unfold stp at 1. rewrite label_step; [reflexivity | exact Nd | exact Ld | lia | exact Ll | lia | apply Hs; lia|]. rewrite Hc by lia. rewrite count_occ_filter. rewrite Hs by lia. rewrite <- (rank_in_part n dims' m Nd Ld) by lia.
    replace (firstn m s) with (map (fun q => proj dims' q) (range m)); [rewrite filter_length_map; reflexivity|].
    apply (nth_ext _ _ 0 0); [rewrite map_length, range_length, firstn_length; lia|]. intros t Ht. rewrite map_length, range_length in Ht. rewrite nth_map_r by exact Ht. rewrite nth_firstn' by exact Ht. symmetry. apply Hs. lia. }
  cbn [bind]. rewrite map_length, range_length. 
  replace (repeat (repeat None (2 ^ length (others n dims'))) (2 ^ length dims')) with (label_rows n dims' 0).
  2:{ unfold label_rows. rewrite (repeat_map (repeat _ _)). apply map_ext. intro i. rewrite (repeat_map (@None nat)). reflexivity. }
  rewrite LP by lia. cbn [bind]. rewrite final_rows_ok. unfold enumerate. rewrite Lw. assert (LF := label_fold (final_rows n dims') (final_rows_NoDup n dims' Nd Ld) ws 0 [] eq_refl). cbn [Nat.add] in LF.
  rewrite Lw in LF. specialize (LF ltac:(unfold final_rows; rewrite map_length, range_length; reflexivity)). change (range (2 ^ length dims')) with (seq 0 (2 ^ length dims')). rewrite LF. cbn [bind app skipn]. do 2 f_equal. unfold ws, final_rows. fold n. clear.
  change (seq 0 (2 ^ length dims')) with (range (2 ^ length dims')). induction (range (2 ^ length dims')) as [|x l IH]; [reflexivity|]. cbn [map combine]. rewrite IH. reflexivity.
Qed.

(** * Parts as places of the function *)

Section Parts.
Variables (n : nat) (dims : list nat).
Hypothesis Nd : NoDup dims.
Hypothesis Ld : forall d, In d dims -> d < n.
Notation rest := (others n dims).

Lemma in_part_proj i p : i < 2 ^ length dims -> in_part dims i p = Nat.eqb (proj dims p) i.
Proof.
  intro Hi. apply Bool.eq_iff_eq_true. unfold in_part. rewrite forallb_forall, Nat.eqb_eq. split.
  - intro H. symmetry. apply proj_unique. split; [exact Hi|]. intros t Ht. apply (proj1 (eqb_true_iff _ _)). apply H. apply in_seq. lia.
  - intros E t Ht. apply in_seq in Ht. rewrite <- proj_bit by lia. rewrite E. apply eqb_reflx.
Qed.
Lemma places_join i : i < 2 ^ length dims -> places n dims i = map (join n dims i) (range (2 ^ length rest)).
Proof. intro Hi. unfold places. rewrite (filter_ext _ (fun p => Nat.eqb (proj dims p) i)) by (intro p; apply in_part_proj; exact Hi). apply part_places; assumption. Qed.

Lemma ones_at_proj keys p : ones_at keys p = count_ones (proj keys p).
Proof.
  unfold ones_at, proj. rewrite (count_ones_eq _ (length (map (Nat.testbit p) keys))) by apply b2n_lt. rewrite n2b_b2n.
  induction keys as [|k keys IH]; [reflexivity|]. cbn [filter map]. destruct (Nat.testbit p k); cbn [length]; rewrite IH; reflexivity.
Qed.
Lemma layer_join i w : i < 2 ^ length dims -> layer n dims i w = map (join n dims i) (weights (length rest) w).
Proof.
  intro Hi. unfold layer. rewrite places_join by exact Hi. rewrite filter_map_comm. f_equal. unfold weights. apply filter_ext_in. intros j Hj. apply range_In in Hj.
  rewrite ones_at_proj, proj_join_rest by exact Hj. reflexivity.
Qed.
Lemma part_map {A} (F : nat -> A) i : i < 2 ^ length dims -> map F (places n dims i) = map (fun j => F (join n dims i j)) (range (2 ^ length rest)).
Proof. intro Hi. rewrite places_join by exact Hi. apply map_map. Qed.
Lemma part_layers {A} (F : nat -> A) i : i < 2 ^ length dims -> flat_to_layered (map F (places n dims i)) = Ok (map (fun w => map F (layer n dims i w)) (range (length rest + 1))).
Proof.
  intro Hi. rewrite part_map by exact Hi. rewrite (flat_to_layered_spec (fun j => F (join n dims i j))). f_equal. apply map_ext. intro w. rewrite layer_join by exact Hi. symmetry. apply map_map.
Qed.
Lemma ones_at_layers i p : In p (places n dims i) -> ones_at rest p < length rest + 1.
Proof. intros _. rewrite ones_at_proj. assert (X := count_ones_le (length rest) _ (proj_lt rest p)). lia. Qed.
End Parts.

Lemma hpart_places f dims i : NoDup dims -> (forall d, In d dims -> d < adicity f) -> i < 2 ^ length dims -> hpart f dims i = map (value f) (places (adicity f) dims i).
Proof. intros Nd Ld Hi. rewrite part_map by assumption. reflexivity. Qed.
Lemma hwspectrum_places f dims i : NoDup dims -> (forall d, In d dims -> d < adicity f) -> i < 2 ^ length dims -> hwspectrum f dims i = map (part_spectrum (adicity f) (value f) dims) (places (adicity f) dims i).
Proof.
  intros Nd Ld Hi. rewrite part_map by assumption. unfold hwspectrum. apply map_ext_in. intros j Hj. apply range_In in Hj. fold (zentry f dims (join (adicity f) dims i j)).
  rewrite <- hws_zentry by (assumption || apply join_lt). rewrite proj_join_dims, proj_join_rest by assumption. reflexivity.
Qed.

Lemma single k n : k < n -> NoDup [k] /\ (forall d, In d [k] -> d < n).
Proof. intro H. split; [repeat constructor; intros [] | intros d [<-|[]]; exact H]. Qed.
Lemma single_length k n : k < n -> length (others n [k]) + 1 = n.
Proof. intro H. destruct (single k n H) as [Nd Ld]. assert (X := others_length n [k] Nd Ld). cbn in X. lia. Qed.

Lemma fissions_places f : fitting f -> 0 < adicity f -> fissions f = Ok (map (fun k => (map (value f) (places (adicity f) [k] 0), map (value f) (places (adicity f) [k] 1))) (range (adicity f))).
Proof.
  intros F H. rewrite fissions_ok by assumption. f_equal. apply map_ext_in. intros k Hk. apply range_In in Hk. destruct (single k _ Hk) as [Nd Ld]. rewrite !hpart_places by (assumption || (cbn; lia)). reflexivity.
Qed.

Lemma mapM_range {A B} (F : nat -> A) (g : A -> res B) (h : nat -> B) m : (forall k, k < m -> g (F k) = Ok (h k)) -> mapM g (map F (range m)) = Ok (map h (range m)).
Proof.
  intro H. assert (X : forall l, (forall k, In k l -> k < m) -> mapM g (map F l) = Ok (map h l)).
  { induction l as [|k l IH]; intro Hl; [reflexivity|]. cbn [map mapM]. rewrite H by (apply Hl; left; reflexivity). cbn [bind]. rewrite IH by (intros; apply Hl; right; assumption). reflexivity. }
  apply X. intros k Hk. apply range_In in Hk. exact Hk.
Qed.

Lemma fissions_layered_places f : fitting f -> 0 < adicity f -> fissions_layered f =
  Ok (map (fun k => (map (fun w => map (fun p => Nat.b2n (value f p)) (layer (adicity f) [k] 0 w)) (range (adicity f)),
                     map (fun w => map (fun p => Nat.b2n (value f p)) (layer (adicity f) [k] 1 w)) (range (adicity f)))) (range (adicity f))).
Proof.
  intros F H. unfold fissions_layered. rewrite fissions_places by assumption. cbn [bind]. apply mapM_range. intros k Hk. cbn [fst snd]. destruct (single k _ Hk) as [Nd Ld].
  rewrite !map_map. rewrite !part_layers by (assumption || (cbn; lia)). cbn [bind]. rewrite single_length by exact Hk. reflexivity.
Qed.

Lemma fissions_weight_layered_ok f : fitting f -> 0 < adicity f -> fissions_weight_layered f =
  Ok (map (fun k => (map (fun w => length (filter (value f) (layer (adicity f) [k] 0 w))) (range (adicity f)),
                     map (fun w => length (filter (value f) (layer (adicity f) [k] 1 w))) (range (adicity f)))) (range (adicity f))).
Proof.
  intros F H. unfold fissions_weight_layered. rewrite fissions_layered_places by assumption. cbn [bind]. rewrite map_map. f_equal. apply map_ext. intro k. cbn [fst snd]. rewrite !map_map.
  f_equal; apply map_ext; intro w; apply sum_b2n.
Qed.

Lemma sum_layers (g : nat -> nat) (P : nat -> bool) m l : (forall x, In x l -> g x < m) -> list_sum_nat (map (fun w => length (filter P (filter (fun x => Nat.eqb (g x) w) l))) (range m)) = length (filter P l).
Proof.
  induction l as [|x l IH]; intro H.
  - cbn [filter length]. clear. induction (range m) as [|a r IH]; [reflexivity|]. exact IH.
  - assert (Hx := H x (or_introl eq_refl)). specialize (IH (fun y Hy => H y (or_intror Hy))).
    transitivity (Nat.b2n (P x) + list_sum_nat (map (fun w => length (filter P (filter (fun y => Nat.eqb (g y) w) l))) (range m))); [|rewrite IH; cbn [filter]; destruct (P x); reflexivity].
    clear IH H. assert (E : forall w, length (filter P (filter (fun y => Nat.eqb (g y) w) (x :: l))) = (if Nat.eqb (g x) w then Nat.b2n (P x) else 0) + length (filter P (filter (fun y => Nat.eqb (g y) w) l))).
    { intro w. cbn [filter]. destruct (Nat.eqb (g x) w); [|reflexivity]. cbn [filter]. destruct (P x); reflexivity. }
    rewrite (map_ext _ _ E). clear E. unfold list_sum_nat. 
    assert (A : forall r, NoDup r -> fold_right Nat.add 0 (map (fun w => (if Nat.eqb (g x) w then Nat.b2n (P x) else 0) + length (filter P (filter (fun y => Nat.eqb (g y) w) l))) r) =
      (if existsb (Nat.eqb (g x)) r then Nat.b2n (P x) else 0) + fold_right Nat.add 0 (map (fun w => length (filter P (filter (fun y => Nat.eqb (g y) w) l))) r)).
    { induction 1 as [|a r Ha Nr IH]; [reflexivity|]. cbn [map fold_right existsb]. rewrite IH. destruct (Nat.eqb_spec (g x) a) as [E|]; cbn [orb]; [|lia].
      destruct (existsb (Nat.eqb (g x)) r) eqn:Q; [|lia]. apply existsb_exists in Q as (b & Hb & Eb). apply Nat.eqb_eq in Eb. subst. contradiction. }
    rewrite A by apply seq_NoDup. destruct (existsb (Nat.eqb (g x)) (range m)) eqn:Q; [reflexivity|]. exfalso. assert (X : existsb (Nat.eqb (g x)) (range m) = true) by (apply existsb_exists; exists (g x); split; [apply range_In; exact Hx | apply Nat.eqb_refl]). congruence.
Qed.

Lemma fissions_weight_ok f : fitting f -> 0 < adicity f -> fissions_weight f =
  Ok (map (fun k => (length (filter (value f) (places (adicity f) [k] 0)), length (filter (value f) (places (adicity f) [k] 1)))) (range (adicity f))).
Proof.
  intros F H. unfold fissions_weight. rewrite fissions_weight_layered_ok by assumption. cbn [bind]. rewrite map_map. f_equal. apply map_ext_in. intros k Hk. apply range_In in Hk. cbn [fst snd].
  f_equal; unfold layer; apply sum_layers; intros p Hp; apply ones_at_layers in Hp; rewrite single_length in Hp by exact Hk; exact Hp.
Qed.

Lemma fission_ws_ok f : fitting f -> 0 < adicity f -> fission_walsh_spectra f =
  Ok (map (fun k => (map (part_spectrum (adicity f) (value f) [k]) (places (adicity f) [k] 0), map (part_spectrum (adicity f) (value f) [k]) (places (adicity f) [k] 1))) (range (adicity f))).
Proof.
  intros F H. unfold fission_walsh_spectra. rewrite fissions_ok by assumption. cbn [bind]. rewrite map_map. f_equal. apply map_ext_in. intros k Hk. apply range_In in Hk. cbn [fst snd]. destruct (single k _ Hk) as [Nd Ld].
  rewrite !fwht_part, !hwspectrum_places by (assumption || (cbn; lia)). reflexivity.
Qed.
Lemma layered_pairs_ok f G : layered_pairs (map (fun k => (map (G k) (places (adicity f) [k] 0), map (G k) (places (adicity f) [k] 1))) (range (adicity f))) =
  Ok (map (fun k => (map (fun w => map (G k) (layer (adicity f) [k] 0 w)) (range (adicity f)), map (fun w => map (G k) (layer (adicity f) [k] 1 w)) (range (adicity f)))) (range (adicity f))).
Proof.
  unfold layered_pairs. apply mapM_range. intros k Hk. cbn [fst snd]. destruct (single k _ Hk) as [Nd Ld].
  rewrite !part_layers by (assumption || (cbn; lia)). cbn [bind]. rewrite single_length by exact Hk. reflexivity.
Qed.
Lemma fission_zip_ok f : fitting f -> 0 < adicity f -> fission_walsh_spectra_zipped f = Ok (map (fun k => map (part_spectrum (adicity f) (value f) [k]) (range (2 ^ adicity f))) (range (adicity f))).
Proof.
  intros F H. unfold fission_walsh_spectra_zipped. destruct (atompatterns_spec (adicity f) H) as (ps & E & Ll & Hp). rewrite E. cbn [bind]. rewrite <- (map_id (range (adicity f))) at 1. apply mapM_range. intros k Hk.
  destruct (Hp k Hk) as (v & Ev & Lv & Hv). rewrite (lget_ok _ _ []) by lia. cbn [bind]. rewrite (nth_error_nth _ _ _ Ev). unfold fission_walsh_spectra. rewrite fissions_ok by assumption. cbn [bind]. rewrite map_map.
  rewrite (lget_ok _ _ ([], [])) by (rewrite map_length, range_length; exact Hk). cbn [bind]. rewrite nth_map_r by exact Hk. cbn [fst snd]. rewrite !fwht_part. destruct (single k _ Hk) as [Nd Ld].
  assert (Z := zip_dims_back (adicity f) [k] Nd Ld (hws f [k]) (map Nat.b2n v)). 
  transitivity (vector_zip_together (map (fun i => map (hws f [k] i) (range (2 ^ length (others (adicity f) [k])))) (range (2 ^ length [k]))) (map Nat.b2n v)); [reflexivity|].
  rewrite Z; [f_equal; apply map_ext_in; intros p Hlt; apply range_In in Hlt; apply hws_zentry; assumption | rewrite map_length; exact Lv|].
  intros p Hlt. rewrite (nth_indep (map Nat.b2n v) 0 (Nat.b2n false)) by (rewrite map_length; lia). rewrite (map_nth Nat.b2n), Hv by exact Hlt. unfold proj. cbn [map b2n]. destruct (Nat.testbit p k); reflexivity.
Qed.

(** * Rejected dimensions *)

Lemma nodupb_length_eq (l : list nat) : Nat.eqb (length (nodupb l)) (length l) = true -> NoDup l.
Proof. intro H. apply nodupb_length, Nat.eqb_eq, H. Qed.

Lemma hyper_reject f dims : 2 <= length dims -> ~ (NoDup dims /\ forall d, In d dims -> d < adicity f) -> hyperfission f dims = Err AssertErr.
Proof.
  intros L2 H. assert (E : hyperfission f dims = (let* sequence := atom_indices_to_sequence dims (Some (2 ^ adicity f)) in let* tt := boolf_tt f TtDefault in vector_zip_apart tt sequence)) by (destruct dims as [|a [|b l]]; cbn in L2; try lia; reflexivity).
  rewrite E. clear E. destruct (Nat.eqb (length (nodupb dims)) (length dims)) eqn:N; cycle 1.
  - unfold atom_indices_to_sequence. rewrite N. reflexivity.
  - assert (Nd := nodupb_length_eq dims N). assert (Ne : dims <> []) by (intros ->; cbn in L2; lia).
    destruct (atom_sequence_ok dims Nd Ne) as [r [E [L _]]].
    assert (X : atom_indices_to_sequence dims (Some (2 ^ adicity f)) = repeat_sequence r (2 ^ adicity f)).
    { unfold atom_indices_to_sequence in *. rewrite N in *. cbn [true_except bind] in *. destruct dims; [congruence|]. cbn zeta in *. destruct (foldM _ _ _) as [r'|e]; [|discriminate]. cbn [bind] in *. now injection E as ->. }
    rewrite X. unfold repeat_sequence. rewrite L. assert (P := pow2_pos (list_max_nat dims + 1)). rewrite (proj2 (Nat.eqb_neq _ 0)) by lia.
    assert (M : adicity f <= list_max_nat dims).
    { destruct (Nat.le_gt_cases (adicity f) (list_max_nat dims)) as [G|G]; [exact G|]. exfalso. apply H. split; [exact Nd|]. apply list_max_nat_lt; assumption. }
    assert (Lt : 2 ^ adicity f < 2 ^ (list_max_nat dims + 1)) by (apply Nat.pow_lt_mono_r; lia).
    rewrite Nat.mod_small by exact Lt. assert (P' := pow2_pos (adicity f)). rewrite (proj2 (Nat.eqb_neq _ 0)) by lia. reflexivity.
Qed.
Lemma hyper_reject_one f d : fitting f -> adicity f <= d -> hyperfission f [d] = Err (if Nat.eqb (adicity f) 0 then AssertErr else IndexErr).
Proof.
  intros F H. cbn [hyperfission]. destruct (Nat.eqb_spec (adicity f) 0) as [E|E]; [rewrite fissions_constant by exact E; reflexivity|].
  rewrite fissions_ok by (exact F || lia). cbn [bind]. unfold lget. rewrite (proj2 (nth_error_None _ _)) by (rewrite map_length, range_length; exact H). reflexivity.
Qed.

Lemma filter_filter {A} (P Q : A -> bool) l : filter P (filter Q l) = filter (fun x => Q x && P x) l.
Proof. induction l as [|x l IH]; [reflexivity|]. cbn. destruct (Q x); cbn; [destruct (P x)|]; rewrite IH; reflexivity. Qed.
