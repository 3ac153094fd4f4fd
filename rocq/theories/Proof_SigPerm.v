(** Proof_SigPerm: signed permutations - sequences, matrices, constructor, group operations. *)

From Coq Require Import List Arith ZArith Bool Lia Permutation Sorted.
From Verif Require Import Model_Base Lib Model_Perm Model_Binary Model_SigPerm Spec_Perm Spec_SigPerm Spec_Bits.
From Verif Require Import Proof_Perm Proof_PermGroup Proof_Inversions Proof_Listing Proof_PermMore Proof_Binary Proof_Helpers.
Import ListNotations.
Open Scope nat_scope.

(** * Literals *)

Lemma logic_abs_atom z : logic_abs z = atom z.
Proof. unfold logic_abs, atom, neg, tilde. destruct (Z.ltb_spec z 0); f_equal; lia. Qed.

Lemma tilde_neg z : tilde z = neg z.
Proof. unfold tilde, neg. lia. Qed.

Lemma atom_nat k : atom (Z.of_nat k) = k.
Proof. unfold atom, neg. lia. Qed.

Lemma atom_neg z : atom (neg z) = atom z.
Proof. unfold atom, neg. f_equal. lia. Qed.

Lemma neg_neg z : neg (neg z) = z.
Proof. unfold neg. lia. Qed.

Lemma negated_neg z : negated (neg z) = negb (negated z).
Proof. unfold negated, neg. destruct (Z.ltb_spec (-1 - z) 0), (Z.ltb_spec z 0); try reflexivity; lia. Qed.

Lemma negated_nat k : negated (Z.of_nat k) = false.
Proof. apply Z.ltb_ge. lia. Qed.

Lemma literal_split z : z = if negated z then neg (Z.of_nat (atom z)) else Z.of_nat (atom z).
Proof. unfold negated, atom, neg. destruct (Z.ltb_spec z 0); lia. Qed.

Definition lit (k : nat) (b : bool) : Z := if b then neg (Z.of_nat k) else Z.of_nat k.

Lemma atom_lit k b : atom (lit k b) = k.
Proof. destruct b; unfold lit; [rewrite atom_neg|]; apply atom_nat. Qed.
Lemma negated_lit k b : negated (lit k b) = b.
Proof. destruct b; unfold lit; [rewrite negated_neg|]; rewrite negated_nat; reflexivity. Qed.
Lemma lit_inj k b k' b' : lit k b = lit k' b' -> k = k' /\ b = b'.
Proof.
  intro H. split; [rewrite <- (atom_lit k b), H; apply atom_lit | rewrite <- (negated_lit k b), H; apply negated_lit].
Qed.
Lemma lit_of z : lit (atom z) (negated z) = z.
Proof. symmetry. apply literal_split. Qed.
Lemma on_lit f k b : on_literals f (lit k b) = if b then neg (f k) else f k.
Proof. unfold on_literals. rewrite atom_lit, negated_lit. reflexivity. Qed.
Lemma neg_lit k b : neg (lit k b) = lit k (negb b).
Proof. destruct b; cbn; [apply neg_neg | reflexivity]. Qed.

(** * Negators *)

Lemma required_length_le v : binv_required_length v <= length v.
Proof. apply required_length_spec. intros i Hi. apply nth_overflow. exact Hi. Qed.

Lemma nth_padded v k i : nth i (v ++ repeat false k) false = nth i v false.
Proof.
  destruct (Nat.lt_ge_cases i (length v)) as [H|H].
  - apply app_nth1. exact H.
  - rewrite app_nth2 by exact H. rewrite (nth_overflow v) by exact H.
    destruct (Nat.lt_ge_cases (i - length v) k); [apply nth_repeat | apply nth_overflow; rewrite repeat_length; assumption].
Qed.

Lemma required_length_ext v w : (forall i, nth i v false = nth i w false) -> binv_required_length v = binv_required_length w.
Proof.
  intro H. apply Nat.le_antisymm; apply required_length_spec; intros i Hi.
  - rewrite H. eapply required_length_spec; [|exact Hi]. reflexivity.
  - rewrite <- H. eapply required_length_spec; [|exact Hi]. reflexivity.
Qed.

(** * Objects *)

Record swf (s : sigperm) : Prop := {
  sw_perm : wf (sg_perm s);
  sw_fin : perilen (sg_perm s) = None;
  sw_len : sg_length s = Nat.max (binv_required_length (sg_binv s)) (plength (sg_perm s));
  sw_binv : sg_length s <= length (sg_binv s)
}.

Definition sbit (s : sigperm) (k : nat) : bool := nth k (sg_binv s) false.
(** the image of atom k *)
Definition sf (s : sigperm) (k : nat) : Z :=
  lit (pget (sg_perm s) k) (sbit s (pget (sg_perm s) k)).

Lemma sf_atom s k : atom (sf s k) = pget (sg_perm s) k.
Proof. apply atom_lit. Qed.
Lemma sf_negated s k : negated (sf s k) = sbit s (pget (sg_perm s) k).
Proof. apply negated_lit. Qed.

Lemma sig_finish_spec raw p : wf p -> perilen p = None ->
  swf (sig_finish raw p) /\ (forall k, sbit (sig_finish raw p) k = nth k raw false) /\
  (length raw <= Nat.max (binv_required_length raw) (plength p) -> length (sg_binv (sig_finish raw p)) = sg_length (sig_finish raw p)).
Proof.
  intros Hw Hp. unfold sig_finish. split; [|split].
  - constructor; cbn [sg_perm sg_binv sg_length]; [exact Hw | exact Hp | |].
    + f_equal. apply required_length_ext. intro i. symmetry. apply nth_padded.
    + rewrite app_length, repeat_length. lia.
  - intro k. unfold sbit. cbn [sg_binv]. apply nth_padded.
  - intro H. cbn [sg_binv sg_length]. rewrite app_length, repeat_length. lia.
Qed.

Section Object.
  Variable s : sigperm.
  Hypothesis Hs : swf s.

  Lemma s_stays n k : sg_length s <= n -> k < n -> pget (sg_perm s) k < n.
  Proof using Hs.
    intros Hn Hk. destruct Hs as [Hw Hp Hl _]. apply (finite_stays _ n Hw Hp); lia.
  Qed.

  Lemma s_fix k : sg_length s <= k -> pget (sg_perm s) k = k.
  Proof using Hs.
    intro H. destruct Hs as [Hw Hp Hl _]. apply (wf_finite_seq _ Hw Hp). lia.
  Qed.

  Lemma sbit_high k : sg_length s <= k -> sbit s k = false.
  Proof using Hs.
    intro H. destruct Hs as [_ _ Hl _]. eapply required_length_spec; [|exact H]. lia.
  Qed.

  Lemma sf_high k : sg_length s <= k -> sf s k = Z.of_nat k.
  Proof using Hs. intro H. unfold sf. rewrite s_fix by exact H. rewrite sbit_high by exact H. reflexivity. Qed.

  Lemma sf_stays n k : sg_length s <= n -> k < n -> atom (sf s k) < n.
  Proof using Hs. intros. rewrite sf_atom. apply s_stays; assumption. Qed.

  Lemma s_bij : bijective (pget (sg_perm s)).
  Proof using Hs. apply pget_bij, Hs. Qed.

  Lemma sequence_minimal_spec : sg_sequence_minimal s = Ok (map (sf s) (range (sg_length s))).
  Proof using Hs.
    unfold sg_sequence_minimal. assert (Hle : plength (sg_perm s) <= sg_length s) by (destruct Hs as [_ _ Hl _]; lia).
    unfold psequence. rewrite (sw_fin s Hs). rewrite (proj2 (Nat.leb_le _ _) Hle). cbn [true_except bind].
    unfold logic_negate_which.
    assert (E : forallb (fun w => memb w (logic_abs_vector (map Z.of_nat (map (pget (sg_perm s)) (range (sg_length s))))))
        (binv_exposet (sg_binv s)) = true).
    { apply forallb_forall. intros w Hin. apply binv_exposet_In in Hin. apply memb_In.
      unfold logic_abs_vector. rewrite !map_map. apply in_map_iff.
      destruct (proj2 s_bij w) as [k Hk]. exists k. rewrite logic_abs_atom, atom_nat. split; [exact Hk|].
      apply range_In. destruct (Nat.lt_ge_cases k (sg_length s)) as [|Hge]; [assumption|]. exfalso.
      rewrite s_fix in Hk by exact Hge. subst w. assert (Hb := sbit_high k Hge). unfold sbit in Hb. congruence. }
    rewrite E. cbn [true_except bind]. f_equal. rewrite !map_map. apply map_ext. intro k.
    rewrite logic_abs_atom, atom_nat, tilde_neg. unfold sf, lit.
    destruct (sbit s (pget (sg_perm s) k)) eqn:Eb.
    - rewrite (proj2 (memb_In _ _)); [reflexivity|]. apply binv_exposet_In. exact Eb.
    - rewrite (proj2 (memb_false _ _)); [reflexivity|]. intro Hin. apply binv_exposet_In in Hin. unfold sbit in Eb. congruence.
  Qed.

  Lemma sequence_ok n : sg_length s <= n -> sg_sequence s (Some n) = Ok (map (sf s) (range n)).
  Proof using Hs.
    intro H. unfold sg_sequence. rewrite (proj2 (Nat.leb_le _ _) H). cbn [true_except bind].
    rewrite sequence_minimal_spec. cbn [bind]. f_equal.
    unfold range, range2. replace n with (sg_length s + (n - sg_length s)) at 2 by lia. rewrite seq_app, map_app. cbn [Nat.add].
    f_equal. apply map_ext_in. intros k Hk. apply in_seq in Hk. symmetry. apply sf_high. lia.
  Qed.

  Lemma sequence_none : sg_sequence s None = Ok (map (sf s) (range (sg_length s))).
  Proof using Hs.
    rewrite <- (sequence_ok (sg_length s) (le_n _)). unfold sg_sequence.
    rewrite (proj2 (Nat.leb_le _ _) (le_n _)). reflexivity.
  Qed.

  Lemma sequence_short n : n < sg_length s -> sg_sequence s (Some n) = Err ValueErr.
  Proof. intro H. unfold sg_sequence. rewrite (proj2 (Nat.leb_gt _ _) H). reflexivity. Qed.

  Lemma entry_iff k z : entry s k z <-> z = sf s k.
  Proof using Hs.
    split.
    - intros [n [l [E Hl]]]. destruct (Nat.lt_ge_cases n (sg_length s)) as [H|H].
      + rewrite sequence_short in E by exact H. discriminate.
      + rewrite sequence_ok in E by exact H. injection E as <-. rewrite nth_error_map in Hl.
        destruct (nth_error (range n) k) as [x|] eqn:Ex; [|discriminate]. cbn in Hl. injection Hl as <-.
        assert (Hk : k < n).
        { assert (H2 : nth_error (range n) k <> None) by congruence. apply nth_error_Some in H2. rewrite range_length in H2. exact H2. }
        apply nth_error_nth with (d := 0) in Ex. rewrite nth_range in Ex by exact Hk. congruence.
    - intros ->. exists (Nat.max (sg_length s) (S k)), (map (sf s) (range (Nat.max (sg_length s) (S k)))).
      split; [apply sequence_ok; lia|]. rewrite nth_error_map.
      rewrite (nth_error_nth' _ 0) by (rewrite range_length; lia). rewrite nth_range by lia. reflexivity.
  Qed.

  Lemma acts_sf f : acts s f <-> forall k, f k = sf s k.
  Proof using Hs. unfold acts. split; intros H k; [apply entry_iff, H | apply entry_iff; apply H]. Qed.

  (** the length is the least number from which on nothing changes *)
  Lemma length_least n : sg_length s <= n <-> forall k, n <= k -> sf s k = Z.of_nat k.
  Proof using Hs.
    split; [intros H k Hk; apply sf_high; lia|]. intro H.
    assert (Hfix : forall k, n <= k -> pget (sg_perm s) k = k).
    { intros k Hk. rewrite <- (sf_atom s k), H by exact Hk. apply atom_nat. }
    assert (Hbit : forall k, n <= k -> sbit s k = false).
    { intros k Hk. rewrite <- (Hfix k Hk) at 1. rewrite <- sf_negated, H by exact Hk. apply negated_nat. }
    rewrite (sw_len s Hs). apply Nat.max_lub.
    - apply required_length_spec. exact Hbit.
    - destruct (wf_finite_seq _ (sw_perm s Hs) (sw_fin s Hs)) as [_ [_ [_ Hlast]]].
      destruct (Nat.le_gt_cases (plength (sg_perm s)) n) as [|Hgt]; [assumption|]. exfalso.
      apply Hlast; [lia|]. apply Hfix. lia.
  Qed.
End Object.

(** * Matrices *)

Definition mkmat (n : nat) (g : nat -> nat -> Z) : list (list Z) := map (fun m => map (g m) (range n)) (range n).

Definition sgn (z : Z) : Z := if negated z then (-1)%Z else 1%Z.
Definition fmat (n : nat) (f : nat -> Z) : list (list Z) :=
  mkmat n (fun m k => if Nat.eqb (atom (f k)) m then sgn (f k) else 0%Z).

Lemma nth_map_range {A} (f : nat -> A) n k d : k < n -> nth k (map f (range n)) d = f k.
Proof.
  intro H. rewrite (nth_indep _ d (f 0)) by (rewrite map_length, range_length; exact H).
  rewrite map_nth, nth_range by exact H. reflexivity.
Qed.

Lemma map_range_ext {A} (f g : nat -> A) n : (forall k, k < n -> f k = g k) -> map f (range n) = map g (range n).
Proof. intro H. apply map_ext_in. intros k Hk. apply H, range_In. exact Hk. Qed.

Lemma mkmat_ext n g h : (forall i j, i < n -> j < n -> g i j = h i j) -> mkmat n g = mkmat n h.
Proof.
  intro H. unfold mkmat. apply map_range_ext. intros i Hi. apply map_range_ext. intros j Hj. apply H; assumption.
Qed.

Lemma mkmat_entry n g i j : i < n -> j < n -> mat_entry (mkmat n g) i j = g i j.
Proof. intros Hi Hj. unfold mat_entry, mkmat. rewrite nth_map_range by exact Hi. apply nth_map_range. exact Hj. Qed.

Lemma mkmat_length n g : length (mkmat n g) = n.
Proof. unfold mkmat. rewrite map_length. apply range_length. Qed.

Lemma lset_map_range {A} (f : nat -> A) n i x : i < n ->
  lset (map f (range n)) i x = map (fun k => if Nat.eqb k i then x else f k) (range n).
Proof.
  intro H. apply nth_ext with (d := x) (d' := x).
  - rewrite lset_length, !map_length. reflexivity.
  - rewrite lset_length, map_length, range_length. intros k Hk.
    rewrite lset_nth by (rewrite map_length, range_length; exact H).
    rewrite !nth_map_range by exact Hk. reflexivity.
Qed.

Lemma mat_set_spec n g i j x : i < n -> j < n ->
  mat_set (mkmat n g) i j x = Ok (mkmat n (fun a b => if Nat.eqb a i && Nat.eqb b j then x else g a b)).
Proof.
  intros Hi Hj. unfold mat_set. rewrite (lget_ok _ i []) by (rewrite mkmat_length; exact Hi). cbn [bind]. f_equal.
  unfold mkmat at 1 2. rewrite nth_map_range by exact Hi. rewrite (lset_map_range (g i)) by exact Hj. rewrite lset_map_range by exact Hi.
  unfold mkmat. apply map_range_ext. intros a Ha. destruct (Nat.eqb_spec a i) as [->|]; apply map_range_ext; reflexivity.
Qed.

Lemma fill_columns n : forall l c g, c + length l <= n -> (forall z, In z l -> atom z < n) ->
  (forall a b, c <= b -> g a b = 0%Z) ->
  foldM (fun mat (cs : nat * Z) => mat_set mat (logic_abs (snd cs)) (fst cs) (if (snd cs <? 0)%Z then (-1)%Z else 1%Z))
        (combine (seq c (length l)) l) (mkmat n g) =
  Ok (mkmat n (fun a b => if Nat.ltb b c then g a b
                          else match nth_error l (b - c) with
                               | Some z => if Nat.eqb (atom z) a then sgn z else 0%Z
                               | None => 0%Z end)).
Proof.
  induction l as [|z l IH]; intros c g Hlen Hin Hz; cbn [length seq combine foldM].
  - f_equal. apply mkmat_ext. intros a b _ _. destruct (Nat.ltb_spec b c) as [|Hb]; [reflexivity|].
    rewrite Hz by exact Hb. destruct (b - c); reflexivity.
  - cbn [fst snd]. cbn [length] in Hlen. rewrite logic_abs_atom.
    rewrite mat_set_spec; [|apply Hin; left; reflexivity | lia]. cbn [bind].
    rewrite IH; [|lia | intros y Hy; apply Hin; right; exact Hy |].
    + f_equal. apply mkmat_ext. intros a b _ _.
      destruct (Nat.lt_trichotomy b c) as [Hb|[->|Hb]].
      * rewrite (proj2 (Nat.ltb_lt b (S c))), (proj2 (Nat.ltb_lt b c)), (proj2 (Nat.eqb_neq b c)) by lia.
        rewrite andb_false_r. reflexivity.
      * rewrite (proj2 (Nat.ltb_lt c (S c))), (proj2 (Nat.ltb_ge c c)) by lia. rewrite Nat.sub_diag, Nat.eqb_refl, andb_true_r. cbn [nth_error].
        rewrite (Nat.eqb_sym a). unfold sgn, negated. destruct (Nat.eqb (atom z) a); [reflexivity|]. apply Hz. lia.
      * rewrite (proj2 (Nat.ltb_ge b (S c))), (proj2 (Nat.ltb_ge b c)) by lia. replace (b - c) with (S (b - S c)) by lia. reflexivity.
    + intros a b Hb. rewrite (proj2 (Nat.eqb_neq b c)) by lia. rewrite andb_false_r. apply Hz. lia.
Qed.

Lemma zero_mat n : repeat (repeat 0%Z n) n = mkmat n (fun _ _ => 0%Z).
Proof.
  assert (H : forall A (x : A), repeat x n = map (fun _ => x) (range n)).
  { intros A x. unfold range. generalize 0. induction n as [|m IH]; intro k; [reflexivity|]. cbn [repeat seq map]. rewrite (IH (S k)). reflexivity. }
  unfold mkmat. rewrite (H _ (repeat 0%Z n)). rewrite (H _ 0%Z). reflexivity.
Qed.

Lemma sequence_to_matrix_ok n f : (forall k, k < n -> atom (f k) < n) ->
  sequence_to_matrix (map f (range n)) false = Ok (fmat n f).
Proof.
  intro H. unfold sequence_to_matrix. rewrite map_length, range_length. rewrite zero_mat.
  unfold enumerate. rewrite (fill_columns n (map f (range n)) 0).
  - cbn [bind]. f_equal. apply mkmat_ext. intros a b _ Hb. rewrite (proj2 (Nat.ltb_ge b 0)) by lia. rewrite Nat.sub_0_r.
    rewrite (nth_error_nth' _ 0%Z) by (rewrite map_length, range_length; exact Hb). rewrite nth_map_range by exact Hb. reflexivity.
  - rewrite map_length, range_length. lia.
  - intros z Hz. apply in_map_iff in Hz as [k [<- Hk]]. apply range_In in Hk. apply H. exact Hk.
  - reflexivity.
Qed.

Lemma flat_map_single {A} (f : nat -> list A) n i x : i < n -> f i = [x] -> (forall k, k < n -> k <> i -> f k = []) ->
  flat_map f (range n) = [x].
Proof.
  intros Hi Hx Ho. unfold range. replace n with (i + S (n - S i)) by lia. rewrite seq_app, flat_map_app. cbn [seq flat_map Nat.add].
  rewrite Hx.
  assert (E : forall l, (forall k, In k l -> k < n /\ k <> i) -> flat_map f l = []).
  { induction l as [|k l IH]; intro H; [reflexivity|]. cbn [flat_map]. rewrite IH by (intros; apply H; right; assumption).
    rewrite Ho; [reflexivity | |]; apply H; left; reflexivity. }
  rewrite !E; [reflexivity| |]; intros k Hk; apply in_seq in Hk; lia.
Qed.

Lemma flat_map_map {A B} (f : A -> B) l : flat_map (fun x => [f x]) l = map f l.
Proof. induction l as [|x l IH]; [reflexivity|]. cbn. rewrite IH. reflexivity. Qed.

Lemma flat_map_ext_in {A B} (f g : A -> list B) l : (forall x, In x l -> f x = g x) -> flat_map f l = flat_map g l.
Proof.
  induction l as [|x l IH]; intro H; [reflexivity|]. cbn. rewrite H by (left; reflexivity).
  rewrite IH by (intros; apply H; right; assumption). reflexivity.
Qed.

Lemma matrix_to_sequence_ok n f : (forall k, k < n -> atom (f k) < n) ->
  matrix_to_sequence (fmat n f) = Ok (map f (range n)).
Proof.
  intro H. unfold matrix_to_sequence. cbv zeta. rewrite (mkmat_length n _ : length (fmat n f) = n).
  rewrite (proj2 (forallb_forall _ _)).
  2: { intros row Hr. unfold fmat, mkmat in Hr. apply in_map_iff in Hr as [m [<- _]]. rewrite map_length, range_length. apply Nat.eqb_refl. }
  cbn [true_except bind]. f_equal. rewrite <- flat_map_map. apply flat_map_ext_in. intros k Hk. apply range_In in Hk.
  apply (flat_map_single _ n (atom (f k))).
  - apply H. exact Hk.
  - unfold fmat. rewrite mkmat_entry by (try apply H; exact Hk). rewrite Nat.eqb_refl.
    transitivity [lit (atom (f k)) (negated (f k))]; [|rewrite lit_of; reflexivity].
    unfold sgn. rewrite tilde_neg. destruct (negated (f k)); reflexivity.
  - intros m Hm Hne. unfold fmat. rewrite mkmat_entry by assumption. rewrite (proj2 (Nat.eqb_neq (atom (f k)) m)) by congruence. reflexivity.
Qed.

Lemma fold_add_single (g : nat -> Z) n i : i < n -> (forall k, k < n -> k <> i -> g k = 0%Z) ->
  fold_left (fun acc k => acc + g k)%Z (range n) 0%Z = g i.
Proof.
  intros Hi H.
  assert (Z0 : forall l a, (forall k, In k l -> g k = 0%Z) -> fold_left (fun acc k => acc + g k)%Z l a = a).
  { induction l as [|k l IH]; intros a Hl; [reflexivity|]. cbn [fold_left]. rewrite Hl by (left; reflexivity). rewrite IH.
    - lia.
    - intros; apply Hl; right; assumption. }
  unfold range. replace n with (i + S (n - S i)) by lia. rewrite seq_app, fold_left_app. cbn [seq fold_left Nat.add].
  rewrite Z0.
  - rewrite Z0.
    + lia.
    + intros k Hk. apply in_seq in Hk. apply H; lia.
  - intros k Hk. apply in_seq in Hk. apply H; lia.
Qed.

Lemma mat_dot_ok n f g : (forall k, k < n -> atom (g k) < n) ->
  mat_dot n (fmat n f) (fmat n g) = fmat n (fun k => on_literals f (g k)).
Proof.
  intro H. unfold mat_dot. change (mkmat n (fun m k => fold_left (fun acc j => (acc + mat_entry (fmat n f) m j * mat_entry (fmat n g) j k)%Z) (range n) 0%Z)
    = fmat n (fun k => on_literals f (g k))).
  apply mkmat_ext. intros m k Hm Hk. rewrite (fold_add_single _ n (atom (g k))).
  - unfold fmat. rewrite !mkmat_entry by (try apply H; assumption). rewrite Nat.eqb_refl.
    unfold on_literals. destruct (negated (g k)) eqn:E.
    + rewrite atom_neg. destruct (Nat.eqb (atom (f (atom (g k)))) m); [|reflexivity].
      unfold sgn. rewrite negated_neg, E. destruct (negated (f (atom (g k)))); reflexivity.
    + destruct (Nat.eqb (atom (f (atom (g k)))) m); [|reflexivity].
      unfold sgn. rewrite E. destruct (negated (f (atom (g k)))); reflexivity.
  - apply H. exact Hk.
  - intros j Hj Hne. unfold fmat. rewrite (mkmat_entry n _ j k) by assumption. rewrite (proj2 (Nat.eqb_neq (atom (g k)) j)) by congruence. lia.
Qed.

Lemma transpose_ok n f g : (forall k, k < n -> atom (f k) < n) -> (forall k, k < n -> atom (g k) < n) ->
  (forall k, k < n -> on_literals f (g k) = Z.of_nat k) -> (forall k, k < n -> on_literals g (f k) = Z.of_nat k) ->
  transpose_matrix n (fmat n f) = fmat n g.
Proof.
  intros Hf Hg H1 H2. unfold transpose_matrix. apply mkmat_ext. intros m k Hm Hk. unfold fmat. rewrite mkmat_entry by assumption.
  assert (A : forall f g k, on_literals f (g k) = Z.of_nat k -> atom (f (atom (g k))) = k /\ sgn (f (atom (g k))) = sgn (g k)).
  { intros f0 g0 j Hj. unfold on_literals in Hj. unfold sgn. destruct (negated (g0 j)).
    - rewrite <- (neg_neg (f0 (atom (g0 j)))), Hj, atom_neg, negated_neg, negated_nat. split; [apply atom_nat | reflexivity].
    - rewrite Hj, negated_nat. split; [apply atom_nat | reflexivity]. }
  destruct (A f g k (H1 k Hk)) as [A1 A2]. destruct (A g f m (H2 m Hm)) as [A3 A4].
  destruct (Nat.eqb_spec (atom (f m)) k) as [E|E]; destruct (Nat.eqb_spec (atom (g k)) m) as [E'|E']; try reflexivity.
  - rewrite <- E', A2. reflexivity.
  - rewrite <- E in E'. congruence.
  - rewrite <- E' in E. congruence.
Qed.
