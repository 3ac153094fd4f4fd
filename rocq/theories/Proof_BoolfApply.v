(** Proof_BoolfApply: [val], [vals], [apply] and [apply_sigperm] are substitution. *)

From Coq Require Import List Arith ZArith Bool Lia Sorted Permutation.
From Verif Require Import Model_Base Lib Model_Binary Model_Perm Model_SigPerm Model_WalshPerm Model_Boolf
  Spec_Bits Spec_Perm Spec_SigPerm Spec_WalshPerm Spec_Boolf
  Proof_Binary Proof_Helpers Proof_Numbers Proof_Linear Proof_Perm Proof_SigPerm Proof_Deflate Proof_Reorder Proof_Boolf Proof_BoolfTable.
Import ListNotations.
Open Scope nat_scope.

(** * val *)

Lemma val_spec f args : length (root f) = 2 ^ valency f -> length args = valency f -> args <> [] ->
  boolf_val f args = Ok (nth (b2n args) (root f) false).
Proof.
  intros Hr Hl Hne. unfold boolf_val. rewrite (proj2 (Nat.eqb_eq _ _) Hl). cbn [true_except bind]. destruct args as [|x args]; [congruence|].
  rewrite binv_intval_eq. apply lget_ok. rewrite Hr, <- Hl. apply b2n_lt.
Qed.

Lemma val_lists_spec f args n : length (root f) = 2 ^ valency f -> length args = valency f -> args <> [] ->
  (forall a, In a args -> length a = n) ->
  boolf_val_lists f args = Ok (map (fun i => nth (b2n (map (fun a => nth i a false) args)) (root f) false) (range n)).
Proof.
  intros Hr Hl Hne Hn. unfold boolf_val_lists. rewrite (proj2 (Nat.eqb_eq _ _) Hl). cbn [true_except bind].
  destruct args as [|a args'] eqn:Ea; [congruence|]. rewrite <- Ea in *. rewrite (Hn a) by (rewrite Ea; left; reflexivity).
  apply mapM_ok. intros i Hi. apply range_In in Hi.
  rewrite (mapM_ok _ (fun arg => nth i arg false)) by (intros x Hx; apply lget_ok; rewrite (Hn x Hx); exact Hi). cbn [bind].
  apply val_spec; [exact Hr | rewrite map_length; exact Hl | rewrite Ea; discriminate].
Qed.

(** * vals *)

Lemma atom_of_atom z : atom_of z = atom z.
Proof. unfold atom_of, atom, neg. destruct (Z.ltb_spec z 0); f_equal; lia. Qed.

Lemma patterns_gen n l : (forall z, In z l -> atom z < n) ->
  exists ps, mapM (fun atom => make_atompattern atom n false) l = Ok ps /\ length ps = length l /\ (forall p, In p ps -> length p = 2 ^ n) /\
    forall i, i < 2 ^ n -> map (fun p => nth i p false) ps = map (litval (Nat.testbit i)) l.
Proof.
  induction l as [|z l IH]; intro H.
  - exists []. split; [reflexivity|]. split; [reflexivity|]. split; [intros p [] | reflexivity].
  - destruct (atompattern_spec z n false) as [p [E [Hl Hp]]]; [rewrite atom_of_atom; apply H; left; reflexivity|].
    destruct IH as [ps [Es [Hs [Hls Hps]]]]; [intros y Hy; apply H; right; exact Hy|].
    exists (p :: ps). cbn [mapM]. rewrite E. cbn [bind]. rewrite Es. cbn [bind]. split; [reflexivity|]. split; [cbn; congruence|]. split.
    + intros q [<-|Hq]; [exact Hl | apply Hls; exact Hq].
    + intros i Hi. cbn [map]. f_equal; [|apply Hps; exact Hi]. rewrite Hp by exact Hi. rewrite atom_of_atom, xorb_false_l. reflexivity.
Qed.

Lemma patterns_spec l : (forall z, In z l -> atom z < length l) ->
  exists ps, make_atompatterns_list l = Ok ps /\ length ps = length l /\ (forall p, In p ps -> length p = 2 ^ length l) /\
    forall i, i < 2 ^ length l -> map (fun p => nth i p false) ps = map (litval (Nat.testbit i)) l.
Proof. apply patterns_gen. Qed.

Lemma logic_abs_map l : logic_abs_vector l = map atom l.
Proof. unfold logic_abs_vector. apply map_ext. apply logic_abs_atom. Qed.

Lemma sort_range_iff l n : list_eqb (sort_nat l) (range n) = true <-> Permutation l (range n).
Proof. rewrite list_eqb_eq. apply sort_nat_range. Qed.

Lemma vals_spec f l : length (root f) = 2 ^ valency f -> 0 < valency f -> length l = valency f -> Permutation (map atom l) (range (valency f)) ->
  boolf_vals f l = Ok (map (fun i => nth (b2n (map (litval (Nat.testbit i)) l)) (root f) false) (range (2 ^ valency f))).
Proof.
  intros Hr Hv Hl HP. unfold boolf_vals. rewrite (proj2 (Nat.eqb_eq _ _) Hl). cbn [true_except bind].
  rewrite logic_abs_map, (proj2 (sort_range_iff _ _) HP). cbn [true_except bind].
  destruct (patterns_spec l) as [ps [E [L [Lp Hp]]]].
  { intros z Hz. rewrite Hl. apply range_In. rewrite <- HP. apply in_map. exact Hz. }
  rewrite E. cbn [bind]. rewrite Hl in *.
  rewrite (val_lists_spec f ps (2 ^ valency f)); [| exact Hr | congruence | destruct ps; [cbn in L; lia | discriminate] | exact Lp].
  f_equal. unfold range. apply map_ext_in. intros i Hi. apply in_seq in Hi. rewrite Hp by lia. reflexivity.
Qed.

Lemma vals_reject f l : ~ (length l = valency f /\ Permutation (map atom l) (range (valency f))) ->
  exists e, boolf_vals f l = Err e.
Proof.
  intro H. unfold boolf_vals. destruct (Nat.eqb_spec (length l) (valency f)) as [E|E]; cbn [true_except bind]; [|eexists; reflexivity].
  rewrite logic_abs_map. destruct (list_eqb _ _) eqn:E2; [|eexists; reflexivity]. apply sort_range_iff in E2. exfalso. apply H. split; assumption.
Qed.

(** * apply *)

Lemma index_of_In x l : In x l -> exists i, index_of x l = Ok i /\ i < length l /\ nth i l 0 = x.
Proof.
  induction l as [|y l IH]; intro H; [destruct H|]. cbn [index_of]. destruct (Nat.eqb_spec x y) as [->|Hne].
  - exists 0. cbn. split; [reflexivity|]. split; [lia | reflexivity].
  - destruct H as [->|H]; [congruence|]. destruct (IH H) as [i [E [Hi Hn]]]. rewrite E. cbn [bind]. exists (S i). cbn. split; [reflexivity|]. split; [lia | exact Hn].
Qed.

Lemma positions l s : (forall x, In x l -> In x s) ->
  exists ks, mapM (fun a => index_of a s) l = Ok ks /\ length ks = length l /\
    forall i, i < length l -> nth i ks 0 < length s /\ nth (nth i ks 0) s 0 = nth i l 0.
Proof.
  induction l as [|x l IH]; intro H.
  - exists []. split; [reflexivity|]. split; [reflexivity|]. intros i Hi. cbn in Hi. lia.
  - destruct (index_of_In x s (H x (or_introl eq_refl))) as [i [E [Hi Hn]]].
    destruct IH as [ks [Ek [Hk Hks]]]; [intros y Hy; apply H; right; exact Hy|].
    exists (i :: ks). cbn [mapM]. rewrite E. cbn [bind]. rewrite Ek. cbn [bind]. split; [reflexivity|]. split; [cbn; congruence|].
    intros [|j] Hj; cbn [nth length] in *; [split; assumption | apply Hks; lia].
Qed.

(** the keys with the signs of the literals *)
Definition signed (ks : list nat) (l : list Z) : list Z :=
  map (fun kn : nat * bool => logic_negate (Z.of_nat (fst kn)) (snd kn)) (combine ks (map (fun z => Z.ltb z 0) l)).

Lemma signed_litval (e e' : assignment) ks l : length ks = length l ->
  (forall i, i < length l -> e (nth i ks 0) = e' (atom (nth i l 0%Z))) -> map (litval e) (signed ks l) = map (litval e') l.
Proof.
  revert l; induction ks as [|k ks IH]; intros [|z l] Hl H; try discriminate Hl; [reflexivity|].
  unfold signed in *. cbn [map combine]. f_equal.
  - specialize (H 0). cbn in H. unfold litval. rewrite <- H by lia. cbn [fst snd]. unfold logic_negate, negated.
    destruct (Z.ltb_spec z 0) as [Hz|Hz].
    + assert (E1 : atom (tilde (Z.of_nat k)) = k) by (unfold atom, tilde, neg; lia). rewrite E1. unfold tilde. rewrite (proj2 (Z.ltb_lt _ _)) by lia. reflexivity.
    + assert (E1 : atom (Z.of_nat k) = k) by (unfold atom, neg; lia). rewrite E1. rewrite (proj2 (Z.ltb_ge _ _)) by lia. reflexivity.
  - apply IH; [injection Hl; auto|]. intros i Hi. apply (H (S i)). cbn. lia.
Qed.

Lemma signed_atoms ks l : length ks = length l -> map atom (signed ks l) = ks.
Proof.
  revert l; induction ks as [|k ks IH]; intros [|z l] Hl; try discriminate Hl; [reflexivity|].
  unfold signed in *. cbn [map combine fst snd]. f_equal; [|apply IH; injection Hl; auto].
  unfold logic_negate. destruct (z <? 0)%Z; unfold atom, tilde, neg; lia.
Qed.

Lemma signed_length ks l : length ks = length l -> length (signed ks l) = length ks.
Proof. intro H. unfold signed. rewrite map_length, combine_length, map_length. lia. Qed.

Lemma sub_range_perm ks n : NoDup ks -> length ks = n -> (forall k, In k ks -> k < n) -> Permutation ks (range n).
Proof.
  intros Hn Hl H. apply NoDup_Permutation_bis; [exact Hn | rewrite range_length; lia |]. intros k Hk. apply range_In. apply H. exact Hk.
Qed.

Lemma apply_spec f l : fitting f -> 0 < valency f -> length l = valency f -> NoDup (map atom l) ->
  exists g, boolf_apply f l = Ok g /\ reduced g /\ forall e, sem g e = nth (b2n (map (litval e) l)) (root f) false.
Proof.
  intros [Hs Hr] Hv Hl Hn. unfold boolf_apply. rewrite (proj2 (Nat.eqb_eq _ _) Hl). cbn [true_except bind]. cbv zeta.
  rewrite logic_abs_map. set (av := map atom l) in *. set (s := sort_nat av).
  assert (Hal : length av = valency f) by (unfold av; rewrite map_length; exact Hl).
  assert (Hsl : length s = valency f) by (unfold s; rewrite sort_nat_length; exact Hal).
  destruct (positions av s) as [ks [Ek [Hkl Hks]]]; [intros x Hx; apply sort_nat_In; exact Hx|]. rewrite Ek. cbn [bind].
  fold (signed ks l). assert (Hkl' : length ks = length l) by congruence.
  assert (Hkn : NoDup ks).
  { apply (NoDup_nth ks 0). rewrite Hkl. intros i j Hi Hj E. destruct (Hks i Hi) as [_ E1]. destruct (Hks j Hj) as [_ E2].
    apply (proj1 (NoDup_nth av 0) Hn); [exact Hi | exact Hj | congruence]. }
  rewrite vals_spec; [| exact Hr | exact Hv | rewrite signed_length by exact Hkl'; congruence |].
  2:{ rewrite signed_atoms by exact Hkl'. apply sub_range_perm; [exact Hkn | congruence |]. intros k Hk. apply (In_nth _ _ 0) in Hk as [i [Hi <-]].
      rewrite <- Hsl. apply Hks. lia. }
  cbn [bind]. destruct (Boolf_vec_sorted (map (fun i => nth (b2n (map (litval (Nat.testbit i)) (signed ks l))) (root f) false) (range (2 ^ valency f))) s) as [g [Eg [Rg Sg]]].
  { apply sort_nat_ascending. exact Hn. } { rewrite map_length, range_length, Hsl. reflexivity. }
  exists g. split; [exact Eg|]. split; [exact Rg|]. intro e. rewrite Sg. unfold table. assert (Hlt := b2n_lt (map e s)). rewrite map_length, Hsl in Hlt.
  rewrite (nth_map_range (fun i => nth (b2n (map (litval (Nat.testbit i)) (signed ks l))) (root f) false)) by exact Hlt.
  f_equal. f_equal. apply signed_litval; [exact Hkl'|]. intros i Hi. rewrite testbit_b2n.
  destruct (Hks i) as [H1 H2]; [lia|]. rewrite (nth_indep _ false (e 0)) by (rewrite map_length; exact H1). rewrite map_nth, H2.
  unfold av. rewrite (nth_indep _ 0 (atom 0%Z)) by (rewrite map_length; exact Hi). rewrite map_nth. reflexivity.
Qed.

(** in terms of assignments *)
Lemma apply_subst f l g e e' : fitting f -> length l = valency f ->
  (forall e, sem g e = nth (b2n (map (litval e) l)) (root f) false) ->
  (forall k, k < valency f -> e' (nth k (atomvals f) 0) = litval e (nth k l 0%Z)) -> sem g e = sem f e'.
Proof.
  intros Hf Hl Hg H. rewrite Hg. unfold sem, table. f_equal. f_equal. apply (nth_ext _ _ (litval e 0%Z) (e' 0)); [rewrite !map_length; exact Hl|].
  intros k Hk. rewrite map_length, Hl in Hk. rewrite !map_nth. symmetry. apply H. exact Hk.
Qed.

Lemma apply_reject f l : ~ (length l = valency f /\ NoDup (map atom l)) -> exists e, boolf_apply f l = Err e.
Proof.
  intro H. unfold boolf_apply. destruct (Nat.eqb_spec (length l) (valency f)) as [E|E]; cbn [true_except bind]; [|eexists; reflexivity].
  cbv zeta. rewrite logic_abs_map. set (av := map atom l) in *. set (s := sort_nat av).
  destruct (positions av s) as [ks [Ek [Hkl Hks]]]; [intros x Hx; apply sort_nat_In; exact Hx|]. rewrite Ek. cbn [bind]. fold (signed ks l).
  assert (Hkl' : length ks = length l) by (rewrite Hkl; unfold av; apply map_length).
  destruct (vals_reject f (signed ks l)) as [e Ee]; [|rewrite Ee; eexists; reflexivity].
  intros [_ P]. rewrite signed_atoms in P by exact Hkl'. apply H. split; [exact E|].
  assert (Hn : NoDup ks) by (eapply Permutation_NoDup; [symmetry; exact P | apply range_NoDup]).
  apply (NoDup_nth av 0). intros i j Hi Hj Eij.
  (* equal atoms have equal positions *)
  assert (G : forall s l ks i j, mapM (fun a => index_of a s) l = Ok ks -> i < length l -> j < length l -> nth i l 0 = nth j l 0 -> nth i ks 0 = nth j ks 0).
  { clear. intros s l ks i j E Hi Hj Eq. assert (F : forall i, i < length l -> index_of (nth i l 0) s = Ok (nth i ks 0)).
    { clear i j Hi Hj Eq. revert ks E; induction l as [|x l IH]; intros ks E i Hi; [cbn in Hi; lia|]. cbn [mapM] in E.
      destruct (index_of x s) as [k|] eqn:Ex; [|discriminate E]. cbn [bind] in E. destruct (mapM _ l) as [ks'|] eqn:Em; [|discriminate E].
      cbn [bind] in E. injection E as <-. destruct i as [|i]; [exact Ex|]. cbn [nth]. apply IH; [reflexivity | cbn in Hi; lia]. }
    assert (A := F i Hi). assert (B := F j Hj). rewrite Eq in A. congruence. }
  apply (proj1 (NoDup_nth ks 0) Hn); [lia | lia | eapply G; eassumption].
Qed.

(** * apply_sigperm *)

Lemma fitting_const f : fitting f -> atomvals f = [] -> forall e, sem f e = nth 0 (root f) false.
Proof. intros _ E e. unfold sem, table. rewrite E. reflexivity. Qed.

Lemma apply_sequence_spec f (F : nat -> Z) n : fitting f -> 0 < valency f -> adicity f <= n ->
  (forall i j, In i (atomvals f) -> In j (atomvals f) -> atom (F i) = atom (F j) -> i = j) ->
  exists g, apply_sequence f (map F (range n)) = Ok g /\ reduced g /\ forall e, sem g e = sem f (fun a => litval e (F a)).
Proof.
  intros Hf Hv Hn Hi. unfold apply_sequence.
  rewrite (mapM_ok _ F).
  2:{ intros a Ha. assert (Hlt := adicity_bound f a Ha). rewrite (lget_ok _ a 0%Z) by (rewrite map_length, range_length; lia).
      f_equal. rewrite (nth_indep _ 0%Z (F 0)) by (rewrite map_length, range_length; lia). rewrite map_nth, nth_range by lia. reflexivity. }
  cbn [bind]. destruct (apply_spec f (map F (atomvals f))) as [g [Eg [Rg Sg]]]; [exact Hf | exact Hv | apply map_length | |].
  { rewrite map_map. assert (Hnd := fitting_NoDup f Hf). clear -Hi Hnd. revert Hi. induction Hnd as [|a l Ha Hn IH]; intro Hi; cbn [map]; constructor.
    - intro C. apply in_map_iff in C as [b [E Hb]]. apply Ha. rewrite (Hi a b); [exact Hb | left; reflexivity | right; exact Hb | symmetry; exact E].
    - apply IH. intros i j H1 H2. apply Hi; right; assumption. }
  exists g. split; [exact Eg|]. split; [exact Rg|]. intro e. rewrite Sg, map_map. reflexivity.
Qed.

(** the objects made with skip_deflation *)
Definition wellmade (f : boolf) : Prop :=
  fitting f /\ (is_inflated f = true <-> exists a, In a (atomvals f) /\ ~ essential (sem f) a) /\
  (is_constant f = true <-> atomvals f = []).

Lemma reduced_wellmade f : reduced f -> wellmade f.
Proof.
  intros [Hf [He [Hi Hc]]]. split; [exact Hf|]. split; [|exact Hc]. rewrite Hi. split; [discriminate|]. intros [a [Ha Hn]]. exfalso. apply Hn, He, Ha.
Qed.
Coercion reduced_wellmade : reduced >-> wellmade.

Lemma constant_fitting_sem f : wellmade f -> is_constant f = true -> forall e e', sem f e = sem f e'.
Proof. intros R C e e'. apply sem_ext. intros a Ha. apply (proj2 (proj2 R)) in C. rewrite C in Ha. destruct Ha. Qed.

Lemma valency_pos f : wellmade f -> is_constant f = false -> 0 < valency f.
Proof.
  intros R C. unfold valency. destruct (atomvals f) eqn:E; [|cbn; lia]. exfalso. destruct R as [_ [_ H]]. apply H in E. congruence.
Qed.

Lemma constant_reduced f : wellmade f -> is_constant f = true -> reduced f.
Proof.
  intros (Hf & Hi & Hc) C. assert (E := proj1 Hc C). split; [exact Hf|]. rewrite E. split; [intros a []|]. split; [|tauto].
  apply not_true_is_false. intro X. apply Hi in X as (a & Ha & _). rewrite E in Ha. destruct Ha.
Qed.

(** the value depends on the assignment *)
Definition changing (f : boolf) : Prop := exists e e', sem f e <> sem f e'.
Lemma changing_valued f : wellmade f -> changing f -> is_constant f = false.
Proof. intros W (e & e' & H). apply not_true_is_false. intro C. apply H, (constant_fitting_sem f W C). Qed.
Lemma reduced_changing f : reduced f -> is_constant f = false -> changing f.
Proof.
  intros R C. assert (V := valency_pos f R C). unfold valency in V. destruct (atomvals f) as [|a l] eqn:Ea; [cbn in V; lia|].
  destruct (proj1 (proj2 R) a) as (e & He); [rewrite Ea; left; reflexivity|]. exists (upd e a true), (upd e a false). exact He.
Qed.

Lemma apply_sigperm_spec f s : wellmade f -> swf s ->
  exists g, apply_sigperm f s = Ok g /\ reduced g /\ forall e, sem g e = sem f (fun a => litval e (sf s a)).
Proof.
  intros R Hs. unfold apply_sigperm. destruct (is_constant f) eqn:C.
  - exists f. split; [reflexivity|]. split; [apply constant_reduced; assumption|]. intro e. apply constant_fitting_sem; assumption.
  - rewrite (sequence_ok s Hs) by lia. cbn [bind]. apply apply_sequence_spec; [apply R | apply valency_pos; assumption | lia |].
    intros i j _ _ E. rewrite !sf_atom in E. apply (proj1 (s_bij s Hs)). exact E.
Qed.

Lemma litval_neg e z : litval e (neg z) = negb (litval e z).
Proof. unfold litval. rewrite atom_neg, negated_neg. destruct (e (atom z)), (negated z); reflexivity. Qed.

Lemma litval_on (F : nat -> Z) e z : litval (fun a => litval e (F a)) z = litval e (on_literals F z).
Proof.
  unfold on_literals. unfold litval at 1. destruct (negated z); [rewrite litval_neg, xorb_true_r | rewrite xorb_false_r]; reflexivity.
Qed.
