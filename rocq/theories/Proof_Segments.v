(** Proof_Segments: the collection of segments. *)

From Coq Require Import List Arith ZArith Bool Lia Permutation Sorted Relations.
From Verif Require Import Model_Base Lib Model_Binary Model_Boolf Model_Splits Model_Segments
  Spec_Bits Spec_Boolf Spec_Splits Spec_Segments Proof_Binary Proof_Boolf Proof_Splits.
Import ListNotations.
Open Scope nat_scope.

Lemma lset_lset {A} (l : list A) k x y : lset (lset l k x) k y = lset l k y.
Proof. revert k; induction l as [|a l IH]; intros [|k]; cbn [lset]; [reflexivity..|]. rewrite IH. reflexivity. Qed.

Lemma lset_nth {A} (l : list A) k d : k < length l -> lset l k (nth k l d) = l.
Proof. revert k; induction l as [|a l IH]; intros [|k] H; cbn [lset nth]; [reflexivity..|]. rewrite IH by (cbn in H; lia). reflexivity. Qed.

Lemma lset_In {A} (l : list A) k x y : In y (lset l k x) -> y = x \/ In y l.
Proof. revert k; induction l as [|a l IH]; intros [|k]; cbn [lset In]; [tauto | tauto | intuition |]. intros [H|H]; [auto|]. apply IH in H. tauto. Qed.

Lemma zvec_eqb_eq a b : zvec_eqb a b = true <-> a = b.
Proof.
  revert b; induction a as [|x a IH]; intros [|y b]; cbn [zvec_eqb]; try (split; congruence).
  rewrite andb_true_iff, Z.eqb_eq, IH. split; [intros [-> ->]; reflexivity | intro H; injection H; auto].
Qed.

Lemma inquire_In c v : inquire c v = true <-> In v (segs c).
Proof. unfold inquire. rewrite existsb_exists. split; [intros [x [H E]]; apply zvec_eqb_eq in E; subst; exact H | intro H; exists v; split; [exact H | apply zvec_eqb_eq; reflexivity]]. Qed.

Lemma in_segs_dec c v : In v (segs c) \/ ~ In v (segs c).
Proof. destruct (inquire c v) eqn:E; [left; apply inquire_In; exact E | right; intro H; apply inquire_In in H; congruence]. Qed.

(** * Keys *)

Lemma keys_where_In {A} (p : A -> bool) l k d : In k (keys_where p l) <-> k < length l /\ p (nth k l d) = true.
Proof.
  unfold keys_where. rewrite in_map_iff.
  assert (H : forall s, In k (map fst (filter (fun kv : nat * A => p (snd kv)) (combine (seq s (length l)) l))) <-> s <= k < s + length l /\ p (nth (k - s) l d) = true).
  { induction l as [|a l IH]; intro s; cbn [length seq combine filter map]; [split; [intros []|lia]|]. cbn [snd].
    assert (E : In k (map fst (filter (fun kv : nat * A => p (snd kv)) (combine (seq (S s) (length l)) l))) <-> s < k < s + S (length l) /\ p (nth (k - s) (a :: l) d) = true).
    { rewrite IH. split; intros [H1 H2]; (split; [lia|]); [replace (k - s) with (S (k - S s)) by lia; exact H2 | replace (k - s) with (S (k - S s)) in H2 by lia; exact H2]. }
    destruct (p a) eqn:Pa; cbn [map fst In].
    - rewrite E. split.
      + intros [<-|H]; [split; [lia|]; rewrite Nat.sub_diag; exact Pa | split; [lia | tauto]].
      + intros [H1 H2]. destruct (Nat.eq_dec s k) as [|Hn]; [left; assumption | right; split; [lia | exact H2]].
    - rewrite E. split; [intros [H1 H2]; split; [lia | exact H2]|]. intros [H1 H2]. split; [|exact H2]. destruct (Nat.eq_dec s k) as [<-|]; [|lia]. rewrite Nat.sub_diag in H2. cbn [nth] in H2. congruence. }
  specialize (H 0). rewrite Nat.sub_0_r in H. rewrite <- in_map_iff. unfold range. rewrite H. split; intros [H1 H2]; (split; [lia | exact H2]).
Qed.

Lemma zero_keys_In v k : In k (zero_keys v) <-> k < length v /\ nth k v 0%Z = 0%Z.
Proof. unfold zero_keys. rewrite (keys_where_In _ v k 0%Z), Z.eqb_eq. reflexivity. Qed.
Lemma sign_keys_In v k : In k (sign_keys v) <-> k < length v /\ nth k v 0%Z <> 0%Z.
Proof. unfold sign_keys. rewrite (keys_where_In _ v k 0%Z), negb_true_iff, Z.eqb_neq. reflexivity. Qed.

Lemma dimension_lset v k x : k < length v -> nth k v 0%Z = 0%Z -> x <> 0%Z -> S (dimension (lset v k x)) = dimension v.
Proof.
  unfold dimension. revert k; induction v as [|a v IH]; intros k H Ha Hx; [inversion H|]. destruct k as [|k]; cbn [lset nth filter] in *.
  - subst a. cbn [Z.eqb]. apply Z.eqb_neq in Hx. rewrite Hx. reflexivity.
  - destruct (Z.eqb a 0); cbn [length]; [f_equal|]; (apply IH; [cbn in H; lia | exact Ha | exact Hx]).
Qed.

Lemma dimension_le v : dimension v <= length v.
Proof. unfold dimension. induction v as [|a v IH]; cbn [filter length]; [lia|]. destruct (Z.eqb a 0); cbn [length]; lia. Qed.

Lemma dimension_zero v : dimension v = 0 <-> forall k, k < length v -> nth k v 0%Z <> 0%Z.
Proof.
  unfold dimension. induction v as [|a v IH]; cbn [filter length]; [split; [intros _ k H; lia | reflexivity]|].
  destruct (Z.eqb_spec a 0) as [->|Ha]; cbn [length].
  - split; [discriminate|]. intro H. exfalso. apply (H 0); [lia | reflexivity].
  - rewrite IH. split; [intros H [|k] Hk; cbn [nth]; [exact Ha | apply H; lia] | intros H k Hk; apply (H (S k)); lia].
Qed.

Lemma dimension_pos v : dimension v <> 0 -> exists k, k < length v /\ nth k v 0%Z = 0%Z.
Proof.
  unfold dimension. induction v as [|a v IH]; cbn [filter length]; [intros []; reflexivity|].
  destruct (Z.eqb_spec a 0) as [->|Ha]; [intros _; exists 0; split; [lia | reflexivity]|]. intro H. destruct (IH H) as [k [H1 H2]]. exists (S k). split; [lia | exact H2].
Qed.

(** * Ternary vectors *)

Lemma ternary_lset n w k x : ternary n w -> x = (-1)%Z \/ x = 0%Z \/ x = 1%Z -> ternary n (lset w k x).
Proof. intros [H1 H2] Hx. split; [rewrite lset_length; exact H1|]. intros y Hy. apply lset_In in Hy as [->|Hy]; auto. Qed.

Lemma ternary_nth n w k : ternary n w -> nth k w 0%Z = (-1)%Z \/ nth k w 0%Z = 0%Z \/ nth k w 0%Z = 1%Z.
Proof. intros [H1 H2]. destruct (nth_in_or_default k w 0%Z) as [H| ->]; auto. Qed.

Fixpoint all_ternary (n : nat) : list (list Z) :=
  match n with 0 => [[]] | S n' => flat_map (fun x => map (cons x) (all_ternary n')) [-1; 0; 1]%Z end.
Lemma all_ternary_In n w : In w (all_ternary n) <-> ternary n w.
Proof.
  revert w; induction n as [|n IH]; intro w; cbn [all_ternary].
  - cbn. split; [intros [<-|[]]; split; [reflexivity | intros ? []] | intros [H _]; destruct w; [left; reflexivity | discriminate H]].
  - rewrite in_flat_map. split.
    + intros [x [Hx Hw]]. apply in_map_iff in Hw as [w' [<- Hw]]. apply IH in Hw as [H1 H2]. split; [cbn; lia|]. intros y [<-|Hy]; [cbn in Hx; intuition | auto].
    + intros [H1 H2]. destruct w as [|x w]; [discriminate H1|]. exists x. split; [cbn; specialize (H2 x (or_introl eq_refl)); intuition|]. apply in_map, IH. split; [cbn in H1; lia | intros y Hy; apply H2; right; exact Hy].
Qed.
Lemma all_ternary_length n : length (all_ternary n) = 3 ^ n.
Proof. induction n as [|n IH]; [reflexivity|]. cbn [all_ternary flat_map]. rewrite !app_length, !map_length, IH. cbn. lia. Qed.

(** * Flipping a sign, replacing it by zero *)

Definition flip (w : list Z) (k : nat) : list Z := lset w k (- nth k w 0)%Z.
Definition sup (w : list Z) (k : nat) : list Z := lset w k 0%Z.

Lemma flip_flip w k : k < length w -> flip (flip w k) k = w.
Proof.
  intro H. unfold flip. rewrite lset_lset, nth_lset, Nat.eqb_refl, Z.opp_involutive by exact H. apply lset_nth. exact H.
Qed.
Lemma sup_flip w k : sup (flip w k) k = sup w k.
Proof. unfold sup, flip. apply lset_lset. Qed.
Lemma flip_length w k : length (flip w k) = length w.
Proof. apply lset_length. Qed.
Lemma flip_nth w k : k < length w -> nth k (flip w k) 0%Z = (- nth k w 0)%Z.
Proof. intro H. unfold flip. rewrite nth_lset, Nat.eqb_refl by exact H. reflexivity. Qed.

(** * Cubes covered by a set of places *)

Section Cubes.
Variable S0 : nat -> Prop.
Definition covered (w : list Z) : Prop := forall n, in_cube w n -> S0 n.

Lemma covered_inf w k x : covered w -> k < length w -> nth k w 0%Z = 0%Z -> covered (lset w k x).
Proof.
  intros H Hk Hw n [Hb Hn]. apply H. rewrite lset_length in Hb, Hn. split; [exact Hb|]. intros j Hj. specialize (Hn j Hj). rewrite nth_lset in Hn by exact Hk.
  destruct (Nat.eqb j k) eqn:E; [apply Nat.eqb_eq in E; rewrite E, Hw; split; discriminate | exact Hn].
Qed.

Lemma covered_sup v w k : ternary v w -> k < length w -> nth k w 0%Z <> 0%Z -> covered w -> covered (flip w k) -> covered (sup w k).
Proof.
  intros Ht Hk Hz H1 H2 n [Hb Hn]. unfold sup in Hb, Hn. rewrite lset_length in Hb, Hn.
  assert (C : forall j, j < length w -> j <> k -> (nth j w 0%Z = 1%Z -> Nat.testbit n j = true) /\ (nth j w 0%Z = (-1)%Z -> Nat.testbit n j = false)).
  { intros j Hj Hjk. specialize (Hn j Hj). rewrite nth_lset in Hn by exact Hk. rewrite (proj2 (Nat.eqb_neq j k) Hjk) in Hn. exact Hn. }
  assert (D : (nth k w 0%Z = 1%Z /\ Nat.testbit n k = true) \/ (nth k w 0%Z = (-1)%Z /\ Nat.testbit n k = false) \/ (nth k w 0%Z = 1%Z /\ Nat.testbit n k = false) \/ (nth k w 0%Z = (-1)%Z /\ Nat.testbit n k = true)).
  { destruct (ternary_nth v w k Ht) as [E|[E|E]]; [| contradiction |]; destruct (Nat.testbit n k); tauto. }
  destruct D as [[E1 E2]|[[E1 E2]|[[E1 E2]|[E1 E2]]]].
  1,2: apply H1; split; [exact Hb|]; intros j Hj; destruct (Nat.eq_dec j k) as [->|Hjk]; [rewrite E1, E2; split; congruence | apply C; assumption].
  all: apply H2; unfold flip; split; [rewrite lset_length; exact Hb|]; intros j Hj; rewrite lset_length in Hj; rewrite nth_lset by exact Hk;
    destruct (Nat.eqb j k) eqn:E; [apply Nat.eqb_eq in E; rewrite E, E1, E2; split; cbn; congruence | apply Nat.eqb_neq in E; apply C; assumption].
Qed.

(** * The state *)

Variable v : nat.
Definition count_dim (l : list (list Z)) (d : nat) : nat := length (filter (fun w => Nat.eqb (dimension w) d) l).

Definition inv (c : collection) : Prop :=
  NoDup (segs c) /\ (forall w, In w (segs c) -> ternary v w /\ covered w) /\
  length (number_by_dimension c) = v + 1 /\ forall d, d <= v -> nth d (number_by_dimension c) 0 = count_dim (segs c) d.

(** every vector of B that is not in A has its superiors in B *)
Definition complete (A B : list (list Z)) : Prop :=
  forall w k, In w B -> ~ In w A -> k < length w -> nth k w 0%Z <> 0%Z -> In (flip w k) B -> In (sup w k) B.

Definition grows (c c' : collection) : Prop := inv c' /\ incl (segs c) (segs c') /\ complete (segs c) (segs c').

Lemma grows_refl c : inv c -> grows c c.
Proof. intro H. split; [exact H|]. split; [apply incl_refl|]. intros w k H1 H2. contradiction. Qed.

Lemma grows_trans a b c : grows a b -> grows b c -> grows a c.
Proof.
  intros [_ [I1 C1]] [J2 [I2 C2]]. split; [exact J2|]. split; [eapply incl_tran; eassumption|].
  intros w k Hw Hn Hk Hz Hf. destruct (in_segs_dec b w) as [Hb|Hb]; [|apply C2; assumption].
  destruct (in_segs_dec b (flip w k)) as [Hb'|Hb']; [apply I2, C1; assumption|].
  rewrite <- sup_flip. apply C2; [exact Hf | exact Hb' | rewrite flip_length; exact Hk | rewrite flip_nth by exact Hk; lia | rewrite flip_flip by exact Hk; exact Hw].
Qed.

Lemma inv_length c : inv c -> length (segs c) <= 3 ^ v.
Proof.
  intros [Hn [Ht _]]. rewrite <- all_ternary_length. apply NoDup_incl_length; [exact Hn|]. intros w Hw. apply all_ternary_In, Ht, Hw.
Qed.

Lemma grows_length a b : inv a -> grows a b -> length (segs a) <= length (segs b).
Proof. intros [Hn _] [_ [Hi _]]. apply NoDup_incl_length; assumption. Qed.

Lemma inv_push c w : inv c -> ternary v w -> covered w -> ~ In w (segs c) ->
  exists n, lget (number_by_dimension c) (dimension w) = Ok n /\
    inv (mkColl (segs c ++ [w]) (lset (number_by_dimension c) (dimension w) (n + 1))).
Proof.
  intros [Hn [Ht [Hl Hc]]] Tw Cw Hw. assert (Hd : dimension w <= v) by (rewrite <- (proj1 Tw); apply dimension_le).
  exists (nth (dimension w) (number_by_dimension c) 0). split; [apply lget_ok; lia|]. split; [|split; [|split]]; cbn [segs number_by_dimension].
  - apply Permutation_NoDup with (l := w :: segs c); [apply Permutation_cons_append | constructor; assumption].
  - intros x Hx. apply in_app_or in Hx as [Hx|[<-|[]]]; auto.
  - rewrite lset_length. exact Hl.
  - intros d Hdv. rewrite nth_lset by lia. unfold count_dim. rewrite filter_app, app_length. cbn [filter]. rewrite (Nat.eqb_sym (dimension w) d).
    destruct (Nat.eqb d (dimension w)) eqn:E; cbn [length]; [apply Nat.eqb_eq in E; subst d|]; rewrite Hc by lia; unfold count_dim; lia.
Qed.

(** a fold of growing steps *)
Lemma fold_grows {A} (F : collection -> A -> res collection) l c0 :
  (forall x c, In x l -> inv c -> length (segs c0) <= length (segs c) -> exists c', F c x = Ok c' /\ grows c c') ->
  forall c, inv c -> length (segs c0) <= length (segs c) -> exists c', foldM F l c = Ok c' /\ grows c c'.
Proof.
  induction l as [|x l IH]; intros H c Hc Hl; cbn [foldM]; [exists c; split; [reflexivity | apply grows_refl; exact Hc]|].
  destruct (H x c (or_introl eq_refl) Hc Hl) as [c1 [E1 G1]]. rewrite E1. cbn [bind].
  destruct (IH (fun y c Hy => H y c (or_intror Hy)) c1 (proj1 G1)) as [c2 [E2 G2]]; [assert (X := grows_length c c1 Hc G1); lia|].
  exists c2. split; [exact E2 | eapply grows_trans; eassumption].
Qed.

Lemma add_ok fuel : forall c w, inv c -> ternary v w -> covered w -> ~ In w (segs c) -> 3 ^ v - length (segs c) < fuel ->
  exists c', add fuel v c w = Ok c' /\ grows c c' /\ In w (segs c').
Proof.
  induction fuel as [|fuel IH]; intros c w Hc Tw Cw Hw Hf; [lia|]. cbn [add].
  assert (E0 : inquire c w = false) by (apply not_true_iff_false; rewrite inquire_In; exact Hw). rewrite E0. cbn [negb true_except bind].
  rewrite (proj2 (Nat.eqb_eq _ _) (proj1 Tw)). cbn [true_except bind].
  rewrite (proj2 (forallb_forall _ w)).
  2:{ intros x Hx. destruct Tw as [_ Tw]. destruct (Tw x Hx) as [->|[->| ->]]; reflexivity. }
  cbn [true_except bind]. destruct (inv_push c w Hc Tw Cw Hw) as [n [En Hc1]]. rewrite En. cbn [bind].
  set (c1 := mkColl _ _) in *. set (demand := fun c v0 => if inquire c v0 then Ok c else add fuel v c v0).
  assert (L1 : length (segs c1) = S (length (segs c))) by (cbn [segs c1]; unfold c1; cbn [segs]; rewrite app_length; cbn; lia).
  assert (L1b := inv_length c1 Hc1).
  (* a demand *)
  assert (D : forall c' x, inv c' -> length (segs c1) <= length (segs c') -> ternary v x -> covered x ->
              exists c'', demand c' x = Ok c'' /\ grows c' c'' /\ In x (segs c'')).
  { intros c' x Hc' Hl Tx Cx. unfold demand. destruct (inquire c' x) eqn:Ei.
    - exists c'. split; [reflexivity|]. split; [apply grows_refl; exact Hc' | apply inquire_In; exact Ei].
    - apply IH; [exact Hc' | exact Tx | exact Cx | intro X; apply inquire_In in X; congruence | lia]. }
  (* inferiors *)
  assert (F1 : exists c2, foldM (fun c (kv : nat * list (list Z)) => foldM demand (snd kv) c) (inferior_vectors w) c1 = Ok c2 /\ grows c1 c2).
  { apply (fold_grows _ _ c1); [|exact Hc1 | lia]. intros [k l] c' Hk Hc' Hl. cbn [snd].
    apply in_map_iff in Hk as [k' [Ek Hk]]. injection Ek as <- <-. apply zero_keys_In in Hk as [Hk Hz].
    apply (fold_grows _ _ c1); [|exact Hc' | exact Hl]. intros x c'' Hx Hc'' Hl''. 
    destruct (D c'' x Hc'' Hl'') as [c3 [E3 [G3 _]]]; [| | exists c3; split; assumption].
    - destruct Hx as [<-|[<-|[]]]; apply ternary_lset; auto.
    - destruct Hx as [<-|[<-|[]]]; apply covered_inf; assumption. }
  destruct F1 as [c2 [E2 G2]]. rewrite E2. cbn [bind]. clear E2.
  assert (W1 : In w (segs c1)) by (unfold c1; cbn [segs]; apply in_or_app; right; left; reflexivity).
  (* superiors *)
  assert (F2 : forall ks c', (forall k, In k ks -> k < length w /\ nth k w 0%Z <> 0%Z) -> inv c' -> incl (segs c1) (segs c') ->
    exists c3, foldM (fun c (kv : nat * list Z) => if inquire c (snd kv) then demand c (lset w (fst kv) 0%Z) else Ok c)
                 (map (fun k => (k, lset w k (- nth k w 0)%Z)) ks) c' = Ok c3 /\ grows c' c3 /\
      forall k, In k ks -> In (flip w k) (segs c3) -> In (sup w k) (segs c3)).
  { induction ks as [|k ks IHk]; intros c' Hks Hc' Hi; cbn [map foldM].
    - exists c'. split; [reflexivity|]. split; [apply grows_refl; exact Hc' | intros k []].
    - destruct (Hks k (or_introl eq_refl)) as [Hk Hz]. cbn [fst snd]. fold (flip w k) (sup w k).
      assert (Hl : length (segs c1) <= length (segs c')) by (destruct Hc1 as [N1 _]; apply NoDup_incl_length; assumption).
      assert (ST : exists c4, (if inquire c' (flip w k) then demand c' (sup w k) else Ok c') = Ok c4 /\ grows c' c4 /\ (In (flip w k) (segs c') -> In (sup w k) (segs c4))).
      { destruct (inquire c' (flip w k)) eqn:Ei.
        - apply inquire_In in Ei. destruct (D c' (sup w k) Hc' Hl) as [c4 [E4 [G4 I4]]].
          + apply ternary_lset; auto.
          + apply (covered_sup v); [exact Tw | exact Hk | exact Hz | exact Cw | apply Hc'; exact Ei].
          + exists c4. split; [exact E4|]. split; [exact G4 | intros _; exact I4].
        - exists c'. split; [reflexivity|]. split; [apply grows_refl; exact Hc'|]. intro X. apply inquire_In in X. congruence. }
      destruct ST as [c4 [E4 [G4 I4]]]. rewrite E4. cbn [bind].
      assert (Hi4 : incl (segs c1) (segs c4)) by (eapply incl_tran; [exact Hi | apply G4]).
      destruct (IHk c4 (fun j Hj => Hks j (or_intror Hj)) (proj1 G4) Hi4) as [c3 [E3 [G3 I3]]].
      exists c3. split; [exact E3|]. split; [eapply grows_trans; eassumption|].
      intros j [<-|Hj] Hfl; [|apply I3; assumption].
      destruct (in_segs_dec c' (flip w k)) as [Hin|Hin]; [apply (proj1 (proj2 G3)), I4, Hin|].
      rewrite <- sup_flip. assert (G' := grows_trans _ _ _ G4 G3). apply (proj2 (proj2 G')); [exact Hfl | exact Hin | rewrite flip_length; exact Hk | rewrite flip_nth by exact Hk; lia|].
      rewrite flip_flip by exact Hk. apply (proj1 (proj2 G')), Hi, W1. }
  destruct (F2 (sign_keys w) c2) as [c3 [E3 [G3 I3]]]; [intros k Hk; apply sign_keys_In; exact Hk | apply G2 | apply G2|].
  exists c3. split; [exact E3|]. assert (G := grows_trans _ _ _ G2 G3).
  split; [|apply (proj1 (proj2 G)); exact W1]. split; [apply G|]. split.
  - intros x Hx. apply (proj1 (proj2 G)). unfold c1. cbn [segs]. apply in_or_app. left; exact Hx.
  - intros x k Hx Hn Hk Hz Hfl. destruct (list_eq_dec Z.eq_dec x w) as [->|Hxw].
    + apply I3; [apply sign_keys_In; split; assumption | exact Hfl].
    + apply (proj2 (proj2 G)); [exact Hx | | exact Hk | exact Hz | exact Hfl]. unfold c1. cbn [segs]. intro X. apply in_app_or in X as [X|[X|[]]]; [contradiction | congruence].
Qed.
End Cubes.

(** * The whole collection *)

Definition spot_vec (v n : nat) : list Z := map (fun k => if Nat.testbit n k then 1%Z else (-1)%Z) (range v).
Lemma spot_vec_length v n : length (spot_vec v n) = v.
Proof. unfold spot_vec. rewrite map_length. apply range_length. Qed.
Lemma spot_vec_nth v n k : k < v -> nth k (spot_vec v n) 0%Z = if Nat.testbit n k then 1%Z else (-1)%Z.
Proof.
  intro H. unfold spot_vec. rewrite (nth_indep _ 0%Z (if Nat.testbit n 0 then 1%Z else (-1)%Z)) by (rewrite map_length, range_length; exact H).
  rewrite (map_nth (fun k => if Nat.testbit n k then 1%Z else (-1)%Z)), nth_range by exact H. reflexivity.
Qed.
Lemma spot_vec_ternary v n : ternary v (spot_vec v n).
Proof. split; [apply spot_vec_length|]. intros x Hx. apply in_map_iff in Hx as [k [<- _]]. destruct (Nat.testbit n k); auto. Qed.
Lemma spot_vec_dim v n : dimension (spot_vec v n) = 0.
Proof. apply dimension_zero. intros k Hk. rewrite spot_vec_length in Hk. rewrite spot_vec_nth by exact Hk. destruct (Nat.testbit n k); discriminate. Qed.

Lemma bits_ext v n m : n < 2 ^ v -> m < 2 ^ v -> (forall k, k < v -> Nat.testbit n k = Nat.testbit m k) -> n = m.
Proof.
  intros Hn Hm H. apply Nat.bits_inj. intro k. destruct (Nat.lt_ge_cases k v) as [Hk|Hk]; [apply H; exact Hk|].
  rewrite !testbit_high; [reflexivity | |]; (eapply Nat.lt_le_trans; [eassumption | apply Nat.pow_le_mono_r; lia]).
Qed.

Lemma spot_cube v n m : n < 2 ^ v -> in_cube (spot_vec v n) m <-> m = n.
Proof.
  intro Hn. unfold in_cube. rewrite spot_vec_length. split.
  - intros [Hm H]. apply (bits_ext v); [exact Hm | exact Hn|]. intros k Hk. specialize (H k Hk). rewrite spot_vec_nth in H by exact Hk.
    destruct (Nat.testbit n k); [apply H; reflexivity | apply H; reflexivity].
  - intros ->. split; [exact Hn|]. intros k Hk. rewrite spot_vec_nth by exact Hk. destruct (Nat.testbit n k); split; congruence.
Qed.

Lemma ternary_spot v w : ternary v w -> dimension w = 0 -> exists n, n < 2 ^ v /\ w = spot_vec v n.
Proof.
  intros Ht Hd. set (b := map (fun x => Z.eqb x 1) w). exists (b2n b). assert (Hl : length b = v) by (unfold b; rewrite map_length; apply Ht).
  split; [rewrite <- Hl; apply b2n_lt|]. apply (nth_ext _ _ 0%Z 0%Z); [rewrite spot_vec_length; apply Ht|]. intros k Hk.
  assert (Hkv : k < v) by (rewrite <- (proj1 Ht); exact Hk). rewrite spot_vec_nth by exact Hkv. rewrite testbit_b2n.
  assert (E : nth k b false = Z.eqb (nth k w 0%Z) 1).
  { unfold b. rewrite (nth_indep _ false (Z.eqb 0 1)) by (rewrite map_length; exact Hk). apply (map_nth (fun x => Z.eqb x 1)). }
  rewrite E. assert (Hz := proj1 (dimension_zero w) Hd k Hk).
  destruct (ternary_nth v w k Ht) as [X|[X|X]]; rewrite X in *; [reflexivity | congruence | reflexivity].
Qed.

Lemma assign_spot v n l : n < 2 ^ v -> (forall i, In i l <-> Nat.testbit n i = true) ->
  foldM (fun tv i => list_assign tv i 1%Z) l (repeat (-1)%Z v) = Ok (spot_vec v n).
Proof.
  intros Hn Hl. assert (G : forall l t, length t = v -> (forall i, In i l -> i < v) -> exists t', foldM (fun tv i => list_assign tv i 1%Z) l t = Ok t' /\ length t' = v /\
    forall k, k < v -> nth k t' 0%Z = if memb k l then 1%Z else nth k t 0%Z).
  { clear. induction l as [|i l IH]; intros t Ht Hl; cbn [foldM]; [exists t; split; [reflexivity|]; split; [exact Ht | reflexivity]|].
    assert (As : list_assign t i 1%Z = Ok (lset t i 1%Z)) by (unfold list_assign; rewrite (lget_ok t i 0%Z) by (rewrite Ht; apply Hl; left; reflexivity); reflexivity).
    rewrite As. cbn [bind].
    destruct (IH (lset t i 1%Z)) as [t' [E [L N]]]; [rewrite lset_length; exact Ht | intros j Hj; apply Hl; right; exact Hj|].
    exists t'. split; [exact E|]. split; [exact L|]. intros k Hk. rewrite N by exact Hk. rewrite nth_lset by (rewrite Ht; apply Hl; left; reflexivity).
    cbn [memb existsb]. unfold memb. cbn [existsb]. rewrite (Nat.eqb_sym k i). destruct (Nat.eqb i k); cbn [orb]; [|reflexivity]. destruct (existsb (Nat.eqb k) l); reflexivity. }
  destruct (G l (repeat (-1)%Z v)) as [t' [E [L N]]]; [apply repeat_length | intros i Hi; apply Hl in Hi; eapply testbit_lt_pow; eassumption|].
  rewrite E. f_equal. apply (nth_ext _ _ 0%Z 0%Z); [rewrite spot_vec_length; exact L|]. intros k Hk. rewrite L in Hk. rewrite N, spot_vec_nth by exact Hk.
  assert (R : nth k (repeat (-1)%Z v) 0%Z = (-1)%Z) by (clear - Hk; revert k Hk; induction v as [|v IH]; intros [|k] Hk; cbn; try lia; apply IH; lia).
  rewrite R. destruct (Nat.testbit n k) eqn:B.
  - rewrite (proj2 (memb_In k l)) by (apply Hl; exact B). reflexivity.
  - rewrite (proj2 (memb_false k l)) by (rewrite Hl; congruence). reflexivity.
Qed.

Lemma inv_mono (P Q : nat -> Prop) v c : (forall n, P n -> Q n) -> inv P v c -> inv Q v c.
Proof. intros H [H1 [H2 H3]]. split; [exact H1|]. split; [|exact H3]. intros w Hw. destruct (H2 w Hw) as [T C]. split; [exact T|]. intros n Hn. apply H, C, Hn. Qed.

Lemma collect_ok v (G : collection -> nat -> res collection) :
  (forall c n, n < 2 ^ v -> G c n = add (S (3 ^ v)) v c (spot_vec v n)) ->
  forall L P c, NoDup (P ++ L) -> (forall n, In n L -> n < 2 ^ v) -> inv (fun n => In n P) v c -> complete [] (segs c) ->
    (forall n, In n P -> In (spot_vec v n) (segs c)) ->
  exists c', foldM G L c = Ok c' /\ inv (fun n => In n (P ++ L)) v c' /\ complete [] (segs c') /\
    forall n, In n (P ++ L) -> In (spot_vec v n) (segs c').
Proof.
  intro HG. induction L as [|n L IH]; intros P c Hnd Hb Hc Hk Hs; cbn [foldM].
  - exists c. rewrite app_nil_r. auto.
  - assert (Hn : n < 2 ^ v) by (apply Hb; left; reflexivity). rewrite HG by exact Hn.
    assert (Hnew : ~ In n P) by (intro X; apply NoDup_remove_2 in Hnd; apply Hnd, in_or_app; left; exact X).
    destruct (add_ok (fun m => In m (P ++ [n])) v (S (3 ^ v)) c (spot_vec v n)) as [c1 [E1 [G1 I1]]].
    + apply (inv_mono (fun m => In m P)); [intros m Hm; apply in_or_app; left; exact Hm | exact Hc].
    + apply spot_vec_ternary.
    + intros m Hm. apply (spot_cube v n m Hn) in Hm as ->. apply in_or_app; right; left; reflexivity.
    + intro X. apply Hnew. destruct Hc as [_ [Hc _]]. apply (Hc _ X), (spot_cube v n n Hn). reflexivity.
    + lia.
    + rewrite E1. cbn [bind]. replace (P ++ n :: L) with ((P ++ [n]) ++ L) in * by (rewrite <- app_assoc; reflexivity).
      destruct G1 as [G1 [G2 G3]]. apply IH; [exact Hnd | intros m Hm; apply Hb; right; exact Hm | exact G1 | |].
      * intros w k Hw _ Hk1 Hk2 Hf. destruct (in_segs_dec c w) as [Hin|Hin]; [|apply G3; assumption].
        destruct (in_segs_dec c (flip w k)) as [Hin'|Hin']; [apply G2, Hk; auto|].
        rewrite <- sup_flip. apply G3; [exact Hf | exact Hin' | rewrite flip_length; exact Hk1 | rewrite flip_nth by exact Hk1; lia | rewrite flip_flip by exact Hk1; exact Hw].
      * intros m Hm. apply in_app_or in Hm as [Hm|[<-|[]]]; [apply G2, Hs, Hm | exact I1].
Qed.

(** everything covered is in the collection *)
Lemma complete_all (P : nat -> Prop) v c : inv P v c -> complete [] (segs c) -> (forall n, n < 2 ^ v -> P n -> In (spot_vec v n) (segs c)) ->
  forall w, ternary v w -> covered P w -> In w (segs c).
Proof.
  intros Hc Hk Hs w. remember (dimension w) as d eqn:Ed. revert w Ed. induction d as [|d IH]; intros w Ed Tw Cw.
  - destruct (ternary_spot v w Tw (eq_sym Ed)) as [n [Hn ->]]. apply Hs; [exact Hn|]. apply Cw, (spot_cube v n n Hn). reflexivity.
  - destruct (dimension_pos w) as [k [Hkl Hz]]; [lia|].
    assert (D : forall x, x = (-1)%Z \/ x = 1%Z -> In (lset w k x) (segs c)).
    { intros x Hx. apply IH; [|apply ternary_lset; tauto | apply covered_inf; assumption].
      assert (X := dimension_lset w k x Hkl Hz). assert (x <> 0%Z) by lia. specialize (X H). lia. }
    assert (E : w = sup (lset w k 1%Z) k) by (unfold sup; rewrite lset_lset; rewrite <- Hz at 1; symmetry; apply lset_nth; exact Hkl).
    rewrite E. apply Hk; [apply D; auto | intros [] | rewrite lset_length; exact Hkl | rewrite nth_lset, Nat.eqb_refl by exact Hkl; discriminate|].
    unfold flip. rewrite nth_lset, Nat.eqb_refl, lset_lset by exact Hkl. apply D. left; reflexivity.
Qed.

Lemma fullspots_In f n : In n (fullspots f) <-> full f n.
Proof. apply binv_exposet_In. Qed.
Lemma fullspots_NoDup f : NoDup (fullspots f).
Proof. apply sorted_lt_NoDup, binv_exposet_sorted. Qed.

Lemma foldM_map {A B C} (F : C -> B -> res C) (g : A -> B) l c : foldM F (map g l) c = foldM (fun c x => F c (g x)) l c.
Proof. revert c; induction l as [|x l IH]; intro c; cbn [map foldM]; [reflexivity|]. destruct (F c (g x)); cbn [bind]; [apply IH | reflexivity]. Qed.

Lemma fullspot_atoms_ok order f : fullspot_atoms order f = Ok (map (fun n => (n, int_to_exposet n)) (order (fullspots f))).
Proof.
  unfold fullspot_atoms. apply mapM_ok. intros n _. destruct (Binv_int_min n) as [b [E [Hb _]]]. rewrite E. cbn [bind].
  rewrite exposet_intval, Hb, sort_nat_id; [reflexivity|]. apply sorted_lt_le. rewrite <- Hb, <- exposet_intval. apply binv_exposet_sorted.
Qed.

Lemma collection_ok order f : fitting f -> Permutation (order (fullspots f)) (fullspots f) ->
  exists c, CollectionOfSegments order f = Ok c /\ inv (full f) (valency f) c /\
    forall w, In w (segs c) <-> ternary (valency f) w /\ covered (full f) w.
Proof.
  intros Hf Ho. unfold CollectionOfSegments. rewrite fullspot_atoms_ok. cbn [bind]. rewrite foldM_map. cbn [snd].
  assert (Hin : forall n, In n (order (fullspots f)) <-> full f n).
  { intro n. rewrite <- fullspots_In. split; intro H; [eapply Permutation_in; [exact Ho | exact H] | eapply Permutation_in; [apply Permutation_sym; exact Ho | exact H]]. }
  destruct (collect_ok (valency f) (fun c n => let* tv := foldM (fun tv i => list_assign tv i 1%Z) (int_to_exposet n) (repeat (-1)%Z (valency f)) in
    add (S (3 ^ valency f)) (valency f) c tv)) with (L := order (fullspots f)) (P := @nil nat) (c := mkColl [] (repeat 0 (valency f + 1))) as [c [E [Hi [Hk Hs]]]].
  - intros c n Hn. rewrite (assign_spot (valency f) n); [reflexivity | exact Hn|]. exact (proj2 (int_to_exposet_spec n)).
  - cbn [app]. eapply Permutation_NoDup; [apply Permutation_sym; exact Ho | apply fullspots_NoDup].
  - intros n Hn. apply (place_bound f n Hf), Hin, Hn.
  - split; [constructor|]. split; [intros w []|]. split; [cbn; apply repeat_length|]. intros d Hd. cbn. clear. assert (G : forall m d, nth d (repeat 0 m) 0 = 0) by (induction m as [|m IH]; intros [|d']; cbn; auto). apply G.
  - intros w k [].
  - intros n [].
  - cbn [app] in *. exists c. split; [exact E|].
    assert (Hi' : inv (full f) (valency f) c) by (apply (inv_mono (fun n => In n (order (fullspots f)))); [intros n Hn; apply Hin, Hn | exact Hi]).
    split; [exact Hi'|]. intro w. split; [apply Hi'|]. intros [Tw Cw]. apply (complete_all (full f) (valency f) c Hi' Hk); [|exact Tw | exact Cw].
    intros n _ Hn. apply Hs, Hin, Hn.
Qed.

Lemma implicant_covered f w : fitting f -> implicant f w <-> ternary (valency f) w /\ covered (full f) w.
Proof.
  intro Hf. unfold implicant. split; intros [Tw H]; (split; [exact Tw|]).
  - intros n [Hn C]. rewrite (proj1 Tw) in Hn. unfold full. rewrite <- (sem_place_asg f n Hf Hn). apply H. intros k Hk. specialize (C k Hk). rewrite asg_key; [exact C | exact Hf | rewrite <- (proj1 Tw); exact Hk].
  - intros e He. unfold sem, table. apply (H (b2n (map e (atomvals f)))). split; [rewrite (proj1 Tw); apply place_lt'|].
    intros k Hk. rewrite bit_of_place by (rewrite <- (proj1 Tw); exact Hk). apply He. exact Hk.
Qed.

(** * The spots *)

Lemma spot_sum v n : n < 2 ^ v -> list_sum_nat (map (fun k => 2 ^ k) (keys_where (fun x => Z.eqb x 1) (spot_vec v n))) = n.
Proof.
  intro Hn. assert (Hs : NoDup (keys_where (fun x => Z.eqb x 1) (spot_vec v n))).
  { unfold keys_where. generalize (spot_vec v n). intro l. unfold range. generalize 0. induction l as [|x l IH]; intro a; cbn [length seq combine filter map]; [constructor|].
    cbn [snd]. destruct (Z.eqb x 1); [|apply IH]. cbn [map fst]. constructor; [|apply IH]. rewrite in_map_iff. intros [[k y] [E H]]. apply filter_In in H as [H _]. apply in_combine_l, in_seq in H. cbn in E. lia. }
  set (l := keys_where _ _) in *.
  change (list_sum_nat (map (fun k => 2 ^ k) l)) with (exposet_to_int l).
  apply Nat.bits_inj. intro i. rewrite exposet_to_int_testbit by exact Hs. destruct (Nat.testbit n i) eqn:B.
  - assert (Hi := testbit_lt_pow n i v Hn B). apply memb_In. unfold l. rewrite (keys_where_In _ _ i 0%Z), spot_vec_length, spot_vec_nth, B by exact Hi. split; [exact Hi | reflexivity].
  - apply memb_false. unfold l. rewrite (keys_where_In _ _ i 0%Z), spot_vec_length. intros [Hi X]. rewrite spot_vec_nth, B in X by exact Hi. discriminate.
Qed.

Lemma get_spots_ok f c : fitting f -> (forall w, In w (segs c) <-> ternary (valency f) w /\ covered (full f) w) ->
  NoDup (get_spots c) /\ forall n, In n (get_spots c) <-> full f n.
Proof.
  intros Hf Hc. split; [apply nodupb_NoDup|]. intro n. unfold get_spots, segments_of. rewrite nodupb_In, in_map_iff. split.
  - intros [w [E Hw]]. apply filter_In in Hw as [Hw Hd]. apply Nat.eqb_eq in Hd. apply Hc in Hw as [Tw Cw].
    destruct (ternary_spot (valency f) w Tw Hd) as [m [Hm ->]]. rewrite spot_sum in E by exact Hm. subst n. apply Cw, spot_cube; [exact Hm | reflexivity].
  - intro Hn. assert (Hb := place_bound f n Hf Hn). exists (spot_vec (valency f) n). split; [apply spot_sum; exact Hb|]. apply filter_In.
    split; [|apply Nat.eqb_eq, spot_vec_dim]. apply Hc. split; [apply spot_vec_ternary|]. intros m Hm. apply (spot_cube _ _ _ Hb) in Hm as ->. exact Hn.
Qed.
