(** Proof_Boolf: deflation removes exactly the redundant atoms; construction from truth tables;
    equality is semantic equality. *)

From Coq Require Import List Arith ZArith Bool Lia Sorted Permutation.
From Verif Require Import Model_Base Lib Model_Binary Model_Perm Model_SigPerm Model_WalshPerm Model_Boolf Spec_Bits Spec_Perm Spec_WalshPerm Spec_Boolf
  Proof_Binary Proof_Helpers Proof_Deflate Proof_Reorder.
Import ListNotations.
Open Scope nat_scope.

Lemma sorted_lt_le l : StronglySorted lt l -> StronglySorted le l.
Proof. induction 1 as [|x l Hs IH Hf]; constructor; [exact IH|]. eapply Forall_impl; [|exact Hf]. intros; cbn in *; lia. Qed.

(** * Tables *)

Lemma table_ext v l (e e' : assignment) : (forall a, In a l -> e a = e' a) -> table v l e = table v l e'.
Proof. intro H. unfold table. f_equal. f_equal. apply map_ext_in. exact H. Qed.

Lemma upd_eq e a q : upd e a q a = q.
Proof. unfold upd. rewrite Nat.eqb_refl. reflexivity. Qed.
Lemma upd_neq e a q x : x <> a -> upd e a q x = e x.
Proof. intro H. unfold upd. apply Nat.eqb_neq in H. rewrite H. reflexivity. Qed.

(** the assignment in which the k-th atom of [l] has bit k of [i] as its value *)
Fixpoint asg (l : list nat) (i : nat) : assignment :=
  match l with
  | [] => fun _ => false
  | a :: l' => fun x => if Nat.eqb x a then Nat.odd i else asg l' (Nat.div2 i) x
  end.

Lemma asg_map l i : NoDup l -> map (asg l i) l = n2b (length l) i.
Proof.
  intro H. revert i; induction H as [|a l Ha Hn IH]; intro i; [reflexivity|]. cbn [asg map length n2b].
  rewrite Nat.eqb_refl. f_equal. rewrite <- IH. apply map_ext_in. intros x Hx.
  destruct (Nat.eqb_spec x a) as [->|]; [contradiction | reflexivity].
Qed.

Lemma asg_b2n l i : NoDup l -> i < 2 ^ length l -> b2n (map (asg l i) l) = i.
Proof. intros H Hi. rewrite asg_map by exact H. apply b2n_n2b. exact Hi. Qed.

Lemma asg_nth l i k : NoDup l -> k < length l -> asg l i (nth k l 0) = Nat.testbit i k.
Proof.
  intros H Hk. assert (E := asg_map l i H). apply (f_equal (fun z => nth k z false)) in E.
  rewrite (nth_indep _ false (asg l i 0)) in E by (rewrite map_length; exact Hk). rewrite map_nth in E. rewrite E.
  rewrite nth_n2b, (proj2 (Nat.ltb_lt _ _) Hk). reflexivity.
Qed.

Lemma table_asg v l i : NoDup l -> i < 2 ^ length l -> table v l (asg l i) = nth i v false.
Proof. intros H Hi. unfold table. rewrite asg_b2n by assumption. reflexivity. Qed.

Lemma table_inj v w l : NoDup l -> length v = 2 ^ length l -> length w = 2 ^ length l ->
  (forall e, table v l e = table w l e) -> v = w.
Proof.
  intros Hn Hv Hw H. apply (nth_ext _ _ false false); [congruence|]. intros i Hi. rewrite Hv in Hi.
  rewrite <- (table_asg v l i Hn Hi), <- (table_asg w l i Hn Hi). apply H.
Qed.

Lemma essential_ext F G a : (forall e, F e = G e) -> essential F a -> essential G a.
Proof. intros H [e He]. exists e. rewrite <- !H. exact He. Qed.

Lemma essential_in v l a : essential (table v l) a -> In a l.
Proof.
  intros [e He]. destruct (in_dec Nat.eq_dec a l) as [H|H]; [exact H|]. exfalso. apply He. apply table_ext.
  intros x Hx. rewrite !upd_neq by (intros ->; contradiction). reflexivity.
Qed.

Lemma halves_essential v l1 a l2 : NoDup (l1 ++ a :: l2) -> length v = 2 ^ S (length (l1 ++ l2)) ->
  (half (length (l1 ++ l2)) (length l1) false v <> half (length (l1 ++ l2)) (length l1) true v <->
   essential (table v (l1 ++ a :: l2)) a).
Proof.
  intros Hn Hv. set (n := length (l1 ++ l2)) in *. assert (Hn' := NoDup_remove_1 _ _ _ Hn). assert (Ha := NoDup_remove_2 _ _ _ Hn).
  assert (T : forall e q, table v (l1 ++ a :: l2) (upd e a q) = table (half n (length l1) q v) (l1 ++ l2) e).
  { intros e q. rewrite (table_half q v l1 a l2 (upd e a q) Hv (upd_eq e a q)). apply table_ext. intros x Hx. apply upd_neq. intros ->. contradiction. }
  split.
  - intro Hd.
    destruct (existsb (fun i => negb (Bool.eqb (nth i (half n (length l1) false v) false) (nth i (half n (length l1) true v) false))) (seq 0 (2 ^ n))) eqn:E.
    + apply existsb_exists in E as [i [Hi E]]. apply in_seq in Hi. exists (asg (l1 ++ l2) i). rewrite !T.
      rewrite !table_asg by (try exact Hn'; unfold n in *; lia). intro C. rewrite C, eqb_reflx in E. discriminate E.
    + exfalso. apply Hd. apply (nth_ext _ _ false false); [rewrite !half_length; reflexivity|]. intros i Hi. rewrite half_length in Hi.
      destruct (Bool.eqb (nth i (half n (length l1) false v) false) (nth i (half n (length l1) true v) false)) eqn:E2; [apply eqb_prop; exact E2|].
      exfalso. assert (C : existsb (fun i => negb (Bool.eqb (nth i (half n (length l1) false v) false) (nth i (half n (length l1) true v) false))) (seq 0 (2 ^ n)) = true).
      { apply existsb_exists. exists i. split; [apply in_seq; lia|]. rewrite E2. reflexivity. }
      congruence.
  - intros [e He] C. apply He. rewrite !T, C. reflexivity.
Qed.

Lemma deflation_length {A} (v v' : list bool) (l l' : list A) : deflation v l v' l' -> length v = 2 ^ length l -> length v' = 2 ^ length l'.
Proof. induction 1 as [|v l l1 a l2 v' l' -> E D IH]; [tauto|]. intros _. apply IH. rewrite half_length. reflexivity. Qed.

Lemma deflation_table v l v' l' : deflation v l v' l' -> length v = 2 ^ length l -> forall e, table v l e = table v' l' e.
Proof.
  induction 1 as [|v l l1 a l2 v' l' -> E D IH]; [reflexivity|]. intros Hv e.
  rewrite <- IH by (rewrite half_length; reflexivity).
  assert (Hv' : length v = 2 ^ S (length (l1 ++ l2))) by (rewrite Hv; f_equal; rewrite !app_length; cbn; lia).
  destruct (e a) eqn:Ea.
  - rewrite (table_half true v l1 a l2 e Hv' Ea), E. reflexivity.
  - rewrite (table_half false v l1 a l2 e Hv' Ea). reflexivity.
Qed.

Lemma deflation_incl {A} v (l : list A) v' l' : deflation v l v' l' -> forall x, In x l' -> In x l.
Proof.
  induction 1 as [|v l l1 a l2 v' l' -> E D IH]; [tauto|]. intros x Hx. specialize (IH x Hx).
  apply in_app_iff. apply in_app_iff in IH as [IH|IH]; [left; exact IH | right; right; exact IH].
Qed.

Lemma sorted_remove l1 a l2 : StronglySorted lt (l1 ++ a :: l2) -> StronglySorted lt (l1 ++ l2).
Proof.
  induction l1 as [|x l1 IH]; cbn [app]; intro H; inversion H as [|? ? Hs Hf]; subst; [exact Hs|].
  constructor; [apply IH; exact Hs|]. apply Forall_forall. intros y Hy. rewrite Forall_forall in Hf. apply Hf.
  apply in_app_iff. apply in_app_iff in Hy as [Hy|Hy]; [left; exact Hy | right; right; exact Hy].
Qed.

Lemma deflation_sorted v l v' l' : deflation v l v' l' -> ascending l -> ascending l'.
Proof. induction 1 as [|v l l1 a l2 v' l' -> E D IH]; [tauto|]. intro H. apply IH. eapply sorted_remove. exact H. Qed.

Lemma deflation_NoDup {A} v (l : list A) v' l' : deflation v l v' l' -> NoDup l -> NoDup l'.
Proof. induction 1 as [|v l l1 a l2 v' l' -> E D IH]; [tauto|]. intro H. apply IH. eapply NoDup_remove_1. exact H. Qed.

Lemma differs_essential v l : NoDup l -> length v = 2 ^ length l ->
  (forall i, i < length l -> differs v (length l) i) <-> (forall a, In a l -> essential (table v l) a).
Proof.
  intros Hn Hv. split.
  - intros H a Ha. apply in_split in Ha as [l1 [l2 ->]].
    assert (El : length (l1 ++ a :: l2) = S (length (l1 ++ l2))) by (rewrite !app_length; cbn; lia).
    apply (halves_essential v l1 a l2 Hn); [rewrite Hv, El; reflexivity|].
    specialize (H (length l1)). unfold differs in H. rewrite El in H. cbn [Nat.sub] in H. rewrite Nat.sub_0_r in H. apply H.
    rewrite app_length. lia.
  - intros H i Hi. assert (Ha := nth_In l 0 Hi). specialize (H _ Ha).
    destruct (nth_split l 0 Hi) as [l1 [l2 [E El]]]. set (a := nth i l 0) in *. clearbody a. rewrite E in H, Hn, Hv. 
    assert (El2 : length (l1 ++ a :: l2) = S (length (l1 ++ l2))) by (rewrite !app_length; cbn; lia).
    unfold differs. rewrite E, El2. cbn [Nat.sub]. rewrite Nat.sub_0_r, <- El.
    apply (halves_essential v l1 a l2 Hn); [rewrite Hv, El2; reflexivity | exact H].
Qed.

(** table and atoms with no redundant atom *)
Definition red (v : list bool) (l : list nat) : Prop :=
  ascending l /\ length v = 2 ^ length l /\ forall a, In a l -> essential (table v l) a.

Lemma red_unique v l v' l' : red v l -> red v' l' -> (forall e, table v l e = table v' l' e) -> v = v' /\ l = l'.
Proof.
  intros [Hs [Hv He]] [Hs' [Hv' He']] H.
  assert (El : l = l').
  { apply sorted_lt_ext; [exact Hs | exact Hs'|]. intro x. split; intro Hx.
    - apply (essential_in v' l'). apply (essential_ext _ _ x H). apply He. exact Hx.
    - apply (essential_in v l). apply (essential_ext (table v' l') _ x); [intro e; symmetry; apply H|]. apply He'. exact Hx. }
  subst l'. split; [|reflexivity]. apply (table_inj v v' l); try assumption. apply sorted_lt_NoDup. exact Hs.
Qed.

Lemma deflate_red v l : ascending l -> length v = 2 ^ length l ->
  exists v' l', deflate v l = Ok (v', l') /\ red v' l' /\ (forall e, table v l e = table v' l' e) /\ (forall x, In x l' -> In x l).
Proof.
  intros Hs Hv. destruct (deflate_spec v l Hv) as [v' [l' [E [D [Hl Hd]]]]]. exists v', l'. split; [exact E|].
  assert (Hs' := deflation_sorted _ _ _ _ D Hs).
  split; [|split; [apply deflation_table; assumption | apply (deflation_incl _ _ _ _ D)]].
  split; [exact Hs'|]. split; [exact Hl|]. apply differs_essential; [apply sorted_lt_NoDup; exact Hs' | exact Hl | exact Hd].
Qed.

(** * Constant tables *)

Definition constantly (q : bool) (v : list bool) : Prop := forall x, In x v -> x = q.

Lemma weight_le v : binv_weight v <= length v.
Proof. unfold binv_weight, list_sum_nat. induction v as [|[|] v IH]; cbn [map fold_right length Nat.b2n]; lia. Qed.

Lemma weight_zero v : binv_weight v = 0 <-> constantly false v.
Proof.
  unfold constantly, binv_weight, list_sum_nat. induction v as [|[|] v IH]; cbn [map fold_right Nat.b2n In].
  - split; [intros _ x [] | reflexivity].
  - split; [discriminate|]. intro H. specialize (H true (or_introl eq_refl)). discriminate H.
  - rewrite Nat.add_0_l, IH. split; [intros H x [<-|Hx]; [reflexivity | apply H; exact Hx] | intros H x Hx; apply H; right; exact Hx].
Qed.

Lemma weight_full v : binv_weight v = length v <-> constantly true v.
Proof.
  unfold constantly. induction v as [|[|] v IH]; cbn [In].
  - split; [intros _ x [] | reflexivity].
  - change (binv_weight (true :: v)) with (S (binv_weight v)). cbn [length]. split.
    + intros H x [<-|Hx]; [reflexivity|]. apply IH; [lia | exact Hx].
    + intro H. f_equal. apply IH. intros x Hx. apply H. right. exact Hx.
  - change (binv_weight (false :: v)) with (binv_weight v). cbn [length]. split.
    + intro H. assert (Hl := weight_le v). lia.
    + intro H. specialize (H false (or_introl eq_refl)). discriminate H.
Qed.

Lemma constantly_table q v l : length v = 2 ^ length l -> constantly q v -> forall e, table v l e = q.
Proof.
  intros Hv H e. unfold table. apply H. apply nth_In. rewrite Hv. assert (Hb := b2n_lt (map e l)). rewrite map_length in Hb. exact Hb.
Qed.

Lemma table_constantly q v l : NoDup l -> length v = 2 ^ length l -> (forall e, table v l e = q) -> constantly q v.
Proof.
  intros Hn Hv H x Hx. apply (In_nth _ _ false) in Hx as [i [Hi <-]]. rewrite Hv in Hi. rewrite <- (table_asg v l i Hn Hi). apply H.
Qed.

Lemma reduced_iff f : reduced f <-> red (root f) (atomvals f) /\ is_inflated f = false /\ (is_constant f = true <-> atomvals f = []).
Proof. unfold reduced, fitting, red, sem. tauto. Qed.

Lemma set_constant_reduced q : reduced (set_constant q) /\ forall e, sem (set_constant q) e = q.
Proof.
  split; [|intro e; reflexivity]. apply reduced_iff. cbn. repeat split; try reflexivity.
  - constructor.
  - intros a [].
Qed.

Theorem reduced_unique f g : reduced f -> reduced g -> (forall e, sem f e = sem g e) -> f = g.
Proof.
  intros Hf Hg H. apply reduced_iff in Hf as [Rf [If Cf]]. apply reduced_iff in Hg as [Rg [Ig Cg]].
  destruct (red_unique _ _ _ _ Rf Rg H) as [Er Ea]. destruct f as [r a c i], g as [r' a' c' i']. cbn in *. subst.
  f_equal. apply eq_iff_eq_true. rewrite Cf, Cg. tauto.
Qed.

Lemma boolf_eqb_eq f g : boolf_eqb f g = true <-> root f = root g /\ atomvals f = atomvals g.
Proof. unfold boolf_eqb. rewrite andb_true_iff, bvec_eqb_eq, list_eqb_eq. tauto. Qed.

Lemma boolf_eqb_sem f g : reduced f -> reduced g -> (boolf_eqb f g = true <-> forall e, sem f e = sem g e).
Proof.
  intros Hf Hg. rewrite boolf_eqb_eq. split.
  - intros [E1 E2] e. unfold sem. rewrite E1, E2. reflexivity.
  - intro H. rewrite (reduced_unique f g Hf Hg H). split; reflexivity.
Qed.

(** * Truth tables without atoms given *)

Lemma log_int_pow n : log_int (2 ^ n) = Ok n.
Proof.
  unfold log_int. rewrite (proj2 (Nat.ltb_lt 0 (2 ^ n)) (pow2_pos n)). cbn [true_except bind].
  assert (E : is_power_of_two (2 ^ n) = true).
  { unfold is_power_of_two. rewrite Nat.log2_pow2 by lia. rewrite Nat.eqb_refl. 
    destruct (2 ^ n) eqn:E; [exfalso; assert (H := pow2_pos n); lia | reflexivity]. }
  rewrite E. cbn [true_except bind]. rewrite Nat.log2_pow2 by lia. reflexivity.
Qed.

Lemma deflated_ok v l : ascending l -> length v = 2 ^ length l -> ~ constantly false v -> ~ constantly true v ->
  exists f, (let* ba := deflate v l in guard nonempty (snd ba) else ValueErr ;; Ok (mkBoolf (fst ba) (snd ba) false false)) = Ok f /\
    reduced f /\ (forall e, sem f e = table v l e) /\ is_constant f = false.
Proof.
  intros Hs Hv H0 H1. destruct (deflate_red v l Hs Hv) as [v' [l' [E [R [T _]]]]]. rewrite E. cbn [bind fst snd].
  assert (Hl : l' <> []).
  { intros ->. destruct R as [_ [Hv' _]]. destruct v' as [|q [|]]; cbn in Hv'; try discriminate Hv'.
    assert (C : constantly q v) by (apply (table_constantly q v l); [apply sorted_lt_NoDup; exact Hs | exact Hv | intro e; rewrite T; reflexivity]).
    destruct q; contradiction. }
  destruct l' as [|a l']; [congruence|]. cbn [nonempty true_except bind]. eexists. split; [reflexivity|]. split; [|split; [|reflexivity]].
  - apply reduced_iff. cbn [root atomvals is_inflated is_constant]. split; [exact R|]. split; [reflexivity|]. split; discriminate.
  - intro e. unfold sem. cbn [root atomvals]. symmetry. apply T.
Qed.

Lemma constantly_dec v : {constantly false v} + {constantly true v /\ ~ constantly false v} + {~ constantly false v /\ ~ constantly true v}.
Proof.
  destruct (Nat.eq_dec (binv_weight v) 0) as [E|E]; [left; left; apply weight_zero; exact E|].
  destruct (Nat.eq_dec (binv_weight v) (length v)) as [E2|E2].
  - left; right. split; [apply weight_full; exact E2|]. rewrite <- weight_zero. exact E.
  - right. rewrite <- weight_zero, <- weight_full. tauto.
Qed.

(** the start of the constructor: constant tables *)
Lemma tt_start_constant v av q : v <> [] -> constantly q v ->
  match av with Some av => zunique av = true /\ length v = 2 ^ length av | None => True end ->
  tt_start v av false = Ok (inl q).
Proof.
  intros Hv Hc Hav. unfold tt_start.
  assert (E : match av with
              | Some av => guard zunique av else AtomvalsNotUniqueError ;; guard Nat.eqb (length v) (2 ^ length av) else SarityVectorMismatchError ;; Ok tt
              | None => Ok tt end = Ok tt).
  { destruct av as [av|]; [|reflexivity]. destruct Hav as [-> ->]. rewrite Nat.eqb_refl. reflexivity. }
  cbv zeta. rewrite E. cbn [bind].
  assert (Hl : 0 < length v) by (destruct v; [congruence | cbn; lia]). rewrite (proj2 (Nat.ltb_lt _ _) Hl). cbn [true_except bind negb andb].
  rewrite andb_true_r. destruct q.
  - assert (W : binv_weight v = length v) by (apply weight_full; exact Hc). rewrite W, Nat.eqb_refl, orb_true_r.
    assert (E0 : Nat.eqb (length v) 0 = false) by (apply Nat.eqb_neq; lia). rewrite E0. reflexivity.
  - assert (W : binv_weight v = 0) by (apply weight_zero; exact Hc). rewrite W. reflexivity.
Qed.

Lemma tt_start_other v av sd : v <> [] -> sd = true \/ ~ constantly false v /\ ~ constantly true v ->
  match av with Some av => zunique av = true /\ length v = 2 ^ length av | None => True end ->
  tt_start v av sd = match av with
       | Some av => let* m := zmin av in guard Z.leb 0 m else AtomvalNegativeError ;;
           let* ba := reorder_if_atomvals_not_asc v (map Z.to_nat av) in Ok (inr ba)
       | None => let* valency := log_int (length v) in Ok (inr (v, range valency))
       end.
Proof.
  intros Hv Hc Hav. unfold tt_start.
  assert (E : match av with
              | Some av => guard zunique av else AtomvalsNotUniqueError ;; guard Nat.eqb (length v) (2 ^ length av) else SarityVectorMismatchError ;; Ok tt
              | None => Ok tt end = Ok tt).
  { destruct av as [av|]; [|reflexivity]. destruct Hav as [-> ->]. rewrite Nat.eqb_refl. reflexivity. }
  cbv zeta. rewrite E. cbn [bind].
  assert (Hl : 0 < length v) by (destruct v; [congruence | cbn; lia]). rewrite (proj2 (Nat.ltb_lt _ _) Hl). cbn [true_except bind].
  assert (E2 : (Nat.eqb (binv_weight v) 0 || Nat.eqb (binv_weight v) (length v)) && negb sd = false).
  { destruct Hc as [-> | [H0 H1]]; [apply andb_false_r|]. apply andb_false_iff. left. apply orb_false_iff. split; apply Nat.eqb_neq.
    - rewrite weight_zero. exact H0. - rewrite weight_full. exact H1. }
  rewrite E2. reflexivity.
Qed.

Lemma range_ascending n : ascending (range n).
Proof. apply range_sorted_lt. Qed.

Lemma pow_length_nonempty {A} (v : list A) n : length v = 2 ^ n -> v <> [].
Proof. intros H ->. cbn in H. assert (Hp := pow2_pos n). lia. Qed.

Lemma Boolf_root_spec v n : length v = 2 ^ n ->
  exists f, Boolf_root v = Ok f /\ reduced f /\ forall e, sem f e = table v (range n) e.
Proof.
  intros Hv. unfold Boolf_root, tt_deflated. assert (Hne := pow_length_nonempty v n Hv).
  assert (Hv' : length v = 2 ^ length (range n)) by (rewrite range_length; exact Hv).
  destruct (constantly_dec v) as [[C|[C _]]|[C0 C1]].
  - rewrite (tt_start_constant v None false Hne C I). cbn [bind]. exists (set_constant false). destruct (set_constant_reduced false) as [R S].
    split; [reflexivity|]. split; [exact R|]. intro e. rewrite S. symmetry. apply constantly_table; assumption.
  - rewrite (tt_start_constant v None true Hne C I). cbn [bind]. exists (set_constant true). destruct (set_constant_reduced true) as [R S].
    split; [reflexivity|]. split; [exact R|]. intro e. rewrite S. symmetry. apply constantly_table; assumption.
  - rewrite (tt_start_other v None false Hne (or_intror (conj C0 C1)) I). rewrite Hv, log_int_pow. cbn [bind].
    destruct (deflated_ok v (range n) (range_ascending n) Hv' C0 C1) as [f [E [R [S _]]]]. exists f. tauto.
Qed.

(** * Truth tables with atoms *)

Lemma zunique_NoDup l : zunique l = true <-> NoDup l.
Proof.
  induction l as [|x l IH]; cbn [zunique]; [split; [constructor | reflexivity]|]. rewrite andb_true_iff, negb_true_iff, IH. split.
  - intros [H1 H2]. constructor; [|exact H2]. intro H. assert (C : existsb (Z.eqb x) l = true) by (apply existsb_exists; exists x; split; [exact H | apply Z.eqb_refl]). congruence.
  - intro H. inversion H as [|? ? Hx Hn]; subst. split; [|exact Hn]. destruct (existsb (Z.eqb x) l) eqn:E; [|reflexivity].
    apply existsb_exists in E as [y [Hy E]]. apply Z.eqb_eq in E. subst y. contradiction.
Qed.

Lemma zmin_spec l : l <> [] -> exists m, zmin l = Ok m /\ In m l /\ forall x, In x l -> (m <= x)%Z.
Proof.
  destruct l as [|x l]; [congruence|]. intros _. cbn [zmin].
  assert (G : forall l x, In (fold_left Z.min l x) (x :: l) /\ (fold_left Z.min l x <= x)%Z /\ forall y, In y l -> (fold_left Z.min l x <= y)%Z).
  { clear. induction l as [|y l IH]; intro x; cbn [fold_left].
    - split; [left; reflexivity|]. split; [lia | intros y []].
    - destruct (IH (Z.min x y)) as [H1 [H2 H3]]. split; [|split].
      + destruct H1 as [H1|H1]; [|right; right; exact H1]. rewrite <- H1. destruct (Z.min_spec x y) as [[_ ->]|[_ ->]]; [left | right; left]; reflexivity.
      + lia.
      + intros z [<-|Hz]; [lia | apply H3; exact Hz]. }
  destruct (G l x) as [H1 [H2 H3]]. eexists. split; [reflexivity|]. split; [exact H1|]. intros y [<-|Hy]; [exact H2 | apply H3; exact Hy].
Qed.

Lemma map_to_of l : map Z.to_nat (map Z.of_nat l) = l.
Proof. rewrite map_map. rewrite (map_ext _ (fun x => x)) by (intro; apply Nat2Z.id). apply map_id. Qed.

Lemma zunique_of_nat l : NoDup l -> zunique (map Z.of_nat l) = true.
Proof. intro H. apply zunique_NoDup. apply FinFun.Injective_map_NoDup; [intros a b E; lia | exact H]. Qed.

(** the atoms whose values are the bits of the place in the given table: the r-th smallest atom
    for the i-th place, where r is the i-th entry of the sorting permutation *)
Definition effective_atoms (av eff : list nat) : Prop :=
  exists r, Permutation r (range (length av)) /\ length r = length av /\
    (forall k, k < length av -> nth k (sort_nat av) 0 = nth (nth k r 0) av 0) /\
    eff = map (fun i => nth i (sort_nat av) 0) r.

Lemma nth_ext_map {A} (l : list A) d : l = map (fun i => nth i l d) (range (length l)).
Proof.
  unfold range. induction l as [|x l IH]; [reflexivity|]. cbn [length seq map nth]. f_equal. rewrite <- seq_shift, map_map. exact IH.
Qed.

(** unsorted atoms: the exact result *)
Lemma sort_nat_NoDup av : NoDup av -> NoDup (sort_nat av).
Proof. intro H. eapply Permutation_NoDup; [apply sort_nat_perm | exact H]. Qed.

Lemma sort_nat_ascending av : NoDup av -> ascending (sort_nat av).
Proof. intro H. apply sorted_le_lt; [apply sort_nat_sorted_le | apply sort_nat_NoDup; exact H]. Qed.

Lemma Boolf_vec_sorted v av : ascending av -> length v = 2 ^ length av ->
  exists f, Boolf_vec v av = Ok f /\ reduced f /\ forall e, sem f e = table v av e.
Proof.
  intros Hs Hv. unfold Boolf_vec, tt_deflated. assert (Hne := pow_length_nonempty v _ Hv). assert (Hn := sorted_lt_NoDup _ Hs).
  assert (Hav : zunique (map Z.of_nat av) = true /\ length v = 2 ^ length (map Z.of_nat av)) by (rewrite map_length; split; [apply zunique_of_nat; exact Hn | exact Hv]).
  destruct (constantly_dec v) as [[C|[C _]]|[C0 C1]].
  - rewrite (tt_start_constant v (Some _) false Hne C Hav). cbn [bind]. exists (set_constant false). destruct (set_constant_reduced false) as [R S].
    split; [reflexivity|]. split; [exact R|]. intro e. rewrite S. symmetry. apply constantly_table; assumption.
  - rewrite (tt_start_constant v (Some _) true Hne C Hav). cbn [bind]. exists (set_constant true). destruct (set_constant_reduced true) as [R S].
    split; [reflexivity|]. split; [exact R|]. intro e. rewrite S. symmetry. apply constantly_table; assumption.
  - rewrite (tt_start_other v (Some _) false Hne (or_intror (conj C0 C1)) Hav).
    assert (Hne2 : map Z.of_nat av <> []).
    { destruct av; [|discriminate]. cbn in Hv. destruct v as [|[|] [|]]; try discriminate Hv; exfalso.
      - apply C1. intros x [<-|[]]. reflexivity. - apply C0. intros x [<-|[]]. reflexivity. }
    destruct (zmin_spec _ Hne2) as [m [Em [Him _]]]. rewrite Em. cbn [bind].
    apply in_map_iff in Him as [m' [<- _]]. rewrite (proj2 (Z.leb_le 0 (Z.of_nat m')) (Nat2Z.is_nonneg m')). cbn [true_except bind].
    rewrite map_to_of. unfold reorder_if_atomvals_not_asc. destruct (reorder_spec transpose_inv v av (or_intror eq_refl) Hv) as [r [_ [_ [_ [Hasc _]]]]].
    rewrite Hasc by (symmetry; apply sort_nat_id, sorted_lt_le; exact Hs). cbn [bind].
    destruct (deflated_ok v av Hs Hv C0 C1) as [f [E [R [S _]]]]. exists f. tauto.
Qed.

Lemma Boolf_vec_spec v av : NoDup av -> length v = 2 ^ length av ->
  exists f, Boolf_vec v av = Ok f /\ reduced f /\
    exists eff, effective_atoms av eff /\ forall e, sem f e = table v eff e.
Proof.
  intros Hn Hv.
  destruct (reorder_spec transpose_inv v av (or_intror eq_refl) Hv) as [r [Pr [Hrl [Hrn [Hasc Hother]]]]].
  set (eff := map (fun i => nth i (sort_nat av) 0) r).
  assert (Heff : effective_atoms av eff) by (exists r; repeat split; assumption).
  destruct (list_eq_dec Nat.eq_dec av (sort_nat av)) as [Es|Es].
  - (* sorted: the sorting permutation is the identity *)
    assert (Hs : ascending av) by (rewrite Es; apply sort_nat_ascending; exact Hn).
    destruct (Boolf_vec_sorted v av Hs Hv) as [f [E [R S]]]. exists f. split; [exact E|]. split; [exact R|]. exists eff. split; [exact Heff|].
    assert (Er : eff = av).
    { unfold eff. rewrite <- Es. rewrite <- Es in Hrn. transitivity (map (fun i => nth i av 0) (range (length av))); [f_equal | symmetry; apply nth_ext_map].
      apply (nth_ext _ _ 0 0); [rewrite range_length; exact Hrl|]. intros k Hk. rewrite Hrl in Hk. rewrite nth_range by exact Hk.
      apply (proj1 (NoDup_nth av 0) Hn); [| exact Hk | symmetry; apply Hrn; exact Hk].
      apply range_In. rewrite <- Pr. apply nth_In. lia. }
    rewrite Er. exact S.
  - destruct (Hother Es) as [v' [E [Hl T]]].
    assert (Hs := sort_nat_ascending av Hn). assert (Hv' : length v' = 2 ^ length (sort_nat av)) by (rewrite sort_nat_length, Hl; exact Hv).
    unfold Boolf_vec, tt_deflated. assert (Hne := pow_length_nonempty v _ Hv).
    assert (Hav : zunique (map Z.of_nat av) = true /\ length v = 2 ^ length (map Z.of_nat av)) by (rewrite map_length; split; [apply zunique_of_nat; exact Hn | exact Hv]).
    assert (Hleff : length v = 2 ^ length eff) by (unfold eff; rewrite map_length, Hrl; exact Hv).
    destruct (constantly_dec v) as [[C|[C _]]|[C0 C1]].
    + rewrite (tt_start_constant v (Some _) false Hne C Hav). cbn [bind]. exists (set_constant false). destruct (set_constant_reduced false) as [R S].
      split; [reflexivity|]. split; [exact R|]. exists eff. split; [exact Heff|]. intro e. rewrite S. symmetry. apply constantly_table; assumption.
    + rewrite (tt_start_constant v (Some _) true Hne C Hav). cbn [bind]. exists (set_constant true). destruct (set_constant_reduced true) as [R S].
      split; [reflexivity|]. split; [exact R|]. exists eff. split; [exact Heff|]. intro e. rewrite S. symmetry. apply constantly_table; assumption.
    + rewrite (tt_start_other v (Some _) false Hne (or_intror (conj C0 C1)) Hav).
      assert (Hne2 : map Z.of_nat av <> []) by (destruct av; [exfalso; apply Es; reflexivity | discriminate]).
      destruct (zmin_spec _ Hne2) as [m [Em [Him _]]]. rewrite Em. cbn [bind].
      apply in_map_iff in Him as [m' [<- _]]. rewrite (proj2 (Z.leb_le 0 (Z.of_nat m')) (Nat2Z.is_nonneg m')). cbn [true_except bind].
      rewrite map_to_of. unfold reorder_if_atomvals_not_asc. rewrite E. cbn [bind].
      assert (Heffn : NoDup eff).
      { unfold eff. apply NoDup_nth with (d := 0). rewrite map_length. intros i j Hi Hj Eq.
        rewrite Hrl in Hi, Hj.
        assert (En : forall k, k < length av -> nth k (map (fun i => nth i (sort_nat av) 0) r) 0 = nth (nth k r 0) (sort_nat av) 0).
        { intros k Hk. rewrite (nth_indep _ 0 ((fun i => nth i (sort_nat av) 0) 0)) by (rewrite map_length; lia). apply (map_nth (fun i => nth i (sort_nat av) 0)). }
        rewrite !En in Eq by assumption.
        assert (Hb : forall k, k < length av -> nth k r 0 < length (sort_nat av)).
        { intros k Hk. rewrite sort_nat_length. apply range_In. rewrite <- Pr. apply nth_In. lia. }
        apply (proj1 (NoDup_nth (sort_nat av) 0) (sort_nat_NoDup av Hn)) in Eq; [|apply Hb; exact Hi | apply Hb; exact Hj].
        assert (Hnr : NoDup r) by (eapply Permutation_NoDup; [symmetry; exact Pr | apply range_NoDup]).
        apply (proj1 (NoDup_nth r 0) Hnr); [lia | lia | exact Eq]. }
      assert (D : forall q, ~ constantly q v -> ~ constantly q v').
      { intros q Hc Hc'. apply Hc. apply (table_constantly q v eff Heffn Hleff). intro e. unfold eff. rewrite <- T. apply constantly_table; assumption. }
      destruct (deflated_ok v' (sort_nat av) Hs Hv' (D _ C0) (D _ C1)) as [f [E' [R [S _]]]]. exists f. split; [exact E'|]. split; [exact R|].
      exists eff. split; [exact Heff|]. intro e. rewrite S. apply T.
Qed.
