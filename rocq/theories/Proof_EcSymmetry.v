(** Proof_EcSymmetry: perm_symmetry_partition and symmetric_spots describe the orbits of the symmetries. *)

From Coq Require Import List Arith ZArith Bool Lia Permutation Sorted Factorial.
From Verif Require Import Model_Base Lib Model_Splits Model_Perm Model_Binary Model_SigPerm Model_SetPart Model_Boolf Model_BoolfMore Model_MinRep
  Model_Helpers Model_Ec Spec_Bits Spec_Perm Spec_SigPerm Spec_Boolf Spec_SetPart Spec_MinRep Spec_Helpers Spec_Ec
  Proof_Binary Proof_Perm Proof_PermMore Proof_Inversions Proof_SigPerm Proof_SigPermOps Proof_SigPermMore Proof_Helpers Proof_SetPart Proof_SetPartMerge Proof_SetPartMore Proof_SetPartLattice Proof_SetPartLabels Proof_SetPartObj
  Proof_Boolf Proof_Deflate Proof_BoolfTable Proof_BoolfApply Proof_BoolfMake Proof_BoolfMore Proof_MinRepTwin Proof_MinRepClass Proof_MinRepCoset Proof_MinRep Proof_MinRepMin Proof_MinRepMale
  Proof_Twin Proof_Listing Proof_Splits Proof_Noble Proof_Seqs Proof_HelpersBits Proof_Blight Proof_Ec Proof_EcClass Proof_EcMembers Proof_EcCount.
Import ListNotations.
Open Scope nat_scope.

(** * Orbits are an equivalence relation *)

Section Orbits.
Context (n : nat) (F : assignment -> bool) (Fext : forall e e', (forall a, e a = e' a) -> F e = F e').

Lemma symmetry_id : symmetry n F (fun a => a) (fun _ => false).
Proof. split; [exists (fun a => a); auto|]. split; [auto|]. intro e. apply Fext. intro a. apply xorb_false_r. Qed.

Lemma symmetry_inv pi m inv : symmetry n F pi m -> (forall a, inv (pi a) = a /\ pi (inv a) = a) -> symmetry n F inv (fun a => m (inv a)).
Proof.
  intros (_ & Hn & H) Hi. split; [exists pi; intro a; split; apply Hi|]. assert (Hf : forall a, n <= a -> inv a = a) by (intros a Ha; rewrite <- (proj1 (Hn a Ha)) at 1; apply Hi).
  split; [intros a Ha; split; [auto | rewrite Hf by exact Ha; apply Hn, Ha]|]. intro e. unfold replaced. rewrite <- (H (fun a => xorb (e (inv a)) (m (inv a)))). apply Fext. intro a.
  rewrite (proj1 (Hi a)), xorb_assoc, xorb_nilpotent, xorb_false_r. reflexivity.
Qed.

Lemma symmetry_comp pi m rho k : symmetry n F pi m -> symmetry n F rho k -> symmetry n F (fun a => rho (pi a)) (fun a => xorb (m a) (k (pi a))).
Proof.
  intros ((inv & Hi) & Hn & H) ((jnv & Hj) & Kn & K). split; [exists (fun a => inv (jnv a)); intro a; split; [rewrite (proj1 (Hj _)); apply Hi | rewrite (proj2 (Hi _)); apply Hj]|].
  split; [intros a Ha; destruct (Hn a Ha) as [-> ->]; destruct (Kn a Ha) as [-> ->]; auto|]. intro e. rewrite <- (K e). unfold replaced at 2. rewrite <- (H (fun a => xorb (e (rho a)) (k a))). apply Fext. intro a.
  rewrite xorb_assoc. f_equal. apply xorb_comm.
Qed.

Lemma moved_refl x : moved (fun a => a) (fun _ => false) x x.
Proof. intro a. rewrite xorb_false_r. reflexivity. Qed.
Lemma moved_inv pi m inv x y : (forall a, inv (pi a) = a /\ pi (inv a) = a) -> moved pi m x y -> moved inv (fun a => m (inv a)) y x.
Proof. intros Hi M a. assert (E := M (inv a)). rewrite (proj2 (Hi a)) in E. rewrite E, xorb_assoc, xorb_nilpotent, xorb_false_r. reflexivity. Qed.
Lemma moved_comp pi m rho k x y z : moved pi m x y -> moved rho k y z -> moved (fun a => rho (pi a)) (fun a => xorb (m a) (k (pi a))) x z.
Proof. intros M K a. rewrite K, M, xorb_assoc. reflexivity. Qed.

Lemma orbit_refl x : orbit n F x x.
Proof. exists (fun a => a), (fun _ => false). split; [apply symmetry_id | apply moved_refl]. Qed.
Lemma orbit_sym x y : orbit n F x y -> orbit n F y x.
Proof. intros (pi & m & S & M). destruct (proj1 S) as (inv & Hi). exists inv, (fun a => m (inv a)). split; [apply (symmetry_inv pi m); assumption | apply (moved_inv pi m); assumption]. Qed.
Lemma orbit_trans x y z : orbit n F x y -> orbit n F y z -> orbit n F x z.
Proof. intros (pi & m & S & M) (rho & k & S' & M'). eexists _, _. split; [apply (symmetry_comp pi m rho k); assumption | apply (moved_comp _ _ _ _ _ y); assumption]. Qed.
Lemma perm_orbit_refl x : perm_orbit n F x x.
Proof. exists (fun a => a). split; [apply symmetry_id | apply moved_refl]. Qed.
Lemma perm_orbit_sym x y : perm_orbit n F x y -> perm_orbit n F y x.
Proof. intros (pi & S & M). destruct (proj1 S) as (inv & Hi). exists inv. split; [apply (symmetry_inv pi (fun _ => false)); assumption | apply (moved_inv pi (fun _ => false)); assumption]. Qed.
Lemma perm_orbit_trans x y z : perm_orbit n F x y -> perm_orbit n F y z -> perm_orbit n F x z.
Proof. intros (pi & S & M) (rho & S' & M'). eexists. split; [apply (symmetry_comp pi (fun _ => false) rho (fun _ => false)); assumption | apply (moved_comp _ (fun _ => false) _ (fun _ => false) _ y); assumption]. Qed.

(** symmetric places have the same value *)
Lemma orbit_value x y : orbit n F x y -> F (Nat.testbit x) = F (Nat.testbit y).
Proof. intros (pi & m & (_ & _ & H) & M). rewrite <- (H (Nat.testbit y)). apply Fext. intro a. rewrite M, xorb_assoc, xorb_nilpotent, xorb_false_r. reflexivity. Qed.
Lemma perm_orbit_orbit x y : perm_orbit n F x y -> orbit n F x y.
Proof. intros (pi & H). exists pi, (fun _ => false). exact H. Qed.
Lemma orbit_bound N x y : n <= N -> orbit n F x y -> x < 2 ^ N -> y < 2 ^ N.
Proof.
  intros Hn (pi & m & (_ & Hh & _) & M) Hx. apply bits_lt_pow. intros a Ha. destruct (Hh a) as [E1 E2]; [lia|]. rewrite <- E1, M, E2, xorb_false_r. apply testbit_high. eapply Nat.lt_le_trans; [exact Hx|]. apply Nat.pow_le_mono_r; lia.
Qed.
End Orbits.

(** * The places under a pair *)

Lemma act_high r n a : r < fact n -> n <= a -> act r a = a.
Proof.
  intros Hr Ha. unfold act. destruct (int_to_perm_spec r) as (p & E & W & P & _). rewrite E. assert (L := proj2 (int_to_perm_length n r p E) Hr).
  destruct (wf_finite_seq p W P) as (_ & _ & Hi & _). apply Hi. lia.
Qed.
Lemma act_bijection r n : r < fact n -> bijection (act r).
Proof.
  intro Hr. destruct (extended_bijection n (act r) (permutes_act r n Hr)) as (inv & H). exists inv. intro a. assert (E : forall b, extended n (act r) b = act r b).
  { intro b. unfold extended. destruct (Nat.ltb_spec b n); [reflexivity | symmetry; apply (act_high r n); assumption]. }
  rewrite <- (E a), <- (E (inv a)). apply H.
Qed.

Lemma pair_moves bl m r x : exists s y, SigPerm_pair m r = Ok s /\ sg_apply_natural bl s x = Ok y /\ moved (act r) (fun a => Nat.testbit m (act r a)) x y.
Proof.
  destruct (pair_spec m r) as (s & Es & Ws & _ & Hp). assert (G := Es). rewrite pair_form in G. destruct (Binv_int_min m) as (v & Ev & _). rewrite Ev in G. cbn [bind] in G.
  destruct (int_to_perm r) as [p|] eqn:Ep; [|discriminate G]. cbn [bind] in G. injection G as G. assert (Esp : sg_perm s = p) by (rewrite <- G; reflexivity).
  unfold sg_pair in Hp. destruct (sg_perm_index s) as [r'|]; [|discriminate Hp]. cbn [bind] in Hp. injection Hp as Hv _.
  destruct (sg_apply_natural_spec bl s x Ws) as (y & Ey & Hy). exists s, y. split; [exact Es|]. split; [exact Ey|]. intro a.
  assert (Ea : act r a = atom (sf s a)) by (unfold act; rewrite Ep, sf_atom, Esp; reflexivity). rewrite Ea, Hy, <- Hv, valneg_index_spec. apply xorb_comm.
Qed.

Lemma moved_unique pi m k x y z : bijection pi -> (forall a, m a = k a) -> moved pi m x y -> moved pi k x z -> y = z.
Proof. intros (inv & Hi) E A B. apply Nat.bits_inj. intro a. rewrite <- (proj2 (Hi a)), A, B, E. reflexivity. Qed.

(** the pairs that leave the function unchanged are its symmetries *)
Lemma clan_symmetry f n m r : r < fact n -> m < 2 ^ n -> clan_at f m r f -> symmetry n (sem f) (act r) (fun a => Nat.testbit m (act r a)).
Proof.
  intros Hr Hm [_ S]. split; [apply (act_bijection r n Hr)|]. split.
  - intros a Ha. assert (E := act_high r n a Hr Ha). split; [exact E|]. rewrite E. apply testbit_high. eapply Nat.lt_le_trans; [exact Hm|]. apply Nat.pow_le_mono_r; lia.
  - intro e. rewrite (S e). reflexivity.
Qed.
Lemma symmetry_pair f n pi m : reduced f -> symmetry n (sem f) pi m ->
  exists k r, k < 2 ^ n /\ r < fact n /\ clan_at f k r f /\ (forall a, act r a = pi a) /\ (forall a, Nat.testbit k (act r a) = m a) /\ ((forall a, m a = false) -> k = 0).
Proof.
  intros R (B & Hn & H). assert (Inj := bijection_inj pi B). assert (Hlt : forall a, a < n -> pi a < n).
  { intros a Ha. destruct (Nat.lt_ge_cases (pi a) n) as [|C]; [assumption|]. destruct (Hn _ C) as [E _]. apply Inj in E. lia. }
  destruct (rank_of_spec pi n Hlt) as [Hr Ha]; [intros; apply Inj; assumption|]. set (r := rank_of pi n) in *. destruct B as (inv & Hi).
  assert (Hact : forall a, act r a = pi a). { intro a. destruct (Nat.lt_ge_cases a n) as [L|L]; [apply Ha, L|]. rewrite (act_high r n a Hr L). symmetry. apply Hn, L. }
  set (k := b2n (map (fun b => m (inv b)) (range n))). assert (Hk : forall a, Nat.testbit k (act r a) = m a).
  { intro a. rewrite Hact. destruct (Nat.lt_ge_cases a n) as [L|L].
    - unfold k. rewrite (place_bits (fun b => m (inv b))) by auto. rewrite (proj1 (Hi a)). reflexivity.
    - destruct (Hn a L) as [E1 E2]. rewrite E1, E2. apply testbit_high. eapply Nat.lt_le_trans; [apply (place_lt (fun b => m (inv b)))|]. apply Nat.pow_le_mono_r; lia. }
  exists k, r. split; [apply (place_lt (fun b => m (inv b)))|]. split; [exact Hr|]. split; [|split; [exact Hact|split; [exact Hk|]]].
  - split; [exact R|]. intro e. rewrite <- (H e). apply sem_ext. intros a _. rewrite Hk, Hact. reflexivity.
  - intro Z0. unfold k. apply Nat.bits_inj_0. intro a. destruct (Nat.lt_ge_cases a n) as [L|L]; [rewrite (place_bits (fun b => m (inv b))) by exact L; apply Z0|].
    apply testbit_high. eapply Nat.lt_le_trans; [apply (place_lt (fun b => m (inv b)))|]. apply Nat.pow_le_mono_r; lia.
Qed.

(** * Root functions *)

Lemma no_valency f : reduced f -> is_constant f = true -> valency f = 0.
Proof. intros R C. unfold valency. apply (proj2 (proj2 (proj2 R))) in C. rewrite C. reflexivity. Qed.


Lemma clan_root d f : reduced f -> adicity f = valency f -> adicity f <= 5 ->
  exists c, ec_clan (S d) f None false = Ok c /\
    shows c (znat_range (2 ^ valency f * fact (valency f))) (fun x g => exists m r, m < 2 ^ valency f /\ r < fact (valency f) /\ x = Z.of_nat (m * fact (valency f) + r) /\ clan_at f m r g).
Proof.
  intros R A L. destruct (is_constant f) eqn:C.
  - cbn [ec_clan]. rewrite C. cbn [negb]. destruct (constant_ec_spec f R) as (c & E & _ & S). exists c. split; [exact E|].
    assert (V : valency f = 0) by (apply no_valency; assumption). rewrite V. cbn [Nat.pow fact Nat.mul Nat.add]. change (znat_range 1) with [0%Z]. revert S. apply shows_ext. intros x g. split.
    + intros (-> & ->). exists 0, 0. split; [lia|]. split; [lia|]. split; [reflexivity|]. split; [exact R|]. intro e. apply sem_ext. intros a Ha. unfold valency in V. destruct (atomvals f); [destruct Ha | discriminate V].
    + intros (m & r & Hm & Hr & -> & G). assert (m = 0) by lia. assert (r = 0) by lia. subst. split; [reflexivity|]. apply (clan_at_unique f 0 0); [exact G|]. split; [exact R|]. intro e. apply sem_ext. intros a Ha. unfold valency in V. destruct (atomvals f); [destruct Ha | discriminate V].
  - destruct (ec_clan_redundant d f None false (valency f) R C L) as (c & E & _ & S); [congruence | lia | auto |]. exists c. auto.
Qed.
Lemma faction_root f : reduced f -> adicity f = valency f -> adicity f <= 5 ->
  exists c, ec_faction f None false = Ok c /\ shows c (znat_range (fact (valency f))) (fun x g => exists r, r < fact (valency f) /\ x = Z.of_nat r /\ faction_at f r g).
Proof.
  intros R A L. destruct (is_constant f) eqn:C.
  - unfold ec_faction. rewrite C. cbn [andb]. change [0%Z] with (znat_range 1). destruct (one_block_spec 1 f) as (c & E & _ & S); [lia | exact R|]. exists c. split; [exact E|].
    assert (V : valency f = 0) by (apply no_valency; assumption). rewrite V. cbn [fact]. revert S. apply shows_ext. intros x g. split.
    + intros (Hx & ->). exists 0. split; [lia|]. split; [lia|]. split; [exact R|]. intro e. apply sem_ext. intros a Ha. unfold valency in V. destruct (atomvals f); [destruct Ha | discriminate V].
    + intros (r & Hr & -> & G). assert (r = 0) by lia. subst. split; [lia|]. apply (faction_at_unique f 0); [exact G|]. split; [exact R|]. intro e. apply sem_ext. intros a Ha. unfold valency in V. destruct (atomvals f); [destruct Ha | discriminate V].
  - destruct (ec_faction_short f None false (valency f) R C L) as (c & E & _ & S); [congruence | lia | auto |]. exists c. auto.
Qed.

(** * Merging the pairs of an equivalence relation *)

Lemma merge_relation (spots : list nat) pairs (Rel : nat -> nat -> Prop) : NoDup spots -> (forall x y, In x spots -> Rel x y -> In y spots) ->
  (forall x, Rel x x) -> (forall x y, Rel x y -> Rel y x) -> (forall x y z, Rel x y -> Rel y z -> Rel x z) ->
  (forall u v, In (u, v) pairs <-> exists x y, u = Z.of_nat x /\ v = Z.of_nat y /\ In x spots /\ Rel x y) ->
  exists s0 s, SetPart (Some []) (DomSet (map Z.of_nat spots)) = Ok s0 /\ Model_Ec.merge_all pairs s0 = Ok s /\ canonical (sp_blocks s) /\ sp_domain s = DomSet (map Z.of_nat spots) /\
    forall u v, u <> v -> (together (sp_blocks s) u v <-> exists x y, u = Z.of_nat x /\ v = Z.of_nat y /\ In x spots /\ In y spots /\ Rel x y).
Proof.
  intros Hn Hc H1 H2 H3 Hp. assert (Nd : NoDup (map Z.of_nat spots)) by (apply NoDup_map_inj; [exact Hn | intros a b _ _; apply Nat2Z.inj]).
  destruct (merge_pairs_spec pairs (DomSet (map Z.of_nat spots))) as (s & E & W & D & T).
  - exact Nd.
  - intros a b H x Hx. apply Hp in H as (i & j & -> & -> & Hi & Hr). destruct Hx as [->| ->]; apply in_map; [exact Hi | apply (Hc i j Hi Hr)].
  - destruct (SetPart (Some []) (DomSet (map Z.of_nat spots))) as [s0|] eqn:E0; unfold merge_pairs in E; rewrite E0 in E; cbn [bind] in E; [|discriminate E].
    exists s0, s. split; [reflexivity|]. split; [exact E|]. split; [apply (wf_canonical s W)|]. split; [exact D|]. intros u v Huv.
    assert (TT : together (sp_blocks s) u v <-> Spec_SetPart.same (sp_blocks s) u v) by (unfold Spec_SetPart.same; split; [auto | intros [C|C]; [contradiction | exact C]]). rewrite TT, T. split.
    + intro G. assert (X : u = v \/ exists x y, u = Z.of_nat x /\ v = Z.of_nat y /\ In x spots /\ In y spots /\ Rel x y); [|destruct X; [contradiction | assumption]].
      refine (generated_closed (fun u v => In (u, v) pairs) (fun u v => u = v \/ exists x y, u = Z.of_nat x /\ v = Z.of_nat y /\ In x spots /\ In y spots /\ Rel x y) u v _ _ _ _ G); clear u v Huv TT G.
      * intro a. left. reflexivity.
      * intros a b [->|(x & y & -> & -> & Hx & Hy & Hr)]; [auto|]. right. exists y, x. auto 10.
      * intros a b c [->|(x & y & -> & -> & Hx & Hy & Hr)]; [auto|]. intros [<-|(x' & y' & E1 & -> & Hx' & Hy' & Hr')]; right; [exists x, y; auto 10|]. apply Nat2Z.inj in E1. subst x'. exists x, y'. repeat (split; [auto 10; fail|]). eapply H3; eassumption.
      * intros a b Hab. apply Hp in Hab as (x & y & -> & -> & Hx & Hr). right. exists x, y. repeat (split; [auto 10; fail|]). split; [apply (Hc x y Hx Hr) | exact Hr].
    + intros (x & y & -> & -> & Hx & _ & Hr). apply Relation_Operators.rst_step, Hp. exists x, y. auto 10.
Qed.

Lemma mapM_all {A B} (h : A -> res B) (Q : A -> B -> Prop) l : (forall x, In x l -> exists y, h x = Ok y /\ Q x y) ->
  exists r, mapM h l = Ok r /\ Forall2 Q l r.
Proof.
  induction l as [|x l IH]; intro H; cbn [mapM]; [exists []; split; [reflexivity | constructor]|].
  destruct (H x (or_introl eq_refl)) as (y & E & Hy). destruct IH as (r & E' & F); [intros; apply H; right; assumption|]. exists (y :: r). rewrite E. cbn [bind]. rewrite E'. cbn [bind]. split; [reflexivity | constructor; assumption].
Qed.
Lemma Forall2_in_l {A B} (Q : A -> B -> Prop) l r x : Forall2 Q l r -> In x l -> exists y, In y r /\ Q x y.
Proof. induction 1 as [|a b l r H F IH]; intros []; [subst; exists b; split; [left; reflexivity | exact H]|]. destruct IH as (y & Hy & Q'); [assumption|]. exists y. split; [right; exact Hy | exact Q']. Qed.
Lemma Forall2_in_r {A B} (Q : A -> B -> Prop) l r y : Forall2 Q l r -> In y r -> exists x, In x l /\ Q x y.
Proof. induction 1 as [|a b l r H F IH]; intros []; [subst; exists a; split; [left; reflexivity | exact H]|]. destruct IH as (x & Hx & Q'); [assumption|]. exists x. split; [right; exact Hx | exact Q']. Qed.

Lemma sem_ext_all f (e e' : assignment) : (forall a, e a = e' a) -> sem f e = sem f e'.
Proof. intro H. apply sem_ext. intros a _. apply H. Qed.

Lemma valency_le_adicity f : reduced f -> valency f <= adicity f.
Proof.
  intro R. unfold valency. rewrite <- (range_length (adicity f)). apply NoDup_incl_length; [apply fitting_NoDup, R|]. intros a Ha. apply range_In. apply adicity_bound, Ha.
Qed.

(** a clan has the index 0 *)
Lemma clan_at_zero f (n : nat) : reduced f -> clan_at f 0 0 f.
Proof. intro R. split; [exact R|]. intro e. apply sem_ext. intros a _. rewrite Nat.bits_0, xorb_false_r. rewrite (act_high 0 0) by (cbn; lia). reflexivity. Qed.

(** perm_symmetry_partition with a given root function *)
Definition perm_symmetry_of (bl : nat -> nat) (b : boolf) (A : nat) : res setpart :=
  let* tt := boolf_tt b (TtArity A) in
  let* setpart := SetPart (Some []) (DomSet (znat_range (2 ^ A))) in
  let* faction := ec_faction b None false in
  match ec_block faction b with
  | None => Err TypeErr
  | Some block =>
      guard is_root b else ValueErr ;;
      let* pairs :=
        mapM (fun ip : Z * nat =>
                let* sig_perm := SigPerm_pair 0 (Z.to_nat (fst ip)) in
                let* post_place := sg_apply_natural bl sig_perm (snd ip) in
                let* x := lget tt post_place in
                let* y := lget tt (snd ip) in
                Ok (if Bool.eqb x y then [(Z.of_nat (snd ip), Z.of_nat post_place)] else []))
             (list_prod block (range (2 ^ A))) in
      Model_Ec.merge_all (concat pairs) setpart
  end.
Lemma perm_symmetry_unfold bl f : perm_symmetry_partition bl f = (let* b := root_boolf f in perm_symmetry_of bl b (adicity f)).
Proof. reflexivity. Qed.

Lemma rb_is_root f : is_root (rb f) = true.
Proof. unfold is_root. rewrite adicity_rb. unfold valency at 2. cbn [rb atomvals]. rewrite range_length. apply Nat.eqb_refl. Qed.

Section Both.
Context (bl : nat -> nat) (f : boolf) (R : reduced f) (L : valency f <= 5).
Notation n := (valency f).
Notation b := (rb f).

Lemma rb_facts : reduced b /\ adicity b = n /\ valency b = n.
Proof. split; [apply rb_reduced, R|]. split; [apply adicity_rb|]. unfold valency. cbn [rb atomvals]. apply range_length. Qed.

Lemma symmetric_spots_spec d : exists s, symmetric_spots (S d) bl f = Ok s /\ canonical (sp_blocks s) /\ sp_domain s = DomSet (map Z.of_nat (binv_exposet (root f))) /\
  forall u v, u <> v -> (together (sp_blocks s) u v <-> exists x y, u = Z.of_nat x /\ v = Z.of_nat y /\ In x (binv_exposet (root f)) /\ In y (binv_exposet (root f)) /\ orbit n (sem b) x y).
Proof.
  destruct rb_facts as (Rb & Ab & Vb). unfold symmetric_spots. rewrite (root_boolf_rb f R). cbn [bind]. change (root b) with (root f).
  destruct (clan_root d b Rb) as (c & Ec & S); [congruence | lia|]. rewrite Vb in S. assert (Eq := clan_equal_blocks b n Rb ltac:(lia) c S).
  assert (F0 := fact_neq_0 n). assert (P2 := Nat.pow_nonzero 2 n ltac:(lia)).
  assert (Mb : In b (ec_members c)). { apply (shows_members _ _ _ S). exists 0%Z, 0, 0. split; [lia|]. split; [lia|]. split; [cbn; lia | apply (clan_at_zero b n Rb)]. }
  destruct Eq as (k & _ & Hb). destruct (Hb b Mb) as (block & Eblock & _). apply (shows_block _ _ _ S b block Rb) in Eblock as H. destruct H as (_ & _ & Hin).
  set (spots := binv_exposet (root f)). assert (Hspots : forall x, In x spots <-> x < 2 ^ n /\ tab b x = true).
  { intro x. unfold spots. rewrite binv_exposet_In. split.
    - intro H. assert (Hx : x < 2 ^ n). { destruct (Nat.lt_ge_cases x (2 ^ n)) as [|C]; [assumption|]. rewrite nth_overflow in H; [discriminate H|]. rewrite (proj2 (proj1 R)). exact C. }
      split; [exact Hx|]. rewrite tab_rb by (auto; apply R). exact H.
    - intros [Hx H]. rewrite tab_rb in H by (auto; apply R). exact H. }
  destruct (mapM_all (fun ks : Z * nat => let k := Z.to_nat (fst ks) in let* sig_perm := SigPerm_pair (k / fact (adicity b)) (k mod fact (adicity b)) in
                let* symmetric_spot := sg_apply_natural bl sig_perm (snd ks) in Ok (Z.of_nat (snd ks), Z.of_nat symmetric_spot))
    (fun ks p => exists m r y, m < 2 ^ n /\ r < fact n /\ fst ks = Z.of_nat (m * fact n + r) /\ clan_at b m r b /\ p = (Z.of_nat (snd ks), Z.of_nat y) /\ moved (act r) (fun a => Nat.testbit m (act r a)) (snd ks) y)
    (list_prod block spots)) as (pairs & Ep & Fp).
  { intros [z x] Hz. apply in_prod_iff in Hz as [Hz Hx]. apply Hin in Hz as (m & r & Hm & Hr & -> & G). cbn [fst snd]. rewrite Ab, Nat2Z.id, Nat.div_add_l by lia. rewrite (Nat.div_small r) by lia. rewrite Nat.add_0_r.
    rewrite Nat.add_comm, Nat.mod_add, Nat.mod_small by lia. destruct (pair_moves bl m r x) as (s & y & -> & Ey & M). cbn [bind]. rewrite Ey. cbn [bind]. eexists. split; [reflexivity|].
    exists m, r, y. repeat (split; [first [assumption | reflexivity | lia]|]). exact M. }
  destruct (merge_relation spots pairs (orbit n (sem b))) as (s0 & s & E0 & E1 & Cs & Ds & Ts).
  - apply exposet_NoDup.
  - intros x y Hx O. apply Hspots in Hx as [Hx T]. apply Hspots. split; [apply (orbit_bound n (sem b) n x y); [lia | exact O | exact Hx]|]. unfold tab in *. rewrite <- (orbit_value n (sem b) (sem_ext_all b) x y O). exact T.
  - apply orbit_refl, sem_ext_all.
  - apply orbit_sym, sem_ext_all.
  - apply orbit_trans, sem_ext_all.
  - intros u v. split.
    + intro H. destruct (Forall2_in_r _ _ _ _ Fp H) as ([z x] & Hz & m & r & y & Hm & Hr & Ez & G & E & M). cbn [fst snd] in *. injection E as -> ->. apply in_prod_iff in Hz as [_ Hx].
      exists x, y. repeat (split; [first [reflexivity | assumption]|]). eexists _, _. split; [apply (clan_symmetry b n m r Hr Hm G) | exact M].
    + intros (x & y & -> & -> & Hx & (pi & m0 & Sy & M)). destruct (symmetry_pair b n pi m0 Rb Sy) as (m & r & Hm & Hr & G & Ha & Hk & _).
      assert (Hz : In (Z.of_nat (m * fact n + r), x) (list_prod block spots)) by (apply in_prod; [apply Hin; exists m, r; auto | exact Hx]).
      destruct (Forall2_in_l _ _ _ _ Fp Hz) as (p & Hp & m' & r' & y' & Hm' & Hr' & Ez & G' & -> & M'). cbn [fst snd] in *. apply Nat2Z.inj in Ez. destruct (pair_number_inj (fact n) m r m' r' Hr Hr' Ez) as [-> ->].
      assert (E : y = y'); [|rewrite E; exact Hp]. apply (moved_unique (act r') m0 (fun a => Nat.testbit m' (act r' a)) x); [apply (act_bijection r' n Hr') | intro; symmetry; apply Hk | intro a; rewrite Ha; apply M | exact M'].
  - exists s. fold spots. rewrite E0. cbn [bind]. rewrite Ec. cbn [bind]. rewrite Eblock. rewrite (rb_is_root f). match goal with |- context [mapM ?h ?l] => replace (mapM h l) with (Ok pairs) by (symmetry; exact Ep) end. cbn [bind]. auto.
Qed.

Lemma perm_symmetry_of_spec A : n <= A -> exists s, perm_symmetry_of bl b A = Ok s /\ canonical (sp_blocks s) /\ sp_domain s = DomSet (znat_range (2 ^ A)) /\
  forall u v, u <> v -> (together (sp_blocks s) u v <-> exists x y, u = Z.of_nat x /\ v = Z.of_nat y /\ x < 2 ^ A /\ y < 2 ^ A /\ perm_orbit n (sem b) x y).
Proof.
  destruct rb_facts as (Rb & Ab & Vb). intro Hva. unfold perm_symmetry_of.
  rewrite (tt_spec b A) by (try apply Rb; lia). cbn [bind]. set (tt := map (tab b) (range (2 ^ A))).
  destruct (faction_root b Rb) as (c & Ec & S); [congruence | lia|]. rewrite Vb in S. assert (Eq := faction_equal_blocks b n Rb ltac:(lia) c S).
  assert (F0 := fact_neq_0 n).
  assert (Mb : In b (ec_members c)). { apply (shows_members _ _ _ S). exists 0%Z, 0. split; [lia|]. split; [reflexivity|]. split; [exact Rb|]. intro e. apply sem_ext. intros a _. rewrite (act_high 0 0) by (cbn; lia). reflexivity. }
  destruct Eq as (k & _ & Hb). destruct (Hb b Mb) as (block & Eblock & _). apply (shows_block _ _ _ S b block Rb) in Eblock as H. destruct H as (_ & _ & Hin).
  set (spots := range (2 ^ A)).
  assert (Hclan : forall r, faction_at b r b <-> clan_at b 0 r b). { intro r. unfold faction_at, clan_at. split; intros [_ H]; (split; [exact Rb|]); intro e; rewrite H at 1; apply sem_ext_all; intro a; rewrite Nat.bits_0, xorb_false_r; reflexivity. }
  destruct (mapM_all (fun ip : Z * nat => let* sig_perm := SigPerm_pair 0 (Z.to_nat (fst ip)) in let* post_place := sg_apply_natural bl sig_perm (snd ip) in
                let* x := lget tt post_place in let* y := lget tt (snd ip) in Ok (if Bool.eqb x y then [(Z.of_nat (snd ip), Z.of_nat post_place)] else []))
    (fun ip p => exists r y, r < fact n /\ fst ip = Z.of_nat r /\ faction_at b r b /\ p = [(Z.of_nat (snd ip), Z.of_nat y)] /\ moved (act r) (fun _ => false) (snd ip) y)
    (list_prod block spots)) as (pairs & Ep & Fp).
  { intros [z x] Hz. apply in_prod_iff in Hz as [Hz Hx]. apply Hin in Hz as (r & Hr & -> & G). cbn [fst snd]. rewrite Nat2Z.id. destruct (pair_moves bl 0 r x) as (s & y & -> & Ey & M). cbn [bind]. rewrite Ey. cbn [bind].
    assert (M' : moved (act r) (fun _ => false) x y) by (intro a; rewrite M, Nat.bits_0; reflexivity).
    assert (P0 : 0 < 2 ^ n) by (apply Nat.neq_0_lt_0, Nat.pow_nonzero; lia). assert (Sy := clan_symmetry b n 0 r Hr P0 (proj1 (Hclan r) G)).
    assert (O : orbit n (sem b) x y) by (eexists _, _; split; [exact Sy | exact M]). apply range_In in Hx. assert (Hy := orbit_bound n (sem b) A x y Hva O Hx).
    unfold tt. rewrite (lget_ok _ y false) by (rewrite map_length, range_length; exact Hy). rewrite (lget_ok _ x false) by (rewrite map_length, range_length; exact Hx). cbn [bind].
    rewrite !(nth_map_range (tab b)) by assumption. unfold tab. rewrite (orbit_value n (sem b) (sem_ext_all b) x y O), Bool.eqb_reflx. eexists. split; [reflexivity|]. exists r, y. repeat (split; [first [assumption | reflexivity]|]). exact M'. }
  assert (Hpairs : forall u v, In (u, v) (concat pairs) <-> In [(u, v)] pairs).
  { intros u v. rewrite in_concat. split.
    - intros (p & Hp & Hu). destruct (Forall2_in_r _ _ _ _ Fp Hp) as (ip & _ & r & y & _ & _ & _ & -> & _). destruct Hu as [Eu|[]]. rewrite <- Eu. exact Hp.
    - intro H. exists [(u, v)]. split; [exact H | left; reflexivity]. }
  destruct (merge_relation spots (concat pairs) (perm_orbit n (sem b))) as (s0 & s & E0 & E1 & Cs & Ds & Ts).
  - apply range_NoDup.
  - intros x y Hx O. apply range_In in Hx. apply range_In. apply (orbit_bound n (sem b) A x y); [exact Hva | apply perm_orbit_orbit, O | exact Hx].
  - apply perm_orbit_refl, sem_ext_all.
  - apply perm_orbit_sym, sem_ext_all.
  - apply perm_orbit_trans, sem_ext_all.
  - intros u v. rewrite Hpairs. split.
    + intro H. destruct (Forall2_in_r _ _ _ _ Fp H) as ([z x] & Hz & r & y & Hr & Ez & G & E & M). cbn [fst snd] in *. injection E as -> ->. apply in_prod_iff in Hz as [_ Hx].
      exists x, y. repeat (split; [first [reflexivity | assumption]|]). exists (act r). split; [|exact M]. split; [apply (act_bijection r n Hr)|]. split; [intros a Ha; split; [apply (act_high r n a Hr Ha) | reflexivity]|].
      intro e. destruct G as [_ G]. unfold replaced. rewrite (G e). apply sem_ext_all. intro a. apply xorb_false_r.
    + intros (x & y & -> & -> & Hx & (pi & Sy & M)). destruct (symmetry_pair b n pi (fun _ => false) Rb Sy) as (m & r & Hm & Hr & G & Ha & _ & Hk). rewrite (Hk ltac:(reflexivity)) in G. apply Hclan in G.
      assert (Hz : In (Z.of_nat r, x) (list_prod block spots)) by (apply in_prod; [apply Hin; exists r; auto | exact Hx]).
      destruct (Forall2_in_l _ _ _ _ Fp Hz) as (p & Hp & r' & y' & Hr' & Ez & G' & -> & M'). cbn [fst snd] in *. apply Nat2Z.inj in Ez. subst r'.
      assert (E : y = y'); [|rewrite E; exact Hp]. apply (moved_unique (act r) (fun _ => false) (fun _ => false) x); [apply (act_bijection r n Hr) | reflexivity | intro a; rewrite Ha; apply M | exact M'].
  - exists s. change (znat_range (2 ^ A)) with (map Z.of_nat spots). rewrite E0. cbn [bind]. rewrite Ec. cbn [bind]. rewrite Eblock. rewrite (rb_is_root f). fold spots. match goal with |- context [mapM ?h ?l] => replace (mapM h l) with (Ok pairs) by (symmetry; exact Ep) end. cbn [bind]. split; [exact E1|]. split; [exact Cs|]. split; [exact Ds|].
    intros u v Huv. rewrite (Ts u v Huv). split; intros (x & y & H1 & H2 & H3 & H4 & H5); exists x, y; (split; [exact H1|]); (split; [exact H2|]); (split; [apply range_In; exact H3|]); (split; [apply range_In; exact H4 | exact H5]).
Qed.

Lemma perm_symmetry_partition_spec : exists s, perm_symmetry_partition bl f = Ok s /\ canonical (sp_blocks s) /\ sp_domain s = DomSet (znat_range (2 ^ adicity f)) /\
  forall u v, u <> v -> (together (sp_blocks s) u v <-> exists x y, u = Z.of_nat x /\ v = Z.of_nat y /\ x < 2 ^ adicity f /\ y < 2 ^ adicity f /\ perm_orbit n (sem b) x y).
Proof.
  destruct (perm_symmetry_of_spec (adicity f) (valency_le_adicity f R)) as (s & E & H). exists s. split; [|exact H].
  rewrite <- E. unfold perm_symmetry_partition. rewrite (root_boolf_rb f R). reflexivity.
Qed.
End Both.
