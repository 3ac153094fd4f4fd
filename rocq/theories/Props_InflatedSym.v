(** Props_InflatedSym: property C123, roots and symmetries of functions with superfluous atoms
    (objects made with the argument skip_deflation). *)

From Coq Require Import List Arith ZArith Bool Lia Permutation Sorted Factorial.
From Verif Require Import Model_Base Lib Model_Splits Model_Perm Model_Binary Model_SigPerm Model_SetPart Model_Boolf Model_BoolfMore Model_MinRep
  Model_Helpers Model_Ec Spec_Bits Spec_Perm Spec_SigPerm Spec_Boolf Spec_Twin Spec_SetPart Spec_MinRep Spec_Ec
  Proof_Binary Proof_SetPart Proof_Boolf Proof_Deflate Proof_BoolfTable Proof_BoolfApply Proof_BoolfMake Proof_MinRep Proof_MinRepMale Proof_MinRepMin Proof_Noble Proof_Ec Proof_EcClass Proof_EcMore Proof_EcCount Proof_EcSymmetry
  Proof_EcPartitioned Proof_HelpersBits Props_Boolf Props_BoolfMore Props_MinRep Props_Ec Props_InflatedEc Props_Superfluous.
Import ListNotations.
Local Open Scope nat_scope.

(** * The root *)

(** When the atoms are 0, 1, ..., the root is the object itself, with its superfluous atoms.
    Otherwise the superfluous atoms are dropped, and the root has an atom for the place of each of
    the others.  So the root of such an object can have gaps between its atoms. *)
Theorem C123_root : forall {i} f, made i f ->
  exists b, root_boolf f = Ok b /\ within (valency f) b /\ (forall e, sem f e = sem b (fun k => e (nth k (atomvals f) 0))) /\
    (atomvals f = seq 0 (valency f) -> b = f) /\
    (atomvals f <> seq 0 (valency f) -> made false b /\ forall k, In k (atomvals b) <-> k < valency f /\ essential (sem f) (nth k (atomvals f) 0)).
Proof.
  intros i f M. assert (Hf := m_fit i f M). destruct (root_boolf_any f Hf) as (b & E & E1 & E2 & S). exists b. split; [exact E|].
  assert (Ir := is_root_range f Hf). unfold range in Ir.
  assert (Sf : forall e, sem f e = sem b (fun k => e (nth k (atomvals f) 0))) by (intro e; rewrite S; apply sem_rb).
  assert (W : adicity b <= valency f).
  { destruct (is_root f) eqn:Er; [rewrite (E1 eq_refl); unfold is_root in Er; apply Nat.eqb_eq in Er; lia|].
    apply adicity_le; [apply (E2 eq_refl)|]. intros e e' He. rewrite !S. apply sem_ext. cbn [rb atomvals]. intros a Ha. apply He, range_In, Ha. }
  split; [apply within_iff, W|]. split; [exact Sf|]. split; [intro H; apply E1, Ir, H|]. intro H.
  assert (Rb : reduced b). { apply E2. destruct (is_root f); [|reflexivity]. exfalso. apply H, Ir. reflexivity. }
  split; [apply reduced_made, Rb|]. intro k. rewrite (atoms_essential b k Rb).
  assert (D : forall x y, x < valency f -> y < valency f -> nth x (atomvals f) 0 = nth y (atomvals f) 0 -> x = y) by (intros x y Hx Hy Exy; apply (proj1 (NoDup_nth (atomvals f) 0) (fitting_NoDup f Hf)); assumption).
  split.
  - intros (e & He). assert (Hk : k < valency f). { apply (Nat.lt_le_trans _ (adicity b)); [|exact W]. apply adicity_bound, (atoms_essential b k Rb). exists e. exact He. }
    split; [exact Hk|]. exists (lift f e). rewrite !Sf. intro C. apply He. rewrite !S in *. revert C.
    assert (X : forall q, sem (rb f) (fun j => upd (lift f e) (nth k (atomvals f) 0) q (nth j (atomvals f) 0)) = sem (rb f) (upd e k q)).
    { intro q. apply sem_ext. cbn [rb atomvals]. intros a Ha. apply range_In in Ha. unfold upd. destruct (Nat.eqb_spec a k) as [->|Na]; [rewrite Nat.eqb_refl; reflexivity|].
      destruct (Nat.eqb_spec (nth a (atomvals f) 0) (nth k (atomvals f) 0)) as [C|_]; [destruct Na; apply D; assumption | apply lift_nth; assumption]. }
    rewrite !X. auto.
  - intros (Hk & e & He). exists (fun j => e (nth j (atomvals f) 0)). rewrite !S. intro C. apply He. rewrite !(sem_rb f).
    assert (X : forall q, sem (rb f) (fun j => upd e (nth k (atomvals f) 0) q (nth j (atomvals f) 0)) = sem (rb f) (upd (fun j => e (nth j (atomvals f) 0)) k q)).
    { intro q. apply sem_ext. cbn [rb atomvals]. intros a Ha. apply range_In in Ha. unfold upd. destruct (Nat.eqb_spec a k) as [->|Na]; [rewrite Nat.eqb_refl; reflexivity|].
      destruct (Nat.eqb_spec (nth a (atomvals f) 0) (nth k (atomvals f) 0)) as [C'|_]; [destruct Na; apply D; assumption | reflexivity]. }
    rewrite !X. exact C.
Qed.
Print Assumptions C123_root.

(** * Symmetries *)

Lemma fresh_part spots : NoDup spots -> exists s0, SetPart (Some []) (DomSet (map Z.of_nat spots)) = Ok s0.
Proof.
  intro N. destruct (merge_relation spots (map (fun x => (Z.of_nat x, Z.of_nat x)) spots) eq N) as (s0 & s & E & _); [intros; subst; assumption | auto | auto | intros; congruence | | exists s0; exact E].
  intros u v. rewrite in_map_iff. split; [intros (x & E & H); injection E as <- <-; exists x, x; auto | intros (x & y & -> & -> & H & ->); exists y; auto].
Qed.

Lemma superfluous_stranger f h : has_superfluous f -> reduced h -> root h <> root f \/ atomvals h <> atomvals f.
Proof.
  intros (a & Ia & Na) R. destruct (list_eq_dec Nat.eq_dec (atomvals h) (atomvals f)) as [E|E]; [left | right; exact E]. intro Er. apply Na.
  rewrite <- E in Ia. apply (atoms_essential h a R) in Ia. unfold sem in *. rewrite <- E, <- Er. exact Ia.
Qed.

(** The labels of the partitions have no superfluous atoms.  So an object that is its own root is
    not among them, if it has superfluous atoms, and the loop over its block raises TypeError. *)
Theorem C123_raises : forall depth bl f, made true f -> (exists a, In a (atomvals f) /\ ~ essential (sem f) a) -> atomvals f = seq 0 (valency f) -> valency f <= 5 ->
  perm_symmetry_partition bl f = Err TypeErr /\ symmetric_spots (S depth) bl f = Err TypeErr.
Proof.
  intros depth bl f M Sup At L. destruct (made_wellmade true f M) as (Wf & _). assert (Hf := proj1 Wf). assert (Er : is_root f = true) by (apply is_root_range; assumption).
  assert (Eb : root_boolf f = Ok f) by (unfold root_boolf; rewrite Er; reflexivity). assert (A : adicity f = valency f) by (apply Nat.eqb_eq, Er).
  assert (C : is_constant f = false). { destruct (is_constant f) eqn:C; [|reflexivity]. apply (proj2 Wf) in C. destruct Sup as (a & Ia & _). rewrite C in Ia. destruct Ia. }
  split.
  - unfold perm_symmetry_partition. rewrite Eb. cbn [bind]. rewrite (tt_spec f (adicity f)) by (assumption || lia). cbn [bind].
    destruct (fresh_part (range (2 ^ adicity f)) (range_NoDup _)) as (s0 & E0). change (map Z.of_nat (range (2 ^ adicity f))) with (znat_range (2 ^ adicity f)) in E0. rewrite E0. cbn [bind].
    destruct (ec_faction_short f None false (valency f) Wf C ltac:(lia)) as (c & Ec & _ & S); [congruence | lia | auto|]. rewrite Ec. cbn [bind].
    rewrite (shows_stranger _ _ _ S f); [reflexivity|]. intros x h (r & _ & _ & Rh & _). apply superfluous_stranger; assumption.
  - unfold symmetric_spots. rewrite Eb. cbn [bind]. destruct (fresh_part (binv_exposet (root f)) (exposet_NoDup _)) as (s0 & E0). rewrite E0. cbn [bind].
    destruct (ec_clan_redundant depth f None false (valency f) Wf C ltac:(lia)) as (c & Ec & _ & S); [congruence | lia | auto|]. rewrite Ec. cbn [bind].
    rewrite (shows_stranger _ _ _ S f); [reflexivity|]. intros x h (m & r & _ & _ & _ & Rh & _). apply superfluous_stranger; assumption.
Qed.
Print Assumptions C123_raises.

(** For the other objects the symmetries are those of the root, if it has no gaps between its
    atoms.  But the places of perm_symmetry_partition still are those of the object. *)
Theorem C123_symmetries : forall depth bl f b, made true f -> atomvals f <> seq 0 (valency f) -> valency f <= 5 -> root_boolf f = Ok b -> atomvals b = seq 0 (valency b) ->
  (exists s, perm_symmetry_partition bl f = Ok s /\ canonical (sp_blocks s) /\ sp_domain s = DomSet (map Z.of_nat (seq 0 (2 ^ adicity f))) /\
    forall u v, u <> v -> (together (sp_blocks s) u v <-> exists x y, u = Z.of_nat x /\ v = Z.of_nat y /\ x < 2 ^ adicity f /\ y < 2 ^ adicity f /\ perm_orbit (valency b) (sem b) x y)) /\
  exists s, symmetric_spots (S depth) bl f = Ok s /\ canonical (sp_blocks s) /\
    (exists dom, sp_domain s = DomSet dom /\ forall x, In x dom <-> exists k, x = Z.of_nat k /\ k < 2 ^ valency b /\ sem b (Nat.testbit k) = true) /\
    forall u v, u <> v -> (together (sp_blocks s) u v <->
      exists x y, u = Z.of_nat x /\ v = Z.of_nat y /\ x < 2 ^ valency b /\ sem b (Nat.testbit x) = true /\ orbit (valency b) (sem b) x y).
Proof.
  intros depth bl f b M At L Eb Ab. assert (Hf := m_fit true f M). destruct (C123_root f M) as (b' & E & W & _ & _ & Mb). rewrite Eb in E. injection E as <-. destruct (Mb At) as (Mb' & _). clear Mb. assert (Rb := m_red b Mb').
  apply within_iff in W. assert (Irb : is_root b = true) by (apply is_root_range; [apply Rb | exact Ab]). assert (Vb : adicity b = valency b) by (apply Nat.eqb_eq, Irb).
  assert (Eq : rb b = b). { assert (X := root_boolf_rb b Rb). unfold root_boolf in X. rewrite Irb in X. injection X as X. symmetry. exact X. }
  split.
  - assert (Va : valency b <= adicity f). { rewrite <- Vb. apply (Nat.le_trans _ (valency f)); [exact W|]. unfold valency. rewrite <- (range_length (adicity f)). apply NoDup_incl_length; [apply fitting_NoDup, Hf|]. intros a Ha. apply range_In, adicity_bound, Ha. }
    destruct (perm_symmetry_of_spec bl b Rb ltac:(lia) (adicity f) Va) as (s & Es & Cs & Ds & Ts). rewrite Eq in Es, Ts. exists s. split; [rewrite perm_symmetry_unfold, Eb; exact Es|]. split; [exact Cs|]. split; [exact Ds | exact Ts].
  - destruct (C74_symmetric_spots depth bl b Mb' ltac:(lia)) as (b2 & s & E2 & Es & H). rewrite (root_boolf_rb b Rb), Eq in E2. injection E2 as <-. exists s. split; [|exact H].
    rewrite <- Es. unfold symmetric_spots. rewrite Eb, (root_boolf_rb b Rb), Eq. reflexivity.
Qed.
Print Assumptions C123_symmetries.

(** If the root has gaps between its atoms, the elements of its blocks are not permutations, and ValueError is raised. *)
Theorem C123_gaps : forall depth bl f b, made true f -> valency f <= 5 -> root_boolf f = Ok b -> atomvals b <> seq 0 (valency b) ->
  perm_symmetry_partition bl f = Err ValueErr /\ symmetric_spots (S depth) bl f = Err ValueErr.
Proof.
  intros depth bl f b M L Eb Ab. assert (Hf := m_fit true f M). destruct (C123_root f M) as (b' & E & W & _ & Same & Mb). rewrite Eb in E. injection E as <-.
  assert (At : atomvals f <> seq 0 (valency f)) by (intro H; rewrite (Same H) in Ab; contradiction). destruct (Mb At) as (Mb' & _). assert (Rb := m_red b Mb'). apply within_iff in W.
  assert (Irb : is_root b = false). { destruct (is_root b) eqn:X; [|reflexivity]. apply is_root_range in X; [contradiction | apply Rb]. }
  assert (C : is_constant b = false). { destruct (is_constant b) eqn:C; [|reflexivity]. destruct Ab. unfold valency. rewrite (proj1 (proj2 (proj2 (proj2 Rb))) C). reflexivity. }
  assert (W5 : within 5 b) by (apply within_iff; lia). assert (Wb : within (adicity b) b) by (apply within_iff; lia).
  split.
  - rewrite perm_symmetry_unfold, Eb. cbn [bind]. unfold perm_symmetry_of.
    assert (Va : adicity b <= adicity f). { apply (Nat.le_trans _ (valency f)); [exact W|]. unfold valency. rewrite <- (range_length (adicity f)). apply NoDup_incl_length; [apply fitting_NoDup, Hf|]. intros a Ha. apply range_In, adicity_bound, Ha. }
    rewrite (tt_spec b (adicity f)) by (apply Rb || exact Va). cbn [bind].
    destruct (fresh_part (range (2 ^ adicity f)) (range_NoDup _)) as (s0 & E0). change (map Z.of_nat (range (2 ^ adicity f))) with (znat_range (2 ^ adicity f)) in E0. rewrite E0. cbn [bind].
    destruct (C71_members b None false (adicity b) Mb' W5 eq_refl Wb) as (c & Ec & _ & Hc). rewrite Ec. cbn [bind].
    destruct (C71_shares b None false (adicity b) c Mb' C Wb eq_refl Ec) as (k & _ & Hk). destruct (Hk b) as (block & Ek & _); [apply Hc; split; [exact Mb'|]; split; [exact Wb | apply faction_refl]|]. rewrite Ek, Irb. reflexivity.
  - unfold symmetric_spots. rewrite Eb. cbn [bind]. destruct (fresh_part (binv_exposet (root b)) (exposet_NoDup _)) as (s0 & E0). rewrite E0. cbn [bind].
    destruct (C72_members depth b None false (adicity b) Mb' W5 eq_refl Wb (or_intror eq_refl)) as (c & Ec & _ & Hc). rewrite Ec. cbn [bind].
    destruct (C72_shares (S depth) b None false (adicity b) c Mb' C Wb eq_refl Ec) as (k & _ & Hk). destruct (Hk b) as (block & Ek & _); [apply Hc; split; [exact Mb'|]; split; [exact Wb | apply faction_clan, faction_refl]|]. rewrite Ek, Irb. reflexivity.
Qed.
Print Assumptions C123_gaps.

(** * Other attributes *)

Theorem C123_malerep : forall f, made true f -> (exists a, In a (atomvals f) /\ ~ essential (sem f) a) -> family_malerep f = Err ValueErr.
Proof. intros f M H. unfold family_malerep. rewrite (C122_male f M H). reflexivity. Qed.
Print Assumptions C123_malerep.

Lemma weight_repeat q N : binv_weight (repeat q N) = if q then N else 0.
Proof. rewrite weight_filter. induction N as [|N IH]; [destruct q; reflexivity|]. cbn [repeat filter]. destruct q; cbn [length]; rewrite IH; reflexivity. Qed.

Theorem C123_self_complementary : forall {i} oz on f, (forall l, Permutation (oz l) l) -> (forall l, StronglySorted lt l -> on l = l) -> made i f ->
  exists b, family_is_self_complementary oz on f = Ok b /\ (b = true <-> family_class (sem f) (fun e => negb (sem f e))).
Proof.
  intros i oz on f Hz Hn M. assert (Hf := m_fit i f M). unfold family_is_self_complementary. destruct (Nat.eqb_spec (2 * binv_weight (root f)) (length (root f))) as [W|W].
  - destruct (not_spec f Hf) as (h & E & Rh & Sh).
    assert (Cf : exists e e', sem f e <> sem f e').
    { assert (X : exists k, k < 2 ^ valency f /\ nth k (root f) false <> nth 0 (root f) false).
      { destruct (forallb (fun k => Bool.eqb (nth k (root f) false) (nth 0 (root f) false)) (range (2 ^ valency f))) eqn:B.
        - exfalso. rewrite forallb_forall in B. assert (P := Nat.pow_nonzero 2 (valency f) ltac:(lia)). assert (Lr := proj2 Hf).
          assert (Y : root f = repeat (nth 0 (root f) false) (2 ^ valency f)).
          { apply (nth_ext _ _ false (nth 0 (root f) false)); [rewrite repeat_length; exact Lr|]. intros k Hk. rewrite nth_repeat. apply eqb_prop, B, range_In. rewrite Lr in Hk. exact Hk. }
          rewrite Y, weight_repeat, repeat_length in W. destruct (nth 0 (root f) false); lia.
        - apply Bool.not_true_iff_false in B. apply forallb_false_ex in B as (k & Hk & Ek). exists k. split; [apply range_In, Hk|]. intro C. rewrite C, Bool.eqb_reflx in Ek. discriminate Ek. }
      destruct X as (k & Hk & X). exists (lift f (Nat.testbit k)), (lift f (Nat.testbit 0)). rewrite <- !rb_sem by exact Hf. change (tab (rb f) k <> tab (rb f) 0). rewrite !tab_rb by (assumption || (apply Nat.neq_0_lt_0, Nat.pow_nonzero; lia)). exact X. }
    assert (Mf := made_any f M). assert (Mh := made_any h (reduced_made h Rh)).
    assert (Ch : exists e e', sem h e <> sem h e') by (destruct Cf as (e & e' & H); exists e, e'; rewrite !Sh; intro C; apply H; destruct (sem f e), (sem f e'); auto; discriminate C).
    destruct (C121_minreps true oz on f Hz Hn Mf Cf) as ((a & Ea & Ma & _) & _). destruct (C121_minreps true oz on h Hz Hn Mh Ch) as ((b & Eb & Mb & _) & _).
    rewrite Ea, E. cbn [bind]. rewrite Eb. cbn [bind]. eexists. split; [reflexivity|]. assert (X := proj1 (C121_minreps_class true oz on f h Hz Hn Mf Mh Cf Ch)). rewrite Ea, Eb in X.
    assert (Y : family_class (sem f) (sem h) <-> family_class (sem f) (fun e => negb (sem f e))) by (split; intros (m & H); exists m; intro e; [rewrite <- Sh | rewrite Sh]; apply H).
    rewrite <- Y, <- X. rewrite (boolf_eqb_true a b (m_red a Ma) (m_red b Mb)).
    split; [intro Z; do 2 f_equal; exact Z | intro Z; injection Z as Z; exact Z].
  - exists false. split; [reflexivity|]. split; [discriminate|]. intro C. destruct W. apply half_weight; [exact Hf | exact C].
Qed.
Print Assumptions C123_self_complementary.

(** * Examples *)

Definition spots_raw (s av : list Z) : bargs := mkArgs None (Some av) None None (Some s) None None None None None None true.
Lemma spots_raw_made s av f : Boolf 1 (spots_raw s av) = Ok f -> made true f.
Proof. intro E. refine (made_by true 1 (spots_raw s av) f (fun _ => eq_refl) _ E). intros g []. Qed.

(* x1 AND x2 with the superfluous atom 3, x1 AND x3 with the superfluous atom 2, x1 with the superfluous atom 0 *)
Definition ex_end : boolf := mkBoolf [false; false; false; true; false; false; false; true] [1; 2; 3] false true.
Definition ex_mid : boolf := mkBoolf [false; false; false; false; false; true; false; true] [1; 2; 3] false true.
Lemma ex_end_made : made true ex_end.
Proof. apply (spots_raw_made [3; 7]%Z [1; 2; 3]%Z). vm_compute. reflexivity. Qed.
Lemma ex_mid_made : made true ex_mid.
Proof. apply (spots_raw_made [5; 7]%Z [1; 2; 3]%Z). vm_compute. reflexivity. Qed.
Lemma ex_low_made : made true ex_x1_raw.
Proof. apply (spots_raw_made [2; 3]%Z [0; 1]%Z). vm_compute. reflexivity. Qed.

Example C123_ex_root : made true ex_end /\ made true ex_mid /\ root_boolf ex_end = Ok (mkBoolf [false; false; false; true] [0; 1] false false) /\ root_boolf ex_mid = Ok (mkBoolf [false; false; false; true] [0; 2] false false) /\
  root_boolf ex_x1_raw = Ok ex_x1_raw.
Proof. split; [exact ex_end_made|]. split; [exact ex_mid_made|]. split; [vm_compute; reflexivity|]. split; vm_compute; reflexivity. Qed.

Example C123_ex_raises : made true ex_x1_raw /\ (exists a, In a (atomvals ex_x1_raw) /\ ~ essential (sem ex_x1_raw) a) /\ atomvals ex_x1_raw = seq 0 (valency ex_x1_raw) /\ valency ex_x1_raw <= 5 /\
  family_malerep ex_x1_raw = Err ValueErr.
Proof.
  split; [exact ex_low_made|]. split; [exists 0; split; [left; reflexivity|]; intros (e & H); apply H; cbn; destruct (e 1); reflexivity|]. split; [reflexivity|]. split; [cbn; lia|]. vm_compute. reflexivity.
Qed.

Example C123_ex_symmetries : made true ex_end /\ atomvals ex_end <> seq 0 (valency ex_end) /\ valency ex_end <= 5 /\
  (let* s := perm_symmetry_partition (fun n => S (Nat.log2 n)) ex_end in Ok (sp_blocks s)) = Ok [[1; 2]; [5; 6]; [9; 10]; [13; 14]]%Z /\
  (let* s := symmetric_spots 1 (fun n => S (Nat.log2 n)) ex_end in Ok (sp_blocks s, sp_domain s)) = Ok ([], DomSet [3%Z]) /\ binv_exposet (root ex_end) = [3; 7].
Proof. split; [exact ex_end_made|]. split; [discriminate|]. split; [cbn; lia|]. split; [vm_compute; reflexivity|]. split; vm_compute; reflexivity. Qed.

Example C123_ex_gaps : made true ex_mid /\ valency ex_mid <= 5 /\ perm_symmetry_partition (fun n => S (Nat.log2 n)) ex_mid = Err ValueErr /\ symmetric_spots 1 (fun n => S (Nat.log2 n)) ex_mid = Err ValueErr.
Proof. split; [exact ex_mid_made|]. split; [cbn; lia|]. split; vm_compute; reflexivity. Qed.

Example C123_ex_complement : (let* a := family_is_self_complementary (fun l => l) (fun l => l) ex_x1_raw in let* b := family_is_self_complementary (fun l => l) (fun l => l) ex_end in Ok (a, b)) = Ok (true, false).
Proof. vm_compute. reflexivity. Qed.
