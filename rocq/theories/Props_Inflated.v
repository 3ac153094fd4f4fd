(** Props_Inflated: property C117, blight, gapless functions and hypersplits of functions made with
    the argument skip_deflation.

    Such a function can have atoms its value does not depend on, and it can be constant although it
    has atoms.  C55 to C59 and C77 are about functions made without that argument. *)

From Coq Require Import List Arith ZArith Bool Lia Permutation Sorted.
From Verif Require Import Model_Base Lib Model_Binary Model_Splits Model_Perm Model_SetPart Model_SetPartComp Model_Boolf Model_SetPartBoolf Model_Blight Model_Hyper.
From Verif Require Import Spec_SetPart Proof_SetPart Spec_SetPartComp Proof_SetPartComp Proof_SetPartCompMore Props_SetPartComp.
From Verif Require Import Spec_Bits Spec_Boolf Spec_Splits Spec_Blight Spec_Hyper Proof_Binary Proof_Boolf Proof_BoolfTable Proof_BoolfMake Proof_Splits Props_Boolf Props_Splits
  Proof_Blight Proof_BlightBoolf Proof_Blocks Proof_BlightBlocks Proof_Bloatless Proof_Blightless Proof_Gapless Props_Blight Proof_Hyper Proof_HyperLevels Proof_HyperCores.
Import ListNotations.
Local Open Scope nat_scope.

Lemma made_splittable i f : made i f -> satisfiable f -> valency f <> 1 -> splittable f.
Proof. intros M S V. split; [apply (made_wellmade i f M)|]. split; [right; exact S|]. split; [intro; contradiction | exists i; exact M]. Qed.

(** ** Relations between the atoms *)

(** bloat, blot and blight report what the satisfying assignments have in common *)
Theorem C117_blight : forall i order f, (forall l, Permutation (order l) l) -> made i f -> satisfiable f -> valency f <> 1 ->
  exists a b c, bloat order f = Ok a /\ blot order f = Ok b /\ blight order f = Ok c /\ forall x y,
    ((x <> y -> (are_equal a x y = true <-> linked_keys f x y false)) /\ (are_comp a x y = true <-> linked_keys f x y true)) /\
    ((x <> y -> (are_equal b x y = true <-> exists q, fixed_key f x q /\ fixed_key f y q)) /\
     (are_comp b x y = true <-> exists q, fixed_key f x q /\ fixed_key f y (negb q))) /\
    ((x <> y -> (are_equal c x y = true <-> linked_keys f x y false \/ exists q, fixed_key f x q /\ fixed_key f y q)) /\
     (are_comp c x y = true <-> linked_keys f x y true \/ exists q, fixed_key f x q /\ fixed_key f y (negb q))).
Proof.
  intros i order f Ho M S V. assert (R := made_splittable i f M S V).
  destruct (bloat_reports order f Ho R) as [a [Ea Ha]], (blot_reports order f Ho R) as [b [Eb Hb]], (blight_reports order f Ho R) as [c [Ec Hc]].
  exists a, b, c. auto 10.
Qed.
Print Assumptions C117_blight.

(** the three tests *)
Theorem C117_tests : forall i order f, (forall l, Permutation (order l) l) -> made i f -> satisfiable f -> valency f <> 1 ->
  exists a b c, is_bloatless order f = Ok a /\ is_blotless f = Ok b /\ is_blightless order f = Ok c /\
    (a = true <-> no_links f) /\ (b = true <-> none_fixed f) /\ (c = true <-> no_links f /\ none_fixed f).
Proof.
  intros i order f Ho M S V. assert (R := made_splittable i f M S V).
  destruct (is_bloatless_spec order f Ho R) as [a [Ea Ha]], (is_blotless_spec f R) as [b [Eb Hb]], (is_blightless_spec order f Ho R) as [c [Ec Hc]].
  exists a, b, c. auto 10.
Qed.
Print Assumptions C117_tests.

(** the functions that express the relations, and the functions without them: the latter need only
    the listed atoms, have no relations themselves, and the conjunction is the original function *)
Theorem C117_functions : forall i order f, (forall l, Permutation (order l) l) -> made i f -> satisfiable f -> valency f <> 1 ->
  exists b o l g h keys, bloat_boolf order f = Ok b /\ blot_boolf f = Ok o /\ blight_boolf order f = Ok l /\
    bloatless_boolf order f = Ok g /\ blightless_boolf order f = Ok h /\ blightless_atomkeys order f = Ok keys /\
    made false b /\ made false o /\ made false l /\ made false g /\ made false h /\
    (forall e, sem b e = true <-> keeps_links f e) /\ (forall e, sem o e = true <-> keeps_fixed f e) /\
    (forall e, sem l e = true <-> keeps_links f e /\ keeps_fixed f e) /\
    (forall e, sem f e = sem g e && sem b e) /\ no_links g /\
    (forall e, sem f e = sem h e && sem l e) /\ no_links h /\ none_fixed h /\
    (forall e, sem h e = true <-> extends f keys e).
Proof.
  intros i order f Ho M S V. assert (R := made_splittable i f M S V). destruct (bloat_boolf_spec order f Ho R) as [b [Eb [Rb Sb]]], (blot_boolf_spec f R) as [o [Eo [Ro So]]], (blight_boolf_spec order f Ho R) as [l [El [Rl Sl]]].
  destruct (blocks_and_sides_spec order f Ho R) as (B & P & E & K). destruct (bloatless_boolf_spec order f B P Ho R E K) as [g [Eg [Rg Sg]]].
  destruct (blightless_atomkeys_spec order f g R Eg) as [keys [Ek Hk]]. destruct (blightless_boolf_spec order f B P g keys Ho R E K Eg Rg Sg Ek Hk) as [h [Eh [Rh Sh]]].
  exists b, o, l, g, h, keys. do 6 (split; [assumption|]). do 5 (split; [apply reduced_made; assumption|]). split; [exact Sb|]. split; [exact So|]. split; [exact Sl|].
  split; [intro e; apply eq_iff_eq_true; rewrite andb_true_iff, Sg, Sb; apply (bloatless_and f B P e K)|]. split; [exact (no_links_bloatless f B P g R K Rg Sg)|].
  split; [intro e; apply eq_iff_eq_true; rewrite andb_true_iff, Sh, Sl; apply (blightless_and f B P g keys e R K Rg Sg Hk)|].
  destruct (blightless_clean f B P g keys h R K Rg Sg Hk Rh Sh) as [N1 N2]. auto.
Qed.
Print Assumptions C117_functions.

(** ** Gapless functions and bundles *)

(** The gapless function is returned, unless it is the function itself and some atom is
    superfluous: then the check of the result fails. *)
Theorem C117_gapless : forall i order f, (forall l, Permutation (order l) l) -> made i f -> satisfiable f -> valency f <> 1 -> no_links f -> none_fixed f ->
  exists g, made false g /\
    (forall e, sem g e = true <-> forall a b, a < valency f -> b < valency f -> occurs f a b (e (nth_atom f a)) (e (nth_atom f b))) /\
    ((exists e, sem f e <> sem g e) -> gapless_boolf order f = Ok g) /\
    ((forall e, sem f e = sem g e) -> (forall a, In a (atomvals f) -> essential (sem f) a) -> gapless_boolf order f = Ok g) /\
    ((forall e, sem f e = sem g e) -> (exists a, In a (atomvals f) /\ ~ essential (sem f) a) -> gapless_boolf order f = Err SmallerThanSelfERROR).
Proof.
  intros i order f Ho M S V NL NF. assert (R := made_splittable i f M S V). destruct (gapless_result order f i Ho M R NL NF) as [g [E [Rg Full]]]. exists g.
  split; [apply reduced_made; exact Rg|]. split; [exact Full|]. rewrite E. unfold bitwise_ge.
  destruct (le_spec f g (proj1 (proj1 R)) (proj1 Rg)) as [q [Eq Hq]]. rewrite Eq. cbn [bind]. split; [|split].
  - intros D. rewrite (proj2 Hq); [reflexivity|]. right. split; [apply gapless_above; exact Full | exact D].
  - intros Same Es. rewrite (proj2 Hq); [reflexivity|]. left. apply boolf_eqb_sem; [|exact Rg | exact Same].
    apply wellmade_reduced; [apply R|]. apply not_true_is_false. intro X. apply R in X as [a [Ha Na]]. exact (Na (Es a Ha)).
  - intros Same [a [Ha Na]]. destruct q; [|reflexivity]. exfalso. destruct (proj1 Hq eq_refl) as [X|[_ [e D]]]; [|exact (D (Same e))].
    apply boolf_eqb_eq in X as [_ X]. rewrite X in Ha. apply Na. destruct (proj1 (proj2 Rg) a Ha) as [e He]. exists e. rewrite !Same. exact He.
Qed.
Print Assumptions C117_gapless.

(** bundles are refused for functions with superfluous atoms, even if there are no relations *)
Theorem C117_bundles : forall i order f a, (forall l, Permutation (order l) l) -> made i f -> satisfiable f -> valency f <> 1 -> In a (atomvals f) -> ~ essential (sem f) a ->
  bundles order f = Err BoolfNotBlightlessError /\ is_bundle order f = Err BoolfNotBlightlessError /\ bundle_overlap_counts order f = Err BoolfNotBlightlessError /\
  bundle_grid_partitions order f = Err BoolfNotBlightlessError.
Proof.
  intros i order f a Ho M S V Ha Na. assert (R := made_splittable i f M S V). destruct (blocks_and_sides_spec order f Ho R) as (B & P & E & K). destruct (bloatless_boolf_spec order f B P Ho R E K) as [g [Eg [Rg _]]].
  assert (X : boolf_eqb f g = false).
  { apply not_true_is_false. intro X. assert (Sm := eqb_sem f g X). apply boolf_eqb_eq in X as [_ X]. rewrite X in Ha. apply Na. destruct (proj1 (proj2 Rg) a Ha) as [e He]. exists e. rewrite !Sm. exact He. }
  assert (Y : bundles order f = Err BoolfNotBlightlessError) by (unfold bundles; rewrite Eg; cbn [bind]; rewrite X; reflexivity).
  split; [exact Y|]. split; [unfold is_bundle; rewrite Y; reflexivity|]. split; [unfold bundle_overlap_counts; rewrite Eg; cbn [bind]; rewrite X; reflexivity|].
  unfold bundle_grid_partitions. destruct (is_blightless_spec order f Ho R) as [c [-> _]]. cbn [bind]. destruct c; [|reflexivity]. cbn [true_except]. rewrite Y. reflexivity.
Qed.
Print Assumptions C117_bundles.

(** ** Hypersplits *)

Theorem C117_hypersplits : forall i order f, (forall l, Permutation (order l) l) -> made i f -> satisfiable f -> valency f <> 1 ->
  (~ (no_links f /\ none_fixed f) -> hypersplits order f = Err NotBlightlessError) /\
  (no_links f -> none_fixed f -> exists m h, hypersplits order f = Ok h /\ 1 <= m /\ map fst h = seq 1 m /\
    (forall n l, In (n, l) h -> NoDup (map fst l) /\
       (forall keys, In keys (map fst l) <-> key_set f n keys /\ shattered f keys) /\
       (forall keys s, In (keys, s) l -> sp_domain s = DomN /\ canonical (sp_blocks s) /\ forall x y, same (sp_blocks s) x y <-> x = y \/ alike f keys x y) /\
       (1 < n -> l <> [])) /\
    (forall n keys, key_set f n keys -> shattered f keys -> n <= m)).
Proof.
  intros i order f Ho M S V. assert (R := made_splittable i f M S V). split; [apply hypersplits_reject; assumption|]. intros NL NF.
  destruct (hypersplits_spec order f Ho R NL NF) as (m & h & E & Hm & (Kh & Vh) & Mx & _). exists m, h. split; [exact E|]. split; [exact Hm|]. split; [exact Kh|]. split; [|exact Mx].
  intros n l Hi. destruct (Vh n l Hi) as ((N & I & P) & Ne). split; [exact N|]. split; [exact I|]. split; [|exact Ne]. intros keys s Hs. destruct (P keys s Hs) as (W & D & T). split; [exact D|]. split; [apply W | exact T].
Qed.
Print Assumptions C117_hypersplits.

(** ** Contradictions with atoms *)

Lemma unsat_root f n : fitting f -> ~ satisfiable f -> nth n (root f) false = false.
Proof.
  intros F U. apply not_true_is_false. intro X. apply U. exists (asg (atomvals f) n). rewrite sem_place_asg; [exact X | exact F | exact (place_bound f n F X)].
Qed.

Lemma unsat_splits f : fitting f -> ~ satisfiable f -> splits f = Ok (repeat ([], []) (valency f)).
Proof.
  intros F U. destruct (splits_ok f F) as [sp [E [L H]]]. rewrite E. f_equal. apply nth_ext with (d := ([], [])) (d' := ([], [])); [rewrite repeat_length; exact L|].
  intros k Hk. rewrite nth_repeat. destruct (H k ltac:(lia)) as [r [v [X [_ [_ [Hr Hv]]]]]]. rewrite X. f_equal.
  - destruct r as [|n r]; [reflexivity|]. exfalso. destruct (proj1 (Hr n) (or_introl eq_refl)) as [Y _]. rewrite unsat_root in Y by assumption. discriminate.
  - destruct v as [|n v]; [reflexivity|]. exfalso. destruct (proj1 (Hv n) (or_introl eq_refl)) as [Y _]. rewrite unsat_root in Y by assumption. discriminate.
Qed.

Lemma unsat_equal f : fitting f -> ~ satisfiable f -> valency f <> 1 ->
  equal_and_onesided f = Ok (map (fun ab => (ab, false)) (combinations2 (range (valency f))), repeat false (valency f)).
Proof.
  intros F U V. unfold equal_and_onesided. destruct (valency f) as [|[|v]] eqn:Ev; [reflexivity | congruence|]. rewrite <- Ev. rewrite (unsat_splits f F U). cbn [bind].
  unfold splits_overlap_counts. rewrite (unsat_splits f F U). cbn [bind].
  rewrite (mapM_ok _ (fun ab : nat * nat => (ab, 0))).
  2: { intros [a b] Hi. apply pairs_range_In in Hi. cbn [fst snd]. rewrite !(lget_ok (repeat (@nil nat, @nil nat) (valency f)) _ ([], [])) by (rewrite repeat_length; lia). rewrite !nth_repeat. reflexivity. }
  cbn [bind]. match goal with |- foldM ?F _ _ = _ => set (F0 := F) end.
  assert (X : forall l d ol, foldM F0 (map (fun ab => (ab, 0)) l) (d, ol) = Ok (d ++ map (fun ab => (ab, false)) l, ol)).
  { induction l as [|ab l IH]; intros d ol; [cbn; rewrite app_nil_r; reflexivity|]. cbn [map foldM].
    assert (St : F0 (d, ol) (ab, 0) = Ok (d ++ [(ab, false)], ol)) by reflexivity. rewrite St. cbn [bind]. rewrite IH, <- app_assoc. reflexivity. }
  apply X.
Qed.

Lemma unsat_bloat order f : fitting f -> ~ satisfiable f -> valency f <> 1 -> bloat order f = SetPartComp None None.
Proof.
  intros F U V. unfold bloat. destruct (SetPartComp None None) as [s0|e]; [|reflexivity]. cbn [bind]. unfold splits_equal. rewrite (unsat_equal f F U V). cbn [bind fst]. rewrite (unsat_splits f F U). cbn [bind].
  generalize (combinations2 (range (valency f))) as l. induction l as [|ab l IH]; [reflexivity|]. exact IH.
Qed.

Lemma unsat_keys f : fitting f -> ~ satisfiable f -> valency f <> 1 -> onesided_atomkeys f = Ok [].
Proof.
  intros F U V. unfold onesided_atomkeys, splits_onesided. rewrite (unsat_equal f F U V). cbn [bind snd]. f_equal.
  change (binv_exposet (repeat false (valency f)) = []). destruct (binv_exposet (repeat false (valency f))) as [|k l] eqn:E; [reflexivity|]. exfalso.
  assert (X : In k (binv_exposet (repeat false (valency f)))) by (rewrite E; left; reflexivity). apply binv_exposet_In in X. rewrite nth_repeat in X. discriminate.
Qed.

(** A contradiction with two or more atoms passes as blightless: no relations are reported, and
    hypersplits has just the empty splits of the atoms. *)
Theorem C117_contradiction : forall i order f, (forall l, Permutation (order l) l) -> made i f -> ~ satisfiable f -> 2 <= valency f ->
  is_bloatless order f = Ok true /\ is_blotless f = Ok true /\ is_blightless order f = Ok true /\
  (exists s, bloat order f = Ok s /\ blot order f = Ok s /\ blight order f = Ok s /\ forall x y, x <> y -> are_equal s x y = false /\ are_comp s x y = false) /\
  (exists p, sp_blocks p = [] /\ hypersplits order f = Ok [(1, map (fun k => ([k], p)) (seq 0 (valency f)))]).
Proof.
  intros i order f Ho M U V. assert (F := m_fit i f M). assert (V' : valency f <> 1) by lia.
  assert (B := unsat_bloat order f F U V'). assert (K := unsat_keys f F U V'). assert (Sp := unsat_splits f F U).
  assert (Bl : is_bloatless order f = Ok true) by (unfold is_bloatless; rewrite B; reflexivity).
  assert (Bo : is_blotless f = Ok true) by (unfold is_blotless; rewrite K; reflexivity).
  assert (Bb : is_blightless order f = Ok true) by (unfold is_blightless; rewrite Bl; cbn [bind]; exact Bo).
  split; [exact Bl|]. split; [exact Bo|]. split; [exact Bb|]. split.
  - eexists. split; [rewrite B; reflexivity|]. split; [unfold blot, add_onesided; rewrite K, Sp; reflexivity|]. split; [unfold blight, add_onesided; rewrite B, K, Sp; reflexivity|].
    intros x y _. split; reflexivity.
  - destruct (part_of_split ([], [])) as [p|] eqn:Ep; [|vm_compute in Ep; discriminate]. exists p. split; [vm_compute in Ep; injection Ep as <-; reflexivity|].
    unfold hypersplits. rewrite Bb, Sp. cbn [bind true_except].
    assert (En : forall n s, mapM (fun ks : nat * split => let* part := part_of_split (snd ks) in Ok ([fst ks], part)) (combine (seq s n) (repeat ([], []) n)) = Ok (map (fun k => ([k], p)) (seq s n))).
    { induction n as [|n IH]; intro s; [reflexivity|]. cbn [seq repeat combine mapM map fst snd]. rewrite Ep. cbn [bind]. rewrite IH. reflexivity. }
    unfold enumerate. rewrite repeat_length, En. cbn [bind]. rewrite Nat.add_1_r. cbn [hyper_loop]. rewrite map_length, seq_length. rewrite (proj2 (Nat.ltb_lt 1 (valency f))) by lia.
    assert (Fs : fullspots f = []).
    { unfold fullspots. destruct (binv_exposet (root f)) as [|k l] eqn:E; [reflexivity|]. exfalso. assert (X : In k (binv_exposet (root f))) by (rewrite E; left; reflexivity).
      apply binv_exposet_In in X. rewrite unsat_root in X by assumption. discriminate. }
    assert (Tn : forall a b, hyper_turn f 2 [] (([a], p), ([b], p)) = Ok []).
    { intros a b. unfold hyper_turn. rewrite Fs. cbn [fst snd]. vm_compute in Ep. injection Ep as <-. 
      match goal with |- context [meet ?x ?y] => let r := eval vm_compute in (meet x y) in change (meet x y) with r end. cbn [bind].
      match goal with |- context [blocks_with_singletons ?x ?y] => let r := eval vm_compute in (blocks_with_singletons x y) in change (blocks_with_singletons x y) with r end. cbn [bind length].
      change (2 ^ 2) with 4. change (0 =? 4) with false. rewrite andb_false_r. reflexivity. }
    assert (Fo : forall l, (forall x, In x l -> exists a b, x = (([a], p), ([b], p))) -> foldM (hyper_turn f 2) l [] = Ok []).
    { induction l as [|x l IH]; intro Hl; [reflexivity|]. cbn [foldM]. destruct (Hl x (or_introl eq_refl)) as [a [b ->]]. rewrite Tn. apply IH. intros y Hy. apply Hl. right. exact Hy. }
    rewrite Fo; [reflexivity|]. intros [x y] Hi.
    assert (C : forall (l : list hyper) x y, In (x, y) (combinations2 l) -> In x l /\ In y l).
    { induction l as [|z l IH]; intros u v Hin; [destruct Hin|]. cbn [combinations2] in Hin. apply in_app_or in Hin as [Hin|Hin].
      - apply in_map_iff in Hin as [w [X Hw]]. injection X as <- <-. split; [left; reflexivity | right; exact Hw].
      - destruct (IH u v Hin). split; right; assumption. }
    apply C in Hi as [H1 H2]. apply in_map_iff in H1 as [a [<- _]], H2 as [b [<- _]]. exists a, b. reflexivity.
Qed.
Print Assumptions C117_contradiction.

(** ** What is wrong *)

Definition inflated_tt (l : list Z) : bargs := mkArgs (Some (TtVector l)) None None None None None None None None None None true.
Definition inflated_fs (l av : list Z) : bargs := mkArgs None (Some av) None None (Some l) None None None None None None true.

Lemma made_tt l f : Boolf 1 (inflated_tt l) = Ok f -> made true f.
Proof. intro E. apply (made_by true 1 (inflated_tt l)); [reflexivity | intros g [] | exact E]. Qed.
Lemma made_fs l av f : Boolf 1 (inflated_fs l av) = Ok f -> made true f.
Proof. intro E. apply (made_by true 1 (inflated_fs l av)); [reflexivity | intros g [] | exact E]. Qed.

(** A tautology with one atom: the atom is reported as always true. *)
Theorem C117_one_atom_refuted : exists f, made true f /\ satisfiable f /\ none_fixed f /\ is_blotless f = Ok false /\
  exists s, blot (fun l => l) f = Ok s /\ are_equal s 0 (-1) = true.
Proof.
  destruct (Boolf 1 (inflated_tt [1; 1]%Z)) as [f|] eqn:E; [|vm_compute in E; discriminate]. exists f.
  split; [apply (made_tt _ f E)|].
  vm_compute in E. injection E as <-. split; [exists (fun _ => true); reflexivity|]. split.
  - intros a q Ha Fx. cbn in Ha. assert (a = 0) as -> by lia. assert (X := Fx (fun _ => negb q)). cbn in X. assert (Y : negb q = q) by (apply X; destruct q; reflexivity). destruct q; discriminate.
  - split; [reflexivity|]. eexists. split; vm_compute; reflexivity.
Qed.
Print Assumptions C117_one_atom_refuted.

(** A tautology with three atoms has no relations, but no gapless function: the check that the
    result is not smaller than the function fails, although they agree everywhere. *)
Theorem C117_gapless_refuted : exists f, made true f /\ satisfiable f /\ no_links f /\ none_fixed f /\
  is_blightless (fun l => l) f = Ok true /\ gapless_boolf (fun l => l) f = Err SmallerThanSelfERROR.
Proof.
  destruct (Boolf 1 (inflated_tt [1; 1; 1; 1; 1; 1; 1; 1]%Z)) as [f|] eqn:E; [|vm_compute in E; discriminate]. exists f.
  assert (M : made true f) by (apply (made_tt _ f E)).
  assert (X : satisfiable f /\ valency f <> 1 /\ is_blightless (fun l => l) f = Ok true /\ gapless_boolf (fun l => l) f = Err SmallerThanSelfERROR).
  { vm_compute in E. injection E as <-. split; [exists (fun _ => true); reflexivity|]. split; [discriminate|]. split; vm_compute; reflexivity. }
  destruct X as [S [V [B G]]]. destruct (C117_tests true (fun l => l) f (fun l => Permutation_refl l) M S V) as (x & y & c & _ & _ & Ec & _ & _ & Hc).
  rewrite B in Ec. injection Ec as <-. destruct (proj1 Hc eq_refl) as [N1 N2]. auto 10.
Qed.
Print Assumptions C117_gapless_refuted.

(** ** Examples *)

(* sapigi, as in boolf/test/16_skip_deflation: blightless, with two superfluous atoms *)
Example C117_ex : exists f, Boolf 1 (inflated_fs [1; 3; 5; 7; 8; 9; 10; 11; 12; 13; 14; 15]%Z [0; 1; 2; 3]%Z) = Ok f /\ made true f /\
  satisfiable f /\ valency f = 4 /\ no_links f /\ none_fixed f /\ ~ essential (sem f) 1 /\ In 1 (atomvals f) /\
  (let* h := hypersplits (fun l => l) f in Ok (map (fun nl => (fst nl, map fst (snd nl))) h)) =
    Ok [(1, [[0]; [1]; [2]; [3]]); (2, [[0; 1]; [0; 2]; [1; 2]; [1; 3]; [2; 3]]); (3, [[0; 1; 2]; [1; 2; 3]])] /\
  bundles (fun l => l) f = Err BoolfNotBlightlessError.
Proof.
  destruct (Boolf 1 (inflated_fs [1; 3; 5; 7; 8; 9; 10; 11; 12; 13; 14; 15]%Z [0; 1; 2; 3]%Z)) as [f|] eqn:E; [|vm_compute in E; discriminate]. exists f.
  split; [reflexivity|].
  assert (M : made true f) by (apply (made_fs _ _ f E)). split; [exact M|].
  assert (X : satisfiable f /\ valency f = 4 /\ is_blightless (fun l => l) f = Ok true /\ ~ essential (sem f) 1 /\ In 1 (atomvals f) /\
    (let* h := hypersplits (fun l => l) f in Ok (map (fun nl => (fst nl, map fst (snd nl))) h)) =
    Ok [(1, [[0]; [1]; [2]; [3]]); (2, [[0; 1]; [0; 2]; [1; 2]; [1; 3]; [2; 3]]); (3, [[0; 1; 2]; [1; 2; 3]])] /\ bundles (fun l => l) f = Err BoolfNotBlightlessError).
  { vm_compute in E. injection E as <-. split; [exists (fun _ => true); reflexivity|]. split; [reflexivity|]. split; [vm_compute; reflexivity|]. split.
    - intros [e He]. apply He. unfold sem, table, upd. cbn [atomvals root map Nat.eqb]. destruct (e 0), (e 2), (e 3); reflexivity.
    - split; [right; left; reflexivity|]. split; vm_compute; reflexivity. }
  destruct X as (S & V & B & Es & I & H & Bu). destruct (C117_tests true (fun l => l) f (fun l => Permutation_refl l) M S ltac:(lia)) as (x & y & c & _ & _ & Ec & _ & _ & Hc).
  rewrite B in Ec. injection Ec as <-. destruct (proj1 Hc eq_refl) as [N1 N2]. auto 12.
Qed.

(* a contradiction with three atoms, as in the same test; a function with a superfluous and two
   equal atoms *)
Example C117_ex_more : exists f g, Boolf 1 (inflated_tt [0; 0; 0; 0; 0; 0; 0; 0]%Z) = Ok f /\ made true f /\ valency f = 3 /\ ~ satisfiable f /\
  (let* h := hypersplits (fun l => l) f in Ok (map (fun nl => (fst nl, map fst (snd nl))) h)) = Ok [(1, [[0]; [1]; [2]])] /\
  Boolf 1 (inflated_tt [1; 0; 0; 1; 1; 0; 0; 1]%Z) = Ok g /\ made true g /\ satisfiable g /\ valency g = 3 /\
  (let* b := bloat (fun l => l) g in Ok (are_equal b 0 1, are_equal b 0 2)) = Ok (true, false) /\
  (let* b := bloatless_boolf (fun l => l) g in Ok (root b, atomvals b)) = Ok ([true], []).
Proof.
  destruct (Boolf 1 (inflated_tt [0; 0; 0; 0; 0; 0; 0; 0]%Z)) as [f|] eqn:E; [|vm_compute in E; discriminate].
  destruct (Boolf 1 (inflated_tt [1; 0; 0; 1; 1; 0; 0; 1]%Z)) as [g|] eqn:E'; [|vm_compute in E'; discriminate]. exists f, g.
  split; [reflexivity|]. split; [apply (made_tt _ f E)|].
  assert (M : made true g) by (apply (made_tt _ g E')).
  vm_compute in E. injection E as <-. split; [reflexivity|]. split.
  - intros [e He]. revert He. unfold sem, table. cbn [atomvals root map]. destruct (e 0), (e 1), (e 2); discriminate.
  - split; [vm_compute; reflexivity|]. split; [reflexivity|]. split; [exact M|]. clear M. vm_compute in E'. injection E' as <-.
    split; [exists (fun _ => true); reflexivity|]. split; [reflexivity|]. split; vm_compute; reflexivity.
Qed.
