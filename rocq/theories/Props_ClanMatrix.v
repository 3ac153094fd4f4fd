(** Props_ClanMatrix: the matrix of a clan (property C85). *)

From Coq Require Import List Arith ZArith Bool Lia Permutation Sorted.
From Verif Require Import Model_Base Lib Model_Perm Model_Boolf Model_BoolfMore Model_MinRep Model_Ec Model_ClanMatrix Spec_Bits Spec_Boolf Spec_MinRep Spec_Ec Spec_ClanMatrix
  Proof_Boolf Proof_EcSymmetry Proof_EcMore Proof_EcPartitioned Proof_ClanMatrix Props_Boolf Proof_BoolfMake Props_Ec.
Import ListNotations.
Open Scope nat_scope.

(** the sets and the sorting of the code are given by [srt], [oc] and [ot] as in C75; [bl] is the length of a number as computed with floating point logarithms *)
Definition orders (srt oc : list boolf -> list boolf) (ot : list (list boolf) -> list (list boolf)) : Prop :=
  (forall l, Permutation (srt l) l) /\ (forall l l', NoDup l -> Permutation l l' -> srt l = srt l') /\ (forall l, Permutation (oc l) l) /\ (forall l, Permutation (ot l) l).

(** * C85: the clan matrix *)

(** the rows are the factions of the clan, the columns the families, the entries their intersections *)
Theorem C85_matrix : forall depth bl srt oc ot f, orders srt oc ot -> made false f -> adicity f = valency f -> valency f <= 5 ->
  let P := fun F => clan_class (sem f) F /\ local (valency f) F in
  exists cm, ec_clan_matrix (S depth) bl srt oc ot f = Ok cm /\
    (map fst (cm_rows cm) = cm_factions cm /\ StronglySorted lt (cm_factions cm) /\ groups faction_class P (cm_rows cm)) /\
    (map fst (cm_cols cm) = cm_families cm /\ StronglySorted lt (cm_families cm) /\ groups family_class P (cm_cols cm)) /\
    map fst (cm_splinters cm) = list_prod (cm_factions cm) (cm_families cm) /\
    forall p q l, In ((p, q), l) (cm_splinters cm) -> NoDup l /\ forall z, In z l <-> P (zhegalkin z) /\ faction_class (zhegalkin p) (zhegalkin z) /\ family_class (zhegalkin q) (zhegalkin z).
Proof.
  intros depth bl srt oc ot f (O1 & O2 & O3 & O4) Hf Root L5. destruct (clan_matrix_spec depth bl srt oc ot O1 O2 O3 O4 f (m_red f Hf) Root L5) as (cm & sp & E & _ & H1 & H2 & (H3 & H4) & _).
  exists cm. split; [exact E|]. split; [exact H1|]. split; [exact H2|]. split; [exact H3 | exact H4].
Qed.
Print Assumptions C85_matrix.

(** splinters of a family with the same symmetries are aligned: the functions at the same place have the same symmetries.
    The first of them is ascending, and functions with the same symmetries are ascending in all of them. *)
Theorem C85_alignment : forall depth bl srt oc ot f cm, orders srt oc ot -> made false f -> adicity f = valency f -> valency f <= 5 -> ec_clan_matrix (S depth) bl srt oc ot f = Ok cm ->
  let n := valency f in
  (forall p p' q l l', In ((p, q), l) (cm_splinters cm) -> In ((p', q), l') (cm_splinters cm) -> matching n l l' -> aligned n l l') /\
  (forall p q l, In ((p, q), l) (cm_splinters cm) -> (forall p' l', p' < p -> In ((p', q), l') (cm_splinters cm) -> ~ matching n l l') -> StronglySorted lt l) /\
  (forall p q l i j, In ((p, q), l) (cm_splinters cm) -> i < j < length l -> same_orbits n (zhegalkin (nth i l 0)) (zhegalkin (nth j l 0)) -> nth i l 0 < nth j l 0).
Proof.
  intros depth bl srt oc ot f cm (O1 & O2 & O3 & O4) Hf Root L5 E n. destruct (clan_matrix_spec depth bl srt oc ot O1 O2 O3 O4 f (m_red f Hf) Root L5) as (cm' & sp & E' & _ & _ & _ & _ & H1 & H2 & H3 & _).
  rewrite E in E'. injection E' as <-. split; [exact H1|]. split; [exact H2 | exact H3].
Qed.
Print Assumptions C85_alignment.

(** the splinters of a faction have the same size in all families; the least common multiple of the sizes *)
Theorem C85_sizes : forall depth bl srt oc ot f cm, orders srt oc ot -> made false f -> adicity f = valency f -> valency f <= 5 -> ec_clan_matrix (S depth) bl srt oc ot f = Ok cm ->
  map fst (cm_sizes cm) = cm_factions cm /\
  (forall p s, In (p, s) (cm_sizes cm) -> 1 <= s /\ (forall q l, In ((p, q), l) (cm_splinters cm) -> length l = s) /\ forall row, In (p, row) (cm_rows cm) -> length row = s * length (cm_families cm)) /\
  1 <= cm_lcm cm /\ (forall p s, In (p, s) (cm_sizes cm) -> divides s (cm_lcm cm)) /\ forall k, (forall p s, In (p, s) (cm_sizes cm) -> divides s k) -> divides (cm_lcm cm) k.
Proof.
  intros depth bl srt oc ot f cm (O1 & O2 & O3 & O4) Hf Root L5 E. destruct (clan_matrix_spec depth bl srt oc ot O1 O2 O3 O4 f (m_red f Hf) Root L5) as (cm' & sp & E' & _ & _ & _ & _ & _ & _ & _ & (H1 & H2) & H3 & _).
  rewrite E in E'. injection E' as <-. split; [exact H1|]. split; [exact H2 | exact H3].
Qed.
Print Assumptions C85_sizes.

(** the Zhegalkin polynomials of a faction have the same number of monomials *)
Theorem C85_weights : forall depth bl srt oc ot f cm, orders srt oc ot -> made false f -> adicity f = valency f -> valency f <= 5 -> ec_clan_matrix (S depth) bl srt oc ot f = Ok cm ->
  map fst (cm_weights cm) = cm_factions cm /\
  forall p w, In (p, w) (cm_weights cm) -> exists k, w = Some k /\ forall row z, In (p, row) (cm_rows cm) -> In z row -> length (ones z) = k.
Proof.
  intros depth bl srt oc ot f cm (O1 & O2 & O3 & O4) Hf Root L5 E. destruct (clan_matrix_spec depth bl srt oc ot O1 O2 O3 O4 f (m_red f Hf) Root L5) as (cm' & sp & E' & _ & (_ & _ & G) & _ & _ & _ & _ & _ & _ & _ & (H1 & H2) & _).
  rewrite E in E'. injection E' as <-. split; [exact H1|]. intros p w Hw. destruct (H2 p w Hw) as (k & -> & H). exists k. split; [reflexivity|]. intros row z Hrow Hz. destruct (proj2 (proj2 G) p row Hrow) as (_ & _ & _ & M). apply M in Hz as [Cz F]. apply H; assumption.
Qed.
Print Assumptions C85_weights.

(** which negations and permutations lead from the function to the members of the clan *)
Theorem C85_exposets : forall depth bl srt oc ot f cm, orders srt oc ot -> made false f -> adicity f = valency f -> valency f <= 5 -> ec_clan_matrix (S depth) bl srt oc ot f = Ok cm ->
  let n := valency f in let P := fun z => clan_class (sem f) (zhegalkin z) /\ local n (zhegalkin z) in
  listing lt (fun p => In p (cm_factions cm)) (fun p k => k < 2 ^ n /\ faction_class (zhegalkin p) (negate_by k (sem f))) (x_faction_keyneg (cm_exposets cm)) /\
  listing lt (fun q => In q (cm_families cm)) (fun q r => exists p, nth_error (rev_colex_perms n) r = Some p /\ family_class (zhegalkin q) (permute_by p (sem f))) (x_family_perm (cm_exposets cm)) /\
  listing lt P (fun z k => k < 2 ^ n /\ faction_class (zhegalkin z) (negate_by k (sem f))) (x_zhe_keyneg (cm_exposets cm)) /\
  listing lt P (fun z m => m < 2 ^ n /\ faction_class (sem f) (negate_by m (zhegalkin z))) (x_zhe_valneg (cm_exposets cm)) /\
  listing triple_lt P (fun z t => exists p, nth_error (rev_colex_perms n) (snd (fst t)) = Some p /\ signed_perm_gives n (sem f) p (fst (fst t)) (snd t) z) (x_zhe_triples (cm_exposets cm)).
Proof.
  intros depth bl srt oc ot f cm (O1 & O2 & O3 & O4) Hf Root L5 E n P. destruct (clan_matrix_spec depth bl srt oc ot O1 O2 O3 O4 f (m_red f Hf) Root L5) as (cm' & sp & E' & _ & _ & _ & _ & _ & _ & _ & _ & _ & _ & H).
  rewrite E in E'. injection E' as <-. exact H.
Qed.
Print Assumptions C85_exposets.

Theorem C85_rejected : forall depth bl srt oc ot f, made false f ->
  (adicity f <> valency f -> ec_clan_matrix (S depth) bl srt oc ot f = Err NotSpreadlessError) /\
  (adicity f = valency f -> 5 < valency f -> ec_clan_matrix (S depth) bl srt oc ot f = Err ArgNotFeasibleError).
Proof.
  intros depth bl srt oc ot f Hf. split.
  - intro H. unfold ec_clan_matrix, is_root. rewrite (proj2 (Nat.eqb_neq _ _) H). reflexivity.
  - intros Root L. assert (C : is_constant f = false). { destruct (is_constant f) eqn:C; [|reflexivity]. assert (V := Proof_EcSymmetry.no_valency f (m_red f Hf) C). lia. }
    unfold ec_clan_matrix, is_root. rewrite Root, Nat.eqb_refl. cbv iota. rewrite (proj1 (C72_errors depth f None false 0 Hf C)); [reflexivity|]. rewrite within_iff. lia.
Qed.
Print Assumptions C85_rejected.

(** AND of three atoms: the splinter of 170 is reordered, so that it fits to that of 136 *)
Definition ex_and3 : boolf := mkBoolf [false; false; false; false; false; false; false; true] [0; 1; 2] false false.
Lemma ex_and3_made : made false ex_and3.
Proof.
  destruct (Boolf_vec_sorted [false; false; false; false; false; false; false; true] [0; 1; 2]) as [f [E [R _]]]; [repeat constructor | reflexivity|].
  vm_compute in E. injection E as <-. apply reduced_made, R.
Qed.
Example C85_example : orders boolf_sort (fun l => l) (fun l => l) /\ made false ex_and3 /\ adicity ex_and3 = valency ex_and3 /\ valency ex_and3 <= 5 /\
  exists cm, ec_clan_matrix 1 (fun n => S (Nat.log2 n)) boolf_sort (fun l => l) (fun l => l) ex_and3 = Ok cm /\
    cm_splinters cm = [((128, 128), [128]); ((136, 128), [136; 160; 192]); ((170, 128), [240; 204; 170]); ((255, 128), [255])] /\ cm_sizes cm = [(128, 1); (136, 3); (170, 3); (255, 1)] /\ cm_lcm cm = 3 /\
    cm_weights cm = [(128, Some 1); (136, Some 2); (170, Some 4); (255, Some 8)] /\ x_faction_keyneg (cm_exposets cm) = [(128, [0]); (136, [1; 2; 4]); (170, [3; 5; 6]); (255, [7])].
Proof.
  split; [split; [apply boolf_sort_perm|]; split; [intros l l' _; apply boolf_sort_inv|]; split; reflexivity|]. split; [exact ex_and3_made|]. split; [reflexivity|]. split; [cbn; lia|]. eexists. split; [vm_compute; reflexivity|]. repeat split.
Qed.
