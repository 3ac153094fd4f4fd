(** Props_MinRep: property C42, the representatives of families, factions and clans. *)

From Coq Require Import List Arith ZArith Bool Lia Permutation Sorted Factorial.
From Verif Require Import Model_Base Lib Model_Splits Model_Perm Model_Binary Model_SetPart Model_SigPerm Model_Boolf Model_Twin Model_BoolfMore Model_MinRep
  Spec_Bits Spec_Boolf Spec_Twin Spec_MinRep Proof_Binary Proof_Boolf Proof_BoolfTable Proof_BoolfMake Proof_Twin Proof_Noble Proof_BoolfMore
  Proof_MinRepTwin Proof_MinRepClass Proof_MinRepCoset Proof_MinRep Proof_MinRepMin Proof_MinRepMale Props_Boolf.
Import ListNotations.
Open Scope nat_scope.

(** * The minimal representatives *)

(** the search for the family always ends with a function, a deflated object of the same
    family, and no function of the family has a smaller Zhegalkin number *)
Theorem C42_family : forall oz on f, (forall l, Permutation (oz l) l) -> (forall l, StronglySorted lt l -> on l = l) -> made false f ->
  exists g, family_minrep oz on f = Ok (Some g) /\ made false g /\ smallest (family_class (sem f)) (sem g).
Proof.
  intros oz on f Hz Hn Hf. destruct (family_minrep_smallest f (m_red f Hf) oz on Hz Hn) as (g & E & R & S). exists g. split; [exact E|]. split; [apply reduced_made; exact R | exact S].
Qed.
Print Assumptions C42_family.

Theorem C42_faction : forall f, made false f -> exists g, faction_minrep f = Ok (Some g) /\ made false g /\ smallest (faction_class (sem f)) (sem g).
Proof.
  intros f Hf. destruct (faction_minrep_smallest f (m_red f Hf)) as (g & E & R & S). exists g. split; [exact E|]. split; [apply reduced_made; exact R | exact S].
Qed.
Print Assumptions C42_faction.

(** both variants of the search for the clan *)
Theorem C42_clan : forall oz on f, (forall l, Permutation (oz l) l) -> (forall l, StronglySorted lt l -> on l = l) -> made false f ->
  exists g, clan_minrep oz on f = Ok (Some g) /\ clan_minrep_prototype oz on f = Ok (Some g) /\ made false g /\ smallest (clan_class (sem f)) (sem g).
Proof.
  intros oz on f Hz Hn Hf. destruct (clan_minrep_smallest f (m_red f Hf) oz on Hz Hn) as (g & E & E' & R & S). exists g. split; [exact E|]. split; [exact E'|].
  split; [apply reduced_made; exact R | exact S].
Qed.
Print Assumptions C42_clan.

(** the same in terms of the attribute [zhe] *)
Theorem C42_numbers : forall oz on f, (forall l, Permutation (oz l) l) -> (forall l, StronglySorted lt l -> on l = l) -> made false f ->
  exists gf ga gc zf za zc, family_minrep oz on f = Ok (Some gf) /\ faction_minrep f = Ok (Some ga) /\ clan_minrep oz on f = Ok (Some gc) /\
    boolf_zhe gf = Ok zf /\ boolf_zhe ga = Ok za /\ boolf_zhe gc = Ok zc /\ zc <= zf /\ zc <= za /\
    forall h, made false h -> exists zh, boolf_zhe h = Ok zh /\ (family_class (sem f) (sem h) -> zf <= zh) /\ (faction_class (sem f) (sem h) -> za <= zh) /\ (clan_class (sem f) (sem h) -> zc <= zh).
Proof.
  intros oz on f Hz Hn Hf. destruct (C42_family oz on f Hz Hn Hf) as (gf & Ef & Mf & (Cf & nf & Zf & Sf)). destruct (C42_faction f Hf) as (ga & Ea & Ma & (Ca & na & Za & Sa)).
  destruct (C42_clan oz on f Hz Hn Hf) as (gc & Ec & _ & Mc & (Cc & nc & Zc & Sc)).
  assert (X : forall g n, made false g -> (forall e, zhegalkin n e = sem g e) -> boolf_zhe g = Ok n).
  { intros g n Mg H. destruct (boolf_zhe_spec g (m_fit _ g Mg)) as (z & E & _ & _ & S). rewrite E. f_equal. apply zhegalkin_inj. intro e. rewrite S, H. reflexivity. }
  exists gf, ga, gc, nf, na, nc. split; [exact Ef|]. split; [exact Ea|]. split; [exact Ec|]. split; [apply X; assumption|]. split; [apply X; assumption|]. split; [apply X; assumption|].
  assert (F2C : forall h, family_class (sem f) h -> clan_class (sem f) h).
  { intros h (m & H). exists (fun a => a), m. split; [exists (fun a => a); auto | exact H]. }
  assert (A2C : forall h, faction_class (sem f) h -> clan_class (sem f) h).
  { intros h (pi & Hp & H). exists pi, (fun _ => false). split; [exact Hp|]. intro e. rewrite H. apply sem_ext. intros a _. rewrite xorb_false_r. reflexivity. }
  split; [apply (Sc (sem gf)); [apply F2C; exact Cf | exact Zf]|]. split; [apply (Sc (sem ga)); [apply A2C; exact Ca | exact Za]|].
  intros h Mh. destruct (boolf_zhe_spec h (m_fit _ h Mh)) as (z & E & _ & _ & S). exists z. split; [exact E|].
  split; [intro C; exact (Sf _ _ C S)|]. split; [intro C; exact (Sa _ _ C S) | intro C; exact (Sc _ _ C S)].
Qed.
Print Assumptions C42_numbers.

(** members of a class have the same representative, and nothing else has it *)
Theorem C42_family_class : forall oz on f h, (forall l, Permutation (oz l) l) -> (forall l, StronglySorted lt l -> on l = l) -> made false f -> made false h ->
  (family_minrep oz on f = family_minrep oz on h <-> family_class (sem f) (sem h)).
Proof.
  intros oz on f h Hz Hn Hf Hh. destruct (C42_family oz on f Hz Hn Hf) as (g & E & M & S). destruct (C42_family oz on h Hz Hn Hh) as (g' & E' & M' & S'). rewrite E, E'. split.
  - intro X. injection X as <-. apply (family_same f g (proj1 S)). destruct (proj1 S') as (m & H). exists m. intro e. rewrite H. apply sem_ext. intros a _. destruct (e a), (m a); reflexivity.
  - intro C. do 2 f_equal. apply reduced_unique; [apply m_red; exact M | apply m_red; exact M'|]. exact (smallest_unique _ _ _ _ (family_same f h C) S S').
Qed.
Print Assumptions C42_family_class.

Lemma faction_sym f h : faction_class (sem f) (sem h) -> faction_class (sem h) (sem f).
Proof. intro C. apply (proj1 (faction_same f h C (sem f))), faction_refl. Qed.
Lemma clan_sym f h : clan_class (sem f) (sem h) -> clan_class (sem h) (sem f).
Proof. intro C. apply (proj1 (clan_same f h C (sem f))), clan_refl. Qed.

Theorem C42_faction_class : forall f h, made false f -> made false h -> (faction_minrep f = faction_minrep h <-> faction_class (sem f) (sem h)).
Proof.
  intros f h Hf Hh. destruct (C42_faction f Hf) as (g & E & M & S). destruct (C42_faction h Hh) as (g' & E' & M' & S'). rewrite E, E'. split.
  - intro X. injection X as <-. apply (faction_same f g (proj1 S)), faction_sym, S'.
  - intro C. do 2 f_equal. apply reduced_unique; [apply m_red; exact M | apply m_red; exact M'|]. exact (smallest_unique _ _ _ _ (faction_same f h C) S S').
Qed.
Print Assumptions C42_faction_class.

Theorem C42_clan_class : forall oz on f h, (forall l, Permutation (oz l) l) -> (forall l, StronglySorted lt l -> on l = l) -> made false f -> made false h ->
  (clan_minrep oz on f = clan_minrep oz on h <-> clan_class (sem f) (sem h)).
Proof.
  intros oz on f h Hz Hn Hf Hh. destruct (C42_clan oz on f Hz Hn Hf) as (g & E & _ & M & S). destruct (C42_clan oz on h Hz Hn Hh) as (g' & E' & _ & M' & S'). rewrite E, E'. split.
  - intro X. injection X as <-. apply (clan_same f g (proj1 S)), clan_sym, S'.
  - intro C. do 2 f_equal. apply reduced_unique; [apply m_red; exact M | apply m_red; exact M'|]. exact (smallest_unique _ _ _ _ (clan_same f h C) S S').
Qed.
Print Assumptions C42_clan_class.

(** * The representative of a male function *)

Theorem C42_malerep : forall f, made false f -> is_male f = true ->
  exists g b, family_malerep f = Ok g /\ made false g /\ family_class (sem f) (sem g) /\ root_boolf g = Ok b /\ consul b TtDefault = Ok 0.
Proof.
  intros f Hf Hm. destruct (malerep_spec f (m_red f Hf) Hm) as (g & E & R & C & _). exists g, (rb g). split; [exact E|]. split; [apply reduced_made; exact R|]. split; [exact C|].
  split; [apply root_boolf_rb; exact R | exact (malerep_consul f g (m_red f Hf) Hm E)].
Qed.
Print Assumptions C42_malerep.

(** no other function of the family has a root with the consul 0 *)
Theorem C42_malerep_only : forall f h b, made false f -> made false h -> is_male f = true -> family_class (sem f) (sem h) ->
  root_boolf h = Ok b -> consul b TtDefault = Ok 0 -> family_malerep f = Ok h.
Proof.
  intros f h b Hf Hh Hm C Eb Ek. rewrite (root_boolf_rb h (m_red h Hh)) in Eb. injection Eb as <-. apply malerep_only; try assumption; apply m_red; assumption.
Qed.
Print Assumptions C42_malerep_only.

Theorem C42_malerep_class : forall f h, made false f -> made false h -> is_male f = true -> family_class (sem f) (sem h) ->
  is_male h = true /\ family_malerep h = family_malerep f.
Proof.
  intros f h Hf Hh Hm C. apply m_red in Hf, Hh. split; [rewrite (family_male f h Hf Hh C); exact Hm | apply malerep_same; assumption].
Qed.
Print Assumptions C42_malerep_class.

(** the root has the atoms 0, 1, ... and the same table *)
Theorem C42_root_boolf : forall f, made false f ->
  exists b, root_boolf f = Ok b /\ made false b /\ root b = root f /\ atomvals b = seq 0 (valency f) /\ (b = f <-> is_root f = true) /\
    forall e, sem f e = sem b (fun i => e (nth i (atomvals f) 0)).
Proof.
  intros f Hf. apply m_red in Hf. exists (rb f). split; [apply root_boolf_rb; exact Hf|]. split; [apply reduced_made, rb_reduced, Hf|]. split; [reflexivity|]. split; [reflexivity|]. split; [|apply sem_rb].
  rewrite is_root_range by apply Hf. split; [intro E; rewrite <- E at 1; reflexivity|]. intro E. unfold rb. rewrite <- E. destruct Hf as (_ & _ & Hi & _). destruct f; cbn in *. subst. reflexivity.
Qed.
Print Assumptions C42_root_boolf.

(** * The helpers *)

Lemma row_filter n N : N < 2 ^ n -> row n N = filter (fun r => Nat.eqb (Nat.land r N) 0) (seq 0 (2 ^ n)).
Proof.
  intro HN. unfold row, range. apply filter_ext_in. intros p Hp. apply in_seq in Hp. apply bool_iff. rewrite subm_spec, Nat.eqb_eq. split.
  - intro H. apply Nat.bits_inj_0. intro b. rewrite Nat.land_spec. destruct (Nat.testbit p b) eqn:Eb; [|reflexivity]. apply H in Eb. rewrite comp_bits in Eb by exact HN.
    apply andb_true_iff in Eb as [_ Eb]. apply negb_true_iff in Eb. rewrite Eb. reflexivity.
  - intros H b Hb. rewrite comp_bits by exact HN. assert (X : Nat.testbit (Nat.land p N) b = false) by (rewrite H; apply Nat.bits_0). rewrite Nat.land_spec, Hb in X. cbn in X. rewrite X.
    rewrite andb_true_r. apply Nat.ltb_lt. destruct (Nat.lt_ge_cases b n) as [|G]; [assumption|]. rewrite (testbit_high p b) in Hb; [discriminate|].
    eapply Nat.lt_le_trans; [apply Hp | apply Nat.pow_le_mono_r; lia].
Qed.

(** the blocks of the Sierpinski partition: numbers that differ only in bits of [N], one block
    for each number without bits of [N] *)
Theorem C42_sierpinski_partition : forall oz N n, (forall l, Permutation (oz l) l) -> 0 < N -> N < 2 ^ n ->
  exists t, sierpinski_partition oz N n = Ok t /\
    sp_blocks t = map (fun r => map Z.of_nat (filter (fun x => Nat.eqb (Nat.ldiff x N) r) (seq 0 (2 ^ n)))) (filter (fun r => Nat.eqb (Nat.land r N) 0) (seq 0 (2 ^ n))).
Proof.
  intros oz N n Hz H0 HN. destruct (sierpinski_partition_spec oz N n Hz H0 HN) as (t & E & _ & B). exists t. split; [exact E|]. rewrite B.
  assert (L : forall x, x < 2 ^ n -> Nat.land x (comp n N) = Nat.ldiff x N).
  { intros x Hx. apply Nat.bits_inj. intro b. rewrite Nat.land_spec, Nat.ldiff_spec, comp_bits by exact HN. destruct (Nat.ltb_spec b n) as [Hb|Hb]; [reflexivity|].
    rewrite (testbit_high x b); [reflexivity|]. eapply Nat.lt_le_trans; [exact Hx | apply Nat.pow_le_mono_r; lia]. }
  rewrite <- row_filter by exact HN. apply map_ext_in. intros r _. f_equal. unfold block, range. apply filter_ext_in. intros x Hx. apply in_seq in Hx. rewrite L by lia. reflexivity.
Qed.
Print Assumptions C42_sierpinski_partition.

(** the Sierpinski twin of a short table: its transform, stretched over all places (the bits
    of [N] are ignored) *)
Theorem C42_sierpinski_twin : forall oz n N (G : nat -> bool), (forall l, Permutation (oz l) l) -> N < 2 ^ n ->
  sierpinski_twin oz (map G (filter (fun r => Nat.eqb (Nat.land r N) 0) (seq 0 (2 ^ n)))) N n =
  Ok (map (fun k => moebius n (fun p => Nat.eqb (Nat.land p N) 0 && G p) k) (seq 0 (2 ^ n))).
Proof.
  intros oz n N G Hz HN. rewrite <- row_filter by exact HN. rewrite sierpinski_twin_spec by assumption. f_equal. apply map_ext. intro k. unfold green, moebius.
  rewrite row_filter by exact HN. rewrite !xor_all_filter. apply Proof_WalshLinear.xor_all_ext. intros p _.
  destruct (Nat.eqb (Nat.land p N) 0); cbn [andb]; [|rewrite andb_false_r; reflexivity]. f_equal. apply bool_iff. rewrite subm_spec, Nat.eqb_eq. split.
  - intro H. apply Nat.bits_inj. intro b. rewrite Nat.land_spec. destruct (Nat.testbit p b) eqn:Eb; [apply H, Eb | reflexivity].
  - intros H b Hb. rewrite <- H, Nat.land_spec in Hb. apply andb_true_iff in Hb. apply Hb.
Qed.
Print Assumptions C42_sierpinski_twin.

(** the coset: the numbers of all permutations that map the one set of bits to the other *)
Theorem C42_coset : forall T U n, T < 2 ^ n -> U < 2 ^ n -> count_ones T = count_ones U ->
  exists l, schoute_coset T U n = Ok l /\
    forall r, In r l <-> r < fact n /\ exists p, int_to_perm r = Ok p /\ forall a, a < n -> Nat.testbit T a = Nat.testbit U (pget p a).
Proof.
  intros T U n HT HU Hw. destruct (schoute_coset_spec T U n HT HU Hw) as (l & E & _ & H). exists l. split; [exact E|]. intro r. rewrite H. split; intros [Hr K]; (split; [exact Hr|]).
  - destruct (rank_perm r n Hr) as (p & Ep & _). exists p. split; [exact Ep|]. intros a Ha. rewrite <- K. rewrite pre_bits by exact Ha. unfold act. rewrite Ep. reflexivity.
  - destruct K as (p & Ep & K). apply Nat.bits_inj. intro a. destruct (Nat.lt_ge_cases a n) as [Ha|Ha].
    + rewrite pre_bits by exact Ha. unfold act. rewrite Ep. symmetry. apply K. exact Ha.
    + assert (P := Nat.pow_le_mono_r 2 n a ltac:(lia) Ha). rewrite !testbit_high; [reflexivity | lia|]. assert (X := pre_lt (act r) n U). lia.
Qed.
Print Assumptions C42_coset.

(** the layers: for each weight the entries (the false and the true places) in their order *)
Theorem C42_layers : forall A (F : nat -> A) (G : nat -> bool) n,
  flat_to_layered (map F (seq 0 (2 ^ n))) = Ok (map (fun w => map F (filter (fun k => Nat.eqb (count_ones k) w) (seq 0 (2 ^ n)))) (seq 0 (n + 1))) /\
  flat_to_places (map G (seq 0 (2 ^ n))) = Ok (map (fun w => (filter (fun k => negb (G k)) (filter (fun k => Nat.eqb (count_ones k) w) (seq 0 (2 ^ n))),
                                                              filter G (filter (fun k => Nat.eqb (count_ones k) w) (seq 0 (2 ^ n))))) (seq 0 (n + 1))).
Proof. intros A F G n. split; [apply flat_to_layered_spec | apply flat_to_places_spec]. Qed.
Print Assumptions C42_layers.

(** * Where the searches fail *)

(** objects made with [skip_deflation] are not covered: here the result is None (see C121 for what holds) *)
Theorem C42_inflated_refuted : exists f, made true f /\ forall oz, family_minrep oz (fun l => l) f = Ok None.
Proof.
  exists (mkBoolf [true; true] [0] false true). split; [|intros oz; vm_compute; reflexivity].
  refine (made_by true 1 (mkArgs (Some (TtVector [1; 1]%Z)) None None None None None None None None None None true) _ _ _ _); [reflexivity | intros g [] | vm_compute; reflexivity].
Qed.
Print Assumptions C42_inflated_refuted.

Definition vec (n k : nat) : list bool := map (Nat.testbit k) (seq 0 (2 ^ n)).

(** The condition on [on] can not be dropped.  [int_to_sierpinski_row] iterates a set of
    exponents, and both searches take its entries as ascending.  In another order the family
    search gives a function that is not the smallest, or None; the clan search fails at its
    assertion.  CPython iterates sets of numbers below 8 in ascending order, but e.g. {2, 8}
    as 8, 2. *)
Theorem C42_order_refuted : exists f f' g y, made false f /\ made false f' /\
  family_minrep (fun l => l) (@rev nat) f = Ok (Some g) /\ boolf_zhe g = Ok 58 /\
  family_minrep (fun l => l) (fun l => l) f = Ok (Some y) /\ boolf_zhe y = Ok 44 /\
  family_minrep (fun l => l) (@rev nat) f' = Ok None /\
  clan_minrep (fun l => l) (@rev nat) f = Err AssertErr.
Proof.
  destruct (Boolf_root (vec 3 27)) as [f|] eqn:E; [|vm_compute in E; discriminate]. destruct (Boolf_root (vec 3 6)) as [f'|] eqn:E'; [|vm_compute in E'; discriminate].
  assert (M : made false f). { destruct (Boolf_root_spec (vec 3 27) 3 eq_refl) as (h & Eh & R & _). rewrite E in Eh. injection Eh as <-. apply reduced_made; exact R. }
  assert (M' : made false f'). { destruct (Boolf_root_spec (vec 3 6) 3 eq_refl) as (h & Eh & R & _). rewrite E' in Eh. injection Eh as <-. apply reduced_made; exact R. }
  vm_compute in E. injection E as <-. vm_compute in E'. injection E' as <-.
  eexists _, _, _, _. split; [exact M|]. split; [exact M'|]. do 5 (split; [vm_compute; reflexivity|]). vm_compute. reflexivity.
Qed.
Print Assumptions C42_order_refuted.

(** * Examples *)

(** x0 and not x2: family, faction and clan; the root of the male representative *)
Example C42_example : exists f g, Boolf_vec [false; true; false; false] [0; 2] = Ok f /\ made false f /\ is_male f = true /\
  family_minrep (@rev Z) (fun l => l) f = Ok (Some g) /\ root g = [false; false; false; true] /\ atomvals g = [0; 2] /\
  faction_minrep f = Ok (Some (mkBoolf [false; true; false; false] [0; 1] false false)) /\
  clan_minrep (@rev Z) (fun l => l) f = Ok (Some (mkBoolf [false; false; false; true] [0; 1] false false)) /\
  clan_minrep_prototype (@rev Z) (fun l => l) f = Ok (Some (mkBoolf [false; false; false; true] [0; 1] false false)) /\
  family_malerep f = Ok (mkBoolf [true; false; false; false] [0; 2] false false) /\
  consul (mkBoolf [true; false; false; false] [0; 1] false false) TtDefault = Ok 0.
Proof.
  destruct (Boolf_vec [false; true; false; false] [0; 2]) as [f|] eqn:E; [|vm_compute in E; discriminate].
  assert (M : made false f). { destruct (Boolf_vec_sorted [false; true; false; false] [0; 2]) as (h & Eh & R & _); [repeat constructor | reflexivity|]. rewrite E in Eh. injection Eh as <-. apply reduced_made; exact R. }
  vm_compute in E. injection E as <-. eexists _, _. split; [reflexivity|]. split; [exact M|]. do 7 (split; [vm_compute; reflexivity|]). vm_compute. auto.
Qed.

(** the hypotheses of the theorems on classes *)
Example C42_classes : exists f h, made false f /\ made false h /\ f <> h /\ family_class (sem f) (sem h) /\ is_male f = true.
Proof.
  destruct (Boolf_vec_sorted [false; true; false; false] [0; 2]) as (f & Ef & Rf & Sf); [repeat constructor | reflexivity|].
  destruct (Boolf_vec_sorted [false; false; false; true] [0; 2]) as (h & Eh & Rh & Sh); [repeat constructor | reflexivity|].
  exists f, h. split; [apply reduced_made; exact Rf|]. split; [apply reduced_made; exact Rh|]. split.
  - intros ->. specialize (Sf (fun a => Nat.eqb a 0)). specialize (Sh (fun a => Nat.eqb a 0)). rewrite Sf in Sh. discriminate Sh.
  - split; [|vm_compute in Ef; injection Ef as <-; reflexivity]. exists (fun a => Nat.eqb a 2). intro e. rewrite Sh, Sf. unfold table. cbn [map]. destruct (e 0), (e 2); reflexivity.
Qed.

Example C42_coset_example : count_ones 3 = count_ones 5 /\ schoute_coset 3 5 3 = Ok [2; 3].
Proof. split; vm_compute; reflexivity. Qed.
