(** Proof_ClanMatrix: the results of [ec_clan_matrix]. *)

From Coq Require Import List Arith ZArith Bool Lia Permutation Sorted Factorial.
From Verif Require Import Model_Base Lib Model_Splits Model_Perm Model_Binary Model_SigPerm Model_SetPart Model_Boolf Model_BoolfMore Model_MinRep
  Model_Helpers Model_Segments Model_Ec Spec_Bits Spec_Perm Spec_SigPerm Spec_Boolf Spec_SetPart Spec_MinRep Spec_Helpers Spec_Bits Spec_Ec Spec_ClanMatrix
  Proof_PermMore Proof_Seqs Proof_Binary Proof_Numbers Proof_Boolf Proof_EcSplinters Proof_EcSymmetry Proof_EcMore Proof_EcPartitioned Model_ClanMatrix Proof_Misc Proof_ClanSizes Proof_ClanSyms Proof_ClanExposets Proof_ClanReorder.
Import ListNotations.
Open Scope nat_scope.

Lemma row_weight_spec row k : (forall z, In z row -> length (ones z) = k) -> row <> [] -> row_weight row = Ok (Some k).
Proof.
  intros H NE. assert (B : forall z, In z row -> exists b, Binv None (Some (Z.of_nat z)) None None None = Ok b /\ binv_weight b = k).
  { intros z Hz. destruct (Binv_int_min z) as (v & E & V & _). exists v. split; [exact E|]. rewrite binv_weight_eq, V. apply H, Hz. }
  assert (G : forall l, (forall z, In z l -> In z row) -> foldM (fun weight zhe => let* b := Binv None (Some (Z.of_nat zhe)) None None None in let _weight := binv_weight b in
     match weight with Some w => guard Nat.eqb _weight w else AssertErr ;; Ok weight | None => Ok (Some _weight) end) l (Some k) = Ok (Some k)).
  { induction l as [|z l IH]; intro I; [reflexivity|]. cbn [foldM]. destruct (B z (I z (or_introl eq_refl))) as (b & E & W). rewrite E, bind_Ok. cbv zeta. rewrite W, Nat.eqb_refl. cbn [bind]. apply IH. intros; apply I; right; assumption. }
  unfold row_weight. destruct row as [|z row']; [congruence|]. cbn [foldM]. destruct (B z (or_introl eq_refl)) as (b & E & W). rewrite E, bind_Ok. cbv zeta. rewrite W. cbn [bind]. apply G. intros; right; assumption.
Qed.

Lemma flat_map_length {A B} (g : A -> list B) k l : (forall x, In x l -> length (g x) = k) -> length (flat_map g l) = k * length l.
Proof. induction l as [|x l IH]; intro H; cbn [flat_map length]; [lia|]. rewrite app_length, (H x) by (left; reflexivity). rewrite IH by (intros; apply H; right; assumption). lia. Qed.
Lemma NoDup_flat_map {A B} (g : A -> list B) l : NoDup l -> (forall x, In x l -> NoDup (g x)) -> (forall x y z, In x l -> In y l -> In z (g x) -> In z (g y) -> x = y) -> NoDup (flat_map g l).
Proof.
  induction l as [|x l IH]; intros N H D; cbn [flat_map]; [constructor|]. inversion N as [|? ? Hx N']; subst. apply Proof_PermMore.NoDup_app_intro.
  - apply H. left. reflexivity.
  - apply IH; [exact N' | intros; apply H; right; assumption | intros a b z Ha Hb; apply D; right; assumption].
  - intros z Hz Hz'. apply in_flat_map in Hz' as (y & Hy & Hz'). assert (x = y) by (apply (D x y z); [left; reflexivity | right; exact Hy | exact Hz | exact Hz']). subst. contradiction.
Qed.

Section Matrix.
Context (d : nat) (bl : nat -> nat) (srt : list boolf -> list boolf) (oc : list boolf -> list boolf) (ot : list (list boolf) -> list (list boolf)).
Context (Hs1 : forall l, Permutation (srt l) l) (Hs2 : forall l l', NoDup l -> Permutation l l' -> srt l = srt l') (Hoc : forall l, Permutation (oc l) l) (Hot : forall l, Permutation (ot l) l).
Context (f : boolf) (R : reduced f) (Root : adicity f = valency f) (L5 : valency f <= 5).
Let n := valency f.

Lemma clan_matrix_spec : exists cm sp, ec_clan_matrix (S d) bl srt oc ot f = Ok cm /\
  let factions := cm_factions cm in let families := cm_families cm in
  ec_clan_partitioned (S d) srt oc ot f = Ok (factions, families, cm_rows cm, cm_cols cm, sp) /\
  (map fst (cm_rows cm) = factions /\ StronglySorted lt factions /\ groups faction_class (in_clan f) (cm_rows cm)) /\
  (map fst (cm_cols cm) = families /\ StronglySorted lt families /\ groups family_class (in_clan f) (cm_cols cm)) /\
  (map fst (cm_splinters cm) = list_prod factions families /\ forall p q l, In ((p, q), l) (cm_splinters cm) -> NoDup l /\ forall z, In z l <-> in_clan f (zhegalkin z) /\ faction_class (zhegalkin p) (zhegalkin z) /\ family_class (zhegalkin q) (zhegalkin z)) /\
  (forall p p' q l l', In ((p, q), l) (cm_splinters cm) -> In ((p', q), l') (cm_splinters cm) -> matching n l l' -> aligned n l l') /\
  (forall p q l, In ((p, q), l) (cm_splinters cm) -> (forall p' l', p' < p -> In ((p', q), l') (cm_splinters cm) -> ~ matching n l l') -> StronglySorted lt l) /\
  (forall p q l i j, In ((p, q), l) (cm_splinters cm) -> i < j < length l -> same_orbits n (zhegalkin (nth i l 0)) (zhegalkin (nth j l 0)) -> nth i l 0 < nth j l 0) /\
  (map fst (cm_sizes cm) = factions /\ forall p s, In (p, s) (cm_sizes cm) -> 1 <= s /\ (forall q l, In ((p, q), l) (cm_splinters cm) -> length l = s) /\ forall row, In (p, row) (cm_rows cm) -> length row = s * length families) /\
  (1 <= cm_lcm cm /\ (forall p s, In (p, s) (cm_sizes cm) -> divides s (cm_lcm cm)) /\ forall k, (forall p s, In (p, s) (cm_sizes cm) -> divides s k) -> divides (cm_lcm cm) k) /\
  (map fst (cm_weights cm) = factions /\ forall p w, In (p, w) (cm_weights cm) -> exists k, w = Some k /\ forall z, in_clan f (zhegalkin z) -> faction_class (zhegalkin p) (zhegalkin z) -> length (ones z) = k) /\
  listing lt (fun p => In p factions) (fun p k => k < 2 ^ n /\ faction_class (zhegalkin p) (negate_by k (sem f))) (x_faction_keyneg (cm_exposets cm)) /\
  listing lt (fun q => In q families) (fun q r => exists p, nth_error (rev_colex_perms n) r = Some p /\ family_class (zhegalkin q) (permute_by p (sem f))) (x_family_perm (cm_exposets cm)) /\
  listing lt (fun z => in_clan f (zhegalkin z)) (fun z k => k < 2 ^ n /\ faction_class (zhegalkin z) (negate_by k (sem f))) (x_zhe_keyneg (cm_exposets cm)) /\
  listing lt (fun z => in_clan f (zhegalkin z)) (fun z m => m < 2 ^ n /\ faction_class (sem f) (negate_by m (zhegalkin z))) (x_zhe_valneg (cm_exposets cm)) /\
  listing triple_lt (fun z => in_clan f (zhegalkin z)) (fun z t => exists p, nth_error (rev_colex_perms n) (snd (fst t)) = Some p /\ signed_perm_gives n (sem f) p (fst (fst t)) (snd t) z) (x_zhe_triples (cm_exposets cm)).
Proof.
  destruct (partitioned_spec d srt oc ot Hs1 Hs2 Hoc Hot f R Root L5) as (reps1 & reps2 & dict1 & dict2 & sp & Ep & (K1 & S1 & G1) & (K2 & S2 & G2) & Ksp & Hsp).
  destruct (clan_root d f R Root ltac:(lia)) as (c & Ec & Sc).
  assert (N1 := sorted_lt_NoDup _ S1). assert (N2 := sorted_lt_NoDup _ S2). assert (Nk : NoDup (map fst sp)) by (rewrite Ksp; apply Proof_Seqs.NoDup_list_prod; assumption).
  assert (Hk : forall p q, In (p, q) (map fst sp) <-> In p reps1 /\ In q reps2) by (intros p q; rewrite Ksp; apply in_prod_iff).
  assert (H1 : forall p, In p reps1 -> cz f p).
  { intros p Hp. rewrite <- K1 in Hp. apply in_map_iff in Hp as ((k & l) & E & Hi). cbn in E. subst k. destruct (proj2 (proj2 G1) p l Hi) as (_ & Ip & _ & M). apply M, Ip. }
  assert (H2 : forall q, In q reps2 -> cz f q).
  { intros p Hp. rewrite <- K2 in Hp. apply in_map_iff in Hp as ((k & l) & E & Hi). cbn in E. subst k. destruct (proj2 (proj2 G2) p l Hi) as (_ & Ip & _ & M). apply M, Ip. }
  assert (C1 : forall z, cz f z -> exists p, In p reps1 /\ faction_class (zhegalkin p) (zhegalkin z)).
  { intros z Hz. destruct (proj1 (proj2 G1) z Hz) as (k & l & Hi & Il). exists k. split; [rewrite <- K1; apply (in_map fst _ _ Hi)|]. apply (proj2 (proj2 G1) k l Hi), Il. }
  assert (C2 : forall z, cz f z -> exists p, In p reps2 /\ family_class (zhegalkin p) (zhegalkin z)).
  { intros z Hz. destruct (proj1 (proj2 G2) z Hz) as (k & l & Hi & Il). exists k. split; [rewrite <- K2; apply (in_map fst _ _ Hi)|]. apply (proj2 (proj2 G2) k l Hi), Il. }
  assert (Uq : forall q q', In q reps2 -> In q' reps2 -> family_class (zhegalkin q) (zhegalkin q') -> q = q').
  { intros q q' I I' F. rewrite <- K2 in I, I'. apply in_map_iff in I as ((k & l) & E & Hi). cbn in E. subst k. apply in_map_iff in I' as ((k & l') & E & Hi'). cbn in E. subst k.
    destruct (proj2 (proj2 G2) q l Hi) as (_ & Ip & Min & M). destruct (proj2 (proj2 G2) q' l' Hi') as (_ & Ip' & Min' & M').
    assert (Cq := proj1 (proj1 (M q) Ip)). assert (Cq' := proj1 (proj1 (M' q') Ip')). apply Nat.le_antisymm; [apply Min, M; auto | apply Min', M'; split; [exact Cq | apply num_family_sym, F]]. }
  destruct (exposets_spec f R Root L5 c Sc sp reps1 reps2 Hsp Hk H1 H2 C1 C2) as (x & x1 & x2 & x3 & x4 & x5 & Ex & E1 & E2 & E3 & E4 & E5 & Y1 & Y2 & Y3 & Y4 & Y5).
  set (rw := raw sp). assert (Rl : forall p q, In p reps1 -> In q reps2 -> dlook npair_eqb sp (p, q) = Ok (rw p q)) by (intros; apply (raw_look sp reps1 reps2 Hk); assumption).
  assert (Rs : forall p q, In p reps1 -> In q reps2 -> is_splinter f p q (rw p q)) by (intros; apply (raw_splinter f sp reps1 reps2 Nk Hk Hsp); assumption).
  assert (NE1 : reps1 <> []) by (intro E; destruct (C1 (zn f) (cz_self f R Root L5)) as (p & I & _); rewrite E in I; destruct I).
  assert (NE2 : reps2 <> []) by (intro E; destruct (C2 (zn f) (cz_self f R Root L5)) as (p & I & _); rewrite E in I; destruct I).
  destruct (nmin_spec reps2 NE2) as (q0 & Eq0 & Iq0 & _).
  assert (Sz : forall p q, In p reps1 -> In q reps2 -> length (rw p q) = length (rw p q0)) by (intros p q I1 I2; apply (splinter_size f R Root L5 p q q0); auto).
  assert (Some1 : forall p q, In p reps1 -> In q reps2 -> 1 <= length (rw p q)) by (intros p q I1 I2; apply (splinter_some f R Root L5 p q); auto).
  (* the weights *)
  destruct (mapM_all (fun faction_rep => let* row := ldlookup dict1 faction_rep in let* w := row_weight row in Ok (faction_rep, w))
    (fun p e => e = (p, Some (length (ones p)))) reps1) as (ws & Ew & Fw).
  { intros p Ip. assert (I := Ip). rewrite <- K1 in I. apply in_map_iff in I as ((k & row) & E & Hi). cbn in E. subst k. destruct (proj2 (proj2 G1) p row Hi) as (_ & Irow & _ & M).
    assert (Lk : ldlookup dict1 p = Ok row) by (unfold ldlookup; rewrite (proj2 (ldget_In dict1 p row (proj1 G1)) Hi); reflexivity). rewrite Lk, bind_Ok.
    rewrite (row_weight_spec row (length (ones p))); [rewrite bind_Ok; eauto | | intros ->; destruct Irow]. intros z Hz. apply M in Hz as [Cz F]. apply (faction_weight f R Root L5 p z); auto. }
  (* the sizes *)
  destruct (mapM_all (fun faction_rep => let* s := dlook npair_eqb sp (faction_rep, q0) in Ok (faction_rep, length s)) (fun p e => e = (p, length (rw p q0))) reps1) as (sizes & Es & Fs).
  { intros p Ip. rewrite (Rl p q0 Ip Iq0), bind_Ok. eauto. }
  assert (Esz : sizes = map (fun p => (p, length (rw p q0))) reps1) by (clear - Fs; induction Fs as [|p e l r -> _ IH]; [reflexivity|]; cbn [map]; rewrite IH; reflexivity).
  assert (Ews : ws = map (fun p => (p, Some (length (ones p)))) reps1) by (clear - Fw; induction Fw as [|p e l r -> _ IH]; [reflexivity|]; cbn [map]; rewrite IH; reflexivity).
  (* the factions to be reordered *)
  set (test := fun p => Nat.ltb 1 (length (rw p q0)) && negb (Z.eqb (sy bl p) 0)). assert (En : needs_reordering bl reps1 sizes = Ok (filter test reps1)).
  { unfold needs_reordering. assert (G : forall l acc, (forall p, In p l -> In p reps1) -> foldM (fun s faction_rep => let* size := dlook Nat.eqb sizes faction_rep in
           if Nat.ltb 1 size then let* intval := sym_intval bl faction_rep in Ok (if Z.eqb intval 0 then s else s ++ [faction_rep]) else Ok s) l acc = Ok (acc ++ filter test l)).
    { induction l as [|p l IH]; intros acc I; [rewrite app_nil_r; reflexivity|]. cbn [foldM filter]. assert (Ip := I p (or_introl eq_refl)).
      assert (Lk : dlook Nat.eqb sizes p = Ok (length (rw p q0))).
      { apply (look_In Nat.eqb Nat.eqb_eq); [rewrite Esz, map_map; cbn [fst]; rewrite map_id; exact N1|]. rewrite Esz. apply in_map_iff. exists p. auto. }
      rewrite Lk, bind_Ok. unfold test at 1. destruct (Nat.ltb 1 (length (rw p q0))) eqn:Lt; cbn [andb].
      - rewrite (sy_ok f R Root L5 bl p (H1 p Ip)), bind_Ok. destruct (Z.eqb (sy bl p) 0); cbn [negb bind]; rewrite IH by (intros; apply I; right; assumption); [reflexivity | rewrite <- app_assoc; reflexivity].
      - cbn [bind]. apply IH. intros; apply I; right; assumption. }
    apply (G reps1 []). auto. }
  assert (Hn : forall p q, In p reps1 -> In q reps2 -> (memb p (filter test reps1) = true <-> 1 < length (raw sp p q) /\ sy bl p <> 0%Z)).
  { intros p q I1 I2. fold rw. rewrite memb_In, filter_In, (Sz p q I1 I2). unfold test. rewrite andb_true_iff, Nat.ltb_lt, negb_true_iff, Z.eqb_neq. tauto. }
  destruct (reorder_spec f R Root L5 bl sp reps1 reps2 (filter test reps1) S1 Nk Hk Hsp H1 H2) as (out & Eo & _).
  destruct (aligned_spec f R Root L5 bl sp reps1 reps2 (filter test reps1) S1 Nk Hk Hsp H1 H2 Hn out Eo) as (Ko & Po & A1 & A2 & A3). fold rw in Po.
  (* the least common multiple *)
  destruct (multi_lcm_spec (map snd sizes)) as (m & Em & M1 & M2 & M3).
  { rewrite Esz, map_map. destruct reps1; [congruence | discriminate]. }
  { intros s Hs. rewrite Esz, map_map in Hs. apply in_map_iff in Hs as (p & <- & Ip). cbn [snd]. apply Some1; assumption. }
  exists (mkCM reps1 reps2 dict1 dict2 out sizes m ws (mkX x1 x2 x3 x4 x5)), sp. cbn zeta. cbn [cm_factions cm_families cm_rows cm_cols cm_splinters cm_sizes cm_lcm cm_weights cm_exposets x_faction_keyneg x_family_perm x_zhe_keyneg x_zhe_valneg x_zhe_triples].
  split.
  { unfold ec_clan_matrix. unfold is_root. rewrite Root, Nat.eqb_refl. cbv iota. rewrite Ec, bind_Ok, Ep, bind_Ok, Ew, bind_Ok. rewrite Ex, bind_Ok, Eq0, bind_Ok, Es, bind_Ok, En, bind_Ok, Eo, bind_Ok, E1, bind_Ok, E2, bind_Ok, E3, bind_Ok, E4, bind_Ok, E5, bind_Ok, Em, bind_Ok. reflexivity. }
  assert (No : NoDup (map fst out)) by (rewrite Ko; exact Nk).
  assert (Io : forall p q l, In ((p, q), l) out -> In p reps1 /\ In q reps2 /\ dlook npair_eqb out (p, q) = Ok l /\ Permutation (rw p q) l).
  { intros p q l Hl. destruct (proj1 (Hk p q)) as [I1 I2]; [rewrite <- Ko; apply (in_map fst _ _ Hl)|]. split; [exact I1|]. split; [exact I2|]. apply (look_In npair_eqb npair_eqb_ok out (p, q) l No) in Hl. split; [exact Hl|].
    destruct (Po p q I1 I2) as (l' & E & P). rewrite Hl in E. injection E as <-. exact P. }
  split; [exact Ep|]. split; [auto|]. split; [auto|]. split; [|split; [|split; [|split; [|split; [|split; [|split]]]]]].
  - split; [rewrite Ko; exact Ksp|]. intros p q l Hl. destruct (Io p q l Hl) as (I1 & I2 & _ & P). destruct (Rs p q I1 I2) as [Ss M]. split; [apply (Permutation_NoDup P), sorted_lt_NoDup, Ss|].
    intro z. rewrite <- (M z). split; apply Permutation_in; [apply Permutation_sym, P | exact P].
  - intros p p' q l l' Hl Hl'. destruct (Io p q l Hl) as (I1 & I2 & E & _). destruct (Io p' q l' Hl') as (I1' & _ & E' & _). apply (A1 p p' q); assumption.
  - intros p q l Hl Min. destruct (Io p q l Hl) as (I1 & I2 & E & _). apply (A2 p q l I1 I2 E). intros p' l' I1' Lp E'. apply (Min p' l' Lp). apply (look_In npair_eqb npair_eqb_ok out (p', q) l' No), E'.
  - intros p q l i j Hl. destruct (Io p q l Hl) as (I1 & I2 & E & _). apply (A3 p q l i j I1 I2 E).
  - split; [rewrite Esz, map_map; apply map_id|]. intros p s Hs. rewrite Esz in Hs. apply in_map_iff in Hs as (p' & E & I1). injection E as -> <-. split; [apply Some1; assumption|]. split.
    + intros q l Hl. destruct (Io p q l Hl) as (_ & I2 & _ & P). rewrite <- (Permutation_length P). apply Sz; assumption.
    + intros row Hrow. destruct (proj2 (proj2 G1) p row Hrow) as (Srow & _ & _ & M). assert (P : Permutation row (flat_map (rw p) reps2)).
      { apply NoDup_Permutation; [apply sorted_lt_NoDup, Srow | apply NoDup_flat_map; [exact N2 | intros q I2; apply sorted_lt_NoDup, (Rs p q I1 I2) |] |].
        - intros q q' z I2 I2' Hz Hz'. apply (Rs p q I1 I2) in Hz as (_ & _ & F). apply (Rs p q' I1 I2') in Hz' as (_ & _ & F'). apply Uq; [exact I2 | exact I2'|]. apply (num_family_trans q z q' F), num_family_sym, F'.
        - intro z. rewrite M, in_flat_map. split.
          + intros [Cz F]. destruct (C2 z Cz) as (q & I2 & F2). exists q. split; [exact I2|]. apply (Rs p q I1 I2). auto.
          + intros (q & I2 & Hz). apply (Rs p q I1 I2) in Hz. tauto. }
      rewrite (Permutation_length P). apply flat_map_length. intros q I2. apply Sz; assumption.
  - split; [exact M1|]. split.
    + intros p s Hs. apply M2. apply (in_map snd _ _ Hs).
    + intros k Hs. apply M3. intros s Hi. apply in_map_iff in Hi as ((p & s') & E & Hi). cbn in E. subst s'. apply (Hs p s Hi).
  - split; [rewrite Ews, map_map; apply map_id|]. intros p w Hw. rewrite Ews in Hw. apply in_map_iff in Hw as (p' & E & I1). injection E as -> <-. eexists. split; [reflexivity|]. intros z Cz F. apply (faction_weight f R Root L5 p z); auto.
  - auto.
Qed.
End Matrix.
