(** Proof_WikiClan: the wiki table of a clan. *)

From Coq Require Import List Arith ZArith Bool Lia Permutation Sorted Factorial.
From Verif Require Import Model_Base Lib Model_Splits Model_Perm Model_Binary Model_SigPerm Model_SetPart Model_Boolf Model_BoolfMore Model_MinRep
  Model_Helpers Model_Segments Model_Ec Model_ClanMatrix Model_Wiki Spec_Bits Spec_Perm Spec_SigPerm Spec_Boolf Spec_SetPart Spec_MinRep Spec_Helpers Spec_Ec Spec_ClanMatrix Spec_Wiki
  Proof_Binary Proof_Numbers Proof_Perm Proof_PermMore Proof_SigPerm Proof_Boolf Proof_Deflate Proof_BoolfTable Proof_BoolfMake Proof_MinRepClass Proof_MinRepCoset
  Proof_Listing Proof_Noble Proof_EcClass Proof_EcSplinters Proof_EcSymmetry Proof_EcMore Proof_EcPartitioned Proof_SegmentsMore Proof_ClanSizes Proof_ClanExposets Proof_ClanReorder Proof_ClanMatrix Proof_WikiNeg.
Import ListNotations.
Open Scope nat_scope.

Lemma negations_ext n (K K' M M' : nat -> Prop) (T T' : nat -> nat -> nat -> Prop) t :
  (forall k, K k <-> K' k) -> (forall m, M m <-> M' m) -> (forall k r m, T k r m <-> T' k r m) -> negations_ok n K M T t -> negations_ok n K' M' T' t.
Proof.
  intros HK HM HT ((A1 & A2 & A3) & (B1 & B2 & B3) & H). split; [|split].
  - split; [exact A1|]. split; [intro m; rewrite A2; apply HM | exact A3].
  - split; [exact B1|]. split; [intro k; rewrite B2; apply HK | exact B3].
  - intros k b es Hr. specialize (H k b es Hr). apply (Forall2_weaken _ _ _ _ (fun x y _ X => X)). eapply Forall2_weaken; [|exact H]. intros mc e _. unfold entry_shows. destruct e as [l|].
    + intros (X1 & X2 & X3 & X4). split; [exact X1|]. split; [exact X2|]. split; [intro r; rewrite X3; apply HT | exact X4].
    + intros X r Y. apply (X r), HT, Y.
Qed.

Section Clan.
Context (f : boolf) (R : reduced f) (Root : adicity f = valency f) (L5 : valency f <= 5).
Let n := valency f.

Lemma colex_nth r p a : nth_error (rev_colex_perms n) r = Some p -> nth a p a = Proof_MinRepCoset.act r a.
Proof.
  intro Hp. destruct (colex_list n r p Hp) as (Hr & _ & Lp & Ha). destruct (Nat.lt_ge_cases a n) as [La|La]; [rewrite <- Ha by exact La; apply nth_indep; lia | rewrite nth_overflow by lia; symmetry; apply (act_high r n); assumption].
Qed.
Definition gives (z k r m : nat) : Prop := exists p, nth_error (rev_colex_perms n) r = Some p /\ signed_perm_gives n (sem f) p k m z.
Lemma gives_at z k r m : gives z k r m <-> m < 2 ^ n /\ r < fact n /\ at_ f m r z /\ k = kn m r.
Proof.
  split.
  - intros (p & Hp & Lk & Hm & Hb & Hz). destruct (colex_list n r p Hp) as (Hr & _). split; [exact Hm|]. split; [exact Hr|]. split.
    + intro e. rewrite Hz. apply sem_ext. intros a _. rewrite (colex_nth r p a Hp). reflexivity.
    + apply Nat.bits_inj. intro a. destruct (Nat.lt_ge_cases a n) as [La|La]; [rewrite (Hb a La), (colex_nth r p a Hp); symmetry; apply kn_spec|]. rewrite !(bits_high f); auto using (kn_lt f).
  - intros (Hm & Hr & A & ->). destruct (nth_error (rev_colex_perms n) r) as [p|] eqn:Ep; [|apply nth_error_None in Ep; rewrite rev_colex_length in Ep; lia]. exists p. split; [exact Ep|]. split; [apply (kn_lt f); assumption|]. split; [exact Hm|]. split.
    + intros a _. rewrite (colex_nth r p a Ep). apply kn_spec.
    + intro e. rewrite A. apply sem_ext. intros a _. rewrite (colex_nth r p a Ep). reflexivity.
Qed.

Definition keyneg_of (z k : nat) : Prop := k < 2 ^ n /\ faction_class (zhegalkin z) (negate_by k (sem f)).
Definition valneg_of (z m : nat) : Prop := m < 2 ^ n /\ faction_class (sem f) (negate_by m (zhegalkin z)).

Lemma base_iff z : cz f z -> (gives z 0 0 0 <-> forall e, zhegalkin z e = sem f e).
Proof.
  intro Hz. rewrite gives_at. split.
  - intros (_ & _ & A & _) e. rewrite A. apply sem_ext. intros a _. rewrite (act_zero f Root L5), Nat.bits_0. apply xorb_false_r.
  - intro H. split; [apply pow2_pos|]. split; [apply lt_O_fact|]. split; [|symmetry; apply (kn_zero f Root L5)]. intro e. rewrite H. apply sem_ext. intros a _. rewrite (act_zero f Root L5), Nat.bits_0. symmetry. apply xorb_false_r.
Qed.

Lemma print_cell_spec cm p size z border :
  listing lt (fun z => in_clan f (zhegalkin z)) (fun z k => k < 2 ^ n /\ faction_class (zhegalkin z) (negate_by k (sem f))) (x_zhe_keyneg (cm_exposets cm)) ->
  listing lt (fun z => in_clan f (zhegalkin z)) (fun z m => m < 2 ^ n /\ faction_class (sem f) (negate_by m (zhegalkin z))) (x_zhe_valneg (cm_exposets cm)) ->
  listing triple_lt (fun z => in_clan f (zhegalkin z)) (fun z t => exists p, nth_error (rev_colex_perms n) (snd (fst t)) = Some p /\ signed_perm_gives n (sem f) p (fst (fst t)) (snd t) z) (x_zhe_triples (cm_exposets cm)) ->
  (forall z, In z (cm_families cm) <-> least family_class (clan_member n (sem f)) z) -> (forall z, In z (cm_factions cm) <-> least faction_class (clan_member n (sem f)) z) ->
  dlook Nat.eqb (cm_sizes cm) p = Ok size -> cz f z ->
  exists c, print_cell f cm p z border = Ok c /\ c_colspan c = cm_lcm cm / size /\ c_border c = border /\ c_zhe c = z /\ cell_shows n (sem f) c.
Proof.
  intros Lk Lm Lt Rfa Rfc Es Hz. unfold print_cell. assert (Hlt := cz_lt f z Hz). fold n in Hlt. assert (P := pow2_pos n).
  destruct (Binv_int_len z (2 ^ n) Hlt ltac:(lia)) as (v & Ev & Iv & Lv). fold n. rewrite Ev. cbn [bind].
  destruct (cz_obj f R Root L5 z Hz) as (g & Eg & Rg & _ & Ag & _ & Sg & _). rewrite Eg. cbn [bind]. rewrite (tt_default g (proj1 Rg)). cbn [bind].
  assert (Look : forall {A} (lt_A : A -> A -> Prop) Q d, listing lt_A (fun z => in_clan f (zhegalkin z)) Q d -> exists l, dlook Nat.eqb d z = Ok l /\ StronglySorted lt_A l /\ forall x, In x l <-> Q z x).
  { intros A lt_A Q d (S1 & S2 & S3). assert (I : In z (map fst d)) by (apply S2; exact Hz). apply in_map_iff in I as ([z' l] & E & I). cbn in E. subst z'. exists l. split; [apply dlook_In; [apply sorted_lt_NoDup; exact S1 | exact I]|]. apply (S3 z l I). }
  destruct (Look triple _ _ _ Lt) as (ts & Ets & Sts & Its). destruct (Look _ _ _ _ Lk) as (ks & Eks & Sks & Iks). destruct (Look _ _ _ _ Lm) as (ms & Ems & Sms & Ims).
  cbn zeta. rewrite Ets. cbn [bind]. rewrite Es. cbn [bind]. rewrite Eks. cbn [bind]. rewrite Ems. cbn [bind]. rewrite Root. fold n.
  assert (It : forall k r m, In (k, r, m) ts <-> gives z k r m) by (intros k r m; apply (Its (k, r, m))).
  destruct (at_some f R Root L5 z Hz) as (m0 & r0 & Hm0 & Hr0 & A0).
  destruct (html_spec n ks ms ts) as (t & Et & Ht).
  - intros ->. apply (proj2 (Iks (kn m0 r0))). apply (keyneg_iff f R Root L5 z _ Hz). exists m0, r0. auto.
  - intros ->. apply (proj2 (Ims m0)). apply (valneg_iff f R Root L5 z _ Hz). exists r0. auto.
  - apply sorted_lt_NoDup, Sks.
  - apply sorted_lt_NoDup, Sms.
  - intros k r m X. apply It, gives_at in X as (X1 & X2 & X3 & X4). split; [apply Iks, (keyneg_iff f R Root L5 z _ Hz); exists m, r; auto|]. split; [apply Ims, (valneg_iff f R Root L5 z _ Hz); exists r; auto|]. split; [exact X2|]. split; [exact X1|]. intros a _. rewrite X4. apply kn_spec.
  - rewrite Et. cbn [bind]. eexists. split; [reflexivity|]. split; [reflexivity|]. split; [reflexivity|]. split; [reflexivity|].
    unfold cell_shows. cbn [c_colspan c_border c_base c_zhe c_is_family_rep c_is_faction_rep c_zhe_binary c_tt_binary c_negations]. cbn zeta. split.
    { rewrite <- (base_iff z Hz), <- It, existsb_exists. split; [intros (x & X1 & X2); apply triple_eqb_ok in X2; subst x; exact X1 | intro X; exists (0, 0, 0); split; [exact X | apply triple_eqb_ok; reflexivity]]. }
    split; [rewrite <- Rfa; apply memb_In|]. split; [rewrite <- Rfc; apply memb_In|]. split.
    { apply (nth_ext _ _ false false); [rewrite map_length, seq_length; exact Lv|]. intros i Hi. rewrite Lv in Hi. rewrite (nth_indep (map _ _) false (Nat.testbit z 0)) by (rewrite map_length, seq_length; exact Hi). rewrite map_nth, seq_nth by exact Hi. apply (Proof_SigPermOps.intval_bits v z Iv). }
    split; [rewrite Ag; unfold tab; apply map_ext; intro i; apply Sg|].
    eapply negations_ext; [| | |exact Ht]; [exact Iks | exact Ims | exact It].
Qed.

(* the representatives are the least of their classes *)
Lemma reps_least (C : (assignment -> bool) -> (assignment -> bool) -> Prop) reps d : (forall y z, C (zhegalkin y) (zhegalkin z) -> C (zhegalkin z) (zhegalkin y)) ->
  map fst d = reps -> groups C (in_clan f) d -> forall z, In z reps <-> least C (clan_member n (sem f)) z.
Proof.
  intros Sym E (_ & G1 & G2) z. rewrite <- E. split.
  - intro I. apply in_map_iff in I as ((k & l) & X & I). cbn in X. subst k. destruct (G2 z l I) as (_ & Iz & Min & M). split; [apply M, Iz|]. intros y Py Cy. apply Min, M. split; assumption.
  - intros [Pz Min]. destruct (G1 z Pz) as (k & l & I & Iz). destruct (G2 k l I) as (_ & Ik & Mk & M). apply M in Iz as [_ Ckz]. assert (z = k) as ->. { apply Nat.le_antisymm; [apply Min; [apply M, Ik | apply Sym, Ckz] | apply Mk, M; auto]. }
    apply (in_map fst _ _ I).
Qed.

Lemma Forall2_nth_r {A B} (Q : A -> B -> Prop) l m i y : Forall2 Q l m -> nth_error m i = Some y -> exists x, nth_error l i = Some x /\ Q x y.
Proof. intro H. revert i. induction H as [|a b l m H1 H2 IH]; intros [|i] E; try discriminate E; [injection E as <-; exists a; auto | apply IH, E]. Qed.
Lemma Forall2_len {A B} (Q : A -> B -> Prop) l m : Forall2 Q l m -> length l = length m.
Proof. induction 1; cbn; congruence. Qed.
Lemma nth_error_enumerate {A} (l : list A) i p : nth_error (enumerate l) i = Some p -> fst p = i /\ nth_error l i = Some (snd p).
Proof.
  unfold enumerate. enough (G : forall s, nth_error (combine (seq s (length l)) l) i = Some p -> fst p = s + i /\ nth_error l i = Some (snd p)) by (intro E; apply (G 0 E)).
  revert i. induction l as [|x l IH]; intros [|i] s E; cbn in E; try discriminate E; [injection E as <-; cbn; split; [lia | reflexivity]|]. destruct (IH i (S s) E) as [E1 E2]. split; [lia | exact E2].
Qed.

Lemma block_spec cm p size q sp :
  (forall z b, In z sp -> exists c, print_cell f cm p z b = Ok c /\ c_colspan c = cm_lcm cm / size /\ c_border c = b /\ c_zhe c = z /\ cell_shows n (sem f) c) ->
  1 <= length sp -> length sp = size -> divides size (cm_lcm cm) -> NoDup sp -> (forall z, In z sp <-> in_clan f (zhegalkin z) /\ faction_class (zhegalkin p) (zhegalkin z) /\ family_class (zhegalkin q) (zhegalkin z)) ->
  exists cs, mapM (fun iz : nat * nat => print_cell f cm p (snd iz) (Nat.eqb (fst iz) (length sp - 1))) (enumerate sp) = Ok cs /\
    length cs = size /\ block_shows n (sem f) (cm_lcm cm) p q cs /\ Forall (cell_shows n (sem f)) cs.
Proof.
  intros H L1 Ls Dv N M.
  destruct (mapM_all (fun iz : nat * nat => print_cell f cm p (snd iz) (Nat.eqb (fst iz) (length sp - 1)))
    (fun iz c => c_colspan c = cm_lcm cm / size /\ c_border c = Nat.eqb (fst iz) (length sp - 1) /\ c_zhe c = snd iz /\ cell_shows n (sem f) c) (enumerate sp)) as (cs & Ecs & F).
  { intros [i z] I. apply H. apply (in_combine_r _ _ _ _ I). }
  assert (Len : length cs = length sp) by (rewrite <- (Forall2_len _ _ _ F); unfold enumerate; rewrite combine_length, seq_length; lia).
  assert (Ez : map c_zhe cs = sp).
  { transitivity (map snd (enumerate sp)); [clear - F; induction F as [|a b l m (_ & _ & E & _) _ IH]; [reflexivity|]; cbn [map]; rewrite E, IH; reflexivity|]. unfold enumerate. clear. generalize 0. induction sp as [|x l IH]; intro s; [reflexivity|]. cbn. rewrite IH. reflexivity. }
  exists cs. split; [exact Ecs|]. split; [lia|]. split; [|clear - F; induction F as [|a b l m (_ & _ & _ & E) _ IH]; constructor; assumption].
  split; [intros ->; cbn in Len; lia|]. rewrite Ez. split; [exact N|]. split; [exact M|]. split.
  - intros c Ic. apply In_nth_error in Ic as (i & Ei). destruct (Forall2_nth_r _ _ _ _ _ F Ei) as (x & _ & E & _). rewrite E, Len, Ls. destruct Dv as (k & ->). rewrite Nat.div_mul by lia. reflexivity.
  - intros i c Ei. destruct (Forall2_nth_r _ _ _ _ _ F Ei) as (x & Ex & _ & E & _). apply nth_error_enumerate in Ex as [Ex _]. assert (i < length cs) by (apply nth_error_Some; rewrite Ei; discriminate). rewrite E, Ex, Nat.eqb_eq, Len. lia.
Qed.
End Clan.

Section Table.
Context (d : nat) (bl : nat -> nat) (srt oc : list boolf -> list boolf) (ot : list (list boolf) -> list (list boolf)).
Context (Hs1 : forall l, Permutation (srt l) l) (Hs2 : forall l l', NoDup l -> Permutation l l' -> srt l = srt l') (Hoc : forall l, Permutation (oc l) l) (Hot : forall l, Permutation (ot l) l).
Context (f : boolf) (R : reduced f) (Root : adicity f = valency f) (L5 : valency f <= 5).
Let n := valency f.

Lemma wiki_spec : exists t L, ec_clan_matrix_wiki (S d) bl srt oc ot f = Ok t /\ 1 <= L /\
  (StronglySorted lt (map snd (k_header t)) /\ (forall q, In q (map snd (k_header t)) <-> least family_class (clan_member n (sem f)) q) /\
   forall c rs q, In (c, rs, q) (k_header t) -> c = L /\ StronglySorted lt rs /\ forall r, In r rs <-> exists p, nth_error (rev_colex_perms n) r = Some p /\ family_class (zhegalkin q) (permute_by p (sem f))) /\
  (StronglySorted lt (map l_faction_rep (k_lines t)) /\ forall p, In p (map l_faction_rep (k_lines t)) <-> least faction_class (clan_member n (sem f)) p) /\
  exists table, Forall2 (line_shows n (sem f) L (map snd (k_header t))) table (k_lines t) /\
    (forall k, (forall blocks b, In blocks table -> In b blocks -> divides (length b) k) -> divides L k) /\
    forall l c, In l (k_lines t) -> In c (l_cells l) -> cell_shows n (sem f) c.
Proof.
  destruct (clan_matrix_spec d bl srt oc ot Hs1 Hs2 Hoc Hot f R Root L5) as (cm & sp & Ecm & _ & (Kr & Sr & Gr) & (Kc & Sc & Gc) & (Ks & Hs) & _ & _ & _ & (Kz & Hz) & (L1 & L2 & L3) & (Kw & Hw) & X1 & X2 & X3 & X4 & X5).
  fold n in X1, X2, X3, X4, X5.
  assert (Rfa := reps_least f _ _ _ num_family_sym Kc Gc). assert (Rfc := reps_least f _ _ _ num_faction_sym Kr Gr). fold n in Rfa, Rfc.
  assert (Nf := sorted_lt_NoDup _ Sc). assert (Ng := sorted_lt_NoDup _ Sr).
  assert (Look : forall {V} (dd : list (nat * V)) reps x, map fst dd = reps -> NoDup reps -> In x reps -> exists v, dlook Nat.eqb dd x = Ok v /\ In (x, v) dd).
  { intros V dd reps x E N I. rewrite <- E in I, N. apply in_map_iff in I as ((x' & v) & Ex & I). cbn in Ex. subst x'. exists v. split; [apply dlook_In; assumption | exact I]. }
  assert (Lookl : forall {V} (lt_V : V -> V -> Prop) reps Q dd x, listing lt_V (fun p => In p reps) Q dd -> In x reps -> exists v, dlook Nat.eqb dd x = Ok v /\ StronglySorted lt_V v /\ forall y, In y v <-> Q x y).
  { intros V lt_V reps Q dd x (T1 & T2 & T3) I. apply T2 in I. destruct (Look _ dd (map fst dd) x eq_refl (sorted_lt_NoDup _ T1) I) as (v & E & Iv). exists v. split; [exact E | apply (T3 x v Iv)]. }
  unfold ec_clan_matrix_wiki. rewrite Ecm. cbn [bind]. cbn zeta.
  (* the header *)
  destruct (mapM_all (fun family_rep => let* perm_exposet := dlook Nat.eqb (x_family_perm (cm_exposets cm)) family_rep in Ok (cm_lcm cm, perm_exposet, family_rep))
    (fun q h => snd h = q /\ fst (fst h) = cm_lcm cm /\ StronglySorted lt (snd (fst h)) /\ forall r, In r (snd (fst h)) <-> exists p, nth_error (rev_colex_perms n) r = Some p /\ family_class (zhegalkin q) (permute_by p (sem f))) (cm_families cm)) as (hd & Ehd & Fhd).
  { intros q Iq. destruct (Lookl _ _ _ _ _ q X2 Iq) as (v & Ev & Sv & Iv). rewrite Ev. cbn [bind]. eexists. split; [reflexivity|]. cbn [fst snd]. auto. }
  rewrite Ehd. cbn [bind].
  assert (Ehs : map snd hd = cm_families cm) by (clear - Fhd; induction Fhd as [|a b l m (E & _) _ IH]; [reflexivity|]; cbn [map]; rewrite E, IH; reflexivity).
  (* the lines *)
  set (bsize := fun p => match dlook Nat.eqb (cm_sizes cm) p with Ok s => s | Err _ => 0 end).
  match goal with |- context [mapM ?h (cm_factions cm)] =>
    destruct (mapM_all h (fun p l => l_faction_rep l = p /\ exists blocks, line_shows n (sem f) (cm_lcm cm) (cm_families cm) blocks l /\ Forall (fun b => length b = bsize p) blocks /\ Forall (cell_shows n (sem f)) (l_cells l)) (cm_factions cm)) as (ls & Els & Fls) end.
  { intros p Ip. destruct (Look _ (cm_sizes cm) _ p Kz Ng Ip) as (s & Es & Is). destruct (Look _ (cm_weights cm) _ p Kw Ng Ip) as (w & Ew & Iw). destruct (Lookl _ _ _ _ _ p X1 Ip) as (ks & Eks & Sks & Iks).
    destruct (keyneg_table_spec ks) as (kt & Ekt & Hkt). rewrite Es. cbn [bind]. rewrite Ew. cbn [bind]. rewrite Eks. cbn [bind]. rewrite Ekt. cbn [bind].
    destruct (Hz p s Is) as (S1 & S2 & _).
    match goal with |- context [mapM ?h (cm_families cm)] =>
      destruct (mapM_all h (fun q b => length b = s /\ block_shows n (sem f) (cm_lcm cm) p q b /\ Forall (cell_shows n (sem f)) b) (cm_families cm)) as (bs & Ebs & Fbs) end.
    { intros q Iq. assert (Ik : In (p, q) (map fst (cm_splinters cm))) by (rewrite Ks; apply in_prod; assumption). apply in_map_iff in Ik as ((pq & spl) & E & Ik). cbn in E. subst pq.
      assert (El : dlook npair_eqb (cm_splinters cm) (p, q) = Ok spl) by (apply (look_In npair_eqb npair_eqb_ok); [rewrite Ks; apply Proof_Seqs.NoDup_list_prod; assumption | exact Ik]). rewrite El. cbn [bind].
      destruct (Hs p q spl Ik) as (Nspl & Mspl). assert (Lspl := S2 q spl Ik).
      destruct (block_spec f Root L5 cm p s q spl) as (cs & Ecs & Lcs & Bcs & Ccs); try assumption.
      - intros z b Iz. apply (print_cell_spec f R Root L5); try assumption. apply Mspl, Iz.
      - lia.
      - apply (L2 p s Is).
      - exists cs. auto. }
    rewrite Ebs. cbn [bind]. eexists. split; [reflexivity|]. cbn [l_faction_rep]. split; [reflexivity|]. exists bs. split; [|split].
    - unfold line_shows. cbn [l_faction_rep l_cells l_cardinality l_weight l_keyneg_table]. split; [reflexivity|]. split; [eapply Forall2_weaken; [|exact Fbs]; cbn beta; intros q b _ X; apply X|]. split.
      + clear - Fbs. rewrite (Nat.mul_comm s). induction Fbs as [|q b l m (E & _) _ IH]; [reflexivity|]. cbn [length concat]. rewrite app_length, <- IH, E. cbn [Nat.mul]. reflexivity.
      + split.
        * destruct (Hw p w Iw) as (k & -> & Hk). exists k. split; [reflexivity|]. intros c Ic. apply in_concat in Ic as (b & Ib & Ic). assert (G : exists q, In q (cm_families cm) /\ block_shows n (sem f) (cm_lcm cm) p q b).
          { clear - Fbs Ib. induction Fbs as [|q b' l m (_ & E & _) _ IH]; [destruct Ib|]. destruct Ib as [->|Ib]; [exists q; split; [left; reflexivity | exact E] | destruct (IH Ib) as (q' & I & E'); exists q'; split; [right; exact I | exact E']]. }
          destruct G as (q & _ & _ & _ & G & _). apply (Hk (c_zhe c)); apply (proj1 (G (c_zhe c)) (in_map c_zhe _ _ Ic)).
        * destruct Hkt as (B1 & B2 & B3). split; [exact B1|]. split; [intros k Kk; apply B2, Iks, Kk|]. intros w' l Il. destruct (B3 w' l Il) as (B4 & B5 & B6). split; [exact B4|]. split; [exact B5|]. intro k. rewrite B6, Iks. reflexivity.
    - unfold bsize. rewrite Es. clear - Fbs. induction Fbs as [|q b l m (E & _) _ IH]; constructor; assumption.
    - cbn [l_cells]. clear - Fbs. induction Fbs as [|q b l m (_ & _ & E) _ IH]; [constructor|]. cbn [concat]. apply Forall_app. split; assumption. }
  rewrite Els. cbn [bind]. exists (mkClan hd ls), (cm_lcm cm). split; [reflexivity|]. split; [exact L1|]. cbn [k_header k_lines]. rewrite Ehs.
  assert (Erep : map l_faction_rep ls = cm_factions cm) by (clear - Fls; induction Fls as [|a b l m (E & _) _ IH]; [reflexivity|]; cbn [map]; rewrite E, IH; reflexivity).
  split; [|split].
  - split; [exact Sc|]. split; [exact Rfa|]. intros c rs q I. assert (G : forall h, In h hd -> fst (fst h) = cm_lcm cm /\ StronglySorted lt (snd (fst h)) /\ forall r, In r (snd (fst h)) <-> exists p, nth_error (rev_colex_perms n) r = Some p /\ family_class (zhegalkin (snd h)) (permute_by p (sem f))).
    { clear - Fhd. induction Fhd as [|a b l m (E & G) _ IH]; [intros h []|]. intros h [<-|Ih]; [rewrite E; exact G | apply IH, Ih]. } apply (G (c, rs, q) I).
  - rewrite Erep. split; [exact Sr | exact Rfc].
  - assert (T : exists table, Forall2 (line_shows n (sem f) (cm_lcm cm) (cm_families cm)) table ls /\ Forall2 (fun p => Forall (fun b => length b = bsize p)) (cm_factions cm) table).
    { clear - Fls. induction Fls as [|p l ps ls (_ & bs & E1 & E2 & _) _ (tb & T1 & T2)]; [exists []; split; constructor|]. exists (bs :: tb). split; constructor; assumption. }
    destruct T as (table & T1 & T2). exists table. split; [exact T1|]. split.
    + intros k Hk. apply L3. intros p s Is. assert (Ip : In p (cm_factions cm)) by (rewrite <- Kz; apply (in_map fst _ _ Is)).
      assert (Ebz : bsize p = s) by (unfold bsize; rewrite (proj2 (dlook_In (cm_sizes cm) p s ltac:(rewrite Kz; exact Ng)) Is); reflexivity). rewrite <- Ebz.
      assert (NE : cm_families cm <> []). { destruct (proj1 (proj2 Gc) (zn f) (cz_self f R Root L5)) as (q & l & Iq & _). intro E. apply (in_map fst) in Iq. rewrite Kc, E in Iq. destruct Iq. }
      assert (G : exists bs b, In bs table /\ In b bs /\ length b = bsize p).
      { clear - T1 T2 Ip NE. revert ls T1. induction T2 as [|p' bs ps tb E T2 IH]; intros ls T1; [destruct Ip|]. inversion T1 as [|? l ? ls' (_ & Fb & _) T1']; subst. destruct Ip as [->|Ip].
        - destruct Fb as [|q b qs bs' _ _]; [contradiction NE; reflexivity|]. inversion E; subst. exists (b :: bs'), b. split; [left; reflexivity|]. split; [left; reflexivity | assumption].
        - destruct (IH Ip ls' T1') as (bs' & b & I1 & I2 & I3). exists bs', b. split; [right; exact I1 | auto]. }
      destruct G as (bs & b & I1 & I2 & <-). apply (Hk bs b I1 I2).
    + clear - Fls. intros l c Il Ic. induction Fls as [|p l' ps ls (_ & bs & _ & _ & E) _ IH]; [destruct Il|]. destruct Il as [->|Il]; [rewrite Forall_forall in E; apply E, Ic | apply IH, Il].
Qed.
End Table.
