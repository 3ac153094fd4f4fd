(** Props_WikiClan: the wiki table of a clan (property C93). *)

From Coq Require Import List Arith ZArith Bool Lia Permutation Sorted.
From Verif Require Import Model_Base Lib Model_Perm Model_Boolf Model_BoolfMore Model_MinRep Model_Ec Model_ClanMatrix Model_Wiki Spec_Bits Spec_Boolf Spec_SigPerm Spec_MinRep Spec_Ec Spec_ClanMatrix Spec_Wiki
  Proof_Boolf Proof_BoolfTable Proof_EcClass Proof_EcSplinters Proof_EcSymmetry Proof_EcMore Proof_EcPartitioned Proof_ClanSizes Proof_ClanExposets Proof_ClanMatrix Proof_WikiClan Props_Boolf Proof_BoolfMake Props_Ec Props_ClanMatrix.
Import ListNotations.
Open Scope nat_scope.

(** * C93: the table of a clan *)

(** The header has the least functions of the families, the lines those of the factions.  The cells of a line are in blocks for the families;
    the blocks have the width of the columns, which is the least that is possible.  What the cells show is right. *)
Theorem C93_table : forall depth bl srt oc ot f, orders srt oc ot -> made false f -> adicity f = valency f -> valency f <= 5 ->
  let n := valency f in let P := clan_member n (sem f) in
  exists t L, ec_clan_matrix_wiki (S depth) bl srt oc ot f = Ok t /\ 1 <= L /\
    (StronglySorted lt (map snd (k_header t)) /\ (forall q, In q (map snd (k_header t)) <-> least family_class P q) /\
     forall c rs q, In (c, rs, q) (k_header t) -> c = L /\ StronglySorted lt rs /\ forall r, In r rs <-> exists p, nth_error (rev_colex_perms n) r = Some p /\ family_class (zhegalkin q) (permute_by p (sem f))) /\
    (StronglySorted lt (map l_faction_rep (k_lines t)) /\ forall p, In p (map l_faction_rep (k_lines t)) <-> least faction_class P p) /\
    exists table, Forall2 (line_shows n (sem f) L (map snd (k_header t))) table (k_lines t) /\
      (forall k, (forall blocks b, In blocks table -> In b blocks -> divides (length b) k) -> divides L k) /\
      forall l c, In l (k_lines t) -> In c (l_cells l) -> cell_shows n (sem f) c.
Proof. intros depth bl srt oc ot f (O1 & O2 & O3 & O4) Hf Root L5. exact (wiki_spec depth bl srt oc ot O1 O2 O3 O4 f (m_red f Hf) Root L5). Qed.
Print Assumptions C93_table.

Lemma total_app a b : total_span (a ++ b) = total_span a + total_span b.
Proof. unfold total_span. rewrite map_app. induction (map c_colspan a) as [|x l IH]; cbn; [reflexivity | rewrite IH; lia]. Qed.
Lemma block_span n F L p q b : block_shows n F L p q b -> total_span b = L.
Proof.
  intros (NE & _ & _ & H & _). destruct b as [|c b]; [contradiction|]. rewrite <- (H c (or_introl eq_refl)). assert (G : forall l k, (forall x, In x l -> c_colspan x = k) -> total_span l = k * length l).
  { unfold total_span. induction l as [|x l IH]; intros k Hk; cbn [map fold_right length]; [lia|]. rewrite (Hk x (or_introl eq_refl)), (IH k) by (intros; apply Hk; right; assumption). lia. }
  apply G. intros x Ix. assert (E := H x Ix). rewrite <- (H c (or_introl eq_refl)) in E. apply Nat.mul_cancel_r in E; [exact E | cbn; lia].
Qed.
Lemma blocks_cover n F L p qs bs : StronglySorted lt qs -> (forall q, In q qs -> forall q', In q' qs -> forall z, family_class (zhegalkin q) (zhegalkin z) -> family_class (zhegalkin q') (zhegalkin z) -> q = q') ->
  Forall2 (block_shows n F L p) qs bs ->
  total_span (concat bs) = L * length qs /\ NoDup (map c_zhe (concat bs)) /\
  forall z, In z (map c_zhe (concat bs)) <-> exists q, In q qs /\ clan_member n F (zhegalkin z) /\ faction_class (zhegalkin p) (zhegalkin z) /\ family_class (zhegalkin q) (zhegalkin z).
Proof.
  intros Sq U H. induction H as [|q b qs bs Hb H IH]; cbn [concat map length].
  - split; [cbn; lia|]. split; [constructor|]. intro z. split; [intros [] | intros (q & [] & _)].
  - inversion Sq as [|? ? Sq' Hq]; subst. destruct IH as (I1 & I2 & I3); [exact Sq' | intros x Ix y Iy; apply U; right; assumption|]. rewrite total_app, (block_span _ _ _ _ _ _ Hb), I1, map_app. destruct Hb as (_ & N & M & _). split; [lia|]. split.
    + apply Proof_PermMore.NoDup_app_intro; [exact N | exact I2|]. intros z Z1 Z2. apply M in Z1 as (_ & _ & Z1). apply I3 in Z2 as (q' & Iq' & _ & _ & Z2). assert (q = q') by (apply (U q (or_introl eq_refl) q' (or_intror Iq') z); assumption). subst q'.
      rewrite Forall_forall in Hq. specialize (Hq q Iq'). lia.
    + intro z. rewrite in_app_iff, M, I3. split.
      * intros [(A & B & C)|(q' & Iq & A)]; [exists q; split; [left; reflexivity | auto] | exists q'; split; [right; exact Iq | exact A]].
      * intros (q' & [<-|Iq] & A); [left; exact A | right; exists q'; auto].
Qed.

Lemma least_unique (C : (assignment -> bool) -> (assignment -> bool) -> Prop) n F (Sym : forall y z, C (zhegalkin y) (zhegalkin z) -> C (zhegalkin z) (zhegalkin y)) :
  (forall x y z, C (zhegalkin x) (zhegalkin y) -> C (zhegalkin y) (zhegalkin z) -> C (zhegalkin x) (zhegalkin z)) ->
  forall q q' z, least C (clan_member n F) q -> least C (clan_member n F) q' -> C (zhegalkin q) (zhegalkin z) -> C (zhegalkin q') (zhegalkin z) -> q = q'.
Proof. intros Tr q q' z [P1 M1] [P2 M2] H1 H2. apply Nat.le_antisymm; [apply M1; [exact P2 | eapply Tr; [exact H1 | apply Sym, H2]] | apply M2; [exact P1 | eapply Tr; [exact H2 | apply Sym, H1]]]. Qed.

Lemma groups_least C (P : (assignment -> bool) -> Prop) d : groups C P d -> forall z, P (zhegalkin z) -> exists q, least C P q /\ C (zhegalkin q) (zhegalkin z).
Proof.
  intros (_ & G1 & G2) z Pz. destruct (G1 z Pz) as (k & l & I & Iz). destruct (G2 k l I) as (_ & Ik & Min & M). exists k. split; [|apply M, Iz]. split; [apply M, Ik|]. intros y Py Cy. apply Min, M. auto.
Qed.

(** every function of the clan is in exactly one cell, and it is in the line of its faction; the line is as wide as the header *)
Theorem C93_functions : forall depth bl srt oc ot f t, orders srt oc ot -> made false f -> adicity f = valency f -> valency f <= 5 -> ec_clan_matrix_wiki (S depth) bl srt oc ot f = Ok t ->
  let n := valency f in let P := clan_member n (sem f) in
  (forall l, In l (k_lines t) -> total_span (l_cells l) = fold_right Nat.add 0 (map (fun h => fst (fst h)) (k_header t)) /\ NoDup (map c_zhe (l_cells l)) /\
     forall z, In z (map c_zhe (l_cells l)) <-> P (zhegalkin z) /\ faction_class (zhegalkin (l_faction_rep l)) (zhegalkin z)) /\
  NoDup (map c_zhe (concat (map l_cells (k_lines t)))) /\ forall z, In z (map c_zhe (concat (map l_cells (k_lines t)))) <-> P (zhegalkin z).
Proof.
  intros depth bl srt oc ot f t O Hf Root L5 E n P. destruct (C93_table depth bl srt oc ot f O Hf Root L5) as (t' & L & E' & L1 & (H1 & H2 & H3) & (G1 & G2) & table & T & _ & _). rewrite E in E'. injection E' as <-. fold n P in H2, H3, G2, T.
  destruct (C85_matrix depth bl srt oc ot f O Hf Root L5) as (cm & _ & (_ & _ & Gr) & (_ & _ & Gc) & _).
  assert (R1 := groups_least _ _ _ Gr). assert (R2 := groups_least _ _ _ Gc). cbv beta in R1, R2.
  assert (Ew : fold_right Nat.add 0 (map (fun h : nat * list nat * nat => fst (fst h)) (k_header t)) = L * length (map snd (k_header t))).
  { assert (Hw : forall h, In h (k_header t) -> fst (fst h) = L) by (intros [[c rs] q] I; apply (H3 c rs q I)). clear - Hw. induction (k_header t) as [|h l IH]; cbn [map fold_right length]; [lia|]. rewrite (Hw h (or_introl eq_refl)), IH by (intros; apply Hw; right; assumption). lia. }
  assert (Line : forall l, In l (k_lines t) -> total_span (l_cells l) = L * length (map snd (k_header t)) /\ NoDup (map c_zhe (l_cells l)) /\ forall z, In z (map c_zhe (l_cells l)) <-> P (zhegalkin z) /\ faction_class (zhegalkin (l_faction_rep l)) (zhegalkin z)).
  { intros l Il. assert (B : exists bs, line_shows n (sem f) L (map snd (k_header t)) bs l) by (clear - T Il; induction T as [|bs l' tb ls H _ IH]; [destruct Il|]; destruct Il as [<-|Il]; [exists bs; exact H | apply IH, Il]).
    destruct B as (bs & -> & B & _). destruct (blocks_cover n (sem f) L (l_faction_rep l) (map snd (k_header t)) bs H1) as (C1 & C2 & C3); [|exact B|].
    - intros q Iq q' Iq' z. apply (least_unique family_class n (sem f) num_family_sym num_family_trans); apply H2; assumption.
    - split; [exact C1|]. split; [exact C2|]. intro z. rewrite C3. split; [intros (q & _ & A1 & A2 & _); auto|]. intros [A1 A2]. destruct (R2 z A1) as (q & Hq & Fq). exists q. split; [apply H2, Hq | auto]. }
  split; [intros l Il; rewrite Ew; apply Line, Il|].
  assert (N : NoDup (map l_faction_rep (k_lines t))) by (apply sorted_lt_NoDup, G1). assert (Lr : forall l, In l (k_lines t) -> least faction_class P (l_faction_rep l)) by (intros l Il; apply G2, in_map, Il). split.
  - clear - N Lr Line. induction (k_lines t) as [|l ls IH]; cbn [map concat]; [constructor|]. cbn [map] in N. inversion N as [|? ? Hl N']; subst. rewrite map_app. apply Proof_PermMore.NoDup_app_intro.
    + apply Line. left. reflexivity.
    + apply IH; [intros; apply Line; right; assumption | exact N' | intros; apply Lr; right; assumption].
    + intros z Z1 Z2. apply (Line l (or_introl eq_refl)) in Z1 as (_ & Z1). apply in_map_iff in Z2 as (c & <- & Z2). apply in_concat in Z2 as (cs & Ics & Z2). apply in_map_iff in Ics as (l' & <- & Il').
      assert (Z3 := proj1 (proj2 (proj2 (Line l' (or_intror Il'))) (c_zhe c)) (in_map c_zhe _ _ Z2)). apply Hl. apply in_map_iff. exists l'. split; [|exact Il'].
      apply (least_unique faction_class n (sem f) num_faction_sym num_faction_trans _ _ (c_zhe c)); [apply Lr; right; exact Il' | apply Lr; left; reflexivity | apply Z3 | exact Z1].
  - intro z. split.
    + intro I. apply in_map_iff in I as (c & <- & I). apply in_concat in I as (cs & Ics & I). apply in_map_iff in Ics as (l & <- & Il). apply (Line l Il), in_map, I.
    + intro Pz. destruct (R1 z Pz) as (p & Hp & Fp). apply G2, in_map_iff in Hp as (l & <- & Il). assert (I : In z (map c_zhe (l_cells l))) by (apply (Line l Il); auto). apply in_map_iff in I as (c & <- & I). apply in_map, in_concat. exists (l_cells l). split; [apply in_map, Il | exact I].
Qed.
Print Assumptions C93_functions.

(** exactly one cell is marked as that of the function itself *)
Theorem C93_base : forall depth bl srt oc ot f t, orders srt oc ot -> made false f -> adicity f = valency f -> valency f <= 5 -> ec_clan_matrix_wiki (S depth) bl srt oc ot f = Ok t ->
  exists c, filter c_base (concat (map l_cells (k_lines t))) = [c] /\ boolf_zhe f = Ok (c_zhe c).
Proof.
  intros depth bl srt oc ot f t O Hf Root L5 E. destruct (C93_functions depth bl srt oc ot f t O Hf Root L5 E) as (_ & N & M).
  destruct (C93_table depth bl srt oc ot f O Hf Root L5) as (t' & L & E' & _ & _ & _ & _ & _ & _ & Cs). rewrite E in E'. injection E' as <-.
  assert (B : forall c, In c (concat (map l_cells (k_lines t))) -> (c_base c = true <-> c_zhe c = zn f)).
  { intros c I. apply in_concat in I as (cs & Ics & I). apply in_map_iff in Ics as (l & <- & Il). destruct (Cs l c Il I) as (B & _). rewrite B. destruct (zn_spec f (m_red f Hf)) as (_ & S1 & _). split; [intro H; apply Proof_Twin.zhegalkin_inj; intro e; rewrite H, S1; reflexivity | intros -> e; apply S1]. }
  assert (Iz : In (zn f) (map c_zhe (concat (map l_cells (k_lines t))))) by (apply M, (cz_self f (m_red f Hf) Root L5)).
  destruct (zn_spec f (m_red f Hf)) as (Ez & _). rewrite Ez. clear - N B Iz. induction (concat (map l_cells (k_lines t))) as [|c l IH]; [destruct Iz|]. cbn [map] in N, Iz. inversion N as [|? ? Hc N']; subst. cbn [filter]. destruct (c_base c) eqn:Ec.
  - apply (B c (or_introl eq_refl)) in Ec. exists c. rewrite Ec. split; [|reflexivity]. f_equal. assert (F : forall x, In x l -> c_base x = false).
    { intros x Ix. destruct (c_base x) eqn:Ex; [|reflexivity]. apply (B x (or_intror Ix)) in Ex. exfalso. apply Hc. rewrite Ec, <- Ex. apply in_map, Ix. }
    clear - F. induction l as [|x l IH]; [reflexivity|]. cbn [filter]. rewrite (F x (or_introl eq_refl)). apply IH. intros; apply F; right; assumption.
  - destruct Iz as [Iz|Iz]; [apply (B c (or_introl eq_refl)) in Iz; congruence|]. apply IH; [exact N' | intros; apply B; right; assumption | exact Iz].
Qed.
Print Assumptions C93_base.

(** the literals in a cell, put in place of the atoms, give the function of the cell *)
Theorem C93_literals : forall depth bl srt oc ot f t, orders srt oc ot -> made false f -> adicity f = valency f -> valency f <= 5 -> ec_clan_matrix_wiki (S depth) bl srt oc ot f = Ok t ->
  forall l c k b es e r s, In l (k_lines t) -> In c (l_cells l) -> In (k, b, es) (n_rows (c_negations c)) -> In (Some e) es -> In (r, s) e ->
  length s = valency f /\ forall x, substituted (valency f) (sem f) s x = zhegalkin (c_zhe c) x.
Proof.
  intros depth bl srt oc ot f t O Hf Root L5 E l c k b es e r s Il Ic Ir Ie Is.
  destruct (C93_table depth bl srt oc ot f O Hf Root L5) as (t' & L & E' & _ & _ & _ & _ & _ & _ & Cs). rewrite E in E'. injection E' as <-.
  destruct (Cs l c Il Ic) as (_ & _ & _ & _ & _ & _ & _ & H). specialize (H k b es Ir). set (n := valency f) in *.
  assert (G : exists m, entry_shows n k (fun r => exists p, nth_error (rev_colex_perms n) r = Some p /\ signed_perm_gives n (sem f) p k m (c_zhe c)) (Some e)).
  { clear - H Ie. induction H as [|mc e' ms es H _ IH]; [destruct Ie|]. destruct Ie as [->|Ie]; [exists (fst mc); exact H | apply IH, Ie]. }
  destruct G as (m & _ & _ & G1 & G2). destruct (G2 r s Is) as (p & Hp & Ep & Neg). destruct (proj1 (G1 r) (in_map fst _ _ Is)) as (p' & Hp' & Hk & Hm & Hb & Hz). rewrite Hp in Hp'. injection Hp' as <-.
  destruct (colex_list n r p Hp) as (Hr & _ & Lp & Ha). assert (Ls : length s = n) by (rewrite <- Lp, <- Ep, map_length; reflexivity). split; [exact Ls|].
  intro x. rewrite Hz. unfold substituted. apply sem_ext. intros a _. destruct (Nat.ltb_spec a n) as [La|La].
  - rewrite (Neg a La), (Hb a La). f_equal. f_equal. rewrite (nth_indep p a (atom 0)) by lia. rewrite <- Ep at 1. rewrite map_nth. reflexivity.
  - rewrite nth_overflow by lia. rewrite (bits_high f Root L5 m a Hm La). symmetry. apply xorb_false_r.
Qed.
Print Assumptions C93_literals.

Theorem C93_rejected : forall depth bl srt oc ot f, made false f ->
  (adicity f <> valency f -> ec_clan_matrix_wiki (S depth) bl srt oc ot f = Err NotSpreadlessError) /\
  (adicity f = valency f -> 5 < valency f -> ec_clan_matrix_wiki (S depth) bl srt oc ot f = Err ArgNotFeasibleError).
Proof. intros depth bl srt oc ot f Hf. destruct (C85_rejected depth bl srt oc ot f Hf) as [H1 H2]. unfold ec_clan_matrix_wiki. split; [intro H; rewrite (H1 H) | intros H H'; rewrite (H2 H H')]; reflexivity. Qed.
Print Assumptions C93_rejected.

(** AND of three atoms *)
Definition ex_wiki : res wiki_clan := ec_clan_matrix_wiki 1 (fun n => S (Nat.log2 n)) boolf_sort (fun l => l) (fun l => l) ex_and3.
Example C93_ex : orders boolf_sort (fun l => l) (fun l => l) /\ made false ex_and3 /\ adicity ex_and3 = valency ex_and3 /\ valency ex_and3 <= 5 /\
  exists t, ex_wiki = Ok t /\ k_header t = [(3, [0; 1; 2; 3; 4; 5], 128)] /\
    map (fun l => (l_weight l, l_cardinality l, l_faction_rep l, l_keyneg_table l)) (k_lines t) =
      [(Some 1, 1, 128, [(0, [0])]); (Some 2, 3, 136, [(1, [1; 2; 4])]); (Some 4, 3, 170, [(2, [3; 5; 6])]); (Some 8, 1, 255, [(3, [7])])] /\
    map (fun l => map (fun c => (c_zhe c, c_colspan c, c_border c, c_base c, c_is_family_rep c, c_is_faction_rep c)) (l_cells l)) (k_lines t) =
      [[(128, 3, true, true, true, true)]; [(136, 1, false, false, false, true); (160, 1, false, false, false, false); (192, 1, true, false, false, false)];
       [(240, 1, false, false, false, false); (204, 1, false, false, false, false); (170, 1, true, false, false, true)]; [(255, 3, true, false, false, true)]] /\
    map (fun c => (c_tt_binary c, c_negations c)) (firstn 1 (concat (map l_cells (skipn 1 (k_lines t))))) =
      [([false; false; false; true; false; false; false; false],
        mkNeg [(4, false)] [(1, false, [Some [(3, [-3; 0; 1]%Z); (5, [-3; 1; 0]%Z)]]); (2, false, [Some [(2, [0; -3; 1]%Z); (4, [1; -3; 0]%Z)]]); (4, false, [Some [(0, [0; 1; -3]%Z); (1, [1; 0; -3]%Z)]])])].
Proof.
  split; [split; [apply boolf_sort_perm|]; split; [intros l l' _; apply boolf_sort_inv|]; split; reflexivity|]. split; [exact ex_and3_made|]. split; [reflexivity|]. split; [cbn; lia|]. eexists. split; [vm_compute; reflexivity|]. cbv [k_header k_lines]. repeat split.
Qed.
