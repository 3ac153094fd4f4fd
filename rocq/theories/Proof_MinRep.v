(** Proof_MinRep: the searches of family_minrep, faction_minrep and clan_minrep find the
    candidate with the smallest column vector. *)

From Coq Require Import List Arith ZArith Bool Lia Permutation Sorted Factorial.
From Verif Require Import Model_Base Lib Model_Splits Model_Perm Model_Binary Model_SigPerm Model_Boolf Model_Twin Model_BoolfMore Model_MinRep
  Spec_Bits Spec_Boolf Spec_Twin Proof_Binary Proof_Perm Proof_PermMore Proof_Inversions Proof_SigPerm Proof_SigPermOps
  Proof_Helpers Proof_Linear Proof_WalshLinear Proof_Boolf Proof_Deflate Proof_BoolfTable Proof_BoolfApply Proof_BoolfMake Proof_Twin
  Proof_Noble Proof_BoolfMore Proof_Splits Proof_MinRepTwin Proof_MinRepClass Proof_MinRepCoset.
Import ListNotations.
Open Scope nat_scope.

(** * Narrowing a set of candidates column by column *)

Section Greedy.
Context {I : Type} (N : nat) (V : I -> nat -> bool) (U : I -> Prop).

Definition agree (c i : I) (lo : nat) : Prop := forall t, lo <= t -> t < N -> V i t = V c t.
Definition better (c i : I) (lo : nat) : Prop :=
  exists s, lo <= s /\ s < N /\ V i s = true /\ V c s = false /\ forall t, s < t -> t < N -> V i t = V c t.

Definition inv (C : list I) (lo : nat) : Prop :=
  C <> [] /\ (forall c, In c C -> U c) /\
  forall c i, In c C -> U i -> (In i C /\ agree c i lo) \/ (~ In i C /\ better c i lo).

Definition state (st : option (list I)) (lo : nat) : Prop :=
  match st with
  | None => forall c i, U c -> U i -> agree c i lo
  | Some C => inv C lo /\ exists c i, In c C /\ In i C /\ ~ agree c i 0
  end.

Lemma agree_step c i s : agree c i (S s) -> (s < N -> V i s = V c s) -> agree c i s.
Proof. intros H E t H1 H2. destruct (Nat.eq_dec t s) as [->|]; [auto | apply H; lia]. Qed.
Lemma better_down c i s s' : s' <= s -> better c i s -> better c i s'.
Proof. intros L (t & H1 & H). exists t. split; [lia | exact H]. Qed.

(** a column that is the same for all candidates *)
Lemma state_const st s : state st (S s) -> (forall c i, U c -> U i -> V i s = V c s) -> state st s.
Proof.
  destruct st as [C|]; cbn [state].
  - intros [(H1 & H2 & H3) Hd] E. split; [|exact Hd]. split; [exact H1|]. split; [exact H2|]. intros c i Hc Hi.
    destruct (H3 c i Hc Hi) as [[Hin Ha]|[Hni Hb]]; [left | right]; (split; [assumption|]).
    + apply agree_step; [exact Ha|]. intros _. apply E; auto.
    + eapply better_down; [|exact Hb]. lia.
  - intros H E c i Hc Hi. apply agree_step; [apply H; assumption | intros _; apply E; assumption].
Qed.

(** all candidates have a one in the column *)
Lemma inv_ones C s : inv C (S s) -> (forall c, In c C -> V c s = true) -> inv C s.
Proof.
  intros (H1 & H2 & H3) E. split; [exact H1|]. split; [exact H2|]. intros c i Hc Hi.
  destruct (H3 c i Hc Hi) as [[Hin Ha]|[Hni Hb]]; [left | right]; (split; [assumption|]).
  - apply agree_step; [exact Ha|]. intros _. rewrite !E by assumption. reflexivity.
  - eapply better_down; [|exact Hb]. lia.
Qed.

(** some candidates have a zero: they remain *)
Lemma inv_narrow C D s : s < N -> inv C (S s) -> D <> [] -> (forall i, In i D <-> In i C /\ V i s = false) -> inv D s.
Proof.
  intros Hs (H1 & H2 & H3) Hne HD. split; [exact Hne|]. split; [intros c Hc; apply HD in Hc; apply H2, Hc|]. intros c i Hc Hi.
  apply HD in Hc as [Hc Vc]. destruct (H3 c i Hc Hi) as [[Hin Ha]|[Hni Hb]].
  - destruct (V i s) eqn:Vi.
    + right. split; [intro X; apply HD in X as [_ X]; congruence|]. exists s. split; [lia|]. split; [exact Hs|]. split; [exact Vi|]. split; [exact Vc|].
      intros t H4 H5. apply Ha; lia.
    + left. split; [apply HD; auto|]. apply agree_step; [exact Ha | congruence].
  - right. split; [intro X; apply HD in X as [X _]; contradiction|]. eapply better_down; [|exact Hb]. lia.
Qed.

Lemma inv_first D s : s < N -> (forall c i, U c -> U i -> agree c i (S s)) -> D <> [] -> (forall i, In i D <-> U i /\ V i s = false) -> inv D s.
Proof.
  intros Hs H Hne HD. split; [exact Hne|]. split; [intros c Hc; apply HD in Hc; apply Hc|]. intros c i Hc Hi. apply HD in Hc as [Hc Vc].
  destruct (V i s) eqn:Vi.
  - right. split; [intro X; apply HD in X as [_ X]; congruence|]. exists s. split; [lia|]. split; [exact Hs|]. split; [exact Vi|]. split; [exact Vc|].
    intros t H4 H5. apply H; try assumption; lia.
  - left. split; [apply HD; auto|]. apply agree_step; [apply H; assumption | congruence].
Qed.

Definition wins (c : I) : Prop := U c /\ forall i, U i -> agree c i 0 \/ better c i 0.

Lemma inv_wins C c s : inv C s -> In c C -> (forall i, In i C -> agree c i 0) -> wins c.
Proof.
  intros (H1 & H2 & H3) Hc E. split; [apply H2, Hc|]. intros i Hi. destruct (H3 c i Hc Hi) as [[Hin _]|[_ Hb]]; [left; apply E, Hin | right].
  eapply better_down; [|exact Hb]. lia.
Qed.

Lemma state_end st : state st 0 -> (exists c i, U c /\ U i /\ ~ agree c i 0) -> False.
Proof.
  destruct st as [C|]; cbn [state].
  - intros [(H1 & H2 & H3) (c & i & Hc & Hi & Hn)] _. destruct (H3 c i Hc (H2 i Hi)) as [[_ Ha]|[Hni _]]; contradiction.
  - intros H (c & i & Hc & Hi & Hn). apply Hn, H; assumption.
Qed.

(** two winners have the same columns *)
Lemma wins_agree c i : wins c -> wins i -> agree c i 0.
Proof.
  intros [Uc Hc] [Ui Hi]. destruct (Hc i Ui) as [H|(s & _ & Hs & H1 & H2 & H3)]; [exact H|]. destruct (Hi c Uc) as [H|(s' & _ & Hs' & H1' & H2' & H3')].
  - rewrite (H s) in H2 by lia. congruence.
  - exfalso. destruct (Nat.lt_trichotomy s s') as [L|[->|L]].
    + assert (X := H3 s' L Hs'). congruence.
    + congruence.
    + assert (X := H3' s L Hs). congruence.
Qed.
End Greedy.

(** * The functions belonging to the pairs *)

Section Search.
Context (f : boolf) (R : wellmade f).
Let n := adicity f.
Let A := anf n (tab f).

Definition colp (c : nat * nat) (s : nat) : bool := col f (adicity f) (act (snd c)) (fst c) s.
Definition boundp (c : nat * nat) : Prop := fst c < 2 ^ n /\ snd c < fact n.

Lemma obj_spec c : boundp c -> exists s g, SigPerm_pair (fst c) (snd c) = Ok s /\ apply_sigperm f s = Ok g /\ reduced g /\ adicity g <= n /\
  (forall e, sem g e = sem f (fun a => xorb (e (act (snd c) a)) (Nat.testbit (fst c) (act (snd c) a)))) /\
  forall k, k < 2 ^ n -> anf n (tab g) k = colp c k.
Proof.
  intros [H1 H2]. destruct (class_object f n (fst c) (snd c) R (le_n _) H1 H2) as (s & p & g & E1 & E2 & _ & E3 & E4 & E5 & E6 & E7).
  exists s, g. unfold colp, act. rewrite E2. auto 10.
Qed.

Definition same (c i : nat * nat) : Prop := forall t, t < 2 ^ n -> colp i t = colp c t.

(** [g] is the function belonging to the pair [c] *)
Definition belongs (c : nat * nat) (g : boolf) : Prop := exists s, SigPerm_pair (fst c) (snd c) = Ok s /\ apply_sigperm f s = Ok g.

Lemma belongs_spec c g : boundp c -> belongs c g -> reduced g /\ adicity g <= n /\
  (forall e, sem g e = sem f (fun a => xorb (e (act (snd c) a)) (Nat.testbit (fst c) (act (snd c) a)))) /\
  forall k, k < 2 ^ n -> anf n (tab g) k = colp c k.
Proof.
  intros H (s & E1 & E2). destruct (obj_spec c H) as (s' & g' & E1' & E2' & X). assert (s' = s) by congruence. subst s'. assert (g' = g) by congruence. subst g'. exact X.
Qed.

Lemma belongs_same c i g h : boundp c -> boundp i -> belongs c g -> belongs i h -> (g = h <-> same c i).
Proof.
  intros Hc Hi Bc Bi. destruct (belongs_spec c g Hc Bc) as (R1 & A1 & _ & C1). destruct (belongs_spec i h Hi Bi) as (R2 & A2 & _ & C2).
  rewrite (coefs_equal g h n R1 R2 A1 A2). unfold same. split; intros H t Ht; specialize (H t Ht); rewrite ?C1, ?C2 in * by exact Ht; congruence.
Qed.

Lemma boolf_eqb_true g h : reduced g -> reduced h -> boolf_eqb g h = true <-> g = h.
Proof.
  intros Rg Rh. rewrite (boolf_eqb_sem g h Rg Rh). split; [intro H; apply (reduced_unique g h Rg Rh H) | intros -> e; reflexivity].
Qed.

Lemma rep_candidate_go c0 g0 C : boundp c0 -> belongs c0 g0 -> (forall c, In c C -> boundp c) ->
  (rep_candidate f C [g0] = Ok (Some g0) /\ forall c, In c C -> same c0 c) \/
  (rep_candidate f C [g0] = Ok None /\ exists c, In c C /\ ~ same c0 c).
Proof.
  intros H0 B0. induction C as [|c C IH]; intro HC; cbn [rep_candidate].
  - left. split; [reflexivity | intros c []].
  - destruct (obj_spec c (HC c (or_introl eq_refl))) as (s & g & E1 & E2 & Rg & _). rewrite E1. cbn [bind]. rewrite E2. cbn [bind].
    assert (Bg : belongs c g) by (exists s; auto). destruct (belongs_spec c0 g0 H0 B0) as (R0 & _).
    cbn [existsb]. rewrite orb_false_r. destruct (boolf_eqb g g0) eqn:Eq.
    + apply boolf_eqb_true in Eq; [|assumption..]. subst g. cbn [length Nat.ltb Nat.leb]. destruct IH as [[IH1 IH2]|[IH1 (c' & H1 & H2)]].
      * intros; apply HC; right; assumption.
      * left. split; [exact IH1|]. intros x [->|Hx]; [|auto]. apply (belongs_same c0 x g0 g0 H0); auto. apply HC. left. reflexivity.
      * right. split; [exact IH1|]. exists c'. split; [right; exact H1 | exact H2].
    + cbn [app length Nat.ltb Nat.leb]. right. split; [reflexivity|]. exists c. split; [left; reflexivity|]. intro Hs.
      apply (belongs_same c0 c g0 g H0) in Hs; auto; [|apply HC; left; reflexivity]. subst g.
      assert (X : boolf_eqb g0 g0 = true) by (apply boolf_eqb_true; auto). congruence.
Qed.

Lemma rep_candidate_spec C : C <> [] -> (forall c, In c C -> boundp c) ->
  (exists c g, In c C /\ belongs c g /\ rep_candidate f C [] = Ok (Some g) /\ forall i, In i C -> same c i) \/
  (rep_candidate f C [] = Ok None /\ exists c i, In c C /\ In i C /\ ~ same c i).
Proof.
  destruct C as [|c C]; [congruence|]. intros _ HC. cbn [rep_candidate existsb].
  assert (Hc := HC c (or_introl eq_refl)). destruct (obj_spec c Hc) as (s & g & E1 & E2 & _). rewrite E1. cbn [bind]. rewrite E2. cbn [bind app length Nat.ltb Nat.leb].
  assert (Bg : belongs c g) by (exists s; auto).
  destruct (rep_candidate_go c g C Hc Bg ltac:(intros; apply HC; right; assumption)) as [[H1 H2]|[H1 (i & H2 & H3)]].
  - left. exists c, g. split; [left; reflexivity|]. split; [exact Bg|]. split; [exact H1|]. intros i [<-|Hi]; [intros t _; reflexivity | auto].
  - right. split; [exact H1|]. exists c, i. split; [left; reflexivity|]. split; [right; exact H2 | exact H3].
Qed.

(** * The columns *)

Lemma act_0 a : act 0 a = a.
Proof. reflexivity. Qed.
Lemma pre_id k : k < 2 ^ n -> pre (act 0) n k = k.
Proof. intro H. apply pre_eq; [exact H|]. intros a _. reflexivity. Qed.

Lemma row_add_lt s p : s < 2 ^ n -> In p (row n s) -> s + p < 2 ^ n /\ Nat.lxor p s = s + p.
Proof.
  intros Hs Hp. apply row_In in Hp.
  assert (L : Nat.land s p = 0).
  { apply Nat.bits_inj. intro k. rewrite Nat.land_spec, Nat.bits_0. destruct (Nat.testbit p k) eqn:E; [|apply andb_false_r].
    apply Hp in E. rewrite comp_bits in E by exact Hs. destruct (Nat.testbit s k); [rewrite andb_false_r in E; discriminate | reflexivity]. }
  assert (P : p <= comp n s) by (apply submask_le; exact Hp). unfold comp in P. split; [lia|]. rewrite Nat.lxor_comm. symmetry. apply Nat.add_nocarry_lxor. exact L.
Qed.

Lemma row_head s : s < 2 ^ n -> row n s = 0 :: tl (row n s) /\ forall p, In p (tl (row n s)) -> 0 < p /\ In p (row n s).
Proof.
  intro Hs. assert (S0 := row_sorted n s). assert (H0 : In 0 (row n s)) by (apply row_In; intros i Hi; rewrite Nat.bits_0 in Hi; discriminate).
  destruct (row n s) as [|x l]; [destruct H0|]. apply StronglySorted_inv in S0 as [S0 F0]. rewrite Forall_forall in F0.
  destruct H0 as [->|H0]; [|exfalso; apply F0 in H0; lia]. cbn [tl]. split; [reflexivity|]. intros p Hp. split; [apply F0, Hp | right; exact Hp].
Qed.

Lemma colp_cons c s : s < 2 ^ n -> colp c s = xorb (A (pre (act (snd c)) n s))
  (xor_all (map (fun p => subm p (fst c) && A (pre (act (snd c)) n (s + p))) (tl (row n s)))).
Proof.
  intro Hs. unfold colp, col, green. fold n. destruct (row_head s Hs) as [E _]. rewrite E at 1. cbn [map tl]. 
  assert (Z : subm 0 (fst c) = true) by (apply subm_spec; intros i Hi; rewrite Nat.bits_0 in Hi; discriminate).
  change (xor_all (?x :: ?l)) with (xorb x (xor_all l)). rewrite Z, Nat.add_0_r. reflexivity.
Qed.

(** without negation *)
Lemma colp_0 r s : s < 2 ^ n -> colp (0, r) s = A (pre (act r) n s).
Proof.
  intro Hs. rewrite colp_cons by exact Hs. cbn [fst snd]. rewrite xor_all_zero; [apply xorb_false_r|].
  intros p Hp. apply (proj2 (row_head s Hs)) in Hp as [Hp _].
  destruct (subm p 0) eqn:E; [|reflexivity]. apply subm_spec, submask_le in E. lia.
Qed.

Lemma colp_top c : boundp c -> colp c (2 ^ n - 1) = A (2 ^ n - 1).
Proof.
  intros [_ Hr]. assert (P := pow2_pos n). rewrite colp_cons by lia.
  assert (E : tl (row n (2 ^ n - 1)) = []).
  { destruct (tl (row n (2 ^ n - 1))) as [|p l] eqn:E; [reflexivity|]. exfalso.
    destruct (proj2 (row_head (2 ^ n - 1) ltac:(lia)) p) as [Hp Hi]; [rewrite E; left; reflexivity|].
    apply row_In, submask_le in Hi. unfold comp in Hi. lia. }
  rewrite E. cbn [map]. change (xor_all []) with false. rewrite xorb_false_r. f_equal. apply pre_eq; [lia|]. intros a Ha.
  rewrite !testbit_ones_low; [reflexivity | | exact Ha]. apply permutes_lt; [apply act_perm; exact Hr | exact Ha].
Qed.

(** a function that is not constant differs from one of its negations *)
Lemma not_constant : changing f -> exists m, m < 2 ^ n /\ ~ same (0, 0) (m, 0).
Proof.
  intros (e & e' & He). assert (Hm : exists m, m < 2 ^ n /\ sem f (Nat.testbit m) <> sem f (fun _ => false)).
  { rewrite !(sem_place f n _ (le_n _)) in He. unfold tab in He.
    set (k1 := b2n (map e (range n))) in He. set (k2 := b2n (map e' (range n))) in He.
    assert (B : forall e0, b2n (map e0 (range n)) < 2 ^ n) by (intro e0; apply place_lt).
    destruct (bool_dec (sem f (Nat.testbit k1)) (sem f (fun _ => false))) as [E1|E1]; [|exists k1; split; [apply B | exact E1]].
    exists k2. split; [apply B | congruence]. }
  destruct Hm as (m & Hm & Hd). exists m. split; [exact Hm|]. intro Hs.
  assert (B0 : boundp (0, 0)) by (split; [apply pow2_pos | apply lt_O_fact]). assert (Bm : boundp (m, 0)) by (split; [exact Hm | apply lt_O_fact]).
  destruct (obj_spec (0, 0) B0) as (s1 & g1 & E1 & E2 & _ & _ & S1 & _). destruct (obj_spec (m, 0) Bm) as (s2 & g2 & E3 & E4 & _ & _ & S2 & _).
  assert (X : g1 = g2) by (apply (belongs_same (0, 0) (m, 0) g1 g2 B0 Bm); [exists s1; auto | exists s2; auto | exact Hs]). subst g2.
  assert (Y1 := S1 (fun _ => false)). assert (Y2 := S2 (fun _ => false)). apply Hd. cbn [fst snd] in *.
  transitivity (sem g1 (fun _ => false)); [rewrite Y2 | rewrite Y1]; apply sem_ext; intros a _; rewrite ?Nat.bits_0; cbn [xorb]; reflexivity || (destruct (Nat.testbit m (act 0 a)) eqn:Z; rewrite act_0 in Z; rewrite Z; reflexivity).
Qed.

(** * One round *)

Lemma rep_outcome {I} (inj : I -> nat * nat) (U : I -> Prop) C s : (forall c, U c -> boundp (inj c)) ->
  inv (2 ^ n) (fun c => colp (inj c)) U C s ->
  (exists c g, rep_candidate f (map inj C) [] = Ok (Some g) /\ wins (2 ^ n) (fun c => colp (inj c)) U c /\ belongs (inj c) g) \/
  (rep_candidate f (map inj C) [] = Ok None /\ state (2 ^ n) (fun c => colp (inj c)) U (Some C) s).
Proof.
  intros HU Hi. destruct (rep_candidate_spec (map inj C)) as [(c & g & H1 & H2 & H3 & H4)|[H1 (c & i & H2 & H3 & H4)]].
  - destruct Hi as (H & _). destruct C; [congruence | discriminate].
  - intros c Hc. apply in_map_iff in Hc as (i & <- & Hi'). apply HU. destruct Hi as (_ & H & _). auto.
  - apply in_map_iff in H1 as (i & <- & H1). left. exists i, g. split; [exact H3|]. split; [|exact H2].
    apply (inv_wins (2 ^ n) _ U C i s Hi H1). intros j Hj t _ Ht. apply (H4 (inj j)); [apply in_map; exact Hj | exact Ht].
  - apply in_map_iff in H2 as (c' & <- & H2). apply in_map_iff in H3 as (i' & <- & H3). right. split; [exact H1|]. split; [exact Hi|].
    exists c', i'. split; [exact H2|]. split; [exact H3|]. intro Ha. apply H4. intros t Ht. apply Ha; [lia | exact Ht].
Qed.

Lemma narrow_step (inj : nat -> nat * nat) (U : nat -> Prop) st s D : s < 2 ^ n -> (forall c, U c -> boundp (inj c)) ->
  state (2 ^ n) (fun c => colp (inj c)) U st (S s) -> (forall i, In i D <-> U i /\ colp (inj i) s = false) -> (st = None -> D <> []) ->
  (narrow st D = None /\ state (2 ^ n) (fun c => colp (inj c)) U st s) \/
  (exists C, narrow st D = Some C /\
    ((exists c g, rep_candidate f (map inj C) [] = Ok (Some g) /\ wins (2 ^ n) (fun c => colp (inj c)) U c /\ belongs (inj c) g) \/
     (rep_candidate f (map inj C) [] = Ok None /\ state (2 ^ n) (fun c => colp (inj c)) U (Some C) s))).
Proof.
  intros Hs HU Hst HD Hne. destruct st as [C|]; cbn [narrow].
  - destruct Hst as [Hi Hd]. set (C' := filter (fun x => memb x D) C).
    assert (HC' : forall i, In i C' <-> In i C /\ colp (inj i) s = false).
    { intro i. unfold C'. rewrite filter_In, memb_In, HD. split; [tauto|]. intros [H1 H2]. split; [exact H1|]. split; [|exact H2]. destruct Hi as (_ & H & _). auto. }
    destruct C' as [|x C1] eqn:E.
    + left. split; [reflexivity|]. split; [|exact Hd]. apply inv_ones; [exact Hi|]. intros c Hc. destruct (colp (inj c) s) eqn:Ec; [reflexivity|].
      exfalso. apply (HC' c). auto.
    + right. exists (x :: C1). split; [reflexivity|]. apply rep_outcome; [exact HU|]. apply (inv_narrow _ _ _ C); [exact Hs | exact Hi | discriminate | exact HC'].
  - right. exists D. split; [reflexivity|]. apply rep_outcome; [exact HU|]. apply inv_first; [exact Hs | exact Hst | apply Hne; reflexivity | exact HD].
Qed.

(** * Families *)

Lemma filter_fst (F : nat -> bool) N : map fst (filter (fun kv : nat * bool => snd kv) (enumerate (map F (range N)))) = filter F (range N).
Proof. rewrite enumerate_map, filter_map_swap, map_map. cbn [fst snd]. rewrite map_id. reflexivity. Qed.
Lemma filter_fst_neg (F : nat -> bool) N : map fst (filter (fun kv : nat * bool => negb (snd kv)) (enumerate (map F (range N)))) = filter (fun k => negb (F k)) (range N).
Proof. rewrite enumerate_map, filter_map_swap, map_map. cbn [fst snd]. rewrite map_id. reflexivity. Qed.

Lemma first_true (G : nat -> bool) l : StronglySorted lt l -> existsb G l = true ->
  exists p, In p l /\ G p = true /\ forall q, In q l -> q < p -> G q = false.
Proof.
  induction 1 as [|x l Hl IH Hf]; intro E; [discriminate|]. rewrite Forall_forall in Hf. cbn [existsb] in E. destruct (G x) eqn:Gx.
  - exists x. split; [left; reflexivity|]. split; [exact Gx|]. intros q [->|Hq] Hlt; [lia | apply Hf in Hq; lia].
  - destruct (IH E) as (p & Hp & Gp & Hm). exists p. split; [right; exact Hp|]. split; [exact Gp|]. intros q [->|Hq] Hlt; [exact Gx | auto].
Qed.

Lemma existsb_map {X Y} (g : X -> Y) (P : Y -> bool) l : existsb P (map g l) = existsb (fun x => P (g x)) l.
Proof. induction l as [|x l IH]; [reflexivity|]. cbn [map existsb]. rewrite IH. reflexivity. Qed.

Lemma family_colp m s : s < 2 ^ n -> colp (m, 0) s = green (fun p => A (s + p)) (row n s) m.
Proof.
  intro Hs. unfold colp, col, green. fold n. cbn [fst snd]. apply xor_all_ext. intros p Hp. f_equal. unfold A. rewrite pre_id; [reflexivity|].
  apply row_add_lt; assumption.
Qed.

Lemma family_colp_cons m s : s < 2 ^ n -> colp (m, 0) s = xorb (A s) (xor_all (map (fun p => subm p m && A (s + p)) (tl (row n s)))).
Proof.
  intro Hs. rewrite colp_cons by exact Hs. cbn [fst snd]. rewrite pre_id by exact Hs. f_equal. apply xor_all_ext. intros p Hp. f_equal. rewrite pre_id; [reflexivity|].
  apply row_add_lt; [exact Hs|]. apply (proj2 (row_head s Hs)). exact Hp.
Qed.

Lemma family_zero s : s < 2 ^ n -> existsb (fun p => A (s + p)) (tl (row n s)) = true -> exists m, m < 2 ^ n /\ colp (m, 0) s = false.
Proof.
  intros Hs E. assert (St : StronglySorted lt (tl (row n s))).
  { assert (X := row_sorted n s). destruct (row n s); [constructor|]. apply StronglySorted_inv in X. apply X. }
  destruct (first_true _ _ St E) as (p & Hp & Gp & Hm). destruct (proj2 (row_head s Hs) p Hp) as [Hp0 Hpr].
  assert (E0 : colp (0, 0) s = A s). { rewrite colp_0 by exact Hs. f_equal. apply pre_id. exact Hs. }
  assert (E1 : colp (p, 0) s = xorb (A s) true).
  { rewrite family_colp_cons by exact Hs. f_equal. rewrite (xor_all_ext _ (fun q => Nat.eqb q p)).
    - assert (Nd : NoDup (tl (row n s))) by (apply sorted_lt_NoDup; exact St). clear - Hp Nd. induction Nd as [|x l Hx Nd IH]; [destruct Hp|].
      cbn [map]. change (xor_all (?x :: ?l)) with (xorb x (xor_all l)). destruct Hp as [->|Hp].
      + rewrite Nat.eqb_refl, xor_all_zero; [reflexivity|]. intros q Hq. apply Nat.eqb_neq. congruence.
      + rewrite IH by exact Hp. destruct (Nat.eqb_spec x p) as [->|_]; [contradiction | reflexivity].
    - intros q Hq. destruct (Nat.eqb_spec q p) as [->|Hne].
      + rewrite Gp. rewrite andb_true_r. apply subm_spec. intros i Hi. exact Hi.
      + destruct (subm q p) eqn:Sq; [|reflexivity]. apply subm_spec, submask_le in Sq. apply Hm; [exact Hq | lia]. }
  destruct (A s) eqn:As.
  - exists p. split; [apply (row_lt n s); exact Hpr | exact E1].
  - exists 0. split; [apply pow2_pos | exact E0].
Qed.

Definition in_family (m : nat) : Prop := m < 2 ^ n.
Lemma family_bound m : in_family m -> boundp (m, 0).
Proof. intro H. split; [exact H | apply lt_O_fact]. Qed.

Lemma family_loop_spec oz on k : (forall l, Permutation (oz l) l) -> (forall l, StronglySorted lt l -> on l = l) -> changing f ->
  forall j snooze st, j + k = 2 ^ n -> state (2 ^ n) (fun c => colp (c, 0)) in_family st (2 ^ n - j) ->
  (snooze = true -> forall t, 2 ^ n - j <= t -> t < 2 ^ n -> A t = false) ->
  exists c g, family_loop oz on f n (map A (range (2 ^ n))) (seq j k) snooze st = Ok (Some g) /\
    wins (2 ^ n) (fun c => colp (c, 0)) in_family c /\ belongs (c, 0) g.
Proof.
  intros Hoz Hon Hc. induction k as [|k IH]; intros j snooze st Hj Hst Hsn.
  - exfalso. replace (2 ^ n - j) with 0 in Hst by lia. apply (state_end _ _ _ _ Hst). destruct (not_constant Hc) as (m & Hm & Hd).
    exists 0, m. split; [apply pow2_pos|]. split; [exact Hm|]. intro Ha. apply Hd. intros t Ht. apply Ha; [lia | exact Ht].
  - cbn [seq family_loop]. set (s := 2 ^ n - j - 1). assert (Hs : s < 2 ^ n) by lia. replace (2 ^ n - j) with (S s) in Hst, Hsn by lia.
    assert (IH' : forall sn st', state (2 ^ n) (fun c => colp (c, 0)) in_family st' s -> (sn = true -> forall t, s <= t -> t < 2 ^ n -> A t = false) ->
      exists c g, family_loop oz on f n (map A (range (2 ^ n))) (seq (S j) k) sn st' = Ok (Some g) /\ wins (2 ^ n) (fun c => colp (c, 0)) in_family c /\ belongs (c, 0) g).
    { intros sn st' H1 H2. apply IH; [lia | |]; replace (2 ^ n - S j) with s by lia; assumption. }
    rewrite (lget_ok _ s false) by (rewrite map_length, range_length; exact Hs). rewrite nth_table by exact Hs.
    set (awake := if snooze then A s else true). assert (Ea : (if snooze then Ok (A s) else Ok true) = Ok awake) by (unfold awake; destruct snooze; reflexivity).
    rewrite Ea. cbn [bind]. destruct awake eqn:Ew; cbn [negb].
    2:{ unfold awake in Ew. destruct snooze; [|discriminate]. assert (Z : forall t, s <= t -> t < 2 ^ n -> A t = false).
        { intros t H1 H2. destruct (Nat.eq_dec t s) as [->|]; [exact Ew | apply Hsn; [reflexivity | lia | exact H2]]. }
        apply IH'; [|intros _; exact Z]. apply state_const; [exact Hst|]. intros c i _ _.
        assert (K : forall m, colp (m, 0) s = false).
        { intro m. rewrite family_colp by exact Hs. apply xor_all_zero. intros p Hp. rewrite Z; [apply andb_false_r | lia | apply row_add_lt; assumption]. }
        rewrite !K. reflexivity. }
    assert (Ej : int_to_sierpinski_row on j = row n s) by (rewrite <- (sierpinski_row_row on n s Hon); f_equal; unfold comp; lia). rewrite Ej.
    rewrite (mapM_ok _ (fun p => A (s + p))).
    2:{ intros p Hp. apply row_add_lt in Hp as [Hp _]; [|exact Hs]. rewrite (lget_ok _ _ false) by (rewrite map_length, range_length; exact Hp). rewrite nth_table by exact Hp. reflexivity. }
    cbn [bind]. assert (Et : tl (map (fun p => A (s + p)) (row n s)) = map (fun p => A (s + p)) (tl (row n s))) by (destruct (row n s); reflexivity).
    rewrite Et, existsb_map. destruct (existsb _ (tl (row n s))) eqn:Ex; cbn [negb].
    2:{ apply IH'; [|discriminate]. apply state_const; [exact Hst|]. intros c i _ _.
        assert (K : forall m, colp (m, 0) s = A s).
        { intro m. rewrite family_colp_cons by exact Hs. rewrite xor_all_zero; [apply xorb_false_r|]. intros p Hp.
          destruct (A (s + p)) eqn:Ap; [|apply andb_false_r]. exfalso. assert (X : existsb (fun x => A (s + x)) (tl (row n s)) = true) by (apply existsb_exists; exists p; auto). congruence. }
        rewrite !K. reflexivity. }
    rewrite (sierpinski_twin_spec oz n s (fun p => A (s + p)) Hoz Hs). cbn [bind]. rewrite filter_fst_neg.
    set (D := filter _ (range (2 ^ n))).
    assert (HD : forall i, In i D <-> in_family i /\ colp (i, 0) s = false).
    { intro i. unfold D. rewrite filter_In, range_In, negb_true_iff, family_colp by exact Hs. reflexivity. }
    destruct (narrow_step (fun c => (c, 0)) in_family st s D Hs family_bound Hst HD) as [[-> H2]|(C & -> & [(c & g & H1 & H2 & H3)|[H1 H2]])].
    + intros _ E. destruct (family_zero s Hs Ex) as (m & Hm & Vm). assert (X : In m D) by (apply HD; auto). rewrite E in X. destruct X.
    + apply IH'; [exact H2 | discriminate].
    + rewrite H1. cbn [bind]. exists c, g. auto.
    + rewrite H1. cbn [bind]. apply IH'; [exact H2 | discriminate].
Qed.

Theorem family_minrep_wins oz on : (forall l, Permutation (oz l) l) -> (forall l, StronglySorted lt l -> on l = l) -> changing f ->
  exists c g, family_minrep oz on f = Ok (Some g) /\ wins (2 ^ n) (fun c => colp (c, 0)) in_family c /\ belongs (c, 0) g.
Proof.
  intros Hoz Hon Hc. unfold family_minrep. rewrite (changing_valued f R Hc). destruct (twin_row f R) as (t & E1 & E2). rewrite E1. cbn [bind]. rewrite E2. cbn [bind].
  apply family_loop_spec; try assumption; [reflexivity | | intros _ x H1 H2; lia]. intros c i _ _ x H1 H2. lia.
Qed.

(** * Factions *)

Definition in_faction (r : nat) : Prop := r < fact n.
Lemma faction_bound r : in_faction r -> boundp (0, r).
Proof. intro H. split; [apply pow2_pos | exact H]. Qed.

Lemma mixed_layer w : ratio_is_0_or_1 (layer_of A n w) = false ->
  exists k k', In k (weights n w) /\ In k' (weights n w) /\ A k = true /\ A k' = false.
Proof.
  unfold ratio_is_0_or_1. rewrite orb_false_iff, !Nat.eqb_neq. cbn [layer_of fst snd]. intros [H1 H2].
  destruct (filter A (weights n w)) as [|k l] eqn:E1; [contradiction|]. destruct (filter (fun k => negb (A k)) (weights n w)) as [|k' l'] eqn:E2; [contradiction|].
  exists k, k'. assert (X1 : In k (filter A (weights n w))) by (rewrite E1; left; reflexivity). assert (X2 : In k' (filter (fun k => negb (A k)) (weights n w))) by (rewrite E2; left; reflexivity).
  apply filter_In in X1, X2. rewrite negb_true_iff in X2. tauto.
Qed.

Lemma pure_layer w : ratio_is_0_or_1 (layer_of A n w) = true -> forall k k', In k (weights n w) -> In k' (weights n w) -> A k = A k'.
Proof.
  unfold ratio_is_0_or_1. rewrite orb_true_iff, !Nat.eqb_eq. cbn [layer_of fst snd]. intros H k k' Hk Hk'. destruct H as [H|H]; apply length_zero_iff_nil in H.
  - assert (X : forall x, In x (weights n w) -> A x = false). { intros x Hx. destruct (A x) eqn:E; [|reflexivity]. assert (Y : In x (filter A (weights n w))) by (apply filter_In; auto). rewrite H in Y. destruct Y. }
    rewrite !X by assumption. reflexivity.
  - assert (X : forall x, In x (weights n w) -> A x = true). { intros x Hx. destruct (A x) eqn:E; [reflexivity|]. assert (Y : In x (filter (fun k => negb (A k)) (weights n w))) by (apply filter_In; rewrite E; auto). rewrite H in Y. destruct Y. }
    rewrite !X by assumption. reflexivity.
Qed.

Lemma pre_weights r s : r < fact n -> s < 2 ^ n -> In (pre (act r) n s) (weights n (count_ones s)).
Proof. intros Hr Hs. apply weights_In. split; [apply pre_lt | apply count_ones_pre; [apply act_perm; exact Hr | exact Hs]]. Qed.

Lemma faction_loop_spec k : (exists c i, in_faction c /\ in_faction i /\ ~ agree (2 ^ n) (fun c => colp (0, c)) c i 0) ->
  forall j st, j + k = 2 ^ n -> state (2 ^ n) (fun c => colp (0, c)) in_faction st (2 ^ n - j) ->
  exists c g, faction_loop f n (layers_of A n) (seq j k) st = Ok (Some g) /\
    wins (2 ^ n) (fun c => colp (0, c)) in_faction c /\ belongs (0, c) g.
Proof.
  intro Hd. induction k as [|k IH]; intros j st Hj Hst.
  - exfalso. replace (2 ^ n - j) with 0 in Hst by lia. apply (state_end _ _ _ _ Hst). exact Hd.
  - cbn [seq faction_loop]. set (s := 2 ^ n - j - 1). assert (Hs : s < 2 ^ n) by lia. replace (2 ^ n - j) with (S s) in Hst by lia.
    assert (IH' : forall st', state (2 ^ n) (fun c => colp (0, c)) in_faction st' s ->
      exists c g, faction_loop f n (layers_of A n) (seq (S j) k) st' = Ok (Some g) /\ wins (2 ^ n) (fun c => colp (0, c)) in_faction c /\ belongs (0, c) g).
    { intros st' H1. apply IH; [lia|]. replace (2 ^ n - S j) with s by lia. exact H1. }
    rewrite lget_layers by exact Hs. cbn [bind]. destruct (ratio_is_0_or_1 _) eqn:Er.
    + apply IH'. apply state_const; [exact Hst|]. intros c i Hc Hi. rewrite !colp_0 by exact Hs. apply (pure_layer _ Er); apply pre_weights; assumption.
    + destruct (faction_wrapper_spec A n s Hs) as (D & ED & _ & HD). rewrite ED. cbn [bind].
      assert (HD' : forall i, In i D <-> in_faction i /\ colp (0, i) s = false). { intro i. rewrite HD, colp_0 by exact Hs. reflexivity. }
      destruct (narrow_step (fun c => (0, c)) in_faction st s D Hs faction_bound Hst HD') as [[-> H2]|(C & -> & [(c & g & H1 & H2 & H3)|[H1 H2]])].
      * intros _ E. destruct (mixed_layer _ Er) as (_ & T & _ & HT & _ & AT). apply weights_In in HT as [HT WT].
        destruct (schoute_coset_spec T s n HT Hs WT) as (l & _ & Hne & Hl). destruct l as [|r l]; [congruence|]. destruct (proj1 (Hl r) (or_introl eq_refl)) as [Hr Hp].
        assert (X : In r D) by (apply HD; rewrite Hp; auto). rewrite E in X. destruct X.
      * apply IH'. exact H2.
      * rewrite H1. cbn [bind]. exists c, g. auto.
      * rewrite H1. cbn [bind]. apply IH'. exact H2.
Qed.

Lemma range2_seq a b : range2 a b = seq a (b - a).
Proof. reflexivity. Qed.

Lemma top_agree {I} (inj : I -> nat * nat) (U : I -> Prop) c i : (forall c, U c -> boundp (inj c)) -> U c -> U i -> agree (2 ^ n) (fun c => colp (inj c)) c i (2 ^ n - 1).
Proof. intros HU Hc Hi t H1 H2. replace t with (2 ^ n - 1) by lia. rewrite !colp_top by auto. reflexivity. Qed.

Lemma identity_belongs : reduced f -> belongs (0, 0) f.
Proof.
  intro Rf. assert (B0 : boundp (0, 0)) by (split; [apply pow2_pos | apply lt_O_fact]). destruct (obj_spec (0, 0) B0) as (s & g & E1 & E2 & Rg & _ & Sg & _).
  exists s. split; [exact E1|]. rewrite E2. f_equal. apply (reduced_unique g f Rg Rf). intro e. rewrite Sg. cbn [fst snd]. apply sem_ext. intros a _. rewrite Nat.bits_0. apply xorb_false_r.
Qed.

(** a function that is the same for all permutations depends on all of its atoms *)
Lemma symmetric_essential a b : (forall r, r < fact n -> forall e, sem f (fun x => e (act r x)) = sem f e) -> a < n -> b < n -> essential (sem f) b -> essential (sem f) a.
Proof.
  intros Hs Ha Hb (e & He). set (tau := fun x => if Nat.eqb x a then b else if Nat.eqb x b then a else x).
  assert (Tt : forall x, tau (tau x) = x).
  { intro x. unfold tau. destruct (Nat.eqb_spec x a) as [->|Na]; [destruct (Nat.eqb_spec b a) as [E|]; [exact E | rewrite Nat.eqb_refl; reflexivity]|].
    destruct (Nat.eqb_spec x b) as [->|Nb]; [rewrite Nat.eqb_refl; reflexivity|]. rewrite (proj2 (Nat.eqb_neq _ _) Na), (proj2 (Nat.eqb_neq _ _) Nb). reflexivity. }
  assert (Tl : forall x, x < n -> tau x < n) by (intros x Hx; unfold tau; destruct (Nat.eqb x a), (Nat.eqb x b); assumption).
  assert (P : Permutation (map tau (range n)) (range n)).
  { apply NoDup_Permutation; [|apply range_NoDup|].
    - apply NoDup_map_inj; [apply range_NoDup|]. intros x y _ _ E. rewrite <- (Tt x), E. apply Tt.
    - intro x. rewrite in_map_iff, range_In. split; [intros (y & <- & Hy); apply Tl, range_In, Hy | intro Hx; exists (tau x); split; [apply Tt | apply range_In, Tl, Hx]]. }
  destruct (act_list _ n P) as [Hr Hact]. set (r := from_factoradic (left_inversion_count (map tau (range n)))) in *.
  exists (fun x => e (tau x)). intro X. apply He.
  assert (Y : forall q, sem f (upd (fun x => e (tau x)) a q) = sem f (upd e b q)).
  { intro q. rewrite <- (Hs r Hr (upd e b q)). apply sem_ext. intros x Hx. apply adicity_bound in Hx. fold n in Hx. rewrite Hact by exact Hx.
    rewrite (nth_indep _ 0 (tau 0)) by (rewrite map_length, range_length; exact Hx). rewrite map_nth, nth_range by exact Hx. unfold upd.
    destruct (Nat.eqb_spec x a) as [->|Na]; [unfold tau; rewrite !Nat.eqb_refl; reflexivity|].
    destruct (Nat.eqb_spec (tau x) b) as [E|_]; [|reflexivity]. exfalso. apply Na. rewrite <- (Tt x), E. unfold tau. destruct (Nat.eqb_spec b a) as [->|]; [reflexivity|]. rewrite Nat.eqb_refl. reflexivity. }
  rewrite <- !Y. exact X.
Qed.

Lemma changing_essential : changing f -> exists b, b < n /\ essential (sem f) b.
Proof.
  intros (e & e' & H). destruct (Boolf_vec_sorted (root f) (atomvals f)) as (g & _ & Rg & Sg); [apply R | apply R|].
  assert (S : forall e, sem g e = sem f e) by (intro; apply Sg).
  destruct (atomvals g) as [|b l] eqn:E.
  - exfalso. apply H. rewrite <- !S. apply sem_ext. rewrite E. intros a [].
  - assert (Eb : essential (sem f) b). { destruct (proj1 (proj2 Rg) b) as (d & Hd); [rewrite E; left; reflexivity|]. exists d. rewrite <- !S. exact Hd. }
    exists b. split; [apply adicity_bound, (essential_in (root f) (atomvals f)), Eb | exact Eb].
Qed.

Lemma pure_reduced : changing f -> (forall i, in_faction i -> same (0, 0) (0, i)) -> reduced f.
Proof.
  intros Hc Hs. assert (B0 : boundp (0, 0)) by (split; [apply pow2_pos | apply lt_O_fact]).
  assert (X : forall r, r < fact n -> forall e, sem f (fun x => e (act r x)) = sem f e).
  { intros r Hr e. assert (Br := faction_bound r Hr). destruct (obj_spec (0, 0) B0) as (s1 & g1 & E1 & E2 & _ & _ & S1 & _). destruct (obj_spec (0, r) Br) as (s2 & g2 & E3 & E4 & _ & _ & S2 & _).
    assert (Y : g1 = g2) by (apply (belongs_same (0, 0) (0, r) g1 g2 B0 Br); [exists s1; auto | exists s2; auto | apply Hs, Hr]). subst g2.
    transitivity (sem g1 e); [rewrite S2 | rewrite S1]; apply sem_ext; intros a _; cbn [fst snd]; rewrite Nat.bits_0, xorb_false_r; [|rewrite act_0]; reflexivity. }
  apply wellmade_reduced; [exact R|]. apply not_true_is_false. intro I. destruct R as (_ & HI & _). apply HI in I as (a & Ha & Na). apply Na.
  destruct (changing_essential Hc) as (b & Hb & Eb). apply (symmetric_essential a b X); [apply adicity_bound, Ha | exact Hb | exact Eb].
Qed.

Theorem faction_minrep_wins : changing f ->
  exists c g, faction_minrep f = Ok (Some g) /\ wins (2 ^ n) (fun c => colp (0, c)) in_faction c /\ belongs (0, c) g.
Proof.
  intro Hc. unfold faction_minrep. rewrite (changing_valued f R Hc). destruct (twin_row f R) as (t & E1 & E2). rewrite E1. cbn [bind]. rewrite E2. cbn [bind].
  fold n A. rewrite flat_to_places_spec. cbn [bind]. change (map _ (range (n + 1))) with (layers_of A n).
  destruct (forallb ratio_is_0_or_1 (layers_of A n)) eqn:Ep.
  - assert (Pure : forall i, in_faction i -> agree (2 ^ n) (fun c => colp (0, c)) 0 i 0).
    { intros i Hi s _ Hs. rewrite !colp_0 by exact Hs. rewrite forallb_forall in Ep.
      apply (pure_layer (count_ones s)); [|apply pre_weights; [exact Hi | exact Hs] | apply pre_weights; [apply lt_O_fact | exact Hs]].
      apply Ep. unfold layers_of. apply in_map, range_In. assert (X := count_ones_le n s Hs). lia. }
    exists 0, f. split; [reflexivity|]. split; [split; [apply lt_O_fact | intros i Hi; left; apply Pure, Hi]|].
    apply identity_belongs, (pure_reduced Hc). intros i Hi x Hx. apply (Pure i Hi); [lia | exact Hx].
  - assert (P := pow2_pos n). rewrite range2_seq. apply faction_loop_spec; [|lia|].
    + apply not_true_iff_false in Ep. assert (X : exists w, ratio_is_0_or_1 (layer_of A n w) = false).
      { destruct (existsb (fun l => negb (ratio_is_0_or_1 l)) (layers_of A n)) eqn:Ex.
        - apply existsb_exists in Ex as (l & Hl & Hn). apply in_map_iff in Hl as (w & <- & _). exists w. apply negb_true_iff. exact Hn.
        - exfalso. apply Ep. apply forallb_forall. intros l Hl. destruct (ratio_is_0_or_1 l) eqn:El; [reflexivity|]. exfalso.
          assert (Y : existsb (fun l => negb (ratio_is_0_or_1 l)) (layers_of A n) = true) by (apply existsb_exists; exists l; rewrite El; auto). congruence. }
      destruct X as (w & Hw). destruct (mixed_layer w Hw) as (k & k' & Hk & Hk' & Ak & Ak'). apply weights_In in Hk as [Hk Wk]. apply weights_In in Hk' as [Hk' Wk'].
      destruct (schoute_coset_spec k' k n Hk' Hk ltac:(congruence)) as (l & _ & Hne & Hl). destruct l as [|r l]; [congruence|]. destruct (proj1 (Hl r) (or_introl eq_refl)) as [Hr Hp].
      exists 0, r. split; [apply lt_O_fact|]. split; [exact Hr|]. intro Ha. specialize (Ha k ltac:(lia) Hk). cbv beta in Ha. rewrite !colp_0, Hp, pre_id in Ha by exact Hk. congruence.
    + intros c i H1 H2. apply (top_agree (fun c => (0, c)) in_faction); [exact faction_bound | assumption..].
Qed.

(** * Clans *)

Lemma blue_keys_eq s : s < 2 ^ n -> map (fun i => Nat.lxor i s) (row n s) = map (Nat.add s) (row n s).
Proof. intro Hs. apply map_ext_in. intros p Hp. apply (row_add_lt s p Hs Hp). Qed.

Lemma blue_sorted s : s < 2 ^ n -> sort_nat (map (Nat.add s) (row n s)) = map (Nat.add s) (row n s).
Proof.
  intro Hs. apply sort_nat_id. assert (X := row_sorted n s). induction X as [|x l Hl IH Hf]; cbn [map]; constructor; [exact IH|].
  rewrite Forall_forall in *. intros y Hy. apply in_map_iff in Hy as (z & <- & Hz). apply Hf in Hz. lia.
Qed.

Lemma clan_applicants_spec oz s : (forall l, Permutation (oz l) l) -> s < 2 ^ n ->
  exists D, clan_applicants oz (map (Nat.add s) (row n s)) n s (layers_of A n) = Ok D /\ forall c, In c D <-> boundp c /\ colp c s = false.
Proof.
  intros Hoz Hs. unfold clan_applicants.
  destruct (Proof_SegmentsMore.mapM_exists (fun k => clan_wrapper k n (layers_of A n)) (fun k l => forall r, In r l <-> r < fact n /\ A (pre (act r) n k) = true) (map (Nat.add s) (row n s))) as (rows & Er & Fr).
  { intros k Hk. apply in_map_iff in Hk as (p & <- & Hp). apply clan_wrapper_spec. apply row_add_lt; assumption. }
  rewrite Er. cbn [bind].
  rewrite (mapM_ok _ (fun r => map (fun m => (m, r)) (filter (fun m => negb (colp (m, r) s)) (range (2 ^ n))))).
  2:{ intros r Hr. apply range_In in Hr.
      assert (Es : map (fun row => memb r row) rows = map (fun p => A (pre (act r) n (s + p))) (row n s)).
      { clear Er. revert Fr. generalize (row n s). intro l. revert rows. induction l as [|p l IH]; intros rows Fr; cbn [map] in Fr; inversion Fr as [|x y l1 l2 H1 H2]; subst; [reflexivity|].
        cbn [map]. f_equal; [|apply IH; exact H2]. apply bool_iff. rewrite memb_In, H1. tauto. }
      rewrite Es. destruct (row_head s Hs) as [Eh Htl].
      assert (En : negate_first (map (fun p => A (pre (act r) n (s + p))) (row n s)) = Ok (map (fun p => xorb (A (pre (act r) n (s + p))) (Nat.eqb p 0)) (row n s))).
      { rewrite Eh. cbn [map]. unfold negate_first, list_assign. cbn [lget nth_error bind lset Nat.eqb]. f_equal. f_equal.
        apply map_ext_in. intros p Hp. apply Htl in Hp as [Hp _]. rewrite (proj2 (Nat.eqb_neq p 0)) by lia. symmetry. apply xorb_false_r. }
      rewrite En. cbn [bind]. rewrite (sierpinski_twin_spec oz n s _ Hoz Hs). cbn [bind]. rewrite filter_fst. f_equal. f_equal. apply filter_ext_in. intros m _.
      unfold green. rewrite Eh. cbn [map]. change (xor_all (?x :: ?l)) with (xorb x (xor_all l)). rewrite colp_cons by exact Hs. cbn [fst snd].
      assert (Z : subm 0 m = true) by (apply subm_spec; intros i Hi; rewrite Nat.bits_0 in Hi; discriminate).
      rewrite Z, Nat.add_0_r. cbn [Nat.eqb andb]. rewrite (xor_all_ext (fun p => subm p m && xorb (A (pre (act r) n (s + p))) (Nat.eqb p 0)) (fun p => subm p m && A (pre (act r) n (s + p))) (tl (row n s))).
      - destruct (A (pre (act r) n s)), (xor_all _); reflexivity.
      - intros p Hp. apply Htl in Hp as [Hp _]. rewrite (proj2 (Nat.eqb_neq p 0)) by lia. rewrite xorb_false_r. reflexivity. }
  cbn [bind]. eexists. split; [reflexivity|]. intros (m & r). rewrite in_concat. unfold boundp. cbn [fst snd]. split.
  - intros (l & Hl & Hi). apply in_map_iff in Hl as (r' & <- & Hr). apply in_map_iff in Hi as (m' & E & Hm). injection E as -> ->. apply filter_In in Hm as [Hm Hv].
    apply range_In in Hm, Hr. apply negb_true_iff in Hv. auto.
  - intros [[Hm Hr] Hv]. exists (map (fun m => (m, r)) (filter (fun m => negb (colp (m, r) s)) (range (2 ^ n)))).
    split; [apply (in_map (fun r => map (fun m => (m, r)) (filter (fun m => negb (colp (m, r) s)) (range (2 ^ n))))), range_In; exact Hr|].
    apply (in_map (fun m => (m, r))), filter_In. split; [apply range_In; exact Hm | rewrite Hv; reflexivity].
Qed.

Lemma pair_eqb_In c D : existsb (pair_eqb c) D = true <-> In c D.
Proof.
  rewrite existsb_exists. split.
  - intros (d & Hd & E). unfold pair_eqb in E. apply andb_true_iff in E as [E1 E2]. apply Nat.eqb_eq in E1, E2. destruct c, d. cbn [fst snd] in *. subst. exact Hd.
  - intro H. exists c. split; [exact H|]. unfold pair_eqb. rewrite !Nat.eqb_refl. reflexivity.
Qed.

Lemma clan_different : changing f -> exists c i, boundp c /\ boundp i /\ ~ agree (2 ^ n) (fun c => colp c) c i 0.
Proof.
  intro Hc. destruct (not_constant Hc) as (m & Hm & Hd). exists (0, 0), (m, 0). split; [split; [apply pow2_pos | apply lt_O_fact]|]. split; [split; [exact Hm | apply lt_O_fact]|].
  intro Ha. apply Hd. intros t Ht. apply Ha; [lia | exact Ht].
Qed.

Lemma clan_some_step C D s : s < 2 ^ n -> inv (2 ^ n) (fun c => colp c) boundp C (S s) -> (forall c, In c D <-> boundp c /\ colp c s = false) ->
  let C' := filter (fun p => existsb (pair_eqb p) D) C in
  (C' = [] -> inv (2 ^ n) (fun c => colp c) boundp C s) /\ (C' <> [] -> inv (2 ^ n) (fun c => colp c) boundp C' s).
Proof.
  intros Hs Hi HD C'.
  assert (HC' : forall i, In i C' <-> In i C /\ colp i s = false).
  { intro i. unfold C'. rewrite filter_In, pair_eqb_In, HD. split; [tauto|]. intros [H1 H2]. split; [exact H1|]. split; [|exact H2]. destruct Hi as (_ & H & _). auto. }
  split.
  - intro E. apply inv_ones; [exact Hi|]. intros c Hc. destruct (colp c s) eqn:Ec; [reflexivity|]. exfalso. assert (X : In c C') by (apply HC'; auto). rewrite E in X. destruct X.
  - intro E. apply (inv_narrow _ _ _ C); assumption.
Qed.

Lemma rep_outcome_clan C s : inv (2 ^ n) (fun c => colp c) boundp C s ->
  (exists c g, rep_candidate f C [] = Ok (Some g) /\ wins (2 ^ n) (fun c => colp c) boundp c /\ belongs c g) \/
  (rep_candidate f C [] = Ok None /\ state (2 ^ n) (fun c => colp c) boundp (Some C) s).
Proof. intro H. assert (X := rep_outcome (fun c => c) boundp C s (fun c h => h) H). rewrite map_id in X. exact X. Qed.

Lemma clan_loop_spec oz on k : (forall l, Permutation (oz l) l) -> (forall l, StronglySorted lt l -> on l = l) -> changing f ->
  forall j st, j + k = 2 ^ n -> state (2 ^ n) (fun c => colp c) boundp st (2 ^ n - j) ->
  exists c g, clan_loop oz on f n (layers_of A n) (seq j k) st = Ok (Some g) /\ wins (2 ^ n) (fun c => colp c) boundp c /\ belongs c g.
Proof.
  intros Hoz Hon Hc. induction k as [|k IH]; intros j st Hj Hst.
  - exfalso. replace (2 ^ n - j) with 0 in Hst by lia. apply (state_end _ _ _ _ Hst). apply clan_different. exact Hc.
  - cbn [seq clan_loop]. set (s := 2 ^ n - j - 1). assert (Hs : s < 2 ^ n) by lia. replace (2 ^ n - j) with (S s) in Hst by lia.
    assert (IH' : forall st', state (2 ^ n) (fun c => colp c) boundp st' s ->
      exists c g, clan_loop oz on f n (layers_of A n) (seq (S j) k) st' = Ok (Some g) /\ wins (2 ^ n) (fun c => colp c) boundp c /\ belongs c g).
    { intros st' H1. apply IH; [lia|]. replace (2 ^ n - S j) with s by lia. exact H1. }
    assert (Ej : int_to_sierpinski_row on j = row n s) by (rewrite <- (sierpinski_row_row on n s Hon); f_equal; unfold comp; lia). rewrite Ej. rewrite blue_keys_eq, blue_sorted by exact Hs.
    rewrite (proj2 (list_eqb_eq _ _) eq_refl). cbn [true_except bind].
    destruct (clan_applicants_spec oz s Hoz Hs) as (D & ED & HD). rewrite ED. cbn [bind].
    assert (EM : D = [] \/ (D <> [] /\ forall X Y : option (list (nat * nat)), match D with [] => X | _ :: _ => Y end = Y)) by (destruct D; [left; reflexivity | right; split; [discriminate | reflexivity]]).
    cbn zeta. destruct EM as [->|[Dn EM]].
    + cbn zeta. apply IH'. destruct st as [C|].
      * destruct Hst as [Hi Hd]. split; [|exact Hd]. apply inv_ones; [exact Hi|]. intros c Hin. destruct (colp c s) eqn:Ec; [reflexivity|]. exfalso. apply (HD c). split; [|exact Ec].
        destruct Hi as (_ & H & _). auto.
      * intros c i H1 H2. apply agree_step; [apply Hst; assumption|]. intros _. destruct (colp i s) eqn:E1; [|exfalso; apply (HD i); auto]. destruct (colp c s) eqn:E2; [reflexivity | exfalso; apply (HD c); auto].
    + rewrite EM. destruct st as [C|].
      * destruct Hst as [Hi Hd]. destruct (clan_some_step C D s Hs Hi HD) as [X1 X2]. cbn zeta in X1, X2. cbn zeta.
        destruct (filter (fun p => existsb (pair_eqb p) D) C) as [|x C'] eqn:EC.
        -- apply IH'. split; [apply X1; reflexivity | exact Hd].
        -- destruct (rep_outcome_clan (x :: C') s (X2 ltac:(discriminate))) as [(c & g & H1 & H2 & H3)|[H1 H2]]; rewrite H1; cbn [bind]; [exists c, g; auto | apply IH'; exact H2].
      * cbn zeta. assert (X2 : inv (2 ^ n) (fun c => colp c) boundp D s) by (apply inv_first; [exact Hs | exact Hst | exact Dn | exact HD]).
        destruct (rep_outcome_clan D s X2) as [(c & g & H1 & H2 & H3)|[H1 H2]]; rewrite H1; cbn [bind]; [exists c, g; auto | apply IH'; exact H2].
Qed.

Theorem clan_minrep_wins oz on : (forall l, Permutation (oz l) l) -> (forall l, StronglySorted lt l -> on l = l) -> changing f ->
  exists c g, clan_minrep oz on f = Ok (Some g) /\ wins (2 ^ n) (fun c => colp c) boundp c /\ belongs c g.
Proof.
  intros Hoz Hon Hc. unfold clan_minrep. rewrite (changing_valued f R Hc). destruct (twin_row f R) as (t & E1 & E2). rewrite E1. cbn [bind]. rewrite E2. cbn [bind].
  fold n A. rewrite flat_to_places_spec. cbn [bind]. change (map _ (range (n + 1))) with (layers_of A n). assert (P := pow2_pos n). rewrite range2_seq.
  apply clan_loop_spec; try assumption; [lia|]. intros c i H1 H2. apply (top_agree (fun c => c) boundp); auto.
Qed.

Lemma clan_prototype_loop_spec oz on k : (forall l, Permutation (oz l) l) -> (forall l, StronglySorted lt l -> on l = l) ->
  forall j C, j + k = 2 ^ n -> state (2 ^ n) (fun c => colp c) boundp (Some C) (2 ^ n - j) ->
  exists c g, clan_prototype_loop oz on f n (layers_of A n) (seq j k) C = Ok (Some g) /\ wins (2 ^ n) (fun c => colp c) boundp c /\ belongs c g.
Proof.
  intros Hoz Hon. induction k as [|k IH]; intros j C Hj Hst.
  - exfalso. replace (2 ^ n - j) with 0 in Hst by lia. apply (state_end _ _ _ _ Hst). destruct Hst as [(_ & H & _) (c & i & H1 & H2 & H3)]. exists c, i. auto.
  - cbn [seq clan_prototype_loop]. set (s := 2 ^ n - j - 1). assert (Hs : s < 2 ^ n) by lia. replace (2 ^ n - j) with (S s) in Hst by lia.
    assert (IH' : forall C', state (2 ^ n) (fun c => colp c) boundp (Some C') s ->
      exists c g, clan_prototype_loop oz on f n (layers_of A n) (seq (S j) k) C' = Ok (Some g) /\ wins (2 ^ n) (fun c => colp c) boundp c /\ belongs c g).
    { intros C' H1. apply IH; [lia|]. replace (2 ^ n - S j) with s by lia. exact H1. }
    assert (Ej : int_to_sierpinski_row on j = row n s) by (rewrite <- (sierpinski_row_row on n s Hon); f_equal; unfold comp; lia). rewrite Ej. rewrite blue_keys_eq by exact Hs.
    destruct (clan_applicants_spec oz s Hoz Hs) as (D & ED & HD). rewrite ED. cbn [bind].
    destruct Hst as [Hi Hd]. destruct (clan_some_step C D s Hs Hi HD) as [X1 X2]. cbn zeta in X1, X2.
    destruct (filter (fun p => existsb (pair_eqb p) D) C) as [|x C'] eqn:EC.
    + apply IH'. split; [apply X1; reflexivity | exact Hd].
    + destruct (rep_outcome_clan (x :: C') s (X2 ltac:(discriminate))) as [(c & g & H1 & H2 & H3)|[H1 H2]]; rewrite H1; cbn [bind]; [exists c, g; auto | apply IH'; exact H2].
Qed.

Theorem clan_prototype_wins oz on : (forall l, Permutation (oz l) l) -> (forall l, StronglySorted lt l -> on l = l) -> changing f ->
  exists c g, clan_minrep_prototype oz on f = Ok (Some g) /\ wins (2 ^ n) (fun c => colp c) boundp c /\ belongs c g.
Proof.
  intros Hoz Hon Hc. unfold clan_minrep_prototype. rewrite (changing_valued f R Hc). destruct (twin_row f R) as (t & E1 & E2). rewrite E1. cbn [bind]. rewrite E2. cbn [bind].
  fold n A. rewrite flat_to_places_spec. cbn [bind]. change (map _ (range (n + 1))) with (layers_of A n). assert (P := pow2_pos n). rewrite range2_seq.
  assert (HL : forall c, In c (list_prod (range (2 ^ n)) (range (fact n))) <-> boundp c). { intros (m & r). rewrite in_prod_iff, !range_In. reflexivity. }
  apply clan_prototype_loop_spec; try assumption; [lia|]. split.
  - split; [|split].
    + intro E. assert (X : boundp (0, 0)) by (split; [exact P | apply lt_O_fact]). apply HL in X. rewrite E in X. destruct X.
    + intros c H. apply HL, H.
    + intros c i H1 H2. left. split; [apply HL; exact H2|]. apply HL in H1. apply (top_agree (fun c => c) boundp); auto.
  - destruct (clan_different Hc) as (c & i & H1 & H2 & H3). exists c, i. rewrite !HL. auto.
Qed.
End Search.
