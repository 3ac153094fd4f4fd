(** Props_Convert: property C100, the signed permutations that turn a function into another one. *)

From Coq Require Import List Arith ZArith Bool Lia Permutation Sorted Factorial.
From Verif Require Import Model_Base Lib Model_Splits Model_Perm Model_Binary Model_SigPerm Model_SetPart Model_Boolf Model_MinRep
  Model_Helpers Model_Ec Model_Misc Spec_Bits Spec_Perm Spec_SigPerm Spec_Boolf Spec_Twin Spec_MinRep Spec_Helpers Spec_Ec
  Proof_Binary Proof_Perm Proof_PermMore Proof_PermGroup Proof_Inversions Proof_SigPerm Proof_SigPermOps Proof_SigPermMore Proof_EcClass Proof_MinRepCoset
  Proof_Boolf Proof_Deflate Proof_BoolfTable Proof_BoolfApply Proof_BoolfMake Proof_MinRepClass Proof_MinRepMale Proof_Convert
  Props_Boolf Props_MinRep Props_HelpersMore Props_Ec.
Import (coercions) Proof_BoolfApply.
Import ListNotations.
Local Open Scope nat_scope.

(** * C100: conversions *)

(** the signed permutation with the number (m, r) turns f into g *)
Definition turns (f g : boolf) (m r : nat) : Prop := exists s, SigPerm_pair m r = Ok s /\ apply_sigperm f s = Ok g.
(** the element of the partition for the pair (m, r) *)
Definition element (n m r : nat) : Z := Z.of_nat (m * fact n + r).

(** The block with the label g contains exactly the pairs that turn f into g. *)
Lemma block_turns depth f o sup n g : made false f -> is_constant f = false -> within 5 f -> n = match o with None => adicity f | Some k => k end -> within n f -> (n = valency f \/ sup = true) -> made false g ->
  exists c, ec_clan (S depth) f o sup = Ok c /\ (forall b, ec_block c g = Some b -> NoDup b) /\
    forall x, (exists b, ec_block c g = Some b /\ In x b) <-> exists m r, m < 2 ^ n /\ r < fact n /\ x = element n m r /\ turns f g m r.
Proof.
  intros Mf C A Hn W Hs Mg. destruct (C72_clan depth f o sup n Mf C A Hn W Hs) as (c & Ec & _ & Sh0). exists c. split; [exact Ec|]. assert (Rf := m_red f Mf). assert (Rg := m_red g Mg).
  split. { intros b Hb. apply (shows_block c _ _ Sh0 g b Rg) in Hb as (_ & Hb & _). clear -Hb. induction Hb as [|x l H IH Hx]; constructor; [|exact IH]. intro I. rewrite Forall_forall in Hx. specialize (Hx x I). lia. }
  set (L := fun x g => exists m r p, m < 2 ^ n /\ nth_error (Model_Perm.rev_colex_perms n) r = Some p /\ x = Z.of_nat (m * fact n + r) /\
      made false g /\ forall e, sem g e = sem f (fun a => xorb (e (nth a p a)) (Nat.testbit m (nth a p a)))) in *.
  assert (X : forall x, L x g <-> exists m r, m < 2 ^ n /\ r < fact n /\ x = element n m r /\ turns f g m r).
  { intro x. assert (Y : forall m r p, m < 2 ^ n -> nth_error (Model_Perm.rev_colex_perms n) r = Some p ->
        (turns f g m r <-> forall e, sem g e = sem f (fun a => xorb (e (nth a p a)) (Nat.testbit m (nth a p a))))).
    { intros m r p Hm Ep. destruct (pair_apply f m r Rf) as (s & q & h & Es & Eq & Eh & Rh & Sh). destruct (colex_list n r p Ep) as (Hr & _ & Lp & Hp).
      assert (Z : forall e, sem f (fun a => xorb (e (nth a p a)) (Nat.testbit m (nth a p a))) = sem f (fun a => xorb (e (pget q a)) (Nat.testbit m (pget q a)))).
      { intro e. apply sem_ext. intros a Ha. apply W in Ha. rewrite (nth_indep p a 0) by lia. rewrite Hp by exact Ha. unfold Proof_MinRepCoset.act. rewrite Eq. reflexivity. }
      split.
      - intros (s' & Es' & Eg). assert (s' = s) by congruence. subst s'. assert (h = g) by congruence. subst h. intro e. rewrite Sh, Z. reflexivity.
      - intro H. exists s. split; [exact Es|]. rewrite Eh. f_equal. apply reduced_unique; [exact Rh | exact Rg|]. intro e. rewrite Sh, H, Z. reflexivity. }
    split.
    - intros (m & r & p & Hm & Ep & Ex & _ & H). exists m, r. split; [exact Hm|]. split; [apply (colex_list n r p Ep)|]. split; [exact Ex|]. apply (Y m r p Hm Ep). exact H.
    - intros (m & r & Hm & Hr & Ex & H). destruct (nth_error (Model_Perm.rev_colex_perms n) r) as [p|] eqn:Ep; [|apply nth_error_None in Ep; rewrite Proof_Listing.rev_colex_length in Ep; lia].
      exists m, r, p. split; [exact Hm|]. split; [exact Ep|]. split; [exact Ex|]. split; [exact Mg|]. apply (Y m r p Hm Ep). exact H. }
  intro x. rewrite <- X. split.
  - intros (b & Hb & Hx). apply (shows_block c _ _ Sh0 g b Rg) in Hb as (_ & _ & Hb). apply Hb, Hx.
  - intro Hx. assert (Hl := proj2 (shows_label c _ _ Sh0 x g) Hx). assert (Hm := proj2 (shows_members c _ _ Sh0 g) (ex_intro _ x Hx)).
    destruct (C72_shares (S depth) f o sup n c Mf C W Hn Ec) as (k & _ & K). destruct (K g Hm) as (b & Hb & _). exists b. split; [exact Hb|]. apply (shows_block c _ _ Sh0 g b Rg) in Hb as (_ & _ & Hb). apply Hb, Hx.
Qed.
Theorem C100_block : forall depth f o sup n g, made false f -> is_constant f = false -> within 5 f -> n = match o with None => adicity f | Some k => k end -> within n f -> (n = valency f \/ sup = true) -> made false g ->
  exists c, ec_clan (S depth) f o sup = Ok c /\
    forall x, (exists b, ec_block c g = Some b /\ In x b) <-> exists m r, m < 2 ^ n /\ r < fact n /\ x = element n m r /\ turns f g m r.
Proof. intros depth f o sup n g Mf C A Hn W Hs Mg. destruct (block_turns depth f o sup n g Mf C A Hn W Hs Mg) as (c & E & _ & H). exists c. split; assumption. Qed.
Print Assumptions C100_block.

(** The way back: the block of f in the clan of g contains exactly the pairs of the inverses. *)
Theorem C100_back : forall depth f g n, made false f -> made false g -> is_constant f = false -> is_constant g = false -> within 5 f -> within 5 g -> within n f -> within n g ->
  exists c d, ec_clan (S depth) f (Some n) true = Ok c /\ ec_clan (S depth) g (Some n) true = Ok d /\
    (ec_block c g = None <-> ec_block d f = None) /\
    forall b, ec_block c g = Some b -> exists b', ec_block d f = Some b' /\ length b' = length b /\
      forall m r s t i j, m < 2 ^ n -> r < fact n -> SigPerm_pair m r = Ok s -> sg_inv s = Ok t -> sg_pair t = Ok (i, j) ->
        i < 2 ^ n /\ j < fact n /\ (In (element n m r) b <-> In (element n i j) b').
Proof.
  assert (One : forall f g n m r, made false f -> m < 2 ^ n -> r < fact n -> turns f g m r ->
            exists s t i j, SigPerm_pair m r = Ok s /\ sg_inv s = Ok t /\ sg_pair t = Ok (i, j) /\ i < 2 ^ n /\ j < fact n /\ turns g f i j).
  { intros f g n m r Mf Hm Hr (s & Es & Eg). assert (Rf := m_red f Mf). destruct (pair_spec m r) as (s' & Es' & Ws & _ & _). assert (s' = s) by congruence. subst s'.
    destruct (inv_spec s Ws) as (t & Et & Wt & _ & Lt & _). destruct (pair_back t Wt) as (i & j & u & Ep & Eu & F). exists s, t, i, j. split; [exact Es|]. split; [exact Et|]. split; [exact Ep|].
    assert (L : sg_length t <= n) by (rewrite Lt; apply (pair_length n m r s Es); auto). destruct (pair_unique n t i j u Wt L Ep Eu) as (_ & Hi & Hj). split; [exact Hi|]. split; [exact Hj|]. exists u. split; [exact Eu|].
    destruct (pair_spec i j) as (u' & Eu' & Wu & _). assert (u' = u) by congruence. subst u'.
    assert (Rg : reduced g). { destruct (apply_sigperm_spec f s Rf Ws) as (g' & Eg' & Rg & _). assert (g' = g) by congruence. subst g'. exact Rg. }
    rewrite (apply_same g u t Rg Wu Wt F). apply (apply_inv f g s t Rf Ws Et Eg). }
  assert (Twice : forall n m r s t i j, m < 2 ^ n -> r < fact n -> SigPerm_pair m r = Ok s -> sg_inv s = Ok t -> sg_pair t = Ok (i, j) ->
            i < 2 ^ n /\ j < fact n /\ exists u v, SigPerm_pair i j = Ok u /\ sg_inv u = Ok v /\ sg_pair v = Ok (m, r)).
  { intros n m r s t i j Hm Hr Es Et Ep. destruct (pair_spec m r) as (s' & Es' & Ws & Ts & Ps). assert (s' = s) by congruence. subst s'. destruct (inv_inv s t Ws Et) as (w & Ew & Wt & Ww & Lt & F).
    assert (L : sg_length t <= n) by (rewrite Lt; apply (pair_length n m r s Es); auto). destruct (pair_spec i j) as (u & Eu & Wu & _). destruct (pair_unique n t i j u Wt L Ep Eu) as (Fu & Hi & Hj).
    split; [exact Hi|]. split; [exact Hj|]. destruct (inv_spec u Wu) as (v & Ev & Wv & Tv & Lv & K1 & K2 & _). exists u, v. split; [exact Eu|]. split; [exact Ev|].
    (* v is s *)
    assert (Fv : forall k, sf v k = sf s k).
    { destruct (inv_inv u v Wu Ev) as (x & Ex & _ & Wx & _ & Fx). intro k. destruct (inv_spec s Ws) as (t' & Et' & _ & _ & _ & H1 & H2 & _). assert (t' = t) by congruence. subst t'.
      assert (N : forall G z, on_literals G (neg z) = neg (on_literals G z)). { intros G z. unfold on_literals. rewrite atom_neg, negated_neg. destruct (negated z); cbn [negb]; [symmetry; apply neg_neg | reflexivity]. }
      assert (Q : forall z, on_literals (sf v) (on_literals (sf u) z) = z).
      { assert (Q0 : forall a, on_literals (sf v) (on_literals (sf u) (Z.of_nat a)) = Z.of_nat a) by (intro a; unfold on_literals at 2; rewrite negated_nat, atom_nat; apply K2).
        intro z. rewrite (literal_split z). destruct (negated z); [rewrite !N, Q0; reflexivity | apply Q0]. }
      rewrite <- (Q (sf s k)). assert (E : on_literals (sf u) (sf s k) = Z.of_nat k). { rewrite <- (H2 k). unfold on_literals. rewrite Fu. reflexivity. }
      rewrite E. unfold on_literals. rewrite negated_nat, atom_nat. reflexivity. }
    destruct (pair_back v Wv) as (m' & r' & y & Py & Ey & Fy). rewrite Py. f_equal.
    destruct (pair_back s Ws) as (m2 & r2 & y2 & Py2 & Ey2 & Fy2). rewrite Ps in Py2. injection Py2 as <- <-.
    assert (Eq : sg_eqb y s = true).
    { destruct (pair_spec m' r') as (y' & Ey' & Wy & Ty & _). assert (y' = y) by congruence. subst y'. apply sg_eqb_complete; try assumption. intro k. rewrite Fy, Fv. reflexivity. }
    destruct (pair_spec m' r') as (y' & Ey' & Wy & Ty & Pp). assert (y' = y) by congruence. subst y'.
    destruct (int_to_perm_spec r') as (p' & Ep' & W' & N' & _). destruct (int_to_perm_spec r) as (p & Ep0 & W0 & N0 & _).
    destruct (pair_sf m' r' y p' Ey Ep') as [_ S']. destruct (pair_sf m r s p Es Ep0) as [_ S0].
    assert (A : forall k, pget p' k = pget p k). { intro k. assert (E := Fy k). rewrite Fv, S', S0 in E. apply (f_equal atom) in E. rewrite !atom_lit in E. exact E. }
    assert (Er : r' = r).
    { destruct (rank_roundtrip r') as (q' & Eq' & _ & _ & R'). assert (q' = p') by congruence. subst q'. destruct (rank_roundtrip r) as (q & Eq0 & _ & _ & R0). assert (q = p) by congruence. subst q.
      apply (Proof_MinRepCoset.act_inj r' r (Nat.max (S r') (S r))); [| |intros x _; unfold Proof_MinRepCoset.act; rewrite Ep', Ep0; apply A].
      - eapply Nat.lt_le_trans; [|apply fact_le, Nat.le_max_l]. clear. induction r'; [cbn; lia|]. change (fact (S (S r'))) with (S (S r') * fact (S r')). assert (0 < fact (S r')) by apply lt_O_fact. nia.
      - eapply Nat.lt_le_trans; [|apply fact_le, Nat.le_max_r]. clear. induction r; [cbn; lia|]. change (fact (S (S r))) with (S (S r) * fact (S r)). assert (0 < fact (S r)) by apply lt_O_fact. nia. }
    subst r'. f_equal. apply Nat.bits_inj. intro b. destruct (wf_finite_seq p W0 N0) as (_ & Pp0 & Fx & _).
    assert (On : exists k, pget p k = b).
    { destruct (Nat.lt_ge_cases b (plength p)) as [Hb|Hb]; [|exists b; apply Fx, Hb]. apply range_In in Hb. apply (Permutation_in _ (Permutation_sym Pp0)) in Hb. apply in_map_iff in Hb as (k & Ek & _). exists k. exact Ek. }
    destruct On as (k & <-). assert (E := Fy k). rewrite Fv, S', S0 in E. apply (f_equal negated) in E. rewrite !negated_lit, A in E. exact E. }
  intros depth f g n Mf Mg Cf Cg Af Ag Wf Wg.
  destruct (block_turns depth f (Some n) true n g Mf Cf Af eq_refl Wf (or_intror eq_refl) Mg) as (c & Ec & Nc & Hc).
  destruct (block_turns depth g (Some n) true n f Mg Cg Ag eq_refl Wg (or_intror eq_refl) Mf) as (d & Ed & Nd & Hd).
  exists c, d. split; [exact Ec|]. split; [exact Ed|].
  assert (Some1 : forall b, ec_block c g = Some b -> b <> []).
  { intros b Hb ->. destruct (C72_clan depth f (Some n) true n Mf Cf Af eq_refl Wf (or_intror eq_refl)) as (c' & Ec' & _ & S). assert (c' = c) by congruence. subst c'. apply (shows_block c _ _ S g [] (m_red g Mg)) in Hb as (Hb & _). apply Hb. reflexivity. }
  assert (Some2 : forall b, ec_block d f = Some b -> b <> []).
  { intros b Hb ->. destruct (C72_clan depth g (Some n) true n Mg Cg Ag eq_refl Wg (or_intror eq_refl)) as (c' & Ec' & _ & S). assert (c' = d) by congruence. subst c'. apply (shows_block d _ _ S f [] (m_red f Mf)) in Hb as (Hb & _). apply Hb. reflexivity. }
  assert (Go : forall b, ec_block c g = Some b -> exists b', ec_block d f = Some b').
  { intros b Hb. specialize (Some1 b Hb). destruct b as [|x b]; [congruence|]. destruct (proj1 (Hc x) (ex_intro _ (x :: b) (conj Hb (or_introl eq_refl)))) as (m & r & Hm & Hr & _ & T).
    destruct (One f g n m r Mf Hm Hr T) as (s & t & i & j & _ & _ & _ & Hi & Hj & T'). destruct (proj2 (Hd (element n i j))) as (b' & Hb' & _); [exists i, j; auto|]. exists b'. exact Hb'. }
  assert (Come : forall b, ec_block d f = Some b -> exists b', ec_block c g = Some b').
  { intros b Hb. specialize (Some2 b Hb). destruct b as [|x b]; [congruence|]. destruct (proj1 (Hd x) (ex_intro _ (x :: b) (conj Hb (or_introl eq_refl)))) as (m & r & Hm & Hr & _ & T).
    destruct (One g f n m r Mg Hm Hr T) as (s & t & i & j & _ & _ & _ & Hi & Hj & T'). destruct (proj2 (Hc (element n i j))) as (b' & Hb' & _); [exists i, j; auto|]. exists b'. exact Hb'. }
  split. { split; intro H; [destruct (ec_block d f) as [b|] eqn:E; [|reflexivity]; destruct (Come b eq_refl) as (b' & E'); congruence | destruct (ec_block c g) as [b|] eqn:E; [|reflexivity]; destruct (Go b eq_refl) as (b' & E'); congruence]. }
  intros b Hb. destruct (Go b Hb) as (b' & Hb'). exists b'. split; [exact Hb'|].
  assert (Inb : forall x, In x b <-> exists m r, m < 2 ^ n /\ r < fact n /\ x = element n m r /\ turns f g m r). { intro x. rewrite <- Hc. split; [intro H; exists b; auto | intros (b2 & E2 & H); assert (b2 = b) by congruence; subst b2; exact H]. }
  assert (Inb' : forall x, In x b' <-> exists m r, m < 2 ^ n /\ r < fact n /\ x = element n m r /\ turns g f m r). { intro x. rewrite <- Hd. split; [intro H; exists b'; auto | intros (b2 & E2 & H); assert (b2 = b') by congruence; subst b2; exact H]. }
  assert (El : forall m r, m < 2 ^ n -> r < fact n -> (In (element n m r) b <-> turns f g m r)).
  { intros m r Hm Hr. rewrite Inb. split; [intros (m' & r' & _ & Hr' & E & T) | intro T; exists m, r; auto]. apply Nat2Z.inj, code_inj in E as [-> ->]; assumption. }
  assert (El' : forall m r, m < 2 ^ n -> r < fact n -> (In (element n m r) b' <-> turns g f m r)).
  { intros m r Hm Hr. rewrite Inb'. split; [intros (m' & r' & _ & Hr' & E & T) | intro T; exists m, r; auto]. apply Nat2Z.inj, code_inj in E as [-> ->]; assumption. }
  assert (Main : forall m r s t i j, m < 2 ^ n -> r < fact n -> SigPerm_pair m r = Ok s -> sg_inv s = Ok t -> sg_pair t = Ok (i, j) ->
        i < 2 ^ n /\ j < fact n /\ (In (element n m r) b <-> In (element n i j) b')).
  { intros m r s t i j Hm Hr Es Et Ep. destruct (Twice n m r s t i j Hm Hr Es Et Ep) as (Hi & Hj & u & v & Eu & Ev & Pv). split; [exact Hi|]. split; [exact Hj|]. rewrite El, El' by assumption. split; intro T.
    - destruct (One f g n m r Mf Hm Hr T) as (s' & t' & i' & j' & E1 & E2 & E3 & _ & _ & T'). assert (s' = s) by congruence. subst s'. assert (t' = t) by congruence. subst t'. rewrite Ep in E3. injection E3 as <- <-. exact T'.
    - destruct (One g f n i j Mg Hi Hj T) as (s' & t' & i' & j' & E1 & E2 & E3 & _ & _ & T'). assert (s' = u) by congruence. subst s'. assert (t' = v) by congruence. subst t'. rewrite Pv in E3. injection E3 as <- <-. exact T'. }
  split; [|exact Main].
  (* the lengths: the inverses are an injective map in both directions *)
  assert (Half : forall f g b b', made false f -> made false g -> NoDup b -> (forall x, In x b -> exists m r, m < 2 ^ n /\ r < fact n /\ x = element n m r /\ turns f g m r) ->
            (forall m r, m < 2 ^ n -> r < fact n -> turns g f m r -> In (element n m r) b') -> length b <= length b').
  { clear -One Twice. intros f g b b' Mf Mg Nb Hb Hb'.
    assert (Ex : exists h, forall x, In x b -> In (h x) b' /\ exists m r s t i j, m < 2 ^ n /\ r < fact n /\ x = element n m r /\ SigPerm_pair m r = Ok s /\ sg_inv s = Ok t /\ sg_pair t = Ok (i, j) /\ h x = element n i j).
    { set (h := fun x => let k := Z.to_nat x in match (let* s := SigPerm_pair (k / fact n) (k mod fact n) in let* t := sg_inv s in sg_pair t) with Ok (i, j) => element n i j | Err _ => x end). exists h.
      intros x Hx. destruct (Hb x Hx) as (m & r & Hm & Hr & -> & T). destruct (One f g n m r Mf Hm Hr T) as (s & t & i & j & E1 & E2 & E3 & Hi & Hj & T').
      assert (Eh : h (element n m r) = element n i j).
      { unfold h. cbv zeta. replace (Z.to_nat (element n m r)) with (r + m * fact n) by (unfold element; lia). assert (F0 := lt_O_fact n).
        rewrite Nat.div_add, Nat.mod_add by lia. rewrite Nat.div_small, Nat.mod_small by exact Hr. cbn [Nat.add]. rewrite E1. cbn [bind]. rewrite E2. cbn [bind]. rewrite E3. reflexivity. }
      rewrite Eh. split; [apply Hb'; assumption|]. exists m, r, s, t, i, j. repeat split; assumption. }
    destruct Ex as (h & Hh). rewrite <- (map_length h b). apply NoDup_incl_length.
    - apply Proof_Helpers.NoDup_map_inj; [exact Nb|]. intros x y Hx Hy E. destruct (Hh x Hx) as (_ & m & r & s & t & i & j & Hm & Hr & -> & E1 & E2 & E3 & Eh). destruct (Hh y Hy) as (_ & m' & r' & s' & t' & i' & j' & Hm' & Hr' & -> & E1' & E2' & E3' & Eh').
      destruct (Twice n m r s t i j Hm Hr E1 E2 E3) as (_ & Hj & u & v & Eu & Ev & Pv). destruct (Twice n m' r' s' t' i' j' Hm' Hr' E1' E2' E3') as (_ & Hj' & u' & v' & Eu' & Ev' & Pv').
      rewrite Eh, Eh' in E. apply Nat2Z.inj, code_inj in E as [-> ->]; [|assumption|assumption]. assert (u' = u) by congruence. subst u'. assert (v' = v) by congruence. subst v'. rewrite Pv in Pv'. injection Pv' as -> ->. reflexivity.
    - intros y Hy. apply in_map_iff in Hy as (x & <- & Hx). apply Hh, Hx. }
  apply Nat.le_antisymm.
  - apply (Half g f b' b Mg Mf (Nd b' Hb')); [intros x Hx; apply Inb', Hx|]. intros m r Hm Hr T. apply El; assumption.
  - apply (Half f g b b' Mf Mg (Nc b Hb)); [intros x Hx; apply Inb, Hx|]. intros m r Hm Hr T. apply El'; assumption.
Qed.
Print Assumptions C100_back.

(** The pairs that keep f are a group, those that turn f into g a coset of it. *)
Theorem C100_coset : forall f g m r i j s t c, made false f -> turns f f m r -> SigPerm_pair m r = Ok s -> SigPerm_pair i j = Ok t ->
  sg_mul t s = Ok c -> exists k l, sg_pair c = Ok (k, l) /\ (turns f g i j <-> turns f g k l).
Proof.
  intros f g m r i j s t c Mf (s' & Es' & T) Es Et Ec. assert (s' = s) by congruence. subst s'. assert (Rf := m_red f Mf).
  destruct (pair_spec m r) as (s' & E1 & Ws & _). assert (s' = s) by congruence. subst s'. destruct (pair_spec i j) as (t' & E2 & Wt & _). assert (t' = t) by congruence. subst t'.
  destruct (mul_spec t s Wt Ws) as (c' & Ec' & Wc & _ & F). assert (c' = c) by congruence. subst c'. destruct (pair_back c Wc) as (k & l & u & Pc & Eu & Fu). exists k, l. split; [exact Pc|].
  destruct (pair_spec k l) as (u' & E3 & Wu & _). assert (u' = u) by congruence. subst u'.
  assert (X : apply_sigperm f u = apply_sigperm f t) by (rewrite (apply_same f u c Rf Wu Wc Fu); apply (apply_mul f s t c f); assumption).
  split; [intros (t' & Et' & H); exists u; split; [exact Eu|]; assert (t' = t) by congruence; subst t'; congruence | intros (u' & Eu' & H); exists t; split; [exact Et|]; assert (u' = u) by congruence; subst u'; congruence].
Qed.
Print Assumptions C100_coset.

(** k ignored places: each function has 2^k * k! times as many pairs as triples *)
Theorem C100_duplicates : forall depth f n k, made false f -> is_constant f = false -> within 5 f -> within n f -> n = valency f + S k ->
  exists c d, ec_clan (S depth) f (Some n) true = Ok c /\ ec_clan (S depth) f (Some n) false = Ok d /\ Permutation (ec_members c) (ec_members d) /\
    forall g, In g (ec_members c) -> exists b b', ec_block c g = Some b /\ ec_block d g = Some b' /\ length b = 2 ^ S k * fact (S k) * length b'.
Proof.
  intros depth f n k Mf C A W Hn. destruct (C72_members depth f (Some n) true n Mf A eq_refl W (or_introl C)) as (c & Ec & Nc & Hc). destruct (C72_members depth f (Some n) false n Mf A eq_refl W (or_introl C)) as (d & Ed & Nd & Hd).
  exists c, d. split; [exact Ec|]. split; [exact Ed|]. assert (P : Permutation (ec_members c) (ec_members d)) by (apply NoDup_Permutation; [exact Nc | exact Nd|]; intro g; rewrite Hc, Hd; reflexivity). split; [exact P|].
  intros g Hg. destruct (C72_shares (S depth) f (Some n) true n c Mf C W eq_refl Ec) as (x & Ex & Bx). destruct (C72_shares (S depth) f (Some n) false n d Mf C W eq_refl Ed) as (y & Ey & By).
  rewrite orb_true_r in Ex. rewrite (proj2 (Nat.eqb_neq n (valency f))) in Ey by lia. cbn [orb] in Ey.
  destruct (Bx g Hg) as (b & Eb & Lb). destruct (By g) as (b' & Eb' & Lb'); [eapply Permutation_in; eassumption|]. exists b, b'. split; [exact Eb|]. split; [exact Eb'|]. rewrite Lb, Lb'.
  apply Permutation_length in P. assert (L0 : 0 < length (ec_members c)) by (destruct (ec_members c); [contradiction Hg | cbn; lia]).
  assert (Q := combinations_count (seq 0 n) (valency f) (S k)). rewrite seq_length in Q. specialize (Q Hn). rewrite <- Hn in Q.
  apply (Nat.mul_cancel_r _ _ (length (ec_members c))); [lia|]. rewrite <- Ex, P. rewrite <- Nat.mul_assoc, <- Ey, <- Q. replace (2 ^ n) with (2 ^ S k * 2 ^ valency f) by (rewrite <- Nat.pow_add_r; f_equal; lia). ring.
Qed.
Print Assumptions C100_duplicates.

(** Spread atoms: what turns f into the root of g, turns f into g, when the literals are moved by the spread vector of g. *)
Theorem C100_spread : forall f g s, made false f -> is_constant f = false -> made false g -> valency g = valency f -> Permutation (map atom s) (range (valency f)) ->
  exists b t, root_boolf g = Ok b /\ spread_sigperm_to_sigvar s (map Z.of_nat (spread_vector g)) = Ok t /\ (boolf_apply f s = Ok b <-> boolf_apply f t = Ok g).
Proof.
  intros f g s Mf C Mg V P. assert (Rf := m_red f Mf). assert (Rg := m_red g Mg). assert (Ls : length s = valency f) by (rewrite <- (map_length atom s), (Permutation_length P); apply range_length).
  assert (Lv : length (spread_vector g) = valency f) by (unfold spread_vector; rewrite map_length, range_length; exact V).
  destruct (C65_spread s (map Z.of_nat (spread_vector g))) as (t & Et & Lt & Ht); [rewrite map_length; congruence | rewrite Ls; exact P | apply Forall_forall; intros x Hx; apply in_map_iff in Hx as (y & <- & _); lia|].
  exists (rb g), t. split; [apply root_boolf_rb, Rg|]. split; [exact Et|].
  assert (Sb : forall i, i < valency f -> atom (nth i s 0%Z) < valency f). { intros i Hi. apply range_In. eapply Permutation_in; [exact P|]. apply in_map, nth_In. lia. }
  assert (T : forall i, i < valency f -> atom (nth i t 0%Z) = nth (atom (nth i s 0%Z)) (atomvals g) 0 /\ negated (nth i t 0%Z) = negated (nth i s 0%Z)).
  { intros i Hi. assert (Hi2 : i < length s) by lia. destruct (Ht i (nth i s 0%Z) (nth_error_nth' s 0%Z Hi2)) as (d & z & Ed & Ez & Hn & Ha). rewrite (nth_error_nth t i 0%Z Ez). specialize (Sb i Hi).
    rewrite nth_error_map, (nth_error_nth' (spread_vector g) 0) in Ed by lia. cbn [option_map] in Ed. injection Ed as <-. split; [|exact Hn]. rewrite (spread_nth g) by (apply Rg || lia). lia. }
  assert (Nds : NoDup (map atom s)) by (eapply Permutation_NoDup; [symmetry; exact P | apply range_NoDup]).
  assert (Ndt : NoDup (map atom t)).
  { replace (map atom t) with (map (fun i => nth i (atomvals g) 0) (map atom s)).
    - apply Proof_Helpers.NoDup_map_inj; [exact Nds|]. intros x y Hx Hy E. apply (Permutation_in _ P), range_In in Hx, Hy. apply (proj1 (NoDup_nth (atomvals g) 0)) in E; [exact E | apply fitting_NoDup, Rg | unfold valency in *; lia | unfold valency in *; lia].
    - apply nth_ext with (d := 0) (d' := 0); rewrite !map_length; [congruence|]. intros i Hi. rewrite (nth_indep _ 0 (nth (atom 0) (atomvals g) 0)) by (rewrite !map_length; exact Hi). rewrite (map_nth (fun i => nth i (atomvals g) 0)), (map_nth atom s).
      rewrite (nth_indep (map atom t) 0 (atom 0)) by (rewrite map_length; lia). rewrite (map_nth atom t). symmetry. apply T. lia. }
  assert (V0 : 0 < valency f) by (apply valency_pos; [exact Rf | exact C]).
  destruct (apply_spec f s (proj1 Rf) V0 Ls Nds) as (h & Eh & Rh & Sh). destruct (apply_spec f t (proj1 Rf) V0 ltac:(lia) Ndt) as (k & Ek & Rk & Sk). rewrite Eh, Ek.
  assert (X : forall e, sem k e = sem h (fun i => e (nth i (atomvals g) 0))).
  { intro e. rewrite Sk, Sh. f_equal. f_equal. apply nth_ext with (d := false) (d' := false); rewrite !map_length; [lia|]. intros i Hi. rewrite (nth_indep _ false (litval e 0)) by (rewrite map_length; exact Hi).
    rewrite (nth_indep (map (litval (fun i => e (nth i (atomvals g) 0))) s) false (litval (fun i => e (nth i (atomvals g) 0)) 0)) by (rewrite map_length; lia). rewrite !map_nth. unfold litval. destruct (T i ltac:(lia)) as [-> ->]. reflexivity. }
  split; intro H.
  - injection H as ->. f_equal. apply reduced_unique; [exact Rk | exact Rg|]. intro e. rewrite X. symmetry. apply sem_rb.
  - injection H as ->. f_equal. apply reduced_unique; [exact Rh | apply rb_reduced, Rg|]. intro q. rewrite (rb_sem g q (proj1 Rg)), X. rewrite Sh, Sh. f_equal. f_equal. apply map_ext_in. intros z Hz. unfold litval. f_equal.
    symmetry. apply lift_nth; [apply Rg|]. rewrite V. apply range_In. eapply Permutation_in; [exact P|]. apply in_map, Hz.
Qed.
Print Assumptions C100_spread.

(** Triples: the combination is made a signed variation, which turns f into g. *)
Theorem C100_triples : forall depth f n g, made false f -> is_constant f = false -> within 5 f -> within n f -> n <> valency f -> made false g ->
  let combos := combinations (seq 0 n) (valency f) in
  exists c, ec_clan (S depth) f (Some n) false = Ok c /\ ec_glove c = Some combos /\
    forall x, (exists b, ec_block c g = Some b /\ In x b) <->
      exists m r k s combo l, m < 2 ^ valency f /\ r < fact (valency f) /\ nth_error combos k = Some combo /\ x = Z.of_nat ((m * fact (valency f) + r) * length combos + k) /\
        SigPerm_pair m r = Ok s /\ sg_apply s (map Z.of_nat combo) = Ok l /\ boolf_apply f l = Ok g.
Proof.
  intros depth f n g Mf C A W Hn Mg combos. assert (Rf := m_red f Mf). assert (Rg := m_red g Mg). apply within_iff in A, W.
  destruct (ec_clan_abbreviated depth f n Rf C A W Hn) as (c & Ec & Gl & Sh0). fold combos in Gl, Sh0. exists c. split; [exact Ec|]. split; [exact Gl|].
  assert (Item : forall m r k combo, m < 2 ^ valency f -> r < fact (valency f) -> nth_error combos k = Some combo ->
            (variation_at f combo m r g <-> exists s l, SigPerm_pair m r = Ok s /\ sg_apply s (map Z.of_nat combo) = Ok l /\ boolf_apply f l = Ok g)).
  { intros m r k combo Hm Hr Hk. destruct (combos_spec _ _ _ _ Hk) as (_ & Lc & Nc & _). destruct (pair_spec m r) as (s & Es & Ws & _). destruct (int_to_perm_spec r) as (p & Ep & _). destruct (pair_sf m r s p Es Ep) as [_ Fs].
    assert (Ls : sg_length s <= valency f) by (apply (pair_length (valency f) m r s Es); auto).
    destruct (sg_apply_spec s (map Z.of_nat combo) Ws) as (l & El & Ll & Hl); [rewrite map_length, Lc; exact Ls|]. rewrite map_length, Lc in Ll, Hl.
    assert (Ac : forall i, Proof_MinRepCoset.act r i = pget p i) by (intro i; unfold Proof_MinRepCoset.act; rewrite Ep; reflexivity).
    destruct (variation_item f combo m r l Rf C Hr Lc Nc Ll) as (h & Eh & Vh).
    { intros i Hi. specialize (Hl i Hi). rewrite Fs, atom_lit, negated_lit in Hl. rewrite Ac. rewrite (nth_error_nth l _ 0%Z Hl). cbv zeta. change 0%Z with (Z.of_nat 0). rewrite map_nth. reflexivity. }
    split.
    - intro V. exists s, l. split; [exact Es|]. split; [exact El|]. rewrite Eh. f_equal. apply (variation_unique f combo m r _ _ Rf); assumption.
    - intros (s' & l' & E1 & E2 & E3). assert (s' = s) by congruence. subst s'. assert (l' = l) by congruence. subst l'. assert (h = g) by congruence. subst h. exact Vh. }
  intro x. split.
  - intros (b & Hb & Hx). apply (shows_block c _ _ Sh0 g b Rg) in Hb as (_ & _ & Hb). apply Hb in Hx as (m & r & k & combo & Hm & Hr & Hk & Ex & V). apply (Item m r k combo Hm Hr Hk) in V as (s & l & V). exists m, r, k, s, combo, l. tauto.
  - intros (m & r & k & s & combo & l & Hm & Hr & Hk & Ex & E1 & E2 & E3). assert (V : variation_at f combo m r g) by (apply (Item m r k combo Hm Hr Hk); eauto).
    set (L := fun x g => _) in Sh0. assert (Hx : L x g) by (exists m, r, k, combo; auto). assert (Hg := proj2 (shows_members c _ _ Sh0 g) (ex_intro _ x Hx)).
    destruct (C72_shares (S depth) f (Some n) false n c Mf C (proj2 (within_iff f n) W) eq_refl Ec) as (y & _ & Y). destruct (Y g Hg) as (b & Hb & _). exists b. split; [exact Hb|]. apply (shows_block c _ _ Sh0 g b Rg) in Hb as (_ & _ & Hb). apply Hb, Hx.
Qed.
Print Assumptions C100_triples.

(** A root function: the sequence of the SigPerm can be given as arguments instead. *)
Theorem C100_sequence : forall f g m r s, made false f -> is_constant f = false -> adicity f = valency f -> m < 2 ^ valency f -> r < fact (valency f) -> SigPerm_pair m r = Ok s ->
  exists l, sg_sequence s (Some (valency f)) = Ok l /\ Permutation (map atom l) (range (valency f)) /\ (turns f g m r <-> boolf_apply f l = Ok g).
Proof.
  intros f g m r s Mf C A Hm Hr Es. assert (Rf := m_red f Mf). destruct (pair_spec m r) as (s' & Es' & Ws & _). assert (s' = s) by congruence. subst s'.
  assert (Ls : sg_length s <= valency f) by (apply (pair_length (valency f) m r s Es); auto). exists (map (sf s) (range (valency f))). split; [apply sequence_ok; assumption|].
  assert (Lt : forall i, i < valency f -> atom (sf s i) < valency f).
  { intros i Hi. rewrite sf_atom. destruct (int_to_perm_spec r) as (p & Ep & _). destruct (pair_sf m r s p Es Ep) as [_ Fs]. rewrite <- sf_atom, Fs, atom_lit. assert (Pm := permutes_act r (valency f) Hr). assert (X := permutes_lt _ _ _ Pm Hi). unfold Proof_MinRepCoset.act in X. rewrite Ep in X. exact X. }
  assert (Nd : NoDup (map atom (map (sf s) (range (valency f))))).
  { rewrite map_map. apply Proof_Helpers.NoDup_map_inj; [apply range_NoDup|]. intros x y _ _ E. rewrite !sf_atom in E. apply (proj1 (s_bij s Ws)), E. }
  split.
  { apply NoDup_Permutation_bis; [exact Nd | rewrite !map_length; lia|]. intros x Hx. rewrite map_map in Hx. apply in_map_iff in Hx as (i & <- & Hi). apply range_In, Lt, range_In, Hi. }
  assert (Av : atomvals f = range (valency f)) by (apply (is_root_range f (proj1 Rf)); unfold is_root; apply Nat.eqb_eq, A).
  destruct (apply_sigperm_spec f s Rf Ws) as (h & Eh & Rh & Sh). destruct (apply_spec f (map (sf s) (range (valency f))) (proj1 Rf) (valency_pos f Rf C)) as (k & Ek & Rk & Sk); [rewrite map_length; apply range_length | exact Nd|].
  assert (h = k).
  { apply reduced_unique; [exact Rh | exact Rk|]. intro e. rewrite Sh, Sk. unfold sem. rewrite Av, !map_map. reflexivity. }
  subst k. rewrite Ek. split; [intros (s' & E1 & E2); congruence | intro H; exists s; split; [exact Es | congruence]].
Qed.
Print Assumptions C100_sequence.

(* ex_f: x0 and not x1; ex_g: x2 and not x0 *)
Definition ex_f : boolf := mkBoolf [false; true; false; false] [0; 1] false false.
Definition ex_g : boolf := mkBoolf [false; false; true; false] [0; 2] false false.
Lemma ex_f_made : made false ex_f.
Proof.
  destruct (Boolf_vec_sorted [false; true; false; false] [0; 1]) as [f [E [R _]]]; [repeat constructor | reflexivity|].
  vm_compute in E. injection E as <-. apply reduced_made, R.
Qed.
Lemma ex_g_made : made false ex_g.
Proof.
  destruct (Boolf_vec_sorted [false; false; true; false] [0; 2]) as [f [E [R _]]]; [repeat constructor | reflexivity|].
  vm_compute in E. injection E as <-. apply reduced_made, R.
Qed.
Example C100_example : made false ex_f /\ made false ex_g /\ within 3 ex_f /\ within 3 ex_g /\ 3 = valency ex_f + 1 /\
  (let* c := ec_clan 1 ex_f (Some 3) true in Ok (ec_block c ex_g)) = Ok (Some [3; 15; 32; 44]%Z) /\
  (let* c := ec_clan 1 ex_g (Some 3) true in Ok (ec_block c ex_f)) = Ok (Some [4; 20; 28; 44]%Z) /\
  (let* c := ec_clan 1 ex_f (Some 3) false in Ok (ec_block c ex_g)) = Ok (Some [4; 19]%Z) /\
  (let* s := SigPerm_pair 2 3 in let* t := sg_inv s in sg_pair t) = Ok (4, 4) /\
  boolf_apply ex_f [2; 0]%Z = Ok ex_g /\ spread_sigperm_to_sigvar [1; 0]%Z [0; 1]%Z = Ok [2; 0]%Z.
Proof. split; [exact ex_f_made|]. split; [exact ex_g_made|]. split; [apply ex_within; reflexivity|]. split; [apply ex_within; reflexivity|]. split; [reflexivity|]. repeat split; vm_compute; reflexivity. Qed.
(* negating x2 keeps ex_f *)
Example C100_coset_example : turns ex_f ex_g 0 3 /\ turns ex_f ex_f 4 0 /\ exists s t c, SigPerm_pair 4 0 = Ok s /\ SigPerm_pair 0 3 = Ok t /\ sg_mul t s = Ok c /\ sg_pair c = Ok (2, 3).
Proof. split; [eexists; split; vm_compute; reflexivity|]. split; [eexists; split; vm_compute; reflexivity|]. do 3 eexists. repeat split; vm_compute; reflexivity. Qed.
