(** Proof_BlightBlocks: equality blocks and preferred sides. *)

From Coq Require Import List Arith ZArith Bool Lia Permutation Sorted Relations.
From Verif Require Import Model_Base Lib Model_Binary Model_Splits Model_Perm Model_SetPart Model_SetPartComp Model_Boolf Model_SetPartBoolf Model_Blight.
From Verif Require Import Spec_SetPart Proof_SetPart Proof_SetPartMore Spec_SetPartComp Proof_SetPartComp Proof_SetPartCompMore Props_SetPartComp.
From Verif Require Import Spec_Bits Spec_Boolf Spec_Splits Spec_Blight Proof_Binary Proof_Linear Proof_Boolf Proof_BoolfTable Proof_BoolfApply Proof_Noble Proof_Perm Proof_BoolfMake Proof_Splits Props_Boolf Proof_SetPartBoolf Props_SetPartBoolf Proof_Blight Proof_BlightBoolf Proof_Blocks.
Import ListNotations.
Open Scope nat_scope.

Lemma tied_refl f a : tied f a a.
Proof. exists false. intros e He. apply xorb_nilpotent. Qed.
Lemma tied_sym f a b : tied f a b -> tied f b a.
Proof. intros [c H]. exists c. intros e He. rewrite xorb_comm. apply H, He. Qed.
Lemma tied_trans f a b c : tied f a b -> tied f b c -> tied f a c.
Proof. intros [p H] [q K]. exists (xorb p q). apply (linked_trans f a b c p q H K). Qed.

Lemma classes_ext n E F B : (forall x y, x < n -> y < n -> (E x y <-> F x y)) -> classes n E B -> classes n F B.
Proof.
  intros H (C1 & C2 & C3). split; [|split; assumption]. intros b Hb. destruct (C1 b Hb) as (X & Y & Z). split; [exact X|]. split; [exact Y|].
  intros x Hx. destruct (Z x Hx) as [Hn Hy]. split; [exact Hn|]. intro y. rewrite Hy. split; intros [K L]; (split; [exact K|]); apply H in L || apply H; assumption.
Qed.

Lemma closure_equiv (E : nat -> nat -> Prop) n pairs : (forall a, E a a) -> (forall a b, E a b -> E b a) -> (forall a b c, E a b -> E b c -> E a c) ->
  (forall a b, In (a, b) pairs <-> a < b < n /\ E a b) -> forall x y, x < n -> y < n -> (closure pairs x y <-> E x y).
Proof.
  intros Er Es Et Hp x y Hx Hy. split.
  - intro H. induction H as [a b H|a|a b H IH|a b c H1 IH1 H2 IH2].
    + apply Hp in H. apply H.
    + apply Er.
    + apply Es, IH; assumption.
    + destruct (closure_range pairs n a b) as [->|[_ Hb]]; [intros; apply Hp; assumption | exact H1 | apply IH2; assumption|]. eapply Et; [apply IH1 | apply IH2]; assumption.
  - intro H. destruct (Nat.lt_total x y) as [L|[->|L]].
    + apply rst_step, Hp. split; [lia | exact H].
    + apply rst_refl.
    + apply rst_sym, rst_step, Hp. split; [lia | apply Es; exact H].
Qed.

Lemma list_min_ascending l n : ascending l -> In n l -> (forall m, In m l -> n <= m) -> list_min_nat l = n.
Proof.
  intros Hl Hn Hm. destruct l as [|x l]; [destruct Hn|]. cbn [list_min_nat]. inversion Hl as [|? ? Hs Hf]; subst.
  assert (x = n). { destruct Hn as [->|Hn]; [reflexivity|]. rewrite Forall_forall in Hf. specialize (Hf n Hn). specialize (Hm x (or_introl eq_refl)). lia. }
  subst n. clear - Hf. induction l as [|y l IH]; [reflexivity|]. inversion Hf; subst. cbn [fold_left]. rewrite Nat.min_l by lia. apply IH. assumption.
Qed.

Lemma list_min_In l : l <> [] -> In (list_min_nat l) l /\ forall m, In m l -> list_min_nat l <= m.
Proof.
  destruct l as [|x l]; [congruence|]. intros _. cbn [list_min_nat]. revert x. induction l as [|y l IH]; intro x; cbn [fold_left].
  - split; [left; reflexivity|]. intros m [->|[]]. lia.
  - destruct (IH (Nat.min x y)) as [H1 H2]. split.
    + destruct H1 as [H1|H1]; [|right; right; exact H1]. rewrite <- H1. destruct (Nat.min_spec x y) as [[_ ->]|[_ ->]]; [left | right; left]; reflexivity.
    + assert (H3 := H2 (Nat.min x y) (or_introl eq_refl)). intros m [<-|[<-|Hm]]; [lia | lia | apply H2; right; exact Hm].
Qed.

Lemma list_min_hd l : ascending l -> l <> [] -> list_min_nat l = hd 0 l.
Proof.
  intros H Hn. destruct l as [|x l]; [congruence|]. cbn [hd]. apply list_min_ascending; [exact H | left; reflexivity|].
  inversion H as [|? ? Hs Hf]; subst. rewrite Forall_forall in Hf. intros m [<-|Hm]; [lia | specialize (Hf m Hm); lia].
Qed.

Lemma hd_smallest (l : list nat) y : ascending l -> In y l -> hd 0 l <= y.
Proof.
  intros H Hy. destruct l as [|x l]; [destruct Hy|]. cbn [hd]. inversion H as [|? ? Hs Hf]; subst. rewrite Forall_forall in Hf. destruct Hy as [<-|Hy]; [lia|]. specialize (Hf y Hy). lia.
Qed.

Lemma first_spot_exists f : splittable f -> 0 < valency f -> exists n, first_spot f n.
Proof.
  intros R Hv. destruct (key_satisfiable f 0 R Hv) as [e He]. unfold sem, table in He.
  set (m := b2n (map e (atomvals f))) in *. clearbody m. revert He. induction m as [m IH] using lt_wf_ind. intro Hm.
  destruct (existsb (fun k => nth k (root f) false) (seq 0 m)) eqn:E.
  - apply existsb_exists in E as [k [Hk E]]. apply in_seq in Hk. apply (IH k); [lia | exact E].
  - exists m. split; [exact Hm|]. intros k Hk. destruct (nth k (root f) false) eqn:X; [|reflexivity]. assert (existsb (fun k => nth k (root f) false) (seq 0 m) = true); [|congruence].
    apply existsb_exists. exists k. split; [apply in_seq; lia | exact X].
Qed.

(** recto is preferred iff the first spot is in it *)
Lemma prefer_first f sp k n : fitting f -> splits f = Ok sp -> k < valency f -> first_spot f n ->
  exists prefer, (let s := nth k sp ([], []) in
    (if negb (nonempty (fst s)) || negb (nonempty (snd s)) then Ok (negb (nonempty (snd s)))
     else Ok (Nat.ltb (list_min_nat (fst s)) (list_min_nat (snd s)))) : res bool) = Ok prefer /\ prefer = Nat.testbit n k.
Proof.
  intros F Es Hk [Hn Hmin]. destruct (splits_ok f F) as [sp' [E' [Hl H]]]. assert (sp' = sp) by congruence. subst sp'.
  destruct (H k Hk) as [r [v [X [A1 [A2 [B1 B2]]]]]]. rewrite X. cbn [fst snd].
  assert (Le : forall m, nth m (root f) false = true -> n <= m).
  { intros m Hm. destruct (Nat.le_gt_cases n m) as [|Hgt]; [assumption|]. rewrite (Hmin m Hgt) in Hm. discriminate. }
  destruct (Nat.testbit n k) eqn:T.
  - assert (Hr : In n r) by (apply B1; auto). destruct r as [|r0 r]; [destruct Hr|]. cbn [nonempty negb orb].
    destruct v as [|v0 v]; [eexists; split; reflexivity|]. cbn [nonempty negb]. eexists. split; [reflexivity|].
    rewrite (list_min_ascending (r0 :: r) n A1 Hr) by (intros m Hm; apply Le, B1; exact Hm). apply Nat.ltb_lt.
    destruct (list_min_In (v0 :: v)) as [Hv _]; [discriminate|]. apply B2 in Hv as [Hv Tv]. specialize (Le _ Hv).
    assert (n <> list_min_nat (v0 :: v)) by congruence. lia.
  - assert (Hv : In n v) by (apply B2; auto). destruct v as [|v0 v]; [destruct Hv|]. cbn [nonempty negb].
    destruct r as [|r0 r]; [eexists; split; reflexivity|]. cbn [nonempty negb orb]. eexists. split; [reflexivity|].
    rewrite (list_min_ascending (v0 :: v) n A2 Hv) by (intros m Hm; apply Le, B2; exact Hm). apply Nat.ltb_ge.
    destruct (list_min_In (r0 :: r)) as [Hr _]; [discriminate|]. apply B1 in Hr as [Hr Tr]. apply Le. exact Hr.
Qed.

Lemma preferred_side_spec order f b : (forall l, Permutation (order l) l) -> splittable f -> b <> [] -> ascending b ->
  (forall x, In x b -> x < valency f /\ forall y, In y b <-> y < valency f /\ tied f x y) ->
  exists p, preferred_side order f b = Ok p /\ preferred f b p.
Proof.
  intros Ho R Hne Ha Hb. destruct b as [|x b]; [congruence|]. clear Hne. assert (F : fitting f) by apply R.
  destruct (Hb x (or_introl eq_refl)) as [Hx Hcl]. destruct b as [|x' b0].
  { exists None. split; [reflexivity|]. intros y z [<-|[]] [<-|[]] e He. apply xorb_nilpotent. }
  set (b := x' :: b0) in *. cbn [preferred_side]. unfold b at 1. cbn iota beta.
  destruct (bloat_forced order f Ho R) as [s [st [E [H [Sd Fo]]]]]. rewrite E. cbn [bind].
  destruct (C48_derived order s st H Ho) as (_ & _ & Hc & _). specialize (Hc (Z.of_nat x)).
  destruct (get_comp order s (Z.of_nat x)) as [v|].
  - destruct Hc as [Hc Hmin]. apply Fo in Hc as [[_ X]|[_ [Hv L]]]; [discriminate|]. apply is_key_nat in Hv as [k [-> Hk]]. rewrite Nat2Z.id.
    apply (proj1 (zlinked_keys f x k true)) in L.
    destruct (splits_ok f F) as [sp [Es [Hl _]]]. rewrite Es. cbn [bind]. rewrite (splits_get f sp) by assumption. cbn [bind].
    destruct (first_spot_exists f R) as [n Hn]; [lia|]. destruct (prefer_first f sp x n F Es Hx Hn) as [pr [Ep Hp]]. cbv zeta in Ep. rewrite Ep. cbn [bind].
    assert (Uniq : forall m, first_spot f m -> m = n).
    { intros m [M1 M2]. destruct Hn as [N1 N2]. destruct (Nat.lt_total m n) as [L1|[L1|L1]]; [rewrite N2 in M1 by exact L1; discriminate | exact L1 | rewrite M2 in N1 by exact L1; discriminate]. }
    assert (Kb : In k (x :: b)) by (apply Hcl; split; [exact Hk | exists true; exact L]).
    eexists. split; [reflexivity|]. destruct pr; cbn [preferred].
    + split; [left; reflexivity|]. split; [exists k; split; [exact Kb | exact L]|]. split; [intros m Hm; rewrite (Uniq m Hm); symmetry; exact Hp|].
      intros y Hy _. apply (hd_smallest (x :: b) y Ha Hy).
    + split; [exact Kb|]. split; [exists x; split; [left; reflexivity | apply linked_sym; exact L]|]. split.
      * intros m Hm. rewrite (Uniq m Hm). assert (X := proj1 (linked_spots f x k true F Hx Hk) L n (proj1 Hn)). rewrite <- Hp in X. destruct (Nat.testbit n k); [reflexivity | discriminate X].
      * intros y Hy Hl'. assert (Hyv : y < valency f) by exact (proj1 (Hb y Hy)).
        assert (Z : (Z.of_nat k <= Z.of_nat y)%Z); [|lia]. apply Hmin. apply Fo. right. split; [unfold is_key; lia|]. split; [unfold is_key; lia|]. apply zlinked_keys.
        apply (linked_trans f x k y true false L Hl').
  - exists None. split; [reflexivity|]. cbn [preferred].
    assert (All : forall y, In y (x :: b) -> linked f x y false).
    { intros y Hy. apply Hcl in Hy as [Hyv [c L]]. destruct c; [|exact L]. destruct (Hc (Z.of_nat y)). apply Fo. right. split; [unfold is_key; lia|]. split; [unfold is_key; lia|]. apply zlinked_keys. exact L. }
    intros y z Hy Hz. apply (linked_trans f y x z false false); [apply linked_sym|]; apply All; assumption.
Qed.

(** * sort_together *)

Lemma isort_map {A B} (leA : A -> A -> bool) (leB : B -> B -> bool) (g : A -> B) l : (forall x y, leB (g x) (g y) = leA x y) ->
  isort leB (map g l) = map g (isort leA l).
Proof.
  intro H. induction l as [|x l IH]; [reflexivity|]. cbn [map isort]. rewrite IH. generalize (isort leA l) as m. intro m. clear IH.
  induction m as [|y m IH]; [reflexivity|]. cbn [map insert]. rewrite H. destruct (leA x y); [reflexivity|]. cbn [map]. rewrite IH. reflexivity.
Qed.

Lemma combine_map_r {A B C} (g : B -> C) (ks : list A) (l : list B) : combine ks (map g l) = map (fun kx => (fst kx, g (snd kx))) (combine ks l).
Proof. revert l. induction ks as [|k ks IH]; intros [|x l]; [reflexivity..|]. cbn. rewrite IH. reflexivity. Qed.

Lemma sort_by_map {A B} ks (g : A -> B) l : sort_by ks (map g l) = map g (sort_by ks l).
Proof.
  unfold sort_by. rewrite combine_map_r. rewrite (isort_map (fun x y : nat * A => Nat.leb (fst x) (fst y)) _ (fun kx : nat * A => (fst kx, g (snd kx)))) by reflexivity.
  rewrite !map_map. reflexivity.
Qed.

Lemma sort_by_perm {A} ks (l : list A) : length ks = length l -> Permutation (sort_by ks l) l.
Proof.
  intro H. unfold sort_by. transitivity (map snd (combine ks l)).
  - apply Permutation_map. symmetry. apply isort_perm.
  - assert (X : map snd (combine ks l) = l); [|rewrite X; apply Permutation_refl].
    revert l H. induction ks as [|k ks IH]; intros [|x l] H; try discriminate H; [reflexivity|]. cbn. rewrite IH by (injection H; auto). reflexivity.
Qed.

Lemma sort_by_sorted {A} (g : A -> nat) l : NoDup (map g l) -> ascending (map g (sort_by (map g l) l)).
Proof.
  intro Hn. unfold sort_by. set (le := fun x y : nat * A => Nat.leb (fst x) (fst y)).
  assert (Hc : combine (map g l) l = map (fun x => (g x, x)) l) by (clear; induction l as [|x l IH]; [reflexivity|]; cbn; rewrite IH; reflexivity).
  rewrite Hc. rewrite (isort_map (fun x y => Nat.leb (g x) (g y)) le (fun x => (g x, x))) by reflexivity. rewrite (map_map (fun x => (g x, x)) snd). cbn [snd]. rewrite map_id.
  set (ls := fun x y => Nat.leb (g x) (g y)).
  assert (Hp : Permutation l (isort ls l)) by apply isort_perm.
  assert (Hs : StronglySorted (fun x y => ls x y = true) (isort ls l)).
  { apply isort_sorted; unfold ls; [intros x y; rewrite !Nat.leb_le; lia | intros x y z; rewrite !Nat.leb_le; lia]. }
  assert (Hn' : NoDup (map g (isort ls l))) by (eapply Permutation_NoDup; [apply Permutation_map, Hp | exact Hn]).
  revert Hs Hn'. generalize (isort ls l) as m. intros m Hs Hn'. induction Hs as [|x m Hs IH Hf]; [constructor|]. cbn [map] in *. inversion Hn' as [|? ? Hni Hnd]; subst.
  constructor; [apply IH; exact Hnd|]. rewrite Forall_forall in *. intros y Hy. apply in_map_iff in Hy as [z [<- Hz]]. specialize (Hf z Hz). unfold ls in Hf. apply Nat.leb_le in Hf.
  assert (g x <> g z); [|lia]. intro X. apply Hni. rewrite X. apply in_map. exact Hz.
Qed.

(** * Equality blocks *)

Lemma representative_In f b p : b <> [] -> preferred f b p -> In (representative (b, p)) b.
Proof. intros Hne Hp. unfold representative. cbn [fst snd]. destruct p as [k|]; [apply Hp|]. destruct b; [congruence | left; reflexivity]. Qed.

Lemma classes_disjoint n (E : nat -> nat -> Prop) B b c x : (forall x y z, E x y -> E y z -> E x z) -> classes n E B -> In b B -> In c B -> In x b -> In x c -> b = c.
Proof.
  intros Et (C1 & _ & _) Hb Hc Hx Hx'. destruct (C1 b Hb) as (_ & Ab & Kb), (C1 c Hc) as (_ & Ac & Kc). apply ascending_ext; [exact Ab | exact Ac|].
  intro y. rewrite (proj2 (Kb x Hx) y), (proj2 (Kc x Hx') y). reflexivity.
Qed.

Lemma blocks_and_sides_spec order f : (forall l, Permutation (order l) l) -> splittable f ->
  exists B P, blocks_and_sides order f = Ok (B, P) /\ length P = length B /\ classes (valency f) (tied f) B /\
    (forall bp, In bp (combine B P) -> preferred f (fst bp) (snd bp)) /\
    ascending (map representative (combine B P)).
Proof.
  intros Ho R. assert (F : fitting f) by apply R. unfold blocks_and_sides. destruct (is_constant f) eqn:Ec.
  { apply R in Ec. exists [], []. split; [reflexivity|]. split; [reflexivity|]. split; [|split; [intros bp [] | constructor]].
    unfold valency. rewrite Ec. split; [intros b []|]. split; [cbn; intros; lia | constructor]. }
  destruct (equal_and_onesided_splittable f R) as [d [ol [E [Hk [Ht _]]]]].
  set (pairs := map fst (filter (fun kv : (nat * nat) * bool => snd kv) d)).
  assert (Hpairs : forall a b, In (a, b) pairs <-> a < b < valency f /\ tied f a b).
  { intros a b. unfold pairs. rewrite in_map_iff. split.
    - intros [[[a' b'] c] [X Hin]]. apply filter_In in Hin as [Hin Hc]. cbn in X, Hc. injection X as -> ->. subst c. split; [|apply (Ht a b true Hin); reflexivity].
      apply pairs_range_In. rewrite <- Hk. apply in_map_iff. exists ((a, b), true). split; [reflexivity | exact Hin].
    - intros [Hab T]. apply pairs_range_In in Hab. rewrite <- Hk in Hab. apply in_map_iff in Hab as [[[a' b'] c] [X Hin]]. cbn in X. injection X as -> ->.
      exists ((a, b), c). split; [reflexivity|]. apply filter_In. split; [exact Hin|]. apply (Ht a b c Hin). exact T. }
  destruct (blocks_of_pairs (valency f) pairs) as (p0 & p & zb & E0 & E1 & _ & _ & _ & E2 & Cl & _); [intros a b H; apply Hpairs; exact H|].
  rewrite E0. cbn [bind]. unfold splits_equal. rewrite E. cbn [bind fst]. fold pairs. rewrite E1. cbn [bind]. rewrite E2. cbn [bind]. cbv zeta.
  set (B := map (map Z.to_nat) zb) in *.
  assert (Cl' : classes (valency f) (tied f) B).
  { apply (classes_ext _ (closure pairs)); [|exact Cl]. apply closure_equiv; [apply tied_refl | apply tied_sym | apply tied_trans | exact Hpairs]. }
  assert (Side : forall b, In b B -> exists q, preferred_side order f b = Ok q /\ preferred f b q).
  { intros b Hb. destruct Cl' as [C1 _]. destruct (C1 b Hb) as (X & Y & Z). apply preferred_side_spec; assumption. }
  assert (Sides : exists P, mapM (preferred_side order f) B = Ok P /\ length P = length B /\ forall bp, In bp (combine B P) -> preferred f (fst bp) (snd bp)).
  { clear - Side. induction B as [|b B IH]; [exists []; split; [reflexivity|]; split; [reflexivity | intros bp []]|]. destruct (Side b (or_introl eq_refl)) as [q [Eq Hq]].
    destruct IH as [P [EP [LP HP]]]; [intros; apply Side; right; assumption|]. exists (q :: P). cbn [mapM]. rewrite Eq. cbn [bind]. rewrite EP. cbn [bind]. split; [reflexivity|].
    split; [cbn; lia|]. intros bp [<-|Hin]; [exact Hq | apply HP; exact Hin]. }
  destruct Sides as [P [EP [LP HP]]]. rewrite EP. cbn [bind].
  assert (Hne : forall bp, In bp (combine B P) -> In (fst bp) B /\ fst bp <> []).
  { intros [b q] Hin. apply in_combine_l in Hin. split; [exact Hin|]. apply (proj1 Cl'). exact Hin. }
  rewrite (mapM_ok _ representative).
  2: { intros [b q] Hin. destruct (Hne _ Hin) as [_ Hb]. unfold representative. cbn [fst snd] in *. destruct q; [reflexivity|]. destruct b; [congruence | reflexivity]. }
  cbn [bind]. set (L := combine B P) in *.
  assert (LB : map fst L = B) by (unfold L; clear - LP; revert P LP; induction B as [|b B IH]; intros [|q P] H; try discriminate H; [reflexivity|]; cbn; rewrite IH by (injection H; auto); reflexivity).
  assert (LPP : map snd L = P) by (unfold L; clear - LP; revert P LP; induction B as [|b B IH]; intros [|q P] H; try discriminate H; [reflexivity|]; cbn; rewrite IH by (injection H; auto); reflexivity).
  assert (X1 : sort_by (map representative L) B = map fst (sort_by (map representative L) L)) by (rewrite <- sort_by_map, LB; reflexivity).
  assert (X2 : sort_by (map representative L) P = map snd (sort_by (map representative L) L)) by (rewrite <- sort_by_map, LPP; reflexivity).
  rewrite X1, X2.
  set (L' := sort_by (map representative L) L) in *.
  assert (Perm : Permutation L' L) by (apply sort_by_perm; apply map_length).
  assert (Hcomb : combine (map fst L') (map snd L') = L') by (clear; induction L' as [|[x y] l IH]; [reflexivity|]; cbn; rewrite IH; reflexivity).
  exists (map fst L'), (map snd L'). split; [reflexivity|]. split; [rewrite !map_length; reflexivity|]. rewrite Hcomb.
  assert (PB : Permutation (map fst L') B) by (rewrite <- LB; apply Permutation_map; exact Perm).
  split; [|split].
  - destruct Cl' as (C1 & C2 & C3). split; [intros b Hb; apply C1; eapply Permutation_in; [exact PB | exact Hb]|]. split; [|eapply Permutation_NoDup; [symmetry; exact PB | exact C3]].
    intros x Hx. destruct (C2 x Hx) as [b [Hb Hxb]]. exists b. split; [eapply Permutation_in; [symmetry; exact PB | exact Hb] | exact Hxb].
  - intros bp Hin. apply HP. eapply Permutation_in; [exact Perm | exact Hin].
  - apply sort_by_sorted. assert (NB : NoDup (map fst L)) by (rewrite LB; apply Cl').
    assert (Hrep : forall bp, In bp L -> In (representative bp) (fst bp)) by (intros [b q] Hin; apply (representative_In f); [apply (Hne _ Hin) | apply (HP _ Hin)]).
    clear - NB Hrep Hne Cl'. induction L as [|bp L IH]; [constructor|]. cbn [map] in *. inversion NB as [|? ? Hni Hnd]; subst. constructor; [|apply IH; [intros; apply Hne; right; assumption | exact Hnd | intros; apply Hrep; right; assumption]].
    intro X. apply in_map_iff in X as [bq [X Hin]]. apply Hni. apply in_map_iff. exists bq. split; [|exact Hin].
    apply (classes_disjoint (valency f) (tied f) B _ _ (representative bp) (tied_trans f) Cl'); [apply Hne; right; exact Hin | apply Hne; left; reflexivity | rewrite <- X; apply Hrep; right; exact Hin | apply Hrep; left; reflexivity].
Qed.
