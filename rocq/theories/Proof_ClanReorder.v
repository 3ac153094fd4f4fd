(** Proof_ClanReorder: splinters with the same symmetries are aligned. *)

From Coq Require Import List Arith ZArith Bool Lia Permutation Sorted Factorial.
From Verif Require Import Model_Base Lib Model_Splits Model_Perm Model_Binary Model_SigPerm Model_SetPart Model_Boolf Model_BoolfMore Model_MinRep
  Model_Helpers Model_Segments Model_Ec Spec_Bits Spec_Perm Spec_SigPerm Spec_Boolf Spec_SetPart Spec_MinRep Spec_Helpers Spec_Ec Spec_ClanMatrix
  Proof_Helpers Proof_SetPart Proof_HelpersMore Proof_Inversions Proof_Deflate Proof_EcPartitioned Model_ClanMatrix Proof_Misc Proof_ClanSizes Proof_ClanSyms.
Import ListNotations.
Open Scope nat_scope.

(** * Dictionaries *)

Section Dict.
Context {K V : Type} (eqb : K -> K -> bool) (eqb_ok : forall x y, eqb x y = true <-> x = y).
Notation st := (fun (d : list (K * V)) (kv : K * V) => dstore eqb d (fst kv) (snd kv)).

Lemma eqb_case x y : (eqb x y = true /\ x = y) \/ (eqb x y = false /\ x <> y).
Proof. assert (H := eqb_ok x y). destruct (eqb x y); [left; split; [reflexivity | apply H; reflexivity] | right; split; [reflexivity | intro E; apply H in E; discriminate]]. Qed.

Lemma look_In (d : list (K * V)) k v : NoDup (map fst d) -> (dlook eqb d k = Ok v <-> In (k, v) d).
Proof.
  induction d as [|[k' v'] d IH]; cbn [dlook map fst In]; intro N; [split; [discriminate | intros []]|]. inversion N as [|? ? Hk N']; subst. destruct (eqb_case k k') as [[-> ->]|[-> Hkk]].
  - split; [intro E; injection E as ->; auto|]. intros [E|H]; [injection E as ->; reflexivity | exfalso; apply Hk, (in_map fst _ _ H)].
  - rewrite IH by exact N'. split; [auto | intros [E|H]; [injection E; congruence | exact H]].
Qed.
Lemma look_key (d : list (K * V)) k : In k (map fst d) <-> exists v, dlook eqb d k = Ok v.
Proof.
  induction d as [|[k' v'] d IH]; cbn [dlook map fst In]; [split; [intros [] | intros (v & H); discriminate]|]. destruct (eqb_case k k') as [[-> ->]|[-> Hkk]].
  - split; [eauto | auto].
  - rewrite <- IH. split; [intros [E|H]; [congruence | exact H] | auto].
Qed.
Lemma look_none (d : list (K * V)) k : ~ In k (map fst d) -> exists e, dlook eqb d k = Err e.
Proof. intro H. destruct (dlook eqb d k) as [v|e] eqn:E; [|eauto]. exfalso. apply H, look_key. eauto. Qed.
Lemma store_keys (d : list (K * V)) k v : map fst (dstore eqb d k v) = if existsb (eqb k) (map fst d) then map fst d else map fst d ++ [k].
Proof.
  induction d as [|[k' v'] d IH]; cbn [dstore map fst existsb]; [reflexivity|]. destruct (eqb k k'); cbn [orb map fst]; [reflexivity|]. rewrite IH. destruct (existsb (eqb k) (map fst d)); reflexivity.
Qed.
Lemma key_test (l : list K) k : existsb (eqb k) l = true <-> In k l.
Proof. rewrite existsb_exists. split; [intros (x & H & E); apply eqb_ok in E; subst; exact H | intro H; exists k; split; [exact H | apply eqb_ok; reflexivity]]. Qed.
Lemma store_same_keys (d : list (K * V)) k v : In k (map fst d) -> map fst (dstore eqb d k v) = map fst d.
Proof. intro H. rewrite store_keys. apply key_test in H. rewrite H. reflexivity. Qed.
Lemma store_new (d : list (K * V)) k v : ~ In k (map fst d) -> dstore eqb d k v = d ++ [(k, v)].
Proof.
  induction d as [|[k' v'] d IH]; cbn [dstore map fst In]; intro H; [reflexivity|]. destruct (eqb_case k k') as [[-> ->]|[-> Hkk]]; [exfalso; apply H; auto|]. rewrite IH by tauto. reflexivity.
Qed.
Lemma store_look (d : list (K * V)) k v j : dlook eqb (dstore eqb d k v) j = if eqb j k then Ok v else dlook eqb d j.
Proof.
  induction d as [|[k' v'] d IH]; cbn [dstore dlook]; [reflexivity|]. destruct (eqb_case k k') as [[-> <-]|[-> Hkk]]; cbn [dlook].
  - destruct (eqb j k); reflexivity.
  - destruct (eqb_case j k') as [[-> ->]|[-> Hj]]; [|exact IH]. destruct (eqb_case k' k) as [[-> E]|[-> _]]; [congruence | reflexivity].
Qed.
Lemma store_nodup (d : list (K * V)) k v : NoDup (map fst d) -> NoDup (map fst (dstore eqb d k v)).
Proof.
  intro N. rewrite store_keys. destruct (existsb (eqb k) (map fst d)) eqn:E; [exact N|]. apply (Permutation_NoDup (Permutation_cons_append _ _)). constructor; [|exact N]. intro H. apply key_test in H. congruence.
Qed.

Lemma stores_keys asg : forall d : list (K * V), (forall k v, In (k, v) asg -> In k (map fst d)) -> map fst (fold_left st asg d) = map fst d.
Proof.
  induction asg as [|[k v] asg IH]; intros d H; [reflexivity|]. cbn [fold_left fst snd]. assert (E := store_same_keys d k v (H k v (or_introl eq_refl))). rewrite IH; [exact E|]. intros k' v' H'. rewrite E. apply (H k' v'). right. exact H'.
Qed.
Lemma stores_other asg j : forall d : list (K * V), (forall v, ~ In (j, v) asg) -> dlook eqb (fold_left st asg d) j = dlook eqb d j.
Proof.
  induction asg as [|[k v] asg IH]; intros d H; [reflexivity|]. cbn [fold_left fst snd]. rewrite IH by (intros v' H'; apply (H v'); right; exact H'). rewrite store_look.
  destruct (eqb_case j k) as [[_ ->]|[-> _]]; [|reflexivity]. exfalso. apply (H v). left. reflexivity.
Qed.
Lemma stores_hit asg j v0 : forall d : list (K * V), In (j, v0) asg -> exists v, In (j, v) asg /\ dlook eqb (fold_left st asg d) j = Ok v.
Proof.
  induction asg as [|[k v] asg IH] using rev_ind; intros d H; [destruct H|]. rewrite fold_left_app. cbn [fold_left fst snd]. rewrite store_look. destruct (eqb_case j k) as [[-> ->]|[-> Hjk]].
  - exists v. split; [apply in_or_app; right; left; reflexivity | reflexivity].
  - apply in_app_or in H as [H|[E|[]]]; [|injection E; congruence]. destruct (IH d H) as (v' & H' & E'). exists v'. split; [apply in_or_app; auto | exact E'].
Qed.
End Dict.

Lemma npair_eqb_ok x y : npair_eqb x y = true <-> x = y.
Proof. destruct x as [a b], y as [c d]. unfold npair_eqb. cbn [fst snd]. rewrite andb_true_iff, !Nat.eqb_eq. split; [intros [-> ->]; reflexivity | intro E; injection E; auto]. Qed.

(** a loop whose steps make fixed assignments *)
Lemma foldM_stores {X S B} (dec : forall x y : X, {x = y} + {x <> y}) (F : S -> X -> res S) (h : S -> B -> S) (P : X -> list B -> Prop) l :
  (forall x, In x l -> exists asg, P x asg /\ forall s, F s x = Ok (fold_left h asg s)) ->
  exists A : X -> list B, (forall x, In x l -> P x (A x)) /\ forall s, foldM F l s = Ok (fold_left h (flat_map A l) s).
Proof.
  intro H. assert (G : exists A : X -> list B, forall x, In x l -> P x (A x) /\ forall s, F s x = Ok (fold_left h (A x) s)).
  { induction l as [|x l IH]; [exists (fun _ => []); intros ? []|]. destruct IH as (A & HA); [intros; apply H; right; assumption|]. destruct (H x (or_introl eq_refl)) as (asg & Pa & Fa).
    exists (fun y => if dec y x then asg else A y). intros y Hy. destruct (dec y x) as [->|N]; [auto|]. destruct Hy as [E|Hy]; [congruence | apply HA, Hy]. }
  destruct G as (A & HA). exists A. split; [intros x Hx; apply HA, Hx|]. clear H. induction l as [|x l IH]; intro s; cbn [foldM flat_map fold_left]; [reflexivity|].
  rewrite (proj2 (HA x (or_introl eq_refl))). cbn [bind]. rewrite IH by (intros; apply HA; right; assumption). rewrite fold_left_app. reflexivity.
Qed.

(** * Sorting by symmetry *)

Lemma sym_leb_iff a b : sym_leb a b = true <-> (fst a < fst b)%Z \/ (fst a = fst b /\ snd a <= snd b).
Proof. unfold sym_leb. rewrite orb_true_iff, andb_true_iff, Z.ltb_lt, Z.eqb_eq, Nat.leb_le. reflexivity. Qed.
Lemma sym_leb_total a b : sym_leb a b = true \/ sym_leb b a = true.
Proof. rewrite !sym_leb_iff. lia. Qed.
Lemma sym_leb_trans a b c : sym_leb a b = true -> sym_leb b c = true -> sym_leb a c = true.
Proof. rewrite !sym_leb_iff. lia. Qed.

Lemma sorted_at {A} (le : A -> A -> Prop) l d : StronglySorted le l -> forall i j, i < j -> j < length l -> le (nth i l d) (nth j l d).
Proof.
  induction 1 as [|x l S IH F]; intros i j Hij Hj; [cbn in Hj; lia|]. destruct j as [|j]; [lia|]. cbn [length] in Hj. destruct i as [|i]; cbn [nth]; [|apply IH; lia]. rewrite Forall_forall in F. apply F, nth_In. lia.
Qed.
Lemma sorted_map {A B} (g : A -> B) (le : A -> A -> Prop) (le' : B -> B -> Prop) l : (forall x y, le x y -> le' (g x) (g y)) -> StronglySorted le l -> StronglySorted le' (map g l).
Proof.
  intro H. induction 1 as [|x l S IH F]; cbn [map]; [constructor|]. constructor; [exact IH|]. rewrite Forall_forall in *. intros y Hy. apply in_map_iff in Hy as (z & <- & Hz). apply H, F, Hz.
Qed.

Lemma sorted_strict_le l : StronglySorted Z.le l -> StronglySorted (fun x y => Z.leb x y = true) l.
Proof. induction 1 as [|x l S IH F]; constructor; [exact IH|]. rewrite Forall_forall in *. intros y Hy. apply Z.leb_le, F, Hy. Qed.

Section BySymmetry.
Context (sy : nat -> Z).
Definition sorted_pairs (raw : list nat) : list (Z * nat) := isort sym_leb (map (fun z => (sy z, z)) raw).
Definition zhes (raw : list nat) : list nat := map snd (sorted_pairs raw).
Definition syms (raw : list nat) : list Z := map fst (sorted_pairs raw).

Lemma pairs_perm raw : Permutation (map (fun z => (sy z, z)) raw) (sorted_pairs raw).
Proof. apply isort_perm. Qed.
Lemma zhes_perm raw : Permutation raw (zhes raw).
Proof. unfold zhes. assert (P := Permutation_map snd (pairs_perm raw)). rewrite map_map, map_id in P. exact P. Qed.
Lemma syms_eq raw : syms raw = map sy (zhes raw).
Proof.
  unfold syms, zhes. rewrite map_map. apply map_ext_in. intros [s z] H. apply (Permutation_in _ (Permutation_sym (pairs_perm raw))), in_map_iff in H as (z' & E & _). injection E as <- <-. reflexivity.
Qed.
Lemma syms_length raw : length (syms raw) = length raw.
Proof. rewrite syms_eq, map_length. symmetry. apply Permutation_length, zhes_perm. Qed.
Lemma zhes_length raw : length (zhes raw) = length raw.
Proof. symmetry. apply Permutation_length, zhes_perm. Qed.
Lemma syms_sorted raw : StronglySorted Z.le (syms raw).
Proof. apply (sorted_map fst (fun a b => sym_leb a b = true)); [intros x y H; apply sym_leb_iff in H; lia | apply isort_sorted; [apply sym_leb_total | apply sym_leb_trans]]. Qed.
(** numbers with the same symmetry stay in their order *)
Lemma zhes_ascend raw i j : NoDup raw -> i < j -> j < length raw -> nth i (syms raw) 0%Z = nth j (syms raw) 0%Z -> nth i (zhes raw) 0 < nth j (zhes raw) 0.
Proof.
  intros N Hij Hj E. assert (Lp : length (sorted_pairs raw) = length raw) by (rewrite <- (Permutation_length (pairs_perm raw)), map_length; reflexivity).
  assert (H := sorted_at (fun a b => sym_leb a b = true) (sorted_pairs raw) (0%Z, 0) (isort_sorted _ sym_leb_total sym_leb_trans _) i j Hij ltac:(lia)). apply sym_leb_iff in H.
  assert (Ef : forall k, fst (nth k (sorted_pairs raw) (0%Z, 0)) = nth k (syms raw) 0%Z) by (intro k; unfold syms; change 0%Z with (fst (0%Z, 0)) at 2; symmetry; apply map_nth).
  assert (Es : forall k, snd (nth k (sorted_pairs raw) (0%Z, 0)) = nth k (zhes raw) 0) by (intro k; unfold zhes; change 0 with (snd (0%Z, 0)) at 2; symmetry; apply map_nth).
  rewrite !Ef, !Es in H. assert (Nz : NoDup (zhes raw)) by (apply (Permutation_NoDup (zhes_perm raw) N)).
  assert (D : nth i (zhes raw) 0 <> nth j (zhes raw) 0) by (intro D; apply (proj1 (NoDup_nth (zhes raw) 0) Nz) in D; rewrite ?zhes_length; lia). lia.
Qed.
Lemma syms_same raw raw' : Permutation (map sy raw) (map sy raw') -> syms raw = syms raw'.
Proof.
  intro P. apply (sorted_perm_eq Z.leb); [intros x y H H'; apply Z.leb_le in H, H'; lia | | |].
  - apply (sorted_strict_le _ (syms_sorted raw)).
  - apply (sorted_strict_le _ (syms_sorted raw')).
  - rewrite !syms_eq. rewrite <- (Permutation_map sy (zhes_perm raw)), P. apply Permutation_map, zhes_perm.
Qed.
End BySymmetry.

(** * The groups of a family *)

Definition picked (pi l : list nat) : list nat := map (fun i => nth i l 0) pi.

Lemma picked_perm pi l : Permutation pi (range (length l)) -> Permutation (picked pi l) l.
Proof.
  intro P. assert (E : map (fun i => nth i l 0) (range (length l)) = l).
  { apply (nth_ext _ _ 0 0); [rewrite map_length, range_length; reflexivity|]. intros i Hi. rewrite map_length, range_length in Hi. rewrite nth_map_range by exact Hi. reflexivity. }
  rewrite <- E at 2. apply Permutation_map, P.
Qed.
Lemma picked_map {A} (g : nat -> A) d pi l : g 0 = d -> map g (picked pi l) = map (fun i => nth i (map g l) d) pi.
Proof. intro H. unfold picked. rewrite map_map. apply map_ext. intro i. rewrite <- H. symmetry. apply map_nth. Qed.

Lemma group_dec (x y : list Z * ldict) : {x = y} + {x <> y}.
Proof. decide equality; repeat (apply list_eq_dec || apply Z.eq_dec || apply Nat.eq_dec || (intros; decide equality)). Defined.

Section Clan.
Context (f : boolf) (R : reduced f) (Root : adicity f = valency f) (L5 : valency f <= 5) (bl : nat -> nat).
Let n := valency f.
Context (sp : list ((nat * nat) * list nat)) (reps1 reps2 needs : list nat) (Sorted1 : StronglySorted lt reps1) (N2 : NoDup reps2).
Context (Nk : NoDup (map fst sp)) (Hk : forall p q, In (p, q) (map fst sp) <-> In p reps1 /\ In q reps2) (Hsp : forall p q l, In ((p, q), l) sp -> is_splinter f p q l).
Context (H1 : forall p, In p reps1 -> cz f p) (H2 : forall q, In q reps2 -> cz f q).

Definition raw (p q : nat) : list nat := match dlook npair_eqb sp (p, q) with Ok l => l | Err _ => [] end.
Lemma raw_look p q : In p reps1 -> In q reps2 -> dlook npair_eqb sp (p, q) = Ok (raw p q).
Proof. intros I1 I2. destruct (proj1 (look_key npair_eqb npair_eqb_ok sp (p, q)) (proj2 (Hk p q) (conj I1 I2))) as (v & E). unfold raw. rewrite E. reflexivity. Qed.
Lemma raw_splinter p q : In p reps1 -> In q reps2 -> is_splinter f p q (raw p q).
Proof. intros I1 I2. apply Hsp, (look_In npair_eqb npair_eqb_ok sp (p, q) _ Nk), raw_look; assumption. Qed.
Lemma raw_cz p q z : In p reps1 -> In q reps2 -> In z (raw p q) -> cz f z.
Proof. intros I1 I2 Hz. apply (raw_splinter p q I1 I2), Hz. Qed.
Lemma raw_nodup p q : In p reps1 -> In q reps2 -> NoDup (raw p q).
Proof. intros I1 I2. apply sorted_lt_NoDup, (raw_splinter p q I1 I2). Qed.
Lemma raw_some p q : In p reps1 -> In q reps2 -> 1 <= length (raw p q).
Proof. intros I1 I2. apply (splinter_some f R Root L5 p q); auto. apply raw_splinter; assumption. Qed.

Notation Sq q p := (zhes (sy bl) (raw p q)).
Notation Tq q p := (syms (sy bl) (raw p q)).
Definition members (q : nat) (s : list Z) (l : list nat) : list nat := filter (fun p => memb p needs && zlist_eqb (Tq q p) s) l.

Lemma members_In q s l p : In p (members q s l) <-> In p l /\ memb p needs = true /\ Tq q p = s.
Proof. unfold members. rewrite filter_In, andb_true_iff, zlist_eqb_eq. reflexivity. Qed.
Lemma members_snoc q s l p : members q s (l ++ [p]) = members q s l ++ (if memb p needs && zlist_eqb (Tq q p) s then [p] else []).
Proof. unfold members. rewrite filter_app. cbn [filter]. destruct (_ && _); reflexivity. Qed.

Lemma sorted_syms q p : In p reps1 -> In q reps2 -> mapM (sym_intval bl) (raw p q) = Ok (map (sy bl) (raw p q)) /\ sort_by_symmetry (map (sy bl) (raw p q)) (raw p q) = Ok (Tq q p, Sq q p).
Proof.
  intros I1 I2. split.
  - assert (H := fun z => raw_cz p q z I1 I2). induction (raw p q) as [|z l IH]; [reflexivity|]. cbn [mapM map]. rewrite (sy_ok f R Root L5 bl z) by (apply H; left; reflexivity). cbn [bind]. rewrite IH by (intros; apply H; right; assumption). reflexivity.
  - unfold sort_by_symmetry. rewrite map_length, Nat.eqb_refl. cbv iota. assert (X := raw_some p q I1 I2). destruct (Nat.eqb_spec (length (raw p q)) 0) as [E|_]; [lia|]. cbn [negb].
    assert (E : combine (map (sy bl) (raw p q)) (raw p q) = map (fun z => (sy bl z, z)) (raw p q)) by (clear X; induction (raw p q) as [|z l IH]; [reflexivity|]; cbn [map combine]; rewrite IH; reflexivity). rewrite E. reflexivity.
Qed.

Definition group_ok (q : nat) (l : list nat) (d : symset_dict) : Prop :=
  NoDup (map fst d) /\ (forall s i, In (s, i) d -> i = map (fun p => (p, Sq q p)) (members q s l) /\ members q s l <> []) /\ forall p, In p l -> memb p needs = true -> In (Tq q p) (map fst d).

Lemma collect_groups_from q : In q reps2 -> forall rest l d, group_ok q l d -> NoDup (l ++ rest) -> (forall p, In p rest -> In p reps1) ->
  exists d', foldM (fun (d : symset_dict) faction_rep =>
           if memb faction_rep needs then
             let* splinter_zhes := dlook npair_eqb sp (faction_rep, q) in
             let* splinter_syms := mapM (sym_intval bl) splinter_zhes in
             let* sz := sort_by_symmetry splinter_syms splinter_zhes in
             let inner := match dlook zlist_eqb d (fst sz) with Ok i => i | Err _ => [] end in
             Ok (dstore zlist_eqb d (fst sz) (dstore Nat.eqb inner faction_rep (snd sz)))
           else Ok d) rest d = Ok d' /\ group_ok q (l ++ rest) d'.
Proof.
  intro I2. induction rest as [|p rest IH]; intros l d G N I1; [exists d; rewrite app_nil_r; auto|]. cbn [foldM].
  assert (Np : ~ In p l) by (intro H; apply NoDup_remove_2 in N; apply N, in_or_app; auto). assert (App : l ++ p :: rest = (l ++ [p]) ++ rest) by (rewrite <- app_assoc; reflexivity). rewrite App in N |- *.
  assert (Ip : In p reps1) by (apply I1; left; reflexivity). destruct (memb p needs) eqn:Mp.
  - rewrite (raw_look p q Ip I2), bind_Ok. destruct (sorted_syms q p Ip I2) as [E1 E2]. rewrite E1, bind_Ok, E2, bind_Ok. cbn [fst snd]. destruct G as (Nd & Hd & Cd). set (s0 := Tq q p) in *.
    assert (Ein : match dlook zlist_eqb d s0 with Ok i => i | Err _ => [] end = map (fun p => (p, Sq q p)) (members q s0 l)).
    { destruct (dlook zlist_eqb d s0) as [i|e] eqn:E.
      - apply (look_In zlist_eqb zlist_eqb_eq d s0 i Nd) in E. apply (Hd s0 i E).
      - destruct (members q s0 l) as [|p' m] eqn:Em; [reflexivity|]. exfalso. assert (I : In p' (members q s0 l)) by (rewrite Em; left; reflexivity). apply members_In in I as (I & M & T). assert (K := Cd p' I M). rewrite T in K. apply (look_key zlist_eqb zlist_eqb_eq) in K as (v & K). congruence. }
    rewrite Ein. cbn [bind]. apply IH; [|exact N | intros; apply I1; right; assumption].
    assert (Ei : dstore Nat.eqb (map (fun p => (p, Sq q p)) (members q s0 l)) p (Sq q p) = map (fun p => (p, Sq q p)) (members q s0 (l ++ [p]))).
    { rewrite (store_new Nat.eqb Nat.eqb_eq).
      - rewrite members_snoc, Mp. fold s0. rewrite zlist_eqb_refl. cbn [andb]. rewrite map_app. reflexivity.
      - intro H. rewrite map_map, in_map_iff in H. destruct H as (p' & E & H). cbn [fst] in E. subst p'. apply members_In in H as (H & _). contradiction. }
    rewrite Ei. clear Ei Ein. assert (Nd' : NoDup (map fst (dstore zlist_eqb d s0 (map (fun p => (p, Sq q p)) (members q s0 (l ++ [p])))))) by (apply (store_nodup zlist_eqb zlist_eqb_eq), Nd). split; [exact Nd'|]. split.
    + intros s i Hi. apply (look_In zlist_eqb zlist_eqb_eq _ s i Nd') in Hi. rewrite (store_look zlist_eqb zlist_eqb_eq) in Hi. destruct (eqb_case zlist_eqb zlist_eqb_eq s s0) as [[Eb ->]|[Eb Hs]]; rewrite Eb in Hi.
      * injection Hi as <-. split; [reflexivity|]. rewrite members_snoc, Mp. fold s0. rewrite zlist_eqb_refl. cbn [andb]. intro H. apply app_eq_nil in H as [_ H]. discriminate.
      * apply (look_In zlist_eqb zlist_eqb_eq d s i Nd) in Hi. rewrite members_snoc, Mp. fold s0. destruct (eqb_case zlist_eqb zlist_eqb_eq s0 s) as [[_ E]|[-> _]]; [congruence|]. cbn [andb]. rewrite app_nil_r. apply Hd, Hi.
    + intros p' Hp' M'. apply (look_key zlist_eqb zlist_eqb_eq). rewrite (store_look zlist_eqb zlist_eqb_eq). destruct (eqb_case zlist_eqb zlist_eqb_eq (Tq q p') s0) as [[-> _]|[-> Hs]]; [eauto|]. apply (look_key zlist_eqb zlist_eqb_eq).
      apply in_app_or in Hp' as [Hp'|[<-|[]]]; [apply Cd; assumption | contradiction].
  - cbn [bind]. apply IH; [|exact N | intros; apply I1; right; assumption]. destruct G as (Nd & Hd & Cd). split; [exact Nd|]. split.
    + intros s i Hi. rewrite members_snoc, Mp. cbn [andb]. rewrite app_nil_r. apply Hd, Hi.
    + intros p' Hp' M'. apply in_app_or in Hp' as [Hp'|[<-|[]]]; [apply Cd; assumption | congruence].
Qed.
Lemma collect_groups q : In q reps2 -> exists d, collect_symsets bl sp needs q reps1 = Ok d /\ group_ok q reps1 d.
Proof.
  intro I2. apply (collect_groups_from q I2 reps1 [] []); [|apply sorted_lt_NoDup, Sorted1 | auto]. split; [constructor|]. split; [intros ? ? [] | intros ? []].
Qed.

Notation st := (fun (d : list ((nat * nat) * list nat)) (kv : (nat * nat) * list nat) => dstore npair_eqb d (fst kv) (snd kv)).

Lemma rows_loop q (g : nat -> list Z) ps : forall suf pre out, ps = pre ++ suf ->
  foldM (fun out (is : nat * list Z) =>
           let* symset_faction_rep := lget ps (fst is) in
           Ok (dstore npair_eqb out (symset_faction_rep, q) (map Z.to_nat (snd is))))
        (combine (seq (length pre) (length suf)) (map g suf)) out = Ok (fold_left st (map (fun p => ((p, q), map Z.to_nat (g p))) suf) out).
Proof.
  induction suf as [|p suf IH]; intros pre out E; [reflexivity|]. cbn [length seq map combine foldM fold_left fst snd]. rewrite (lget_ok ps (length pre) 0) by (rewrite E, app_length; cbn; lia). rewrite bind_Ok. cbn [bind].
  replace (nth (length pre) ps 0) with p by (rewrite E, app_nth2, Nat.sub_diag; [reflexivity | lia]).
  specialize (IH (pre ++ [p]) (dstore npair_eqb out (p, q) (map Z.to_nat (g p)))). rewrite app_length in IH. cbn [length] in IH. replace (length pre + 1) with (S (length pre)) in IH by lia. apply IH. rewrite E, <- app_assoc. reflexivity.
Qed.

Lemma group_stores q s : In q reps2 -> members q s reps1 <> [] -> exists pi, Permutation pi (range (length s)) /\
  (forall p, In p (members q s reps1) -> (forall p', In p' (members q s reps1) -> p <= p') -> StronglySorted lt (picked pi (Sq q p))) /\
  forall out, reorder_group q s (map (fun p => (p, Sq q p)) (members q s reps1)) out = Ok (fold_left st (map (fun p => ((p, q), picked pi (Sq q p))) (members q s reps1)) out).
Proof.
  intros I2 NE. set (ps := members q s reps1) in *. assert (Sp : StronglySorted lt ps) by (apply Proof_Deflate.filter_sorted, Sorted1).
  assert (Lp : forall p, In p ps -> In p reps1 /\ length (Sq q p) = length s).
  { intros p Hp. apply members_In in Hp as (I1 & _ & T). split; [exact I1|]. rewrite zhes_length, <- T, syms_length. reflexivity. }
  destruct ps as [|p0 ps'] eqn:Eps; [congruence|]. rewrite <- Eps in *. assert (H0 : In p0 ps) by (rewrite Eps; left; reflexivity). destruct (Lp p0 H0) as [I0 L0].
  assert (W : 0 < length s). { rewrite <- L0, zhes_length. apply (raw_some p0 q I0 I2). }
  set (rows := map (fun p => map Z.of_nat (Sq q p)) ps).
  destruct (sort_cols_eq [rows] false (length s)) as (pi & E & P & C); [discriminate | exact W | |].
  { constructor; [|constructor]. split; [unfold rows; rewrite Eps; discriminate|]. apply Forall_forall. intros row Hr. unfold rows in Hr. apply in_map_iff in Hr as (p & <- & Hp). rewrite map_length. apply Lp, Hp. }
  cbn [map] in E, C. exists pi. split; [exact P|]. split.
  - intros p Hp Min. assert (E0 : p = p0). { assert (A := Min p0 H0). rewrite Eps in Hp, Sp. destruct Hp as [Hp|Hp]; [auto|]. inversion Sp as [|? ? _ F]; subst. rewrite Forall_forall in F. apply F in Hp. lia. }
    subst p. apply (Proof_Helpers.sorted_nth _ 0). intros i j Hij Hj. assert (Lpi : length (picked pi (Sq q p0)) = length s) by (unfold picked; rewrite map_length, (Permutation_length P), range_length; reflexivity). rewrite Lpi in Hj.
    assert (Np : NoDup (picked pi (Sq q p0))).
    { apply (Permutation_NoDup (Permutation_sym (picked_perm pi (Sq q p0) ltac:(rewrite L0; exact P)))), (Permutation_NoDup (zhes_perm _ _)), raw_nodup; assumption. }
    assert (D : nth i (picked pi (Sq q p0)) 0 <> nth j (picked pi (Sq q p0)) 0) by (intro D; apply (proj1 (NoDup_nth _ 0) Np) in D; lia).
    destruct (Nat.lt_ge_cases (nth i (picked pi (Sq q p0)) 0) (nth j (picked pi (Sq q p0)) 0)) as [L|L]; [exact L|]. exfalso. apply (C i j ltac:(lia)). apply less_head. unfold column, rows. rewrite Eps. cbn [map].
    assert (Ec : forall k, nth k (map (fun i0 => nth i0 (map Z.of_nat (Sq q p0)) 0%Z) pi) 0%Z = Z.of_nat (nth k (picked pi (Sq q p0)) 0)).
    { intro k. rewrite <- (picked_map Z.of_nat 0%Z) by reflexivity. change 0%Z with (Z.of_nat 0) at 1. apply map_nth. }
    apply less_head. rewrite !Ec. lia.
  - intro out. unfold reorder_group. assert (Ek : sort_nat (map fst (map (fun p => (p, Sq q p)) ps)) = ps).
    { rewrite map_map. cbn [fst]. rewrite map_id. apply sort_nat_id. clear - Sp. induction Sp as [|x l S IH F]; constructor; [exact IH|]. rewrite Forall_forall in *. intros y Hy. apply F in Hy. lia. }
    cbv zeta. rewrite Ek. assert (Em : mapM (fun rep => let* s0 := dlook Nat.eqb (map (fun p => (p, Sq q p)) ps) rep in guard Nat.eqb (length s0) (length s) else ValueErr ;; Ok (map Z.of_nat s0)) ps = Ok rows).
    { unfold rows. assert (X : forall l, (forall p, In p l -> In p ps) -> mapM (fun rep => let* s0 := dlook Nat.eqb (map (fun p => (p, Sq q p)) ps) rep in guard Nat.eqb (length s0) (length s) else ValueErr ;; Ok (map Z.of_nat s0)) l = Ok (map (fun p => map Z.of_nat (Sq q p)) l)).
      { induction l as [|p l IH]; intro H; [reflexivity|]. cbn [mapM map]. assert (Hp := H p (or_introl eq_refl)). assert (Lk : dlook Nat.eqb (map (fun p => (p, Sq q p)) ps) p = Ok (Sq q p)).
        { apply (look_In Nat.eqb Nat.eqb_eq); [rewrite map_map; cbn [fst]; rewrite map_id; apply sorted_lt_NoDup, Sp|]. apply in_map_iff. exists p. auto. }
        rewrite Lk, bind_Ok, (proj2 (Lp p Hp)), Nat.eqb_refl. cbn [bind]. rewrite IH by (intros; apply H; right; assumption). reflexivity. }
      apply X. auto. }
    rewrite Em, bind_Ok, E, bind_Ok. match goal with |- context [lget [?x] 0] => change (lget [x] 0) with (Ok x) end. rewrite bind_Ok. unfold enumerate, rows. rewrite map_map, map_length.
    assert (RL := rows_loop q (fun p => map (fun i => nth i (map Z.of_nat (Sq q p)) 0%Z) pi) ps ps [] out eq_refl). cbn [length] in RL. rewrite RL. f_equal. f_equal. apply map_ext. intro p. f_equal.
    rewrite <- (picked_map Z.of_nat 0%Z) by reflexivity. rewrite map_map. rewrite <- (map_id (picked pi (Sq q p))) at 2. apply map_ext. intro. apply Nat2Z.id.
Qed.

Definition asgs_ok (q : nat) (asg : list ((nat * nat) * list nat)) : Prop :=
  (forall p q' v, In ((p, q'), v) asg -> q' = q /\ In p reps1 /\ memb p needs = true) /\
  forall s, members q s reps1 <> [] -> exists pi, Permutation pi (range (length s)) /\
    (forall p, In p (members q s reps1) -> (forall p', In p' (members q s reps1) -> p <= p') -> StronglySorted lt (picked pi (Sq q p))) /\
    forall p v, In p (members q s reps1) -> (In ((p, q), v) asg <-> v = picked pi (Sq q p)).

Lemma family_stores q : In q reps2 -> exists asg, asgs_ok q asg /\
  forall out, (let* symsets := collect_symsets bl sp needs q reps1 in foldM (fun out (sd : list Z * ldict) => reorder_group q (fst sd) (snd sd) out) symsets out) = Ok (fold_left st asg out).
Proof.
  intro I2. destruct (collect_groups q I2) as (d & E & Nd & Hd & Cd). rewrite E.
  destruct (foldM_stores (S := list ((nat * nat) * list nat)) group_dec (fun out (sd : list Z * ldict) => reorder_group q (fst sd) (snd sd) out) st
    (fun sd asg => exists pi, Permutation pi (range (length (fst sd))) /\
       (forall p, In p (members q (fst sd) reps1) -> (forall p', In p' (members q (fst sd) reps1) -> p <= p') -> StronglySorted lt (picked pi (Sq q p))) /\
       asg = map (fun p => ((p, q), picked pi (Sq q p))) (members q (fst sd) reps1)) d) as (A & HA & EA).
  { intros [s i] Hi. destruct (Hd s i Hi) as [-> NE]. cbn [fst snd]. destruct (group_stores q s I2 NE) as (pi & P & M & F). eexists. split; [exists pi; split; [exact P|]; split; [exact M | reflexivity] | exact F]. }
  exists (flat_map A d). split; [|intro out; rewrite bind_Ok; apply EA]. split.
  - intros p q' v H. apply in_flat_map in H as ((s & i) & Hi & H). destruct (HA (s, i) Hi) as (pi & _ & _ & Ea). rewrite Ea in H. apply in_map_iff in H as (p' & E' & Hp). injection E' as -> <- _. apply members_In in Hp. tauto.
  - intros s NE. assert (Ks : In s (map fst d)).
    { destruct (members q s reps1) as [|p m] eqn:Em; [congruence|]. assert (I : In p (members q s reps1)) by (rewrite Em; left; reflexivity). apply members_In in I as (I & M & <-). apply Cd; assumption. }
    apply in_map_iff in Ks as ((s' & i) & E' & Hi). cbn in E'. subst s'. destruct (HA (s, i) Hi) as (pi & P & M & Ea). cbn [fst] in P, M, Ea. exists pi. split; [exact P|]. split; [exact M|]. intros p v Hp. rewrite in_flat_map. split.
    + intros ((s' & i') & Hi' & H). destruct (HA (s', i') Hi') as (pi' & _ & _ & Ea'). cbn [fst] in Ea'. rewrite Ea' in H. apply in_map_iff in H as (p' & E' & Hp'). injection E' as -> <-. assert (Hp0 := Hp). apply members_In in Hp as (_ & _ & T), Hp' as (_ & _ & T').
      assert (Es : s' = s) by congruence. rewrite Es in *. clear Es T'. assert (Ei : i' = i). { apply (look_In zlist_eqb zlist_eqb_eq d s i Nd) in Hi. apply (look_In zlist_eqb zlist_eqb_eq d s i' Nd) in Hi'. congruence. } rewrite Ei in *. rewrite Ea in Ea'.
      assert (Em : forall x, In x (members q s reps1) -> picked pi (Sq q x) = picked pi' (Sq q x)).
      { assert (X : forall l, map (fun p => ((p, q), picked pi (Sq q p))) l = map (fun p => ((p, q), picked pi' (Sq q p))) l -> forall x, In x l -> picked pi (Sq q x) = picked pi' (Sq q x)).
        { induction l as [|x l IH]; intros El y [].
          - subst y. cbn [map] in El. injection El as El _. exact El.
          - cbn [map] in El. injection El as _ El. apply IH; assumption. }
        apply X, Ea'. }
      symmetry. apply Em, Hp0.
    + intros ->. exists (s, i). split; [exact Hi|]. rewrite Ea. apply in_map_iff. exists p. auto.
Qed.

Lemma reorder_spec : exists out, reorder_splinters bl reps1 reps2 needs sp = Ok out /\ map fst out = map fst sp /\
  (forall p q, In p reps1 -> In q reps2 -> memb p needs = false -> dlook npair_eqb out (p, q) = Ok (raw p q)) /\
  forall q s, In q reps2 -> members q s reps1 <> [] -> exists pi, Permutation pi (range (length s)) /\
    (forall p, In p (members q s reps1) -> (forall p', In p' (members q s reps1) -> p <= p') -> StronglySorted lt (picked pi (Sq q p))) /\
    forall p, In p (members q s reps1) -> dlook npair_eqb out (p, q) = Ok (picked pi (Sq q p)).
Proof.
  unfold reorder_splinters. destruct (foldM_stores Nat.eq_dec (fun out family_rep => let* symsets := collect_symsets bl sp needs family_rep reps1 in foldM (fun out (sd : list Z * ldict) => reorder_group family_rep (fst sd) (snd sd) out) symsets out) st asgs_ok reps2 family_stores) as (B & HB & EB).
  eexists. split; [apply EB|]. split; [|split].
  - apply (stores_keys npair_eqb npair_eqb_ok). intros [p q'] v H. apply in_flat_map in H as (q & Hq & H). apply (HB q Hq) in H as (-> & I1 & _). apply Hk. auto.
  - intros p q I1 I2 M. rewrite (stores_other npair_eqb npair_eqb_ok); [apply raw_look; assumption|]. intros v H. apply in_flat_map in H as (q' & Hq & H). apply (HB q' Hq) in H as (_ & _ & M'). congruence.
  - intros q s I2 NE. destruct (proj2 (HB q I2) s NE) as (pi & P & M & A). exists pi. split; [exact P|]. split; [exact M|]. intros p Hp.
    destruct (stores_hit npair_eqb npair_eqb_ok (flat_map B reps2) (p, q) (picked pi (Sq q p)) sp) as (v & Hv & E).
    { apply in_flat_map. exists q. split; [exact I2|]. apply (A p _ Hp). reflexivity. }
    apply in_flat_map in Hv as (q' & Hq' & Hv). assert (X := proj1 (HB q' Hq') p q v Hv). destruct X as [<- _]. apply (A p v Hp) in Hv. rewrite <- Hv. exact E.
Qed.

Context (Hn : forall p q, In p reps1 -> In q reps2 -> (memb p needs = true <-> 1 < length (raw p q) /\ sy bl p <> 0%Z)).

Lemma aligned_iff l m : Forall (cz f) l -> Forall (cz f) m -> (aligned n l m <-> map (sy bl) l = map (sy bl) m).
Proof.
  intros Fl Fm. unfold aligned. split.
  - intro A. revert Fl Fm. induction A as [|y z l m H A IH]; intros Fl Fm; [reflexivity|]. inversion Fl; inversion Fm; subst. cbn [map]. rewrite IH by assumption. f_equal. apply (sy_eq f R Root L5 bl); assumption.
  - revert m Fm. induction Fl as [|y l Hy Fl IH]; intros [|z m] Fm E; try discriminate E; [constructor|]. inversion Fm; subst. injection E as E1 E2. constructor; [apply (sy_eq f R Root L5 bl); assumption | apply IH; assumption].
Qed.
Lemma zero_all p q z : In p reps1 -> In q reps2 -> In z (raw p q) -> (sy bl z = 0%Z <-> sy bl p = 0%Z).
Proof.
  intros I1 I2 Hz. apply (raw_splinter p q I1 I2) in Hz as (Cz & F & _). split; apply (sy_zero_faction f R Root L5 bl); auto using num_faction_sym.
Qed.

Lemma aligned_spec out : reorder_splinters bl reps1 reps2 needs sp = Ok out -> map fst out = map fst sp /\
  (forall p q, In p reps1 -> In q reps2 -> exists l, dlook npair_eqb out (p, q) = Ok l /\ Permutation (raw p q) l) /\
  (forall p p' q l l', In p reps1 -> In p' reps1 -> In q reps2 -> dlook npair_eqb out (p, q) = Ok l -> dlook npair_eqb out (p', q) = Ok l' -> matching n l l' -> aligned n l l') /\
  (forall p q l, In p reps1 -> In q reps2 -> dlook npair_eqb out (p, q) = Ok l -> (forall p' l', In p' reps1 -> p' < p -> dlook npair_eqb out (p', q) = Ok l' -> ~ matching n l l') -> StronglySorted lt l) /\
  (forall p q l i j, In p reps1 -> In q reps2 -> dlook npair_eqb out (p, q) = Ok l -> i < j < length l -> same_orbits n (zhegalkin (nth i l 0)) (zhegalkin (nth j l 0)) -> nth i l 0 < nth j l 0).
Proof.
  intro Eo. destruct reorder_spec as (out' & Eo' & Ek & Hraw & Hgr). rewrite Eo in Eo'. injection Eo' as <-. split; [exact Ek|].
  assert (Self : forall p q, In p reps1 -> memb p needs = true -> In p (members q (Tq q p) reps1)) by (intros; apply members_In; auto).
  assert (Nz : forall p q, In p reps1 -> memb p needs = true -> members q (Tq q p) reps1 <> []) by (intros p q I M E; assert (X := Self p q I M); rewrite E in X; destruct X).
  assert (Perm : forall p q, In p reps1 -> In q reps2 -> exists l, dlook npair_eqb out (p, q) = Ok l /\ Permutation (raw p q) l).
  { intros p q I1 I2. destruct (memb p needs) eqn:M; [|exists (raw p q); split; [apply Hraw; assumption | reflexivity]].
    destruct (Hgr q (Tq q p) I2 (Nz p q I1 M)) as (pi & P & _ & Hl). exists (picked pi (Sq q p)). split; [apply Hl, Self; assumption|]. transitivity (Sq q p); [apply zhes_perm|]. symmetry. apply picked_perm. rewrite zhes_length, <- (syms_length (sy bl)). exact P. }
  assert (Czl : forall p q l, In p reps1 -> In q reps2 -> dlook npair_eqb out (p, q) = Ok l -> Permutation (raw p q) l /\ Forall (cz f) l).
  { intros p q l I1 I2 E. destruct (Perm p q I1 I2) as (l' & E' & P). rewrite E in E'. injection E' as <-. split; [exact P|]. apply Forall_forall. intros z Hz. apply (raw_cz p q z I1 I2), (Permutation_in _ (Permutation_sym P) Hz). }
  assert (Symp : forall q p p' l l', In p reps1 -> In p' reps1 -> In q reps2 -> memb p needs = true -> memb p' needs = true -> dlook npair_eqb out (p, q) = Ok l -> dlook npair_eqb out (p', q) = Ok l' -> Tq q p = Tq q p' -> aligned n l l').
  { intros q p p' l l' I1 I1' I2 M M' E E' T. destruct (Hgr q (Tq q p) I2 (Nz p q I1 M)) as (pi & P & _ & Hl). rewrite (Hl p (Self p q I1 M)) in E. rewrite (Hl p') in E' by (apply members_In; auto).
    apply aligned_iff; [apply (Czl p q); [assumption | assumption | rewrite (Hl p (Self p q I1 M)); exact E] | apply (Czl p' q); [assumption | assumption | rewrite (Hl p') by (apply members_In; auto); exact E'] |].
    injection E as <-. injection E' as <-. rewrite !(picked_map (sy bl) (sy bl 0)) by reflexivity. rewrite <- !syms_eq, T. reflexivity. }
  split; [exact Perm|]. split; [|split].
  - intros p p' q l l' I1 I1' I2 E E' (m & Pm & A). destruct (Czl p q l I1 I2 E) as [Pl Fl]. destruct (Czl p' q l' I1' I2 E') as [Pl' Fl']. assert (Fm : Forall (cz f) m) by (apply (Permutation_Forall Pm Fl')).
    apply (aligned_iff l m Fl Fm) in A. assert (Q : Permutation (map (sy bl) (raw p q)) (map (sy bl) (raw p' q))).
    { rewrite (Permutation_map (sy bl) Pl), A. rewrite <- (Permutation_map (sy bl) Pm). apply Permutation_map, Permutation_sym, Pl'. }
    assert (Len : length (raw p q) = length (raw p' q)) by (apply Permutation_length in Q; rewrite !map_length in Q; exact Q).
    assert (Zero : sy bl p = 0%Z <-> sy bl p' = 0%Z).
    { assert (X : forall a b, In a reps1 -> In b reps1 -> Permutation (map (sy bl) (raw a q)) (map (sy bl) (raw b q)) -> sy bl a = 0%Z -> sy bl b = 0%Z).
      { intros a b Ia Ib Pab Ea. assert (Lb := raw_some b q Ib I2). destruct (raw b q) as [|z r] eqn:Er; [cbn in Lb; lia|]. apply (zero_all b q z Ib I2); [rewrite Er; left; reflexivity|].
        assert (I : In (sy bl z) (map (sy bl) (raw a q))) by (apply (Permutation_in _ (Permutation_sym Pab)); left; reflexivity). apply in_map_iff in I as (y & <- & Hy). apply (zero_all a q y Ia I2 Hy), Ea. }
      split; apply X; auto using Permutation_sym. }
    destruct (memb p needs) eqn:M.
    + assert (M' : memb p' needs = true). { apply (Hn p' q I1' I2). apply (Hn p q I1 I2) in M as [Lm Nm]. split; [lia | tauto]. }
      apply (Symp q p p'); try assumption. apply syms_same, Q.
    + assert (M' : memb p' needs = false). { destruct (memb p' needs) eqn:M'; [|reflexivity]. apply (Hn p' q I1' I2) in M' as [Lm Nm]. assert (memb p needs = true) by (apply (Hn p q I1 I2); split; [lia | tauto]). congruence. }
      rewrite (Hraw p q I1 I2 M) in E. injection E as <-. rewrite (Hraw p' q I1' I2 M') in E'. injection E' as <-. apply (aligned_iff _ _ Fl Fl'). destruct (Nat.le_gt_cases (length (raw p q)) 1) as [S1|S1].
      * assert (L1 := raw_some p q I1 I2). destruct (raw p q) as [|y [|y2 r]]; cbn in L1, S1; try lia. destruct (raw p' q) as [|z [|z2 r]]; cbn in Len; try lia. cbn [map] in Q |- *. apply Permutation_length_1 in Q. rewrite Q. reflexivity.
      * assert (Z1 : sy bl p = 0%Z) by (destruct (Z.eq_dec (sy bl p) 0) as [|N]; [assumption|]; assert (memb p needs = true) by (apply (Hn p q I1 I2); auto); congruence).
        assert (Z2 : sy bl p' = 0%Z) by tauto. assert (W : forall a, In a reps1 -> sy bl a = 0%Z -> map (sy bl) (raw a q) = repeat 0%Z (length (raw a q))).
        { intros a Ia Ea. assert (V := fun z Hz => proj2 (zero_all a q z Ia I2 Hz) Ea). induction (raw a q) as [|z r IH]; [reflexivity|]. cbn [map length repeat]. rewrite (V z) by (left; reflexivity). f_equal. apply IH. intros; apply V; right; assumption. }
        rewrite (W p I1 Z1), (W p' I1' Z2), Len. reflexivity.
  - intros p q l I1 I2 E Min. destruct (memb p needs) eqn:M.
    + destruct (Hgr q (Tq q p) I2 (Nz p q I1 M)) as (pi & P & Asc & Hl). assert (E1 := Hl p (Self p q I1 M)). rewrite E in E1. injection E1 as ->. apply Asc; [apply Self; assumption|].
      intros p' Hp'. destruct (Nat.le_gt_cases p p') as [L|L]; [exact L|]. exfalso. assert (E' := Hl p' Hp'). apply members_In in Hp' as (I1' & M' & T'). apply (Min p' _ I1' L E'). exists (picked pi (Sq q p')). split; [reflexivity|].
      apply (Symp q p p'); auto.
    + rewrite (Hraw p q I1 I2 M) in E. injection E as <-. apply (raw_splinter p q I1 I2).
  - intros p q l i j I1 I2 E [Hij Hj] O. destruct (memb p needs) eqn:M.
    + destruct (Czl p q l I1 I2 E) as [Pl Fl]. destruct (Hgr q (Tq q p) I2 (Nz p q I1 M)) as (pi & P & Asc & Hl). assert (E1 := Hl p (Self p q I1 M)). rewrite E in E1. injection E1 as ->.
      set (ms := members q (Tq q p) reps1) in *. assert (Ss : StronglySorted lt ms) by (apply Proof_Deflate.filter_sorted, Sorted1). assert (Hms := Self p q I1 M). fold ms in Hms.
      destruct ms as [|p0 ms'] eqn:Ems; [destruct Hms|]. rewrite <- Ems in *. assert (H0 : In p0 ms) by (rewrite Ems; left; reflexivity).
      assert (Asc0 : StronglySorted lt (picked pi (Sq q p0))).
      { apply Asc; [exact H0|]. intros p' Hp'. rewrite Ems in Hp', Ss. destruct Hp' as [<-|Hp']; [lia|]. inversion Ss as [|? ? _ F]; subst. rewrite Forall_forall in F. apply F in Hp'. lia. }
      assert (Lpi : length pi = length (raw p q)) by (rewrite (Permutation_length P), range_length, syms_length; reflexivity). assert (Lj : j < length pi) by (unfold picked in Hj; rewrite map_length in Hj; exact Hj).
      assert (Nth : forall l k, k < length pi -> nth k (picked pi l) 0 = nth (nth k pi 0) l 0).
      { intros l k Hk'. unfold picked. rewrite (nth_indep _ 0 (nth 0 l 0)) by (rewrite map_length; exact Hk'). apply (map_nth (fun i => nth i l 0) pi 0 k). }
      assert (Bd : forall k, k < length pi -> nth k pi 0 < length (raw p q)).
      { intros k Hk'. assert (I : In (nth k pi 0) (range (length (Tq q p)))) by (apply (Permutation_in _ P), nth_In, Hk'). apply range_In in I. rewrite syms_length in I. exact I. }
      apply members_In in H0 as (I0 & M0 & T0). assert (A0 := proj1 (Proof_Helpers.sorted_nth _ 0) Asc0 i j Hij ltac:(unfold picked; rewrite map_length; exact Lj)). rewrite !Nth in A0 by lia. rewrite !Nth by lia.
      set (a := nth i pi 0) in *. set (b := nth j pi 0) in *. assert (Ba : a < length (raw p q)) by (apply Bd; lia). assert (Bb : b < length (raw p q)) by (apply Bd; lia).
      assert (L0 : length (raw p0 q) = length (raw p q)) by (rewrite <- !(syms_length (sy bl)), T0; reflexivity).
      assert (Tab : nth a (Tq q p) 0%Z = nth b (Tq q p) 0%Z).
      { rewrite !Nth in O by lia. fold a b in O. assert (Cn : forall k, k < length (raw p q) -> cz f (nth k (Sq q p) 0)).
        { intros k Hk'. apply (raw_cz p q _ I1 I2). apply (Permutation_in _ (Permutation_sym (zhes_perm (sy bl) (raw p q)))), nth_In. rewrite zhes_length. exact Hk'. }
        apply (sy_eq f R Root L5 bl) in O; [|apply Cn; assumption | apply Cn; assumption]. assert (G : forall k, k < length (raw p q) -> nth k (Tq q p) 0%Z = sy bl (nth k (Sq q p) 0)).
        { intros k Hk'. rewrite syms_eq, (nth_indep _ 0%Z (sy bl 0)) by (rewrite map_length, zhes_length; exact Hk'). apply map_nth. }
        rewrite !G by assumption. exact O. }
      assert (Lab : a < b).
      { destruct (Nat.lt_trichotomy a b) as [L|[Eab|L]]; [exact L | rewrite Eab in A0; lia|]. exfalso. assert (X := zhes_ascend (sy bl) (raw p0 q) b a (raw_nodup p0 q I0 I2) L ltac:(lia) ltac:(rewrite T0; auto)). lia. }
      apply (zhes_ascend (sy bl)); [apply raw_nodup; assumption | exact Lab | exact Bb | exact Tab].
    + rewrite (Hraw p q I1 I2 M) in E. injection E as <-. apply (proj1 (Proof_Helpers.sorted_nth _ 0) (proj1 (raw_splinter p q I1 I2)) i j Hij Hj).
Qed.
End Clan.
