(** Proof_Blight: the relations between the atoms and the functions that express them. *)

From Coq Require Import List Arith ZArith Bool Lia Permutation Sorted.
From Verif Require Import Model_Base Lib Model_Binary Model_Splits Model_Perm Model_SetPart Model_SetPartComp Model_Boolf Model_SetPartBoolf Model_Blight.
From Verif Require Import Spec_SetPart Proof_SetPart Proof_SetPartMore Spec_SetPartComp Proof_SetPartComp Proof_SetPartCompMore Props_SetPartComp.
From Verif Require Import Spec_Bits Spec_Boolf Spec_Splits Spec_Blight Proof_Binary Proof_Linear Proof_Boolf Proof_BoolfTable Proof_BoolfApply Proof_Noble Proof_Perm Proof_BoolfMake Proof_Splits Props_Boolf Proof_SetPartBoolf Props_SetPartBoolf.
Import ListNotations.
Open Scope nat_scope.

(** * Sequences of calls *)

Lemma foldM_ext_in {A S} (f g : S -> A -> res S) l s : (forall t x, In x l -> f t x = g t x) -> foldM f l s = foldM g l s.
Proof.
  revert s. induction l as [|x l IH]; intros s H; [reflexivity|]. cbn [foldM]. rewrite H by (left; reflexivity).
  destruct (g s x) as [t|e]; [apply IH; intros; apply H; right; assumption | reflexivity].
Qed.

Lemma calls_ok order v l : (forall l, Permutation (order l) l) -> (forall a b q, In (a, b, q) l -> a <> b) ->
  forall s st, history s st -> models v (st ++ l) ->
  exists s', foldM (fun s t => done (spc_call order s t)) l s = Ok s' /\ history s' (st ++ l).
Proof.
  intros Ho. induction l as [|[[a b] q] l IH]; intros Hne s st H Hv; cbn [foldM].
  - exists s. split; [reflexivity|]. rewrite app_nil_r. exact H.
  - destruct (spc_call_spec order s st a b q Ho (history_says s st H)) as [[K _]|[_ [s' [E _]]]].
    + apply (Hne a b q). left; reflexivity.
    + exfalso. assert (M : models v st) by (intros x y c Hin; apply Hv, in_or_app; left; exact Hin).
      assert (X := forced_sound st v a b _ M K). rewrite (Hv a b q) in X by (apply in_or_app; right; left; reflexivity). destruct q; discriminate X.
    + rewrite E. cbn [done bind]. destruct (IH (fun x y c Hin => Hne x y c (or_intror Hin)) s' (st ++ [(a, b, q)])) as [s'' [E'' H'']].
      * apply (hist_ok order s st a b q s' H Ho); [apply (Hne a b q); left; reflexivity | exact E].
      * rewrite <- app_assoc. exact Hv.
      * exists s''. split; [exact E''|]. rewrite <- app_assoc in H''. exact H''.
Qed.

(** * Spots and links *)

(** the values of the atom keys, and of the universe -1 *)
Definition zval (f : boolf) (e : assignment) (z : Z) : bool := if Z.ltb z 0 then true else e (nth_atom f (Z.to_nat z)).

Lemma zval_key f e k : zval f e (Z.of_nat k) = e (nth_atom f k).
Proof. unfold zval. rewrite (proj2 (Z.ltb_ge _ _)) by lia. rewrite Nat2Z.id. reflexivity. Qed.

Lemma linked_spots f a b c : fitting f -> a < valency f -> b < valency f ->
  (linked f a b c <-> forall n, nth n (root f) false = true -> xorb (Nat.testbit n a) (Nat.testbit n b) = c).
Proof. intros Hf Ha Hb. apply (all_places f (fun u => xorb (u a) (u b) = c) Hf). intros u v H. rewrite !H by assumption. auto. Qed.

Lemma fixed_spots f a q : fitting f -> a < valency f ->
  (fixed f a q <-> forall n, nth n (root f) false = true -> Nat.testbit n a = q).
Proof. intros Hf Ha. apply (all_places f (fun u => u a = q) Hf). intros u v H. rewrite !H by assumption. auto. Qed.

Lemma ascending_ext l m : ascending l -> ascending m -> (forall x, In x l <-> In x m) -> l = m.
Proof. intros. apply sorted_lt_ext; assumption. Qed.

Lemma split_eqb_spec f sp a b : fitting f -> splits f = Ok sp -> a < valency f -> b < valency f ->
  (split_eqb (nth a sp ([], [])) (nth b sp ([], [])) = true <-> linked f a b false).
Proof.
  intros Hf Es Ha Hb. destruct (splits_ok f Hf) as [sp' [E' [Hl H]]]. assert (sp' = sp) by congruence. subst sp'.
  destruct (H a Ha) as [r [v [X [A1 [A2 [B1 B2]]]]]], (H b Hb) as [r' [v' [X' [A1' [A2' [B1' B2']]]]]]. rewrite X, X'. unfold split_eqb. cbn [fst snd].
  rewrite andb_true_iff, !list_eqb_eq, linked_spots by assumption. split.
  - intros [<- <-] n Hn. destruct (Nat.testbit n a) eqn:Ta.
    + assert (In n r) by (apply B1; tauto). assert (Tb : Nat.testbit n b = true) by (apply B1'; assumption). rewrite Tb. reflexivity.
    + assert (In n v) by (apply B2; tauto). assert (Tb : Nat.testbit n b = false) by (apply B2'; assumption). rewrite Tb. reflexivity.
  - intro K. split; apply ascending_ext; try assumption; intro n; [rewrite B1, B1' | rewrite B2, B2'];
      split; intros [Hn T]; split; try exact Hn; specialize (K n Hn); apply xorb_eq in K; congruence.
Qed.

Lemma splits_get f sp k : fitting f -> splits f = Ok sp -> k < valency f -> lget sp k = Ok (nth k sp ([], [])).
Proof.
  intros Hf Es Hk. destruct (splits_ok f Hf) as [sp' [E' [Hl _]]]. assert (sp' = sp) by congruence. subst sp'. apply lget_ok. lia.
Qed.

Lemma linked_tied f a b : tied f a b <-> exists c, linked f a b c.
Proof. reflexivity. Qed.

Lemma linked_unique f a b c d : satisfiable f -> linked f a b c -> linked f a b d -> c = d.
Proof. intros [e He] H K. rewrite <- (H e He), <- (K e He). reflexivity. Qed.

Lemma linked_sym f a b c : linked f a b c -> linked f b a c.
Proof. intros H e He. rewrite xorb_comm. apply H, He. Qed.
Lemma linked_trans f x y z c d : linked f x y c -> linked f y z d -> linked f x z (xorb c d).
Proof. intros H K e He. rewrite <- (H e He), <- (K e He). destruct (e (nth_atom f x)), (e (nth_atom f y)), (e (nth_atom f z)); reflexivity. Qed.

(** * bloat *)

Lemma empty_spc_history : exists s, SetPartComp None None = Ok s /\ history s [].
Proof. exact empty_history. Qed.

(** what the proofs about blight need: objects made without skip_deflation have it, and so have most
    of the others *)
Definition splittable (f : boolf) : Prop :=
  wellmade f /\ (valency f = 0 \/ satisfiable f) /\ (valency f = 1 -> one_sided f 0) /\ exists i, made i f.

Lemma reduced_splittable f : reduced f -> splittable f.
Proof.
  intro R. split; [apply reduced_wellmade, R|]. split; [|split; [apply reduced_one; exact R | exists false; apply reduced_made; exact R]]. destruct (valency f) as [|n] eqn:E; [left; reflexivity|]. right. apply reduced_satisfiable; [exact R | lia].
Qed.
Coercion reduced_splittable : reduced >-> splittable.

Lemma key_satisfiable f k : splittable f -> k < valency f -> satisfiable f.
Proof. intros [_ [[H|H] _]] Hk; [lia | exact H]. Qed.

Lemma no_keys_or f : splittable f -> valency f = 0 \/ satisfiable f.
Proof. intro R. apply R. Qed.

Lemma equal_and_onesided_splittable f : splittable f ->
  exists d ol, equal_and_onesided f = Ok (d, ol) /\
    map fst d = combinations2 (range (valency f)) /\ (forall a b c, In ((a, b), c) d -> (c = true <-> tied f a b)) /\
    length ol = valency f /\ forall k, k < valency f -> (nth k ol false = true <-> one_sided f k).
Proof.
  intros [[F _] [[E|S] [H1 _]]].
  - unfold equal_and_onesided. rewrite E. exists [], []. split; [reflexivity|]. split; [reflexivity|]. split; [intros ? ? ? []|]. split; [reflexivity|]. intros k Hk. lia.
  - apply equal_and_onesided_ok; [exact F | exact S|]. destruct (Nat.eq_dec (valency f) 1) as [E1|E1]; [right; apply H1; exact E1 | left; exact E1].
Qed.

Lemma empty_calls order l s : (forall x : statement, ~ In x l) -> foldM (fun s t => done (spc_call order s t)) l s = Ok s.
Proof. destruct l as [|x l]; [reflexivity|]. intro H. destruct (H x). left; reflexivity. Qed.

Lemma bloat_spec order f : (forall l, Permutation (order l) l) -> splittable f ->
  exists s st, bloat order f = Ok s /\ history s st /\
    forall x y c, In (x, y, c) st <-> exists a b, x = Z.of_nat a /\ y = Z.of_nat b /\ a < b < valency f /\ linked f a b c.
Proof.
  intros Ho R. assert (F : fitting f) by apply R. unfold bloat. destruct empty_spc_history as [s0 [E0 H0]]. rewrite E0. cbn [bind].
  destruct (equal_and_onesided_splittable f R) as [d [ol [E [Hk [Ht _]]]]]. unfold splits_equal. rewrite E. cbn [bind fst].
  destruct (splits_ok f F) as [sp [Es _]]. rewrite Es. cbn [bind].
  set (stm := fun kv : (nat * nat) * bool => if snd kv then [(Z.of_nat (fst (fst kv)), Z.of_nat (snd (fst kv)),
      negb (split_eqb (nth (fst (fst kv)) sp ([], [])) (nth (snd (fst kv)) sp ([], []))))] else []).
  assert (Kd : forall a b c, In ((a, b), c) d -> a < b < valency f).
  { intros a b c Hin. apply pairs_range_In. rewrite <- Hk. apply in_map_iff. exists ((a, b), c). split; [reflexivity | exact Hin]. }
  assert (Spec : forall x y c, In (x, y, c) (flat_map stm d) <-> exists a b, x = Z.of_nat a /\ y = Z.of_nat b /\ a < b < valency f /\ linked f a b c).
  { intros x y c. rewrite in_flat_map. split.
    - intros [[[a b] t] [Hin G]]. unfold stm in G. cbn [fst snd] in G. destruct t; [|destruct G]. destruct G as [G|[]]. injection G as <- <- <-.
      exists a, b. split; [reflexivity|]. split; [reflexivity|]. assert (Hab := Kd _ _ _ Hin). split; [exact Hab|].
      destruct (proj1 (Ht a b true Hin) eq_refl) as [c0 L]. assert (S := split_eqb_spec f sp a b F Es ltac:(lia) ltac:(lia)).
      destruct (split_eqb (nth a sp ([], [])) (nth b sp ([], []))); cbn [negb]; [apply S; reflexivity|].
      destruct c0; [exact L|]. discriminate (proj2 S L).
    - intros [a [b [-> [-> [Hab L]]]]].
      assert (Hin : In (a, b) (map fst d)) by (rewrite Hk; apply pairs_range_In; exact Hab). apply in_map_iff in Hin as [[ab t] [X Hin]]. cbn [fst] in X. subst ab.
      assert (t = true) as -> by (apply (Ht a b t Hin); exists c; exact L).
      exists ((a, b), true). split; [exact Hin|]. unfold stm. cbn [fst snd]. left. f_equal.
      assert (S := split_eqb_spec f sp a b F Es ltac:(lia) ltac:(lia)).
      assert (Sat : satisfiable f) by (apply (key_satisfiable f a R); lia).
      destruct (split_eqb (nth a sp ([], [])) (nth b sp ([], []))); cbn [negb].
      + exact (linked_unique f a b _ _ Sat (proj1 S eq_refl) L).
      + destruct c; [reflexivity|]. discriminate (proj2 S L). }
  assert (Form : forall s, foldM (fun result (kv : (nat * nat) * bool) =>
           if snd kv then let* x := lget sp (fst (fst kv)) in let* y := lget sp (snd (fst kv)) in
             if split_eqb x y then done (set_equal order result (Z.of_nat (fst (fst kv))) (Z.of_nat (snd (fst kv))))
             else done (set_comp order result (Z.of_nat (fst (fst kv))) (Z.of_nat (snd (fst kv)))) else Ok result) d s
     = foldM (fun s t => done (spc_call order s t)) (flat_map stm d) s).
  { intro s. rewrite foldM_flat_map. apply foldM_ext_in. intros t [[a b] q] Hin. assert (Hab := Kd _ _ _ Hin). unfold stm. cbn [fst snd]. destruct q; [|reflexivity].
    rewrite !(splits_get f sp) by (assumption || lia). cbn [bind foldM spc_call]. destruct (split_eqb _ _); cbn [negb];
      match goal with |- _ = bind ?x _ => destruct x; reflexivity end. }
  cbv zeta. rewrite Form. destruct (no_keys_or f R) as [Hv|[e He]].
  - assert (Em : forall x, ~ In x (flat_map stm d)) by (intros [[x y] c] Hin; apply Spec in Hin as [a [b [_ [_ [Hab _]]]]]; lia).
    rewrite empty_calls by exact Em. exists s0, []. split; [reflexivity|]. split; [exact H0|]. intros x y c. rewrite <- Spec. split; [intros [] | intro Hin; destruct (Em _ Hin)].
  - destruct (calls_ok order (zval f e) (flat_map stm d) Ho) with (s := s0) (st := @nil statement) as [s' [E' H']].
    + intros x y c Hin. apply Spec in Hin as [a [b [-> [-> [Hab _]]]]]. lia.
    + exact H0.
    + intros x y c Hin. cbn [app] in Hin. apply Spec in Hin as [a [b [-> [-> [_ L]]]]]. rewrite !zval_key. apply L, He.
    + exists s', (flat_map stm d). split; [exact E'|]. split; [exact H' | exact Spec].
Qed.

(** * blot and blight *)

Lemma onesided_keys f : splittable f -> exists keys, onesided_atomkeys f = Ok keys /\ ascending keys /\
  forall k, In k keys <-> k < valency f /\ exists q, fixed f k q.
Proof.
  intro R. destruct (equal_and_onesided_splittable f R) as [d [ol [E [_ [_ [Hl Ho]]]]]].
  assert (Eo : splits_onesided f = Ok ol) by (unfold splits_onesided; rewrite E; reflexivity).
  exists (binv_exposet ol). split; [unfold onesided_atomkeys; rewrite Eo; reflexivity|].
  split; [apply binv_exposet_sorted|]. intro k. rewrite binv_exposet_In. split.
  - intro H. assert (k < valency f) by (destruct (Nat.lt_ge_cases k (length ol)) as [|Hge]; [lia | rewrite nth_overflow in H by exact Hge; discriminate]). split; [assumption|]. apply Ho; assumption.
  - intros [H1 H2]. apply Ho; assumption.
Qed.

Lemma empty_recto f sp k : fitting f -> splits f = Ok sp -> k < valency f -> (nonempty (fst (nth k sp ([], []))) = false <-> fixed f k false).
Proof.
  intros F Es Hk. destruct (splits_ok f F) as [sp' [E' [Hl H]]]. assert (sp' = sp) by congruence. subst sp'.
  destruct (H k Hk) as [r [v [X [A1 [A2 [B1 B2]]]]]]. rewrite X. cbn [fst]. rewrite fixed_spots by assumption. split.
  - intros N n Hn. apply not_true_is_false. intro T. assert (In n r) by (apply B1; tauto). destruct r; [contradiction | discriminate N].
  - intro K. destruct r as [|n r]; [reflexivity|]. destruct (proj1 (B1 n) (or_introl eq_refl)) as [Hn T]. rewrite K in T by exact Hn. discriminate T.
Qed.

Lemma empty_verso f sp k : fitting f -> splits f = Ok sp -> k < valency f -> (nonempty (snd (nth k sp ([], []))) = false <-> fixed f k true).
Proof.
  intros F Es Hk. destruct (splits_ok f F) as [sp' [E' [Hl H]]]. assert (sp' = sp) by congruence. subst sp'.
  destruct (H k Hk) as [r [v [X [A1 [A2 [B1 B2]]]]]]. rewrite X. cbn [snd]. rewrite fixed_spots by assumption. split.
  - intros N n Hn. apply not_false_is_true. intro T. assert (In n v) by (apply B2; tauto). destruct v; [contradiction | discriminate N].
  - intro K. destruct v as [|n v]; [reflexivity|]. destruct (proj1 (B2 n) (or_introl eq_refl)) as [Hn T]. rewrite K in T by exact Hn. discriminate T.
Qed.

Lemma fixed_unique f a p q : satisfiable f -> fixed f a p -> fixed f a q -> p = q.
Proof. intros [e He] H K. rewrite <- (H e He), <- (K e He). reflexivity. Qed.

(** statements about the universe *)
Lemma add_onesided_spec order f s st : (forall l, Permutation (order l) l) -> splittable f -> history s st ->
  (forall e, sem f e = true -> models (zval f e) st) ->
  exists s' new, add_onesided order f s = Ok s' /\ history s' (st ++ new) /\
    forall x y c, In (x, y, c) new <-> exists a, x = Z.of_nat a /\ y = (-1)%Z /\ a < valency f /\ fixed f a (negb c).
Proof.
  intros Ho R H Hm. assert (F : fitting f) by apply R. unfold add_onesided. destruct (onesided_keys f R) as [keys [Ek [_ Hk]]]. rewrite Ek. cbn [bind].
  destruct (splits_ok f F) as [sp [Es _]]. rewrite Es. cbn [bind].
  set (stm := fun k : nat => (Z.of_nat k, (-1)%Z, negb (nonempty (fst (nth k sp ([], [])))))).
  assert (Spec : forall x y c, In (x, y, c) (map stm keys) <-> exists a, x = Z.of_nat a /\ y = (-1)%Z /\ a < valency f /\ fixed f a (negb c)).
  { intros x y c. rewrite in_map_iff. split.
    - intros [k [G Hin]]. injection G as <- <- <-. exists k. split; [reflexivity|]. split; [reflexivity|]. apply Hk in Hin as [Hkv [q Hq]]. split; [exact Hkv|].
      rewrite negb_involutive. assert (S := empty_recto f sp k F Es Hkv). destruct (nonempty (fst (nth k sp ([], [])))); [|apply S; reflexivity].
      destruct q; [exact Hq|]. discriminate (proj2 S Hq).
    - intros [a [-> [-> [Ha Hf]]]]. exists a. split; [|apply Hk; split; [exact Ha | eexists; exact Hf]]. unfold stm. f_equal.
      assert (S := empty_recto f sp a F Es Ha). assert (Sat := key_satisfiable f a R Ha). destruct (nonempty (fst (nth a sp ([], [])))); cbn [negb].
      + destruct c; [|reflexivity]. discriminate (proj2 S Hf).
      + assert (X := fixed_unique f a _ _ Sat Hf (proj1 S eq_refl)). destruct c; [reflexivity | discriminate X]. }
  assert (Form : forall s, foldM (fun result atomkey => let* sk := lget sp atomkey in
           if negb (nonempty (fst sk)) then done (set_comp order result (Z.of_nat atomkey) (-1)) else done (set_equal order result (Z.of_nat atomkey) (-1))) keys s
     = foldM (fun s t => done (spc_call order s t)) (map stm keys) s).
  { intro s1. rewrite foldM_map. apply foldM_ext_in. intros t k Hin. apply Hk in Hin as [Hkv _]. rewrite (splits_get f sp) by assumption. cbn [bind stm spc_call]. unfold stm, spc_call. destruct (negb _); reflexivity. }
  rewrite Form. destruct (no_keys_or f R) as [Hv|[e He]].
  - assert (Em : forall x, ~ In x (map stm keys)) by (intros [[x y] c] Hin; apply Spec in Hin as [a [_ [_ [Ha _]]]]; lia).
    rewrite empty_calls by exact Em. exists s, []. split; [reflexivity|]. rewrite app_nil_r. split; [exact H|]. intros x y c. rewrite <- Spec. split; [intros [] | intro Hin; destruct (Em _ Hin)].
  - destruct (calls_ok order (zval f e) (map stm keys) Ho) with (s := s) (st := st) as [s' [E' H']].
    + intros x y c Hin. apply Spec in Hin as [a [-> [-> _]]]. lia.
    + exact H.
    + intros x y c Hin. apply in_app_or in Hin as [Hin|Hin]; [apply (Hm e He); exact Hin|]. apply Spec in Hin as [a [-> [-> [_ L]]]]. rewrite zval_key. cbn. rewrite (L e He). destruct c; reflexivity.
    + exists s', (map stm keys). split; [exact E'|]. split; [exact H' | exact Spec].
Qed.
