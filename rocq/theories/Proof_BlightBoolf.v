(** Proof_BlightBoolf: what bloat, blot and blight report, and their Boolean functions. *)

From Coq Require Import List Arith ZArith Bool Lia Permutation Sorted.
From Verif Require Import Model_Base Lib Model_Binary Model_Splits Model_Perm Model_SetPart Model_SetPartComp Model_Boolf Model_SetPartBoolf Model_Blight.
From Verif Require Import Spec_SetPart Proof_SetPart Proof_SetPartMore Spec_SetPartComp Proof_SetPartComp Proof_SetPartCompMore Props_SetPartComp.
From Verif Require Import Spec_Bits Spec_Boolf Spec_Splits Spec_Blight Proof_Binary Proof_Linear Proof_Boolf Proof_BoolfTable Proof_BoolfApply Proof_Noble Proof_Perm Proof_BoolfMake Proof_Splits Props_Boolf Proof_SetPartBoolf Props_SetPartBoolf Proof_Blight.
Import ListNotations.
Open Scope nat_scope.

(** links between keys and the universe -1 *)
Definition zlinked (f : boolf) (x y : Z) (c : bool) : Prop := forall e, sem f e = true -> xorb (zval f e x) (zval f e y) = c.
Definition is_key (f : boolf) (x : Z) : Prop := (0 <= x < Z.of_nat (valency f))%Z.

Lemma is_key_nat f x : is_key f x <-> exists a, x = Z.of_nat a /\ a < valency f.
Proof.
  unfold is_key. split.
  - intro H. exists (Z.to_nat x). lia.
  - intros [a [-> H]]. lia.
Qed.

Lemma zlinked_keys f a b c : zlinked f (Z.of_nat a) (Z.of_nat b) c <-> linked f a b c.
Proof. unfold zlinked, linked. split; intros H e He; specialize (H e He); rewrite !zval_key in *; exact H. Qed.

Lemma zlinked_universe f a c : zlinked f (-1) (Z.of_nat a) c <-> fixed f a (negb c).
Proof. unfold zlinked, fixed. split; intros H e He; specialize (H e He); rewrite !zval_key in *; cbn in *; destruct (e (nth_atom f a)), c; cbn in *; congruence. Qed.

Lemma zlinked_sym f x y c : zlinked f x y c <-> zlinked f y x c.
Proof. unfold zlinked. split; intros H e He; rewrite xorb_comm; apply H, He. Qed.

(** statements that are sound and complete on a set of elements *)
Lemma forced_exact f st (D : Z -> Prop) : (forall x y c, In (x, y, c) st -> D x /\ D y /\ zlinked f x y c) ->
  (forall x y c, D x -> D y -> x <> y -> zlinked f x y c -> forced st x y c) -> (forall x, D x -> satisfiable f) ->
  forall x y c, forced st x y c <-> (x = y /\ c = false) \/ (D x /\ D y /\ zlinked f x y c).
Proof.
  intros Hs Hc Hsat x y c. split.
  - intro H. induction H as [x|a b p H|x y c _ IH|x y z c d _ IH1 _ IH2].
    + left. auto.
    + right. apply Hs. exact H.
    + destruct IH as [[-> ->]|[H1 [H2 H3]]]; [left; auto|]. right. split; [exact H2|]. split; [exact H1|]. apply zlinked_sym. exact H3.
    + destruct IH1 as [[-> ->]|[H1 [H2 H3]]].
      * rewrite xorb_false_l. exact IH2.
      * destruct IH2 as [[<- ->]|[H4 [H5 H6]]].
        -- rewrite xorb_false_r. right. auto.
        -- right. split; [exact H1|]. split; [exact H5|]. intros e He. rewrite <- (H3 e He), <- (H6 e He). destruct (zval f e x), (zval f e y), (zval f e z); reflexivity.
  - intros [[-> ->]|[H1 [H2 H3]]]; [apply forced_refl|]. destruct (Z.eq_dec x y) as [->|Hne].
    + destruct (Hsat y H1) as [e He]. rewrite <- (H3 e He), xorb_nilpotent. apply forced_refl.
    + apply Hc; assumption.
Qed.

Lemma bloat_forced order f : (forall l, Permutation (order l) l) -> splittable f ->
  exists s st, bloat order f = Ok s /\ history s st /\
    (forall x y c, In (x, y, c) st -> is_key f x /\ is_key f y /\ zlinked f x y c) /\
    (forall x y c, forced st x y c <-> (x = y /\ c = false) \/ (is_key f x /\ is_key f y /\ zlinked f x y c)).
Proof.
  intros Ho R. destruct (bloat_spec order f Ho R) as [s [st [E [H Hst]]]]. exists s, st. split; [exact E|]. split; [exact H|].
  assert (Sd : forall x y c, In (x, y, c) st -> is_key f x /\ is_key f y /\ zlinked f x y c).
  { intros x y c Hin. apply Hst in Hin as [a [b [-> [-> [Hab L]]]]]. split; [unfold is_key; lia|]. split; [unfold is_key; lia|]. apply zlinked_keys. exact L. }
  split; [exact Sd|]. apply forced_exact; [exact Sd | |].
  - intros x y c Hx Hy Hne L. apply is_key_nat in Hx as [a [-> Ha]], Hy as [b [-> Hb]]. apply (proj1 (zlinked_keys f a b c)) in L.
    destruct (Nat.lt_total a b) as [Hab|[Hab|Hab]]; [|lia|].
    + apply forced_step, Hst. exists a, b. auto.
    + apply forced_sym, forced_step, Hst. exists b, a. split; [reflexivity|]. split; [reflexivity|]. split; [lia | apply linked_sym; exact L].
  - intros x Hx. apply is_key_nat in Hx as [a [-> Ha]]. apply (key_satisfiable f a R Ha).
Qed.

Definition is_key_or_universe (f : boolf) (x : Z) : Prop := is_key f x \/ (x = (-1)%Z /\ exists a q, a < valency f /\ fixed f a q).

Lemma blight_forced order f : (forall l, Permutation (order l) l) -> splittable f ->
  exists s st, blight order f = Ok s /\ history s st /\
    (forall x y c, forced st x y c <-> (x = y /\ c = false) \/ (is_key_or_universe f x /\ is_key_or_universe f y /\ zlinked f x y c)).
Proof.
  intros Ho R. destruct (bloat_forced order f Ho R) as [s [st [E [H [Sd Fo]]]]]. unfold blight. rewrite E. cbn [bind].
  destruct (add_onesided_spec order f s st Ho R H) as [s' [new [E' [H' Hnew]]]].
  { intros e He x y c Hin. apply Sd in Hin as [_ [_ L]]. apply L, He. }
  exists s', (st ++ new). split; [exact E'|]. split; [exact H'|].
  assert (One : forall a c, a < valency f -> zlinked f (-1) (Z.of_nat a) c -> forced (st ++ new) (-1) (Z.of_nat a) c).
  { intros a c Ha L. apply forced_sym, forced_step, in_or_app. right. apply Hnew. exists a. split; [reflexivity|]. split; [reflexivity|]. split; [exact Ha|]. apply zlinked_universe. exact L. }
  apply forced_exact.
  - intros x y c Hin. apply in_app_or in Hin as [Hin|Hin].
    + apply Sd in Hin as [H1 [H2 H3]]. split; [left; exact H1|]. split; [left; exact H2 | exact H3].
    + apply Hnew in Hin as [a [-> [-> [Ha L]]]]. split; [left; unfold is_key; lia|]. split; [right; split; [reflexivity|]; exists a, (negb c); auto|].
      apply zlinked_sym, zlinked_universe. exact L.
  - intros x y c [Hx|[-> _]] [Hy|[-> _]] Hne L.
    + apply (forced_mono st); [intros a b q Hin; apply in_or_app; left; exact Hin|]. apply Fo. right. auto.
    + apply is_key_nat in Hx as [a [-> Ha]]. apply forced_sym, One; [exact Ha | apply zlinked_sym; exact L].
    + apply is_key_nat in Hy as [a [-> Ha]]. apply One; assumption.
    + congruence.
  - intros x [Hx|[_ [a [q [Ha _]]]]]; [apply is_key_nat in Hx as [a [-> Ha]]|]; apply (key_satisfiable f a R Ha).
Qed.

Definition is_fixed_or_universe (f : boolf) (x : Z) : Prop :=
  (exists a q, x = Z.of_nat a /\ a < valency f /\ fixed f a q) \/ (x = (-1)%Z /\ exists a q, a < valency f /\ fixed f a q).

Lemma blot_forced order f : (forall l, Permutation (order l) l) -> splittable f ->
  exists s st, blot order f = Ok s /\ history s st /\
    (forall x y c, forced st x y c <-> (x = y /\ c = false) \/ (is_fixed_or_universe f x /\ is_fixed_or_universe f y /\ zlinked f x y c)).
Proof.
  intros Ho R. unfold blot. destruct empty_spc_history as [s [E H]]. rewrite E. cbn [bind].
  destruct (add_onesided_spec order f s [] Ho R H) as [s' [new [E' [H' Hnew]]]].
  { intros e He x y c []. }
  cbn [app] in H'. exists s', new. split; [exact E'|]. split; [exact H'|].
  assert (One : forall a c, a < valency f -> fixed f a (negb c) -> forced new (Z.of_nat a) (-1) c).
  { intros a c Ha L. apply forced_step, Hnew. exists a. auto. }
  apply forced_exact.
  - intros x y c Hin. apply Hnew in Hin as [a [-> [-> [Ha L]]]]. split; [left; exists a, (negb c); auto|]. split; [right; split; [reflexivity|]; exists a, (negb c); auto|].
    apply zlinked_sym, zlinked_universe. exact L.
  - intros x y c Hx Hy Hne L.
    destruct Hx as [[a [p [-> [Ha Fa]]]]|[-> _]], Hy as [[b [q [-> [Hb Fb]]]]|[-> _]].
    + assert (c = xorb (negb p) (negb q)) as ->.
      { destruct (key_satisfiable f a R Ha) as [e He]. assert (X := L e He). rewrite !zval_key, (Fa e He), (Fb e He) in X. rewrite <- X. destruct p, q; reflexivity. }
      apply (forced_trans _ _ (-1)%Z); [|apply forced_sym]; apply One; rewrite ?negb_involutive; assumption.
    + apply One; [exact Ha|]. apply zlinked_universe, zlinked_sym. exact L.
    + apply forced_sym, One; [exact Hb|]. apply zlinked_universe. exact L.
    + congruence.
  - intros x [[a [q [_ [Ha _]]]]|[_ [a [q [Ha _]]]]]; apply (key_satisfiable f a R Ha).
Qed.

(** * The functions *)

Lemma sorted_map_lt (g : nat -> nat) n l : (forall a b, a < b < n -> g a < g b) -> ascending l -> (forall a, In a l -> a < n) -> ascending (map g l).
Proof.
  intros Hg Hl. induction Hl as [|x l Hs IH Hx]; intro Hn; [constructor|]. cbn [map]. constructor.
  - apply IH. intros; apply Hn; right; assumption.
  - rewrite Forall_forall in *. intros y Hy. apply in_map_iff in Hy as [z [<- Hz]]. apply Hg. split; [apply Hx; exact Hz | apply Hn; right; exact Hz].
Qed.

Lemma atoms_at f keys : fitting f -> (forall k, In k keys -> k < valency f) ->
  mapM (fun k => lget (atomvals f) k) keys = Ok (map (nth_atom f) keys).
Proof. intros F H. apply mapM_ok. intros k Hk. apply lget_ok. apply H. exact Hk. Qed.

Lemma atoms_at_asc f keys : fitting f -> ascending keys -> (forall k, In k keys -> k < valency f) -> ascending (map (nth_atom f) keys).
Proof. intros F Ha H. apply (sorted_map_lt _ (valency f)); [intros a b Hab; apply nth_atom_lt; assumption | assumption | assumption]. Qed.

Lemma models_links f st e : (forall x y c, In (x, y, c) st <-> exists a b, x = Z.of_nat a /\ y = Z.of_nat b /\ a < b < valency f /\ linked f a b c) ->
  splittable f -> (models (fun z => e (nth_atom f (Z.to_nat z))) st <-> keeps_links f e).
Proof.
  intros Hst R. split.
  - intros M a b c Ha Hb L. destruct (Nat.lt_total a b) as [Hab|[Hab|Hab]].
    + assert (X := M (Z.of_nat a) (Z.of_nat b) c ltac:(apply Hst; exists a, b; auto)). cbv beta in X. rewrite !Nat2Z.id in X. exact X.
    + subst b. destruct (key_satisfiable f a R Ha) as [e' He']. rewrite <- (L e' He'), !xorb_nilpotent. reflexivity.
    + assert (X := M (Z.of_nat b) (Z.of_nat a) c ltac:(apply Hst; exists b, a; repeat split; [lia | lia | apply linked_sym; exact L])). cbv beta in X. rewrite !Nat2Z.id, xorb_comm in X. exact X.
  - intros K x y c Hin. apply Hst in Hin as [a [b [-> [-> [Hab L]]]]]. cbv beta. rewrite !Nat2Z.id. apply K; [lia | lia | exact L].
Qed.

Lemma bloat_boolf_spec order f : (forall l, Permutation (order l) l) -> splittable f ->
  exists g, bloat_boolf order f = Ok g /\ reduced g /\ forall e, sem g e = true <-> keeps_links f e.
Proof.
  intros Ho R. assert (F : fitting f) by apply R. destruct (bloat_spec order f Ho R) as [s [st [E [H Hst]]]]. unfold bloat_boolf. rewrite E. cbn [bind].
  assert (Hpos : forall a b p, In (a, b, p) st -> (0 <= a /\ 0 <= b)%Z) by (intros x y p Hin; apply Hst in Hin as [a [b [-> [-> _]]]]; lia).
  destruct (C26_boolf order s st H Ho Hpos) as [b [Eb [Mb Sb]]]. rewrite Eb. cbn [bind]. assert (Rb := m_red b Mb).
  assert (Hk : forall k, In k (atomvals b) -> k < valency f).
  { intros k Hin. apply (C26_boolf_atoms order s st b k H Ho Hpos Eb) in Hin as [x [c [Hne Hent]]].
    assert (S := history_says s st H). apply (says_entails s st _ _ _ S), (proj2 S) in Hent. apply forced_occurs in Hent as [X|[[z [d Hz]] _]]; [congruence|].
    destruct Hz as [Hz|Hz]; apply Hst in Hz as [a [a' [X [Y [Hab _]]]]]; lia. }
  rewrite atoms_at by assumption. cbn [bind].
  destruct (Boolf_vec_sorted (root b) (map (nth_atom f) (atomvals b))) as [g [Eg [Rg Sg]]].
  { apply atoms_at_asc; [exact F | apply Rb | exact Hk]. }
  { rewrite map_length. apply Rb. }
  exists g. split; [exact Eg|]. split; [exact Rg|]. intro e. rewrite Sg. unfold table. rewrite map_map.
  change (sem b (fun k => e (nth_atom f k)) = true <-> keeps_links f e). rewrite Sb. apply models_links; assumption.
Qed.

Lemma literal_boolf a (q : bool) : exists g, Boolf_vec (if q then [false; true] else [true; false]) [a] = Ok g /\ reduced g /\ forall e, sem g e = Bool.eqb (e a) q.
Proof.
  destruct (Boolf_vec_sorted (if q then [false; true] else [true; false]) [a]) as [g [E [R S]]]; [repeat constructor | destruct q; reflexivity|].
  exists g. split; [exact E|]. split; [exact R|]. intro e. rewrite S. unfold table. cbn [map]. destruct q, (e a); reflexivity.
Qed.

Lemma dget_ok {A} (d : list (nat * A)) k : In k (map fst d) -> exists x, dget d k = Ok x /\ In (k, x) d.
Proof.
  unfold dget. induction d as [|[k' x] d IH]; [intros []|]. intro H. cbn [find fst]. destruct (Nat.eqb_spec k' k) as [->|Hne].
  - exists x. split; [reflexivity | left; reflexivity].
  - destruct H as [H|H]; [cbn in H; congruence|]. destruct (IH H) as [y [E Hin]]. exists y. split; [exact E | right; exact Hin].
Qed.

Lemma onesided_universe f : splittable f -> exists keys d, onesided_atomkeys f = Ok keys /\ onesided_is_universe f = Ok d /\ map fst d = keys /\
  forall k u, In (k, u) d -> k < valency f /\ fixed f k u.
Proof.
  intro R. assert (F : fitting f) by apply R. destruct (onesided_keys f R) as [keys [Ek [_ Hk]]]. unfold onesided_is_universe. rewrite Ek. cbn [bind].
  destruct (splits_ok f F) as [sp [Es _]]. rewrite Es. cbn [bind].
  rewrite (mapM_ok _ (fun k => (k, Nat.ltb 0 (length (fst (nth k sp ([], []))))))).
  2: { intros k Hin. apply Hk in Hin as [Hkv _]. rewrite (splits_get f sp) by assumption. reflexivity. }
  exists keys. eexists. split; [reflexivity|]. split; [reflexivity|]. split; [rewrite map_map; cbn [fst]; apply map_id|].
  intros k u Hin. apply in_map_iff in Hin as [k' [X Hin]]. injection X as -> <-. apply Hk in Hin as [Hkv [q Hq]]. split; [exact Hkv|].
  assert (S := empty_recto f sp k F Es Hkv). destruct (fst (nth k sp ([], []))) as [|n l]; cbn [length Nat.ltb Nat.leb].
  - apply S. reflexivity.
  - destruct q; [exact Hq|]. discriminate (proj2 S Hq).
Qed.

Lemma blot_boolf_spec f : splittable f ->
  exists g, blot_boolf f = Ok g /\ reduced g /\ forall e, sem g e = true <-> keeps_fixed f e.
Proof.
  intro R. assert (F : fitting f) by apply R. destruct (onesided_universe f R) as [keys [d [Ek [Ed [Hd Hu]]]]]. destruct (onesided_keys f R) as [keys' [Ek' [_ Hk]]].
  assert (keys' = keys) by congruence. subst keys'. unfold blot_boolf. rewrite Ek, Ed. cbn [bind].
  assert (G : forall l b, incl l keys -> reduced b -> exists g, foldM (fun result atomkey =>
           let* is_universe := dget d atomkey in
           let tt := if is_universe then [false; true] else [true; false] in
           let* atomval := lget (atomvals f) atomkey in
           let* g := Boolf_vec tt [atomval] in
           boolf_and result g) l b = Ok g /\ reduced g /\
           forall e, sem g e = true <-> sem b e = true /\ forall k q, In k l -> fixed f k q -> e (nth_atom f k) = q).
  { induction l as [|k l IH]; intros b Hl Rb.
    - exists b. split; [reflexivity|]. split; [exact Rb|]. intro e. split; [intro H; split; [exact H | intros k q []] | intros [H _]; exact H].
    - assert (Hkk : In k keys) by (apply Hl; left; reflexivity). assert (Hkv : k < valency f) by (apply Hk; exact Hkk).
      cbn [foldM]. destruct (dget_ok d k ltac:(rewrite Hd; exact Hkk)) as [u [Eu Hin]]. rewrite Eu. cbn [bind]. cbv zeta.
      rewrite (lget_ok _ k 0) by exact Hkv. cbn [bind]. fold (nth_atom f k). destruct (literal_boolf (nth_atom f k) u) as [g [Eg [Rg Sg]]]. rewrite Eg. cbn [bind].
      destruct (bitwise_spec andb b g (proj1 Rb) (proj1 Rg)) as [h [Eh [Rh Sh]]]. unfold boolf_and at 1. rewrite Eh. cbn [bind].
      destruct (IH h (fun x Hx => Hl x (or_intror Hx)) Rh) as [r [Er [Rr Sr]]]. exists r. split; [exact Er|]. split; [exact Rr|].
      intro e. rewrite Sr, Sh, andb_true_iff, Sg, eqb_true_iff. destruct (Hu k u Hin) as [_ Fu]. split.
      + intros [[H1 H2] H3]. split; [exact H1|]. intros k' q [<-|Hk'] Fq; [|apply H3; assumption]. rewrite H2. apply (fixed_unique f k); [apply (key_satisfiable f k R Hkv) | assumption | assumption].
      + intros [H1 H2]. split; [split; [exact H1 | apply H2; [left; reflexivity | exact Fu]]|]. intros k' q Hk' Fq. apply H2; [right; exact Hk' | exact Fq]. }
  destruct (G keys (set_constant true) (incl_refl _) (proj1 (set_constant_reduced true))) as [g [Eg [Rg Sg]]].
  exists g. split; [exact Eg|]. split; [exact Rg|]. intro e. rewrite Sg, (proj2 (set_constant_reduced true) e). split.
  - intros [_ H] a q Ha Fq. apply H; [apply Hk; split; [exact Ha | exists q; exact Fq] | exact Fq].
  - intro H. split; [reflexivity|]. intros k q Hin Fq. apply H; [apply Hk; exact Hin | exact Fq].
Qed.

Lemma blight_boolf_spec order f : (forall l, Permutation (order l) l) -> splittable f ->
  exists g, blight_boolf order f = Ok g /\ reduced g /\ forall e, sem g e = true <-> keeps_links f e /\ keeps_fixed f e.
Proof.
  intros Ho R. unfold blight_boolf. destruct (bloat_boolf_spec order f Ho R) as [b [Eb [Rb Sb]]]. rewrite Eb. cbn [bind].
  destruct (blot_boolf_spec f R) as [o [Eo [Ro So]]]. rewrite Eo. cbn [bind].
  destruct (bitwise_spec andb b o (proj1 Rb) (proj1 Ro)) as [h [Eh [Rh Sh]]]. exists h. split; [exact Eh|]. split; [exact Rh|].
  intro e. rewrite Sh, andb_true_iff, Sb, So. reflexivity.
Qed.
