(** Proof_Blightless: the functions without bloat and without blight. *)

From Coq Require Import List Arith ZArith Bool Lia Permutation Sorted.
From Verif Require Import Model_Base Lib Model_Binary Model_Splits Model_Perm Model_SetPart Model_SetPartComp Model_Boolf Model_SetPartBoolf Model_Blight.
From Verif Require Import Spec_SetPart Proof_SetPart Proof_SetPartMore Spec_SetPartComp Proof_SetPartComp Proof_SetPartCompMore Props_SetPartComp.
From Verif Require Import Spec_Bits Spec_Boolf Spec_Splits Spec_Blight Proof_Binary Proof_Linear Proof_Boolf Proof_BoolfTable Proof_BoolfApply Proof_Noble Proof_Perm Proof_BoolfMake Proof_Splits Props_Boolf Proof_SetPartBoolf Props_SetPartBoolf Proof_Blight Proof_BlightBoolf Proof_Blocks Proof_BlightBlocks Proof_Bloatless.
Import ListNotations.
Open Scope nat_scope.

Lemma atoms_among g (A : nat -> Prop) : reduced g -> (forall e e', (forall a, A a -> e a = e' a) -> sem g e = sem g e') -> (forall a, A a \/ ~ A a) ->
  forall a, In a (atomvals g) -> A a.
Proof.
  intros R H D a Ha. destruct (D a) as [Y|N]; [exact Y|]. exfalso. apply (atoms_essential g a R) in Ha as [e He]. apply He. apply H. intros x Hx. unfold upd.
  destruct (Nat.eqb_spec x a) as [->|]; [contradiction | reflexivity].
Qed.

Lemma extends_ext f keys e e' : (forall k, In k keys -> e (nth_atom f k) = e' (nth_atom f k)) -> extends f keys e -> extends f keys e'.
Proof. intros H [d [D1 D2]]. exists d. split; [|exact D2]. intros k Hk. rewrite D1, H by exact Hk. reflexivity. Qed.

Lemma extends_atoms f keys g : reduced g -> (forall e, sem g e = true <-> extends f keys e) -> forall a, In a (atomvals g) -> exists k, In k keys /\ nth_atom f k = a.
Proof.
  intros R H a Ha. assert (X : In a (map (nth_atom f) keys)).
  { apply (atoms_among g (fun a => In a (map (nth_atom f) keys)) R); [|intro x; destruct (in_dec Nat.eq_dec x (map (nth_atom f) keys)); auto | exact Ha].
    intros e e' He. apply eq_iff_eq_true. rewrite !H. split; apply extends_ext; intros k Hk; [|symmetry]; apply He, in_map; exact Hk. }
  apply in_map_iff in X as [k [X Hk]]. exists k. auto.
Qed.

Lemma nth_atom_inj f a b : fitting f -> a < valency f -> b < valency f -> nth_atom f a = nth_atom f b -> a = b.
Proof.
  intros F Ha Hb E. destruct (Nat.lt_total a b) as [L|[L|L]]; [assert (Q := nth_atom_lt f a b F ltac:(lia)); lia | exact L | assert (Q := nth_atom_lt f b a F ltac:(lia)); lia].
Qed.

Lemma nth_atom_In f k : k < valency f -> In (nth_atom f k) (atomvals f).
Proof. intro H. apply nth_In. exact H. Qed.

(** * Without bloat *)

Lemma bloatless_and f B P e : blocks_ok f B P -> (sem f e = true <-> extends f (reps B P) e /\ keeps_links f e).
Proof.
  intro K. split.
  - intro H. split; [exists e; auto | apply satisfying_keeps_links; exact H].
  - intros [[e' [H1 H2]] H3]. rewrite <- (links_determined f B P e e' K H3 (satisfying_keeps_links f e' H2) H1). exact H2.
Qed.

(** links in a function with satisfying assignments of [f] are links in [f] *)
Lemma links_up f g keys i j c : fitting g -> (forall k, In k keys -> k < valency f) -> (forall a, In a (atomvals g) -> exists k, In k keys /\ nth_atom f k = a) ->
  (forall e, sem f e = true -> sem g e = true) -> i < valency g -> j < valency g -> linked g i j c ->
  exists k l, In k keys /\ In l keys /\ nth_atom f k = nth_atom g i /\ nth_atom f l = nth_atom g j /\ linked f k l c.
Proof.
  intros F Hk Ha Hs Hi Hj L. destruct (Ha _ (nth_atom_In g i Hi)) as [k [K1 K2]], (Ha _ (nth_atom_In g j Hj)) as [l [L1 L2]].
  exists k, l. split; [exact K1|]. split; [exact L1|]. split; [exact K2|]. split; [exact L2|]. intros e He. rewrite K2, L2. apply L, Hs, He.
Qed.

Lemma no_links_bloatless f B P g : splittable f -> blocks_ok f B P -> reduced g -> (forall e, sem g e = true <-> extends f (reps B P) e) -> no_links g.
Proof.
  intros R K Rg H i j c [Hij Hj] L. destruct (links_up f g (reps B P) i j c (proj1 Rg)) as [k [l [Hk [Hl [Ek [El Lk]]]]]]; try assumption; try lia.
  - intros k Hk. apply (reps_valency f B P k K Hk).
  - apply extends_atoms; assumption.
  - intros e He. apply H. apply (bloatless_and f B P e K). exact He.
  - assert (k = l) by (apply (reps_independent f B P k l K Hk Hl); exists c; exact Lk). subst l.
    assert (X : i = j) by (apply (nth_atom_inj g i j (proj1 Rg)); [lia | exact Hj | congruence]). lia.
Qed.

Lemma no_links_reps f B P x : blocks_ok f B P -> no_links f -> x < valency f -> In x (reps B P).
Proof.
  intros K N Hx. destruct (reps_cover f B P x K Hx) as [k [Hk [c L]]]. assert (Hkv := reps_valency f B P k K Hk).
  destruct (Nat.lt_total x k) as [Q|[->|Q]]; [destruct (N x k c); [lia | exact L] | exact Hk | destruct (N k x c); [lia | apply linked_sym; exact L]].
Qed.

Lemma extends_all f keys e : (forall k, k < valency f -> In k keys) -> (extends f keys e <-> sem f e = true).
Proof.
  intro H. split.
  - intros [e' [H1 H2]]. rewrite <- H2. apply sem_ext. intros a Ha. destruct (In_nth _ _ 0 Ha) as [k [Hk <-]]. symmetry. apply H1, H. exact Hk.
  - intro He. exists e. auto.
Qed.

Lemma bloatless_same f B P g : reduced f -> blocks_ok f B P -> reduced g -> (forall e, sem g e = true <-> extends f (reps B P) e) ->
  (boolf_eqb f g = true <-> no_links f).
Proof.
  intros R K Rg H. rewrite (boolf_eqb_sem f g R Rg). split.
  - intro X. assert (Y : f = g) by (apply reduced_unique; assumption). rewrite Y. apply (no_links_bloatless f B P g R K Rg H).
  - intros N e. apply eq_iff_eq_true. rewrite H. symmetry. apply extends_all. intros k Hk. apply (no_links_reps f B P k K N Hk).
Qed.

(** * Keys without blight *)

Lemma deflated_spec order f g : bloatless_boolf order f = Ok g ->
  exists keys, bloatless_atomkeys_deflated order f = Ok keys /\ ascending keys /\ forall k, In k keys <-> k < valency f /\ In (nth_atom f k) (atomvals g).
Proof.
  intro E. unfold bloatless_atomkeys_deflated. rewrite E. cbn [bind]. eexists. split; [reflexivity|]. split.
  - unfold enumerate. generalize 0 as a. induction (atomvals f) as [|x l IH]; intro a; [constructor|]. cbn [length seq combine filter fst snd]. destruct (memb x (atomvals g)); [|apply IH].
    cbn [map fst]. constructor; [apply IH|]. apply Forall_forall. intros k Hk. apply in_map_iff in Hk as [[k' y] [<- Hk]]. apply filter_In in Hk as [Hk _]. apply in_combine_l in Hk. apply in_seq in Hk. cbn. lia.
  - intro k. rewrite in_map_iff. split.
    + intros [[k' x] [<- Hin]]. apply filter_In in Hin as [Hin M]. cbn [fst snd] in *. destruct (enumerate_nth (atomvals f) k' x 0 Hin) as [Hk Hx]. split; [exact Hk|]. unfold nth_atom. rewrite Hx. apply memb_In. exact M.
    + intros [Hk Hin]. exists (k, nth_atom f k). split; [reflexivity|]. apply filter_In. split; [|apply memb_In; exact Hin]. apply enumerate_In. apply nth_error_nth'. exact Hk.
Qed.

Definition blightless_keys (f g : boolf) (keys : list nat) : Prop :=
  ascending keys /\ forall k, In k keys <-> k < valency f /\ In (nth_atom f k) (atomvals g) /\ forall q, ~ fixed f k q.

Lemma blightless_atomkeys_spec order f g : splittable f -> bloatless_boolf order f = Ok g ->
  exists keys, blightless_atomkeys order f = Ok keys /\ blightless_keys f g keys.
Proof.
  intros R E. unfold blightless_atomkeys. destruct (deflated_spec order f g E) as [dk [Ed [Ad Hd]]]. rewrite Ed. cbn [bind].
  destruct (onesided_keys f R) as [ok [Eo [_ Ho]]]. rewrite Eo. cbn [bind]. eexists. split; [reflexivity|].
  split; [apply sort_nat_ascending, NoDup_filter, sorted_lt_NoDup; exact Ad|]. intro k. rewrite sort_nat_In, filter_In, Hd, negb_true_iff. split.
  - intros [[H1 H2] H3]. split; [exact H1|]. split; [exact H2|]. intros q Hq. assert (X : In k ok) by (apply Ho; split; [exact H1 | exists q; exact Hq]). apply memb_In in X. congruence.
  - intros [H1 [H2 H3]]. split; [auto|]. apply not_true_is_false. intro X. apply memb_In, Ho in X as [_ [q Hq]]. apply (H3 q Hq).
Qed.

Lemma fixed_dec f k : splittable f -> k < valency f -> (exists q, fixed f k q) \/ forall q, ~ fixed f k q.
Proof.
  intros R Hk. destruct (onesided_keys f R) as [ok [_ [_ Ho]]]. destruct (in_dec Nat.eq_dec k ok) as [Y|N].
  - left. apply Ho in Y as [_ Y]. exact Y.
  - right. intros q Hq. apply N, Ho. split; [exact Hk | exists q; exact Hq].
Qed.

(** what the blightless function adds to the blight *)
Lemma blightless_and f B P g keys e : splittable f -> blocks_ok f B P -> reduced g -> (forall e, sem g e = true <-> extends f (reps B P) e) -> blightless_keys f g keys ->
  (sem f e = true <-> extends f keys e /\ keeps_links f e /\ keeps_fixed f e).
Proof.
  intros R K Rg Hg [_ Hk]. split.
  - intro H. split; [exists e; auto|]. split; [apply satisfying_keeps_links | apply satisfying_keeps_fixed]; exact H.
  - intros [[e' [H1 H2]] [H3 H4]]. apply (bloatless_and f B P e K). split; [|exact H3]. apply Hg.
    assert (X : sem g e' = true) by (apply Hg; exists e'; auto). rewrite <- X. apply sem_ext. intros a Ha.
    destruct (extends_atoms f (reps B P) g Rg Hg a Ha) as [k [Hr <-]]. assert (Hkv := reps_valency f B P k K Hr). destruct (fixed_dec f k R Hkv) as [[q Hq]|N].
    + rewrite (H4 k q Hkv Hq). symmetry. apply Hq. exact H2.
    + symmetry. apply H1. apply Hk. auto.
Qed.

Lemma fixed_tied f k a c q : linked f a k c -> fixed f a q -> fixed f k (xorb q c).
Proof. intros L F e He. rewrite <- (L e He), (F e He). destruct q, (e (nth_atom f k)); reflexivity. Qed.

Lemma blightless_boolf_spec order f B P g keys : (forall l, Permutation (order l) l) -> splittable f -> blocks_and_sides order f = Ok (B, P) -> blocks_ok f B P ->
  bloatless_boolf order f = Ok g -> reduced g -> (forall e, sem g e = true <-> extends f (reps B P) e) -> blightless_atomkeys order f = Ok keys -> blightless_keys f g keys ->
  exists h, blightless_boolf order f = Ok h /\ reduced h /\ forall e, sem h e = true <-> extends f keys e.
Proof.
  intros Ho R E K Eg Rg Sg Ek Hk. assert (F : fitting f) by apply R. assert (Hk2 := proj2 Hk). unfold blightless_boolf. destruct (is_constant f) eqn:Ec.
  { exists f. split; [reflexivity|]. split; [apply constant_reduced; assumption|]. intro e. split.
    - intro H. exists e. auto.
    - intros [e' [_ H]]. rewrite <- H. apply sem_ext. rewrite (constant_no_atoms f R Ec). intros a []. }
  assert (Hv := not_constant_valency f R Ec).
  destruct (blight_boolf_spec order f Ho R) as [bb [Eb [Rb Sb]]]. rewrite Eb. cbn [bind]. destruct (boolf_eqb bb f) eqn:Ebb.
  { exists (set_constant true). destruct (set_constant_reduced true) as [Rt St]. split; [reflexivity|]. split; [exact Rt|]. intro e. rewrite St. split; [|reflexivity]. intros _.
    destruct (key_satisfiable f 0 R Hv) as [e0 He0].
    set (e1 := fun v => if memb v (map (nth_atom f) keys) then e v else e0 v).
    destruct (links_extend f B P e1 K R Hv) as [e' [H1 H2]]. exists e'. split.
    - intros k Hin. assert (Hr : In k (reps B P)).
      { assert (Hin' := Hin). apply Hk2 in Hin' as [Hkv [Hg _]]. destruct (extends_atoms f (reps B P) g Rg Sg _ Hg) as [k' [Hr X]]. rewrite <- (nth_atom_inj f k' k F (reps_valency f B P k' K Hr) Hkv X). exact Hr. }
      rewrite (H1 k Hr). unfold e1. rewrite (proj2 (memb_In _ _)) by (apply in_map; exact Hin). reflexivity.
    - rewrite <- (eqb_sem bb f Ebb e'). apply Sb. split; [exact H2|]. intros a q Ha Hq.
      destruct (reps_cover f B P a K Ha) as [k [Hr [c L]]]. assert (Hkv := reps_valency f B P k K Hr).
      assert (Fk := fixed_tied f k a c q L Hq). assert (X := H2 a k c Ha Hkv L). rewrite (H1 k Hr) in X. unfold e1 in X.
      destruct (memb (nth_atom f k) (map (nth_atom f) keys)) eqn:M.
      + apply memb_In, in_map_iff in M as [k' [M Hin]]. assert (Hin' := Hin). apply Hk2 in Hin' as [Hkv' [_ N]]. rewrite (nth_atom_inj f k' k F Hkv' Hkv M) in N. destruct (N _ Fk).
      + rewrite (Fk e0 He0) in X. destruct (e' (nth_atom f a)), q, c; cbn in X; congruence. }
  rewrite Ek. cbn [bind]. rewrite atoms_at by (try exact F; intros k Hin; apply Hk2; exact Hin). cbn [bind]. rewrite Eg. cbn [bind].
  destruct (filtrate_table g (map (nth_atom f) keys) (proj1 Rg)) as [t [Et [Lt Tt]]].
  { intros a Ha. apply in_map_iff in Ha as [k [<- Hin]]. apply Hk2. exact Hin. }
  destruct (Boolf_vec_sorted t (map (nth_atom f) keys)) as [h [Eh [Rh Sh]]]; [|exact Lt|].
  { apply atoms_at_asc; [exact F | apply Hk | intros k Hin; apply Hk2; exact Hin]. }
  exists h. split; [rewrite Et; exact Eh|]. split; [exact Rh|]. intro e. rewrite Sh, Tt. split.
  - intros [e' [H1 H2]]. apply Sg in H2 as [e'' [H2 H3]]. exists e''. split; [|exact H3]. intros k Hin. rewrite <- (H1 (nth_atom f k)) by (apply in_map; exact Hin).
    apply H2. assert (Hin' := Hin). apply Hk2 in Hin' as [Hkv [Hg _]]. destruct (extends_atoms f (reps B P) g Rg Sg _ Hg) as [k' [Hr X]]. rewrite <- (nth_atom_inj f k' k F (reps_valency f B P k' K Hr) Hkv X). exact Hr.
  - intros [e' [H1 H2]]. exists e'. split; [|apply Sg; exists e'; auto]. intros a Ha. apply in_map_iff in Ha as [k [<- Hin]]. apply H1. exact Hin.
Qed.

Lemma keys_reps f B P g keys k : splittable f -> blocks_ok f B P -> reduced g -> (forall e, sem g e = true <-> extends f (reps B P) e) -> blightless_keys f g keys -> In k keys -> In k (reps B P).
Proof.
  intros R K Rg Sg [_ Hk] Hin. apply Hk in Hin as [Hkv [Hg _]]. destruct (extends_atoms f (reps B P) g Rg Sg _ Hg) as [k' [Hr X]].
  rewrite <- (nth_atom_inj f k' k (proj1 (proj1 R)) (reps_valency f B P k' K Hr) Hkv X). exact Hr.
Qed.

Lemma blightless_clean f B P g keys h : splittable f -> blocks_ok f B P -> reduced g -> (forall e, sem g e = true <-> extends f (reps B P) e) -> blightless_keys f g keys ->
  reduced h -> (forall e, sem h e = true <-> extends f keys e) -> no_links h /\ none_fixed h.
Proof.
  intros R K Rg Sg Hk Rh Sh. assert (Kv : forall k, In k keys -> k < valency f) by (intros k Hin; apply Hk; exact Hin).
  assert (Ha := extends_atoms f keys h Rh Sh). assert (Up : forall e, sem f e = true -> sem h e = true) by (intros e He; apply Sh; exists e; auto). split.
  - intros i j c [Hij Hj] L. destruct (links_up f h keys i j c (proj1 Rh) Kv Ha Up) as [k [l [K1 [K2 [E1 [E2 Lk]]]]]]; [lia | exact Hj | exact L|].
    assert (k = l) by (apply (reps_independent f B P k l K); [exact (keys_reps f B P g keys k R K Rg Sg Hk K1) | exact (keys_reps f B P g keys l R K Rg Sg Hk K2) | exists c; exact Lk]). subst l.
    assert (X : i = j) by (apply (nth_atom_inj h i j (proj1 Rh)); [lia | exact Hj | congruence]). lia.
  - intros i q Hi Fx. destruct (Ha _ (nth_atom_In h i Hi)) as [k [K1 K2]]. apply Hk in K1 as [_ [_ N]]. apply (N q). intros e He. rewrite K2. apply Fx, Up, He.
Qed.

Lemma blightless_same f B P g keys h : reduced f -> blocks_ok f B P -> reduced g -> (forall e, sem g e = true <-> extends f (reps B P) e) -> blightless_keys f g keys ->
  reduced h -> (forall e, sem h e = true <-> extends f keys e) -> (boolf_eqb f h = true <-> no_links f /\ none_fixed f).
Proof.
  intros R K Rg Sg Hk Rh Sh. rewrite (boolf_eqb_sem f h R Rh). split.
  - intro X. assert (Y : f = h) by (apply reduced_unique; assumption). rewrite Y. apply (blightless_clean f B P g keys h R K Rg Sg Hk Rh Sh).
  - intros [N1 N2] e. assert (Y : f = g) by (exact (reduced_unique f g R Rg (proj1 (boolf_eqb_sem f g R Rg) (proj2 (bloatless_same f B P g R K Rg Sg) N1)))).
    apply eq_iff_eq_true. rewrite Sh. symmetry. apply extends_all. intros k Hkv. apply Hk. split; [exact Hkv|]. split; [rewrite <- Y; apply nth_atom_In; exact Hkv | intro q; apply N2; exact Hkv].
Qed.

(** * blightless_spotint *)

Lemma filter_reps f B P g keys : splittable f -> blocks_ok f B P -> reduced g -> (forall e, sem g e = true <-> extends f (reps B P) e) -> blightless_keys f g keys ->
  filter (fun k => memb k keys) (reps B P) = keys.
Proof.
  intros R K Rg Sg Hk. apply ascending_ext; [|apply Hk|].
  - destruct K as (_ & _ & _ & A). change (ascending (reps B P)) in A. revert A. generalize (reps B P) as l. intros l A. induction A as [|x l A IH Hf]; [constructor|]. cbn [filter].
    destruct (memb x keys); [|exact IH]. constructor; [exact IH|]. rewrite Forall_forall in *. intros y Hy. apply filter_In in Hy. apply Hf, Hy.
  - intro k. rewrite filter_In, memb_In. split; [tauto|]. intro H. split; [exact (keys_reps f B P g keys k R K Rg Sg Hk H) | exact H].
Qed.

Lemma blightless_spotint_spec order f : (forall l, Permutation (order l) l) -> splittable f -> is_constant f = false ->
  exists keys, blightless_atomkeys order f = Ok keys /\
  forall n, (2 ^ valency f <= n -> blightless_spotint order f n = Err TooBigError) /\
    (n < 2 ^ valency f -> ~ spot_keeps_links f n -> blightless_spotint order f n = Err BloatMismatchError) /\
    (n < 2 ^ valency f -> spot_keeps_links f n -> ~ spot_keeps_fixed f n -> blightless_spotint order f n = Err BlightMismatchError) /\
    (n < 2 ^ valency f -> spot_keeps_links f n -> spot_keeps_fixed f n -> blightless_spotint order f n = Ok (b2n (map (Nat.testbit n) keys))).
Proof.
  intros Ho R Ec. destruct (bloatless_spotint_spec order f Ho R Ec) as (B & P & E & K & Sp).
  destruct (bloatless_boolf_spec order f B P Ho R E K) as [g [Eg [Rg Sg]]]. destruct (blightless_atomkeys_spec order f g R Eg) as [keys [Ek Hk]].
  exists keys. split; [exact Ek|]. intro n. destruct (Sp n) as [S1 [S2 S3]]. unfold blightless_spotint.
  split; [intro H; rewrite (S1 H); reflexivity|]. split; [intros H1 H2; rewrite (S2 H1 H2); reflexivity|].
  rewrite (undeflated_spec order f B P Ho R E K), Ek. destruct (onesided_keys f R) as [ok [Eo [_ Hok]]]. rewrite Eo.
  destruct (blight_forced order f Ho R) as [s [st [Eb [Hh Fo]]]]. rewrite Eb.
  assert (Hv := not_constant_valency f R Ec).
  assert (Lr : length (reps B P) <> 0). { rewrite (reps_length f) by exact K. destruct (block_of f B P 0 K Hv) as [i [Hi _]]. lia. }
  set (v := map (Nat.testbit n) (reps B P)).
  assert (Ev : Binv_intval (b2n v) (Some (length (reps B P))) = Ok v).
  { assert (X := Binv_vec_int v). unfold v in X at 3. rewrite map_length, binv_intval_eq in X. apply X. unfold v. destruct (reps B P); [destruct (Lr eq_refl) | discriminate]. }
  set (fine := fun k => memb k keys || negb (memb k ok) || Bool.eqb (are_equal s (-1) (Z.of_nat k)) (Nat.testbit n k)).
  set (step := fun (v0 : list bool) (i : nat) => let* atomkey := lget (reps B P) i in
             let* truth_value := lget v i in
             let* keys0 := Ok keys in
             if memb atomkey keys0 then Ok (v0 ++ [truth_value])
             else
               let* onesided := Ok ok in
               if memb atomkey onesided then
                 let* b := Ok s in
                 guard Bool.eqb (are_equal b (-1) (Z.of_nat atomkey)) truth_value else BlightMismatchError ;;
                 Ok v0
               else Ok v0).
  assert (Step : forall acc i, i < length (reps B P) -> step acc i =
    if fine (nth i (reps B P) 0) then Ok (acc ++ map (Nat.testbit n) (filter (fun k => memb k keys) [nth i (reps B P) 0])) else Err BlightMismatchError).
  { intros acc i Hi. unfold step. rewrite (lget_ok (reps B P) i 0) by exact Hi. cbn [bind].
    assert (Hvi : lget v i = Ok (Nat.testbit n (nth i (reps B P) 0))).
    { unfold v. rewrite (lget_ok _ i (Nat.testbit n 0)) by (rewrite map_length; exact Hi). rewrite map_nth. reflexivity. }
    rewrite Hvi. cbn [bind filter map]. unfold fine. destruct (memb (nth i (reps B P) 0) keys); [reflexivity|]. cbn [orb map]. rewrite app_nil_r.
    destruct (memb (nth i (reps B P) 0) ok); cbn [negb orb]; [|reflexivity]. destruct (Bool.eqb _ _); reflexivity. }
  assert (Loop : forall l acc, (forall i, In i l -> i < length (reps B P)) -> foldM step l acc
    = if forallb (fun i => fine (nth i (reps B P) 0)) l then Ok (acc ++ map (Nat.testbit n) (filter (fun k => memb k keys) (map (fun i => nth i (reps B P) 0) l))) else Err BlightMismatchError).
  { clear Ev. clearbody step. induction l as [|i l IH]; intros acc Hl; cbn [foldM forallb map]; [cbn [filter map]; rewrite app_nil_r; reflexivity|].
    rewrite Step by (apply Hl; left; reflexivity). destruct (fine _); cbn [andb bind]; [|reflexivity]. rewrite IH by (intros; apply Hl; right; assumption).
    destruct (forallb _ _); [|reflexivity]. f_equal. rewrite <- app_assoc. f_equal. rewrite <- map_app. f_equal. cbn [filter]. destruct (memb _ keys); reflexivity. }
  assert (All : map (fun i => nth i (reps B P) 0) (range (length (reps B P))) = reps B P).
  { apply (nth_ext _ _ 0 0); [rewrite map_length; apply range_length|]. intros i Hi. rewrite map_length, range_length in Hi.
    set (F := fun i => nth i (reps B P) 0). rewrite (nth_indep (map F (range (length (reps B P)))) 0 (F 0)) by (rewrite map_length, range_length; exact Hi).
    rewrite (map_nth F), nth_range by exact Hi. reflexivity. }
  assert (Are : forall k q, k < valency f -> fixed f k q -> are_equal s (-1) (Z.of_nat k) = q).
  { intros k q Hkv Hq. destruct (C24_reported s st (-1) (Z.of_nat k) Hh) as [A _]. specialize (A ltac:(lia)).
    assert (D1 : is_key_or_universe f (-1)) by (right; split; [reflexivity|]; exists k, q; auto). assert (D2 : is_key_or_universe f (Z.of_nat k)) by (left; unfold is_key; lia).
    assert (Sat := key_satisfiable f k R Hkv). destruct q.
    - apply A. apply Fo. right. split; [exact D1|]. split; [exact D2|]. apply zlinked_universe. exact Hq.
    - apply not_true_is_false. intro X. apply A, Fo in X as [[X _]|[_ [_ L]]]; [lia|]. apply zlinked_universe in L. discriminate (fixed_unique f k true false Sat L Hq). }
  assert (Fine : spot_keeps_links f n -> (forallb (fun i => fine (nth i (reps B P) 0)) (range (length (reps B P))) = true <-> spot_keeps_fixed f n)).
  { intro Hkl. rewrite forallb_forall. split.
    - intros Hall a q Ha Hq. destruct (reps_cover f B P a K Ha) as [k [Hr [c L]]]. assert (Hkv := reps_valency f B P k K Hr). assert (Fk := fixed_tied f k a c q L Hq).
      destruct (In_nth _ _ 0 Hr) as [i [Hi Ei]]. assert (X := Hall i ltac:(apply range_In; exact Hi)). rewrite Ei in X. unfold fine in X.
      assert (Nk : memb k keys = false) by (apply not_true_is_false; intro M; apply memb_In, Hk in M as [_ [_ N]]; apply (N _ Fk)).
      assert (Yo : memb k ok = true) by (apply memb_In, Hok; split; [exact Hkv | eexists; exact Fk]). rewrite Nk, Yo in X. cbn [negb orb] in X. apply eqb_prop in X.
      rewrite (Are k _ Hkv Fk) in X. assert (Y := Hkl a k c Ha Hkv L). rewrite <- X in Y. destruct (Nat.testbit n a), q, c; cbn in Y; congruence.
    - intros Hf i Hi. apply range_In in Hi. set (k := nth i (reps B P) 0). assert (Hkv : k < valency f) by (apply (reps_valency f B P k K), nth_In; exact Hi). unfold fine.
      destruct (memb k ok) eqn:M; [|rewrite orb_true_r; reflexivity]. apply memb_In, Hok in M as [_ [q Hq]]. rewrite (Are k q Hkv Hq), (Hf k q Hkv Hq), eqb_reflx. rewrite orb_true_r. reflexivity. }
  split.
  - intros H1 H2 H3. rewrite (S3 H1 H2). cbn [bind]. fold v. rewrite Ev. cbn [bind]. fold step. rewrite Loop by (intros i Hi; apply range_In; exact Hi).
    destruct (forallb _ _) eqn:X; [destruct H3; apply (Fine H2); reflexivity | reflexivity].
  - intros H1 H2 H3. rewrite (S3 H1 H2). cbn [bind]. fold v. rewrite Ev. cbn [bind]. fold step. rewrite Loop by (intros i Hi; apply range_In; exact Hi).
    rewrite (proj2 (Fine H2) H3). cbn [app bind]. rewrite All, (filter_reps f B P g keys R K Rg Sg Hk), binv_intval_eq. reflexivity.
Qed.
