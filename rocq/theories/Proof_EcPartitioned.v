(** Proof_EcPartitioned: ec_clan_partitioned divides the clan of a root function into factions and into families. *)

From Coq Require Import List Arith ZArith Bool Lia Permutation Sorted Factorial.
From Verif Require Import Model_Base Lib Model_Splits Model_Perm Model_Binary Model_SigPerm Model_SetPart Model_Boolf Model_BoolfMore Model_MinRep
  Model_Helpers Model_Ec Spec_Bits Spec_Perm Spec_SigPerm Spec_Boolf Spec_SetPart Spec_MinRep Spec_Helpers Spec_Ec
  Proof_Binary Proof_Perm Proof_PermMore Proof_Inversions Proof_SigPerm Proof_SigPermOps Proof_SigPermMore Proof_Helpers Proof_SetPart Proof_SetPartLabels Proof_SetPartObj
  Proof_Boolf Proof_Deflate Proof_BoolfTable Proof_BoolfApply Proof_BoolfMake Proof_BoolfMore Proof_MinRepTwin Proof_MinRepClass Proof_MinRepCoset Proof_MinRep Proof_MinRepMin
  Proof_Twin Proof_Listing Proof_Splits Proof_Noble Proof_Seqs Proof_HelpersBits Proof_Blight Proof_Ec Proof_EcClass Proof_EcMembers Proof_EcCount Proof_EcSplinters Proof_EcSymmetry.
Import ListNotations.
Open Scope nat_scope.

Lemma tuple_eqb_eq a b : (forall g, In g a -> reduced g) -> (forall g, In g b -> reduced g) -> tuple_eqb a b = true <-> a = b.
Proof.
  revert b; induction a as [|x a IH]; intros [|y b] Ha Hb; cbn [tuple_eqb]; [tauto | split; discriminate | split; discriminate|]. rewrite andb_true_iff, IH; [|intros g Hg; apply Ha; right; exact Hg | intros g Hg; apply Hb; right; exact Hg].
  rewrite boolf_eqb_true; [|apply Ha; left; reflexivity | apply Hb; left; reflexivity]. split; [intros [-> ->]; reflexivity | intro E; injection E; auto].
Qed.

Lemma NoDup_concat_intro {A} (S : list (list A)) : NoDup S -> (forall T, In T S -> NoDup T) -> (forall T U x, In T S -> In U S -> In x T -> In x U -> T = U) -> NoDup (concat S).
Proof.
  induction S as [|T S IH]; intros Hn H1 H2; cbn [concat]; [constructor|]. inversion Hn as [|? ? HT Hn']; subst. apply NoDup_app_intro.
  - apply H1. left. reflexivity.
  - apply IH; [exact Hn' | intros; apply H1; right; assumption | intros U V x HU HV; apply H2; right; assumption].
  - intros x Hx C. apply in_concat in C as (U & HU & Hxu). assert (T = U) by (apply (H2 T U x); auto; [left; reflexivity | right; exact HU]). subst U. contradiction.
Qed.

Section Collect.
Context (srt : list boolf -> list boolf) (srt_perm : forall l, Permutation (srt l) l) (srt_inv : forall l l', NoDup l -> Permutation l l' -> srt l = srt l').
Context (class_of : boolf -> res ec) (M : list boolf) (C : boolf -> boolf -> Prop) (Mn : NoDup M) (Mr : forall g, In g M -> reduced g).
Context (Hc : forall g, In g M -> exists c, class_of g = Ok c /\ NoDup (ec_members c) /\ forall h, In h (ec_members c) <-> In h M /\ C g h).
Context (Cr : forall g, In g M -> C g g) (Cs : forall g h, In g M -> In h M -> C g h -> C h g) (Ct : forall g h k, In g M -> In h M -> In k M -> C g h -> C h k -> C g k).

Definition tup (g : boolf) : list boolf := match class_of g with Ok c => srt (ec_members c) | Err _ => [] end.

Lemma tup_spec g : In g M -> (exists c, class_of g = Ok c /\ srt (ec_members c) = tup g) /\ NoDup (tup g) /\ forall h, In h (tup g) <-> In h M /\ C g h.
Proof.
  intro Hg. destruct (Hc g Hg) as (c & E & N & H). unfold tup. rewrite E. split; [eauto|]. split; [apply (Permutation_NoDup (Permutation_sym (srt_perm _)) N)|].
  intro h. rewrite <- H. split; apply Permutation_in; [|symmetry]; apply srt_perm.
Qed.
Lemma tup_eq g h : In g M -> In h M -> (tup g = tup h <-> C g h).
Proof.
  intros Hg Hh. destruct (tup_spec g Hg) as (_ & Ng & Ig). destruct (tup_spec h Hh) as (_ & Nh & Ih). split.
  - intro E. apply (proj1 (Ig h)). rewrite E. apply Ih. auto.
  - intro H. destruct (Hc g Hg) as (c & E & N & Hin). destruct (Hc h Hh) as (c' & E' & N' & Hin'). unfold tup. rewrite E, E'. apply srt_inv; [exact N|]. apply NoDup_Permutation; [exact N | exact N'|].
    intro k. rewrite Hin, Hin'. split; intros [Hk A]; (split; [exact Hk|]); [apply (Ct h g k) | apply (Ct g h k)]; auto.
Qed.
Lemma tup_share g h x : In g M -> In h M -> In x (tup g) -> In x (tup h) -> tup g = tup h.
Proof.
  intros Hg Hh Xg Xh. apply (tup_spec g Hg) in Xg as [Hx Cg]. apply (tup_spec h Hh) in Xh as [_ Ch]. apply (tup_eq g h Hg Hh). apply (Ct g x h); auto.
Qed.

Lemma collect_spec todo S sum : (forall g, In g todo -> In g M) -> NoDup S -> (forall T, In T S -> exists g, In g M /\ T = tup g) -> sum = length (concat S) ->
  (forall g, In g M -> In g todo \/ In (tup g) S) ->
  exists S', collect_tuples srt class_of (length M) todo sum S = Ok S' /\ NoDup S' /\ (forall T, In T S' <-> exists g, In g M /\ T = tup g).
Proof.
  revert S sum; induction todo as [|g todo IH]; intros S sum Ht Sn Sin Es Hcov; cbn [collect_tuples].
  - exists S. split; [reflexivity|]. split; [exact Sn|]. intro T. split; [apply Sin|]. intros (g & Hg & ->). destruct (Hcov g Hg) as [[]|H]. exact H.
  - assert (Hg : In g M) by (apply Ht; left; reflexivity). destruct (tup_spec g Hg) as ((c & Ec & Et) & Ng & Ig). rewrite Ec. cbn [bind]. rewrite Et.
    assert (Rt : forall h, In h (tup g) -> reduced h) by (intros h Hh; apply Mr, Ig, Hh).
    assert (Ex : existsb (tuple_eqb (tup g)) S = true <-> In (tup g) S).
    { rewrite existsb_exists. split.
      - intros (T & HT & E). apply tuple_eqb_eq in E; [subst; exact HT | exact Rt|]. destruct (Sin T HT) as (h & Hh & ->). intros k Hk. apply Mr. apply (proj2 (proj2 (tup_spec h Hh)) k), Hk.
      - intro H. exists (tup g). split; [exact H|]. apply tuple_eqb_eq; auto. }
    destruct (existsb (tuple_eqb (tup g)) S) eqn:Eb.
    + apply IH; auto; [intros; apply Ht; right; assumption|]. intros h Hh. destruct (Hcov h Hh) as [[<-|H]|H]; [right; apply Ex; reflexivity | auto | auto].
    + assert (Nin : ~ In (tup g) S) by (intro H; apply Ex in H; discriminate H).
      assert (Sn' : NoDup (S ++ [tup g])) by (apply NoDup_snoc; assumption).
      assert (Sin' : forall T, In T (S ++ [tup g]) -> exists h, In h M /\ T = tup h) by (intros T HT; apply in_app_or in HT as [HT|[<-|[]]]; [apply Sin, HT | eauto]).
      assert (Es' : sum + length (tup g) = length (concat (S ++ [tup g]))) by (rewrite concat_app, app_length; cbn [concat]; rewrite app_nil_r; lia).
      destruct (Nat.eqb_spec (sum + length (tup g)) (length M)) as [El|El].
      * exists (S ++ [tup g]). split; [reflexivity|]. split; [exact Sn'|]. intro T. split; [apply Sin'|]. intros (h & Hh & ->).
        assert (Nc : NoDup (concat (S ++ [tup g]))).
        { apply NoDup_concat_intro; [exact Sn' | intros T HT; destruct (Sin' T HT) as (k & Hk & ->); apply (tup_spec k Hk)|]. intros T U x HT HU. destruct (Sin' T HT) as (k & Hk & ->). destruct (Sin' U HU) as (k' & Hk' & ->). apply tup_share; assumption. }
        assert (Inc : incl (concat (S ++ [tup g])) M). { intros x Hx. apply in_concat in Hx as (T & HT & Hx). destruct (Sin' T HT) as (k & Hk & ->). apply (proj2 (proj2 (tup_spec k Hk)) x), Hx. }
        assert (Hx : In h (concat (S ++ [tup g]))) by (refine (NoDup_length_incl Nc _ Inc h Hh); rewrite <- Es', El; apply Nat.le_refl). apply in_concat in Hx as (T & HT & Hx). destruct (Sin' T HT) as (k & Hk & ->).
        replace (tup h) with (tup k); [exact HT|]. apply (tup_share k h h Hk Hh Hx). apply (tup_spec h Hh). auto.
      * apply IH; auto; [intros; apply Ht; right; assumption|]. intros h Hh. destruct (Hcov h Hh) as [[<-|H]|H]; [right; apply in_or_app; right; left; reflexivity | auto | right; apply in_or_app; auto].
Qed.

(** the dictionaries *)
Context (ot : list (list boolf) -> list (list boolf)) (ot_perm : forall l, Permutation (ot l) l).
Definition zset (T : list boolf) : list nat := map zn T.

Lemma zset_spec g : In g M -> NoDup (zset (tup g)) /\ zset (tup g) <> [] /\ forall z, In z (zset (tup g)) <-> exists h, In h M /\ C g h /\ z = zn h.
Proof.
  intro Hg. destruct (tup_spec g Hg) as (_ & Ng & Ig). unfold zset. split; [|split].
  - apply NoDup_map_inj; [exact Ng|]. intros a b Ha Hb. apply zn_inj; apply Mr, Ig; assumption.
  - intro E. apply map_eq_nil in E. assert (X : In g (tup g)) by (apply Ig; auto). rewrite E in X. destruct X.
  - intro z. rewrite in_map_iff. split; [intros (h & <- & Hh); apply Ig in Hh; exists h; tauto | intros (h & Hh & A & ->); exists h; split; [reflexivity | apply Ig; auto]].
Qed.
Lemma zset_mem g h : In g M -> In h M -> (In (zn h) (zset (tup g)) <-> C g h).
Proof.
  intros Hg Hh. destruct (zset_spec g Hg) as (_ & _ & H). rewrite H. split; [|eauto]. intros (k & Hk & A & E). apply zn_inj in E; [subst; exact A | auto | auto].
Qed.

Lemma min_to_set_spec S : NoDup S -> (forall T, In T S <-> exists g, In g M /\ T = tup g) ->
  exists d, min_to_set (ot S) = Ok d /\ NoDup (map fst d) /\
    (forall g, In g M -> exists k l, In (k, l) d /\ In (zn g) l) /\
    (forall k l, In (k, l) d -> NoDup l /\ In k l /\ (forall z, In z l -> k <= z) /\ exists g, In g M /\ k = zn g /\ forall z, In z l <-> exists h, In h M /\ C g h /\ z = zn h) /\
    forall k l, In (k, l) d <-> ldget d k = Some l.
Proof.
  intros Sn Sin. assert (Oin : forall T, In T (ot S) <-> exists g, In g M /\ T = tup g) by (intro T; rewrite <- Sin; split; apply Permutation_in; [|symmetry]; apply ot_perm).
  assert (On : NoDup (ot S)) by (apply (Permutation_NoDup (Permutation_sym (ot_perm S)) Sn)).
  assert (Kn : NoDup (map (fun T => mn (zset T)) (ot S))).
  { apply NoDup_map_inj; [exact On|]. intros T U HT HU E. apply Oin in HT as (g & Hg & ->). apply Oin in HU as (h & Hh & ->). destruct (zset_spec g Hg) as (_ & Eg & Ig). destruct (zset_spec h Hh) as (_ & Eh & Ih).
    destruct (mn_spec _ Eg) as (_ & Mg & _). destruct (mn_spec _ Eh) as (_ & Mh & _). rewrite E in Mg. apply Ig in Mg as (x & Hx & Cx & Ex). rewrite Ex in Mh. apply (zset_mem h x Hh Hx) in Mh. apply (tup_eq g h Hg Hh). apply (Ct g x h); auto. }
  exists (map (fun T => (mn (zset T), zset T)) (ot S)). split; [|split; [rewrite map_map; exact Kn|split; [|split]]].
  - unfold min_to_set. apply foldM_ldset; [|exact Kn]. intros d T HT. apply Oin in HT as (g & Hg & ->). destruct (zset_spec g Hg) as (Ng & Eg & Ig).
    assert (Em : mapM boolf_zhe (tup g) = Ok (zset (tup g))). { unfold zset. apply mapM_ok. intros h Hh. apply zn_spec. apply Mr. apply (proj2 (proj2 (tup_spec g Hg)) h), Hh. }
    rewrite Em. cbn [bind]. rewrite (nodup_fixed_point Nat.eq_dec Ng). rewrite (proj1 (mn_spec _ Eg)). reflexivity.
  - intros g Hg. exists (mn (zset (tup g))), (zset (tup g)). split; [apply in_map_iff; exists (tup g); split; [reflexivity | apply Oin; eauto]|]. apply (zset_mem g g Hg Hg). auto.
  - intros k l H. apply in_map_iff in H as (T & E & HT). injection E as <- <-. apply Oin in HT as (g & Hg & ->). destruct (zset_spec g Hg) as (Ng & Eg & Ig). destruct (mn_spec _ Eg) as (_ & Mg & Mm).
    split; [exact Ng|]. split; [exact Mg|]. split; [exact Mm|]. apply Ig in Mg as Mx. destruct Mx as (x & Hx & Cx & Ex). exists x. split; [exact Hx|]. split; [exact Ex|]. intro z. rewrite Ig.
    split; intros (h & Hh & A & ->); exists h; (split; [exact Hh|]); (split; [|reflexivity]); [apply (Ct x g h) | apply (Ct g x h)]; auto.
  - intros k l. symmetry. apply ldget_In. rewrite map_map. exact Kn.
Qed.
End Collect.

(** * The classes of any function *)

Lemma constant_class f g : reduced f -> is_constant f = true -> reduced g -> clan_class (sem f) (sem g) -> g = f.
Proof.
  intros R C Rg (pi & m & _ & H). apply reduced_unique; [exact Rg | exact R|]. intro e. rewrite H. apply (constant_fitting_sem f R C).
Qed.
Lemma family_clan F H : family_class F H -> clan_class F H.
Proof. intros (m & S). exists (fun a => a), m. split; [exact identity_bijection | exact S]. Qed.
Lemma faction_clan f H : faction_class (sem f) H -> clan_class (sem f) H.
Proof. intros (pi & B & S). exists pi, (fun _ => false). split; [exact B|]. intro e. rewrite S. apply sem_ext. intros a _. symmetry. apply xorb_false_r. Qed.

Lemma family_any f : wellmade f -> adicity f <= 10 -> exists c, ec_family f = Ok c /\ NoDup (ec_members c) /\ forall g, In g (ec_members c) <-> reduced g /\ family_class (sem f) (sem g).
Proof.
  intros R A. destruct (is_constant f) eqn:C.
  - unfold ec_family. rewrite C. destruct (constant_ec_spec f (constant_reduced f R C)) as (c & E & _ & S). exists c. split; [exact E|]. split; [apply (shows_once _ _ _ S)|]. intro g. rewrite (shows_members _ _ _ S). split.
    + intros (x & _ & ->). split; [exact (constant_reduced f R C) | apply family_refl].
    + intros [Rg H]. exists 0%Z. split; [reflexivity|]. apply (constant_class f g (constant_reduced f R C) C Rg). apply family_clan, H.
  - destruct (ec_family_spec f R C A) as (c & E & _ & S). exists c. split; [exact E|]. split; [apply (shows_once _ _ _ S)|]. intro g. rewrite (shows_members _ _ _ S), <- (family_members f g R).
    split; [intros (x & i & Hi & _ & H); eauto | intros (i & Hi & H); exists (Z.of_nat i), i; auto].
Qed.

Lemma clan_any d f o n : wellmade f -> adicity f <= 5 -> (match o with None => n = adicity f | Some k => n = k end) -> adicity f <= n ->
  exists c, ec_clan (S d) f o false = Ok c /\ NoDup (ec_members c) /\ forall g, In g (ec_members c) <-> reduced g /\ adicity g <= n /\ clan_class (sem f) (sem g).
Proof.
  intros R A Ho Hn. destruct (is_constant f) eqn:C.
  - cbn [ec_clan]. rewrite C. cbn [negb]. destruct (constant_ec_spec f (constant_reduced f R C)) as (c & E & _ & S). exists c. split; [exact E|]. split; [apply (shows_once _ _ _ S)|]. intro g. rewrite (shows_members _ _ _ S). split.
    + intros (x & _ & ->). split; [exact (constant_reduced f R C)|]. split; [exact Hn | apply clan_refl].
    + intros (Rg & _ & H). exists 0%Z. split; [reflexivity | apply (constant_class f g (constant_reduced f R C) C Rg H)].
  - destruct (Nat.eq_dec n (valency f)) as [Ev|Ev].
    + destruct (ec_clan_redundant d f o false n R C A Ho Hn (or_introl Ev)) as (c & E & _ & S). exists c. split; [exact E|]. split; [apply (shows_once _ _ _ S)|]. intro g. rewrite (shows_members _ _ _ S), <- (clan_members f g n R Hn).
      split; [intros (x & m & r & Hm & Hr & _ & H); eauto | intros (m & r & Hm & Hr & H); eexists _, m, r; eauto].
    + assert (X : exists c, ec_clan (S d) f o false = Ok c /\ ec_glove c = Some (combinations (range n) (valency f)) /\
        shows c (znat_range (2 ^ valency f * fact (valency f) * length (combinations (range n) (valency f))))
        (fun x g => exists m r k combo, m < 2 ^ valency f /\ r < fact (valency f) /\ nth_error (combinations (range n) (valency f)) k = Some combo /\
                    x = Z.of_nat ((m * fact (valency f) + r) * length (combinations (range n) (valency f)) + k) /\ variation_at f combo m r g)).
      { destruct o as [k|]; [subst k; apply (ec_clan_abbreviated d f n R C A Hn Ev)|]. destruct (ec_clan_abbreviated d f n R C A Hn Ev) as (c & E & S). exists c. split; [|exact S]. rewrite <- E. cbn [ec_clan]. rewrite C.
        unfold ec_clan_variable, ec_arity. subst n. rewrite Nat.leb_refl. reflexivity. }
      destruct X as (c & E & _ & S). exists c. split; [exact E|]. split; [apply (shows_once _ _ _ S)|]. intro g. rewrite (shows_members _ _ _ S), <- (clan_members f g n R Hn), <- (variation_clan f n R Hn g).
      split; [intros (x & m & r & k & combo & Hm & Hr & Hk & _ & H); exists m, r, k, combo; auto | intros (m & r & k & combo & Hm & Hr & Hk & H); eexists _, m, r, k, combo; eauto].
Qed.

Lemma faction_any f o n : wellmade f -> adicity f <= 5 -> (match o with None => n = adicity f | Some k => n = k end) -> adicity f <= n ->
  exists c, ec_faction f o false = Ok c /\ NoDup (ec_members c) /\ forall g, In g (ec_members c) <-> reduced g /\ adicity g <= n /\ faction_class (sem f) (sem g).
Proof.
  intros R A Ho Hn. destruct (is_constant f) eqn:C.
  - unfold ec_faction. rewrite C. cbn [andb]. change [0%Z] with (znat_range 1). destruct (one_block_spec 1 f) as (c & E & _ & S); [lia | exact (constant_reduced f R C)|]. exists c. split; [exact E|]. split; [apply (shows_once _ _ _ S)|]. intro g. rewrite (shows_members _ _ _ S). split.
    + intros (x & _ & ->). split; [exact (constant_reduced f R C)|]. split; [exact Hn | apply faction_refl].
    + intros (Rg & _ & H). exists 0%Z. split; [lia | apply (constant_class f g (constant_reduced f R C) C Rg); apply faction_clan, H].
  - destruct (Nat.eq_dec n (valency f)) as [Ev|Ev].
    + destruct (ec_faction_short f o false n R C A Ho Hn (or_introl Ev)) as (c & E & _ & S). exists c. split; [exact E|]. split; [apply (shows_once _ _ _ S)|]. intro g. rewrite (shows_members _ _ _ S), <- (faction_members f g n R Hn).
      split; [intros (x & r & Hr & _ & H); eauto | intros (r & Hr & H); eexists _, r; eauto].
    + assert (X : exists c, ec_faction f o false = Ok c /\ ec_glove c = Some (combinations (range n) (valency f)) /\
        shows c (znat_range (fact (valency f) * length (combinations (range n) (valency f))))
        (fun x g => exists r k combo, r < fact (valency f) /\ nth_error (combinations (range n) (valency f)) k = Some combo /\
                    x = Z.of_nat (r * length (combinations (range n) (valency f)) + k) /\ variation_at f combo 0 r g)).
      { destruct o as [k|]; [subst k; apply (ec_faction_long f n R C A Hn Ev)|]. destruct (ec_faction_long f n R C A Hn Ev) as (c & E & S). exists c. split; [|exact S]. rewrite <- E.
        unfold ec_faction, ec_arity. rewrite C. subst n. rewrite Nat.leb_refl. reflexivity. }
      destruct X as (c & E & _ & S). exists c. split; [exact E|]. split; [apply (shows_once _ _ _ S)|]. intro g. rewrite (shows_members _ _ _ S), <- (faction_members f g n R Hn), <- (variation_faction f n R Hn g).
      split; [intros (x & r & k & combo & Hr & Hk & _ & H); exists r, k, combo; auto | intros (r & k & combo & Hr & Hk & H); eexists _, r, k, combo; eauto].
Qed.

(** members of a clan have the same number of atoms *)
Lemma clan_valency_le f g : reduced f -> reduced g -> clan_class (sem f) (sem g) -> valency f <= valency g.
Proof.
  intros R Rg (pi & m & B & H). unfold valency. rewrite <- (map_length pi (atomvals f)). apply NoDup_incl_length.
  - apply NoDup_map_inj; [apply fitting_NoDup, R|]. intros a b _ _. apply bijection_inj, B.
  - intros x Hx. apply in_map_iff in Hx as (a & <- & Ha). apply (clan_atoms f g pi m R Rg B H a Ha).
Qed.
Lemma clan_back f g : clan_class (sem f) (sem g) -> clan_class (sem g) (sem f).
Proof. intro H. apply (clan_same f g H). apply clan_refl. Qed.

Section Partitioned.
Context (d : nat) (srt : list boolf -> list boolf) (oc : list boolf -> list boolf) (ot : list (list boolf) -> list (list boolf)).
Context (srt_perm : forall l, Permutation (srt l) l) (srt_inv : forall l l', NoDup l -> Permutation l l' -> srt l = srt l').
Context (oc_perm : forall l, Permutation (oc l) l) (ot_perm : forall l, Permutation (ot l) l).
Context (f : boolf) (R : reduced f) (Root : adicity f = valency f) (L : valency f <= 5).
Notation n := (valency f).
Definition in_clan (F : assignment -> bool) : Prop := clan_class (sem f) F /\ local n F.

Lemma in_clan_ext F H : (forall e, F e = H e) -> in_clan F -> in_clan H.
Proof. intros E [C Lo]. split; [apply (clan_class_ext (sem f) _ F); auto | intros e e' He; rewrite <- !E; apply Lo, He]. Qed.

Section OneRelation.
Context (C : (assignment -> bool) -> (assignment -> bool) -> Prop) (class_of : boolf -> res ec) (M : list boolf).
Context (Cext : forall F F' H H', (forall e, F e = F' e) -> (forall e, H e = H' e) -> C F H -> C F' H').
Context (Mn : NoDup M) (Hm : forall g, In g M <-> reduced g /\ in_clan (sem g)).
Context (Hc : forall g, In g M -> exists c, class_of g = Ok c /\ NoDup (ec_members c) /\ forall h, In h (ec_members c) <-> In h M /\ C (sem g) (sem h)).
Context (Cr : forall g, C (sem g) (sem g)) (Csame : forall g h, C (sem g) (sem h) -> forall k, C (sem g) k <-> C (sem h) k).

Lemma one_relation : exists S dd dict, collect_tuples srt class_of (length M) (oc M) 0 [] = Ok S /\ min_to_set (ot S) = Ok dd /\
  mapM (fun m => let* l := ldlookup dd m in Ok (m, sort_nat l)) (sort_nat (map fst dd)) = Ok dict /\ map fst dict = sort_nat (map fst dd) /\ StronglySorted lt (map fst dict) /\ groups C in_clan dict /\
  forall k, In k (map fst dict) -> exists l, ldlookup dd k = Ok l /\ NoDup l /\ forall z, In z l <-> in_clan (zhegalkin z) /\ C (zhegalkin k) (zhegalkin z).
Proof.
  set (CC := fun g h => C (sem g) (sem h)). assert (Mr : forall g, In g M -> reduced g) by (intros g Hg; apply Hm, Hg).
  assert (Cr' : forall g, In g M -> CC g g) by (intros; apply Cr). assert (Cs' : forall g h, In g M -> In h M -> CC g h -> CC h g) by (intros g h _ _ H; apply (Csame g h H), Cr).
  assert (Ct' : forall g h k, In g M -> In h M -> In k M -> CC g h -> CC h k -> CC g k) by (intros g h k _ _ _ A B; apply (Csame g h A), B).
  destruct (collect_spec srt srt_perm srt_inv class_of M CC Mr Hc Cr' Cs' Ct' (oc M) [] 0) as (S & ES & NS & IS).
  - intros g Hg. apply (Permutation_in _ (oc_perm M)), Hg.
  - constructor.
  - intros T [].
  - reflexivity.
  - intros g Hg. left. apply (Permutation_in _ (Permutation_sym (oc_perm M))), Hg.
  - destruct (min_to_set_spec srt srt_perm srt_inv class_of M CC Mr Hc Cr' Cs' Ct' ot ot_perm S NS IS) as (dd & Ed & Nd & Cov & Ent & Get).
    set (keys := sort_nat (map fst dd)). assert (Kin : forall k, In k keys <-> exists l, In (k, l) dd).
    { intro k. unfold keys. rewrite sort_nat_In, in_map_iff. split; [intros ((k' & l) & <- & H); exists l; exact H | intros (l & H); exists (k, l); auto]. }
    assert (Look : forall k l, In (k, l) dd -> ldlookup dd k = Ok l) by (intros k l H; apply Get in H; unfold ldlookup; rewrite H; reflexivity).
    destruct (mapM_all (fun m => let* l := ldlookup dd m in Ok (m, sort_nat l)) (fun m e => exists l, In (m, l) dd /\ e = (m, sort_nat l)) keys) as (dict & Edict & Fd).
    { intros m Hk. apply Kin in Hk as (l & H). rewrite (Look m l H). cbn [bind]. eexists. split; [reflexivity|]. eauto. }
    assert (Edk : map fst dict = keys). { clear - Fd. induction Fd as [|m e ks ds (l & _ & ->) _ IH]; [reflexivity|]. cbn [map fst]. rewrite IH. reflexivity. }
    assert (Dict : forall k l, In (k, l) dict <-> exists l0, In (k, l0) dd /\ l = sort_nat l0).
    { intros k l. split.
      - intro H. destruct (Forall2_in_r _ _ _ _ Fd H) as (m & _ & l0 & Hl & E). injection E as -> ->. eauto.
      - intros (l0 & Hl & ->). destruct (Forall2_in_l _ _ _ k Fd) as (e & He & l1 & Hl1 & ->); [apply Kin; eauto|]. replace l0 with l1; [exact He|]. apply Get in Hl, Hl1. congruence. }
    assert (Mem : forall k l, In (k, l) dd -> forall z, In z l <-> in_clan (zhegalkin z) /\ C (zhegalkin k) (zhegalkin z)).
    { intros k l H z. destruct (Ent k l H) as (_ & _ & _ & g & Hg & -> & Hz). rewrite Hz. destruct (zn_spec g (Mr g Hg)) as (_ & Sg & _). split.
      - intros (h & Hh & A & ->). destruct (zn_spec h (Mr h Hh)) as (_ & Sh & _). split; [apply (in_clan_ext (sem h)); [intro; symmetry; apply Sh | apply Hm, Hh] | apply (Cext (sem g) _ (sem h)); [intro; symmetry; apply Sg | intro; symmetry; apply Sh | exact A]].
      - intros [P A]. destruct (zn_of z) as (h & Rh & <-). destruct (zn_spec h Rh) as (_ & Sh & _). exists h. split; [apply Hm; split; [exact Rh | apply (in_clan_ext (zhegalkin (zn h))); assumption]|]. split; [|reflexivity]. apply (Cext (zhegalkin (zn g)) _ (zhegalkin (zn h))); assumption. }
    exists S, dd, dict. split; [exact ES|]. split; [exact Ed|]. split; [exact Edict|]. split; [exact Edk|]. split; [rewrite Edk; apply sort_nat_sorted_lt, Nd|]. split.
    + split; [rewrite Edk; apply sorted_lt_NoDup, sort_nat_sorted_lt, Nd|]. split.
      * intros z P. destruct (zn_of z) as (g & Rg & <-). destruct (zn_spec g Rg) as (_ & Sg & _). destruct (Cov g) as (k & l & H & Hz); [apply Hm; split; [exact Rg | apply (in_clan_ext (zhegalkin (zn g))); assumption]|].
        exists k, (sort_nat l). split; [apply Dict; eauto | apply sort_nat_In, Hz].
      * intros k l H. apply Dict in H as (l0 & H & ->). destruct (Ent k l0 H) as (Nl & Ik & Mk & _). split; [apply sort_nat_sorted_lt, Nl|]. split; [apply sort_nat_In, Ik|]. split; [intros z Hz; apply Mk, (proj1 (sort_nat_In _ _)), Hz|].
        intro z. rewrite sort_nat_In. apply Mem, H.
    + intros k Hk. rewrite Edk in Hk. apply Kin in Hk as (l & H). exists l. split; [apply Look, H|]. split; [apply (Ent k l H) | apply Mem, H].
Qed.
End OneRelation.

Lemma partitioned_spec : exists reps1 reps2 dict1 dict2 splinters, ec_clan_partitioned (S d) srt oc ot f = Ok (reps1, reps2, dict1, dict2, splinters) /\
  (map fst dict1 = reps1 /\ StronglySorted lt reps1 /\ groups faction_class in_clan dict1) /\ (map fst dict2 = reps2 /\ StronglySorted lt reps2 /\ groups family_class in_clan dict2) /\
  map fst splinters = list_prod reps1 reps2 /\
  forall p q l, In ((p, q), l) splinters -> StronglySorted lt l /\ forall z, In z l <-> in_clan (zhegalkin z) /\ faction_class (zhegalkin p) (zhegalkin z) /\ family_class (zhegalkin q) (zhegalkin z).
Proof.
  destruct (clan_any d f None (adicity f) R ltac:(lia) eq_refl ltac:(lia)) as (c & Ec & Nc & Hm0). set (M := ec_members c) in *.
  assert (Hm : forall g, In g M <-> reduced g /\ in_clan (sem g)).
  { intro g. rewrite Hm0, Root. unfold in_clan. split; [intros (A1 & A2 & A3); split; [exact A1|]; split; [exact A3 | apply local_sem; assumption] | intros (A1 & A2 & A3); split; [exact A1|]; split; [apply local_sem; assumption | exact A2]]. }
  assert (Hroot : forall g, In g M -> reduced g /\ adicity g = n /\ clan_class (sem f) (sem g)).
  { intros g Hg. apply Hm0 in Hg as (Rg & Ag & Cg). split; [exact Rg|]. split; [|exact Cg]. assert (V1 := clan_valency_le f g R Rg Cg). assert (V2 := valency_le_adicity g Rg). lia. }
  destruct (one_relation faction_class (fun g => ec_faction g None false) M) as (S1 & d1 & dict1 & E1 & F1 & G1 & K1 & O1 & P1 & Q1).
  { apply faction_class_ext. } { exact Hm. }
  { intros g Hg. destruct (Hroot g Hg) as (Rg & Ag & Cg). destruct (faction_any g None (adicity g) Rg ltac:(lia) eq_refl ltac:(lia)) as (c' & Ec' & Nc' & Hc'). exists c'. split; [exact Ec'|]. split; [exact Nc'|].
    intro h. rewrite Hc', Hm0, Ag, Root. split.
    - intros (Rh & Ah & Fh). split; [|exact Fh]. split; [exact Rh|]. split; [exact Ah|]. apply (clan_same f g Cg), faction_clan, Fh.
    - intros ((Rh & Ah & _) & Fh). auto. }
  { apply faction_refl. } { apply faction_same. }
  destruct (one_relation family_class ec_family M) as (S2 & d2 & dict2 & E2 & F2 & G2 & K2 & O2 & P2 & Q2).
  { apply family_class_ext. } { exact Hm. }
  { intros g Hg. destruct (Hroot g Hg) as (Rg & Ag & Cg). destruct (family_any g Rg ltac:(lia)) as (c' & Ec' & Nc' & Hc'). exists c'. split; [exact Ec'|]. split; [exact Nc'|].
    intro h. rewrite Hc', Hm0, Root. split.
    - intros (Rh & Fh). split; [|exact Fh]. split; [exact Rh|]. split; [|apply (clan_same f g Cg), family_clan, Fh]. destruct Fh as (m & Hs). apply adicity_le; [exact Rh|]. intros e e' He. rewrite !Hs. apply sem_ext. intros a Ha. apply adicity_bound in Ha. rewrite He by lia. reflexivity.
    - intros ((Rh & _ & _) & Fh). auto. }
  { apply family_refl. } { apply family_same. }
  destruct (mapM_all (fun pn : nat * nat => let* perm_set := ldlookup d1 (fst pn) in let* neg_set := ldlookup d2 (snd pn) in Ok (pn, sort_nat (filter (fun z => memb z neg_set) perm_set)))
    (fun pn e => exists l1 l2, ldlookup d1 (fst pn) = Ok l1 /\ ldlookup d2 (snd pn) = Ok l2 /\ NoDup l1 /\ (forall z, In z l1 <-> in_clan (zhegalkin z) /\ faction_class (zhegalkin (fst pn)) (zhegalkin z)) /\
       (forall z, In z l2 <-> in_clan (zhegalkin z) /\ family_class (zhegalkin (snd pn)) (zhegalkin z)) /\ e = (pn, sort_nat (filter (fun z => memb z l2) l1)))
    (list_prod (sort_nat (map fst d1)) (sort_nat (map fst d2)))) as (spl & Es & Fs).
  { intros [p q] Hpq. apply in_prod_iff in Hpq as [Hp Hq]. rewrite <- K1 in Hp. rewrite <- K2 in Hq. destruct (Q1 p Hp) as (l1 & L1 & N1 & I1). destruct (Q2 q Hq) as (l2 & L2 & N2 & I2). cbn [fst snd]. rewrite L1, L2. cbn [bind].
    eexists. split; [reflexivity|]. exists l1, l2. auto 10. }
  exists (sort_nat (map fst d1)), (sort_nat (map fst d2)), dict1, dict2, spl. split.
  - unfold ec_clan_partitioned. rewrite Ec. fold M. cbn [bind]. fold M. rewrite E1. cbn [bind]. rewrite E2. cbn [bind]. rewrite F1. cbn [bind]. rewrite F2.
    match goal with |- context [mapM ?h (list_prod ?a ?b)] => idtac | _ => cbn [bind] end.
    match goal with |- context [mapM ?h (list_prod ?a ?b)] => replace (mapM h (list_prod a b)) with (Ok spl) by (symmetry; exact Es) end. cbn [bind].
    match goal with |- context [mapM ?h (sort_nat (map fst d1))] => replace (mapM h (sort_nat (map fst d1))) with (Ok dict1) by (symmetry; exact G1) end. cbn [bind].
    match goal with |- context [mapM ?h (sort_nat (map fst d2))] => replace (mapM h (sort_nat (map fst d2))) with (Ok dict2) by (symmetry; exact G2) end. reflexivity.
  - split; [rewrite K1 in O1; auto|]. split; [rewrite K2 in O2; auto|]. split.
    + clear - Fs. induction Fs as [|pn e ks es (l1 & l2 & _ & _ & _ & _ & _ & ->) _ IH]; [reflexivity|]. cbn [map fst]. rewrite IH. reflexivity.
    + intros p q l H. destruct (Forall2_in_r _ _ _ _ Fs H) as (pn & _ & l1 & l2 & _ & _ & N1 & I1 & I2 & E). injection E as <- ->. cbn [fst snd] in *. split; [apply sort_nat_sorted_lt, NoDup_filter, N1|].
      intro z. rewrite sort_nat_In, filter_In, memb_In, I1, I2. tauto.
Qed.
End Partitioned.
