(** Proof_EcSplinters: ec_family_splinters and ec_clan_factions. *)

From Coq Require Import List Arith ZArith Bool Lia Permutation Sorted Factorial.
From Verif Require Import Model_Base Lib Model_Splits Model_Perm Model_Binary Model_SigPerm Model_SetPart Model_Boolf Model_BoolfMore Model_MinRep
  Model_Helpers Model_Ec Spec_Bits Spec_Perm Spec_SigPerm Spec_Boolf Spec_SetPart Spec_MinRep Spec_Helpers Spec_Ec
  Proof_Binary Proof_Perm Proof_PermMore Proof_Inversions Proof_SigPerm Proof_SigPermOps Proof_SigPermMore Proof_Helpers Proof_SetPart Proof_SetPartLabels Proof_SetPartObj
  Proof_Boolf Proof_Deflate Proof_BoolfTable Proof_BoolfApply Proof_BoolfMake Proof_BoolfMore Proof_MinRepTwin Proof_MinRepClass Proof_MinRepCoset Proof_MinRep Proof_MinRepMin
  Proof_Twin Proof_Listing Proof_Splits Proof_Noble Proof_Seqs Proof_HelpersBits Proof_Blight Proof_Ec Proof_EcClass Proof_EcMembers Proof_EcCount.
Import ListNotations.
Open Scope nat_scope.

(** * Dictionaries of lists *)

Lemma ldget_In (d : ldict) k l : NoDup (map fst d) -> ldget d k = Some l <-> In (k, l) d.
Proof.
  induction d as [|[k' v] d IH]; cbn [ldget map fst In]; intro Hn; [split; [discriminate | intros []]|]. inversion Hn as [|? ? Hk Hn']; subst. destruct (Nat.eqb_spec k k') as [->|Hne].
  - split; [intro E; injection E as ->; auto|]. intros [E|C]; [injection E as ->; reflexivity|]. exfalso. apply Hk. apply in_map_iff. exists (k', l). auto.
  - rewrite IH by exact Hn'. split; [auto|]. intros [E|C]; [congruence | exact C].
Qed.
Lemma ldget_none (d : ldict) k : ldget d k = None <-> ~ In k (map fst d).
Proof.
  induction d as [|[k' v] d IH]; cbn [ldget map fst In]; [tauto|]. destruct (Nat.eqb_spec k k') as [->|Hne]; [split; [discriminate | intro H; exfalso; apply H; auto]|]. rewrite IH. split; [intros H [C|C]; [congruence | exact (H C)] | auto].
Qed.
Lemma ldset_keys (d : ldict) k v : map fst (ldset d k v) = if memb k (map fst d) then map fst d else map fst d ++ [k].
Proof.
  induction d as [|[k' v'] d IH]; cbn [ldset map fst memb existsb]; [reflexivity|]. unfold memb in *. cbn [existsb]. destruct (Nat.eqb_spec k k') as [->|Hne]; cbn [map fst orb]; [reflexivity|].
  rewrite IH. destruct (existsb (Nat.eqb k) (map fst d)); reflexivity.
Qed.
Lemma ldset_get (d : ldict) k v k' : ldget (ldset d k v) k' = if Nat.eqb k' k then Some v else ldget d k'.
Proof.
  induction d as [|[k0 v0] d IH]; cbn [ldset ldget]; [reflexivity|]. destruct (Nat.eqb_spec k k0) as [->|Hne]; cbn [ldget].
  - destruct (Nat.eqb_spec k' k0); reflexivity.
  - rewrite IH. destruct (Nat.eqb_spec k' k0) as [->|]; [|reflexivity]. destruct (Nat.eqb_spec k0 k); [congruence | reflexivity].
Qed.
Lemma ldset_new (d : ldict) k v : ~ In k (map fst d) -> ldset d k v = d ++ [(k, v)].
Proof.
  induction d as [|[k' v'] d IH]; cbn [ldset map fst In app]; intro H; [reflexivity|]. destruct (Nat.eqb_spec k k') as [->|Hne]; [exfalso; apply H; auto|]. rewrite IH by tauto. reflexivity.
Qed.
Lemma NoDup_snoc' {A} (l : list A) x : NoDup l -> ~ In x l -> NoDup (l ++ [x]).
Proof. apply NoDup_snoc. Qed.

(** a loop that sets different keys *)
Lemma foldM_ldset {A} (h : ldict -> A -> res ldict) (K : A -> nat) (V : A -> list nat) l :
  (forall d a, In a l -> h d a = Ok (ldset d (K a) (V a))) -> NoDup (map K l) -> foldM h l [] = Ok (map (fun a => (K a, V a)) l).
Proof.
  intros Hh Hn. assert (G : forall l0 d, (forall d a, In a l0 -> h d a = Ok (ldset d (K a) (V a))) -> NoDup (map fst d ++ map K l0) -> foldM h l0 d = Ok (d ++ map (fun a => (K a, V a)) l0)).
  { induction l0 as [|a l0 IH]; intros d Ha Hd; cbn [foldM map]; [rewrite app_nil_r; reflexivity|]. rewrite Ha by (left; reflexivity). cbn [bind].
    assert (Hk : ~ In (K a) (map fst d)). { intro C. cbn [map] in Hd. apply NoDup_remove_2 in Hd. apply Hd. apply in_or_app. left. exact C. }
    rewrite ldset_new by exact Hk. rewrite IH.
    - rewrite <- app_assoc. reflexivity.
    - intros d0 b Hb. apply Ha. right. exact Hb.
    - rewrite map_app. cbn [map fst]. rewrite <- app_assoc. exact Hd. }
  apply (G l [] Hh Hn).
Qed.

(** * Numbers of functions *)

Definition zn (g : boolf) : nat := match boolf_zhe g with Ok z => z | Err _ => 0 end.
Lemma zn_spec g : reduced g -> boolf_zhe g = Ok (zn g) /\ (forall e, zhegalkin (zn g) e = sem g e) /\ zn g < 2 ^ 2 ^ adicity g.
Proof. intro R. destruct (boolf_zhe_spec g (proj1 R)) as (z & E & Hz & _ & S). unfold zn. rewrite E. auto. Qed.
Lemma zn_inj g h : reduced g -> reduced h -> zn g = zn h -> g = h.
Proof. intros Rg Rh E. apply reduced_unique; [exact Rg | exact Rh|]. intro e. rewrite <- (proj1 (proj2 (zn_spec g Rg))), <- (proj1 (proj2 (zn_spec h Rh))), E. reflexivity. Qed.
Lemma zn_of z : exists g, reduced g /\ zn g = z.
Proof.
  destruct (zhe_spec z) as (g & _ & R & S). exists g. split; [exact R|]. apply zhegalkin_inj. intro e. rewrite (proj1 (proj2 (zn_spec g R))). apply S.
Qed.
Lemma zn_bound g n : reduced g -> (zn g < 2 ^ 2 ^ n <-> adicity g <= n).
Proof.
  intro R. destruct (zn_spec g R) as (_ & S & B). split.
  - intro H. apply adicity_le; [exact R|]. intros e e' He. rewrite <- !S. apply (zhegalkin_ext _ n); assumption.
  - intro H. eapply Nat.lt_le_trans; [exact B|]. apply Nat.pow_le_mono_r; [lia|]. apply Nat.pow_le_mono_r; lia.
Qed.

Lemma faction_class_ext F F' H H' : (forall e, F e = F' e) -> (forall e, H e = H' e) -> faction_class F H -> faction_class F' H'.
Proof. intros E1 E2 (pi & B & S). exists pi. split; [exact B|]. intro e. rewrite <- E2, S. apply E1. Qed.
Lemma family_class_ext F F' H H' : (forall e, F e = F' e) -> (forall e, H e = H' e) -> family_class F H -> family_class F' H'.
Proof. intros E1 E2 (m & S). exists m. intro e. rewrite <- E2, S. apply E1. Qed.
Lemma clan_class_ext F F' H H' : (forall e, F e = F' e) -> (forall e, H e = H' e) -> clan_class F H -> clan_class F' H'.
Proof. intros E1 E2 (pi & m & B & S). exists pi, m. split; [exact B|]. intro e. rewrite <- E2, S. apply E1. Qed.
Lemma smallest_ext (C D : (assignment -> bool) -> Prop) g h : (forall k, C k <-> D k) -> (forall e, g e = h e) -> (forall k k', (forall e, k e = k' e) -> C k -> C k') -> smallest C g -> smallest D h.
Proof.
  intros HCD E X [Cg (z & Z & M)]. split; [apply HCD, (X g h E Cg)|]. exists z. split; [intro e; rewrite Z; apply E|]. intros k y Hk. apply M. apply HCD, Hk.
Qed.

(** the smallest number of the faction *)
Definition rz (g : boolf) : nat := match faction_rep_zhe g with Ok z => z | Err _ => 0 end.
Lemma rz_spec g : reduced g -> faction_rep_zhe g = Ok (rz g) /\ smallest (faction_class (sem g)) (zhegalkin (rz g)).
Proof.
  intro R. unfold rz, faction_rep_zhe. destruct (faction_minrep_smallest g R) as (r & E & Rr & S). rewrite E. cbn [bind]. destruct (zn_spec r Rr) as (Ez & Z & _). rewrite Ez. split; [reflexivity|].
  apply (smallest_ext (faction_class (sem g)) _ (sem r)); [tauto | intro e; symmetry; apply Z | intros k k' Hk; apply faction_class_ext; auto | exact S].
Qed.
Lemma rz_class g h : reduced g -> reduced h -> (rz g = rz h <-> faction_class (sem g) (sem h)).
Proof.
  intros Rg Rh. destruct (rz_spec g Rg) as [_ Sg]. destruct (rz_spec h Rh) as [_ Sh]. destruct (zn_of (rz g)) as (r & Rr & Er). destruct (zn_spec r Rr) as (_ & Zr & _). rewrite Er in Zr. split.
  - intro E. apply (faction_same g r).
    + apply (faction_class_ext (sem g) _ (zhegalkin (rz g))); [auto | exact Zr | apply Sg].
    + apply (proj1 (faction_same h r (faction_class_ext (sem h) _ (zhegalkin (rz h)) _ (fun e => eq_refl) ltac:(rewrite <- E; exact Zr) (proj1 Sh)) (sem h))), faction_refl.
  - intro C. apply zhegalkin_inj. apply (smallest_unique _ _ _ _ (faction_same g h C) Sg Sh).
Qed.

(** * Members by faction *)

Lemma filter_nothing {A} (p : A -> bool) l : (forall x, In x l -> p x = false) -> filter p l = [].
Proof. intro H. induction l as [|x l IH]; cbn [filter]; [reflexivity|]. rewrite (H x (or_introl eq_refl)). apply IH. intros y Hy. apply H. right. exact Hy. Qed.


Definition with_rep (ms : list boolf) (k : nat) : list nat := map zn (filter (fun g => Nat.eqb (rz g) k) ms).

Lemma by_rep_spec ms : (forall g, In g ms -> reduced g) -> exists d, by_faction_rep ms = Ok d /\ NoDup (map fst d) /\ (forall k, In k (map fst d) <-> exists g, In g ms /\ rz g = k) /\
  forall k, In k (map fst d) -> ldget d k = Some (with_rep ms k).
Proof.
  intro Hr. unfold by_faction_rep.
  match goal with |- context [foldM ?h ms []] => set (step := h) end.
  assert (G : forall todo done d, (forall g, In g todo -> reduced g) -> NoDup (map fst d) -> (forall k, In k (map fst d) <-> exists g, In g done /\ rz g = k) ->
              (forall k, In k (map fst d) -> ldget d k = Some (with_rep done k)) ->
              exists d', foldM step todo d = Ok d' /\ NoDup (map fst d') /\ (forall k, In k (map fst d') <-> exists g, In g (done ++ todo) /\ rz g = k) /\ forall k, In k (map fst d') -> ldget d' k = Some (with_rep (done ++ todo) k)).
  { induction todo as [|g todo IH]; intros done d Ht H1 H2 H3; cbn [foldM].
    - exists d. rewrite app_nil_r. auto.
    - assert (Rg : reduced g) by (apply Ht; left; reflexivity). assert (Es : step d g = Ok (ldset d (rz g) (match ldget d (rz g) with Some l => l ++ [zn g] | None => [zn g] end))).
      { unfold step. rewrite (proj1 (rz_spec g Rg)). cbn [bind]. rewrite (proj1 (zn_spec g Rg)). reflexivity. }
      rewrite Es. cbn [bind]. set (val := match ldget d (rz g) with Some l => l ++ [zn g] | None => [zn g] end).
      assert (Ev : val = with_rep (done ++ [g]) (rz g)).
      { unfold val, with_rep. rewrite filter_app, map_app. cbn [filter]. rewrite Nat.eqb_refl. cbn [map]. destruct (ldget d (rz g)) as [l|] eqn:El.
        - f_equal. assert (I : In (rz g) (map fst d)). { destruct (in_dec Nat.eq_dec (rz g) (map fst d)) as [|n]; [assumption|]. apply ldget_none in n. congruence. }
          apply H3 in I. rewrite El in I. injection I as ->. reflexivity.
        - apply ldget_none in El. rewrite (filter_nothing _ done); [reflexivity|]. intros h Hh. apply Nat.eqb_neq. intro E. apply El, H2. eauto. }
      assert (Hk : forall k, In k (map fst (ldset d (rz g) val)) <-> k = rz g \/ In k (map fst d)).
      { intro k. rewrite ldset_keys. destruct (memb (rz g) (map fst d)) eqn:Em; [apply memb_In in Em; split; [auto | intros [->|]; auto]|]. rewrite in_app_iff. cbn [In]. split; [intros [H|[H|[]]]; auto | intros [H|H]; auto]. }
      destruct (IH (done ++ [g]) (ldset d (rz g) val)) as (d' & E & N & K & V).
      + intros h Hh. apply Ht. right. exact Hh.
      + rewrite ldset_keys. destruct (memb (rz g) (map fst d)) eqn:Em; [exact H1|]. apply NoDup_snoc'; [exact H1|]. intro C. apply memb_In in C. congruence.
      + intro k. rewrite Hk, H2. split.
        * intros [->|(h & Hh & E)]; [exists g; split; [apply in_or_app; right; left; reflexivity | reflexivity] | exists h; split; [apply in_or_app; left; exact Hh | exact E]].
        * intros (h & Hh & E). apply in_app_iff in Hh as [Hh|[<-|[]]]; [right; eauto | left; auto].
      + intros k Hin. rewrite ldset_get. destruct (Nat.eqb_spec k (rz g)) as [->|Hne]; [f_equal; exact Ev|]. apply Hk in Hin as [C|Hin]; [congruence|]. rewrite H3 by exact Hin. f_equal. unfold with_rep.
        rewrite filter_app, map_app. cbn [filter]. destruct (Nat.eqb_spec (rz g) k); [congruence|]. cbn [map]. rewrite app_nil_r. reflexivity.
      + exists d'. rewrite <- app_assoc in K, V. auto. }
  destruct (G ms [] [] Hr) as (d & E & N & K & V).
  - constructor.
  - intro k. cbn. split; [intros [] | intros (g & [] & _)].
  - intros k [].
  - exists d. auto.
Qed.

Lemma nmin_spec l : l <> [] -> exists m, nmin l = Ok m /\ In m l /\ forall x, In x l -> m <= x.
Proof.
  destruct l as [|x l]; [congruence|]. intros _. unfold nmin. eexists. split; [reflexivity|]. revert x. induction l as [|y l IH]; intro x; cbn [fold_left].
  - split; [left; reflexivity | intros z [<-|[]]; lia].
  - destruct (IH (Nat.min x y)) as [H1 H2]. split.
    + destruct H1 as [H1|H1]; [|right; right; exact H1]. rewrite <- H1. destruct (Nat.min_dec x y) as [->| ->]; [left | right; left]; reflexivity.
    + intros z [<-|[<-|Hz]]; [| |apply H2; right; exact Hz]; (eapply Nat.le_trans; [apply H2; left; reflexivity | lia]).
Qed.

(** ** The groups of a set of functions *)

Section Groups.
Context (ms : list boolf) (P : (assignment -> bool) -> Prop).
Context (Nm : NoDup ms) (Hm : forall g, In g ms <-> reduced g /\ P (sem g)) (Hp : forall F G, (forall e, F e = G e) -> P F -> P G).

Lemma with_rep_In k z : In z (sort_nat (with_rep ms k)) <-> P (zhegalkin z) /\ smallest (faction_class (zhegalkin z)) (zhegalkin k).
Proof.
  unfold with_rep. rewrite sort_nat_In, in_map_iff. split.
  - intros (g & <- & Hg). apply filter_In in Hg as [Hg E]. apply Nat.eqb_eq in E. apply Hm in Hg as [R Pg]. destruct (zn_spec g R) as (_ & S & _). split; [apply (Hp (sem g)); [intro e; symmetry; apply S | exact Pg]|].
    subst k. apply (smallest_ext (faction_class (sem g)) _ (zhegalkin (rz g))); [|auto | intros a b Ha; apply faction_class_ext; auto | apply rz_spec, R].
    intro H. split; apply faction_class_ext; auto.
  - intros [Pz S]. destruct (zn_of z) as (g & R & <-). exists g. split; [reflexivity|]. destruct (zn_spec g R) as (_ & Sg & _). apply filter_In. split; [apply Hm; split; [exact R | apply (Hp (zhegalkin (zn g))); auto]|].
    apply Nat.eqb_eq. apply zhegalkin_inj. apply (smallest_unique (faction_class (sem g)) (faction_class (zhegalkin (zn g)))); [intro H; split; apply faction_class_ext; auto | apply rz_spec, R | exact S].
Qed.
Lemma with_rep_sorted k : StronglySorted lt (sort_nat (with_rep ms k)).
Proof.
  apply sort_nat_sorted_lt. unfold with_rep. apply NoDup_map_inj; [apply NoDup_filter, Nm|]. intros g h Hg Hh. apply filter_In in Hg as [Hg _], Hh as [Hh _]. apply Hm in Hg as [Rg _], Hh as [Rh _]. apply zn_inj; assumption.
Qed.
Lemma with_rep_nonempty k : (exists g, In g ms /\ rz g = k) -> sort_nat (with_rep ms k) <> [].
Proof.
  intros (g & Hg & E) C. assert (I : In (zn g) (sort_nat (with_rep ms k))).
  { rewrite sort_nat_In. unfold with_rep. apply in_map, filter_In. split; [exact Hg | apply Nat.eqb_eq, E]. }
  rewrite C in I. destruct I.
Qed.
Lemma rep_exists z : P (zhegalkin z) -> exists g, In g ms /\ In z (sort_nat (with_rep ms (rz g))).
Proof.
  intro Pz. destruct (zn_of z) as (g & R & <-). destruct (zn_spec g R) as (_ & Sg & _). exists g. assert (Hg : In g ms) by (apply Hm; split; [exact R | apply (Hp (zhegalkin (zn g))); auto]). split; [exact Hg|].
  rewrite sort_nat_In. unfold with_rep. apply in_map, filter_In. split; [exact Hg | apply Nat.eqb_refl].
Qed.
End Groups.

(** what a dictionary of groups says: the groups are the factions, restricted to [P] *)
Definition mn (l : list nat) : nat := match nmin l with Ok m => m | Err _ => 0 end.
Lemma mn_spec l : l <> [] -> nmin l = Ok (mn l) /\ In (mn l) l /\ forall x, In x l -> mn l <= x.
Proof. intro H. destruct (nmin_spec l H) as (m & E & I & M). unfold mn. rewrite E. auto. Qed.

Lemma splinters_spec ms (P : (assignment -> bool) -> Prop) : NoDup ms -> (forall g, In g ms <-> reduced g /\ P (sem g)) -> (forall F G, (forall e, F e = G e) -> P F -> P G) ->
  exists raw keys, by_faction_rep ms = Ok raw /\ sort_nat (map fst raw) = keys /\ StronglySorted lt keys /\
    (forall k, In k keys -> ldlookup raw k = Ok (with_rep ms k)) /\ (forall k, In k keys <-> exists z, P (zhegalkin z) /\ smallest (faction_class (zhegalkin z)) (zhegalkin k)) /\
    (forall k z, In z (sort_nat (with_rep ms k)) <-> P (zhegalkin z) /\ smallest (faction_class (zhegalkin z)) (zhegalkin k)) /\ (forall k, StronglySorted lt (sort_nat (with_rep ms k))).
Proof.
  intros Nm Hm Hp. destruct (by_rep_spec ms) as (d & E & N & K & V); [intros g Hg; apply Hm, Hg|]. exists d, (sort_nat (map fst d)). split; [exact E|]. split; [reflexivity|].
  split; [apply sort_nat_sorted_lt, N|]. split; [intros k Hk; pose proof (proj1 (sort_nat_In _ _) Hk) as Hk2; unfold ldlookup; rewrite V by exact Hk2; reflexivity|].
  split; [|split; [intros k z; apply (with_rep_In ms P Hm Hp) | intro k; apply (with_rep_sorted ms P Nm Hm)]].
  intro k. rewrite sort_nat_In, K. split.
  - intro H. assert (X := with_rep_nonempty ms k H). assert (Y : exists z, In z (sort_nat (with_rep ms k))) by (destruct (sort_nat (with_rep ms k)) as [|z l]; [congruence | exists z; left; reflexivity]).
    destruct Y as (z & Hz). apply (with_rep_In ms P Hm Hp) in Hz. eauto.
  - intros (z & Hz). apply (with_rep_In ms P Hm Hp k z) in Hz. rewrite sort_nat_In in Hz. unfold with_rep in Hz. apply in_map_iff in Hz as (g & _ & Hg). apply filter_In in Hg as [Hg Eg]. apply Nat.eqb_eq in Eg. eauto.
Qed.

Lemma faction_num_refl z : faction_class (zhegalkin z) (zhegalkin z).
Proof. destruct (zn_of z) as (g & R & <-). destruct (zn_spec g R) as (_ & S & _). apply (faction_class_ext (sem g) _ (sem g)); [intro; symmetry; apply S | intro; symmetry; apply S | apply faction_refl]. Qed.

Lemma rz_iff g k : reduced g -> rz g = k <-> smallest (faction_class (zhegalkin (zn g))) (zhegalkin k).
Proof.
  intro R. destruct (zn_spec g R) as (_ & S & _). assert (X : smallest (faction_class (zhegalkin (zn g))) (zhegalkin (rz g))).
  { apply (smallest_ext (faction_class (sem g)) _ (zhegalkin (rz g))); [|auto | intros a b Ha; apply faction_class_ext; auto | apply rz_spec, R]. intro H. split; apply faction_class_ext; auto. }
  split; [intros <-; exact X|]. intro Y. apply zhegalkin_inj. apply (smallest_unique _ _ _ _ (fun H => iff_refl _) X Y).
Qed.

Lemma rep_same z y k : smallest (faction_class (zhegalkin z)) (zhegalkin k) -> (smallest (faction_class (zhegalkin y)) (zhegalkin k) <-> faction_class (zhegalkin z) (zhegalkin y)).
Proof.
  destruct (zn_of z) as (g & Rg & <-). destruct (zn_of y) as (h & Rh & <-). intro S. apply (rz_iff g k Rg) in S. rewrite <- (rz_iff h k Rh), <- S.
  destruct (zn_spec g Rg) as (_ & Sg & _). destruct (zn_spec h Rh) as (_ & Sh & _). split.
  - intro E. apply (faction_class_ext (sem g) _ (sem h)); [intro; symmetry; apply Sg | intro; symmetry; apply Sh|]. apply rz_class; auto.
  - intro C. symmetry. apply rz_class; [exact Rg | exact Rh|]. apply (faction_class_ext (zhegalkin (zn g)) _ (zhegalkin (zn h))); assumption.
Qed.

Lemma rep_le z k : smallest (faction_class (zhegalkin z)) (zhegalkin k) -> k <= z.
Proof.
  intros [_ (y & Hy & M)]. assert (y = k) by (apply zhegalkin_inj; exact Hy). subst y. apply (M (zhegalkin z)); [apply faction_num_refl | reflexivity].
Qed.

Lemma rep_of_rep z k : smallest (faction_class (zhegalkin z)) (zhegalkin k) -> smallest (faction_class (zhegalkin k)) (zhegalkin k).
Proof. intro S. apply (rep_same z k k S). apply S. Qed.

Lemma rep_total z : exists k, smallest (faction_class (zhegalkin z)) (zhegalkin k).
Proof. destruct (zn_of z) as (g & R & <-). exists (rz g). apply rz_iff; auto. Qed.

Section Result.
Context (P : (assignment -> bool) -> Prop) (G : nat -> list nat) (keys : list nat).
Context (Ks : StronglySorted lt keys) (Kin : forall k, In k keys <-> exists z, P (zhegalkin z) /\ smallest (faction_class (zhegalkin z)) (zhegalkin k)).
Context (Gin : forall k z, In z (G k) <-> P (zhegalkin z) /\ smallest (faction_class (zhegalkin z)) (zhegalkin k)) (Gs : forall k, StronglySorted lt (G k)).

Lemma G_nonempty k : In k keys -> G k <> [].
Proof. intros H C. apply Kin in H as (z & Hz). apply Gin in Hz. rewrite C in Hz. destruct Hz. Qed.

Lemma result_keys : NoDup (map (fun k => mn (G k)) keys).
Proof.
  apply NoDup_map_inj; [apply (sorted_lt_NoDup keys Ks)|]. intros a b Ha Hb E. destruct (mn_spec (G a) (G_nonempty a Ha)) as (_ & Ia & _). destruct (mn_spec (G b) (G_nonempty b Hb)) as (_ & Ib & _).
  rewrite E in Ia. apply Gin in Ia as [_ Ia], Ib as [_ Ib]. apply zhegalkin_inj. exact (smallest_unique _ _ _ _ (fun H => iff_refl _) Ia Ib).
Qed.

Lemma result_groups : groups faction_class P (map (fun k => (mn (G k), G k)) keys).
Proof.
  split; [rewrite map_map; exact result_keys|]. split.
  - intros z Pz. destruct (rep_total z) as (k & Sk). exists (mn (G k)), (G k). split; [|apply Gin; auto]. apply in_map_iff. exists k. split; [reflexivity|]. apply Kin. eauto.
  - intros k l H. apply in_map_iff in H as (r & E & Hr). injection E as <- <-. destruct (mn_spec (G r) (G_nonempty r Hr)) as (_ & I & M). split; [apply Gs|]. split; [exact I|]. split; [exact M|].
    intro z. apply Gin in I as [_ I]. rewrite Gin, (rep_same _ z _ I). reflexivity.
Qed.

Lemma result_order : StronglySorted lt keys /\ Forall2 (fun m kl => smallest (faction_class (zhegalkin (fst kl))) (zhegalkin m)) keys (map (fun k => (mn (G k), G k)) keys).
Proof.
  split; [exact Ks|]. assert (X : forall ks, (forall k, In k ks -> In k keys) -> Forall2 (fun m kl => smallest (faction_class (zhegalkin (fst kl))) (zhegalkin m)) ks (map (fun k => (mn (G k), G k)) ks)); [|apply X; auto].
  induction ks as [|k ks IH]; intro H; cbn [map]; constructor; [|apply IH; intros; apply H; right; assumption]. cbn [fst].
  destruct (mn_spec (G k) (G_nonempty k (H k (or_introl eq_refl)))) as (_ & I & _). apply Gin in I. apply I.
Qed.
End Result.

(** the members as a list of functions *)
Lemma family_splinters_of f c : wellmade f -> ec_family f = Ok c -> NoDup (ec_members c) -> (forall g, In g (ec_members c) <-> reduced g /\ family_class (sem f) (sem g)) ->
  exists d keys, ec_family_splinters f = Ok d /\ groups faction_class (family_class (sem f)) d /\ StronglySorted lt keys /\ Forall2 (fun m kl => smallest (faction_class (zhegalkin (fst kl))) (zhegalkin m)) keys d.
Proof.
  intros R Ec Nm Hm. destruct (splinters_spec (ec_members c) (family_class (sem f)) Nm Hm) as (raw & keys & Er & Ek & Ks & Lk & Kin & Gin & Gs); [intros F H E; apply family_class_ext; auto|].
  set (G := fun k => sort_nat (with_rep (ec_members c) k)). exists (map (fun k => (mn (G k), G k)) keys), keys. unfold ec_family_splinters. rewrite Ec. cbn [bind]. rewrite Er. cbn [bind]. rewrite Ek.
  split; [|split; [apply (result_groups _ G keys Ks Kin Gin Gs) | apply (result_order _ G keys Ks Kin Gin)]].
  apply (foldM_ldset _ (fun k => mn (G k)) G).
  - intros d k Hk. rewrite Lk by exact Hk. cbn [bind]. fold (G k). rewrite (proj1 (mn_spec (G k) (G_nonempty _ G keys Kin Gin k Hk))). reflexivity.
  - apply (result_keys _ G keys Ks Kin Gin).
Qed.

Lemma local_num n z : local n (zhegalkin z) <-> z < 2 ^ 2 ^ n.
Proof.
  destruct (zn_of z) as (g & R & <-). rewrite (zn_bound g n R). destruct (zn_spec g R) as (_ & S & _). split.
  - intro L. apply adicity_le; [exact R|]. intros e e' He. rewrite <- !S. apply L, He.
  - intros A e e' He. rewrite !S. apply sem_ext. intros a Ha. apply adicity_bound in Ha. apply He. lia.
Qed.
Lemma local_sem n g : reduced g -> (local n (sem g) <-> adicity g <= n).
Proof.
  intro R. split; [intro L; apply adicity_le; assumption|]. intros A e e' He. apply sem_ext. intros a Ha. apply adicity_bound in Ha. apply He. lia.
Qed.

Lemma clan_factions_of depth f o n c : wellmade f -> ec_clan depth f o false = Ok c -> NoDup (ec_members c) ->
  (forall g, In g (ec_members c) <-> reduced g /\ adicity g <= n /\ clan_class (sem f) (sem g)) ->
  exists d, ec_clan_factions depth f o = Ok d /\ groups faction_class (fun F => clan_class (sem f) F /\ local n F) d /\ StronglySorted lt (map fst d) /\
    forall k, In k (map fst d) -> smallest (faction_class (zhegalkin k)) (zhegalkin k).
Proof.
  intros R Ec Nm Hm. set (P := fun F => clan_class (sem f) F /\ local n F).
  assert (HP : forall F H, (forall e, F e = H e) -> P F -> P H).
  { intros F H E [C L]. split; [apply (clan_class_ext (sem f) _ F); auto | intros e e' He; rewrite <- !E; apply L, He]. }
  destruct (splinters_spec (ec_members c) P Nm) as (raw & keys & Er & Ek & Ks & Lk & Kin & Gin & Gs); [intro g; rewrite Hm; split; [intros (A1 & A2 & A3); exact (conj A1 (conj A3 (proj2 (local_sem n g A1) A2))) | intros (A1 & A2 & A3); exact (conj A1 (conj (proj1 (local_sem n g A1) A3) A2))] | exact HP|].
  set (G := fun k => sort_nat (with_rep (ec_members c) k)).
  assert (Hmin : forall k, In k keys -> mn (G k) = k).
  { intros k Hk. destruct (mn_spec (G k) (G_nonempty _ G keys Kin Gin k Hk)) as (_ & I & M). apply Gin in I as [[C L] S]. assert (Ik : In k (G k)).
    { apply Gin. split; [|apply (rep_of_rep (mn (G k))), S]. split.
      - destruct (zn_of (mn (G k))) as (g & Rg & Eg). destruct (zn_of k) as (h & Rh & Eh). destruct (zn_spec g Rg) as (_ & Sg & _). destruct (zn_spec h Rh) as (_ & Sh & _). rewrite Eg in Sg. rewrite Eh in Sh.
        assert (C' : clan_class (sem f) (sem g)) by (apply (clan_class_ext (sem f) _ (zhegalkin (mn (G k)))); auto). apply (clan_class_ext (sem f) _ (sem h)); [auto | intro; symmetry; apply Sh|]. apply (clan_same f g C').
        assert (D : faction_class (sem g) (sem h)) by (apply (faction_class_ext (zhegalkin (mn (G k))) _ (zhegalkin k)); [exact Sg | exact Sh | apply S]). destruct D as (pi & B & Hpi). exists pi, (fun _ => false). split; [exact B|].
        intro e. rewrite Hpi. apply sem_ext. intros a _. rewrite xorb_false_r. reflexivity.
      - apply local_num. apply local_num in L. apply rep_le in S. lia. }
    apply Nat.le_antisymm; [apply M, Ik | apply rep_le, S]. }
  exists (map (fun k => (mn (G k), G k)) keys). unfold ec_clan_factions. rewrite Ec. cbn [bind]. rewrite Er. cbn [bind]. rewrite Ek.
  split; [|split; [apply (result_groups _ G keys Ks Kin Gin Gs)|]].
  - rewrite (foldM_ldset _ (fun k => k) G).
    + f_equal. apply map_ext_in. intros k Hk. rewrite Hmin by exact Hk. reflexivity.
    + intros d k Hk. rewrite Lk by exact Hk. cbn [bind]. fold (G k). rewrite (proj1 (mn_spec (G k) (G_nonempty _ G keys Kin Gin k Hk))). cbn [bind]. rewrite (Hmin k Hk), Nat.eqb_refl. reflexivity.
    + rewrite map_id. apply (sorted_lt_NoDup keys Ks).
  - assert (E : map fst (map (fun k => (mn (G k), G k)) keys) = keys). { rewrite map_map. cbn [fst]. rewrite (map_ext_in _ (fun k => k)); [apply map_id | exact Hmin]. }
    rewrite E. split; [exact Ks|]. intros k Hk. apply Kin in Hk as (z & _ & S). apply (rep_of_rep z), S.
Qed.
