(** Proof_HyperCores: labelled blocks and potential cores of hypersplits. *)

From Coq Require Import List Arith ZArith Bool Lia Permutation Sorted.
From Verif Require Import Model_Base Lib Model_Binary Model_Splits Model_Perm Model_SetPart Model_Boolf Model_Blight Model_Hyper.
From Verif Require Import Spec_Bits Spec_Boolf Spec_Splits Spec_Blight Spec_Hyper Proof_Binary Proof_Boolf Proof_Deflate Proof_BoolfMake Proof_BoolfWalsh Proof_Splits Proof_Blight Proof_Gapless Proof_Bloatless Props_Boolf Props_Splits Proof_Hyper Proof_HyperLevels.
Import ListNotations.
Open Scope nat_scope.

(** * Labelled blocks *)

Lemma bind_eq {A B} (m : res A) (k : A -> res B) a r : m = Ok a -> k a = r -> bind m k = r.
Proof. intros -> E. exact E. Qed.

Lemma labeled_blocks_spec f n keys : fitting f -> 0 < n -> length keys = n -> (forall k, In k keys -> k < valency f) ->
  exists r, labeled_blocks f n keys = Ok r /\ map fst r = map (fun i => map (Nat.testbit i) (range n)) (range (2 ^ n)) /\
    forall b l, In (b, l) r -> ascending l /\ forall s, In s l <-> spot f s /\ forall p, p < n -> Nat.testbit s (nth p keys 0) = nth p b false.
Proof.
  intros F Hn L B. destruct (splits_ok f F) as (sp & Es & Ls & Hs). unfold labeled_blocks.
  set (blk := fun i => filter (fun s => forallb (fun p => Bool.eqb (Nat.testbit s (nth p keys 0)) (Nat.testbit i p)) (range n)) (fullspots f)).
  assert (E : forall i, In i (range (2 ^ n)) ->
     (let* block_binv := Binv_intval i (Some n) in
      let* block_set := foldM (fun block_set place => let* atomkey := lget keys place in let* bit := lget block_binv place in let* sp := splits f in let* s := lget sp atomkey in
                     Ok (filter (fun x => memb x (if bit : bool then fst s else snd s)) block_set)) (range n) (fullspots f) in
      Ok (block_binv, sort_nat block_set)) = Ok (map (Nat.testbit i) (range n), blk i)).
  { intros i Hi. apply range_In in Hi. apply (bind_eq _ _ (map (Nat.testbit i) (range n))); [apply Binv_vec; [exact Hi | lia]|].
    set (stp := fun (block_set : list nat) (place : nat) => _).
    assert (St : forall S0 p, p < n -> (forall s, In s S0 -> spot f s) -> stp S0 p = Ok (filter (fun s => Bool.eqb (Nat.testbit s (nth p keys 0)) (Nat.testbit i p)) S0)).
    { intros S0 p Hpn HS. unfold stp. rewrite (lget_ok keys p 0) by lia. cbn [bind]. rewrite (lget_ok (map _ _) p false) by (rewrite map_length, range_length; exact Hpn). cbn [bind].
      rewrite Es. cbn [bind]. assert (Hk : nth p keys 0 < valency f) by (apply B, nth_In; lia). rewrite (lget_ok sp _ ([], [])) by lia. cbn [bind].
      rewrite (nth_indep (map _ _) false (Nat.testbit i 0)) by (rewrite map_length, range_length; exact Hpn). rewrite map_nth, nth_range by exact Hpn. f_equal.
      destruct (Hs _ Hk) as (r & v & Erv & _ & _ & Hr & Hv). rewrite Erv. cbn [fst snd].
      apply filter_ext_in. intros s Hin. apply HS in Hin. apply eq_true_iff_eq. rewrite memb_In, eqb_true_iff. unfold spot in Hin. destruct (Nat.testbit i p); [rewrite Hr | rewrite Hv]; tauto. }
    assert (X : forall ps S0, (forall p, In p ps -> p < n) -> (forall s, In s S0 -> spot f s) ->
       foldM stp ps S0 = Ok (filter (fun s => forallb (fun p => Bool.eqb (Nat.testbit s (nth p keys 0)) (Nat.testbit i p)) ps) S0)).
    { induction ps as [|p ps IH]; intros S0 Hp HS; cbn [foldM].
      - cbn [forallb]. f_equal. clear. induction S0 as [|x S0 IH]; cbn; [reflexivity | f_equal; exact IH].
      - rewrite St by (try apply Hp; try (left; reflexivity); exact HS). cbn [bind].
        rewrite IH; [|intros q Hq; apply Hp; right; exact Hq | intros s Hss; apply filter_In in Hss as [Hss _]; apply HS; exact Hss]. f_equal. cbn [forallb].
        clear. induction S0 as [|x S0 IH]; [reflexivity|]. cbn [filter]. destruct (Bool.eqb _ _); cbn [filter andb]; [|exact IH]. destruct (forallb _ _); [f_equal; exact IH | exact IH]. }
    rewrite X; [|intros p Hp; apply range_In; exact Hp | intros s Hin; apply fullspots_In; exact Hin]. cbn [bind]. do 2 f_equal.
    apply sort_nat_id. apply sorted_lt_le. apply filter_sorted. apply binv_exposet_sorted. }
  rewrite (mapM_ok _ (fun i => (map (Nat.testbit i) (range n), blk i))) by exact E. eexists. split; [reflexivity|]. split; [rewrite map_map; reflexivity|].
  intros b l H. apply in_map_iff in H as (i & H & Hi). injection H as <- <-. apply range_In in Hi. split; [apply filter_sorted, binv_exposet_sorted|].
  intro s. unfold blk. rewrite filter_In, fullspots_In, forallb_forall. apply and_iff_compat_l. split.
  - intros H p Hp. specialize (H p (proj2 (range_In _ _) Hp)). apply (proj1 (eqb_true_iff _ _)) in H. rewrite H. rewrite (nth_indep (map _ _) false (Nat.testbit i 0)) by (rewrite map_length, range_length; exact Hp). rewrite map_nth, nth_range by exact Hp. reflexivity.
  - intros H p Hp. apply range_In in Hp. rewrite (H p Hp). rewrite (nth_indep (map _ _) false (Nat.testbit i 0)) by (rewrite map_length, range_length; exact Hp). rewrite map_nth, nth_range by exact Hp. apply eqb_reflx.
Qed.

(** * Borders *)

(* what the filtrate of two atoms can be *)
Lemma pair_cases f j k : splittable f -> no_links f -> none_fixed f -> j <> k -> j < valency f -> k < valency f ->
  exists s, filtrated_pair f j k = Ok s /\
    ((s = [true; true; true; true] /\ crossing f j k) \/
     ((s = [false; true; true; true] \/ s = [true; false; true; true]) /\ border_at f j k true) \/
     ((s = [true; true; false; true] \/ s = [true; true; true; false]) /\ border_at f j k false)).
Proof.
  intros R NL NF Hjk Hj Hk. assert (O : forall i, i < valency f -> ~ one_sided f i) by (intros i Hi [q H]; exact (NF i q Hi H)).
  destruct (proj2 (proj2 (proj2 R))) as [i0 M].
  destruct (C40_filtrated_pair_two_sided i0 f j k M Hjk Hj Hk (O j Hj) (O k Hk)) as (s & E & L & T). exists s. split; [exact E|].
  assert (Fx : forall i q, i < valency f -> exists e, sem f e = true /\ e (nth_atom f i) = q) by (intros i q Hi; apply some_value; assumption).
  assert (Dj : forall p, nth (b2n [p; true]) s false || nth (b2n [p; false]) s false = true).
  { intro p. destruct (Fx j p Hj) as (e & He & Hp). apply orb_true_iff. destruct (e (nth_atom f k)) eqn:Ek; [left | right]; apply T; exists e; auto. }
  assert (Dk : forall q, nth (b2n [true; q]) s false || nth (b2n [false; q]) s false = true).
  { intro q. destruct (Fx k q Hk) as (e & He & Hp). apply orb_true_iff. destruct (e (nth_atom f j)) eqn:Ek; [left | right]; apply T; exists e; auto. }
  assert (Dl : forall c, nth (b2n [true; xorb true c]) s false || nth (b2n [false; xorb false c]) s false = true).
  { intro c. apply not_false_iff_true. intro X. apply orb_false_iff in X as [X1 X2].
    assert (Y : linked f j k (negb c)).
    { intros e He. assert (Z : nth (b2n [e (nth_atom f j); e (nth_atom f k)]) s false = true) by (apply T; exists e; auto).
      destruct (e (nth_atom f j)), (e (nth_atom f k)), c; cbn in *; congruence. }
    destruct (Nat.lt_total j k) as [H|[H|H]]; [apply (NL j k (negb c)); [lia | exact Y] | contradiction | apply (NL k j (negb c)); [lia | apply linked_sym; exact Y]]. }
  destruct s as [|s0 [|s1 [|s2 [|s3 [|? ?]]]]]; try discriminate L.
  assert (T00 := T false false). assert (T10 := T true false). assert (T01 := T false true). assert (T11 := T true true). cbn [b2n Nat.b2n Nat.add Nat.mul nth] in *.
  assert (D1 := Dj true). assert (D2 := Dj false). assert (D3 := Dk true). assert (D4 := Dk false). assert (D5 := Dl true). assert (D6 := Dl false). cbn in D1, D2, D3, D4, D5, D6.
  assert (Cr : crossing f j k -> s0 = true /\ s1 = true /\ s2 = true /\ s3 = true).
  { intros (_ & _ & C). repeat split; [apply T00 | apply T10 | apply T01 | apply T11]; apply C. }
  clear Dj Dk Dl T L E. unfold border_at.
  destruct s0, s1, s2, s3; cbn in D1, D2, D3, D4, D5, D6; try discriminate; clear D1 D2 D3 D4 D5 D6.
  - left. split; [reflexivity|]. split; [exact Hj|]. split; [exact Hk|]. intros [|] [|]; [apply T11 | apply T10 | apply T01 | apply T00]; reflexivity.
  - right. right. split; [right; reflexivity|]. split; [apply T10; reflexivity|]. split; [apply T00; reflexivity|]. intro C. apply Cr in C as (_ & _ & _ & C). discriminate.
  - right. right. split; [left; reflexivity|]. split; [apply T10; reflexivity|]. split; [apply T00; reflexivity|]. intro C. apply Cr in C as (_ & _ & C & _). discriminate.
  - right. left. split; [right; reflexivity|]. split; [apply T11; reflexivity|]. split; [apply T01; reflexivity|]. intro C. apply Cr in C as (_ & C & _). discriminate.
  - right. left. split; [left; reflexivity|]. split; [apply T11; reflexivity|]. split; [apply T01; reflexivity|]. intro C. apply Cr in C as (C & _). discriminate.
Qed.

(* two independent atoms do not have their borders on different sides of a third one *)
Lemma border_consistent f ks j i k p q : splittable f -> shattered f ks -> In j ks -> In i ks -> j < valency f -> i < valency f -> k < valency f ->
  border_at f j k p -> border_at f i k q -> p = q.
Proof.
  intros R Sh Hj Hi Lj Li Lk (A1 & A2 & A3) (B1 & B2 & B3). destruct (Bool.bool_dec p q) as [E|E]; [exact E|]. exfalso.
  assert (Eq : q = negb p) by (destruct p, q; cbn; congruence). subst q. clear E.
  assert (D : forall j k p q, j < valency f -> k < valency f -> occurs f j k p q \/ ~ occurs f j k p q).
  { intros j' k' p' q' H1 H2. destruct (splits_sides f (proj1 (proj1 R))) as (sp & _ & Sd). destruct (quad f sp j' k' (proj1 (proj1 R)) Sd H1 H2) as (m & Hm & _).
    destruct (m p' q') eqn:Em; [left; apply Hm; exact Em | right; intro X; apply Hm in X; congruence]. }
  assert (X : forall a v, a < valency f -> occurs f a k true v -> occurs f a k false v -> ~ crossing f a k -> exists u, ~ occurs f a k u (negb v)).
  { intros a v Ha O1 O2 N. destruct (D a k true (negb v) Ha Lk) as [D1|D1]; [|exists true; exact D1]. destruct (D a k false (negb v) Ha Lk) as [D2|D2]; [|exists false; exact D2].
    exfalso. apply N. split; [exact Ha|]. split; [exact Lk|]. intros [|] w; destruct (Bool.bool_dec w v) as [->|Hw]; auto; (assert (w = negb v) as -> by (destruct v, w; cbn; congruence)); assumption. }
  destruct (X j p Lj A1 A2 A3) as [u Hu]. destruct (X i (negb p) Li B1 B2 B3) as [w Hw]. rewrite negb_involutive in Hw.
  destruct (Nat.eq_dec j i) as [->|Hji]; [destruct u; contradiction|].
  destruct (Sh (fun x => if Nat.eqb x j then u else w)) as (e & He & Hb). assert (Ej := Hb j Hj). assert (Ei := Hb i Hi). cbn in Ej, Ei. rewrite Nat.eqb_refl in Ej.
  rewrite (proj2 (Nat.eqb_neq i j)) in Ei by auto. destruct (Bool.bool_dec (e (nth_atom f k)) p) as [Ek|Ek]; [apply Hw; exists e; auto|].
  apply Hu. exists e. split; [exact He|]. split; [exact Ej|]. destruct (e (nth_atom f k)), p; cbn; congruence.
Qed.

(** * Dictionaries and lists *)

Lemma remove_first_In x l k : NoDup l -> (In k (remove_first x l) <-> In k l /\ k <> x).
Proof.
  induction 1 as [|y l Hy _ IH]; cbn [remove_first]; [cbn; tauto|]. destruct (Nat.eqb_spec x y) as [->|Hxy].
  - cbn. split; [intro H; split; [auto | intros ->; contradiction] | intros [[H|H] H']; [congruence | exact H]].
  - cbn. rewrite IH. split; [intros [->|[H1 H2]]; auto | intros [[->|H1] H2]; auto].
Qed.
Lemma remove_first_asc x l : ascending l -> ascending (remove_first x l).
Proof.
  induction 1 as [|y l H IH Hy]; cbn [remove_first]; [constructor|]. destruct (Nat.eqb_spec x y) as [->|Hxy]; [exact H|]. constructor; [exact IH|].
  apply Forall_forall. intros z Hz. rewrite Forall_forall in Hy. apply Hy. apply remove_first_In in Hz; [tauto | apply sorted_lt_NoDup, H].
Qed.

Lemma dput_keys {A} (d : list (nat * A)) k v x : In x (map fst (dput d k v)) <-> x = k \/ In x (map fst d).
Proof.
  induction d as [|[k' v'] d IH]; cbn; [intuition|]. destruct (Nat.eqb_spec k k') as [->|H]; cbn; [intuition | rewrite IH; intuition].
Qed.
Lemma dput_NoDup {A} (d : list (nat * A)) k v : NoDup (map fst d) -> NoDup (map fst (dput d k v)).
Proof.
  induction d as [|[k' v'] d IH]; cbn; intro N; [repeat constructor; intros []|]. inversion N as [|? ? Hk N']; subst. destruct (Nat.eqb_spec k k') as [->|H]; cbn; constructor; auto.
  rewrite dput_keys. intros [->|X]; [congruence | contradiction].
Qed.
Lemma dput_In {A} (d : list (nat * A)) k v x w : NoDup (map fst d) -> (In (x, w) (dput d k v) <-> (x = k /\ w = v) \/ (x <> k /\ In (x, w) d)).
Proof.
  induction d as [|[k' v'] d IH]; cbn; intro N; [split; [intros [[= <- <-]|[]]; auto | intros [[-> ->]|[_ []]]; auto]|].
  inversion N as [|? ? Hk N']; subst. destruct (Nat.eqb_spec k k') as [->|H]; cbn.
  - split.
    + intros [[= <- <-]|X]; [auto|]. right. split; [|auto]. intros ->. apply Hk. apply (in_map fst) in X. exact X.
    + intros [[-> ->]|[X [[= <- <-]|Y]]]; auto. congruence.
  - rewrite IH by exact N'. split.
    + intros [[= <- <-]|[[-> ->]|[X Y]]]; auto.
    + intros [[-> ->]|[X [Y|Y]]]; auto.
Qed.
Lemma dfind_In {A} (d : list (nat * A)) k v : NoDup (map fst d) -> (dfind d k = Some v <-> In (k, v) d).
Proof.
  induction d as [|[k' v'] d IH]; cbn; intro N; [split; [discriminate | intros []]|]. inversion N as [|? ? Hk N']; subst. destruct (Nat.eqb_spec k k') as [->|H].
  - split; [intros [= ->]; auto | intros [[= ->]|X]; [reflexivity|]]. exfalso. apply Hk. apply (in_map fst) in X. exact X.
  - rewrite IH by exact N'. split; [auto | intros [[= X _]|X]; [congruence | exact X]].
Qed.
Lemma dfind_None {A} (d : list (nat * A)) k : dfind d k = None <-> ~ In k (map fst d).
Proof.
  induction d as [|[k' v'] d IH]; cbn; [tauto|]. destruct (Nat.eqb_spec k k') as [->|H]; [split; [discriminate | intro X; exfalso; auto]|]. rewrite IH. split; [intros X [Y|Y]; congruence || contradiction | auto].
Qed.

(** * The loop over the pairs *)

Section Core.
Variables (f : boolf) (ks : list nat).
Hypotheses (R : splittable f) (NL : no_links f) (NF : none_fixed f) (Sh : shattered f ks) (Bk : forall k, In k ks -> k < valency f).

Definition core_ok (done : list (nat * nat)) (free0 : list nat) (st : list nat * list (nat * Z)) : Prop :=
  ascending (fst st) /\ (forall k, In k (fst st) <-> In k free0 /\ forall j, In (j, k) done -> crossing f j k) /\
  NoDup (map fst (snd st)) /\ (forall k v, In (k, v) (snd st) <-> exists j q, In (j, k) done /\ border_at f j k q /\ v = sg q).

Lemma core_loop free0 : (forall k, In k free0 -> k < valency f /\ ~ In k ks) -> forall todo done st,
  (forall p, In p done \/ In p todo -> In (fst p) ks /\ In (snd p) free0) -> core_ok done free0 st ->
  exists st', foldM (core_turn f) todo st = Ok st' /\ core_ok (done ++ todo) free0 st'.
Proof using R NL NF Sh Bk.
  intro H0. induction todo as [|[j k] todo IH]; intros dn st Hp C; cbn [foldM]; [exists st; rewrite app_nil_r; auto|].
  destruct (Hp (j, k)) as [Hj Hk]; [right; left; reflexivity|]. cbn [fst snd] in Hj, Hk. destruct (H0 k Hk) as [Lk Nk]. assert (Lj := Bk j Hj).
  assert (G : exists st', core_turn f st (j, k) = Ok st' /\ core_ok (dn ++ [(j, k)]) free0 st').
  { unfold core_turn. destruct (pair_cases f j k R NL NF) as (s & Es & Cs); [intros ->; contradiction | exact Lj | exact Lk|]. rewrite Es. cbn [bind].
    destruct C as (A1 & A2 & A3 & A4).
    assert (Det : forall q, border_at f j k q -> exists st', determine st k (sg q) = Ok st' /\ core_ok (dn ++ [(j, k)]) free0 st').
    { intros q Bq. destruct st as [free det]. cbn [fst snd] in *. unfold determine.
      assert (Ok1 : match dfind det k with None => true | Some w => Z.eqb w (sg q) end = true).
      { destruct (dfind det k) as [w|] eqn:Ew; [|reflexivity]. apply (dfind_In det k w A3), A4 in Ew as (i & p & Hi & Bp & ->). apply Z.eqb_eq. f_equal.
        destruct (Hp (i, k)) as [Hik _]; [left; exact Hi|]. cbn [fst] in Hik. apply (border_consistent f ks i j k); auto. }
      rewrite Ok1. cbn [true_except bind]. eexists. split; [reflexivity|]. split; [|split; [|split]]; cbn [fst snd].
      - apply remove_first_asc. exact A1.
      - intro x. rewrite remove_first_In by apply sorted_lt_NoDup, A1. rewrite A2. split.
        + intros [[X1 X2] X3]. split; [exact X1|]. intros i Hi. apply in_app_or in Hi as [Hi|[[= <- <-]|[]]]; [apply X2; exact Hi | contradiction].
        + intros [X1 X2]. split; [split; [exact X1 | intros i Hi; apply X2, in_or_app; left; exact Hi]|]. intros ->. apply (proj2 (proj2 Bq)). apply X2, in_or_app. right. left. reflexivity.
      - apply dput_NoDup. exact A3.
      - intros x v. rewrite dput_In by exact A3. rewrite A4. split.
        + intros [[-> ->]|[X (i & p & Y1 & Y2 & Y3)]]; [exists j, q | exists i, p]; (split; [apply in_or_app; cbn; auto | auto]).
        + intros (i & p & Hi & Bp & ->). destruct (Nat.eq_dec x k) as [->|Hx].
          * left. split; [reflexivity|]. f_equal. assert (Hik : In i ks) by (apply in_app_or in Hi as [Hi|[[= <-]|[]]]; [destruct (Hp (i, k) (or_introl Hi)) as [X _]; exact X | exact Hj]).
            apply (border_consistent f ks i j k); auto.
          * right. split; [exact Hx|]. exists i, p. apply in_app_or in Hi as [Hi|[[= <- <-]|[]]]; [auto | contradiction]. }
    destruct Cs as [[-> Cr]|[[Es' B]|[Es' B]]].
    - cbn [bvec_eqb Bool.eqb andb]. exists st. split; [reflexivity|]. split; [exact A1|]. split; [|split; [exact A3|]].
      + intro x. rewrite A2. split; intros [X1 X2]; (split; [exact X1|]).
        * intros i Hi. apply in_app_or in Hi as [Hi|[[= <- <-]|[]]]; [apply X2; exact Hi | exact Cr].
        * intros i Hi. apply X2, in_or_app. left. exact Hi.
      + intros x v. rewrite A4. split; intros (i & q & Hi & Bq & Ev); exists i, q; (split; [|auto]); [apply in_or_app; auto|].
        apply in_app_or in Hi as [Hi|[[= <- <-]|[]]]; [exact Hi|]. exfalso. apply (proj2 (proj2 Bq)). exact Cr.
    - destruct (Det true B) as (st' & E' & C'). exists st'. split; [|exact C']. destruct Es' as [-> | ->]; exact E'.
    - destruct (Det false B) as (st' & E' & C'). exists st'. split; [|exact C']. destruct Es' as [-> | ->]; exact E'. }
  destruct G as (st1 & E1 & C1). rewrite E1. cbn [bind]. destruct (IH (dn ++ [(j, k)]) st1) as (st' & E' & C').
  - intros p [X|X]; [apply in_app_or in X as [X|[<-|[]]]; apply Hp; cbn; auto | apply Hp; cbn; auto].
  - exact C1.
  - exists st'. split; [exact E'|]. rewrite <- app_assoc in C'. exact C'.
Qed.

(** * The vectors *)

Lemma assign_all (d : list (nat * Z)) : forall v0, NoDup (map fst d) -> (forall k, In k (map fst d) -> k < length v0) ->
  exists v, foldM (fun v (kv : nat * Z) => list_assign v (fst kv) (snd kv)) d v0 = Ok v /\ length v = length v0 /\
    (forall k x, In (k, x) d -> nth k v 0%Z = x) /\ (forall k, ~ In k (map fst d) -> nth k v 0%Z = nth k v0 0%Z).
Proof using.
  induction d as [|[k x] d IH]; intros v0 N B; cbn [foldM fst snd].
  - exists v0. split; [reflexivity|]. split; [reflexivity|]. split; [intros ? ? [] | reflexivity].
  - cbn [map fst] in N, B. inversion N as [|? ? Hk N']; subst. unfold list_assign at 1. assert (Lk : k < length v0) by (apply B; left; reflexivity). rewrite (lget_ok v0 k 0%Z) by exact Lk. cbn [bind].
    destruct (IH (lset v0 k x) N') as (v & E & L & I & O); [intros j Hj; rewrite lset_length; apply B; right; exact Hj|]. exists v. split; [exact E|]. rewrite lset_length in L. split; [exact L|]. split.
    + intros j y [[= <- <-]|H]; [|apply I; exact H]. rewrite O by exact Hk. rewrite Proof_Splits.nth_lset by exact Lk. rewrite Nat.eqb_refl. reflexivity.
    + intros j Hj. cbn in Hj. rewrite O by tauto. rewrite Proof_Splits.nth_lset by exact Lk. destruct (Nat.eqb_spec j k) as [->|Hjk]; [exfalso; auto | reflexivity].
Qed.

Lemma signs_In n t : In t (signs n) <-> length t = n /\ forall x, In x t -> x = 1%Z \/ x = (-1)%Z.
Proof using.
  revert t. induction n as [|n IH]; intro t; cbn [signs].
  - split; [intros [<-|[]]; split; [reflexivity | intros x []] | intros [H _]; destruct t; [left; reflexivity | discriminate H]].
  - rewrite in_app_iff, !in_map_iff. split.
    + intros [(u & <- & H)|(u & <- & H)]; apply IH in H as [L H]; (split; [cbn; lia|]); intros x [<-|Hx]; auto.
    + intros [L H]. destruct t as [|y t]; [discriminate L|]. assert (T : In t (signs n)) by (apply IH; split; [cbn in L; lia | intros x Hx; apply H; right; exact Hx]).
      destruct (H y (or_introl eq_refl)) as [-> | ->]; [right | left]; exists t; auto.
Qed.
Lemma signs_NoDup n : NoDup (signs n).
Proof using.
  induction n as [|n IH]; cbn [signs]; [repeat constructor; intros []|]. apply Proof_SetPartLattice.NoDup_app_intro'.
  - apply NoDup_map_inj; [intros a b _ _ [= H]; exact H | exact IH].
  - apply NoDup_map_inj; [intros a b _ _ [= H]; exact H | exact IH].
  - intros x H1 H2. apply in_map_iff in H1 as (a & <- & _). apply in_map_iff in H2 as (b & H2 & _). discriminate H2.
Qed.

Lemma assign_free (free : list nat) (t : list Z) v0 : length t = length free ->
  foldM (fun v (iv : nat * Z) => let* atomkey := lget free (fst iv) in list_assign v atomkey (snd iv)) (enumerate t) v0
  = foldM (fun v (kv : nat * Z) => list_assign v (fst kv) (snd kv)) (combine free t) v0.
Proof using.
  intro L. unfold enumerate. rewrite L. revert t v0 L.
  assert (X : forall done rest t v0, free = done ++ rest -> length t = length rest ->
     foldM (fun v (iv : nat * Z) => let* atomkey := lget free (fst iv) in list_assign v atomkey (snd iv)) (combine (seq (length done) (length rest)) t) v0
     = foldM (fun v (kv : nat * Z) => list_assign v (fst kv) (snd kv)) (combine rest t) v0).
  { intros dn rest. revert dn. induction rest as [|k rest IH]; intros dn t v0 E L; [reflexivity|]. destruct t as [|x t]; [discriminate L|]. cbn [length seq combine foldM fst snd].
    rewrite (lget_ok free (length dn) 0) by (rewrite E, app_length; cbn; lia). cbn [bind]. rewrite E at 1. rewrite app_nth2, Nat.sub_diag by lia. cbn [nth].
    destruct (list_assign v0 k x) as [v1|e]; cbn [bind]; [|reflexivity]. specialize (IH (dn ++ [k]) t v1). rewrite app_length, Nat.add_1_r in IH. apply IH; [rewrite <- app_assoc; exact E | cbn in L; lia]. }
  intros t v0 L. apply (X [] free t v0 eq_refl L).
Qed.
End Core.

Lemma potential_core_spec f n ks : splittable f -> no_links f -> none_fixed f -> key_set f n ks -> shattered f ks ->
  exists c, potential_core f ks = Ok c /\ c_fixed c = ks /\
    ascending (c_free c) /\ (forall k, In k (c_free c) <-> k < valency f /\ ~ In k ks /\ forall j, In j ks -> crossing f j k) /\
    NoDup (map fst (c_determined c)) /\
    (forall k v, In (k, v) (c_determined c) <-> k < valency f /\ ~ In k ks /\ exists j q, In j ks /\ border_at f j k q /\ v = sg q) /\
    NoDup (c_vectors c) /\
    (forall v, In v (c_vectors c) <-> length v = valency f /\ (forall k, In k ks -> nth k v 0%Z = 0%Z) /\
       forall k, k < valency f -> ~ In k ks -> (nth k v 0%Z = 1%Z \/ nth k v 0%Z = (-1)%Z) /\ forall j q, In j ks -> border_at f j k q -> nth k v 0%Z = sg q).
Proof.
  intros R NL NF (A & _ & B) Sh. unfold potential_core. set (free0 := sort_nat (filter (fun k => negb (memb k ks)) (range (valency f)))).
  assert (F0 : forall k, In k free0 <-> k < valency f /\ ~ In k ks).
  { intro k. unfold free0. rewrite sort_nat_In, filter_In, range_In, negb_true_iff, memb_false. reflexivity. }
  destruct (core_loop f ks R NL NF Sh B free0 (fun k H => proj1 (F0 k) H) (list_prod ks free0) [] (free0, [])) as (st & E & C1 & C2 & C3 & C4).
  - intros p [[]|Hp]. destruct p as [x y]. apply in_prod_iff in Hp. exact Hp.
  - split; [apply sort_nat_sorted_lt, NoDup_filter, range_NoDup|]. split; [|split; [constructor|]].
    + intro k. cbn. split; [intro H; split; [exact H | intros j []] | tauto].
    + intros k v. cbn. split; [intros [] | intros (j & q & [] & _)].
  - rewrite E. cbn [bind]. destruct st as [free det]. cbn [fst snd app] in *.
    assert (P : forall j k, In (j, k) (list_prod ks free0) <-> In j ks /\ k < valency f /\ ~ In k ks) by (intros j k; rewrite in_prod_iff, F0; reflexivity).
    assert (C2' : forall k, In k free <-> k < valency f /\ ~ In k ks /\ forall j, In j ks -> crossing f j k).
    { intro k. rewrite C2, F0. split; [intros [[H1 H2] H3] | intros [H1 [H2 H3]]].
      - split; [exact H1|]. split; [exact H2|]. intros j Hj. apply H3, P. auto.
      - split; [auto|]. intros j Hj. apply H3. apply P in Hj. tauto. }
    assert (C4' : forall k v, In (k, v) det <-> k < valency f /\ ~ In k ks /\ exists j q, In j ks /\ border_at f j k q /\ v = sg q).
    { intros k v. rewrite C4. split; [intros (j & q & H & H') | intros (H1 & H2 & j & q & H3 & H')].
      - apply P in H as (H1 & H2 & H3). split; [exact H2|]. split; [exact H3|]. exists j, q. auto.
      - exists j, q. split; [apply P; auto | exact H']. }
    assert (Kd : forall k, In k (map fst det) -> k < valency f /\ ~ In k ks /\ ~ In k free).
    { intros k Hk. apply in_map_iff in Hk as ([k' v] & <- & Hk). cbn [fst]. apply C4' in Hk as (H1 & H2 & j & q & H3 & H4 & _). split; [exact H1|]. split; [exact H2|].
      intro X. apply C2' in X as (_ & _ & X). apply (proj2 (proj2 H4)), X, H3. }
    destruct (assign_all det (repeat 0%Z (valency f)) C3) as (raw & Er & Lr & Ir & Or); [intros k Hk; rewrite repeat_length; apply Kd; exact Hk|]. rewrite repeat_length in Lr. rewrite Er. cbn [bind].
    assert (Or' : forall k, ~ In k (map fst det) -> nth k raw 0%Z = 0%Z) by (intros k Hk; rewrite Or, nth_repeat by exact Hk; reflexivity).
    assert (V : forall t, In t (signs (length free)) -> exists v, foldM (fun v (iv : nat * Z) => let* atomkey := lget free (fst iv) in list_assign v atomkey (snd iv)) (enumerate t) raw = Ok v /\
       length v = valency f /\ (forall i, i < length free -> nth (nth i free 0) v 0%Z = nth i t 0%Z) /\ (forall k, ~ In k free -> nth k v 0%Z = nth k raw 0%Z)).
    { intros t Ht. apply signs_In in Ht as [Lt _]. rewrite assign_free by exact Lt.
      assert (M : map fst (combine free t) = free) by (clear -Lt; revert t Lt; induction free as [|x l IH]; intros [|y t] L; cbn in *; try discriminate; [reflexivity | f_equal; apply IH; lia]).
      destruct (assign_all (combine free t) raw) as (v & Ev & Lv & Iv & Ov); [rewrite M; apply sorted_lt_NoDup, C1 | rewrite M, Lr; intros k Hk; apply C2' in Hk; tauto|].
      exists v. split; [exact Ev|]. split; [congruence|]. rewrite M in Ov. split; [|exact Ov]. intros i Hi. apply Iv. rewrite <- (combine_nth free t i 0 0%Z) by congruence. apply nth_In. rewrite combine_length. lia. }
    set (vec := fun t => match foldM (fun v (iv : nat * Z) => let* atomkey := lget free (fst iv) in list_assign v atomkey (snd iv)) (enumerate t) raw with Ok v => v | Err _ => [] end).
    rewrite (mapM_ok _ vec) by (intros t Ht; destruct (V t Ht) as (v & Ev & _); unfold vec; rewrite Ev; reflexivity). cbn [bind]. eexists. split; [reflexivity|]. cbn [c_fixed c_free c_determined c_vectors].
    assert (V' : forall t, In t (signs (length free)) -> length (vec t) = valency f /\ (forall i, i < length free -> nth (nth i free 0) (vec t) 0%Z = nth i t 0%Z) /\ (forall k, ~ In k free -> nth k (vec t) 0%Z = nth k raw 0%Z)).
    { intros t Ht. destruct (V t Ht) as (v & Ev & H). unfold vec. rewrite Ev. exact H. }
    split; [reflexivity|]. split; [exact C1|]. split; [exact C2'|]. split; [exact C3|]. split; [exact C4'|]. split.
    + apply NoDup_map_inj; [|apply signs_NoDup]. intros s t Hs Ht Est. assert (Ls := proj1 (proj1 (signs_In _ _) Hs)). assert (Lt := proj1 (proj1 (signs_In _ _) Ht)).
      apply nth_ext with (d := 0%Z) (d' := 0%Z); [congruence|]. intros i Hi. destruct (V' s Hs) as (_ & Vs & _). destruct (V' t Ht) as (_ & Vt & _). rewrite <- Vs, <- Vt by lia. rewrite Est. reflexivity.
    + assert (Raw : forall k, k < valency f -> ~ In k ks -> ~ In k free -> exists j q, In j ks /\ border_at f j k q /\ nth k raw 0%Z = sg q).
      { intros k Hk Nk Nf.
        assert (X : forall js, (forall j, In j js -> In j ks) -> (forall j, In j js -> crossing f j k) \/ exists j q, In j ks /\ border_at f j k q).
        { induction js as [|j js IH]; intro Hj; [left; intros j []|]. destruct IH as [IH|IH]; [intros i Hi; apply Hj; right; exact Hi | | right; exact IH].
          assert (Hjk := Hj j (or_introl eq_refl)). destruct (pair_cases f j k R NL NF) as (s & _ & Cs); [intros ->; contradiction | apply B; exact Hjk | exact Hk|].
          destruct Cs as [[_ Cr]|[[_ Bq]|[_ Bq]]]; [left; intros i [<-|Hi]; auto | right; exists j, true; auto | right; exists j, false; auto]. }
        destruct (X ks (fun j H => H)) as [X1|(j & q & X1 & X2)]; [exfalso; apply Nf, C2'; auto|]. exists j, q. split; [exact X1|]. split; [exact X2|]. apply Ir. apply C4'. split; [exact Hk|]. split; [exact Nk|]. exists j, q. auto. }
      intro v. split.
      * intro H. apply in_map_iff in H as (t & <- & Ht). destruct (V' t Ht) as (Lv & Vi & Vo). split; [exact Lv|]. split.
        -- intros k Hk. rewrite Vo by (intro X; apply C2' in X; tauto). apply Or'. intro X. apply Kd in X. tauto.
        -- intros k Hk Nk. destruct (in_dec Nat.eq_dec k free) as [Hf|Hf].
           ++ split.
              ** apply (In_nth _ _ 0) in Hf as (i & Hi & <-). rewrite Vi by exact Hi. apply signs_In in Ht as [Lt Ht]. apply Ht, nth_In. lia.
              ** intros j q Hj Bq. exfalso. apply C2' in Hf as (_ & _ & X). apply (proj2 (proj2 Bq)), X, Hj.
           ++ rewrite Vo by exact Hf. destruct (Raw k Hk Nk Hf) as (j & q & Hj & Bq & ->). split; [destruct q; auto|]. intros i p Hi Bp. f_equal. apply (border_consistent f ks j i k); auto.
      * intros (Lv & Vz & Vn). apply in_map_iff. exists (map (fun k => nth k v 0%Z) free).
        assert (Ht : In (map (fun k => nth k v 0%Z) free) (signs (length free))).
        { apply signs_In. rewrite map_length. split; [reflexivity|]. intros x Hx. apply in_map_iff in Hx as (k & <- & Hk). apply C2' in Hk as (H1 & H2 & _). apply (Vn k H1 H2). }
        split; [|exact Ht]. destruct (V' _ Ht) as (Lv' & Vi & Vo). apply nth_ext with (d := 0%Z) (d' := 0%Z); [congruence|]. intros k Hk. rewrite Lv' in Hk.
        destruct (in_dec Nat.eq_dec k free) as [Hf|Hf].
        -- apply (In_nth _ _ 0) in Hf as (i & Hi & <-). rewrite Vi by exact Hi. rewrite (nth_indep (map _ _) 0%Z ((fun k => nth k v 0%Z) 0)) by (rewrite map_length; exact Hi). apply (map_nth (fun k => nth k v 0%Z)).
        -- rewrite Vo by exact Hf. destruct (in_dec Nat.eq_dec k ks) as [Hs|Hs].
           ++ rewrite Vz by exact Hs. apply Or'. intro X. apply Kd in X. tauto.
           ++ destruct (Raw k Hk Hs Hf) as (j & q & Hj & Bq & ->). symmetry. exact (proj2 (Vn k Hk Hs) j q Hj Bq).
Qed.
