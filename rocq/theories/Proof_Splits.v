(** Proof_Splits: lemmas about Model_Splits. *)

From Coq Require Import List Arith ZArith Bool Lia Permutation Sorted.
From Verif Require Import Model_Base Lib Model_Binary Model_SetPart Model_Boolf Model_Splits
  Spec_Bits Spec_Boolf Spec_Splits Proof_Binary Proof_Linear Proof_Boolf Proof_BoolfTable Proof_BoolfApply Proof_Noble.
Import ListNotations.
Open Scope nat_scope.

Lemma nth_lset {A} (l : list A) i x j d : i < length l -> nth j (lset l i x) d = if j =? i then x else nth j l d.
Proof.
  revert i j; induction l as [|y l IH]; intros i j H; [inversion H|].
  destruct i as [|i], j as [|j]; cbn [lset nth Nat.eqb]; try reflexivity. apply IH. cbn in H. lia.
Qed.

(** * Pairs of keys *)

Lemma pairs_range_In n a b : In (a, b) (combinations2 (range n)) <-> a < b < n.
Proof.
  unfold range. assert (H : forall k s, In (a, b) (combinations2 (seq s k)) <-> s <= a /\ a < b /\ b < s + k).
  { induction k as [|k IH]; intro s; cbn [seq combinations2]; [split; [intros []|lia]|].
    rewrite in_app_iff, IH, in_map_iff. split.
    - intros [[x [E H]]|H]; [injection E as -> ->; apply in_seq in H; lia | lia].
    - intro H. destruct (Nat.eq_dec s a) as [->|]; [left; exists b; rewrite in_seq; split; [reflexivity | lia] | right; lia]. }
  rewrite H. lia.
Qed.

Lemma pairs_range_NoDup n : NoDup (combinations2 (range n)).
Proof.
  unfold range. generalize 0. induction n as [|n IH]; intro s; cbn [seq combinations2]; [constructor|].
  assert (G : forall l, NoDup l -> (forall x, In x l -> s < x) -> NoDup (map (pair s) l ++ combinations2 (seq (S s) n))).
  { induction l as [|x l IHl]; intros Hl Hs; cbn [map app]; [apply IH|]. inversion_clear Hl as [|? ? Hx Hl']. constructor.
    - rewrite in_app_iff, in_map_iff. intros [[y [E Hy]]|Hi]; [injection E as ->; contradiction|].
      assert (Hb : forall k t a b, In (a, b) (combinations2 (seq t k)) -> t <= a).
      { induction k as [|k IHk]; intros t a b; cbn [seq combinations2]; [intros []|]. rewrite in_app_iff, in_map_iff.
        intros [[y [E Hy]]|Hy]; [injection E as -> _; lia | apply IHk in Hy; lia]. }
      apply Hb in Hi. lia.
    - apply IHl; [exact Hl'|]. intros y Hy. apply Hs. right; exact Hy. }
  apply G; [apply seq_NoDup|]. intros x Hx. apply in_seq in Hx. lia.
Qed.

(** * The satisfying places *)

Lemma fitting_NoDup f : fitting f -> NoDup (atomvals f).
Proof. intros [H _]. apply sorted_lt_NoDup. exact H. Qed.

Lemma place_lt' f e : b2n (map e (atomvals f)) < 2 ^ valency f.
Proof. unfold valency. rewrite <- (map_length e (atomvals f)). apply b2n_lt. Qed.

Lemma bit_of_place f (e : assignment) k : k < valency f -> Nat.testbit (b2n (map e (atomvals f))) k = e (nth_atom f k).
Proof.
  intro H. rewrite testbit_b2n. rewrite (nth_indep _ false (e 0)) by (rewrite map_length; exact H). rewrite map_nth. reflexivity.
Qed.

(** the place [n] as an assignment *)
Lemma sem_place_asg f n : fitting f -> n < 2 ^ valency f -> sem f (asg (atomvals f) n) = nth n (root f) false.
Proof. intros Hf Hn. unfold sem. apply table_asg; [apply fitting_NoDup; exact Hf | exact Hn]. Qed.

Lemma asg_key f n k : fitting f -> k < valency f -> asg (atomvals f) n (nth_atom f k) = Nat.testbit n k.
Proof. intros Hf Hk. apply asg_nth; [apply fitting_NoDup; exact Hf | exact Hk]. Qed.

Lemma place_bound f n : fitting f -> nth n (root f) false = true -> n < 2 ^ valency f.
Proof.
  intros [_ Hl] H. destruct (Nat.lt_ge_cases n (2 ^ valency f)) as [|Hge]; [assumption|].
  rewrite nth_overflow in H by (unfold valency in Hge; lia). discriminate.
Qed.

(** statements about satisfying assignments are statements about places *)
Lemma all_places f (P : (nat -> bool) -> Prop) : fitting f -> (forall u v, (forall k, k < valency f -> u k = v k) -> P u -> P v) ->
  (forall e, sem f e = true -> P (fun k => e (nth_atom f k))) <-> (forall n, nth n (root f) false = true -> P (Nat.testbit n)).
Proof.
  intros Hf HP. split.
  - intros H n Hn. assert (Hb := place_bound f n Hf Hn). specialize (H (asg (atomvals f) n)). rewrite sem_place_asg in H by assumption.
    refine (HP _ _ _ (H Hn)). intros k Hk. apply asg_key; assumption.
  - intros H e He. specialize (H _ He). refine (HP _ _ _ H). intros k Hk. apply bit_of_place. exact Hk.
Qed.

Lemma some_place f (P : (nat -> bool) -> Prop) : fitting f -> (forall u v, (forall k, k < valency f -> u k = v k) -> P u -> P v) ->
  (exists e, sem f e = true /\ P (fun k => e (nth_atom f k))) <-> (exists n, nth n (root f) false = true /\ P (Nat.testbit n)).
Proof.
  intros Hf HP. split.
  - intros [e [He H]]. exists (b2n (map e (atomvals f))). split; [exact He|]. refine (HP _ _ _ H). intros k Hk. symmetry. apply bit_of_place. exact Hk.
  - intros [n [Hn H]]. assert (Hb := place_bound f n Hf Hn). exists (asg (atomvals f) n). rewrite sem_place_asg by assumption. split; [exact Hn|].
    refine (HP _ _ _ H). intros k Hk. symmetry. apply asg_key; assumption.
Qed.

Lemma occurs_place f a b p q : fitting f -> a < valency f -> b < valency f ->
  (occurs f a b p q <-> exists n, nth n (root f) false = true /\ Nat.testbit n a = p /\ Nat.testbit n b = q).
Proof.
  intros Hf Ha Hb. unfold occurs. apply (some_place f (fun u => u a = p /\ u b = q) Hf). intros u v H [H1 H2]. rewrite <- !H by assumption. tauto.
Qed.

(** * Filtrates *)

Definition proj (keys : list nat) (n : nat) : nat := b2n (map (Nat.testbit n) keys).

Lemma filtrate_loop (r : list bool) l : forall small,
  (forall bs : nat * nat, In bs l -> snd bs < length small /\ fst bs < length r) ->
  exists t, foldM (fun small (bs : nat * nat) =>
             let* old := lget small (snd bs) in
             let* new := lget r (fst bs) in
             Ok (lset small (snd bs) (old || new))) l small = Ok t /\ length t = length small /\
    forall j, nth j t false = nth j small false || existsb (fun bs => (snd bs =? j) && nth (fst bs) r false) l.
Proof.
  induction l as [|[b s] l IH]; intros small H; cbn [foldM].
  - exists small. split; [reflexivity|]. split; [reflexivity|]. intro j. cbn [existsb]. rewrite orb_false_r. reflexivity.
  - destruct (H (b, s) (or_introl eq_refl)) as [Hs Hb]. cbn [fst snd] in *. rewrite (lget_ok small s false), (lget_ok r b false) by assumption. cbn [bind].
    destruct (IH (lset small s (nth s small false || nth b r false))) as [t [E [Hl Hn]]].
    { intros bs Hi. rewrite lset_length. apply H. right; exact Hi. }
    exists t. split; [exact E|]. rewrite lset_length in Hl. split; [exact Hl|]. intro j. rewrite Hn. cbn [existsb fst snd]. rewrite nth_lset by exact Hs.
    rewrite (Nat.eqb_sym s j). destruct (Nat.eqb_spec j s) as [->|]; cbn [andb orb]; [rewrite orb_assoc; reflexivity | reflexivity].
Qed.

Lemma combine_map_range {B} (g : nat -> B) n : combine (range n) (map g (range n)) = map (fun i => (i, g i)) (range n).
Proof. unfold range. generalize 0. induction n as [|n IH]; intro s; cbn [seq map combine]; [reflexivity|]. rewrite IH. reflexivity. Qed.

(** the table the constructor gets *)
Lemma filtrate_table f small : fitting f -> (forall a, In a small -> In a (atomvals f)) ->
  exists t, filtrated_boolf f small = Boolf_vec t small /\ length t = 2 ^ length small /\
    forall e, table t small e = true <-> exists e', (forall a, In a small -> e' a = e a) /\ sem f e' = true.
Proof.
  intros Hf Hi. unfold filtrated_boolf. cbv zeta.
  rewrite (proj2 (forallb_forall _ small)) by (intros a Ha; apply memb_In, Hi, Ha). cbn [true_except bind].
  assert (K : exists keys, mapM (fun a => index_of a (atomvals f)) small = Ok keys /\ Forall2 (fun a k => k < valency f /\ nth_atom f k = a) small keys).
  { clear - Hi. induction small as [|a small IH]; cbn [mapM]; [exists []; split; [reflexivity | constructor]|].
    destruct (index_of_In a (atomvals f) (Hi a (or_introl eq_refl))) as [k [E [Hk Hn]]]. rewrite E. cbn [bind].
    destruct IH as [keys [E' F]]; [intros b Hb; apply Hi; right; exact Hb|]. rewrite E'. cbn [bind]. exists (k :: keys). split; [reflexivity|]. constructor; [split; assumption | exact F]. }
  destruct K as [keys [E F]]. rewrite E. cbn [bind]. clear E.
  assert (Hkl : length keys = length small) by (clear - F; induction F; cbn; congruence).
  assert (Hk : forall k, In k keys -> k < valency f) by (clear - F; induction F as [|a k small keys [H _] F IH]; intros x [] ; subst; auto).
  assert (Hm : forall e : assignment, map (fun k => e (nth_atom f k)) keys = map e small)
    by (intro e; clear - F; induction F as [|a k small keys [_ H] F IH]; cbn [map]; [reflexivity|]; rewrite H, IH; reflexivity).
  assert (P : exists pats, mapM (fun k => make_atompattern (Z.of_nat k) (valency f) false) keys = Ok pats /\
             Forall2 (fun k p => length p = 2 ^ valency f /\ forall i, i < 2 ^ valency f -> nth i p false = Nat.testbit i k) keys pats).
  { clear - Hk. induction keys as [|k keys IH]; cbn [mapM]; [exists []; split; [reflexivity | constructor]|].
    destruct (atompattern_spec (Z.of_nat k) (valency f) false) as [p [E [Hl Hn]]]; [rewrite atom_of_nat; apply Hk; left; reflexivity|].
    rewrite E. cbn [bind]. destruct IH as [pats [E' F]]; [intros x Hx; apply Hk; right; exact Hx|]. rewrite E'. cbn [bind]. exists (p :: pats). split; [reflexivity|].
    constructor; [split; [exact Hl|] | exact F]. intros i Hii. rewrite Hn by exact Hii. rewrite atom_of_nat, (proj2 (Z.ltb_ge _ _) (Nat2Z.is_nonneg k)), xorb_false_l, xorb_false_r. reflexivity. }
  destruct P as [pats [E FP]]. rewrite E. cbn [bind]. clear E.
  rewrite (mapM_ok _ (proj keys)).
  2:{ intros n Hn. apply range_In in Hn. assert (C : mapM (fun p => lget p n) pats = Ok (map (Nat.testbit n) keys)).
      { clear - FP Hn. induction FP as [|k p keys pats [Hl H] F IH]; cbn [mapM map]; [reflexivity|]. rewrite (lget_ok p n false) by lia. cbn [bind]. rewrite IH. cbn [bind]. rewrite H by exact Hn. reflexivity. }
      rewrite C. cbn [bind]. rewrite binv_intval_eq. reflexivity. }
  cbn [bind]. rewrite combine_map_range. destruct Hf as [Ha Hl]. assert (Hf : fitting f) by (split; assumption).
  destruct (filtrate_loop (root f) (map (fun i => (i, proj keys i)) (range (2 ^ valency f))) (repeat false (2 ^ length small))) as [t [E [Ht Hn]]].
  { intros bs Hbs. apply in_map_iff in Hbs as [n [<- Hn]]. apply range_In in Hn. cbn [fst snd]. rewrite repeat_length, Hl. split; [|exact Hn].
    rewrite <- Hkl. unfold proj. rewrite <- (map_length (Nat.testbit n) keys). apply b2n_lt. }
  rewrite E. cbn [bind]. exists t. rewrite repeat_length in Ht. split; [reflexivity|]. split; [exact Ht|].
  intro e. unfold table. rewrite Hn. rewrite nth_repeat, orb_false_l. rewrite existsb_exists. split.
  - intros [bs [Hb Hp]]. apply in_map_iff in Hb as [n [<- Hb]]. apply range_In in Hb. cbn [fst snd] in Hp. apply andb_true_iff in Hp as [Hp Hr]. apply Nat.eqb_eq in Hp.
    exists (asg (atomvals f) n). split; [|rewrite sem_place_asg by assumption; exact Hr].
    apply b2n_inj in Hp; [|rewrite !map_length; exact Hkl].
    assert (Hx : map (asg (atomvals f) n) small = map e small).
    { rewrite <- Hp, <- (Hm (asg (atomvals f) n)). apply map_ext_in. intros k Hik. apply asg_key; [exact Hf | apply Hk; exact Hik]. }
    intros a Hia. clear - Hx Hia. induction small as [|b small IH]; [destruct Hia|]. cbn [map] in Hx. injection Hx as H1 H2. destruct Hia as [<-|Hia]; auto.
  - intros [e' [He Hs]]. exists (b2n (map e' (atomvals f)), proj keys (b2n (map e' (atomvals f)))). split.
    + apply in_map_iff. eexists. split; [reflexivity|]. apply range_In. apply place_lt'.
    + cbn [fst snd]. apply andb_true_iff. split; [|exact Hs]. apply Nat.eqb_eq. unfold proj. f_equal.
      transitivity (map (fun k => e' (nth_atom f k)) keys); [apply map_ext_in; intros k Hik; apply bit_of_place, Hk, Hik|]. rewrite Hm. apply map_ext_in. exact He.
Qed.

(** * Filtrated pairs *)

Lemma nth_atom_lt f a b : fitting f -> a < b < valency f -> nth_atom f a < nth_atom f b.
Proof.
  intros [H _]. unfold nth_atom, valency, ascending in *. intros [Hab Hb]. revert a b Hab Hb. induction H as [|x l Hs IH Hx]; intros a b Hab Hb; [cbn in Hb; lia|].
  destruct b as [|b]; [lia|]. destruct a as [|a]; cbn [nth].
  - rewrite Forall_forall in Hx. apply Hx. apply nth_In. cbn in Hb. lia.
  - apply IH; [lia | cbn in Hb; lia].
Qed.

Lemma filtrated_pairs_ok f : fitting f -> exists d, filtrated_pairs f = Ok d /\
  map fst d = combinations2 (range (valency f)) /\ forall a b s, In ((a, b), s) d -> tells f a b s.
Proof.
  intro Hf. unfold filtrated_pairs.
  assert (G : forall l, (forall ab, In ab l -> fst ab < snd ab < valency f) ->
    exists d, mapM (fun ab : nat * nat =>
          let* x := lget (atomvals f) (fst ab) in
          let* y := lget (atomvals f) (snd ab) in
          let* g := filtrated_boolf f [x; y] in
          let* t := boolf_tt g (TtAtoms [x; y]) in
          Ok (ab, t)) l = Ok d /\ map fst d = l /\ forall a b s, In ((a, b), s) d -> tells f a b s).
  { induction l as [|[a b] l IH]; intro H; cbn [mapM].
    - exists []. split; [reflexivity|]. split; [reflexivity|]. intros ? ? ? [].
    - destruct (H (a, b) (or_introl eq_refl)) as [Hab Hb]. cbn [fst snd] in Hab, Hb. cbn [fst snd].
      rewrite (lget_ok (atomvals f) a 0), (lget_ok (atomvals f) b 0) by (unfold valency in Hb; lia). cbn [bind].
      fold (nth_atom f a) (nth_atom f b). set (x := nth_atom f a). set (y := nth_atom f b).
      assert (Hxy : x < y) by (apply nth_atom_lt; [exact Hf | lia]).
      assert (Hasc : ascending [x; y]) by (repeat constructor; exact Hxy).
      destruct (filtrate_table f [x; y] Hf) as [t [E [Hl Ht]]].
      { intros z [<-|[<-|[]]]; apply nth_In; unfold valency in Hb; lia. }
      destruct (Boolf_vec_sorted t [x; y] Hasc Hl) as [g [Eg [Rg Sg]]]. rewrite E, Eg. cbn [bind].
      destruct (tt_atoms_asc g [x; y] (proj1 Rg) Hasc) as [s [Es [Hs Ss]]].
      { intros z Hz. destruct Rg as [_ [Ess _]]. destruct (Ess z Hz) as [e He]. destruct (Nat.eq_dec z x) as [->|Nx]; [left; reflexivity|]. destruct (Nat.eq_dec z y) as [->|Ny]; [right; left; reflexivity|].
        exfalso. apply He. rewrite !Sg. apply table_ext. intros w [<-|[<-|[]]]; rewrite !upd_neq by congruence; reflexivity. }
      rewrite Es. cbn [bind]. destruct IH as [d [Ed [Hd Hd']]]; [intros ab Hi; apply H; right; exact Hi|]. rewrite Ed. cbn [bind].
      exists (((a, b), s) :: d). split; [reflexivity|]. split; [cbn [map fst]; rewrite Hd; reflexivity|].
      intros a' b' s' [Hi|Hi]; [|apply Hd'; exact Hi]. injection Hi as <- <- <-. split; [exact Hs|].
      intros p q. pose (e0 := fun z => if z =? x then p else q).
      assert (Et : map e0 [x; y] = [p; q]) by (cbn [map]; unfold e0; rewrite Nat.eqb_refl, (proj2 (Nat.eqb_neq y x)) by lia; reflexivity).
      assert (Es' : nth (b2n [p; q]) s false = table t [x; y] e0).
      { rewrite <- Sg, <- Ss. unfold table. rewrite Et. reflexivity. }
      rewrite Es', Ht. unfold occurs. fold x y. split.
      + intros [e' [He Hsem]]. exists e'. split; [exact Hsem|]. rewrite !He by (cbn; auto). cbn [map] in Et. injection Et as -> ->. split; reflexivity.
      + intros [e' [Hsem [Hp Hq]]]. exists e'. split; [|exact Hsem]. cbn [map] in Et. injection Et as E1 E2. intros z [<-|[<-|[]]]; congruence. }
  apply G. intros [a b] Hi. cbn [fst snd]. apply pairs_range_In. exact Hi.
Qed.

Lemma pget_ok {A} (d : list ((nat * nat) * A)) k : In k (map fst d) -> exists s, pget d k = Ok s /\ In (k, s) d.
Proof.
  intro H. unfold pget. induction d as [|[k' s] d IH]; [destruct H|]. cbn [find fst]. destruct (pair_eqb k' k) eqn:E.
  - exists s. unfold pair_eqb in E. apply andb_true_iff in E as [E1 E2]. apply Nat.eqb_eq in E1, E2. split; [reflexivity|]. left.
    destruct k, k'; cbn in E1, E2; congruence.
  - destruct H as [H|H]; [cbn in H; subst; unfold pair_eqb in E; rewrite !Nat.eqb_refl in E; discriminate|]. destruct (IH H) as [s' [E' Hi]]. exists s'. split; [exact E' | right; exact Hi].
Qed.

Lemma pget_none {A} (d : list ((nat * nat) * A)) k : ~ In k (map fst d) -> pget d k = Err KeyErr.
Proof.
  intro H. unfold pget. induction d as [|[k' s] d IH]; [reflexivity|]. cbn [find fst]. destruct (pair_eqb k' k) eqn:E.
  - exfalso. apply H. left. unfold pair_eqb in E. apply andb_true_iff in E as [E1 E2]. apply Nat.eqb_eq in E1, E2. destruct k, k'; cbn in E1, E2 |- *; congruence.
  - apply IH. intro Hi. apply H. right; exact Hi.
Qed.

Lemma filtrated_pair_up f a b : fitting f -> a < b < valency f -> exists s, filtrated_pair f a b = Ok s /\ tells f a b s.
Proof.
  intros Hf H. unfold filtrated_pair. rewrite !(proj2 (Nat.ltb_lt _ _)) by lia. cbn [andb true_except bind].
  destruct (filtrated_pairs_ok f Hf) as [d [E [Hk Hs]]]. rewrite E. cbn [bind].
  destruct (pget_ok d (a, b)) as [s [Es Hi]]; [rewrite Hk; apply pairs_range_In; exact H|]. exists s. split; [exact Es | apply Hs; exact Hi].
Qed.

Definition swapped (s : list bool) : list bool := [nth 0 s false; nth 2 s false; nth 1 s false; nth 3 s false].

Lemma occurs_swap f a b p q : occurs f a b p q <-> occurs f b a q p.
Proof. unfold occurs. split; intros [e [H1 [H2 H3]]]; exists e; tauto. Qed.

Lemma tells_swapped f a b s : tells f a b s -> tells f b a (swapped s).
Proof.
  intros [Hl H]. split; [reflexivity|]. intros p q. rewrite occurs_swap, <- H. destruct p, q; reflexivity.
Qed.

Lemma tells_unique f a b s s' : tells f a b s -> tells f a b s' -> s = s'.
Proof.
  intros [Hl H] [Hl' H']. apply (nth_ext _ _ false false); [congruence|]. intros n Hn. rewrite Hl in Hn.
  assert (E : forall p q, nth (b2n [p; q]) s false = nth (b2n [p; q]) s' false) by (intros p q; apply eq_true_iff_eq; rewrite H, H'; reflexivity).
  destruct n as [|[|[|[|n]]]]; [apply (E false false) | apply (E true false) | apply (E false true) | apply (E true true) | lia].
Qed.

Lemma filtrated_pair_down f a b : fitting f -> b < a < valency f ->
  exists s, tells f b a s /\
    filtrated_pair f a b = Ok (if bvec_eqb s [true; false; true; true] || bvec_eqb s [true; true; false; true] then rev s else s).
Proof.
  intros Hf H. unfold filtrated_pair. rewrite !(proj2 (Nat.ltb_lt _ (valency f))) by lia. cbn [andb true_except bind].
  destruct (filtrated_pairs_ok f Hf) as [d [E [Hk Hs]]]. rewrite E. cbn [bind]. rewrite (proj2 (Nat.ltb_ge a b)) by lia.
  destruct (pget_ok d (b, a)) as [s [Es Hi]]; [rewrite Hk; apply pairs_range_In; lia|]. rewrite Es. cbn [bind].
  exists s. split; [apply Hs; exact Hi|]. destruct (_ || _); reflexivity.
Qed.

Ltac four s Hl := destruct s as [|? [|? [|? [|? [|? ?]]]]]; try discriminate Hl.

Lemma bvec_self s : bvec_eqb s s = true.
Proof. apply bvec_eqb_eq. reflexivity. Qed.

(** the three questions about a pair do not depend on the order of the keys *)
Lemma atom_pair_is_ok wanted f a b : fitting f -> a <> b -> a < valency f -> b < valency f ->
  In wanted [[true; true; true; true]; [false; true; true; true]; [true; false; true; true]] ->
  exists r, atom_pair_is wanted f a b = Ok r /\ (r = true <-> tells f a b wanted).
Proof.
  intros Hf Hab Ha Hb Hw. unfold atom_pair_is. rewrite (proj2 (Nat.eqb_neq a b) Hab), !(proj2 (Nat.ltb_lt _ _)) by assumption. cbn [negb andb true_except bind].
  destruct (Nat.lt_total a b) as [H|[H|H]]; [|contradiction|].
  - destruct (filtrated_pair_up f a b Hf) as [s [E T]]; [lia|]. rewrite E. cbn [bind]. eexists. split; [reflexivity|]. rewrite bvec_eqb_eq. split; [intros <-; exact T | intro T'; exact (tells_unique f a b s wanted T T')].
  - destruct (filtrated_pair_down f a b Hf) as [s [T E]]; [lia|]. rewrite E. cbn [bind]. eexists. split; [reflexivity|]. apply tells_swapped in T as T'. rewrite bvec_eqb_eq.
    assert (X : (if bvec_eqb s [true; false; true; true] || bvec_eqb s [true; true; false; true] then rev s else s) = wanted <-> swapped s = wanted).
    { destruct T as [Hl _]. four s Hl. destruct Hw as [<-|[<-|[<-|[]]]]; destruct b0, b1, b2, b3; cbn; split; intro X; (exact X || discriminate X || reflexivity). }
    rewrite X. split; [intros <-; exact T' | intro T''; exact (tells_unique f a b _ wanted T' T'')].
Qed.

(** * Splits *)

Lemma splits_of_vector v b : length b = 2 ^ v -> exists sp,
  mapM (fun atomkey =>
          let* p := make_atompattern (Z.of_nat atomkey) v false in
          let* recto_binv := binv_bitwise andb b p in
          let* n := make_atompattern (Z.lnot (Z.of_nat atomkey)) v false in
          let* verso_binv := binv_bitwise andb b n in
          Ok (binv_exposet recto_binv, binv_exposet verso_binv)) (range v) = Ok sp /\ length sp = v /\
  forall k, k < v -> exists r w, nth k sp ([], []) = (r, w) /\ ascending r /\ ascending w /\
    (forall n, In n r <-> nth n b false = true /\ Nat.testbit n k = true) /\
    (forall n, In n w <-> nth n b false = true /\ Nat.testbit n k = false).
Proof.
  intro Hl.
  assert (G : forall l, (forall k, In k l -> k < v) -> exists sp,
    mapM (fun atomkey =>
          let* p := make_atompattern (Z.of_nat atomkey) (v) false in
          let* recto_binv := binv_bitwise andb (b) p in
          let* n := make_atompattern (Z.lnot (Z.of_nat atomkey)) (v) false in
          let* verso_binv := binv_bitwise andb (b) n in
          Ok (binv_exposet recto_binv, binv_exposet verso_binv)) l = Ok sp /\ length sp = length l /\
    forall i, i < length l -> exists r w, nth i sp ([], []) = (r, w) /\ ascending r /\ ascending w /\
      (forall n, In n r <-> nth n (b) false = true /\ Nat.testbit n (nth i l 0) = true) /\
      (forall n, In n w <-> nth n (b) false = true /\ Nat.testbit n (nth i l 0) = false)).
  { induction l as [|k l IH]; intro H; cbn [mapM].
    - exists []. split; [reflexivity|]. split; [reflexivity|]. intros i Hi. cbn in Hi. lia.
    - assert (Hk := H k (or_introl eq_refl)).
      destruct (atompattern_spec (Z.of_nat k) (v) false) as [p [E1 [Hp Np]]]; [rewrite atom_of_nat; exact Hk|].
      assert (Ho : atom_of (Z.lnot (Z.of_nat k)) = k) by (unfold atom_of, Z.lnot; destruct (Z.ltb_spec (Z.pred (- Z.of_nat k)) 0); lia).
      destruct (atompattern_spec (Z.lnot (Z.of_nat k)) (v) false) as [q [E2 [Hq Nq]]]; [rewrite Ho; exact Hk|].
      assert (H1 : (Z.of_nat k <? 0)%Z = false) by (apply Z.ltb_ge; lia).
      assert (H2 : (Z.lnot (Z.of_nat k) <? 0)%Z = true) by (apply Z.ltb_lt; unfold Z.lnot; lia).
      rewrite E1. cbn [bind]. destruct (bitwise_ok andb (b) p) as [r [E3 [Hr Nr]]]; [lia|]. rewrite E3. cbn [bind].
      rewrite E2. cbn [bind]. destruct (bitwise_ok andb (b) q) as [w [E4 [Hw Nw]]]; [lia|]. rewrite E4. cbn [bind].
      destruct IH as [sp [E [Hs Ns]]]; [intros x Hx; apply H; right; exact Hx|]. rewrite E. cbn [bind].
      exists ((binv_exposet r, binv_exposet w) :: sp). split; [reflexivity|]. split; [cbn; lia|].
      intros [|i] Hi; cbn [nth]; [|apply Ns; cbn in Hi; lia].
      exists (binv_exposet r), (binv_exposet w). split; [reflexivity|]. split; [apply binv_exposet_sorted|]. split; [apply binv_exposet_sorted|].
      split; intro n; rewrite binv_exposet_In; (destruct (Nat.lt_ge_cases n (2 ^ v)) as [Hn|Hn]; [|rewrite !nth_overflow by lia; intuition discriminate]).
      + rewrite Nr by lia. rewrite Np by exact Hn. rewrite atom_of_nat, H1, xorb_false_l, xorb_false_r. apply andb_true_iff.
      + rewrite Nw by lia. rewrite Nq by exact Hn. rewrite Ho, H2, xorb_false_l, xorb_true_r, andb_true_iff, negb_true_iff. reflexivity. }
  destruct (G (range v)) as [sp [E [Hs Ns]]]; [intros k; apply range_In|]. exists sp. split; [exact E|]. rewrite range_length in Hs. split; [exact Hs|].
  intros k Hk. rewrite range_length in Ns. destruct (Ns k Hk) as [r [w X]]. rewrite nth_range in X by exact Hk. exists r, w. exact X.
Qed.

Lemma splits_ok f : fitting f -> exists sp, splits f = Ok sp /\ length sp = valency f /\
  forall k, k < valency f -> exists r v, nth k sp ([], []) = (r, v) /\ ascending r /\ ascending v /\
    (forall n, In n r <-> nth n (root f) false = true /\ Nat.testbit n k = true) /\
    (forall n, In n v <-> nth n (root f) false = true /\ Nat.testbit n k = false).
Proof.
  intro Hf. unfold splits, spotints_to_splits, fullspots. assert (Hl := proj2 Hf). fold (valency f) in Hl. rewrite <- Hl.
  rewrite Binv_vec_exposet. cbn [bind]. apply splits_of_vector. exact Hl.
Qed.

(** the sides of the split of an atom *)
Definition side (s : split) (q : bool) : list nat := if q then fst s else snd s.

Lemma splits_sides f : fitting f -> exists sp, splits f = Ok sp /\ length sp = valency f /\
  forall k q n, k < valency f -> (In n (side (nth k sp ([], [])) q) <-> nth n (root f) false = true /\ Nat.testbit n k = q).
Proof.
  intro Hf. destruct (splits_ok f Hf) as [sp [E [Hl H]]]. exists sp. split; [exact E|]. split; [exact Hl|].
  intros k q n Hk. destruct (H k Hk) as [r [v [Es [_ [_ [Hr Hv]]]]]]. rewrite Es. destruct q; cbn [side fst snd]; auto.
Qed.

(** * Overlap counts *)

Lemma meets_true a b : meets a b = true <-> exists x, In x a /\ In x b.
Proof. unfold meets. rewrite existsb_exists. split; intros [x [H1 H2]]; exists x; [apply memb_In in H2 | apply memb_In in H2 || rewrite memb_In]; tauto. Qed.

Definition four_pairs := [(true, true); (true, false); (false, true); (false, false)].

(** the pairs of values both splits show *)
Definition regions (s t : split) : list (bool * bool) := filter (fun pq => meets (side s (fst pq)) (side t (snd pq))) four_pairs.

Lemma count_regions s t : count_split_regions s t = length (regions s t).
Proof.
  destruct s as [r1 v1], t as [r2 v2]. unfold count_split_regions, regions, four_pairs. cbn [filter side fst snd map].
  destruct (meets r1 r2), (meets r1 v2), (meets v1 r2), (meets v1 v2); reflexivity.
Qed.

Lemma regions_NoDup s t : NoDup (regions s t).
Proof. apply NoDup_filter. repeat constructor; cbn; intuition discriminate. Qed.

Lemma regions_In s t p q : In (p, q) (regions s t) <-> meets (side s p) (side t q) = true.
Proof. unfold regions. rewrite filter_In. cbn [fst snd]. split; [tauto|]. intro H. split; [|exact H]. destruct p, q; cbn; tauto. Qed.

Lemma regions_occur f sp a b : fitting f ->
  (forall k q n, k < valency f -> (In n (side (nth k sp ([], [])) q) <-> nth n (root f) false = true /\ Nat.testbit n k = q)) ->
  a < valency f -> b < valency f -> forall p q, In (p, q) (regions (nth a sp ([], [])) (nth b sp ([], []))) <-> occurs f a b p q.
Proof.
  intros Hf H Ha Hb p q. rewrite regions_In, meets_true, occurs_place by assumption. split; intros [n Hn]; exists n; rewrite !H in * by assumption; tauto.
Qed.

Lemma counts_ok f : fitting f -> exists sp, splits f = Ok sp /\ length sp = valency f /\
  (forall k q n, k < valency f -> (In n (side (nth k sp ([], [])) q) <-> nth n (root f) false = true /\ Nat.testbit n k = q)) /\
  splits_overlap_counts f = Ok (map (fun ab => (ab, length (regions (nth (fst ab) sp ([], [])) (nth (snd ab) sp ([], []))))) (combinations2 (range (valency f)))).
Proof.
  intro Hf. destruct (splits_sides f Hf) as [sp [E [Hl H]]]. exists sp. split; [exact E|]. split; [exact Hl|]. split; [exact H|].
  unfold splits_overlap_counts. rewrite E. cbn [bind]. apply mapM_ok. intros [a b] Hi. apply pairs_range_In in Hi. cbn [fst snd].
  rewrite (lget_ok sp a ([], [])), (lget_ok sp b ([], [])) by lia. cbn [bind]. rewrite count_regions. reflexivity.
Qed.

(** * Equal and one-sided splits *)

Lemma nonempty_In {A} (l : list A) : nonempty l = true <-> exists x, In x l.
Proof. destruct l as [|x l]; cbn; split; [discriminate | intros [x []] | exists x; left; reflexivity | reflexivity]. Qed.

Definition uni (sp : list split) (k : nat) : bool := exactly_one_side (nth k sp ([], [])).
Definition nreg (sp : list split) (a b : nat) : nat := length (regions (nth a sp ([], [])) (nth b sp ([], []))).
Definition eqv (sp : list split) (ab : nat * nat) : bool :=
  match nreg sp (fst ab) (snd ab) with 1 => true | 2 => negb (uni sp (fst ab)) && negb (uni sp (snd ab)) | _ => false end.

Definition sided f (sp : list split) : Prop := length sp = valency f /\
  forall k q n, k < valency f -> (In n (side (nth k sp ([], [])) q) <-> nth n (root f) false = true /\ Nat.testbit n k = q).

Lemma quad f sp a b : fitting f -> sided f sp -> a < valency f -> b < valency f ->
  exists m : bool -> bool -> bool, (forall p q, m p q = true <-> occurs f a b p q) /\
    nreg sp a b = Nat.b2n (m true true) + Nat.b2n (m true false) + Nat.b2n (m false true) + Nat.b2n (m false false) /\
    (forall p, nonempty (side (nth a sp ([], [])) p) = m p true || m p false) /\
    (forall q, nonempty (side (nth b sp ([], [])) q) = m true q || m false q).
Proof.
  intros Hf [Hl H] Ha Hb. exists (fun p q => meets (side (nth a sp ([], [])) p) (side (nth b sp ([], [])) q)). split; [|split; [|split]].
  - intros p q. rewrite <- regions_In. apply regions_occur; assumption.
  - unfold nreg, regions, four_pairs. cbn [filter fst snd].
    destruct (meets _ _), (meets _ _), (meets _ _), (meets _ _); reflexivity.
  - intro p. apply eq_true_iff_eq. rewrite nonempty_In, orb_true_iff, !meets_true. split.
    + intros [n Hn]. apply H in Hn as Hn'; [|exact Ha]. destruct (Nat.testbit n b) eqn:E; [left | right]; exists n; (split; [exact Hn|]); apply H; tauto.
    + intros [[n [Hn _]]|[n [Hn _]]]; exists n; exact Hn.
  - intro q. apply eq_true_iff_eq. rewrite nonempty_In, orb_true_iff, !meets_true. split.
    + intros [n Hn]. apply H in Hn as Hn'; [|exact Hb]. destruct (Nat.testbit n a) eqn:E; [left | right]; exists n; (split; [|exact Hn]); apply H; tauto.
    + intros [[n [_ Hn]]|[n [_ Hn]]]; exists n; exact Hn.
Qed.

Lemma quad_uni f sp a b : fitting f -> sided f sp -> satisfiable f -> a < valency f -> b < valency f ->
  (nreg sp a b = 1 -> uni sp a = true /\ uni sp b = true) /\
  (uni sp a = true \/ uni sp b = true -> nreg sp a b = 1 \/ nreg sp a b = 2) /\
  (uni sp a = true <-> one_sided f a) /\
  (eqv sp (a, b) = true <-> tied f a b).
Proof.
  intros Hf Hs [e He] Ha Hb. destruct (quad f sp a b Hf Hs Ha Hb) as [m [Hm [Hn [Hr Hc]]]].
  assert (S : m (e (nth_atom f a)) (e (nth_atom f b)) = true) by (apply Hm; exists e; tauto).
  assert (Ua : uni sp a = Nat.eqb (Nat.b2n (m true true || m true false) + (Nat.b2n (m false true || m false false) + 0)) 1).
  { unfold uni, exactly_one_side. cbn [map list_sum_nat fold_right]. change (fst (nth a sp ([], []))) with (side (nth a sp ([], [])) true). change (snd (nth a sp ([], []))) with (side (nth a sp ([], [])) false). rewrite !Hr. reflexivity. }
  assert (Ub : uni sp b = Nat.eqb (Nat.b2n (m true true || m false true) + (Nat.b2n (m true false || m false false) + 0)) 1).
  { unfold uni, exactly_one_side. cbn [map list_sum_nat fold_right]. change (fst (nth b sp ([], []))) with (side (nth b sp ([], [])) true). change (snd (nth b sp ([], []))) with (side (nth b sp ([], [])) false). rewrite !Hc. reflexivity. }
  assert (O : one_sided f a <-> (m true true || m true false) && (m false true || m false false) = false).
  { split.
    - intros [q Hq]. apply not_true_iff_false. intro X. apply andb_true_iff in X as [X Y].
      assert (X' : true = q) by (apply orb_true_iff in X as [X|X]; apply Hm in X as [e1 [E1 [E2 E3]]]; rewrite <- E2; apply Hq; exact E1).
      assert (Y' : false = q) by (apply orb_true_iff in Y as [Y|Y]; apply Hm in Y as [e1 [E1 [E2 E3]]]; rewrite <- E2; apply Hq; exact E1). congruence.
    - intro X. exists (m true true || m true false). intros e1 E1. assert (M : m (e1 (nth_atom f a)) (e1 (nth_atom f b)) = true) by (apply Hm; exists e1; tauto).
      destruct (e1 (nth_atom f a)), (e1 (nth_atom f b)), (m true true), (m true false), (m false true), (m false false); cbn in *; congruence. }
  assert (T : tied f a b <-> (m true true || m false false) && (m true false || m false true) = false).
  { split.
    - intros [c Hq]. apply not_true_iff_false. intro X. apply andb_true_iff in X as [X Y].
      assert (X' : false = c) by (apply orb_true_iff in X as [X|X]; apply Hm in X as [e1 [E1 [E2 E3]]]; rewrite <- (Hq e1 E1), E2, E3; reflexivity).
      assert (Y' : true = c) by (apply orb_true_iff in Y as [Y|Y]; apply Hm in Y as [e1 [E1 [E2 E3]]]; rewrite <- (Hq e1 E1), E2, E3; reflexivity). congruence.
    - intro X. exists (m true false || m false true). intros e1 E1. assert (M : m (e1 (nth_atom f a)) (e1 (nth_atom f b)) = true) by (apply Hm; exists e1; tauto).
      destruct (e1 (nth_atom f a)), (e1 (nth_atom f b)), (m true true), (m true false), (m false true), (m false false); cbn in *; congruence. }
  rewrite O, T. unfold eqv. cbn [fst snd]. rewrite Ua, Ub, Hn.
  assert (Z : m true true || m true false || m false true || m false false = true)
    by (destruct (e (nth_atom f a)), (e (nth_atom f b)); rewrite S, ?orb_true_r; reflexivity).
  clear - Z. destruct (m true true), (m true false), (m false true), (m false false); cbn in *; try discriminate Z; intuition (congruence || discriminate).
Qed.

Lemma equal_loop sp v : length sp = v -> forall l : list (nat * nat),
  (forall a b, In (a, b) l -> a < v /\ b < v /\ (nreg sp a b = 1 -> uni sp a = true /\ uni sp b = true) /\
      (uni sp a = true \/ uni sp b = true -> nreg sp a b = 1 \/ nreg sp a b = 2)) ->
  forall d ol, length ol = v -> (forall k, nth k ol false = true -> uni sp k = true) ->
  exists ol', foldM (fun (acc : list ((nat * nat) * bool) * list bool) (kv : (nat * nat) * nat) =>
               let index1 := fst (fst kv) in
               let index2 := snd (fst kv) in
               let (equal_dict, onesided_list) := acc in
               match snd kv with
               | 1 =>
                   let* l := list_assign onesided_list index2 true in
                   let* l := list_assign l index1 true in
                   Ok (equal_dict ++ [(fst kv, true)], l)
               | 2 =>
                   let* s1 := lget sp index1 in
                   let* s2 := lget sp index2 in
                   let uni1 := exactly_one_side s1 in
                   let uni2 := exactly_one_side s2 in
                   let* l := list_assign onesided_list index1 uni1 in
                   let* l := list_assign l index2 uni2 in
                   Ok (equal_dict ++ [(fst kv, negb uni1 && negb uni2)], l)
               | _ => Ok (equal_dict ++ [(fst kv, false)], onesided_list)
               end)
            (map (fun ab => (ab, nreg sp (fst ab) (snd ab))) l) (d, ol) = Ok (d ++ map (fun ab => (ab, eqv sp ab)) l, ol') /\
    length ol' = v /\ (forall k, nth k ol' false = true -> uni sp k = true) /\
    (forall k, uni sp k = true -> nth k ol false = true \/ (exists ab, In ab l /\ (fst ab = k \/ snd ab = k)) -> nth k ol' false = true).
Proof.
  intros Hv. induction l as [|[a b] l IH]; intros H d ol Hol Hu; cbn [map foldM].
  - exists ol. rewrite app_nil_r. split; [reflexivity|]. split; [exact Hol|]. split; [exact Hu|]. intros k Hk [X|[ab [[] _]]]. exact X.
  - destruct (H a b (or_introl eq_refl)) as [Ha [Hb [H1 H2]]]. cbn [fst snd].
    assert (IH' := fun d ol => IH (fun x y Hi => H x y (or_intror Hi)) d ol). clear IH.
    assert (G : forall c ol1, eqv sp (a, b) = c -> length ol1 = v -> (forall k, nth k ol1 false = true -> uni sp k = true) ->
      (forall k, uni sp k = true -> nth k ol false = true \/ a = k \/ b = k -> nth k ol1 false = true) ->
      exists ol', foldM (fun (acc : list ((nat * nat) * bool) * list bool) (kv : (nat * nat) * nat) =>
               let index1 := fst (fst kv) in
               let index2 := snd (fst kv) in
               let (equal_dict, onesided_list) := acc in
               match snd kv with
               | 1 =>
                   let* l := list_assign onesided_list index2 true in
                   let* l := list_assign l index1 true in
                   Ok (equal_dict ++ [(fst kv, true)], l)
               | 2 =>
                   let* s1 := lget sp index1 in
                   let* s2 := lget sp index2 in
                   let uni1 := exactly_one_side s1 in
                   let uni2 := exactly_one_side s2 in
                   let* l := list_assign onesided_list index1 uni1 in
                   let* l := list_assign l index2 uni2 in
                   Ok (equal_dict ++ [(fst kv, negb uni1 && negb uni2)], l)
               | _ => Ok (equal_dict ++ [(fst kv, false)], onesided_list)
               end) (map (fun ab => (ab, nreg sp (fst ab) (snd ab))) l) (d ++ [((a, b), c)], ol1) =
          Ok (d ++ ((a, b), eqv sp (a, b)) :: map (fun ab => (ab, eqv sp ab)) l, ol') /\
        length ol' = v /\ (forall k, nth k ol' false = true -> uni sp k = true) /\
        (forall k, uni sp k = true -> nth k ol false = true \/ (exists ab, In ab ((a, b) :: l) /\ (fst ab = k \/ snd ab = k)) -> nth k ol' false = true)).
    { intros c ol1 Hc Hl1 Hu1 Hk1. destruct (IH' (d ++ [((a, b), c)]) ol1 Hl1 Hu1) as [ol' [E [Hl' [Hu' Hk']]]]. exists ol'. split.
      - rewrite E. rewrite <- app_assoc. cbn [app]. rewrite Hc. reflexivity.
      - split; [exact Hl'|]. split; [exact Hu'|]. intros k Hk [X|[ab [[<-|Hi] X]]].
        + apply Hk'; [exact Hk|]. left. apply Hk1; auto.
        + apply Hk'; [exact Hk|]. left. apply Hk1; auto.
        + apply Hk'; [exact Hk|]. right. exists ab. auto. }
    assert (Ee : eqv sp (a, b) = match nreg sp a b with 1 => true | 2 => negb (uni sp a) && negb (uni sp b) | _ => false end) by reflexivity.
    assert (As : forall ol i (x : bool), length ol = v -> i < v -> list_assign ol i x = Ok (lset ol i x)) by (intros l0 i x Hl0 Hi; unfold list_assign; rewrite (lget_ok l0 i false) by lia; reflexivity).
    assert (Hno : nreg sp a b <> 1 -> nreg sp a b <> 2 -> uni sp a = false /\ uni sp b = false).
    { intros N1 N2. split; apply not_true_iff_false; intro X; destruct H2; auto. }
    destruct (nreg sp a b) as [|[|[|n]]] eqn:En.
    + apply G; [exact Ee | exact Hol | exact Hu |]. intros k Hk [X|[X|X]]; [exact X | |]; subst k; destruct Hno; congruence || lia.
    + rewrite As by assumption. cbn [bind]. rewrite As by (rewrite ?lset_length; assumption). cbn [bind]. destruct (H1 eq_refl) as [U1 U2]. apply G; [exact Ee | rewrite !lset_length; exact Hol | |].
      * intros k. rewrite !nth_lset by (rewrite ?lset_length; lia). destruct (Nat.eqb_spec k a) as [->|]; [auto|]. destruct (Nat.eqb_spec k b) as [->|]; auto.
      * intros k Hk X. rewrite !nth_lset by (rewrite ?lset_length; lia). destruct (Nat.eqb_spec k a) as [->|]; [auto|]. destruct (Nat.eqb_spec k b) as [->|]; [auto|]. destruct X as [X|[X|X]]; congruence.
    + rewrite (lget_ok sp a ([], [])), (lget_ok sp b ([], [])) by lia. cbn [bind]. rewrite As by assumption. cbn [bind]. rewrite As by (rewrite ?lset_length; assumption). cbn [bind].
      fold (uni sp a) (uni sp b). apply G; [exact Ee | rewrite !lset_length; exact Hol | |].
      * intros k. rewrite !nth_lset by (rewrite ?lset_length; lia). destruct (Nat.eqb_spec k b) as [->|]; [auto|]. destruct (Nat.eqb_spec k a) as [->|]; auto.
      * intros k Hk X. rewrite !nth_lset by (rewrite ?lset_length; lia). destruct (Nat.eqb_spec k b) as [->|]; [auto|]. destruct (Nat.eqb_spec k a) as [->|]; [auto|]. destruct X as [X|[X|X]]; congruence.
    + apply G; [exact Ee | exact Hol | exact Hu |]. intros k Hk [X|[X|X]]; [exact X | |]; subst k; destruct Hno; congruence || lia.
Qed.

Lemma equal_and_onesided_ok f : fitting f -> satisfiable f -> valency f <> 1 \/ one_sided f 0 ->
  exists d ol, equal_and_onesided f = Ok (d, ol) /\
    map fst d = combinations2 (range (valency f)) /\ (forall a b c, In ((a, b), c) d -> (c = true <-> tied f a b)) /\
    length ol = valency f /\ forall k, k < valency f -> (nth k ol false = true <-> one_sided f k).
Proof.
  intros Hf Hsat H1. unfold equal_and_onesided. destruct (valency f) as [|[|v']] eqn:Ev.
  - exists [], []. split; [reflexivity|]. split; [reflexivity|]. split; [intros ? ? ? []|]. split; [reflexivity|]. intros k Hk. lia.
  - destruct H1 as [H1|H1]; [contradiction|]. exists [], [true]. split; [reflexivity|]. split; [reflexivity|]. split; [intros ? ? ? []|]. split; [reflexivity|].
    intros k Hk. assert (k = 0) as -> by lia. cbn. tauto.
  - rewrite <- Ev. set (v := valency f) in *. destruct (counts_ok f Hf) as [sp [E [Hl [Hs Ec]]]]. rewrite E, Ec. cbn [bind]. fold v in Hl, Hs.
    assert (Hsd : sided f sp) by (split; assumption).
    assert (Q : forall a b, a < v -> b < v -> _) by (intros a b Ha Hb; exact (quad_uni f sp a b Hf Hsd Hsat Ha Hb)).
    destruct (equal_loop sp v Hl (combinations2 (range v))) with (d := @nil ((nat * nat) * bool)) (ol := repeat false v) as [ol [Ef [Hol [Hu Hk]]]].
    + intros a b Hi. apply pairs_range_In in Hi. destruct (Q a b) as [Q1 [Q2 _]]; [lia | lia|]. repeat split; try lia; try apply Q1; auto.
    + apply repeat_length.
    + intros k. rewrite nth_repeat. discriminate.
    + fold v. unfold nreg in Ef. rewrite Ef. cbn [app]. eexists _, ol. split; [reflexivity|]. split; [rewrite map_map; cbn [fst]; apply map_id|]. split.
      { intros a b c Hi. apply in_map_iff in Hi as [[a' b'] [X Hi]]. injection X as -> -> <-. apply pairs_range_In in Hi. apply Q; lia. }
      split; [exact Hol|]. intros k Hkv. assert (U : uni sp k = true <-> one_sided f k) by (apply (Q k k); assumption). rewrite <- U. split; [apply Hu|].
      intro X. apply Hk; [exact X|]. right. destruct k as [|k]; [exists (0, 1) | exists (0, S k)]; (split; [apply pairs_range_In; lia | cbn; tauto]).
Qed.

Lemma atom_of_key f k : k < valency f -> In (nth_atom f k) (atomvals f).
Proof. intro H. apply nth_In. exact H. Qed.

Lemma reduced_satisfiable f : reduced f -> 0 < valency f -> satisfiable f.
Proof.
  intros [_ [Es _]] H. destruct (Es (nth_atom f 0) (atom_of_key f 0 H)) as [e He].
  destruct (sem f (upd e (nth_atom f 0) true)) eqn:E1; [eexists; exact E1|]. destruct (sem f (upd e (nth_atom f 0) false)) eqn:E2; [eexists; exact E2|]. congruence.
Qed.

Lemma reduced_one f : reduced f -> valency f = 1 -> one_sided f 0.
Proof.
  intros [_ [Es _]] H. assert (Ha := atom_of_key f 0 ltac:(lia)). set (a := nth_atom f 0) in *.
  assert (Hav : atomvals f = [a]). { unfold valency in H. unfold a, nth_atom. destruct (atomvals f) as [|x [|]]; try discriminate H. reflexivity. }
  destruct (Es a Ha) as [e He]. exists (sem f (upd e a true)). intros e' He'. fold a.
  assert (X : forall q, sem f (upd e a q) = sem f (upd e' a q)) by (intro q; apply table_ext; rewrite Hav; intros x [<-|[]]; rewrite !upd_eq; reflexivity).
  rewrite !X in *. assert (Y : sem f (upd e' a (e' a)) = true) by (rewrite <- He'; apply table_ext; rewrite Hav; intros x [<-|[]]; apply upd_eq).
  destruct (e' a); [congruence|]. destruct (sem f (upd e' a true)); [rewrite Y in He; congruence | reflexivity].
Qed.

Lemma equal_and_onesided_reduced f : reduced f ->
  exists d ol, equal_and_onesided f = Ok (d, ol) /\
    map fst d = combinations2 (range (valency f)) /\ (forall a b c, In ((a, b), c) d -> (c = true <-> tied f a b)) /\
    length ol = valency f /\ forall k, k < valency f -> (nth k ol false = true <-> one_sided f k).
Proof.
  intro R. destruct (Nat.eq_dec (valency f) 0) as [E|E].
  - unfold equal_and_onesided. rewrite E. exists [], []. split; [reflexivity|]. split; [reflexivity|]. split; [intros ? ? ? []|]. split; [reflexivity|]. intros k Hk. lia.
  - apply equal_and_onesided_ok; [exact (proj1 R) | apply reduced_satisfiable; [exact R | lia]|]. destruct (Nat.eq_dec (valency f) 1) as [E1|E1]; [right; apply reduced_one; assumption | left; exact E1].
Qed.
