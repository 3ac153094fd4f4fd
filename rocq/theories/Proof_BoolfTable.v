(** Proof_BoolfTable: indexing, truth tables over larger sets of atoms, bitwise operators. *)

From Coq Require Import List Arith ZArith Bool Lia Sorted Permutation.
From Verif Require Import Model_Base Lib Model_Binary Model_Perm Model_SigPerm Model_WalshPerm Model_Boolf Spec_Bits Spec_Perm Spec_WalshPerm Spec_Boolf
  Proof_Binary Proof_Helpers Proof_Numbers Proof_SigPerm Proof_Deflate Proof_Reorder Proof_Boolf.
Import ListNotations.
Open Scope nat_scope.

(** * Looking up a place *)

Lemma index_of_map (g : nat -> nat) n x : (forall i j, i < n -> j < n -> g i = g j -> i = j) -> x < n ->
  index_of (g x) (map g (seq 0 n)) = Ok x.
Proof.
  intros Hi. assert (G : forall m a, a <= x -> x < a + m -> a + m <= n -> index_of (g x) (map g (seq a m)) = Ok (x - a)).
  { induction m as [|m IH]; intros a H1 H2 H3; [lia|]. cbn [seq map index_of]. destruct (Nat.eqb_spec (g x) (g a)) as [E|E].
    - apply Hi in E; [|lia|lia]. subst a. rewrite Nat.sub_diag. reflexivity.
    - assert (x <> a) by (intros ->; apply E; reflexivity). rewrite IH by lia. cbn [bind]. f_equal. lia. }
  intro Hx. rewrite G by lia. f_equal. lia.
Qed.

Lemma land_sel l key n : NoDup l -> (forall k, Nat.testbit n k = memb k l) ->
  Nat.land key n = exposet_to_int (sel l (b2n (map (Nat.testbit key) l))).
Proof.
  intros Hn H. apply Nat.bits_inj. intro j. rewrite Nat.land_spec, H. apply eq_iff_eq_true.
  rewrite andb_true_iff, memb_In, sel_testbit by exact Hn. split.
  - intros [T Hj]. apply In_nth_error in Hj as [i E]. exists i. split; [exact E|]. rewrite testbit_b2n.
    assert (Hi : i < length l) by (apply nth_error_Some; congruence).
    rewrite (nth_indep _ false (Nat.testbit key 0)) by (rewrite map_length; exact Hi). rewrite map_nth, (nth_error_nth l i 0 E). exact T.
  - intros [i [E T]]. split; [|apply nth_error_In in E; exact E]. rewrite testbit_b2n in T.
    assert (Hi : i < length l) by (apply nth_error_Some; congruence).
    rewrite (nth_indep _ false (Nat.testbit key 0)) in T by (rewrite map_length; exact Hi). rewrite map_nth, (nth_error_nth l i 0 E) in T. exact T.
Qed.

Lemma lookup_spec l v key : NoDup l -> length v = 2 ^ length l ->
  exists b, Binv_exposet l None = Ok b /\
    (let* i := index_of (Nat.land key (binv_intval b)) (sierpinski_of l) in lget v i) = Ok (table v l (Nat.testbit key)).
Proof.
  intros Hn Hv. destruct (Binv_exposet_min l) as [b [E [Hb _]]]. exists b. split; [exact E|].
  rewrite (land_sel l key (binv_intval b) Hn).
  2:{ intro k. rewrite binv_intval_eq, testbit_b2n. apply Hb. }
  rewrite sierpinski_of_eq. assert (Hlt := b2n_lt (map (Nat.testbit key) l)). rewrite map_length in Hlt.
  rewrite (index_of_map (fun i => exposet_to_int (sel l i))); [| | exact Hlt].
  - cbn [bind]. apply lget_ok. rewrite Hv. exact Hlt.
  - intros i j Hi Hj. apply sel_inj; assumption.
Qed.

Lemma fitting_NoDup f : fitting f -> NoDup (atomvals f).
Proof. intros [H _]. apply sorted_lt_NoDup. exact H. Qed.

Lemma get_spec f key : fitting f -> boolf_get f key = Ok (sem f (Nat.testbit key)).
Proof.
  intro H. destruct (lookup_spec (atomvals f) (root f) key (fitting_NoDup f H) (proj2 H)) as [b [E G]].
  unfold boolf_get. rewrite E. cbn [bind]. exact G.
Qed.

(** * Truth tables *)

Lemma tt_range f n : fitting f -> mapM (boolf_get f) (range n) = Ok (map (fun i => sem f (Nat.testbit i)) (range n)).
Proof. intro H. apply mapM_ok. intros i _. apply get_spec. exact H. Qed.

Lemma adicity_bound f a : In a (atomvals f) -> a < adicity f.
Proof.
  unfold adicity. intro H. assert (G := list_max_nat_ge a (atomvals f) H). destruct (atomvals f) as [|x l] eqn:E; [destruct H | lia].
Qed.

Lemma adicity_least f n : (forall a, In a (atomvals f) -> a < n) -> adicity f <= n.
Proof.
  unfold adicity. intro H. destruct (atomvals f) as [|x l] eqn:E; [lia|]. assert (G := list_max_nat_In (x :: l)).
  assert (In (list_max_nat (x :: l)) (x :: l)) by (apply G; discriminate). apply H in H0. lia.
Qed.

Lemma table_range (F : assignment -> bool) n e : (forall e', (forall a, a < n -> e a = e' a) -> F e = F e') ->
  table (map (fun i => F (Nat.testbit i)) (range (2 ^ n))) (range n) e = F e.
Proof.
  intro H. unfold table. assert (Hlt := b2n_lt (map e (range n))). rewrite map_length, range_length in Hlt.
  rewrite (nth_map_range (fun i => F (Nat.testbit i))) by exact Hlt. symmetry. apply H. intros a Ha.
  rewrite testbit_b2n. symmetry. apply (nth_map_range e). exact Ha.
Qed.

Lemma sem_ext f e e' : (forall a, In a (atomvals f) -> e a = e' a) -> sem f e = sem f e'.
Proof. apply table_ext. Qed.

(** ** over a set of atoms *)

Definition below (x : nat) (l : list nat) : nat := length (filter (fun y => Nat.ltb y x) l).

Lemma below_perm x a b : Permutation a b -> below x a = below x b.
Proof.
  unfold below. induction 1 as [|y l l' _ IH|y z l|l1 l2 l3 _ IH1 _ IH2]; cbn [filter];
    [reflexivity | destruct (y <? x); cbn [length]; lia | destruct (y <? x), (z <? x); reflexivity | lia].
Qed.

Lemma below_app x a b : below x (a ++ b) = below x a + below x b.
Proof. unfold below. rewrite filter_app, app_length. reflexivity. Qed.

Lemma below_none x l : (forall y, In y l -> x <= y) -> below x l = 0.
Proof.
  unfold below. induction l as [|y l IH]; intro H; [reflexivity|]. cbn [filter]. rewrite (proj2 (Nat.ltb_ge y x)) by (apply H; left; reflexivity).
  apply IH. intros z Hz. apply H. right. exact Hz.
Qed.

Lemma below_position l x : ascending l -> In x l -> below x l < length l /\ nth (below x l) l 0 = x.
Proof.
  induction 1 as [|y l Hs IH Hf]; intro Hx; [destruct Hx|]. rewrite Forall_forall in Hf. unfold below. cbn [filter].
  destruct Hx as [->|Hx].
  - rewrite Nat.ltb_irrefl. fold (below x l). rewrite below_none by (intros z Hz; specialize (Hf z Hz); lia). cbn. split; [lia | reflexivity].
  - specialize (Hf x Hx). rewrite (proj2 (Nat.ltb_lt y x) Hf). cbn [length nth]. fold (below x l). destruct (IH Hx). split; [lia | assumption].
Qed.

Lemma below_nth l k : ascending l -> k < length l -> below (nth k l 0) l = k.
Proof.
  intros Hs Hk. destruct (below_position l (nth k l 0) Hs (nth_In l 0 Hk)) as [H1 H2].
  apply (proj1 (NoDup_nth l 0) (sorted_lt_NoDup _ Hs)); assumption.
Qed.

Lemma combine_map_range {A B} (g : nat -> A) (l : list B) d n : length l = n ->
  combine (map g (range n)) l = map (fun k => (g k, nth k l d)) (range n).
Proof.
  intros <-. rewrite (combine_nth_seq _ _ (g 0) d) by (rewrite map_length, range_length; reflexivity). rewrite map_length, range_length.
  unfold range. apply map_ext_in. intros k Hk. apply in_seq in Hk. f_equal.
  rewrite (map_nth g), seq_nth by lia. reflexivity.
Qed.

Lemma shift_loop av aliens : forall (g : nat -> nat),
  fold_left (fun work (alien : nat) => map (fun wc : nat * nat => if Nat.ltb alien (snd wc) then S (fst wc) else fst wc) (combine work av))
            aliens (map g (range (length av))) =
  map (fun k => g k + below (nth k av 0) aliens) (range (length av)).
Proof.
  induction aliens as [|a aliens IH]; intro g; cbn [fold_left].
  - unfold below. cbn. apply map_ext. intro; lia.
  - rewrite (combine_map_range g av 0 _ eq_refl). rewrite map_map. cbn [fst snd].
    rewrite (IH (fun k => if Nat.ltb a (nth k av 0) then S (g k) else g k)). apply map_ext. intro k.
    unfold below. cbn [filter]. destruct (a <? nth k av 0); cbn [length]; lia.
Qed.

Lemma shift_loop0 av aliens :
  fold_left (fun work (alien : nat) => map (fun wc : nat * nat => if Nat.ltb alien (snd wc) then S (fst wc) else fst wc) (combine work av))
            aliens (range (length av)) =
  map (fun k => k + below (nth k av 0) aliens) (range (length av)).
Proof. rewrite <- (shift_loop av aliens (fun k => k)), map_id. reflexivity. Qed.

Lemma split_perm av s : NoDup av -> NoDup s -> (forall a, In a av -> In a s) ->
  Permutation s (av ++ filter (fun a => negb (memb a av)) s).
Proof.
  intros Ha Hs Hi. apply NoDup_Permutation; [exact Hs | |].
  - apply NoDup_app3; [exact Ha | apply NoDup_filter; exact Hs |]. intros x Hx Hf. apply filter_In in Hf as [_ Hf].
    apply negb_true_iff, memb_false in Hf. contradiction.
  - intro x. rewrite in_app_iff, filter_In, negb_true_iff, memb_false. split.
    + intro Hx. destruct (in_dec Nat.eq_dec x av); [left; assumption | right; split; assumption].
    + intros [H|[H _]]; [apply Hi; exact H | exact H].
Qed.

Lemma tt_atoms_spec f l : fitting f -> (forall a, In a (atomvals f) -> In a l) ->
  let s := sort_nat (nodupb l) in
  exists t, boolf_tt f (TtAtoms l) = Ok t /\ length t = 2 ^ length s /\ forall e, table t s e = sem f e.
Proof.
  intros Hf Hi s. cbn [boolf_tt]. set (set := nodupb l) in *. assert (Hset : NoDup set) by apply nodupb_NoDup.
  assert (Hin : forall a, In a (atomvals f) -> In a set) by (intros a Ha; apply nodupb_In, Hi, Ha).
  assert (E : forallb (fun a => memb a set) (atomvals f) = true) by (apply forallb_forall; intros a Ha; apply memb_In, Hin, Ha).
  rewrite E. cbn [true_except bind]. clear E. cbv zeta.
  set (aliens := sort_nat (filter (fun a => negb (memb a (atomvals f))) set)).
  assert (Hn := fitting_NoDup f Hf). destruct Hf as [Hasc Hlen]. set (av := atomvals f) in *. unfold valency. fold av.
  rewrite (shift_loop0 av aliens).
  set (work := map (fun k => k + below (nth k av 0) aliens) (range (length av))).
  assert (Hss : ascending s) by (apply sort_nat_ascending; exact Hset).
  assert (Hpos : forall k, k < length av -> nth k work 0 < length s /\ nth (nth k work 0) s 0 = nth k av 0).
  { intros k Hk. unfold work. rewrite (nth_map_range (fun k => k + below (nth k av 0) aliens)) by exact Hk.
    replace (k + below (nth k av 0) aliens) with (below (nth k av 0) s).
    - apply below_position; [exact Hss|]. apply sort_nat_In, Hin, nth_In, Hk.
    - rewrite <- (below_perm _ _ _ (sort_nat_perm set)). rewrite (below_perm _ _ _ (split_perm av set Hn Hset Hin)).
      rewrite below_app, below_nth by assumption. f_equal. apply below_perm, sort_nat_perm. }
  assert (Hwl : length work = length av) by (unfold work; rewrite map_length; apply range_length).
  assert (Hwn : NoDup work).
  { apply (NoDup_nth work 0). rewrite Hwl. intros i j Hi' Hj E. destruct (Hpos i Hi') as [_ P1]. destruct (Hpos j Hj) as [_ P2].
    rewrite E, P2 in P1. apply (proj1 (NoDup_nth av 0) Hn); [assumption | assumption | symmetry; exact P1]. }
  assert (Hwv : length (root f) = 2 ^ length work) by (rewrite Hwl; exact Hlen).
  destruct (lookup_spec work (root f) 0 Hwn Hwv) as [b [Eb _]]. rewrite Eb. cbn [bind].
  rewrite (mapM_ok _ (fun key => table (root f) work (Nat.testbit key))).
  2:{ intros key _. destruct (lookup_spec work (root f) key Hwn Hwv) as [b' [Eb' G]]. rewrite Eb in Eb'. injection Eb' as <-. exact G. }
  eexists. split; [reflexivity|]. assert (Els : length s = length set) by apply sort_nat_length.
  split; [rewrite map_length, range_length, Els; reflexivity|].
  intro e. unfold table at 1. assert (Hlt := b2n_lt (map e s)). rewrite map_length, Els in Hlt.
  rewrite (nth_map_range (fun key => table (root f) work (Nat.testbit key))) by exact Hlt.
  unfold sem, table. fold av. f_equal. f_equal. apply (nth_ext _ _ (Nat.testbit (b2n (map e s)) 0) (e 0)); [rewrite !map_length; exact Hwl|].
  intros k Hk. rewrite map_length, Hwl in Hk. rewrite !map_nth. destruct (Hpos k Hk) as [P1 P2].
  rewrite testbit_b2n. rewrite (nth_indep _ false (e 0)) by (rewrite map_length; exact P1). rewrite map_nth, P2. reflexivity.
Qed.

Lemma tt_atoms_reject f l a : In a (atomvals f) -> ~ In a l -> boolf_tt f (TtAtoms l) = Err ArgMismatchError.
Proof.
  intros Ha Hl. cbn [boolf_tt]. assert (E : forallb (fun a => memb a (nodupb l)) (atomvals f) = false).
  { apply not_true_iff_false. intro E. rewrite forallb_forall in E. specialize (E a Ha). cbn in E. apply memb_In in E. apply (proj1 (nodupb_In a l)) in E. contradiction. }
  rewrite E. reflexivity.
Qed.

Lemma sort_nodupb l : ascending l -> sort_nat (nodupb l) = l.
Proof.
  intro H. apply sorted_lt_ext; [apply sort_nat_ascending, nodupb_NoDup | exact H |]. intro x. rewrite sort_nat_In, nodupb_In. reflexivity.
Qed.

Lemma tt_atoms_asc f l : fitting f -> ascending l -> (forall a, In a (atomvals f) -> In a l) ->
  exists t, boolf_tt f (TtAtoms l) = Ok t /\ length t = 2 ^ length l /\ forall e, table t l e = sem f e.
Proof.
  intros Hf Hl Hi. destruct (tt_atoms_spec f l Hf Hi) as [t H]. exists t. cbv zeta in H. rewrite sort_nodupb in H by exact Hl. exact H.
Qed.

(** * Bitwise operators *)

Definition union_atoms (f g : boolf) := sort_nat (set_union (atomvals f) (atomvals g)).

Lemma union_ascending f g : fitting f -> fitting g -> ascending (union_atoms f g).
Proof.
  intros Hf Hg. apply sort_nat_ascending. apply nodupb_NoDup.
Qed.

Lemma union_In f g a : In a (union_atoms f g) <-> In a (atomvals f) \/ In a (atomvals g).
Proof. unfold union_atoms. rewrite sort_nat_In, set_union_In. reflexivity. Qed.

Lemma bitwise_tables f g : fitting f -> fitting g -> exists s t, let u := union_atoms f g in
  boolf_tt f (TtAtoms u) = Ok s /\ boolf_tt g (TtAtoms u) = Ok t /\ length s = 2 ^ length u /\ length t = 2 ^ length u /\
  (forall e, table s u e = sem f e) /\ (forall e, table t u e = sem g e).
Proof.
  intros Hf Hg. assert (Hu := union_ascending f g Hf Hg).
  destruct (tt_atoms_asc f _ Hf Hu) as [s [E1 [L1 T1]]]; [intros a Ha; apply union_In; left; exact Ha|].
  destruct (tt_atoms_asc g _ Hg Hu) as [t [E2 [L2 T2]]]; [intros a Ha; apply union_In; right; exact Ha|].
  exists s, t. cbv zeta. tauto.
Qed.

Lemma bitwise_spec op f g : fitting f -> fitting g ->
  exists h, boolf_bitwise op f g = Ok h /\ reduced h /\ forall e, sem h e = op (sem f e) (sem g e).
Proof.
  intros Hf Hg. destruct (bitwise_tables f g Hf Hg) as [s [t [E1 [E2 [L1 [L2 [T1 T2]]]]]]]. unfold boolf_bitwise. fold (union_atoms f g).
  set (u := union_atoms f g) in *. cbv zeta. rewrite E1, E2. cbn [bind].
  assert (Ll : length s <= length t) by lia.
  destruct (bitwise_ok op s t Ll) as [r [Er [Lr Hr]]]. rewrite Er. cbn [bind].
  destruct (Boolf_vec_sorted r u (union_ascending f g Hf Hg)) as [h [Eh [Rh Sh]]]; [congruence|].
  exists h. split; [exact Eh|]. split; [exact Rh|]. intro e. rewrite Sh, <- T1, <- T2. unfold table. apply Hr.
  assert (Hlt := b2n_lt (map e u)). rewrite map_length in Hlt. rewrite L1. exact Hlt.
Qed.

Lemma not_spec f : fitting f -> exists h, boolf_not f = Ok h /\ reduced h /\ forall e, sem h e = negb (sem f e).
Proof.
  intros [Hs Hl]. unfold boolf_not. destruct (Boolf_vec_sorted (map negb (root f)) (atomvals f) Hs) as [h [Eh [Rh Sh]]]; [rewrite map_length; exact Hl|].
  exists h. split; [exact Eh|]. split; [exact Rh|]. intro e. rewrite Sh. unfold sem, table.
  assert (Hlt := b2n_lt (map e (atomvals f))). rewrite map_length in Hlt.
  rewrite (nth_indep _ false (negb false)) by (rewrite map_length, Hl; exact Hlt). apply map_nth.
Qed.

Lemma lt_spec f g : fitting f -> fitting g ->
  exists q, bitwise_lt f g = Ok q /\
    (q = true <-> (forall e, sem f e = true -> sem g e = true) /\ exists e, sem f e <> sem g e).
Proof.
  intros Hf Hg. destruct (bitwise_tables f g Hf Hg) as [s [t [E1 [E2 [L1 [L2 [T1 T2]]]]]]]. unfold bitwise_lt. fold (union_atoms f g).
  set (u := union_atoms f g) in *. cbv zeta. rewrite E1, E2. cbn [bind].
  assert (Hu := sorted_lt_NoDup _ (union_ascending f g Hf Hg)). fold u in Hu.
  destruct (bvec_eqb s t) eqn:Eq.
  - apply bvec_eqb_eq in Eq. subst t. exists false. split; [reflexivity|]. split; [discriminate|]. intros [_ [e He]]. exfalso. apply He. rewrite <- T1, <- T2. reflexivity.
  - rewrite (forallM_ok _ (fun i => negb (nth i s false && negb (nth i t false)))).
    2:{ intros i Hi. apply range_In in Hi. rewrite (lget_ok s i false) by exact Hi. rewrite (lget_ok t i false) by lia. reflexivity. }
    eexists. split; [reflexivity|]. rewrite forallb_forall. split.
    + intro H. split.
      * intros e He. rewrite <- T1 in He. rewrite <- T2. unfold table in *. assert (Hlt := b2n_lt (map e u)). rewrite map_length in Hlt.
        specialize (H (b2n (map e u))). rewrite He in H. cbn [andb] in H. rewrite negb_involutive in H. apply H. apply range_In. lia.
      * assert (Hne : s <> t) by (intros ->; rewrite (proj2 (bvec_eqb_eq t t) eq_refl) in Eq; discriminate).
        destruct (existsb (fun i => xorb (nth i s false) (nth i t false)) (range (length s))) eqn:Ex.
        -- apply existsb_exists in Ex as [i [Hi Hx]]. apply range_In in Hi. exists (asg u i). rewrite <- T1, <- T2.
           rewrite !table_asg by (try exact Hu; lia). intro C. rewrite C, xorb_nilpotent in Hx. discriminate Hx.
        -- exfalso. apply Hne. apply (nth_ext _ _ false false); [lia|]. intros i Hi. apply xorb_eq.
           destruct (xorb (nth i s false) (nth i t false)) eqn:Ei; [|reflexivity]. rewrite <- Ex. symmetry. apply existsb_exists. exists i. split; [apply range_In; exact Hi | exact Ei].
    + intros [H _] i Hi. apply range_In in Hi. specialize (H (asg u i)). rewrite <- T1, <- T2 in H.
      rewrite !table_asg in H by (try exact Hu; lia). destruct (nth i s false); [rewrite H by reflexivity; reflexivity | reflexivity].
Qed.

Lemma le_spec f g : fitting f -> fitting g ->
  exists q, bitwise_le f g = Ok q /\ (q = true <-> boolf_eqb f g = true \/ ((forall e, sem f e = true -> sem g e = true) /\ exists e, sem f e <> sem g e)).
Proof.
  intros Hf Hg. unfold bitwise_le. destruct (boolf_eqb f g) eqn:E.
  - exists true. split; [reflexivity|]. split; [intros _; left; reflexivity | reflexivity].
  - destruct (lt_spec f g Hf Hg) as [q [Eq Hq]]. exists q. split; [exact Eq|]. rewrite Hq. split; [intro H; right; exact H | intros [H|H]; [discriminate | exact H]].
Qed.

Lemma le_spec_reduced f g : reduced f -> reduced g ->
  exists q, bitwise_le f g = Ok q /\ (q = true <-> forall e, sem f e = true -> sem g e = true).
Proof.
  intros Rf Rg. destruct (le_spec f g (proj1 Rf) (proj1 Rg)) as [q [E Hq]]. exists q. split; [exact E|]. rewrite Hq. rewrite boolf_eqb_sem by assumption. split.
  - intros [H|[H _]]; [intros e He; rewrite <- H; exact He | exact H].
  - intro H. destruct (boolf_eqb f g) eqn:Eq; [left; apply boolf_eqb_sem; assumption|].
    right. split; [exact H|]. destruct (lt_spec f g (proj1 Rf) (proj1 Rg)) as [q' [E' Hq']].
    destruct (bitwise_tables f g (proj1 Rf) (proj1 Rg)) as [s [t [E1 [E2 [L1 [L2 [T1 T2]]]]]]]. cbv zeta in *. set (u := union_atoms f g) in *.
    assert (Hu := sorted_lt_NoDup _ (union_ascending f g (proj1 Rf) (proj1 Rg))). fold u in Hu.
    destruct (existsb (fun i => xorb (nth i s false) (nth i t false)) (range (length s))) eqn:Ex.
    + apply existsb_exists in Ex as [i [Hi Hx]]. apply range_In in Hi. exists (asg u i). rewrite <- T1, <- T2.
      rewrite !table_asg by (try exact Hu; lia). intro C. rewrite C, xorb_nilpotent in Hx. discriminate Hx.
    + exfalso. assert (Es : s = t).
      { apply (nth_ext _ _ false false); [lia|]. intros i Hi. apply xorb_eq.
        destruct (xorb (nth i s false) (nth i t false)) eqn:Ei; [|reflexivity]. rewrite <- Ex. symmetry. apply existsb_exists. exists i. split; [apply range_In; exact Hi | exact Ei]. }
      assert (C : boolf_eqb f g = true) by (apply boolf_eqb_sem; [assumption | assumption | intro e; rewrite <- T1, <- T2, Es; reflexivity]). congruence.
Qed.
