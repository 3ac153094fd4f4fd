(** Props_Boolf: properties C27 to C31, C34 and C35 of the class [Boolf]. *)

From Coq Require Import List Arith ZArith Bool Lia Permutation Sorted.
From Verif Require Import Model_Base Lib Model_Perm Model_Binary Model_SigPerm Model_WalshPerm Model_Twin Model_Boolf
  Spec_Bits Spec_Perm Spec_SigPerm Spec_WalshPerm Spec_Boolf Proof_Binary Proof_Perm Proof_PermGroup Proof_PermCycles Proof_PermMore Proof_SigPerm Proof_SigPermMore Proof_SigPermOps Proof_Reorder Proof_Boolf
  Proof_BoolfTable Proof_BoolfApply Proof_Twin Proof_BoolfMake.
Import ListNotations.
Open Scope nat_scope.

(** * Objects *)

Lemma m_fit i f : made i f -> fitting f.
Proof. intro H. apply (proj1 (made_wellmade i f H)). Qed.
Lemma m_red f : made false f -> reduced f.
Proof. intro H. apply (proj2 (made_wellmade false f H)). reflexivity. Qed.
Lemma ok_made (r : res boolf) (P : boolf -> Prop) : (exists f, r = Ok f /\ reduced f /\ P f) -> exists f, r = Ok f /\ made false f /\ P f.
Proof. intros [f [E [R H]]]. exists f. split; [exact E|]. split; [apply reduced_made; exact R | exact H]. Qed.

(** * C27 *)

(** attributes of every object: ascending atoms, a table of the right length, is_inflated tells
    whether some atom is redundant; without skip_deflation no atom is *)
Theorem C27_objects : forall i f, made i f ->
  ascending (atomvals f) /\ length (root f) = 2 ^ length (atomvals f) /\
  (is_inflated f = true <-> exists a, In a (atomvals f) /\ ~ essential (sem f) a) /\
  (is_constant f = true <-> atomvals f = []) /\
  (i = false -> is_inflated f = false /\ forall a, In a (atomvals f) <-> essential (sem f) a).
Proof.
  intros i f H. destruct (made_wellmade i f H) as [[[Ha Hl] [Hi Hc]] R]. repeat (split; [assumption|]). intro E. specialize (R E).
  split; [apply R|]. intro a. apply atoms_essential. exact R.
Qed.
Print Assumptions C27_objects.

(** every such object without redundant atoms is reachable *)
Theorem C27_reachable : forall v av, ascending av -> length v = 2 ^ length av ->
  (forall a, In a av -> essential (table v av) a) ->
  made false (mkBoolf v av (match av with [] => true | _ => false end) false).
Proof.
  intros v av Ha Hv He. apply reduced_made. split; [split; assumption|]. split; [exact He|]. split; [reflexivity|].
  cbn [is_constant atomvals]. destruct av; split; (discriminate || reflexivity).
Qed.
Print Assumptions C27_reachable.

Theorem C27_table : forall v av, ascending av -> length v = 2 ^ length av ->
  exists f, Boolf_vec v av = Ok f /\ made false f /\
    (forall e, sem f e = table v av e) /\ (forall a, In a (atomvals f) <-> essential (table v av) a).
Proof.
  intros v av Ha Hv. destruct (Boolf_vec_sorted v av Ha Hv) as [f [E [R S]]]. exists f. split; [exact E|]. split; [apply reduced_made; exact R|].
  split; [exact S|]. intro a. rewrite (atoms_essential f a R). split; apply essential_ext; intro e; [|symmetry]; apply S.
Qed.
Print Assumptions C27_table.

Theorem C27_table_default : forall v n, length v = 2 ^ n ->
  exists f, Boolf_root v = Ok f /\ made false f /\
    (forall e, sem f e = table v (seq 0 n) e) /\ (forall a, In a (atomvals f) <-> essential (table v (seq 0 n)) a).
Proof.
  intros v n Hv. destruct (Boolf_root_spec v n Hv) as [f [E [R S]]]. exists f. split; [exact E|]. split; [apply reduced_made; exact R|].
  split; [exact S|]. intro a. rewrite (atoms_essential f a R). split; apply essential_ext; intro e; [|symmetry]; apply S.
Qed.
Print Assumptions C27_table_default.

Theorem C27_integer : forall t n,
  (t < 2 ^ 2 ^ n -> exists f, Boolf_int t n = Ok f /\ made false f /\ forall e, sem f e = Nat.testbit t (b2n (map e (seq 0 n)))) /\
  (2 ^ 2 ^ n <= t -> Boolf_int t n = Err BinvLengthError).
Proof. intros t n. split; [intro H; apply ok_made, Boolf_int_spec; exact H | apply Boolf_int_reject]. Qed.
Print Assumptions C27_integer.

(** the object is determined by the function it stands for *)
Theorem C27_equality : forall f g, made false f -> made false g ->
  (boolf_eqb f g = true <-> forall e, sem f e = sem g e) /\ ((forall e, sem f e = sem g e) -> f = g).
Proof.
  intros f g Hf Hg. apply m_red in Hf, Hg. split; [apply boolf_eqb_sem; assumption | apply reduced_unique; assumption].
Qed.
Print Assumptions C27_equality.

(** ... but not if skip_deflation was used *)
Theorem C27_equality_inflated_refuted : ~ (forall f g, made true f -> made true g -> (forall e, sem f e = sem g e) -> boolf_eqb f g = true).
Proof.
  intro H. set (a := mkArgs (Some (TtVector [0; 1; 0; 1]%Z)) None None None None None None None None None None true).
  set (b := mkArgs (Some (TtVector [0; 1]%Z)) None None None None None None None None None None false).
  assert (Ha : made true (mkBoolf [false; true; false; true] [0; 1] false true)) by (apply (made_by true 1 a); [reflexivity | intros g [] | vm_compute; reflexivity]).
  assert (Hb : made true (mkBoolf [false; true] [0] false false)) by (apply (made_by true 1 b); [reflexivity | intros g [] | vm_compute; reflexivity]).
  specialize (H _ _ Ha Hb). discriminate H. intro e. unfold sem, table. cbn [root atomvals map b2n]. destruct (e 0), (e 1); reflexivity.
Qed.
Print Assumptions C27_equality_inflated_refuted.

(** rejected tables; a constant table is accepted whatever its length *)
Theorem C27_rejected : forall v av,
  (~ NoDup av -> tt_deflated v (Some av) = Err AtomvalsNotUniqueError) /\
  (NoDup av -> length v <> 2 ^ length av -> tt_deflated v (Some av) = Err SarityVectorMismatchError) /\
  (NoDup av -> length v = 2 ^ length av -> (exists z, In z av /\ (z < 0)%Z) ->
     tt_deflated v (Some av) = Err AtomvalNegativeError \/ exists q, (forall x, In x v -> x = q) /\ tt_deflated v (Some av) = Ok (set_constant q)) /\
  ((forall n, length v <> 2 ^ n) ->
     tt_deflated v None = Err ArgValueError \/ exists q, (forall x, In x v -> x = q) /\ tt_deflated v None = Ok (set_constant q)).
Proof.
  intros v av. split; [|split; [|split]].
  - intro H. unfold tt_deflated, tt_start. destruct (zunique av) eqn:E; [apply zunique_NoDup in E; contradiction | reflexivity].
  - intros Hn Hl. unfold tt_deflated, tt_start. apply zunique_NoDup in Hn. rewrite Hn. apply Nat.eqb_neq in Hl. rewrite Hl. reflexivity.
  - intros Hn Hl [z [Hz Hneg]]. apply zunique_NoDup in Hn. assert (Hv := pow_length_nonempty v _ Hl). unfold tt_deflated.
    destruct (constantly_dec v) as [[C|[C _]]|[C0 C1]].
    + right. exists false. split; [exact C|]. rewrite (tt_start_constant v (Some av) false Hv C (conj Hn Hl)). reflexivity.
    + right. exists true. split; [exact C|]. rewrite (tt_start_constant v (Some av) true Hv C (conj Hn Hl)). reflexivity.
    + left. rewrite (tt_start_other v (Some av) false Hv (or_intror (conj C0 C1)) (conj Hn Hl)).
      destruct (zmin_spec av) as [m [E [_ Hm]]]; [intros ->; destruct Hz|]. rewrite E. cbn [bind]. specialize (Hm z Hz).
      rewrite (proj2 (Z.leb_gt 0 m)) by lia. reflexivity.
  - intro H. unfold tt_deflated. destruct (list_eq_dec Bool.bool_dec v []) as [-> | Hv]; [left; reflexivity|].
    destruct (constantly_dec v) as [[C|[C _]]|[C0 C1]].
    + right. exists false. split; [exact C|]. rewrite (tt_start_constant v None false Hv C I). reflexivity.
    + right. exists true. split; [exact C|]. rewrite (tt_start_constant v None true Hv C I). reflexivity.
    + left. rewrite (tt_start_other v None false Hv (or_intror (conj C0 C1)) I). unfold log_int, is_power_of_two.
      assert (E : Nat.eqb (2 ^ Nat.log2 (length v)) (length v) = false) by (apply Nat.eqb_neq; intro E; apply (H (Nat.log2 (length v))); auto).
      rewrite E, andb_false_r. destruct (Nat.ltb 0 (length v)); reflexivity.
Qed.
Print Assumptions C27_rejected.

(** the other ways to give a function *)
Theorem C27_atom : forall z, made false (set_unary z) /\ forall e, sem (set_unary z) e = litval e z.
Proof. intro z. destruct (set_unary_spec z) as [R S]. split; [apply reduced_made; exact R | exact S]. Qed.
Print Assumptions C27_atom.

Theorem C27_fullspots : forall spots atoms n, ascending atoms -> (forall s, In s spots -> s < 2 ^ length atoms) ->
  exists f, subinit_fs (map Z.of_nat spots) (Some (map Z.of_nat atoms)) None false = Ok f /\ made false f /\
    (forall e, sem f e = true <-> In (b2n (map e atoms)) spots) /\
    (atoms = seq 0 n -> subinit_fs (map Z.of_nat spots) None (Some n) false = Ok f).
Proof.
  intros spots atoms n Ha Hs. destruct (fs_spec spots atoms _ _ Ha (or_introl (conj eq_refl eq_refl)) Hs) as [f [E [R S]]]. exists f.
  split; [exact E|]. split; [apply reduced_made; exact R|]. split; [intro e; rewrite S; apply memb_In|]. intro En.
  assert (El : length atoms = n) by (rewrite En; apply seq_length).
  destruct (fs_spec spots atoms None (Some (length atoms)) Ha) as [g [Eg [Rg Sg]]].
  - right. split; [reflexivity|]. split; [reflexivity|]. rewrite El. exact En.
  - exact Hs.
  - rewrite <- El, Eg. f_equal. apply reduced_unique; [exact Rg | exact R|]. intro e. rewrite Sg, S. reflexivity.
Qed.
Print Assumptions C27_fullspots.

(** the value of an entry of multi_and etc.: a literal or the value of the given object *)
Theorem C27_multi : forall l, (forall f, In (MuBoolf f) l -> made true f) ->
  let vals e := map (fun x => match x with MuInt z => litval e z | MuBoolf f => sem f e end) l in
  (exists f, Boolf 1 (mkArgs None None None None None (Some l) None None None None None false) = Ok f /\ made false f /\ forall e, sem f e = true <-> forall q, In q (vals e) -> q = true) /\
  (exists f, Boolf 1 (mkArgs None None None None None None (Some l) None None None None false) = Ok f /\ made false f /\ forall e, sem f e = true <-> In true (vals e)) /\
  (exists f, Boolf 1 (mkArgs None None None None None None None (Some l) None None None false) = Ok f /\ made false f /\ forall e, sem f e = Nat.odd (count_occ Bool.bool_dec (vals e) true)) /\
  (exists f, Boolf 1 (mkArgs None None None None None None None None (Some l) None None false) = Ok f /\ made false f /\ forall e, sem f e = Nat.even (count_occ Bool.bool_dec (vals e) false)).
Proof.
  intros l Hl vals. assert (He : forall x, In x l -> entry_ok x) by (intros [z|f] Hx; [exact I | apply (m_fit true), Hl; exact Hx]).
  split; [|split; [|split]].
  - destruct (multi_spec boolf_and andb true l (bitwise_spec andb) He) as [f [E [R S]]]. exists f. split; [change (Boolf 1 _) with (let* r := (let* g := multi_fold boolf_and true l in Ok (Some g)) in match r with Some g => Ok g | None => Err OutOfFuel end); rewrite E; reflexivity|]. split; [apply reduced_made; exact R|].
    intro e. rewrite S. change (map (entry_val e) l) with (vals e). generalize (vals e). clear. intro l.
    assert (G : forall q, fold_left andb l q = true <-> q = true /\ forall x, In x l -> x = true).
    { induction l as [|x l IH]; intro q; [cbn; intuition|]. cbn [fold_left]. rewrite IH, andb_true_iff. split.
      - intros [[H1 H2] H3]. split; [exact H1|]. intros y [<- | Hy]; auto.
      - intros [H1 H2]. split; [split; [exact H1 | apply H2; left; reflexivity]|]. intros y Hy. apply H2. right. exact Hy. }
    rewrite G. tauto.
  - destruct (multi_spec boolf_or orb false l (bitwise_spec orb) He) as [f [E [R S]]]. exists f. split; [change (Boolf 1 _) with (let* r := (let* g := multi_fold boolf_or false l in Ok (Some g)) in match r with Some g => Ok g | None => Err OutOfFuel end); rewrite E; reflexivity|]. split; [apply reduced_made; exact R|].
    intro e. rewrite S. change (map (entry_val e) l) with (vals e). generalize (vals e). clear. intro l.
    assert (G : forall q, fold_left orb l q = true <-> q = true \/ In true l).
    { induction l as [|x l IH]; intro q; [cbn; intuition|]. cbn [fold_left In]. rewrite IH, orb_true_iff. intuition. }
    rewrite G. intuition discriminate.
  - destruct (multi_spec boolf_xor xorb false l (bitwise_spec xorb) He) as [f [E [R S]]]. exists f. split; [change (Boolf 1 _) with (let* r := (let* g := multi_fold boolf_xor false l in Ok (Some g)) in match r with Some g => Ok g | None => Err OutOfFuel end); rewrite E; reflexivity|]. split; [apply reduced_made; exact R|].
    intro e. rewrite S. change (map (entry_val e) l) with (vals e). generalize (vals e). clear. intro l.
    assert (G : forall q, fold_left xorb l q = xorb q (Nat.odd (count_occ Bool.bool_dec l true))).
    { induction l as [|x l IH]; intro q; [cbn; symmetry; apply xorb_false_r|]. cbn [fold_left]. rewrite IH. destruct x.
      - rewrite count_occ_cons_eq by reflexivity. rewrite Nat.odd_succ, <- Nat.negb_odd. destruct q, (Nat.odd (count_occ Bool.bool_dec l true)); reflexivity.
      - rewrite count_occ_cons_neq by discriminate. rewrite xorb_false_r. reflexivity. }
    rewrite G. apply xorb_false_l.
  - destruct (multi_spec boolf_xand (fun p q => xorb p (negb q)) true l xand_spec He) as [f [E [R S]]]. exists f. split; [change (Boolf 1 _) with (let* r := (let* g := multi_fold boolf_xand true l in Ok (Some g)) in match r with Some g => Ok g | None => Err OutOfFuel end); rewrite E; reflexivity|]. split; [apply reduced_made; exact R|].
    intro e. rewrite S. change (map (entry_val e) l) with (vals e). generalize (vals e). clear. intro l.
    assert (G : forall q, fold_left (fun p q => xorb p (negb q)) l q = xorb q (Nat.odd (count_occ Bool.bool_dec l false))).
    { induction l as [|x l IH]; intro q; [cbn; symmetry; apply xorb_false_r|]. cbn [fold_left]. rewrite IH. destruct x.
      - rewrite count_occ_cons_neq by discriminate. cbn [negb]. rewrite xorb_false_r. reflexivity.
      - rewrite count_occ_cons_eq by reflexivity. rewrite Nat.odd_succ, <- Nat.negb_odd. destruct q, (Nat.odd (count_occ Bool.bool_dec l false)); reflexivity. }
    rewrite G, <- Nat.negb_odd. apply xorb_true_l.
Qed.
Print Assumptions C27_multi.

Example C27_ex_table : exists f, Boolf_vec [false; true; false; true; true; true; true; true] [1; 4; 6] = Ok f /\
  root f = [false; true; true; true] /\ atomvals f = [1; 6] /\ ascending [1; 4; 6] /\
  length [false; true; false; true; true; true; true; true] = 2 ^ length [1; 4; 6].
Proof. eexists. split; [vm_compute; reflexivity|]. split; [reflexivity|]. split; [reflexivity|]. split; [repeat constructor; lia | reflexivity]. Qed.
Example C27_ex_int : exists f, Boolf_int 6 2 = Ok f /\ root f = [false; true; true; false] /\ atomvals f = [0; 1] /\ 6 < 2 ^ 2 ^ 2.
Proof. eexists. split; [vm_compute; reflexivity|]. split; [reflexivity|]. split; [reflexivity | cbn; lia]. Qed.
Example C27_ex_fs : exists f, subinit_fs [1; 2]%Z (Some [3; 5]%Z) None false = Ok f /\ root f = [false; true; true; false] /\ atomvals f = [3; 5].
Proof. eexists. split; [vm_compute; reflexivity|]. split; reflexivity. Qed.
Example C27_ex_multi : exists f, Boolf 1 (mkArgs None None None None None None None None (Some [MuInt 2; MuInt (-4)]) None None false) = Ok f /\ root f = [false; true; true; false] /\ atomvals f = [2; 3].
Proof. eexists. split; [vm_compute; reflexivity|]. split; reflexivity. Qed.
Example C27_ex_reject : tt_deflated [true; false; true] None = Err ArgValueError /\ tt_deflated [true; true; true] None = Ok (set_constant true) /\
  tt_deflated [true; false] (Some [-1]%Z) = Err AtomvalNegativeError /\ tt_deflated [true; true] (Some [-1]%Z) = Ok (set_constant true) /\
  tt_deflated [true; false; true; true] (Some [1; 1]%Z) = Err AtomvalsNotUniqueError.
Proof. vm_compute. auto. Qed.

(** * C28 *)

(** the sorting permutation of the atoms *)
Definition sorts (r av : list nat) : Prop :=
  Permutation r (seq 0 (length av)) /\
  StronglySorted lt (map (fun i => nth i av 0) r).

Lemma sorts_spec r av : NoDup av -> (sorts r av <->
  Permutation r (range (length av)) /\ length r = length av /\ forall k, k < length av -> nth k (sort_nat av) 0 = nth (nth k r 0) av 0).
Proof.
  intro Hn. assert (En : forall k, k < length r -> nth k (map (fun i => nth i av 0) r) 0 = nth (nth k r 0) av 0).
  { intros k Hk. rewrite (nth_indep _ 0 ((fun i => nth i av 0) 0)) by (rewrite map_length; exact Hk). apply (map_nth (fun i => nth i av 0)). }
  assert (Hl : Permutation r (seq 0 (length av)) -> length r = length av) by (intro P; rewrite (Permutation_length P), seq_length; reflexivity).
  split.
  - intros [P S]. split; [exact P|]. split; [apply Hl; exact P|]. intros k Hk. rewrite <- En by (rewrite Hl by exact P; exact Hk). f_equal.
    apply sorted_lt_ext; [apply sort_nat_ascending; exact Hn | exact S|]. intro x. rewrite sort_nat_In, in_map_iff. split.
    + intro Hx. apply (In_nth _ _ 0) in Hx as [i [Hi <-]]. exists i. split; [reflexivity|]. rewrite P. apply in_seq. lia.
    + intros [i [<- Hi]]. rewrite P in Hi. apply in_seq in Hi. apply nth_In. lia.
  - intros [P [L H]]. split; [exact P|]. replace (map (fun i => nth i av 0) r) with (sort_nat av); [apply sort_nat_ascending; exact Hn|].
    apply (nth_ext _ _ 0 0); [rewrite map_length, sort_nat_length; auto|]. intros k Hk. rewrite sort_nat_length in Hk. rewrite En by lia. apply H. exact Hk.
Qed.

Lemma sorts_exists av : NoDup av -> exists r, sorts r av.
Proof.
  intro Hn. destruct (reorder_spec transpose_inv (repeat false (2 ^ length av)) av (or_intror eq_refl) (repeat_length _ _)) as [r [P [L [H _]]]].
  exists r. apply sorts_spec; auto.
Qed.

Lemma sorts_unique r r' av : NoDup av -> sorts r av -> sorts r' av -> r = r'.
Proof.
  intros Hn H H'. apply sorts_spec in H as [P [L H]]; [|exact Hn]. apply sorts_spec in H' as [P' [L' H']]; [|exact Hn].
  apply (nth_ext _ _ 0 0); [congruence|]. intros k Hk. rewrite L in Hk. apply (proj1 (NoDup_nth av 0) Hn).
  - apply range_In. rewrite <- P. apply nth_In. lia.
  - apply range_In. rewrite <- P'. apply nth_In. lia.
  - rewrite <- H, <- H' by exact Hk. reflexivity.
Qed.

(** what the table means when the atoms are given in any order: with the sorting permutation r,
    bit k of a place is the value of the r(k)-th smallest atom *)
Theorem C28_exact : forall v av r, NoDup av -> length v = 2 ^ length av -> sorts r av ->
  exists f, Boolf_vec v av = Ok f /\ made false f /\
    forall e, sem f e = table v (map (fun i => nth (nth i r 0) av 0) r) e.
Proof.
  intros v av r Hn Hv Hr. destruct (Boolf_vec_spec v av Hn Hv) as [f [E [R [eff [[r' [P [L [H ->]]]] S]]]]].
  assert (r' = r) as -> by (apply (sorts_unique r' r av Hn); [apply sorts_spec; auto | exact Hr]).
  exists f. split; [exact E|]. split; [apply reduced_made; exact R|]. intro e. rewrite S. f_equal. apply map_ext_in. intros i Hi. apply H.
  apply range_In. rewrite <- P. exact Hi.
Qed.
Print Assumptions C28_exact.

(** bit k is the value of the k-th given atom for all tables iff the sorting permutation is an
    involution *)
Theorem C28_right_iff_involution : forall av r, NoDup av -> sorts r av ->
  ((forall v f, length v = 2 ^ length av -> Boolf_vec v av = Ok f -> forall e, sem f e = table v av e) <->
   (forall i, i < length av -> nth (nth i r 0) r 0 = i)).
Proof.
  intros av r Hn Hr. assert (Hr0 := Hr). apply sorts_spec in Hr0 as [P [L H]]; [|exact Hn].
  assert (Hb : forall i, i < length av -> nth i r 0 < length av) by (intros i Hi; apply range_In; rewrite <- P; apply nth_In; lia).
  set (eff := map (fun i => nth (nth i r 0) av 0) r).
  assert (Ef : forall k, k < length av -> nth k eff 0 = nth (nth (nth k r 0) r 0) av 0).
  { intros k Hk. unfold eff. rewrite (nth_indep _ 0 ((fun i => nth (nth i r 0) av 0) 0)) by (rewrite map_length; lia).
    rewrite (map_nth (fun i => nth (nth i r 0) av 0)). reflexivity. }
  assert (Le : length eff = length av) by (unfold eff; rewrite map_length; exact L).
  assert (Hinv : (forall i, i < length av -> nth (nth i r 0) r 0 = i) <-> eff = av).
  { split.
    - intro I. apply (nth_ext _ _ 0 0); [exact Le|]. intros k Hk. rewrite Le in Hk. rewrite Ef by exact Hk. rewrite I by exact Hk. reflexivity.
    - intros E i Hi. apply (proj1 (NoDup_nth av 0) Hn); [apply Hb, Hb, Hi | exact Hi|]. rewrite <- Ef, E by exact Hi. reflexivity. }
  rewrite Hinv. split.
  - intro A. assert (T : forall v e, length v = 2 ^ length av -> table v eff e = table v av e).
    { intros v e Hv. destruct (C28_exact v av r Hn Hv Hr) as [f [E [_ S]]]. rewrite <- (A v f Hv E). rewrite S. reflexivity. }
    apply (nth_ext _ _ 0 0); [exact Le|]. intros k Hk. rewrite Le in Hk. destruct (Nat.eq_dec (nth k eff 0) (nth k av 0)) as [|Hne]; [assumption|exfalso].
    set (v := map (fun i => Nat.testbit i k) (range (2 ^ length av))). set (e := fun x => Nat.eqb x (nth k av 0)).
    assert (Hv : length v = 2 ^ length av) by (unfold v; rewrite map_length, range_length; reflexivity).
    assert (B : forall l, length l = length av -> table v l e = e (nth k l 0)).
    { intros l Hl. unfold table, v. assert (Hlt := b2n_lt (map e l)). rewrite map_length, Hl in Hlt.
      rewrite (nth_indep _ false (Nat.testbit 0 k)) by (rewrite map_length, range_length; exact Hlt). rewrite (map_nth (fun i => Nat.testbit i k)), nth_range by exact Hlt.
      rewrite testbit_b2n. rewrite (nth_indep _ false (e 0)) by (rewrite map_length; lia). apply map_nth. }
    specialize (T v e Hv). rewrite !B in T by (exact Le || reflexivity). unfold e in T. rewrite Nat.eqb_refl in T. apply Nat.eqb_eq in T. congruence.
  - intros E v f Hv Ef' e. destruct (C28_exact v av r Hn Hv Hr) as [f' [E' [_ S]]]. rewrite Ef' in E'. injection E' as <-. rewrite S. fold eff. rewrite E. reflexivity.
Qed.
Print Assumptions C28_right_iff_involution.

Theorem C28_any_order_refuted : exists v av f e, NoDup av /\ length v = 2 ^ length av /\ Boolf_vec v av = Ok f /\ sem f e <> table v av e.
Proof.
  exists [false; true; false; false; true; false; true; true], [2; 0; 1].
  destruct (Boolf_vec [false; true; false; false; true; false; true; true] [2; 0; 1]) as [f|] eqn:E; [|vm_compute in E; discriminate E].
  exists f, (fun a => Nat.eqb a 0). split; [repeat constructor; cbn; intuition discriminate|]. split; [reflexivity|]. split; [reflexivity|].
  vm_compute in E. injection E as <-. vm_compute. discriminate.
Qed.
Print Assumptions C28_any_order_refuted.

(** the result does not depend on how numpy inverts the permutation matrix *)
Theorem C28_any_inverse : forall linalg_inv v av, exact_inverse linalg_inv -> NoDup av -> length v = 2 ^ length av ->
  reorder_with linalg_inv v av = reorder_if_atomvals_not_asc v av.
Proof.
  intros linv v av Hi Hn Hv.
  destruct (reorder_spec linv v av (or_introl Hi) Hv) as [r [P [L [H [Ha Ho]]]]].
  destruct (reorder_spec transpose_inv v av (or_intror eq_refl) Hv) as [r' [P' [L' [H' [Ha' Ho']]]]].
  unfold reorder_if_atomvals_not_asc. destruct (list_eq_dec Nat.eq_dec av (sort_nat av)) as [Es|Es]; [rewrite Ha, Ha' by exact Es; reflexivity|].
  destruct (Ho Es) as [w [Ew [Lw Tw]]]. destruct (Ho' Es) as [w' [Ew' [Lw' Tw']]]. rewrite Ew, Ew'. f_equal. f_equal.
  assert (r = r') as -> by (apply (sorts_unique r r' av Hn); apply sorts_spec; auto).
  apply (table_inj w w' (sort_nat av)); [apply sort_nat_NoDup; exact Hn | rewrite sort_nat_length; congruence | rewrite sort_nat_length; congruence|].
  intro e. rewrite Tw, Tw'. reflexivity.
Qed.
Print Assumptions C28_any_inverse.

Example C28_ex_involution : sorts [1; 0; 2] [4; 2; 7] /\ (forall i, i < 3 -> nth (nth i [1; 0; 2] 0) [1; 0; 2] 0 = i) /\
  sorts [1; 2; 0] [2; 0; 1] /\ nth (nth 0 [1; 2; 0] 0) [1; 2; 0] 0 <> 0.
Proof.
  assert (P1 : Permutation [1; 0; 2] (seq 0 3)) by (cbn; constructor).
  assert (P2 : Permutation [1; 2; 0] (seq 0 3)) by (cbn; apply (perm_trans (l' := [1; 0; 2])); [constructor; constructor | constructor]).
  repeat split; try assumption; try (cbn; discriminate).
  - cbn. repeat constructor; lia.
  - intros i Hi. do 3 (destruct i as [|i]; [reflexivity|]). lia.
  - cbn. repeat constructor; lia.
Qed.
Example C28_ex_value : exists f, Boolf_vec [false; true; false; false; true; false; true; true] [2; 0; 1] = Ok f /\
  root f = [false; true; true; false; false; true; false; true] /\ atomvals f = [0; 1; 2].
Proof. eexists. split; [vm_compute; reflexivity|]. split; reflexivity. Qed.

(** * C29 *)

Theorem C29_and : forall f g, made true f -> made true g ->
  exists h, boolf_and f g = Ok h /\ made false h /\ forall e, sem h e = sem f e && sem g e.
Proof. intros f g Hf Hg. apply ok_made, bitwise_spec; apply (m_fit true); assumption. Qed.
Print Assumptions C29_and.
Theorem C29_or : forall f g, made true f -> made true g ->
  exists h, boolf_or f g = Ok h /\ made false h /\ forall e, sem h e = sem f e || sem g e.
Proof. intros f g Hf Hg. apply ok_made, bitwise_spec; apply (m_fit true); assumption. Qed.
Print Assumptions C29_or.
Theorem C29_xor : forall f g, made true f -> made true g ->
  exists h, boolf_xor f g = Ok h /\ made false h /\ forall e, sem h e = xorb (sem f e) (sem g e).
Proof. intros f g Hf Hg. apply ok_made, bitwise_spec; apply (m_fit true); assumption. Qed.
Print Assumptions C29_xor.
Theorem C29_not : forall f, made true f -> exists h, boolf_not f = Ok h /\ made false h /\ forall e, sem h e = negb (sem f e).
Proof. intros f Hf. apply ok_made, not_spec. apply (m_fit true). exact Hf. Qed.
Print Assumptions C29_not.

Theorem C29_lt : forall f g, made true f -> made true g -> exists q, bitwise_lt f g = Ok q /\
  (q = true <-> (forall e, sem f e = true -> sem g e = true) /\ exists e, sem f e <> sem g e).
Proof. intros f g Hf Hg. apply lt_spec; apply (m_fit true); assumption. Qed.
Print Assumptions C29_lt.

Theorem C29_le : forall f g, made false f -> made false g -> exists q, bitwise_le f g = Ok q /\ bitwise_ge g f = Ok q /\
  (q = true <-> forall e, sem f e = true -> sem g e = true).
Proof. intros f g Hf Hg. destruct (le_spec_reduced f g (m_red f Hf) (m_red g Hg)) as [q [E H]]. exists q. auto. Qed.
Print Assumptions C29_le.

Definition ex_and := mkBoolf [false; false; false; true] [0; 1] false false.
Definition ex_lit := mkBoolf [false; true] [1] false false.
Lemma ex_and_made i : made i ex_and.
Proof. apply (made_by i 1 (table_args [false; false; false; true] [0; 1])); [discriminate | intros g [] | vm_compute; reflexivity]. Qed.
Lemma ex_lit_made i : made i ex_lit.
Proof. apply (made_by i 1 (table_args [false; true] [1])); [discriminate | intros g [] | vm_compute; reflexivity]. Qed.
Example C29_ex : boolf_and ex_and ex_lit = Ok ex_and /\ boolf_xor ex_and ex_and = Ok (set_constant false) /\
  bitwise_lt ex_and ex_lit = Ok true /\ bitwise_le ex_lit ex_and = Ok false /\ boolf_or ex_and ex_lit = Ok ex_lit /\
  boolf_not ex_lit = Ok (set_unary (-2)).
Proof. vm_compute. auto 10. Qed.

(** * C30 *)

Theorem C30_strict_refuted : exists f, made false f /\ bitwise_gt f f = Ok true.
Proof. exists ex_lit. split; [apply ex_lit_made | vm_compute; reflexivity]. Qed.
Print Assumptions C30_strict_refuted.

(** bitwise_gt is the non-strict comparison *)
Theorem C30_exact : forall f g, made false f -> made false g -> exists q, bitwise_gt f g = Ok q /\
  (q = true <-> forall e, sem g e = true -> sem f e = true).
Proof. intros f g Hf Hg. apply (le_spec_reduced g f (m_red g Hg) (m_red f Hf)). Qed.
Print Assumptions C30_exact.

(** * C31 *)

Theorem C31_getitem : forall f key, made true f -> boolf_get f key = Ok (sem f (Nat.testbit key)).
Proof. intros f key H. apply get_spec, (m_fit true), H. Qed.
Print Assumptions C31_getitem.

Theorem C31_tt_default : forall f, made true f ->
  boolf_tt f TtDefault = boolf_tt f (TtArity (adicity f)) /\
  (forall a, In a (atomvals f) -> a < adicity f) /\ (forall n, (forall a, In a (atomvals f) -> a < n) -> adicity f <= n).
Proof.
  intros f H. split; [unfold boolf_tt; rewrite Nat.leb_refl; reflexivity|]. split; [apply adicity_bound | apply adicity_least].
Qed.
Print Assumptions C31_tt_default.

Theorem C31_tt_arity : forall f n, made true f ->
  (adicity f <= n -> exists t, boolf_tt f (TtArity n) = Ok t /\ length t = 2 ^ n /\
    (forall i, i < 2 ^ n -> nth i t false = sem f (Nat.testbit i)) /\
    (forall e, table t (seq 0 n) e = sem f e) /\
    exists g, Boolf_root t = Ok g /\ made false g /\ (made false f -> g = f)) /\
  (n < adicity f -> boolf_tt f (TtArity n) = Err ArgTooSmallError).
Proof.
  intros f n H. assert (Hf := m_fit true f H). split.
  - intro Hn. unfold boolf_tt. rewrite (proj2 (Nat.leb_le _ _) Hn). cbn [true_except bind]. rewrite tt_range by exact Hf.
    eexists. split; [reflexivity|]. rewrite map_length, range_length. split; [reflexivity|]. split.
    + intros i Hi. rewrite (nth_indep _ false (sem f (Nat.testbit 0))) by (rewrite map_length, range_length; exact Hi).
      rewrite (map_nth (fun i => sem f (Nat.testbit i))), nth_range by exact Hi. reflexivity.
    + assert (T : forall e, table (map (fun i => sem f (Nat.testbit i)) (range (2 ^ n))) (seq 0 n) e = sem f e).
      { intro e. apply (table_range (sem f)). intros e' He. apply sem_ext. intros a Ha. apply He. apply adicity_bound in Ha. lia. }
      split; [exact T|]. destruct (Boolf_root_spec (map (fun i => sem f (Nat.testbit i)) (range (2 ^ n))) n) as [g [E [R S]]]; [rewrite map_length, range_length; reflexivity|].
      exists g. split; [exact E|]. split; [apply reduced_made; exact R|]. intro Hm. apply reduced_unique; [exact R | apply m_red; exact Hm|].
      intro e. rewrite S. apply T.
  - intro Hn. unfold boolf_tt. rewrite (proj2 (Nat.leb_gt _ _) Hn). reflexivity.
Qed.
Print Assumptions C31_tt_arity.

(** the order and repetitions in the given collection of atoms do not matter *)
Theorem C31_tt_atoms : forall f l s, made true f -> ascending s -> (forall a, In a s <-> In a l) ->
  ((forall a, In a (atomvals f) -> In a l) ->
     exists t, boolf_tt f (TtAtoms l) = Ok t /\ length t = 2 ^ length s /\ (forall e, table t s e = sem f e) /\
       (made false f -> Boolf_vec t s = Ok f)) /\
  (forall a, In a (atomvals f) -> ~ In a l -> boolf_tt f (TtAtoms l) = Err ArgMismatchError).
Proof.
  intros f l s H Hs Hsl. assert (Hf := m_fit true f H). assert (Es : sort_nat (nodupb l) = s).
  { apply sorted_lt_ext; [apply sort_nat_ascending, nodupb_NoDup | exact Hs |]. intro a. rewrite sort_nat_In, nodupb_In, Hsl. reflexivity. }
  split.
  - intro Hin. destruct (tt_atoms_spec f l Hf Hin) as [t [E [L T]]]. rewrite Es in L, T. exists t. split; [exact E|]. split; [exact L|]. split; [exact T|].
    intro Hm. destruct (Boolf_vec_sorted t s Hs L) as [g [Eg [R S]]]. rewrite Eg. f_equal. apply reduced_unique; [exact R | apply m_red; exact Hm|].
    intro e. rewrite S. apply T.
  - intros a Ha Hn. apply (tt_atoms_reject f l a Ha Hn).
Qed.
Print Assumptions C31_tt_atoms.

Example C31_ex : boolf_tt ex_lit (TtArity 2) = Ok [false; false; true; true] /\ boolf_tt ex_lit (TtAtoms [3; 1; 3; 0]) = Ok [false; false; true; true; false; false; true; true] /\
  boolf_tt ex_lit (TtAtoms [0]) = Err ArgMismatchError /\ boolf_tt ex_lit (TtArity 1) = Err ArgTooSmallError /\ boolf_get ex_lit 6 = Ok true.
Proof. vm_compute. auto. Qed.

(** * C34 *)

Theorem C34_apply : forall f l, made true f -> 0 < length (atomvals f) -> length l = length (atomvals f) -> NoDup (map atom l) ->
  exists g, boolf_apply f l = Ok g /\ made false g /\
    forall e e', (forall k, k < length l -> e' (nth k (atomvals f) 0) = litval e (nth k l 0%Z)) -> sem g e = sem f e'.
Proof.
  intros f l H Hp Hl Hn. assert (Hf := m_fit true f H). destruct (apply_spec f l Hf Hp Hl Hn) as [g [E [R S]]]. exists g. split; [exact E|].
  split; [apply reduced_made; exact R|]. intros e e' He. apply (apply_subst f l); [exact Hf | exact Hl | exact S|]. unfold valency. rewrite <- Hl. exact He.
Qed.
Print Assumptions C34_apply.

Theorem C34_apply_rejected : forall f l, ~ (length l = length (atomvals f) /\ NoDup (map atom l)) -> exists e, boolf_apply f l = Err e.
Proof. exact apply_reject. Qed.
Print Assumptions C34_apply_rejected.

(** applying a constant to no arguments fails *)
Theorem C34_apply_constant_raises : forall q, boolf_apply (set_constant q) [] = Err IndexErr.
Proof. intros []; reflexivity. Qed.
Print Assumptions C34_apply_constant_raises.

Theorem C34_sigperm : forall {i} f s F, made i f -> is_SigPerm s -> acts s F ->
  exists g, apply_sigperm f s = Ok g /\ made false g /\ forall e, sem g e = sem f (fun a => litval e (F a)).
Proof.
  intros i f s F H Hs Ha. apply is_SigPerm_swf in Hs. assert (HF := proj1 (acts_sf _ Hs _) Ha).
  destruct (apply_sigperm_spec f s (proj1 (made_wellmade i f H)) Hs) as [g [E [R S]]]. exists g. split; [exact E|]. split; [apply reduced_made; exact R|].
  intro e. rewrite S. apply sem_ext. intros a _. rewrite HF. reflexivity.
Qed.
Print Assumptions C34_sigperm.

(** applying the product b * a is applying a and then b *)
Theorem C34_action : forall {i} f a b c, made i f -> is_SigPerm a -> is_SigPerm b -> sg_mul b a = Ok c ->
  exists g h, apply_sigperm f a = Ok g /\ apply_sigperm g b = Ok h /\ apply_sigperm f c = Ok h.
Proof.
  intros i f a b c H Ha Hb Ec. assert (Hc : is_SigPerm c) by (apply (sig_mul b a); assumption).
  apply is_SigPerm_swf in Ha, Hb, Hc.
  destruct (apply_sigperm_spec f a (proj1 (made_wellmade i f H)) Ha) as [g [Eg [Rg Sg]]]. destruct (apply_sigperm_spec g b Rg Hb) as [h [Eh [Rh Sh]]].
  exists g, h. split; [exact Eg|]. split; [exact Eh|]. destruct (apply_sigperm_spec f c (proj1 (made_wellmade i f H)) Hc) as [h' [Eh' [Rh' Sh']]]. rewrite Eh'. f_equal.
  apply reduced_unique; [exact Rh' | exact Rh|]. intro e. rewrite Sh', Sh, Sg. apply sem_ext. intros x _.
  destruct (mul_spec b a Hb Ha) as [c' [Ec' [_ [_ Hm]]]]. rewrite Ec in Ec'. injection Ec' as <-. rewrite litval_on. f_equal. apply Hm.
Qed.
Print Assumptions C34_action.

(** a Perm and a plain sequence are treated like the SigPerm; a sequence that is none is rejected *)
Theorem C34_perm : forall {i} f p, made i f -> is_Perm p -> perilen p = None ->
  exists g, apply_perm f p = Ok g /\ made false g /\ forall e, sem g e = sem f (fun a => e (pget p a)).
Proof.
  intros i f p H Hp En. assert (R := proj1 (made_wellmade i f H)). unfold apply_perm. destruct (is_constant f) eqn:C.
  - exists f. split; [reflexivity|]. split; [apply reduced_made, constant_reduced; [exact R | exact C]|]. intro e. apply constant_fitting_sem; [exact R | exact C].
  - set (n := Nat.max (adicity f) (plength p)).
    assert (Es : psequence p (Some n) = Ok (map (pget p) (range n))).
    { unfold psequence. rewrite En. rewrite (proj2 (Nat.leb_le (plength p) n)) by lia. reflexivity. }
    rewrite Es. cbn [bind]. rewrite map_map. destruct (apply_sequence_spec f (fun a => Z.of_nat (pget p a)) n (proj1 R)) as [g [E [Rg S]]].
    + apply valency_pos; [exact R | exact C].
    + lia.
    + intros x y _ _ E. unfold atom, neg in E. apply (proj1 (pget_bij p (is_Perm_wf p Hp))). lia.
    + exists g. split; [exact E|]. split; [apply reduced_made; exact Rg|]. intro e. rewrite S. apply sem_ext. intros a _. unfold litval, atom, neg, negated.
      rewrite (proj2 (Z.ltb_ge _ _)) by lia. rewrite xorb_false_r. f_equal. lia.
Qed.
Print Assumptions C34_perm.

Theorem C34_sequence : forall {i} f l, made i f ->
  (Permutation (map atom l) (seq 0 (length l)) ->
     exists g, apply_sigperm_list f l = Ok g /\ made false g /\ forall e, sem g e = sem f (fun a => litval e (nth a l (Z.of_nat a)))) /\
  (~ Permutation (map atom l) (seq 0 (length l)) -> is_constant f = false -> apply_sigperm_list f l = Err SequenceError).
Proof.
  intros i f l H. assert (R := proj1 (made_wellmade i f H)). unfold apply_sigperm_list. split.
  - intro Hl. destruct (is_constant f) eqn:C.
    + exists f. split; [reflexivity|]. split; [apply reduced_made, constant_reduced; [exact R | exact C]|]. intro e. apply constant_fitting_sem; [exact R | exact C].
    + destruct (seq_of_sequence l Hl) as [s [E [Hs [_ Hf]]]]. change (SigPerm_sequence l) with (sig_of_sequence l). rewrite E. cbn [bind].
      destruct (apply_sigperm_spec f s R Hs) as [g [Eg [Rg S]]]. exists g. split; [exact Eg|]. split; [apply reduced_made; exact Rg|].
      intro e. rewrite S. apply sem_ext. intros a _. rewrite Hf. reflexivity.
  - intros Hl ->. change (SigPerm_sequence l) with (sig_of_sequence l). rewrite (seq_of_sequence_reject l Hl). reflexivity.
Qed.
Print Assumptions C34_sequence.

Example C34_ex : boolf_apply ex_and [5; -3]%Z = Ok (mkBoolf [false; false; true; false] [2; 5] false false) /\
  apply_sigperm_list ex_and [-2; 2; 0]%Z = Ok (mkBoolf [false; false; true; false] [1; 2] false false) /\
  NoDup (map atom [5; -3]%Z) /\ (exists e, boolf_apply ex_and [5; -6]%Z = Err e).
Proof.
  split; [vm_compute; reflexivity|]. split; [vm_compute; reflexivity|]. split; [repeat constructor; cbn; intuition discriminate|].
  eexists. vm_compute. reflexivity.
Qed.

(** * C35 *)

(** unless one of the subinit methods is responsible for the combination of arguments, the
    constructor never stops *)
Theorem C35_hangs : forall a, ~ supported a -> forall n, Boolf n a = Err OutOfFuel.
Proof. exact hangs. Qed.
Print Assumptions C35_hangs.

(** otherwise it stops in the first round: it returns an object or raises an exception *)
Theorem C35_stops : forall a, supported a -> (forall f, In (MuBoolf f) (entries a) -> made true f) ->
  Boolf 1 a <> Err OutOfFuel /\ forall n, Boolf (S n) a = Boolf 1 a.
Proof.
  intros a H He. split; [|intro n; apply one_round; exact H]. apply Boolf_ends; [exact H|].
  intros [z|f] Hx; [exact I | apply (m_fit true), He; exact Hx].
Qed.
Print Assumptions C35_stops.

Theorem C35_terminates_refuted : exists a, forall n, Boolf n a = Err OutOfFuel.
Proof.
  exists (mkArgs None None (Some 0%Z) (Some 1) None None None None None None None false). apply C35_hangs. intro H.
  assert (A : forall ks, only (mkArgs None None (Some 0%Z) (Some 1) None None None None None None None false) ks -> In K_atom ks /\ In K_arity ks).
  { intros ks Ho. split; apply Ho; reflexivity. }
  repeat destruct H as [H | H]; try (destruct H as [H _]); apply A in H; cbn in H; intuition discriminate.
Qed.
Print Assumptions C35_terminates_refuted.

Theorem C35_no_arguments : forall n sd, Boolf (S n) (mkArgs None None None None None None None None None None None sd) = Err ArgComboError.
Proof. reflexivity. Qed.
Print Assumptions C35_no_arguments.

Example C35_ex_supported : supported (table_args [false; true] [3]) /\ Boolf 1 (table_args [false; true] [3]) = Ok (set_unary 3) /\
  supported (mkArgs None None None None None (Some [MuInt 1]) (Some []) None None None None false) /\
  Boolf 1 (mkArgs None None None None None (Some [MuInt 1]) (Some []) None None None None false) = Err ArgComboError.
Proof.
  split; [|split; [reflexivity | split; [|reflexivity]]].
  - right. left. split; [|reflexivity]. intros [] H; cbn in *; try discriminate H; tauto.
  - do 5 right. intros [] H; cbn in *; try discriminate H; tauto.
Qed.
