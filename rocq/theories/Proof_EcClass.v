(** Proof_EcClass: the elements of ec_faction and ec_clan and the classes they describe. *)

From Coq Require Import List Arith ZArith Bool Lia Permutation Sorted Factorial.
From Verif Require Import Model_Base Lib Model_Splits Model_Perm Model_Binary Model_SigPerm Model_SetPart Model_Boolf Model_BoolfMore Model_MinRep
  Model_Helpers Model_Ec Spec_Bits Spec_Perm Spec_SigPerm Spec_Boolf Spec_SetPart Spec_MinRep Spec_Helpers Spec_Ec
  Proof_Binary Proof_Perm Proof_PermMore Proof_Inversions Proof_SigPerm Proof_SigPermOps Proof_SigPermMore Proof_Helpers Proof_SetPart Proof_SetPartMore Proof_SetPartLabels Proof_SetPartObj
  Proof_Boolf Proof_Deflate Proof_BoolfTable Proof_BoolfApply Proof_BoolfMake Proof_BoolfMore Proof_MinRepTwin Proof_MinRepClass Proof_MinRepCoset Proof_MinRep Proof_MinRepMin
  Proof_Twin Proof_Listing Proof_Splits Proof_Noble Proof_Seqs Proof_HelpersBits Proof_Ec.
Import ListNotations.
Open Scope nat_scope.

(** * Permutations by number *)

Lemma colex_act n r x : r < fact n -> x < n -> nth x (nth r (Model_Perm.rev_colex_perms n) []) 0 = act r x.
Proof.
  intros Hr Hx. destruct (rev_colex_nth n r Hr) as [P E]. destruct (act_list _ n P) as [_ A]. rewrite E in A. symmetry. apply A, Hx.
Qed.

Lemma colex_list n r p : nth_error (Model_Perm.rev_colex_perms n) r = Some p ->
  r < fact n /\ Permutation p (range n) /\ length p = n /\ forall x, x < n -> nth x p 0 = act r x.
Proof.
  intro H. assert (Hr : r < fact n). { rewrite <- (rev_colex_length n). apply nth_error_Some. congruence. }
  assert (Ep : nth r (Model_Perm.rev_colex_perms n) [] = p) by (apply nth_error_nth; exact H).
  destruct (rev_colex_nth n r Hr) as [P _]. rewrite Ep in P. split; [exact Hr|]. split; [exact P|]. split; [rewrite (Permutation_length P); apply range_length|].
  intros x Hx. rewrite <- Ep. apply colex_act; assumption.
Qed.

Lemma colex_perm n r p : nth_error (Model_Perm.rev_colex_perms n) r = Some p ->
  exists q, Perm (ArgSeq p) None = Ok q /\ wf q /\ is_Perm q /\ perilen q = None /\ (forall x, x < n -> pget q x = act r x) /\ (forall x, n <= x -> pget q x = x) /\ plength q <= n.
Proof.
  intro H. destruct (colex_list n r p H) as (Hr & P & L & A). assert (P' := P). rewrite <- L in P'. destruct (Perm_seq_spec p P') as (q & E & W & Q & G).
  exists q. split; [exact E|]. split; [exact W|]. split; [eapply Spec_Perm.obj_new; [|exact E]; exact I|]. split; [exact Q|].
  assert (Hi : forall x, n <= x -> pget q x = x). { intros x Hx. rewrite G, L, (proj2 (Nat.ltb_ge _ _) Hx). reflexivity. }
  split; [intros x Hx; rewrite G, L, (proj2 (Nat.ltb_lt _ _) Hx); apply A, Hx|]. split; [exact Hi|].
  destruct (Nat.le_gt_cases (plength q) n) as [|C]; [assumption|]. exfalso. destruct (wf_finite_seq q W Q) as (_ & _ & _ & Hz). apply Hz; [lia|]. apply Hi. lia.
Qed.

Lemma enumerate_numbers {A} (l : list A) : map (fun np : nat * A => Z.of_nat (fst np)) (enumerate l) = znat_range (length l).
Proof. unfold znat_range. rewrite <- enumerate_keys, map_map. reflexivity. Qed.

(** * Factions without abbreviation *)

Definition faction_at (f : boolf) (r : nat) (g : boolf) : Prop := reduced g /\ forall e, sem g e = sem f (fun a => e (act r a)).
Definition clan_at (f : boolf) (m r : nat) (g : boolf) : Prop :=
  reduced g /\ forall e, sem g e = sem f (fun a => xorb (e (act r a)) (Nat.testbit m (act r a))).

Lemma faction_item f n r p : wellmade f -> adicity f <= n -> nth_error (Model_Perm.rev_colex_perms n) r = Some p ->
  exists g, apply_sigperm_list f (map Z.of_nat p) = Ok g /\ faction_at f r g.
Proof.
  intros R A H. destruct (colex_list n r p H) as (Hr & P & L & Hact). unfold apply_sigperm_list. destruct (is_constant f) eqn:C.
  - exists f. split; [reflexivity|]. split; [apply constant_reduced; assumption|]. intro e. apply constant_fitting_sem; assumption.
  - destruct (seq_of_sequence (map Z.of_nat p)) as (s & E & W & _ & F).
    { rewrite map_map, map_length, L. rewrite (map_ext _ (fun a => a) atom_nat), map_id. exact P. }
    rewrite sequence_form, E. cbn [bind]. destruct (apply_sigperm_spec f s R W) as (g & Eg & Rg & Sg). exists g. split; [exact Eg|]. split; [exact Rg|].
    intro e. rewrite Sg. apply sem_ext. intros a Ha. apply adicity_bound in Ha. rewrite F.
    rewrite (nth_indep _ (Z.of_nat a) (Z.of_nat 0)) by (rewrite map_length, L; lia). rewrite map_nth, litval_nat, Hact by lia. reflexivity.
Qed.

Lemma faction_at_unique f r g g' : faction_at f r g -> faction_at f r g' -> g = g'.
Proof. intros [R S] [R' S']. apply reduced_unique; [exact R | exact R'|]. intro e. rewrite S, S'. reflexivity. Qed.
Lemma clan_at_unique f m r g g' : clan_at f m r g -> clan_at f m r g' -> g = g'.
Proof. intros [R S] [R' S']. apply reduced_unique; [exact R | exact R'|]. intro e. rewrite S, S'. reflexivity. Qed.

Lemma ec_arity_ok f o : (match o with None => True | Some n => adicity f <= n end) -> ec_arity f o = Ok (match o with None => adicity f | Some n => n end).
Proof. unfold ec_arity. destruct o as [n|]; [|reflexivity]. intro H. rewrite (proj2 (Nat.leb_le _ _) H). reflexivity. Qed.

Lemma ec_faction_short f o sup n : wellmade f -> is_constant f = false -> adicity f <= 5 ->
  (match o with None => n = adicity f | Some k => n = k end) -> adicity f <= n -> (n = valency f \/ sup = true) ->
  exists c, ec_faction f o sup = Ok c /\ ec_glove c = None /\
    shows c (znat_range (fact n)) (fun x g => exists r, r < fact n /\ x = Z.of_nat r /\ faction_at f r g).
Proof.
  intros R C A Ho Hn Hs. unfold ec_faction. rewrite C, (proj2 (Nat.leb_le _ _) A). cbn [true_except bind].
  assert (Ea : ec_arity f o = Ok n). { rewrite ec_arity_ok; destruct o as [k|]; subst; auto. } rewrite Ea. cbn [bind].
  assert (Eb : (Nat.eqb n (valency f) || sup)%bool = true). { apply orb_true_iff. destruct Hs as [Hs|Hs]; [left; apply Nat.eqb_eq; exact Hs | right; exact Hs]. } rewrite Eb.
  destruct (ec_build (fun np : nat * list nat => let* g := apply_sigperm_list f (map Z.of_nat (snd np)) in Ok (Z.of_nat (fst np), g))
              (fun np => Z.of_nat (fst np)) (fun np g => faction_at f (fst np) g) (enumerate (Model_Perm.rev_colex_perms n)) (znat_range (fact n)) None) as (c & E & Eg & S).
  - apply znat_range_NoDup.
  - rewrite enumerate_numbers, rev_colex_length. apply Permutation_refl.
  - intros [k p] Hk. apply enumerate_In in Hk. cbn [fst snd]. destruct (faction_item f n k p R Hn Hk) as (g & Eg & Hg). exists g. rewrite Eg. split; [reflexivity | exact Hg].
  - intros [k p] g g' _. apply faction_at_unique.
  - intros [k p] g _ H. apply H.
  - exists c. split; [exact E|]. split; [exact Eg|]. eapply shows_ext; [|exact S]. intros x g. cbn beta. split.
    + intros ([k p] & Hk & Ex & H). apply enumerate_In in Hk. exists k. split; [apply (colex_list n k p Hk) | auto].
    + intros (r & Hr & Ex & H). exists (r, nth r (Model_Perm.rev_colex_perms n) []). split; [|auto]. apply enumerate_In. apply nth_error_nth'. rewrite rev_colex_length. exact Hr.
Qed.

(** * Clans without abbreviation *)

Lemma min_binv k : exists v, Binv None (Some (Z.of_nat k)) None None None = Ok v /\ forall i, nth i v false = Nat.testbit k i.
Proof. destruct (Binv_int_min k) as (v & E & H & _). exists v. split; [exact E|]. intro i. rewrite <- H, binv_intval_eq, testbit_b2n. reflexivity. Qed.

Definition min_binv_of (k : nat) : list bool := match Binv None (Some (Z.of_nat k)) None None None with Ok v => v | Err _ => [] end.
Lemma min_binv_ok k : Binv None (Some (Z.of_nat k)) None None None = Ok (min_binv_of k) /\ forall i, nth i (min_binv_of k) false = Nat.testbit k i.
Proof. unfold min_binv_of. destruct (min_binv k) as (v & E & H). rewrite E. split; [reflexivity | exact H]. Qed.
Lemma min_binvs n : mapM (fun k => Binv None (Some (Z.of_nat k)) None None None) (range n) = Ok (map min_binv_of (range n)).
Proof. apply mapM_ok. intros k _. apply min_binv_ok. Qed.
Lemma min_binvs_In n m b : In (m, b) (enumerate (map min_binv_of (range n))) <-> m < n /\ b = min_binv_of m.
Proof.
  rewrite enumerate_map, in_map_iff. split.
  - intros (k & E & Hk). injection E as <- <-. apply range_In in Hk. auto.
  - intros [Hm ->]. exists m. split; [reflexivity | apply range_In; exact Hm].
Qed.

Definition perm_of (p : list nat) : perm := match Perm (ArgSeq p) None with Ok q => q | Err _ => mkPerm true [] None 0 end.
Lemma colex_perms n : mapM (fun p => Perm (ArgSeq p) None) (Model_Perm.rev_colex_perms n) = Ok (map perm_of (Model_Perm.rev_colex_perms n)).
Proof.
  apply mapM_ok. intros p Hp. apply In_nth_error in Hp as (r & Hr). destruct (colex_perm n r p Hr) as (q & E & _). unfold perm_of. rewrite E. reflexivity.
Qed.
Lemma colex_perms_In n r q : In (r, q) (enumerate (map perm_of (Model_Perm.rev_colex_perms n))) ->
  r < fact n /\ wf q /\ is_Perm q /\ perilen q = None /\ (forall x, x < n -> pget q x = act r x) /\ (forall x, n <= x -> pget q x = x) /\ plength q <= n.
Proof.
  intro H. apply enumerate_In in H. rewrite nth_error_map in H. destruct (nth_error (Model_Perm.rev_colex_perms n) r) as [p|] eqn:Ep; [|discriminate H]. cbn [option_map] in H. injection H as <-.
  destruct (colex_perm n r p Ep) as (q & E & K). unfold perm_of. rewrite E. split; [apply (colex_list n r p Ep) | exact K].
Qed.
Lemma colex_perms_at n r : r < fact n -> exists q, In (r, q) (enumerate (map perm_of (Model_Perm.rev_colex_perms n))).
Proof.
  intro Hr. exists (nth r (map perm_of (Model_Perm.rev_colex_perms n)) (mkPerm true [] None 0)). apply enumerate_In. apply nth_error_nth'. rewrite map_length, rev_colex_length. exact Hr.
Qed.

(** the signed permutation of a negator number and a permutation *)
Lemma sig_of m n r q : In (r, q) (enumerate (map perm_of (Model_Perm.rev_colex_perms n))) ->
  exists s, SigPerm_valneg (NegBinv (min_binv_of m)) (SrcPerm q) = Ok s /\ swf s /\
    (forall x, x < n -> atom (sf s x) = act r x /\ negated (sf s x) = Nat.testbit m (act r x)) /\
    (forall x, n <= x -> atom (sf s x) = x /\ negated (sf s x) = Nat.testbit m x).
Proof.
  intro H. destruct (colex_perms_In n r q H) as (Hr & W & O & N & A & Hi & _).
  destruct (valneg_spec (NegBinv (min_binv_of m)) (SrcPerm q) q I O eq_refl N) as (s & E & Hs & F). exists s. split; [exact E|]. split; [exact Hs|].
  assert (G : forall x, atom (sf s x) = pget q x /\ negated (sf s x) = Nat.testbit m (pget q x)).
  { intro x. rewrite F. cbn [given_bit]. rewrite (proj2 (min_binv_ok m)). destruct (Nat.testbit m (pget q x)); [rewrite atom_neg, negated_neg|]; rewrite atom_nat, negated_nat; auto. }
  split; intros x Hx; rewrite !(proj1 (G x)), !(proj2 (G x)); [rewrite A by exact Hx | rewrite Hi by exact Hx]; auto.
Qed.

Lemma clan_item f n m r q : wellmade f -> adicity f <= n -> In (r, q) (enumerate (map perm_of (Model_Perm.rev_colex_perms n))) ->
  exists g, (let* s := SigPerm_valneg (NegBinv (min_binv_of m)) (SrcPerm q) in apply_sigperm f s) = Ok g /\ clan_at f m r g.
Proof.
  intros R A H. destruct (sig_of m n r q H) as (s & E & Hs & F & _). rewrite E. cbn [bind]. destruct (apply_sigperm_spec f s R Hs) as (g & Eg & Rg & Sg).
  exists g. split; [exact Eg|]. split; [exact Rg|]. intro e. rewrite Sg. apply sem_ext. intros a Ha. apply adicity_bound in Ha. unfold litval.
  rewrite (proj1 (F a ltac:(lia))), (proj2 (F a ltac:(lia))). reflexivity.
Qed.

(** numbers of pairs *)
Lemma pair_numbers M N : Permutation (map (fun mn : nat * nat => Z.of_nat (fst mn * N + snd mn)) (list_prod (range M) (range N))) (znat_range (M * N)).
Proof.
  apply NoDup_Permutation.
  - apply NoDup_map_inj; [apply NoDup_list_prod; apply range_NoDup|]. intros [a b] [c d] H1 H2 E. cbn [fst snd] in E.
    apply in_prod_iff in H1 as [_ H1], H2 as [_ H2]. apply range_In in H1, H2. apply Nat2Z.inj in E.
    assert (a = c) by (destruct (Nat.lt_trichotomy a c) as [L|[L|L]]; [exfalso; nia | exact L | exfalso; nia]). subst c. f_equal. lia.
  - apply znat_range_NoDup.
  - intro x. rewrite znat_range_In, in_map_iff. split.
    + intros ([a b] & <- & H). cbn [fst snd]. apply in_prod_iff in H as [H1 H2]. apply range_In in H1, H2. nia.
    + intro H. assert (HN : N <> 0) by (intros ->; rewrite Nat.mul_0_r in H; lia). exists (Z.to_nat x / N, Z.to_nat x mod N). cbn [fst snd]. split.
      * rewrite (Nat.mul_comm _ N), <- Nat.div_mod by exact HN. lia.
      * apply in_prod_iff. rewrite !range_In. split; [apply Nat.div_lt_upper_bound; [exact HN | rewrite Nat.mul_comm; lia] | apply Nat.mod_upper_bound, HN].
Qed.

Lemma list_prod_map {A B C D} (p : A -> C) (q : B -> D) X Y : list_prod (map p X) (map q Y) = map (fun xy => (p (fst xy), q (snd xy))) (list_prod X Y).
Proof.
  induction X as [|x X IH]; [reflexivity|]. cbn [list_prod map]. rewrite map_app, IH. f_equal. rewrite !map_map. reflexivity.
Qed.
Lemma list_prod_numbers {A B} (X : list A) (Y : list B) N : N = length Y ->
  Permutation (map (fun xy : (nat * A) * (nat * B) => Z.of_nat (fst (fst xy) * N + fst (snd xy))) (list_prod (enumerate X) (enumerate Y))) (znat_range (length X * N)).
Proof.
  intros ->. rewrite <- (pair_numbers (length X) (length Y)). rewrite <- (enumerate_keys X), <- (enumerate_keys Y), list_prod_map, map_map. apply Permutation_refl.
Qed.

Lemma ec_clan_redundant d f o sup n : wellmade f -> is_constant f = false -> adicity f <= 5 ->
  (match o with None => n = adicity f | Some k => n = k end) -> adicity f <= n -> (n = valency f \/ sup = true) ->
  exists c, ec_clan (S d) f o sup = Ok c /\ ec_glove c = None /\
    shows c (znat_range (2 ^ n * fact n)) (fun x g => exists m r, m < 2 ^ n /\ r < fact n /\ x = Z.of_nat (m * fact n + r) /\ clan_at f m r g).
Proof.
  intros R C A Ho Hn Hs. cbn [ec_clan]. rewrite C. unfold ec_clan_variable. rewrite (proj2 (Nat.leb_le _ _) A). cbn [true_except bind].
  assert (Ea : ec_arity f o = Ok n). { rewrite ec_arity_ok; destruct o as [k|]; subst; auto. } rewrite Ea. cbn [bind].
  assert (Eb : (Nat.eqb n (valency f) || sup)%bool = true). { apply orb_true_iff. destruct Hs as [Hs|Hs]; [left; apply Nat.eqb_eq; exact Hs | right; exact Hs]. } rewrite Eb.
  rewrite colex_perms. cbn [bind]. rewrite min_binvs. cbn [bind].
  match goal with |- context [mapM ?h ?l] => destruct (ec_build h (fun mn => Z.of_nat (fst (fst mn) * fact n + fst (snd mn)))
              (fun mn g => clan_at f (fst (fst mn)) (fst (snd mn)) g) l (znat_range (2 ^ n * fact n)) None) as (c & E & Eg & S) end.
  - apply znat_range_NoDup.
  - eapply Permutation_trans; [apply list_prod_numbers; rewrite map_length; symmetry; apply rev_colex_length|]. rewrite map_length, range_length. apply Permutation_refl.
  - intros [[m b] [r q]] H. cbn [fst snd]. apply in_prod_iff in H as [Hm Hr]. apply min_binvs_In in Hm as [_ ->].
    destruct (clan_item f n m r q R Hn Hr) as (g & E & Hg). exists g. destruct (SigPerm_valneg (NegBinv (min_binv_of m)) (SrcPerm q)) as [s|]; [|discriminate E]. cbn [bind] in *.
    rewrite E. split; [reflexivity | exact Hg].
  - intros [[m b] [r q]] g g' _. apply clan_at_unique.
  - intros [[m b] [r q]] g _ H. apply H.
  - exists c. split; [exact E|]. split; [exact Eg|]. eapply shows_ext; [|exact S]. intros x g. cbn beta. split.
    + intros ([[m b] [r q]] & H & Ex & Hg). cbn [fst snd] in *. apply in_prod_iff in H as [Hm Hr]. apply min_binvs_In in Hm as [Hm _]. exists m, r. split; [exact Hm|]. split; [apply (colex_perms_In n r q Hr) | auto].
    + intros (m & r & Hm & Hr & Ex & Hg). destruct (colex_perms_at n r Hr) as (q & Hq). exists ((m, min_binv_of m), (r, q)). split; [|auto]. apply in_prod_iff. split; [apply min_binvs_In; auto | exact Hq].
Qed.

(** * Combinations of atoms *)

(** the variation [v] is a list of different atoms below [n], one for each atom of [f] *)
Definition variation_at (f : boolf) (combo : list nat) (m r : nat) (g : boolf) : Prop :=
  reduced g /\ forall e e', (forall i, i < valency f -> e' (nth (act r i) (atomvals f) 0) = xorb (e (nth i combo 0)) (Nat.testbit m (act r i))) -> sem g e = sem f e'.

Lemma permutes_act r n : r < fact n -> permutes (act r) n.
Proof. intro H. apply act_perm, H. Qed.

(** every place is the image of a place *)
Lemma act_onto r n k : r < fact n -> k < n -> exists i, i < n /\ act r i = k.
Proof. intros Hr Hk. destruct (permutes_onto (act r) n k (permutes_act r n Hr) Hk) as (a & Ha & E). exists a. auto. Qed.

Lemma variation_unique f combo m r g g' : wellmade f -> r < fact (valency f) -> variation_at f combo m r g -> variation_at f combo m r g' -> g = g'.
Proof.
  intros Rf Hr [R S] [R' S']. apply reduced_unique; [exact R | exact R'|]. intro e.
  set (e' := fun a => match find (fun i => Nat.eqb (nth (act r i) (atomvals f) 0) a) (range (valency f)) with
                      | Some i => xorb (e (nth i combo 0)) (Nat.testbit m (act r i)) | None => false end).
  assert (He : forall i, i < valency f -> e' (nth (act r i) (atomvals f) 0) = xorb (e (nth i combo 0)) (Nat.testbit m (act r i))).
  { intros i Hi. unfold e'. destruct (find _ (range (valency f))) as [j|] eqn:Ef.
    - apply find_some in Ef as [Hj Ej]. apply range_In in Hj. apply Nat.eqb_eq in Ej.
      assert (P := permutes_act r _ Hr). assert (act r j = act r i).
      { apply (proj1 (NoDup_nth (atomvals f) 0) (fitting_NoDup f (proj1 Rf))); [apply (permutes_lt _ _ _ P Hj) | apply (permutes_lt _ _ _ P Hi) | exact Ej]. }
      assert (j = i) by (apply (injective_on _ _ _ _ P Hj Hi H)). subst j. reflexivity.
    - exfalso. pose proof (find_none _ _ Ef i (proj2 (range_In _ _) Hi)) as Hc. cbn beta in Hc. rewrite Nat.eqb_refl in Hc. discriminate Hc. }
  rewrite (S e e' He), (S' e e' He). reflexivity.
Qed.

Lemma sublist_NoDup {A} (s l : list A) : sublist s l -> NoDup l -> NoDup s.
Proof.
  induction 1 as [|x s l H IH|x s l H IH]; intro Hn; [constructor | |]; inversion Hn as [|? ? Hx Hn']; subst; [constructor; [|apply IH, Hn']|apply IH, Hn'].
  intro C. apply Hx. apply (sublist_In s l _ H). exact C.
Qed.

Lemma combos_spec n v c combo : nth_error (combinations (range n) v) c = Some combo -> c < length (combinations (range n) v) /\ length combo = v /\ NoDup combo /\ (forall a, In a combo -> a < n).
Proof.
  intro H. split; [apply nth_error_Some; congruence|]. apply nth_error_In, combinations_In in H as [Hs Hl]. split; [exact Hl|]. split; [apply (sublist_NoDup _ _ Hs), range_NoDup|].
  intros a Ha. apply range_In. apply (sublist_In _ _ _ Hs), Ha.
Qed.

Lemma variation_item f combo m r l : wellmade f -> is_constant f = false -> r < fact (valency f) -> length combo = valency f -> NoDup combo -> length l = valency f ->
  (forall i, i < valency f -> nth (act r i) l 0%Z = if Nat.testbit m (act r i) then neg (Z.of_nat (nth i combo 0)) else Z.of_nat (nth i combo 0)) ->
  exists g, boolf_apply f l = Ok g /\ variation_at f combo m r g.
Proof.
  intros R C Hr Lc Nc Ll Hl. assert (Hv := valency_pos f R C).
  assert (At : forall i, i < valency f -> atom (nth (act r i) l 0%Z) = nth i combo 0).
  { intros i Hi. rewrite Hl by exact Hi. destruct (Nat.testbit m (act r i)); [rewrite atom_neg|]; apply atom_nat. }
  destruct (apply_spec f l (proj1 R) Hv Ll) as (g & Eg & Rg & Sg).
  { apply (NoDup_nth _ (atom 0%Z)). intros a b Ha Hb E. rewrite map_length, Ll in Ha, Hb. rewrite !map_nth in E.
    destruct (act_onto r _ a Hr Ha) as (i & Hi & <-). destruct (act_onto r _ b Hr Hb) as (j & Hj & <-). rewrite !At in E by assumption. f_equal.
    apply (proj1 (NoDup_nth combo 0) Nc); [lia | lia | exact E]. }
  exists g. split; [exact Eg|]. split; [exact Rg|]. intros e e' H. apply (apply_subst f l g e e' (proj1 R) Ll Sg). intros k Hk.
  destruct (act_onto r _ k Hr Hk) as (i & Hi & <-). rewrite H by exact Hi. rewrite Hl by exact Hi.
  destruct (Nat.testbit m (act r i)); [rewrite litval_neg, litval_nat, xorb_true_r | rewrite litval_nat, xorb_false_r]; reflexivity.
Qed.

Lemma faction_long_item f n c combo r p : wellmade f -> is_constant f = false -> nth_error (combinations (range n) (valency f)) c = Some combo ->
  nth_error (Model_Perm.rev_colex_perms (valency f)) r = Some p ->
  exists g, (let* q := Perm (ArgSeq p) None in let* variation := papply q combo in boolf_apply f (map Z.of_nat variation)) = Ok g /\ variation_at f combo 0 r g.
Proof.
  intros R C Hc Hp. destruct (combos_spec _ _ _ _ Hc) as (_ & Lc & Nc & _). destruct (colex_perm _ _ _ Hp) as (q & E & W & _ & _ & A & _ & _).
  destruct (colex_list _ _ _ Hp) as (Hr & _). assert (P := permutes_act r _ Hr). rewrite E. cbn [bind].
  destruct (papply_spec q combo W) as (w & Ew & Lw & Hw).
  { intros i Hi. rewrite Lc in *. rewrite A by exact Hi. apply (permutes_lt _ _ _ P Hi). }
  rewrite Ew. cbn [bind]. apply variation_item; auto; [rewrite map_length; congruence|]. intros i Hi. rewrite Nat.bits_0. specialize (Hw i ltac:(lia)). rewrite A in Hw by exact Hi.
  change 0%Z with (Z.of_nat 0). rewrite map_nth. f_equal.
  rewrite (nth_error_nth' combo 0) in Hw by lia. apply nth_error_nth. exact Hw.
Qed.

Lemma clan_long_item f n c combo m r q : wellmade f -> is_constant f = false -> nth_error (combinations (range n) (valency f)) c = Some combo -> m < 2 ^ valency f ->
  In (r, q) (enumerate (map perm_of (Model_Perm.rev_colex_perms (valency f)))) ->
  exists g, (let* s := SigPerm_valneg (NegBinv (min_binv_of m)) (SrcPerm q) in let* sv := sg_apply s (map Z.of_nat combo) in boolf_apply f sv) = Ok g /\ variation_at f combo m r g.
Proof.
  intros R C Hc Hm Hq. destruct (combos_spec _ _ _ _ Hc) as (_ & Lc & Nc & _). destruct (colex_perms_In _ _ _ Hq) as (Hr & _). assert (P := permutes_act r _ Hr).
  destruct (sig_of m _ r q Hq) as (s & E & Hs & F & F'). rewrite E. cbn [bind].
  destruct (sg_apply_spec s (map Z.of_nat combo) Hs) as (w & Ew & Lw & Hw).
  { rewrite map_length, Lc. apply length_least; [exact Hs|]. intros x Hx. destruct (F' x Hx) as [E1 E2]. rewrite testbit_high in E2 by (eapply Nat.lt_le_trans; [exact Hm | apply Nat.pow_le_mono_r; lia]).
    rewrite (literal_split (sf s x)), E1, E2. reflexivity. }
  rewrite map_length, Lc in Hw. rewrite map_length, Lc in Lw. rewrite Ew. cbn [bind]. apply variation_item; auto. intros i Hi. specialize (Hw i Hi).
  rewrite (proj1 (F i Hi)), (proj2 (F i Hi)) in Hw. change (nth i (map Z.of_nat combo) 0%Z) with (nth i (map Z.of_nat combo) (Z.of_nat 0)) in Hw. rewrite map_nth in Hw. apply nth_error_nth. exact Hw.
Qed.

Lemma numbers_perm {X} (l : list X) (K : X -> nat) N : NoDup l -> (forall i j, In i l -> In j l -> K i = K j -> i = j) -> (forall i, In i l -> K i < N) ->
  (forall k, k < N -> exists i, In i l /\ K i = k) -> Permutation (map (fun i => Z.of_nat (K i)) l) (znat_range N).
Proof.
  intros Hn Hi Hb Ho. apply NoDup_Permutation; [|apply znat_range_NoDup|].
  - apply NoDup_map_inj; [exact Hn|]. intros a b Ha Hc E. apply Hi; [exact Ha | exact Hc | apply Nat2Z.inj, E].
  - intro x. rewrite znat_range_In, in_map_iff. split.
    + intros (i & <- & H). specialize (Hb i H). lia.
    + intro H. destruct (Ho (Z.to_nat x)) as (i & Hl & E); [lia|]. exists i. split; [lia | exact Hl].
Qed.
Lemma enumerate_NoDup {A} (l : list A) : NoDup (enumerate l).
Proof. apply (NoDup_map_inv fst). rewrite enumerate_keys. apply range_NoDup. Qed.
Lemma enumerate_fun {A} (l : list A) k a b : In (k, a) (enumerate l) -> In (k, b) (enumerate l) -> a = b.
Proof. rewrite !enumerate_In. congruence. Qed.
Lemma enumerate_lt {A} (l : list A) k a : In (k, a) (enumerate l) -> k < length l.
Proof. rewrite enumerate_In. intro H. apply nth_error_Some. congruence. Qed.
Lemma enumerate_at {A} (l : list A) k : k < length l -> exists a, In (k, a) (enumerate l).
Proof. intro H. destruct (nth_error l k) as [a|] eqn:E; [exists a; apply enumerate_In, E|]. apply nth_error_None in E. lia. Qed.
Lemma pair_number_inj N a b c d : b < N -> d < N -> a * N + b = c * N + d -> a = c /\ b = d.
Proof. intros Hb Hd E. assert (a = c) by (destruct (Nat.lt_trichotomy a c) as [L|[L|L]]; [exfalso; nia | exact L | exfalso; nia]). subst c. split; [reflexivity | lia]. Qed.
Lemma pair_number_lt M N a b : a < M -> b < N -> a * N + b < M * N.
Proof. intros. nia. Qed.
Lemma pair_number_split M N k : k < M * N -> exists a b, a < M /\ b < N /\ k = a * N + b.
Proof.
  intro H. assert (HN : N <> 0) by (intros ->; rewrite Nat.mul_0_r in H; lia). exists (k / N), (k mod N). split; [apply Nat.div_lt_upper_bound; [exact HN | rewrite Nat.mul_comm; lia]|].
  split; [apply Nat.mod_upper_bound, HN|]. rewrite (Nat.mul_comm _ N). apply Nat.div_mod, HN.
Qed.

Lemma ec_faction_long f n : wellmade f -> is_constant f = false -> adicity f <= 5 -> adicity f <= n -> n <> valency f ->
  exists c, ec_faction f (Some n) false = Ok c /\ ec_glove c = Some (combinations (range n) (valency f)) /\
    shows c (znat_range (fact (valency f) * length (combinations (range n) (valency f))))
      (fun x g => exists r k combo, r < fact (valency f) /\ nth_error (combinations (range n) (valency f)) k = Some combo /\
                    x = Z.of_nat (r * length (combinations (range n) (valency f)) + k) /\ variation_at f combo 0 r g).
Proof.
  intros R C A Hn Hs. unfold ec_faction. rewrite C, (proj2 (Nat.leb_le _ _) A). cbn [true_except bind].
  rewrite (ec_arity_ok f (Some n) Hn). cbn [bind]. rewrite (proj2 (Nat.eqb_neq _ _) Hs). cbn [orb].
  set (combos := combinations (range n) (valency f)). set (v := valency f) in *. set (perms := Model_Perm.rev_colex_perms v).
  assert (Lp : length perms = fact v) by apply rev_colex_length.
  match goal with |- context [mapM ?h ?l] => destruct (ec_build h (fun cn => Z.of_nat (fst (snd cn) * length combos + fst (fst cn)))
              (fun cn g => variation_at f (snd (fst cn)) 0 (fst (snd cn)) g) l (znat_range (fact v * length combos)) (Some combos)) as (c & E & Eg & S) end.
  - apply znat_range_NoDup.
  - apply (numbers_perm _ (fun cn : (nat * list nat) * (nat * list nat) => fst (snd cn) * length combos + fst (fst cn))).
    + apply NoDup_list_prod; apply enumerate_NoDup.
    + intros [[a1 a2] [a3 a4]] [[b1 b2] [b3 b4]] Ha Hb E. cbn [fst snd] in E. apply in_prod_iff in Ha as [Ha1 Ha2], Hb as [Hb1 Hb2].
      apply pair_number_inj in E as [<- <-]; [|eapply enumerate_lt; eassumption | eapply enumerate_lt; eassumption]. rewrite (enumerate_fun _ _ _ _ Ha1 Hb1), (enumerate_fun _ _ _ _ Ha2 Hb2). reflexivity.
    + intros [[a1 a2] [a3 a4]] Ha. cbn [fst snd]. apply in_prod_iff in Ha as [Ha1 Ha2]. apply pair_number_lt; [rewrite <- Lp|]; eapply enumerate_lt; eassumption.
    + intros k Hk. apply pair_number_split in Hk as (a & b & Ha & Hb & ->). destruct (enumerate_at combos b Hb) as (x & Hx). destruct (enumerate_at perms a) as (y & Hy); [lia|].
      exists ((b, x), (a, y)). split; [apply in_prod_iff; auto | reflexivity].
  - intros [[k combo] [r p]] H. cbn [fst snd]. apply in_prod_iff in H as [H1 H2]. apply enumerate_In in H1, H2.
    destruct (faction_long_item f n k combo r p R C H1 H2) as (g & E & Hg). exists g. split; [|exact Hg].
    destruct (Perm (ArgSeq p) None) as [q|]; [|discriminate E]. cbn [bind] in *. destruct (papply q combo) as [w|]; [|discriminate E]. cbn [bind] in *. rewrite E. reflexivity.
  - intros [[k combo] [r p]] g g' H. cbn [fst snd]. apply in_prod_iff in H as [H1 H2]. apply variation_unique; [exact R|]. fold v. rewrite <- Lp. eapply enumerate_lt; eassumption.
  - intros [[k combo] [r p]] g _ H. apply H.
  - exists c. split; [exact E|]. split; [exact Eg|]. eapply shows_ext; [|exact S]. intros x g. cbn beta. split.
    + intros ([[k combo] [r p]] & H & Ex & Hg). cbn [fst snd] in *. apply in_prod_iff in H as [H1 H2]. exists r, k, combo. split; [rewrite <- Lp; eapply enumerate_lt; eassumption|].
      split; [apply enumerate_In; exact H1 | auto].
    + intros (r & k & combo & Hr & Hk & Ex & Hg). destruct (enumerate_at perms r) as (p & Hp); [lia|]. exists ((k, combo), (r, p)). split; [|auto]. apply in_prod_iff. split; [apply enumerate_In; exact Hk | exact Hp].
Qed.

Lemma ec_clan_abbreviated d f n : wellmade f -> is_constant f = false -> adicity f <= 5 -> adicity f <= n -> n <> valency f ->
  exists c, ec_clan (S d) f (Some n) false = Ok c /\ ec_glove c = Some (combinations (range n) (valency f)) /\
    shows c (znat_range (2 ^ valency f * fact (valency f) * length (combinations (range n) (valency f))))
      (fun x g => exists m r k combo, m < 2 ^ valency f /\ r < fact (valency f) /\ nth_error (combinations (range n) (valency f)) k = Some combo /\
                    x = Z.of_nat ((m * fact (valency f) + r) * length (combinations (range n) (valency f)) + k) /\ variation_at f combo m r g).
Proof.
  intros R C A Hn Hs. cbn [ec_clan]. rewrite C. unfold ec_clan_variable. rewrite (proj2 (Nat.leb_le _ _) A). cbn [true_except bind].
  rewrite (ec_arity_ok f (Some n) Hn). cbn [bind]. rewrite (proj2 (Nat.eqb_neq _ _) Hs). cbn [orb]. rewrite colex_perms. cbn [bind]. rewrite min_binvs. cbn [bind].
  set (combos := combinations (range n) (valency f)). set (v := valency f) in *. set (perms := map perm_of (Model_Perm.rev_colex_perms v)). set (binvs := map min_binv_of (range (2 ^ v))).
  assert (Lp : length perms = fact v) by (unfold perms; rewrite map_length; apply rev_colex_length).
  assert (Lb : length binvs = 2 ^ v) by (unfold binvs; rewrite map_length; apply range_length).
  match goal with |- context [mapM ?h ?l] => destruct (ec_build h (fun cmn => Z.of_nat ((fst (fst (snd cmn)) * fact v + fst (snd (snd cmn))) * length combos + fst (fst cmn)))
              (fun cmn g => variation_at f (snd (fst cmn)) (fst (fst (snd cmn))) (fst (snd (snd cmn))) g) l (znat_range (2 ^ v * fact v * length combos)) (Some combos)) as (c & E & Eg & S) end.
  - apply znat_range_NoDup.
  - apply (numbers_perm _ (fun cmn : (nat * list nat) * ((nat * list bool) * (nat * perm)) => (fst (fst (snd cmn)) * fact v + fst (snd (snd cmn))) * length combos + fst (fst cmn))).
    + apply NoDup_list_prod; [apply enumerate_NoDup|]. apply NoDup_list_prod; apply enumerate_NoDup.
    + intros [[a1 a2] [[a3 a4] [a5 a6]]] [[b1 b2] [[b3 b4] [b5 b6]]] Ha Hb E. cbn [fst snd] in E. apply in_prod_iff in Ha as [Ha1 Ha2], Hb as [Hb1 Hb2]. apply in_prod_iff in Ha2 as [Ha2 Ha3], Hb2 as [Hb2 Hb3].
      apply pair_number_inj in E as [E <-]; [|eapply enumerate_lt; eassumption | eapply enumerate_lt; eassumption]. apply pair_number_inj in E as [<- <-]; [|rewrite <- Lp; eapply enumerate_lt; eassumption | rewrite <- Lp; eapply enumerate_lt; eassumption].
      rewrite (enumerate_fun _ _ _ _ Ha1 Hb1), (enumerate_fun _ _ _ _ Ha2 Hb2), (enumerate_fun _ _ _ _ Ha3 Hb3). reflexivity.
    + intros [[a1 a2] [[a3 a4] [a5 a6]]] Ha. cbn [fst snd]. apply in_prod_iff in Ha as [Ha1 Ha2]. apply in_prod_iff in Ha2 as [Ha2 Ha3].
      apply pair_number_lt; [apply pair_number_lt; [rewrite <- Lb | rewrite <- Lp]|]; eapply enumerate_lt; eassumption.
    + intros k Hk. apply pair_number_split in Hk as (a & b & Ha & Hb & ->). apply pair_number_split in Ha as (a1 & a2 & Ha1 & Ha2 & ->).
      destruct (enumerate_at combos b Hb) as (x & Hx). destruct (enumerate_at binvs a1) as (y & Hy); [lia|]. destruct (enumerate_at perms a2) as (z & Hz); [lia|].
      exists ((b, x), ((a1, y), (a2, z))). split; [apply in_prod_iff; split; [exact Hx | apply in_prod_iff; auto] | reflexivity].
  - intros [[k combo] [[m bv] [r q]]] H. cbn [fst snd]. apply in_prod_iff in H as [H1 H2]. apply in_prod_iff in H2 as [H2 H3]. apply enumerate_In in H1. apply min_binvs_In in H2 as [Hm ->].
    destruct (clan_long_item f n k combo m r q R C H1 Hm H3) as (g & E & Hg). exists g. split; [|exact Hg].
    destruct (SigPerm_valneg (NegBinv (min_binv_of m)) (SrcPerm q)) as [s|]; [|discriminate E]. cbn [bind] in *. destruct (sg_apply s (map Z.of_nat combo)) as [w|]; [|discriminate E]. cbn [bind] in *. rewrite E. reflexivity.
  - intros [[k combo] [[m bv] [r q]]] g g' H. cbn [fst snd]. apply in_prod_iff in H as [H1 H2]. apply in_prod_iff in H2 as [H2 H3]. apply variation_unique; [exact R|]. fold v. rewrite <- Lp. eapply enumerate_lt; eassumption.
  - intros [[k combo] [[m bv] [r q]]] g _ H. apply H.
  - exists c. split; [exact E|]. split; [exact Eg|]. eapply shows_ext; [|exact S]. intros x g. cbn beta. split.
    + intros ([[k combo] [[m bv] [r q]]] & H & Ex & Hg). cbn [fst snd] in *. apply in_prod_iff in H as [H1 H2]. apply in_prod_iff in H2 as [H2 H3]. exists m, r, k, combo.
      split; [rewrite <- Lb; eapply enumerate_lt; eassumption|]. split; [rewrite <- Lp; eapply enumerate_lt; eassumption|].
      split; [apply enumerate_In; exact H1 | auto].
    + intros (m & r & k & combo & Hm & Hr & Hk & Ex & Hg). destruct (enumerate_at perms r) as (p & Hp); [lia|]. destruct (enumerate_at binvs m) as (bv & Hb); [lia|]. exists ((k, combo), ((m, bv), (r, p))). split; [|auto].
      apply in_prod_iff. split; [apply enumerate_In; exact Hk | apply in_prod_iff; auto].
Qed.

(** one block with all elements *)
Lemma znat_range_sorted n : StronglySorted Z.lt (znat_range n).
Proof.
  unfold znat_range, range. generalize 0. induction n as [|n IH]; intro a; cbn [seq map]; [constructor|]. constructor; [apply IH|].
  apply Forall_forall. intros x Hx. apply in_map_iff in Hx as (k & <- & Hk). apply in_seq in Hk. lia.
Qed.

Lemma one_block_spec n f : 0 < n -> reduced f -> exists c, label_one_block (znat_range n) f = Ok c /\ ec_glove c = None /\
  shows c (znat_range n) (fun x g => (0 <= x < Z.of_nat n)%Z /\ g = f).
Proof.
  intros Hn R. unfold label_one_block, SetPart. set (b := znat_range n).
  destruct (sp_init_spec Model_SetPart.no_caches (Some [b]) (DomSet b) None) as (s & E & W & D & Cc & Ls & T).
  { unfold no_overlap. cbn [filter]. destruct (2 <=? length b); cbn [concat]; [rewrite app_nil_r; apply znat_range_NoDup | constructor]. }
  { split; constructor. }
  match goal with |- context [sp_init ?c0 ?b0 ?d0 ?l0] => replace (sp_init c0 b0 d0 l0) with (Ok s) by (symmetry; exact E) end. cbn [bind]. assert (L0 : sp_labels s = []) by (rewrite Ls; destruct (sp_blocks s); reflexivity). cbn [norm_dom] in D. rewrite znodup_id in D by apply znat_range_NoDup.
  assert (Sm : forall x y, Spec_SetPart.same (sp_blocks s) x y <-> x = y \/ (In x b /\ In y b)).
  { intros x y. unfold Spec_SetPart.same. destruct (Z.eq_dec x y) as [->|Hxy]; [tauto|]. rewrite T by exact Hxy. split.
    - intros [C|(b' & [<-|[]] & H)]; [contradiction | right; exact H].
    - intros [C|H]; [contradiction | right; exists b; cbn; tauto]. }
  assert (Hb : forall x, In x b <-> (0 <= x < Z.of_nat n)%Z) by (intro x; apply znat_range_In).
  assert (Eb : forall x, In x b -> element_to_block s x = b).
  { intros x Hx. apply zsorted_ext; [apply element_to_block_sorted, W | apply znat_range_sorted|]. intro y. rewrite (element_to_block_In s W), Sm. split; [intros [<-|[_ H]]; auto | auto]. }
  assert (H0 : In 0%Z b) by (apply Hb; lia).
  unfold add_label_to_element, element_in_domain. rewrite D, (proj2 (zmemb_In _ _) H0). cbn [negb]. rewrite (Eb _ H0). unfold get_label_from_block, get_block_from_label. rewrite L0. cbn [label_get label_inv].
  unfold add_label_to_block. assert (K := read_canonical_core s). assert (Fc := fresh_canonical s). unfold read_canonical in *. rewrite Cc in *. cbn [Model_SetPart.no_caches c_canonical] in *.
  unfold blocks_with_singletons in *. rewrite D in *. cbn [bind] in *. cbn [fst snd] in *. destruct K as (Kd & Kb & Ki & Kl & Kls).
  match goal with |- context [block_memb b ?r] => assert (Hbr : block_memb b r = true) end.
  { apply block_memb_In. apply (Fc _ W eq_refl eq_refl). destruct (in_dec Z.eq_dec 0%Z (concat (sp_blocks s))) as [I|I].
    - left. rewrite <- (Eb _ H0). apply (element_to_block_block s W), I.
    - right. exists 0%Z. rewrite <- (Eb _ H0). rewrite (element_to_block_single s W _ I). split; [reflexivity|]. split; [cbn [bws_elements]; rewrite D; exact H0|].
      intros y (b' & Hb' & Hx & _). apply I, in_concat. eauto. }
  rewrite Hbr. cbn [negb]. rewrite Kls, L0. cbn [label_get label_put label_inv label_pop filter app].
  eexists. split; [reflexivity|]. split; [reflexivity|].
  match goal with |- context [set_labels ?q ?l] => set (s' := set_labels q l) end.
  assert (Es : forall x, element_to_block s' x = element_to_block s x) by reflexivity.
  constructor; cbn [ec_part ec_functions].
  - exact D.
  - intros x g. unfold ec_label, get_label_from_element, get_label_from_block. cbn [ec_part ec_functions]. rewrite Es. cbn [s' set_labels sp_labels label_get].
    rewrite <- Hb. destruct (zlist_eqb (element_to_block s x) b) eqn:Ex.
    + apply zlist_eqb_eq in Ex. assert (In x b). { rewrite <- Ex. apply (element_to_block_In s W). left. reflexivity. } cbn. split; [intro Eg; injection Eg as <-; auto | intros [_ ->]; reflexivity].
    + split; [discriminate|]. intros [H _]. rewrite (Eb x H), zlist_eqb_refl in Ex. discriminate Ex.
  - intros x y Hxy. change (sp_blocks s') with (sp_blocks s). rewrite T by exact Hxy. split.
    + intros (b' & [<-|[]] & Hx & Hy). exists f. rewrite <- !Hb. auto.
    + intros (g & [Hx _] & [Hy _]). exists b. rewrite !Hb. cbn. auto.
  - intro g. unfold ec_members. cbn [ec_part ec_functions s' set_labels sp_labels flat_map snd Z.to_nat nth_error app]. split.
    + intros [<-|[]]. exists 0%Z. split; [lia | reflexivity].
    + intros (x & _ & ->). left. reflexivity.
  - unfold ec_members. cbn. repeat constructor. intros [].
  - intros g b' Rg. unfold ec_block, get_block_from_label. cbn [ec_part ec_functions s' set_labels sp_labels label_inv boolf_position].
    destruct (boolf_eqb f g) eqn:Eg.
    + apply boolf_eqb_true in Eg; [|exact R | exact Rg]. subst g. cbn. split.
      * intro X. injection X as <-. split; [intro C; rewrite C in H0; destruct H0|]. split; [apply znat_range_sorted|]. intro x. rewrite Hb. tauto.
      * intros (_ & S' & H). f_equal. apply zsorted_ext; [apply znat_range_sorted | exact S'|]. intro x. rewrite H, Hb. tauto.
    + assert (g <> f). { intros ->. rewrite (proj2 (boolf_eqb_true f f R R) eq_refl) in Eg. discriminate. } cbn. split; [discriminate|].
      intros (Ne & _ & H'). exfalso. destruct b' as [|x b']; [congruence|]. apply H. apply (H' x). left. reflexivity.
  - intros g Hg. unfold ec_block, get_block_from_label. cbn [ec_part ec_functions s' set_labels sp_labels label_inv boolf_position]. destruct (boolf_eqb f g) eqn:Eg; [|reflexivity].
    exfalso. apply boolf_eqb_eq in Eg as [E1 E2]. destruct (Hg 0%Z f); [split; [lia | reflexivity] | contradiction | contradiction].
Qed.
