(** Proof_BoolfMake: the constructor of [Boolf]: every object it returns is well-formed, and
    the meaning of its argument forms. *)

From Coq Require Import List Arith ZArith Bool Lia Permutation Sorted.
From Verif Require Import Model_Base Lib Model_Perm Model_Binary Model_SigPerm Model_WalshPerm Model_Twin Model_Boolf
  Spec_Bits Spec_SigPerm Spec_Boolf Proof_Binary Proof_Helpers Proof_Linear Proof_Deflate Proof_Reorder Proof_Boolf Proof_BoolfTable Proof_BoolfApply
  Proof_WalshLinear Proof_Twin.
Import ListNotations.
Open Scope nat_scope.

Lemma bind_inv {A B} (m : res A) (k : A -> res B) b : bind m k = Ok b -> exists a, m = Ok a /\ k a = Ok b.
Proof. destruct m as [a|e]; [|discriminate]. cbn. intro H. exists a. auto. Qed.

Lemma guard_inv (c : bool) e {B} (k : res B) b : (guard c else e ;; k) = Ok b -> c = true /\ k = Ok b.
Proof. destruct c; [auto | discriminate]. Qed.

Lemma map_of_to l : (forall z, In z l -> (0 <= z)%Z) -> map Z.of_nat (map Z.to_nat l) = l.
Proof.
  intro H. rewrite map_map. rewrite <- map_id. apply map_ext_in. intros z Hz. apply Z2Nat.id. apply H. exact Hz.
Qed.

Lemma is_power_pow x : is_power_of_two x = true -> x = 2 ^ Nat.log2 x.
Proof. unfold is_power_of_two. intro H. apply andb_true_iff in H as [_ H]. apply Nat.eqb_eq in H. auto. Qed.

Lemma log_int_inv x n : log_int x = Ok n -> x = 2 ^ n.
Proof.
  unfold log_int. intro H. apply guard_inv in H as [_ H]. apply guard_inv in H as [Hp H]. injection H as <-. apply is_power_pow. exact Hp.
Qed.

Definition av_ok (v : list bool) (av : option (list Z)) : Prop :=
  match av with Some av => zunique av = true /\ length v = 2 ^ length av | None => True end.

Lemma tt_start_inv v av sd s : tt_start v av sd = Ok s -> v <> [] /\ av_ok v av.
Proof.
  unfold tt_start. cbv zeta. intro H. apply bind_inv in H as [[] [E H]]. apply guard_inv in H as [Hl _]. split.
  - intros ->. discriminate Hl.
  - destruct av as [av|]; [|exact I]. apply guard_inv in E as [E1 E]. apply guard_inv in E as [E2 _]. apply Nat.eqb_eq in E2. split; assumption.
Qed.

Lemma zmin_nonneg l m : zmin l = Ok m -> (0 <= m)%Z -> forall z, In z l -> (0 <= z)%Z.
Proof.
  intros E Hm z Hz. destruct (zmin_spec l) as [m' [E' [_ Hle]]]; [intros ->; destruct Hz|]. rewrite E in E'. injection E' as <-. specialize (Hle z Hz). lia.
Qed.

(** without skip_deflation the result has no redundant atoms *)
Lemma tt_deflated_reduced v av f : tt_deflated v av = Ok f -> reduced f.
Proof.
  intro H. assert (H0 := H). unfold tt_deflated in H. apply bind_inv in H as [s [Es _]].
  destruct (tt_start_inv _ _ _ _ Es) as [Hv Hav].
  destruct (constantly_dec v) as [[C|[C _]]|[C0 C1]].
  - unfold tt_deflated in H0. rewrite (tt_start_constant v av false Hv C Hav) in H0. injection H0 as <-. apply set_constant_reduced.
  - unfold tt_deflated in H0. rewrite (tt_start_constant v av true Hv C Hav) in H0. injection H0 as <-. apply set_constant_reduced.
  - rewrite (tt_start_other v av false Hv (or_intror (conj C0 C1)) Hav) in Es. destruct av as [av|].
    + apply bind_inv in Es as [m [Em Es]]. apply guard_inv in Es as [Hm _]. apply Z.leb_le in Hm.
      assert (Hnn := zmin_nonneg av m Em Hm). destruct Hav as [Hu Hl]. rewrite <- (map_of_to av Hnn) in H0, Hu.
      assert (Hnd : NoDup (map Z.to_nat av)) by (apply (NoDup_map_inv Z.of_nat), zunique_NoDup; exact Hu).
      destruct (Boolf_vec_spec v (map Z.to_nat av) Hnd) as [f' [E [R _]]]; [rewrite map_length; exact Hl|].
      unfold Boolf_vec in E. rewrite H0 in E. injection E as <-. exact R.
    + apply bind_inv in Es as [n [En _]]. destruct (Boolf_root_spec v n (log_int_inv _ _ En)) as [f' [E [R _]]].
      unfold Boolf_root in E. rewrite H0 in E. injection E as <-. exact R.
Qed.

Lemma atoms_essential f a : reduced f -> (In a (atomvals f) <-> essential (sem f) a).
Proof. intros [_ [H _]]. split; [apply H | apply essential_in]. Qed.

Lemma asc_incl_length l m : ascending l -> ascending m -> (forall a, In a l -> In a m) -> length l <= length m /\ (length l = length m <-> forall a, In a m -> In a l).
Proof.
  intros Hl Hm Hi. assert (Nl := sorted_lt_NoDup _ Hl). assert (Nm := sorted_lt_NoDup _ Hm). split; [apply NoDup_incl_length; assumption|]. split.
  - intro E. apply NoDup_length_incl; [exact Nl | lia | exact Hi].
  - intro H. apply Nat.le_antisymm; apply NoDup_incl_length; assumption.
Qed.

Lemma essential_dec v a x : ascending a -> length v = 2 ^ length a -> {essential (table v a) x} + {~ essential (table v a) x}.
Proof.
  intros Ha Hv. destruct (Boolf_vec v a) as [f|e] eqn:E.
  - destruct (in_dec Nat.eq_dec x (atomvals f)) as [q|q]; [left | right];
      (destruct (Boolf_vec_sorted v a Ha Hv) as [f' [E' [R S]]]; rewrite E in E'; injection E' as <-).
    + apply (essential_ext (sem f)); [exact S|]. apply (atoms_essential f x R). exact q.
    + intro C. apply q. apply (atoms_essential f x R). apply (essential_ext (table v a)); [intro; symmetry; apply S | exact C].
  - exfalso. destruct (Boolf_vec_sorted v a Ha Hv) as [f' [E' _]]. congruence.
Qed.

(** skip_deflation for ascending atoms: table and atoms are kept *)
Lemma inflated_spec v a g : ascending a -> length v = 2 ^ length a -> tt_deflated v None = Ok g ->
  (Nat.ltb (valency g) (length a) = true <-> exists x, In x a /\ ~ essential (table v a) x).
Proof.
  intros Ha Hv Eg. destruct (Boolf_root_spec v (length a) Hv) as [g' [E [R S]]]. unfold Boolf_root in E. rewrite Eg in E. injection E as <-.
  assert (Hin : forall x, In x (atomvals g) -> In x (range (length a))) by (intros x Hx; apply (atoms_essential g x R), (essential_ext _ _ _ S), essential_in in Hx; exact Hx).
  destruct (asc_incl_length (atomvals g) (range (length a)) (proj1 (proj1 R)) (range_ascending _) Hin) as [Hle Heq]. rewrite range_length in Hle, Heq.
  assert (D1 := differs_essential v (range (length a)) (sorted_lt_NoDup _ (range_ascending _))). rewrite range_length in D1. specialize (D1 Hv).
  assert (D2 := differs_essential v a (sorted_lt_NoDup _ Ha) Hv).
  assert (Hall : valency g = length a <-> forall x, In x a -> essential (table v a) x).
  { unfold valency. rewrite Heq, <- D2, D1. split; intros H x Hx.
    - apply (essential_ext _ _ _ S), (atoms_essential g x R), H, Hx.
    - apply (atoms_essential g x R). apply (essential_ext (table v (range (length a)))); [intro e; symmetry; apply S | apply H, Hx]. }
  rewrite Nat.ltb_lt. unfold valency in *. split.
  - intro Hlt. destruct (Forall_Exists_dec (essential (table v a))) with (l := a) as [F|F].
    + intro x. destruct (essential_dec v a x Ha Hv) as [q|q]; [left | right]; exact q.
    + exfalso. rewrite Forall_forall in F. apply Hall in F. lia.
    + apply Exists_exists in F. exact F.
  - intros [x [Hx Hn]]. destruct (Nat.eq_dec (length (atomvals g)) (length a)) as [E|E]; [|lia]. exfalso. apply Hn. apply (proj1 Hall E). exact Hx.
Qed.

Lemma tt_start_inr v av sd b a : tt_start v av sd = Ok (inr (b, a)) ->
  ascending a /\ length b = 2 ^ length a /\ length b = length v /\
  match av with
  | None => b = v /\ a = range (length a)
  | Some av => a = sort_nat (map Z.to_nat av) /\ (forall z, In z av -> (0 <= z)%Z) /\
               (ascending (map Z.to_nat av) -> b = v) /\
               exists eff, effective_atoms (map Z.to_nat av) eff /\ forall e, table b a e = table v eff e
  end.
Proof.
  intro H. destruct (tt_start_inv _ _ _ _ H) as [Hv Hav]. unfold tt_start in H. cbv zeta in H.
  apply bind_inv in H as [[] [_ H]]. apply guard_inv in H as [_ H].
  destruct ((Nat.eqb (binv_weight v) 0 || Nat.eqb (binv_weight v) (length v)) && negb sd); [discriminate H|].
  destruct av as [av|].
  - destruct Hav as [Hu Hl]. apply bind_inv in H as [m [Em H]]. apply guard_inv in H as [Hm H]. apply Z.leb_le in Hm.
    assert (Hnn := zmin_nonneg av m Em Hm). assert (Hz := map_of_to av Hnn).
    assert (Hnd : NoDup (map Z.to_nat av)) by (apply (NoDup_map_inv Z.of_nat), zunique_NoDup; rewrite Hz; exact Hu).
    set (nv := map Z.to_nat av) in *. assert (Hln : length v = 2 ^ length nv) by (unfold nv; rewrite map_length; exact Hl).
    apply bind_inv in H as [[b' a'] [Er H]]. injection H as -> ->. unfold reorder_if_atomvals_not_asc in Er.
    destruct (reorder_spec transpose_inv v nv (or_intror eq_refl) Hln) as [r [Pr [Hrl [Hrn [Hasc Hother]]]]].
    destruct (list_eq_dec Nat.eq_dec nv (sort_nat nv)) as [Es|Es].
    + rewrite (Hasc Es) in Er. injection Er as <- <-. split; [rewrite Es; apply sort_nat_ascending; exact Hnd|].
      split; [exact Hln|]. split; [reflexivity|]. split; [exact Es|]. split; [exact Hnn|]. split; [reflexivity|].
      exists (map (fun i => nth i (sort_nat nv) 0) r). split; [exists r; tauto|]. intro e. f_equal.
      rewrite <- Es. rewrite <- Es in Hrn. transitivity (map (fun i => nth i nv 0) (range (length nv))); [apply nth_ext_map | f_equal].
      apply (nth_ext _ _ 0 0); [rewrite range_length; symmetry; exact Hrl|]. intros k Hk. rewrite range_length in Hk. rewrite nth_range by exact Hk.
      apply (proj1 (NoDup_nth nv 0) Hnd); [exact Hk | | apply Hrn; exact Hk]. apply range_In. rewrite <- Pr. apply nth_In. lia.
    + destruct (Hother Es) as [v' [E [Hlv T]]]. rewrite E in Er. injection Er as <- <-. split; [apply sort_nat_ascending; exact Hnd|].
      split; [rewrite sort_nat_length; congruence|]. split; [exact Hlv|]. split; [reflexivity|]. split; [exact Hnn|]. split.
      * intro Ha. exfalso. apply Es. symmetry. apply sort_nat_id, sorted_lt_le. exact Ha.
      * exists (map (fun i => nth i (sort_nat nv) 0) r). split; [exists r; tauto | exact T].
  - apply bind_inv in H as [n [En H]]. injection H as <- <-. apply log_int_inv in En. split; [apply range_ascending|].
    rewrite range_length. auto.
Qed.

Lemma tt_inflated_inv v av f : tt_inflated v av = Ok f ->
  exists b a g, tt_start v av true = Ok (inr (b, a)) /\ a <> [] /\ tt_deflated b None = Ok g /\
    f = mkBoolf b a false (Nat.ltb (valency g) (length a)).
Proof.
  unfold tt_inflated. intro H. apply bind_inv in H as [[c|[b a]] [Es H]].
  - exfalso. unfold tt_start in Es. cbv zeta in Es. apply bind_inv in Es as [_ [_ Es]]. apply guard_inv in Es as [_ Es].
    cbn [negb] in Es. rewrite andb_false_r in Es. destruct av as [av|].
    + apply bind_inv in Es as [m [_ Es]]. apply guard_inv in Es as [_ Es]. apply bind_inv in Es as [ba [_ Es]]. discriminate Es.
    + apply bind_inv in Es as [m [_ Es]]. discriminate Es.
  - apply guard_inv in H as [Hn H]. apply bind_inv in H as [g [Eg H]]. injection H as <-. exists b, a, g.
    split; [exact Es|]. split; [intros ->; discriminate Hn|]. auto.
Qed.

Lemma wellmade_reduced f : wellmade f -> is_inflated f = false -> reduced f.
Proof.
  intros [Hf [Hi Hc]] E. split; [exact Hf|]. split; [|auto]. intros a Ha.
  destruct (essential_dec (root f) (atomvals f) a (proj1 Hf) (proj2 Hf)) as [q|q]; [exact q|]. exfalso.
  assert (is_inflated f = true) by (apply Hi; exists a; auto). congruence.
Qed.

Lemma tt_inflated_wellmade v av f : tt_inflated v av = Ok f -> wellmade f.
Proof.
  intro H. destruct (tt_inflated_inv _ _ _ H) as [b [a [g [Es [Hn [Eg ->]]]]]].
  destruct (tt_start_inr _ _ _ _ _ Es) as [Ha [Hb _]]. split; [split; assumption|]. cbn [is_inflated is_constant atomvals].
  split; [apply inflated_spec; assumption|]. split; [discriminate | intros ->; congruence].
Qed.

Lemma set_unary_spec z : reduced (set_unary z) /\ forall e, sem (set_unary z) e = litval e z.
Proof.
  assert (Ea : atomvals (set_unary z) = [atom z]).
  { unfold set_unary, atom, neg. destruct (Z.ltb_spec z 0); cbn [atomvals]; f_equal; lia. }
  assert (El : length (root (set_unary z)) = 2) by (unfold set_unary; destruct (Z.ltb z 0); reflexivity).
  assert (S : forall e, sem (set_unary z) e = litval e z).
  { intro e. unfold sem, table. rewrite Ea. unfold litval, negated, set_unary. cbn [map b2n]. destruct (Z.ltb z 0), (e (atom z)); reflexivity. }
  split; [|exact S].
  split; [|split].
  - split; [rewrite Ea; repeat constructor | rewrite Ea, El; reflexivity].
  - intros a Ha. rewrite Ea in Ha. destruct Ha as [<- | []]. exists (fun _ => false). rewrite !S. unfold litval. rewrite !upd_eq. destruct (negated z); discriminate.
  - split; [unfold set_unary; destruct (Z.ltb z 0); reflexivity|]. rewrite Ea. unfold set_unary. destruct (Z.ltb z 0); split; discriminate.
Qed.

(** * multi_and etc. *)

Definition entry_ok (e : mu_entry) : Prop := match e with MuInt _ => True | MuBoolf f => fitting f end.
Lemma entry_fitting e : entry_ok e -> fitting (mu_boolf e).
Proof. destruct e as [z|f]; cbn; [intros _; apply set_unary_spec | auto]. Qed.

(** the value of an entry *)
Definition entry_val (e : assignment) (x : mu_entry) : bool := match x with MuInt z => litval e z | MuBoolf f => sem f e end.
Lemma entry_sem e x : sem (mu_boolf x) e = entry_val e x.
Proof. destruct x; [apply set_unary_spec | reflexivity]. Qed.

Lemma xand_spec f g : fitting f -> fitting g -> exists h, boolf_xand f g = Ok h /\ reduced h /\ forall e, sem h e = xorb (sem f e) (negb (sem g e)).
Proof.
  intros Hf Hg. unfold boolf_xand. destruct (not_spec g Hg) as [n [En [Rn Sn]]]. rewrite En. cbn [bind].
  destruct (bitwise_spec xorb f n Hf (proj1 Rn)) as [h [E [R S]]]. exists h. split; [exact E|]. split; [exact R|]. intro e. rewrite S, Sn. reflexivity.
Qed.

Lemma multi_spec (op : boolf -> boolf -> res boolf) (bop : bool -> bool -> bool) (start : bool) l :
  (forall f g, fitting f -> fitting g -> exists h, op f g = Ok h /\ reduced h /\ forall e, sem h e = bop (sem f e) (sem g e)) ->
  (forall x, In x l -> entry_ok x) ->
  exists f, multi_fold op start l = Ok f /\ reduced f /\ forall e, sem f e = fold_left bop (map (entry_val e) l) start.
Proof.
  intros Hop Hl. unfold multi_fold. destruct (Boolf_root_spec [start] 0 eq_refl) as [f0 [E0 [R0 S0]]]. rewrite E0. cbn [bind].
  assert (Hs : forall e, sem f0 e = start) by (intro e; rewrite S0; reflexivity). clear E0 S0.
  enough (G : forall l f0, (forall x, In x l -> entry_ok x) -> reduced f0 ->
    exists f, foldM (fun f e => op f (mu_boolf e)) l f0 = Ok f /\ reduced f /\ forall e, sem f e = fold_left bop (map (entry_val e) l) (sem f0 e)).
  { destruct (G l f0 Hl R0) as [f [E [R S]]]. exists f. split; [exact E|]. split; [exact R|]. intro e. rewrite S, Hs. reflexivity. }
  clear - Hop. intros l f0 Hl R. revert f0 R. induction l as [|x l IH]; intros f0 R.
  - exists f0. auto.
  - cbn [foldM]. destruct (Hop f0 (mu_boolf x) (proj1 R)) as [h [E [Rh Sh]]]; [apply entry_fitting, Hl; left; reflexivity|].
    rewrite E. cbn [bind]. destruct (IH (fun y Hy => Hl y (or_intror Hy)) h Rh) as [f [Ef [Rf Sf]]]. exists f. split; [exact Ef|]. split; [exact Rf|].
    intro e. rewrite Sf, Sh, entry_sem. reflexivity.
Qed.

(** * fullspots *)

Lemma deflate_map {A B} (g : A -> B) v l :
  deflate v (map g l) = (let* vl := deflate v l in Ok (fst vl, map g (snd vl))).
Proof.
  unfold deflate. rewrite map_length. generalize (S (S (length l) * S (length l))) as fuel, 0 as k.
  intros fuel. revert v l. induction fuel as [|fuel IH]; intros v l k; [reflexivity|]. cbn [deflate_loop]. rewrite map_length.
  destruct (Nat.even (binv_weight v)); [|reflexivity]. destruct (Nat.leb (length l) k); [reflexivity|].
  destruct (make_atompattern (Z.of_nat k) (length l) false) as [pb|]; [|reflexivity]. cbn [bind].
  destruct (vector_zip_apart v (map Nat.b2n pb)) as [hs|]; [|reflexivity]. cbn [bind].
  destruct hs as [|h1 [|h2 [|? ?]]]; try reflexivity.
  destruct (bvec_eqb h1 h2); [|apply IH]. rewrite <- IH. f_equal. rewrite map_app, firstn_map, skipn_map. reflexivity.
Qed.

Lemma fs_spec spots atoms av arity :
  ascending atoms -> (av = Some (map Z.of_nat atoms) /\ arity = None) \/ (av = None /\ arity = Some (length atoms) /\ atoms = range (length atoms)) ->
  (forall s, In s spots -> s < 2 ^ length atoms) ->
  exists f, subinit_fs (map Z.of_nat spots) av arity false = Ok f /\ reduced f /\
    forall e, sem f e = memb (b2n (map e atoms)) spots.
Proof.
  intros Ha Hav Hs. unfold subinit_fs.
  assert (E0 : xorb (have av) (have arity) = true) by (destruct Hav as [[-> ->]|[-> [-> _]]]; reflexivity). rewrite E0. cbn [true_except bind].
  assert (Eav : match av, arity with Some av, _ => av | None, Some arity => map Z.of_nat (range arity) | None, None => [] end = map Z.of_nat atoms).
  { destruct Hav as [[-> ->]|[-> [-> E]]]; [reflexivity | rewrite E at 2; reflexivity]. }
  destruct spots as [|s0 ss].
  { exists (set_constant false). destruct (set_constant_reduced false) as [R S]. split; [reflexivity|]. split; [exact R | exact S]. }
  set (spots := s0 :: ss) in *. change (map Z.of_nat spots) with (Z.of_nat s0 :: map Z.of_nat ss). cbv iota. cbv zeta. rewrite Eav.
  change (Z.of_nat s0 :: map Z.of_nat ss) with (map Z.of_nat spots).
  destruct atoms as [|a0 aa].
  { cbn [map]. assert (E : forallb (Z.eqb 0) (map Z.of_nat spots) = true).
    { apply forallb_forall. intros z Hz. apply in_map_iff in Hz as [s [<- Hz]]. apply Hs in Hz. cbn in Hz. replace s with 0 by lia. reflexivity. }
    rewrite E. cbn [true_except bind]. exists (set_constant true). destruct (set_constant_reduced true) as [R S]. split; [reflexivity|]. split; [exact R|].
    intro e. rewrite S. symmetry. apply memb_In. assert (Hz := Hs s0 (or_introl eq_refl)). cbn in Hz. left. cbn. lia. }
  set (atoms := a0 :: aa) in *. change (map Z.of_nat atoms) with (Z.of_nat a0 :: map Z.of_nat aa). cbv iota.
  change (Z.of_nat a0 :: map Z.of_nat aa) with (map Z.of_nat atoms). rewrite map_length.
  destruct (Binv_exposet_len spots (2 ^ length atoms) Hs) as [v [Ev [Lv Nv]]]. unfold Binv_exposet in Ev. rewrite Ev. cbn [bind].
  rewrite deflate_map. destruct (deflate_red v atoms Ha Lv) as [v' [l' [Ed [Rd [Td _]]]]]. rewrite Ed. cbn [bind fst snd].
  destruct (Boolf_vec_sorted v' l' (proj1 Rd) (proj1 (proj2 Rd))) as [f [Ef [Rf Sf]]]. exists f. split; [exact Ef|]. split; [exact Rf|].
  intro e. rewrite Sf, <- Td. unfold table. apply Nv.
Qed.

(** * Zhegalkin numbers *)

Lemma intval_to_arity_bound x : x < 2 ^ 2 ^ intval_to_arity x.
Proof.
  unfold intval_to_arity. destruct (Nat.ltb_spec x 2) as [H|H]; [exact H|].
  assert (H1 : Nat.log2 x < 2 ^ (Nat.log2 (Nat.log2 x) + 1)).
  { destruct (Nat.eq_dec (Nat.log2 x) 0) as [E|E]; [rewrite E; cbn; lia|]. rewrite Nat.add_1_r. apply Nat.log2_spec. lia. }
  apply (Nat.lt_le_trans _ (2 ^ S (Nat.log2 x))); [apply Nat.log2_spec; lia|]. apply Nat.pow_le_mono_r; lia.
Qed.

Lemma intval_to_arity_least x n : x < 2 ^ 2 ^ n -> intval_to_arity x <= n.
Proof.
  intro H. unfold intval_to_arity. destruct (Nat.ltb_spec x 2) as [Hx|Hx]; [lia|].
  assert (H1 : Nat.log2 x < 2 ^ n).
  { apply (proj1 (Nat.log2_lt_pow2 x (2 ^ n) ltac:(lia))). exact H. }
  assert (H2 : 0 < Nat.log2 x) by (apply Nat.log2_pos; lia).
  apply (proj1 (Nat.log2_lt_pow2 (Nat.log2 x) n H2)) in H1. lia.
Qed.

Lemma Boolf_int_spec t n : t < 2 ^ 2 ^ n ->
  exists f, Boolf_int t n = Ok f /\ reduced f /\ forall e, sem f e = Nat.testbit t (b2n (map e (range n))).
Proof.
  intro H. unfold Boolf_int, subinit_tt. assert (Hp := pow2_pos n).
  destruct (Binv_int_len t (2 ^ n) H) as [v [E [Ei El]]]; [lia|]. unfold Binv_intval in E. rewrite E. cbn [bind].
  destruct (Boolf_root_spec v n El) as [f [Ef [R S]]]. exists f. split; [exact Ef|]. split; [exact R|]. intro e. rewrite S. unfold table.
  rewrite binv_intval_eq in Ei. rewrite <- Ei at 1. rewrite testbit_b2n. reflexivity.
Qed.

Lemma Boolf_int_reject t n : 2 ^ 2 ^ n <= t -> Boolf_int t n = Err BinvLengthError.
Proof. intro H. unfold Boolf_int, subinit_tt. assert (E := Binv_int_reject t (2 ^ n) H). unfold Binv_intval in E. rewrite E. reflexivity. Qed.

Lemma place_bits (e : assignment) n a : a < n -> Nat.testbit (b2n (map e (range n))) a = e a.
Proof.
  intro H. rewrite testbit_b2n. rewrite (nth_indep _ false (e 0)) by (rewrite map_length, range_length; exact H). rewrite map_nth, nth_range by exact H. reflexivity.
Qed.

Lemma place_lt (e : assignment) n : b2n (map e (range n)) < 2 ^ n.
Proof. assert (H := b2n_lt (map e (range n))). rewrite map_length, range_length in H. exact H. Qed.

Lemma zhe_spec z : exists f, subinit_zhe (Z.of_nat z) = Ok f /\ reduced f /\ forall e, sem f e = zhegalkin z e.
Proof.
  unfold subinit_zhe. rewrite (proj2 (Z.leb_le 0 (Z.of_nat z)) (Nat2Z.is_nonneg z)). cbn [true_except bind]. rewrite Nat2Z.id.
  set (n := intval_to_arity z). assert (Hz := intval_to_arity_bound z). fold n in Hz.
  destruct (twin_int_spec z n Hz) as [t [Et [Ht Tt]]]. rewrite Et. cbn [bind].
  destruct (Boolf_int_spec t n Ht) as [f [Ef [R S]]]. exists f. split; [exact Ef|]. split; [exact R|]. intro e.
  rewrite S, Tt by apply place_lt. rewrite <- zhegalkin_anf by exact Hz. apply (zhegalkin_ext z n); [exact Hz|]. intros a Ha. apply place_bits. exact Ha.
Qed.

Lemma zhe_negative z : (z < 0)%Z -> subinit_zhe z = Err ArgValueError.
Proof. intro H. unfold subinit_zhe. rewrite (proj2 (Z.leb_gt 0 z) H). reflexivity. Qed.

(** * Termination *)

Definition ends {A} (r : res A) : Prop := r <> Err OutOfFuel.

Lemma ends_bind {A B} (m : res A) (k : A -> res B) : ends m -> (forall a, m = Ok a -> ends (k a)) -> ends (bind m k).
Proof. intros Hm Hk. destruct m as [a|e]; [apply Hk; reflexivity|]. intro E. apply Hm. injection E as ->. reflexivity. Qed.

Lemma ends_ok {A} (a : A) : ends (Ok a).
Proof. discriminate. Qed.

Lemma ends_guard {B} (c : bool) x (k : res B) : x <> OutOfFuel -> (c = true -> ends k) -> ends (guard c else x ;; k).
Proof. intros Hx Hk. destruct c; [apply Hk; reflexivity|]. intro E. apply Hx. injection E as <-. reflexivity. Qed.

Lemma ends_exists {A} (r : res A) (P : A -> Prop) : (exists a, r = Ok a /\ P a) -> ends r.
Proof. intros [a [-> _]]. discriminate. Qed.

Lemma foldM_ends {A S} (f : S -> A -> res S) l : (forall s x, ends (f s x)) -> forall s, ends (foldM f l s).
Proof. intro H. induction l as [|x l IH]; intro s; [discriminate|]. cbn [foldM]. apply ends_bind; [apply H | intros; apply IH]. Qed.

Lemma zmax_ends l : ends (zmax l).
Proof. destruct l; discriminate. Qed.
Lemma zset_ends {A} (l : list A) i x : ends (zset l i x).
Proof. unfold zset. repeat destruct (_ && _); discriminate. Qed.

Lemma Binv_ends v i s l m : ends (Binv v i s l m).
Proof.
  unfold Binv, Binv_with. destruct v as [v|], i as [i|], s as [s|]; try discriminate.
  - destruct l; [discriminate|]. apply ends_guard; [discriminate | intros; apply ends_ok].
  - apply ends_guard; [discriminate|]. intros _. cbv zeta. destruct l as [l|].
    + apply ends_guard; [discriminate | intros; apply ends_ok].
    + destruct m as [m|]; [apply ends_ok|]. destruct (Nat.eqb _ 0); apply ends_ok.
  - apply ends_bind; [|intros; apply foldM_ends; intros; apply zset_ends].
    destruct l as [l|].
    + destruct s; [apply ends_ok|]. apply ends_bind; [apply zmax_ends|]. intros. apply ends_guard; [discriminate | intros; apply ends_ok].
    + destruct m as [m|].
      * apply ends_bind; [apply zmax_ends | intros; apply ends_ok].
      * destruct s; [apply ends_ok|]. apply ends_bind; [apply zmax_ends | intros; apply ends_ok].
Qed.

Lemma tt_start_ends v av sd : ends (tt_start v av sd).
Proof.
  unfold tt_start. cbv zeta. apply ends_bind.
  - destruct av; [|apply ends_ok]. apply ends_guard; [discriminate|]. intros _. apply ends_guard; [discriminate | intros; apply ends_ok].
  - intros [] Ea. apply ends_guard; [discriminate|]. intros _. destruct (_ && _); [apply ends_ok|]. destruct av as [av|].
    + apply ends_bind; [destruct av; discriminate|]. intros m _. apply ends_guard; [discriminate|]. intros _.
      apply ends_bind; [|intros; apply ends_ok]. apply guard_inv in Ea as [_ Ea]. apply guard_inv in Ea as [Hl _]. apply Nat.eqb_eq in Hl.
      destruct (reorder_spec transpose_inv v (map Z.to_nat av) (or_intror eq_refl)) as [r [_ [_ [_ [Hasc Hother]]]]]; [rewrite map_length; exact Hl|].
      unfold reorder_if_atomvals_not_asc.
      destruct (list_eq_dec Nat.eq_dec (map Z.to_nat av) (sort_nat (map Z.to_nat av))) as [Es|Es].
      * rewrite (Hasc Es). apply ends_ok.
      * destruct (Hother Es) as [v' [E _]]. rewrite E. apply ends_ok.
    + apply ends_bind; [|intros; apply ends_ok]. unfold log_int. apply ends_guard; [discriminate|]. intros _. apply ends_guard; [discriminate | intros; apply ends_ok].
Qed.

Lemma tt_deflated_ends v av : ends (tt_deflated v av).
Proof.
  unfold tt_deflated. apply ends_bind; [apply tt_start_ends|]. intros [c|[b a]] Es; [apply ends_ok|].
  destruct (tt_start_inr _ _ _ _ _ Es) as [_ [Hb _]]. destruct (deflate_spec b a Hb) as [v' [l' [E _]]]. rewrite E. cbn [bind].
  apply ends_guard; [discriminate | intros; apply ends_ok].
Qed.

Lemma tt_inflated_ends v av : ends (tt_inflated v av).
Proof.
  unfold tt_inflated. apply ends_bind; [apply tt_start_ends|]. intros [c|[b a]] Es; [apply ends_ok|].
  apply ends_guard; [discriminate|]. intros _. apply ends_bind; [apply tt_deflated_ends | intros; apply ends_ok].
Qed.

Lemma subinit_tt_ends t av arity sd : ends (subinit_tt t av arity sd).
Proof.
  assert (G : forall m : res (list bool), ends m -> ends (let* binv := m in if sd then tt_inflated binv av else tt_deflated binv av)).
  { intros m Hm. apply ends_bind; [exact Hm|]. intros b _. destruct sd; [apply tt_inflated_ends | apply tt_deflated_ends]. }
  unfold subinit_tt. destruct t as [b|v|n].
  - destruct av, arity, sd; discriminate.
  - apply G. destruct arity; [discriminate | apply Binv_ends].
  - apply G. destruct arity; [apply Binv_ends | discriminate].
Qed.

Lemma Binv_len v i s l m b : Binv v i s (Some l) m = Ok b -> v = None -> i = None -> length b = l.
Proof.
  intros E -> ->. unfold Binv, Binv_with in E. destruct s as [s|]; [|discriminate E]. apply bind_inv in E as [z [Ez E]].
  assert (Hz : z = Z.of_nat l).
  { destruct s; [injection Ez as <-; reflexivity|]. apply bind_inv in Ez as [m' [_ Ez]]. apply guard_inv in Ez as [_ Ez]. injection Ez as <-. reflexivity. }
  rewrite Hz, Nat2Z.id in E. clear Ez Hz.
  assert (G : forall s v, foldM (fun v i => zset v i true) s v = Ok b -> length b = length v).
  { clear. induction s as [|x s IH]; intros v E; [injection E as <-; reflexivity|]. cbn [foldM] in E. apply bind_inv in E as [w [Ew E]].
    rewrite (IH _ E). unfold zset in Ew. destruct (_ && _); [injection Ew as <-; apply lset_length|]. destruct (_ && _); [injection Ew as <-; apply lset_length | discriminate Ew]. }
  rewrite (G _ _ E). apply repeat_length.
Qed.

Lemma subinit_fs_ends s av arity sd : ends (subinit_fs s av arity sd).
Proof.
  unfold subinit_fs. apply ends_guard; [discriminate|]. intros _. destruct s as [|s0 ss]; [apply ends_ok|]. cbv zeta.
  set (l := match av with Some _ => _ | None => _ end). destruct l as [|a0 aa].
  - apply ends_guard; [discriminate | intros; apply ends_ok].
  - apply ends_bind; [apply Binv_ends|]. intros b Eb. destruct sd; [apply tt_inflated_ends|].
    destruct (deflate_spec b (a0 :: aa) (Binv_len _ _ _ _ _ _ Eb eq_refl eq_refl)) as [v' [l' [E _]]]. rewrite E. cbn [bind]. apply tt_deflated_ends.
Qed.

Lemma multi_cases a : (forall x, In x (entries a) -> entry_ok x) ->
  (subinit_multi a = Err ArgComboError) \/ exists f, subinit_multi a = Ok f /\ reduced f.
Proof.
  intro H. unfold subinit_multi. unfold entries in H.
  assert (G : forall op bop start l, (forall f g, fitting f -> fitting g -> exists h, op f g = Ok h /\ reduced h /\ forall e, sem h e = bop (sem f e) (sem g e)) ->
    (forall x, In x l -> entry_ok x) -> exists f, multi_fold op start l = Ok f /\ reduced f).
  { intros op bop start l Hop Hl. destruct (multi_spec op bop start l Hop Hl) as [f [E [R _]]]. exists f. auto. }
  destruct (a_mu_a a) as [l1|], (a_mu_o a) as [l2|], (a_mu_xo a) as [l3|], (a_mu_xa a) as [l4|]; try (left; reflexivity); right.
  - apply (G _ andb); [apply (bitwise_spec andb) | intros x Hx; apply H; rewrite !in_app_iff; auto].
  - apply (G _ orb); [apply (bitwise_spec orb) | intros x Hx; apply H; rewrite !in_app_iff; auto].
  - apply (G _ xorb); [apply (bitwise_spec xorb) | intros x Hx; apply H; rewrite !in_app_iff; auto].
  - apply (G _ (fun p q => xorb p (negb q))); [apply xand_spec | intros x Hx; apply H; rewrite !in_app_iff; auto].
Qed.

(** * The rounds of the constructor *)

Lemma akey_eqb_eq a b : akey_eqb a b = true <-> a = b.
Proof. destruct a, b; cbn; split; (discriminate || reflexivity). Qed.

Lemma all_keys_In k : In k all_keys.
Proof. destruct k; cbn; tauto. Qed.

Lemma bouncer_spec a req opt : subinit_bouncer a req opt = true <-> (forall k, In k req -> present a k = true) /\ only a (req ++ opt).
Proof.
  unfold subinit_bouncer, only. rewrite andb_true_iff, !forallb_forall. split; intros [H1 H2]; (split; [exact H1|]).
  - intros k Hk. specialize (H2 k (all_keys_In k)). rewrite Hk in H2. cbn [negb] in H2. rewrite orb_false_r in H2.
    apply existsb_exists in H2 as [k' [Hk' E]]. apply akey_eqb_eq in E as ->. exact Hk'.
  - intros k _. destruct (present a k) eqn:E; [|apply orb_true_r]. apply orb_true_iff. left. apply existsb_exists. exists k.
    split; [apply H2; exact E | apply akey_eqb_eq; reflexivity].
Qed.

Lemma bouncer_one a k opt : subinit_bouncer a [k] opt = true <-> only a (k :: opt) /\ present a k = true.
Proof.
  rewrite bouncer_spec. cbn [app]. split; intros [H1 H2].
  - split; [exact H2 | apply H1; left; reflexivity].
  - split; [intros x [<- | []]; exact H2 | exact H1].
Qed.

Lemma bouncer_none a opt : subinit_bouncer a [] opt = true <-> only a opt.
Proof. rewrite bouncer_spec. cbn [app]. split; [tauto|]. intro H. split; [intros k [] | exact H]. Qed.

Lemma round_none a : boolf_round a = Ok None <-> ~ supported a.
Proof.
  unfold boolf_round, supported. rewrite <- !bouncer_one, <- bouncer_none.
  assert (N : forall m : res boolf, (let* f := m in Ok (Some f)) <> Ok None) by (intros [f|e]; discriminate).
  destruct (subinit_bouncer a [K_atom] []); [split; [destruct (a_atom a); discriminate | intro H; exfalso; apply H; auto]|].
  destruct (subinit_bouncer a [K_tt] [K_av; K_arity]); [split; [destruct (a_tt a); [intro C; apply N in C; destruct C | discriminate] | intro H; exfalso; apply H; auto]|].
  destruct (subinit_bouncer a [K_fs] [K_av; K_arity]); [split; [destruct (a_fs a); [intro C; apply N in C; destruct C | discriminate] | intro H; exfalso; apply H; auto]|].
  destruct (subinit_bouncer a [K_zhe] []); [split; [destruct (a_zhe a); [intro C; apply N in C; destruct C | discriminate] | intro H; exfalso; apply H; auto 6]|].
  destruct (subinit_bouncer a [K_ws] []); [split; [destruct (a_ws a); [intro C; apply N in C; destruct C | discriminate] | intro H; exfalso; apply H; auto 7]|].
  destruct (subinit_bouncer a [] [K_mu_a; K_mu_o; K_mu_xo; K_mu_xa]); [split; [intro C; apply N in C; destruct C | intro H; exfalso; apply H; auto 7]|].
  split; [|reflexivity]. intros _ H. intuition discriminate.
Qed.

Lemma hangs a : ~ supported a -> forall n, Boolf n a = Err OutOfFuel.
Proof.
  intros H n. apply round_none in H. induction n as [|n IH]; [reflexivity|]. cbn [Boolf]. rewrite H. cbn [bind]. exact IH.
Qed.

Lemma one_round a n : supported a -> Boolf (S n) a = Boolf 1 a.
Proof.
  intro H. cbn [Boolf]. destruct (boolf_round a) as [[f|]|e] eqn:E; try reflexivity. apply round_none in E. contradiction.
Qed.

Lemma zhe_ends z : ends (subinit_zhe z).
Proof.
  destruct (Z.lt_ge_cases z 0) as [H|H]; [rewrite zhe_negative by exact H; discriminate|].
  rewrite <- (Z2Nat.id z) by exact H. apply ends_exists with (P := fun f => reduced f /\ forall e, sem f e = zhegalkin (Z.to_nat z) e), zhe_spec.
Qed.

Lemma ws_ends w sd : ends (subinit_ws w sd).
Proof. unfold subinit_ws. cbv zeta. apply ends_guard; [discriminate | intros; apply subinit_tt_ends]. Qed.

Lemma Boolf_ends a n : supported a -> (forall x, In x (entries a) -> entry_ok x) -> ends (Boolf (S n) a).
Proof.
  intros H He. rewrite one_round by exact H. cbn [Boolf].
  assert (G : ends (boolf_round a)).
  { unfold boolf_round.
    destruct (subinit_bouncer a [K_atom] []); [destruct (a_atom a); discriminate|].
    destruct (subinit_bouncer a [K_tt] [K_av; K_arity]); [destruct (a_tt a); [apply ends_bind; [apply subinit_tt_ends | intros; apply ends_ok] | discriminate]|].
    destruct (subinit_bouncer a [K_fs] [K_av; K_arity]); [destruct (a_fs a); [apply ends_bind; [apply subinit_fs_ends | intros; apply ends_ok] | discriminate]|].
    destruct (subinit_bouncer a [K_zhe] []); [destruct (a_zhe a); [apply ends_bind; [apply zhe_ends | intros; apply ends_ok] | discriminate]|].
    destruct (subinit_bouncer a [K_ws] []); [destruct (a_ws a); [apply ends_bind; [apply ws_ends | intros; apply ends_ok] | discriminate]|].
    destruct (subinit_bouncer a [] [K_mu_a; K_mu_o; K_mu_xo; K_mu_xa]); [|discriminate].
    apply ends_bind; [|intros; apply ends_ok]. destruct (multi_cases a He) as [-> | [f [-> _]]]; discriminate. }
  destruct (boolf_round a) as [[f|]|e] eqn:E; [discriminate | apply round_none in E; contradiction |].
  intro C. apply G. injection C as ->. reflexivity.
Qed.

(** * Every object is well-formed *)

Lemma Boolf_inv n a f : Boolf n a = Ok f -> boolf_round a = Ok (Some f).
Proof.
  induction n as [|n IH]; [discriminate|]. cbn [Boolf]. intro H. apply bind_inv in H as [[g|] [E H]]; [injection H as <-; exact E | apply IH; exact H].
Qed.

Lemma subinit_tt_made t av arity sd f : subinit_tt t av arity sd = Ok f -> wellmade f /\ (sd = false -> reduced f).
Proof.
  assert (G : forall m : res (list bool), (let* binv := m in if sd then tt_inflated binv av else tt_deflated binv av) = Ok f -> wellmade f /\ (sd = false -> reduced f)).
  { intros m H. apply bind_inv in H as [b [_ H]]. destruct sd.
    - split; [apply (tt_inflated_wellmade _ _ _ H) | discriminate].
    - assert (R := tt_deflated_reduced _ _ _ H). split; [apply reduced_wellmade; exact R | intros _; exact R]. }
  unfold subinit_tt. destruct t as [b|v|n]; [|apply G..].
  destruct av, arity, sd; try discriminate. intro H. injection H as <-. destruct (set_constant_reduced b) as [R _]. split; [apply reduced_wellmade; exact R | auto].
Qed.

Lemma subinit_fs_made s av arity sd f : subinit_fs s av arity sd = Ok f -> wellmade f /\ (sd = false -> reduced f).
Proof.
  unfold subinit_fs. intro H. apply guard_inv in H as [_ H]. destruct s as [|s0 ss].
  { injection H as <-. destruct (set_constant_reduced false) as [R _]. split; [apply reduced_wellmade; exact R | auto]. }
  cbv zeta in H. set (l := match av with Some _ => _ | None => _ end) in H. destruct l as [|a0 aa].
  - apply guard_inv in H as [_ H]. injection H as <-. destruct (set_constant_reduced true) as [R _]. split; [apply reduced_wellmade; exact R | auto].
  - apply bind_inv in H as [b [_ H]]. destruct sd.
    + split; [apply (tt_inflated_wellmade _ _ _ H) | discriminate].
    + apply bind_inv in H as [ba [_ H]]. assert (R := tt_deflated_reduced _ _ _ H). split; [apply reduced_wellmade; exact R | auto].
Qed.

Lemma round_made a f : boolf_round a = Ok (Some f) -> (forall x, In x (entries a) -> entry_ok x) -> wellmade f /\ (a_sd a = false -> reduced f).
Proof.
  intros H He.
  assert (Rd : forall g, reduced g -> wellmade g /\ (a_sd a = false -> reduced g)) by (intros g R; split; [apply reduced_wellmade; exact R | auto]).
  assert (Hm : forall m : res boolf, (let* f := m in Ok (Some f)) = Ok (Some f) -> m = Ok f) by (intros [g|e] E; [injection E as <-; reflexivity | discriminate E]).
  unfold boolf_round in H.
  destruct (subinit_bouncer a [K_atom] []); [destruct (a_atom a); [injection H as <-; apply Rd, set_unary_spec | discriminate H]|].
  destruct (subinit_bouncer a [K_tt] [K_av; K_arity]); [destruct (a_tt a); [apply Hm, subinit_tt_made in H; exact H | discriminate H]|].
  destruct (subinit_bouncer a [K_fs] [K_av; K_arity]); [destruct (a_fs a); [apply Hm, subinit_fs_made in H; exact H | discriminate H]|].
  destruct (subinit_bouncer a [K_zhe] []).
  { destruct (a_zhe a) as [z|]; [|discriminate H]. apply Hm in H. apply Rd. destruct (Z.lt_ge_cases z 0) as [Hz|Hz]; [rewrite zhe_negative in H by exact Hz; discriminate H|].
    rewrite <- (Z2Nat.id z) in H by exact Hz. destruct (zhe_spec (Z.to_nat z)) as [g [E [R _]]]. rewrite E in H. injection H as <-. exact R. }
  destruct (subinit_bouncer a [K_ws] []).
  { destruct (a_ws a); [|discriminate H]. apply Hm in H. unfold subinit_ws in H. cbv zeta in H. apply guard_inv in H as [_ H]. apply subinit_tt_made in H. exact H. }
  destruct (subinit_bouncer a [] [K_mu_a; K_mu_o; K_mu_xo; K_mu_xa]); [|discriminate H].
  apply Hm in H. apply Rd. destruct (multi_cases a He) as [E | [g [E R]]]; rewrite E in H; [discriminate H|]. injection H as <-. exact R.
Qed.

Lemma made_wellmade i f : made i f -> wellmade f /\ (i = false -> reduced f).
Proof.
  induction 1 as [n a f Hi Hg IH H]. apply Boolf_inv in H. apply round_made in H.
  - destruct H as [H1 H2]. split; [exact H1|]. intro E. apply H2. destruct (a_sd a); [rewrite Hi in E by reflexivity; discriminate E | reflexivity].
  - intros [z|g] Hx; [exact I|]. apply (proj1 (IH g Hx)).
Qed.

Definition no_args : bargs := mkArgs None None None None None None None None None None None false.
Definition table_args (v : list bool) (av : list nat) : bargs :=
  mkArgs (Some (TtVector (map (fun b : bool => if b then 1%Z else 0%Z) v))) (Some (map Z.of_nat av)) None None None None None None None None None false.

Lemma Boolf_table_args n v av : Boolf (S n) (table_args v av) = Boolf_vec v av.
Proof.
  rewrite one_round.
  - cbn [Boolf]. unfold boolf_round. cbn [table_args subinit_bouncer present a_tt a_av a_atom a_arity a_fs a_mu_a a_mu_o a_mu_xo a_mu_xa a_zhe a_ws a_sd have forallb
      existsb akey_eqb all_keys app andb orb negb].
    unfold subinit_tt. rewrite Binv_vector_bool. cbn [bind]. unfold Boolf_vec. destruct (tt_deflated v _); reflexivity.
  - right. left. split; [|reflexivity]. intros [] H; cbn in *; try discriminate H; tauto.
Qed.

(** every well-formed object without redundant atoms is returned by the constructor *)
Lemma reduced_made f : reduced f -> made false f.
Proof.
  intro R. apply (made_by false 1 (table_args (root f) (atomvals f))); [discriminate | intros g [] |]. rewrite Boolf_table_args.
  destruct (Boolf_vec_sorted (root f) (atomvals f) (proj1 (proj1 R)) (proj2 (proj1 R))) as [g [E [Rg S]]]. rewrite E. f_equal.
  apply reduced_unique; [exact Rg | exact R | exact S].
Qed.
