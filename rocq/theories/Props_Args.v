(** Props_Args: property C27, continued (the arguments of the constructor of Boolf, with and without deflation);
    property C88 (the generators of tables). *)

From Coq Require Import List Arith ZArith Bool Lia Permutation Sorted.
From Verif Require Import Model_Base Lib Model_Binary Model_WalshPerm Model_Boolf Model_Twin Spec_Bits Spec_SigPerm Spec_Boolf Proof_Binary Proof_Boolf Proof_Reorder Proof_BoolfMake Proof_Twin Proof_FissionMore Proof_Misc Props_Boolf.
Import ListNotations.
Open Scope nat_scope.
Open Scope bool_scope.

Definition bit_entries (v : list bool) : list Z := map (fun b : bool => if b then 1%Z else 0%Z) v.
Definition true_places (v : list bool) : list nat := filter (fun k => nth k v false) (seq 0 (length v)).

Lemma round_tt v av ar sd : Boolf 1 (mkArgs (Some (TtVector v)) av None ar None None None None None None None sd) =
  subinit_tt (TtVector v) av ar sd.
Proof.
  cbn [Boolf]. unfold boolf_round. cbn [subinit_bouncer present a_tt a_av a_atom a_arity a_fs a_mu_a a_mu_o a_mu_xo a_mu_xa a_zhe a_ws a_sd have forallb existsb akey_eqb all_keys app andb orb negb].
  destruct av, ar; cbn [have forallb existsb akey_eqb app andb orb negb filter all_keys]; destruct (subinit_tt _ _ _ sd); reflexivity.
Qed.
Lemma round_int n av ar sd : Boolf 1 (mkArgs (Some (TtInt n)) av None ar None None None None None None None sd) = subinit_tt (TtInt n) av ar sd.
Proof.
  cbn [Boolf]. unfold boolf_round. cbn [subinit_bouncer present a_tt a_av a_atom a_arity a_fs a_mu_a a_mu_o a_mu_xo a_mu_xa a_zhe a_ws a_sd have forallb existsb akey_eqb all_keys app andb orb negb].
  destruct av, ar; cbn [have forallb existsb akey_eqb app andb orb negb filter all_keys]; destruct (subinit_tt _ _ _ sd); reflexivity.
Qed.
Lemma round_fs s av ar sd : Boolf 1 (mkArgs None av None ar (Some s) None None None None None None sd) = subinit_fs s av ar sd.
Proof.
  cbn [Boolf]. unfold boolf_round. cbn [subinit_bouncer present a_tt a_av a_atom a_arity a_fs a_mu_a a_mu_o a_mu_xo a_mu_xa a_zhe a_ws a_sd have forallb existsb akey_eqb all_keys app andb orb negb].
  destruct av, ar; cbn [have forallb existsb akey_eqb app andb orb negb filter all_keys]; destruct (subinit_fs _ _ _ sd); reflexivity.
Qed.
Lemma true_places_In v k : In k (true_places v) <-> nth k v false = true.
Proof.
  unfold true_places. rewrite filter_In, in_seq. split; [tauto|]. intro H. split; [|exact H]. destruct (Nat.lt_ge_cases k (length v)); [lia|]. rewrite nth_overflow in H by lia. discriminate.
Qed.

(** A table with atoms, the true places with atoms, a table alone, a number with an arity, the true places with an
    arity, and a list of literals give the same object, which stands for the table. *)
Theorem C27_arguments : forall v av, ascending av -> length v = 2 ^ length av ->
  exists f, made false f /\ (forall e, sem f e = table v av e) /\
    Boolf 1 (mkArgs (Some (TtVector (bit_entries v))) (Some (map Z.of_nat av)) None None None None None None None None None false) = Ok f /\
    Boolf 1 (mkArgs None (Some (map Z.of_nat av)) None None (Some (map Z.of_nat (true_places v))) None None None None None None false) = Ok f /\
    (av = seq 0 (length av) ->
      Boolf 1 (mkArgs (Some (TtVector (bit_entries v))) None None None None None None None None None None false) = Ok f /\
      Boolf 1 (mkArgs (Some (TtInt (Z.of_nat (b2n v)))) None None (Some (length av)) None None None None None None None false) = Ok f /\
      Boolf 1 (mkArgs None None None (Some (length av)) (Some (map Z.of_nat (true_places v))) None None None None None None false) = Ok f).
Proof.
  intros v av Ha Hv. destruct (Boolf_vec_sorted v av Ha Hv) as (f & E & R & S). exists f. split; [apply reduced_made; exact R|]. split; [exact S|].
  assert (T : forall e, memb (b2n (map e av)) (true_places v) = table v av e).
  { intro e. apply Proof_Twin.bool_iff. rewrite memb_In, true_places_In. reflexivity. }
  assert (B : forall s, In s (true_places v) -> s < 2 ^ length av).
  { intros s Hs. unfold true_places in Hs. apply filter_In in Hs as (Hs & _). apply in_seq in Hs. lia. }
  split; [rewrite round_tt; unfold subinit_tt, bit_entries; rewrite Binv_vector_bool; exact E|]. split.
  { rewrite round_fs. destruct (fs_spec (true_places v) av _ _ Ha (or_introl (conj eq_refl eq_refl)) B) as (g & Eg & Rg & Sg). rewrite Eg. f_equal.
    apply reduced_unique; [exact Rg|exact R|]. intro e. rewrite Sg, S. apply T. }
  intro Eav. split; [|split].
  - rewrite round_tt. unfold subinit_tt, bit_entries. rewrite Binv_vector_bool. destruct (Boolf_root_spec v _ Hv) as (g & Eg & Rg & Sg). unfold Boolf_root in Eg. cbn [bind]. rewrite Eg. f_equal.
    apply reduced_unique; [exact Rg|exact R|]. intro e. rewrite Sg, S. unfold range. rewrite <- Eav. reflexivity.
  - rewrite round_int. assert (L : b2n v < 2 ^ 2 ^ length av) by (rewrite <- Hv; apply b2n_lt). destruct (Boolf_int_spec (b2n v) (length av) L) as (g & Eg & Rg & Sg).
    unfold Boolf_int in Eg. rewrite Eg. f_equal. apply reduced_unique; [exact Rg|exact R|]. intro e. rewrite Sg, S, testbit_b2n. unfold range. rewrite <- Eav. reflexivity.
  - rewrite round_fs. destruct (fs_spec (true_places v) av None (Some (length av)) Ha) as (g & Eg & Rg & Sg).
    + right. split; [reflexivity|]. split; [reflexivity|]. exact Eav.
    + exact B.
    + rewrite Eg. f_equal. apply reduced_unique; [exact Rg|exact R|]. intro e. rewrite Sg, S. apply T.
Qed.
Print Assumptions C27_arguments.

Lemma inflated_ok v av : ascending av -> av <> [] -> length v = 2 ^ length av -> exists g, tt_inflated v (Some (map Z.of_nat av)) = Ok g /\ root g = v /\ atomvals g = av.
Proof.
  intros Ha Hn Hv. unfold tt_inflated. assert (Hne := pow_length_nonempty v _ Hv). assert (Nd := sorted_lt_NoDup _ Ha).
  assert (Hav : zunique (map Z.of_nat av) = true /\ length v = 2 ^ length (map Z.of_nat av)) by (rewrite map_length; split; [apply zunique_of_nat; exact Nd | exact Hv]).
  rewrite (tt_start_other v (Some _) true Hne (or_introl eq_refl) Hav). assert (Hne2 : map Z.of_nat av <> []) by (destruct av; [congruence|discriminate]).
  destruct (zmin_spec _ Hne2) as [m [Em [Him _]]]. rewrite Em. cbn [bind].
  apply in_map_iff in Him as [m' [<- _]]. rewrite (proj2 (Z.leb_le 0 (Z.of_nat m')) (Nat2Z.is_nonneg m')). cbn [true_except bind].
  rewrite map_to_of. unfold reorder_if_atomvals_not_asc. destruct (reorder_spec transpose_inv v av (or_intror eq_refl) Hv) as [r [_ [_ [_ [Hasc _]]]]].
  rewrite Hasc by (symmetry; apply sort_nat_id, sorted_lt_le; exact Ha). cbn [bind]. destruct av as [|a av]; [congruence|]. cbn [nonempty true_except bind].
  destruct (Boolf_root_spec v _ Hv) as (g & Eg & _). unfold Boolf_root in Eg. rewrite Eg. cbn [bind]. eexists. split; [reflexivity|]. split; reflexivity.
Qed.
Lemma inflated_root v n : n <> 0 -> length v = 2 ^ n -> tt_inflated v None = tt_inflated v (Some (map Z.of_nat (seq 0 n))).
Proof.
  intros Hn Hv. assert (Hne := pow_length_nonempty v _ Hv). assert (A : ascending (range n)) by apply range_ascending.
  destruct (inflated_ok v (range n) A) as (g & E & _); [destruct n; [congruence|discriminate]|rewrite range_length; exact Hv|].
  unfold tt_inflated in *. rewrite (tt_start_other v None true Hne (or_introl eq_refl) I). rewrite Hv, log_int_pow. cbn [bind].
  assert (Hav : zunique (map Z.of_nat (range n)) = true /\ length v = 2 ^ length (map Z.of_nat (range n))) by (rewrite map_length, range_length; split; [apply zunique_of_nat, sorted_lt_NoDup; exact A | exact Hv]).
  change (seq 0 n) with (range n). rewrite (tt_start_other v (Some _) true Hne (or_introl eq_refl) Hav). assert (Hne2 : map Z.of_nat (range n) <> []) by (destruct n; [congruence|discriminate]).
  destruct (zmin_spec _ Hne2) as [m [Em [Him _]]]. rewrite Em. cbn [bind].
  apply in_map_iff in Him as [m' [<- _]]. rewrite (proj2 (Z.leb_le 0 (Z.of_nat m')) (Nat2Z.is_nonneg m')). cbn [true_except bind].
  rewrite map_to_of. unfold reorder_if_atomvals_not_asc. destruct (reorder_spec transpose_inv v (range n) (or_intror eq_refl)) as [r [_ [_ [_ [Hasc _]]]]]; [rewrite range_length; exact Hv|].
  rewrite Hasc by (symmetry; apply sort_nat_id, sorted_lt_le; exact A). reflexivity.
Qed.

(** With skip_deflation the table and the atoms are kept as they are. *)
Theorem C27_skip_deflation : forall v av, ascending av -> av <> [] -> length v = 2 ^ length av ->
  exists f, made true f /\ root f = v /\ atomvals f = av /\
    Boolf 1 (mkArgs (Some (TtVector (bit_entries v))) (Some (map Z.of_nat av)) None None None None None None None None None true) = Ok f /\
    (In true v -> Boolf 1 (mkArgs None (Some (map Z.of_nat av)) None None (Some (map Z.of_nat (true_places v))) None None None None None None true) = Ok f) /\
    (av = seq 0 (length av) ->
      Boolf 1 (mkArgs (Some (TtVector (bit_entries v))) None None None None None None None None None None true) = Ok f /\
      Boolf 1 (mkArgs (Some (TtInt (Z.of_nat (b2n v)))) None None (Some (length av)) None None None None None None None true) = Ok f /\
      (In true v -> Boolf 1 (mkArgs None None None (Some (length av)) (Some (map Z.of_nat (true_places v))) None None None None None None true) = Ok f)).
Proof.
  intros v av Ha Hn Hv. destruct (inflated_ok v av Ha Hn Hv) as (f & E & Rf & Af). exists f.
  assert (X : Boolf 1 (mkArgs (Some (TtVector (bit_entries v))) (Some (map Z.of_nat av)) None None None None None None None None None true) = Ok f).
  { rewrite round_tt. unfold subinit_tt, bit_entries. rewrite Binv_vector_bool. exact E. }
  split; [apply (made_by true 1 _ f) in X; [exact X|reflexivity|intros g []]|]. split; [exact Rf|]. split; [exact Af|]. split; [exact X|].
  assert (P : In true v -> Binv None None (Some (map Z.of_nat (true_places v))) (Some (2 ^ length av)) None = Ok v /\ true_places v <> []).
  { intro Ht. destruct (Binv_exposet_len (true_places v) (2 ^ length av)) as (w & Ew & Lw & Hw).
    - intros s Hs. unfold true_places in Hs. apply filter_In in Hs as (Hs & _). apply in_seq in Hs. lia.
    - unfold Binv_exposet in Ew. rewrite Ew. split.
      + f_equal. apply (nth_ext _ _ false false); [congruence|]. intros k _. rewrite Hw. apply Proof_Twin.bool_iff. rewrite memb_In. apply true_places_In.
      + apply (In_nth v true false) in Ht as (k & _ & Hk). apply true_places_In in Hk. intro C. rewrite C in Hk. destruct Hk. }
  split; [|intro Eav; split; [|split]].
  - intro Ht. destruct (P Ht) as (Eb & Np). rewrite round_fs. unfold subinit_fs. cbn [have xorb true_except]. destruct (map Z.of_nat (true_places v)) as [|z l] eqn:Ez; [apply map_eq_nil in Ez; contradiction|].
    destruct (map Z.of_nat av) as [|y m] eqn:Ey; [apply map_eq_nil in Ey; contradiction|]. rewrite <- Ey, map_length. cbn [bind] in *. rewrite Eb. cbn [bind]. rewrite Ey. exact E.
  - rewrite round_tt. unfold subinit_tt, bit_entries. rewrite Binv_vector_bool. cbn [bind]. rewrite (inflated_root v (length av)); [rewrite <- Eav; exact E|destruct av; [congruence|discriminate]|exact Hv].
  - rewrite round_int. unfold subinit_tt. assert (L : b2n v < 2 ^ 2 ^ length av) by (rewrite <- Hv; apply b2n_lt). assert (Hp : 2 ^ length av <> 0) by (apply Nat.pow_nonzero; lia).
    destruct (Binv_int_len (b2n v) (2 ^ length av) L) as (w & Ew & Ei & El); [exact Hp|]. unfold Binv_intval in Ew. rewrite Ew. cbn [bind].
    assert (w = v) as -> by (apply (nth_ext _ _ false false); [congruence|]; intros k _; rewrite <- !testbit_b2n; rewrite binv_intval_eq in Ei; rewrite Ei; reflexivity).
    rewrite (inflated_root v (length av)); [rewrite <- Eav; exact E|destruct av; [congruence|discriminate]|exact Hv].
  - intro Ht. destruct (P Ht) as (Eb & Np). rewrite round_fs. unfold subinit_fs. cbn [have xorb true_except]. destruct (map Z.of_nat (true_places v)) as [|z l] eqn:Ez; [apply map_eq_nil in Ez; contradiction|].
    change (range (length av)) with (seq 0 (length av)). rewrite <- Eav. destruct (map Z.of_nat av) as [|y m] eqn:Ey; [apply map_eq_nil in Ey; contradiction|]. rewrite <- Ey, map_length. cbn [bind] in *. rewrite Eb. cbn [bind]. rewrite Ey. exact E.
Qed.
Print Assumptions C27_skip_deflation.

(** A negative literal z stands for the negation of atom -z-1; the object is the one with a table of two places. *)
Theorem C27_atom_argument : forall z, exists f, made false f /\
  Boolf 1 (mkArgs None None (Some z) None None None None None None None None false) = Ok f /\
  atomvals f = [if (z <? 0)%Z then Z.to_nat (- z - 1) else Z.to_nat z] /\
  forall e, sem f e = if (z <? 0)%Z then negb (e (Z.to_nat (- z - 1))) else e (Z.to_nat z).
Proof.
  intro z. destruct (set_unary_spec z) as (R & S). exists (set_unary z). split; [apply reduced_made; exact R|]. split; [reflexivity|].
  assert (A : atom z = if (z <? 0)%Z then Z.to_nat (- z - 1) else Z.to_nat z) by (unfold atom, neg; destruct (Z.ltb_spec z 0); f_equal; lia).
  rewrite <- A. split.
  - unfold set_unary, atom, neg. destruct (Z.ltb_spec z 0); cbn [atomvals]; f_equal; lia.
  - intro e. rewrite S. unfold litval, negated. rewrite A. destruct (z <? 0)%Z; destruct (e _); reflexivity.
Qed.
Print Assumptions C27_atom_argument.

(** * C88: the generators of tables *)
Definition number_true (i : nat) (l : list nat) : nat := length (filter (fun a => Nat.testbit i a) l).
Definition number_false (i : nat) (l : list nat) : nat := length (filter (fun a => negb (Nat.testbit i a)) l).
(** the words as conditions on the numbers of true and false atoms *)
Definition word_holds (o : operator) (i : nat) (l : list nat) : Prop :=
  match o with
  | AND => number_false i l = 0
  | OR => number_true i l <> 0
  | XAND => Nat.Even (number_false i l)
  | XOR => Nat.Odd (number_true i l)
  | EQ => l <> [] /\ (number_true i l = 0 \/ number_false i l = 0)
  | SAND => number_false i l = 1
  | GAND => number_false i l = 0 \/ number_false i l = 1
  | ESAND => number_false i l = 1 \/ number_false i l = 0 /\ Nat.Even (length l)
  | OSAND => number_false i l = 1 \/ number_false i l = 0 /\ Nat.Odd (length l)
  end.

Lemma number_sum i l : number_true i l + number_false i l = length l.
Proof. unfold number_true, number_false. induction l as [|a l IH]; [reflexivity|]. cbn [filter length]. destruct (Nat.testbit i a); cbn [negb length]; lia. Qed.
Lemma bsum_bits i l : bsum (map (Nat.testbit i) l) = number_true i l.
Proof.
  unfold number_true. induction l as [|a l IH]; [reflexivity|]. cbn [map filter]. unfold bsum in *. cbn [map]. change (list_sum_nat (Nat.b2n (Nat.testbit i a) :: map Nat.b2n (map (Nat.testbit i) l))) with (Nat.b2n (Nat.testbit i a) + list_sum_nat (map Nat.b2n (map (Nat.testbit i) l))).
  rewrite IH. destruct (Nat.testbit i a); reflexivity.
Qed.
Lemma g_and_bits i l : g_and (map (Nat.testbit i) l) = true <-> number_false i l = 0.
Proof. unfold g_and, number_false. induction l as [|a l IH]; [cbn; tauto|]. cbn [map forallb filter]. destruct (Nat.testbit i a); cbn [negb andb length]; [exact IH | split; [discriminate|lia]]. Qed.
Lemma g_or_bits i l : g_or (map (Nat.testbit i) l) = true <-> number_true i l <> 0.
Proof. unfold g_or, number_true. induction l as [|a l IH]; [cbn; split; [discriminate|congruence]|]. cbn [map existsb filter]. destruct (Nat.testbit i a); cbn [orb length]; [split; [lia|reflexivity] | exact IH]. Qed.
Lemma even_mod n : n mod 2 = 0 <-> Nat.Even n.
Proof. split; [intro H; exists (n / 2); assert (X := Nat.div_mod n 2); lia | intros [k ->]; rewrite Nat.mul_comm; apply Nat.mod_mul; lia]. Qed.
Lemma odd_mod n : n mod 2 <> 0 <-> Nat.Odd n.
Proof.
  split; [intro H; exists (n / 2); assert (X := Nat.div_mod n 2); assert (Y := Nat.mod_upper_bound n 2); lia |].
  intros [k ->]. replace (2 * k + 1) with (1 + k * 2) by lia. rewrite Nat.mod_add by lia. discriminate.
Qed.
Lemma mod_same a b c : a + b = c -> (a mod 2 = c mod 2 <-> Nat.Even b).
Proof.
  intros <-. rewrite <- even_mod. assert (X := Nat.div_mod a 2). assert (Y := Nat.div_mod b 2). assert (Z := Nat.div_mod (a + b) 2).
  assert (X1 := Nat.mod_upper_bound a 2). assert (Y1 := Nat.mod_upper_bound b 2). assert (Z1 := Nat.mod_upper_bound (a + b) 2). lia.
Qed.

Theorem C88_generators : forall o l n, (forall a, In a l -> a < n) ->
  exists t, raw_gen l n o = Ok t /\ length t = 2 ^ n /\ forall i, i < 2 ^ n -> (nth i t false = true <-> word_holds o i l).
Proof.
  intros o l n H. eexists. split; [apply raw_gen_spec; exact H|]. split; [rewrite map_length; apply range_length|]. intros i Hi.
  rewrite nth_map_r by exact Hi.
  assert (T := number_sum i l). assert (B := bsum_bits i l). assert (A := g_and_bits i l). assert (O := g_or_bits i l).
  assert (W : l <> [] -> (op_criterion o (map (Nat.testbit i) l) l = true <-> word_holds o i l)).
  { intro Ne. destruct o; cbn [op_criterion word_holds].
    - exact A.
    - rewrite Nat.eqb_eq, B. apply mod_same. exact T.
    - exact O.
    - rewrite negb_true_iff, Nat.eqb_neq, B. apply odd_mod.
    - rewrite orb_true_iff, negb_true_iff, A. destruct (g_or _); split; intro X; [split; [exact Ne|]; destruct X; [discriminate|tauto] | right; destruct X as (_ & [X|X]); [|exact X]; exfalso; apply O; [reflexivity|exact X] | split; [exact Ne|]; left; destruct (Nat.eq_dec (number_true i l) 0) as [E|E]; [exact E|]; apply O in E; discriminate | left; reflexivity].
    - unfold g_sand. rewrite Nat.eqb_eq, B. lia.
    - unfold g_gand, g_sand. rewrite orb_true_iff, A, Nat.eqb_eq, B. lia.
    - rewrite <- even_mod. unfold g_gand, g_sand. destruct (Nat.eqb_spec (length l mod 2) 0) as [E|E]; [rewrite orb_true_iff, A|]; rewrite Nat.eqb_eq, B; lia.
    - rewrite <- odd_mod. unfold g_gand, g_sand. destruct (Nat.eqb_spec (length l mod 2) 0) as [E|E]; [|rewrite orb_true_iff, A]; rewrite Nat.eqb_eq, B; lia. }
  destruct l as [|a l]; [|apply W; discriminate]. clear. cbn. destruct o; cbn; split; intro X; try discriminate; try reflexivity; try tauto.
  - exists 0; reflexivity.
  - destruct X as [k X]. lia.
  - right. split; [reflexivity|]. exists 0; reflexivity.
  - destruct X as [X|[_ [k X]]]; lia.
Qed.
Print Assumptions C88_generators.

(** An atom that does not belong to the arity is refused. *)
Theorem C88_generators_reject : forall o l n a, In a l -> n <= a -> raw_gen l n o = Err AssertErr.
Proof. intros o l n a H Hn. apply (raw_gen_reject l n o a H Hn). Qed.
Print Assumptions C88_generators_reject.

(** OR is AND of the negated atoms, negated; GAND is the union and SAND the intersection of ESAND and OSAND,
    and they differ exactly where AND is true. *)
Theorem C88_relations : forall l n i, (forall a, In a l -> a < n) -> i < 2 ^ n ->
  exists tand tor tsand tgand te to, raw_gen l n AND = Ok tand /\ raw_gen l n OR = Ok tor /\ raw_gen l n SAND = Ok tsand /\
    raw_gen l n GAND = Ok tgand /\ raw_gen l n ESAND = Ok te /\ raw_gen l n OSAND = Ok to /\
    nth i tor false = negb (nth (2 ^ n - 1 - i) tand false) /\
    nth i tgand false = nth i te false || nth i to false /\ nth i tsand false = nth i te false && nth i to false /\
    nth i tand false = xorb (nth i te false) (nth i to false).
Proof.
  intros l n i H Hi. destruct (C88_generators AND l n H) as (t1 & E1 & _ & S1). destruct (C88_generators OR l n H) as (t2 & E2 & _ & S2).
  destruct (C88_generators SAND l n H) as (t3 & E3 & _ & S3). destruct (C88_generators GAND l n H) as (t4 & E4 & _ & S4).
  destruct (C88_generators ESAND l n H) as (t5 & E5 & _ & S5). destruct (C88_generators OSAND l n H) as (t6 & E6 & _ & S6).
  exists t1, t2, t3, t4, t5, t6. do 6 (split; [assumption|]). assert (Hj : 2 ^ n - 1 - i < 2 ^ n) by lia.
  assert (Dl : Nat.Even (length l) \/ Nat.Odd (length l)) by apply Nat.Even_or_Odd. assert (Dx : ~ (Nat.Even (length l) /\ Nat.Odd (length l))) by (intros [[x Hx] [y Hy]]; lia).
  specialize (S3 i Hi). specialize (S4 i Hi). specialize (S5 i Hi). specialize (S6 i Hi). assert (S1i := S1 i Hi). specialize (S1 _ Hj). specialize (S2 i Hi). cbn [word_holds] in *.
  assert (F : number_false (2 ^ n - 1 - i) l = number_true i l).
  { unfold number_false, number_true. f_equal. apply filter_ext_in. intros a Ha. change (2 ^ n - 1 - i) with (flip n i). rewrite flip_bit by exact Hi. rewrite (proj2 (Nat.ltb_lt _ _) (H a Ha)). apply negb_involutive. }
  rewrite F in S1.
  destruct (nth i t1 false), (nth (2 ^ n - 1 - i) t1 false), (nth i t2 false), (nth i t3 false), (nth i t4 false), (nth i t5 false), (nth i t6 false);
    repeat split; try reflexivity; exfalso; intuition (congruence || lia).
Qed.
Print Assumptions C88_relations.

Example C27_ex_arguments : ascending [1; 4] /\ length [false; true; true; true] = 2 ^ length [1; 4] /\ true_places [false; true; true; true] = [1; 2; 3] /\
  Boolf 1 (mkArgs None (Some [1; 4]%Z) None None (Some [1; 2; 3]%Z) None None None None None None false) =
  Ok (mkBoolf [false; true; true; true] [1; 4] false false) /\
  Boolf 1 (mkArgs (Some (TtVector [0; 1; 0; 1]%Z)) (Some [1; 4]%Z) None None None None None None None None None true) =
  Ok (mkBoolf [false; true; false; true] [1; 4] false true) /\
  Boolf 1 (mkArgs (Some (TtVector [0; 1; 0; 1]%Z)) (Some [1; 4]%Z) None None None None None None None None None false) =
  Boolf 1 (mkArgs None None (Some 1%Z) None None None None None None None None false).
Proof. split; [repeat constructor|]. vm_compute. auto 8. Qed.
Example C88_ex : (forall a, In a [0; 2] -> a < 3) /\ raw_gen [0; 2] 3 SAND = Ok [false; true; false; true; true; false; true; false] /\
  raw_gen [0; 2] 3 EQ = Ok [true; false; true; false; false; true; false; true] /\ raw_gen [] 1 EQ = Ok [false; false].
Proof. split; [intros a [<-|[<-|[]]]; lia|]. vm_compute. auto. Qed.
