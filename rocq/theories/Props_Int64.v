(** Props_Int64: property C116, least common multiples with 64 bits. *)

From Coq Require Import List Arith ZArith Bool Lia.
From Verif Require Import Model_Base Lib Model_Perm Spec_Perm Proof_PermCycles Props_Perm Model_SetPart Model_Int64.
Import ListNotations.
Local Open Scope Z_scope.

Lemma wrap64_small z : 0 <= z < 2 ^ 63 -> wrap64 z = z.
Proof.
  intro H. unfold wrap64. rewrite Z.mod_small by (change (2 ^ 64) with (2 * 2 ^ 63); lia). rewrite (proj2 (Z.ltb_lt _ _)) by lia. reflexivity.
Qed.

Lemma gcd_nat a b : Z.gcd (Z.of_nat a) (Z.of_nat b) = Z.of_nat (Nat.gcd a b).
Proof.
  apply Z.gcd_unique; [lia | | |].
  - destruct (Nat.gcd_divide_l a b) as [u Hu]. exists (Z.of_nat u). lia.
  - destruct (Nat.gcd_divide_r a b) as [u Hu]. exists (Z.of_nat u). lia.
  - intros q [u Hu] [v Hv]. destruct (Nat.gcd_bezout a b) as [(x & y & E)|(x & y & E)].
    + exists (Z.of_nat x * u - Z.of_nat y * v). nia.
    + exists (Z.of_nat x * v - Z.of_nat y * u). nia.
Qed.

Lemma lcm_quotient a b : (Nat.gcd a b <> 0)%nat -> Z.of_nat a / Z.of_nat (Nat.gcd a b) * Z.of_nat b = Z.of_nat (Nat.lcm a b).
Proof.
  intro H. unfold Nat.lcm. destruct (Nat.gcd_divide_l a b) as [u Hu], (Nat.gcd_divide_r a b) as [v Hv]. set (g := Nat.gcd a b) in *.
  assert (E1 : (b / g = v)%nat) by (rewrite Hv; apply Nat.div_mul, H). rewrite E1.
  assert (E2 : Z.of_nat a / Z.of_nat g = Z.of_nat u) by (rewrite <- Nat2Z.inj_div; f_equal; rewrite Hu; apply Nat.div_mul, H).
  rewrite E2. rewrite Hu, Hv. lia.
Qed.

(** The least common multiple is right if it has at most 63 bits. *)
Theorem C116_lcm : forall a b, Z.of_nat (Nat.lcm a b) < 2 ^ 63 -> np_lcm (Z.of_nat a) (Z.of_nat b) = Z.of_nat (Nat.lcm a b).
Proof.
  intros a b H. unfold np_lcm. cbv zeta. rewrite gcd_nat. destruct (Z.eqb_spec (Z.of_nat (Nat.gcd a b)) 0) as [E|E].
  - assert (G : Nat.gcd a b = O) by lia. apply Nat.gcd_eq_0 in G as [-> ->]. reflexivity.
  - rewrite !Z.abs_eq by lia. rewrite lcm_quotient by lia. apply wrap64_small. lia.
Qed.
Print Assumptions C116_lcm.

Lemma reduce_spec l a : (a <> 0)%nat -> (forall x, In x l -> x <> 0%nat) -> Z.of_nat (fold_left Nat.lcm l a) < 2 ^ 63 ->
  fold_left np_lcm (map Z.of_nat l) (Z.of_nat a) = Z.of_nat (fold_left Nat.lcm l a).
Proof.
  revert a. induction l as [|x l IH]; intros a Ha Hl H; [reflexivity|]. cbn [map fold_left] in *.
  assert (Hx : x <> O) by (apply Hl; left; reflexivity). assert (N : Nat.lcm a x <> O) by (rewrite Nat.lcm_eq_0; tauto).
  assert (D : (fold_left Nat.lcm l (Nat.lcm a x) <> 0)%nat /\ Nat.divide (Nat.lcm a x) (fold_left Nat.lcm l (Nat.lcm a x))).
  { clear -N Hl. assert (Hl' : forall y, In y l -> y <> O) by (intros y Hy; apply Hl; right; exact Hy). clear Hl. revert N. generalize (Nat.lcm a x) as m. induction l as [|y l IH]; intros m N; [split; [exact N | apply Nat.divide_refl]|]. cbn [fold_left].
    assert (N' : Nat.lcm m y <> O) by (rewrite Nat.lcm_eq_0; intros [K|K]; [contradiction | apply (Hl' y (or_introl eq_refl) K)]).
    destruct (IH (fun z Hz => Hl' z (or_intror Hz)) _ N') as [I1 I2]. split; [exact I1|]. apply (Nat.divide_trans _ _ _ (Nat.divide_lcm_l m y) I2). }
  destruct D as [D1 D2]. apply Nat.divide_pos_le in D2; [|lia]. rewrite C116_lcm by lia. apply IH; [exact N | intros y Hy; apply Hl; right; exact Hy | exact H].
Qed.

Lemma fold_lcm_lengths cs a : fold_left (fun a (c : list nat) => Nat.lcm a (length c)) cs a = fold_left Nat.lcm (map (@length nat) cs) a.
Proof. revert a. induction cs as [|c cs IH]; intro a; [reflexivity | apply IH]. Qed.

Lemma order_cases p : is_Perm p -> exists n, porder p = Ok n /\ (0 < n)%nat /\ (Z.of_nat n < 2 ^ 63 -> porder64 p = Ok (Z.of_nat n)) /\
  (forall k, (exists r, ppow p k = Ok r /\ neutral r = true) <-> (Z.of_nat n | k)) /\
  (neutral p = true \/ exists cs, pcycles p = Ok cs /\ n = fold_left Nat.lcm (map (@length nat) cs) 1%nat).
Proof.
  intro H. destruct (C10_order p H) as (n & E & Hn & Hk). exists n. split; [exact E|]. split; [exact Hn|].
  unfold porder in E. unfold porder64. destruct (neutral p) eqn:Np; [injection E as <-; split; [reflexivity|]; split; [exact Hk | left; reflexivity]|].
  destruct (C10_cycles p H) as (cs & Ec & _ & Hin & _ & Hlen & _). rewrite Ec in *. cbn [bind] in *. injection E as <-. rewrite fold_lcm_lengths in *.
  split; [|split; [exact Hk | right; exists cs; split; reflexivity]]. intro B. rewrite <- map_map.
  assert (Hl : forall x, In x (map (@length nat) cs) -> x <> O) by (intros x Hx; apply in_map_iff in Hx as (c & <- & Hc); destruct (Hlen c Hc); lia).
  destruct cs as [|c cs].
  - exfalso. cbn in Hk. destruct (proj2 (Hk 1) (Z.divide_refl 1)) as (r & Er & Nr). cbn in Er. injection Er as <-. congruence.
  - cbn [map np_lcm_reduce fold_left] in *. rewrite Nat.lcm_1_l in *. rewrite reduce_spec; [reflexivity | apply Hl; left; reflexivity | intros x Hx; apply Hl; right; exact Hx | exact B].
Qed.

(** The order is right if it has at most 63 bits: the powers with its multiples as exponents are neutral. *)
Theorem C116_order : forall p n, is_Perm p -> 0 < n < 2 ^ 63 -> (forall k, (exists r, ppow p k = Ok r /\ neutral r = true) <-> (n | k)) -> porder64 p = Ok n.
Proof.
  intros p n H Hn Hk. destruct (order_cases p H) as (m & _ & Hm & E & Hk' & _).
  assert (D1 : (Z.of_nat m | n)) by (apply Hk', Hk, Z.divide_refl). assert (D2 : (n | Z.of_nat m)) by (apply Hk, Hk', Z.divide_refl).
  assert (n = Z.of_nat m) by (apply Z.divide_antisym_nonneg; lia || assumption). subst n. apply E. lia.
Qed.
Print Assumptions C116_order.

Lemma cube_le k : Z.of_nat k ^ 3 <= 3 ^ Z.of_nat k.
Proof.
  destruct (Nat.lt_ge_cases k 3) as [L|L]; [destruct k as [|[|[|k]]]; [cbn; lia | cbn; lia | cbn; lia | lia]|].
  induction L as [|k L IH]; [cbn; lia|]. rewrite Nat2Z.inj_succ, Z.pow_succ_r by lia.
  assert (X : Z.succ (Z.of_nat k) ^ 3 <= 3 * Z.of_nat k ^ 3); [|lia].
  replace (Z.succ (Z.of_nat k) ^ 3) with (Z.of_nat k ^ 3 + 3 * Z.of_nat k ^ 2 + 3 * Z.of_nat k + 1) by ring.
  assert (3 <= Z.of_nat k) by lia. set (z := Z.of_nat k) in *. clearbody z. replace (z ^ 3) with (z * z * z) by ring. replace (z ^ 2) with (z * z) by ring. nia.
Qed.

Lemma lcm_product l a : (a <> 0)%nat -> (forall x, In x l -> x <> 0%nat) -> (fold_left Nat.lcm l a <= fold_left Nat.mul l a)%nat /\ Z.of_nat (fold_left Nat.mul l a) ^ 3 <= Z.of_nat a ^ 3 * 3 ^ Z.of_nat (list_sum l).
Proof.
  intros Ha Hl. split.
  - assert (G : forall l a b, (forall x, In x l -> x <> 0%nat) -> a <> O -> Nat.divide a b -> b <> O -> (fold_left Nat.lcm l a <= fold_left Nat.mul l b)%nat).
    { clear. induction l as [|x l IH]; intros a b Hl Ha D Hb; cbn [fold_left]; [apply Nat.divide_pos_le; [lia | exact D]|].
      assert (Hx : x <> O) by (apply Hl; left; reflexivity). apply IH; [intros y Hy; apply Hl; right; exact Hy | rewrite Nat.lcm_eq_0; tauto | | lia].
      apply Nat.lcm_least; [apply Nat.divide_mul_l, D | apply Nat.divide_factor_r]. }
    apply G; [exact Hl | exact Ha | apply Nat.divide_refl | exact Ha].
  - clear Ha Hl. revert a. induction l as [|x l IH]; intro a; [cbn [fold_left list_sum fold_right]; lia|].
    cbn [fold_left]. eapply Z.le_trans; [apply IH|]. change (list_sum (x :: l)) with (x + list_sum l)%nat. rewrite Nat2Z.inj_mul, Nat2Z.inj_add, Z.pow_mul_l, Z.pow_add_r by lia.
    rewrite <- Z.mul_assoc. apply Z.mul_le_mono_nonneg_l; [apply Z.pow_nonneg; lia|]. apply Z.mul_le_mono_nonneg_r; [apply Z.pow_nonneg; lia | apply cube_le].
Qed.

Lemma sum_lengths {A} (cs : list (list A)) : list_sum (map (@length A) cs) = length (concat cs).
Proof. induction cs as [|c cs IH]; [reflexivity|]. cbn [map concat]. rewrite app_length, <- IH. reflexivity. Qed.

(** It is right for all permutations that move at most 119 elements (in one period). *)
Theorem C116_order_small : forall p l, is_Perm p -> (length l <= 119)%nat ->
  (forall x, pget p x <> x -> match perilen p with Some q => (x < q)%nat | None => True end -> In x l) ->
  exists n, porder64 p = Ok n /\ 0 < n /\ forall k, (exists r, ppow p k = Ok r /\ neutral r = true) <-> (n | k).
Proof.
  intros p l H Hl Hin. destruct (order_cases p H) as (n & _ & Hn & E & Hk & [N|(cs & Ec & En)]).
  - exists 1. unfold porder64. rewrite N. split; [reflexivity|]. split; [lia|]. intro k. split; [intros _; apply Z.divide_1_l|]. intros _.
    apply Hk. assert (D : (Z.of_nat n | 1)) by (apply Hk; exists p; split; [reflexivity | exact N]). apply Z.divide_1_r_nonneg in D; [|lia]. rewrite D. apply Z.divide_1_l.
  - exists (Z.of_nat n). split; [|split; [lia | exact Hk]]. apply E.
    destruct (C10_cycles p H) as (cs' & Ec' & Nd & Hc & _ & Hlen & _). rewrite Ec in Ec'. injection Ec' as <-.
    assert (Hlx : forall x, In x (map (@length nat) cs) -> x <> O) by (intros x Hx; apply in_map_iff in Hx as (c & <- & Hcc); destruct (Hlen c Hcc); lia).
    destruct (lcm_product (map (@length nat) cs) 1%nat ltac:(lia) Hlx) as [L1 L2]. rewrite <- En in L1. rewrite sum_lengths in L2.
    assert (Lc : (length (concat cs) <= 119)%nat).
    { eapply Nat.le_trans; [|exact Hl]. apply NoDup_incl_length; [exact Nd|]. intros x Hx. apply Hc in Hx as [X1 X2]. apply Hin; assumption. }
    destruct (Z.lt_ge_cases (Z.of_nat n) (2 ^ 63)) as [|B]; [assumption | exfalso].
    assert (X1 : (2 ^ 63) ^ 3 <= Z.of_nat n ^ 3) by (apply Z.pow_le_mono_l; split; [apply Z.pow_nonneg; lia | exact B]).
    assert (X2 : Z.of_nat n ^ 3 <= Z.of_nat (fold_left Nat.mul (map (@length nat) cs) 1%nat) ^ 3) by (apply Z.pow_le_mono_l; lia).
    assert (X3 : 3 ^ Z.of_nat (length (concat cs)) <= 3 ^ 119) by (apply Z.pow_le_mono_r; lia).
    assert (X4 : 3 ^ 119 < (2 ^ 63) ^ 3) by (vm_compute; reflexivity). change (Z.of_nat 1 ^ 3) with 1 in L2. lia.
Qed.
Print Assumptions C116_order_small.

(** ** Larger orders *)

(** cycles of the given lengths, one after another *)
Fixpoint cycles_of_lengths (start : nat) (l : list nat) : list (list nat) :=
  match l with [] => [] | n :: l' => seq start n :: cycles_of_lengths (start + n) l' end.
Definition sixteen_primes : list nat := [2; 3; 5; 7; 11; 13; 17; 19; 23; 29; 31; 37; 41; 43; 47; 53]%nat.

(** Finding: with cycles of lengths 2, 3, 5, ..., 53 (381 elements) the order is a negative number. *)
Theorem C116_order_refuted : exists p n, is_Perm p /\ porder64 p = Ok n /\ n < 0 /\ ~ (exists r, ppow p n = Ok r /\ neutral r = true).
Proof.
  set (arg := ArgCycles (cycles_of_lengths 0 sixteen_primes)).
  assert (V1 : (let* p := Perm arg None in porder64 p) = Ok (-4304329670229058502)) by (vm_compute; reflexivity).
  assert (V2 : (let* p := Perm arg None in let* cs := pcycles p in Ok (existsb (fun c => Nat.eqb (length c) 3) cs && negb (neutral p))) = Ok true) by (vm_compute; reflexivity).
  assert (M : meaningful arg).
  { assert (X : forall l s, concat (cycles_of_lengths s l) = seq s (list_sum l)).
    { induction l as [|n l IH]; intro s; [reflexivity|]. cbn [cycles_of_lengths concat]. rewrite IH. change (list_sum (n :: l)) with (n + list_sum l)%nat. symmetry. apply seq_app. }
    unfold arg. cbn [meaningful]. rewrite X. apply seq_NoDup. }
  destruct (Perm arg None) as [p|e] eqn:E; [|discriminate]. cbn [bind] in V1, V2.
  exists p, (-4304329670229058502). assert (O : is_Perm p) by (apply (obj_new arg None p M E)). split; [exact O|]. split; [exact V1|]. split; [reflexivity|].
  destruct (order_cases p O) as (n & _ & _ & _ & Hk & [N|(cs & Ec & En)]); [destruct (pcycles p); [cbn [bind] in V2; rewrite N, andb_false_r in V2; discriminate | discriminate]|].
  rewrite Hk. intros [z Hz]. rewrite Ec in V2. cbn [bind] in V2. injection V2 as V2. apply andb_true_iff in V2 as [V2 _]. apply existsb_exists in V2 as (c & Hc & Hl). apply Nat.eqb_eq in Hl.
  rewrite <- fold_lcm_lengths in En. symmetry in En. apply fold_lcm_spec in En as (_ & En & _). destruct (En c Hc) as [u Hu]. rewrite Hl in Hu. subst n.
  assert (K : -4304329670229058502 mod 3 = 0) by (rewrite Hz, Nat2Z.inj_mul, Z.mul_assoc; apply Z_mod_mult). revert K. vm_compute. discriminate.
Qed.
Print Assumptions C116_order_refuted.

(** ** Products of periodic permutations *)

Lemma zmemb_nat x l : zmemb (Z.of_nat x) (map Z.of_nat l) = memb x l.
Proof.
  unfold zmemb, memb. induction l as [|y l IH]; [reflexivity|]. cbn [map existsb]. rewrite IH. f_equal. destruct (Nat.eqb_spec x y) as [->|H]; [apply Z.eqb_refl | apply Z.eqb_neq; lia].
Qed.
Lemma znodup_nat l : znodup (map Z.of_nat l) = map Z.of_nat (nodupb l).
Proof. induction l as [|x l IH]; [reflexivity|]. cbn [map znodup nodupb]. rewrite zmemb_nat, IH. destruct (memb x l); reflexivity. Qed.

Lemma sub_nat l q r : broaden_sub64 (map Z.of_nat l) (Z.of_nat q) (Z.of_nat r) = map Z.of_nat (broaden_sub l q r).
Proof.
  unfold broaden_sub64, broaden_sub, range. rewrite Nat2Z.id. generalize (seq 0 r) as is. induction is as [|i is IH]; [reflexivity|]. cbn [flat_map]. rewrite IH, map_app, !map_map. f_equal.
  apply map_ext. intro x. lia.
Qed.

(** The period length and the elements of a product are those of the unbounded calculation (C09) if
    the least common multiple has at most 63 bits. *)
Theorem C116_product : forall a_len b_len a_moved b_moved, Z.of_nat (Nat.lcm a_len b_len) < 2 ^ 63 ->
  broaden_moved64 (Z.of_nat a_len) (Z.of_nat b_len) (map Z.of_nat a_moved) (map Z.of_nat b_moved) =
  (Z.of_nat (Nat.lcm a_len b_len), map Z.of_nat (snd (broaden_moved a_len b_len a_moved b_moved))).
Proof.
  intros a b ma mb H. unfold broaden_moved64, broaden_moved. cbv zeta. cbn [snd]. rewrite C116_lcm by exact H. f_equal.
  rewrite <- !Nat2Z.inj_div, !sub_nat. unfold zunion, set_union. rewrite <- map_app. apply znodup_nat.
Qed.
Print Assumptions C116_product.

(** Finding: with period lengths 7 and 2635249153387078803 (7 times that is 2 ^ 64 + 5) the product
    gets the period length 5, and none of the moved elements is looked at. *)
Theorem C116_product_refuted : exists a_len b_len a_moved b_moved x,
  0 < a_len < 2 ^ 63 /\ 0 < b_len < 2 ^ 63 /\ (forall y, In y a_moved -> 0 <= y < a_len) /\ (forall y, In y b_moved -> 0 <= y < b_len) /\
  0 < np_lcm a_len b_len < a_len /\ In x a_moved /\ ~ In x b_moved /\ snd (broaden_moved64 a_len b_len a_moved b_moved) = [].
Proof.
  exists 7, 2635249153387078803, [0; 1], [2; 3], 0. split; [lia|]. split; [lia|].
  split; [intros y [<-|[<-|[]]]; lia|]. split; [intros y [<-|[<-|[]]]; lia|].
  assert (E : np_lcm 7 2635249153387078803 = 5) by (vm_compute; reflexivity). split; [rewrite E; lia|].
  split; [left; reflexivity|]. split; [intros [K|[K|[]]]; discriminate|]. vm_compute. reflexivity.
Qed.
Print Assumptions C116_product_refuted.

(** ** Examples *)

Example C116_ex : np_lcm 4 6 = 12 /\ np_lcm 0 0 = 0 /\ np_lcm (2 ^ 62) 3 = - 2 ^ 62 /\
  (let* p := Perm (ArgCycles [[0; 3; 2; 1]; [4; 6]; [5; 7; 8]]%nat) None in porder64 p) = Ok 12 /\
  (let* p := Perm ArgNone None in porder64 p) = Ok 1 /\
  broaden_moved64 2 3 [0; 1] [1; 2] = (6, [0; 3; 1; 2; 4; 5]).
Proof. vm_compute. repeat split; reflexivity. Qed.
(* sixteen elements are moved, so that C116_order_small applies *)
Example C116_ex_small : exists p n, Perm (ArgCycles (cycles_of_lengths 0 [2; 3; 4; 7]%nat)) (Some 20%nat) = Ok p /\ porder64 p = Ok n /\ n = 84 /\
  forall x, pget p x <> x -> match perilen p with Some q => (x < q)%nat | None => True end -> In x (seq 0 20).
Proof.
  destruct (Perm (ArgCycles (cycles_of_lengths 0 [2; 3; 4; 7]%nat)) (Some 20%nat)) as [p|e] eqn:E; [|exfalso; revert E; vm_compute; discriminate].
  exists p, 84. vm_compute in E. injection E as <-. split; [reflexivity|]. split; [vm_compute; reflexivity|]. split; [reflexivity|].
  cbn [perilen]. intros x _ Hx. apply in_seq. lia.
Qed.
