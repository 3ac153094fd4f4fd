(** Proof_ZDet: the facts of Proof_Bareiss for functions into Coq's [Z], in plain Coq notation. *)

From Coq Require Import List ZArith Lia.
From mathcomp Require Import ssreflect ssrfun ssrbool eqtype ssrnat seq choice fintype
  bigop finfun perm fingroup ssralg zmodp matrix ssrint.
From Verif Require Import Spec_Determinant Proof_Bareiss.
Import GRing.Theory.
Local Delimit Scope Z_scope with ZZ.
Local Open Scope ring_scope.

Lemma zi_nat n : zi (Z.of_nat n) = Posz n.
Proof. by case: n => [|n] //=; rewrite SuccNat2Pos.id_succ. Qed.

Lemma zi_opp z : zi (- z)%ZZ = - zi z.
Proof. by case: z => [|p|p] //=; rewrite ?oppr0 ?opprK. Qed.

Lemma zi_sub m n : zi (Z.of_nat m - Z.of_nat n)%ZZ = Posz m - Posz n.
Proof.
case: (leqP n m) => H.
- have -> : (Z.of_nat m - Z.of_nat n)%ZZ = Z.of_nat (m - n)%N.
    by rewrite /subn /subn_rec; move/leP: H => H; lia.
  by rewrite zi_nat -subzn.
- have -> : (Z.of_nat m - Z.of_nat n)%ZZ = (- Z.of_nat (n - m)%N)%ZZ.
    by rewrite /subn /subn_rec; move/ltP: H => H; lia.
  by rewrite zi_opp zi_nat -subzn ?opprB // ltnW.
Qed.

Lemma z_split z : exists m n, z = (Z.of_nat m - Z.of_nat n)%ZZ.
Proof. exists (Z.to_nat z), (Z.to_nat (- z)); lia. Qed.

Lemma zi_add x y : zi (x + y)%ZZ = zi x + zi y.
Proof.
case: (z_split x) => m [n ->]; case: (z_split y) => p [q ->].
have -> : (Z.of_nat m - Z.of_nat n + (Z.of_nat p - Z.of_nat q))%ZZ
          = (Z.of_nat (m + p)%coq_nat - Z.of_nat (n + q)%coq_nat)%ZZ by lia.
by rewrite !zi_sub !PoszD opprD addrACA.
Qed.

Lemma zi_minus x y : zi (x - y)%ZZ = zi x - zi y.
Proof. by rewrite -zi_opp -zi_add. Qed.

Lemma zi_mul x y : zi (x * y)%ZZ = zi x * zi y.
Proof.
case: (z_split x) => m [n ->]; case: (z_split y) => p [q ->].
have -> : ((Z.of_nat m - Z.of_nat n) * (Z.of_nat p - Z.of_nat q))%ZZ
          = (Z.of_nat (m * p + n * q)%coq_nat - Z.of_nat (m * q + n * p)%coq_nat)%ZZ by rewrite !Nat2Z.inj_add !Nat2Z.inj_mul; ring.
rewrite !zi_sub !PoszD !PoszM mulrBl !mulrBr opprB opprD.
by rewrite [RHS]addrACA.
Qed.

Lemma zi_eq0 z : zi z = 0 -> z = 0%ZZ.
Proof.
case: z => [|p|p] //= H.
- have := Pos2Nat.is_pos p; case: H => ->; lia.
- have := Pos2Nat.is_pos p; move/eqP: H; rewrite oppr_eq0 => /eqP [->]; lia.
Qed.

Lemma zi_inj x y : zi x = zi y -> x = y.
Proof. move=> H; have : zi (x - y)%ZZ = 0 by rewrite zi_minus H subrr. move/zi_eq0; lia. Qed.

Definition iz (i : int) : Z := match i with Posz n => Z.of_nat n | Negz n => (- Z.of_nat (S n))%ZZ end.

Lemma ziK i : zi (iz i) = i.
Proof. case: i => n; rewrite /iz ?zi_opp zi_nat //. Qed.

Definition ze (a : nat -> nat -> Z) (u v : nat) : int := zi (a u v).

(* the leading principal m x m minor *)
Definition Zdet (a : nat -> nat -> Z) (m : nat) : Z := iz (\det (mk (ze a) m)).
(* the minor of the rows 0..i-1, j and the columns 0..i-1, k *)
Definition Zminor (a : nat -> nat -> Z) (i j k : nat) : Z := iz (minor (ze a) i j k).

Lemma Zdet_ext a b m :
  (forall u v, (u < m)%coq_nat -> (v < m)%coq_nat -> a u v = b u v) -> Zdet a m = Zdet b m.
Proof.
move=> H; rewrite /Zdet; congr (iz (\det _)); apply: det_mk_ext => u v Hu Hv.
by rewrite /ze H //; apply/ltP.
Qed.

Lemma Zdet0 a : Zdet a 0 = 1%ZZ.
Proof. by apply: zi_inj; rewrite ziK det_mx00. Qed.

Lemma Zminor0 a j k : Zminor a 0 j k = a j k.
Proof. by apply: zi_inj; rewrite ziK minor0. Qed.

Lemma Zminor_diag a i : Zminor a i i i = Zdet a (S i).
Proof. by rewrite /Zminor minor_diag. Qed.

(* minors depend on the rows below i and row j only *)
Lemma Zminor_rows a b i j j' k :
  (forall u v, (u < i)%coq_nat -> a u v = b u v) -> (forall v, a j v = b j' v) ->
  Zminor a i j k = Zminor b i j' k.
Proof.
move=> H1 H2; rewrite /Zminor /minor; congr (iz (\det _)); apply: det_mk_ext => u v Hu Hv.
rewrite /ze /brd; case: (ltnP u i) => Hui; congr (zi _); first by apply: H1; apply/ltP.
by apply: H2.
Qed.

Lemma Zdet_swap a m p q : (p < m)%coq_nat -> (q < m)%coq_nat -> p <> q ->
  Zdet (fun u v => a (if Nat.eqb u p then q else if Nat.eqb u q then p else u) v) m = (- Zdet a m)%ZZ.
Proof.
move=> /ltP Hp /ltP Hq Hpq; apply: zi_inj; rewrite zi_opp !ziK.
have := @det_mk_swap _ (ze a) m (Ordinal Hp) (Ordinal Hq).
have -> : Ordinal Hp != Ordinal Hq by apply/eqP => - [].
move=> /(_ isT) <-; congr (\det _); apply: det_mk_ext => u v _ _; rewrite /ze /=.
Qed.

Lemma Zsylvester a i j k : Zdet a i <> 0%ZZ ->
  (Zminor a i j k * Zminor a i i i - Zminor a i j i * Zminor a i i k = Zminor a (S i) j k * Zdet a i)%ZZ.
Proof.
move=> H; apply: zi_inj; rewrite zi_minus !zi_mul !ziK sylvester //.
by apply/eqP => E; apply: H; apply: zi_inj; rewrite ziK E.
Qed.

Lemma Zzero_column a i n : (i < n)%coq_nat -> Zdet a i <> 0%ZZ ->
  (forall j, (i <= j)%coq_nat -> (j < n)%coq_nat -> Zminor a i j i = 0%ZZ) -> Zdet a n = 0%ZZ.
Proof.
move=> /ltP Hi H Hz; apply: zi_inj; rewrite ziK; apply: (@zero_column _ i) => //.
- by apply/eqP => E; apply: H; apply: zi_inj; rewrite ziK E.
- move=> j /andP [/leP H1 /ltP H2]; rewrite -[LHS]ziK -/(Zminor a i j i) Hz //.
Qed.

Lemma Zdet_is_det n mat d : is_det n mat d <-> d = Zdet (entry mat) n.
Proof.
rewrite /is_det; have -> : mx_of n mat = mk (ze (entry mat)) n by apply/matrixP => u v; rewrite !mxE.
split=> [H|->]; last by rewrite ziK.
by apply: zi_inj; rewrite ziK.
Qed.
