(** Proof_DetMod2: a binary matrix is invertible modulo two exactly if its determinant is odd;
    it has an integer inverse exactly if its determinant is 1 or -1. *)

From Coq Require Import List ZArith Lia.
From mathcomp Require Import ssreflect ssrfun ssrbool eqtype ssrnat seq choice fintype
  bigop finfun perm fingroup ssralg zmodp matrix mxalgebra ssrint.
From Verif Require Import Model_Base Spec_Bits Spec_WalshPerm Spec_Determinant Proof_Bareiss Proof_ZDet.
Import GRing.Theory.
Local Delimit Scope Z_scope with ZZ.
Local Open Scope ring_scope.

Definition bf (b : bool) : 'F_2 := if b then 1 else 0.

Lemma bf_inj a b : bf a = bf b -> a = b.
Proof. by case: a; case: b. Qed.

Lemma bf_xor a b : bf (xorb a b) = bf a + bf b.
Proof. by case: a; case: b; apply: val_inj. Qed.

Lemma bf_and a b : bf (a && b) = bf a * bf b.
Proof. by case: a; case: b; apply: val_inj. Qed.

Lemma bf_surj (x : 'F_2) : bf (x == 1) = x.
Proof.
case: (x =P 1) => [-> //|H]; apply: val_inj; case: x H => [[|[|m]] Hm] H //=.
by case: H; apply: val_inj.
Qed.

Lemma sum_list {R : ringType} (g : nat -> R) s n :
  List.fold_right (fun k x => g k + x) 0 (List.seq s n) = \sum_(k < n) g (s + k)%N.
Proof.
elim: n s => [|n IH] s /=; first by rewrite big_ord0.
rewrite IH big_ord_recl addn0; congr (_ + _); apply: eq_bigr => k _.
by rewrite /bump /= addSnnS.
Qed.

Lemma bf_xor_all f n : bf (xor_all (List.map f (List.seq 0 n))) = \sum_(k < n) bf (f k).
Proof.
rewrite -(sum_list (fun k => bf (f k)) 0 n) /xor_all; move: (List.seq 0 n) => l.
by elim: l => //= k l IH; rewrite bf_xor IH.
Qed.

Lemma zi_fold f n :
  zi (List.fold_right Z.add 0%ZZ (List.map f (List.seq 0 n))) = \sum_(k < n) zi (f k).
Proof.
rewrite -(sum_list (fun k => zi (f k)) 0 n); move: (List.seq 0 n) => l.
by elim: l => //= k l IH; rewrite zi_add IH.
Qed.

Definition bm (b : nat -> nat -> bool) (n : nat) : 'M['F_2]_n := mk (fun i j => bf (b i j)) n.

Lemma mat_mat_mul n b c (i j : 'I_n) : bf (mat_mat n b c i j) = (bm b n *m bm c n) i j.
Proof.
rewrite /mat_mat /mat_vec bf_xor_all !mxE; apply: eq_bigr => k _.
by rewrite bf_and !mxE.
Qed.

Lemma eqb_eqn (x y : nat) : Nat.eqb x y = (x == y).
Proof. by apply/idP/eqP => [/PeanoNat.Nat.eqb_eq|/PeanoNat.Nat.eqb_eq]. Qed.

Lemma is_one n b c : (bm b n *m bm c n = 1%:M) <->
  (forall i j, (i < n)%coq_nat -> (j < n)%coq_nat -> mat_mat n b c i j = Nat.eqb i j).
Proof.
split=> [E i j /ltP Hi /ltP Hj|H].
- apply: bf_inj; rewrite (mat_mat_mul n b c (Ordinal Hi) (Ordinal Hj)) E mxE eqb_eqn.
  by rewrite -val_eqE /=; case: eqP.
- apply/matrixP => i j; rewrite -mat_mat_mul H; [|by apply/ltP|by apply/ltP].
  by rewrite mxE eqb_eqn -val_eqE /=; case: eqP.
Qed.

Lemma invertible_unit n b : invertible n b <-> bm b n \in unitmx.
Proof.
split=> [[c H]|H].
- have : bm b n *m bm c n = 1%:M by apply/is_one => i j Hi Hj; case: (H i j Hi Hj).
  by case/mulmx1_unit.
- pose M := invmx (bm b n).
  pose c i j := if (insub i : option 'I_n, insub j : option 'I_n) is (Some u, Some v) then M u v == 1 else false.
  have E : bm c n = M.
    by apply/matrixP => i j; rewrite mxE /c !valK bf_surj.
  exists c => i j Hi Hj; split.
  + by move: i j Hi Hj; apply/is_one; rewrite E mulmxV.
  + by move: i j Hi Hj; apply/is_one; rewrite E mulVmx.
Qed.

Lemma zi_odd z : (zi z)%:~R = bf (Z.odd z).
Proof.
rewrite {1}(Zdiv2_odd_eqn z) zi_add zi_mul rmorphD rmorphM /=.
have -> : (Posz (Pos.to_nat 2))%:~R = 0 :> 'F_2 by apply: val_inj.
by rewrite mul0r add0r; case: (Z.odd z); apply: val_inj.
Qed.

Lemma det_odd n mat d : is_det n mat d -> (Z.odd d = true <-> invertible n (bit_entry mat)).
Proof.
move=> H; rewrite invertible_unit unitmxE unitfE.
have -> : \det (bm (bit_entry mat) n) = bf (Z.odd d).
  rewrite -zi_odd H -det_map_mx; congr (\det _); apply/matrixP => i j.
  by rewrite !mxE; symmetry; apply: zi_odd.
by case: (Z.odd d); split.
Qed.

(* integer inverses *)
Lemma product_one n a b :
  int_product_is_one n a b <-> mx_of n a *m mx_of n b = 1%:M.
Proof.
have E (i j : 'I_n) :
  zi (List.fold_right Z.add 0%ZZ (List.map (fun k => (List.nth k (List.nth i a nil) 0 * List.nth j (List.nth k b nil) 0)%ZZ) (List.seq 0 n)))
  = (mx_of n a *m mx_of n b) i j.
  by rewrite zi_fold !mxE; apply: eq_bigr => k _; rewrite zi_mul !mxE.
split=> [H|H].
- apply/matrixP => i j; rewrite -E H; [|by apply/ltP|by apply/ltP].
  by rewrite mxE eqb_eqn -val_eqE /=; case: eqP.
- move=> i j /ltP Hi /ltP Hj; apply: zi_inj.
  rewrite (E (Ordinal Hi) (Ordinal Hj)) H mxE eqb_eqn -val_eqE /=; by case: eqP.
Qed.

Definition list_of (n : nat) (M : 'M[int]_n) : list (list Z) :=
  [seq [seq iz (M i j) | j <- enum 'I_n] | i <- enum 'I_n].

Lemma nth_nth T (x : T) s i : List.nth i s x = nth x s i.
Proof. by elim: s i => [|y s IH] [|i] //=. Qed.

Lemma length_size T (s : seq T) : List.length s = size s.
Proof. by elim: s => //= x s ->. Qed.

Lemma list_of_entry n (M : 'M[int]_n) : mx_of n (list_of n M) = M.
Proof.
apply/matrixP => i j; rewrite mxE /entry !nth_nth.
rewrite (nth_map i) ?size_enum_ord // (nth_map j) ?size_enum_ord //.
by rewrite !nth_ord_enum ziK.
Qed.

Lemma list_of_square n (M : 'M[int]_n) : square n (list_of n M).
Proof.
split; first by rewrite length_size size_map size_enum_ord.
move=> row; rewrite /list_of; have G (g : 'I_n -> list Z) s : List.In row [seq g i | i <- s] -> exists i, row = g i.
  by elim: s => //= i s IH [<-|/IH //]; exists i.
move/G; by case=> i ->; rewrite length_size size_map size_enum_ord.
Qed.

Lemma unimodular n a d : is_det n a d ->
  ((d = 1 \/ d = -1)%ZZ <-> exists b, square n b /\ int_product_is_one n a b).
Proof.
rewrite /is_det => H; split.
- move=> Hd; have U : zi d * zi d = 1 by case: Hd => ->.
  exists (list_of n (zi d *: \adj (mx_of n a))); split; first exact: list_of_square.
  apply/product_one; rewrite list_of_entry -scalemxAr mul_mx_adj -H.
  by rewrite scale_scalar_mx U.
- case=> b [_ /product_one E].
  have : zi (d * iz (\det (mx_of n b)))%ZZ = zi 1%ZZ by rewrite zi_mul ziK H -det_mulmx E det1.
  by move/zi_inj => /Z.eq_mul_1 [] ->; [left|right].
Qed.

(* an exact inverse exists as a function *)
Definition adj_inverse (m : list (list Z)) : res (option (list (list Z))) :=
  let n := List.length m in
  let d := iz (\det (mx_of n m)) in
  if (Z.eqb d 1 || Z.eqb d (-1)) then Ok (Some (list_of n (zi d *: \adj (mx_of n m)))) else Ok None.

Lemma adj_inverse_exact : exact_inverse adj_inverse.
Proof.
move=> n m [Hl _] _; rewrite /adj_inverse Hl.
set d := iz _.
have H : is_det n m d by rewrite /is_det /d ziK.
case E: (Z.eqb d 1 || Z.eqb d (-1)).
- exists (Some (list_of n (zi d *: \adj (mx_of n m)))); split => //; split; first exact: list_of_square.
  have U : zi d * zi d = 1.
    by case/orP: E => /Z.eqb_eq ->.
  by apply/product_one; rewrite list_of_entry -scalemxAr mul_mx_adj -H scale_scalar_mx U.
- exists None; split => // b Hb Hp.
  have [_] := unimodular n m d H => /(_ (ex_intro _ b (conj Hb Hp))) [] Hd; by rewrite Hd in E.
Qed.
