(** Proof_Bareiss: bordered minors of an integer matrix, the Schur complement and the
    identity behind fraction-free elimination (mathcomp). *)

From mathcomp Require Import ssreflect ssrfun ssrbool eqtype ssrnat seq choice fintype
  bigop finfun perm fingroup ssralg zmodp matrix mxalgebra ssrint rat ssrnum order.
Import GRing.Theory Num.Theory.
Local Open Scope ring_scope.

Section Any.
Context {R : comRingType}.

(* the m x m matrix with entries f u v *)
Definition mk (f : nat -> nat -> R) (m : nat) : 'M[R]_m := \matrix_(u, v) f u v.

(* rows 0..i-1, then row j *)
Definition brd (i j u : nat) : nat := if (u < i)%N then u else j.

(* the minor of the rows 0..i-1, j and the columns 0..i-1, k *)
Definition minor (a : nat -> nat -> R) (i j k : nat) : R :=
  \det (mk (fun u v => a (brd i j u) (brd i k v)) i.+1).

Lemma det_mk_ext f g m : (forall u v, (u < m)%N -> (v < m)%N -> f u v = g u v) -> mk f m = mk g m.
Proof. by move=> H; apply/matrixP=> u v; rewrite !mxE H. Qed.

Lemma mk_block f m p :
  mk f (m + p) = block_mx (mk f m) (\matrix_(u < m, v < p) f u (m + v)%N)
                   (\matrix_(u < p, v < m) f (m + u)%N v) (mk (fun u v => f (m + u)%N (m + v)%N) p).
Proof.
apply/matrixP=> u v; rewrite !mxE.
case: (splitP u) => u' Hu; rewrite !mxE; case: (splitP v) => v' Hv; rewrite ?mxE Hu Hv //.
Qed.

Lemma minor0 a j k : minor a 0 j k = a j k.
Proof. by rewrite /minor det_mx11 mxE. Qed.

Lemma minor_diag a i : minor a i i i = \det (mk a i.+1).
Proof.
rewrite /minor; congr (\det _); apply: det_mk_ext => u v Hu Hv.
have E w : (w < i.+1)%N -> brd i i w = w.
  by rewrite /brd ltnS leq_eqVlt; case: ltnP => // _ /orP [/eqP ->|].
by rewrite !E.
Qed.

Lemma det_mk_swap a m (p q : 'I_m) : p != q ->
  \det (mk (fun u v => a (if u == p :> nat then q : nat else if u == q :> nat then p : nat else u) v) m)
  = - \det (mk a m).
Proof.
move=> Hpq.
have -> : mk (fun u v => a (if u == p :> nat then q : nat else if u == q :> nat then p : nat else u) v) m
          = xrow p q (mk a m).
  apply/matrixP=> u v; rewrite !mxE; congr (a _ _).
  case: tpermP => [->|->|/eqP H1 /eqP H2]; first by rewrite eqxx.
  - by case: eqP => [E|_]; [rewrite -E|rewrite eqxx].
  - by rewrite !val_eqE (negbTE H1) (negbTE H2).
by rewrite xrowE det_mulmx det_perm odd_tperm Hpq expr1 mulN1r.
Qed.

End Any.

Section Field.
Context {F : fieldType}.

Lemma schur m p (P : 'M[F]_m) (Q : 'M_(m, p)) (L : 'M_(p, m)) (S : 'M_p) :
  \det P != 0 -> \det (block_mx P Q L S) = \det P * \det (S - L *m invmx P *m Q).
Proof.
move=> HP.
have U : P \in unitmx by rewrite unitmxE unitfE.
have -> : block_mx P Q L S
          = block_mx 1%:M 0 (L *m invmx P) 1%:M *m block_mx P Q 0 (S - L *m invmx P *m Q).
  rewrite mulmx_block !mul1mx !mul0mx !addr0 mulmxKV //.
  by rewrite addrC subrK.
by rewrite det_mulmx det_lblock !det1 !mul1r det_ublock.
Qed.

(* entry (j, k) of the Schur complement *)
Definition sch (a : nat -> nat -> F) (i j k : nat) : F :=
  a j k - ((\matrix_(_ < 1, v < i) a j v) *m invmx (mk a i) *m (\matrix_(u < i, _ < 1) a u k)) 0 0.

Lemma minor_sch a i j k : \det (mk a i) != 0 -> minor a i j k = \det (mk a i) * sch a i j k.
Proof.
move=> H; rewrite /minor -addn1 mk_block.
have E : mk (fun u v => a (brd i j u) (brd i k v)) i = mk a i.
  by apply: det_mk_ext => u v Hu Hv; rewrite /brd Hu Hv.
rewrite E schur //; congr (_ * _); rewrite det_mx11 /sch !mxE !addn0 /brd ltnn.
congr (_ - _); rewrite ?mxE.
apply: eq_bigr => v _; rewrite !mxE ltn_ord; congr (_ * _).
  by apply: eq_bigr => u _; rewrite !mxE ltn_ord addn0 ltnn.
by rewrite addn0 ltnn.
Qed.

(* the Schur complement as a matrix, for an index map r beyond i on rows and c on columns *)
Lemma det_schur_fun a i p (r c : nat -> nat) :
  \det (mk a i) != 0 ->
  \det (mk (fun u v => a (if (u < i)%N then u else r (u - i)%N) (if (v < i)%N then v else c (v - i)%N)) (i + p))
  = \det (mk a i) * \det (mk (fun u v => sch a i (r u) (c v)) p).
Proof.
move=> H; rewrite mk_block.
set P := mk _ i.
have E : P = mk a i by apply: det_mk_ext => u v Hu Hv; rewrite Hu Hv.
rewrite E schur //; congr (_ * \det _); apply/matrixP=> u v; rewrite !mxE /sch.
have T w : (i + w < i)%N = false by rewrite ltnNge leq_addr.
rewrite !T !addKn; congr (_ - _); rewrite ?mxE.
apply: eq_bigr => x _; rewrite !mxE ltn_ord T addKn; congr (_ * _).
by apply: eq_bigr => y _; rewrite !mxE ltn_ord T addKn.
Qed.

Lemma det22 (g : nat -> nat -> F) : \det (mk g 2) = g 0%N 0%N * g 1%N 1%N - g 0%N 1%N * g 1%N 0%N.
Proof.
rewrite (expand_det_row _ 0) !big_ord_recl big_ord0 /cofactor !det_mx11 !mxE /=.
by rewrite /bump /= addn0 expr0 mul1r addr0 expr1 mulN1r mulrN.
Qed.

Lemma sylvester_field (a : nat -> nat -> F) i j k : \det (mk a i) != 0 ->
  minor a i j k * minor a i i i - minor a i j i * minor a i i k = minor a i.+1 j k * \det (mk a i).
Proof.
move=> H; rewrite !(@minor_sch a i) // {1}/minor.
pose r q x := if x == 0%N then i else q.
have -> : mk (fun u v => a (brd i.+1 j u) (brd i.+1 k v)) i.+2
  = mk (fun u v => a (if (u < i)%N then u else r j (u - i)%N)
                     (if (v < i)%N then v else r k (v - i)%N)) i.+2.
  apply: det_mk_ext => u v _ _.
  have B q w : brd i.+1 q w = if (w < i)%N then w else if (w - i == 0)%N then i else q.
    rewrite /brd subn_eq0 ltnS; case: (ltngtP w i) => // -> //.
  by rewrite !B.
rewrite -addn2 (@det_schur_fun a i 2 (r j) (r k)) // det22 /=.
set d := \det _.
have E x y : d * x * (d * y) = d * (y * x) * d by rewrite mulrACA mulrAC [y * x]mulrC.
rewrite !E -mulrBl -mulrBr; congr (_ * _ * _).
Qed.

Lemma zero_column_field (a : nat -> nat -> F) i n : (i < n)%N -> \det (mk a i) != 0 ->
  (forall j, (i <= j < n)%N -> minor a i j i = 0) -> \det (mk a n) = 0.
Proof.
move=> Hi H Hz.
have E : mk a n = mk (fun u v => a (if (u < i)%N then u else i + (u - i))%N
                     (if (v < i)%N then v else i + (v - i))%N) n.
  apply: det_mk_ext => u v _ _.
  have B w : (if (w < i)%N then w else (i + (w - i))%N) = w by case: ltnP => // /subnKC.
  by rewrite !B.
rewrite E -(subnKC (ltnW Hi)) (@det_schur_fun a i (n - i) (fun x => i + x)%N (fun x => i + x)%N) //.
suff -> : \det (mk (fun u v => sch a i (i + u)%N (i + v)%N) (n - i)) = 0 by rewrite mulr0.
have Hp : (0 < n - i)%N by rewrite subn_gt0.
rewrite (expand_det_col _ (Ordinal Hp)) big1 // => u _; rewrite !mxE /= addn0.
have : minor a i (i + u)%N i = 0.
  by apply: Hz; rewrite leq_addr /= -ltn_subRL ltn_ord.
by rewrite minor_sch // => /eqP; rewrite mulf_eq0 (negbTE H) /= => /eqP ->; rewrite mul0r.
Qed.

End Field.

(* over the integers *)
Definition rr (a : nat -> nat -> int) (u v : nat) : rat := (a u v)%:~R.

Lemma det_rr a m : \det (mk (rr a) m) = (\det (mk a m))%:~R.
Proof.
rewrite -det_map_mx; congr (\det _); by apply/matrixP=> u v; rewrite !mxE.
Qed.

Lemma minor_rr a i j k : minor (rr a) i j k = (minor a i j k)%:~R.
Proof. by rewrite /minor -det_rr. Qed.

Lemma det_rr_neq0 a m : \det (mk a m) != 0 -> \det (mk (rr a) m) != 0.
Proof. by rewrite det_rr intr_eq0. Qed.

Lemma sylvester (a : nat -> nat -> int) i j k : \det (mk a i) != 0 ->
  minor a i j k * minor a i i i - minor a i j i * minor a i i k = minor a i.+1 j k * \det (mk a i).
Proof.
move=> /det_rr_neq0 H; apply: (@intr_inj rat_numDomainType).
by rewrite rmorphB !rmorphM /= -!minor_rr -det_rr sylvester_field.
Qed.

Lemma zero_column (a : nat -> nat -> int) i n : (i < n)%N -> \det (mk a i) != 0 ->
  (forall j, (i <= j < n)%N -> minor a i j i = 0) -> \det (mk a n) = 0.
Proof.
move=> Hi /det_rr_neq0 H Hz; apply: (@intr_inj rat_numDomainType).
rewrite -det_rr (@zero_column_field _ _ i) // => j Hj; by rewrite minor_rr Hz.
Qed.
