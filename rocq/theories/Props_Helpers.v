(** Props_Helpers: properties C37 (Sierpinski rows), C38 (zipping), C39 (number theory),
    C43 (hypercube edges), C44 (integer partitions), C45 (atom patterns). *)

From Coq Require Import List Arith ZArith Bool Lia Permutation Sorted.
From Verif Require Import Model_Base Model_Binary Spec_Bits Lib Proof_Binary Proof_Helpers Proof_Numbers
  Proof_Linear.
Import ListNotations.

(** * C37.  [order]: any order in which Python may iterate over the set of exponents. *)

Theorem C37_submasks : forall order n,
  Permutation (order (binv_exposet (bin_digits n))) (binv_exposet (bin_digits n)) ->
  NoDup (int_to_sierpinski_row order n) /\
  forall k, In k (int_to_sierpinski_row order n) <-> submask k n.
Proof. exact sierpinski_row_spec. Qed.

(** the row is in increasing order exactly when the set is iterated in increasing order *)
Theorem C37_increasing : forall order n,
  Permutation (order (binv_exposet (bin_digits n))) (binv_exposet (bin_digits n)) ->
  (StronglySorted lt (int_to_sierpinski_row order n) <->
   StronglySorted lt (order (binv_exposet (bin_digits n)))).
Proof. exact sierpinski_row_sorted. Qed.

Theorem C37_increasing_ascending : forall n, StronglySorted lt (int_to_sierpinski_row (fun s => s) n).
Proof.
  intro n. apply sierpinski_row_sorted; [apply Permutation_refl | apply binv_exposet_sorted].
Qed.

(** CPython iterates over the set {1, 8} as 8, 1: the row of 258 is not increasing *)
Theorem C37_increasing_refuted : exists order n,
  (forall s, Permutation (order s) s) /\ ~ StronglySorted lt (int_to_sierpinski_row order n).
Proof.
  exists (@rev nat), 258. split; [intro s; symmetry; apply Permutation_rev|].
  intro H. vm_compute in H. inversion_clear H. inversion_clear H0. inversion_clear H2. lia.
Qed.

Example C37_ex : int_to_sierpinski_row (fun s => s) 13 = [0; 1; 4; 5; 8; 9; 12; 13] /\
  int_to_sierpinski_row (@rev nat) 10 = [0; 8; 2; 10].
Proof. split; reflexivity. Qed.

(** * C38 *)

Theorem C38_roundtrip : forall (A : Type) (v : list A) (pattern : list nat),
  length v = length pattern -> pattern <> [] ->
  exists rows, vector_zip_apart v pattern = Ok rows /\ vector_zip_together rows pattern = Ok v.
Proof. exact @zip_roundtrip. Qed.

(** row k holds, in order, the entries at the places where the pattern is k *)
Theorem C38_rows : forall (A : Type) (v : list A) (pattern : list nat),
  length v = length pattern -> pattern <> [] ->
  exists rows, vector_zip_apart v pattern = Ok rows /\ length rows = S (list_max_nat pattern) /\
    forall k, nth k rows [] = map fst (filter (fun xk => Nat.eqb (snd xk) k) (combine v pattern)).
Proof. exact @zip_apart_spec. Qed.

Theorem C38_back : forall (A : Type) (rows : list (list A)) (pattern : list nat) v,
  vector_zip_together rows pattern = Ok v -> pattern <> [] -> length rows = S (list_max_nat pattern) ->
  vector_zip_apart v pattern = Ok rows.
Proof.
  intros A rows pattern v H Hp Hl. destruct (zip_back rows pattern v H Hl) as [E|E]; [exact E | contradiction].
Qed.

Theorem C38_rejected : forall (A : Type) (v : list A) (pattern : list nat),
  length v <> length pattern -> vector_zip_apart v pattern = Err ZipLengthError.
Proof. exact @zip_apart_reject. Qed.

Example C38_ex : vector_zip_apart [10; 11; 12; 13; 14] [1; 0; 1; 3; 0] = Ok [[11; 14]; [10; 12]; []; [13]] /\
  vector_zip_together [[11; 14]; [10; 12]; []; [13]] [1; 0; 1; 3; 0] = Ok [10; 11; 12; 13; 14] /\
  length [[11; 14]; [10; 12]; []; [13]] = S (list_max_nat [1; 0; 1; 3; 0]).
Proof. repeat split. Qed.

(** * C39 *)

Theorem C39_prime_factors : forall n, 1 <= n ->
  exists d, prime_factors n = Ok d /\ StronglySorted lt (map fst d) /\
    (forall p, In p (map fst d) <-> prime p /\ divides p n) /\
    (forall p e, In (p, e) d -> 1 <= e /\ divides (p ^ e) n /\ ~ divides (p ^ S e) n) /\
    fold_right Nat.mul 1 (map (fun pe => fst pe ^ snd pe) d) = n.
Proof. exact prime_factors_spec. Qed.

Theorem C39_prime_exponents : forall n expected, 1 <= n ->
  ((forall p, prime p -> divides p n -> In p expected) ->
     exists es, prime_exponents n expected = Ok es /\
       Forall2 (fun p e => prime p -> divides (p ^ e) n /\ ~ divides (p ^ S e) n)
               (sort_nat (nodupb expected)) es) /\
  ((exists p, prime p /\ divides p n /\ ~ In p expected) ->
     prime_exponents n expected = Err UnexpectedFactorError).
Proof. exact prime_exponents_spec. Qed.

Theorem C39_multi_lcm : forall l, l <> [] -> (forall x, In x l -> 1 <= x) ->
  exists m, multi_lcm l = Ok m /\ 1 <= m /\ (forall x, In x l -> divides x m) /\
    forall k, (forall x, In x l -> divides x k) -> divides m k.
Proof. exact multi_lcm_spec. Qed.

(** binom counts the k-element subsets of {0, ..., n-1} *)
Theorem C39_binom : forall n k, k <= n -> exists L, binom n k = Ok (length L) /\ NoDup L /\
  forall s, In s L <-> StronglySorted lt s /\ length s = k /\ forall x, In x s -> x < n.
Proof.
  intros n k H. exists (subsets k n). split; [exact (binom_spec n k H)|]. split; [exact (subsets_NoDup k n)|].
  exact (subsets_spec k n).
Qed.

Theorem C39_pascal : forall n k a b, k < n -> binom n k = Ok a -> binom n (S k) = Ok b ->
  binom (S n) (S k) = Ok (a + b).
Proof.
  intros n k a b H. rewrite !binom_spec by lia. intros [= <-] [= <-]. rewrite subsets_pascal. f_equal. lia.
Qed.

Theorem C39_binom_rejected : forall n k, n < k -> binom n k = Err ValueErr.
Proof. intros n k H. unfold binom. rewrite (proj2 (Nat.leb_gt _ _) H). reflexivity. Qed.

Example C39_ex : prime_factors 360 = Ok [(2, 3); (3, 2); (5, 1)] /\ prime_exponents 12 [5; 3; 2] = Ok [2; 1; 0] /\
  prime_exponents 14 [2; 3] = Err UnexpectedFactorError /\ multi_lcm [4; 6; 10] = Ok 60 /\ binom 6 2 = Ok 15.
Proof. repeat split. Qed.

(** * C43 *)

(** an edge joins a with the number b that has exactly one more one bit *)
Theorem C43_edges : forall n a b, In (a, b) (hypercube_edges n) <->
  b < 2 ^ n /\ exists k, Nat.testbit a k = false /\ b = a + 2 ^ k.
Proof. exact hypercube_edges_In. Qed.

Theorem C43_listing : forall n, NoDup (hypercube_edges n) /\
  StronglySorted (fun a b => fst a < fst b \/ fst a = fst b /\ snd a <= snd b) (hypercube_edges n) /\
  2 * length (hypercube_edges n) = n * 2 ^ n.
Proof.
  intro n. split; [exact (hypercube_edges_NoDup n)|]. split; [|exact (hypercube_edges_length n)].
  assert (H := hypercube_edges_sorted n). induction H as [|x l Hl IH Hx]; constructor; [exact IH|].
  eapply Forall_impl; [|exact Hx]. intros y Hy. unfold pair_leb in Hy.
  apply orb_true_iff in Hy as [Hy|Hy]; [left; apply Nat.ltb_lt; exact Hy | right].
  apply andb_true_iff in Hy as [H1 H2]. split; [apply Nat.eqb_eq; exact H1 | apply Nat.leb_le; exact H2].
Qed.

Example C43_ex : hypercube_edges 2 = [(0, 1); (0, 2); (1, 3); (2, 3)].
Proof. reflexivity. Qed.

(** * C44 *)

Theorem C44_partitions : forall n, 1 <= n ->
  NoDup (find_integer_partitions n) /\
  forall p, In p (find_integer_partitions n) <->
    StronglySorted le p /\ (forall x, In x p -> 1 <= x) /\ fold_right Nat.add 0 p = n.
Proof. exact find_integer_partitions_spec. Qed.

(** at zero the result is not the set of partitions of zero *)
Theorem C44_zero_refuted : exists n p, In p (find_integer_partitions n) /\ ~ (forall x, In x p -> 1 <= x).
Proof. exists 0, [0]. split; [left; reflexivity|]. intro H. specialize (H 0 (or_introl eq_refl)). lia. Qed.

Example C44_ex : find_integer_partitions 4 = [[4]; [1; 3]; [1; 1; 2]; [1; 1; 1; 1]; [2; 2]].
Proof. reflexivity. Qed.

(** * C45 *)

(** the pattern of atom k (of its negation, for the argument ~k = -k-1) *)
Theorem C45_atompattern : forall k n negate, k < n ->
  (exists v, make_atompattern (Z.of_nat k) n negate = Ok v /\ length v = 2 ^ n /\
     forall i, i < 2 ^ n -> nth i v false = xorb (Nat.testbit i k) negate) /\
  (exists v, make_atompattern (- Z.of_nat k - 1) n negate = Ok v /\ length v = 2 ^ n /\
     forall i, i < 2 ^ n -> nth i v false = xorb (negb (Nat.testbit i k)) negate).
Proof.
  intros k n negate H. split.
  - destruct (atompattern_spec (Z.of_nat k) n negate) as [v [E [Hl Hv]]]; [rewrite atom_of_nat; exact H|].
    exists v. split; [exact E|]. split; [exact Hl|]. intros i Hi. rewrite Hv, atom_of_nat by exact Hi.
    rewrite (proj2 (Z.ltb_ge _ _)) by lia. destruct negate; reflexivity.
  - assert (Ea : atom_of (- Z.of_nat k - 1) = k) by (unfold atom_of; destruct (Z.ltb_spec (- Z.of_nat k - 1) 0); lia).
    destruct (atompattern_spec (- Z.of_nat k - 1) n negate) as [v [E [Hl Hv]]]; [rewrite Ea; exact H|].
    exists v. split; [exact E|]. split; [exact Hl|]. intros i Hi. rewrite Hv, Ea by exact Hi.
    rewrite (proj2 (Z.ltb_lt _ _)) by lia. destruct negate, (Nat.testbit i k); reflexivity.
Qed.

Theorem C45_atompattern_rejected : forall k n negate, n <= k ->
  make_atompattern (Z.of_nat k) n negate = Err AssertErr /\
  make_atompattern (- Z.of_nat k - 1) n negate = Err AssertErr.
Proof.
  intros k n negate H. split; apply atompattern_reject.
  - rewrite atom_of_nat. exact H.
  - unfold atom_of. destruct (Z.ltb_spec (- Z.of_nat k - 1) 0); lia.
Qed.

Theorem C45_atompatterns : forall n, 0 < n ->
  exists ps, make_atompatterns n = Ok ps /\ length ps = n /\
    forall a, a < n -> length (nth a ps []) = 2 ^ n /\
      forall i, i < 2 ^ n -> nth i (nth a ps []) false = Nat.testbit i a.
Proof.
  intros n Hn. destruct (atompatterns_spec n Hn) as [ps [E [Hl H]]]. exists ps. split; [exact E|]. split; [exact Hl|].
  intros a Ha. destruct (H a Ha) as [v [Ev Hv]]. rewrite (nth_error_nth ps a [] Ev). exact Hv.
Qed.

Example C45_ex : make_atompattern (-2) 2 false = Ok [true; true; false; false] /\
  make_atompatterns 2 = Ok [[false; true; false; true]; [false; false; true; true]].
Proof. split; reflexivity. Qed.

Print Assumptions C37_submasks.
Print Assumptions C37_increasing.
Print Assumptions C37_increasing_ascending.
Print Assumptions C37_increasing_refuted.
Print Assumptions C38_roundtrip.
Print Assumptions C38_rows.
Print Assumptions C38_back.
Print Assumptions C38_rejected.
Print Assumptions C39_prime_factors.
Print Assumptions C39_prime_exponents.
Print Assumptions C39_multi_lcm.
Print Assumptions C39_binom.
Print Assumptions C39_pascal.
Print Assumptions C39_binom_rejected.
Print Assumptions C43_edges.
Print Assumptions C43_listing.
Print Assumptions C44_partitions.
Print Assumptions C44_zero_refuted.
Print Assumptions C45_atompattern.
Print Assumptions C45_atompattern_rejected.
Print Assumptions C45_atompatterns.
