(** Props_Perm: properties C03 - C11 (Perm, ranks, inversions, listings). *)

From Coq Require Import List Arith ZArith Bool Lia Permutation Sorted.
From Verif Require Proof_Perm Proof_PermGroup.
From Verif Require Import Model_Base Model_Perm Spec_Perm Spec_Rank Proof_Inversions Proof_Listing
  Proof_PermMore.
Import ListNotations.

(** * C03 *)

Theorem C03_number_roundtrip : forall n,
  exists p, int_to_perm n = Ok p /\ is_Perm p /\ perilen p = None /\ left_rank p = Ok n.
Proof. exact rank_roundtrip. Qed.

Theorem C03_perm_roundtrip : forall p, is_Perm p -> perilen p = None ->
  exists n p', left_rank p = Ok n /\ int_to_perm n = Ok p' /\ perm_eqb p' p = true.
Proof. exact perm_roundtrip. Qed.

(** the numbers below n! are the ranks of the permutations that fix everything from n on *)
Theorem C03_factorial : forall p n k, is_Perm p -> perilen p = None -> left_rank p = Ok k ->
  ((forall x, n <= x -> pget p x = x) <-> k < fact n).
Proof. exact factorial_count. Qed.

(** the right rank is the number of lexicographically smaller permutations of the same
    length: [L] is any repetition-free enumeration of them, and there is one *)
Theorem C03_right_rank : forall p L, is_Perm p -> perilen p = None -> NoDup L ->
  (forall s, In s L <-> Permutation s (seq 0 (plength p)) /\
                        lexlt s (map (pget p) (seq 0 (plength p)))) ->
  right_rank p = Ok (length L).
Proof. exact right_rank_counts. Qed.

Theorem C03_right_rank_total : forall p, is_Perm p -> perilen p = None ->
  exists r L, right_rank p = Ok r /\ length L = r /\ NoDup L /\
   (forall s, In s L <-> Permutation s (seq 0 (plength p)) /\
                         lexlt s (map (pget p) (seq 0 (plength p)))).
Proof. exact right_rank_total. Qed.

Example C03_ex : exists p, Perm (ArgSeq [2; 0; 3; 1]) None = Ok p /\
  left_rank p = Ok 13 /\ right_rank p = Ok 13 /\ perilen p = None /\ is_Perm p.
Proof.
  eexists. split; [vm_compute; reflexivity|]. repeat split; try (vm_compute; reflexivity).
  apply (obj_new (ArgSeq [2; 0; 3; 1]) None); [exact I | vm_compute; reflexivity].
Qed.

(** * C04 *)

Theorem C04_left : forall p n, Permutation p (seq 0 n) ->
  left_inversion_count_to_permutation (left_inversion_count p) = Ok p.
Proof. exact left_roundtrip. Qed.

Theorem C04_left_total : forall v, (forall i, i < length v -> nth i v 0 <= i) ->
  exists p, left_inversion_count_to_permutation v = Ok p /\
    Permutation p (seq 0 (length v)) /\ left_inversion_count p = v.
Proof. exact left_total. Qed.

Theorem C04_left_reject : forall v, ~ (forall i, i < length v -> nth i v 0 <= i) ->
  left_inversion_count_to_permutation v = Err IndexErr.
Proof. exact left_reject. Qed.

Theorem C04_right : forall p n, Permutation p (seq 0 n) ->
  right_inversion_count_to_permutation (right_inversion_count p) = Ok p.
Proof. exact right_roundtrip. Qed.

Theorem C04_right_total : forall v, (forall i, i < length v -> nth i v 0 <= length v - 1 - i) ->
  exists p, right_inversion_count_to_permutation v = Ok p /\
    Permutation p (seq 0 (length v)) /\ right_inversion_count p = v.
Proof. exact right_total. Qed.

Theorem C04_right_reject : forall v, ~ (forall i, i < length v -> nth i v 0 <= length v - 1 - i) ->
  right_inversion_count_to_permutation v = Err IndexErr.
Proof. exact right_reject. Qed.

(** the inversion set, in any order of its elements, gives the permutation back *)
Theorem C04_inversion_set : forall p pairs, is_Perm p -> perilen p = None ->
  Permutation pairs (inversion_set p) ->
  inversion_set_to_permutation pairs = Ok (map (pget p) (seq 0 (plength p))).
Proof. exact inv_set_ok. Qed.

Example C04_ex : Permutation [2; 0; 3; 1] (seq 0 4) /\
  left_inversion_count [2; 0; 3; 1] = [0; 1; 0; 2] /\
  right_inversion_count [2; 0; 3; 1] = [2; 0; 1; 0] /\
  right_inversion_count_to_permutation [3; 0; 1; 0] = Ok [3; 0; 2; 1] /\
  left_inversion_count_to_permutation [1; 0] = Err IndexErr.
Proof.
  split; [|repeat split; vm_compute; reflexivity].
  apply NoDup_Permutation.
  - repeat constructor; cbn; lia.
  - apply seq_NoDup.
  - intro x. cbn. lia.
Qed.

(** * C05 *)

Theorem C05_length : forall n, length (rev_colex_perms n) = fact n.
Proof. exact rev_colex_length. Qed.

Theorem C05_no_duplicates : forall n, NoDup (rev_colex_perms n).
Proof. exact rev_colex_NoDup. Qed.

Theorem C05_complete : forall n s, In s (rev_colex_perms n) <-> Permutation s (seq 0 n).
Proof. exact rev_colex_complete. Qed.

Theorem C05_entry : forall n k, k < fact n ->
  exists p, int_to_perm k = Ok p /\ psequence p (Some n) = Ok (nth k (rev_colex_perms n) []).
Proof. exact rev_colex_int_to_perm. Qed.

(** and the order is the one in the name *)
Theorem C05_order : forall n i j, i < j -> j < fact n ->
  rev_colex_lt (nth i (rev_colex_perms n) []) (nth j (rev_colex_perms n) []).
Proof. exact rev_colex_sorted. Qed.

Example C05_ex : 4 < fact 3 /\ nth 4 (rev_colex_perms 3) [] = [1; 2; 0] /\
  rev_colex_perms 3 = [[0;1;2]; [1;0;2]; [0;2;1]; [2;0;1]; [1;2;0]; [2;1;0]].
Proof. split; [vm_compute; lia | split; vm_compute; reflexivity]. Qed.

(** * C06 *)

Theorem C06_finite : forall arg, meaningful arg -> permutes arg ->
  exists p, Perm arg None = Ok p /\ bijective (pget p) /\ perilen p = None /\
    (forall i j, says arg i j -> pget p i = j) /\
    (forall i, (forall j, ~ says arg i j) -> pget p i = i).
Proof. exact ctor_finite. Qed.

Theorem C06_periodic : forall arg q, meaningful arg -> permutes arg -> fits arg q -> 0 < q ->
  exists p, Perm arg (Some q) = Ok p /\ bijective (pget p) /\ is_period (pget p) q /\
    (forall i j, i < q -> says arg i j -> pget p i = j) /\
    (forall i, i < q -> (forall j, ~ says arg i j) -> pget p i = i) /\
    (perilen p = None <-> forall i j, says arg i j -> i = j).
Proof. exact ctor_periodic. Qed.

Theorem C06_rejects_sequence : forall l peri, ~ Permutation l (seq 0 (length l)) ->
  Perm (ArgSeq l) peri = Err SequenceError.
Proof. exact ctor_reject_seq. Qed.

Theorem C06_rejects_dict : forall d peri, ~ Permutation (map fst d) (map snd d) ->
  Perm (ArgDict d) peri = Err DictError.
Proof. exact ctor_reject_dict. Qed.

Theorem C06_rejects_perilen : forall arg q, meaningful arg -> permutes arg -> ~ fits arg q ->
  Perm arg (Some q) = Err PerilenTooSmallError.
Proof. exact ctor_reject_perilen. Qed.

(** every Perm object, however obtained, is a bijection *)
Theorem C06_bijective : forall p, is_Perm p -> bijective (pget p).
Proof. exact obj_bij. Qed.

(** sequence(n) returns the first n values exactly when they are a permutation of 0..n-1 that determines
    the object (n reaches beyond every moved point, or is a multiple of the period); it rejects otherwise *)
Theorem C06_sequence : forall p n, is_Perm p ->
  (psequence p (Some n) = Ok (map (pget p) (seq 0 n)) /\ Permutation (map (pget p) (seq 0 n)) (seq 0 n)) \/
  (psequence p (Some n) = Err (match perilen p with Some _ => LengthMismatchPerilenError | None => LengthTooSmallError end) /\
   match perilen p with Some q => ~ Nat.divide q n | None => exists i, n <= i /\ pget p i <> i end).
Proof. exact sequence_spec. Qed.

(** without a length: the shortest prefix that determines the object *)
Theorem C06_sequence_default : forall p, is_Perm p ->
  exists n, psequence p None = Ok (map (pget p) (seq 0 n)) /\ Permutation (map (pget p) (seq 0 n)) (seq 0 n) /\
    match perilen p with
    | Some q => n = q
    | None => (forall i, n <= i -> pget p i = i) /\ forall m, (forall i, m <= i -> pget p i = i) -> n <= m
    end.
Proof. exact sequence_default. Qed.

Example C06_sequence_ex : exists p, Perm (ArgCycles [[0; 4; 2]; [1; 3]]) None = Ok p /\ is_Perm p /\
  psequence p None = Ok [4; 3; 0; 1; 2] /\ psequence p (Some 7) = Ok [4; 3; 0; 1; 2; 5; 6] /\
  psequence p (Some 4) = Err LengthTooSmallError.
Proof.
  destruct (Perm (ArgCycles [[0; 4; 2]; [1; 3]]) None) as [p|e] eqn:E; [|vm_compute in E; discriminate].
  exists p. split; [reflexivity|]. split; [refine (obj_new _ _ _ _ E); cbn; repeat constructor; cbn; lia|].
  vm_compute in E. inversion E; subst. split; [|split]; vm_compute; reflexivity.
Qed.

Example C06_ex : meaningful (ArgCycles [[0; 4; 2]; [1; 3]]) /\ fits (ArgCycles [[0; 4; 2]; [1; 3]]) 5 /\
  exists p, Perm (ArgCycles [[0; 4; 2]; [1; 3]]) (Some 5) = Ok p /\ map (pget p) (seq 0 7) = [4; 3; 0; 1; 2; 9; 8].
Proof.
  split; [|split].
  - cbn. repeat constructor; cbn; lia.
  - intros i j H _. inversion H as [|? c u v ? ? Hc E|? c ? ? u Hc E Ei|]; subst.
    + destruct Hc as [E|[E|[]]].
      * destruct u as [|? [|? [|? [|? ?]]]]; inversion E; lia.
      * destruct u as [|? [|? [|? ?]]]; inversion E; lia.
    + destruct Hc as [E|[E|[]]]; rewrite <- E; cbn; lia.
  - eexists. split; vm_compute; reflexivity.
Qed.

(** * C07 *)

(** The full claim fails: overlapping cycles are accepted and do not give a bijection. *)
Theorem C07_overlapping_cycles_refuted :
  exists cs p, Perm (ArgCycles cs) None = Ok p /\ ~ bijective (pget p).
Proof.
  exists [[0; 1]; [1; 2]]. eexists. split; [vm_compute; reflexivity|].
  intros [Hi _]. assert (H := Hi 0 2). vm_compute in H. specialize (H eq_refl). discriminate.
Qed.

Theorem C07_disjoint_cycles : forall cs, NoDup (concat cs) ->
  exists p, Perm (ArgCycles cs) None = Ok p /\ bijective (pget p).
Proof. exact disjoint_cycles. Qed.

Example C07_ex : NoDup (concat [[0; 1]; [2; 4; 3]]).
Proof. cbn. repeat constructor; cbn; lia. Qed.

(** * C08 *)

Theorem C08_equality : forall a b, is_Perm a -> is_Perm b ->
  (perm_eqb a b = true <-> forall x, pget a x = pget b x).
Proof. exact eq_actions. Qed.

(** equal actions imply equal attributes, so also the same kind and the same period *)
Theorem C08_attributes : forall a b, is_Perm a -> is_Perm b -> (forall x, pget a x = pget b x) ->
  perilen a = perilen b /\ plength a = plength b /\ neutral a = neutral b /\
  (forall k, dget (mapping a) k = dget (mapping b) k).
Proof. exact eq_attributes. Qed.

(** what the attributes neutral, perilen and length say about the action *)
Theorem C08_kind : forall p, is_Perm p ->
  (neutral p = true <-> forall x, pget p x = x) /\
  (perilen p = None <-> exists n, forall x, n <= x -> pget p x = x) /\
  (perilen p = None -> forall n, plength p <= n <-> forall x, n <= x -> pget p x = x) /\
  (forall q, perilen p = Some q -> plength p = q).
Proof.
  intros p H. assert (W := Proof_PermGroup.is_Perm_wf p H). split; [apply Proof_PermGroup.wf_moves, W|]. split; [|split].
  2: { intros E n. destruct (wf_finite_seq p W E) as (_ & _ & Hfix & Hlast). split; [intros Hl x Hx; apply Hfix; lia|].
       intro Hf. destruct (Nat.le_gt_cases (plength p) n) as [|Hgt]; [assumption|]. exfalso. apply Hlast; [lia|]. apply Hf. lia. }
  2: { intros q E. assert (K := Proof_Perm.wf_peri p W). rewrite E in K. apply K. }
  split; [apply finite_kind, H|]. intros (n & Hn).
  destruct (perilen p) as [q|] eqn:E; [|reflexivity]. exfalso. destruct (periodic_kind p q n H E) as (x & Hx & Hne). apply Hne, Hn, Hx.
Qed.

Theorem C08_minimal_period : forall p q, is_Perm p -> perilen p = Some q ->
  0 < q /\ is_period (pget p) q /\ (forall t, 0 < t -> is_period (pget p) t -> exists c, t = c * q).
Proof. exact min_period. Qed.

Example C08_ex : exists a b, Perm (ArgSeq [1; 0; 3; 2; 5; 4]) (Some 6) = Ok a /\
  Perm (ArgCycles [[1; 0]]) (Some 2) = Ok b /\ perm_eqb a b = true /\ perilen a = Some 2.
Proof. do 2 eexists. repeat split; vm_compute; reflexivity. Qed.

(** * C09 *)

Theorem C09_product : forall a b, is_Perm a -> is_Perm b ->
  neutral a = true \/ neutral b = true \/ (perilen a = None <-> perilen b = None) ->
  exists c, pmul a b = Ok c /\ is_Perm c /\ (forall x, pget c x = pget a (pget b x)) /\
    (perilen a = None -> perilen b = None -> perilen c = None).
Proof. exact mul_ok. Qed.

Theorem C09_product_rejected : forall a b, is_Perm a -> is_Perm b ->
  neutral a = false -> neutral b = false -> ~ (perilen a = None <-> perilen b = None) ->
  pmul a b = Err OtherPerilenMismatchError.
Proof. exact mul_reject. Qed.

Theorem C09_inverse : forall p, is_Perm p ->
  exists r, pinv p = Ok r /\ is_Perm r /\ (forall x, pget r (pget p x) = x) /\
    (forall x, pget p (pget r x) = x) /\ (perilen p = None <-> perilen r = None).
Proof. exact inv_ok. Qed.

Theorem C09_power : forall p k, is_Perm p ->
  exists r, ppow p k = Ok r /\ is_Perm r /\
    ((0 <= k)%Z -> forall x, pget r x = iter (pget p) (Z.to_nat k) x) /\
    ((k <= 0)%Z -> forall x, iter (pget p) (Z.to_nat (- k)) (pget r x) = x).
Proof. exact pow_ok. Qed.

Theorem C09_associative : forall a b c ab bc abc abc', is_Perm a -> is_Perm b -> is_Perm c ->
  pmul a b = Ok ab -> pmul b c = Ok bc -> pmul ab c = Ok abc -> pmul a bc = Ok abc' ->
  perm_eqb abc abc' = true.
Proof. exact group_laws. Qed.

Theorem C09_inverse_law : forall a r, is_Perm a -> pinv a = Ok r ->
  exists s t, pmul a r = Ok s /\ pmul r a = Ok t /\ neutral s = true /\ neutral t = true.
Proof. exact inverse_laws. Qed.

Example C09_ex : exists a b c, Perm (ArgSeq [1; 2; 0]) (Some 3) = Ok a /\ Perm (ArgSeq [1; 0]) (Some 2) = Ok b /\
  pmul a b = Ok c /\ perilen c = Some 6 /\ map (pget c) (seq 0 6) = [2; 1; 4; 0; 3; 5] /\
  exists r, ppow c (-2) = Ok r /\ map (pget r) (seq 0 6) = [4; 1; 3; 2; 0; 5].
Proof. do 3 eexists. repeat split; try (vm_compute; reflexivity). eexists. split; vm_compute; reflexivity. Qed.

(** * C10 *)

Theorem C10_cycles : forall p, is_Perm p ->
  exists cs, pcycles p = Ok cs /\ NoDup (concat cs) /\
    (forall x, In x (concat cs) <->
       pget p x <> x /\ match perilen p with Some q => x < q | None => True end) /\
    (forall i j, says (ArgCycles cs) i j -> pget p i = j) /\
    (forall c, In c cs -> 2 <= length c /\ forall x, In x c -> hd 0 c <= x) /\
    StronglySorted lt (map (hd 0) cs).
Proof. exact cycles_ok. Qed.

Theorem C10_rebuild : forall p, is_Perm p ->
  exists cs p', pcycles p = Ok cs /\ Perm (ArgCycles cs) (perilen p) = Ok p' /\ perm_eqb p' p = true.
Proof. exact cycles_rebuild_ok. Qed.

Theorem C10_order : forall p, is_Perm p ->
  exists n, porder p = Ok n /\ 0 < n /\
    forall k, (exists r, ppow p k = Ok r /\ neutral r = true) <-> (Z.of_nat n | k)%Z.
Proof. exact order_ok. Qed.

Theorem C10_cycles_dynamic : forall p q r, is_Perm p -> perilen p = Some q ->
  exists cs, cycles_dynamic p (Some (r * q)) = Ok cs /\ NoDup (concat cs) /\
    (forall x, In x (concat cs) <-> pget p x <> x /\ x < r * q) /\
    (forall i j, says (ArgCycles cs) i j -> pget p i = j).
Proof. exact cycles_dynamic_ok. Qed.

Example C10_ex : exists p, Perm (ArgSeq [4; 3; 0; 1; 2; 5]) None = Ok p /\
  pcycles p = Ok [[0; 4; 2]; [1; 3]] /\ porder p = Ok 6.
Proof. eexists. repeat split; vm_compute; reflexivity. Qed.

(** * C11 *)

Theorem C11_apply : forall (A : Type) (p : perm) (v : list A),
  is_Perm p -> perilen p = None -> plength p <= length v ->
  exists r, papply p v = Ok r /\ length r = length v /\
    forall i, i < length v -> nth_error r (pget p i) = nth_error v i.
Proof. exact @apply_long. Qed.

(** also for periodic permutations, if the vector is mapped into itself *)
Theorem C11_apply_general : forall (A : Type) (p : perm) (v : list A),
  is_Perm p -> (forall i, i < length v -> pget p i < length v) ->
  exists r, papply p v = Ok r /\ length r = length v /\
    forall i, i < length v -> nth_error r (pget p i) = nth_error v i.
Proof. exact @apply_ok. Qed.

Theorem C11_apply_short : forall (A : Type) (p : perm) (v : list A) i,
  is_Perm p -> i < length v -> length v <= pget p i -> papply p v = Err IndexErr.
Proof. exact @apply_err. Qed.

Theorem C11_action : forall (A : Type) (a b c : perm) (v : list A),
  is_Perm a -> is_Perm b -> pmul a b = Ok c ->
  (forall i, i < length v -> pget a i < length v) -> (forall i, i < length v -> pget b i < length v) ->
  exists w r, papply b v = Ok w /\ papply a w = Ok r /\ papply c v = Ok r.
Proof. exact @apply_mul. Qed.

Theorem C11_parity : forall p L, is_Perm p -> perilen p = None -> NoDup L ->
  (forall a b, In (a, b) L <-> a < b /\ pget p b < pget p a) -> pparity p = length L mod 2.
Proof. exact parity_counts. Qed.

Theorem C11_parity_additive : forall a b c, is_Perm a -> is_Perm b ->
  perilen a = None -> perilen b = None -> pmul a b = Ok c ->
  pparity c = (pparity a + pparity b) mod 2.
Proof. exact parity_mul. Qed.

(** for periodic permutations the parity counts the inversions of one (minimal) period only
    and is not additive *)
Theorem C11_parity_periodic_refuted : exists a b c, is_Perm a /\ is_Perm b /\ pmul a b = Ok c /\
  pparity c <> (pparity a + pparity b) mod 2.
Proof.
  do 3 eexists. repeat split.
  - apply (obj_new (ArgSeq [1; 0; 3; 2]) (Some 4)); [exact I | vm_compute; reflexivity].
  - apply (obj_new (ArgSeq [1; 0; 2; 3]) (Some 4)); [exact I | vm_compute; reflexivity].
  - vm_compute. reflexivity.
  - vm_compute. discriminate.
Qed.

Example C11_ex : exists p, Perm (ArgSeq [2; 0; 1]) None = Ok p /\
  papply p [10; 20; 30; 40] = Ok [20; 30; 10; 40] /\ plength p = 3 /\ pparity p = 0.
Proof. eexists. repeat split; vm_compute; reflexivity. Qed.

Print Assumptions C03_number_roundtrip.
Print Assumptions C03_perm_roundtrip.
Print Assumptions C03_factorial.
Print Assumptions C03_right_rank.
Print Assumptions C03_right_rank_total.
Print Assumptions C04_left.
Print Assumptions C04_left_total.
Print Assumptions C04_left_reject.
Print Assumptions C04_right.
Print Assumptions C04_right_total.
Print Assumptions C04_right_reject.
Print Assumptions C04_inversion_set.
Print Assumptions C05_entry.
Print Assumptions C05_complete.
Print Assumptions C05_order.
Print Assumptions C06_finite.
Print Assumptions C06_periodic.
Print Assumptions C06_bijective.
Print Assumptions C06_sequence.
Print Assumptions C06_sequence_default.
Print Assumptions C07_overlapping_cycles_refuted.
Print Assumptions C07_disjoint_cycles.
Print Assumptions C08_equality.
Print Assumptions C08_attributes.
Print Assumptions C08_minimal_period.
Print Assumptions C08_kind.
Print Assumptions C09_product.
Print Assumptions C09_product_rejected.
Print Assumptions C09_inverse.
Print Assumptions C09_power.
Print Assumptions C09_associative.
Print Assumptions C09_inverse_law.
Print Assumptions C10_cycles.
Print Assumptions C10_rebuild.
Print Assumptions C10_order.
Print Assumptions C10_cycles_dynamic.
Print Assumptions C11_apply.
Print Assumptions C11_apply_general.
Print Assumptions C11_action.
Print Assumptions C11_parity.
Print Assumptions C11_parity_additive.
Print Assumptions C11_parity_periodic_refuted.
