(** Props_Segments: property C41, the segments of a Boolean function. *)

From Coq Require Import List Arith ZArith Bool Lia Permutation Sorted Relations.
From Verif Require Import Model_Base Lib Model_Binary Model_Boolf Model_Splits Model_Segments
  Spec_Bits Spec_Boolf Spec_Splits Spec_Segments Proof_Binary Proof_Boolf Proof_BoolfTable Proof_BoolfMake Proof_Splits Proof_Segments Proof_SegmentsMore Props_Boolf.
Import ListNotations.
Open Scope nat_scope.

Lemma dimension_count w : dimension w = count_occ Z.eq_dec w 0%Z.
Proof.
  unfold dimension. induction w as [|x w IH]; cbn [filter count_occ]; [reflexivity|]. destruct (Z.eq_dec x 0) as [->|Hx]; [rewrite Z.eqb_refl; cbn; rewrite IH; reflexivity|].
  apply Z.eqb_neq in Hx. rewrite Hx. exact IH.
Qed.

(** whatever the order of the spots: the collection is built (all recursive demands end, no
    assertion fails), and its vectors are exactly those cubes on which the function is true *)
Theorem C41_segments : forall i f order, made i f -> Permutation (order (fullspots f)) (fullspots f) ->
  exists c, CollectionOfSegments order f = Ok c /\ NoDup (segs c) /\ forall w, In w (segs c) <-> implicant f w.
Proof.
  intros i f order Hf Ho. destruct (collection_ok order f (m_fit i f Hf) Ho) as [c [E [Hi Hc]]]. exists c. split; [exact E|]. split; [apply Hi|].
  intro w. rewrite Hc. symmetry. apply implicant_covered. apply (m_fit i f Hf).
Qed.
Print Assumptions C41_segments.

(** ... and it counts them by the number of zeros *)
Theorem C41_numbers : forall i f order c, made i f -> Permutation (order (fullspots f)) (fullspots f) -> CollectionOfSegments order f = Ok c ->
  length (number_by_dimension c) = valency f + 1 /\
  forall d, d <= valency f -> nth d (number_by_dimension c) 0 = length (filter (fun w => Nat.eqb (count_occ Z.eq_dec w 0%Z) d) (segs c)).
Proof.
  intros i f order c Hf Ho E. destruct (collection_ok order f (m_fit i f Hf) Ho) as [c' [E' [[_ [_ [H1 H2]]] _]]]. rewrite E in E'. injection E' as <-.
  split; [exact H1|]. intros d Hd. rewrite H2 by exact Hd. unfold count_dim. f_equal. apply filter_ext. intro w. rewrite dimension_count. reflexivity.
Qed.
Print Assumptions C41_numbers.

(** the order of the spots changes only the order of the segments *)
Theorem C41_any_order : forall i f order order', made i f -> Permutation (order (fullspots f)) (fullspots f) -> Permutation (order' (fullspots f)) (fullspots f) ->
  exists c c', CollectionOfSegments order f = Ok c /\ CollectionOfSegments order' f = Ok c' /\ Permutation (segs c) (segs c') /\ number_by_dimension c = number_by_dimension c'.
Proof.
  intros i f order order' Hf Ho Ho'. destruct (C41_segments i f order Hf Ho) as [c [E [N M]]]. destruct (C41_segments i f order' Hf Ho') as [c' [E' [N' M']]].
  exists c, c'. split; [exact E|]. split; [exact E'|].
  assert (P : Permutation (segs c) (segs c')) by (apply NoDup_Permutation; [exact N | exact N' | intro w; rewrite M, M'; reflexivity]). split; [exact P|].
  destruct (C41_numbers i f order c Hf Ho E) as [L K]. destruct (C41_numbers i f order' c' Hf Ho' E') as [L' K'].
  apply (nth_ext _ _ 0 0); [congruence|]. intros d Hd. rewrite K, K' by lia. apply Permutation_length. clear -P.
  induction P; cbn [filter]; [constructor | destruct (_ =? d); [constructor|]; assumption | destruct (_ =? d), (_ =? d); try apply Permutation_refl; apply perm_swap | eapply perm_trans; eassumption].
Qed.
Print Assumptions C41_any_order.

(** the inferiors of a segment, and the common superior of two neighbors, are in the collection *)
Theorem C41_closed : forall i f order c w k, made i f -> Permutation (order (fullspots f)) (fullspots f) -> CollectionOfSegments order f = Ok c ->
  In w (segs c) -> k < valency f ->
  (nth k w 0%Z = 0%Z -> In (lset w k 1%Z) (segs c) /\ In (lset w k (-1)%Z) (segs c)) /\
  (nth k w 0%Z <> 0%Z -> In (lset w k (- nth k w 0)%Z) (segs c) -> In (lset w k 0%Z) (segs c)).
Proof.
  intros i f order c w k Hf Ho E Hw Hk. destruct (collection_ok order f (m_fit i f Hf) Ho) as [c' [E' [_ Hc]]]. rewrite E in E'. injection E' as <-.
  apply Hc in Hw as [Tw Cw]. assert (Hl : k < length w) by (rewrite (proj1 Tw); exact Hk). split.
  - intro Hz. split; apply Hc; (split; [apply ternary_lset; auto | apply covered_inf; assumption]).
  - intros Hz Hn. apply Hc in Hn as [_ Cn]. apply Hc. split; [apply ternary_lset; auto | apply (covered_sup (full f) (valency f)); assumption].
Qed.
Print Assumptions C41_closed.

(** * Spots and links *)

(** get_spots gives the true places *)
Theorem C41_spots : forall i f order c, made i f -> Permutation (order (fullspots f)) (fullspots f) -> CollectionOfSegments order f = Ok c ->
  NoDup (get_spots c) /\ forall n, In n (get_spots c) <-> full f n.
Proof.
  intros i f order c Hf Ho E. destruct (collection_ok order f (m_fit i f Hf) Ho) as [c' [E' [_ Hc]]]. rewrite E in E'. injection E' as <-.
  apply get_spots_ok; [apply (m_fit i f Hf) | exact Hc].
Qed.
Print Assumptions C41_spots.

(** get_links gives for each atom the pairs of true places that differ only in that atom, the
    place without it first; each pair once, atoms without pairs are left out *)
Theorem C41_links : forall i f order c, made i f -> Permutation (order (fullspots f)) (fullspots f) -> CollectionOfSegments order f = Ok c ->
  exists d, get_links c = Ok d /\ NoDup (map fst d) /\ (forall k s, In (k, s) d -> NoDup s /\ s <> []) /\
    forall k p, (exists s, In (k, s) d /\ In p s) <-> link f k p.
Proof.
  intros i f order c Hf Ho E. destruct (collection_ok order f (m_fit i f Hf) Ho) as [c' [E' [_ Hc]]]. rewrite E in E'. injection E' as <-.
  destruct (get_links_ok f c (m_fit i f Hf) Hc) as [d [Ed [[D1 D2] M]]]. exists d. auto.
Qed.
Print Assumptions C41_links.

(** get_neighboring_links gives for each atom the pairs of parallel links on squares *)
Theorem C41_neighboring_links : forall i f order c, made i f -> Permutation (order (fullspots f)) (fullspots f) -> CollectionOfSegments order f = Ok c ->
  exists d, get_neighboring_links c = Ok d /\ NoDup (map fst d) /\ (forall k s, In (k, s) d -> NoDup s /\ s <> []) /\
    forall k p q, (exists s, In (k, s) d /\ In (p, q) s) <-> square f k p q.
Proof.
  intros i f order c Hf Ho E. destruct (collection_ok order f (m_fit i f Hf) Ho) as [c' [E' [_ Hc]]]. rewrite E in E'. injection E' as <-.
  destruct (get_neighboring_links_ok f c (m_fit i f Hf) Hc) as [d [Ed [[D1 D2] M]]]. exists d. split; [exact Ed|]. split; [exact D1|]. split; [exact D2|].
  intros k p q. apply (M k (p, q)).
Qed.
Print Assumptions C41_neighboring_links.

(** segment_to_adjacent_spots: the places of the cube, ascending *)
Theorem C41_adjacent_spots : forall n w, ternary n w -> exists l, segment_to_adjacent_spots w = Ok l /\ StronglySorted lt l /\ forall m, In m l <-> in_cube w m.
Proof. exact adjacent_ok. Qed.
Print Assumptions C41_adjacent_spots.

Theorem C41_adjacent_spots_rejected : forall w x, In x w -> x <> (-1)%Z -> x <> 0%Z -> x <> 1%Z -> segment_to_adjacent_spots w = Err KeyErr.
Proof. exact adjacent_reject. Qed.
Print Assumptions C41_adjacent_spots_rejected.

(** * The first result of find_segments *)

(** it tells if there is a true place, if the true places are connected by links, and for every
    atom if its links are connected through squares *)
Theorem C41_find_segments : forall i f order, made i f -> Permutation (order (fullspots f)) (fullspots f) ->
  exists r c, find_segments order f = Ok (r, c) /\ CollectionOfSegments order f = Ok c /\
    (r = true <-> satisfiable f /\ connected (full f) (fun x y => exists k, link f k (x, y)) /\
                  forall k, k < valency f -> connected (link f k) (square f k)).
Proof.
  intros i f order Hf Ho. destruct (find_segments_ok order f (m_fit i f Hf) Ho) as [r [c [E [Ec H]]]]. exists r, c. split; [exact E|]. split; [exact Ec|].
  rewrite H. assert (S : (exists n, full f n) <-> satisfiable f); [|rewrite S; reflexivity].
  split.
  - intros [n Hn]. exists (asg (atomvals f) n). rewrite sem_place_asg; [exact Hn | apply (m_fit i f Hf) | apply place_bound; [apply (m_fit i f Hf) | exact Hn]].
  - intros [e He]. exists (b2n (map e (atomvals f))). exact He.
Qed.
Print Assumptions C41_find_segments.

(** * Examples *)

(** x1 and (x4 or x7): three spots, two links, connected *)
Example C41_ex : exists f c, Boolf_vec [false; false; false; true; false; true; false; true] [1; 4; 7] = Ok f /\ made false f /\
  find_segments (@rev nat) f = Ok (true, c) /\ number_by_dimension c = [3; 2; 0; 0] /\ get_spots c = [7; 5; 3] /\
  get_links c = Ok [(1, [(5, 7)]); (2, [(3, 7)])] /\ Permutation (rev (fullspots f)) (fullspots f).
Proof.
  destruct (Boolf_vec_sorted [false; false; false; true; false; true; false; true] [1; 4; 7]) as [f [E [R _]]]; [repeat constructor | reflexivity|].
  destruct (find_segments (@rev nat) f) as [[r c]|] eqn:Ec; [|vm_compute in E; injection E as <-; vm_compute in Ec; discriminate Ec].
  exists f, c. split; [exact E|]. split; [apply reduced_made; exact R|]. vm_compute in E. injection E as <-. vm_compute in Ec. injection Ec as <- <-.
  split; [reflexivity|]. do 3 (split; [vm_compute; reflexivity|]). apply Permutation_sym, Permutation_rev.
Qed.

(** x0 or x1 or x2: 7 spots, 9 links, 3 squares; x0 xor x1 is not connected *)
Example C41_ex2 : exists f c g c', Boolf_vec [false; true; true; true; true; true; true; true] [0; 1; 2] = Ok f /\ made false f /\
  find_segments (fun l => l) f = Ok (true, c) /\ number_by_dimension c = [7; 9; 3; 0] /\ inquire c [0; 1; 0]%Z = true /\
  Boolf_vec [false; true; true; false] [0; 1] = Ok g /\ find_segments (fun l => l) g = Ok (false, c') /\
  segment_to_adjacent_spots [0; 1; -1; 0]%Z = Ok [2; 3; 10; 11].
Proof.
  destruct (Boolf_vec_sorted [false; true; true; true; true; true; true; true] [0; 1; 2]) as [f [E [R _]]]; [repeat constructor | reflexivity|].
  destruct (find_segments (fun l => l) f) as [[r c]|] eqn:Ec; [|vm_compute in E; injection E as <-; vm_compute in Ec; discriminate Ec].
  destruct (Boolf_vec [false; true; true; false] [0; 1]) as [g|] eqn:Eg; [|vm_compute in Eg; discriminate Eg].
  destruct (find_segments (fun l => l) g) as [[r' c']|] eqn:Ec'; [|vm_compute in Eg; injection Eg as <-; vm_compute in Ec'; discriminate Ec'].
  exists f, c, g, c'. split; [exact E|]. split; [apply reduced_made; exact R|]. vm_compute in E. injection E as <-. vm_compute in Ec. injection Ec as <- <-.
  vm_compute in Eg. injection Eg as <-. vm_compute in Ec'. injection Ec' as <- <-. split; [reflexivity|]. do 2 (split; [vm_compute; reflexivity|]). do 2 (split; [reflexivity|]). vm_compute; reflexivity.
Qed.
