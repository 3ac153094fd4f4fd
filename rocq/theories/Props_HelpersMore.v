(** Props_HelpersMore: C60 to C69, further helper functions. *)

From Coq Require Import List Arith ZArith Bool Lia Relations Permutation Sorted.
From Verif Require Import Model_Base Model_Binary Model_Perm Model_SetPart Model_SigPerm Model_Boolf Model_BoolfMore Model_Helpers
  Spec_Bits Spec_Perm Spec_SetPart Spec_SigPerm Spec_Boolf Spec_Helpers Lib Proof_Binary Proof_SetPartObj Proof_BoolfMake
  Proof_Hasse Proof_Containers Proof_Seqs Proof_HelpersBits Proof_HelpersMore.
Import ListNotations.
Open Scope nat_scope.

(** * C60: create_hasse_matrix *)

(** the matrix has an entry 1 exactly where one node is directly under another, and with indirect
    edges an entry 2 exactly where it is indirectly under it *)
Theorem C60_hasse : forall (A : Type) (nodes : list A) (under : A -> A -> bool) (indirect : bool), nodes <> [] ->
  exists m, create_hasse_matrix nodes under indirect = Ok m /\
    length m = length nodes /\ Forall (fun row => length row = length nodes) m /\
    forall i j, i < length nodes -> j < length nodes ->
      exists row x, nth_error m i = Some row /\ nth_error row j = Some x /\
        (x = 1 <-> covers nodes under i j) /\
        (x = 2 <-> indirect = true /\ related nodes under i j /\ through nodes under i j) /\
        (x = 0 <-> ~ related nodes under i j \/ (indirect = false /\ through nodes under i j)).
Proof.
  intros A nodes under w NE. rewrite (create_hasse_ok nodes under w NE).
  set (F := if w then final nodes under else (fun i j => final nodes under i j mod 2)).
  exists (grid nodes F). split; [unfold F; now destruct w|].
  destruct (grid_shape nodes F) as [G1 G2]. split; [exact G1|]. split; [exact G2|].
  intros i j Hi Hj.
  destruct (nth_error (grid nodes F) i) as [row|] eqn:Er; [|apply nth_error_None in Er; lia].
  assert (Lr : length row = length nodes) by (rewrite Forall_forall in G2; apply G2; now apply nth_error_In in Er).
  destruct (nth_error row j) as [x|] eqn:Ex; [|apply nth_error_None in Ex; lia].
  exists row, x. split; [reflexivity|]. split; [exact Ex|].
  assert (Hx : x = F i j).
  { rewrite <- (entry_grid nodes F i j Hi Hj). unfold Model_Helpers.entry. rewrite (nth_error_nth _ _ [] Er). symmetry. now apply nth_error_nth. }
  destruct (final_spec nodes under i j) as [F1 [F2 F0]].
  assert (F3 : final nodes under i j = 0 \/ final nodes under i j = 1 \/ final nodes under i j = 2).
  { unfold final. repeat match goal with |- context [if ?b then _ else _] => destruct b end; auto. }
  assert (Cr : covers nodes under i j -> related nodes under i j /\ ~ through nodes under i j) by (intros [H1 H2]; auto).
  rewrite Hx. unfold F. destruct w.
  - split; [exact F1|]. split; [rewrite F2; tauto|]. rewrite F0. split; [now left|]. intros [H|[H _]]; [exact H | discriminate].
  - destruct F3 as [E|[E|E]]; rewrite E; cbn; rewrite E in F0, F1, F2.
    + split; [split; [discriminate|]; intros H; apply F1 in H; discriminate|].
      split; [split; [discriminate | intros [H _]; discriminate]|]. split; [intros _; left; now apply F0 | reflexivity].
    + split; [exact F1|]. split; [split; [discriminate | intros [H _]; discriminate]|].
      split; [discriminate|]. intros H. exfalso. destruct (Cr (proj1 F1 eq_refl)). tauto.
    + destruct (proj1 F2 eq_refl) as [R T].
      split; [split; [discriminate|]; intros H; apply Cr in H; tauto|].
      split; [split; [discriminate | intros [H _]; discriminate]|]. split; [intros _; right; auto | reflexivity].
Qed.
Print Assumptions C60_hasse.

(** for a partial order the direct edges generate the relation, and every set of edges that
    generates it contains them: they are its transitive reduction *)
Theorem C60_reduction : forall (A : Type) (nodes : list A) (under : A -> A -> bool), is_order nodes under ->
  (forall i j, clos_trans nat (covers nodes under) i j <-> related nodes under i j) /\
  (forall E : nat -> nat -> Prop, (forall i j, clos_trans nat E i j <-> related nodes under i j) ->
     forall i j, covers nodes under i j -> E i j).
Proof.
  intros A nodes under O. split; [now apply covers_closure | intros E; now apply covers_minimal].
Qed.
Print Assumptions C60_reduction.

(** without nodes there is an exception *)
Theorem C60_empty_refuted : exists (under : nat -> nat -> bool), forall w, create_hasse_matrix [] under w = Err TypeErr.
Proof. exists Nat.leb. reflexivity. Qed.

Example C60_ex : create_hasse_matrix [0; 1; 2; 3] (fun a b => Nat.eqb (Nat.land a b) a) true =
  Ok [[0; 1; 1; 2]; [0; 0; 0; 1]; [0; 0; 0; 1]; [0; 0; 0; 0]] /\ is_order [0; 1; 2; 3] (fun a b => Nat.eqb (Nat.land a b) a).
Proof.
  split; [reflexivity|]. split; [repeat constructor; cbn; lia|]. split.
  - intros a b _ _ H K. apply Nat.eqb_eq in H, K. rewrite Nat.land_comm in K. congruence.
  - intros a b c _ _ _ H K. apply Nat.eqb_eq in H, K. apply Nat.eqb_eq. rewrite <- H, <- Nat.land_assoc, K. reflexivity.
Qed.

(** * C61: nested containers *)

(** key_tuples lists the keys of the paths to all leaves, in depth-first order *)
Theorem C61_key_tuples : forall c : item, c <> Other -> exists ts ps,
  key_tuples c false = Ok ts /\ StronglySorted lex_before ps /\ (forall p, In p ps <-> leaf_path c p) /\
  map (fun p => option_map fst (walk c p)) ps = map Some ts.
Proof. exact key_tuples_correct. Qed.
Print Assumptions C61_key_tuples.

Theorem C61_different : forall (c : item) ts, unique_keys c -> key_tuples c false = Ok ts -> NoDup ts.
Proof. exact key_tuples_different. Qed.
Print Assumptions C61_different.

(** flatten lists all values, in depth-first order *)
Theorem C61_flatten : forall (A : Type) (l : list (nested A)), exists ps,
  StronglySorted lex_before ps /\ (forall p, In p ps <-> exists a, nested_at (Seq l) p = Some (Val a)) /\
  map (nested_at (Seq l)) ps = map (fun a => Some (Val a)) (flatten l).
Proof. exact @flatten_correct. Qed.
Print Assumptions C61_flatten.

Example C61_ex :
  let c := Dct [(7, Lst [Other; Dct []; Lst [Other]]); (3, Other)] in
  key_tuples c false = Ok [[7; 0]; [7; 1]; [7; 2; 0]; [3]] /\ unique_keys c /\ c <> Other /\
  flatten [Val 5; Seq [Seq [Val 6]; Seq []; Val 5]] = [5; 6; 5].
Proof.
  cbn zeta. split; [reflexivity|]. split; [|split; [discriminate | reflexivity]].
  constructor; [repeat constructor; cbn; lia|]. repeat constructor.
Qed.

(** * C62: slices of a permutation *)

(** p[a:b:s] with a positive step lists the images of a, a + s, ... below b *)
Theorem C62_slice : forall p (a b s : Z), (0 <= a)%Z -> (0 < s)%Z -> forall start stop step,
  start = Some a \/ (start = None /\ a = 0%Z) ->
  stop = Some b \/ (stop = None /\ b = Z.of_nat (plength p)) ->
  step = Some s \/ (step = None /\ s = 1%Z) ->
  exists idx, pslice p start stop step = Ok (map (fun i => Some (pget p i)) idx) /\ StronglySorted lt idx /\
    forall i, In i idx <-> exists k, (0 <= k /\ Z.of_nat i = a + k * s /\ Z.of_nat i < b)%Z.
Proof. exact pslice_up. Qed.
Print Assumptions C62_slice.

(** a range with an explicit stop, in both directions, and its exceptions *)
Theorem C62_range : forall a b s : Z, s <> 0%Z -> exists l, slice_to_range (Some a) (Some b) (Some s) None = Ok l /\
  (forall x, In x l <-> exists k, (0 <= k /\ x = a + k * s)%Z /\ (if 0 <? s then x < b else b < x)%Z) /\
  StronglySorted (if (0 <? s)%Z then Z.lt else Z.gt) l.
Proof.
  intros a b s Hs. unfold slice_to_range. destruct (Z.ltb_spec 0 s) as [L|L].
  - destruct (py_range_up a b s L) as [l [E [H S]]]. exists l. split; [exact E|]. split; [|exact S].
    intros x. rewrite H. split; intros [k K]; exists k; tauto.
  - destruct (py_range_down a b s ltac:(lia)) as [l [E [H S]]]. exists l. split; [exact E|]. split; [|exact S].
    intros x. rewrite H. split; intros [k K]; exists k; tauto.
Qed.
Print Assumptions C62_range.
Theorem C62_errors : forall start stop step fallback,
  (stop = None -> slice_to_range start None step None = Err StopMissingError) /\
  (stop <> None \/ fallback <> None -> slice_to_range start stop (Some 0%Z) fallback = Err ValueErr).
Proof.
  intros start stop step fallback. split; [reflexivity|]. intros H. unfold slice_to_range, py_range.
  destruct stop; [reflexivity|]. destruct fallback; [reflexivity|]. destruct H; congruence.
Qed.

(** the slices of Python's sequences behave differently: a reversed slice and a negative stop give
    the empty list, and a negative start gives None *)
Theorem C62_python_slices_refuted : exists p, Perm (ArgSeq [2; 0; 1]) None = Ok p /\
  pslice p None None (Some (-1)%Z) = Ok [] /\ pslice p None (Some (-1)%Z) None = Ok [] /\
  pslice p (Some (-1)%Z) None None = Ok [None; Some 2; Some 0; Some 1].
Proof. eexists. split; [vm_compute; reflexivity|]. split; [reflexivity|]. split; reflexivity. Qed.

Example C62_ex : exists p, Perm (ArgSeq [2; 0; 1]) None = Ok p /\
  pslice p (Some 1%Z) (Some 7%Z) (Some 2%Z) = Ok [Some 0; Some 3; Some 5] /\
  slice_to_range (Some 7%Z) (Some 1%Z) (Some (-2)%Z) None = Ok [7; 5; 3]%Z.
Proof. eexists. split; [vm_compute; reflexivity|]. split; reflexivity. Qed.

(** * C63: products and multisets *)

(** inverse_cartesian_product accepts exactly the products and returns their factors *)
Theorem C63_product_sound : forall pairs ls rs, inverse_cartesian_product pairs = Ok (ls, rs) ->
  StronglySorted lt ls /\ StronglySorted lt rs /\ Permutation pairs (list_prod ls rs).
Proof. intros pairs ls rs H. apply icp_sound in H. tauto. Qed.
Print Assumptions C63_product_sound.
Theorem C63_product_complete : forall pairs l r, NoDup l -> NoDup r -> l <> [] -> r <> [] -> Permutation pairs (list_prod l r) ->
  exists ls rs, inverse_cartesian_product pairs = Ok (ls, rs) /\ Permutation ls l /\ Permutation rs r.
Proof.
  intros pairs l r Nl Nr El Er P. exists (sort_nat l), (sort_nat r). split; [now apply icp_complete|].
  split; apply Permutation_sym, sort_nat_perm.
Qed.
Print Assumptions C63_product_complete.
Theorem C63_product_reject : forall pairs, ~ (exists l r, NoDup l /\ NoDup r /\ Permutation pairs (list_prod l r)) ->
  inverse_cartesian_product pairs = Err AssertErr.
Proof.
  intros pairs H. destruct (inverse_cartesian_product pairs) as [[ls rs]|e] eqn:E.
  - exfalso. apply H. apply icp_sound in E. destruct E as [S1 [S2 [P _]]]. exists ls, rs.
    assert (G : forall l, StronglySorted lt l -> NoDup l).
    { induction 1 as [|x l _ IH F]; constructor; [|exact IH]. intros I. rewrite Forall_forall in F. specialize (F x I). lia. }
    auto.
  - unfold inverse_cartesian_product in E. destruct (pairs_eqb _ _); [discriminate | injection E as <-; reflexivity].
Qed.
Print Assumptions C63_product_reject.

Theorem C63_multisubset : forall a b : dict, NoDup (dkeys a) -> NoDup (dkeys b) ->
  (is_multisubset a b = true <-> forall x m n, multiplicity a x m -> multiplicity b x n -> m <= n).
Proof. exact is_multisubset_ok. Qed.
Print Assumptions C63_multisubset.

Theorem C63_distri : forall (d : dict) (vs r : list nat), NoDup (dkeys d) ->
  (multiset_to_distri d vs = Ok r <->
   (forall x, In x (map fst d) -> In x vs) /\ length r = length vs /\
   forall i, i < length vs -> multiplicity d (nth i vs 0) (nth i r 0)).
Proof. exact multiset_to_distri_ok. Qed.
Print Assumptions C63_distri.

Example C63_ex :
  inverse_cartesian_product [(2, 7); (1, 5); (1, 7); (2, 5)] = Ok ([1; 2], [5; 7]) /\
  inverse_cartesian_product [(2, 7); (1, 5); (1, 7)] = Err AssertErr /\
  is_multisubset [(4, 2); (9, 0)] [(4, 3)] = true /\ is_multisubset [(4, 2); (9, 1)] [(4, 3)] = false /\
  multiset_to_distri [(4, 2); (1, 3)] [1; 2; 4] = Ok [3; 0; 2] /\ multiset_to_distri [(4, 2); (3, 3)] [1; 2; 4] = Err AssertErr.
Proof. do 5 (split; [reflexivity|]). reflexivity. Qed.

(** * C64: sequences, matrices, dictionaries *)

Theorem C64_transposition : forall a b n, a < n -> b < n -> a <> b -> exists s,
  make_transposition (Z.of_nat a) (Z.of_nat b) n = Ok s /\ length s = n /\
  nth a s 0%Z = Z.of_nat b /\ nth b s 0%Z = Z.of_nat a /\ forall i, i < n -> i <> a -> i <> b -> nth i s 0%Z = Z.of_nat i.
Proof.
  intros a b n Ha Hb N. destruct (make_transposition_ok a b n Ha Hb N) as [s [E [L H]]]. exists s. split; [exact E|]. split; [exact L|].
  split; [|split].
  - rewrite H by exact Ha. now rewrite Nat.eqb_refl.
  - rewrite H by exact Hb. destruct (Nat.eqb_spec b a); [congruence|]. now rewrite Nat.eqb_refl.
  - intros i Hi N1 N2. rewrite H by exact Hi. destruct (Nat.eqb_spec i a); [congruence|]. now destruct (Nat.eqb_spec i b).
Qed.
Print Assumptions C64_transposition.
Theorem C64_transposition_errors : forall (a b : Z) n, a = b \/ (Z.of_nat n <= a)%Z \/ (Z.of_nat n <= b)%Z ->
  make_transposition a b n = Err ArgValueError.
Proof. exact make_transposition_errors. Qed.
(** negative arguments are not refused, and the result is not a permutation *)
Theorem C64_transposition_negative_refuted : exists a b n s, make_transposition a b n = Ok s /\
  ~ Permutation s (map Z.of_nat (range n)).
Proof.
  exists (-1)%Z, 0%Z, 3, [-1; 1; 0]%Z. split; [reflexivity|]. intros P.
  pose proof (Permutation_in (-1)%Z P (or_introl eq_refl)) as I. cbn in I. lia.
Qed.

Theorem C64_repeat : forall (A : Type) (l : list A) (t : nat) (d : A) (r : list A),
  repeat_sequence l t = Ok r <->
  l <> [] /\ length r = t /\ t mod length l = 0 /\ forall i, i < t -> nth i r d = nth (i mod length l) l d.
Proof. exact @repeat_sequence_ok. Qed.
Print Assumptions C64_repeat.

Theorem C64_swap_rows : forall (A : Type) (m : list (list A)) a b, a < length m -> b < length m -> exists m',
  swap_matrix_rows m a b = Ok m' /\ length m' = length m /\ nth a m' [] = nth b m [] /\ nth b m' [] = nth a m [] /\
  (forall i, i <> a -> i <> b -> nth i m' [] = nth i m []) /\ swap_matrix_rows m' a b = Ok m.
Proof. exact @swap_rows_ok. Qed.
Print Assumptions C64_swap_rows.

(** every entry is replaced by the number of its earlier occurrences *)
Theorem C64_entry_counts : forall l : list nat, length (sequence_to_entry_counts l) = length l /\
  forall i, i < length l -> nth i (sequence_to_entry_counts l) 0 = count_occ Nat.eq_dec (firstn i l) (nth i l 0).
Proof. exact sequence_counts_ok. Qed.
Print Assumptions C64_entry_counts.

(** all ways of leaving out entries, by increasing length; 2^n of them *)
Theorem C64_powerset : forall (A : Type) (l : list A),
  (forall s, In s (powerset l) <-> sublist s l) /\ length (powerset l) = 2 ^ length l /\
  StronglySorted (fun s t => length s <= length t) (powerset l) /\ (NoDup l -> NoDup (powerset l)).
Proof.
  intros A l. split; [apply powerset_In|]. split; [apply powerset_length|]. split; [apply powerset_sorted | apply powerset_NoDup].
Qed.
Print Assumptions C64_powerset.

Theorem C64_subdict : forall order (original : dict) (drop : list nat) (fresh : dict),
  (forall l, Permutation (order l) l) -> NoDup (dkeys original) -> NoDup (dkeys fresh) ->
  exists r, subdict order original (Some drop) (Some fresh) = Ok r /\
    forall k v, dget r k = Some v <-> dget fresh k = Some v \/ (dget fresh k = None /\ ~ In k drop /\ dget original k = Some v).
Proof.
  intros order original drop fresh P N1 N2. destruct (subdict_ok order original drop fresh P N1 N2) as [r [E H]].
  exists r. split; [exact E|]. intros k v. rewrite H. destruct (dget fresh k) as [w|].
  - split; [now left|]. intros [K|[K _]]; [exact K | discriminate].
  - destruct (memb k drop) eqn:M.
    + apply memb_In in M. split; [discriminate|]. intros [K|[_ [K _]]]; [discriminate | contradiction].
    + apply memb_false in M. split; [intros K; right; auto|]. intros [K|[_ [_ K]]]; [discriminate | exact K].
Qed.
Print Assumptions C64_subdict.
(** without new entries (the default) there is always an exception *)
Theorem C64_subdict_default : forall order (original : dict) drop, (forall l, Permutation (order l) l) ->
  subdict order original drop None = Err AttributeErr.
Proof.
  intros order original drop P. unfold subdict.
  set (keys := match drop with Some d => filter (fun k => negb (memb k d)) (nodupb (dkeys original)) | None => nodupb (dkeys original) end).
  assert (I : forall k, In k keys -> exists v, dlookup original k = Ok v).
  { intros k Hk. assert (K : In k (dkeys original)).
    { unfold keys in Hk. destruct drop; [apply filter_In in Hk; destruct Hk as [Hk _]|]; apply nodupb_In; exact Hk. }
    unfold dlookup. destruct (dget original k) as [v|] eqn:G; [now exists v|]. apply dget_None in G. contradiction. }
  assert (G : forall l acc, (forall k, In k l -> In k keys) -> exists r,
    foldM (fun result key => let* v := dlookup original key in Ok (dset result key v)) l acc = Ok r).
  { induction l as [|k l IH]; intros acc H; [now exists acc|]. cbn [foldM]. destruct (I k) as [v ->]; [apply H; now left|].
    cbn [bind]. apply IH. intros; apply H; now right. }
  destruct (G (order keys) [] (fun k H => Permutation_in k (P keys) H)) as [r E]. cbn zeta. fold keys. rewrite E. reflexivity.
Qed.
Print Assumptions C64_subdict_default.

Theorem C64_multigrade : forall (l : list nat) (op : bit_op), 2 <= length l -> exists n,
  multigrade_bitwise l op = inl n /\
  forall i, Nat.testbit n i =
    match op with
    | OpAnd => forallb (fun x => Nat.testbit x i) l
    | OpOr => existsb (fun x => Nat.testbit x i) l
    | OpXor => Nat.odd (length (filter (fun x => Nat.testbit x i) l))
    end.
Proof. exact multigrade_ok. Qed.
Print Assumptions C64_multigrade.
(** a list of one integer is returned as it is, not as its integer; so is the empty list *)
Theorem C64_multigrade_short : forall l op, multigrade_bitwise l op = inr l <-> length l < 2.
Proof.
  intros l op. destruct l as [|x [|y l]]; cbn; (split; [intro H | intro H]); try reflexivity; try lia. discriminate H.
Qed.
Print Assumptions C64_multigrade_short.

Example C64_ex :
  make_transposition 1 3 5 = Ok [0; 3; 2; 1; 4]%Z /\ repeat_sequence [4; 5] 6 = Ok [4; 5; 4; 5; 4; 5] /\
  repeat_sequence [4; 5] 7 = Err AssertErr /\ swap_matrix_rows [[1]; [2]; [3]] 0 2 = Ok [[3]; [2]; [1]] /\
  sequence_to_entry_counts [7; 3; 7; 7; 3] = [0; 0; 1; 2; 1] /\
  powerset [1; 2; 3] = [[]; [1]; [2]; [3]; [1; 2]; [1; 3]; [2; 3]; [1; 2; 3]] /\
  subdict (fun l => l) [(1, 10); (2, 20); (3, 30)] (Some [2]) (Some [(3, 33)]) = Ok [(1, 10); (3, 33)] /\
  multigrade_bitwise [6; 3; 12] OpXor = inl 9.
Proof. do 7 (split; [reflexivity|]). reflexivity. Qed.

(** * C65: linear functions and shifted literals *)

(** the function of a Walsh index is the exclusive or of the atoms at its one bits *)
Theorem C65_walsh : forall w p, exists f, make_linear_boolf (Some w) p None None = Ok f /\ reduced f /\
  forall e l, ones_of w l -> sem f e = xorb (match p with Some q => q | None => false end) (Nat.odd (length (filter e l))).
Proof. exact linear_walsh. Qed.
Print Assumptions C65_walsh.
(** with leader and quadrant *)
Theorem C65_leader : forall leader q, q < 4 -> exists w f,
  make_linear_boolf None None (Some (Z.of_nat leader)) (Some q) = Ok f /\ reduced f /\ quadrant f = q /\ w / 2 = leader /\
  forall e l, ones_of w l -> sem f e = xorb (Nat.odd q) (Nat.odd (length (filter e l))).
Proof. exact linear_quadrant. Qed.
Print Assumptions C65_leader.

Theorem C65_increase : forall a b r, (logic_abs_increase a b = Ok r <-> shifted a b r) /\
  ((Z.of_nat (atom a) + b < 0)%Z -> logic_abs_increase a b = Err ArgValueError).
Proof.
  intros a b r. split; [apply increase_iff|]. intros H. destruct (increase_ok a b) as [[r' [_ [_ K]]]|[E _]]; [lia | exact E].
Qed.
Print Assumptions C65_increase.
Theorem C65_increase_vector : forall a b r, logic_abs_increase_vector a b = Ok r <->
  length a = length b /\ length r = length a /\
  forall i x d z, nth_error a i = Some x -> nth_error b i = Some d -> nth_error r i = Some z -> shifted x d z.
Proof. exact increase_vector_iff. Qed.
Print Assumptions C65_increase_vector.
(** every literal of the signed permutation is moved by what the spread gives for its atom *)
Theorem C65_spread : forall s spread, length s = length spread -> Permutation (map atom s) (range (length s)) ->
  Forall (fun d => 0 <= d)%Z spread ->
  exists r, spread_sigperm_to_sigvar s spread = Ok r /\ length r = length s /\
    forall i x, nth_error s i = Some x -> exists d z, nth_error spread (atom x) = Some d /\ nth_error r i = Some z /\ shifted x d z.
Proof. exact spread_ok. Qed.
Print Assumptions C65_spread.

Example C65_ex :
  (exists f, make_linear_boolf None None (Some 3%Z) (Some 2) = Ok f /\ atomvals f = [0; 1; 2]) /\
  logic_abs_increase (-3) 4 = Ok (-7)%Z /\ logic_abs_increase_vector [0; -2; 5]%Z [3; 1; -2]%Z = Ok [3; -3; 3]%Z /\
  spread_sigperm_to_sigvar [-2; 2; 0]%Z [0; 2; 2]%Z = Ok [-4; 4; 0]%Z.
Proof. split; [eexists; split; vm_compute; reflexivity|]. do 2 (split; [reflexivity|]). reflexivity. Qed.

(** * C66: int_to_rcv *)

(** the entries count the chains of the given length: every member is the position of a one bit
    of the number before *)
Theorem C66_rcv : forall n, exists r, int_to_rcv n None = Ok r /\ (forall c, In c r -> c <> 0) /\
  forall i, exists L, NoDup L /\ (forall l, In l L <-> chain n l /\ length l = S i) /\ length L = nth i r 0.
Proof. exact int_to_rcv_ok. Qed.
Print Assumptions C66_rcv.
Theorem C66_length : forall n len r, int_to_rcv n None = Ok r ->
  (length r <= len -> exists r', int_to_rcv n (Some len) = Ok r' /\ length r' = len /\ forall i, nth i r' 0 = nth i r 0) /\
  (len < length r -> int_to_rcv n (Some len) = Err SpecifiedLengthTooShortError).
Proof.
  intros n len r H. rewrite (int_to_rcv_len n len r H). split; intros L.
  - replace (length r <=? len) with true by (symmetry; now apply Nat.leb_le). eexists. split; [reflexivity|].
    split; [rewrite app_length, repeat_length; lia|]. intros i. destruct (Nat.lt_ge_cases i (length r)) as [K|K].
    + now apply app_nth1.
    + rewrite app_nth2 by exact K. rewrite nth_repeat. now rewrite nth_overflow.
  - replace (length r <=? len) with false by (symmetry; now apply Nat.leb_gt). reflexivity.
Qed.
Print Assumptions C66_length.
Example C66_ex : int_to_rcv 11 None = Ok [3; 3; 1] /\ int_to_rcv 11 (Some 5) = Ok [3; 3; 1; 0; 0] /\
  int_to_rcv 11 (Some 2) = Err SpecifiedLengthTooShortError /\ chain 11 [3; 1; 0].
Proof. do 3 (split; [reflexivity|]). repeat constructor. Qed.

(** * C67: the order of layers *)

Theorem C67_layered : forall a b, layered_is_greater a b = true <-> layered_less b a.
Proof. exact layered_is_greater_spec. Qed.
Print Assumptions C67_layered.
(** it is a strict total order *)
Theorem C67_total_order :
  (forall a, ~ layered_less a a) /\ (forall a b c, layered_less a b -> layered_less b c -> layered_less a c) /\
  (forall a b, a = b \/ layered_less a b \/ layered_less b a).
Proof. split; [exact layered_irr|]. split; [exact layered_tr | exact layered_tot]. Qed.
Print Assumptions C67_total_order.
(** sorting the layers: the same entries in each layer, in ascending order; equal results exactly for
    layers with the same entries *)
Theorem C67_sort : forall a b,
  (sort_each_layer a = b <-> Forall2 (fun x y => Permutation x y /\ StronglySorted Z.le y) a b) /\
  (sort_each_layer a = sort_each_layer b <-> Forall2 (@Permutation Z) a b).
Proof.
  assert (Tot : forall x y : Z, Z.leb x y = true \/ Z.leb y x = true) by (intros x y; rewrite !Z.leb_le; lia).
  assert (Sm : forall x : list Z, StronglySorted Z.le (isort Z.leb x)).
  { intro x. assert (H : StronglySorted (fun a b => Z.leb a b = true) (isort Z.leb x)) by (apply isort_sorted; intros; rewrite ?Z.leb_le in *; lia).
    induction H as [|a l H IH F]; constructor; [exact IH|]. eapply Forall_impl; [|exact F]. intros c Hc. apply Z.leb_le, Hc. }
  assert (U : forall x y : list Z, Permutation x y -> StronglySorted Z.le x -> StronglySorted Z.le y -> x = y).
  { intros x. induction x as [|c x IH]; intros y P Sx Sy; [apply Permutation_nil in P; congruence|]. destruct y as [|d y]; [apply Permutation_sym, Permutation_nil in P; discriminate P|].
    inversion Sx as [|? ? Sx' Fx]; inversion Sy as [|? ? Sy' Fy]; subst. assert (E : c = d).
    { assert (H1 : In c (d :: y)) by (apply (Permutation_in _ P); left; reflexivity). assert (H2 : In d (c :: x)) by (apply (Permutation_in _ (Permutation_sym P)); left; reflexivity).
      rewrite Forall_forall in Fx, Fy. destruct H1 as [|H1]; [congruence|]. destruct H2 as [|H2]; [congruence|]. apply Fy in H1. apply Fx in H2. lia. }
    subst d. f_equal. apply IH; [apply (Permutation_cons_inv P) | assumption | assumption]. }
  intros a b. split; (split; [intro E | intro F]).
  - subst b. unfold sort_each_layer. induction a as [|x a IH]; constructor; [split; [apply isort_perm | apply Sm] | exact IH].
  - unfold sort_each_layer. induction F as [|x y a b [P Sy] F IH]; [reflexivity|]. cbn [map]. rewrite IH. f_equal. apply U; [|apply Sm | exact Sy]. eapply Permutation_trans; [apply Permutation_sym, isort_perm | exact P].
  - unfold sort_each_layer in E. revert b E. induction a as [|x a IH]; intros [|y b] E; try discriminate E; constructor; cbn [map] in E; injection E as E1 E2.
    + eapply Permutation_trans; [apply isort_perm|]. rewrite E1. apply Permutation_sym, isort_perm.
    + apply IH, E2.
  - unfold sort_each_layer. induction F as [|x y a b P F IH]; [reflexivity|]. cbn [map]. rewrite IH. f_equal. apply U; [|apply Sm | apply Sm].
    eapply Permutation_trans; [apply Permutation_sym, isort_perm|]. eapply Permutation_trans; [exact P | apply isort_perm].
Qed.
Print Assumptions C67_sort.
Example C67_ex_sort : sort_each_layer [[3; 2; 1]; [2; 4; 2]]%Z = [[1; 2; 3]; [2; 2; 4]]%Z.
Proof. reflexivity. Qed.
Example C67_ex : layered_is_greater [[1; 2]; [4]]%Z [[3]; [0; 4]]%Z = false /\ layered_is_greater [[3]; [0; 4]]%Z [[1; 2]; [4]]%Z = true /\
  layered_is_greater [[0]; [2]]%Z [[1]; [0]]%Z = true.
Proof. do 2 (split; [reflexivity|]). reflexivity. Qed.

(** * C68: sequences of chosen bits, negated truth tables, balanced ternary vectors *)

(** entry j collects the chosen bits of j *)
Theorem C68_atoms : forall atoms m, NoDup atoms -> In m atoms -> (forall a, In a atoms -> a <= m) -> exists r,
  atom_indices_to_sequence atoms None = Ok r /\ length r = 2 ^ (m + 1) /\
  forall j i, j < length r -> Nat.testbit (nth j r 0) i =
    match nth_error atoms i with Some a => Nat.testbit j a | None => false end.
Proof.
  intros atoms m N Hm Mx. assert (NE : atoms <> []) by (intros ->; destruct Hm).
  destruct (atom_sequence_ok atoms N NE) as [r [E [L H]]].
  assert (Em : list_max_nat atoms = m).
  { apply Nat.le_antisymm; [apply Mx, list_max_nat_In, NE | now apply list_max_nat_ge]. }
  rewrite Em in L. exists r. split; [exact E|]. split; [exact L|]. intros j i Hj. rewrite H by exact Hj.
  rewrite testbit_b2n. clear. revert i. induction atoms as [|a atoms IH]; intros [|i]; cbn; try reflexivity. apply IH.
Qed.
Print Assumptions C68_atoms.

(** exchanging the entries of a truth table whose indices differ by the signet; this is its own
    inverse *)
Theorem C68_mod_tt_neg : forall tt k n, length tt = 2 ^ k -> n < 2 ^ k -> exists r,
  mod_tt_neg tt (SignetInt n) = Ok r /\ length r = 2 ^ k /\
  (forall j, j < 2 ^ k -> nth j r false = nth (Nat.lxor j n) tt false) /\ mod_tt_neg r (SignetInt n) = Ok tt.
Proof. exact mod_tt_neg_ok. Qed.
Print Assumptions C68_mod_tt_neg.
(** with a signet that is not an integer there is always an exception *)
Lemma C68_mod_tt_neg_signet : forall tt l, mod_tt_neg tt (SignetList l) = Err AttributeErr /\ mod_tt_neg tt (SignetBinv l) = Err AttributeErr.
Proof. split; reflexivity. Qed.

(** the vectors are the balanced ternary numbers in order, and the matrix has their scalar
    products modulo three *)
Theorem C68_ternary : forall n i j, i < 3 ^ n -> j < 3 ^ n ->
  let (mat, vectors) := balanced_ternary_walsh_matrix n in
  length mat = 3 ^ n /\ length vectors = 3 ^ n /\
  exists u v row e, nth_error vectors i = Some u /\ nth_error vectors j = Some v /\
    length u = n /\ Forall (fun d => -1 <= d <= 1)%Z u /\ (2 * ternary_value u = 2 * Z.of_nat i - 3 ^ Z.of_nat n + 1)%Z /\
    nth_error mat i = Some row /\ length row = 3 ^ n /\ nth_error row j = Some e /\
    (-1 <= e <= 1)%Z /\ exists q, (scalar u v = e + 3 * q)%Z.
Proof. exact ternary_ok. Qed.
Print Assumptions C68_ternary.

Example C68_ex :
  atom_indices_to_sequence [2; 0] None = Ok [0; 2; 0; 2; 1; 3; 1; 3] /\
  mod_tt_neg [false; true; true; true] (SignetInt 2) = Ok [true; true; false; true] /\
  balanced_ternary_walsh_matrix 1 = ([[1; 0; -1]; [0; 0; 0]; [-1; 0; 1]]%Z, [[-1]; [0]; [1]]%Z).
Proof. do 2 (split; [reflexivity|]). reflexivity. Qed.

(** * C69: cycle partitions, permuted colours, sorted matrices *)

(** two numbers are in the same block if and only if the permutation leads from one to the other *)
Theorem C69_cycle_partition : forall p, is_Perm p -> exists s, cycle_partition p = Ok s /\ is_SetPart s /\ canonical (sp_blocks s) /\
  forall x y, x <> y -> together (sp_blocks s) x y <->
    exists i j, x = Z.of_nat i /\ y = Z.of_nat j /\ orbit (pget p) i j /\ match perilen p with Some q => i < q | None => True end.
Proof. exact cycle_partition_ok. Qed.
Print Assumptions C69_cycle_partition.

(** a spot gets the colour of the spot whose digits are moved and negated to its own *)
Theorem C69_colors : forall colors arity s f, is_SigPerm s -> acts s f -> sg_length s <= arity ->
  (forall c x, spots_of colors c x -> x < 2 ^ arity) -> NoDup (concat (map snd colors)) ->
  exists r, apply_sigperm_to_colors colors arity s = Ok r /\ NoDup (map fst r) /\
    Forall (fun cl => snd cl <> [] /\ StronglySorted lt (snd cl)) r /\
    forall c y, spots_of r c y <->
      exists x, spots_of colors c x /\ forall i, Nat.testbit y (atom (f i)) = xorb (negated (f i)) (Nat.testbit x i).
Proof. exact colors_ok. Qed.
Print Assumptions C69_colors.

(** all matrices get the same permutation of their rows, and the tuples of rows are ascending *)
Theorem C69_sort_rows : forall (args : list (list (list Z))) h, args <> [] -> Forall (fun m => length m = h) args -> 0 < h -> exists pi,
  let res := map (fun m => map (fun i => nth i m []) pi) args in
  sort_rows_together args = Ok res /\ Permutation pi (range h) /\
  forall i j, i < j < h -> not_after (map (fun m => nth i m []) res) (map (fun m => nth j m []) res).
Proof. exact sort_rows_eq. Qed.
Print Assumptions C69_sort_rows.
(** the same for columns, which are compared from the bottom if the small ones shall be on top *)
Theorem C69_sort_cols : forall (args : list (list (list Z))) (small : bool) w, args <> [] -> 0 < w ->
  Forall (fun m => m <> [] /\ Forall (fun row => length row = w) m) args -> exists pi,
  let res := map (map (fun row => map (fun i => nth i row 0%Z) pi)) args in
  sort_cols_together args small = Ok res /\ Permutation pi (range w) /\
  forall i j, i < j < w -> not_after (map (fun m => (if small then @rev Z else fun c => c) (column i m)) res)
                                    (map (fun m => (if small then @rev Z else fun c => c) (column j m)) res).
Proof. exact sort_cols_eq. Qed.
Print Assumptions C69_sort_cols.
(** without rows there are no results *)
Theorem C69_no_rows_refuted : exists args, args <> [] /\ Forall (fun m => length m = 0) args /\ sort_rows_together args = Ok [].
Proof. exists [[]; []]. split; [discriminate|]. split; [repeat constructor | reflexivity]. Qed.

Example C69_ex :
  (exists p s, Perm (ArgSeq [4; 3; 0; 1; 2; 5]) None = Ok p /\ cycle_partition p = Ok s /\ sp_blocks s = [[0; 2; 4]; [1; 3]]%Z) /\
  (exists s, SigPerm_sequence [-2; 0]%Z = Ok s /\ apply_sigperm_to_colors [(8, [1; 2]); (9, [0])] 2 s = Ok [(8, [0; 3]); (9, [2])]) /\
  sort_rows_together [[[3]; [1]; [1]]; [[5]; [7]; [6]]]%Z = Ok [[[1]; [1]; [3]]; [[6]; [7]; [5]]]%Z /\
  sort_cols_together [[[3; 1; 2]; [0; 0; -1]]]%Z false = Ok [[[1; 2; 3]; [0; -1; 0]]]%Z /\
  sort_cols_together [[[3; 1; 2]; [0; 0; -1]]]%Z true = Ok [[[2; 1; 3]; [-1; 0; 0]]]%Z.
Proof.
  split; [do 2 eexists; split; [vm_compute; reflexivity|]; split; vm_compute; reflexivity|].
  split; [eexists; split; vm_compute; reflexivity|]. do 2 (split; [reflexivity|]). reflexivity.
Qed.
