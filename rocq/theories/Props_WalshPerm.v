(** Props_WalshPerm: properties C15 (Walsh permutations) and C36 (Walsh functions). *)

From Coq Require Import List Arith ZArith Bool Lia Permutation.
From Verif Require Import Model_Base Lib Model_Perm Model_Binary Model_WalshPerm Spec_Bits Spec_Perm Spec_WalshPerm
  Proof_Binary Proof_Linear Proof_PermGroup Proof_WalshLinear Proof_WalshPerm Proof_WalshOps Proof_WalshIndex Proof_WalshMore.
Import ListNotations.
Open Scope nat_scope.

(** * C15 *)

(** an invertible binary matrix is accepted, and the object multiplies binary numbers by it *)
Theorem C15_accepted : forall n m trust, binary_matrix n m -> invertible n (bit_entry m) ->
  exists w f, WalshPerm None (Some m) None trust = Ok w /\ is_map w f /\ acts_as n (bit_entry m) f /\ w_degree w <= n.
Proof.
  intros n m trust Hm Hi. destruct (of_matrix_ok n (bit_entry m) (full n (bit_entry m)) trust Hi (full_acts _ _)) as [w [E [Hw Hd]]].
  exists w, (full n (bit_entry m)). cbn [WalshPerm].
  split; [rewrite (binary_eq n m Hm); exact E|]. split; [apply valid_map; exact Hw|]. split; [apply full_acts | exact Hd].
Qed.

(** a singular matrix is rejected, unless it is the identity up to the entry in the first row and column *)
Theorem C15_rejected : forall n m, binary_matrix n m -> ~ invertible n (bit_entry m) ->
  (exists i j, i < n /\ j < n /\ (0 < i \/ 0 < j) /\ bit_entry m i j <> Nat.eqb i j) ->
  WalshPerm None (Some m) None false = Err InvalidMatrixError.
Proof.
  intros n m Hm Hi Hex. cbn [WalshPerm]. rewrite (binary_eq n m Hm). apply of_matrix_reject; assumption.
Qed.

(** the statement "accepted exactly when invertible" is false: the zero matrix of size one
    and all other singular matrices that differ from the identity only in the first entry
    are accepted, as the neutral permutation *)
Theorem C15_accepted_refuted : ~ (forall n m w, binary_matrix n m -> WalshPerm None (Some m) None false = Ok w -> invertible n (bit_entry m)).
Proof.
  intro H. assert (Hb : binary_matrix 1 [[0%Z]]) by (split; [reflexivity | intros row [<- | []]; split; [reflexivity | intros z [<- | []]; auto]]).
  destruct (H 1 [[0%Z]] walsh_neutral Hb eq_refl) as [c Hc]. specialize (Hc 0 0 Nat.lt_0_1 Nat.lt_0_1). cbn in Hc. destruct Hc as [Hc _]. discriminate Hc.
Qed.

Theorem C15_first_entry : forall n m trust, binary_matrix n m ->
  (forall i j, i < n -> j < n -> 0 < i \/ 0 < j -> bit_entry m i j = Nat.eqb i j) ->
  WalshPerm None (Some m) None trust = Ok walsh_neutral.
Proof.
  intros n m trust Hm H. cbn [WalshPerm]. rewrite (binary_eq n m Hm).
  destruct (of_matrix_cases n (bit_entry m)) as [[E _] | [w [d [Hw [Hd [Hg _]]]]]]; [apply E|]. exfalso.
  apply (ww_tight _ _ _ Hw). assert (H2 := ww_two _ _ _ Hw). intros i Hi. split; apply H; lia.
Qed.

(** matrices with other entries than 0 and 1 may be accepted as well *)
Theorem C15_entries_refuted : exists m, WalshPerm None (Some m) None false = Ok walsh_neutral /\ ~ exists n, binary_matrix n m.
Proof.
  exists [[5; 0; 1]; [0; 1; -1]; [1; -1; 1]]%Z. split; [reflexivity|]. intros [n [_ H]].
  destruct (H [5; 0; 1]%Z (or_introl eq_refl)) as [_ H1]. destruct (H1 5%Z (or_introl eq_refl)); lia.
Qed.

(** a vector stands for the matrix with these columns *)
Theorem C15_vector : forall l m trust, (forall v, In v l -> v < 2 ^ length l) ->
  binary_matrix (length l) m -> (forall i j, i < length l -> j < length l -> bit_entry m i j = Nat.testbit (nth j l 0) i) ->
  WalshPerm (Some l) None None trust = WalshPerm None (Some m) None trust.
Proof.
  intros l m trust Hl Hm Hb. cbn [WalshPerm]. rewrite of_vector_eq by exact Hl. rewrite (binary_eq _ m Hm). f_equal.
  apply mk_ext. intros i j Hi Hj. symmetry. apply Hb; assumption.
Qed.

Theorem C15_vector_rejected : forall l v trust, In v l -> 2 ^ length l <= v -> WalshPerm (Some l) None None trust = Err BinvLengthError.
Proof.
  intros l v trust Hin Hv. cbn [WalshPerm]. apply (of_vector_reject l trust v Hin Hv). intros ->. destruct Hin as [<-|[]]. cbn in Hv. lia.
Qed.

(** every object is a bijection that respects XOR *)
Theorem C15_linear : forall linv w, exact_inverse linv -> is_Walsh linv w ->
  exists f, is_map w f /\ linear f /\ bijective f.
Proof.
  intros linv w Hl Hw. destruct (object_valid linv w Hl Hw) as [f Hf]. exists f.
  split; [apply valid_map; exact Hf|]. split; [apply (valid_linear w f Hf) | apply (valid_bijective w f Hf)].
Qed.

(** the method matrix returns its matrix in every sufficient size *)
Theorem C15_matrix : forall linv w f n, exact_inverse linv -> is_Walsh linv w -> is_map w f ->
  (w_degree w <= n -> exists m, walsh_matrix w (Some n) = Ok m /\ binary_matrix n m /\
     invertible n (bit_entry m) /\ acts_as n (bit_entry m) f) /\
  (n < w_degree w -> walsh_matrix w (Some n) = Err RequestedDegreeSmallerActualDegreeError).
Proof.
  intros linv w f n Hl Hw Hm. assert (Hv := object_map linv w f Hl Hw Hm). split.
  - intro Hn. exists (mk n (ent f)). destruct (valid_acts w f n Hv Hn) as [Hi Ha].
    split; [apply valid_matrix; assumption|]. split; [apply binary_mk|].
    assert (E : forall i j, i < n -> j < n -> ent f i j = bit_entry (mk n (ent f)) i j) by (intros; symmetry; apply bit_mk; assumption).
    split; [apply (invertible_ext n (ent f)) | apply (acts_ext n (ent f))]; assumption.
  - intro Hn. unfold walsh_matrix. rewrite (proj2 (Nat.leb_gt _ _) Hn). reflexivity.
Qed.

(** the method vector returns the images of the powers of two: the columns; the method
    transpose_vector returns the rows *)
Theorem C15_vectors : forall linv w f n, exact_inverse linv -> is_Walsh linv w -> is_map w f -> w_degree w <= n ->
  walsh_vector w (Some n) = Ok (map (fun k => f (2 ^ k)) (seq 0 n)) /\
  exists t, walsh_transpose_vector w (Some n) = Ok t /\ length t = n /\
    forall i j, i < n -> Nat.testbit (nth i t 0) j = Nat.testbit (f (2 ^ j)) i.
Proof.
  intros linv w f n Hl Hw Hm Hn. assert (Hv := object_map linv w f Hl Hw Hm). split; [apply vector_spec; assumption|].
  eexists. split; [apply (tvector_spec w f n Hv Hn)|]. split; [rewrite map_length, range_length; reflexivity|].
  intros i j Hi. rewrite (Proof_SigPerm.nth_map_range (Vector_get (w_transpose w))) by exact Hi. apply (valid_transpose w f Hv).
Qed.

(** the degree is the least size of a matrix; the period length is minimal *)
Theorem C15_degree : forall linv w f n b, exact_inverse linv -> is_Walsh linv w -> is_map w f -> acts_as n b f -> w_degree w <= n.
Proof. intros linv w f n b Hl Hw Hm. apply valid_degree. apply (object_map linv w f Hl Hw Hm). Qed.

(** the attribute neutral *)
Theorem C15_neutral : forall linv w f, exact_inverse linv -> is_Walsh linv w -> is_map w f -> (w_neutral w = true <-> forall x, f x = x).
Proof.
  intros linv w f Hl Hw Hm. assert (Hv := object_map linv w f Hl Hw Hm). destruct (valid_view w f Hv) as [p [_ [Hwf [Hg [HN _]]]]].
  rewrite <- HN, (Proof_PermGroup.wf_moves p Hwf). split; intros H x; [rewrite <- Hg | rewrite Hg]; apply H.
Qed.

Theorem C15_period : forall linv w f t, exact_inverse linv -> is_Walsh linv w -> is_map w f -> w_neutral w = false ->
  0 < t -> (is_period f t <-> Nat.divide (2 ^ w_degree w) t).
Proof.
  intros linv w f t Hl Hw Hm Hn Ht. assert (Hv := object_map linv w f Hl Hw Hm). destruct (valid_view w f Hv) as [p [_ [Hwf [Hg [_ Hq]]]]].
  rewrite Hn in Hq. destruct (pget_period p _ Hwf Hq) as [P1 P2]. split.
  - intro P. apply P2; [exact Ht|]. intro v. rewrite !Hg. apply P.
  - intros [c ->]. intro v. assert (G : forall c, f (v + c * 2 ^ w_degree w) = f v + c * 2 ^ w_degree w); [|apply G].
    clear c Ht. induction c as [|c IH]; [cbn; rewrite !Nat.add_0_r; reflexivity|].
    replace (v + S c * 2 ^ w_degree w) with (v + c * 2 ^ w_degree w + 2 ^ w_degree w) by lia.
    rewrite <- Hg, P1, Hg, IH. lia.
Qed.

Theorem C15_product : forall linv a b f g, exact_inverse linv -> is_Walsh linv a -> is_Walsh linv b -> is_map a f -> is_map b g ->
  exists w, walsh_mul a b = Ok w /\ is_Walsh linv w /\ is_map w (fun v => f (g v)).
Proof.
  intros linv a b f g Hl Ha Hb Hf Hg. destruct (mul_spec a b f g (object_map linv a f Hl Ha Hf) (object_map linv b g Hl Hb Hg)) as [w [E Hw]].
  exists w. split; [exact E|]. split; [exact (walsh_product linv a b w Ha Hb E) | apply valid_map; exact Hw].
Qed.

Theorem C15_inverse : forall linv a f, exact_inverse linv -> is_Walsh linv a -> is_map a f ->
  exists w g, walsh_inverse linv a = Ok w /\ is_Walsh linv w /\ is_map w g /\ (forall v, f (g v) = v) /\ (forall v, g (f v) = v).
Proof.
  intros linv a f Hl Ha Hf. destruct (inverse_spec linv a f Hl (object_map linv a f Hl Ha Hf)) as [w [g [E [Hw [H1 H2]]]]].
  exists w, g. split; [exact E|]. split; [exact (walsh_inv linv a w Ha E)|]. split; [apply valid_map; exact Hw | auto].
Qed.

Theorem C15_transpose : forall linv a f, exact_inverse linv -> is_Walsh linv a -> is_map a f ->
  exists w g, walsh_transposed a = Ok w /\ is_Walsh linv w /\ is_map w g /\
    forall i j, Nat.testbit (g (2 ^ j)) i = Nat.testbit (f (2 ^ i)) j.
Proof.
  intros linv a f Hl Ha Hf. destruct (transposed_spec a f (object_map linv a f Hl Ha Hf)) as [w [g [E [Hw H]]]].
  exists w, g. split; [exact E|]. split; [exact (walsh_tr linv a w Ha E)|]. split; [apply valid_map; exact Hw | exact H].
Qed.

Theorem C15_power : forall linv a f k, exact_inverse linv -> is_Walsh linv a -> is_map a f ->
  exists w g, walsh_pow linv a k = Ok w /\ is_Walsh linv w /\ is_map w g /\
    ((0 <= k)%Z -> forall v, g v = iter f (Z.to_nat k) v) /\
    ((k <= 0)%Z -> forall v, iter f (Z.to_nat (- k)) (g v) = v).
Proof.
  intros linv a f k Hl Ha Hf. destruct (pow_spec linv a f k Hl (object_map linv a f Hl Ha Hf)) as [w [g [E [Hw H]]]].
  exists w, g. split; [exact E|]. split; [exact (walsh_power linv a k w Ha E)|]. split; [apply valid_map; exact Hw | exact H].
Qed.

(** equality is equality of actions, and is decided by the minimal vectors *)
Theorem C15_equality : forall linv a b f g, exact_inverse linv -> is_Walsh linv a -> is_Walsh linv b -> is_map a f -> is_map b g ->
  (walsh_eqb a b = true <-> forall v, f v = g v) /\
  (walsh_eqb a b = true <-> walsh_vector a None = walsh_vector b None).
Proof.
  intros linv a b f g Hl Ha Hb Hf Hg. assert (Va := object_map linv a f Hl Ha Hf). assert (Vb := object_map linv b g Hl Hb Hg).
  assert (E := valid_eqb a b f g Va Vb). split; [exact E|]. rewrite E.
  change (walsh_vector a None) with (walsh_vector a (Some (w_degree a))). change (walsh_vector b None) with (walsh_vector b (Some (w_degree b))).
  rewrite (vector_spec a f _ Va (le_n _)), (vector_spec b g _ Vb (le_n _)). split.
  - intro H. assert (Hd : w_degree a = w_degree b).
    { destruct (valid_acts a f _ Va (le_n _)) as [_ Aa]. destruct (valid_acts b g _ Vb (le_n _)) as [_ Ab]. apply Nat.le_antisymm.
      - apply (valid_degree a f _ (ent g) Va). apply (acts_fext _ _ g); [exact Ab | intro; symmetry; apply H].
      - apply (valid_degree b g _ (ent f) Vb). apply (acts_fext _ _ f); [exact Aa | exact H]. }
    rewrite Hd. f_equal. apply map_ext. intro k. apply H.
  - intro H. injection H as H. assert (Hd : w_degree a = w_degree b) by (apply (f_equal (@length nat)) in H; rewrite !map_length, !range_length in H; exact H).
    apply linear_ext; [apply (valid_linear a f Va) | apply (valid_linear b g Vb)|]. intro k. destruct (Nat.lt_ge_cases k (w_degree a)) as [Hk|Hk].
    + rewrite <- Hd in H. apply (f_equal (fun l => nth k l 0)) in H. rewrite !(Proof_SigPerm.nth_map_range (fun k => _ (2 ^ k))) in H by exact Hk. exact H.
    + rewrite (valid_high a f k Va Hk), (valid_high b g k Vb) by lia. reflexivity.
Qed.

(** equality and product with permutations of the class Perm *)
Theorem C15_equal_perm : forall linv w f p, exact_inverse linv -> is_Walsh linv w -> is_map w f -> is_Perm p ->
  exists q, walsh_eqb_perm w p = Ok q /\ (q = true <-> forall v, f v = pget p v).
Proof. intros linv w f p Hl Hw Hf Hp. apply eqb_perm_spec; [apply (object_map linv w f Hl Hw Hf) | apply is_Perm_wf; exact Hp]. Qed.

Theorem C15_product_perm : forall linv w f p, exact_inverse linv -> is_Walsh linv w -> is_map w f -> is_Perm p ->
  w_neutral w = true \/ neutral p = true \/ perilen p <> None ->
  exists r, walsh_mul_perm w p = Ok r /\ forall v, pget r v = f (pget p v).
Proof.
  intros linv w f p Hl Hw Hf Hp Hk. destruct (mul_perm_spec w f p (object_map linv w f Hl Hw Hf) (is_Perm_wf p Hp) Hk) as [r [E [_ H]]].
  exists r. auto.
Qed.

(** a list is accepted exactly if it is a permutation of length 2^k that respects XOR *)
Theorem C15_from_list : forall k l, Permutation l (seq 0 (2 ^ k)) ->
  (linear_on k l /\ exists w f, WalshPerm None None (Some (WSeq l)) false = Ok w /\ is_map w f /\ is_period f (2 ^ k) /\
     forall i, i < 2 ^ k -> f i = nth i l 0) \/
  (~ linear_on k l /\ WalshPerm None None (Some (WSeq l)) false = Err InvalidPermError).
Proof.
  intros k l H. destruct (seq_spec k l H) as [[H1 [w [f [E [Hw [H2 H3]]]]]] | H1]; [left | right; exact H1].
  split; [exact H1|]. exists w, f. split; [exact E|]. split; [apply valid_map; exact Hw | auto].
Qed.

Theorem C15_list_rejected : forall l trust,
  (~ Permutation l (seq 0 (length l)) -> WalshPerm None None (Some (WSeq l)) trust = Err NotEvenPermutationError) /\
  (Permutation l (seq 0 (length l)) -> l <> [] -> (forall k, length l <> 2 ^ k) ->
     WalshPerm None None (Some (WSeq l)) trust = Err PermLengthError).
Proof. intros l trust. split; [apply seq_reject | apply seq_length_reject]. Qed.

(** a Perm object is treated like the list of its values up to its period length, or up to
    its length *)
Theorem C15_from_perm : forall p trust, is_Perm p ->
  exists l, Permutation l (seq 0 (length l)) /\ length l = match perilen p with Some q => q | None => plength p end /\
    (forall i, i < length l -> nth i l 0 = pget p i) /\
    WalshPerm None None (Some (WPerm p)) trust = WalshPerm None None (Some (WSeq l)) trust.
Proof.
  intros p trust Hp. apply is_Perm_wf in Hp. destruct (perm_sequence p Hp) as [l [El [H1 [H2 H3]]]]. exists l.
  split; [exact H1|]. split; [exact H2|]. split; [exact H3|]. apply perm_as_seq; assumption.
Qed.

(** the neutral permutation is rejected as an argument *)
Theorem C15_neutral_perm_refuted : exists p, is_Perm p /\ (forall v, pget p v = v) /\
  WalshPerm None None (Some (WPerm p)) false = Err ValueErr.
Proof.
  exists neutral_perm. split; [apply (obj_new ArgNone None); [exact I | reflexivity]|]. split; [reflexivity | reflexivity].
Qed.

(** the sequence lists the values; the complement pattern is sent to the number with n ones *)
Theorem C15_sequence : forall linv w f n, exact_inverse linv -> is_Walsh linv w -> is_map w f -> w_degree w <= n ->
  walsh_sequence w None (Some n) = Ok (map f (seq 0 (2 ^ n))) /\
  (w_neutral w = false -> walsh_sequence w (Some (2 ^ n)) None = Ok (map f (seq 0 (2 ^ n)))).
Proof.
  intros linv w f n Hl Hw Hf Hn. assert (Hv := object_map linv w f Hl Hw Hf). split; [apply sequence_spec; assumption|].
  intro Hneu. apply sequence_length; assumption.
Qed.

(** the same request with the argument [length] fails for the neutral element *)
Theorem C15_neutral_sequence_refuted : forall n, WalshPerm None None None false = Ok walsh_neutral /\
  walsh_sequence walsh_neutral (Some (2 ^ n)) None = Err TypeErr.
Proof.
  intro n. split; [reflexivity|]. unfold walsh_sequence, is_power_of_two. rewrite Nat.log2_pow2, Nat.eqb_refl by lia.
  rewrite (proj2 (Nat.ltb_lt 0 (2 ^ n))) by (apply Nat.neq_0_lt_0, Nat.pow_nonzero; lia). reflexivity.
Qed.

Theorem C15_complement_pattern : forall linv w f n, exact_inverse linv -> is_Walsh linv w -> is_map w f -> w_degree w <= n ->
  exists c, complement_pattern w n = Ok c /\ c < 2 ^ n /\ f c = 2 ^ n - 1.
Proof. intros linv w f n Hl Hw Hf. apply complement_spec. apply (object_map linv w f Hl Hw Hf). Qed.

Example C15_ex : exists w t v, WalshPerm (Some [3; 1; 4]) None None false = Ok w /\ w_degree w = 2 /\
  walsh_sequence w None None = Ok [0; 3; 1; 2] /\ walsh_matrix w None = Ok [[1; 1]; [1; 0]]%Z /\
  WalshPerm (Some [1; 3]) None None false = Ok t /\ walsh_mul w t = Ok v /\
  walsh_sequence v None None = Ok [0; 3; 2; 1] /\ complement_pattern w 4 = Ok 13 /\ walsh_get w 13 = Ok 15.
Proof. do 3 eexists. repeat split; vm_compute; reflexivity. Qed.

Example C15_ex_reject : WalshPerm None (Some [[1; 1]; [1; 1]]%Z) None false = Err InvalidMatrixError /\
  WalshPerm (Some [1; 4]) None None false = Err BinvLengthError /\
  WalshPerm None None (Some (WSeq [0; 1; 2; 3; 4; 5; 7; 6])) false = Err InvalidPermError /\
  WalshPerm None None (Some (WSeq [0; 2; 1])) false = Err PermLengthError /\
  WalshPerm None (Some [[0; 0]; [0; 1]]%Z) None false = Ok walsh_neutral.
Proof. repeat split; vm_compute; reflexivity. Qed.

Example C15_ex_inverse : exists w r, WalshPerm (Some [6; 5; 7]) None None false = Ok w /\
  walsh_inverse (fun _ => Ok None) w = Ok r /\ walsh_vector r None = Ok [5; 6; 7] /\
  (let* q := walsh_pow (fun _ => Ok None) w (-2) in walsh_vector q None) = Ok [2; 1].
Proof. do 2 eexists. split; [vm_compute; reflexivity|]. split; [vm_compute; reflexivity|]. split; vm_compute; reflexivity. Qed.

(** * C36 *)

(** the table of a Walsh index: parity of the selected bits *)
Theorem C36_table : forall w n parity, 0 < n ->
  (w < 2 ^ n -> exists v, make_linear_binv (Some w) n parity None None = Ok v /\ length v = 2 ^ n /\
     forall i, i < 2 ^ n -> nth i v false = xorb (dot n w i) (match parity with Some q => q | None => false end)) /\
  (2 ^ n <= w -> make_linear_binv (Some w) n parity None None = Err ArgTooBigError).
Proof. intros w n parity Hn. split; [apply linear_walsh; exact Hn | apply linear_walsh_reject; exact Hn]. Qed.

(** the tables of leader and quadrant, and back *)
Theorem C36_leader : forall l q n, 0 < n -> q < 4 -> l < 2 ^ (n - 1) ->
  exists v w, make_linear_binv None n None (Some l) (Some q) = Ok v /\ length v = 2 ^ n /\
    w / 2 = l /\ (if Nat.eqb q 0 || Nat.eqb q 3 then evil w else odious w) /\
    (forall i, i < 2 ^ n -> nth i v false = xorb (dot n w i) (Nat.eqb q 1 || Nat.eqb q 3)) /\
    forall trust, linear_to_leader_and_quadrant v trust = Ok (l, q).
Proof.
  intros l q n Hn Hq Hl. destruct (linear_leader l q n Hn Hq Hl) as [v [w [E [H1 [H2 [H3 H4]]]]]]. exists v, w.
  split; [exact E|]. split; [exact H1|]. split; [exact H2|]. split; [exact H3|]. split; [exact H4|].
  intro trust. apply (leader_spec l q n v trust Hn Hq Hl E).
Qed.

(** recognition: the index is found for exactly the tables of Walsh functions *)
Theorem C36_index : forall n v w, 0 < n -> length v = 2 ^ n ->
  (walsh_function_to_index v false = Ok w <-> w < 2 ^ n /\ walsh_row n w v).
Proof.
  intros n v w Hn Hl. destruct (index_cases n v Hn Hl) as [[w' [H1 [H2 H3]]] | [H1 H2]].
  - rewrite H3. split; [intros [= <-]; auto|]. intros [H4 H5]. f_equal. apply (walsh_row_inj n w' w v); assumption.
  - rewrite H2. split; [discriminate|]. intros [H3 H4]. exfalso. apply (H1 w H3 H4).
Qed.

Theorem C36_index_rejected : forall n v, 0 < n -> length v = 2 ^ n ->
  (forall w, w < 2 ^ n -> ~ walsh_row n w v) -> walsh_function_to_index v false = Err NotWalshRowError.
Proof.
  intros n v Hn Hl H. destruct (index_cases n v Hn Hl) as [[w [H1 [H2 _]]] | [_ H1]]; [exfalso; apply (H w H1 H2) | exact H1].
Qed.

Theorem C36_index_trusted : forall n w v, 0 < n -> w < 2 ^ n -> walsh_row n w v -> walsh_function_to_index v true = Ok w.
Proof. exact index_trusted_row. Qed.

Theorem C36_index_length : forall v trust, (forall n, length v <> 2 ^ n) -> walsh_function_to_index v trust = Err ValueErr.
Proof.
  intros v trust H. unfold walsh_function_to_index. replace (bvec_eqb v [false]) with false.
  2: { symmetry. apply not_true_iff_false. intro E. apply bvec_eqb_eq in E. subst v. apply (H 0). reflexivity. }
  unfold is_power_of_two. replace (2 ^ Nat.log2 (length v) =? length v) with false; [rewrite andb_false_r; reflexivity|].
  symmetry. apply Nat.eqb_neq. intro E. apply (H (Nat.log2 (length v))). congruence.
Qed.

(** the number of changes of value is a Gray code of the index: it determines the index *)
Theorem C36_changes : forall n w v k, walsh_row n w v -> k < n ->
  Nat.testbit (binv_changes v) k = xor_all (map (Nat.testbit w) (seq 0 (n - k))).
Proof. intros n w v k H Hk. rewrite (row_changes n w v H), testbit_chg, (proj2 (Nat.ltb_lt k n) Hk). reflexivity. Qed.

(** index and oddness of a linear table *)
Theorem C36_oddness : forall n w q v trust, 0 < n -> w < 2 ^ n -> length v = 2 ^ n ->
  (forall i, i < 2 ^ n -> nth i v false = xorb (dot n w i) q) -> linear_to_walsh_and_oddness v trust = Ok (w, q).
Proof. intros n w q v trust Hn Hw Hl Hv. apply (oddness_spec n w q v Hn Hw Hl Hv trust). Qed.

(** the Walsh matrix is symmetric and its rows are closed under XOR *)
Theorem C36_matrix : forall n negate, exists m, arity_to_walsh_matrix n negate = Ok m /\ length m = 2 ^ n /\
  (forall i, i < 2 ^ n -> length (nth i m []) = 2 ^ n) /\
  (forall i j, i < 2 ^ n -> j < 2 ^ n -> nth j (nth i m []) false = xorb (dot n i j) negate) /\
  (forall i j, i < 2 ^ n -> j < 2 ^ n -> nth j (nth i m []) false = nth i (nth j m []) false) /\
  (forall i j k, i < 2 ^ n -> j < 2 ^ n -> k < 2 ^ n ->
     nth k (nth (Nat.lxor i j) m []) false = xorb (xorb (nth k (nth i m []) false) (nth k (nth j m []) false)) negate).
Proof.
  intros n negate. destruct (walsh_matrix_spec n negate) as [m [E [H1 [H2 H3]]]]. exists m. unfold mat in H3.
  split; [exact E|]. split; [exact H1|]. split; [exact H2|]. split; [exact H3|]. split.
  - intros i j Hi Hj. rewrite !H3 by assumption. rewrite dot_comm. reflexivity.
  - intros i j k Hi Hj Hk. rewrite !H3 by (try assumption; apply lxor_lt; assumption). rewrite dot_lxor.
    destruct (dot n i k), (dot n j k), negate; reflexivity.
Qed.

Example C36_ex : make_linear_binv (Some 5) 3 None None None = Ok [false; true; false; true; true; false; true; false] /\
  walsh_function_to_index [false; true; false; true; true; false; true; false] false = Ok 5 /\
  binv_changes [false; true; false; true; true; false; true; false] = 6 /\
  walsh_function_to_index [false; true; false; true; true; false; true; true] false = Err NotWalshRowError /\
  linear_to_walsh_and_oddness [true; false; true; false] false = Ok (1, true).
Proof. repeat split; vm_compute; reflexivity. Qed.

Example C36_ex_leader : exists v, make_linear_binv None 3 None (Some 2) (Some 1) = Ok v /\
  linear_to_leader_and_quadrant v false = Ok (2, 1).
Proof. eexists. split; vm_compute; reflexivity. Qed.

Print Assumptions C15_accepted.
Print Assumptions C15_rejected.
Print Assumptions C15_accepted_refuted.
Print Assumptions C15_first_entry.
Print Assumptions C15_entries_refuted.
Print Assumptions C15_vector.
Print Assumptions C15_vector_rejected.
Print Assumptions C15_linear.
Print Assumptions C15_matrix.
Print Assumptions C15_vectors.
Print Assumptions C15_degree.
Print Assumptions C15_period.
Print Assumptions C15_product.
Print Assumptions C15_inverse.
Print Assumptions C15_transpose.
Print Assumptions C15_power.
Print Assumptions C15_equality.
Print Assumptions C15_equal_perm.
Print Assumptions C15_product_perm.
Print Assumptions C15_from_list.
Print Assumptions C15_list_rejected.
Print Assumptions C15_from_perm.
Print Assumptions C15_neutral.
Print Assumptions C15_neutral_perm_refuted.
Print Assumptions C15_sequence.
Print Assumptions C15_neutral_sequence_refuted.
Print Assumptions C15_complement_pattern.
Print Assumptions C36_table.
Print Assumptions C36_leader.
Print Assumptions C36_index.
Print Assumptions C36_index_rejected.
Print Assumptions C36_index_trusted.
Print Assumptions C36_index_length.
Print Assumptions C36_changes.
Print Assumptions C36_oddness.
Print Assumptions C36_matrix.
