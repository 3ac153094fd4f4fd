(** Proof_WalshOps: the methods of WalshPerm. *)

From Coq Require Import List Arith ZArith Bool Lia Permutation.
From Verif Require Import Model_Base Lib Model_Perm Model_Binary Model_SigPerm Model_WalshPerm Spec_Bits Spec_Perm Spec_WalshPerm
  Proof_Binary Proof_Linear Proof_Perm Proof_PermGroup Proof_PermCycles Proof_SigPerm Proof_WalshLinear Proof_WalshPerm.
Import ListNotations.
Open Scope nat_scope.

(** entries of the matrix of [f] *)
Definition ent (f : nat -> nat) (i j : nat) : bool := Nat.testbit (f (2 ^ j)) i.

Lemma acts_fext n b f g : acts_as n b f -> (forall v, f v = g v) -> acts_as n b g.
Proof. intros H E v i. rewrite <- E. apply H. Qed.

Lemma acts_ent d n b f : acts_as d b f -> d <= n -> (forall i j, ent f i j = grow d b i j) /\ acts_as n (ent f) f.
Proof.
  intros H Hn. assert (E : forall i j, ent f i j = grow d b i j) by (intros; apply acts_pow; exact H). split; [exact E|].
  apply (acts_ext n (grow d b)); [intros; symmetry; apply E|]. apply acts_grow; assumption.
Qed.

Lemma invertible_ent d n b f : acts_as d b f -> d <= n -> invertible d b -> invertible n (ent f).
Proof.
  intros H Hn Hi. apply (invertible_ext n (grow d b)); [intros; symmetry; apply (acts_ent d n b f H Hn)|].
  apply invertible_grow; assumption.
Qed.

Lemma bijective_invertible n b f : acts_as n b f -> bijective f -> invertible n b.
Proof.
  intros H Hb. apply invertible_onto. unfold onto. apply NoDup_Permutation_bis.
  - apply NoDup_nth with (d := lin n b 0). intros i j Hi' Hj' E. rewrite map_length, seq_length in Hi', Hj'.
    rewrite !map_nth, !seq_nth in E by assumption. cbn [Nat.add] in E. apply (proj1 Hb).
    rewrite !(acts_unique n b f (full n b) H (full_acts n b)).
    unfold full. rewrite !Nat.mod_small, !Nat.div_small by assumption. lia.
  - rewrite map_length. lia.
  - intros v Hv. apply in_map_iff in Hv. destruct Hv as [u [<- _]]. apply in_seq. split; [lia | apply lin_lt].
Qed.

Lemma valid_ext w f g : valid w f -> (forall v, f v = g v) -> valid w g.
Proof.
  intros [[-> H] | [d [b [H [Hi Ha]]]]] E.
  - left. split; [reflexivity|]. intro v. rewrite <- E. apply H.
  - right. exists d, b. split; [exact H|]. split; [exact Hi|]. eapply acts_fext; eassumption.
Qed.

Lemma acts_id n : acts_as n Nat.eqb (fun v => v).
Proof.
  intros v i. destruct (Nat.ltb_spec i n) as [Hi|]; [|reflexivity]. symmetry. apply (mat_vec_one n (Nat.testbit v)). exact Hi.
Qed.

Lemma invertible_id n : invertible n Nat.eqb.
Proof. exists Nat.eqb. intros i j Hi Hj. split; apply (mat_vec_one n (fun k => k =? j)); exact Hi. Qed.

Lemma ent_id f : (forall v, f v = v) -> forall i j, ent f i j = (i =? j).
Proof. intros H i j. unfold ent. rewrite H, testbit_pow. apply Nat.eqb_sym. Qed.

Lemma valid_acts w f n : valid w f -> w_degree w <= n -> invertible n (ent f) /\ acts_as n (ent f) f.
Proof.
  intros [[-> H] | [d [b [H [Hi Ha]]]]] Hn.
  - split.
    + apply (invertible_ext n Nat.eqb); [intros; symmetry; apply ent_id; exact H | apply invertible_id].
    + apply (acts_ext n Nat.eqb); [intros; symmetry; apply ent_id; exact H|]. eapply acts_fext; [apply acts_id | intro v; symmetry; apply H].
  - rewrite (ww_degree _ _ _ H) in Hn. split; [eapply invertible_ent; eassumption | eapply acts_ent; eassumption].
Qed.

Lemma valid_matrix w f n : valid w f -> w_degree w <= n -> walsh_matrix w (Some n) = Ok (mk n (ent f)).
Proof.
  intros Hv Hn. unfold walsh_matrix. rewrite (proj2 (Nat.leb_le _ _) Hn). cbn [true_except bind]. f_equal. unfold mk.
  apply map_range_ext. intros i Hi. apply map_range_ext. intros j Hj.
  destruct Hv as [[-> H] | [d [b [H [_ Ha]]]]].
  - cbn [w_degree walsh_neutral]. replace (i <? 0) with false by reflexivity. cbn [andb]. rewrite ent_id by exact H. destruct (i =? j); reflexivity.
  - rewrite (ww_degree _ _ _ H), (ww_matrix _ _ _ H), (proj1 (acts_ent d d b f Ha (le_n d))). unfold grow.
    destruct (Nat.ltb_spec i d), (Nat.ltb_spec j d); cbn [andb]; try (destruct (i =? j); reflexivity). apply nth_mk; assumption.
Qed.

Lemma valid_vector w f : valid w f -> canonical (w_vector w) /\ forall k, Vector_get (w_vector w) k = f (2 ^ k).
Proof.
  intros [[-> H] | [d [b [H [Hi Ha]]]]].
  - split; [split; [constructor | discriminate]|]. intro k. rewrite H. reflexivity.
  - split; [apply (ww_vcanon _ _ _ H)|]. intro k. apply Nat.bits_inj. intro i. rewrite (ww_vec _ _ _ H). symmetry. apply acts_pow. exact Ha.
Qed.

Lemma valid_transpose w f : valid w f ->
  canonical (w_transpose w) /\ forall k i, Nat.testbit (Vector_get (w_transpose w) k) i = ent f k i.
Proof.
  intros [[-> H] | [d [b [H [Hi Ha]]]]].
  - split; [split; [constructor | discriminate]|]. intros k i. rewrite ent_id by exact H. apply testbit_pow.
  - split; [apply (ww_tcanon _ _ _ H)|]. intros k i. rewrite (ww_tr _ _ _ H). symmetry. apply acts_pow. exact Ha.
Qed.

Lemma valid_eqb a b f g : valid a f -> valid b g -> (walsh_eqb a b = true <-> forall v, f v = g v).
Proof.
  intros Ha Hb. destruct (valid_vector a f Ha) as [Ca Va]. destruct (valid_vector b g Hb) as [Cb Vb].
  assert (E : dict_eqb (w_vector a) (w_vector b) = true <-> forall v, f v = g v).
  { rewrite canonical_eq by assumption. split.
    - intro H. apply linear_ext; [eapply valid_linear; exact Ha | eapply valid_linear; exact Hb|]. intro k. rewrite <- Va, <- Vb. apply H.
    - intros H k. rewrite Va, Vb. apply H. }
  unfold walsh_eqb. destruct (w_neutral a) eqn:Na, (w_neutral b) eqn:Nb; cbn [andb]; try exact E.
  split; [|reflexivity]. intros _ v.
  destruct Ha as [[-> Ha] | [d [m [Ha _]]]]; [|rewrite (ww_neutral _ _ _ Ha) in Na; discriminate].
  destruct Hb as [[-> Hb] | [d [m [Hb _]]]]; [|rewrite (ww_neutral _ _ _ Hb) in Nb; discriminate].
  rewrite Ha, Hb. reflexivity.
Qed.

(** the degree is the least possible one *)
Lemma valid_degree w f n b : valid w f -> acts_as n b f -> w_degree w <= n.
Proof.
  intros [[-> H] | [d [c [H [Hi Ha]]]]] Hb; [cbn; lia|]. rewrite (ww_degree _ _ _ H). assert (Hd := ww_two _ _ _ H).
  assert (Hm := tight_period d c f ltac:(lia) Ha (ww_tight _ _ _ H)). assert (Hp := full_period n b f Hb).
  destruct (proj2 Hm (2 ^ n) ltac:(apply Nat.neq_0_lt_0, Nat.pow_nonzero; lia) Hp) as [e He].
  destruct (Nat.le_gt_cases d n) as [|Hlt]; [assumption|]. exfalso. apply pow_lt in Hlt.
  assert (2 ^ n <> 0) by (apply Nat.pow_nonzero; lia). destruct e; nia.
Qed.

(** * Product *)

Lemma fold_left_add (f : nat -> Z) l a : fold_left (fun acc k => (acc + f k)%Z) l a = (a + fold_right Z.add 0 (map f l))%Z.
Proof. revert a. induction l as [|k l IH]; intro a; cbn [fold_left map fold_right]; [lia|]. rewrite IH. lia. Qed.

Lemma odd_sum (f : nat -> Z) l : Z.odd (fold_right Z.add 0%Z (map f l)) = xor_all (map (fun k => Z.odd (f k)) l).
Proof.
  induction l as [|k l IH]; [reflexivity|]. cbn [map fold_right]. rewrite Z.odd_add, IH. reflexivity.
Qed.

Lemma mod2_z (z : Z) : (z mod 2)%Z = z_of_bool (Z.odd z).
Proof. rewrite Zmod_odd. destruct (Z.odd z); reflexivity. Qed.

Lemma mat_dot_mk n a b : map (map (fun z => (z mod 2)%Z)) (mat_dot n (mk n a) (mk n b)) = mk n (mat_mat n a b).
Proof.
  unfold mat_dot, mk at 3. rewrite map_map. apply map_range_ext. intros i Hi. rewrite map_map. apply map_range_ext. intros j Hj.
  rewrite mod2_z. f_equal. rewrite (fold_left_add (fun k => (mat_entry (mk n a) i k * mat_entry (mk n b) k j)%Z)).
  rewrite Z.add_0_l, odd_sum. unfold mat_mat, mat_vec. apply xor_all_ext. intros k Hk. apply in_seq in Hk.
  unfold mat_entry. rewrite !nth_mk by lia. rewrite Z.odd_mul, !odd_z_of_bool. reflexivity.
Qed.

Lemma mul_spec a b f g : valid a f -> valid b g -> exists w, walsh_mul a b = Ok w /\ valid w (fun v => f (g v)).
Proof.
  intros Ha Hb. unfold walsh_mul. set (n := Nat.max (w_degree a) (w_degree b)).
  rewrite (valid_matrix a f n Ha) by (unfold n; lia). rewrite (valid_matrix b g n Hb) by (unfold n; lia). cbn [bind]. rewrite mat_dot_mk.
  destruct (valid_acts a f n Ha ltac:(unfold n; lia)) as [Ia Aa]. destruct (valid_acts b g n Hb ltac:(unfold n; lia)) as [Ib Ab].
  destruct (of_matrix_ok n (mat_mat n (ent f) (ent g)) (fun v => f (g v)) false) as [w [E [Hw _]]].
  - apply invertible_mul; assumption.
  - apply acts_comp; assumption.
  - exists w. auto.
Qed.

(** * Constructor from a vector *)

Definition colbits (l : list nat) (i j : nat) : bool := Nat.testbit (nth j l 0) i.

Lemma of_vector_eq l trust : (forall v, In v l -> v < 2 ^ length l) ->
  walsh_of_vector l trust = walsh_of_matrix (mk (length l) (colbits l)) trust.
Proof.
  intro H. unfold walsh_of_vector, vector_to_matrix. destruct (list_eqb l [] || list_eqb l [1]) eqn:E; cbn [negb true_except bind].
  - apply orb_true_iff in E. destruct E as [E|E]; apply list_eqb_eq in E; subst l; reflexivity.
  - rewrite (mapM_ok _ (fun v => map (Nat.testbit v) (range (length l)))).
    2: { intros v Hv. destruct (Binv_int_len v (length l) (H v Hv)) as [u [Eu [H1 H2]]]; [destruct l; [destruct Hv | discriminate]|].
         rewrite Eu. f_equal. rewrite binv_intval_eq in H1. apply nth_ext with (d := false) (d' := false).
         - rewrite map_length, range_length. exact H2.
         - intros k Hk. rewrite H2 in Hk. rewrite (nth_map_range (Nat.testbit v)) by exact Hk. rewrite <- testbit_b2n, H1. reflexivity. }
    cbn [bind or_neutral]. f_equal. unfold of_columns, mk. apply map_range_ext. intros i Hi. rewrite map_map.
    rewrite <- (map_nth_seq_eq l 0) at 1. rewrite map_map. apply map_range_ext. intros j Hj.
    unfold colbits. f_equal. apply (nth_map_range (Nat.testbit (nth j l 0))). exact Hi.
Qed.

Lemma of_vector_reject l trust v : In v l -> 2 ^ length l <= v -> l <> [1] -> walsh_of_vector l trust = Err BinvLengthError.
Proof.
  intros Hin Hv Hne. unfold walsh_of_vector, vector_to_matrix.
  replace (list_eqb l [] || list_eqb l [1]) with false.
  2: { symmetry. apply orb_false_iff. split; apply not_true_iff_false; intro E; apply list_eqb_eq in E; [subst l; destruct Hin | contradiction]. }
  cbn [negb true_except bind]. replace (mapM _ l) with (@Err (list (list bool)) BinvLengthError); [reflexivity|]. symmetry.
  assert (G : forall k, k <> 0 -> 2 ^ k <= v -> forall l', In v l' ->
    mapM (fun n => Binv_intval n (Some k)) l' = Err BinvLengthError).
  { clear. intros k Hk Hv. induction l' as [|u l' IH]; [intros []|]. intro Hin. cbn [mapM].
    destruct (Nat.lt_ge_cases u (2 ^ k)) as [Hu|Hu].
    - destruct (Binv_int_len u k Hu Hk) as [x [Ex _]]. rewrite Ex. cbn [bind]. destruct Hin as [->|Hin]; [lia|]. rewrite IH by exact Hin. reflexivity.
    - rewrite Binv_int_reject by exact Hu. reflexivity. }
  apply G; [destruct l; [destruct Hin | discriminate] | exact Hv | exact Hin].
Qed.

(** * Transposition *)

Lemma extend_spec v d : canonical v -> (forall k, d <= k -> Vector_get v k = 2 ^ k) -> extend_to_length v d = Ok (map (Vector_get v) (range d)).
Proof.
  intros Hc H. unfold extend_to_length. rewrite (proj2 (Nat.leb_le _ _) (Vector_length_le v d Hc H)). reflexivity.
Qed.

Lemma valid_high w f k : valid w f -> w_degree w <= k -> f (2 ^ k) = 2 ^ k.
Proof.
  intros [[-> H] | [d [b [H [Hi Ha]]]]] Hk; [apply H|]. rewrite (ww_degree _ _ _ H) in Hk. apply Nat.bits_inj. intro i.
  rewrite (acts_pow d b f k i Ha), testbit_pow. unfold grow. rewrite (proj2 (Nat.ltb_ge k d)) by lia. rewrite andb_false_r. apply Nat.eqb_sym.
Qed.

Lemma valid_trhigh w f k : valid w f -> w_degree w <= k -> Vector_get (w_transpose w) k = 2 ^ k.
Proof.
  intros H Hk. apply Nat.bits_inj. intro i. rewrite (proj2 (valid_transpose w f H)), testbit_pow.
  destruct H as [[-> H] | [d [b [H [Hi Ha]]]]]; [apply ent_id; exact H|]. rewrite (ww_degree _ _ _ H) in Hk. unfold ent.
  rewrite (acts_pow d b f i k Ha). unfold grow. rewrite (proj2 (Nat.ltb_ge k d)) by lia. reflexivity.
Qed.

Lemma vector_spec w f n : valid w f -> w_degree w <= n -> walsh_vector w (Some n) = Ok (map (fun k => f (2 ^ k)) (range n)).
Proof.
  intros H Hn. unfold walsh_vector, walsh_extend. rewrite (proj2 (Nat.leb_le _ _) Hn). cbn [true_except bind].
  destruct (valid_vector w f H) as [Hc Hv]. rewrite extend_spec; [f_equal; apply map_ext; exact Hv | exact Hc|].
  intros k Hk. rewrite Hv. apply (valid_high w f k H). lia.
Qed.

Lemma tvector_spec w f n : valid w f -> w_degree w <= n ->
  walsh_transpose_vector w (Some n) = Ok (map (Vector_get (w_transpose w)) (range n)).
Proof.
  intros H Hn. unfold walsh_transpose_vector, walsh_extend. rewrite (proj2 (Nat.leb_le _ _) Hn). cbn [true_except bind].
  destruct (valid_transpose w f H) as [Hc _]. apply extend_spec; [exact Hc|]. intros k Hk. apply (valid_trhigh w f k H). lia.
Qed.

Lemma transposed_spec w f : valid w f -> exists t g, walsh_transposed w = Ok t /\ valid t g /\ forall i j, ent g i j = ent f j i.
Proof.
  intro H. set (n := w_degree w). unfold walsh_transposed.
  assert (E : walsh_transpose_vector w None = walsh_transpose_vector w (Some n)) by reflexivity.
  rewrite E, (tvector_spec w f n H (le_n n)). cbn [bind]. set (l := map (Vector_get (w_transpose w)) (range n)).
  assert (Hl : length l = n) by (unfold l; rewrite map_length, range_length; reflexivity).
  destruct (valid_acts w f n H (le_n n)) as [Hi Ha].
  assert (Hbit : forall k i, Nat.testbit (Vector_get (w_transpose w) k) i = ent f k i) by apply (valid_transpose w f H).
  assert (Hgr : forall i j, ent f i j = grow n (ent f) i j) by (intros; apply acts_pow; exact Ha).
  rewrite of_vector_eq.
  2: { intros v Hv. rewrite Hl. unfold l in Hv. apply in_map_iff in Hv. destruct Hv as [k [<- Hk]]. apply range_In in Hk.
       apply bits_lt_pow. intros i Hin. rewrite Hbit, Hgr. unfold grow. rewrite (proj2 (Nat.ltb_ge i n)) by lia. rewrite andb_false_r.
       apply Nat.eqb_neq. lia. }
  rewrite Hl. rewrite (mk_ext n (colbits l) (tr (ent f))).
  2: { intros i j Hi' Hj. unfold colbits, l. rewrite (nth_map_range (Vector_get (w_transpose w))) by exact Hj. apply Hbit. }
  destruct (of_matrix_ok n (tr (ent f)) (full n (tr (ent f))) false (invertible_tr n (ent f) Hi) (full_acts n (tr (ent f)))) as [t [Et [Ht _]]].
  exists t, (full n (tr (ent f))). split; [exact Et|]. split; [exact Ht|]. intros i j. unfold ent at 1.
  rewrite (acts_pow n (tr (ent f)) _ j i (full_acts n _)), grow_tr. symmetry. apply Hgr.
Qed.

(** * Constructor from a permutation *)

Lemma linear_period_acts g k : linear g -> is_period g (2 ^ k) -> (forall v, v < 2 ^ k -> g v < 2 ^ k) -> acts_as k (ent g) g.
Proof.
  intros Hl Hp Hb. apply (acts_fext k (ent g) (full k (ent g))); [apply full_acts|].
  apply linear_ext; [eapply acts_linear; apply full_acts | exact Hl|]. intro j. apply Nat.bits_inj. intro i.
  rewrite (acts_pow k (ent g) _ j i (full_acts k (ent g))). unfold grow. destruct (Nat.ltb_spec j k) as [Hj|Hj].
  - rewrite andb_true_r. destruct (Nat.ltb_spec i k) as [Hi|Hi]; [reflexivity|].
    rewrite testbit_high; [apply Nat.eqb_neq; lia|].
    apply Nat.lt_le_trans with (2 ^ k); [apply Hb, pow_lt; exact Hj | apply Nat.pow_le_mono_r; lia].
  - rewrite andb_false_r. assert (E : forall c, g (2 ^ k * c) = 2 ^ k * c).
    { induction c as [|c IH]; [rewrite Nat.mul_0_r; apply linear_zero; exact Hl|].
      replace (2 ^ k * S c) with (2 ^ k * c + 2 ^ k) by lia. rewrite Hp, IH. reflexivity. }
    replace j with (k + (j - k)) at 2 by lia. rewrite Nat.pow_add_r, E, <- Nat.pow_add_r. replace (k + (j - k)) with j by lia.
    rewrite testbit_pow. apply Nat.eqb_sym.
Qed.

Lemma periodic_bound p q v : wf p -> perilen p = Some q -> v < q -> pget p v < q.
Proof.
  intros H E Hv. rewrite pget_act by exact H. assert (Hp := wf_peri p H). rewrite E in Hp. destruct Hp as [_ [Hb [_ [Hq _]]]].
  rewrite E. cbn [act]. rewrite ext_eq by exact Hq. rewrite Nat.mod_small, Nat.div_small by exact Hv.
  assert (fapp (mapping p) v < q) by (apply fapp_below; [apply (wf_map p H) | exact Hb | exact Hv]). lia.
Qed.

(** perm_to_matrix for the two kinds of arguments *)
Lemma ptm_seq src k g trust : 0 < k -> map g (range (2 ^ k)) <> [0; 1] -> (forall v, v < 2 ^ k -> g v < 2 ^ k) ->
  match src with WPerm p => psequence p None | WSeq l => guard list_eqb (sort_nat l) (range (length l)) else NotEvenPermutationError ;; Ok l end
    = Ok (map g (range (2 ^ k))) ->
  perm_to_matrix src trust =
  let* transpose := mapM (fun m =>
        match walsh_function_to_index (map (fun v => Nat.testbit (g v) m) (range (2 ^ k))) trust with
        | Err NotWalshRowError => Err InvalidPermError
        | r => r
        end) (range k) in
  mapM (fun t => let* b := Binv_intval t (Some k) in Ok (map z_of_bool b)) transpose.
Proof.
  intros Hk Hne Hb E. unfold perm_to_matrix. rewrite E. cbn [bind]. rewrite map_length, range_length.
  assert (H4 : 2 <= 2 ^ k) by (change 2 with (2 ^ 1) at 1; apply Nat.pow_le_mono_r; lia).
  rewrite (proj2 (Nat.eqb_neq (2 ^ k) 0)) by lia. cbn [negb true_except bind].
  unfold is_power_of_two. rewrite Nat.log2_pow2 by lia. rewrite Nat.eqb_refl, (proj2 (Nat.ltb_lt 0 (2 ^ k))) by lia. cbn [andb true_except bind].
  assert (Hlen : length (map g (range (2 ^ k))) = 2 ^ k) by (rewrite map_length, range_length; reflexivity).
  replace (list_eqb (map g (range (2 ^ k))) [0] || list_eqb (map g (range (2 ^ k))) [0; 1]) with false.
  2: { symmetry. apply orb_false_iff. split; apply not_true_iff_false; intro E0; apply list_eqb_eq in E0; [rewrite E0 in Hlen; cbn [length] in Hlen; lia | contradiction]. }
  cbn [negb true_except bind].
  rewrite (mapM_ok _ (fun v => map (Nat.testbit v) (range k)) (map g (range (2 ^ k)))).
  2: { intros v Hv. apply in_map_iff in Hv. destruct Hv as [u [<- Hu]]. apply range_In in Hu.
       destruct (Binv_int_len (g u) k (Hb u Hu) ltac:(lia)) as [x [Ex [H1 H2]]].
       rewrite Ex. f_equal. rewrite binv_intval_eq in H1. apply nth_ext with (d := false) (d' := false).
       - rewrite map_length, range_length. exact H2.
       - intros j Hj. rewrite H2 in Hj. rewrite (nth_map_range (Nat.testbit (g u))) by exact Hj. rewrite <- testbit_b2n, H1. reflexivity. }
  cbn [bind]. f_equal.
  assert (Em : forall l, (forall m, In m l -> m < k) -> mapM (fun m => match walsh_function_to_index (map (fun col => nth m col false)
      (map (fun v => map (Nat.testbit v) (range k)) (map g (range (2 ^ k))))) trust with Err NotWalshRowError => Err InvalidPermError | r => r end) l =
    mapM (fun m => match walsh_function_to_index (map (fun v => Nat.testbit (g v) m) (range (2 ^ k))) trust with Err NotWalshRowError => Err InvalidPermError | r => r end) l).
  { induction l as [|m l IH]; [reflexivity|]. intro Hm. cbn [mapM].
    replace (map (fun col => nth m col false) _) with (map (fun v => Nat.testbit (g v) m) (range (2 ^ k))).
    - rewrite IH by (intros; apply Hm; right; assumption). reflexivity.
    - rewrite !map_map. apply map_ext. intro v. symmetry. apply (nth_map_range (Nat.testbit (g v))). apply Hm. left. reflexivity. }
  apply Em. intros m Hm. apply range_In. exact Hm.
Qed.

Lemma binv_rows k b l : 0 < k -> (forall m, In m l -> rowv k b m < 2 ^ k) ->
  mapM (fun t => let* v := Binv_intval t (Some k) in Ok (map z_of_bool v)) (map (rowv k b) l) = Ok (map (fun i => map (fun j => z_of_bool (b i j)) (range k)) l).
Proof.
  intros Hk H. induction l as [|m l IH]; [reflexivity|]. cbn [map mapM].
  destruct (Binv_int_len (rowv k b m) k (H m (or_introl eq_refl)) ltac:(lia)) as [x [Ex [H1 H2]]]. rewrite Ex. cbn [bind].
  rewrite IH by (intros; apply H; right; assumption). cbn [bind]. do 2 f_equal. rewrite <- (map_map (b m) z_of_bool). f_equal.
  rewrite binv_intval_eq in H1. apply nth_ext with (d := false) (d' := false).
  - rewrite map_length, range_length. exact H2.
  - intros j Hj. rewrite H2 in Hj. rewrite (nth_map_range (b m)) by exact Hj. rewrite <- testbit_b2n, H1, testbit_rowv.
    rewrite (proj2 (Nat.ltb_lt j k) Hj). reflexivity.
Qed.

Lemma rowv_lt k b m : rowv k b m < 2 ^ k.
Proof. apply bits_lt_pow. intros i Hi. rewrite testbit_rowv, (proj2 (Nat.ltb_ge i k)) by lia. reflexivity. Qed.

Lemma index_trusted v : 2 <= Nat.log2 (length v) -> length v = 2 ^ Nat.log2 (length v) ->
  walsh_function_to_index v true = Ok (rowv (Nat.log2 (length v)) (fun _ j => nth (2 ^ j) v false) 0).
Proof.
  intros Hk Hl. set (k := Nat.log2 (length v)) in *. unfold walsh_function_to_index.
  assert (H4 : 4 <= 2 ^ k) by (change 4 with (2 ^ 2); apply Nat.pow_le_mono_r; lia).
  replace (bvec_eqb v [false]) with false.
  2: { symmetry. apply not_true_iff_false. intro E. apply bvec_eqb_eq in E. rewrite E in Hl. cbn [length] in Hl. lia. }
  unfold is_power_of_two. fold k. rewrite <- Hl, Nat.eqb_refl, (proj2 (Nat.ltb_lt 0 (length v))) by lia. cbn [andb true_except bind].
  rewrite (mapM_ok _ (fun j => nth (2 ^ j) v false)).
  - cbn [bind]. rewrite binv_intval_eq. reflexivity.
  - intros j Hj. apply range_In in Hj. apply lget_ok. rewrite Hl. apply pow_lt. exact Hj.
Qed.

Lemma ptm_trusted p k : wf p -> perilen p = Some (2 ^ k) -> linear (pget p) -> exists w,
  WalshPerm None None (Some (WPerm p)) true = Ok w /\ valid w (pget p).
Proof.
  intros H E Hl. unfold WalshPerm. assert (Hseq : psequence p None = Ok (map (pget p) (range (2 ^ k)))).
  { unfold psequence. rewrite E. reflexivity. }
  assert (Hper := pget_period p (2 ^ k) H E). assert (Hbd := fun v => periodic_bound p (2 ^ k) v H E).
  assert (Hac := linear_period_acts (pget p) k Hl (proj1 Hper) Hbd).
  destruct (Nat.lt_ge_cases k 2) as [Hk|Hk].
  - exfalso. assert (Hn : neutral p = false) by (assert (W := wf_peri p H); rewrite E in W; apply W).
    assert (Hid : forall v, pget p v = v); [|apply (wf_moves p H) in Hid; congruence].
    apply linear_ext; [exact Hl | intros u v; reflexivity|]. intro j. apply Nat.bits_inj. intro i.
    rewrite (acts_pow k (ent (pget p)) _ j i Hac), testbit_pow. rewrite Nat.eqb_sym. unfold grow.
    destruct (Nat.ltb_spec i k); [|reflexivity]. destruct (Nat.ltb_spec j k); [|reflexivity]. cbn [andb].
    assert (i = 0 /\ j = 0 /\ k = 1) as [-> [-> ->]] by lia. unfold ent. cbn [Nat.pow].
    assert (Hz := linear_zero _ Hl). assert (Hb1 := Hbd 1 ltac:(cbn; lia)). cbn in Hb1.
    destruct (pget p 1) as [|[|x]] eqn:E1; [|reflexivity | lia]. exfalso.
    assert (Hc : pget p 1 = pget p 0) by congruence. apply (pget_bij p H) in Hc. discriminate.
  - assert (Hne : map (pget p) (range (2 ^ k)) <> [0; 1]).
    { intro E0. apply (f_equal (@length nat)) in E0. rewrite map_length, range_length in E0. cbn [length] in E0.
      assert (2 ^ 2 <= 2 ^ k) by (apply Nat.pow_le_mono_r; lia). cbn in H0. lia. }
    rewrite (ptm_seq (WPerm p) k (pget p) true ltac:(lia) Hne Hbd Hseq).
    rewrite (mapM_ok _ (rowv k (ent (pget p)))).
    + cbn [bind]. rewrite binv_rows by (try lia; intros; apply rowv_lt). cbn [or_neutral].
      fold (mk k (ent (pget p))).
      destruct (of_matrix_ok k (ent (pget p)) (pget p) true) as [w [Ew [Hw _]]]; [|exact Hac | exists w; auto].
      eapply bijective_invertible; [exact Hac | apply pget_bij; exact H].
    + intros m Hm. apply range_In in Hm. set (v := map (fun v => Nat.testbit (pget p v) m) (range (2 ^ k))).
      assert (Hlen : length v = 2 ^ k) by (unfold v; rewrite map_length, range_length; reflexivity).
      assert (Hlog : Nat.log2 (length v) = k) by (rewrite Hlen; apply Nat.log2_pow2; lia).
      rewrite index_trusted by (rewrite Hlog; (lia || exact Hlen)). rewrite Hlog. f_equal. unfold rowv. f_equal. apply map_range_ext.
      intros j Hj. unfold v. rewrite (nth_map_range (fun v => Nat.testbit (pget p v) m)) by (apply pow_lt; exact Hj). reflexivity.
Qed.

(** * Inverse *)

Lemma wf_bij_inv f g : bijective f -> (forall v, f (g v) = v) -> forall v, g (f v) = v.
Proof. intros Hb H v. apply (proj1 Hb). apply H. Qed.

Lemma valid_bij_inverse n b c f : invertible n b -> acts_as n b f -> (forall i j, i < n -> j < n -> mat_mat n b c i j = Nat.eqb i j) ->
  invertible n c /\ forall v, f (full n c v) = v.
Proof.
  intros Hi Ha Hc. assert (Hf : forall v, f (full n c v) = v).
  { intro v. apply (acts_unique n Nat.eqb (fun v => f (full n c v)) (fun v => v)); [|apply acts_id].
    apply (acts_ext n (mat_mat n b c)); [exact Hc|]. apply acts_comp; [exact Ha | apply full_acts]. }
  split; [|exact Hf]. apply (bijective_invertible n c (full n c)); [apply full_acts|]. split.
  - intros u v E. rewrite <- (Hf u), <- (Hf v), E. reflexivity.
  - intro v. exists (f v). apply (proj1 (acts_bijective n b f Hi Ha)). apply Hf.
Qed.

Lemma int_product_mod2 n a m : int_product_is_one n (mk n a) m ->
  forall i j, i < n -> j < n -> mat_mat n a (bit_entry m) i j = Nat.eqb i j.
Proof.
  intros H i j Hi Hj. specialize (H i j Hi Hj). apply (f_equal Z.odd) in H. rewrite odd_sum in H.
  replace (Z.odd (if i =? j then 1 else 0)) with (i =? j) in H by (destruct (i =? j); reflexivity). rewrite <- H.
  unfold mat_mat, mat_vec. apply xor_all_ext. intros k Hk. apply in_seq in Hk. rewrite nth_mk by lia. rewrite Z.odd_mul, odd_z_of_bool. reflexivity.
Qed.

Lemma mod2_mk n m : square n m -> map (map (fun z => (z mod 2)%Z)) m = mk n (bit_entry m).
Proof.
  intros [Hl Hr]. rewrite <- (map_nth_seq_eq m []) at 1. rewrite map_map, Hl. unfold mk. apply map_range_ext. intros i Hi.
  rewrite <- (map_nth_seq_eq (nth i m []) 0%Z) at 1. rewrite map_map. rewrite (Hr (nth i m [])) by (apply nth_In; lia).
  apply map_range_ext. intros j Hj. rewrite mod2_z. reflexivity.
Qed.

(** numpy.linalg.inv returns the inverse of the matrix [m] *)
Definition inverse_at (linv : zmat -> res (option zmat)) (n : nat) (m : zmat) : Prop :=
  exists o, linv m = Ok o /\
    match o with
    | Some b => square n b /\ int_product_is_one n m b
    | None => forall b, square n b -> ~ int_product_is_one n m b
    end.

Lemma valid_matrix_binary w f : valid w f -> binary_matrix (w_degree w) (w_matrix w) /\ invertible (w_degree w) (bit_entry (w_matrix w)).
Proof.
  intros [[-> H] | [d [b [H [Hi Ha]]]]].
  - cbn. split; [split; [reflexivity | intros row []] | exists Nat.eqb; intros; lia].
  - rewrite (ww_matrix _ _ _ H), (ww_degree _ _ _ H). split; [apply binary_mk|].
    apply (invertible_ext d b); [intros; symmetry; apply bit_mk; assumption | exact Hi].
Qed.

Lemma inverse_at_spec linv w f : inverse_at linv (w_degree w) (w_matrix w) -> valid w f ->
  exists r g, walsh_inverse linv w = Ok r /\ valid r g /\ (forall v, f (g v) = v) /\ (forall v, g (f v) = v).
Proof.
  intros Hl Hv. assert (Hbij := valid_bijective w f Hv).
  assert (K : exists r g, walsh_inverse linv w = Ok r /\ valid r g /\ (forall v, f (g v) = v)).
  2: { destruct K as [r [g [E [H1 H2]]]]. exists r, g. split; [exact E|]. split; [exact H1|]. split; [exact H2|]. apply wf_bij_inv; assumption. }
  unfold walsh_inverse. destruct Hv as [[-> H] | [d [b [H [Hi Ha]]]]].
  - cbn [w_matrix w_degree walsh_neutral] in Hl |- *. destruct Hl as [o [E Ho]].
    + rewrite E. cbn [bind]. destruct o as [m|].
      * destruct Ho as [[Hm _] _]. destruct m; [|discriminate]. exists walsh_neutral, (fun v => v). split; [reflexivity|].
        split; [left; auto|]. exact H.
      * exfalso. apply (Ho []); [split; [reflexivity | intros row []]|]. intros i j Hi; lia.
  - rewrite (ww_matrix _ _ _ H), (ww_degree _ _ _ H) in Hl. rewrite (ww_matrix _ _ _ H). destruct Hl as [o [E Ho]].
    + rewrite E. cbn [bind]. destruct o as [m|].
      * destruct Ho as [Hs Hp]. rewrite (mod2_mk d m Hs).
        destruct (valid_bij_inverse d b (bit_entry m) f Hi Ha (int_product_mod2 d b m Hp)) as [Hc Hf].
        destruct (of_matrix_ok d (bit_entry m) (full d (bit_entry m)) true Hc (full_acts _ _)) as [r [Er [Hr _]]].
        exists r, (full d (bit_entry m)). auto.
      * destruct (view_ok w d b H Hi) as [p [Ep [Hw [Hn [Hq Hg]]]]]. rewrite Ep. cbn [bind].
        destruct (pcycles_spec p Hw) as [cs [Ec [Hcn _]]]. rewrite Ec. cbn [bind].
        destruct (cycles_rebuild p cs Hw Ec) as [p' [Ep' Heq]]. rewrite Ep'. cbn [bind].
        assert (Hw' : wf p') by (eapply Perm_wf; [|exact Ep']; exact Hcn).
        assert (Hg' := proj1 (perm_eqb_spec p' p Hw' Hw) Heq).
        assert (Hf : forall v, pget p' v = f v).
        { intro v. rewrite Hg', Hg. apply (acts_unique d b); [apply full_acts | exact Ha]. }
        assert (Hn' : neutral p' = false).
        { destruct (neutral p') eqn:En; [|reflexivity]. rewrite <- Hn. symmetry. apply (wf_moves p Hw). intro v. rewrite <- Hg'. apply (wf_moves p' Hw'). exact En. }
        destruct (pinv_spec p' Hw') as [r [Er [Hwr [Hr1 [Hr2 Hk]]]]]. rewrite Er. cbn [bind].
        assert (Hlin : linear (pget r)).
        { intros u v. apply (proj1 (pget_bij p' Hw')). rewrite !Hr2. rewrite Hf, (acts_linear d b f Ha), <- !Hf, !Hr2. reflexivity. }
        assert (Hpr : is_period (pget r) (2 ^ d)).
        { intro v. apply (proj1 (pget_bij p' Hw')). rewrite Hr2, Hf, (full_period d b f Ha), <- Hf, Hr2. reflexivity. }
        assert (Hnr : neutral r = false).
        { destruct (neutral r) eqn:En; [|reflexivity]. rewrite <- Hn'. symmetry. apply (wf_moves p' Hw'). intro v.
          rewrite <- (Hr2 v) at 2. rewrite (proj1 (wf_moves r Hwr) En v). reflexivity. }
        destruct (perilen r) as [q|] eqn:Eq.
        -- destruct (pget_period r q Hwr Eq) as [_ Hmin]. assert (Hq0 : q <> 0) by (assert (W := wf_peri r Hwr); rewrite Eq in W; apply W).
           destruct (pow2_divisor q d Hq0) as [k [_ Ek]].
           { destruct (Hmin (2 ^ d) ltac:(apply Nat.neq_0_lt_0, Nat.pow_nonzero; lia) Hpr) as [e He]. exists e. exact He. }
           subst q. destruct (ptm_trusted r k Hwr Eq Hlin) as [u [Eu Hu]]. exists u, (pget r). split; [exact Eu|]. split; [exact Hu|].
           intro v. rewrite <- Hf. apply Hr2.
        -- exfalso. assert (Kp : kind p' false).
           { right. split; [|discriminate]. intro Ep0. exfalso. apply (finite_periodic_absurd p' p (2 ^ d)); assumption. }
           destruct (Hk false Kp) as [K|K]; [congruence|]. discriminate (proj1 K Eq).
Qed.

Lemma inverse_spec linv w f : exact_inverse linv -> valid w f ->
  exists r g, walsh_inverse linv w = Ok r /\ valid r g /\ (forall v, f (g v) = v) /\ (forall v, g (f v) = v).
Proof.
  intros Hl Hv. apply inverse_at_spec; [|exact Hv]. destruct (valid_matrix_binary w f Hv) as [H1 H2]. apply (Hl _ _ H1 H2).
Qed.
