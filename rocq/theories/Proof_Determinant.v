(** Proof_Determinant: fraction-free elimination computes the determinant. *)

From Coq Require Import List Arith ZArith Bool Lia.
From Verif Require Import Model_Base Model_Determinant Spec_WalshPerm Spec_Determinant Proof_ZDet.
Import ListNotations.
Open Scope nat_scope.

Lemma lget_nth {A} (l : list A) i d : i < length l -> lget l i = Ok (nth i l d).
Proof. intros H. unfold lget. now rewrite (nth_error_nth' l d H). Qed.

Lemma lset_length {A} (l : list A) i x : length (lset l i x) = length l.
Proof. revert i; induction l as [|y l IH]; intros [|i]; cbn; congruence. Qed.

Lemma nth_lset {A} (l : list A) i x j d :
  i < length l -> nth j (lset l i x) d = if j =? i then x else nth j l d.
Proof.
  revert i j; induction l as [|y l IH]; intros [|i] [|j] H; cbn in *; try lia; try reflexivity.
  apply IH; lia.
Qed.

Lemma Forall_lset {A} (P : A -> Prop) l i x : Forall P l -> P x -> Forall P (lset l i x).
Proof.
  intros H Hx; revert i; induction H as [|y l Hy Hl IH]; intros [|i]; cbn; constructor; auto.
Qed.

Section Sq.
Variable n : nat.

Lemma row_length mat j : square n mat -> j < n -> length (nth j mat []) = n.
Proof.
  intros [Hl Hf] Hj. apply Hf, nth_In. lia.
Qed.

Lemma mget_ok mat j k : square n mat -> j < n -> k < n -> mget mat j k = Ok (entry mat j k).
Proof.
  intros Hs Hj Hk. unfold mget, entry.
  rewrite (lget_nth mat j []) by (destruct Hs; lia). cbn [bind].
  apply lget_nth. rewrite row_length; auto.
Qed.

Lemma mset_square mat j k x : square n mat -> j < n -> square n (mset mat j k x).
Proof.
  intros Hs Hj. assert (Hr := row_length mat j Hs Hj). destruct Hs as [Hl Hf]. unfold mset. split.
  - now rewrite lset_length.
  - apply Forall_forall, Forall_lset; [apply Forall_forall; exact Hf|]. now rewrite lset_length.
Qed.

Lemma mset_entry mat j k x u v : square n mat -> j < n -> k < n ->
  entry (mset mat j k x) u v = if (u =? j) && (v =? k) then x else entry mat u v.
Proof.
  intros Hs Hj Hk. unfold mset, entry. rewrite nth_lset by (destruct Hs; lia).
  destruct (u =? j) eqn:E; cbn [andb]; [|reflexivity].
  apply Nat.eqb_eq in E; subst u. rewrite nth_lset by (rewrite row_length; auto).
  destruct (v =? k); reflexivity.
Qed.

Lemma cell_ok i prev j mat k y : square n mat -> i < n -> j < n -> k < n -> (prev <> 0)%Z ->
  (entry mat j k * entry mat i i - entry mat j i * entry mat i k = y * prev)%Z ->
  det_cell i prev j mat k = Ok (mset mat j k y).
Proof.
  intros Hs Hi Hj Hk Hp E. unfold det_cell. rewrite !mget_ok by assumption. cbn [bind].
  unfold true_except. rewrite (proj2 (Z.eqb_neq prev 0) Hp). cbn [negb bind].
  rewrite E, Z.mod_mul, Z.div_mul by assumption. reflexivity.
Qed.

(* the loop over k for one row j *)
Lemma row_ok i prev j (t : nat -> Z) : i < n -> j < n -> i <> j -> (prev <> 0)%Z ->
  forall ks mat, square n mat -> NoDup ks -> (forall k, In k ks -> i < k < n) ->
  (forall k, In k ks ->
     (entry mat j k * entry mat i i - entry mat j i * entry mat i k = t k * prev)%Z) ->
  exists mat', foldM (det_cell i prev j) ks mat = Ok mat' /\ square n mat' /\
    forall u v, entry mat' u v = if (u =? j) && existsb (Nat.eqb v) ks then t v else entry mat u v.
Proof.
  intros Hi Hj Hij Hp. induction ks as [|k ks IH]; intros mat Hs Hnd Hin Ht.
  - exists mat. cbn. repeat split; try apply Hs. intros u v. now rewrite andb_false_r.
  - assert (Hk := Hin k (or_introl eq_refl)).
    cbn [foldM]. rewrite (cell_ok i prev j mat k (t k)); auto; try lia;
      [|apply Ht; now left]. cbn [bind].
    assert (Hs' : square n (mset mat j k (t k))) by (apply mset_square; auto).
    inversion Hnd as [|? ? Hni Hnd']; subst.
    destruct (IH (mset mat j k (t k))) as (m' & E & Hs2 & He); auto.
    + intros k' Hk'. apply Hin. now right.
    + intros k' Hk'. assert (Hk2 := Hin k' (or_intror Hk')).
      assert (k' <> k) by (intros ->; contradiction).
      rewrite !mset_entry by (auto; lia).
      rewrite (proj2 (Nat.eqb_neq k' k)) by assumption.
      rewrite (proj2 (Nat.eqb_neq i j)) by assumption.
      rewrite (proj2 (Nat.eqb_neq i k)) by lia. rewrite !andb_false_r. cbn [andb].
      apply Ht. now right.
    + exists m'. split; [exact E|]. split; [exact Hs2|]. intros u v. rewrite He.
      rewrite mset_entry by (auto; lia). cbn [existsb].
      destruct (u =? j); cbn [andb]; [|reflexivity].
      destruct (v =? k) eqn:Ev; cbn [orb].
      * apply Nat.eqb_eq in Ev; subst v. destruct (existsb (Nat.eqb k) ks); reflexivity.
      * reflexivity.
Qed.

(* both loops *)
Lemma eliminate_ok i prev (t : nat -> nat -> Z) : i < n -> (prev <> 0)%Z ->
  forall js mat, square n mat -> NoDup js -> (forall j, In j js -> i < j < n) ->
  (forall j k, In j js -> i < k < n ->
     (entry mat j k * entry mat i i - entry mat j i * entry mat i k = t j k * prev)%Z) ->
  exists mat', foldM (fun m j => foldM (det_cell i prev j) (range2 (i + 1) n) m) js mat = Ok mat' /\
    square n mat' /\
    forall u v, entry mat' u v =
      if existsb (Nat.eqb u) js && existsb (Nat.eqb v) (range2 (i + 1) n) then t u v else entry mat u v.
Proof.
  intros Hi Hp. induction js as [|j js IH]; intros mat Hs Hnd Hin Ht.
  - exists mat. cbn. repeat split; apply Hs.
  - assert (Hj := Hin j (or_introl eq_refl)).
    inversion Hnd as [|? ? Hni Hnd']; subst. cbn [foldM].
    assert (HR : forall k, In k (range2 (i + 1) n) -> i < k < n)
      by (intros k Hk; apply in_seq in Hk; lia).
    destruct (row_ok i prev j (t j)) with (ks := range2 (i + 1) n) (mat := mat)
      as (m1 & E1 & Hs1 & He1); auto; try lia.
    + apply seq_NoDup.
    + intros k Hk. apply Ht; [now left|]. now apply HR.
    + rewrite E1. cbn [bind].
      destruct (IH m1) as (m' & E & Hs2 & He); auto.
      * intros j' Hj'. apply Hin. now right.
      * intros j' k Hj' Hk. assert (Hj2 := Hin j' (or_intror Hj')).
        assert (j' <> j) by (intros ->; contradiction).
        rewrite !He1. rewrite (proj2 (Nat.eqb_neq j' j)) by assumption.
        rewrite (proj2 (Nat.eqb_neq i j)) by lia. cbn [andb]. apply Ht; [now right|assumption].
      * exists m'. split; [exact E|]. split; [exact Hs2|]. intros u v. rewrite He, He1.
        cbn [existsb]. destruct (u =? j) eqn:Eu; cbn [orb andb]; [|reflexivity].
        apply Nat.eqb_eq in Eu; subst u.
        destruct (existsb (Nat.eqb v) (range2 (i + 1) n)); [|now rewrite andb_false_r].
        destruct (existsb (Nat.eqb j) js); reflexivity.
Qed.

Lemma memb_range2 u i : existsb (Nat.eqb u) (range2 (i + 1) n) = true <-> i < u < n.
Proof.
  rewrite existsb_exists. split.
  - intros (x & Hx & E). apply Nat.eqb_eq in E; subst x. apply in_seq in Hx. lia.
  - intros H. exists u. split; [apply in_seq; lia|apply Nat.eqb_refl].
Qed.

Lemma det_eliminate_ok i prev (t : nat -> nat -> Z) mat : i < n -> (prev <> 0)%Z -> square n mat ->
  (forall j k, i < j < n -> i < k < n ->
     (entry mat j k * entry mat i i - entry mat j i * entry mat i k = t j k * prev)%Z) ->
  exists mat', det_eliminate n i prev mat = Ok mat' /\ square n mat' /\
    (forall u v, i < u < n -> i < v < n -> entry mat' u v = t u v) /\
    entry mat' i i = entry mat i i.
Proof.
  intros Hi Hp Hs Ht.
  destruct (eliminate_ok i prev t Hi Hp (range2 (i + 1) n) mat) as (m' & E & Hs' & He); auto.
  - apply seq_NoDup.
  - intros j Hj. apply in_seq in Hj. lia.
  - intros j k Hj Hk. apply in_seq in Hj. apply Ht; lia.
  - exists m'. split; [exact E|]. split; [exact Hs'|]. split.
    + intros u v Hu Hv. rewrite He.
      rewrite (proj2 (memb_range2 u i) Hu), (proj2 (memb_range2 v i) Hv). reflexivity.
    + rewrite He. destruct (existsb (Nat.eqb i) (range2 (i + 1) n)) eqn:X; [|reflexivity].
      apply memb_range2 in X. lia.
Qed.

Lemma first_nonzero_ok mat i : square n mat -> i < n -> forall js, (forall j, In j js -> j < n) ->
  (first_nonzero mat i js = Ok None /\ (forall j, In j js -> entry mat j i = 0%Z)) \/
  (exists j, first_nonzero mat i js = Ok (Some j) /\ In j js /\ entry mat j i <> 0%Z).
Proof.
  intros Hs Hi. induction js as [|j js IH]; intros Hin.
  - left. split; [reflexivity|]. intros j [].
  - cbn [first_nonzero]. rewrite mget_ok by (auto; apply Hin; now left). cbn [bind].
    destruct (Z.eqb_spec (entry mat j i) 0) as [E|E]; cbn [negb].
    + destruct IH as [[IH1 IH2]|(j' & H1 & H2 & H3)].
      * intros x Hx. apply Hin. now right.
      * left. split; [exact IH1|]. intros x [<-|Hx]; auto.
      * right. exists j'. split; [exact H1|]. split; [now right|exact H3].
    + right. exists j. split; [reflexivity|]. split; [now left|exact E].
Qed.

Definition swp (p q u : nat) : nat := if u =? p then q else if u =? q then p else u.

Lemma det_swap_ok mat i j : square n mat -> i < n -> j < n -> i <> j ->
  exists mat', det_swap mat i j = Ok mat' /\ square n mat' /\
    forall u v, entry mat' u v = entry mat (swp i j u) v.
Proof.
  intros Hs Hi Hj Hij. unfold det_swap.
  assert (Hl : length mat = n) by apply Hs.
  rewrite (lget_nth mat j []) by lia. cbn [bind].
  rewrite (lget_nth mat i []) by lia. cbn [bind].
  eexists. split; [reflexivity|]. split.
  - split.
    + now rewrite !lset_length.
    + apply Forall_forall, Forall_lset; [apply Forall_lset|]; [apply Forall_forall, Hs| |]; apply row_length; auto.
  - intros u v. unfold entry. rewrite !nth_lset by (rewrite ?lset_length; lia). unfold swp.
    destruct (u =? j) eqn:Ej; destruct (u =? i) eqn:Ei; try reflexivity.
    apply Nat.eqb_eq in Ej. apply Nat.eqb_eq in Ei. congruence.
Qed.

Lemma swp_low p q u i : i <= p -> i <= q -> u < i -> swp p q u = u.
Proof.
  intros. unfold swp.
  rewrite (proj2 (Nat.eqb_neq u p)), (proj2 (Nat.eqb_neq u q)) by lia. reflexivity.
Qed.

Lemma swp_range p q u i : i <= p < n -> i <= q < n -> i <= u < n -> i <= swp p q u < n.
Proof. unfold swp. destruct (u =? p); [lia|]. destruct (u =? q); lia. Qed.

(* what the loop knows before step i: [a] is the original matrix with its rows exchanged *)
Definition inv (a : nat -> nat -> Z) (i : nat) (mat : list (list Z)) (prev : Z) : Prop :=
  square n mat /\ prev = Zdet a i /\ prev <> 0%Z /\
  forall j k, i <= j < n -> i <= k < n -> entry mat j k = Zminor a i j k.

Lemma loop_ok c : forall i a mat sign prev, n = S (i + c) -> inv a i mat prev ->
  det_loop n (seq i c) mat sign prev = Ok (sign * Zdet a n)%Z.
Proof.
  induction c as [|c IH]; intros i a mat sign prev Hn Hinv; destruct Hinv as (Hs & Hp & Hp0 & He).
  - cbn [seq det_loop]. unfold last_item.
    assert (Hl : length mat = n) by apply Hs.
    rewrite (lget_nth mat _ []) by lia. cbn [bind].
    replace (length mat - 1) with i by lia.
    rewrite (lget_nth _ _ 0%Z) by (rewrite (row_length mat i); auto; lia). cbn [bind].
    rewrite (row_length mat i) by (auto; lia). replace (n - 1) with i by lia.
    change (nth i (nth i mat []) 0%Z) with (entry mat i i).
    rewrite He by lia. rewrite Zminor_diag. now replace (S i) with n by lia.
  - assert (Hi : i < n) by lia.
    (* one elimination step *)
    assert (Step : forall a mat sign, square n mat -> prev = Zdet a i ->
      (forall j k, i <= j < n -> i <= k < n -> entry mat j k = Zminor a i j k) ->
      entry mat i i <> 0%Z ->
      (let* mat0 := det_eliminate n i prev mat in
       let* prev0 := mget mat0 i i in det_loop n (seq (S i) c) mat0 sign prev0)
      = Ok (sign * Zdet a n)%Z).
    { clear a mat sign Hs Hp He. intros a mat sign Hs Hp He Hne.
      destruct (det_eliminate_ok i prev (Zminor a (S i)) mat) as (m' & E & Hs' & He' & Hd); auto.
      - intros j k Hj Hk. rewrite !He by lia. rewrite Hp. apply Zsylvester. now rewrite <- Hp.
      - rewrite E. cbn [bind]. rewrite mget_ok by auto. cbn [bind]. rewrite Hd.
        apply IH; [lia|]. split; [exact Hs'|]. split.
        + rewrite He by lia. apply Zminor_diag.
        + split; [exact Hne|]. intros j k Hj Hk. apply He'; lia. }
    cbn [seq det_loop]. rewrite mget_ok by auto. cbn [bind].
    destruct (Z.eqb_spec (entry mat i i) 0) as [E0|E0]; [|now apply Step].
    destruct (first_nonzero_ok mat i Hs Hi (range2 (i + 1) n)) as [[F1 F2]|(j & F1 & F2 & F3)].
    + intros j Hj. apply in_seq in Hj. lia.
    + rewrite F1. cbn [bind]. rewrite (Zzero_column a i n); [f_equal; ring|exact Hi|now rewrite <- Hp|].
      intros j Hj1 Hj2. rewrite <- He by lia.
      destruct (Nat.eq_dec i j) as [<-|Hij]; [exact E0|]. apply F2. apply in_seq. lia.
    + apply in_seq in F2. rewrite F1. cbn [bind].
      destruct (det_swap_ok mat i j) as (m' & E & Hs' & He'); auto; try lia.
      rewrite E. cbn [bind]. set (a' := fun u v => a (swp i j u) v).
      rewrite (Step a'); auto.
      * unfold a', swp. rewrite Zdet_swap by lia. f_equal. ring.
      * rewrite Hp. apply Zdet_ext. intros u v Hu _. unfold a'.
        now rewrite (swp_low i j u i) by lia.
      * intros u v Hu Hv. rewrite He'. rewrite He; [|apply swp_range; lia|exact Hv].
        apply Zminor_rows; [|reflexivity]. intros x y Hx. unfold a'.
        now rewrite (swp_low i j x i) by lia.
      * rewrite He'. unfold swp. rewrite Nat.eqb_refl. exact F3.
Qed.

End Sq.

Lemma integer_matrix mat : is_integer_matrix mat = true.
Proof.
  unfold is_integer_matrix. apply forallb_forall. intros row _. apply forallb_forall.
  intros x _. rewrite Z.mod_1_r. reflexivity.
Qed.

Lemma integer_determinant_ok n mat : square n mat -> integer_determinant mat = Ok (Zdet (entry mat) n).
Proof.
  intros Hs. assert (Hl : length mat = n) by apply Hs. unfold integer_determinant. rewrite Hl.
  destruct n as [|n]; cbn [Nat.eqb].
  - now rewrite Zdet0.
  - rewrite integer_matrix. cbn [true_except bind]. unfold range.
    rewrite (loop_ok (S n) (S n - 1) 0 (entry mat)).
    + f_equal. ring.
    + lia.
    + split; [exact Hs|]. split; [now rewrite Zdet0|]. split; [discriminate|].
      intros j k _ _. now rewrite Zminor0.
Qed.
