(** C125: the class Vector of walsh_perm *)

From Coq Require Import String List Arith ZArith Bool Lia.
From Verif Require Import Model_Base Lib Model_Binary Model_SigPerm Model_SetPart Model_SetPartComp Model_Splits Model_Perm Model_WalshPerm Model_Helpers Model_Str
  Model_VectorClass Proof_Perm Proof_WalshPerm Proof_Str Proof_BoolfStr.
Import ListNotations.
Local Open Scope string_scope.
Local Open Scope list_scope.
Local Open Scope nat_scope.

(** the objects that the constructor makes from a list, from a dict, and without argument *)
Inductive is_Vector : dict -> Prop :=
| vec_list l : is_Vector (Vector l)
| vec_dict d : NoDup (dkeys d) -> is_Vector (Vector_of_dict (Some d))
| vec_none : is_Vector (Vector_of_dict None).

Lemma is_canonical v : is_Vector v -> canonical v.
Proof.
  intros [l|d Hn|]; [apply Vector_canonical| |].
  - cbn. split; [apply NoDup_map_filter; exact Hn|]. intros k y H. rewrite dget_filter in H by exact Hn.
    destruct (dget d k) as [u|]; [|discriminate]. cbn [fst snd] in H. destruct (Nat.eqb_spec (2 ^ k) u); cbn [negb] in H; congruence.
  - split; [constructor|]. intros k y H. discriminate.
Qed.

(** the entries *)
Theorem C125_list : forall l k, Vector_get (Vector l) k = nth k l (2 ^ k).
Proof.
  intros l k. rewrite Vector_get_eq. destruct (Nat.ltb_spec k (length l)) as [H|H]; [apply nth_indep, H | rewrite nth_overflow by exact H; reflexivity].
Qed.
Theorem C125_dict : forall d k, NoDup (map fst d) ->
  (forall x, In (k, x) d -> Vector_get (Vector_of_dict (Some d)) k = x) /\
  (~ In k (map fst d) -> Vector_get (Vector_of_dict (Some d)) k = 2 ^ k) /\ Vector_get (Vector_of_dict None) k = 2 ^ k.
Proof.
  intros d k Hn. assert (G : Vector_get (Vector_of_dict (Some d)) k = match dget d k with Some x => x | None => 2 ^ k end).
  { unfold Vector_get, Vector_of_dict. rewrite dget_filter by exact Hn. destruct (dget d k) as [u|]; [|reflexivity].
    cbn [fst snd]. destruct (Nat.eqb_spec (2 ^ k) u); cbn [negb]; auto. }
  rewrite G. split; [|split; [|reflexivity]].
  - intros x Hx. apply (dget_iff d k x Hn) in Hx. rewrite Hx. reflexivity.
  - intro Hk. apply dget_None in Hk. rewrite Hk. reflexivity.
Qed.

(** the length is the smallest one that leaves nothing out *)
Theorem C125_length : forall v, is_Vector v ->
  (forall k, Vector_length v <= k -> Vector_get v k = 2 ^ k) /\
  forall n, (forall k, n <= k -> Vector_get v k = 2 ^ k) -> Vector_length v <= n.
Proof.
  intros v H. apply is_canonical in H. split.
  - intros k Hk. unfold Vector_get. destruct (dget v k) as [y|] eqn:E; [|reflexivity]. exfalso.
    assert (Hi : In k (dkeys v)).
    { destruct (in_dec Nat.eq_dec k (dkeys v)) as [Hi|Hi]; [exact Hi|]. apply dget_None in Hi. congruence. }
    unfold Vector_length in Hk. destruct v as [|kv v']; [discriminate|].
    assert (Hm := list_max_nat_ge k (dkeys (kv :: v')) Hi). lia.
  - intros n Hn. apply (Vector_length_le v n H Hn).
Qed.

(** == compares all entries *)
Theorem C125_eq : forall u v, is_Vector u -> is_Vector v ->
  (Vector_eqb u v = true <-> forall k, Vector_get u k = Vector_get v k).
Proof. intros u v Hu Hv. apply canonical_eq; apply is_canonical; assumption. Qed.

(** extend_to_length is refused exactly for lengths that leave something out *)
Theorem C125_extend : forall v n, is_Vector v ->
  (extend_to_length v n = Err ExtendedLengthTooSmallError <-> exists k, n <= k /\ Vector_get v k <> 2 ^ k) /\
  forall l, extend_to_length v n = Ok l -> length l = n /\ (forall k, nth k l (2 ^ k) = Vector_get v k) /\ Vector_eqb (Vector l) v = true.
Proof.
  intros v n H. destruct (C125_length v H) as [L1 L2]. assert (C := is_canonical v H). unfold extend_to_length. split.
  - destruct (Nat.leb_spec (Vector_length v) n) as [Hn|Hn].
    + split; [discriminate|]. intros (k & Hk & E). exfalso. apply E, L1. lia.
    + split; [|reflexivity]. intros _. exists (Vector_length v - 1). split; [lia|]. intro E.
      assert (Vector_length v <= Vector_length v - 1); [|lia].
      apply L2. intros k Hk. destruct (Nat.eq_dec k (Vector_length v - 1)) as [->|Hne]; [exact E | apply L1; lia].
  - intros l E. destruct (Nat.leb_spec (Vector_length v) n) as [Hn|Hn]; [|discriminate]. injection E as <-.
    assert (G : forall k, nth k (map (Vector_get v) (range n)) (2 ^ k) = Vector_get v k).
    { intro k. destruct (Nat.lt_ge_cases k n) as [Hk|Hk].
      - rewrite (nth_indep _ _ (Vector_get v 0)) by (rewrite map_length, range_length; exact Hk).
        rewrite map_nth, nth_range by exact Hk. reflexivity.
      - rewrite nth_overflow by (rewrite map_length, range_length; exact Hk). symmetry. apply L1. lia. }
    split; [rewrite map_length, range_length; reflexivity|]. split; [exact G|].
    apply C125_eq; [constructor | exact H|]. intro k. rewrite C125_list. apply G.
Qed.

(** v[:] shows the entries below the length; a negative start gives None for the negative indices *)
Theorem C125_slice : forall v n, is_Vector v ->
  Vector_slice v None None None = Ok (map (fun k => Some (Vector_get v k)) (seq 0 (Vector_length v))) /\
  Vector_slice v (Some (- Z.of_nat n)%Z) None None = Ok (repeat None n ++ map (fun k => Some (Vector_get v k)) (seq 0 (Vector_length v))).
Proof.
  intros v n _.
  assert (P : forall m, Vector_slice v (Some (- Z.of_nat m)%Z) None None = Ok (repeat None m ++ map (fun k => Some (Vector_get v k)) (seq 0 (Vector_length v)))).
  { intro m. unfold Vector_slice, slice_to_range, py_range. cbn [Z.eqb Z.ltb]. change (0 <? 1)%Z with true. change (1 =? 0)%Z with false. cbv iota.
    cbn [bind]. f_equal. rewrite map_map.
    replace (Z.to_nat _) with (m + Vector_length v) by (rewrite ?Z.div_1_r; lia).
    unfold range. rewrite seq_app, map_app. f_equal.
    - apply nth_ext with (d := None) (d' := None).
      + rewrite map_length, seq_length, repeat_length. reflexivity.
      + intros i Hi. rewrite map_length, seq_length in Hi. rewrite nth_repeat.
        rewrite (nth_indep _ None (Vector_item v (- Z.of_nat m + Z.of_nat 0 * 1)%Z)) by (rewrite map_length, seq_length; exact Hi).
        rewrite (map_nth (fun i => Vector_item v (- Z.of_nat m + Z.of_nat i * 1)%Z)), seq_nth by exact Hi.
        unfold Vector_item. replace (_ <? 0)%Z with true; [reflexivity|]. symmetry. apply Z.ltb_lt. lia.
    - cbn [Nat.add]. assert (A : forall len s, map (fun i => Vector_item v (- Z.of_nat m + Z.of_nat i * 1)%Z) (seq (m + s) len) = map (fun k => Some (Vector_get v k)) (seq s len)).
      { induction len as [|len IH]; intro s; [reflexivity|]. cbn [seq map]. rewrite <- Nat.add_succ_r. f_equal; [|apply IH].
        unfold Vector_item. replace (_ <? 0)%Z with false; [|symmetry; apply Z.ltb_ge; lia]. do 2 f_equal. lia. }
      rewrite <- (A (Vector_length v) 0). rewrite Nat.add_0_r. reflexivity. }
  split; [|apply P]. apply (P 0).
Qed.

(** equal texts mean equal vectors *)
Lemma str_tuple_inj l m : str_tuple l = str_tuple m -> l = m.
Proof.
  unfold str_tuple. intro E. apply app_inv_head in E.
  assert (J : delim (fun _ : list nat => True) (fun c => Nat.eqb c 41) (fun l => join_texts (map str_nat l))).
  { eapply delim_weaken; [apply (join_delim (fun _ => True) nodigit (fun c => Nat.eqb c 41) str_nat str_nat_delim eq_refl)| |].
    - intros c Hc. apply Nat.eqb_eq in Hc. subst. split; [reflexivity|discriminate].
    - intros a _. destruct (str_nat_head a) as (c & r & Ec & H). exists c, r. split; [exact Ec|]. apply Nat.eqb_neq. intros ->. discriminate.
    - intros x _. apply Forall_forall. auto.
    - auto. }
  assert (One : forall a m, (match m with [_] => False | _ => True end) -> join_texts (map str_nat [a]) ++ lit "," ++ lit ")" = join_texts (map str_nat m) ++ lit ")" -> False).
  { clear. intros a m Hm E. destruct m as [|b [|c m]]; [|contradiction|].
    - cbn [map join_texts app] in E. destruct (str_nat_head a) as (d & r & Ed & H). rewrite Ed in E. injection E as E _. subst d. discriminate.
    - change (join_texts (map str_nat [a])) with (str_nat a) in E.
      change (join_texts (map str_nat (b :: c :: m))) with (str_nat b ++ lit ", " ++ join_texts (map str_nat (c :: m))) in E.
      rewrite <- !app_assoc in E. apply str_nat_delim in E as [_ E]; [|exact I|exact I|reflexivity|reflexivity]. discriminate. }
  destruct l as [|a [|a' l]], m as [|b [|b' m]];
    try (apply J in E; [apply E|exact I|exact I|reflexivity|reflexivity]);
    try (exfalso; eapply One; [|exact E]; exact I); try (exfalso; eapply One; [|symmetry; exact E]; exact I).
  change (join_texts (map str_nat [a])) with (str_nat a) in E. change (join_texts (map str_nat [b])) with (str_nat b) in E.
  apply str_nat_delim in E as [-> _]; [reflexivity|exact I|exact I|reflexivity|reflexivity].
Qed.
Theorem C125_str : forall u v, is_Vector u -> is_Vector v ->
  exists s t, Vector_str u = Ok s /\ Vector_str v = Ok t /\ (s = t <-> Vector_eqb u v = true).
Proof.
  intros u v Hu Hv. unfold Vector_str, extend_to_length. rewrite !Nat.leb_refl. cbn [bind].
  eexists _, _. split; [reflexivity|]. split; [reflexivity|]. rewrite (C125_eq u v Hu Hv).
  destruct (C125_length u Hu) as [U1 U2], (C125_length v Hv) as [V1 V2]. split.
  - intros E k. apply str_tuple_inj in E. assert (El := f_equal (@length nat) E). rewrite !map_length, !range_length in El.
    destruct (Nat.lt_ge_cases k (Vector_length u)) as [Hk|Hk]; [|rewrite U1, V1 by lia; reflexivity].
    rewrite El in E. apply (f_equal (fun l => nth k l (Vector_get u 0))) in E. rewrite map_nth in E.
    rewrite (nth_indep _ (Vector_get u 0) (Vector_get v 0)) in E by (rewrite map_length, range_length; lia).
    rewrite map_nth, !nth_range in E by lia. exact E.
  - intro E. assert (El : Vector_length u = Vector_length v).
    { apply Nat.le_antisymm; [apply U2 | apply V2]; intros k Hk; [rewrite E; apply V1, Hk | rewrite <- E; apply U1, Hk]. }
    rewrite El. f_equal. apply map_ext. exact E.
Qed.

Print Assumptions C125_list.
Print Assumptions C125_dict.
Print Assumptions C125_length.
Print Assumptions C125_eq.
Print Assumptions C125_extend.
Print Assumptions C125_slice.
Print Assumptions C125_str.

Example C125_ex : Vector [1; 3; 4; 16; 8; 32] = [(1, 3); (3, 16); (4, 8)] /\ Vector_length (Vector [1; 3; 4; 16; 8; 32]) = 5 /\
  extend_to_length (Vector [1; 3; 4; 16; 8]) 4 = Err ExtendedLengthTooSmallError /\ extend_to_length (Vector [1; 3]) 4 = Ok [1; 3; 4; 8] /\
  Vector_eqb (Vector [1; 3; 4]) (Vector_of_dict (Some [(5, 32); (1, 3)])) = true /\
  Vector_slice (Vector [1; 3]) (Some (-1)%Z) (Some 3%Z) None = Ok [None; Some 1; Some 3; Some 4] /\
  Vector_str (Vector [3]) = Ok (lit "(3,)") /\ Vector_str (Vector [1; 2]) = Ok (lit "()") /\ Vector_str (Vector [1; 3; 4]) = Ok (lit "(1, 3)").
Proof. vm_compute. repeat split; reflexivity. Qed.

(** the test of the class (walsh_perm/a/vector_class/_test.py) *)
Example C125_test : map (Vector_get (Vector_of_dict (Some [(0, 7); (2, 5)]))) (seq 0 5) = [7; 2; 5; 8; 16] /\
  map (Vector_get (Vector [8; 12; 2; 3])) (seq 0 5) = [8; 12; 2; 3; 16] /\
  Vector_length (Vector [8; 12; 2; 3; 16; 32]) = 4 /\ extend_to_length (Vector [8; 12; 2; 3; 16; 32]) 5 = Ok [8; 12; 2; 3; 16] /\
  Vector_length (Vector [7; 6; 4]) = 2 /\ extend_to_length (Vector [7; 6; 4]) 2 = Ok [7; 6] /\
  extend_to_length (Vector [8; 12; 2; 3]) 3 = Err ExtendedLengthTooSmallError.
Proof. vm_compute. repeat split; reflexivity. Qed.
