(** Props_Fission: property C81 (fissions and hyperfissions, their weights and Walsh spectra). *)

From Coq Require Import List Arith ZArith Bool Lia Permutation Sorted.
From Verif Require Import Model_Base Lib Model_Binary Model_Splits Model_Perm Model_Boolf Model_BoolfMore Model_Helpers Model_Layers.
From Verif Require Import Spec_Bits Spec_Boolf Spec_Twin Spec_Splits Spec_Layers Proof_Binary Proof_Boolf Proof_BoolfMake Proof_Splits Proof_Layers Proof_Fission Proof_FissionMore Props_Boolf.
Import ListNotations.
Open Scope nat_scope.

(** hyperfission: part i of the truth table has the values at those places whose bits at the
    dimensions form the number i, in the order of the places *)
Theorem C81_hyperfission : forall i f dims, made i f -> NoDup dims -> (forall d, In d dims -> d < adicity f) ->
  hyperfission f dims = Ok (map (fun k => map (value f) (places (adicity f) dims k)) (seq 0 (2 ^ length dims))).
Proof.
  intros i f dims M Nd Ld. rewrite (hyperfission_ok f dims (m_fit i f M) Nd Ld). unfold hparts. f_equal. apply map_ext_in. intros k Hk. apply range_In in Hk. apply hpart_places; assumption.
Qed.
Print Assumptions C81_hyperfission.

(** the parts are disjoint, equally large, and contain every place *)
Theorem C81_parts : forall n dims, NoDup dims -> (forall d, In d dims -> d < n) ->
  (forall p, p < 2 ^ n -> exists k, k < 2 ^ length dims /\ forall k', k' < 2 ^ length dims -> (In p (places n dims k') <-> k' = k)) /\
  (forall k, k < 2 ^ length dims -> length (places n dims k) = 2 ^ (n - length dims) /\ ascending (places n dims k) /\ forall p, In p (places n dims k) -> p < 2 ^ n).
Proof.
  intros n dims Nd Ld. split.
  - intros p Hp. exists (proj dims p). split; [apply proj_lt|]. intros k' Hk'. unfold places. rewrite filter_In, in_seq, in_part_proj, Nat.eqb_eq by exact Hk'. split; [intros [_ <-]; reflexivity | intros ->; split; [lia | reflexivity]].
  - intros k Hk. split; [|split].
    + rewrite places_join by assumption. rewrite map_length, range_length. f_equal. assert (X := others_length n dims Nd Ld). lia.
    + apply Proof_Deflate.filter_sorted, range_sorted_lt.
    + intros p H. apply filter_In in H as [H _]. apply in_seq in H. lia.
Qed.
Print Assumptions C81_parts.

(** dimensions that are repeated or too great are rejected *)
Theorem C81_rejected : forall i f dims, made i f -> ~ (NoDup dims /\ forall d, In d dims -> d < adicity f) ->
  hyperfission f dims = Err (match dims with [_] => if Nat.eqb (adicity f) 0 then AssertErr else IndexErr | _ => AssertErr end).
Proof.
  intros i f dims M H. destruct dims as [|d [|d' dims]].
  - exfalso. apply H. split; [constructor | intros d []].
  - apply hyper_reject_one; [exact (m_fit i f M)|]. destruct (Nat.le_gt_cases (adicity f) d) as [L|L]; [exact L|]. exfalso. apply H. apply single. exact L.
  - apply hyper_reject; [cbn; lia | exact H].
Qed.
Print Assumptions C81_rejected.

(** the Walsh spectra of the parts, plain, absolute, absolute by weight, and zipped to a list for
    all places *)
Theorem C81_spectra : forall i f dims, made i f -> NoDup dims -> (forall d, In d dims -> d < adicity f) ->
  let n := adicity f in let ws := part_spectrum n (value f) dims in
  hyperfission_walsh_spectra f dims = Ok (map (fun k => map ws (places n dims k)) (seq 0 (2 ^ length dims))) /\
  hyperfission_walsh_spectra_abs f dims = Ok (map (fun k => map (fun p => Z.abs (ws p)) (places n dims k)) (seq 0 (2 ^ length dims))) /\
  hyperfission_walsh_spectra_layered_abs f dims =
    Ok (map (fun k => map (fun w => map (fun p => Z.abs (ws p)) (layer n dims k w)) (seq 0 (n - length dims + 1))) (seq 0 (2 ^ length dims))) /\
  hyperfission_walsh_spectra_zipped f dims = Ok (map ws (seq 0 (2 ^ n))).
Proof.
  intros i f dims M Nd Ld n ws. assert (F := m_fit i f M).
  assert (A : hyperfission_walsh_spectra f dims = Ok (map (fun k => map ws (places n dims k)) (seq 0 (2 ^ length dims)))).
  { rewrite hyper_ws_ok by assumption. f_equal. apply map_ext_in. intros k Hk. apply range_In in Hk. apply hwspectrum_places; assumption. }
  assert (B : hyperfission_walsh_spectra_abs f dims = Ok (map (fun k => map (fun p => Z.abs (ws p)) (places n dims k)) (seq 0 (2 ^ length dims)))).
  { unfold hyperfission_walsh_spectra_abs. rewrite A. cbn [bind]. rewrite map_map. f_equal. apply map_ext. intro k. apply map_map. }
  split; [exact A|]. split; [exact B|]. split; [|exact (hyper_zip_ok f dims F Nd Ld)].
  unfold hyperfission_walsh_spectra_layered_abs. rewrite B. cbn [bind]. apply (mapM_range (fun k => map (fun p => Z.abs (ws p)) (places n dims k))). intros k Hk.
  rewrite part_layers by assumption. do 2 f_equal. unfold range. f_equal. assert (X := others_length n dims Nd Ld). lia.
Qed.
Print Assumptions C81_spectra.

(** the labels are the places of the parts; without dimensions there is no label *)
Theorem C81_labeled : forall i f dims, made i f -> NoDup dims -> (forall d, In d dims -> d < adicity f) ->
  let n := adicity f in let ws := part_spectrum n (value f) dims in
  hyperfission_walsh_spectra_labeled f dims =
    Ok (match dims with
        | [] => inl (map ws (seq 0 (2 ^ n)))
        | _ => inr (map (fun k => (map Some (places n dims k), map ws (places n dims k))) (seq 0 (2 ^ length dims)))
        end).
Proof.
  intros i f dims M Nd Ld n ws. assert (F := m_fit i f M). destruct dims as [|d dims].
  - destruct (C81_spectra i f [] M Nd Ld) as (A & _). unfold hyperfission_walsh_spectra_labeled. rewrite A. cbn [bind length seq map Nat.pow]. unfold lget. cbn [nth_error bind]. do 3 f_equal.
    unfold places. apply filter_all. reflexivity.
  - rewrite hyper_label_ok by (assumption || discriminate). do 2 f_equal. apply map_ext_in. intros k Hk. apply range_In in Hk. rewrite hwspectrum_places by assumption. fold n ws. f_equal. symmetry. apply part_map; assumption.
Qed.
Print Assumptions C81_labeled.

(** fissions: for each atom the two parts of the truth table, their layers, their weights and
    their Walsh spectra; the constants have none *)
Theorem C81_fissions : forall i f, made i f -> let n := adicity f in
  fissions f = (if Nat.eqb n 0 then Err AssertErr else Ok (map (fun k => (map (value f) (places n [k] 0), map (value f) (places n [k] 1))) (seq 0 n))) /\
  fissions_layered f = (if Nat.eqb n 0 then Err AssertErr else
    Ok (map (fun k => (map (fun w => map (fun p => Nat.b2n (value f p)) (layer n [k] 0 w)) (seq 0 n), map (fun w => map (fun p => Nat.b2n (value f p)) (layer n [k] 1 w)) (seq 0 n))) (seq 0 n))) /\
  fissions_weight_layered f = (if Nat.eqb n 0 then Err AssertErr else
    Ok (map (fun k => (map (fun w => length (filter (value f) (layer n [k] 0 w))) (seq 0 n), map (fun w => length (filter (value f) (layer n [k] 1 w))) (seq 0 n))) (seq 0 n))) /\
  fissions_weight f = (if Nat.eqb n 0 then Err AssertErr else
    Ok (map (fun k => (length (filter (fun p => negb (Nat.testbit p k) && value f p) (seq 0 (2 ^ n))), length (filter (fun p => Nat.testbit p k && value f p) (seq 0 (2 ^ n))))) (seq 0 n))).
Proof.
  intros i f M n. assert (F := m_fit i f M). destruct (Nat.eqb_spec n 0) as [E|E].
  - unfold fissions_weight, fissions_weight_layered, fissions_layered. rewrite (fissions_constant f E). repeat split.
  - split; [apply fissions_places; (exact F || unfold n in *; lia)|]. split; [apply fissions_layered_places; (exact F || unfold n in *; lia)|]. split; [apply fissions_weight_layered_ok; (exact F || unfold n in *; lia)|].
    rewrite fissions_weight_ok by (exact F || unfold n in *; lia). fold n. f_equal. apply map_ext. intro k.
    f_equal; unfold places; f_equal; rewrite filter_filter; apply filter_ext; intro p; cbn; destruct (Nat.testbit p k); reflexivity.
Qed.
Print Assumptions C81_fissions.

Theorem C81_fission_spectra : forall i f, made i f -> 0 < adicity f -> let n := adicity f in let ws k := part_spectrum n (value f) [k] in
  fission_walsh_spectra f = Ok (map (fun k => (map (ws k) (places n [k] 0), map (ws k) (places n [k] 1))) (seq 0 n)) /\
  fission_walsh_spectra_abs f = Ok (map (fun k => (map (fun p => Z.abs (ws k p)) (places n [k] 0), map (fun p => Z.abs (ws k p)) (places n [k] 1))) (seq 0 n)) /\
  fission_walsh_spectra_layered f = Ok (map (fun k => (map (fun w => map (ws k) (layer n [k] 0 w)) (seq 0 n), map (fun w => map (ws k) (layer n [k] 1 w)) (seq 0 n))) (seq 0 n)) /\
  fission_walsh_spectra_layered_abs f = Ok (map (fun k => (map (fun w => map (fun p => Z.abs (ws k p)) (layer n [k] 0 w)) (seq 0 n), map (fun w => map (fun p => Z.abs (ws k p)) (layer n [k] 1 w)) (seq 0 n))) (seq 0 n)) /\
  fission_walsh_spectra_zipped f = Ok (map (fun k => map (ws k) (seq 0 (2 ^ n))) (seq 0 n)) /\
  fission_walsh_spectra_abs_zipped f = Ok (map (fun k => map (fun p => Z.abs (ws k p)) (seq 0 (2 ^ n))) (seq 0 n)).
Proof.
  intros i f M H n ws. assert (F := m_fit i f M). assert (A := fission_ws_ok f F H). assert (Zp := fission_zip_ok f F H).
  assert (B : fission_walsh_spectra_abs f = Ok (map (fun k => (map (fun p => Z.abs (ws k p)) (places n [k] 0), map (fun p => Z.abs (ws k p)) (places n [k] 1))) (seq 0 n))).
  { unfold fission_walsh_spectra_abs. rewrite A. cbn [bind]. rewrite map_map. f_equal. apply map_ext. intro k. cbn [fst snd]. rewrite !map_map. reflexivity. }
  split; [exact A|]. split; [exact B|]. split; [|split; [|split; [exact Zp|]]].
  - unfold fission_walsh_spectra_layered. rewrite A. cbn [bind]. apply (layered_pairs_ok f ws).
  - unfold fission_walsh_spectra_layered_abs. rewrite B. cbn [bind]. apply (layered_pairs_ok f (fun k p => Z.abs (ws k p))).
  - unfold fission_walsh_spectra_abs_zipped. rewrite Zp. cbn [bind]. rewrite map_map. f_equal. apply map_ext. intro k. apply map_map.
Qed.
Print Assumptions C81_fission_spectra.

(** a function of the atoms 0, 2 and 3, that is 0 = 2 or 3; its adicity is 4 *)
Example C81_ex : exists f, Boolf_vec [true; false; false; true; true; true; true; true] [0; 2; 3] = Ok f /\ made false f /\ adicity f = 4 /\
  hyperfission f [3; 0] = Ok [[true; true; false; false]; [true; true; true; true]; [false; false; true; true]; [true; true; true; true]] /\
  places 4 [3; 0] 2 = [1; 3; 5; 7] /\
  fissions_weight f = Ok [(6, 6); (6, 6); (6, 6); (4, 8)] /\
  hyperfission_walsh_spectra f [3; 0] = Ok [[2; 0; 2; 0]; [4; 0; 0; 0]; [2; 0; -2; 0]; [4; 0; 0; 0]]%Z /\
  hyperfission_walsh_spectra_labeled f [3; 0] = Ok (inr [([Some 0; Some 2; Some 4; Some 6], [2; 0; 2; 0]%Z); ([Some 8; Some 10; Some 12; Some 14], [4; 0; 0; 0]%Z); ([Some 1; Some 3; Some 5; Some 7], [2; 0; -2; 0]%Z); ([Some 9; Some 11; Some 13; Some 15], [4; 0; 0; 0]%Z)]) /\
  hyperfission_walsh_spectra_zipped f [3; 0] = Ok [2; 2; 0; 0; 2; -2; 0; 0; 4; 4; 0; 0; 0; 0; 0; 0]%Z /\
  hyperfission f [3; 3] = Err AssertErr /\ hyperfission f [4] = Err IndexErr /\ hyperfission f [4; 0] = Err AssertErr.
Proof.
  destruct (Boolf_vec_sorted [true; false; false; true; true; true; true; true] [0; 2; 3]) as (f & E & R & _); [repeat constructor | reflexivity|].
  exists f. split; [exact E|]. split; [apply reduced_made; exact R|]. vm_compute in E. injection E as <-. repeat split.
Qed.
