(** Props_HyperInt: property C127 (hyperfissions with any integers as dimensions). *)

From Coq Require Import List Arith ZArith Bool Lia.
From Verif Require Import Model_Base Lib Model_Binary Model_Splits Model_Perm Model_SetPart Model_Boolf Model_BoolfMore Model_Helpers Model_Layers Model_HyperInt.
From Verif Require Import Spec_Bits Spec_Boolf Spec_Twin Spec_Splits Spec_Layers Proof_Binary Proof_Boolf Proof_BoolfMake Proof_HelpersBits Proof_SetPart Proof_Splits Proof_Layers Proof_Fission Proof_FissionMore Props_Boolf Props_Int64 Props_Negative Props_Fission.
Import ListNotations.
Local Open Scope nat_scope.

(** ** The sequence of the dimensions *)

Lemma loop_nat len (l : list nat) : forall k r,
  foldM (fun result (ia : nat * Z) =>
           guard Z.leb 0 (snd ia) else AssertErr ;;
           let boolf := set_unary (snd ia) in
           let place_value := 2 ^ fst ia in
           foldM (fun result j =>
                    let* b := boolf_get boolf j in
                    if b then let* x := lget result j in Ok (lset result j (x + place_value)) else Ok result)
                 (range len) result) (combine (seq k (length (map Z.of_nat l))) (map Z.of_nat l)) r =
  foldM (fun result (ia : nat * nat) =>
           let boolf := set_unary (Z.of_nat (snd ia)) in
           let place_value := 2 ^ fst ia in
           foldM (fun result j =>
                    let* b := boolf_get boolf j in
                    if b then let* x := lget result j in Ok (lset result j (x + place_value)) else Ok result)
                 (range len) result) (combine (seq k (length l)) l) r.
Proof.
  induction l as [|a l IH]; intros k r; [reflexivity|]. cbn [map length seq combine foldM fst snd].
  rewrite (proj2 (Z.leb_le 0 (Z.of_nat a))) by lia. cbn [true_except bind]. cbn zeta. destruct (foldM _ (range len) r) as [r'|e]; [|reflexivity]. cbn [bind]. apply IH.
Qed.

Lemma sequence_nat l t : atom_indices_to_sequence_int (map Z.of_nat l) t = atom_indices_to_sequence l t.
Proof.
  unfold atom_indices_to_sequence_int, atom_indices_to_sequence. rewrite znodup_nat, !map_length. destruct (Nat.eqb _ _); [|reflexivity]. cbn [true_except bind].
  destruct l as [|a l']; [reflexivity|]. set (l := a :: l'). rewrite zmax_nat by discriminate. cbn [bind].
  rewrite (proj2 (Z.leb_le _ _)) by lia. cbn [true_except bind]. cbn zeta. replace (Z.to_nat (Z.of_nat (list_max_nat l) + 1)) with (list_max_nat l + 1) by lia.
  unfold enumerate. rewrite loop_nat. reflexivity.
Qed.

Lemma loop_neg len (l : list Z) : (exists d, In d l /\ (d < 0)%Z) -> forall k r, length r = len ->
  foldM (fun result (ia : nat * Z) =>
           guard Z.leb 0 (snd ia) else AssertErr ;;
           let boolf := set_unary (snd ia) in
           let place_value := 2 ^ fst ia in
           foldM (fun result j =>
                    let* b := boolf_get boolf j in
                    if b then let* x := lget result j in Ok (lset result j (x + place_value)) else Ok result)
                 (range len) result) (combine (seq k (length l)) l) r = Err AssertErr.
Proof.
  induction l as [|a l IH]; intros (d & Hd & Hn) k r L; [destruct Hd|]. cbn [length seq combine foldM fst snd].
  destruct (Z.leb_spec 0 a) as [G|G]; [|reflexivity]. cbn [true_except bind]. cbn zeta.
  destruct (foldM_add (fun j => Nat.testbit j (Z.to_nat a)) (2 ^ k) (boolf_get (set_unary a))) with (js := range len) (result := r) as (r' & E & L' & _).
  - intro j. rewrite <- (Z2Nat.id a) at 1 by exact G. apply atom_get.
  - apply range_NoDup.
  - intros j Hj. apply range_In in Hj. lia.
  - rewrite E. cbn [bind]. apply IH; [|congruence]. destruct Hd as [->|Hd]; [lia|]. exists d. auto.
Qed.

Lemma znodup_len l : Nat.eqb (length (znodup l)) (length l) = true <-> NoDup l.
Proof.
  rewrite Nat.eqb_eq. split; [|intro H; rewrite znodup_id by exact H; reflexivity].
  intro H. apply (NoDup_incl_NoDup (znodup_NoDup l)); [lia|]. intros x. apply znodup_In.
Qed.

Lemma sequence_neg l t : (exists d, In d l /\ (d < 0)%Z) ->
  (~ NoDup l \/ (exists d, In d l /\ (-1 <= d)%Z) -> atom_indices_to_sequence_int l t = Err AssertErr) /\
  (NoDup l -> (forall d, In d l -> (d < -1)%Z) -> atom_indices_to_sequence_int l t = Err TypeErr).
Proof.
  intro N. assert (Ne : l <> []) by (destruct N as (d & H & _); intros ->; destruct H). destruct (greatest_exists l Ne) as (m & Hm).
  unfold atom_indices_to_sequence_int. split.
  - intro H. destruct (Nat.eqb _ _) eqn:E; [|reflexivity]. cbn [true_except bind]. rewrite (zmax_ok l m Hm). cbn [bind].
    apply znodup_len in E. destruct H as [H|(d & Hd & L)]; [contradiction|]. assert (G := proj2 Hm d Hd). rewrite (proj2 (Z.leb_le _ _)) by lia. cbn [true_except bind]. cbn zeta.
    unfold enumerate. rewrite loop_neg; [reflexivity | exact N | apply repeat_length].
  - intros Nd H. rewrite (proj2 (znodup_len l) Nd). cbn [true_except bind]. rewrite (zmax_ok l m Hm). cbn [bind]. assert (G := H m (proj1 Hm)).
    rewrite (proj2 (Z.leb_gt _ _)) by lia. reflexivity.
Qed.

(** ** Natural numbers: the methods are those of C81 *)
Theorem C127_natural : forall f dims,
  hyperfission_int f (map Z.of_nat dims) = hyperfission f dims /\
  hyperfission_walsh_spectra_int f (map Z.of_nat dims) = hyperfission_walsh_spectra f dims /\
  hyperfission_walsh_spectra_abs_int f (map Z.of_nat dims) = hyperfission_walsh_spectra_abs f dims /\
  hyperfission_walsh_spectra_layered_abs_int f (map Z.of_nat dims) = hyperfission_walsh_spectra_layered_abs f dims /\
  hyperfission_walsh_spectra_zipped_int f (map Z.of_nat dims) = hyperfission_walsh_spectra_zipped f dims /\
  hyperfission_walsh_spectra_labeled_int f (map Z.of_nat dims) = hyperfission_walsh_spectra_labeled f dims.
Proof.
  intros f dims. assert (A : hyperfission_int f (map Z.of_nat dims) = hyperfission f dims).
  { destruct dims as [|a [|b l]]; [reflexivity| |].
    - cbn [map hyperfission_int hyperfission]. destruct (fissions f) as [fs|e]; [|reflexivity]. cbn [bind]. unfold list_at. rewrite (proj2 (Z.leb_le _ _)) by lia. rewrite Nat2Z.id. reflexivity.
    - unfold hyperfission_int, hyperfission. cbn [map]. change (Z.of_nat a :: Z.of_nat b :: map Z.of_nat l) with (map Z.of_nat (a :: b :: l)). rewrite sequence_nat. reflexivity. }
  assert (B : hyperfission_walsh_spectra_int f (map Z.of_nat dims) = hyperfission_walsh_spectra f dims) by (unfold hyperfission_walsh_spectra_int, hyperfission_walsh_spectra; rewrite A; reflexivity).
  assert (C : hyperfission_walsh_spectra_abs_int f (map Z.of_nat dims) = hyperfission_walsh_spectra_abs f dims) by (unfold hyperfission_walsh_spectra_abs_int, hyperfission_walsh_spectra_abs; rewrite B; reflexivity).
  split; [exact A|]. split; [exact B|]. split; [exact C|]. split; [unfold hyperfission_walsh_spectra_layered_abs_int, hyperfission_walsh_spectra_layered_abs; rewrite C; reflexivity|].
  unfold hyperfission_walsh_spectra_zipped_int, hyperfission_walsh_spectra_zipped, hyperfission_walsh_spectra_labeled_int, hyperfission_walsh_spectra_labeled. rewrite B.
  destruct (hyperfission_walsh_spectra f dims) as [ws|e]; [|split; reflexivity]. cbn [bind]. destruct dims as [|a l]; [split; reflexivity|]. cbn [map]. cbv iota.
  change (Z.of_nat a :: map Z.of_nat l) with (map Z.of_nat (a :: l)). cbn zeta. rewrite sequence_nat. split; reflexivity.
Qed.
Print Assumptions C127_natural.

(** ** One negative dimension counts from the last atom, in the hyperfission and its spectra, while
    the zipped and the labelled spectrum are refused *)
Theorem C127_one : forall i f d, made i f -> (- Z.of_nat (adicity f) <= d < 0)%Z ->
  let n := adicity f in let k := Z.to_nat (Z.of_nat n + d) in
  k < n /\
  hyperfission_int f [d] = Ok [map (value f) (places n [k] 0); map (value f) (places n [k] 1)] /\
  hyperfission_walsh_spectra_int f [d] = Ok [map (part_spectrum n (value f) [k]) (places n [k] 0); map (part_spectrum n (value f) [k]) (places n [k] 1)] /\
  hyperfission_walsh_spectra_abs_int f [d] = hyperfission_walsh_spectra_abs f [k] /\
  hyperfission_walsh_spectra_layered_abs_int f [d] = hyperfission_walsh_spectra_layered_abs f [k] /\
  hyperfission_walsh_spectra_zipped_int f [d] = Err (if Z.eqb d (-1) then AssertErr else TypeErr) /\
  hyperfission_walsh_spectra_labeled_int f [d] = Err (if Z.eqb d (-1) then AssertErr else TypeErr).
Proof.
  intros i f d M H n k. assert (K : k < n) by (subst k; lia).
  assert (Nd : NoDup [k]) by (repeat constructor; intros []). assert (Ld : forall e, In e [k] -> e < n) by (intros e [<-|[]]; exact K).
  assert (A : hyperfission_int f [d] = hyperfission f [k]).
  { cbn [hyperfission_int hyperfission]. assert (F := m_fit i f M). rewrite fissions_ok by (exact F || lia). cbn [bind]. unfold list_at. rewrite (proj2 (Z.leb_gt _ _)) by lia.
    rewrite map_length, range_length. fold n. rewrite (proj2 (Z.leb_le _ _)) by lia. reflexivity. }
  assert (B : hyperfission_walsh_spectra_int f [d] = hyperfission_walsh_spectra f [k]) by (unfold hyperfission_walsh_spectra_int, hyperfission_walsh_spectra; rewrite A; reflexivity).
  split; [exact K|]. split; [rewrite A; exact (C81_hyperfission i f [k] M Nd Ld)|]. assert (S := proj1 (C81_spectra i f [k] M Nd Ld)). cbn zeta in S. split; [rewrite B; exact S|].
  assert (C : hyperfission_walsh_spectra_abs_int f [d] = hyperfission_walsh_spectra_abs f [k]) by (unfold hyperfission_walsh_spectra_abs_int, hyperfission_walsh_spectra_abs; rewrite B; reflexivity).
  split; [exact C|]. split; [unfold hyperfission_walsh_spectra_layered_abs_int, hyperfission_walsh_spectra_layered_abs; rewrite C; reflexivity|].
  unfold hyperfission_walsh_spectra_zipped_int, hyperfission_walsh_spectra_labeled_int. rewrite B, S. cbn [bind]. cbn zeta. destruct (sequence_neg [d] (Some (2 ^ adicity f))) as (X & Y); [exists d; split; [left; reflexivity | lia]|].
  destruct (Z.eqb_spec d (-1)) as [->|D].
  - rewrite X; [split; reflexivity|]. right. exists (-1)%Z. split; [left; reflexivity | lia].
  - rewrite Y; [split; reflexivity | repeat constructor; intros [] |]. intros e [<-|[]]. lia.
Qed.
Print Assumptions C127_one.

(** ** A smaller one is refused *)
Theorem C127_one_rejected : forall i f d, made i f -> (d < - Z.of_nat (adicity f))%Z ->
  hyperfission_int f [d] = Err (if Nat.eqb (adicity f) 0 then AssertErr else IndexErr).
Proof.
  intros i f d M H. assert (F := m_fit i f M). cbn [hyperfission_int]. destruct (Nat.eqb_spec (adicity f) 0) as [E|E]; [rewrite fissions_constant by exact E; reflexivity|].
  rewrite fissions_ok by (exact F || lia). cbn [bind]. unfold list_at. rewrite map_length, range_length. rewrite !(proj2 (Z.leb_gt _ _)) by lia. reflexivity.
Qed.
Print Assumptions C127_one_rejected.

(** ** Several dimensions, one of which is negative, are always refused; with TypeError if all are
    below -1 and distinct, otherwise by an assertion *)
Theorem C127_several : forall f dims, 2 <= length dims -> (exists d, In d dims /\ (d < 0)%Z) ->
  (~ NoDup dims \/ (exists d, In d dims /\ (-1 <= d)%Z) -> hyperfission_int f dims = Err AssertErr) /\
  (NoDup dims -> (forall d, In d dims -> (d < -1)%Z) -> hyperfission_int f dims = Err TypeErr).
Proof.
  intros f dims L N. destruct (sequence_neg dims (Some (2 ^ adicity f)) N) as (X & Y).
  assert (E : hyperfission_int f dims = (let* sequence := atom_indices_to_sequence_int dims (Some (2 ^ adicity f)) in let* tt := boolf_tt f TtDefault in vector_zip_apart tt sequence)) by (destruct dims as [|a [|b l]]; cbn in L; try lia; reflexivity).
  split; [intro H; rewrite E, X by exact H; reflexivity | intros Nd H; rewrite E, Y by assumption; reflexivity].
Qed.
Print Assumptions C127_several.

(** the function 0 = 2 or 3 of adicity 4: the dimension -3 is the atom 1, which is not among its
    atoms, and -1 is the atom 3 *)
Example C127_ex : exists f, Boolf_vec [true; false; false; true; true; true; true; true] [0; 2; 3] = Ok f /\ made false f /\ adicity f = 4 /\
  hyperfission_int f [-1]%Z = hyperfission f [3] /\ hyperfission_int f [-3]%Z = hyperfission f [1] /\
  hyperfission_int f [-1]%Z = Ok [[true; false; true; false; false; true; false; true]; [true; true; true; true; true; true; true; true]] /\
  hyperfission_int f [-5]%Z = Err IndexErr /\
  hyperfission_walsh_spectra_zipped_int f [-1]%Z = Err AssertErr /\ hyperfission_walsh_spectra_zipped_int f [-2]%Z = Err TypeErr /\
  hyperfission_int f [-1; 0]%Z = Err AssertErr /\ hyperfission_int f [-3; -2]%Z = Err TypeErr /\ hyperfission_int f [-2; -2]%Z = Err AssertErr.
Proof.
  destruct (Boolf_vec_sorted [true; false; false; true; true; true; true; true] [0; 2; 3]) as (f & E & R & _); [repeat constructor | reflexivity|].
  exists f. split; [exact E|]. split; [apply reduced_made; exact R|]. vm_compute in E. injection E as <-. repeat split.
Qed.
