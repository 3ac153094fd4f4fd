(** Props_BoolfMore: properties C51 to C54: leaders, foibles, consuls, prefects, Walsh spectra,
    Hasse coordinates. *)

From Coq Require Import List Arith ZArith Bool Lia Permutation Sorted.
From Verif Require Import Model_Base Lib Model_Perm Model_Binary Model_SigPerm Model_WalshPerm Model_Twin Model_Boolf Model_BoolfMore Proof_WalshLinear
  Spec_Bits Spec_SigPerm Spec_WalshPerm Spec_Boolf Spec_Twin Proof_Binary Proof_Deflate Proof_Boolf Proof_BoolfTable Proof_Twin Proof_BoolfMake Proof_Noble
  Proof_BoolfMore Proof_BoolfWalsh Props_Boolf Props_Twin.
Import ListNotations.
Open Scope nat_scope.

(** * C51: quadrants, leaders, reverse, foibles *)

Theorem C51_foibles : forall i f, made i f ->
  is_odd f = sem f (fun _ => false) /\ is_odious f = sem f (fun _ => true) /\
  is_ugly f = xorb (sem f (fun _ => false)) (sem f (fun _ => true)) /\
  quadrant f = Nat.b2n (sem f (fun _ => false)) + 2 * Nat.b2n (sem f (fun _ => true)).
Proof.
  intros i f M. assert (Hf := m_fit i f M). unfold is_ugly, quadrant. rewrite is_odd_spec, (is_odious_spec f Hf), (Nat.mul_comm 2). auto.
Qed.
Print Assumptions C51_foibles.

(** sharp: an odd number of true places; this is so only at the arity that is the number of
    atoms, and only for male functions *)
Theorem C51_sharp : forall i f n, made i f -> within n f ->
  is_sharp f n = Ok (Nat.odd (length (filter (value f) (seq 0 (2 ^ n))))) /\
  is_sharp f n = Ok (is_male f && (length (atomvals f) =? n)) /\
  exists s, is_sharp f n = Ok s /\ is_acute f n = Ok (xorb (is_ugly f) s) /\ is_rude f n = Ok (xorb (is_odd f) s) /\ is_rough f n = Ok (xorb (is_odious f) s).
Proof.
  intros i f n M Hn. apply within_adicity in Hn. assert (Hf := m_fit i f M). split.
  - rewrite is_sharp_spec by assumption. f_equal. unfold range. generalize (seq 0 (2 ^ n)). intro l. induction l as [|x l IH]; [reflexivity|].
    cbn [map filter]. change (xor_all (tab f x :: map (tab f) l)) with (xorb (tab f x) (xor_all (map (tab f) l))). rewrite IH. unfold value. fold (tab f x).
    destruct (tab f x); [|rewrite xorb_false_l; reflexivity]. cbn [length]. rewrite Nat.odd_succ, <- Nat.negb_odd. reflexivity.
  - split; [apply is_sharp_male; assumption|]. eexists. split; [apply is_sharp_male; assumption|]. unfold is_acute, is_rude, is_rough. rewrite is_sharp_male by assumption. auto.
Qed.
Print Assumptions C51_sharp.

Theorem C51_sharp_rejected : forall i f n, made i f -> ~ within n f ->
  is_sharp f n = Err ArgTooSmallError /\ is_acute f n = Err ArgTooSmallError /\ is_rude f n = Err ArgTooSmallError /\ is_rough f n = Err ArgTooSmallError.
Proof.
  intros i f n _ H. rewrite within_adicity in H. assert (H' : n < adicity f) by lia. unfold is_acute, is_rude, is_rough.
  assert (E : is_sharp f n = Err ArgTooSmallError) by (unfold is_sharp, boolf_tt; rewrite (proj2 (Nat.leb_gt _ _) H'); reflexivity). rewrite E. auto.
Qed.
Print Assumptions C51_sharp_rejected.

(** the leader is in quadrant 0; it differs from the function nowhere, at place 0, everywhere
    but at place 0, or everywhere, depending on the quadrant *)
Theorem C51_leader : forall f n, made false f -> within n f ->
  exists g, leader f (Some n) = Ok g /\ made false g /\ within n g /\ quadrant g = 0 /\
    forall j, j < 2 ^ n -> xorb (value g j) (value f j) =
      match quadrant f with 0 => false | 1 => j =? 0 | 2 => negb (j =? 0) | _ => true end.
Proof.
  intros f n M Hn. apply within_adicity in Hn. destruct (leader_spec f n (m_red f M) Hn) as [g [E [R [A T]]]]. exists g. split; [exact E|].
  split; [apply reduced_made; exact R|]. split; [apply within_adicity; exact A|]. split; [apply (leader_quadrant f g n (m_red f M) Hn E)|].
  intros j Hj. assert (Tj := T j Hj). unfold tab in Tj. unfold value. rewrite Tj. fold (leader_diff (quadrant f) j). destruct (sem f (Nat.testbit j)), (leader_diff (quadrant f) j); reflexivity.
Qed.
Print Assumptions C51_leader.

(** a smaller arity is rejected only in the quadrants where it matters *)
Theorem C51_leader_arity : forall f n, made false f -> ~ within n f ->
  (quadrant f = 1 \/ quadrant f = 2 -> leader f (Some n) = Err AssertErr) /\
  (quadrant f = 0 \/ quadrant f = 3 -> forall m, leader f (Some n) = leader f (Some m)) /\
  leader f None = leader f (Some (adicity f)).
Proof.
  intros f n M H. rewrite within_adicity in H. split; [apply leader_reject; [lia | apply m_red; exact M]|]. split; [|reflexivity].
  intros Hq m. unfold leader. destruct Hq as [-> | ->]; reflexivity.
Qed.
Print Assumptions C51_leader_arity.

Theorem C51_reverse : forall i f, made i f -> exists g, reverse f = Ok g /\ made false g /\ forall e, sem g e = sem f (fun a => negb (e a)).
Proof. intros i f M. apply ok_made. destruct (reverse_spec f (m_fit i f M)) as [g H]. exists g. exact H. Qed.
Print Assumptions C51_reverse.

Theorem C51_reverse_twice : forall f, made false f -> exists g, reverse f = Ok g /\ reverse g = Ok f.
Proof.
  intros f M. destruct (C51_reverse _ f M) as [g [E [Mg S]]]. exists g. split; [exact E|]. destruct (C51_reverse _ g Mg) as [h [Eh [Mh Sh]]]. rewrite Eh. f_equal.
  apply reduced_unique; [apply m_red; exact Mh | apply m_red; exact M|]. intro e. rewrite Sh, S. apply sem_ext. intros a _. apply negb_involutive.
Qed.
Print Assumptions C51_reverse_twice.

Definition ex_or := mkBoolf [true; false; true; true] [0; 2] false false.
Lemma ex_or_made i : made i ex_or.
Proof. apply (made_by i 1 (table_args [true; false; true; true] [0; 2])); [discriminate | intros g [] | vm_compute; reflexivity]. Qed.

Example C51_ex : made false ex_and /\ quadrant ex_and = 2 /\ leader ex_and (Some 2) = Ok (mkBoolf [false; true; true; false] [0; 1] false false) /\
  quadrant ex_or = 3 /\ reverse ex_or = Ok (mkBoolf [true; true; false; true] [0; 2] false false) /\ is_male ex_or = true /\ is_sharp ex_or 3 = Ok false /\ is_sharp ex_and 2 = Ok true /\
  within 3 ex_or /\ leader ex_and (Some 1) = Err AssertErr.
Proof.
  split; [apply ex_and_made|]. do 7 (split; [vm_compute; reflexivity|]). split; [intros a [<- | [<- | []]]; lia | vm_compute; reflexivity].
Qed.

(** * C52: consul and prefect *)

Theorem C52_consul : forall i f n, made i f -> within n f ->
  consul f (TtArity n) = Ok (lxor_all (filter (value f) (seq 0 (2 ^ n)))) /\ consul_slow f n = consul f (TtArity n) /\
  consul_weight f n = Ok (count_ones (lxor_all (filter (value f) (seq 0 (2 ^ n))))).
Proof.
  intros i f n M Hn. apply within_adicity in Hn. assert (Hf := m_fit i f M). assert (E := consul_spec f n Hf Hn). split; [exact E|]. split; [apply consul_slow_spec; assumption|].
  unfold consul_weight. rewrite E. cbn [bind]. rewrite int_to_weight_eq. reflexivity.
Qed.
Print Assumptions C52_consul.

(** the prefect is a linear function: its Walsh index is the XOR of the numbers of the monomials
    of the Zhegalkin polynomial, its constant the parity of the number of monomials of even size *)
Theorem C52_prefect : forall i f, made i f ->
  exists z w q, boolf_zhe f = Ok z /\ w = lxor_all (ones z) /\ q = Nat.odd (length (filter (fun k => Nat.even (length (ones k))) (ones z))) /\
    prefect_walsh_and_oddness f = Ok (w, q) /\
    (exists t, prefect_tt f = Ok t /\ length t = 2 ^ adicity f /\ forall j, j < length t -> nth j t false = xorb (dot (adicity f) w j) q) /\
    exists g, prefect_boolf f = Ok g /\ made false g /\ (forall e, sem g e = xorb (xor_all (map e (ones w))) q) /\
      prefect_leader_and_quadrant f = Ok (w / 2, quadrant g).
Proof.
  intros i f M. assert (Hf := m_fit i f M). destruct (boolf_zhe_spec f Hf) as [z [E [Hz _]]]. exists z, (prefect_w z), (prefect_q z). split; [exact E|]. split; [reflexivity|]. split.
  { unfold prefect_q. generalize (ones z). intro l. induction l as [|x l IH]; [reflexivity|]. cbn [map filter].
    change (xor_all (Nat.even (count_ones x) :: map (fun k => Nat.even (count_ones k)) l)) with (xorb (Nat.even (count_ones x)) (xor_all (map (fun k => Nat.even (count_ones k)) l))).
    rewrite IH. change (count_ones x) with (length (ones x)). destruct (Nat.even (length (ones x))); [|rewrite xorb_false_l; reflexivity]. cbn [length]. rewrite Nat.odd_succ, <- Nat.negb_odd. reflexivity. }
  split; [apply prefect_index_spec; assumption|]. destruct (prefect_tt_spec f z Hf E) as [Et Hw]. split.
  { eexists. split; [exact Et|]. assert (Hl : forall F : nat -> bool, length (map F (range (2 ^ adicity f))) = 2 ^ adicity f) by (intro F; rewrite map_length; apply range_length).
    rewrite Hl. split; [reflexivity|]. intros j Hj. rewrite nth_table by exact Hj. reflexivity. }
  destruct (prefect_boolf_spec f z Hf E) as [g [Eg [Rg Sg]]]. exists g. split; [exact Eg|]. split; [apply reduced_made; exact Rg|]. split; [exact Sg|].
  rewrite (prefect_leader_spec f z Hf E). do 2 f_equal. unfold quadrant. rewrite is_odd_spec, (is_odious_spec g (proj1 Rg)), !Sg, odd_count_ones.
  assert (E0 : forall l : list nat, xor_all (map (fun _ => false) l) = false) by (intro l; apply xor_all_zero; reflexivity). rewrite E0, xorb_false_l, (Nat.mul_comm 2). reflexivity.
Qed.
Print Assumptions C52_prefect.

Example C52_ex : consul ex_or (TtArity 3) = Ok 2 /\ consul ex_and (TtArity 2) = Ok 3 /\ consul_slow ex_and 2 = Ok 3 /\
  boolf_zhe ex_or = Ok 35 /\ prefect_walsh_and_oddness ex_or = Ok (4, false) /\ prefect_leader_and_quadrant ex_or = Ok (2, 2).
Proof. vm_compute. auto 10. Qed.

(** * C53: Walsh spectra *)

Theorem C53_spectrum : forall i f n, made i f -> within n f ->
  exists ws, walsh_spectrum f (TtArity n) = Ok ws /\ length ws = 2 ^ n /\
    forall k, k < 2 ^ n -> nth k ws 0%Z = zsum (fun j => if value f j then sgn (dot n k j) else 0%Z) (2 ^ n).
Proof.
  intros i f n M Hn. apply within_adicity in Hn. eexists. split; [apply walsh_spectrum_spec; [apply (m_fit i f M) | exact Hn]|]. split; [rewrite map_length; apply range_length|].
  intros k Hk. rewrite nth_table by exact Hk. unfold spectrum_entry. apply zsum_ext. intros j _. unfold value, tab. destruct (sem f (Nat.testbit j)); cbn [z_of_bool]; lia.
Qed.
Print Assumptions C53_spectrum.

Definition ws_args (ws : list Z) : bargs := mkArgs None None None None None None None None None None (Some ws) false.

Lemma Boolf_ws_args n ws : Boolf (S n) (ws_args ws) = subinit_ws ws false.
Proof.
  rewrite one_round.
  - cbn [Boolf]. unfold boolf_round. cbn [ws_args subinit_bouncer present a_tt a_av a_atom a_arity a_fs a_mu_a a_mu_o a_mu_xo a_mu_xa a_zhe a_ws a_sd have forallb
      existsb akey_eqb all_keys app andb orb negb]. destruct (subinit_ws ws false); reflexivity.
  - right. right. right. right. left. split; [|reflexivity]. intros [] H; cbn in *; try discriminate H; tauto.
Qed.

(** Boolf(walsh_spectrum=...) of a list of length 2^n: exactly the spectra are accepted, and
    the object is the function with this spectrum *)
Theorem C53_roundtrip : forall m n ws f, length ws = 2 ^ n ->
  (Boolf (S m) (ws_args ws) = Ok f <-> made false f /\ within n f /\ walsh_spectrum f (TtArity n) = Ok ws).
Proof.
  intros m n ws f Hl. rewrite Boolf_ws_args. split.
  - intro E. destruct (subinit_ws_inv ws n f Hl E) as [R [A W]]. split; [apply reduced_made; exact R|]. split; [apply within_adicity; exact A | exact W].
  - intros [M [A W]]. apply within_adicity in A. apply (subinit_ws_spec f n ws (m_red f M) A W).
Qed.
Print Assumptions C53_roundtrip.

Theorem C53_distances : forall i f n, made i f -> within n f ->
  exists ds, walsh_distances f (TtArity n) = Ok ds /\ length ds = 2 ^ n /\
    forall k, k < 2 ^ n -> nth k ds 0 = length (filter (fun j => xorb (value f j) (dot n k j)) (seq 0 (2 ^ n))).
Proof.
  intros i f n M Hn. apply within_adicity in Hn. eexists. split; [apply walsh_distances_spec; [apply (m_fit i f M) | exact Hn]|]. split; [rewrite map_length; apply range_length|].
  intros k Hk. rewrite nth_table by exact Hk. reflexivity.
Qed.
Print Assumptions C53_distances.

Theorem C53_linear : forall {i} f, made i f ->
  exists q, is_linear f = Ok q /\ (q = true <-> exists l (c : bool), forall e, sem f e = xorb (xor_all (map e l)) c).
Proof. intros i f M. apply is_linear_fit, (m_fit i), M. Qed.
Print Assumptions C53_linear.

Example C53_ex : walsh_spectrum ex_or (TtArity 3) = Ok [6; 2; 0; 0; -2; 2; 0; 0]%Z /\
  Boolf 1 (ws_args [6; 2; 0; 0; -2; 2; 0; 0]%Z) = Ok ex_or /\ Boolf 1 (ws_args [6; 2; 0; 0; -2; 2; 0; 1]%Z) = Err ArgValueError /\
  walsh_distances ex_and (TtArity 2) = Ok [1; 1; 1; 3] /\ is_linear ex_and = Ok false /\ is_linear (set_unary (-2)) = Ok true.
Proof. vm_compute. auto 10. Qed.

(** * C54: Hasse coordinates and symmetric tables *)

Theorem C54_hasse : forall i f n, made i f -> within (S n) f ->
  exists x y t, hasse_matrix_coordinates f (TtArity (S n)) = Ok (x, y) /\ x < 2 ^ 2 ^ n /\ y < 2 ^ 2 ^ n /\
    (forall k, k < 2 ^ n -> Nat.testbit x k = value f k /\ Nat.testbit y k = value f (2 ^ S n - 1 - k)) /\
    hasse_matrix_coordinates_to_tt x y (S n) = Ok t /\ boolf_tt f (TtArity (S n)) = Ok t.
Proof.
  intros i f n M Hn. apply within_adicity in Hn. assert (Hf := m_fit i f M). destruct (hasse_roundtrip f n Hf Hn) as [x [y [E [Hx [Hy T]]]]].
  exists x, y. eexists. split; [exact E|]. split; [exact Hx|]. split; [exact Hy|]. split; [|split; [exact T | apply tt_spec; assumption]].
  rewrite hasse_spec in E by assumption. injection E as <- <-. intros k Hk. fold (range (2 ^ n)). rewrite !testbit_table, (proj2 (Nat.ltb_lt _ _) Hk). split; reflexivity.
Qed.
Print Assumptions C54_hasse.

Theorem C54_hasse_all : forall n x y, x < 2 ^ 2 ^ n -> y < 2 ^ 2 ^ n ->
  exists t, hasse_matrix_coordinates_to_tt x y (S n) = Ok t /\ length t = 2 ^ S n /\
    (forall k, k < 2 ^ n -> nth k t false = Nat.testbit x k /\ nth (2 ^ S n - 1 - k) t false = Nat.testbit y k) /\
    exists f, Boolf_root t = Ok f /\ made false f /\ hasse_matrix_coordinates f (TtArity (S n)) = Ok (x, y).
Proof.
  intros n x y Hx Hy. assert (H2 : 2 ^ S n = 2 ^ n + 2 ^ n) by (cbn; lia). eexists. split; [apply hasse_to_tt_spec; assumption|]. split; [rewrite map_length; apply range_length|]. split.
  - intros k Hk. rewrite !nth_table by lia. rewrite (proj2 (Nat.ltb_lt k _) Hk), (proj2 (Nat.ltb_ge (2 ^ S n - 1 - k) (2 ^ n))) by lia. split; [reflexivity|]. f_equal. lia.
  - match goal with |- exists f, Boolf_root (map ?F _) = _ /\ _ => destruct (root_object F (S n)) as [f [E [R [A T]]]] end. exists f. split; [exact E|].
    split; [apply reduced_made; exact R|]. rewrite hasse_spec by (apply R || exact A). f_equal.
    assert (Q : forall F z m, z < 2 ^ m -> (forall k, k < m -> F k = Nat.testbit z k) -> b2n (map F (seq 0 m)) = z).
    { intros F z m Hz HF. apply Nat.bits_inj. intro k. fold (range m). rewrite testbit_table. destruct (Nat.ltb_spec k m) as [Hk|Hk]; [apply HF; exact Hk|].
      symmetry. apply (bit_bound_lt z m Hz k Hk). }
    f_equal; apply Q; try assumption; intros k Hk; rewrite T by lia.
    + rewrite (proj2 (Nat.ltb_lt k _) Hk). reflexivity.
    + rewrite (proj2 (Nat.ltb_ge (2 ^ S n - 1 - k) (2 ^ n))) by lia. f_equal. lia.
Qed.
Print Assumptions C54_hasse_all.

(** exactly the symmetric tables have an index: the number of their upper half *)
Theorem C54_symmetric : forall n s,
  (s < 2 ^ 2 ^ S n -> palindrome (S n) s -> symmetric_to_index s (S n) = Ok (s / 2 ^ 2 ^ n)) /\
  (s < 2 ^ 2 ^ S n -> ~ palindrome (S n) s -> symmetric_to_index s (S n) = Err ArgValueError) /\
  (2 ^ 2 ^ S n <= s -> symmetric_to_index s (S n) = Err ArgTooBigError).
Proof.
  intros n s. split; [intro Hs; apply symmetric_spec; exact Hs|]. split; [intro Hs; apply symmetric_spec; exact Hs|].
  intro H. unfold symmetric_to_index. rewrite (proj2 (Nat.ltb_ge _ _) H). reflexivity.
Qed.
Print Assumptions C54_symmetric.

Theorem C54_symmetric_bijection : forall n i, i < 2 ^ 2 ^ n ->
  exists s, symmetric_to_index s (S n) = Ok i /\ forall s', symmetric_to_index s' (S n) = Ok i -> s' = s.
Proof.
  intros n i Hi. assert (H2 : 2 ^ S n = 2 ^ n + 2 ^ n) by (cbn; lia). assert (Hp := pow2_pos n).
  set (F := fun k => if k <? 2 ^ n then Nat.testbit i (2 ^ n - 1 - k) else Nat.testbit i (k - 2 ^ n)). set (s := b2n (map F (range (2 ^ S n)))).
  assert (Bs : forall k, k < 2 ^ S n -> Nat.testbit s k = F k) by (intros k Hk; unfold s; rewrite testbit_table, (proj2 (Nat.ltb_lt _ _) Hk); reflexivity).
  assert (Hs : s < 2 ^ 2 ^ S n) by apply table_lt. exists s. split.
  - rewrite (proj1 (symmetric_spec s n Hs)).
    + f_equal. apply Nat.bits_inj. intro k. rewrite <- testbit_high_half. destruct (Nat.lt_ge_cases k (2 ^ n)) as [Hk|Hk].
      * rewrite Bs by lia. unfold F. rewrite (proj2 (Nat.ltb_ge _ _)) by lia. f_equal. lia.
      * rewrite (bit_bound_lt s _ Hs), (bit_bound_lt i _ Hi k Hk) by lia. reflexivity.
    + intros k Hk. rewrite !Bs by lia. unfold F. destruct (Nat.ltb_spec k (2 ^ n)) as [Hl|Hl].
      * rewrite (proj2 (Nat.ltb_ge _ _)) by lia. f_equal. lia.
      * rewrite (proj2 (Nat.ltb_lt _ _)) by lia. f_equal. lia.
  - intros s' E. destruct (C54_symmetric n s') as [A [B C]]. destruct (Nat.lt_ge_cases s' (2 ^ 2 ^ S n)) as [Hs'|Hs']; [|rewrite (C Hs') in E; discriminate E].
    assert (Pal : palindrome (S n) s' /\ s' / 2 ^ 2 ^ n = i).
    { assert (D : palindrome (S n) s' \/ ~ palindrome (S n) s').
      { destruct (forallb (fun k => Bool.eqb (Nat.testbit s' k) (Nat.testbit s' (2 ^ S n - 1 - k))) (seq 0 (2 ^ S n))) eqn:Q.
        - left. intros k Hk. rewrite forallb_forall in Q. apply eqb_prop. apply Q. apply in_seq. lia.
        - right. intro Pal. apply forallb_false_ex in Q as [k [Hk Q]]. apply in_seq in Hk. rewrite (Pal k), Bool.eqb_reflx in Q by lia. discriminate. }
      destruct D as [D|D]; [|rewrite (B Hs' D) in E; discriminate E]. split; [exact D|]. rewrite (A Hs' D) in E. injection E as E. exact E. }
    destruct Pal as [Pal Ei]. apply Nat.bits_inj. intro k. destruct (Nat.lt_ge_cases k (2 ^ S n)) as [Hk|Hk].
    + assert (U : forall j, j < 2 ^ n -> Nat.testbit s' (j + 2 ^ n) = Nat.testbit i j) by (intros j _; rewrite testbit_high_half, Ei; reflexivity).
      rewrite Bs by exact Hk. unfold F. destruct (Nat.ltb_spec k (2 ^ n)) as [Hl|Hl].
      * rewrite Pal by exact Hk. rewrite <- U by lia. f_equal. lia.
      * rewrite <- U by lia. f_equal. lia.
    + rewrite (bit_bound_lt s' _ Hs' k Hk), (bit_bound_lt s _ Hs k Hk). reflexivity.
Qed.
Print Assumptions C54_symmetric_bijection.

Example C54_ex : hasse_matrix_coordinates ex_or (TtArity 3) = Ok (5, 15) /\ hasse_matrix_coordinates_to_tt 5 15 3 = Ok [true; false; true; false; true; true; true; true] /\
  symmetric_to_index 129 3 = Ok 8 /\ symmetric_to_index 130 3 = Err ArgValueError /\ palindrome 3 129.
Proof. do 4 (split; [vm_compute; reflexivity|]). intros k Hk. do 8 (destruct k as [|k]; [vm_compute; reflexivity|]). cbn in Hk. lia. Qed.
