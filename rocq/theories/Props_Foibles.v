(** Props_Foibles: properties C97 to C99, claims of the README files about foibles, patrons,
    nobles, consuls and Walsh spectra. *)

From Coq Require Import List Arith ZArith Bool Lia Permutation Sorted.
From Verif Require Import Model_Base Lib Model_Binary Model_WalshPerm Model_Twin Model_Boolf Model_BoolfMore Model_MinRep Model_Ec
  Spec_Bits Spec_SigPerm Spec_WalshPerm Spec_Boolf Spec_Twin Spec_MinRep Spec_Ec Proof_Binary Proof_Deflate Proof_Boolf Proof_BoolfTable Proof_Twin Proof_BoolfMake Proof_Noble
  Proof_WalshLinear Proof_BoolfMore Proof_BoolfWalsh Proof_Linear Proof_MinRepMale Proof_EcPartitioned Proof_EcMembers Proof_Foibles Proof_Consul
  Props_Boolf Props_Twin Props_BoolfMore Props_Ec.
Import (coercions) Proof_BoolfApply.
From Verif Require Import Props_Superfluous.
Import ListNotations.
Local Open Scope nat_scope.

(** * C97: foibles of twins, reverses, complements; patrons; nobles *)

(** the twin of a sharp function is odious, that of a rude one is ugly, that of a rough one is rough *)
Theorem C97_twin : forall i f n, made i f -> within n f ->
  exists t, boolf_twin f (Some n) = Ok t /\ made false t /\ within n t /\
    is_odd t = is_odd f /\ is_sharp f n = Ok (is_odious t) /\ is_sharp t n = Ok (is_odious f) /\
    is_rude f n = Ok (is_ugly t) /\ is_rude t n = Ok (is_ugly f) /\ is_rough t n = is_rough f n /\ is_acute t n = is_acute f n.
Proof.
  intros i f n M W. apply within_adicity in W. assert (Hf := m_fit i f M). destruct (twin_spec f n Hf W) as (g & E & R & A & T). exists g. split; [exact E|]. split; [apply reduced_made, R|]. split; [apply within_adicity, A|].
  destruct (twin_foibles f g n Hf W (proj1 R) A T) as (E1 & E2 & E3). split; [exact E1|]. unfold is_rude, is_rough, is_acute, is_ugly. rewrite !sharp_spec by (assumption || apply R). cbn [bind]. rewrite E1, E2, E3.
  repeat (split; [reflexivity|]). split; [f_equal; apply xorb_comm|]. f_equal. destruct (is_odd f), (is_odious f), (sharp f n); reflexivity.
Qed.
Print Assumptions C97_twin.

(** the reverse of a rude function is rough, that of a rough one is rude *)
Theorem C97_reverse : forall i f n, made i f -> within n f ->
  exists g, reverse f = Ok g /\ made false g /\ within n g /\ is_odd g = is_odious f /\ is_odious g = is_odd f /\
    is_sharp g n = is_sharp f n /\ is_rough g n = is_rude f n /\ is_rude g n = is_rough f n /\ is_acute g n = is_acute f n.
Proof.
  intros i f n M W. apply within_adicity in W. assert (Hf := m_fit i f M). destruct (reverse_spec f Hf) as (g & E & R & S). exists g. split; [exact E|]. split; [apply reduced_made, R|].
  assert (A : adicity g <= n). { apply (adicity_le g n R). intros e e' He. rewrite !S. apply (sem_low f n _ _ W). intros a Ha. rewrite He by exact Ha. reflexivity. }
  split; [apply within_adicity, A|]. destruct (reverse_foibles f g n Hf W (proj1 R) A S) as (E1 & E2 & E3). split; [exact E1|]. split; [exact E2|].
  unfold is_rude, is_rough, is_acute, is_ugly. rewrite !sharp_spec by (assumption || apply R). cbn [bind]. rewrite E1, E2, E3. repeat (split; [reflexivity|]). do 2 f_equal. apply xorb_comm.
Qed.
Print Assumptions C97_reverse.

(** the complement at arities above 0: sharp and acute stay, the other three are negated *)
Theorem C97_complement : forall i f n, made i f -> within (S n) f ->
  exists g r s, boolf_not f = Ok g /\ made false g /\ is_odd g = negb (is_odd f) /\ is_odious g = negb (is_odious f) /\ is_ugly g = is_ugly f /\
    is_sharp g (S n) = is_sharp f (S n) /\ is_acute g (S n) = is_acute f (S n) /\
    is_rude f (S n) = Ok r /\ is_rude g (S n) = Ok (negb r) /\ is_rough f (S n) = Ok s /\ is_rough g (S n) = Ok (negb s).
Proof.
  intros i f n M W. apply within_adicity in W. assert (Hf := m_fit i f M). destruct (not_spec f Hf) as (g & E & R & Sg). exists g, (xorb (is_odd f) (sharp f (S n))), (xorb (is_odious f) (sharp f (S n))).
  split; [exact E|]. split; [apply reduced_made, R|]. assert (A : adicity g <= S n) by (apply (adicity_le g _ R); intros e e' He; rewrite !Sg; f_equal; apply (sem_low f (S n) e e' W He)).
  destruct (not_foibles f g (S n) Hf (proj1 R) Sg) as (E1 & E2 & E3). specialize (E3 ltac:(lia)). unfold is_rude, is_rough, is_acute, is_ugly. rewrite !sharp_spec by (assumption || apply R). cbn [bind]. rewrite E1, E2, E3.
  destruct (is_odd f), (is_odious f), (sharp f (S n)); repeat split; reflexivity.
Qed.
Print Assumptions C97_complement.

(** acute: the patron quadrant is 1 or 2; the weight quadrant differs from the quadrant *)
Theorem C97_acute : forall i f n, made i f -> within (S n) f ->
  exists s q w r, is_acute f (S n) = Ok s /\ patron_quadrant f (S n) = Ok q /\ weight_quadrant f (Some (S n)) = Ok w /\ is_rough f (S n) = Ok r /\
    q = Nat.b2n (is_odd f) + 2 * Nat.b2n r /\ (s = true <-> q = 1 \/ q = 2) /\ (s = true <-> w <> quadrant f).
Proof.
  intros i f n M W. apply within_adicity in W. assert (Hf := m_fit i f M). unfold weight_quadrant, is_acute, is_rough, is_ugly. rewrite !sharp_spec, (patron_quadrant_spec f n Hf W) by assumption. cbn [bind].
  do 4 eexists. repeat (split; [reflexivity|]). unfold quadrant. destruct (is_odd f), (is_odious f), (sharp f (S n)); cbn; (split; [lia|]); split; split; intro H; try discriminate H; try reflexivity; lia.
Qed.
Print Assumptions C97_acute.

(** at arity 0 the claim about the patron is false, that about the weight quadrant is true *)
Theorem C97_acute_zero : forall i f, made i f -> within 0 f ->
  patron_quadrant f 0 = Ok 0 /\ is_acute f 0 = Ok (is_odd f) /\ exists w, weight_quadrant f (Some 0) = Ok w /\ (is_odd f = true <-> w <> quadrant f).
Proof.
  intros i f M W. apply within_adicity in W. assert (Hf := m_fit i f M). assert (A : adicity f = 0) by lia. split; [unfold patron_quadrant; rewrite patron_0 by assumption; reflexivity|].
  unfold weight_quadrant, is_acute, is_rough, is_ugly, quadrant. rewrite !sharp_spec by assumption. cbn [bind]. rewrite is_odd_tab, (is_odious_tab f 0 Hf W). unfold sharp. cbn [Nat.pow Nat.sub seq map xor_all fold_right].
  split; [destruct (tab f 0); reflexivity|]. eexists. split; [reflexivity|]. destruct (tab f 0); cbn; split; intro H; try discriminate H; try reflexivity; lia.
Qed.
Print Assumptions C97_acute_zero.

(** the README adds "i.e. the patron's oddness and odiousness are different"; but the patron as a
    function is never odd, so it is ugly exactly if the function is rough *)
Theorem C97_patron_foibles : forall i f n, made i f -> within (S n) f ->
  exists g, patron_boolf f (S n) = Ok g /\ is_odd g = false /\ is_rough f (S n) = Ok (is_odious g) /\ is_rough f (S n) = Ok (is_ugly g).
Proof.
  intros i f n M W. apply within_adicity in W. assert (Hf := m_fit i f M). destruct (patron_boolf_spec f (S n) Hf W) as (g & E & R & A & T). exists g. split; [exact E|].
  assert (Hp := pow2_pos (S n)). unfold is_ugly, is_rough. rewrite sharp_spec by assumption. cbn [bind]. rewrite is_odd_tab, (is_odious_tab g _ (proj1 R) A), (is_odious_tab f _ Hf W), !T by lia. rewrite anf_first, anf_last, xorb_nilpotent. fold (sharp f (S n)).
  rewrite xorb_false_l. auto.
Qed.
Print Assumptions C97_patron_foibles.

Definition ex_not1 := mkBoolf [true; false] [1] false false.
Lemma ex_not1_made : made false ex_not1.
Proof. apply (made_by false 1 (table_args [true; false] [1])); [discriminate | intros g [] | vm_compute; reflexivity]. Qed.

Theorem C97_patron_refuted : exists f n g, made false f /\ within n f /\ is_acute f n = Ok true /\ patron_boolf f n = Ok g /\ is_odd g = is_odious g.
Proof. exists ex_not1, 2, (mkBoolf [false; true; true; false] [0; 1] false false). split; [exact ex_not1_made|]. split; [intros a [<-|[]]; lia|]. vm_compute. auto. Qed.
Print Assumptions C97_patron_refuted.

(** the Zhegalkin index: the first digit is the oddness, the parity of the weight the odiousness *)
Theorem C97_zhegalkin : forall i f, made i f -> exists z, boolf_zhe f = Ok z /\ Nat.testbit z 0 = is_odd f /\ Nat.odd (count_ones z) = is_odious f.
Proof.
  intros i f M. assert (Hf := m_fit i f M). destruct (boolf_zhe_spec f Hf) as (z & E & Hz & Z & _). exists z. split; [exact E|]. set (n := adicity f) in *. specialize (Z n (le_n _)).
  assert (Hp := pow2_pos n). assert (B : forall j, j < 2 ^ n -> Nat.testbit z j = anf n (tab f) j) by (intros j Hj; rewrite Z, testbit_table, (proj2 (Nat.ltb_lt _ _) Hj); reflexivity).
  split; [rewrite B by exact Hp; rewrite anf_first, is_odd_tab; reflexivity|]. rewrite odd_count_ones, (ones_bound (2 ^ n) z Hz), xor_all_filter, (is_odious_tab f n Hf (le_n _)).
  rewrite <- (anf_involution n (tab f) (2 ^ n - 1)) by lia. rewrite anf_last. apply xor_all_ext. intros j Hj. apply in_seq in Hj. rewrite andb_true_r. apply B. lia.
Qed.
Print Assumptions C97_zhegalkin.

(** male: the root is sharp *)
Theorem C97_male : forall {i} f, made i f -> exists b, root_boolf f = Ok b /\ is_sharp b (valency f) = Ok (is_male f).
Proof.
  intros i f M. assert (Hf := m_fit i f M). destruct (root_boolf_any f Hf) as (b & E & E1 & E2 & S). exists b. split; [exact E|].
  assert (X : fitting b /\ adicity b <= valency f).
  { destruct (is_root f) eqn:Er; [rewrite (E1 eq_refl); split; [exact Hf|]; unfold is_root in Er; apply Nat.eqb_eq in Er; lia|]. split; [apply (E2 eq_refl)|].
    apply adicity_le; [apply (E2 eq_refl)|]. intros e e' He. rewrite !S. apply sem_ext. cbn [rb atomvals]. intros a Ha. apply He, range_In, Ha. }
  rewrite sharp_spec by apply X. f_equal. rewrite (male_tab f Hf). unfold sharp. f_equal. apply map_ext. intro k. apply S.
Qed.
Print Assumptions C97_male.

(** a noble is identified by its quadrant and its royal, and from arity 2 all such pairs occur *)
Theorem C97_royal : forall n r q, r < 2 ^ 2 ^ S (S n) -> own_twin (S (S n)) r -> noble_to_quadrant r (S (S n)) = Ok 0 -> q < 4 ->
  exists t, t < 2 ^ 2 ^ S (S n) /\ own_twin (S (S n)) t /\ noble_to_royal_and_quadrant t (S (S n)) = Ok (r, q).
Proof.
  intros n r q Hr O Q Hq. set (m := S n) in *. rewrite (noble_to_quadrant_spec m r Hr O) in Q. injection Q as Q. set (t := Nat.lxor r (royal_mask (S m) q)).
  assert (Ht : t < 2 ^ 2 ^ S m) by (apply lxor_lt; [exact Hr | apply royal_mask_lt]). assert (Ot : own_twin (S m) t) by (apply own_twin_lxor; [exact O | apply royal_mask_own]).
  exists t. split; [exact Ht|]. split; [exact Ot|]. rewrite (royal_spec m t Ht Ot). assert (Eq : nquad (S m) t = q).
  { unfold nquad in Q |- *. unfold t. rewrite !Nat.lxor_spec. assert (H4 : 4 <= 2 ^ S m) by (unfold m; assert (Hp := pow2_pos n); cbn; lia).
    destruct (Nat.testbit r 1); [cbn in Q; lia|]. destruct (Nat.testbit r (2 ^ S m - 1)); [cbn in Q; lia|].
    destruct q as [|[|[|[|q]]]]; [| | | |lia]; cbn [royal_mask]; rewrite ?Nat.lxor_spec, ?last_only_bit, ?but_first_bit, ?Nat.bits_0, ?Nat.eqb_refl, ?(proj2 (Nat.eqb_neq (2 ^ S m - 1) 1)),
        ?(proj2 (Nat.eqb_neq 0 (2 ^ S m - 1))), ?(proj2 (Nat.ltb_lt 1 (2 ^ S m))), ?(proj2 (Nat.ltb_lt (2 ^ S m - 1) (2 ^ S m))) by lia; reflexivity. }
  rewrite Eq. unfold t. rewrite Nat.lxor_assoc, Nat.lxor_nilpotent, Nat.lxor_0_r. reflexivity.
Qed.
Print Assumptions C97_royal.

Theorem C97_royal_identifies : forall n t t' r q, noble_to_royal_and_quadrant t (S n) = Ok (r, q) -> noble_to_royal_and_quadrant t' (S n) = Ok (r, q) -> t = t'.
Proof.
  intros n t t' r q.
  assert (X : forall u, noble_to_royal_and_quadrant u (S n) = Ok (r, q) -> u = Nat.lxor r (royal_mask (S n) q)).
  { intros u E. assert (U : u < 2 ^ 2 ^ S n /\ own_twin (S n) u).
    { unfold noble_to_royal_and_quadrant, noble_to_quadrant in E. destruct (noble_to_index u (S n) false) eqn:Ei; [|discriminate E]. destruct (Nat.le_gt_cases u (2 ^ 2 ^ S n - 2)) as [Hu|Hu]; [|rewrite noble_to_index_big in Ei by exact Hu; discriminate Ei].
      split; [assert (Hp := pow2_pos (2 ^ S n)); lia|]. intros j Hj. destruct (bool_dec (Nat.testbit u j) (moebius (S n) (Nat.testbit u) j)) as [B|B]; [exact B|]. exfalso.
      rewrite noble_to_index_reject in Ei; [discriminate Ei | exact Hu|]. intro O. apply B, O. exact Hj. }
    destruct U as (Hu & O). rewrite (royal_spec n u Hu O) in E. injection E as E1 E2. rewrite <- E1, E2. rewrite Nat.lxor_assoc, Nat.lxor_nilpotent, Nat.lxor_0_r. reflexivity. }
  intros E E'. rewrite (X t E), (X t' E'). reflexivity.
Qed.
Print Assumptions C97_royal_identifies.

(** at arity 1 there are two quadrants *)
Theorem C97_royal_one : forall t r q, noble_to_royal_and_quadrant t 1 = Ok (r, q) -> (t = 0 /\ r = 0 /\ q = 0) \/ (t = 2 /\ r = 0 /\ q = 3).
Proof.
  intros t r q E. destruct (Nat.le_gt_cases t 2) as [Ht|Ht].
  - destruct t as [|[|[|t]]]; [| | |lia]; vm_compute in E; try discriminate E; injection E as <- <-; auto.
  - unfold noble_to_royal_and_quadrant, noble_to_quadrant in E. assert (Hb : 2 ^ 2 ^ 1 - 2 < t) by exact Ht. rewrite (noble_to_index_big 0 t false Hb) in E. discriminate E.
Qed.
Print Assumptions C97_royal_one.

Example C97_ex : made false Props_Boolf.ex_and /\ within 3 Props_Boolf.ex_and /\ within 2 Props_Boolf.ex_and /\ is_sharp Props_Boolf.ex_and 2 = Ok true /\ is_rough Props_Boolf.ex_and 2 = Ok false /\ is_rude Props_Boolf.ex_and 2 = Ok true /\
  boolf_twin Props_Boolf.ex_and (Some 2) = Ok Props_Boolf.ex_and /\ patron_quadrant ex_not1 2 = Ok 1 /\ is_acute ex_not1 2 = Ok true /\ weight_quadrant ex_not1 (Some 2) = Ok 0 /\ quadrant ex_not1 = 1 /\
  noble_to_royal_and_quadrant 168 3 = Ok (40, 2) /\ noble_to_royal_and_quadrant 40 3 = Ok (40, 0) /\ noble_to_quadrant 40 3 = Ok 0.
Proof. split; [apply Props_Boolf.ex_and_made|]. split; [intros a [<-|[<-|[]]]; lia|]. split; [intros a [<-|[<-|[]]]; lia|]. repeat (split; [vm_compute; reflexivity|]). vm_compute; reflexivity. Qed.

(** * C98: consuls *)

(** the consul is the Walsh index of the prefect of the twin *)
Theorem C98_twin_prefect : forall i f n, made i f -> within n f ->
  exists t c q, boolf_twin f (Some n) = Ok t /\ consul f (TtArity n) = Ok c /\ prefect_walsh_and_oddness t = Ok (c, q) /\
    q = Nat.odd (length (filter (fun k => Nat.even (length (ones k))) (filter (value f) (seq 0 (2 ^ n))))).
Proof.
  intros i f n M W. apply within_adicity in W. assert (Hf := m_fit i f M). destruct (twin_spec f n Hf W) as (g & E & R & A & T).
  destruct (boolf_zhe_spec g (proj1 R)) as (z & Ez & _ & Z & _). specialize (Z n A).
  assert (O : ones z = filter (value f) (seq 0 (2 ^ n))).
  { rewrite (ones_bound (2 ^ n) z) by (rewrite Z; apply table_lt). apply filter_ext_in. intros j Hj. apply in_seq in Hj. rewrite Z, testbit_table, (proj2 (Nat.ltb_lt j _)) by lia. cbn [andb].
    rewrite (anf_ext n (tab g) (anf n (tab f))) by exact T. rewrite anf_involution by lia. reflexivity. }
  exists g, (consul_of f n). eexists. split; [exact E|]. split; [apply consul_of_spec; assumption|].
  destruct (C52_prefect false g (reduced_made g R)) as (z' & w & q & Ez' & Hw & Hq & H & _). rewrite Ez in Ez'. injection Ez' as <-. rewrite O in Hw, Hq. subst w q. split; [exact H | reflexivity].
Qed.
Print Assumptions C98_twin_prefect.

(** families with even weight have a unique consul, those with odd weight have every one once *)
Theorem C98_family_even : forall f n, made false f -> within 10 f -> within n f -> Nat.odd (length (filter (value f) (seq 0 (2 ^ n)))) = false ->
  exists c k, ec_family f = Ok c /\ forall g, In g (ec_members c) -> consul g (TtArity n) = Ok k.
Proof.
  intros f n M T W E. assert (R := m_red f M). apply within_adicity in W, T. destruct (family_any f R T) as (c & Ec & _ & H). exists c, (consul_of f n). split; [exact Ec|].
  intros g Hg. apply H in Hg as (Rg & C). destruct (family_low f g n W C) as (s & Hs & S).
  assert (A : adicity g <= n) by (unfold adicity; rewrite (family_atoms f g R Rg C); exact W).
  rewrite consul_of_spec by (apply Rg || exact A). f_equal. rewrite (consul_negated f g n s W Hs S).
  assert (Es : sharp f n = false) by (unfold sharp; rewrite <- odd_cnt; exact E). rewrite Es. apply Nat.lxor_0_r.
Qed.
Print Assumptions C98_family_even.

Theorem C98_family_odd : forall f n, made false f -> within 10 f -> within n f -> Nat.odd (length (filter (value f) (seq 0 (2 ^ n)))) = true ->
  exists c, ec_family f = Ok c /\ length (ec_members c) = 2 ^ n /\
    forall k, k < 2 ^ n -> exists g, In g (ec_members c) /\ consul g (TtArity n) = Ok k /\ forall h, In h (ec_members c) -> consul h (TtArity n) = Ok k -> h = g.
Proof.
  intros f n M T W E. assert (R := m_red f M). apply within_adicity in W, T. destruct (family_any f R T) as (c & Ec & N & H). exists c. split; [exact Ec|].
  assert (Es : sharp f n = true) by (unfold sharp; rewrite <- odd_cnt; exact E).
  assert (U : forall k, k < 2 ^ n -> exists g, In g (ec_members c) /\ consul g (TtArity n) = Ok k /\ forall h, In h (ec_members c) -> consul h (TtArity n) = Ok k -> h = g).
  { intros k Hk. set (s := Nat.lxor (consul_of f n) k). assert (Hs : s < 2 ^ n) by (apply lxor_lt; [apply consul_of_lt | exact Hk]).
    destruct (root_object (fun j => tab f (Nat.lxor j s)) n) as (g & _ & Rg & Ag & Tg).
    assert (Sg : forall e, sem g e = sem f (fun a => xorb (e a) (Nat.testbit s a))).
    { intro e. rewrite (sem_place g n e Ag), Tg by apply (place_lt e). unfold tab. apply (sem_low f n); [exact W|]. intros a Ha. rewrite Nat.lxor_spec, (place_bits e) by exact Ha. reflexivity. }
    exists g. split; [apply H; split; [exact Rg|]; exists (Nat.testbit s); exact Sg|]. split.
    - rewrite consul_of_spec by (apply Rg || exact Ag). f_equal. rewrite (consul_negated f g n s W Hs Sg), Es. unfold s. rewrite <- Nat.lxor_assoc, Nat.lxor_nilpotent. apply Nat.lxor_0_l.
    - intros h Hh Ek. apply H in Hh as (Rh & C). destruct (family_low f h n W C) as (s' & Hs' & Sh).
      assert (A : adicity h <= n) by (unfold adicity; rewrite (family_atoms f h R Rh C); exact W). rewrite consul_of_spec in Ek by (apply Rh || exact A). injection Ek as Ek.
      rewrite (consul_negated f h n s' W Hs' Sh), Es in Ek. assert (s' = s). { unfold s. rewrite <- Ek, <- Nat.lxor_assoc, Nat.lxor_nilpotent. symmetry. apply Nat.lxor_0_l. } subst s'.
      apply reduced_unique; [exact Rh | exact Rg|]. intro e. rewrite Sh, Sg. reflexivity. }
  split; [|exact U].
  (* the members and their consuls *)
  set (K := fun g => consul_of g n). assert (P : Permutation (map K (ec_members c)) (seq 0 (2 ^ n))).
  { assert (Q : forall h, In h (ec_members c) -> reduced h /\ adicity h <= n /\ consul h (TtArity n) = Ok (K h)).
    { intros h Hh. apply H in Hh as (Rh & C). assert (A : adicity h <= n) by (unfold adicity; rewrite (family_atoms f h R Rh C); exact W). split; [exact Rh|]. split; [exact A|]. apply consul_of_spec; [apply Rh | exact A]. }
    apply NoDup_Permutation; [|apply seq_NoDup|].
    - apply Proof_Helpers.NoDup_map_inj; [exact N|]. intros x y Hx Hy Exy. destruct (U (K x) (consul_of_lt x n)) as (g & _ & _ & Hu). rewrite (Hu x Hx) by (apply Q; exact Hx). symmetry. apply Hu; [exact Hy|]. rewrite Exy. apply Q. exact Hy.
    - intro k. rewrite in_seq, in_map_iff. split; [intros (h & <- & _); split; [lia | apply consul_of_lt]|]. intros [_ Hk]. destruct (U k Hk) as (g & Hg & Eg & _). exists g. split; [|exact Hg].
      destruct (Q g Hg) as (_ & _ & Eq). rewrite Eg in Eq. injection Eq as ->. reflexivity. }
  apply Permutation_length in P. rewrite map_length, seq_length in P. exact P.
Qed.
Print Assumptions C98_family_odd.

(** clans with even weight have a unique consul weight *)
Theorem C98_clan_even : forall depth f n sup, made false f -> within 5 f -> within n f -> (is_constant f = false \/ sup = false) -> Nat.odd (length (filter (value f) (seq 0 (2 ^ n)))) = false ->
  exists c k, ec_clan (S depth) f (Some n) sup = Ok c /\ In f (ec_members c) /\ forall g, In g (ec_members c) -> consul_weight g n = Ok k.
Proof.
  intros depth f n sup M T W Hc E. assert (R := m_red f M). destruct (C72_members depth f (Some n) sup n M T eq_refl W Hc) as (c & Ec & _ & H). exists c, (count_ones (consul_of f n)). split; [exact Ec|].
  assert (Es : sharp f n = false) by (unfold sharp; rewrite <- odd_cnt; exact E).
  split; [apply H; split; [exact M|]; split; [exact W|]; exists (fun a => a), (fun _ => false); split; [exists (fun a => a); auto|]; intro e; apply sem_ext; intros a _; rewrite xorb_false_r; reflexivity|].
  intros g Hg. apply H in Hg as (Mg & Wg & C). assert (Rg := m_red g Mg). apply within_adicity in W, Wg. unfold consul_weight. rewrite consul_of_spec by (apply Rg || exact Wg). cbn [bind]. rewrite int_to_weight_eq. f_equal.
  apply clan_consul_weight; assumption.
Qed.
Print Assumptions C98_clan_even.

(** a longer truth table: the consul is a power of two or zero, and then zero *)
Theorem C98_inflated : forall i f n, made i f -> within n f ->
  exists s, is_sharp f n = Ok s /\ consul f (TtArity (S n)) = Ok (if s then 2 ^ n else 0) /\ forall k, consul f (TtArity (S (S n) + k)) = Ok 0.
Proof.
  intros i f n M W. apply within_adicity in W. assert (Hf := m_fit i f M). exists (sharp f n). split; [apply sharp_spec; assumption|]. rewrite consul_of_spec by (assumption || lia). rewrite consul_inflated by exact W. split; [reflexivity|].
  intro k. rewrite consul_of_spec by (assumption || lia). f_equal. cbn [Nat.add]. rewrite consul_inflated, sharp_inflated by lia. reflexivity.
Qed.
Print Assumptions C98_inflated.

Example C98_ex : made false ex_root /\ within 3 ex_root /\ within 10 ex_root /\ Nat.odd (length (filter (value ex_root) (seq 0 (2 ^ 3)))) = false /\ is_constant ex_root = false /\
  Nat.odd (length (filter (value Props_Boolf.ex_and) (seq 0 (2 ^ 2)))) = true /\
  (exists c, ec_family Props_Boolf.ex_and = Ok c /\ map (fun g => consul g (TtArity 2)) (ec_members c) = [Ok 3; Ok 2; Ok 1; Ok 0]) /\
  (exists c, ec_family ex_root = Ok c /\ map (fun g => consul g (TtArity 3)) (ec_members c) = repeat (consul ex_root (TtArity 3)) 4) /\
  consul Props_Boolf.ex_and (TtArity 3) = Ok 4 /\ consul Props_Boolf.ex_and (TtArity 4) = Ok 0.
Proof.
  split; [exact ex_root_made|]. split; [apply ex_within; reflexivity|]. split; [apply ex_within; reflexivity|]. do 3 (split; [vm_compute; reflexivity|]).
  split; [eexists; split; [vm_compute; reflexivity | vm_compute; reflexivity]|]. split; [eexists; split; [vm_compute; reflexivity | vm_compute; reflexivity]|]. split; vm_compute; reflexivity.
Qed.

(** * C99: Walsh spectra and distances *)

(** an entry has the parity of the weight: a zero needs an even weight; modulo four it is given by the weight and the consul *)
Theorem C99_parity : forall i f n, made i f -> within n f -> let weight := length (filter (value f) (seq 0 (2 ^ n))) in
  exists ws c, walsh_spectrum f (TtArity n) = Ok ws /\ consul f (TtArity n) = Ok c /\ length ws = 2 ^ n /\ nth 0 ws 0%Z = Z.of_nat weight /\
    forall k, k < 2 ^ n -> Z.odd (nth k ws 0%Z) = Nat.odd weight /\ exists d, (nth k ws 0 = Z.of_nat weight + 2 * Z.of_nat (Nat.b2n (dot n c k)) + 4 * d)%Z.
Proof.
  intros i f n M W weight. apply within_adicity in W. assert (Hf := m_fit i f M). do 2 eexists. split; [apply spectrum_entries; assumption|]. split; [apply consul_of_spec; assumption|].
  split; [rewrite map_length; apply range_length|]. assert (Hp := pow2_pos n). split.
  - rewrite nth_table by exact Hp. rewrite entry_counts. assert (X : cnt (fun i0 => tab f i0 && dot n 0 i0) (2 ^ n) = 0).
    { unfold cnt. rewrite (filter_ext _ (fun _ => false)); [generalize (seq 0 (2 ^ n)); intro l; induction l; auto|]. intro j. rewrite dot_comm, Proof_WalshIndex.dot_0. apply andb_false_r. }
    rewrite X. change (cnt (tab f) (2 ^ n)) with weight. lia.
  - intros k Hk. rewrite nth_table by exact Hk. rewrite entry_counts. change (cnt (tab f) (2 ^ n)) with weight. set (c := cnt (fun i0 => tab f i0 && dot n k i0) (2 ^ n)). split.
    + replace (Z.of_nat weight - 2 * Z.of_nat c)%Z with (Z.of_nat weight + 2 * (- Z.of_nat c))%Z by lia. rewrite Z.odd_add_mul_2.
      rewrite <- (Nat2Z.id weight) at 2. rewrite <- Z.negb_even, <- Nat.negb_even. f_equal. rewrite Nat2Z.id. destruct (Nat.Even_or_Odd weight) as [[h Hh]|[h Hh]]; rewrite Hh.
      * rewrite Nat2Z.inj_mul, Z.even_mul, Nat.even_mul. reflexivity.
      * rewrite Nat2Z.inj_add, Nat2Z.inj_mul, Z.even_add, Z.even_mul, Nat.even_add, Nat.even_mul. reflexivity.
    + assert (B : dot n (consul_of f n) k = Nat.odd c). { unfold c. rewrite odd_cnt, consul_of_dot. apply xor_all_ext. intros j _. rewrite (dot_comm n j k). reflexivity. }
      rewrite B. destruct (Nat.Even_or_Odd c) as [[h Hh]|[h Hh]]; rewrite Hh.
      * rewrite Nat.odd_mul. cbn [Nat.odd Nat.even negb andb Nat.b2n]. exists (- Z.of_nat h)%Z. lia.
      * rewrite Nat.add_comm, Nat.odd_add_mul_2. cbn [Nat.odd Nat.even negb Nat.b2n]. exists (- Z.of_nat h - 1)%Z. lia.
Qed.
Print Assumptions C99_parity.

(** the spectrum of the longer truth table is the doubled one followed by zeros *)
Theorem C99_inflated : forall i f n, made i f -> within n f ->
  exists ws, walsh_spectrum f (TtArity n) = Ok ws /\ walsh_spectrum f (TtArity (S n)) = Ok (map (Z.mul 2) ws ++ repeat 0%Z (2 ^ n)).
Proof.
  intros i f n M W. apply within_adicity in W. assert (Hf := m_fit i f M). eexists. split; [apply spectrum_entries; assumption|]. rewrite spectrum_entries by (assumption || lia). f_equal. 
  replace (2 ^ S n) with (2 ^ n + 2 ^ n) by (cbn; lia). unfold range. rewrite seq_app, map_app. cbn [Nat.add]. f_equal.
  - rewrite map_map. apply map_ext_in. intros k Hk. apply in_seq in Hk. apply entry_inflated; [exact W | lia].
  - replace (seq (2 ^ n) (2 ^ n)) with (map (fun k => 2 ^ n + k) (seq 0 (2 ^ n))) by (rewrite <- (seq_offset (2 ^ n) 0); f_equal; lia). rewrite map_map.
    assert (X : forall l : list nat, map (fun _ => 0%Z) l = repeat 0%Z (length l)) by (intro l; induction l as [|x l IH]; cbn; [reflexivity | rewrite IH; reflexivity]).
    rewrite (map_ext_in _ (fun _ => 0%Z)); [rewrite X, seq_length; reflexivity|]. intros k Hk. apply in_seq in Hk. apply entry_inflated; [exact W | lia].
Qed.
Print Assumptions C99_inflated.

(** the distances are the entries of the spectrum, from index 1 shifted by half of the length *)
Theorem C99_distances : forall i f n, made i f -> within (S n) f ->
  exists ws ds, walsh_spectrum f (TtArity (S n)) = Ok ws /\ walsh_distances f (TtArity (S n)) = Ok ds /\
    Z.of_nat (nth 0 ds 0) = nth 0 ws 0%Z /\ forall k, 0 < k -> k < 2 ^ S n -> Z.of_nat (nth k ds 0) = (nth k ws 0 + Z.of_nat (2 ^ n))%Z.
Proof.
  intros i f n M W. apply within_adicity in W. assert (Hf := m_fit i f M). do 2 eexists. split; [apply spectrum_entries; assumption|]. split; [apply walsh_distances_spec; assumption|].
  assert (X : forall k, k < 2 ^ S n -> Z.of_nat (length (filter (fun j => xorb (tab f j) (dot (S n) k j)) (seq 0 (2 ^ S n)))) = (entry_of f (S n) k + (if Nat.eqb k 0 then 0 else Z.of_nat (2 ^ n)))%Z).
  { intros k Hk. assert (D := distance_counts f (S n) k). unfold cnt at 1 in D. rewrite D, entry_counts. assert (Ww := walsh_weight (S n) k Hk). assert (H2 : Z.of_nat (2 ^ S n) = (2 * Z.of_nat (2 ^ n))%Z) by (cbn [Nat.pow]; lia).
    destruct (k =? 0); lia. }
  assert (Hp := pow2_pos (S n)). split; [|intros k Hk0 Hk]; rewrite !nth_table by lia; rewrite X by lia; [cbn [Nat.eqb]; lia|]. rewrite (proj2 (Nat.eqb_neq k 0)) by lia. reflexivity.
Qed.
Print Assumptions C99_distances.

(** the sum of the squares is the length times the weight *)
Theorem C99_squares : forall i f n, made i f -> within n f -> exists ws, walsh_spectrum f (TtArity n) = Ok ws /\
  fold_right Z.add 0%Z (map (fun w => (w * w)%Z) ws) = (Z.of_nat (2 ^ n) * Z.of_nat (length (filter (value f) (seq 0 (2 ^ n)))))%Z.
Proof.
  intros i f n M W. apply within_adicity in W. assert (Hf := m_fit i f M). eexists. split; [apply spectrum_entries; assumption|]. rewrite map_map. apply (parseval f n).
Qed.
Print Assumptions C99_squares.

(** in a clan the absolute values are permuted *)
Lemma clan_spectra : forall f g n, made false f -> made false g -> within n f -> within n g -> clan_class (sem f) (sem g) ->
  exists ws ws', walsh_spectrum f (TtArity n) = Ok ws /\ walsh_spectrum g (TtArity n) = Ok ws' /\ Permutation (map Z.abs ws) (map Z.abs ws').
Proof.
  intros f g n Mf Mg Wf Wg C. apply within_adicity in Wf, Wg. assert (Rf := m_red f Mf). assert (Rg := m_red g Mg). do 2 eexists. split; [apply spectrum_entries; [apply Rf | assumption]|]. split; [apply spectrum_entries; [apply Rg | assumption]|].
  rewrite !map_map. destruct (clan_low f g n Rf Rg Wf Wg C) as (pi & m & Hl & Ho & S).
  (* the index of f for an index of g *)
  set (tau := fun k' => b2n (map (fun a => Nat.testbit k' (pi a)) (range n))).
  assert (P : Permutation (map tau (seq 0 (2 ^ n))) (seq 0 (2 ^ n))).
  { assert (Q := sigma_perm n pi (fun _ => false) Ho). rewrite (map_ext tau (sigma n pi (fun _ => false))); [exact Q|]. intro k. unfold tau, sigma. f_equal. apply map_ext. intro a. rewrite xorb_false_r. reflexivity. }
  transitivity (map (fun k => Z.abs (entry_of f n k)) (map tau (seq 0 (2 ^ n)))); [apply Permutation_map; symmetry; exact P|]. rewrite map_map. unfold range at 1.
  rewrite (map_ext_in (fun k => Z.abs (entry_of f n (tau k))) (fun k => Z.abs (entry_of g n k))); [reflexivity|]. intros k' _.
  rewrite (entry_moved n pi m Ho f g Wf S (tau k') k').
  - rewrite Z.abs_mul. destruct (xor_all _); cbn [sgn Z.abs]; lia.
  - intros a Ha. symmetry. apply (place_bits (fun a => Nat.testbit k' (pi a))). exact Ha.
Qed.
Theorem C99_clan : forall {i j} f g n, made i f -> made j g -> within n f -> within n g -> clan_class (sem f) (sem g) ->
  exists ws ws', walsh_spectrum f (TtArity n) = Ok ws /\ walsh_spectrum g (TtArity n) = Ok ws' /\ Permutation (map Z.abs ws) (map Z.abs ws').
Proof.
  intros i j f g n Mf Mg Wf Wg (pi & m & P & C). destruct (deflated f n Mf Wf) as (f0 & F0 & F1 & A0 & S0). destruct (deflated g n Mg Wg) as (g0 & G0 & G1 & B0 & T0).
  destruct (clan_spectra f0 g0 n F0 G0 A0 B0) as (ws & ws' & E & E' & H); [exists pi, m; split; [exact P|]; intro e; rewrite <- T0, C, S0; reflexivity|].
  exists ws, ws'. destruct (C122_same_arity f f0 n (made_any f Mf) F1 S0 Wf A0) as (_ & _ & _ & _ & _ & _ & _ & _ & X & _). destruct (C122_same_arity g g0 n (made_any g Mg) G1 T0 Wg B0) as (_ & _ & _ & _ & _ & _ & _ & _ & Y & _).
  rewrite X, Y. auto.
Qed.
Print Assumptions C99_clan.

Example C99_ex : walsh_spectrum (mkBoolf [false; false; false; true; true; false; false; true] [0; 1; 2] false false) (TtArity 3) = Ok [3; -1; -1; 3; -1; -1; -1; -1]%Z /\
  walsh_spectrum (mkBoolf [false; false; false; true; true; false; false; true] [0; 1; 2] false false) (TtArity 4) = Ok ([6; -2; -2; 6; -2; -2; -2; -2] ++ repeat 0 8)%Z /\
  walsh_distances (mkBoolf [false; false; false; true; true; false; false; true] [0; 1; 2] false false) (TtArity 3) = Ok [3; 3; 3; 7; 3; 3; 3; 3] /\
  clan_class (sem Props_Boolf.ex_and) (sem ex_and) /\ walsh_spectrum Props_Boolf.ex_and (TtArity 3) = Ok [2; -2; -2; 2; 0; 0; 0; 0]%Z /\ walsh_spectrum ex_and (TtArity 3) = Ok [2; -2; 0; 0; -2; 2; 0; 0]%Z.
Proof.
  do 3 (split; [vm_compute; reflexivity|]). split; [|split; vm_compute; reflexivity].
  exists (fun a => match a with 1 => 2 | 2 => 1 | _ => a end), (fun _ => false). split; [exists (fun a => match a with 1 => 2 | 2 => 1 | _ => a end); intro a; destruct a as [|[|[|a]]]; auto|].
  intro e. unfold sem, table. cbn. destruct (e 0), (e 1), (e 2); reflexivity.
Qed.
