(** Proof_BoolfStr: lemmas for the texts of Boolfs. *)

From Coq Require Import String Ascii List Arith ZArith Bool QArith Lia Permutation Sorted.
From Verif Require Import Lib Model_Base Model_Binary Model_Splits Model_Perm Model_SigPerm Model_WalshPerm Model_Boolf Model_SetPart Model_MinRep Model_Misc Model_Str
  Spec_Bits Spec_Boolf Spec_Misc Spec_Str Proof_Binary Proof_Boolf Proof_BoolfTable Proof_BoolfMake Proof_Deflate Proof_MinRepMale Proof_Fract Proof_Misc Proof_Swan Proof_Twin Proof_Str.
Import ListNotations.
Open Scope nat_scope.

(** ** Texts of numbers mean these numbers *)

Lemma digit_range c : nodigit c = false -> 48 <= c <= 57.
Proof. unfold nodigit. destruct (Nat.leb_spec 48 c), (Nat.leb_spec c 57); cbn; intro; try discriminate; lia. Qed.
Lemma dec_loop_nozero : forall fuel n acc, n < fuel -> 0 < n -> exists c r, dec_loop fuel n acc = c :: r /\ c <> 48.
Proof.
  induction fuel as [|fuel IH]; intros n acc Hf Hn; [lia|]. cbn [dec_loop]. cbv zeta. assert (D := Nat.div_mod n 10 ltac:(lia)).
  destruct (Nat.eqb_spec (n / 10) 0) as [Z|Z].
  - exists (48 + n mod 10), acc. split; [reflexivity|]. lia.
  - apply IH; [|lia]. assert (L := Nat.div_lt n 10 Hn ltac:(lia)). lia.
Qed.
Lemma str_nat_numeral n : numeral (str_nat n) n.
Proof.
  split; [|split; [|split]].
  - destruct (str_nat_head n) as (c & r & -> & _). discriminate.
  - eapply Forall_impl; [|apply str_nat_digits]. intros c. apply digit_range.
  - destruct n as [|n]; [reflexivity|]. destruct (dec_loop_nozero (S (S n)) (S n) [] ltac:(lia) ltac:(lia)) as (c & r & E & H). unfold str_nat. rewrite E. cbn [hd]. contradiction.
  - apply str_nat_value.
Qed.
Lemma join_listed l : listed (join_texts (map str_nat l)) l.
Proof.
  induction l as [|a l IH]; [constructor|]. destruct l as [|b l].
  - cbn [map join_texts]. apply listed_last. apply str_nat_numeral.
  - change (join_texts (map str_nat (a :: b :: l))) with (str_nat a ++ lit ", " ++ join_texts (map str_nat (b :: l))). apply listed_more; [apply str_nat_numeral|exact IH|discriminate].
Qed.
Lemma pretty_spaced s : spaced (map char_code s) (digits_of s).
Proof.
  unfold digits_of. induction s as [|c s IH]; [constructor|]. destruct c as [|b]; cbn [map flat_map app char_code].
  - apply spaced_space. exact IH.
  - replace (match b with true => 49 | false => 48 end) with (if b then 49 else 48) by (destruct b; reflexivity). apply spaced_digit. exact IH.
Qed.

(** ** The two kinds of texts *)

Definition tilda (f : boolf) : bool := Nat.ltb (2 ^ valency f) (2 * binv_weight (root f)).
Definition atoms_small (f : boolf) : text := if is_root f then [] else lit ", [" ++ join_texts (map str_nat (atomvals f)) ++ lit "]".
Definition atoms_big (f : boolf) : text := if is_root f then lit "arity=" ++ str_nat (adicity f) else lit "atomvals=[" ++ join_texts (map str_nat (atomvals f)) ++ lit "]".
Definition negated_root (f : boolf) : boolf := mkBoolf (map negb (root f)) (atomvals f) (is_constant f) false.
Definition spots_text (f : boolf) : text :=
  join_texts (map str_nat (if tilda f then binv_exposet (map negb (root f)) else binv_exposet (root f))).

Lemma fract_half f : fitting f -> forall w, weight_fract f = Ok w -> Qle_bool w one_half = negb (tilda f).
Proof.
  intros F w E. rewrite weight_fract_ok in E by exact F. assert (X : w = Qred (quotient (binv_weight (root f)) (2 ^ valency f))) by congruence. subst w. unfold tilda. apply Proof_Twin.bool_iff.
  assert (Y : forall q, (Qred q <= one_half <-> q <= one_half)%Q) by (intro q; split; intro L; [rewrite <- (Qred_correct q)|rewrite (Qred_correct q)]; exact L).
  rewrite Qle_bool_iff, Y, negb_true_iff, Nat.ltb_ge. unfold Qle, quotient, one_half. cbn [Qnum Qden]. assert (P := pow2_pos (valency f)). 
  assert (Z1 : Z.pos (Pos.of_nat (2 ^ valency f)) = Z.of_nat (2 ^ valency f)) by (rewrite <- Znat.positive_nat_Z, Nat2Pos.id by lia; reflexivity).
  rewrite Z1. lia.
Qed.
Lemma negated_sem f e : fitting f -> sem (negated_root f) e = negb (sem f e).
Proof.
  intros [_ Hl]. unfold sem, table, negated_root. cbn [root atomvals]. assert (Hlt := b2n_lt (map e (atomvals f))). rewrite map_length in Hlt.
  rewrite (nth_indep _ false (negb false)) by (rewrite map_length, Hl; exact Hlt). apply map_nth.
Qed.
Lemma negated_reduced f : reduced f -> reduced (negated_root f).
Proof.
  intro R. destruct R as (F & E & I & C). split; [|split; [|split]].
  - split; [apply F|]. cbn [negated_root root atomvals]. rewrite map_length. apply F.
  - intros a Ha. destruct (E a Ha) as (e & H). exists e. rewrite !negated_sem by exact F. intro X. apply H. destruct (sem f (upd e a true)), (sem f (upd e a false)); cbn in X; congruence.
  - reflexivity.
  - exact C.
Qed.
Lemma boolf_not_root f : reduced f -> boolf_not f = Ok (negated_root f).
Proof.
  intro R. destruct (not_spec f (proj1 R)) as (h & E & Rh & S). rewrite E. f_equal. apply reduced_unique; [exact Rh|apply negated_reduced; exact R|].
  intro e. rewrite S, negated_sem by apply R. reflexivity.
Qed.

Lemma small_str f : fitting f -> valency f <= 4 ->
  boolf_str f = Ok (lit "Boolf('" ++ map char_code (pretty_from 0 (root f)) ++ lit "'" ++ atoms_small f ++ lit ")").
Proof.
  intros F V. unfold boolf_str. rewrite (proj2 (Nat.leb_le _ _) V). rewrite pretty_ok; [reflexivity|]. exists (valency f). split; [lia|]. apply F.
Qed.
Lemma big_str f : reduced f -> 4 < valency f ->
  boolf_str f = Ok ((if tilda f then lit "~" else []) ++ lit "Boolf(fullspots=[" ++ spots_text f ++ lit "], " ++ atoms_big f ++ lit ")").
Proof.
  intros R V. unfold boolf_str. rewrite (proj2 (Nat.leb_gt _ _) V). assert (F := proj1 R). 
  assert (E := weight_fract_ok f F). rewrite E, bind_Ok. cbv zeta. rewrite (fract_half f F _ E), negb_involutive. unfold spots_text.
  assert (X : forall v, sort_nat (binv_exposet v) = binv_exposet v) by (intro v; apply sort_nat_id, sorted_lt_le, binv_exposet_sorted).
  destruct (tilda f).
  - rewrite boolf_not_root by exact R. rewrite !bind_Ok. unfold fullspots. cbn [negated_root root]. rewrite X. reflexivity.
  - rewrite bind_Ok. unfold fullspots. rewrite X. reflexivity.
Qed.

(** ** Texts determine functions *)

Lemma nats_join_delim : delim (fun _ => True) (fun c => Nat.eqb c 93) (fun l => join_texts (map str_nat l)).
Proof.
  eapply delim_weaken; [apply (join_delim (fun _ => True) nodigit (fun c => Nat.eqb c 93) str_nat str_nat_delim eq_refl)| |].
  - intros c Hc. apply Nat.eqb_eq in Hc. subst. split; [reflexivity|discriminate].
  - intros a _. destruct (str_nat_head a) as (c & r & E & H). exists c, r. split; [exact E|]. apply Nat.eqb_neq. intros ->. discriminate.
  - intros l _. apply Forall_forall. auto.
  - auto.
Qed.
Lemma root_atoms f g : fitting f -> fitting g -> is_root f = true -> is_root g = true -> valency f = valency g -> atomvals f = atomvals g.
Proof. intros Ff Fg Rf Rg V. apply is_root_range in Rf, Rg; try assumption. rewrite Rf, Rg, V. reflexivity. Qed.
Lemma exposet_inj v w : length v = length w -> binv_exposet v = binv_exposet w -> v = w.
Proof.
  intros L E. apply (nth_ext v w false false L). intros i _. apply Proof_Twin.bool_iff. rewrite <- !binv_exposet_In, E. reflexivity.
Qed.
Lemma char_code_inj s t : map char_code s = map char_code t -> s = t.
Proof.
  revert t. induction s as [|c s IH]; intros [|d t] E; try discriminate; [reflexivity|]. cbn [map] in E. injection E as E1 E2. f_equal; [|apply IH; exact E2].
  destruct c as [|[|]], d as [|[|]]; try discriminate; reflexivity.
Qed.
Lemma map_negb_inj v w : map negb v = map negb w -> v = w.
Proof. intro E. apply (f_equal (map negb)) in E. rewrite !map_map in E. rewrite !(map_ext (fun x => negb (negb x)) (fun x => x) negb_involutive), !map_id in E. exact E. Qed.
Lemma pow2_inj a b : 2 ^ a = 2 ^ b -> a = b.
Proof. apply Nat.pow_inj_r. lia. Qed.

Lemma small_inj f g s : reduced f -> reduced g -> valency f <= 4 -> valency g <= 4 -> boolf_str f = Ok s -> boolf_str g = Ok s ->
  root f = root g /\ atomvals f = atomvals g.
Proof.
  intros Rf Rg Vf Vg Ef Eg. assert (Ff := proj1 Rf). assert (Fg := proj1 Rg). rewrite small_str in Ef, Eg by assumption.
  assert (E : lit "Boolf('" ++ map char_code (pretty_from 0 (root f)) ++ lit "'" ++ atoms_small f ++ lit ")" = lit "Boolf('" ++ map char_code (pretty_from 0 (root g)) ++ lit "'" ++ atoms_small g ++ lit ")") by congruence.
  clear Ef Eg. apply app_inv_head in E.
  assert (D : forall l, Forall (fun c => Nat.eqb c 39 = false) (map char_code l)).
  { intro l. apply Forall_map, Forall_forall. intros c _. destruct c as [|[|]]; reflexivity. }
  destruct (span_use (fun c => Nat.eqb c 39) _ _ _ _ E (D _) (D _) ltac:(exact eq_refl) ltac:(exact eq_refl)) as (E1 & E2). apply app_inv_head in E2.
  apply char_code_inj in E1. apply (f_equal digits_of) in E1. rewrite !digits_pretty in E1. split; [exact E1|].
  assert (V : valency f = valency g) by (apply pow2_inj; unfold valency; rewrite <- (proj2 Ff), <- (proj2 Fg), E1; reflexivity).
  unfold atoms_small in E2. destruct (is_root f) eqn:Is1, (is_root g) eqn:Is2.
  - apply root_atoms; assumption.
  - discriminate.
  - discriminate.
  - rewrite <- !app_assoc in E2. apply app_inv_head in E2. destruct (delim_use _ _ _ _ nats_join_delim (atomvals f) (atomvals g) _ _ E2 I I ltac:(exact eq_refl) ltac:(exact eq_refl)) as (H & _). exact H.
Qed.
Lemma big_inj f g s : reduced f -> reduced g -> 4 < valency f -> 4 < valency g -> boolf_str f = Ok s -> boolf_str g = Ok s ->
  root f = root g /\ atomvals f = atomvals g.
Proof.
  intros Rf Rg Vf Vg Ef Eg. assert (Ff := proj1 Rf). assert (Fg := proj1 Rg). rewrite big_str in Ef, Eg by assumption.
  assert (T : tilda f = tilda g) by (destruct (tilda f), (tilda g); try reflexivity; rewrite <- Eg in Ef; discriminate).
  rewrite <- Eg in Ef. clear Eg. injection Ef as E. rewrite T in E. apply app_inv_head in E.
  assert (E1 : spots_text f ++ lit "], " ++ atoms_big f ++ lit ")" = spots_text g ++ lit "], " ++ atoms_big g ++ lit ")").
  { injection E. intro X. exact X. } clear E.
  unfold spots_text in E1. destruct (delim_use _ _ _ _ nats_join_delim _ _ _ _ E1 I I ltac:(exact eq_refl) ltac:(exact eq_refl)) as (E2 & E3). clear E1. apply app_inv_head in E3.
  assert (A : atomvals f = atomvals g).
  { unfold atoms_big in E3. destruct (is_root f) eqn:Is1, (is_root g) eqn:Is2; try discriminate; rewrite <- !app_assoc in E3; apply app_inv_head in E3.
    - destruct (delim_use _ _ _ _ str_nat_delim _ _ _ _ E3 I I ltac:(exact eq_refl) ltac:(exact eq_refl)) as (H & _). apply root_atoms; try assumption.
      unfold is_root in Is1, Is2. apply Nat.eqb_eq in Is1, Is2. congruence.
    - destruct (delim_use _ _ _ _ nats_join_delim (atomvals f) (atomvals g) _ _ E3 I I ltac:(exact eq_refl) ltac:(exact eq_refl)) as (H & _). exact H. }
  split; [|exact A]. assert (L : length (root f) = length (root g)) by (rewrite (proj2 Ff), (proj2 Fg), A; reflexivity).
  rewrite T in E2. destruct (tilda g).
  - apply map_negb_inj, exposet_inj; [rewrite !map_length; exact L|exact E2].
  - apply exposet_inj; assumption.
Qed.
Lemma mixed_str f g s : reduced f -> reduced g -> valency f <= 4 -> 4 < valency g -> boolf_str f = Ok s -> boolf_str g = Ok s -> False.
Proof. intros Rf Rg Vf Vg Ef Eg. rewrite small_str in Ef by (try apply Rf; assumption). rewrite big_str in Eg by assumption. rewrite <- Eg in Ef. destruct (tilda g); discriminate. Qed.

Lemma boolf_str_inj f g s : reduced f -> reduced g -> boolf_str f = Ok s -> boolf_str g = Ok s -> f = g.
Proof.
  intros Rf Rg Ef Eg. assert (H : root f = root g /\ atomvals f = atomvals g).
  { destruct (Nat.le_gt_cases (valency f) 4), (Nat.le_gt_cases (valency g) 4).
    - apply (small_inj f g s); assumption.
    - exfalso. apply (mixed_str f g s); assumption.
    - exfalso. apply (mixed_str g f s); assumption.
    - apply (big_inj f g s); assumption. }
  apply reduced_unique; try assumption. intro e. unfold sem. destruct H as (-> & ->). reflexivity.
Qed.
Lemma boolf_str_ok i f : made i f -> exists s, boolf_str f = Ok s.
Proof.
  intro M. assert (F' : fitting f) by (apply (proj1 (made_wellmade i f M))).
  destruct (Nat.le_gt_cases (valency f) 4) as [V|V]; [rewrite small_str by assumption; eauto|].
  unfold boolf_str. rewrite (proj2 (Nat.leb_gt _ _) V), (weight_fract_ok f F'), bind_Ok. cbv zeta. destruct (not_spec f F') as (h & -> & _). destruct (negb _); rewrite !bind_Ok; eauto.
Qed.

(** ** Texts evaluate to the functions *)

Lemma vec_self f : reduced f -> Boolf_vec (root f) (atomvals f) = Ok f.
Proof.
  intro R. destruct (Boolf_vec_sorted (root f) (atomvals f) (proj1 (proj1 R)) (proj2 (proj1 R))) as (g & E & Rg & S). rewrite E. f_equal. apply reduced_unique; [exact Rg|exact R|exact S].
Qed.
Lemma spots_sem f n e : fitting f -> n = binv_exposet (root f) -> memb (b2n (map e (atomvals f))) n = sem f e.
Proof. intros F ->. apply Proof_Twin.bool_iff. rewrite memb_In, binv_exposet_In. reflexivity. Qed.
Lemma spots_bound v d : length v = 2 ^ d -> forall s, In s (binv_exposet v) -> s < 2 ^ d.
Proof. intros L s H. apply binv_exposet_In in H. rewrite <- L. destruct (Nat.lt_ge_cases s (length v)) as [X|X]; [exact X|]. rewrite nth_overflow in H by exact X. discriminate. Qed.
Lemma fs_self f : reduced f ->
  subinit_fs (map Z.of_nat (binv_exposet (root f))) (Some (map Z.of_nat (atomvals f))) None false = Ok f /\
  (is_root f = true -> subinit_fs (map Z.of_nat (binv_exposet (root f))) None (Some (adicity f)) false = Ok f).
Proof.
  intro R. assert (F := proj1 R). assert (B := spots_bound (root f) (length (atomvals f)) (proj2 F)). split.
  - destruct (fs_spec (binv_exposet (root f)) (atomvals f) _ _ (proj1 F) (or_introl (conj eq_refl eq_refl)) B) as (g & E & Rg & S). rewrite E. f_equal.
    apply reduced_unique; [exact Rg|exact R|]. intro e. rewrite S. apply spots_sem; auto.
  - intro Is. assert (X := proj1 (is_root_range f F) Is). unfold is_root in Is. apply Nat.eqb_eq in Is.
    destruct (fs_spec (binv_exposet (root f)) (atomvals f) None (Some (adicity f)) (proj1 F)) as (g & E & Rg & S).
    + right. split; [reflexivity|]. split; [rewrite Is; reflexivity|exact X].
    + exact B.
    + rewrite E. f_equal. apply reduced_unique; [exact Rg|exact R|]. intro e. rewrite S. apply spots_sem; auto.
Qed.
Lemma negated_twice f : reduced f -> boolf_not (negated_root f) = Ok f.
Proof.
  intro R. assert (Rn := negated_reduced f R). rewrite boolf_not_root by exact Rn. f_equal. apply reduced_unique; [apply negated_reduced; exact Rn|exact R|].
  intro e. rewrite !negated_sem; [apply negb_involutive|apply R|apply Rn].
Qed.
Lemma spots_denotes f : reduced f -> denotes (lit "Boolf(fullspots=[" ++ join_texts (map str_nat (binv_exposet (root f))) ++ lit "], " ++ atoms_big f ++ lit ")") f.
Proof.
  intro R. destruct (fs_self f R) as (E1 & E2). unfold atoms_big. destruct (is_root f) eqn:Is.
  - rewrite (app_assoc (lit "], ")), (app_assoc (lit "], ")). apply (den_spots _ (binv_exposet (root f)) _ (adicity f)); [apply join_listed|apply str_nat_numeral|apply E2; reflexivity].
  - replace (lit "], " ++ (lit "atomvals=[" ++ join_texts (map str_nat (atomvals f)) ++ lit "]") ++ lit ")") with (lit "], atomvals=[" ++ join_texts (map str_nat (atomvals f)) ++ lit "])") by (rewrite <- !app_assoc; reflexivity).
    apply (den_spots_atoms _ (binv_exposet (root f)) _ (atomvals f)); [apply join_listed|apply join_listed|exact E1].
Qed.
Lemma Ok_inj {A} (a b : A) : Ok a = Ok b -> a = b.
Proof. congruence. Qed.
Lemma boolf_str_denotes f s : reduced f -> boolf_str f = Ok s -> denotes s f.
Proof.
  intros R E. assert (F := proj1 R). destruct (Nat.le_gt_cases (valency f) 4) as [V|V].
  - rewrite small_str in E by assumption. apply Ok_inj in E. subst s. assert (P := pretty_spaced (pretty_from 0 (root f))). rewrite digits_pretty in P. unfold atoms_small. destruct (is_root f) eqn:Is.
    + apply (den_table _ (root f)); [exact P|]. destruct (Boolf_root_spec (root f) (valency f)) as (g & E & Rg & S); [apply F|]. rewrite E. f_equal. apply reduced_unique; [exact Rg|exact R|]. intro e. rewrite S. unfold sem. rewrite (proj1 (is_root_range f F) Is). reflexivity.
    + replace (lit "'" ++ (lit ", [" ++ join_texts (map str_nat (atomvals f)) ++ lit "]") ++ lit ")") with (lit "', [" ++ join_texts (map str_nat (atomvals f)) ++ lit "])") by (rewrite <- !app_assoc; reflexivity).
      apply (den_table_atoms _ (root f) _ (atomvals f)); [exact P|apply join_listed|apply vec_self; exact R].
  - rewrite big_str in E by assumption. apply Ok_inj in E. subst s. unfold spots_text. destruct (tilda f).
    + apply (den_not _ (negated_root f)); [|apply negated_twice; exact R]. exact (spots_denotes (negated_root f) (negated_reduced f R)).
    + exact (spots_denotes f R).
Qed.
