(** Props_BinvText: property C96 (binary vectors from texts, their partition, signs, small helpers). *)

From Coq Require Import String Ascii List Arith ZArith Bool Lia Permutation.
From Verif Require Import Model_Base Model_Binary Model_Perm Model_SetPart Model_Misc Model_SigPerm Model_Str Model_BinvText Spec_SetPart Spec_BinvText
  Proof_Binary Proof_SetPart Proof_SetPartMore Proof_SetPartObj Proof_Swan Proof_Str Proof_BinvText Props_SetPart.
From Verif Require Import Lib.
From Verif Require Lib Proof_PermMore Proof_EcMore Proof_Helpers.
Import ListNotations Model_Str.
Local Open Scope nat_scope.

(** ** texts *)
Definition read_char (digit : nat -> option nat) (c : nat) : res Z := match digit c with Some d => Ok (Z.of_nat d) | None => Err VectorEntryError end.
Lemma read_chars digit s :
  (exists v, (let* es := mapM (read_char digit) s in Binv_vector es) = Ok v /\ Forall2 (fun c b => digit c = Some (Nat.b2n b)) s v) \/
  ((let* es := mapM (read_char digit) s in Binv_vector es) = Err VectorEntryError /\ exists c, In c s /\ digit c <> Some 0 /\ digit c <> Some 1).
Proof.
  induction s as [|c s IH]; [left; exists []; split; [reflexivity | constructor]|]. cbn [mapM]. unfold read_char at 1 3. destruct (digit c) as [d|] eqn:E.
  - cbn [bind]. destruct (mapM (read_char digit) s) as [es|e]; cbn [bind] in *.
    + unfold Binv_vector, Binv, Binv_with in *. cbn [forallb map]. destruct (forallb _ es) eqn:F; cbn [true_except bind andb] in *.
      * destruct IH as [(v & Ev & Hv)|(Ev & _)]; [|discriminate Ev]. injection Ev as Ev. destruct (Nat.eq_dec d 0) as [->|N0]; [|destruct (Nat.eq_dec d 1) as [->|N1]].
        { left. exists (false :: v). cbn. rewrite Ev. split; [reflexivity | constructor; assumption]. }
        { left. exists (true :: v). cbn. rewrite Ev. split; [reflexivity | constructor; assumption]. }
        { right. replace (Z.eqb (Z.of_nat d) 0) with false by (symmetry; apply Z.eqb_neq; lia). replace (Z.eqb (Z.of_nat d) 1) with false by (symmetry; apply Z.eqb_neq; lia). split; [reflexivity|]. exists c. rewrite E. split; [left; reflexivity|]. split; intro X; injection X; lia. }
      * destruct IH as [(v & Ev & Hv)|(_ & c' & Hc & N)]; [discriminate Ev|]. right. rewrite andb_false_r. split; [reflexivity|]. exists c'. split; [right; exact Hc | exact N].
    + destruct IH as [(v & Ev & Hv)|(Ev & c' & Hc & N)]; [discriminate Ev|]. right. split; [exact Ev|]. exists c'. split; [right; exact Hc | exact N].
  - right. split; [reflexivity|]. exists c. rewrite E. split; [left; reflexivity | split; discriminate].
Qed.
Lemma Binv_text_eq digit s : Binv_text digit s = let* es := mapM (read_char digit) (unspaced s) in Binv_vector es.
Proof. destruct s as [|c s]; [reflexivity|]. unfold Binv_text. rewrite replace_space. reflexivity. Qed.
Lemma unspaced_none s : Forall (fun c => c <> 32) s -> unspaced s = s.
Proof. intro F. unfold unspaced. induction F as [|c s H F IH]; [reflexivity|]. cbn [filter]. destruct (Nat.eqb_spec c 32); [contradiction|]. cbn [negb]. rewrite IH. reflexivity. Qed.
Lemma binv_string_map v : binv_string v = map (fun b => 48 + Nat.b2n b) v.
Proof. unfold binv_string, to_string. induction v as [|b v IH]; [reflexivity|]. cbn [flat_map map]. rewrite IH. destruct b; reflexivity. Qed.
Lemma string_unspaced v : unspaced (binv_string v) = binv_string v.
Proof. apply unspaced_none. rewrite binv_string_map. apply Forall_forall. intros c Hc. apply in_map_iff in Hc as (b & <- & _). destruct b; cbn; lia. Qed.
Lemma pretty_unspaced s : unspaced (map char_code s) = binv_string (digits_of s).
Proof. rewrite binv_string_map. unfold digits_of, unspaced. induction s as [|c s IH]; [reflexivity|]. destruct c as [|b]; cbn [map char_code flat_map filter app]; [exact IH|]. rewrite IH. destruct b; reflexivity. Qed.

(** a text is accepted exactly if all characters but the spaces are digits with value 0 or 1 *)
Theorem C96_text digit s v : Binv_text digit s = Ok v <-> Forall2 (fun c b => digit c = Some (Nat.b2n b)) (unspaced s) v.
Proof.
  rewrite Binv_text_eq. destruct (read_chars digit (unspaced s)) as [(w & E & F)|(E & c & Hc & N0 & N1)]; rewrite E.
  - split; [intro X; injection X as <-; exact F|]. intro F'. f_equal. clear E. revert v F'. induction F as [|c b l w Hc F IH]; intros v F'; inversion F' as [|? b' ? v' Hb F'']; subst; [reflexivity|]. f_equal; [|apply IH, F'']. rewrite Hc in Hb. destruct b, b'; reflexivity || discriminate Hb.
  - split; [discriminate|]. intro F. exfalso. clear E. induction F as [|c' b l w Hb F IH]; [contradiction|]. destruct Hc as [->|Hc]; [destruct b; contradiction | apply IH, Hc].
Qed.
Theorem C96_text_rejected digit s : (forall v, Binv_text digit s <> Ok v) -> Binv_text digit s = Err VectorEntryError.
Proof. rewrite Binv_text_eq. intro H. destruct (read_chars digit (unspaced s)) as [(w & E & F)|(E & _)]; [exfalso; exact (H w E) | exact E]. Qed.

(** the texts of a vector are read as this vector; the pretty text of a pretty text is the same text *)
Lemma text_of digit s v : ascii_digits digit -> unspaced s = binv_string v -> Binv_text digit s = Ok v.
Proof. intros A E. apply C96_text. rewrite E, binv_string_map. clear E. induction v as [|b v IH]; constructor; [|exact IH]. apply A. destruct b; cbn; lia. Qed.
Definition gap_text (len i : nat) : text := if negb (Nat.eqb (i + 1) len) && Nat.eqb ((i + 1) mod 4) 0 then if Nat.eqb ((i + 1) mod 16) 0 then lit "  " else lit " " else [].
Lemma pretty_parts digit len v : ascii_digits digit -> forall i, exists parts,
  mapM (fun id : nat * nat => let* d := match digit (snd id) with Some d => Ok d | None => Err ValueErr end in Ok (str_nat d ++ gap_text len (fst id))) (combine (seq i (length v)) (map (fun b => 48 + Nat.b2n b) v)) = Ok parts /\
  concat parts = map char_code (flat_map (fun id : nat * bool => Digit (snd id) :: (if negb (Nat.eqb (fst id + 1) len) && Nat.eqb ((fst id + 1) mod 4) 0 then if Nat.eqb ((fst id + 1) mod 16) 0 then [Space; Space] else [Space] else [])) (combine (seq i (length v)) v)).
Proof.
  intro A. induction v as [|b v IH]; intro i; [exists []; split; reflexivity|]. destruct (IH (S i)) as (parts & E & C). exists ((str_nat (Nat.b2n b) ++ gap_text len i) :: parts). cbn [length seq map combine mapM flat_map]. cbn [fst snd]. rewrite A by (destruct b; cbn; lia). cbn [bind]. rewrite E. cbn [bind]. split; [reflexivity|].
  cbn [concat]. rewrite C, map_app. f_equal. unfold gap_text. destruct b; (destruct (_ && _); [destruct (Nat.eqb _ 0); reflexivity | reflexivity]).
Qed.
Lemma pretty_text_of digit s v : ascii_digits digit -> unspaced s = binv_string v -> to_pretty_text digit s = binv_pretty v.
Proof.
  intros A E. unfold to_pretty_text, binv_pretty, to_pretty_string. cbv zeta. rewrite replace_space, E, binv_string_map, map_length. destruct (memb _ _); [|reflexivity]. cbn [true_except bind]. unfold enumerate. rewrite map_length. destruct (pretty_parts digit (length v) v A 0) as (parts & Ep & Ec). refine (eq_trans (f_equal (fun m => bind m (fun p => Ok (concat p))) Ep) _). cbn [bind]. rewrite Ec. reflexivity.
Qed.
Theorem C96_read_back digit v : ascii_digits digit -> Binv_text digit (binv_string v) = Ok v /\ to_pretty_text digit (binv_string v) = binv_pretty v /\
  forall s, binv_pretty v = Ok s -> Binv_text digit s = Ok v /\ to_pretty_text digit s = Ok s.
Proof.
  intro A. split; [apply text_of; [exact A | apply string_unspaced]|]. split; [apply pretty_text_of; [exact A | apply string_unspaced]|]. intros s E. assert (U : unspaced s = binv_string v).
  { unfold binv_pretty in E. destruct (to_pretty_string v) as [p|] eqn:P; [|discriminate E]. cbn [bind] in E. injection E as <-. rewrite pretty_unspaced. f_equal. destruct (memb (length v) (map (fun i => 2 ^ i) (range 7))) eqn:M; [|unfold to_pretty_string in P; rewrite M in P; discriminate P]. apply pretty_guard in M. rewrite (pretty_ok v M) in P. injection P as <-. apply digits_pretty. }
  split; [apply text_of; assumption|]. rewrite <- E. apply pretty_text_of; assumption.
Qed.
(** the reversed vector *)
Lemma weight_rev v : binv_weight (rev v) = binv_weight v.
Proof. rewrite !weight_filter. apply Proof_EcMore.perm_filter_length. symmetry. apply Permutation_rev. Qed.

Lemma reflect_perm m : Permutation (map (fun i => m - 1 - i) (seq 0 m)) (seq 0 m).
Proof.
  apply NoDup_Permutation; [|apply seq_NoDup|].
  - apply Proof_Helpers.NoDup_map_inj; [apply seq_NoDup|]. intros a b Ha Hb. apply in_seq in Ha, Hb. lia.
  - intro x. rewrite in_map_iff. split; [intros (i & <- & Hi); apply in_seq in Hi; apply in_seq; lia | intro Hx; apply in_seq in Hx; exists (m - 1 - x); split; [lia | apply in_seq; lia]].
Qed.
Theorem C96_reverse v : exists r, binv_reverse_made v = Ok r /\ length r = length v /\ (forall i, i < length v -> nth i r false = nth (length v - 1 - i) v false) /\
  binv_weight r = binv_weight v /\ binv_changes r = binv_changes v /\ binv_reverse_made r = Ok v.
Proof.
  assert (M : forall w, binv_reverse_made w = Ok (rev w)).
  { intro w. unfold binv_reverse_made, Binv_vector, Binv, Binv_with. assert (F : forallb (fun e => Z.eqb e 0 || Z.eqb e 1) (map (fun b : bool => if b then 1%Z else 0%Z) (rev w)) = true) by (apply forallb_forall; intros e He; apply in_map_iff in He as (b & <- & _); destruct b; reflexivity). rewrite F. cbn [true_except bind]. rewrite map_map. f_equal. rewrite <- (map_id (rev w)) at 2. apply map_ext. intros [|]; reflexivity. }
  exists (rev v). split; [apply M|]. split; [apply rev_length|]. assert (N : forall i, i < length v -> nth i (rev v) false = nth (length v - 1 - i) v false) by (intros i Hi; rewrite rev_nth by exact Hi; f_equal; lia). split; [exact N|]. split; [apply weight_rev|]. split; [|rewrite M, rev_involutive; reflexivity].
  rewrite !changes_spec, rev_length. set (m := length v - 1). set (p := fun i => xorb (nth i v false) (nth (S i) v false)). rewrite <- (Proof_EcMore.perm_filter_length p _ _ (reflect_perm m)). assert (F : forall l, (forall i, In i l -> i < m) -> length (filter (fun i => xorb (nth i (rev v) false) (nth (S i) (rev v) false)) l) = length (filter p (map (fun i => m - 1 - i) l))).
  { induction l as [|i l IH]; intro Hl; [reflexivity|]. cbn [map filter]. assert (Hi := Hl i (or_introl eq_refl)). rewrite !N by (unfold m in Hi; lia). unfold p at 1. replace (length v - 1 - i) with (S (m - 1 - i)) by (unfold m in *; lia). replace (length v - 1 - S i) with (m - 1 - i) by (unfold m in *; lia). rewrite xorb_comm. destruct (xorb _ _); cbn [length]; rewrite IH by (intros; apply Hl; right; assumption); reflexivity. }
  apply F. intros i Hi. apply in_seq in Hi. lia.
Qed.

(** ** the partition in two blocks *)
Lemma made_domain bs s : SetPart (Some bs) DomN = Ok s -> sp_domain s = DomN.
Proof.
  unfold SetPart, sp_init. destruct (isort _ _) as [|b l]; [intro X; injection X as <-; reflexivity|]. destruct (Nat.eqb _ _); [|discriminate]. cbn [true_except bind]. destruct (map fst _); [discriminate|]. cbn [bind]. intro X. injection X as <-. reflexivity.
Qed.
Lemma set_part_made v : exists s, binv_set_part v = Ok s /\ is_SetPart s /\ sp_domain s = DomN /\ forall x y, x <> y ->
  (together (sp_blocks s) x y <-> exists i j, i < length v /\ j < length v /\ x = Z.of_nat i /\ y = Z.of_nat j /\ nth i v false = nth j v false).
Proof.
  unfold binv_set_part. set (T := map Z.of_nat (binv_exposet v)). set (U := map Z.of_nat (range (length v))). set (F := filter _ U).
  assert (HT : forall x, In x T <-> exists i, i < length v /\ x = Z.of_nat i /\ nth i v false = true).
  { intro x. unfold T. rewrite in_map_iff. split.
    - intros (i & <- & Hi). apply binv_exposet_In in Hi. exists i. split; [destruct (Nat.lt_ge_cases i (length v)) as [L|L]; [exact L | rewrite nth_overflow in Hi by exact L; discriminate] | auto].
    - intros (i & Hi & -> & E). exists i. split; [reflexivity | apply binv_exposet_In, E]. }
  assert (HF : forall x, In x F <-> exists i, i < length v /\ x = Z.of_nat i /\ nth i v false = false).
  { intro x. unfold F. rewrite filter_In, negb_true_iff. split.
    - intros [Hx N]. apply in_map_iff in Hx as (i & <- & Hi). apply range_In in Hi. exists i. split; [exact Hi|]. split; [reflexivity|]. destruct (nth i v false) eqn:E; [|reflexivity]. exfalso. assert (X : existsb (Z.eqb (Z.of_nat i)) T = true) by (apply existsb_exists; exists (Z.of_nat i); split; [apply HT; exists i; auto | apply Z.eqb_refl]). congruence.
    - intros (i & Hi & -> & E). split; [apply in_map, range_In, Hi|]. destruct (existsb _ T) eqn:X; [|reflexivity]. apply existsb_exists in X as (y & Hy & Ey). apply Z.eqb_eq in Ey. subst y. apply HT in Hy as (j & _ & Ej & Hj). apply Nat2Z.inj in Ej. subst j. congruence. }
  assert (NT : NoDup T) by (unfold T; apply FinFun.Injective_map_NoDup; [intros a b; apply Nat2Z.inj | apply Lib.sorted_lt_NoDup, binv_exposet_sorted]).
  assert (NF : NoDup F) by (apply NoDup_filter; unfold U; apply FinFun.Injective_map_NoDup; [intros a b; apply Nat2Z.inj | apply seq_NoDup]).
  assert (O : no_overlap [T; F]).
  { unfold no_overlap. cbn [filter]. assert (D : NoDup (T ++ F)). { apply Proof_PermMore.NoDup_app_intro; [exact NT | exact NF|]. intros x H1 H2. apply HT in H1 as (i & _ & -> & E1). apply HF in H2 as (j & _ & E & E2). apply Nat2Z.inj in E. subst j. congruence. }
    destruct (Nat.leb 2 (length T)), (Nat.leb 2 (length F)); cbn [concat app]; rewrite ?app_nil_r; auto using NoDup_nil. }
  destruct (C17_new [T; F] DomN O) as (s & E & W & _ & _ & H). exists s. split; [exact E|]. split; [exact W|]. split; [eapply made_domain; exact E|]. intros x y N. rewrite (H x y N). split.
  - intros (b & Hb & Hx & Hy). destruct Hb as [<-|[<-|[]]].
    + apply HT in Hx as (i & Hi & -> & Ei). apply HT in Hy as (j & Hj & -> & Ej). exists i, j. repeat split; try assumption. congruence.
    + apply HF in Hx as (i & Hi & -> & Ei). apply HF in Hy as (j & Hj & -> & Ej). exists i, j. repeat split; try assumption. congruence.
  - intros (i & j & Hi & Hj & -> & -> & Ee). destruct (nth i v false) eqn:Ei.
    + exists T. split; [left; reflexivity|]. split; apply HT; eauto.
    + exists F. split; [right; left; reflexivity|]. split; apply HF; eauto.
Qed.

(** equal bits are in one block, and vectors of the same length have the same partition only if they are equal or complements *)
Theorem C96_set_part v : exists s, binv_set_part v = Ok s /\ is_SetPart s /\
  forall x y, same (sp_blocks s) x y <-> x = y \/ exists i j, i < length v /\ j < length v /\ x = Z.of_nat i /\ y = Z.of_nat j /\ nth i v false = nth j v false.
Proof.
  destruct (set_part_made v) as (s & E & W & _ & H). exists s. split; [exact E|]. split; [exact W|]. intros x y. unfold same. destruct (Z.eq_dec x y) as [->|N]; [tauto|]. rewrite (H x y N). tauto.
Qed.
Theorem C96_set_part_equal v w : length v = length w -> exists s t b, binv_set_part v = Ok s /\ binv_set_part w = Ok t /\ sp_eq s t = Ok b /\ (b = true <-> w = v \/ w = binv_complement v).
Proof.
  intro L. destruct (set_part_made v) as (s & Es & Ws & Ds & Hs). destruct (set_part_made w) as (t & Et & Wt & Dt & Ht). destruct (C18_eq s t Ws Wt ltac:(rewrite Ds, Dt; reflexivity)) as (b & Eb & Hb). exists s, t, b. split; [exact Es|]. split; [exact Et|]. split; [exact Eb|]. rewrite Hb. clear Eb Hb b.
  assert (K : (forall x y, same (sp_blocks s) x y <-> same (sp_blocks t) x y) <-> forall i j, i < length v -> j < length v -> (nth i v false = nth j v false <-> nth i w false = nth j w false)).
  { split.
    - intros H i j Hi Hj. destruct (Nat.eq_dec i j) as [->|N]; [tauto|]. specialize (H (Z.of_nat i) (Z.of_nat j)). unfold same in H. assert (NZ : Z.of_nat i <> Z.of_nat j) by lia. rewrite (Hs _ _ NZ), (Ht _ _ NZ) in H. split; intro E.
      + assert (Y := proj1 H (or_intror (ex_intro _ i (ex_intro _ j (conj Hi (conj Hj (conj eq_refl (conj eq_refl E)))))))). destruct Y as [X|(i' & j' & _ & _ & Xi & Xj & X)]; [lia|]. apply Nat2Z.inj in Xi, Xj. subst. exact X.
      + rewrite L in Hi, Hj. assert (Y := proj2 H (or_intror (ex_intro _ i (ex_intro _ j (conj Hi (conj Hj (conj eq_refl (conj eq_refl E)))))))). destruct Y as [X|(i' & j' & _ & _ & Xi & Xj & X)]; [lia|]. apply Nat2Z.inj in Xi, Xj. subst. exact X.
    - intros H x y. unfold same. destruct (Z.eq_dec x y) as [->|N]; [tauto|]. rewrite (Hs _ _ N), (Ht _ _ N). split; (intros [X|(i & j & Hi & Hj & -> & -> & E)]; [contradiction|]; right; exists i, j).
      + rewrite <- L. repeat split; try assumption. apply H; assumption.
      + rewrite <- L in Hi, Hj. repeat split; try assumption. apply H; assumption. }
  rewrite K. split.
  - intro H. destruct v as [|b v]; [left; destruct w; [reflexivity | discriminate L]|]. destruct w as [|c w]; [discriminate L|].
    assert (G : forall i, i < length (b :: v) -> nth i (c :: w) false = xorb (xorb b c) (nth i (b :: v) false)).
    { intros i Hi. specialize (H 0 i ltac:(cbn; lia) Hi). cbn [nth] in H |- *. destruct i as [|i]; [destruct b, c; reflexivity|]. cbn [nth] in H |- *. destruct b, c, (nth i v false), (nth i w false); try reflexivity; exfalso; try (destruct H as [H H']; (discriminate (H eq_refl) || discriminate (H' eq_refl))). }
    destruct (xorb b c) eqn:X.
    + right. unfold binv_complement. apply (nth_ext _ _ false (negb false)); [rewrite map_length; symmetry; exact L|]. intros i Hi. rewrite map_nth, G by (rewrite L; exact Hi). destruct (nth i (b :: v) false); reflexivity.
    + left. apply (nth_ext _ _ false false); [symmetry; exact L|]. intros i Hi. rewrite G by (rewrite L; exact Hi). apply xorb_false_l.
  - intros [->| ->] i j Hi Hj; [tauto|]. unfold binv_complement. rewrite !(nth_indep (map negb v) false (negb false)) by (rewrite map_length; assumption). rewrite !map_nth. split; intro E; [congruence|]. destruct (nth i v false), (nth j v false); reflexivity || discriminate E.
Qed.

(** ** pretty_signs *)
(** all integers have a sign or a space before them; containers of the same layout have texts of the same length *)
Theorem C96_signs : forall t, pretty_signs t = signed_nested t.
Proof. exact pretty_signs_spec. Qed.
Theorem C96_signs_layout : forall t u, same_layout t u -> length (pretty_signs t) = length (pretty_signs u).
Proof. intros t u H. rewrite !pretty_signs_spec. apply layout_length, H. Qed.

(** ** helpers *)
(** have_only: the checked arguments are given and no others; there is an error if others are given too *)
Theorem C96_have_only {A} (check others all_args : list (option A)) : Permutation all_args (check ++ others) ->
  (In None check -> have_only check all_args = Ok false) /\
  (~ In None check -> Forall (eq None) others -> have_only check all_args = Ok true) /\
  (~ In None check -> ~ Forall (eq None) others -> have_only check all_args = Err ArgComboError).
Proof.
  intro P. set (none := fun a : option A => match a with None => true | Some _ => false end).
  assert (L : length all_args = length check + length others) by (rewrite (Permutation_length P); apply app_length).
  assert (N : length (filter none all_args) = length (filter none check) + length (filter none others)) by (rewrite <- app_length, <- filter_app; apply Proof_EcMore.perm_filter_length, P).
  assert (X : existsb none check = true <-> In None check) by (rewrite existsb_exists; split; [intros ([a|] & Ha & Hn); [discriminate Hn | exact Ha] | intro Hi; exists None; split; [exact Hi | reflexivity]]).
  assert (Y : ~ In None check -> filter none check = []) by (clear; intro Hn; induction check as [|[a|] c IH]; [reflexivity | cbn; apply IH; intro; apply Hn; right; assumption | exfalso; apply Hn; left; reflexivity]).
  assert (W : length (filter none others) <= length others /\ (Forall (eq None) others <-> length (filter none others) = length others)).
  { clear. induction others as [|[a|] o [IH1 IH2]]; cbn [filter none length]; [split; [lia | split; [reflexivity | constructor]]| |].
    - split; [lia|]. split; [intro F; inversion F; discriminate | lia].
    - split; [lia|]. split; [intro F; inversion F; subst; f_equal; apply IH2; assumption | intro E; constructor; [reflexivity | apply IH2; lia]]. }
  unfold have_only. fold none. split; [|split].
  - intro Hi. rewrite (proj2 X Hi). reflexivity.
  - intros Hn F. destruct (existsb none check) eqn:E; [exfalso; apply Hn, X; reflexivity|]. apply (proj2 W) in F. rewrite Y in N by exact Hn. cbn [length] in N. destruct (Z.ltb_spec (Z.of_nat (length (filter none all_args))) (Z.of_nat (length all_args) - Z.of_nat (length check))) as [Lt|Ge]; [lia | reflexivity].
  - intros Hn F. destruct (existsb none check) eqn:E; [exfalso; apply Hn, X; reflexivity|]. rewrite Y in N by exact Hn. cbn [length] in N. assert (D : length (filter none others) <> length others) by (intro Q; apply F, W, Q). destruct (Z.ltb_spec (Z.of_nat (length (filter none all_args))) (Z.of_nat (length all_args) - Z.of_nat (length check))) as [Lt|Ge]; [reflexivity | lia].
Qed.

(** nested defaultdicts become nested dicts with the same entries; a defaultdict in a dict is left *)
Theorem C96_regular {K A} (eqb : K -> K -> bool) (d : value K A) : (forall path, at_path eqb path (default_to_regular_dict d) = at_path eqb path d) /\ (only_default d -> only_regular (default_to_regular_dict d)).
Proof.
  split.
  - intro path. revert d. induction path as [|k path IH]; intros [a|items|items]; try reflexivity. cbn [default_to_regular_dict at_path]. induction items as [|[k' e] items IHi]; [reflexivity|]. cbn [map find fst snd]. destruct (eqb k k'); [apply IH | exact IHi].
  - revert d. fix REC 2. intros d Hd. destruct Hd as [a|items F]; cbn [default_to_regular_dict]; [constructor|]. constructor. induction F as [|kv items H F IHF]; cbn [map]; constructor; [cbn [snd]; apply REC, H | exact IHF].
Qed.
Theorem C96_regular_refuted : exists d : value nat nat, ~ only_regular (default_to_regular_dict d).
Proof. exists (Regular [(0, Default [(1, Other 2)])]). cbn. intro H. inversion H as [|? F]; subst. inversion F as [|? ? X _]; subst. inversion X. Qed.


(** literals: a negated one is the text of the atom after a tilde; different lists have different texts *)
Theorem C96_literals : (forall z, (0 <= z)%Z -> logic_str (Z.lnot z) = lit "~" ++ logic_str z) /\
  (forall a b, logic_str a = logic_str b <-> a = b) /\ forall u v, logic_str_vector u = logic_str_vector v <-> u = v.
Proof.
  split; [|split].
  - intros z Hz. unfold logic_str, Model_SigPerm.logic_abs, tilde. destruct (Z.ltb_spec (Z.lnot z) 0) as [H|H]; [|exfalso; unfold Z.lnot in H; lia]. destruct (Z.ltb_spec z 0); [lia|]. do 3 f_equal. unfold Z.lnot. lia.
  - intros a b. split; [|intros ->; reflexivity]. intro E. apply (logic_str_delim a b [] [] I I I I). rewrite !app_nil_r. exact E.
  - intros u v. split; [|intros ->; reflexivity]. intro E. apply (logics_delim u v [] [] I I I I). rewrite !app_nil_r. exact E.
Qed.
Print Assumptions C96_literals.
Example C96_ex_literals : logic_str_vector [-2; -1; 0; 1]%Z = lit "[~1, ~0, 0, 1]".
Proof. reflexivity. Qed.

(** examples: a text with spaces, digits that int() accepts too, the partition of 0101, the README of pretty_signs, a float *)
Definition ascii (c : nat) : option nat := if Nat.leb 48 c && Nat.leb c 57 then Some (c - 48) else None.
Example C96_ex : ascii_digits ascii /\ Binv_text ascii (lit " 00 1") = Ok [false; false; true] /\ Binv_text ascii (lit "01x") = Err VectorEntryError /\
  binv_pretty [false; true; true; false; true; false; false; true] = Ok (lit "0110 1001") /\
  (exists s, binv_set_part [false; true; false; true; true] = Ok s /\ sp_blocks s = [[0; 2]; [1; 3; 4]]%Z) /\
  pretty_signs (NList [NTuple [NInt 1; NInt (-20)]; NTuple [NBool true]; NDict [(NInt 3, NNone)]]) = lit "[( 1, -20), (" ++ [black_circle] ++ lit ",), { 3: None}]" /\
  same_layout (NTuple [NInt 12; NBool true]) (NTuple [NInt (-34); NBool false]) /\ pretty_signs_text (lit "1.5") = lit " 1. 5" /\
  have_only [Some 1] [None; Some 1; None] = Ok true /\ have_only [Some 1] [Some 2; Some 1; None] = Err ArgComboError /\
  only_default (Default [(1, Default [(2, Other 5)])] : value nat nat).
Proof.
  split; [intros d Hd; unfold ascii; do 10 (destruct d as [|d]; [reflexivity|]); lia|]. do 3 (split; [reflexivity|]). split; [eexists; split; reflexivity|]. split; [vm_compute; reflexivity|]. split; [repeat constructor|]. do 3 (split; [reflexivity|]). repeat constructor.
Qed.
Print Assumptions C96_text.
Print Assumptions C96_text_rejected.
Print Assumptions C96_read_back.
Print Assumptions C96_reverse.
Print Assumptions C96_set_part.
Print Assumptions C96_set_part_equal.
Print Assumptions C96_signs.
Print Assumptions C96_signs_layout.
Print Assumptions C96_have_only.
Print Assumptions C96_regular.
Print Assumptions C96_regular_refuted.
