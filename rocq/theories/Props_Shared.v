(** Props_Shared: property C115, several objects that refer to the same SetPart. *)

From Coq Require Import List Arith ZArith Bool Lia Permutation Sorting.Sorted.
From Verif Require Import Model_Base Lib Model_Binary Model_SetPart Spec_SetPart Proof_SetPart Proof_SetPartMore Model_SetPartComp
  Spec_SetPartComp Proof_SetPartComp Proof_SetPartCompMore Model_Shared.
Import ListNotations.
Local Open Scope Z_scope.

(** ** What an operation can change *)

(** the SetPart that a command works on *)
Definition target (w : world) (c : command) : option nat :=
  match c with
  | SayEqual _ i _ _ | SayComp _ i _ _ => option_map fst (nth_error (comps w) i)
  | Merge p _ _ => Some p
  | _ => None
  end.

Lemma nth_error_lset {A} (l : list A) i x j : nth_error (lset l i x) j = if Nat.eqb j i then (if Nat.ltb i (length l) then Some x else None) else nth_error l j.
Proof.
  revert i j. induction l as [|y l IH]; intros i j.
  - cbn [lset length]. rewrite (proj2 (Nat.ltb_ge i 0)) by lia. destruct j, i; cbn; try reflexivity; destruct (j =? i)%nat; reflexivity.
  - destruct i as [|i], j as [|j]; cbn [lset nth_error Nat.eqb]; try reflexivity.
    rewrite IH. cbn [length]. change (S i <? S (length l))%nat with (i <? length l)%nat. reflexivity.
Qed.

Lemma nth_error_app_old {A} (l : list A) x j y : nth_error l j = Some y -> nth_error (l ++ [x]) j = Some y.
Proof. intro H. rewrite nth_error_app1; [exact H|]. apply nth_error_Some. congruence. Qed.

Lemma view_some w i s : view w i = Some s <-> exists p ps part, nth_error (comps w) i = Some (p, ps) /\ nth_error (parts w) p = Some part /\ s = mkSPC part ps.
Proof.
  unfold view. split.
  - destruct (nth_error (comps w) i) as [[p ps]|] eqn:E; [|discriminate]. destruct (nth_error (parts w) p) as [part|] eqn:E'; [|discriminate].
    intro H. injection H as <-. exists p, ps, part. auto.
  - intros (p & ps & part & -> & -> & ->). reflexivity.
Qed.

(** a command leaves all SetPartComps as they are that have another SetPart *)
Theorem C115_frame : forall w c j q ps, nth_error (comps w) j = Some (q, ps) -> target w c <> Some q ->
  forall s, view w j = Some s -> view (fst (exec w c)) j = Some s.
Proof.
  intros w c j q ps Hj Ht s Hs. apply view_some in Hs as (p & ps' & part & Hp & Hpart & ->). rewrite Hj in Hp. injection Hp as <- <-.
  assert (Call : forall i method, option_map fst (nth_error (comps w) i) <> Some q -> view (fst (call w i method)) j = Some (mkSPC part ps)).
  { intros i method Hi. unfold call. destruct (nth_error (comps w) i) as [[p pp]|] eqn:Ei; [|apply view_some; eauto 8].
    destruct (view w i) as [s|] eqn:Ev; [|apply view_some; eauto 8].
    destruct (method s) as [s' e]. cbn [fst]. apply view_some. exists q, ps, part. cbn [comps parts].
    assert (Hpq : q <> p) by (intros ->; apply Hi; reflexivity).
    split; [|split; [|reflexivity]].
    - rewrite nth_error_lset. destruct (Nat.eqb_spec j i) as [->|_]; [congruence | exact Hj].
    - rewrite nth_error_lset. destruct (Nat.eqb_spec q p); [congruence | exact Hpart]. }
  destruct c as [bs dom|bs pp|p pp|order i a b|order i a b|p a b]; cbn [exec target] in *.
  - destruct (SetPart (Some bs) dom); cbn [fst]; apply view_some; exists q, ps, part; cbn [comps parts]; auto using nth_error_app_old.
  - destruct (bind _ _) as [[part' cps]|]; cbn [fst]; apply view_some; exists q, ps, part; cbn [comps parts]; auto using nth_error_app_old.
  - destruct (nth_error (parts w) p) as [part'|]; [|apply view_some; eauto 8].
    destruct (comp_pairs_of part' pp); cbn [fst]; apply view_some; exists q, ps, part; cbn [comps parts]; auto using nth_error_app_old.
  - apply Call, Ht.
  - apply Call, Ht.
  - destruct (nth_error (parts w) p) as [part'|]; [|apply view_some; eauto 8].
    destruct (merge_pair part' a b) as [part'' e]. cbn [fst]. apply view_some. exists q, ps, part. cbn [comps parts]. split; [exact Hj|]. split; [|reflexivity].
    rewrite nth_error_lset. destruct (Nat.eqb_spec q p) as [->|_]; [congruence | exact Hpart].
Qed.
Print Assumptions C115_frame.

(** ** Careful programs *)

Definition given_pairs (pairs : option (list (Z * Z))) : list (Z * Z) := match pairs with Some ps => ps | None => [] end.

(** only the object [i] refers to the SetPart [p] *)
Definition only (w : world) (p i : nat) : Prop := forall j ps, nth_error (comps w) j = Some (p, ps) -> j = i.
(** for no object that refers to the SetPart [p] does [x] have a complement *)
Definition lone (w : world) (logs : list (list statement)) (p : nat) (x : Z) : Prop :=
  forall j ps y, nth_error (comps w) j = Some (p, ps) -> ~ forced (nth j logs []) x y true.

(** [logs] has the statements of each SetPartComp.  A SetPart may be shared.  But equalities are only
    told through an object that does not share its SetPart, or about elements that have no complement
    for those that share it; and the same for complements, where only the object itself matters.
    Domains are 'Z', complementary pairs of constructors match (C46), and calls are about two
    different elements (C25, C47). *)
Definition careful (w : world) (logs : list (list statement)) (c : command) : Prop :=
  match c with
  | NewPart _ dom => dom = DomZ
  | NewComp blocks pairs => proper blocks (given_pairs pairs)
  | NewCompOf p pairs => forall part, nth_error (parts w) p = Some part -> proper (sp_blocks part) (given_pairs pairs)
  | SayEqual order i a b => a <> b /\ (forall l, Permutation (order l) l) /\
      forall p ps, nth_error (comps w) i = Some (p, ps) -> only w p i \/ (lone w logs p a /\ lone w logs p b)
  | SayComp order i a b => a <> b /\ (forall l, Permutation (order l) l) /\
      forall p ps, nth_error (comps w) i = Some (p, ps) ->
        only w p i \/ ((forall y, ~ forced (nth i logs []) a y true) /\ (forall y, ~ forced (nth i logs []) b y true))
  | Merge p a b => a <> b /\ lone w logs p a /\ lone w logs p b
  end.

(** the statement [t] is added for all objects that refer to the SetPart [p] *)
Definition told (w : world) (p : nat) (t : statement) (logs : list (list statement)) : list (list statement) :=
  map (fun lc : list statement * (nat * list (Z * Z)) => if Nat.eqb (fst (snd lc)) p then fst lc ++ [t] else fst lc) (combine logs (comps w)).

(** the statements each SetPartComp has got: those of its constructor and the accepted calls *)
Definition noted (w : world) (c : command) (logs : list (list statement)) : list (list statement) :=
  match snd (exec w c) with
  | Some _ => logs
  | None => match c with
            | NewPart _ _ => logs
            | NewComp blocks pairs => logs ++ [given blocks (given_pairs pairs)]
            | NewCompOf p pairs => logs ++ [given (match nth_error (parts w) p with Some part => sp_blocks part | None => [] end) (given_pairs pairs)]
            | SayEqual _ i a b => match nth_error (comps w) i with Some (p, _) => told w p (a, b, false) logs | None => logs end
            | SayComp _ i a b => lset logs i (nth i logs [] ++ [(a, b, true)])
            | Merge p a b => told w p (a, b, false) logs
            end
  end.

(** programs of careful commands (exceptions are caught) *)
Inductive program : world -> list (list statement) -> Prop :=
| program_start : program no_objects []
| program_step w logs c : program w logs -> careful w logs c -> program (fst (exec w c)) (noted w c logs).

Definition good (p : setpart) : Prop := sp_wf p /\ sp_domain p = DomZ /\ sp_labels p = [].

Lemma same_blocks_pairs p p0 ops : sp_wf p -> sp_wf p0 -> sp_blocks p0 = sp_blocks p -> comp_pairs_of p0 ops = comp_pairs_of p ops.
Proof.
  intros W W0 E. assert (R : forall x, rep p0 x = rep p x) by (intro x; apply rep_ext; [assumption | assumption | rewrite E; reflexivity]).
  unfold comp_pairs_of. destruct ops as [ps|]; [|reflexivity]. cbv zeta.
  assert (F : forall acc, fold_left (fun acc ab => pairs_add acc (pair_sorted (spc_repr (mkSPC p0 []) (fst ab)) (spc_repr (mkSPC p0 []) (snd ab)))) ps acc =
    fold_left (fun acc ab => pairs_add acc (pair_sorted (spc_repr (mkSPC p []) (fst ab)) (spc_repr (mkSPC p []) (snd ab)))) ps acc).
  { induction ps as [|ab ps IH]; intro acc; [reflexivity|]. cbn [fold_left]. rewrite IH, !(spc_repr_rep p0 W0), !(spc_repr_rep p W), !R. reflexivity. }
  rewrite F. set (cps := fold_left _ ps []). clearbody cps.
  assert (G : forallb (fun q => negb (pair_in_same_block p0 (fst q) (snd q))) cps = forallb (fun q => negb (pair_in_same_block p (fst q) (snd q))) cps).
  { induction cps as [|q l IH]; [reflexivity|]. cbn [forallb]. rewrite IH. f_equal. f_equal. apply eq_true_iff_eq. rewrite (pair_in_same_block_spec p0 W0), (pair_in_same_block_spec p W), E. reflexivity. }
  rewrite G. reflexivity.
Qed.

Lemma same_blocks_says p p0 cps st : good p -> sp_wf p0 -> sp_blocks p0 = sp_blocks p -> says (mkSPC p0 cps) st -> says (mkSPC p cps) st.
Proof.
  intros (W & D & L) W0 E [C H]. assert (R : forall x, rep p0 x = rep p x) by (intro x; apply rep_ext; [assumption | assumption | rewrite E; reflexivity]).
  split.
  - destruct C as [_ _ _ C1 C2 C3]. cbn [equal_part comp_pairs] in *. split; cbn [equal_part comp_pairs]; auto. intros u v Huv. rewrite <- !R. apply C2, Huv.
  - intros x y c. rewrite <- H. destruct c; cbn [rel equal_part comp_pairs]; rewrite ?R, ?E; reflexivity.
Qed.

Lemma ctor_eq bs ops : SetPartComp (Some bs) ops = (let* part := SetPart (Some bs) DomZ in let* cps := comp_pairs_of part ops in Ok (mkSPC part cps)).
Proof.
  unfold SetPartComp. cbn [true_except bind]. destruct (SetPart (Some bs) DomZ) as [part|e]; [|reflexivity]. cbn [bind]. unfold comp_pairs_of. cbv zeta.
  destruct (forallb _ _); reflexivity.
Qed.

Lemma fresh_good bs p : SetPart (Some bs) DomZ = Ok p -> no_overlap bs /\ good p /\ forall x y, x <> y -> together (sp_blocks p) x y <-> together bs x y.
Proof.
  intro E. assert (N : no_overlap bs).
  { destruct (ListDec.NoDup_dec Z.eq_dec (concat (filter (fun b => Nat.leb 2 (length b)) bs))) as [H|H]; [exact H|].
    assert (X := sp_init_reject no_caches bs DomZ None H). unfold SetPart in E. congruence. }
  destruct (sp_init_spec no_caches (Some bs) DomZ None N) as (p' & E' & W & D & _ & L & T); [split; constructor|].
  change (SetPart (Some bs) DomZ = Ok p') in E'. rewrite E in E'. injection E' as <-.
  split; [exact N|]. split; [|exact T]. split; [exact W|]. split; [exact D|]. rewrite L. destruct (sp_blocks p); reflexivity.
Qed.

Lemma canonical_no_overlap bs : canonical bs -> no_overlap bs.
Proof.
  intro C. unfold no_overlap. replace (filter (fun b => Nat.leb 2 (length b)) bs) with bs; [apply canonical_NoDup, C|].
  assert (H : forall b, In b bs -> Nat.leb 2 (length b) = true) by (intros b Hb; apply Nat.leb_le, (proj1 C b Hb)). clear C.
  induction bs as [|b l IH]; [reflexivity|]. cbn [filter]. rewrite (H b (or_introl eq_refl)). f_equal. apply IH. intros b' Hb'. apply H. right. exact Hb'.
Qed.

(** the constructor with a SetPart *)
Lemma ctor_part p ops : good p -> proper (sp_blocks p) (given_pairs ops) ->
  ((exists a b, In (a, b) (given_pairs ops) /\ together (sp_blocks p) a b) /\ comp_pairs_of p ops = Err PartCompMismatchError) \/
  ((~ exists a b, In (a, b) (given_pairs ops) /\ together (sp_blocks p) a b) /\ exists cps, comp_pairs_of p ops = Ok cps /\ says (mkSPC p cps) (given (sp_blocks p) (given_pairs ops))).
Proof.
  intros G Hp. assert (C := wf_canonical p (proj1 G)).
  assert (K := ctor_spec (Some (sp_blocks p)) ops ltac:(discriminate) (canonical_no_overlap _ C) Hp). cbv zeta in K. fold (given_pairs ops) in K.
  destruct (SetPart (Some (sp_blocks p)) DomZ) as [p0|e] eqn:E0.
  - destruct (fresh_good _ _ E0) as (_ & G0 & T). assert (Eb : sp_blocks p0 = sp_blocks p) by (apply canonical_ext; [apply wf_canonical, G0 | exact C | exact T]).
    rewrite ctor_eq, E0 in K. cbn [bind] in K. rewrite (same_blocks_pairs p p0 ops (proj1 G) (proj1 G0) Eb) in K.
    destruct K as [[K1 K2]|(K1 & s & K2 & K3)].
    + left. split; [exact K1|]. destruct (comp_pairs_of p ops); [discriminate|]. cbn [bind] in K2. injection K2 as ->. reflexivity.
    + right. split; [exact K1|]. destruct (comp_pairs_of p ops) as [cps|]; [|discriminate]. cbn [bind] in K2. injection K2 as <-. exists cps. split; [reflexivity|]. exact (same_blocks_says p p0 cps _ G (proj1 G0) Eb K3).
  - rewrite ctor_eq, E0 in K. destruct K as [[K1 K2]|(K1 & s & K2 & K3)]; [|discriminate]. exfalso.
    destruct (sp_init_spec no_caches (Some (sp_blocks p)) DomZ None (canonical_no_overlap _ C)) as (p' & E' & _); [split; constructor|]. change (SetPart (Some (sp_blocks p)) DomZ = Ok p') in E'. rewrite E0 in E'. discriminate.
Qed.

Definition sound (w : world) (logs : list (list statement)) : Prop :=
  length logs = length (comps w) /\
  (forall p part, nth_error (parts w) p = Some part -> good part) /\
  (forall i p ps, nth_error (comps w) i = Some (p, ps) -> exists part, nth_error (parts w) p = Some part /\ says (mkSPC part ps) (nth i logs [])).

Lemma nth_error_snoc {A} (l : list A) x j y : nth_error (l ++ [x]) j = Some y -> nth_error l j = Some y \/ (j = length l /\ y = x).
Proof.
  intro H. destruct (Nat.lt_ge_cases j (length l)) as [L|L].
  - left. rewrite nth_error_app1 in H by exact L. exact H.
  - right. rewrite nth_error_app2 in H by exact L. destruct (j - length l)%nat as [|k] eqn:E; [injection H as <-; split; [lia | reflexivity] | destruct k; discriminate].
Qed.

Lemma nth_told w p t logs j q ps : length logs = length (comps w) -> nth_error (comps w) j = Some (q, ps) ->
  nth j (told w p t logs) [] = if Nat.eqb q p then nth j logs [] ++ [t] else nth j logs [].
Proof.
  unfold told. generalize (comps w) as cs. intro cs. revert cs j. induction logs as [|l logs IH]; intros [|c cs] j Hl Hj; try discriminate; [destruct j; discriminate|].
  destruct j as [|j]; cbn [nth_error] in Hj; cbn [combine map nth].
  - injection Hj as ->. reflexivity.
  - apply IH; [injection Hl as Hl; exact Hl | exact Hj].
Qed.
Lemma told_length w p t logs : length logs = length (comps w) -> length (told w p t logs) = length (comps w).
Proof. intro H. unfold told. rewrite map_length, combine_length. lia. Qed.

Lemma nth_lset_log logs i x j : (i < length logs)%nat -> nth j (lset logs i x) [] = if Nat.eqb j i then x else nth j logs ([] : list statement).
Proof.
  intro Li. assert (X := nth_error_lset logs i x j). apply Nat.ltb_lt in Li. rewrite Li in X.
  destruct (Nat.eqb_spec j i) as [->|]; [apply (nth_error_nth _ _ [] X)|].
  destruct (nth_error logs j) as [t|] eqn:Et; [rewrite (nth_error_nth _ _ [] X), (nth_error_nth _ _ [] Et); reflexivity|].
  rewrite (nth_overflow (lset _ _ _)) by (apply nth_error_None; exact X). rewrite nth_overflow by (apply nth_error_None; exact Et). reflexivity.
Qed.

Lemma says_good part ps st : says (mkSPC part ps) st -> good part.
Proof. intros [[W D L _ _ _] _]. split; auto. Qed.

(** elements without complements *)
Lemma lone_call order part ps st a b : (forall l, Permutation (order l) l) -> says (mkSPC part ps) st -> a <> b ->
  (forall y, ~ forced st a y true) -> (forall y, ~ forced st b y true) ->
  exists part', merge_pair part a b = (part', None) /\ set_equal order (mkSPC part ps) a b = (mkSPC part' ps, None) /\ says (mkSPC part' ps) (st ++ [(a, b, false)]).
Proof.
  intros Ho Sy Hab Ha Hb.
  destruct (spc_call_spec order _ _ a b false Ho Sy Hab) as [[K _]|(_ & s' & E & S')]; [destruct (Ha b K)|]. cbn [spc_call] in E.
  destruct Sy as [C R]. assert (W := c_wf _ C). assert (L := c_lab _ C). assert (D := c_dom _ C). cbn [equal_part] in W, L, D.
  assert (X : exists part', merge_pair part a b = (part', None) /\ set_equal order (mkSPC part ps) a b = (mkSPC part' ps, None)).
  { unfold set_equal. destruct (are_comp (mkSPC part ps) a b) eqn:E1; [apply (are_comp_spec _ C), R in E1; destruct (Ha b E1)|].
    destruct (are_equal (mkSPC part ps) a b) eqn:E2.
    - exists part. split; [|reflexivity].
      assert (T : same (sp_blocks part) a b) by (right; apply (are_equal_spec _ C), E2).
      unfold merge_pair. rewrite (proj2 (Z.eqb_neq a b) Hab). unfold element_in_domain. rewrite D. cbn [negb andb].
      unfold merge_block_labels. rewrite (proj2 (element_to_block_eq part W _ _) T).
      assert (Z1 : zlist_eqb (element_to_block part b) (element_to_block part b) = true) by (induction (element_to_block part b) as [|z l IH]; [reflexivity | cbn; rewrite Z.eqb_refl; exact IH]).
      rewrite Z1. unfold are_equal, sp_block_index in E2. cbn [equal_part] in E2. destruct (zdget (sp_index part) a) as [x|]; [|discriminate]. destruct (zdget (sp_index part) b) as [y|]; [|discriminate].
      rewrite E2, <- D. destruct part. reflexivity.
    - assert (Ga := get_comp_spec _ C order a Ho). assert (Gb := get_comp_spec _ C order b Ho).
      destruct (get_comp order (mkSPC part ps) a) as [ac|]; [destruct Ga as [Ga _]; apply R in Ga; destruct (Ha ac Ga)|].
      destruct (get_comp order (mkSPC part ps) b) as [bc|]; [destruct Gb as [Gb _]; apply R in Gb; destruct (Hb bc Gb)|].
      destruct (merge_Z part a b W D L) as (part' & Em & _). exists part'. split; [exact Em|].
      unfold set_equal_no_comp, spc_do. cbn [fold_left]. unfold act_merge. cbn [equal_part comp_pairs]. rewrite Em. reflexivity. }
  destruct X as (part' & Em & Es). exists part'. split; [exact Em|]. split; [exact Es|]. rewrite E in Es. injection Es as ->. exact S'.
Qed.

Lemma lone_comp order part ps st a b : (forall l, Permutation (order l) l) -> says (mkSPC part ps) st -> a <> b ->
  (forall y, ~ forced st a y true) -> (forall y, ~ forced st b y true) -> equal_part (fst (set_comp order (mkSPC part ps) a b)) = part.
Proof.
  intros Ho [C R] Hab Ha Hb. unfold set_comp. destruct (are_equal (mkSPC part ps) a b); [reflexivity|]. destruct (are_comp (mkSPC part ps) a b); [reflexivity|].
  assert (Ga := get_comp_spec _ C order a Ho). assert (Gb := get_comp_spec _ C order b Ho).
  destruct (get_comp order (mkSPC part ps) a) as [ac|]; [destruct Ga as [Ga _]; apply R in Ga; destruct (Ha ac Ga)|].
  destruct (get_comp order (mkSPC part ps) b) as [bc|]; [destruct Gb as [Gb _]; apply R in Gb; destruct (Hb bc Gb)|]. reflexivity.
Qed.

(** a call that changes the SetPart of no other object *)
Lemma sound_call w logs i order a b (q : bool) : sound w logs -> a <> b -> (forall l, Permutation (order l) l) ->
  (forall p ps part, nth_error (comps w) i = Some (p, ps) -> nth_error (parts w) p = Some part -> only w p i \/ equal_part (fst (spc_call order (mkSPC part ps) (a, b, q))) = part) ->
  let r := call w i (fun s => spc_call order s (a, b, q)) in
  sound (fst r) (match snd r with Some _ => logs | None => lset logs i (nth i logs [] ++ [(a, b, q)]) end).
Proof.
  intros (Hl & Hg & Hs) Hab Ho Ht. cbv zeta. unfold call, view. destruct (nth_error (comps w) i) as [[p ps]|] eqn:Ei; [|split; [exact Hl | split; assumption]].
  destruct (Hs i p ps Ei) as (part & Ep & Sy). rewrite Ep. specialize (Ht p ps part eq_refl Ep).
  assert (Li : (i < length (comps w))%nat) by (apply nth_error_Some; congruence). assert (Lp : (p < length (parts w))%nat) by (apply nth_error_Some; congruence).
  assert (K : exists s' e, spc_call order (mkSPC part ps) (a, b, q) = (s', e) /\ says s' (match e with Some _ => nth i logs [] | None => nth i logs [] ++ [(a, b, q)] end)).
  { destruct (spc_call_spec order _ _ a b q Ho Sy Hab) as [[_ E]|(_ & s' & E & S')]; eexists; eexists; (split; [exact E|]); assumption. }
  destruct K as (s' & e & E & S'). rewrite E in *. cbn [fst snd] in *. clear E.
  assert (N : forall j, nth j (match e with Some _ => logs | None => lset logs i (nth i logs [] ++ [(a, b, q)]) end) [] =
    if Nat.eqb j i then (match e with Some _ => nth i logs [] | None => nth i logs [] ++ [(a, b, q)] end) else nth j logs []).
  { intro j. destruct e; [destruct (Nat.eqb_spec j i) as [->|]; reflexivity|]. apply nth_lset_log. lia. }
  apply Nat.ltb_lt in Lp, Li. split; [|split]; cbn [parts comps].
  - destruct e; rewrite ?Proof_Binary.lset_length; exact Hl.
  - intros p0 part0 H. rewrite nth_error_lset, Lp in H. destruct (Nat.eqb_spec p0 p) as [->|]; [|apply (Hg p0 part0 H)]. injection H as <-. destruct s' as [pt' ps']. apply (says_good _ _ _ S').
  - intros j r qs Hj. rewrite nth_error_lset, Li in Hj. rewrite N, nth_error_lset, Lp. destruct (Nat.eqb_spec j i) as [->|Hji].
    + injection Hj as <- <-. exists (equal_part s'). rewrite Nat.eqb_refl. split; [reflexivity|]. destruct s'; exact S'.
    + destruct (Hs j r qs Hj) as (part' & Er & Sr). exists part'. split; [|exact Sr]. destruct (Nat.eqb_spec r p) as [->|]; [|exact Er].
      destruct Ht as [Ht|Ht]; [destruct (Hji (Ht j qs Hj))|]. rewrite Ht. congruence.
Qed.

(** an equality of elements without complements, for all objects *)
Lemma sound_merge w logs p part part' a b : sound w logs -> a <> b -> lone w logs p a -> lone w logs p b ->
  nth_error (parts w) p = Some part -> merge_pair part a b = (part', None) ->
  sound (mkW (lset (parts w) p part') (comps w)) (told w p (a, b, false) logs).
Proof.
  intros (Hl & Hg & Hs) Hab Ha Hb Ep Em. assert (Lp : (p < length (parts w))%nat) by (apply nth_error_Some; congruence). apply Nat.ltb_lt in Lp.
  split; [cbn [comps]; apply told_length, Hl|]. cbn [parts comps]. split.
  - intros q pt Hq. rewrite nth_error_lset, Lp in Hq. destruct (Nat.eqb_spec q p) as [->|]; [|apply (Hg q pt Hq)]. injection Hq as <-.
    destruct (Hg p part Ep) as (W & D & L). destruct (merge_Z part a b W D L) as (x & E' & W' & D' & L' & _). rewrite Em in E'. injection E' as <-. split; auto.
  - intros j q qs Hj. destruct (Hs j q qs Hj) as (pt & Eq & Sq). rewrite nth_error_lset, Lp, (nth_told w p _ logs j q qs Hl Hj). destruct (Nat.eqb_spec q p) as [->|]; [|exists pt; auto].
    rewrite Ep in Eq. injection Eq as <-. exists part'. split; [reflexivity|].
    destruct (lone_call (fun l => l) part qs _ a b (fun l => Permutation_refl l) Sq Hab (fun y => Ha j qs y Hj) (fun y => Hb j qs y Hj)) as (x & E' & _ & Sx). rewrite Em in E'. injection E' as <-. exact Sx.
Qed.

Lemma told_only w p i t logs : length logs = length (comps w) -> (exists ps, nth_error (comps w) i = Some (p, ps)) -> only w p i -> told w p t logs = lset logs i (nth i logs [] ++ [t]).
Proof.
  intros Hl (ps & Ei) Ho. assert (Li : (i < length logs)%nat) by (rewrite Hl; apply nth_error_Some; congruence).
  apply (nth_ext _ _ [] []); [rewrite told_length, Proof_Binary.lset_length by exact Hl; symmetry; exact Hl|]. intros j Hj. rewrite told_length in Hj by exact Hl.
  destruct (nth_error (comps w) j) as [[q qs]|] eqn:Ej; [|apply nth_error_None in Ej; lia].
  rewrite (nth_told w p t logs j q qs Hl Ej), nth_lset_log by exact Li. destruct (Nat.eqb_spec q p) as [->|Hq], (Nat.eqb_spec j i) as [->|Hji]; try reflexivity.
  - destruct (Hji (Ho j qs Ej)).
  - rewrite Ei in Ej. injection Ej as -> _. destruct (Hq eq_refl).
Qed.

Lemma sound_new w logs part cps st : sound w logs -> good part -> says (mkSPC part cps) st ->
  sound (mkW (parts w ++ [part]) (comps w ++ [(length (parts w), cps)])) (logs ++ [st]).
Proof.
  intros (Hl & Hg & Hs) G Sy. split; [cbn [comps]; rewrite !app_length, Hl; reflexivity|]. cbn [parts comps]. split.
  - intros p pt Hp. apply nth_error_snoc in Hp as [Hp|[_ ->]]; [apply (Hg p pt Hp) | exact G].
  - intros i p ps Hp. apply nth_error_snoc in Hp as [Hp|[-> Hp]].
    + destruct (Hs i p ps Hp) as (pt & E & S'). exists pt. split; [apply nth_error_app_old, E|]. rewrite app_nth1; [exact S'|]. rewrite Hl. apply nth_error_Some. congruence.
    + injection Hp as -> ->. exists part. rewrite nth_error_app2, Nat.sub_diag by lia. split; [reflexivity|]. rewrite <- Hl, nth_middle. exact Sy.
Qed.

Lemma nth_error_ext_local {A} (l l' : list A) : (forall j, nth_error l j = nth_error l' j) -> l = l'.
Proof.
  revert l'. induction l as [|x l IH]; intros [|y l'] H; try reflexivity; try (specialize (H O); discriminate).
  f_equal; [specialize (H O); injection H as H; exact H|]. apply IH. intro j. exact (H (S j)).
Qed.

Lemma program_sound w logs : program w logs -> sound w logs.
Proof.
  intro H. induction H as [|w logs c _ IH Hc].
  - split; [reflexivity|]. split; cbn; [intros p part Hp; destruct p; discriminate | intros i p ps Hi; destruct i; discriminate].
  - destruct c as [bs dom|bs ps|p ps|order i a b|order i a b|p a b]; cbn [careful] in Hc; unfold noted.
    + cbn [exec]. subst dom. destruct (SetPart (Some bs) DomZ) as [part|e] eqn:E; [|exact IH]. cbn [fst snd].
      destruct IH as (Hl & Hg & Hs). split; [exact Hl|]. cbn [parts comps]. split.
      * intros p pt Hp. apply nth_error_snoc in Hp as [Hp|[_ ->]]; [apply (Hg p pt Hp) | apply (fresh_good bs part E)].
      * intros i p ps Hp. destruct (Hs i p ps Hp) as (pt & E' & S'). exists pt. split; [apply nth_error_app_old, E' | exact S'].
    + cbn [exec]. destruct (SetPart (Some bs) DomZ) as [part|e] eqn:E; [|exact IH]. cbn [bind].
      destruct (fresh_good bs part E) as (N & G & _).
      assert (K := ctor_spec (Some bs) ps ltac:(discriminate) N Hc). rewrite ctor_eq, E in K. cbn [bind] in K.
      destruct (comp_pairs_of part ps) as [cps|e]; [|exact IH]. cbn [bind fst snd]. destruct K as [[_ K]|(_ & s & K & Sy)]; [discriminate|]. injection K as <-.
      apply sound_new; [exact IH | exact G | exact Sy].
    + cbn [exec]. destruct (nth_error (parts w) p) as [part|] eqn:E; [|exact IH].
      assert (G : good part) by (apply (proj1 (proj2 IH) p part E)).
      destruct (ctor_part part ps G (Hc part eq_refl)) as [[_ K]|(_ & cps & K & Sy)]; rewrite K; [exact IH|]. cbn [fst snd].
      destruct IH as (Hl & Hg & Hs). split; [cbn [comps]; rewrite !app_length, Hl; reflexivity|]. cbn [parts comps]. split; [exact Hg|].
      intros i q qs Hq. apply nth_error_snoc in Hq as [Hq|[-> Hq]].
      * destruct (Hs i q qs Hq) as (pt & E' & S'). exists pt. split; [exact E'|]. rewrite app_nth1; [exact S'|]. rewrite Hl. apply nth_error_Some. congruence.
      * injection Hq as -> ->. exists part. split; [exact E|]. rewrite <- Hl, nth_middle. exact Sy.
    + destruct Hc as (Hab & Ho & Hc). cbn [exec]. destruct (nth_error (comps w) i) as [[p ps]|] eqn:Ei; [|unfold call; rewrite Ei; exact IH].
      destruct (Hc p ps eq_refl) as [Hon|[Ha Hb]].
      * rewrite (told_only w p i _ logs (proj1 IH) (ex_intro _ ps Ei) Hon).
        assert (X := sound_call w logs i order a b false IH Hab Ho). cbn [spc_call] in X. apply X. intros p' ps' part Ei' _. rewrite Ei in Ei'. injection Ei' as <- <-. left. exact Hon.
      * destruct (proj2 (proj2 IH) i p ps Ei) as (part & Ep & Sy).
        destruct (lone_call order part ps _ a b Ho Sy Hab (fun y => Ha i ps y Ei) (fun y => Hb i ps y Ei)) as (part' & Em & Es & _).
        assert (X := sound_merge w logs p part part' a b IH Hab Ha Hb Ep Em).
        unfold call, view. rewrite Ei, Ep, Es. cbn [fst snd equal_part comp_pairs].
        replace (lset (comps w) i (p, ps)) with (comps w); [exact X|].
        apply (nth_error_ext_local (comps w)). intro j. rewrite nth_error_lset. destruct (Nat.eqb_spec j i) as [->|]; [|reflexivity]. rewrite Ei. rewrite (proj2 (Nat.ltb_lt i (length (comps w)))); [reflexivity|]. apply nth_error_Some. congruence.
    + destruct Hc as (Hab & Ho & Hc). assert (X := sound_call w logs i order a b true IH Hab Ho). cbn [spc_call] in X. apply X. clear X.
      intros p ps part Ei Ep. destruct (Hc p ps Ei) as [Hon|[Ha Hb]]; [left; exact Hon | right].
      destruct (proj2 (proj2 IH) i p ps Ei) as (part' & Ep' & Sy). rewrite Ep in Ep'. injection Ep' as <-. exact (lone_comp order part ps _ a b Ho Sy Hab Ha Hb).
    + destruct Hc as (Hab & Ha & Hb). cbn [exec]. destruct (nth_error (parts w) p) as [part|] eqn:E; [|exact IH].
      destruct (proj1 (proj2 IH) p part E) as (W & D & L). destruct (merge_Z part a b W D L) as (part' & E' & _). rewrite E'. cbn [fst snd].
      exact (sound_merge w logs p part part' a b IH Hab Ha Hb E E').
Qed.

(** In a careful program each SetPartComp reports what follows from its own statements, whatever is
    done with the other objects. *)
Theorem C115_separate : forall w logs i s, program w logs -> view w i = Some s ->
  (forall x y, x <> y -> are_equal s x y = true <-> forced (nth i logs []) x y false) /\
  (forall x y, are_comp s x y = true <-> forced (nth i logs []) x y true).
Proof.
  intros w logs i s H Hv. apply program_sound in H as (_ & _ & Hs). apply view_some in Hv as (p & ps & part & Ei & Ep & ->).
  destruct (Hs i p ps Ei) as (part' & Ep' & C & R). rewrite Ep in Ep'. injection Ep' as <-. split; intros x y.
  - intro Hxy. rewrite (are_equal_spec _ C), <- R. cbn. unfold same. tauto.
  - rewrite (are_comp_spec _ C). apply R.
Qed.
Print Assumptions C115_separate.

(** All objects exist, and a call is rejected iff it contradicts the statements of this object. *)
Theorem C115_calls : forall w logs i order a b, program w logs -> (i < length (comps w))%nat -> a <> b -> (forall l, Permutation (order l) l) ->
  (exists s, view w i = Some s) /\
  ((forced (nth i logs []) a b true /\ snd (exec w (SayEqual order i a b)) = Some SetEqualComplementsError) \/
   (~ forced (nth i logs []) a b true /\ snd (exec w (SayEqual order i a b)) = None)) /\
  ((forced (nth i logs []) a b false /\ snd (exec w (SayComp order i a b)) = Some SetCompEqualsError) \/
   (~ forced (nth i logs []) a b false /\ snd (exec w (SayComp order i a b)) = None)).
Proof.
  intros w logs i order a b H Hi Hab Ho. apply program_sound in H as (_ & _ & Hs).
  destruct (nth_error (comps w) i) as [[p ps]|] eqn:Ei; [|apply nth_error_None in Ei; lia].
  destruct (Hs i p ps Ei) as (part & Ep & Sy). split; [exists (mkSPC part ps); apply view_some; exists p, ps, part; auto|].
  cbn [exec]. unfold call, view. rewrite Ei, Ep. split.
  - destruct (spc_call_spec order _ _ a b false Ho Sy Hab) as [[K E]|(K & s' & E & _)]; cbn [spc_call] in E; rewrite E; [left | right]; split; auto.
  - destruct (spc_call_spec order _ _ a b true Ho Sy Hab) as [[K E]|(K & s' & E & _)]; cbn [spc_call] in E; rewrite E; [left | right]; split; auto.
Qed.
Print Assumptions C115_calls.

(** The SetPart that was passed to the constructor is changed: later it has the equalities that
    follow from the statements made to the SetPartComp. *)
Theorem C115_part_changed : forall w logs i p ps part, program w logs -> nth_error (comps w) i = Some (p, ps) -> nth_error (parts w) p = Some part ->
  forall x y, x <> y -> pair_in_same_block part x y = true <-> forced (nth i logs []) x y false.
Proof.
  intros w logs i p ps part H Ei Ep x y Hxy. apply program_sound in H as (_ & Hg & Hs). destruct (Hs i p ps Ei) as (part' & Ep' & C & R). rewrite Ep in Ep'. injection Ep' as <-.
  rewrite (pair_in_same_block_spec part (proj1 (Hg p part Ep))), <- R. cbn. unfold same. tauto.
Qed.
Print Assumptions C115_part_changed.

(** ** Examples and what goes wrong in other programs *)

Definition run (cs : list command) : world := fold_left (fun w c => fst (exec w c)) cs no_objects.
Definition as_is : list (Z * Z) -> list (Z * Z) := fun l => l.

Lemma unmentioned st x : (forall a b q, In (a, b, q) st -> a <> x /\ b <> x) -> forall y z c, forced st y z c -> (y = x \/ z = x) -> y = z /\ c = false.
Proof.
  intros H y z c F. induction F as [u|a b q Hin|u v c F IH|u v t c d F1 IH1 F2 IH2]; intro K.
  - auto.
  - destruct (H a b q Hin). tauto.
  - destruct IH; [tauto|]. auto.
  - destruct K as [K|K].
    + destruct (IH1 (or_introl K)) as [<- ->]. destruct (IH2 (or_introl K)) as [<- ->]. auto.
    + destruct (IH2 (or_intror K)) as [-> ->]. destruct (IH1 (or_intror K)) as [-> ->]. auto.
Qed.
Lemma unmentioned_lone st x y : (forall a b q, In (a, b, q) st -> a <> x /\ b <> x) -> ~ forced st x y true.
Proof. intros H F. destruct (unmentioned st x H x y true F (or_introl eq_refl)). discriminate. Qed.
Lemma no_complements st : (forall a b q, In (a, b, q) st -> q = false) -> forall y z c, forced st y z c -> c = false.
Proof. intros H y z c F. induction F as [|a b q Hin| |u v t c d F1 -> F2 ->]; auto. apply (H a b q Hin). Qed.

(** two objects with the same SetPart: complements of one, equalities for both *)
Definition sharing : list command :=
  [NewPart [[8; 9]] DomZ; NewCompOf 0 None; NewCompOf 0 None; SayComp as_is 0 1 2; SayEqual as_is 1 3 4; Merge 0 5 6; SayComp as_is 1 3 7].

Example C115_ex_careful : exists logs, program (run sharing) logs /\
  logs = [[(8, 9, false); (1, 2, true); (3, 4, false); (5, 6, false)]; [(8, 9, false); (3, 4, false); (5, 6, false); (3, 7, true)]].
Proof.
  eexists. split; [|shelve].
  unfold run, sharing. cbn [fold_left].
  repeat (eapply program_step; [|]); [apply program_start|..]; try exact eq_refl;
    try (cbn [careful]; intros part E; vm_compute in E; injection E as <-; split; [intros a b [] | intros a b c d []]).
  all: try (split; [discriminate|]).
  - split; [intro; apply Permutation_refl|]. intros p ps E. right. split; intro y; apply unmentioned_lone; intros a b q K; vm_compute in K; intuition congruence.
  - split; [intro; apply Permutation_refl|]. intros p ps E. injection E as <- <-. right.
    split; intros j qs y E; apply unmentioned_lone; (destruct j as [|[|j]]; [| |destruct j; discriminate]); intros a b q K; vm_compute in K; intuition congruence.
  - split; intros j qs y E; apply unmentioned_lone; (destruct j as [|[|j]]; [| |destruct j; discriminate]); intros a b q K; vm_compute in K; intuition congruence.
  - split; [intro; apply Permutation_refl|]. intros p ps E. right. split; intros y F; (apply no_complements in F; [discriminate|]); intros a b q K; vm_compute in K; intuition congruence.
  Unshelve. vm_compute. reflexivity.
Qed.
Example C115_ex_reports :
  option_map (fun s => (are_comp s 1 2, are_comp s 3 7, are_comp s 4 7, are_equal s 3 4, are_equal s 5 6, are_equal s 8 9)) (view (run sharing) 0) = Some (true, false, false, true, true, true) /\
  option_map (fun s => (are_comp s 1 2, are_comp s 3 7, are_comp s 4 7, are_equal s 3 4, are_equal s 5 6, are_equal s 8 9)) (view (run sharing) 1) = Some (false, true, true, true, true, true).
Proof. vm_compute. auto. Qed.

(** When another object that shares the SetPart is told about an element with a complement, the
    complement is lost, and then calls about it raise a KeyError.
      p = SetPart([], 'Z');  c = SetPartComp(p);  d = SetPartComp(p);  c.set_comp(1, 2);  d.set_equal(1, 0)  *)
Theorem C115_shared_refuted : exists cs c s s', view (run cs) 0 = Some s /\ are_comp s 1 2 = true /\
  target (run cs) c = Some O /\ snd (exec (run cs) c) = None /\
  view (fst (exec (run cs) c)) 0 = Some s' /\ are_comp s' 1 2 = false /\ are_equal s' 1 2 = false /\
  snd (exec (fst (exec (run cs) c)) (SayEqual as_is 0 1 2)) = Some KeyErr /\ snd (exec (fst (exec (run cs) c)) (SayComp as_is 0 1 2)) = Some KeyErr.
Proof.
  exists [NewPart [] DomZ; NewCompOf 0 None; NewCompOf 0 None; SayComp as_is 0 1 2], (SayEqual as_is 1 1 0). vm_compute. do 2 eexists. repeat split; reflexivity.
Qed.
Print Assumptions C115_shared_refuted.

(** When the elements are complements, both answers change: c.set_comp(1, 2);  p.merge_pair(1, 2)
    makes them equal for c, although c would have refused that. *)
Theorem C115_merged_refuted : exists cs c s s', view (run cs) 0 = Some s /\ are_comp s 1 2 = true /\
  snd (exec (run cs) (SayEqual as_is 0 1 2)) = Some SetEqualComplementsError /\
  target (run cs) c = Some O /\ snd (exec (run cs) c) = None /\
  view (fst (exec (run cs) c)) 0 = Some s' /\ are_comp s' 1 2 = false /\ are_equal s' 1 2 = true.
Proof.
  exists [NewPart [] DomZ; NewCompOf 0 None; SayComp as_is 0 1 2], (Merge 0 1 2). vm_compute. do 2 eexists. repeat split; reflexivity.
Qed.
Print Assumptions C115_merged_refuted.

(** With the default domain 'N' of SetPart a call can raise after a complementary pair was removed:
      c = SetPartComp(SetPart([]));  c.set_comp(1, 2);  c.set_equal(1, -5)  *)
Theorem C115_domain_refuted : exists cs c e s s', view (run cs) 0 = Some s /\ are_comp s 1 2 = true /\
  snd (exec (run cs) c) = Some e /\ view (fst (exec (run cs) c)) 0 = Some s' /\ are_comp s' 1 2 = false.
Proof.
  exists [NewPart [] DomN; NewCompOf 0 None; SayComp as_is 0 1 2], (SayEqual as_is 0 1 (-5)). vm_compute. do 3 eexists. repeat split; reflexivity.
Qed.
Print Assumptions C115_domain_refuted.
