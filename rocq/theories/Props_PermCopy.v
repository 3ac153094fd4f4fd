(** Props_PermCopy: property C111 (finite copies of periodic permutations, periodic
    continuations of finite permutations, and uniqueness of the lists of cycles). *)

From Coq Require Import List Arith ZArith Bool Lia Permutation Sorted.
From Verif Require Import Model_Base Lib Model_Perm Spec_Perm Proof_Perm Proof_PermCycles Proof_PermGroup Proof_PermMore Proof_Listing.
From Verif Require Proof_SetPart Proof_Blight Proof_Deflate Proof_SigPermOps.
Import ListNotations.
Open Scope nat_scope.

(** ** Specification *)

(** [cs] lists the cycles of [f] on the elements with [D]: disjoint cycles of at least two
    elements that follow [f], begin with their smallest elements and are sorted by them *)
Definition lists_cycles (f : nat -> nat) (D : nat -> Prop) (cs : list (list nat)) : Prop :=
  NoDup (concat cs) /\ (forall x, In x (concat cs) <-> D x) /\
  (forall i j, says (ArgCycles cs) i j -> f i = j) /\
  (forall c, In c cs -> 2 <= length c /\ forall x, In x c -> hd 0 c <= x) /\
  StronglySorted lt (map (hd 0) cs).

(** the finite permutation with the first n values of p; the periodic one with them *)
Definition shortened (p : perm) (n : nat) (c : perm) : Prop :=
  exists l, psequence p (Some n) = Ok l /\ Perm (ArgSeq l) None = Ok c.
Definition continued (p : perm) (n : nat) (c : perm) : Prop :=
  exists l, psequence p (Some n) = Ok l /\ Perm (ArgSeq l) (Some n) = Ok c.

(** ** The list of cycles is unique *)

Lemma iter_succ_r f k (x : nat) : iter f (S k) x = iter f k (f x).
Proof. induction k as [|k IH]; [reflexivity|]. cbn [iter] in *. rewrite IH. reflexivity. Qed.

Lemma iter_plus f a b (x : nat) : iter f (a + b) x = iter f a (iter f b x).
Proof. induction a as [|a IH]; cbn [Nat.add iter]; [reflexivity | rewrite IH; reflexivity]. Qed.

Lemma cycle_nth f cs c : (forall i j, says (ArgCycles cs) i j -> f i = j) -> In c cs ->
  forall k, k < length c -> nth k c 0 = iter f k (hd 0 c).
Proof.
  intros Hs Hc. induction k as [|k IH]; intro Hk.
  - destruct c; reflexivity.
  - cbn [iter]. rewrite <- IH by lia. symmetry. apply Hs.
    assert (E := nth_split c 0 (Nat.lt_succ_l _ _ Hk)). destruct E as [u [v [E Lu]]].
    destruct v as [|y v].
    { rewrite E, app_length in Hk. cbn [length] in Hk. lia. }
    apply (says_step cs c u v); [exact Hc|]. rewrite E at 1. f_equal. f_equal. f_equal.
    rewrite E, app_nth2 by lia. rewrite Lu. replace (S k - k) with 1 by lia. reflexivity.
Qed.

Lemma last_place {A} (l : list A) d : last l d = nth (length l - 1) l d.
Proof.
  induction l as [|x l IH]; [reflexivity|]. destruct l as [|y l]; [reflexivity|]. change (last (x :: y :: l) d) with (last (y :: l) d). rewrite IH.
  cbn [length]. rewrite !Nat.sub_succ, !Nat.sub_0_r. reflexivity.
Qed.

Lemma cycle_wrap f cs c : (forall i j, says (ArgCycles cs) i j -> f i = j) -> In c cs -> c <> [] ->
  iter f (length c) (hd 0 c) = hd 0 c.
Proof.
  intros Hs Hc Hn. assert (Hl : 0 < length c) by (destruct c; [congruence | cbn; lia]).
  replace (length c) with (S (length c - 1)) by lia. cbn [iter].
  rewrite <- (cycle_nth f cs c Hs Hc) by lia. apply Hs. destruct c as [|h u]; [congruence|]. apply (says_wrap cs (h :: u) _ h u); [exact Hc | reflexivity|].
  rewrite last_place. reflexivity.
Qed.

Lemma NoDup_concat_in {A} (cs : list (list A)) c : NoDup (concat cs) -> In c cs -> NoDup c.
Proof.
  induction cs as [|d cs IH]; intros Hn Hc; [destruct Hc|]. cbn [concat] in Hn. assert (H1 := Proof_SetPart.NoDup_app_remove_r _ _ Hn). assert (H2 := Proof_SetPart.NoDup_app_remove_l _ _ Hn).
  destruct Hc as [->|Hin]; [exact H1 | apply IH; assumption].
Qed.

Lemma cycle_orbit f cs c x : (forall i j, says (ArgCycles cs) i j -> f i = j) -> In c cs -> In x c -> In (f x) c.
Proof.
  intros Hs Hc Hx. apply (In_nth _ _ 0) in Hx as [k [Hk <-]]. rewrite (cycle_nth f cs c Hs Hc k Hk).
  change (f (iter f k (hd 0 c))) with (iter f (S k) (hd 0 c)). destruct (Nat.lt_ge_cases (S k) (length c)) as [H|H].
  - rewrite <- (cycle_nth f cs c Hs Hc) by exact H. apply nth_In. exact H.
  - replace (S k) with (length c) by lia. assert (Hn : c <> []) by (intros ->; cbn in Hk; lia). rewrite (cycle_wrap f cs c Hs Hc Hn).
    destruct c; [congruence | left; reflexivity].
Qed.

Lemma cycle_orbits f cs c x k : (forall i j, says (ArgCycles cs) i j -> f i = j) -> In c cs -> In x c -> In (iter f k x) c.
Proof. intros Hs Hc Hx. induction k as [|k IH]; cbn [iter]; [exact Hx | apply (cycle_orbit f cs c _ Hs Hc IH)]. Qed.

Lemma same_head f D cs cs' c : lists_cycles f D cs -> lists_cycles f D cs' -> In c cs -> exists c', In c' cs' /\ hd 0 c' = hd 0 c.
Proof.
  intros [Hn [Hd [Hs [Hc _]]]] [Hn' [Hd' [Hs' [Hc' _]]]] Hin. destruct (Hc c Hin) as [Hl Hm].
  assert (Hh : In (hd 0 c) c) by (destruct c; [cbn in Hl; lia | left; reflexivity]).
  assert (In (hd 0 c) (concat cs')) as T by (apply Hd', Hd, in_concat; exists c; auto).
  apply in_concat in T as [c' [Hc1 Hx]]. exists c'. split; [exact Hc1|]. destruct (Hc' c' Hc1) as [Hl' Hm'].
  apply Nat.le_antisymm; [apply Hm'; exact Hx|]. apply Hm.
  assert (Hx2 := Hx). apply (In_nth _ _ 0) in Hx2 as [k [Hk E]]. rewrite (cycle_nth f cs' c' Hs' Hc1 k Hk) in E.
  assert (Hb : iter f (length c' - k) (hd 0 c) = hd 0 c').
  { rewrite <- E, <- iter_plus. replace (length c' - k + k) with (length c') by lia. apply (cycle_wrap f cs' c' Hs' Hc1). intros ->; cbn in Hl'; lia. }
  rewrite <- Hb. apply (cycle_orbits f cs c _ _ Hs Hin Hh).
Qed.

Lemma same_cycle f D cs cs' c c' : lists_cycles f D cs -> lists_cycles f D cs' -> In c cs -> In c' cs' -> hd 0 c = hd 0 c' -> length c <= length c'.
Proof.
  intros [Hn [Hd [Hs [Hc _]]]] [Hn' [Hd' [Hs' [Hc' _]]]] Hin Hin' E.
  destruct (Nat.le_gt_cases (length c) (length c')) as [|Hgt]; [assumption|]. exfalso.
  destruct (Hc' c' Hin') as [Hl' _]. destruct (Hc c Hin) as [Hl _].
  assert (W : iter f (length c') (hd 0 c) = hd 0 c) by (rewrite E; apply (cycle_wrap f cs' c' Hs' Hin'); intros ->; cbn in Hl'; lia).
  rewrite <- (cycle_nth f cs c Hs Hin) in W by lia. assert (ND := NoDup_concat_in cs c Hn Hin).
  rewrite (NoDup_nth c 0) in ND. assert (T : length c' = 0) by (apply ND; [lia | lia | rewrite W; destruct c; reflexivity]). lia.
Qed.

Lemma lists_cycles_unique f D cs cs' : lists_cycles f D cs -> lists_cycles f D cs' -> cs = cs'.
Proof.
  intros H H'. assert (Heads : map (hd 0) cs = map (hd 0) cs').
  { apply Proof_Blight.ascending_ext; [apply H | apply H'|]. intro x. rewrite !in_map_iff. split; intros [c [<- Hc]].
    - destruct (same_head f D cs cs' c H H' Hc) as [c' [H1 H2]]. exists c'. auto.
    - destruct (same_head f D cs' cs c H' H Hc) as [c' [H1 H2]]. exists c'. auto. }
  assert (Hl : length cs = length cs') by (rewrite <- (map_length (hd 0) cs), Heads, map_length; reflexivity).
  apply (nth_ext _ _ [] [] Hl). intros n Hlt.
  assert (I1 : In (nth n cs []) cs) by (apply nth_In; exact Hlt). assert (I2 : In (nth n cs' []) cs') by (apply nth_In; lia).
  assert (E : hd 0 (nth n cs []) = hd 0 (nth n cs' [])).
  { change (hd 0 (nth n cs [])) with (hd 0 (nth n cs [])). rewrite <- (map_nth (hd 0) cs), <- (map_nth (hd 0) cs'), Heads. reflexivity. }
  assert (L : length (nth n cs []) = length (nth n cs' [])).
  { apply Nat.le_antisymm; [apply (same_cycle f D cs cs') | apply (same_cycle f D cs' cs)]; auto. }
  apply (nth_ext _ _ 0 0 L). intros k Hk. rewrite (cycle_nth f cs _ (proj1 (proj2 (proj2 H))) I1) by exact Hk.
  rewrite (cycle_nth f cs' _ (proj1 (proj2 (proj2 H'))) I2) by lia. rewrite E. reflexivity.
Qed.

(** ** The two constructions *)

Lemma sequence_form p n l : is_Perm p -> psequence p (Some n) = Ok l ->
  l = map (pget p) (seq 0 n) /\ Permutation l (seq 0 n) /\ match perilen p with Some q => Nat.divide q n | None => forall i, n <= i -> pget p i = i end.
Proof.
  intros Hp E. destruct (sequence_spec p n Hp) as [[E1 H1] | [E1 _]]; rewrite E in E1; [|discriminate]. injection E1 as ->.
  split; [reflexivity|]. split; [exact H1|]. unfold psequence in E. assert (W := wf_peri p (is_Perm_wf p Hp)). destruct (perilen p) as [q|] eqn:Eq.
  - destruct W as [_ [_ [_ [Hq _]]]]. apply Nat.mod_divide; [exact Hq|].
    destruct (Nat.eqb_spec (n mod q) 0); [assumption | discriminate].
  - destruct (Nat.leb_spec (plength p) n) as [H|H]; [|discriminate]. intros i Hi. apply (Proof_SigPermOps.plength_finite p n (is_Perm_wf p Hp) Eq); assumption.
Qed.

Lemma says_list f n i j : says (ArgSeq (map f (seq 0 n))) i j -> i < n /\ f i = j.
Proof.
  intro H. inversion H as [l i' j' Hn| | |]; subst. rewrite nth_error_map in Hn. destruct (nth_error (seq 0 n) i) as [k|] eqn:E; [|discriminate].
  injection Hn as <-. assert (Hi : i < n) by (rewrite <- (seq_length n 0); apply nth_error_Some; congruence).
  rewrite (nth_error_nth' _ 0), seq_nth in E by (try rewrite seq_length; exact Hi). injection E as <-. auto.
Qed.

Lemma list_says f n i : i < n -> says (ArgSeq (map f (seq 0 n))) i (f i).
Proof.
  intro Hi. constructor. rewrite nth_error_map, (nth_error_nth' _ 0), seq_nth by (try rewrite seq_length; exact Hi). reflexivity.
Qed.

Lemma shortened_spec p n l : is_Perm p -> psequence p (Some n) = Ok l ->
  exists c, Perm (ArgSeq l) None = Ok c /\ is_Perm c /\ perilen c = None /\ forall x, pget c x = if x <? n then pget p x else x.
Proof.
  intros Hp E. destruct (sequence_form p n l Hp E) as [-> [HP _]].
  destruct (ctor_finite (ArgSeq (map (pget p) (seq 0 n))) I) as [c [Ec [_ [Nc [H1 H2]]]]].
  { cbn [permutes]. rewrite map_length, seq_length. exact HP. }
  exists c. split; [exact Ec|]. split; [apply (obj_new (ArgSeq (map (pget p) (seq 0 n))) None); [exact I | exact Ec]|]. split; [exact Nc|].
  intro x. destruct (Nat.ltb_spec x n) as [Hx|Hx]; [apply H1, list_says; exact Hx|]. apply H2. intros j Hj. apply says_list in Hj. lia.
Qed.

Lemma continued_spec p n l : is_Perm p -> 0 < n -> psequence p (Some n) = Ok l ->
  exists c, Perm (ArgSeq l) (Some n) = Ok c /\ is_Perm c /\ is_period (pget c) n /\ (forall x, x < n -> pget c x = pget p x) /\ (perilen c = None <-> forall x, x < n -> pget p x = x).
Proof.
  intros Hp Hn E. destruct (sequence_form p n l Hp E) as [-> [HP _]].
  destruct (ctor_periodic (ArgSeq (map (pget p) (seq 0 n))) n I) as [c [Ec [_ [Pc [H1 [_ H3]]]]]].
  { cbn [permutes]. rewrite map_length, seq_length. exact HP. }
  { intros i j Hs _. apply says_list in Hs. tauto. }
  { exact Hn. }
  exists c. split; [exact Ec|]. split; [apply (obj_new (ArgSeq (map (pget p) (seq 0 n))) (Some n)); [exact I | exact Ec]|]. split; [exact Pc|].
  split; [intros x Hx; apply (H1 x _ Hx), list_says; exact Hx|]. rewrite H3. split; intro H.
  - intros x Hx. symmetry. apply H, list_says. exact Hx.
  - intros i j Hs. apply says_list in Hs as [Hi <-]. symmetry. apply H. exact Hi.
Qed.

Lemma period_agree f g t : t <> 0 -> is_period f t -> is_period g t -> (forall x, x < t -> f x = g x) -> forall x, f x = g x.
Proof.
  intros Ht Hf Hg H x. rewrite (Nat.div_mod x t Ht). rewrite Nat.add_comm, Nat.mul_comm.
  rewrite (period_mul f t (x / t) Hf), (period_mul g t (x / t) Hg). f_equal. apply H. apply Nat.mod_upper_bound. exact Ht.
Qed.

(** values below n stay below n *)
Lemma stays_inside p n l x : is_Perm p -> psequence p (Some n) = Ok l -> x < n -> pget p x < n.
Proof.
  intros Hp E Hx. destruct (sequence_form p n l Hp E) as [-> [HP _]].
  assert (H : In (pget p x) (seq 0 n)) by (apply (Permutation_in _ HP), in_map, in_seq; lia). apply in_seq in H. lia.
Qed.

(** n is a period, or everything from n on is fixed *)
Lemma sequence_ok p n : is_Perm p -> (match perilen p with Some q => Nat.divide q n | None => forall i, n <= i -> pget p i = i end) ->
  exists l, psequence p (Some n) = Ok l.
Proof.
  intros Hp H. destruct (sequence_spec p n Hp) as [[E _] | [_ H1]]; [eauto|]. exfalso. destruct (perilen p); [tauto|]. destruct H1 as [i [Hi Hm]]. apply Hm, H, Hi.
Qed.

(** * Statements *)

(** the list of cycles of a permutation is the only one of its kind *)
Theorem C111_cycles_unique p cs : is_Perm p -> 
  lists_cycles (pget p) (fun x => pget p x <> x /\ match perilen p with Some q => x < q | None => True end) cs ->
  pcycles p = Ok cs.
Proof.
  intros Hp H. destruct (cycles_wf p (is_Perm_wf p Hp)) as [cs' [E H']]. rewrite E. apply (f_equal Ok).
  symmetry. apply (lists_cycles_unique _ _ cs cs' H). exact H'.
Qed.

(** the finite copy of a periodic permutation: its values below n, everything else fixed *)
Theorem C111_shortened p q e : is_Perm p -> perilen p = Some q ->
  exists c, shortened p (e * q) c /\ is_Perm c /\ perilen c = None /\
    forall x, pget c x = if x <? e * q then pget p x else x.
Proof.
  intros Hp Eq. destruct (sequence_ok p (e * q) Hp) as [l E]; [rewrite Eq; exists e; reflexivity|].
  destruct (shortened_spec p (e * q) l Hp E) as [c [Ec [Hc [Nc Gc]]]]. exists c. split; [exists l; auto|]. auto.
Qed.

(** the periodic permutation can be made from the copy again *)
Theorem C111_back p q e c : is_Perm p -> perilen p = Some q -> 0 < e -> shortened p (e * q) c ->
  exists d, continued c (e * q) d /\ perm_eqb d p = true.
Proof.
  intros Hp Eq He [l [E Ec]]. destruct (shortened_spec p (e * q) l Hp E) as [c' [Ec' [Hc [Nc Gc]]]]. rewrite Ec in Ec'. injection Ec' as <-.
  destruct (min_period p q Hp Eq) as [Hq [Per _]].
  destruct (sequence_ok c (e * q) Hc) as [m Em]; [rewrite Nc; intros i Hi; rewrite Gc, (proj2 (Nat.ltb_ge _ _) Hi); reflexivity|].
  destruct (continued_spec c (e * q) m Hc) as [d [Ed [Hd [Pd [Gd _]]]]]; [nia | exact Em|].
  exists d. split; [exists m; auto|]. apply (eq_actions d p Hd Hp). apply (period_agree _ _ (e * q)); [nia | exact Pd | apply period_mul; exact Per|].
  intros x Hx. rewrite Gd, Gc, (proj2 (Nat.ltb_lt _ _) Hx) by exact Hx. reflexivity.
Qed.

(** [cycles_dynamic] lists the cycles of the copy *)
Lemma dynamic_lists p q e : is_Perm p -> perilen p = Some q ->
  exists cs, cycles_dynamic p (Some (e * q)) = Ok cs /\ lists_cycles (pget p) (fun x => pget p x <> x /\ x < e * q) cs.
Proof.
  intros Hp Eq. assert (Hw := is_Perm_wf p Hp). destruct (cycles_dynamic_wf p q e Hw Eq) as [cs [E [H1 [H2 H3]]]]. exists cs. split; [exact E|].
  split; [exact H1|]. split; [exact H2|]. split; [exact H3|].
  destruct (cycles_wf p Hw) as [cs0 [E0 [N0 [I0 [S0 [C0 O0]]]]]]. rewrite Eq in I0.
  destruct (min_period p q Hp Eq) as [Hq _]. unfold cycles_dynamic in E. rewrite Eq, Nat.mod_mul, Nat.eqb_refl in E by lia. cbn [true_except bind] in E.
  rewrite E0 in E. cbn [bind] in E. rewrite Nat.div_mul in E by lia. injection E as <-.
  assert (Hlt : forall c, In c cs0 -> hd 0 c < q).
  { intros c Hc. destruct (C0 c Hc) as [L _]. assert (In (hd 0 c) (concat cs0)) as T.
    { apply in_concat. exists c. split; [exact Hc|]. destruct c; [cbn in L; lia | left; reflexivity]. }
    apply I0 in T. tauto. }
  assert (Hhd : forall i c, In c cs0 -> hd 0 (map (fun x => x + i * q) c) = hd 0 c + i * q).
  { intros i c Hc. destruct (C0 c Hc) as [L _]. destruct c; [cbn in L; lia | reflexivity]. }
  split.
  - intros c Hc. apply in_flat_map in Hc as [i [_ Hc]]. apply in_map_iff in Hc as [c0 [<- Hc]]. destruct (C0 c0 Hc) as [L M].
    split; [rewrite map_length; exact L|]. intros x Hx. apply in_map_iff in Hx as [y [<- Hy]]. rewrite (Hhd i c0 Hc). specialize (M y Hy). lia.
  - clear H1 H2 H3. unfold range.
    enough (G : forall s, StronglySorted lt (map (hd 0) (flat_map (fun i => map (map (fun x => x + i * q)) cs0) (seq s e)))) by apply G.
    induction e as [|e IH]; intro s; [constructor|]. cbn [seq flat_map]. rewrite map_app.
    assert (Eh : map (hd 0) (map (map (fun x => x + s * q)) cs0) = map (fun x => x + s * q) (map (hd 0) cs0)).
    { rewrite !map_map. apply map_ext_in. intros c Hc. apply (Hhd s c Hc). }
    rewrite Eh. apply sorted_app; [apply Proof_Deflate.map_mono_sorted; [intros; lia | exact O0] | apply IH|].
    intros x y Hx Hy. apply in_map_iff in Hx as [h [<- Hh]]. apply in_map_iff in Hh as [c [<- Hc]].
    apply in_map_iff in Hy as [c' [<- Hc']]. apply in_flat_map in Hc' as [i [Hi Hc']]. apply in_seq in Hi. apply in_map_iff in Hc' as [c0 [<- Hc0]].
    rewrite (Hhd i c0 Hc0). specialize (Hlt c Hc). nia.
Qed.

Theorem C111_cycles_dynamic p q e cs : is_Perm p -> perilen p = Some q ->
  (cycles_dynamic p (Some (e * q)) = Ok cs <-> lists_cycles (pget p) (fun x => pget p x <> x /\ x < e * q) cs).
Proof.
  intros Hp Eq. destruct (dynamic_lists p q e Hp Eq) as [cs' [E H]]. rewrite E. split; intro H'.
  - injection H' as <-. exact H.
  - apply (f_equal Ok). apply (lists_cycles_unique (pget p) _ cs' cs H H').
Qed.

Lemma says_member cs i j : says (ArgCycles cs) i j -> In i (concat cs).
Proof.
  intro H. inversion H as [|cs' c u v i' j' Hc E|cs' c i' j' u Hc E Ei|]; subst; apply in_concat.
  - exists (u ++ i :: j :: v). split; [exact Hc|]. apply in_or_app. right. left. reflexivity.
  - exists (j :: u). split; [exact Hc|]. rewrite last_place. apply nth_In. cbn [length]. lia.
Qed.

Theorem C111_cycles p q e c : is_Perm p -> perilen p = Some q -> shortened p (e * q) c -> pcycles c = cycles_dynamic p (Some (e * q)).
Proof.
  intros Hp Eq [l [E Ec]]. destruct (shortened_spec p (e * q) l Hp E) as [c' [Ec' [Hc [Nc Gc]]]]. rewrite Ec in Ec'. injection Ec' as <-.
  destruct (dynamic_lists p q e Hp Eq) as [cs [Ed [H1 [H2 [H3 H4]]]]]. rewrite Ed. apply (C111_cycles_unique c cs Hc). rewrite Nc.
  split; [exact H1|]. split; [|split; [|exact H4]].
  - intro x. rewrite H2, Gc. destruct (Nat.ltb_spec x (e * q)) as [Hx|Hx]; split; intros [T1 T2]; split; auto; lia.
  - intros i j Hs. rewrite Gc. assert (Hi := proj1 (H2 i) (says_member cs i j Hs)). rewrite (proj2 (Nat.ltb_lt _ _) (proj2 Hi)). apply H3. exact Hs.
Qed.

Lemma iter_inside f g n k x : (forall y, y < n -> f y < n) -> (forall y, y < n -> g y = f y) -> x < n -> iter g k x = iter f k x /\ iter f k x < n.
Proof. intros Hs Hg Hx. induction k as [|k [IH1 IH2]]; cbn [iter]; [auto|]. rewrite IH1. split; [apply Hg | apply Hs]; exact IH2. Qed.

Lemma iter_fixed f k (x : nat) : f x = x -> iter f k x = x.
Proof. intro H. induction k as [|k IH]; cbn [iter]; [reflexivity | rewrite IH; exact H]. Qed.

Lemma iter_period f t k : is_period f t -> is_period (iter f k) t.
Proof. intros H x. induction k as [|k IH]; cbn [iter]; [reflexivity | rewrite IH; apply H]. Qed.

Lemma same_order a b : is_Perm a -> is_Perm b -> (forall k, (forall x, iter (pget a) k x = x) <-> (forall x, iter (pget b) k x = x)) -> porder a = porder b.
Proof.
  intros Ha Hb H. destruct (porder_spec a (is_Perm_wf a Ha)) as [m [Em [Hm Km]]]. destruct (porder_spec b (is_Perm_wf b Hb)) as [n [En [Hn Kn]]].
  rewrite Em, En. f_equal. apply Nat.divide_antisym; [apply Km, H, Kn | apply Kn, H, Km]; exists 1; lia.
Qed.

(** the copy has the same order *)
Theorem C111_order p q e c : is_Perm p -> perilen p = Some q -> 0 < e -> shortened p (e * q) c -> porder c = porder p.
Proof.
  intros Hp Eq He [l [E Ec]]. destruct (shortened_spec p (e * q) l Hp E) as [c' [Ec' [Hc [Nc Gc]]]]. rewrite Ec in Ec'. injection Ec' as <-.
  destruct (min_period p q Hp Eq) as [Hq [Per _]]. assert (Pn := period_mul _ _ e Per). set (n := e * q) in *. assert (Hn : n <> 0) by (unfold n; nia).
  assert (St : forall y, y < n -> pget p y < n) by (intros y Hy; apply (stays_inside p n l y Hp E Hy)).
  assert (Ag : forall y, y < n -> pget c y = pget p y) by (intros y Hy; rewrite Gc, (proj2 (Nat.ltb_lt _ _) Hy); reflexivity).
  apply (same_order c p Hc Hp). intro k. split; intros H x.
  - apply (period_agree (iter (pget p) k) (fun x => x) n); [exact Hn | apply iter_period; exact Pn | intro y; reflexivity|].
    intros y Hy. destruct (iter_inside (pget p) (pget c) n k y St Ag Hy) as [T _]. rewrite <- T. apply H.
  - destruct (Nat.lt_ge_cases x n) as [Hx|Hx].
    + destruct (iter_inside (pget p) (pget c) n k x St Ag Hx) as [T _]. rewrite T. apply H.
    + apply iter_fixed. rewrite Gc, (proj2 (Nat.ltb_ge _ _) Hx). reflexivity.
Qed.

Lemma has_period p n l : is_Perm p -> psequence p (Some n) = Ok l -> neutral p = true \/ perilen p <> None -> is_period (pget p) n.
Proof.
  intros Hp E H. destruct (sequence_form p n l Hp E) as [_ [_ D]]. destruct (perilen p) as [q|] eqn:Eq.
  - destruct D as [d ->]. apply period_mul. apply (min_period p q Hp Eq).
  - destruct H as [H|H]; [|congruence]. assert (I := proj1 (wf_moves p (is_Perm_wf p Hp)) H). intro x. rewrite !I. reflexivity.
Qed.

Lemma periodic_sequence c n : is_Perm c -> 0 < n -> is_period (pget c) n -> exists l, psequence c (Some n) = Ok l.
Proof.
  intros Hc Hn Per. apply (sequence_ok c n Hc). destruct (perilen c) as [r|] eqn:Er.
  - destruct (min_period c r Hc Er) as [_ [_ M]]. destruct (M n Hn Per) as [d ->]. exists d. reflexivity.
  - intros i _. set (N := plength c). assert (F := proj1 (Proof_SigPermOps.plength_finite c N (is_Perm_wf c Hc) Er) (le_n _)).
    assert (T := period_mul _ _ N Per i). rewrite F in T by nia. lia.
Qed.

Lemma product_kinds a b c : is_Perm a -> is_Perm b -> pmul a b = Ok c -> neutral a = true \/ neutral b = true \/ (perilen a = None <-> perilen b = None).
Proof.
  intros Ha Hb E. destruct (neutral a) eqn:Na; [auto|]. destruct (neutral b) eqn:Nb; [auto|]. right. right.
  destruct (perilen a) eqn:Pa, (perilen b) eqn:Pb; try (split; congruence); exfalso;
    assert (R : pmul a b = Err OtherPerilenMismatchError) by (apply (mul_reject a b Ha Hb Na Nb); rewrite Pa, Pb; intros [T1 T2]; (discriminate T1 + discriminate T2); reflexivity); congruence.
Qed.

Lemma product_sequence a b c n la lb : is_Perm a -> is_Perm b -> 0 < n -> psequence a (Some n) = Ok la -> psequence b (Some n) = Ok lb -> pmul a b = Ok c ->
  is_Perm c /\ (forall x, pget c x = pget a (pget b x)) /\ exists lc, psequence c (Some n) = Ok lc.
Proof.
  intros Ha Hb Hn Ea Eb E. assert (K := product_kinds a b c Ha Hb E). destruct (mul_ok a b Ha Hb K) as [c' [E' [Hc [Gc Kc]]]]. rewrite E in E'. injection E' as <-.
  split; [exact Hc|]. split; [exact Gc|].
  assert (Pab : (is_period (pget a) n /\ is_period (pget b) n) \/ (perilen a = None /\ perilen b = None)).
  { destruct (perilen a) as [qa|] eqn:Pa, (perilen b) as [qb|] eqn:Pb; [left | left | left | right; auto];
      (split; [apply (has_period a n la Ha Ea) | apply (has_period b n lb Hb Eb)]); try (right; congruence);
      (destruct K as [K|[K|[K1 K2]]];
        [ solve [left; exact K | assert (W := wf_peri a (is_Perm_wf a Ha)); rewrite Pa in W; destruct W; congruence]
        | solve [left; exact K | assert (W := wf_peri b (is_Perm_wf b Hb)); rewrite Pb in W; destruct W; congruence]
        | first [discriminate (K1 eq_refl) | discriminate (K2 eq_refl)] ]). }
  destruct Pab as [[Pa Pb]|[Na Nb]].
  - apply periodic_sequence; [exact Hc | exact Hn|]. intro x. rewrite !Gc, Pb, Pa. reflexivity.
  - apply (sequence_ok c n Hc). rewrite (Kc Na Nb). intros i Hi. rewrite Gc.
    destruct (sequence_form a n la Ha Ea) as [_ [_ Da]]. destruct (sequence_form b n lb Hb Eb) as [_ [_ Db]]. rewrite Na in Da. rewrite Nb in Db. rewrite Db, Da by exact Hi. reflexivity.
Qed.

(** shortening respects products, inverses and powers *)
Theorem C111_product a b c n A B : is_Perm a -> is_Perm b -> 0 < n -> shortened a n A -> shortened b n B -> pmul a b = Ok c ->
  exists C D, shortened c n C /\ pmul A B = Ok D /\ perm_eqb C D = true.
Proof.
  intros Ha Hb Hn [la [Ea EA]] [lb [Eb EB]] E. destruct (product_sequence a b c n la lb Ha Hb Hn Ea Eb E) as [Hc [Gc [lc Ec]]].
  destruct (shortened_spec a n la Ha Ea) as [A' [EA' [HA [NA GA]]]]. rewrite EA in EA'. injection EA' as <-.
  destruct (shortened_spec b n lb Hb Eb) as [B' [EB' [HB [NB GB]]]]. rewrite EB in EB'. injection EB' as <-.
  destruct (shortened_spec c n lc Hc Ec) as [C [EC [HC [NC GC]]]]. destruct (mul_ok A B HA HB) as [D [ED [HD [GD _]]]]; [tauto|].
  exists C, D. split; [exists lc; auto|]. split; [exact ED|]. apply (eq_actions C D HC HD). intro x. rewrite GD, GC, GB, GA.
  destruct (Nat.ltb_spec x n) as [Hx|Hx].
  - rewrite (proj2 (Nat.ltb_lt _ _) (stays_inside b n lb x Hb Eb Hx)). apply Gc.
  - rewrite (proj2 (Nat.ltb_ge _ _) Hx). reflexivity.
Qed.

Lemma inverse_sequence a r n la : is_Perm a -> 0 < n -> psequence a (Some n) = Ok la -> pinv a = Ok r ->
  is_Perm r /\ (forall x, pget r (pget a x) = x) /\ (forall x, pget a (pget r x) = x) /\ exists lr, psequence r (Some n) = Ok lr.
Proof.
  intros Ha Hn Ea E. destruct (inv_ok a Ha) as [r' [E' [Hr [H1 [H2 K]]]]]. rewrite E in E'. injection E' as <-.
  split; [exact Hr|]. split; [exact H1|]. split; [exact H2|]. destruct (perilen a) as [q|] eqn:Eq.
  - assert (P := has_period a n la Ha Ea ltac:(right; congruence)). apply periodic_sequence; [exact Hr | exact Hn|].
    intro x. rewrite <- (H1 (pget r x + n)), P, H2. reflexivity.
  - apply (sequence_ok r n Hr). rewrite (proj1 K eq_refl). intros i Hi. destruct (sequence_form a n la Ha Ea) as [_ [_ D]]. rewrite Eq in D.
    rewrite <- (D i Hi) at 1. apply H1.
Qed.

Lemma inverse_inside a r n la x : is_Perm a -> psequence a (Some n) = Ok la -> is_Perm r -> forall lr, psequence r (Some n) = Ok lr ->
  (forall x, pget a (pget r x) = x) -> n <= x -> n <= pget a x.
Proof.
  intros Ha Ea Hr lr Er H2 Hx. destruct (Nat.le_gt_cases n (pget a x)) as [|H]; [assumption|].
  assert (T := stays_inside r n lr _ Hr Er H). assert (E : pget r (pget a x) = x) by (apply (proj1 (obj_bij a Ha)); apply H2). lia.
Qed.

Theorem C111_inverse a r n A : is_Perm a -> 0 < n -> shortened a n A -> pinv a = Ok r ->
  exists R S, shortened r n R /\ pinv A = Ok S /\ perm_eqb R S = true.
Proof.
  intros Ha Hn [la [Ea EA]] E. destruct (inverse_sequence a r n la Ha Hn Ea E) as [Hr [H1 [H2 [lr Er]]]].
  destruct (shortened_spec a n la Ha Ea) as [A' [EA' [HA [NA GA]]]]. rewrite EA in EA'. injection EA' as <-.
  destruct (shortened_spec r n lr Hr Er) as [R [ER [HR [NR GR]]]]. destruct (inv_ok A HA) as [S [ES [HS [I1 [I2 _]]]]].
  exists R, S. split; [exists lr; auto|]. split; [exact ES|]. apply (eq_actions R S HR HS). intro x. rewrite <- (I1 (pget R x)). f_equal.
  rewrite GR. destruct (Nat.ltb_spec x n) as [Hx|Hx]; rewrite GA.
  - rewrite (proj2 (Nat.ltb_lt _ _) (stays_inside r n lr x Hr Er Hx)). apply H2.
  - rewrite (proj2 (Nat.ltb_ge _ _) Hx). reflexivity.
Qed.

Lemma fixed_sequence c n : is_Perm c -> (forall i, n <= i -> pget c i = i) -> exists l, psequence c (Some n) = Ok l.
Proof.
  intros Hc F. apply (sequence_ok c n Hc). destruct (perilen c) as [r|] eqn:Er; [|exact F]. exfalso.
  destruct (min_period c r Hc Er) as [Hr [P _]]. assert (W := wf_peri c (is_Perm_wf c Hc)). rewrite Er in W. destruct W as [N _].
  assert (T : neutral c = true); [|congruence]. apply (wf_moves c (is_Perm_wf c Hc)). intro x.
  assert (T := period_mul _ _ n P x). rewrite F in T by nia. lia.
Qed.

Lemma sequence_kinds a n la : is_Perm a -> psequence a (Some n) = Ok la -> is_period (pget a) n \/ forall i, n <= i -> pget a i = i.
Proof.
  intros Ha Ea. destruct (perilen a) as [q|] eqn:Eq; [left; apply (has_period a n la Ha Ea); right; congruence | right].
  destruct (sequence_form a n la Ha Ea) as [_ [_ D]]. rewrite Eq in D. exact D.
Qed.

Lemma iter_cancel f k (x y : nat) : injective f -> iter f k x = iter f k y -> x = y.
Proof. intros H. induction k as [|k IH]; cbn [iter]; intro E; [exact E | apply IH, H, E]. Qed.

Lemma power_sequence a k r n la : is_Perm a -> 0 < n -> psequence a (Some n) = Ok la -> ppow a k = Ok r ->
  is_Perm r /\ ((0 <= k)%Z -> forall x, pget r x = iter (pget a) (Z.to_nat k) x) /\
    ((k <= 0)%Z -> forall x, iter (pget a) (Z.to_nat (- k)) (pget r x) = x) /\ exists lr, psequence r (Some n) = Ok lr.
Proof.
  intros Ha Hn Ea E. destruct (pow_ok a k Ha) as [r' [E' [Hr [H1 H2]]]]. rewrite E in E'. injection E' as <-.
  split; [exact Hr|]. split; [exact H1|]. split; [exact H2|]. assert (Inj := proj1 (obj_bij a Ha)).
  destruct (sequence_kinds a n la Ha Ea) as [P|F].
  - apply periodic_sequence; [exact Hr | exact Hn|]. intro x. destruct (Z.le_ge_cases 0 k) as [K|K].
    + rewrite !H1 by exact K. apply (iter_period (pget a) n _ P).
    + apply (iter_cancel (pget a) (Z.to_nat (- k)) _ _ Inj). rewrite H2 by exact K. rewrite (iter_period (pget a) n _ P), H2 by exact K. reflexivity.
  - apply fixed_sequence; [exact Hr|]. intros i Hi. destruct (Z.le_ge_cases 0 k) as [K|K].
    + rewrite H1 by exact K. apply iter_fixed, F, Hi.
    + apply (iter_cancel (pget a) (Z.to_nat (- k)) _ _ Inj). rewrite H2 by exact K. symmetry. apply iter_fixed, F, Hi.
Qed.

Theorem C111_power a k r n A : is_Perm a -> 0 < n -> shortened a n A -> ppow a k = Ok r ->
  exists R S, shortened r n R /\ ppow A k = Ok S /\ perm_eqb R S = true.
Proof.
  intros Ha Hn [la [Ea EA]] E. destruct (power_sequence a k r n la Ha Hn Ea E) as [Hr [H1 [H2 [lr Er]]]].
  destruct (shortened_spec a n la Ha Ea) as [A' [EA' [HA [NA GA]]]]. rewrite EA in EA'. injection EA' as <-.
  destruct (shortened_spec r n lr Hr Er) as [R [ER [HR [NR GR]]]]. destruct (pow_ok A k HA) as [S [ES [HS [I1 I2]]]].
  assert (St : forall y, y < n -> pget a y < n) by (intros y Hy; apply (stays_inside a n la y Ha Ea Hy)).
  assert (Ag : forall y, y < n -> pget A y = pget a y) by (intros y Hy; rewrite GA, (proj2 (Nat.ltb_lt _ _) Hy); reflexivity).
  assert (Fx : forall y, n <= y -> pget A y = y) by (intros y Hy; rewrite GA, (proj2 (Nat.ltb_ge _ _) Hy); reflexivity).
  exists R, S. split; [exists lr; auto|]. split; [exact ES|]. apply (eq_actions R S HR HS). intro x. rewrite GR.
  destruct (Z.le_ge_cases 0 k) as [K|K].
  - rewrite I1 by exact K. destruct (Nat.ltb_spec x n) as [Hx|Hx].
    + rewrite H1 by exact K. symmetry. apply (iter_inside (pget a) (pget A) n _ x St Ag Hx).
    + symmetry. apply iter_fixed, Fx, Hx.
  - apply (iter_cancel (pget A) (Z.to_nat (- k)) _ _ (proj1 (obj_bij A HA))). rewrite I2 by exact K. destruct (Nat.ltb_spec x n) as [Hx|Hx].
    + destruct (iter_inside (pget a) (pget A) n (Z.to_nat (- k)) (pget r x) St Ag (stays_inside r n lr x Hr Er Hx)) as [T _]. rewrite T. apply H2. exact K.
    + apply iter_fixed, Fx, Hx.
Qed.

(** * Continuations *)

(** a permutation that fixes everything from n on can be continued with the period n *)
Theorem C111_continued p n : is_Perm p -> (forall i, n <= i -> pget p i = i) -> 0 < n ->
  exists c, continued p n c /\ is_Perm c /\ forall x, pget c x = pget p (x mod n) + n * (x / n).
Proof.
  intros Hp F Hn. destruct (fixed_sequence p n Hp F) as [l E]. destruct (continued_spec p n l Hp Hn E) as [c [Ec [Hc [Per [Gc _]]]]].
  exists c. split; [exists l; auto|]. split; [exact Hc|]. intro x. rewrite (Nat.div_mod x n) at 1 by lia. rewrite Nat.add_comm, (Nat.mul_comm n).
  rewrite (period_mul _ _ (x / n) Per). rewrite Gc by (apply Nat.mod_upper_bound; lia). lia.
Qed.

Theorem C111_continued_product a b c n A B : is_Perm a -> is_Perm b -> 0 < n -> continued a n A -> continued b n B -> pmul a b = Ok c ->
  exists C D, continued c n C /\ pmul A B = Ok D /\ perm_eqb C D = true.
Proof.
  intros Ha Hb Hn [la [Ea EA]] [lb [Eb EB]] E. destruct (product_sequence a b c n la lb Ha Hb Hn Ea Eb E) as [Hc [Gc [lc Ec]]].
  destruct (continued_spec a n la Ha Hn Ea) as [A' [EA' [HA [PA [GA KA]]]]]. rewrite EA in EA'. injection EA' as <-.
  destruct (continued_spec b n lb Hb Hn Eb) as [B' [EB' [HB [PB [GB KB]]]]]. rewrite EB in EB'. injection EB' as <-.
  destruct (continued_spec c n lc Hc Hn Ec) as [C [EC [HC [PC [GC _]]]]].
  assert (NA : perilen A = None -> neutral A = true).
  { intro N. apply (wf_moves A (is_Perm_wf A HA)). apply (period_agree _ (fun x => x) n); [lia | exact PA | intro; reflexivity|]. intros x Hx. rewrite GA by exact Hx. apply KA; assumption. }
  assert (NB : perilen B = None -> neutral B = true).
  { intro N. apply (wf_moves B (is_Perm_wf B HB)). apply (period_agree _ (fun x => x) n); [lia | exact PB | intro; reflexivity|]. intros x Hx. rewrite GB by exact Hx. apply KB; assumption. }
  destruct (mul_ok A B HA HB) as [D [ED [HD [GD _]]]].
  { destruct (perilen A) eqn:PeA; [|left; apply NA; reflexivity]. destruct (perilen B) eqn:PeB; [|right; left; apply NB; reflexivity]. right. right. split; discriminate. }
  exists C, D. split; [exists lc; auto|]. split; [exact ED|]. apply (eq_actions C D HC HD).
  apply (period_agree _ _ n); [lia | exact PC | intro x; rewrite !GD, PB, PA; reflexivity|].
  intros x Hx. rewrite GC, GD, GB by exact Hx. rewrite GA by (apply (stays_inside b n lb x Hb Eb Hx)). apply Gc.
Qed.

Theorem C111_continued_inverse a r n A : is_Perm a -> 0 < n -> continued a n A -> pinv a = Ok r ->
  exists R S, continued r n R /\ pinv A = Ok S /\ perm_eqb R S = true.
Proof.
  intros Ha Hn [la [Ea EA]] E. destruct (inverse_sequence a r n la Ha Hn Ea E) as [Hr [H1 [H2 [lr Er]]]].
  destruct (continued_spec a n la Ha Hn Ea) as [A' [EA' [HA [PA [GA KA]]]]]. rewrite EA in EA'. injection EA' as <-.
  destruct (continued_spec r n lr Hr Hn Er) as [R [ER [HR [PR [GR _]]]]]. destruct (inv_ok A HA) as [S [ES [HS [I1 [I2 _]]]]].
  exists R, S. split; [exists lr; auto|]. split; [exact ES|]. apply (eq_actions R S HR HS). intro x. rewrite <- (I1 (pget R x)). f_equal.
  revert x. apply (period_agree _ _ n); [lia | intro x; rewrite PR, PA; reflexivity | intro; reflexivity|].
  intros x Hx. rewrite GR by exact Hx. rewrite GA by (apply (stays_inside r n lr x Hr Er Hx)). apply H2.
Qed.

(** the continuation has the same order and, below n, the same cycles *)
Theorem C111_continued_order p n c : is_Perm p -> (forall i, n <= i -> pget p i = i) -> 0 < n -> continued p n c -> porder c = porder p.
Proof.
  intros Hp F Hn [l [E Ec]]. destruct (continued_spec p n l Hp Hn E) as [c' [Ec' [Hc [Per [Gc _]]]]]. rewrite Ec in Ec'. injection Ec' as <-.
  assert (St : forall y, y < n -> pget p y < n) by (intros y Hy; apply (stays_inside p n l y Hp E Hy)).
  apply (same_order c p Hc Hp). intro k. split; intros H x.
  - destruct (Nat.lt_ge_cases x n) as [Hx|Hx]; [|apply iter_fixed, F, Hx].
    destruct (iter_inside (pget p) (pget c) n k x St Gc Hx) as [T _]. rewrite <- T. apply H.
  - apply (period_agree (iter (pget c) k) (fun x => x) n); [lia | apply iter_period; exact Per | intro y; reflexivity|].
    intros y Hy. destruct (iter_inside (pget p) (pget c) n k y St Gc Hy) as [T _]. rewrite T. apply H.
Qed.

Theorem C111_continued_cycles p n c : is_Perm p -> (forall i, n <= i -> pget p i = i) -> 0 < n -> continued p n c -> neutral p = false ->
  cycles_dynamic c (Some n) = pcycles p.
Proof.
  intros Hp F Hn [l [E Ec]] N. destruct (continued_spec p n l Hp Hn E) as [c' [Ec' [Hc [Per [Gc K]]]]]. rewrite Ec in Ec'. injection Ec' as <-.
  destruct (perilen c) as [q|] eqn:Eq.
  2: { exfalso. assert (T : neutral p = true); [|congruence]. apply (wf_moves p (is_Perm_wf p Hp)). intro x.
       destruct (Nat.lt_ge_cases x n) as [Hx|Hx]; [apply K; auto | apply F; exact Hx]. }
  destruct (min_period c q Hc Eq) as [Hq [_ M]]. destruct (M n Hn Per) as [e Ee]. destruct (cycles_wf p (is_Perm_wf p Hp)) as [cs [E1 [H1 [H2 [H3 H4]]]]]. rewrite E1.
  rewrite Ee. apply (C111_cycles_dynamic c q e cs Hc Eq). rewrite <- Ee.
  assert (Np : perilen p = None).
  { destruct (perilen p) as [t|] eqn:Et; [|reflexivity]. exfalso. destruct (min_period p t Hp Et) as [Ht [P _]]. assert (T : neutral p = true); [|congruence].
    apply (wf_moves p (is_Perm_wf p Hp)). intro x. assert (T := period_mul _ _ n P x). rewrite F in T by nia. lia. }
  rewrite Np in H2. split; [exact H1|]. split; [|split; [|exact H4]].
  - intro x. rewrite H2. destruct (Nat.lt_ge_cases x n) as [Hx|Hx].
    + rewrite Gc by exact Hx. tauto.
    + rewrite F by exact Hx. split; intros [T1 T2]; [congruence | lia].
  - intros i j Hs. assert (T := proj1 (H2 i) (says_member cs i j Hs)). rewrite Gc; [apply H3; exact Hs|].
    destruct (Nat.lt_ge_cases i n) as [|Hi]; [assumption|]. exfalso. apply T. apply F. exact Hi.
Qed.

Print Assumptions C111_cycles_unique.
Print Assumptions C111_cycles_dynamic.
Print Assumptions C111_shortened.
Print Assumptions C111_back.
Print Assumptions C111_cycles.
Print Assumptions C111_order.
Print Assumptions C111_product.
Print Assumptions C111_inverse.
Print Assumptions C111_power.
Print Assumptions C111_continued.
Print Assumptions C111_continued_product.
Print Assumptions C111_continued_inverse.
Print Assumptions C111_continued_order.
Print Assumptions C111_continued_cycles.

(** the copy of length 6 of the period 3 and back *)
Example C111_ex : exists p l c, Perm (ArgSeq [1; 2; 0]) (Some 3) = Ok p /\ is_Perm p /\ perilen p = Some 3 /\
  psequence p (Some (2 * 3)) = Ok l /\ l = [1; 2; 0; 4; 5; 3] /\ Perm (ArgSeq l) None = Ok c /\
  pcycles c = Ok [[0; 1; 2]; [3; 4; 5]] /\ cycles_dynamic p (Some (2 * 3)) = Ok [[0; 1; 2]; [3; 4; 5]] /\ porder c = Ok 3 /\ porder p = Ok 3.
Proof.
  do 3 eexists. split; [vm_compute; reflexivity|]. split; [apply (obj_new (ArgSeq [1; 2; 0]) (Some 3)); [exact I | vm_compute; reflexivity]|].
  repeat split; vm_compute; reflexivity.
Qed.
