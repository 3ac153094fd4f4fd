(** Proof_HelpersMore: cycle partitions, permuted colours, sorted matrices, shifted literals. *)

From Coq Require Import List Arith ZArith Bool Lia Sorted Permutation.
From Verif Require Import Model_Base Model_Binary Model_Perm Model_SetPart Model_SigPerm Model_Boolf Model_BoolfMore Model_Helpers
  Spec_Bits Spec_Perm Spec_SetPart Spec_SigPerm Spec_Boolf Spec_Helpers
  Lib Proof_Perm Proof_PermMore Proof_PermCycles Proof_SetPartObj Props_SetPart Proof_SigPerm Proof_SigPermMore Proof_SigPermOps Proof_Seqs Proof_HelpersBits.
Import ListNotations.
Open Scope nat_scope.

(** ** Cycles *)

Section Orbits.
Variable f : nat -> nat.

Lemma iter_add a b x : iter f (a + b) x = iter f a (iter f b x).
Proof. induction a as [|a IH]; [reflexivity|]. cbn. now rewrite IH. Qed.
Lemma orbit_refl x : orbit f x x.
Proof. now exists 0. Qed.
Lemma orbit_trans x y z : orbit f x y -> orbit f y z -> orbit f x z.
Proof. intros [a <-] [b <-]. exists (b + a). apply iter_add. Qed.

(* along a segment of a cycle *)
Lemma path_orbit (step : nat -> nat -> Prop) : (forall i j, step i j -> f i = j) ->
  forall v u x, (forall a b w1 w2, u ++ x :: v = w1 ++ a :: b :: w2 -> step a b) ->
  forall y, In y (x :: v) -> orbit f x y.
Proof.
  intros Hf. induction v as [|b v IH]; intros u x H y Hy.
  - destruct Hy as [<-|[]]. apply orbit_refl.
  - destruct Hy as [<-|Hy]; [apply orbit_refl|].
    apply orbit_trans with b.
    + exists 1. cbn. apply Hf. apply (H x b u v). reflexivity.
    + apply (IH (u ++ [x]) b); [|exact Hy]. intros c d w1 w2 E. apply (H c d w1 w2). rewrite <- E, <- app_assoc. reflexivity.
Qed.
End Orbits.

Lemma cycle_orbit p cs c : (forall i j, says (ArgCycles cs) i j -> pget p i = j) -> In c cs ->
  forall x y, In x c -> In y c -> orbit (pget p) x y.
Proof.
  intros Hs Hc. destruct c as [|h c]; [intros x y []|].
  assert (Head : forall y, In y (h :: c) -> orbit (pget p) h y).
  { apply (path_orbit (pget p) (fun a b => says (ArgCycles cs) a b) Hs c [] h).
    intros a b w1 w2 E. apply (says_step cs (h :: c) w1 w2); assumption. }
  assert (Back : forall x, In x (h :: c) -> orbit (pget p) x h).
  { intros x Hx. apply in_split in Hx. destruct Hx as [u [v E]].
    apply (orbit_trans _ _ (last (h :: c) 0)).
    - apply (path_orbit (pget p) (fun a b => says (ArgCycles cs) a b) Hs v u x).
      + intros a b w1 w2 E'. apply (says_step cs (h :: c) w1 w2); [exact Hc|]. now rewrite E.
      + rewrite E. assert (L : last (u ++ x :: v) 0 = last (x :: v) 0).
        { clear. induction u as [|a u IH]; [reflexivity|]. cbn [app]. rewrite <- IH. destruct (u ++ x :: v) eqn:X; [|reflexivity].
          destruct u; discriminate. }
        rewrite L. destruct (exists_last (l := x :: v)) as [l [z Z]]; [discriminate|]. rewrite Z, last_last.
        apply in_or_app. right. now left.
    - exists 1. cbn. apply Hs. apply (says_wrap cs (h :: c) _ h c); auto. }
  intros x y Hx Hy. apply (orbit_trans _ _ h); auto.
Qed.

Lemma cycle_closed p cs c : (forall i j, says (ArgCycles cs) i j -> pget p i = j) -> In c cs ->
  forall x, In x c -> In (pget p x) c.
Proof.
  intros Hs Hc x Hx. apply in_split in Hx. destruct Hx as [u [v E]].
  destruct v as [|b v].
  - destruct c as [|h c]; [destruct u; discriminate|].
    assert (L : x = last (h :: c) 0) by (rewrite E; symmetry; apply last_last).
    rewrite (Hs x h); [now left|]. now apply (says_wrap cs (h :: c) x h c).
  - rewrite (Hs x b).
    + rewrite E. apply in_or_app. right. right. now left.
    + apply (says_step cs c u v); assumption.
Qed.

Lemma NoDup_concat_map (cs : list (list nat)) : NoDup (concat cs) -> NoDup (concat (map (map Z.of_nat) cs)).
Proof.
  intros H. rewrite <- concat_map. apply FinFun.Injective_map_NoDup; [|exact H]. intros a b E. lia.
Qed.

Lemma filter_concat_NoDup {A} (g : list A -> bool) (cs : list (list A)) : NoDup (concat cs) -> NoDup (concat (filter g cs)).
Proof.
  induction cs as [|c cs IH]; intros H; [constructor|]. cbn in H.
  assert (Hcs : NoDup (concat cs)).
  { clear -H. induction c as [|x c IH]; [exact H|]. cbn in H. inversion H. auto. }
  cbn. destruct (g c); [|auto]. cbn. apply NoDup_app'.
  - clear -H. induction c as [|x c IH]; [constructor|]. cbn in H. inversion_clear H as [|? ? N D]. constructor.
    + intros I. apply N. apply in_or_app. now left.
    + auto.
  - auto.
  - intros x Hx Hx'.
    assert (I : In x (concat cs)).
    { apply in_concat in Hx'. destruct Hx' as [d [Hd I]]. apply filter_In in Hd. apply in_concat. exists d. tauto. }
    clear -H Hx I. induction c as [|y c IH]; [destruct Hx|]. cbn in H. inversion_clear H as [|? ? N D].
    destruct Hx as [->|Hx]; [apply N; apply in_or_app; now right | auto].
Qed.

(** ** Colours *)

Lemma spots_cons a l d c x : spots_of ((a, l) :: d) c x <-> (c = a /\ In x l) \/ spots_of d c x.
Proof.
  unfold spots_of. split.
  - intros [l' [[E|I] X]]; [left; injection E as <- <-; split; [reflexivity | exact X] | right; exists l'; split; assumption].
  - intros [[-> X]|[l' [I X]]]; [exists l; split; [now left | exact X] | exists l'; split; [now right | exact X]].
Qed.
Lemma color_add_spots d c k c' x : spots_of (color_add d c k) c' x <-> spots_of d c' x \/ (c' = c /\ x = k).
Proof.
  induction d as [|[a l] d IH]; cbn [color_add].
  - rewrite spots_cons. cbn. intuition.
  - destruct (Nat.eqb_spec a c) as [->|N]; rewrite !spots_cons.
    + rewrite in_app_iff. cbn. intuition.
    + rewrite IH. tauto.
Qed.

Lemma color_add_keys d c k x : In x (map fst (color_add d c k)) <-> x = c \/ In x (map fst d).
Proof.
  induction d as [|[a l] d IH]; cbn; [intuition|]. destruct (Nat.eqb_spec a c) as [->|N]; cbn; [intuition|]. rewrite IH. tauto.
Qed.

Lemma color_add_wf d c k : NoDup (map fst d) -> Forall (fun cl => snd cl <> [] /\ StronglySorted lt (snd cl)) d ->
  (forall c' x, spots_of d c' x -> x < k) ->
  NoDup (map fst (color_add d c k)) /\ Forall (fun cl => snd cl <> [] /\ StronglySorted lt (snd cl)) (color_add d c k).
Proof.
  induction d as [|[a l] d IH]; intros N F B; cbn.
  - split; [repeat constructor; cbn; tauto|]. constructor; [|constructor]. split; [discriminate | repeat constructor].
  - cbn in N. inversion_clear N as [|? ? Na Nd]. inversion_clear F as [|? ? [Fa Sa] Fd]. cbn [snd] in *.
    destruct (Nat.eqb_spec a c) as [->|E]; cbn.
    + split; [constructor; assumption|]. constructor; [|exact Fd]. cbn. split; [destruct l; discriminate|].
      assert (Bl : forall z, In z l -> z < k) by (intros z Hz; apply (B c); exists l; split; [now left | exact Hz]).
      clear -Sa Bl. revert Bl. induction Sa as [|y l0 _ IH Fx]; intros Bl; cbn; [repeat constructor|]. constructor.
      * apply IH. intros; apply Bl; now right.
      * apply Forall_app. split; [exact Fx|]. constructor; [apply Bl; now left | constructor].
    + destruct (IH Nd Fd) as [I1 I2].
      { intros c' z [l' [I X]]. apply (B c'). exists l'. split; [now right | exact X]. }
      split.
      * constructor; [|exact I1]. rewrite color_add_keys. intros [->|I]; [congruence | contradiction].
      * constructor; [split; assumption | exact I2].
Qed.

Lemma colors_of_vector (v : list (option nat)) :
  let d := fold_left (fun d (kv : nat * option nat) =>
                   match snd kv with Some val => color_add d val (fst kv) | None => d end) (enumerate v) [] in
  NoDup (map fst d) /\ Forall (fun cl => snd cl <> [] /\ StronglySorted lt (snd cl)) d /\
  forall c x, spots_of d c x <-> nth_error v x = Some (Some c).
Proof.
  cbn zeta.
  set (F := fun d (kv : nat * option nat) => match snd kv with Some val => color_add d val (fst kv) | None => d end).
  assert (G : forall v k d, NoDup (map fst d) -> Forall (fun cl => snd cl <> [] /\ StronglySorted lt (snd cl)) d ->
    (forall c x, spots_of d c x -> x < k) ->
    let r := fold_left F (combine (seq k (length v)) v) d in
    NoDup (map fst r) /\ Forall (fun cl => snd cl <> [] /\ StronglySorted lt (snd cl)) r /\
    forall c x, spots_of r c x <-> spots_of d c x \/ (k <= x /\ nth_error v (x - k) = Some (Some c))).
  { clear v. induction v as [|o v IH]; intros k d N W B; cbn [length seq combine fold_left].
    - split; [exact N|]. split; [exact W|]. intros c x. split; [tauto|]. intros [H|[_ H]]; [exact H | destruct (x - k); discriminate].
    - unfold F at 2 4 6. cbn [fst snd].
      assert (Z : exists d', (match o with Some val => color_add d val k | None => d end) = d' /\
         NoDup (map fst d') /\ Forall (fun cl => snd cl <> [] /\ StronglySorted lt (snd cl)) d' /\
         forall c x, spots_of d' c x <-> spots_of d c x \/ (x = k /\ o = Some c)).
      { destruct o as [a|]; eexists; (split; [reflexivity|]).
        - destruct (color_add_wf d a k N W B) as [N' W']. split; [exact N'|]. split; [exact W'|]. intros c x. rewrite color_add_spots.
          split; (intros [H|H]; [now left|]); right; destruct H as [H1 H2]; split; congruence.
        - split; [exact N|]. split; [exact W|]. intros c x. split; [tauto|]. intros [H|[_ H]]; [exact H | discriminate]. }
      destruct Z as [d' [-> [N' [W' S']]]].
      destruct (IH (S k) d' N' W') as [N2 [W2 S2]].
      { intros c x H. apply S' in H. destruct H as [H|[-> _]]; [apply B in H; lia | lia]. }
      split; [exact N2|]. split; [exact W2|]. intros c x. rewrite S2, S'. split.
      + intros [[H|[-> ->]]|[H1 H2]]; [now left | right | right].
        * split; [lia|]. now rewrite Nat.sub_diag.
        * split; [lia|]. replace (x - k) with (S (x - S k)) by lia. exact H2.
      + intros [H|[H1 H2]]; [left; now left|]. destruct (Nat.eq_dec x k) as [->|E].
        * left. right. rewrite Nat.sub_diag in H2. cbn in H2. split; [reflexivity | congruence].
        * right. split; [lia|]. replace (x - k) with (S (x - S k)) in H2 by lia. exact H2. }
  specialize (G v 0 []). cbn zeta in G. destruct G as [N [W S]].
  - constructor.
  - constructor.
  - intros c x [l [[] _]].
  - split; [exact N|]. split; [exact W|]. intros c x. rewrite (S c x). rewrite Nat.sub_0_r. split.
    + intros [[l [[] _]]|[_ H]]. exact H.
    + intros H. right. split; [lia | exact H].
Qed.

Lemma zset_nat {A} (l : list A) i x : i < length l -> zset l (Z.of_nat i) x = Ok (lset l i x).
Proof.
  intros H. unfold zset. replace (0 <=? Z.of_nat i)%Z with true by (symmetry; apply Z.leb_le; lia).
  replace (Z.of_nat i <? Z.of_nat (length l))%Z with true by (symmetry; apply Z.ltb_lt; lia). cbn. now rewrite Nat2Z.id.
Qed.

(* writing the colours into the vector *)
Lemma nth_error_lset {A} (l : list A) i x j : i < length l ->
  nth_error (lset l i x) j = if Nat.eqb j i then Some x else nth_error l j.
Proof.
  revert i j. induction l as [|y l IH]; intros [|i] [|j] H; cbn in *; try lia; try reflexivity.
  apply IH. lia.
Qed.

Lemma write_color (c : nat) n : forall l (v : list (option nat)), length v = n -> (forall x, In x l -> x < n) -> exists r,
  foldM (fun vector fullspot => zset vector (Z.of_nat fullspot) (Some c)) l v = Ok r /\ length r = n /\
  forall x, nth_error r x = if memb x l then Some (Some c) else nth_error v x.
Proof.
  induction l as [|y l IH]; intros v L B; cbn [foldM]; [exists v; split; [reflexivity|]; split; [exact L | reflexivity]|].
  rewrite zset_nat by (rewrite L; apply B; now left). cbn [bind].
  destruct (IH (lset v y (Some c))) as [r [E [Lr R]]]; [rewrite length_lset; exact L | intros; apply B; now right|].
  exists r. split; [exact E|]. split; [exact Lr|]. intros x. rewrite R.
  rewrite nth_error_lset by (rewrite L; apply B; now left).
  cbn [memb existsb]. change (existsb (Nat.eqb x) l) with (memb x l).
  destruct (memb x l); [now rewrite orb_true_r | now rewrite orb_false_r].
Qed.

Lemma write_colors n : forall d (v : list (option nat)), length v = n -> (forall c x, spots_of d c x -> x < n) ->
  NoDup (concat (map snd d)) -> exists r,
  foldM (fun vector (cf : nat * list nat) =>
             foldM (fun vector fullspot => zset vector (Z.of_nat fullspot) (Some (fst cf))) (snd cf) vector) d v = Ok r /\
  length r = n /\
  (forall c x, spots_of d c x -> nth_error r x = Some (Some c)) /\
  (forall x, ~ In x (concat (map snd d)) -> nth_error r x = nth_error v x).
Proof.
  induction d as [|[c l] d IH]; intros v L B N; cbn [foldM].
  - exists v. split; [reflexivity|]. split; [exact L|]. split; [intros c x [l [[] _]] | reflexivity].
  - cbn [fst snd map concat] in *.
    destruct (write_color c n l v L) as [r1 [E1 [L1 R1]]]; [intros x Hx; apply (B c); exists l; split; [now left | exact Hx]|].
    rewrite E1. cbn [bind].
    assert (Nd : NoDup (concat (map snd d)) /\ forall x, In x l -> ~ In x (concat (map snd d))).
    { clear -N. induction l as [|y l IH]; [split; [exact N | tauto]|]. cbn in N. inversion_clear N as [|? ? Ny Nl].
      destruct (IH Nl) as [I1 I2]. split; [exact I1|]. intros x [->|Hx]; [|auto]. intros I. apply Ny. apply in_or_app. now right. }
    destruct Nd as [Nd Dj].
    destruct (IH r1 L1) as [r [E [Lr [R1' R2]]]]; [|exact Nd|].
    { intros c' x [l' [I X]]. apply (B c'). exists l'. split; [now right | exact X]. }
    exists r. split; [exact E|]. split; [exact Lr|]. split.
    + intros c' x [l' [[Eq|I] X]].
      * injection Eq as -> ->. rewrite R2 by (now apply Dj). rewrite R1. replace (memb x l') with true by (symmetry; now apply memb_In). reflexivity.
      * apply R1'. exists l'. auto.
    + intros x Hx. rewrite R2 by (intros I; apply Hx; apply in_or_app; now right). rewrite R1.
      replace (memb x l) with false; [reflexivity|]. symmetry. apply memb_false. intros I. apply Hx. apply in_or_app. now left.
Qed.

(** ** Sorted matrices *)

Lemma zrows_leb_spec a b : zrows_leb a b = true <-> not_after a b.
Proof.
  unfold zrows_leb, not_after. rewrite negb_true_iff, <- layers_ltb_spec. unfold layers_ltb.
  destruct (lex_ltb _ _ b a); split; intros; congruence.
Qed.
Lemma rows_tot x y : x = y \/ lex_less (lex_less Z.lt) x y \/ lex_less (lex_less Z.lt) y x.
Proof. apply lex_tot. intros a b. apply lex_tot. apply Zlt_tot. Qed.
Lemma rows_tr x y z : lex_less (lex_less Z.lt) x y -> lex_less (lex_less Z.lt) y z -> lex_less (lex_less Z.lt) x z.
Proof. apply lex_tr. intros a b c. apply lex_tr. intros; lia. Qed.
Lemma rows_irr x : ~ lex_less (lex_less Z.lt) x x.
Proof. apply lex_irr. intros a. apply lex_irr. intros; lia. Qed.
Lemma zrows_leb_total a b : zrows_leb a b = true \/ zrows_leb b a = true.
Proof.
  rewrite !zrows_leb_spec. unfold not_after. destruct (rows_tot a b) as [->|[H|H]].
  - left. apply rows_irr.
  - left. intros K. exact (rows_irr _ (rows_tr _ _ _ H K)).
  - right. intros K. exact (rows_irr _ (rows_tr _ _ _ H K)).
Qed.
Lemma zrows_leb_trans a b c : zrows_leb a b = true -> zrows_leb b c = true -> zrows_leb a c = true.
Proof.
  rewrite !zrows_leb_spec. unfold not_after. intros H K X.
  destruct (rows_tot a b) as [->|[Y|Y]]; [contradiction| |contradiction].
  apply K. exact (rows_tr _ _ _ X Y).
Qed.

Lemma sorted_nth {A} (R : A -> A -> Prop) l d : StronglySorted R l -> forall i j, i < j < length l -> R (nth i l d) (nth j l d).
Proof.
  induction 1 as [|x l _ IH F]; intros i j H; [cbn in H; lia|]. cbn [length] in H. destruct j as [|j]; [lia|].
  destruct i as [|i]; cbn.
  - rewrite Forall_forall in F. apply F. apply nth_In. lia.
  - apply IH. lia.
Qed.

Lemma sort_rows_ok (args : list zmatrix) h : args <> [] -> Forall (fun m => length m = h) args -> 0 < h -> exists res pi,
  sort_rows_together args = Ok res /\ length res = length args /\ Permutation pi (range h) /\
  (forall k, k < length args -> nth k res [] = map (fun i => nth i (nth k args []) []) pi) /\
  forall i j, i < j < h -> not_after (map (fun m => nth i m []) res) (map (fun m => nth j m []) res).
Proof.
  intros NE F Hh. unfold sort_rows_together. destruct args as [|first args0] eqn:Ea; [congruence|]. rewrite <- Ea in *.
  assert (Lf : length first = h) by (rewrite Ea in F; now inversion F).
  rewrite Lf.
  replace (forallb _ args) with true.
  2: { symmetry. apply forallb_forall. intros m Hm. rewrite Forall_forall in F. apply Nat.eqb_eq. now apply F. }
  cbn [true_except bind]. set (T := fun i => map (fun arg : zmatrix => nth i arg []) args).
  pose proof (isort_perm zrows_leb (map T (range h))) as P.
  destruct (Permutation_map_inv T (range h) (l1 := isort zrows_leb (map T (range h)))) as [pi [E Pi]].
  { symmetry. exact P. }
  pose proof (isort_sorted zrows_leb zrows_leb_total zrows_leb_trans (map T (range h))) as S.
  change (isort zrows_leb (map (fun i => map (fun arg : zmatrix => nth i arg []) args) (range h))) with (isort zrows_leb (map T (range h))).
  rewrite E in *.
  assert (Lpi : length pi = h) by (rewrite (Permutation_length (Permutation_sym Pi)); apply range_length).
  destruct (map T pi) as [|t0 ts] eqn:Em; [destruct pi; [cbn in Lpi; lia | discriminate]|]. rewrite <- Em in *. clear Em t0 ts.
  assert (R : forall k, k < length args -> map (fun t : list (list Z) => nth k t []) (map T pi) = map (fun i => nth i (nth k args []) []) pi).
  { intros k Hk. rewrite map_map. apply map_ext. intros i. unfold T.
    rewrite (nth_indep _ [] ((fun arg : zmatrix => nth i arg []) [])) by (now rewrite map_length).
    apply (map_nth (fun arg : zmatrix => nth i arg [])). }
  set (res := map (fun k => map (fun t : list (list Z) => nth k t []) (map T pi)) (range (length args))).
  assert (Lres : length res = length args) by (unfold res; now rewrite map_length, range_length).
  assert (Nres : forall k, k < length args -> nth k res [] = map (fun i => nth i (nth k args []) []) pi).
  { intros k Hk. rewrite <- R by exact Hk. unfold res.
    set (G := fun k => map (fun t : list (list Z) => nth k t []) (map T pi)).
    rewrite (nth_indep (map G _) [] (G 0)) by (now rewrite map_length, range_length).
    rewrite map_nth. now rewrite nth_range. }
  exists res, pi. split; [reflexivity|]. split; [exact Lres|]. split; [now symmetry|]. split; [exact Nres|].
  assert (Tup : forall i, i < h -> map (fun m => nth i m []) res = T (nth i pi 0)).
  { intros i Hi. apply nth_ext with [] []; [unfold T; now rewrite !map_length|].
    intros k Hk. rewrite map_length, Lres in Hk.
    rewrite (nth_indep _ [] ((fun m : zmatrix => nth i m []) [])) by (now rewrite map_length, Lres).
    rewrite (map_nth (fun m : zmatrix => nth i m [])). rewrite Nres by exact Hk.
    set (G := fun i => nth i (nth k args []) []).
    rewrite (nth_indep (map G pi) [] (G 0)) by (rewrite map_length, Lpi; exact Hi). rewrite map_nth. unfold T.
    rewrite (nth_indep (map _ args) [] ((fun arg : zmatrix => nth (nth i pi 0) arg []) [])) by (now rewrite map_length).
    rewrite (map_nth (fun arg : zmatrix => nth (nth i pi 0) arg [])). reflexivity. }
  intros i j Hij. rewrite !Tup by lia.
  apply zrows_leb_spec. pose proof (sorted_nth _ _ (T 0) S i j) as X. rewrite map_length, Lpi in X.
  specialize (X Hij). rewrite !(map_nth T) in X. exact X.
Qed.

(** * The results *)

Lemma cycle_partition_ok p : is_Perm p -> exists s, cycle_partition p = Ok s /\ is_SetPart s /\ canonical (sp_blocks s) /\
  forall x y, x <> y -> together (sp_blocks s) x y <->
    exists i j, x = Z.of_nat i /\ y = Z.of_nat j /\ orbit (pget p) i j /\ match perilen p with Some q => i < q | None => True end.
Proof.
  intros Hp. unfold cycle_partition. destruct (neutral p) eqn:N.
  - destruct (C17_new [] DomN) as [s [E [I [C [_ T]]]]]; [constructor|].
    exists s. split; [exact E|]. split; [exact I|]. split; [exact C|]. intros x y Hxy. rewrite (T x y Hxy). split.
    + intros [b [[] _]].
    + intros [i [j [-> [-> [[k Hk] _]]]]]. exfalso. apply Hxy. f_equal. rewrite <- Hk. symmetry. apply iter_fix.
      unfold pget. now rewrite N.
  - destruct (cycles_ok p Hp) as [cs [E [ND [In_cs [Hs _]]]]]. rewrite E. cbn [bind].
    destruct (C17_new (map (map Z.of_nat) cs) DomN) as [s [Es [I [C [_ T]]]]].
    { unfold no_overlap. apply filter_concat_NoDup. apply NoDup_concat_map. exact ND. }
    exists s. split; [exact Es|]. split; [exact I|]. split; [exact C|]. intros x y Hxy. rewrite (T x y Hxy). split.
    + intros [b [Hb [Hx Hy]]]. apply in_map_iff in Hb. destruct Hb as [c [<- Hc]].
      apply in_map_iff in Hx. destruct Hx as [i [<- Hi]]. apply in_map_iff in Hy. destruct Hy as [j [<- Hj]].
      exists i, j. split; [reflexivity|]. split; [reflexivity|]. split; [apply (cycle_orbit p cs c); assumption|].
      apply In_cs. apply in_concat. exists c. auto.
    + intros [i [j [-> [-> [[k Hk] Hq]]]]].
      assert (Hi : In i (concat cs)).
      { apply In_cs. split; [|exact Hq]. intros Hf. apply Hxy. f_equal. rewrite <- Hk. symmetry. now apply iter_fix. }
      apply in_concat in Hi. destruct Hi as [c [Hc Hi]].
      exists (map Z.of_nat c). split; [now apply in_map|]. split; [now apply in_map|]. apply in_map. rewrite <- Hk.
      clear -Hs Hc Hi. induction k as [|k IH]; [exact Hi|]. cbn. now apply (cycle_closed p cs c).
Qed.

Lemma colors_ok colors arity s f : is_SigPerm s -> acts s f -> sg_length s <= arity ->
  (forall c x, spots_of colors c x -> x < 2 ^ arity) -> NoDup (concat (map snd colors)) ->
  exists r, apply_sigperm_to_colors colors arity s = Ok r /\ NoDup (map fst r) /\
    Forall (fun cl => snd cl <> [] /\ StronglySorted lt (snd cl)) r /\
    forall c y, spots_of r c y <->
      exists x, spots_of colors c x /\ forall i, Nat.testbit y (atom (f i)) = xorb (negated (f i)) (Nat.testbit x i).
Proof.
  intros Hs Hf Ha B ND. pose proof (is_SigPerm_swf s Hs) as W.
  assert (Ef : forall k, f k = sf s k) by (now apply acts_sf).
  unfold apply_sigperm_to_colors.
  destruct (write_colors (2 ^ arity) colors (repeat None (2 ^ arity))) as [v [Ev [Lv [V1 V2]]]]; [apply repeat_length | exact B | exact ND|].
  set (vec := repeat None (2 ^ arity)) in *. cbn zeta. rewrite Ev. cbn [bind].
  destruct (sg_schoute_spec s W) as [P [EP [HP [_ [Hper [Hst Hd]]]]]]. rewrite EP. cbn [bind].
  assert (Stay : forall i, i < 2 ^ arity -> pget P i < 2 ^ arity).
  { intros i Hi. set (t := 2 ^ sg_length s) in *. assert (Ht : t <> 0) by (unfold t; apply Nat.pow_nonzero; lia).
    pose proof (Nat.div_mod i t Ht) as D. pose proof (Nat.mod_upper_bound i t Ht) as M.
    replace i with (i mod t + (i / t) * t) by lia. rewrite (period_mult (pget P) t) by exact Hper.
    specialize (Hst (i mod t) M).
    assert (Q : 2 ^ arity = 2 ^ (arity - sg_length s) * t) by (unfold t; rewrite <- Nat.pow_add_r; f_equal; lia).
    assert (i / t < 2 ^ (arity - sg_length s)) by (apply Nat.div_lt_upper_bound; [exact Ht | lia]).
    rewrite Q. nia. }
  destruct (apply_ok P v HP) as [r [Er [Lr Hr]]]; [rewrite Lv; exact Stay|]. rewrite Er. cbn [bind].
  destruct (colors_of_vector r) as [R1 [R2 R3]].
  eexists. split; [reflexivity|]. split; [exact R1|]. split; [exact R2|]. intros c y. rewrite R3.
  assert (Uniq : forall x y, (forall i, Nat.testbit y (atom (f i)) = xorb (negated (f i)) (Nat.testbit x i)) <-> y = pget P x).
  { intros a b. split.
    - intros H. apply Nat.bits_inj. intros k. destruct (s_bij s W) as [_ Sj]. destruct (Sj k) as [i Hi].
      rewrite <- sf_atom in Hi. rewrite <- Hi at 1. rewrite <- Ef, H, Ef, <- Hd. now rewrite Hi.
    - intros -> i. rewrite Ef. apply Hd. }
  split.
  - intros H. assert (Hy : y < length r) by (apply nth_error_Some; congruence). rewrite Lr, Lv in Hy.
    destruct (obj_bij P HP) as [Inj Sj]. destruct (Sj y) as [x Hx].
    assert (Lx : x < 2 ^ arity).
    { destruct (Nat.lt_ge_cases x (2 ^ arity)) as [L|G]; [exact L|]. exfalso.
      set (t := 2 ^ sg_length s) in *. assert (Ht : t <> 0) by (unfold t; apply Nat.pow_nonzero; lia).
      assert (Q : 2 ^ arity = 2 ^ (arity - sg_length s) * t) by (unfold t; rewrite <- Nat.pow_add_r; f_equal; lia).
      replace x with ((x - 2 ^ arity) + 2 ^ (arity - sg_length s) * t) in Hx by lia.
      rewrite (period_mult (pget P) t) in Hx by exact Hper. lia. }
    exists x. split; [|apply Uniq; congruence].
    rewrite <- Hx, Hr in H by (rewrite Lv; exact Lx).
    destruct (in_dec Nat.eq_dec x (concat (map snd colors))) as [I|I].
    + apply in_concat in I. destruct I as [l [I X]]. apply in_map_iff in I. destruct I as [[c' l'] [<- I]]. cbn in X.
      assert (Sp : spots_of colors c' x) by (exists l'; auto). rewrite (V1 _ _ Sp) in H. injection H as <-. exact Sp.
    + rewrite V2 in H by exact I. unfold vec in H. rewrite nth_error_repeat in H by exact Lx. discriminate.
  - intros [x [Sp H]]. apply Uniq in H. subst y. rewrite Hr by (rewrite Lv; now apply (B c)). now apply V1.
Qed.

Lemma sort_rows_eq (args : list zmatrix) h : args <> [] -> Forall (fun m => length m = h) args -> 0 < h -> exists pi,
  let res := map (fun m => map (fun i => nth i m []) pi) args in
  sort_rows_together args = Ok res /\ Permutation pi (range h) /\
  forall i j, i < j < h -> not_after (map (fun m => nth i m []) res) (map (fun m => nth j m []) res).
Proof.
  intros NE F Hh. destruct (sort_rows_ok args h NE F Hh) as [res [pi [E [L [P [N S]]]]]]. exists pi. cbn zeta.
  assert (Eq : res = map (fun m => map (fun i => nth i m []) pi) args).
  { apply nth_ext with [] []; [now rewrite map_length|]. intros k Hk. rewrite L in Hk. rewrite N by exact Hk.
    set (G := fun m : zmatrix => map (fun i => nth i m []) pi).
    rewrite (nth_indep (map G args) [] (G [])) by (now rewrite map_length). now rewrite map_nth. }
  rewrite <- Eq. auto.
Qed.

Lemma sort_cols_eq (args : list zmatrix) small w : args <> [] -> 0 < w ->
  Forall (fun m => m <> [] /\ Forall (fun row => length row = w) m) args -> exists pi,
  let res := map (map (fun row => map (fun i => nth i row 0%Z) pi)) args in
  sort_cols_together args small = Ok res /\ Permutation pi (range w) /\
  forall i j, i < j < w -> not_after (map (fun m => (if small : bool then @rev Z else fun c => c) (column i m)) res)
                                    (map (fun m => (if small : bool then @rev Z else fun c => c) (column j m)) res).
Proof.
  intros NE Hw F. unfold sort_cols_together. destruct args as [|first args0] eqn:Ea; [congruence|]. rewrite <- Ea in *.
  assert (W : forall m, In m args -> m <> [] /\ (forall row, In row m -> length row = w)).
  { intros m Hm. rewrite Forall_forall in F. destruct (F m Hm) as [F1 F2]. rewrite Forall_forall in F2. auto. }
  assert (Zw : forall m, In m args -> zwidth m = w).
  { intros m Hm. destruct (W m Hm) as [F1 F2]. unfold zwidth. apply F2. destruct m; [congruence | now left]. }
  rewrite (Zw first) by (rewrite Ea; now left).
  replace (forallb _ args) with true.
  2: { symmetry. apply forallb_forall. intros m Hm. apply Nat.eqb_eq. now apply Zw. }
  cbn [true_except bind].
  set (R := if small then @rev Z else fun c => c).
  assert (RR : forall c, R (R c) = c) by (intros c; unfold R; destruct small; [apply rev_involutive | reflexivity]).
  assert (Rl : forall c, length (R c) = length c) by (intros c; unfold R; destruct small; [apply rev_length | reflexivity]).
  set (turn := fun m : zmatrix => map (fun j => R (column j m)) (range w)).
  replace (map _ args) with (map turn args).
  2: { apply map_ext. intros m. unfold turn, ztranspose, fliplr, R, column. destruct small; [now rewrite map_map | reflexivity]. }
  destruct (sort_rows_eq (map turn args) w) as [pi [E [P S]]].
  { rewrite Ea. discriminate. }
  { apply Forall_forall. intros m Hm. apply in_map_iff in Hm. destruct Hm as [m' [<- _]]. unfold turn. now rewrite map_length, range_length. }
  { exact Hw. }
  cbn zeta in E. rewrite E. cbn [bind]. exists pi. cbn zeta.
  assert (Lpi : length pi = w) by (rewrite (Permutation_length P); apply range_length).
  assert (Bpi : forall i, In i pi -> i < w) by (intros i Hi; apply range_In; exact (Permutation_in _ P Hi)).
  assert (Tn : forall m i, i < w -> nth i (turn m) [] = R (column i m)).
  { intros m i Hi. unfold turn. set (G := fun j => R (column j m)). rewrite (nth_indep (map G (range w)) [] (G 0)) by (now rewrite map_length, range_length).
    rewrite map_nth. now rewrite nth_range. }
  assert (Tp : forall m, map (fun i => nth i (turn m) []) pi = map (fun i => R (column i m)) pi).
  { intros m. apply map_ext_in. intros i Hi. apply Tn. now apply Bpi. }
  split; [|split; [exact P|]].
  - f_equal. rewrite !map_map. apply map_ext_in. intros m Hm. rewrite Tp.
    destruct (W m Hm) as [Nm Rm].
    replace (zwidth (map (fun i => R (column i m)) pi)) with (length m).
    2: { unfold zwidth. destruct pi as [|i pi']; [cbn in Lpi; lia|]. cbn. rewrite Rl. unfold column. now rewrite map_length. }
    replace (if small then fliplr (map (fun i => R (column i m)) pi) else map (fun i => R (column i m)) pi) with (map (fun i => column i m) pi).
    2: { unfold fliplr. destruct small; [|reflexivity]. rewrite map_map. apply map_ext. intros i. symmetry. apply (RR (column i m)). }
    unfold ztranspose. apply nth_ext with [] []; [now rewrite !map_length, range_length|].
    intros r Hr. rewrite map_length, range_length in Hr.
    set (G := fun j => map (fun row => nth j row 0%Z) (map (fun i => column i m) pi)).
    set (H := fun row => map (fun i => nth i row 0%Z) pi).
    rewrite (nth_indep (map G (range (length m))) [] (G 0)) by (now rewrite map_length, range_length). rewrite map_nth, nth_range by exact Hr.
    rewrite (nth_indep (map H m) [] (H [])) by (now rewrite map_length). rewrite map_nth.
    unfold G, H. rewrite map_map. apply map_ext. intros i. unfold column.
    rewrite (nth_indep (map (fun row => nth i row 0%Z) m) 0%Z ((fun row => nth i row 0%Z) [])) by (now rewrite map_length).
    apply (map_nth (fun row => nth i row 0%Z)).
  - assert (Q : forall i, i < w -> map (fun m : zmatrix => nth i m []) (map (fun m => map (fun i => nth i m []) pi) (map turn args)) =
                     map (fun m => R (column i m)) (map (map (fun row => map (fun i => nth i row 0%Z) pi)) args)).
    { intros i Hi. rewrite !map_map. apply map_ext_in. intros m Hm. rewrite Tp.
      set (G := fun i => R (column i m)). rewrite (nth_indep (map G pi) [] (G 0)) by (rewrite map_length, Lpi; exact Hi).
      rewrite map_nth. unfold G. f_equal. unfold column. rewrite map_map. apply map_ext. intros row.
      set (H := fun i => nth i row 0%Z). rewrite (nth_indep (map H pi) 0%Z (H 0)) by (rewrite map_length, Lpi; exact Hi). now rewrite map_nth. }
    intros i j Hij. rewrite <- !Q by lia. now apply S.
Qed.

(** ** Literals *)

Lemma increase_ok a b : (exists r, logic_abs_increase a b = Ok r /\ shifted a b r) \/
  (logic_abs_increase a b = Err ArgValueError /\ (Z.of_nat (atom a) + b < 0)%Z).
Proof.
  unfold logic_abs_increase, shifted. rewrite logic_abs_atom. destruct (Z.leb_spec 0 (Z.of_nat (atom a) + b)) as [L|L].
  - left. cbn [true_except bind]. eexists. split; [reflexivity|]. unfold negated, atom, neg, tilde in *.
    destruct (Z.ltb_spec a 0); split; try (symmetry; apply Z.ltb_lt; lia); try (symmetry; apply Z.ltb_ge; lia); try apply Z.ltb_lt; try apply Z.ltb_ge; lia.
  - right. split; [reflexivity | exact L].
Qed.
Lemma shifted_fun x d z z' : shifted x d z -> shifted x d z' -> z = z'.
Proof. intros [N A] [N' A']. rewrite <- (lit_of z), <- (lit_of z'). rewrite N, N'. f_equal. lia. Qed.
Lemma increase_iff a b r : logic_abs_increase a b = Ok r <-> shifted a b r.
Proof.
  destruct (increase_ok a b) as [[r' [E S]]|[E L]]; rewrite E; split.
  - congruence.
  - intros H. f_equal. exact (shifted_fun _ _ _ _ S H).
  - discriminate.
  - intros [_ H]. lia.
Qed.

Lemma increase_vector_iff a b r : logic_abs_increase_vector a b = Ok r <->
  length a = length b /\ length r = length a /\
  forall i x d z, nth_error a i = Some x -> nth_error b i = Some d -> nth_error r i = Some z -> shifted x d z.
Proof.
  unfold logic_abs_increase_vector. destruct (Nat.eqb_spec (length a) (length b)) as [L|L].
  2: { cbn. split; [discriminate | tauto]. }
  cbn [true_except bind].
  revert b r L. induction a as [|x a IH]; intros [|d b] r L; cbn in L; try discriminate.
  - cbn. split.
    + intros E. injection E as <-. split; [reflexivity|]. split; [reflexivity|]. intros [|i] ? ? ? H; discriminate.
    + intros [_ [H _]]. destruct r; [reflexivity | discriminate].
  - cbn [combine mapM fst snd]. injection L as L. split.
    + intros E. destruct (logic_abs_increase x d) as [z|] eqn:Ez; [|discriminate]. cbn [bind] in E.
      destruct (mapM _ (combine a b)) as [r'|] eqn:Er; [|discriminate]. cbn in E. injection E as <-.
      apply IH in Er; [|exact L]. destruct Er as [_ [Lr H]]. cbn. split; [congruence|]. split; [congruence|].
      intros [|i] x' d' z' H1 H2 H3; cbn in *.
      * apply increase_iff. congruence.
      * exact (H i x' d' z' H1 H2 H3).
    + intros [_ [Lr H]]. destruct r as [|z r]; [discriminate|]. cbn in Lr.
      assert (Ez : logic_abs_increase x d = Ok z) by (apply increase_iff; now apply (H 0)).
      rewrite Ez. cbn [bind].
      assert (Er : mapM (fun ab : Z * Z => logic_abs_increase (fst ab) (snd ab)) (combine a b) = Ok r).
      { apply (IH b r L). split; [exact L|]. split; [congruence|]. intros i. apply (H (S i)). }
      rewrite Er. reflexivity.
Qed.

Lemma spread_ok s spread : length s = length spread -> Permutation (map atom s) (range (length s)) -> Forall (fun d => 0 <= d)%Z spread ->
  exists r, spread_sigperm_to_sigvar s spread = Ok r /\ length r = length s /\
    forall i x, nth_error s i = Some x -> exists d z, nth_error spread (atom x) = Some d /\ nth_error r i = Some z /\ shifted x d z.
Proof.
  intros L P F. unfold spread_sigperm_to_sigvar. rewrite L, Nat.eqb_refl. cbn [true_except bind]. rewrite <- L.
  set (f := fun i => let* s0 := lget s i in let* p := lget (logic_abs_vector s) i in let* d := lget spread p in logic_abs_increase s0 d).
  assert (Each : forall i x, nth_error s i = Some x -> exists d z, nth_error spread (atom x) = Some d /\ f i = Ok z /\ shifted x d z).
  { intros i x Hx. assert (Ha : atom x < length spread).
    { rewrite <- L. apply range_In. apply (Permutation_in _ P). apply in_map. now apply nth_error_In in Hx. }
    destruct (nth_error spread (atom x)) as [d|] eqn:Ed; [|apply nth_error_None in Ed; lia].
    unfold f. unfold lget at 1. rewrite Hx. cbn [bind]. unfold lget at 1. unfold logic_abs_vector. rewrite nth_error_map, Hx. cbn [option_map bind].
    rewrite logic_abs_atom. unfold lget. rewrite Ed. cbn [bind].
    assert (Hd : (0 <= d)%Z) by (rewrite Forall_forall in F; apply F; now apply nth_error_In in Ed).
    destruct (increase_ok x d) as [[z [E S]]|[_ N]]; [|lia]. exists d, z. auto. }
  assert (M : forall l, (forall i, In i l -> i < length s) -> exists r, mapM f l = Ok r /\ Forall2 (fun i z => f i = Ok z) l r).
  { induction l as [|i l IH]; intros Hl; [exists []; split; [reflexivity | constructor]|].
    destruct (nth_error s i) as [x|] eqn:Ex; [|apply nth_error_None in Ex; specialize (Hl i (or_introl eq_refl)); lia].
    destruct (Each i x Ex) as [d [z [_ [Ez _]]]].
    destruct IH as [r [Er Fr]]; [intros; apply Hl; now right|].
    exists (z :: r). cbn [mapM]. rewrite Ez. cbn [bind]. rewrite Er. split; [reflexivity | constructor; assumption]. }
  destruct (M (range (length s))) as [r [Er Fr]]; [intros i Hi; now apply range_In|].
  exists r. split; [exact Er|]. split.
  - clear -Fr. assert (G : length (range (length s)) = length r) by (induction Fr; cbn; congruence). now rewrite range_length in G.
  - intros i x Hx. destruct (Each i x Hx) as [d [z [Ed [Ez S]]]]. exists d, z. split; [exact Ed|]. split; [|exact S].
    assert (Hi : i < length s) by (apply nth_error_Some; congruence).
    assert (G : forall l r, Forall2 (fun i z => f i = Ok z) l r -> forall k i, nth_error l k = Some i -> nth_error r k = match f i with Ok z => Some z | Err _ => None end).
    { clear. induction 1 as [|i z l r E F IH]; intros [|k] j Hj; cbn in *; try discriminate.
      - injection Hj as <-. now rewrite E.
      - now apply IH. }
    rewrite (G _ _ Fr i i).
    + now rewrite Ez.
    + rewrite (nth_error_nth' _ 0) by (now rewrite range_length). now rewrite nth_range.
Qed.

(** ** Balanced ternary *)

Lemma zsum_fold l : forall a, fold_left Z.add l a = (a + fold_right Z.add 0 l)%Z.
Proof. induction l as [|x l IH]; intros a; cbn; [lia|]. rewrite IH. lia. Qed.
Lemma zdot_scalar u : forall v, zdot u v = scalar u v.
Proof.
  unfold zdot, zsum. induction u as [|a u IH]; intros [|b v]; try reflexivity. cbn [combine map scalar fst snd].
  rewrite <- IH. first [reflexivity | cbn; rewrite !zsum_fold; lia].
Qed.
Lemma scalar_comm u : forall v, scalar u v = scalar v u.
Proof. induction u as [|a u IH]; intros [|b v]; cbn; try reflexivity. rewrite IH. lia. Qed.

Lemma nth_error_map_nth {A B} (f : A -> B) l i d : i < length l -> nth_error (map f l) i = Some (f (nth i l d)).
Proof. intros H. rewrite nth_error_map, (nth_error_nth' l d H). reflexivity. Qed.

Lemma ternary_ok n i j : i < 3 ^ n -> j < 3 ^ n ->
  let (mat, vectors) := balanced_ternary_walsh_matrix n in
  length mat = 3 ^ n /\ length vectors = 3 ^ n /\
  exists u v row e, nth_error vectors i = Some u /\ nth_error vectors j = Some v /\
    length u = n /\ Forall (fun d => -1 <= d <= 1)%Z u /\ (2 * ternary_value u = 2 * Z.of_nat i - 3 ^ Z.of_nat n + 1)%Z /\
    nth_error mat i = Some row /\ length row = 3 ^ n /\ nth_error row j = Some e /\
    (-1 <= e <= 1)%Z /\ exists q, (scalar u v = e + 3 * q)%Z.
Proof.
  intros Hi Hj. unfold balanced_ternary_walsh_matrix. cbn zeta.
  destruct (product_spec n) as [L S]. change [(-1)%Z; 0%Z; 1%Z] with trits. set (V := product_repeat trits n) in *.
  rewrite !map_length. split; [exact L|]. split; [exact L|].
  exists (rev (nth i V [])), (rev (nth j V [])).
  eexists. eexists. split; [apply nth_error_map_nth; lia|]. split; [apply nth_error_map_nth; lia|].
  destruct (S i Hi) as [S1 [S2 S3]]. split; [exact S1|]. split; [exact S2|]. split; [exact S3|].
  split; [rewrite (nth_error_map_nth _ _ i []) by (rewrite !map_length; lia); reflexivity|].
  split; [rewrite map_length|].
  { rewrite (nth_indep _ [] (map (zdot (@rev Z [])) (map (@rev Z) V))) by (rewrite !map_length; lia).
    rewrite (map_nth (fun u => map (zdot u) (map (@rev Z) V))). now rewrite !map_length. }
  set (row := nth i _ []).
  assert (Er : row = map (zdot (rev (nth i V []))) (map (@rev Z) V)).
  { unfold row. rewrite (nth_indep _ [] ((fun u => map (zdot u) (map (@rev Z) V)) (rev []))) by (rewrite !map_length; lia).
    rewrite (map_nth (fun u => map (zdot u) (map (@rev Z) V))). now rewrite (map_nth (@rev Z)). }
  split; [rewrite (nth_error_map_nth _ _ j 0%Z) by (rewrite Er, !map_length; lia); reflexivity|].
  assert (Ej : nth j row 0%Z = scalar (rev (nth i V [])) (rev (nth j V []))).
  { rewrite Er. rewrite (nth_indep _ 0%Z (zdot (rev (nth i V [])) (rev []))) by (rewrite !map_length; lia).
    rewrite (map_nth (zdot (rev (nth i V [])))). rewrite (map_nth (@rev Z)). apply zdot_scalar. }
  fold row. rewrite Ej. set (x := scalar _ _). cbn beta zeta.
  pose proof (Z.mod_pos_bound x 3 ltac:(lia)) as M. pose proof (Z.div_mod x 3 ltac:(lia)) as D.
  destruct (Z.eqb_spec (x mod 3) 2) as [E|E].
  - split; [lia|]. exists (x / 3 + 1)%Z. lia.
  - split; [lia|]. exists (x / 3)%Z. lia.
Qed.
