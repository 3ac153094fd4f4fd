(** Proof_Pretty: results with names. *)

From Coq Require Import String Ascii List Arith ZArith Bool Lia Permutation Sorted.
From Verif Require Import Model_Base Lib Model_Binary Model_Splits Model_Perm Model_Boolf Model_Segments Model_Blight Model_Hyper Model_SetPart Model_ClanMatrix
  Model_Misc Model_Str Model_Pretty Spec_Bits Spec_Boolf Spec_Splits Spec_Misc Spec_Pretty Proof_Binary Proof_Perm Proof_Splits Proof_Swan Proof_ClanReorder Proof_Misc Proof_BoolfStr.
From Verif Require Proof_Numbers.
Import ListNotations Model_Str.
Open Scope nat_scope.
Open Scope bool_scope.

(** * Dictionaries with all keys at the start *)

Section Maps.
Context {K V : Type} (eqb : K -> K -> bool) (eqb_ok : forall x y, eqb x y = true <-> x = y).

Lemma look_map (G : K -> V) l k : In k l -> dlook eqb (map (fun q => (q, G q)) l) k = Ok (G k).
Proof.
  induction l as [|q l IH]; [intros []|]. intro H. cbn [map dlook]. destruct (eqb_case eqb eqb_ok k q) as [[-> ->]|[-> N]]; [reflexivity|]. apply IH. destruct H as [->|H]; [contradiction | exact H].
Qed.
Lemma store_map (G : K -> V) l k v : NoDup l -> In k l -> dstore eqb (map (fun q => (q, G q)) l) k v = map (fun q => (q, if eqb q k then v else G q)) l.
Proof.
  intros Nd. induction Nd as [|q l Hq Nd IH]; [intros []|]. intro H. cbn [map dstore]. destruct (eqb_case eqb eqb_ok k q) as [[-> <-]|[-> N]].
  - rewrite (proj2 (eqb_ok k k) eq_refl). f_equal. apply map_ext_in. intros x Hx. destruct (eqb_case eqb eqb_ok x k) as [[-> ->]|[-> _]]; [contradiction | reflexivity].
  - destruct H as [->|H]; [contradiction|]. rewrite IH by exact H. destruct (eqb_case eqb eqb_ok q k) as [[-> ->]|[-> _]]; [contradiction | reflexivity].
Qed.
Lemma stores_fresh (v : K -> V) l : forall d, NoDup l -> (forall k, In k l -> ~ In k (map fst d)) -> fold_left (fun d k => dstore eqb d k (v k)) l d = d ++ map (fun k => (k, v k)) l.
Proof.
  induction l as [|k l IH]; intros d Nd H; cbn [fold_left map]; [symmetry; apply app_nil_r|]. inversion Nd as [|? ? Hk Nl]; subst. rewrite (store_new eqb eqb_ok) by (apply H; left; reflexivity).
  rewrite IH; [rewrite <- app_assoc; reflexivity | exact Nl|]. intros j Hj. rewrite map_app, in_app_iff. cbn. intros [I|[->|[]]]; [apply (H j); [right; exact Hj | exact I] | contradiction].
Qed.
End Maps.

(** * Names *)

Lemma text_eqb_ok a b : text_eqb a b = true <-> a = b.
Proof. apply list_eqb_eq. Qed.

Lemma text_set_length l : length (text_set l) <= length l.
Proof. induction l as [|t l IH]; cbn [text_set length]; [lia|]. destruct (existsb _ l); cbn [length]; lia. Qed.
Lemma text_set_In l t : In t (text_set l) <-> In t l.
Proof.
  induction l as [|u l IH]; cbn [text_set]; [reflexivity|]. destruct (existsb (text_eqb u) l) eqn:E.
  - rewrite IH. split; [right; assumption|]. intros [->|H]; [|exact H]. apply (key_test text_eqb text_eqb_ok) in E. exact E.
  - cbn [In]. rewrite IH. reflexivity.
Qed.
Lemma text_set_NoDup l : NoDup (text_set l).
Proof.
  induction l as [|u l IH]; cbn [text_set]; [constructor|]. destruct (existsb (text_eqb u) l) eqn:E; [exact IH|]. constructor; [|exact IH]. rewrite text_set_In. intro H. apply (key_test text_eqb text_eqb_ok) in H. congruence.
Qed.
Lemma text_set_id l : NoDup l -> length (text_set l) = length l.
Proof. intro H. apply Permutation_length, NoDup_Permutation; [apply text_set_NoDup | exact H | apply text_set_In]. Qed.

Lemma fold_max l : forall m, (fold_left Nat.max l m < 26 <-> m < 26 /\ forall x, In x l -> x < 26).
Proof.
  induction l as [|y l IH]; intro m; cbn [fold_left]; [split; [intro H; split; [exact H | intros ? []] | intros [H _]; exact H]|]. rewrite IH, Nat.max_lub_lt_iff. split.
  - intros [[H1 H2] H3]. split; [exact H1|]. intros x [->|H]; auto.
  - intros [H1 H2]. split; [split; [exact H1 | apply H2; left; reflexivity]|]. intros x H. apply H2. right. exact H.
Qed.

Lemma alphabet_nth i : i < 26 -> lget alphabet i = Ok (65 + i).
Proof. intro H. do 26 (destruct i as [|i]; [reflexivity|]). lia. Qed.

Lemma alphabet_ok l : l <> [] -> (forall x, In x l -> x < 26) -> alphabet_subset l = Ok (map (fun i => Txt [65 + i]) l).
Proof.
  intros N H. destruct l as [|x l]; [contradiction|]. unfold alphabet_subset. rewrite (proj2 (Nat.ltb_lt _ _)) by (apply fold_max; split; [lia | exact H]).
  apply mapM_ok. intros i Hi. rewrite alphabet_nth by (apply H, Hi). reflexivity.
Qed.
Lemma alphabet_numbers l x : In x l -> 26 <= x -> alphabet_subset l = Ok (map Num l).
Proof.
  intros Hx H. destruct l as [|y l]; [destruct Hx|]. unfold alphabet_subset. rewrite (proj2 (Nat.ltb_ge _ _)); [reflexivity|].
  apply Nat.nlt_ge. intro L. apply fold_max in L as [_ L]. specialize (L x Hx). lia.
Qed.

Lemma names_enough f given names : chosen_names f given = Ok names -> valency f <= length names.
Proof.
  unfold chosen_names. destruct given as [l|].
  - destruct (Nat.eqb_spec (length (text_set l)) (valency f)) as [E|]; [|discriminate]. intro H. injection H as <-. rewrite map_length, <- E. apply text_set_length.
  - intro H. unfold valency. destruct (atomvals f) as [|x l] eqn:E; [discriminate H|]. destruct (Nat.lt_ge_cases (fold_left Nat.max (x :: l) 0) 26) as [L|L].
    + rewrite alphabet_ok in H; [apply Ok_inj in H; subst names; rewrite map_length; apply le_n | discriminate | apply (fold_max (x :: l) 0); exact L].
    + unfold alphabet_subset in H. rewrite (proj2 (Nat.ltb_ge _ _)) in H by exact L. apply Ok_inj in H. subst names. rewrite map_length. apply le_n.
Qed.

(** * Pairs *)

Lemma pattern_set_In l v : In v (pattern_set l) <-> In v l.
Proof.
  induction l as [|u l IH]; cbn [pattern_set]; [reflexivity|]. destruct (existsb (bvec_eqb u) l) eqn:E.
  - rewrite IH. split; [right; assumption|]. intros [->|H]; [|exact H]. apply (key_test bvec_eqb bvec_eqb_eq) in E. exact E.
  - cbn [In]. rewrite IH. reflexivity.
Qed.
Lemma pattern_set_NoDup l : NoDup (pattern_set l).
Proof.
  induction l as [|u l IH]; cbn [pattern_set]; [constructor|]. destruct (existsb (bvec_eqb u) l) eqn:E; [exact IH|]. constructor; [|exact IH]. rewrite pattern_set_In. intro H. apply (key_test bvec_eqb bvec_eqb_eq) in H. congruence.
Qed.

Lemma bool_order : total_order bool_compare.
Proof. split; [|split]; unfold bool_compare; [intros [] []; cbn; split; congruence | intros [] []; reflexivity | intros [] [] []; cbn; congruence]. Qed.

Definition named (names : list name) (k : nat) : name := nth k names (Num 0).
Definition named_pair (names : list name) (ab : nat * nat) : name * name := (named names (fst ab), named names (snd ab)).
Definition under (names : list name) (unpretty : list ((nat * nat) * list bool)) (p : list bool) : list (name * name) :=
  map (fun kv => named_pair names (fst kv)) (filter (fun kv => bvec_eqb (snd kv) p) unpretty).

Lemma lget_named names k : k < length names -> lget names k = Ok (named names k).
Proof. intro H. unfold lget, named. rewrite (nth_error_nth' names (Num 0) H). reflexivity. Qed.

Lemma by_pattern order names unpretty : (forall l, Permutation (order l) l) -> (forall a b s, In ((a, b), s) unpretty -> a < length names /\ b < length names) ->
  exists ps, NoDup ps /\ (forall p, In p ps <-> In p (map snd unpretty)) /\ pairs_by_pattern order names unpretty = Ok (map (fun p => (p, under names unpretty p)) ps).
Proof.
  intros Ho Hn. unfold pairs_by_pattern. set (ps := sorted_colex bool_compare (order (pattern_set (map snd unpretty)))).
  assert (P : Permutation ps (pattern_set (map snd unpretty))). { unfold ps. rewrite (proj1 (sorted_colex_ok bool_compare (order (pattern_set (map snd unpretty))) bool_order)). apply Ho. }
  assert (Nd : NoDup ps) by (apply (Permutation_NoDup (Permutation_sym P)), pattern_set_NoDup).
  assert (I : forall p, In p ps <-> In p (map snd unpretty)). { intro p. rewrite <- (pattern_set_In (map snd unpretty)). split; apply Permutation_in; [exact P | symmetry; exact P]. }
  exists ps. split; [exact Nd|]. split; [exact I|].
  rewrite (stores_fresh bvec_eqb bvec_eqb_eq (fun _ => [])) by (try exact Nd; intros ? _ []). cbn [app].
  assert (G : forall l pre, unpretty = pre ++ l ->
    foldM (fun d (kv : (nat * nat) * list bool) => let* a := lget names (fst (fst kv)) in let* b := lget names (snd (fst kv)) in let* l := dlook bvec_eqb d (snd kv) in Ok (dstore bvec_eqb d (snd kv) (l ++ [(a, b)])))
      l (map (fun p => (p, under names pre p)) ps) = Ok (map (fun p => (p, under names (pre ++ l) p)) ps)).
  { induction l as [|[[a b] s] l IH]; intros pre E; [rewrite app_nil_r; reflexivity|]. cbn [foldM fst snd].
    destruct (Hn a b s) as [La Lb]; [rewrite E; apply in_or_app; right; left; reflexivity|]. rewrite !lget_named by assumption. cbn [bind].
    assert (Is : In s ps) by (apply I; rewrite E, map_app; apply in_or_app; right; left; reflexivity).
    rewrite (look_map bvec_eqb bvec_eqb_eq) by exact Is. cbn [bind]. rewrite (store_map bvec_eqb bvec_eqb_eq) by assumption. cbn [bind].
    assert (Q := IH (pre ++ [((a, b), s)])). rewrite <- app_assoc in Q. specialize (Q E). cbn [app] in Q. rewrite <- Q. f_equal. apply map_ext_in. intros p _. f_equal.
    unfold under. rewrite filter_app, map_app. cbn [filter snd]. destruct (eqb_case bvec_eqb bvec_eqb_eq p s) as [[-> ->]|[-> Hps]].
    - rewrite (proj2 (bvec_eqb_eq s s) eq_refl). reflexivity.
    - destruct (eqb_case bvec_eqb bvec_eqb_eq s p) as [[_ Hsp]|[-> _]]; [congruence | symmetry; apply app_nil_r]. }
  exact (G unpretty [] eq_refl).
Qed.

(** the key of a pattern; the two for subsets have none *)
Definition wkey (p : list bool) : option text :=
  let is q := bvec_eqb p q in
  if is [true; true; true; true] then Some (lit "crossing")
  else if is [true; true; true; false] then Some (lit "disjoint")
  else if is [false; true; true; true] then Some (lit "universal")
  else if is [false; true; true; false] then Some (lit "complementary")
  else if is [true; false; false; true] then Some (lit "equal")
  else if is [true; false; true; true] then None
  else if is [true; true; false; true] then None
  else Some (to_string p).
Definition turned (p : list bool) (ab : name * name) : name * name := if bvec_eqb p [true; true; false; true] then (snd ab, fst ab) else ab.

Lemma sort_pattern_eq P S p l : sort_pattern (P, S) (p, l) = match wkey p with Some k => (dstore text_eqb P k l, S) | None => (P, S ++ map (turned p) l) end.
Proof.
  unfold sort_pattern, wkey. cbv zeta. repeat (match goal with |- context [if bvec_eqb ?a ?b then _ else _] => destruct (bvec_eqb a b) eqn:?; [try reflexivity|] end); try reflexivity.
  - apply bvec_eqb_eq in Heqb4. subst p. f_equal. f_equal. symmetry. etransitivity; [|apply map_id]. apply map_ext. intros [a b]. reflexivity.
  - apply bvec_eqb_eq in Heqb5. subst p. reflexivity.
Qed.

Definition patterns4 : list (list bool) := flat_map (fun a => flat_map (fun b => flat_map (fun c => map (fun d => [a; b; c; d]) [false; true]) [false; true]) [false; true]) [false; true].
Lemma patterns4_In p : length p = 4 -> In p patterns4.
Proof. destruct p as [|a [|b [|c [|d [|e p]]]]]; try discriminate. intros _. destruct a, b, c, d; cbn; tauto. Qed.
Definition okey_eqb (a b : option text) : bool := match a, b with Some x, Some y => text_eqb x y | _, _ => false end.
Lemma wkey_inj p q k : length p = 4 -> length q = 4 -> wkey p = Some k -> wkey q = Some k -> p = q.
Proof.
  intros Hp Hq Ep Eq. assert (T : forallb (fun p => forallb (fun q => implb (okey_eqb (wkey p) (wkey q)) (bvec_eqb p q)) patterns4) patterns4 = true) by (vm_compute; reflexivity).
  rewrite forallb_forall in T. specialize (T p (patterns4_In p Hp)). rewrite forallb_forall in T. specialize (T q (patterns4_In q Hq)). rewrite Ep, Eq in T. cbn [okey_eqb] in T.
  rewrite (proj2 (text_eqb_ok k k) eq_refl) in T. apply bvec_eqb_eq, T.
Qed.
Lemma wkey_not_subset p : length p = 4 -> wkey p <> Some (lit "subset").
Proof.
  intros Hp E. assert (T : forallb (fun p => negb (okey_eqb (wkey p) (Some (lit "subset")))) patterns4 = true) by (vm_compute; reflexivity).
  rewrite forallb_forall in T. specialize (T p (patterns4_In p Hp)). rewrite E in T. discriminate T.
Qed.

Definition keyed (G : list bool -> list (name * name)) (ps : list (list bool)) : list (text * list (name * name)) :=
  flat_map (fun p => match wkey p with Some k => [(k, G p)] | None => [] end) ps.
Definition subsets (G : list bool -> list (name * name)) (ps : list (list bool)) : list (name * name) :=
  flat_map (fun p => match wkey p with Some _ => [] | None => map (turned p) (G p) end) ps.

Lemma keyed_keys G ps k : In k (map fst (keyed G ps)) <-> exists p, In p ps /\ wkey p = Some k.
Proof.
  unfold keyed. rewrite in_map_iff. split.
  - intros ([k' l] & <- & H). apply in_flat_map in H as (p & Hp & H). exists p. split; [exact Hp|]. destruct (wkey p) as [j|]; [|destruct H]. destruct H as [E|[]]. injection E as <- _. reflexivity.
  - intros (p & Hp & E). exists (k, G p). split; [reflexivity|]. apply in_flat_map. exists p. split; [exact Hp|]. rewrite E. left. reflexivity.
Qed.

Lemma sort_patterns G ps : forall P S, NoDup ps -> (forall p, In p ps -> length p = 4) -> (forall p k, In p ps -> wkey p = Some k -> ~ In k (map fst P)) ->
  fold_left sort_pattern (map (fun p => (p, G p)) ps) (P, S) = (P ++ keyed G ps, S ++ subsets G ps).
Proof.
  induction ps as [|p ps IH]; intros P S Nd L4 Hk; cbn [map fold_left]; [unfold keyed, subsets; cbn [flat_map]; rewrite !app_nil_r; reflexivity|].
  inversion Nd as [|? ? Hp Nd']; subst. rewrite sort_pattern_eq. unfold keyed, subsets. cbn [flat_map]. fold (keyed G ps). fold (subsets G ps).
  destruct (wkey p) as [k|] eqn:Ek.
  - rewrite (store_new text_eqb text_eqb_ok) by (apply (Hk p k); [left; reflexivity | exact Ek]). rewrite IH.
    + rewrite <- !app_assoc. reflexivity.
    + exact Nd'.
    + intros q Hq. apply L4. right. exact Hq.
    + intros q j Hq Ej. rewrite map_app, in_app_iff. cbn [map fst In]. intros [I|[<-|[]]]; [exact (Hk q j (or_intror Hq) Ej I)|].
      assert (p = q) by (apply (wkey_inj p q k); [apply L4; left; reflexivity | apply L4; right; exact Hq | exact Ek | exact Ej]). subst q. contradiction.
  - rewrite IH; [rewrite <- !app_assoc; reflexivity | exact Nd' | intros q Hq; apply L4; right; exact Hq | intros q j Hq; apply Hk; right; exact Hq].
Qed.
Lemma keyed_NoDup G ps : NoDup ps -> (forall p, In p ps -> length p = 4) -> NoDup (map fst (keyed G ps)).
Proof.
  induction 1 as [|p ps Hp Nd IH]; intro L4; [constructor|]. unfold keyed. cbn [flat_map]. fold (keyed G ps). destruct (wkey p) as [k|] eqn:Ek; [|apply IH; intros q Hq; apply L4; right; exact Hq].
  cbn [app map fst]. constructor; [|apply IH; intros q Hq; apply L4; right; exact Hq]. intro I. apply keyed_keys in I as (q & Hq & Eq).
  assert (p = q) by (apply (wkey_inj p q k); [apply L4; left; reflexivity | apply L4; right; exact Hq | exact Ek | exact Eq]). subst q. contradiction.
Qed.

(** the final order of the keys *)
Definition found (d : list (text * list (name * name))) (key : text) : list (text * list (name * name)) := match dlook text_eqb d key with Ok l => [(key, l)] | Err _ => [] end.
Lemma found_In d key x : NoDup (map fst d) -> (In x (found d key) <-> fst x = key /\ In x d).
Proof.
  intro Nd. unfold found. destruct (dlook text_eqb d key) as [l|e] eqn:E.
  - apply (look_In text_eqb text_eqb_ok d key l Nd) in E. split.
    + intros [<-|[]]. auto.
    + destruct x as [k l']. cbn [fst]. intros [-> I]. left. apply (look_In text_eqb text_eqb_ok d key l Nd) in E. apply (look_In text_eqb text_eqb_ok d key l' Nd) in I. congruence.
  - split; [intros []|]. destruct x as [k l']. cbn [fst]. intros [-> I]. apply (look_In text_eqb text_eqb_ok d key l' Nd) in I. congruence.
Qed.
Lemma steps_found d keys : forall pretty, NoDup keys -> (forall k, In k keys -> ~ In k (map fst pretty)) ->
  fold_left (fun pretty key => match dlook text_eqb d key with Ok l => dstore text_eqb pretty key l | Err _ => pretty end) keys pretty = pretty ++ flat_map (found d) keys.
Proof.
  induction keys as [|k keys IH]; intros pretty Nd H; cbn [fold_left flat_map]; [symmetry; apply app_nil_r|]. inversion Nd as [|? ? Hk Nd']; subst. unfold found at 1. destruct (dlook text_eqb d k) as [l|e].
  - rewrite (store_new text_eqb text_eqb_ok) by (apply H; left; reflexivity). rewrite IH; [rewrite <- app_assoc; reflexivity | exact Nd'|].
    intros j Hj. rewrite map_app, in_app_iff. cbn [map fst In]. intros [I|[->|[]]]; [exact (H j (or_intror Hj) I) | contradiction].
  - apply IH; [exact Nd' | intros j Hj; apply H; right; exact Hj].
Qed.
Lemma found_keys d keys : map fst (flat_map (found d) keys) = filter (fun k => existsb (text_eqb k) (map fst d)) keys.
Proof.
  induction keys as [|k keys IH]; [reflexivity|]. cbn [flat_map filter]. rewrite map_app, IH. unfold found. destruct (dlook text_eqb d k) as [l|e] eqn:E.
  - assert (H : In k (map fst d)) by (apply (look_key text_eqb text_eqb_ok); eauto). apply (key_test text_eqb text_eqb_ok) in H. rewrite H. reflexivity.
  - destruct (existsb (text_eqb k) (map fst d)) eqn:Ex; [|reflexivity]. apply (key_test text_eqb text_eqb_ok), (look_key text_eqb text_eqb_ok) in Ex as (v & Ev). congruence.
Qed.
Lemma key_words_NoDup : NoDup key_words.
Proof. unfold key_words. repeat constructor; vm_compute; intuition discriminate. Qed.

Lemma in_order_ok d : NoDup (map fst d) -> NoDup (map fst (in_order d)) /\ (forall x, In x (in_order d) <-> In x d) /\
  map fst (in_order d) = filter (fun k => existsb (text_eqb k) (map fst d)) key_words ++ filter (fun k => negb (existsb (text_eqb k) key_words)) (map fst d).
Proof.
  intro Nd. unfold in_order. cbv zeta. rewrite (steps_found d key_words []) by (try apply key_words_NoDup; intros ? _ []). cbn [app].
  set (others := filter (fun key => negb (existsb (text_eqb key) key_words)) (map fst d)).
  assert (No : NoDup others) by (apply NoDup_filter, Nd).
  assert (Ho : forall k, In k others -> In k (map fst d) /\ ~ In k key_words).
  { intros k Hk. apply filter_In in Hk as [H1 H2]. split; [exact H1|]. intro H3. apply (key_test text_eqb text_eqb_ok) in H3. rewrite H3 in H2. discriminate H2. }
  rewrite steps_found; [|exact No | intros k Hk; rewrite found_keys; intro I; apply filter_In in I as [I _]; apply (proj2 (Ho k Hk)), I].
  assert (Eo : filter (fun k => existsb (text_eqb k) (map fst d)) others = others).
  { assert (G : forall l, (forall k, In k l -> In k (map fst d)) -> filter (fun k => existsb (text_eqb k) (map fst d)) l = l).
    { induction l as [|k l IH]; intro H; [reflexivity|]. cbn [filter]. rewrite (proj2 (key_test text_eqb text_eqb_ok (map fst d) k)) by (apply H; left; reflexivity). rewrite IH; [reflexivity | intros j Hj; apply H; right; exact Hj]. }
    apply G. intros k Hk. apply Ho, Hk. }
  split; [|split].
  - rewrite map_app, !found_keys, Eo. apply Proof_Numbers.NoDup_app3; [apply NoDup_filter, key_words_NoDup | exact No|]. intros k H1 H2. apply filter_In in H1 as [H1 _]. apply (proj2 (Ho k H2)), H1.
  - intro x. rewrite in_app_iff, !in_flat_map. split.
    + intros [(k & _ & H)|(k & _ & H)]; apply found_In in H as [_ H]; assumption.
    + intro H. assert (Hk : In (fst x) (map fst d)) by (apply in_map, H). destruct (in_dec (list_eq_dec Nat.eq_dec) (fst x) key_words) as [I|I].
      * left. exists (fst x). split; [exact I|]. apply found_In; auto.
      * right. exists (fst x). split; [|apply found_In; auto]. apply filter_In. split; [exact Hk|]. destruct (existsb (text_eqb (fst x)) key_words) eqn:E; [|reflexivity]. apply (key_test text_eqb text_eqb_ok) in E. contradiction.
  - rewrite map_app, !found_keys, Eo. reflexivity.
Qed.

(** ** Order of names *)

Lemma name_order : total_order name_compare.
Proof.
  destruct (lex_order Nat.compare nat_order) as (L1 & L2 & L3). destruct nat_order as (N1 & N2 & N3). split; [|split].
  - intros [x|x] [y|y]; cbn [name_compare]; try (split; discriminate); [rewrite L1 | rewrite N1]; split; congruence.
  - intros [x|x] [y|y]; cbn [name_compare]; auto.
  - intros [x|x] [y|y] [z|z]; cbn [name_compare]; try discriminate; try reflexivity; [apply L3 | apply N3].
Qed.
Lemma names_order : total_order pair_compare.
Proof. exact (pair_order _ _ name_order name_order). Qed.
Definition not_after (p q : name * name) : Prop := pair_compare p q <> Gt.

Lemma SS_impl {A} (R Q : A -> A -> Prop) l : (forall x y, R x y -> Q x y) -> StronglySorted R l -> StronglySorted Q l.
Proof. intro H. induction 1 as [|x l S IH F]; constructor; [exact IH|]. eapply Forall_impl; [|exact F]. intro y. apply H. Qed.
Lemma SS_filter {A} (R : A -> A -> Prop) t l : StronglySorted R l -> StronglySorted R (filter t l).
Proof. induction 1 as [|x l S IH F]; cbn [filter]; [constructor|]. destruct (t x); [|exact IH]. constructor; [exact IH|]. apply Forall_forall. intros y Hy. apply filter_In in Hy as [Hy _]. rewrite Forall_forall in F. apply F, Hy. Qed.
Lemma SS_app {A} (R : A -> A -> Prop) l m : StronglySorted R l -> StronglySorted R m -> (forall x y, In x l -> In y m -> R x y) -> StronglySorted R (l ++ m).
Proof.
  induction 1 as [|x l S IH F]; intros Hm H; cbn [app]; [exact Hm|]. constructor; [apply IH; [exact Hm | intros a b Ha; apply H; right; exact Ha]|].
  apply Forall_app. split; [exact F|]. apply Forall_forall. intros y Hy. apply H; [left; reflexivity | exact Hy].
Qed.
(** lexicographic order of pairs of keys *)
Definition pair_before (p q : nat * nat) : Prop := fst p < fst q \/ fst p = fst q /\ snd p < snd q.
Lemma pairs_range_sorted n : StronglySorted pair_before (combinations2 (range n)).
Proof.
  unfold range. generalize 0. induction n as [|n IH]; intro s; cbn [seq combinations2]; [constructor|]. apply SS_app; [|apply IH|].
  - generalize (S s). clear IH. induction n as [|n IH]; intro t; cbn [seq map]; constructor; [apply IH|]. apply Forall_forall. intros [a b] H. apply in_map_iff in H as (c & E & H). apply in_seq in H. injection E as <- <-. right. cbn. lia.
  - intros [a b] [c d] H1 H2. apply in_map_iff in H1 as (x & E & _). injection E as <- <-. left. cbn [fst].
    assert (G : forall k t, In (c, d) (combinations2 (seq t k)) -> t <= c).
    { clear. induction k as [|k IH]; intro t; cbn [seq combinations2]; [intros []|]. rewrite in_app_iff. intros [H|H]; [apply in_map_iff in H as (x & E & _); injection E as <- _; lia | apply IH in H; lia]. }
    apply G in H2. lia.
Qed.

Lemma subset_sorted l : StronglySorted not_after (isort (leb_of pair_compare) l).
Proof.
  assert (H := isort_sorted (leb_of pair_compare) (leb_total' _ names_order) (leb_trans' _ names_order) l). cbv beta in H. revert H. apply SS_impl.
  intros p q. unfold leb_of, not_after. destruct (pair_compare p q); congruence.
Qed.

(** * The dictionary of pairs *)

Definition no_word (p : list bool) : bool := match wkey p with Some _ => false | None => true end.
Lemma tells_exactly f a b p r : length p = 4 -> (forall x y, In (x, y) (possible r) <-> nth (b2n [x; y]) p false = true) -> (tells f a b p <-> exactly f a b (possible r)).
Proof.
  intros L H. unfold tells, exactly. split.
  - intros [_ T] x y. rewrite H, T. reflexivity.
  - intro T. split; [exact L|]. intros x y. rewrite T, H. reflexivity.
Qed.

Definition pattern_of (r : relation) : list bool :=
  match r with
  | Crossing => [true; true; true; true] | Disjoint => [true; true; true; false] | Universal => [false; true; true; true] | Subset => [true; false; true; true]
  | Equal => [true; false; false; true] | Complementary => [false; true; true; false] | Other n a b c => [n; a; b; c]
  end.
Lemma pattern_of_possible r x y : In (x, y) (possible r) <-> nth (b2n [x; y]) (pattern_of r) false = true.
Proof.
  destruct r as [| | | | | |n a b c]; [| | | | | |destruct n, a, b, c]; destruct x, y; cbn;
    (split; [intro H; repeat (destruct H as [H|H]; [discriminate H || reflexivity|]); destruct H | intro H; first [discriminate H | tauto]]).
Qed.
Lemma tells_relation f a b r : tells f a b (pattern_of r) <-> exactly f a b (possible r).
Proof. apply tells_exactly; [destruct r; reflexivity | apply pattern_of_possible]. Qed.

Definition worded : list relation := [Crossing; Disjoint; Universal; Subset; Equal; Complementary].
Definition four_pairs : list (bool * bool) := [(false, false); (true, false); (false, true); (true, true)].
Lemma has_word_iff n a b c : has_word (possible (Other n a b c)) <-> existsb (fun r => bvec_eqb [n; a; b; c] (pattern_of r) || bvec_eqb [n; b; a; c] (pattern_of r)) worded = true.
Proof.
  rewrite existsb_exists. unfold has_word. split.
  - intros (r & Hr & H). exists r. split; [destruct r; try destruct Hr; cbn; tauto|]. apply orb_true_iff. rewrite !bvec_eqb_eq. destruct H as [H|H].
    + left. assert (E : forall x y, nth (b2n [x; y]) (pattern_of (Other n a b c)) false = nth (b2n [x; y]) (pattern_of r) false) by (intros x y; apply eq_true_iff_eq; rewrite <- !pattern_of_possible; apply H).
      assert (E0 := E false false). assert (E1 := E true false). assert (E2 := E false true). assert (E3 := E true true). cbn in E0, E1, E2, E3. subst. destruct r; try destruct Hr; reflexivity.
    + right. assert (E : forall x y, nth (b2n [x; y]) (pattern_of (Other n a b c)) false = nth (b2n [y; x]) (pattern_of r) false) by (intros x y; apply eq_true_iff_eq; rewrite <- !pattern_of_possible; apply H).
      assert (E0 := E false false). assert (E1 := E true false). assert (E2 := E false true). assert (E3 := E true true). cbn in E0, E1, E2, E3. subst. destruct r; try destruct Hr; reflexivity.
  - intros (r & Hr & H). exists r. split; [cbn in Hr; destruct Hr as [<-|[<-|[<-|[<-|[<-|[<-|[]]]]]]]; exact I|]. apply orb_true_iff in H. rewrite !bvec_eqb_eq in H. destruct H as [H|H].
    + left. intros [x y]. rewrite !pattern_of_possible. cbn [pattern_of]. rewrite H. reflexivity.
    + right. intros x y. rewrite !pattern_of_possible, <- H. destruct x, y; reflexivity.
Qed.

(** a pair of keys in order, its relation and its key in the dictionary *)
Lemma worded_key f a b p k : a < b < valency f -> tells f a b p -> (wkey p = Some k <-> exists r, r <> Subset /\ k = shown r /\ related f r a b).
Proof.
  intros Hab T. assert (L := proj1 T). destruct p as [|n [|x [|y [|c [|? ?]]]]]; try discriminate L. split.
  - intro E. assert (W : forall r, pattern_of r = [n; x; y; c] -> r <> Subset -> (match r with Other _ _ _ _ => ~ has_word (possible r) | _ => True end) -> shown r = k -> exists r, r <> Subset /\ k = shown r /\ related f r a b).
    { intros r Er Ns Hw Ek. exists r. split; [exact Ns|]. split; [symmetry; exact Ek|]. split; [lia|]. split; [lia|]. split; [apply tells_relation; rewrite Er; exact T|]. destruct r; try (apply Hab); [contradiction | split; [apply Hab | exact Hw]]. }
    destruct n, x, y, c; vm_compute in E; try discriminate E; injection E as <-;
      first [apply (W Crossing); [reflexivity | discriminate | exact I | reflexivity] | apply (W Disjoint); [reflexivity | discriminate | exact I | reflexivity]
            | apply (W Universal); [reflexivity | discriminate | exact I | reflexivity] | apply (W Equal); [reflexivity | discriminate | exact I | reflexivity]
            | apply (W Complementary); [reflexivity | discriminate | exact I | reflexivity]
            | match type of T with tells _ _ _ [?n; ?x; ?y; ?c] => apply (W (Other n x y c)); [reflexivity | discriminate | rewrite has_word_iff; vm_compute; discriminate | reflexivity] end].
  - intros (r & Ns & -> & (_ & _ & Ex & Hr)). apply tells_relation in Ex. apply (tells_unique f a b _ _ T) in Ex. rewrite Ex. destruct r as [| | | | | |n' x' y' c']; try reflexivity; [contradiction|].
    destruct Hr as [_ Hw]. rewrite has_word_iff in Hw. clear - Hw. destruct n', x', y', c'; first [reflexivity | exfalso; apply Hw; reflexivity].
Qed.
Lemma unworded f a b p : a < b < valency f -> tells f a b p -> wkey p = None -> related f Subset (if bvec_eqb p [true; true; false; true] then b else a) (if bvec_eqb p [true; true; false; true] then a else b).
Proof.
  intros Hab T E. assert (L := proj1 T). destruct p as [|n [|x [|y [|c [|? ?]]]]]; try discriminate L.
  assert (C : [n; x; y; c] = [true; false; true; true] \/ [n; x; y; c] = [true; true; false; true]) by (destruct n, x, y, c; vm_compute in E; try discriminate E; auto).
  destruct C as [C|C]; rewrite C in *.
  - change (bvec_eqb [true; false; true; true] [true; true; false; true]) with false. split; [lia|]. split; [lia|]. split; [apply tells_relation; exact T | lia].
  - rewrite (proj2 (bvec_eqb_eq _ _) eq_refl). split; [lia|]. split; [lia|]. split; [apply tells_relation; apply tells_swapped in T; exact T | lia].
Qed.
Lemma subset_pattern f a b : related f Subset a b -> exists p, tells f (Nat.min a b) (Nat.max a b) p /\ Nat.min a b < Nat.max a b < valency f /\ wkey p = None /\ (if bvec_eqb p [true; true; false; true] then (Nat.max a b, Nat.min a b) else (Nat.min a b, Nat.max a b)) = (a, b).
Proof.
  intros (Ha & Hb & Ex & Nab). apply tells_relation in Ex. destruct (Nat.lt_total a b) as [L|[L|L]]; [| contradiction |].
  - exists [true; false; true; true]. rewrite Nat.min_l, Nat.max_r by lia. split; [exact Ex|]. split; [lia|]. split; reflexivity.
  - exists [true; true; false; true]. rewrite Nat.min_r, Nat.max_l by lia. split; [apply tells_swapped in Ex; exact Ex|]. split; [lia|]. split; reflexivity.
Qed.

(** the keys and the lists of the dictionary *)
Definition same_pairs (names : list name) (ks : list (nat * nat)) := map (named_pair names) ks.
Definition right_list (f : boolf) (names : list name) (w : text) (l : list (name * name)) : Prop :=
  l <> [] /\
  (w <> lit "subset" -> exists ks, StronglySorted pair_before ks /\ l = map (named_pair names) ks /\ forall a b, In (a, b) ks <-> exists r, w = shown r /\ related f r a b) /\
  (w = lit "subset" -> StronglySorted not_after l /\ exists ks, NoDup ks /\ Permutation l (map (named_pair names) ks) /\ forall a b, In (a, b) ks <-> related f Subset a b).

Lemma shown_inj r r' : (match r, r' with Other _ _ _ _, Other _ _ _ _ => True | Other _ _ _ _, _ | _, Other _ _ _ _ => False | _, _ => True end) -> shown r = shown r' -> r = r'.
Proof.
  destruct r as [| | | | | |n a b c], r' as [| | | | | |n' a' b' c']; cbn; intros [] E; try reflexivity; try discriminate E.
  assert (D : forall x y, digit x = digit y -> x = y) by (intros [] []; cbn; congruence). injection E as E1 E2 E3 E4. f_equal; apply D; assumption.
Qed.
Lemma shown_subset r : shown r = lit "subset" -> r = Subset.
Proof. destruct r; cbn; intro E; try discriminate E; reflexivity. Qed.

Lemma pairs_pretty_ok order f names unpretty : (forall l, Permutation (order l) l) -> valency f <= length names ->
  map fst unpretty = combinations2 (range (valency f)) -> (forall a b s, In ((a, b), s) unpretty -> tells f a b s) ->
  exists im, pairs_by_pattern order names unpretty = Ok im /\
  exists d, (let (pretty_pre, subset) := fold_left sort_pattern im ([], []) in
             in_order (if match subset with [] => false | _ => true end then dstore text_eqb pretty_pre (lit "subset") (isort (leb_of pair_compare) subset) else pretty_pre)) = d /\
    NoDup (map fst d) /\
    (forall w, In w (map fst d) <-> exists r a b, w = shown r /\ related f r a b) /\
    (forall w l, In (w, l) d -> right_list f names w l) /\
    exists rest, map fst d = filter (fun k => existsb (text_eqb k) (map fst d)) key_words ++ rest /\ forall w, In w rest -> ~ In w key_words.
Proof.
  intros Ho Hn Hk Ht.
  assert (R : forall a b s, In ((a, b), s) unpretty -> a < b < valency f) by (intros a b s H; apply pairs_range_In; rewrite <- Hk; change (a, b) with (fst ((a, b), s)); apply in_map, H).
  assert (Has : forall a b, a < b < valency f -> exists s, In ((a, b), s) unpretty).
  { intros a b H. apply pairs_range_In in H. rewrite <- Hk in H. apply in_map_iff in H as ([ab s] & E & H). cbn [fst] in E. subst ab. exists s. exact H. }
  destruct (by_pattern order names unpretty Ho) as (ps & Np & Ip & E); [intros a b s H; apply R in H; lia|].
  eexists. split; [exact E|]. eexists. split; [reflexivity|].
  assert (L4 : forall p, In p ps -> length p = 4). { intros p Hp. apply Ip, in_map_iff in Hp as ([[a b] s] & Es & H). cbn [snd] in Es. subst s. exact (proj1 (Ht a b p H)). }
  set (G := under names unpretty).
  rewrite (sort_patterns G ps [] [] Np L4) by (intros ? ? _ _ []). cbn [app]. cbv beta iota zeta.
  assert (Gin : forall p x, In x (G p) <-> exists a b, In ((a, b), p) unpretty /\ x = named_pair names (a, b)).
  { intros p x. unfold G, under. rewrite in_map_iff. split.
    - intros ([[a b] s] & <- & H). apply filter_In in H as [H Es]. cbn [snd] in Es. apply bvec_eqb_eq in Es. subst s. exists a, b. auto.
    - intros (a & b & H & ->). exists ((a, b), p). split; [reflexivity|]. apply filter_In. split; [exact H | apply bvec_eqb_eq; reflexivity]. }
  assert (Gne : forall p, In p ps -> G p <> []).
  { intros p Hp C. apply Ip, in_map_iff in Hp as ([[a b] s] & Es & H). cbn [snd] in Es. subst s. assert (X : In (named_pair names (a, b)) (G p)) by (apply Gin; eauto). rewrite C in X. destruct X. }
  assert (Gks : forall p, exists ks, StronglySorted pair_before ks /\ G p = map (named_pair names) ks /\ forall a b, In (a, b) ks <-> In ((a, b), p) unpretty).
  { intro p. exists (map fst (filter (fun kv => bvec_eqb (snd kv) p) unpretty)). split; [|split].
    - clear - Hk. assert (S := pairs_range_sorted (valency f)). rewrite <- Hk in S. clear Hk. induction unpretty as [|kv l IH]; cbn [filter map]; [constructor|]. cbn [map] in S. inversion S as [|? ? S' F]; subst.
      destruct (bvec_eqb (snd kv) p); [|apply IH, S']. cbn [map]. constructor; [apply IH, S'|]. apply Forall_forall. intros x Hx. apply in_map_iff in Hx as (y & <- & Hy). apply filter_In in Hy as [Hy _]. rewrite Forall_forall in F. apply F, in_map, Hy.
    - unfold G, under. rewrite map_map. reflexivity.
    - intros a b. rewrite in_map_iff. split.
      + intros ([ab s] & Eab & H). cbn [fst] in Eab. subst ab. apply filter_In in H as [H Es]. cbn [snd] in Es. apply bvec_eqb_eq in Es. subst s. exact H.
      + intro H. exists ((a, b), p). split; [reflexivity|]. apply filter_In. split; [exact H | apply bvec_eqb_eq; reflexivity]. }
  (* the subset list *)
  set (U := subsets G ps).
  assert (Uks : exists ks, NoDup ks /\ U = map (named_pair names) ks /\ forall a b, In (a, b) ks <-> related f Subset a b).
  { assert (X : forall qs, NoDup qs -> exists ks, NoDup ks /\ subsets G qs = map (named_pair names) ks /\
       forall a b, In (a, b) ks <-> exists p c d, In p qs /\ wkey p = None /\ In ((c, d), p) unpretty /\ (if bvec_eqb p [true; true; false; true] then (d, c) else (c, d)) = (a, b)).
    { induction qs as [|p qs IH]; intro Nq.
      - exists []. split; [constructor|]. split; [reflexivity|]. intros a b. split; [intros [] | intros (p & c & d & [] & _)].
      - inversion Nq as [|? ? Hpq Nq']; subst. destruct (IH Nq') as (ks & Nk & Ek & Ik). unfold subsets. cbn [flat_map]. fold (subsets G qs). destruct (wkey p) as [k|] eqn:Ew.
        + exists ks. split; [exact Nk|]. split; [exact Ek|]. intros a b. rewrite Ik. split; intros (q & c & d & Hq & Wq & H); exists q, c, d; [split; [right; exact Hq | auto]|]. destruct Hq as [<-|Hq]; [congruence | auto].
        + destruct (Gks p) as (kp & Sp & Ep & Jp). set (sw := fun ab : nat * nat => if bvec_eqb p [true; true; false; true] then (snd ab, fst ab) else ab).
          assert (Isw : forall x y, sw x = sw y -> x = y) by (intros [x1 x2] [y1 y2]; unfold sw; destruct (bvec_eqb p [true; true; false; true]); cbn; congruence).
          assert (Ik' : forall a b, In (a, b) (map sw kp) <-> exists c d, In ((c, d), p) unpretty /\ (if bvec_eqb p [true; true; false; true] then (d, c) else (c, d)) = (a, b)).
          { intros a b. rewrite in_map_iff. split; [intros ([c d] & Es & H); exists c, d; apply Jp in H; auto | intros (c & d & H & Es); exists (c, d); split; [exact Es | apply Jp, H]]. }
          exists (map sw kp ++ ks). split; [|split].
          * apply Proof_Numbers.NoDup_app3; [|exact Nk|].
            -- apply (FinFun.Injective_map_NoDup Isw). clear - Sp. induction Sp as [|x l S IH F]; constructor; [|exact IH]. intro H. rewrite Forall_forall in F. specialize (F x H). unfold pair_before in F. lia.
            -- intros [a b] H1 H2. apply Ik' in H1 as (c & d & H1 & E1). apply Ik in H2 as (q & c' & d' & Hq & Wq & H2 & E2).
               assert (R1 := R _ _ _ H1). assert (R2 := R _ _ _ H2). assert (T1 := Ht _ _ _ H1). assert (T2 := Ht _ _ _ H2).
               assert (c = c' /\ d = d') as [<- <-] by (destruct (bvec_eqb p [true; true; false; true]), (bvec_eqb q [true; true; false; true]); injection E1 as <- <-; injection E2 as E2 E3; lia).
               assert (p = q) by exact (tells_unique f c d p q T1 T2). subst q. contradiction.
          * rewrite map_app, Ek, Ep, !map_map. f_equal. apply map_ext. intros [c d]. unfold turned, sw, named_pair. destruct (bvec_eqb p [true; true; false; true]); reflexivity.
          * intros a b. rewrite in_app_iff, Ik', Ik. split.
            -- intros [(c & d & H)|(q & c & d & Hq & H)]; [exists p, c, d; split; [left; reflexivity | auto] | exists q, c, d; split; [right; exact Hq | exact H]].
            -- intros (q & c & d & [<-|Hq] & Wq & H); [left; eauto | right; exists q, c, d; auto]. }
    destruct (X ps Np) as (ks & Nk & Ek & Ik). exists ks. split; [exact Nk|]. split; [exact Ek|]. intros a b. rewrite Ik. split.
    - intros (p & c & d & Hp & Wp & H & Es). assert (Y := unworded f c d p (R _ _ _ H) (Ht _ _ _ H) Wp). destruct (bvec_eqb p [true; true; false; true]); injection Es as <- <-; exact Y.
    - intro Y. destruct (subset_pattern f a b Y) as (p & T & Hmm & Wp & Es). destruct (Has _ _ Hmm) as (s & Hs). assert (s = p) by exact (tells_unique f _ _ s p (Ht _ _ _ Hs) T). subst s.
      exists p, (Nat.min a b), (Nat.max a b). split; [apply Ip; change p with (snd ((Nat.min a b, Nat.max a b), p)); apply in_map, Hs | auto]. }
  destruct Uks as (ku & Nu & Eu & Iu).
  set (pre := if match U with [] => false | _ => true end then dstore text_eqb (keyed G ps) (lit "subset") (isort (leb_of pair_compare) U) else keyed G ps).
  assert (NK := keyed_NoDup G ps Np L4).
  assert (Ns : ~ In (lit "subset") (map fst (keyed G ps))). { intro H. apply keyed_keys in H as (p & Hp & Ew). exact (wkey_not_subset p (L4 p Hp) Ew). }
  assert (Epre : pre = keyed G ps ++ (match U with [] => [] | _ => [(lit "subset", isort (leb_of pair_compare) U)] end)).
  { unfold pre. destruct U; [symmetry; apply app_nil_r | apply (store_new text_eqb text_eqb_ok); exact Ns]. }
  assert (Npre : NoDup (map fst pre)).
  { rewrite Epre, map_app. apply Proof_Numbers.NoDup_app3; [exact NK | destruct U; repeat constructor; intros []|]. intros k H1 H2. destruct U; [destruct H2|]. destruct H2 as [<-|[]]. contradiction. }
  destruct (in_order_ok pre Npre) as (O1 & O2 & O3).
  assert (Wk : forall p k, In p ps -> wkey p = Some k -> forall a b, In ((a, b), p) unpretty <-> exists r, k = shown r /\ related f r a b).
  { intros p k Hp Ew a b. assert (Nk : k <> lit "subset") by (intros ->; exact (wkey_not_subset p (L4 p Hp) Ew)). split.
    - intro H. destruct (proj1 (worded_key f a b p k (R _ _ _ H) (Ht _ _ _ H)) Ew) as (r & _ & Y). exists r. exact Y.
    - intros (r & Er & Y). assert (Nr : r <> Subset) by (intros ->; apply Nk; exact Er). assert (Hab : a < b < valency f) by (destruct Y as (_ & ? & _ & Y); destruct r; try contradiction; lia).
      destruct (Has a b Hab) as (s & Hs). assert (Ews := proj2 (worded_key f a b s k Hab (Ht _ _ _ Hs)) (ex_intro _ r (conj Nr (conj Er Y)))).
      assert (s = p) by (apply (wkey_inj s p k); [exact (proj1 (Ht _ _ _ Hs)) | apply L4, Hp | exact Ews | exact Ew]). subst s. exact Hs. }
  assert (Lists : forall w l, In (w, l) pre -> right_list f names w l).
  { intros w l H. rewrite Epre in H. apply in_app_iff in H as [H|H].
    - unfold keyed in H. apply in_flat_map in H as (p & Hp & H). destruct (wkey p) as [k|] eqn:Ew; [|destruct H]. destruct H as [H|[]]. injection H as <- <-. split; [apply Gne, Hp|]. split.
      + intros _. destruct (Gks p) as (ks & Sk & Ek & Ik). exists ks. split; [exact Sk|]. split; [exact Ek|]. intros a b. rewrite Ik. apply (Wk p k Hp Ew).
      + intros ->. destruct (wkey_not_subset p (L4 p Hp) Ew).
    - destruct U as [|u U']; [destruct H|]. destruct H as [H|[]]. injection H as <- <-. split; [|split].
      + intro C. assert (P := isort_perm (leb_of pair_compare) (u :: U')). cbn [isort] in P. rewrite C in P. apply Permutation_sym, Permutation_nil in P. discriminate P.
      + intro C. contradiction.
      + intros _. split; [exact (subset_sorted (u :: U'))|]. exists ku. split; [exact Nu|]. split; [|exact Iu]. rewrite <- Eu. symmetry. exact (isort_perm (leb_of pair_compare) (u :: U')). }
  assert (Keys : forall w, In w (map fst pre) <-> exists r a b, w = shown r /\ related f r a b).
  { intro w. split.
    - intro H. apply in_map_iff in H as ([w' l] & <- & H). cbn [fst]. destruct (Lists w' l H) as (Ne & A & B). destruct (list_eq_dec Nat.eq_dec w' (lit "subset")) as [->|Nw].
      + destruct (B eq_refl) as (_ & ks & _ & P & Ik). destruct ks as [|[a b] ks]; [apply Permutation_sym, Permutation_nil in P; contradiction|]. exists Subset, a, b. split; [reflexivity | apply Ik; left; reflexivity].
      + destruct (A Nw) as (ks & _ & -> & Ik). destruct ks as [|[a b] ks]; [contradiction|]. destruct (proj1 (Ik a b) (or_introl eq_refl)) as (r & Er & Y). exists r, a, b. auto.
    - intros (r & a & b & -> & Y). rewrite Epre, map_app, in_app_iff. destruct (list_eq_dec Nat.eq_dec (shown r) (lit "subset")) as [Er|Nr].
      + right. apply shown_subset in Er. subst r. apply Iu in Y. destruct U as [|u U']; [destruct ku; [destruct Y | discriminate Eu] | left; reflexivity].
      + left. assert (Ns' : r <> Subset) by (intros ->; apply Nr; reflexivity). assert (Hab : a < b < valency f) by (destruct Y as (_ & ? & _ & Y); destruct r; try contradiction; lia).
        destruct (Has a b Hab) as (s & Hs). apply keyed_keys. exists s. split; [apply Ip; change s with (snd ((a, b), s)); apply in_map, Hs|]. apply (worded_key f a b s _ Hab (Ht _ _ _ Hs)). exists r. auto. }
  assert (SameKeys : forall w, In w (map fst (in_order pre)) <-> In w (map fst pre)) by (intro w; rewrite !in_map_iff; split; intros (x & Ex & H); exists x; (split; [exact Ex | apply O2, H])).
  split; [exact O1|]. split; [intro w; rewrite SameKeys; apply Keys|]. split; [intros w l H; apply Lists, O2, H|].
  exists (filter (fun k => negb (existsb (text_eqb k) key_words)) (map fst pre)). split.
  - rewrite O3 at 1. f_equal. apply filter_ext. intro k. apply eq_true_iff_eq. rewrite !(key_test text_eqb text_eqb_ok). symmetry. apply SameKeys.
  - intros w H C. apply filter_In in H as [_ H]. apply (key_test text_eqb text_eqb_ok) in C. rewrite C in H. discriminate H.
Qed.

(** * Names *)

Lemma text_set_kinds l : NoDup (text_set l) /\ forall t, In t (text_set l) <-> In t l.
Proof. split; [apply text_set_NoDup | apply text_set_In]. Qed.
Lemma chosen_ok f given names : chosen_names f given = Ok names <-> names_of f given names.
Proof.
  split.
  - unfold chosen_names. destruct given as [l|].
    + destruct (Nat.eqb_spec (length (text_set l)) (valency f)) as [E|]; [|discriminate]. intro H. apply Ok_inj in H. subst names. apply (given_names f l (text_set l)); [apply text_set_kinds | apply text_set_kinds | exact E].
    + intro H. destruct (atomvals f) as [|x l] eqn:E; [discriminate H|]. destruct (Nat.lt_ge_cases (fold_left Nat.max (x :: l) 0) 26) as [L|L].
      * assert (B := proj2 (proj1 (fold_max (x :: l) 0) L)). rewrite alphabet_ok in H; [|discriminate | exact B]. apply Ok_inj in H. subst names. rewrite <- E. apply letters; rewrite E; [discriminate | exact B].
      * unfold alphabet_subset in H. rewrite (proj2 (Nat.ltb_ge _ _)) in H by exact L. apply Ok_inj in H. subst names.
        assert (X : exists a, In a (x :: l) /\ 26 <= a).
        { destruct (Exists_dec (fun a => 26 <= a) (x :: l)) as [D|D]; [intro a; apply le_dec | apply Exists_exists in D; exact D|]. exfalso. apply (Nat.lt_irrefl 26). eapply Nat.le_lt_trans; [exact L|]. apply fold_max. split; [lia|].
          intros a Ha. destruct (Nat.lt_ge_cases a 26) as [|C]; [assumption|]. destruct D. apply Exists_exists. exists a. auto. }
        destruct X as (a & Ha & La). rewrite <- E in *. exact (numbers f a Ha La).
  - intro H. destruct H as [l kinds Nk Ik Lk|Ne B|a Ha La]; unfold chosen_names.
    + assert (E : length (text_set l) = valency f). { rewrite <- Lk. apply Permutation_length, NoDup_Permutation; [apply text_set_NoDup | exact Nk|]. intro t. rewrite text_set_In. symmetry. apply Ik. }
      rewrite (proj2 (Nat.eqb_eq _ _) E). reflexivity.
    + apply alphabet_ok; assumption.
    + exact (alphabet_numbers _ a Ha La).
Qed.
Lemma names_unique f given n1 n2 : names_of f given n1 -> names_of f given n2 -> n1 = n2.
Proof. intros H1 H2. apply chosen_ok in H1, H2. rewrite H1 in H2. apply Ok_inj, H2. Qed.
Lemma chosen_err f given : (~ exists names, names_of f given names) -> chosen_names f given = Err (match given with Some _ => ArgMismatchError | None => ValueErr end).
Proof.
  intro H. destruct (chosen_names f given) as [names|e] eqn:E; [destruct H; exists names; apply chosen_ok, E|]. unfold chosen_names in E. destruct given as [l|].
  - destruct (Nat.eqb (length (text_set l)) (valency f)); [discriminate E | exact (eq_sym E)].
  - destruct (atomvals f) as [|x l] eqn:Ea; [exact (eq_sym E)|]. exfalso. destruct (Nat.lt_ge_cases (fold_left Nat.max (x :: l) 0) 26) as [L|L].
    + rewrite alphabet_ok in E; [discriminate E | discriminate | apply (fold_max (x :: l) 0), L].
    + unfold alphabet_subset in E. rewrite (proj2 (Nat.ltb_ge _ _)) in E by exact L. discriminate E.
Qed.
Lemma names_length f given names : names_of f given names -> valency f <= length names.
Proof. intro H. apply chosen_ok in H. exact (names_enough f given names H). Qed.

(** * Keys to names *)

Lemma names_of_keys f given names keys : names_of f given names -> (forall k, In k keys -> k < valency f) -> mapM (fun k => lget names k) keys = Ok (map (named names) keys).
Proof. intros H Hk. apply mapM_ok. intros k Hi. apply lget_named. apply names_length in H. specialize (Hk k Hi). lia. Qed.

(** * Labels of blocks *)

Definition texts (names : list name) : Prop := forall a, In a names -> exists t, a = Txt t.
Definition text_of (a : name) : text := match a with Txt t => t | Num _ => [] end.
Definition label_text (names : list name) (keys : list nat) (label : list bool) : text :=
  spaced (map (fun kv => sign_char (snd kv) ++ text_of (named names (fst kv))) (combine keys label)).

Lemma join_spaced l : join_space l = spaced l.
Proof. induction l as [|t l IH]; [reflexivity|]. destruct l as [|u l]; [reflexivity|]. cbn [join_space spaced] in *. rewrite IH. reflexivity. Qed.
Lemma text_named names k : texts names -> k < length names -> name_text (named names k) = Ok (text_of (named names k)).
Proof. intros T H. destruct (T (named names k)) as (t & ->); [apply nth_In, H | reflexivity]. Qed.

Lemma enumerate_length {A} (l : list A) : length (enumerate l) = length l.
Proof. unfold enumerate. rewrite combine_length, seq_length. lia. Qed.
Lemma block_label_ok names keys label : texts names -> (forall k, In k keys -> k < length names) -> length keys = length label ->
  block_label (map (named names) keys) label = Ok (label_text names keys label).
Proof.
  intros T Hk L. unfold block_label, label_text.
  assert (X : mapM (fun pd : nat * bool => let* atomname := lget (map (named names) keys) (fst pd) in let* t := name_text atomname in Ok ((if snd pd then lit "+" else minus_sign) ++ t)) (enumerate label)
    = Ok (map (fun pd : nat * bool => sign_char (snd pd) ++ text_of (named names (nth (fst pd) keys 0))) (enumerate label))).
  { apply mapM_ok. intros [i b] Hi. cbn [fst snd]. assert (Li : i < length keys) by (rewrite L; apply enumerate_In in Hi; apply nth_error_Some; congruence).
    unfold lget. rewrite nth_error_map, (nth_error_nth' keys 0 Li). cbn [option_map bind]. rewrite (text_named names _ T) by (apply Hk, nth_In, Li). destruct b; reflexivity. }
  rewrite X. cbn [bind]. rewrite join_spaced. f_equal. f_equal.
  apply (nth_ext _ _ [] []); [rewrite !map_length, combine_length, enumerate_length; lia|]. intros i Hi. rewrite map_length, enumerate_length in Hi.
  set (g := fun pd : nat * bool => sign_char (snd pd) ++ text_of (named names (nth (fst pd) keys 0))). set (h := fun kv : nat * bool => sign_char (snd kv) ++ text_of (named names (fst kv))).
  rewrite (nth_indep _ [] (g (0, false))) by (rewrite map_length, enumerate_length; exact Hi). rewrite (nth_indep (map h _) [] (h (0, false))) by (rewrite map_length, combine_length; lia).
  rewrite !map_nth. rewrite combine_nth by exact L. unfold enumerate. rewrite combine_nth by apply seq_length. rewrite seq_nth by exact Hi. reflexivity.
Qed.

Lemma label_texts_inj names keys l m : length l = length keys -> length m = length keys -> label_text names keys l = label_text names keys m -> l = m.
Proof.
  revert l m. unfold label_text. induction keys as [|k keys IH]; intros l m L M E; [destruct l, m; try discriminate; reflexivity|].
  destruct l as [|x l], m as [|y m]; try discriminate. cbn [combine map fst snd] in E.
  assert (Sg : forall x y : bool, hd 0 (sign_char x) = hd 0 (sign_char y) -> x = y) by (intros [] []; cbn; congruence).
  assert (Lc : forall b, length (sign_char b) = 1) by (intros []; reflexivity).
  assert (Hd : forall (b : bool) t u rest, hd 0 (spaced ((sign_char b ++ t) :: u)) = hd 0 (sign_char b) /\ spaced ((sign_char b ++ t) :: u) = sign_char b ++ rest -> True) by trivial. clear Hd.
  destruct keys as [|k' keys].
  - destruct l, m; try discriminate. cbn [combine map spaced] in E. apply (f_equal (hd 0)) in E. f_equal. apply Sg. destruct x, y; cbn in *; congruence.
  - destruct l as [|x' l], m as [|y' m]; try discriminate.
    set (tl := map (fun kv : nat * bool => sign_char (snd kv) ++ text_of (named names (fst kv))) (combine (k' :: keys) (x' :: l))) in *.
    set (tm := map (fun kv : nat * bool => sign_char (snd kv) ++ text_of (named names (fst kv))) (combine (k' :: keys) (y' :: m))) in *.
    assert (El : spaced ((sign_char x ++ text_of (named names k)) :: tl) = sign_char x ++ text_of (named names k) ++ 32 :: spaced tl) by (unfold tl at 1; cbn [combine map spaced]; rewrite <- app_assoc; reflexivity).
    assert (Em : spaced ((sign_char y ++ text_of (named names k)) :: tm) = sign_char y ++ text_of (named names k) ++ 32 :: spaced tm) by (unfold tm at 1; cbn [combine map spaced]; rewrite <- app_assoc; reflexivity).
    rewrite El, Em in E. assert (Exy : x = y) by (apply Sg; apply (f_equal (hd 0)) in E; destruct x, y; cbn in *; congruence). subst y. f_equal. apply app_inv_head in E. apply app_inv_head in E. injection E as E. apply IH; [cbn in *; lia | cbn in *; lia | exact E].
Qed.
