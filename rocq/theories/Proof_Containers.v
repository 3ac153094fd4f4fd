(** Proof_Containers: key_tuples and flatten walk through nested containers. *)

From Coq Require Import List Arith ZArith Bool Lia Sorted.
From Verif Require Import Model_Base Model_Helpers Spec_Helpers Lib.
Import ListNotations.
Open Scope nat_scope.

Definition children (c : item) : list (nat * item) :=
  match c with
  | Other => []
  | Lst l => combine (seq 0 (length l)) l
  | Dct l => l
  end.

Lemma nth_error_combine_seq {A} (l : list A) : forall k i,
  nth_error (combine (seq k (length l)) l) i =
  match nth_error l i with Some v => Some (k + i, v) | None => None end.
Proof.
  induction l as [|a l IH]; intros k [|i]; cbn; try reflexivity.
  - now rewrite Nat.add_0_r.
  - rewrite IH. destruct (nth_error l i); [|reflexivity]. do 2 f_equal. lia.
Qed.

Lemma child_children c i : child c i = nth_error (children c) i.
Proof.
  destruct c; cbn; [now destruct i | | reflexivity].
  now rewrite nth_error_combine_seq.
Qed.

Fixpoint item_ind' (P : item -> Prop) (H0 : P Other) (HL : forall l, Forall P l -> P (Lst l))
  (HD : forall l, Forall (fun kv => P (snd kv)) l -> P (Dct l)) (c : item) : P c :=
  match c with
  | Other => H0
  | Lst l => HL l ((fix go l : Forall P l :=
      match l with [] => Forall_nil _ | v :: l' => Forall_cons _ (item_ind' P H0 HL HD v) (go l') end) l)
  | Dct l => HD l ((fix go l : Forall (fun kv => P (snd kv)) l :=
      match l with [] => Forall_nil _ | v :: l' => Forall_cons _ (item_ind' P H0 HL HD (snd v)) (go l') end) l)
  end.

Lemma item_ind_children (P : item -> Prop) :
  (forall c, Forall (fun kv => P (snd kv)) (children c) -> P c) -> forall c, P c.
Proof.
  intros H c. induction c as [|l IH|l IH] using item_ind'; apply H; cbn.
  - constructor.
  - generalize 0. induction IH as [|v l Hv _ IHl]; intros k; cbn; constructor; auto.
  - exact IH.
Qed.

Definition leafb (v : item) : bool := match children v with [] => true | _ => false end.

Lemma leafb_spec v : leafb v = true <-> is_leaf v.
Proof.
  unfold leafb, is_leaf. split.
  - intros H i. rewrite child_children. destruct (children v); [now destruct i | discriminate].
  - intros H. specialize (H 0). rewrite child_children in H. now destruct (children v).
Qed.

Definition step (key : nat) (nested : res (list (list nat))) : res (list (list nat)) :=
  match nested with
  | Ok nested_tuples => Ok (map (fun nested_tuple => key :: nested_tuple) nested_tuples)
  | Err ItemNotContainerFail | Err ItemEmptyContainerFail => Ok [[key]]
  | Err e => Err e
  end.
Fixpoint go (l : list (nat * item)) : res (list (list nat)) :=
  match l with
  | [] => Ok []
  | (key, val) :: l' =>
      let* tuples := step key (key_tuples val true) in
      let* rest := go l' in
      Ok (tuples ++ rest)
  end.

Fixpoint go_list (key : nat) (l : list item) : res (list (list nat)) :=
  match l with
  | [] => Ok []
  | val :: l' =>
      let* tuples := step key (key_tuples val true) in
      let* rest := go_list (S key) l' in
      Ok (tuples ++ rest)
  end.

Lemma go_list_go l : forall k, go_list k l = go (combine (seq k (length l)) l).
Proof.
  induction l as [|v l IH]; intros k; [reflexivity|].
  cbn [length seq combine go go_list]. now rewrite IH.
Qed.

Lemma key_tuples_go c r : leafb c = false -> key_tuples c r = go (children c).
Proof.
  intros H. destruct c as [|[|v l]|[|v l]]; try discriminate.
  - transitivity (go_list 0 (v :: l)); [reflexivity | apply go_list_go].
  - reflexivity.
Qed.

(* the tuples below an object, the empty one for a leaf *)
Definition below (v : item) : list (list nat) := match key_tuples v true with Ok ts => ts | Err _ => [[]] end.

Lemma key_tuples_ok c :
  (leafb c = true -> key_tuples c true = Err ItemNotContainerFail \/ key_tuples c true = Err ItemEmptyContainerFail) /\
  (leafb c = false -> forall r, key_tuples c r = Ok (flat_map (fun kv => map (cons (fst kv)) (below (snd kv))) (children c))).
Proof.
  induction c as [c IH] using item_ind_children. split.
  - destruct c as [|[|]|[|]]; cbn; intros; try discriminate; auto.
  - intros H r. rewrite key_tuples_go by exact H. clear H.
    induction IH as [|[k v] l [Hv1 Hv2] _ IHl]; [reflexivity|].
    cbn [go flat_map fst snd] in *. rewrite IHl.
    assert (B : below v = match key_tuples v true with Ok ts => ts | Err _ => [[]] end) by reflexivity.
    rewrite B. destruct (leafb v) eqn:L.
    + destruct (Hv1 eq_refl) as [E|E]; rewrite E; reflexivity.
    + rewrite (Hv2 eq_refl true). reflexivity.
Qed.

(* positions instead of keys; the fuel-free form is given by its equation *)
Inductive paths : item -> list (list nat) -> Prop :=
| paths_leaf v : leafb v = true -> paths v [[]]
| paths_node v ps : leafb v = false -> Forall2 (fun kv p => paths (snd kv) p) (children v) ps ->
    paths v (concat (map (fun ip : nat * list (list nat) => map (cons (fst ip)) (snd ip)) (combine (seq 0 (length ps)) ps))).

Lemma paths_exist c : exists ps, paths c ps.
Proof.
  induction c as [c IH] using item_ind_children.
  destruct (leafb c) eqn:L; [eexists; now apply paths_leaf|].
  assert (H : exists ps, Forall2 (fun kv p => paths (snd kv) p) (children c) ps).
  { clear L. induction IH as [|kv l [p Hp] _ [ps IHl]]; [exists []; constructor|]. exists (p :: ps). now constructor. }
  destruct H as [ps H]. eexists. now apply (paths_node c ps).
Qed.

Lemma concat_positions (ps : list (list (list nat))) : forall k p,
  In p (concat (map (fun ip : nat * list (list nat) => map (cons (fst ip)) (snd ip)) (combine (seq k (length ps)) ps))) <->
  exists i q l, p = (k + i) :: q /\ nth_error ps i = Some l /\ In q l.
Proof.
  induction ps as [|l ps IH]; intros k p; cbn.
  - split; [tauto|]. intros [[|i] [q [l [_ [H _]]]]]; discriminate.
  - rewrite in_app_iff, IH, in_map_iff. split.
    + intros [[q [<- H]]|[i [q [l' [-> [H1 H2]]]]]].
      * exists 0, q, l. rewrite Nat.add_0_r. auto.
      * exists (S i), q, l'. split; [f_equal; lia | auto].
    + intros [[|i] [q [l' [-> [H1 H2]]]]].
      * left. injection H1 as ->. exists q. rewrite Nat.add_0_r. auto.
      * right. exists i, q, l'. split; [f_equal; lia | auto].
Qed.

Lemma Forall2_nth_error {A B} (R : A -> B -> Prop) l1 l2 : Forall2 R l1 l2 -> forall i,
  match nth_error l1 i, nth_error l2 i with Some a, Some b => R a b | None, None => True | _, _ => False end.
Proof. induction 1; intros [|i]; cbn; auto. apply IHForall2. Qed.

Lemma paths_In : forall c ps, paths c ps ->
  forall p, In p ps <-> exists ks v, walk c p = Some (ks, v) /\ is_leaf v.
Proof.
  induction c as [c IH] using item_ind_children. intros ps H p. destruct H as [c L|c ps L F].
  - cbn. split.
    + intros [<-|[]]. cbn. exists [], c. split; [reflexivity|]. now apply leafb_spec.
    + intros [ks [v [W _]]]. left. destruct p as [|i p]; [reflexivity|]. cbn in W.
      apply leafb_spec in L. now rewrite L in W.
  - rewrite concat_positions. cbn. split.
    + intros [i [q [l [-> [H1 H2]]]]]. pose proof (Forall2_nth_error _ _ _ F i) as X. rewrite H1 in X.
      cbn. rewrite child_children. destruct (nth_error (children c) i) as [[k v]|] eqn:E; [|destruct X].
      cbn [snd] in X. rewrite Forall_forall in IH. apply nth_error_In in E.
      apply (IH _ E l X q) in H2. cbn [snd] in H2. destruct H2 as [ks [w [W Lw]]]. rewrite W. eauto.
    + intros [ks [v [W Lv]]]. destruct p as [|i q].
      * cbn in W. injection W as <- <-. apply leafb_spec in Lv. congruence.
      * cbn in W. rewrite child_children in W. pose proof (Forall2_nth_error _ _ _ F i) as X.
        destruct (nth_error (children c) i) as [[k w]|] eqn:E; [|discriminate].
        destruct (nth_error ps i) as [l|] eqn:E2; [|destruct X]. cbn [snd] in X.
        exists i, q, l. split; [reflexivity|]. split; [exact E2|].
        rewrite Forall_forall in IH. apply nth_error_In in E. apply (IH _ E l X q). cbn [snd].
        destruct (walk w q) as [[ks' x]|]; [|discriminate]. injection W as <- <-. eauto.
Qed.

Lemma sorted_map_cons i l : StronglySorted lex_before l -> StronglySorted lex_before (map (cons i) l).
Proof.
  induction 1 as [|p l _ IH F]; cbn; constructor; [exact IH|].
  rewrite Forall_map. eapply Forall_impl; [|exact F]. intros q. apply lex_tail.
Qed.

Lemma sorted_app {A} (R : A -> A -> Prop) l1 l2 :
  StronglySorted R l1 -> StronglySorted R l2 -> (forall a b, In a l1 -> In b l2 -> R a b) -> StronglySorted R (l1 ++ l2).
Proof.
  intros H1 H2 H. induction H1 as [|a l _ IH F]; cbn; [exact H2|]. constructor.
  - apply IH. intros; apply H; [now right | assumption].
  - apply Forall_app. split; [exact F|]. apply Forall_forall. intros b Hb. apply H; [now left | exact Hb].
Qed.

Lemma concat_sorted (ps : list (list (list nat))) : Forall (StronglySorted lex_before) ps -> forall k,
  StronglySorted lex_before (concat (map (fun ip : nat * list (list nat) => map (cons (fst ip)) (snd ip)) (combine (seq k (length ps)) ps))).
Proof.
  induction 1 as [|l ps Hl _ IH]; intros k; cbn; [constructor|].
  apply sorted_app; [now apply sorted_map_cons | apply IH|].
  intros a b Ha Hb. apply in_map_iff in Ha. destruct Ha as [q [<- _]].
  apply concat_positions in Hb. destruct Hb as [i [q' [l' [-> _]]]]. apply lex_head. lia.
Qed.

Lemma paths_sorted : forall c ps, paths c ps -> StronglySorted lex_before ps.
Proof.
  induction c as [c IH] using item_ind_children. intros ps H. destruct H as [c L|c ps L F].
  - repeat constructor.
  - apply concat_sorted. clear L. induction F as [|kv l' ls ps' H F' IHF]; [constructor|].
    inversion_clear IH as [|? ? I1 I2]. constructor; auto.
Qed.

Lemma paths_keys : forall c ps, paths c ps ->
  map (fun p => option_map fst (walk c p)) ps = map Some (below c).
Proof.
  induction c as [c IH] using item_ind_children. intros ps H. destruct H as [c L|c ps L F].
  - unfold below. destruct (proj1 (key_tuples_ok c) L) as [E|E]; rewrite E; reflexivity.
  - unfold below. rewrite (proj2 (key_tuples_ok c) L true).
    assert (G : forall cs ps', Forall2 (fun kv p => paths (snd kv) p) cs ps' ->
      Forall (fun kv => forall ps, paths (snd kv) ps ->
                map (fun p => option_map fst (walk (snd kv) p)) ps = map Some (below (snd kv))) cs ->
      forall k, (forall i, nth_error (children c) (k + i) = nth_error cs i) ->
      map (fun p => option_map fst (walk c p))
        (concat (map (fun ip : nat * list (list nat) => map (cons (fst ip)) (snd ip)) (combine (seq k (length ps')) ps'))) =
      map Some (flat_map (fun kv => map (cons (fst kv)) (below (snd kv))) cs)).
    2: { exact (G (children c) ps F IH 0 (fun i => eq_refl)). }
    clear -L. induction 1 as [|[key v] p cs ps Hp F IHF]; intros IH k Hk; [reflexivity|].
    inversion_clear IH as [|? ? I1 I2].
    cbn [length seq combine map concat flat_map fst snd] in *.
    rewrite !map_app. f_equal.
    + rewrite !map_map. specialize (Hk 0). cbn in Hk. rewrite Nat.add_0_r in Hk.
      specialize (I1 p Hp). cbn [snd] in I1.
      transitivity (map (option_map (cons key)) (map (fun p => option_map fst (walk v p)) p)).
      * rewrite map_map. apply map_ext. intros q. cbn. rewrite child_children, Hk.
        destruct (walk v q) as [[ks x]|]; reflexivity.
      * rewrite I1, map_map. reflexivity.
    + apply IHF; [exact I2|]. intros i. specialize (Hk (S i)). cbn in Hk. rewrite <- Hk. f_equal. lia.
Qed.

Theorem key_tuples_correct c : c <> Other -> exists ts ps,
  key_tuples c false = Ok ts /\
  StronglySorted lex_before ps /\
  (forall p, In p ps <-> leaf_path c p) /\
  map (fun p => option_map fst (walk c p)) ps = map Some ts.
Proof.
  intros N. destruct (leafb c) eqn:L.
  - exists [], []. split; [destruct c as [|[|]|[|]]; try discriminate; try reflexivity; congruence|].
    split; [constructor|]. split; [|reflexivity]. intros p. split; [intros []|].
    intros [Hp [ks [v [W _]]]]. destruct p as [|i p]; [congruence|]. cbn in W.
    apply leafb_spec in L. now rewrite L in W.
  - destruct (paths_exist c) as [ps H]. exists (below c), ps.
    split; [unfold below; now rewrite !(proj2 (key_tuples_ok c) L)|].
    split; [now apply (paths_sorted c)|]. split; [|now apply paths_keys].
    intros p. rewrite (paths_In c ps H p). unfold leaf_path. split; [|tauto].
    intros [ks [v [W Lv]]]. split; [|eauto]. intros ->. cbn in W. injection W as <- <-.
    apply leafb_spec in Lv. congruence.
Qed.

Lemma key_tuples_other : key_tuples Other false = Err ArgNotContainerError.
Proof. reflexivity. Qed.

(** ** Different keys *)

Lemma walk_inj : forall p c q ks v w, unique_keys c -> walk c p = Some (ks, v) -> walk c q = Some (ks, w) -> p = q.
Proof.
  induction p as [|i p IH]; intros c q ks v w U Wp Wq.
  - cbn in Wp. injection Wp as <- <-. destruct q as [|j q]; [reflexivity|]. cbn in Wq.
    destruct (child c j) as [[k x]|]; [|discriminate]. destruct (walk x q) as [[ks x']|]; discriminate.
  - destruct q as [|j q].
    + cbn in Wq. injection Wq as <- <-. cbn in Wp.
      destruct (child c i) as [[k x]|]; [|discriminate]. destruct (walk x p) as [[ks x']|]; discriminate.
    + cbn in Wp, Wq. destruct (child c i) as [[k x]|] eqn:Ci; [|discriminate].
      destruct (child c j) as [[k' x']|] eqn:Cj; [|discriminate].
      destruct (walk x p) as [[ks1 v1]|] eqn:W1; [|discriminate].
      destruct (walk x' q) as [[ks2 v2]|] eqn:W2; [|discriminate].
      injection Wp as <- <-. injection Wq as -> -> <-.
      assert (i = j).
      { destruct U as [|l F|l ND F]; cbn in Ci, Cj; [discriminate| |].
        - destruct (nth_error l i); [|discriminate]. destruct (nth_error l j); [|discriminate]. congruence.
        - apply (proj1 (NoDup_nth_error (map fst l)) ND).
          + rewrite map_length. apply nth_error_Some. congruence.
          + rewrite !nth_error_map, Ci, Cj. reflexivity. }
      subst j. rewrite Ci in Cj. injection Cj as <-. f_equal.
      apply (IH x q ks1 v1 v2); [|assumption|assumption].
      destruct U as [|l F|l ND F]; cbn in Ci; [discriminate| |].
      * destruct (nth_error l i) eqn:E; [|discriminate]. injection Ci as <- ->.
        rewrite Forall_forall in F. apply F. now apply nth_error_In in E.
      * rewrite Forall_forall in F. apply (F (k, x)). now apply nth_error_In in Ci.
Qed.

Lemma lex_irrefl p : ~ lex_before p p.
Proof. induction p as [|x p IH]; intros H; inversion H; subst; [lia | auto]. Qed.

Lemma sorted_NoDup l : StronglySorted lex_before l -> NoDup l.
Proof.
  induction 1 as [|p l _ IH F]; constructor; [|exact IH]. intros I.
  rewrite Forall_forall in F. exact (lex_irrefl p (F p I)).
Qed.

Theorem key_tuples_different c ts : unique_keys c -> key_tuples c false = Ok ts -> NoDup ts.
Proof.
  intros U E. destruct (key_tuples_correct c) as [ts' [ps [E' [S [I M]]]]].
  { intros ->. discriminate. }
  rewrite E in E'. injection E' as <-.
  apply (NoDup_map_inv Some). rewrite <- M.
  apply sorted_NoDup in S. assert (I' : forall p, In p ps -> leaf_path c p) by (intros p; apply I). clear I M E.
  induction S as [|p ps N _ IH]; [constructor|]. cbn. constructor.
  - rewrite in_map_iff. intros [q [Eq Iq]]. apply N.
    destruct (I' p (or_introl eq_refl)) as [_ [ks [v [W _]]]].
    destruct (I' q (or_intror Iq)) as [_ [ks' [v' [W' _]]]].
    rewrite W, W' in Eq. injection Eq as ->. now rewrite (walk_inj _ _ _ _ _ _ U W W').
  - apply IH. intros; apply I'; now right.
Qed.

(** ** flatten *)

Section Flatten.
Context {A : Type}.

Fixpoint nested_ind' (P : nested A -> Prop) (HV : forall a, P (Val a)) (HS : forall l, Forall P l -> P (Seq l))
  (x : nested A) : P x :=
  match x with
  | Val a => HV a
  | Seq l => HS l ((fix go l : Forall P l :=
      match l with [] => Forall_nil _ | v :: l' => Forall_cons _ (nested_ind' P HV HS v) (go l') end) l)
  end.

Lemma flatten_element_seq (l : list (nested A)) : flatten_element (Seq l) = flatten l.
Proof. cbn [flatten_element]. unfold flatten. induction l as [|x l IH]; [reflexivity|]. cbn. now rewrite IH. Qed.

Definition good (x : nested A) (ps : list (list nat)) : Prop :=
  StronglySorted lex_before ps /\
  (forall p, In p ps <-> exists a, nested_at x p = Some (Val a)) /\
  map (nested_at x) ps = map (fun a => Some (Val a)) (flatten_element x).

Lemma flatten_good (x : nested A) : exists ps, good x ps.
Proof.
  induction x as [a|l IH] using nested_ind'.
  - exists [[]]. split; [repeat constructor|]. split; [|reflexivity]. intros p. split.
    + intros [<-|[]]. exists a. reflexivity.
    + intros [b H]. left. now destruct p.
  - assert (H : exists ps, Forall2 good l ps).
    { induction IH as [|v l [p Hp] _ [ps IHl]]; [exists []; constructor|]. exists (p :: ps). now constructor. }
    destruct H as [ps F]. clear IH.
    exists (concat (map (fun ip : nat * list (list nat) => map (cons (fst ip)) (snd ip)) (combine (seq 0 (length ps)) ps))).
    split; [|split].
    + apply concat_sorted. induction F as [|x p l ps [H _] _ IH]; constructor; assumption.
    + intros p. rewrite concat_positions. split.
      * intros [i [q [p' [-> [H1 H2]]]]]. pose proof (Forall2_nth_error _ _ _ F i) as X. rewrite H1 in X.
        cbn. destruct (nth_error l i) as [y|]; [|destruct X]. apply X. exact H2.
      * intros [a W]. destruct p as [|i q]; [discriminate|]. cbn in W. pose proof (Forall2_nth_error _ _ _ F i) as X.
        destruct (nth_error l i) as [y|]; [|discriminate]. destruct (nth_error ps i) as [p'|] eqn:E; [|destruct X].
        exists i, q, p'. split; [reflexivity|]. split; [exact E|]. apply X. eauto.
    + rewrite flatten_element_seq.
      assert (G : forall k l' ps', Forall2 good l' ps' -> (forall i, nth_error l (k + i) = nth_error l' i) ->
        map (nested_at (Seq l)) (concat (map (fun ip : nat * list (list nat) => map (cons (fst ip)) (snd ip)) (combine (seq k (length ps')) ps'))) =
        map (fun a => Some (Val a)) (flatten l')).
      { intros k l' ps' F'. revert k. induction F' as [|x p l' ps' [_ [_ Hx]] _ IH]; intros k Hk; [reflexivity|].
        unfold flatten in *. cbn [length seq combine map concat flat_map fst snd]. rewrite !map_app. f_equal.
        - rewrite <- Hx, map_map. apply map_ext. intros q. cbn. specialize (Hk 0). rewrite Nat.add_0_r in Hk.
          now rewrite Hk.
        - apply IH. intros i. specialize (Hk (S i)). cbn in Hk. rewrite <- Hk. f_equal. lia. }
      apply (G 0 l ps F). reflexivity.
Qed.

Theorem flatten_correct (l : list (nested A)) : exists ps,
  StronglySorted lex_before ps /\
  (forall p, In p ps <-> exists a, nested_at (Seq l) p = Some (Val a)) /\
  map (nested_at (Seq l)) ps = map (fun a => Some (Val a)) (flatten l).
Proof. destruct (flatten_good (Seq l)) as [ps H]. exists ps. now rewrite <- flatten_element_seq. Qed.

End Flatten.
