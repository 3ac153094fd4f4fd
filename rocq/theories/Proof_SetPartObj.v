(** Proof_SetPartObj: the objects that the methods of SetPart can make, and their
    invariant; the order; histories with all methods. *)

From Coq Require Import List Arith ZArith Bool Lia Permutation Sorting.Sorted Relations.
From Verif Require Import Model_Base Lib Model_SetPart Spec_SetPart Proof_SetPart Proof_SetPartMerge Proof_SetPartMore
  Proof_SetPartLattice Proof_SetPartLabels Proof_SetPartImproved.
Import ListNotations.
Open Scope Z_scope.

(** every method of the class that changes or makes an object; an exception of merge_pair,
    merge_many and the label methods may be caught and the object used further *)
Inductive any_op :=
| OpCore (op : sp_op) | OpRefine (new_blocks : list (list Z)) (new_labels : option (list Z))
| OpLabelBlock (block : list Z) (label : Z) | OpLabelElement (element label : Z).

Definition any_step (s : setpart) (op : any_op) : setpart :=
  match op with
  | OpCore op => sp_step s op
  | OpRefine nb nl => fst (refine_block s nb nl)
  | OpLabelBlock b l => fst (add_label_to_block s b l)
  | OpLabelElement e l => fst (add_label_to_element s e l)
  end.
Definition any_run (ops : list any_op) (s : setpart) : setpart := fold_left any_step ops s.

Inductive is_SetPart : setpart -> Prop :=
| obj_new bs dom ols s : sp_init no_caches bs dom ols = Ok s -> is_SetPart s
| obj_core s op : is_SetPart s -> is_SetPart (sp_step s op)
| obj_refine s nb nl s' : is_SetPart s -> refine_block s nb nl = (s', None) -> is_SetPart s'
| obj_label_block s b l : is_SetPart s -> is_SetPart (fst (add_label_to_block s b l))
| obj_label_element s e l : is_SetPart s -> is_SetPart (fst (add_label_to_element s e l))
| obj_meet s o m : is_SetPart s -> is_SetPart o -> meet s o = Ok m -> is_SetPart m
| obj_join order s o j : (forall l, Permutation (order l) l) -> is_SetPart s -> is_SetPart o ->
    join order s o = Ok j -> is_SetPart j.

Lemma bidict_of_labels d ls : bidict_of d = Ok ls -> labels_ok ls.
Proof.
  unfold bidict_of. enough (H : forall a, labels_ok a ->
    foldM (fun acc p => label_put acc (fst p) (snd p)) d a = Ok ls -> labels_ok ls).
  { apply H. split; constructor. }
  induction d as [|[b l] d IH]; intros a Ha E; cbn in E; [congruence|].
  apply bind_ok in E as (a' & E1 & E2). apply (IH a'); [eapply label_put_ok; eassumption | exact E2].
Qed.

Lemma sp_init_labelled bs dom ols s : sp_init no_caches bs dom ols = Ok s -> sp_wf s.
Proof.
  intro E. destruct ols as [d|]; [|refine (sp_init_wf _ _ _ None _ _ E); split; constructor].
  destruct (bidict_of d) as [ls|e] eqn:Ed.
  - assert (Hl := bidict_of_labels d ls Ed).
    assert (E' : sp_init no_caches bs dom (Some ls) = Ok s).
    { rewrite <- E. unfold sp_init. rewrite Ed, (bidict_of_ok ls Hl). reflexivity. }
    exact (sp_init_wf _ _ _ (Some ls) _ Hl E').
  - assert (E' : sp_init no_caches bs dom None = Ok s).
    { rewrite <- E. clear -Ed E. unfold sp_init in *. destruct (match bs with Some _ => _ | None => _ end); [reflexivity|].
      apply bind_ok in E as (u & E1 & E). rewrite Ed in E. apply bind_ok in E as (v & E2 & E). cbn in E. discriminate. }
    refine (sp_init_wf _ _ _ None _ _ E'). split; constructor.
Qed.

Lemma sp_step_wf s op : sp_wf s -> sp_wf (sp_step s op).
Proof.
  intro W. destruct op as [a b|many| | | |]; cbn [sp_step].
  - destruct (merge_pair_spec s a b W) as (s' & e & -> & W' & _). exact W'.
  - destruct (merge_many_spec s many W) as (s' & e & dn & -> & W' & _). exact W'.
  - exact (same_core_wf _ _ (read_pairs_core s) W).
  - exact (same_core_wf _ _ (read_intval_core s) W).
  - exact (same_core_wf _ _ (read_canonical_core s) W).
  - exact (same_core_wf _ _ (read_singletons_core s) W).
Qed.

Lemma set_labels_wf s ls : sp_wf s -> labels_ok ls -> sp_wf (set_labels s ls).
Proof. intros W H. destruct W. constructor; cbn; assumption. Qed.

Lemma label_block_wf s b l : sp_wf s -> sp_wf (fst (add_label_to_block s b l)) /\
  sp_blocks (fst (add_label_to_block s b l)) = sp_blocks s.
Proof.
  intro W. unfold add_label_to_block. assert (K := read_canonical_core s).
  destruct (read_canonical s) as [s1 [c|e]]; cbn [fst] in K; assert (W1 := same_core_wf _ _ K W);
    destruct K as (_ & Kb & _); [|auto].
  destruct (negb _); [auto|].
  assert (G : sp_wf (fst (match label_put (sp_labels s1) b l with
                        | Ok ls => (set_labels s1 ls, None) | Err e => (s1, Some e) end)) /\
              sp_blocks (fst (match label_put (sp_labels s1) b l with
                        | Ok ls => (set_labels s1 ls, None) | Err e => (s1, Some e) end)) = sp_blocks s).
  { destruct (label_put (sp_labels s1) b l) as [ls|e] eqn:E; cbn [fst]; [|auto]. split; [|exact Kb].
    apply set_labels_wf; [exact W1|]. eapply label_put_ok; [apply W1 | exact E]. }
  destruct (label_get (sp_labels s1) b) as [old|]; [destruct (Z.eqb old l)|]; auto.
Qed.

Lemma label_element_wf s e l : sp_wf s -> sp_wf (fst (add_label_to_element s e l)).
Proof.
  intro W. unfold add_label_to_element. destruct (negb _); [exact W|].
  match goal with |- context [if ?c then _ else _] => destruct c end; [exact W|].
  destruct (get_block_from_label s l) as [bl|].
  - match goal with |- context [merge_pair s ?a ?b] => destruct (merge_pair_spec s a b W) as (s' & x & -> & W' & _) end. exact W'.
  - apply label_block_wf, W.
Qed.

Lemma is_SetPart_wf s : is_SetPart s -> sp_wf s.
Proof.
  induction 1.
  - eapply sp_init_labelled; eassumption.
  - apply sp_step_wf; assumption.
  - destruct (refine_block_spec s nb nl s' IHis_SetPart H0) as (_ & W & _). exact W.
  - apply label_block_wf; assumption.
  - apply label_element_wf; assumption.
  - unfold meet in H1. destruct (domain_eqb (sp_domain s) (sp_domain o)) eqn:E; [|discriminate].
    destruct (meet_spec s o IHis_SetPart1 IHis_SetPart2 E) as (m' & E' & W & _).
    unfold meet in E'. rewrite E in E'. congruence.
  - destruct (join_spec s o IHis_SetPart1 IHis_SetPart2 order H) as (j' & E' & W & _). congruence.
Qed.

(** ** the order on partitions of the naturals *)

Lemma blocks_same_eq s o : sp_wf s -> sp_wf o ->
  (forall x y, same (sp_blocks s) x y <-> same (sp_blocks o) x y) -> sp_blocks s = sp_blocks o.
Proof.
  intros Ws Wo H. apply canonical_ext; [apply Ws | apply Wo|]. intros x y Hxy.
  specialize (H x y). unfold same in H. intuition congruence.
Qed.

Lemma sp_lt_spec order s o : (forall l, Permutation (order l) l) -> sp_wf s -> sp_wf o ->
  sp_domain s = DomN -> sp_domain o = DomN ->
  exists b, sp_lt order s o = Ok b /\
    (b = true <-> refines (same (sp_blocks s)) (same (sp_blocks o)) /\ ~ refines (same (sp_blocks o)) (same (sp_blocks s))).
Proof.
  intros Ho Ws Wo Ds Do. unfold sp_lt, sp_eq. rewrite Ds, Do. cbn [domain_eqb true_except bind].
  destruct (blocks_eqb (sp_blocks s) (sp_blocks o)) eqn:E.
  - apply blocks_eqb_eq in E. exists false. split; [reflexivity|]. split; [discriminate|].
    rewrite E. intros [_ H]. destruct H. intros x y; auto.
  - destruct (sp_le_spec order s o Ho Ws Wo Ds Do) as (b & Eb & Hb). exists b. split; [exact Eb|].
    rewrite Hb. split; [|tauto]. intro H. split; [exact H|]. intro H'.
    assert (Heq : sp_blocks s = sp_blocks o) by (apply blocks_same_eq; auto; intros x y; split; [apply H | apply H']).
    apply blocks_eqb_eq in Heq. congruence.
Qed.

(** ** caches under all methods *)

Definition cache_keep (c c' : caches) : Prop :=
  c_pairs c' = c_pairs c /\ c_intval c' = c_intval c /\ c_singletons c' = c_singletons c.
Definition needs_canonical (op : any_op) : bool :=
  match op with OpCore op => reads_canonical op | OpLabelBlock _ _ | OpLabelElement _ _ => true | _ => false end.
Definition needs_pairs (op : any_op) : bool := match op with OpCore op => reads_pairs op | _ => false end.
Definition needs_intval (op : any_op) : bool := match op with OpCore op => reads_intval op | _ => false end.
Definition needs_singletons (op : any_op) : bool := match op with OpCore op => reads_singletons op | _ => false end.

Lemma refine_caches s nb nl : cache_keep (sp_caches s) (sp_caches (fst (refine_block s nb nl))) /\
  (c_canonical (sp_caches s) = None -> c_canonical (sp_caches (fst (refine_block s nb nl))) = None).
Proof.
  unfold refine_block. destruct (negb _); [repeat split; auto|]. destruct (negb _); [repeat split; auto|].
  destruct nl as [ls|]; [|rewrite reinit_caches; repeat split; auto].
  destruct (negb _); [repeat split; auto|].
  set (s1 := mkSP _ _ _ _ _ _).
  assert (H : sp_caches (fst (iterate (fun s bl => match label_put (sp_labels s) (fst bl) (snd bl) with
                                     | Ok d => (set_labels s d, None)
                                     | Err e => (s, Some e)
                                     end) (combine nb ls) s1)) = sp_caches s).
  { apply (iterate_inv _ (fun s' => sp_caches s' = sp_caches s)); [|reflexivity].
    intros s2 [b l] <-. cbn [fst snd]. destruct (label_put (sp_labels s2) b l); reflexivity. }
  destruct (iterate _ _ s1) as [s2 [e|]]; cbn [fst] in *.
  - rewrite H. repeat split; auto.
  - rewrite reinit_caches, H. repeat split; auto.
Qed.

Lemma read_canonical_keep s : cache_keep (sp_caches s) (sp_caches (fst (read_canonical s))).
Proof.
  unfold read_canonical. destruct (c_canonical (sp_caches s)); [repeat split; auto|].
  destruct (blocks_with_singletons s BwsNone); repeat split; auto.
Qed.
Lemma label_block_caches s b l : cache_keep (sp_caches s) (sp_caches (fst (add_label_to_block s b l))).
Proof.
  unfold add_label_to_block. assert (K := read_canonical_keep s). destruct (read_canonical s) as [s1 [c|e]]; [|exact K].
  cbn [fst] in K. destruct (negb _); [exact K|].
  destruct (label_get (sp_labels s1) b) as [old|]; [destruct (Z.eqb old l)|];
    try destruct (label_put (sp_labels s1) b l); exact K.
Qed.

Lemma any_step_caches s op :
  let c := sp_caches s in let c' := sp_caches (any_step s op) in
  ((needs_pairs op = false \/ c_pairs c <> None) -> c_pairs c' = c_pairs c) /\
  ((needs_intval op = false \/ c_intval c <> None) -> c_intval c' = c_intval c) /\
  ((needs_singletons op = false \/ c_singletons c <> None) -> c_singletons c' = c_singletons c) /\
  (needs_canonical op = false -> c_canonical c = None -> c_canonical c' = None).
Proof.
  cbn zeta. destruct op as [op|nb nl|b l|e l]; cbn [any_step needs_pairs needs_intval needs_singletons needs_canonical].
  - apply sp_step_caches.
  - destruct (refine_caches s nb nl) as ((K1 & K2 & K3) & K4). auto.
  - destruct (label_block_caches s b l) as (K1 & K2 & K3). repeat split; auto. discriminate.
  - assert (K : cache_keep (sp_caches s) (sp_caches (fst (add_label_to_element s e l)))).
    { unfold add_label_to_element. destruct (negb _); [repeat split; auto|].
      match goal with |- context [if ?c then _ else _] => destruct c end; [repeat split; auto|].
      destruct (get_block_from_label s l) as [bl|]; [|apply label_block_caches].
      match goal with |- context [merge_pair s ?a ?b] => destruct (merge_pair_caches s a b) as (K1 & K2 & K3 & _) end.
      repeat split; auto. }
    destruct K as (K1 & K2 & K3). repeat split; auto. discriminate.
Qed.

Lemma any_run_absent ops s :
  let s' := any_run ops s in
  (forallb (fun op => negb (needs_pairs op)) ops = true -> c_pairs (sp_caches s) = None -> c_pairs (sp_caches s') = None) /\
  (forallb (fun op => negb (needs_intval op)) ops = true -> c_intval (sp_caches s) = None -> c_intval (sp_caches s') = None) /\
  (forallb (fun op => negb (needs_singletons op)) ops = true -> c_singletons (sp_caches s) = None -> c_singletons (sp_caches s') = None) /\
  (forallb (fun op => negb (needs_canonical op)) ops = true -> c_canonical (sp_caches s) = None -> c_canonical (sp_caches s') = None).
Proof.
  cbn zeta. revert s; induction ops as [|op ops IH]; intro s; cbn [any_run fold_left forallb]; [auto|].
  fold (any_run ops (any_step s op)). destruct (IH (any_step s op)) as (I1 & I2 & I3 & I4).
  destruct (any_step_caches s op) as (S1 & S2 & S3 & S4). cbn zeta in *.
  repeat split; intros H Hc; apply andb_true_iff in H as [H H']; apply negb_true_iff in H.
  - apply I1; [exact H'|]. rewrite S1; auto.
  - apply I2; [exact H'|]. rewrite S2; auto.
  - apply I3; [exact H'|]. rewrite S3; auto.
  - apply I4; [exact H'|]. apply S4; auto.
Qed.

Lemma any_run_frozen ops s :
  let s' := any_run ops s in
  (c_pairs (sp_caches s) <> None -> c_pairs (sp_caches s') = c_pairs (sp_caches s)) /\
  (c_intval (sp_caches s) <> None -> c_intval (sp_caches s') = c_intval (sp_caches s)) /\
  (c_singletons (sp_caches s) <> None -> c_singletons (sp_caches s') = c_singletons (sp_caches s)).
Proof.
  cbn zeta. revert s; induction ops as [|op ops IH]; intro s; cbn [any_run fold_left]; [auto|].
  fold (any_run ops (any_step s op)). destruct (IH (any_step s op)) as (I1 & I2 & I3).
  destruct (any_step_caches s op) as (S1 & S2 & S3 & S4). cbn zeta in *.
  repeat split; intro H.
  - rewrite <- S1 in H |- * by auto. apply I1, H.
  - rewrite <- S2 in H |- * by auto. apply I2, H.
  - rewrite <- S3 in H |- * by auto. apply I3, H.
Qed.

Lemma read_pairs_frozen ops s :
  snd (read_pairs (any_run ops (fst (read_pairs s)))) = snd (read_pairs s).
Proof.
  destruct (any_run_frozen ops (fst (read_pairs s))) as (H & _).
  assert (E : c_pairs (sp_caches (fst (read_pairs s))) = Some (snd (read_pairs s))).
  { unfold read_pairs. destruct (c_pairs (sp_caches s)) eqn:E; [exact E | reflexivity]. }
  rewrite E in H. specialize (H ltac:(discriminate)). unfold read_pairs at 1. rewrite H. reflexivity.
Qed.
Lemma read_intval_frozen ops s :
  snd (read_intval (any_run ops (fst (read_intval s)))) = snd (read_intval s).
Proof.
  destruct (any_run_frozen ops (fst (read_intval s))) as (_ & H & _).
  assert (E : c_intval (sp_caches (fst (read_intval s))) = Some (snd (read_intval s))).
  { unfold read_intval. destruct (c_intval (sp_caches s)) eqn:E; [exact E|]. destruct (read_pairs s). reflexivity. }
  rewrite E in H. specialize (H ltac:(discriminate)). unfold read_intval at 1. rewrite H. reflexivity.
Qed.
Lemma read_singletons_frozen ops s l : snd (read_singletons s) = Ok l ->
  snd (read_singletons (any_run ops (fst (read_singletons s)))) = Ok l.
Proof.
  intro El. destruct (any_run_frozen ops (fst (read_singletons s))) as (_ & _ & H).
  assert (E : c_singletons (sp_caches (fst (read_singletons s))) = Some l).
  { unfold read_singletons in *. destruct (c_singletons (sp_caches s)) eqn:E; [cbn in *; congruence|].
    destruct (sp_domain s); try discriminate. cbn in *. congruence. }
  rewrite E in H. specialize (H ltac:(discriminate)). unfold read_singletons at 1. rewrite H. reflexivity.
Qed.

(** fresh reads describe the blocks *)
Lemma fresh_pairs s a b : sp_wf s -> c_pairs (sp_caches s) = None ->
  In (a, b) (snd (read_pairs s)) <-> a < b /\ together (sp_blocks s) a b.
Proof. intros W H. unfold read_pairs. rewrite H. cbn [snd]. apply pairs_of_In, W. Qed.
Lemma fresh_intval s : c_pairs (sp_caches s) = None -> c_intval (sp_caches s) = None ->
  snd (read_intval s) = intval_of (pairs_of (sp_blocks s)).
Proof. intros H1 H2. unfold read_intval, read_pairs. rewrite H1, H2. reflexivity. Qed.
Lemma fresh_singletons s l x : sp_wf s -> c_singletons (sp_caches s) = None -> sp_domain s = DomSet l ->
  exists r, snd (read_singletons s) = Ok r /\
    (In x r <-> In x l /\ forall y, together (sp_blocks s) x y -> False).
Proof.
  intros W H D. unfold read_singletons. rewrite H, D. eexists. split; [reflexivity|].
  rewrite zdiff_In. rewrite (non_singletons_In s W). split; intros [H1 H2]; (split; [exact H1|]).
  - intros y (b & Hb & Hx & _). apply H2, in_concat. eauto.
  - intro Hc. apply in_concat in Hc as (b & Hb & Hx). apply (H2 x). exists b. auto.
Qed.
Lemma fresh_canonical s r : sp_wf s -> c_canonical (sp_caches s) = None -> snd (read_canonical s) = Ok r ->
  forall b, In b r <-> In b (sp_blocks s) \/
    exists x, b = [x] /\ bws_elements s BwsNone x /\ forall y, together (sp_blocks s) x y -> False.
Proof.
  intros W H E b. unfold read_canonical in E. rewrite H in E.
  destruct (blocks_with_singletons s BwsNone) as [r'|e] eqn:E'; [|discriminate]. cbn in E. injection E as ->.
  rewrite (blocks_with_singletons_spec s BwsNone r W E' b).
  assert (G : forall x, ~ In x (concat (sp_blocks s)) <-> forall y, together (sp_blocks s) x y -> False).
  { intro x. split.
    - intros H2 y (c & Hc & Hx & _). apply H2, in_concat. eauto.
    - intros H2 Hc. apply in_concat in Hc as (c & Hb & Hx). apply (H2 x). exists c. auto. }
  split; (intros [?|(x & -> & Hx & Hn)]; [left; assumption | right; exists x; split; [reflexivity|]; split; [assumption|apply G; assumption]]).
Qed.
