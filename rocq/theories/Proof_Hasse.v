(** Proof_Hasse: create_hasse_matrix computes the covering relation. *)

From Coq Require Import List Arith ZArith Bool Lia Relations.
From Verif Require Import Model_Base Model_Binary Model_Perm Model_Helpers Spec_Helpers Lib.
Import ListNotations.
Open Scope nat_scope.

Section Hasse.
Context {A : Type} (nodes : list A) (under : A -> A -> bool).
Let n := length nodes.
Let R := related nodes under.

Definition rel_b (i j : nat) : bool :=
  negb (Nat.eqb i j) &&
  match nth_error nodes i, nth_error nodes j with Some a, Some b => under a b | _, _ => false end.

Lemma rel_b_spec i j : rel_b i j = true <-> R i j.
Proof.
  unfold rel_b, R, related. rewrite andb_true_iff, negb_true_iff, Nat.eqb_neq.
  split; intros [N H]; split; auto.
  - destruct (nth_error nodes i) as [a|], (nth_error nodes j) as [b|]; try discriminate. eauto.
  - destruct H as [a [b [-> [-> H]]]]. exact H.
Qed.

Lemma R_lt i j : R i j -> i < n /\ j < n.
Proof.
  intros [_ [a [b [Ha [Hb _]]]]]. split; apply nth_error_Some; congruence.
Qed.

Definition thr_b (i j : nat) : bool := existsb (fun k => rel_b i k && rel_b k j) (range n).

Lemma thr_b_spec i j : thr_b i j = true <-> through nodes under i j.
Proof.
  unfold thr_b, through. rewrite existsb_exists. split.
  - intros [k [_ H]]. apply andb_true_iff in H. exists k. split; apply rel_b_spec; tauto.
  - intros [k [H1 H2]]. exists k. split.
    + apply range_In. exact (proj2 (R_lt _ _ H1)).
    + rewrite andb_true_iff. split; apply rel_b_spec; assumption.
Qed.

Definition grid (f : nat -> nat -> nat) : list (list nat) := map (fun i => map (f i) (range n)) (range n).

Lemma entry_grid f i j : i < n -> j < n -> entry (grid f) i j = f i j.
Proof.
  intros Hi Hj. unfold entry, grid.
  set (F := fun i => map (f i) (range n)).
  rewrite (nth_indep (map F (range n)) [] (F 0)) by (now rewrite map_length, range_length).
  rewrite (map_nth F), nth_range by exact Hi. unfold F.
  rewrite (nth_indep _ 0 (f i 0)) by (now rewrite map_length, range_length).
  now rewrite map_nth, nth_range.
Qed.

Lemma grid_ext f g : (forall i j, i < n -> j < n -> f i j = g i j) -> grid f = grid g.
Proof.
  intros H. unfold grid. apply map_ext_in. intros i Hi. apply map_ext_in. intros j Hj.
  apply range_In in Hi, Hj. auto.
Qed.

Lemma enumerate_map {B} (h : nat -> A -> B) :
  map (fun ia : nat * A => h (fst ia) (snd ia)) (enumerate nodes) =
  flat_map (fun i => match nth_error nodes i with Some a => [h i a] | None => [] end) (range n).
Proof.
  unfold enumerate, range, n.
  enough (G : forall l k, map (fun ia : nat * A => h (fst ia) (snd ia)) (combine (seq k (length l)) l) =
     flat_map (fun i => match nth_error l (i - k) with Some a => [h i a] | None => [] end) (seq k (length l))).
  { rewrite G. rewrite !flat_map_concat_map. f_equal. apply map_ext. intros i. now rewrite Nat.sub_0_r. }
  induction l as [|a l IH]; intros k; [reflexivity|].
  simpl combine. cbn [map length seq flat_map]. rewrite Nat.sub_diag. cbn [nth_error app fst snd].
  f_equal. rewrite IH. rewrite !flat_map_concat_map. f_equal. apply map_ext_in. intros i Hi.
  apply in_seq in Hi. replace (i - k) with (S (i - S k)) by lia. reflexivity.
Qed.

Lemma flat_map_range {B} (h : nat -> A -> B) (g : nat -> B) :
  (forall i a, nth_error nodes i = Some a -> h i a = g i) ->
  flat_map (fun i => match nth_error nodes i with Some a => [h i a] | None => [] end) (range n) = map g (range n).
Proof.
  intros H. assert (G : forall l, (forall i, In i l -> i < n) ->
    flat_map (fun i => match nth_error nodes i with Some a => [h i a] | None => [] end) l = map g l).
  { induction l as [|i l IH]; intros Hl; [reflexivity|]. cbn [flat_map map].
    destruct (nth_error nodes i) as [a|] eqn:E.
    - rewrite (H i a E). cbn. f_equal. apply IH. intros; apply Hl; now right.
    - apply nth_error_None in E. specialize (Hl i (or_introl eq_refl)). unfold n in Hl. lia. }
  apply G. intros i. apply range_In.
Qed.

Lemma hasse_start_grid : hasse_start nodes under = grid (fun i j => if rel_b i j then 1 else 0).
Proof.
  unfold hasse_start, grid.
  rewrite (enumerate_map (fun i a => map (fun jb : nat * A =>
                if Nat.eqb i (fst jb) then 0 else if under a (snd jb) then 1 else 0) (enumerate nodes))).
  apply flat_map_range. intros i a Ha.
  rewrite (enumerate_map (fun j b => if Nat.eqb i j then 0 else if under a b then 1 else 0)).
  apply flat_map_range. intros j b Hb.
  unfold rel_b. rewrite Ha, Hb. destruct (Nat.eqb i j); reflexivity.
Qed.

Lemma fold_two (c : nat -> bool) l e :
  fold_left (fun e k => if c k then 2 else e) l e = if existsb c l then 2 else e.
Proof.
  revert e. induction l as [|k l IH]; intros e; cbn; [reflexivity|].
  rewrite IH. destruct (c k), (existsb c l); reflexivity.
Qed.

Definition final (i j : nat) : nat := if rel_b i j then if thr_b i j then 2 else 1 else 0.

Lemma hasse_pass_grid f :
  (forall i j, i < n -> j < n -> f i j = (if rel_b i j then 1 else 0) \/ f i j = final i j) ->
  hasse_pass n (hasse_start nodes under) (grid f) = grid final.
Proof.
  intros H. rewrite hasse_start_grid. unfold hasse_pass. change (grid final) with
    (map (fun i => map (final i) (range n)) (range n)).
  apply map_ext_in. intros i Hi. apply map_ext_in. intros j Hj. apply range_In in Hi, Hj.
  rewrite (entry_grid f) by assumption.
  rewrite (fold_two (fun k => Nat.eqb (entry (grid (fun i j => if rel_b i j then 1 else 0)) i k) 1
                              && Nat.eqb (entry (grid (fun i j => if rel_b i j then 1 else 0)) k j) 1)).
  replace (existsb _ (range n)) with (thr_b i j).
  - unfold final in *. destruct (H i j Hi Hj) as [->| ->]; destruct (rel_b i j), (thr_b i j); reflexivity.
  - unfold thr_b. clear H.
    assert (G : forall l, (forall k, In k l -> k < n) ->
       existsb (fun k => rel_b i k && rel_b k j) l =
       existsb (fun k => Nat.eqb (entry (grid (fun i j => if rel_b i j then 1 else 0)) i k) 1
                              && Nat.eqb (entry (grid (fun i j => if rel_b i j then 1 else 0)) k j) 1) l).
    { induction l as [|k l IH]; intros Hl; [reflexivity|]. cbn [existsb].
      rewrite !entry_grid by (assumption || (apply Hl; now left)).
      rewrite IH by (intros; apply Hl; now right). f_equal.
      destruct (rel_b i k), (rel_b k j); reflexivity. }
    apply G. intros k. apply range_In.
Qed.

Lemma hasse_loop_ok fuel s : 2 <= fuel ->
  hasse_loop fuel n (hasse_start nodes under) (hasse_start nodes under) s = Ok (grid final).
Proof.
  intros Hf. destruct fuel as [|[|fuel]]; try lia. cbn [hasse_loop].
  assert (E : hasse_pass n (hasse_start nodes under) (hasse_start nodes under) = grid final).
  { rewrite hasse_start_grid at 2. apply hasse_pass_grid. intros; now left. }
  rewrite E.
  destruct (Nat.eqb _ s); [reflexivity|].
  rewrite hasse_pass_grid by (intros; now right).
  now rewrite Nat.eqb_refl.
Qed.

Lemma create_hasse_ok w : nodes <> [] ->
  create_hasse_matrix nodes under w = Ok (if w then grid final else grid (fun i j => final i j mod 2)).
Proof.
  intros N. unfold create_hasse_matrix. fold n.
  assert (Hn : n <> 0) by (unfold n; destruct nodes; [congruence | discriminate]).
  apply Nat.eqb_neq in Hn. rewrite Hn. cbn [negb].
  rewrite hasse_loop_ok by lia. cbn [bind true_except]. destruct w; [reflexivity|].
  f_equal. unfold matrix_map, grid. rewrite map_map. apply map_ext. intros i. now rewrite map_map.
Qed.

Lemma final_spec i j :
  (final i j = 1 <-> covers nodes under i j) /\
  (final i j = 2 <-> R i j /\ through nodes under i j) /\
  (final i j = 0 <-> ~ R i j).
Proof.
  unfold final, covers. pose proof (rel_b_spec i j) as HR. pose proof (thr_b_spec i j) as HT. fold R.
  assert (D : true = true) by reflexivity. assert (F : false <> true) by discriminate.
  destruct (rel_b i j), (thr_b i j); (split; [|split]); split; intros; try discriminate; try tauto.
Qed.

Lemma grid_shape f : length (grid f) = n /\ Forall (fun row => length row = n) (grid f).
Proof.
  unfold grid. rewrite map_length, range_length. split; [reflexivity|].
  apply Forall_forall. intros row H. apply in_map_iff in H. destruct H as [i [<- _]].
  now rewrite map_length, range_length.
Qed.

(** ** Orders *)

Hypothesis O : is_order nodes under.

Lemma R_trans i j k : R i j -> R j k -> R i k.
Proof.
  intros [N1 [a [b [Ha [Hb H1]]]]] [N2 [b' [c [Hb' [Hc H2]]]]].
  rewrite Hb in Hb'. injection Hb' as <-.
  destruct O as [ND [AS TR]].
  pose proof (nth_error_In _ _ Ha). pose proof (nth_error_In _ _ Hb). pose proof (nth_error_In _ _ Hc).
  split.
  - intros ->. rewrite Ha in Hc. injection Hc as <-.
    assert (a = b) by auto. subst b. apply N1.
    apply (proj1 (NoDup_nth_error nodes) ND).
    + apply nth_error_Some. congruence.
    + congruence.
  - exists a, c. eauto.
Qed.

Lemma R_irrefl i : ~ R i i.
Proof. now intros [N _]. Qed.

Definition between (i j : nat) : list nat := filter (fun k => rel_b i k && rel_b k j) (range n).

Lemma filter_len_lt {B} (f g : B -> bool) l x :
  (forall y, f y = true -> g y = true) -> In x l -> f x = false -> g x = true ->
  length (filter f l) < length (filter g l).
Proof.
  intros H. assert (LE : forall l, length (filter f l) <= length (filter g l)).
  { induction l0 as [|y l0 IH]; cbn; [lia|]. destruct (f y) eqn:E.
    - rewrite (H y E). cbn. lia.
    - destruct (g y); cbn; lia. }
  induction l as [|y l IH]; intros I Fx Gx; [destruct I|]. cbn.
  destruct I as [->|I].
  - rewrite Fx, Gx. cbn. pose proof (LE l). lia.
  - specialize (IH I Fx Gx). destruct (f y) eqn:E.
    + rewrite (H y E). cbn. lia.
    + destruct (g y); cbn; lia.
Qed.

Lemma covers_closure i j : clos_trans nat (covers nodes under) i j <-> R i j.
Proof.
  split.
  - induction 1 as [i j [H _]|i j k _ IH1 _ IH2]; [exact H | eapply R_trans; eassumption].
  - remember (length (between i j)) as m eqn:Em. revert i j Em.
    induction m as [m IH] using lt_wf_ind. intros i j Em H.
    destruct (thr_b i j) eqn:T.
    + apply thr_b_spec in T. destruct T as [k [H1 H2]]. fold R in H1, H2.
      apply t_trans with k.
      * refine (IH (length (between i k)) _ i k eq_refl H1). rewrite Em. unfold between.
        apply filter_len_lt with k.
        -- intros y Hy. apply andb_true_iff in Hy. destruct Hy as [Y1 Y2].
           apply rel_b_spec in Y1, Y2. apply andb_true_iff. split; apply rel_b_spec; [exact Y1|].
           exact (R_trans _ _ _ Y2 H2).
        -- apply range_In. exact (proj2 (R_lt _ _ H1)).
        -- apply andb_false_iff. right. destruct (rel_b k k) eqn:E; [|reflexivity].
           apply rel_b_spec in E. now apply R_irrefl in E.
        -- apply andb_true_iff. split; apply rel_b_spec; assumption.
      * refine (IH (length (between k j)) _ k j eq_refl H2). rewrite Em. unfold between.
        apply filter_len_lt with k.
        -- intros y Hy. apply andb_true_iff in Hy. destruct Hy as [Y1 Y2].
           apply rel_b_spec in Y1, Y2. apply andb_true_iff. split; apply rel_b_spec; [|exact Y2].
           exact (R_trans _ _ _ H1 Y1).
        -- apply range_In. exact (proj2 (R_lt _ _ H1)).
        -- apply andb_false_iff. left. destruct (rel_b k k) eqn:E; [|reflexivity].
           apply rel_b_spec in E. now apply R_irrefl in E.
        -- apply andb_true_iff. split; apply rel_b_spec; assumption.
    + apply t_step. split; [exact H|]. intros X. apply thr_b_spec in X. congruence.
Qed.

Lemma clos_trans_first (E : nat -> nat -> Prop) i j :
  clos_trans nat E i j -> E i j \/ exists k, E i k /\ clos_trans nat E k j.
Proof.
  intros H. apply clos_trans_t1n in H. destruct H as [j H|k j H1 H2]; [now left|].
  right. exists k. split; [exact H1|]. now apply clos_t1n_trans.
Qed.

Lemma covers_minimal (E : nat -> nat -> Prop) :
  (forall i j, clos_trans nat E i j <-> R i j) -> forall i j, covers nodes under i j -> E i j.
Proof.
  intros H i j [C1 C2]. fold R in C1. apply H in C1. apply clos_trans_first in C1.
  destruct C1 as [C1|[k [K1 K2]]]; [exact C1|]. exfalso. apply C2. exists k.
  split; apply H; [now apply t_step | exact K2].
Qed.

End Hasse.
