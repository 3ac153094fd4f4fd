(** Props_SetPart: properties C17 - C23 (SetPart). *)

From Coq Require Import List Arith ZArith Bool Lia Permutation Sorting.Sorted Relations.
From Verif Require Import Model_Base Model_SetPart Spec_SetPart Proof_SetPart Proof_SetPartMerge Proof_SetPartMore
  Proof_SetPartLattice Proof_SetPartLabels Proof_SetPartImproved Proof_SetPartObj Proof_Domain.
Import ListNotations.
Open Scope Z_scope.

(** * C17 *)

(** the constructor accepts exactly the block lists without a repeated element *)
Theorem C17_new : forall bs dom, no_overlap bs ->
  exists s, SetPart (Some bs) dom = Ok s /\ is_SetPart s /\ canonical (sp_blocks s) /\ sp_labels s = [] /\
    forall x y, x <> y -> together (sp_blocks s) x y <-> together bs x y.
Proof.
  intros bs dom H. destruct (sp_init_spec no_caches (Some bs) dom None H) as (s & E & W & _ & _ & L & T);
    [split; constructor|].
  exists s. split; [exact E|]. split; [eapply obj_new; exact E|]. split; [apply W|]. split; [|exact T].
  rewrite L. destruct (sp_blocks s); reflexivity.
Qed.
Theorem C17_new_reject : forall bs dom, ~ no_overlap bs -> SetPart (Some bs) dom = Err DuplicateElementsError.
Proof. intros bs dom. apply sp_init_reject. Qed.

(** every object the methods can make has canonical blocks, and its lookups agree with them *)
Theorem C17_canonical : forall s, is_SetPart s -> canonical (sp_blocks s).
Proof. intros s H. apply is_SetPart_wf, H. Qed.
Theorem C17_lookup : forall s a b, is_SetPart s ->
  (In b (element_to_block s a) <-> same (sp_blocks s) a b) /\
  (a <> b -> pair_in_same_block s a b = true <-> together (sp_blocks s) a b).
Proof.
  intros s a b H. apply is_SetPart_wf in H. split; [apply (element_to_block_In s H)|].
  intros _. apply (pair_in_same_block_spec s H).
Qed.

(** an accepted merge joins the two blocks and nothing else *)
Theorem C17_merge_pair : forall s a b, is_SetPart s -> sp_labels s = [] ->
  a = b \/ (in_dom (sp_domain s) a /\ in_dom (sp_domain s) b) ->
  exists s', merge_pair s a b = (s', None) /\ sp_domain s' = sp_domain s /\
    forall x y, same (sp_blocks s') x y <->
      generated (fun u v => together (sp_blocks s) u v \/ (u = a /\ v = b)) x y.
Proof.
  intros s a b H L Hd. apply is_SetPart_wf in H.
  destruct (merge_pair_spec s a b H) as (s' & e & E & W & D & _ & T & _). exists s'.
  destruct e as [e|].
  - destruct T as (-> & Hab & [[-> T]|(-> & _ & T)]); [|contradiction].
    destruct Hd as [Hd|[Ha Hb]]; [contradiction|]. apply in_dom_spec in Ha, Hb. destruct T; congruence.
  - split; [exact E|]. split; [exact D|]. intros x y. rewrite T. symmetry. apply generated_pair, wf_nodup, H.
Qed.

(** a merge with an element outside the domain is rejected without change *)
Theorem C17_merge_pair_reject : forall s a b, a <> b ->
  (~ in_dom (sp_domain s) a \/ ~ in_dom (sp_domain s) b) ->
  merge_pair s a b = (s, Some NotInDomainError).
Proof.
  intros s a b Hab H. rewrite <- !out_dom_spec in H. unfold merge_pair. apply Z.eqb_neq in Hab. rewrite Hab.
  replace (element_in_domain s a && element_in_domain s b) with false; [reflexivity|].
  destruct H as [-> | ->]; [reflexivity | symmetry; apply andb_false_r].
Qed.

(** with labels: whatever merge_pair raises, the object is unchanged *)
Theorem C17_merge_pair_unchanged : forall s a b s' e, is_SetPart s -> merge_pair s a b = (s', Some e) -> s' = s.
Proof.
  intros s a b s' e H E. apply is_SetPart_wf in H.
  destruct (merge_pair_spec s a b H) as (s1 & e1 & E1 & _ & _ & _ & T & _).
  rewrite E1 in E. injection E as <- ->. apply T.
Qed.

Theorem C17_merge_many : forall s many, is_SetPart s -> sp_labels s = [] ->
  (forall x, In x many -> in_dom (sp_domain s) x) ->
  exists s', merge_many s many = (s', None) /\ sp_domain s' = sp_domain s /\
    forall x y, same (sp_blocks s') x y <->
      generated (fun u v => together (sp_blocks s) u v \/ (In u many /\ In v many)) x y.
Proof.
  intros s many H L Hm. apply is_SetPart_wf in H.
  assert (Hm' : forall x, In x many -> element_in_domain s x = true) by (intros x Hx; apply in_dom_spec, Hm, Hx).
  destruct (merge_many_accept s many H L Hm') as (s' & E & _ & D & _ & T). eauto.
Qed.

(** any history of merges and attribute reads, with caught exceptions: the equivalence
    relation generated by the initial blocks and the accepted pairs *)
Theorem C17_history : forall ops s dom, is_SetPart s -> sp_labels s = [] -> (forall x, dom x = true <-> in_dom (sp_domain s) x) ->
  let s' := sp_run ops s in
  canonical (sp_blocks s') /\ sp_domain s' = sp_domain s /\
  forall x y, same (sp_blocks s') x y <->
    generated (fun u v => together (sp_blocks s) u v \/
                          In (u, v) (flat_map (op_pairs dom) ops)) x y.
Proof.
  intros ops s dom H L Hdom. rewrite (op_pairs_ext dom (element_in_domain s) ops (dom_test s dom Hdom)). apply is_SetPart_wf in H. destruct (sp_run_spec ops s H L) as (W & D & _ & T).
  split; [apply W|]. split; [exact D | exact T].
Qed.

(** merge_many is not all or nothing: a call that raises can have merged a part of its
    elements *)
Theorem C17_merge_many_atomic_refuted : exists s many s' e, is_SetPart s /\ sp_labels s = [] /\
  merge_many s many = (s', Some e) /\ sp_blocks s = [] /\ sp_blocks s' = [[1; 2]].
Proof.
  exists (mkSP DomN [] [] (Some 0) [] no_caches), [1; 2; -1]. do 2 eexists.
  split; [apply (obj_new None DomN None); reflexivity|]. split; [reflexivity|].
  split; [vm_compute; reflexivity|]. split; reflexivity.
Qed.

Example C17_ex : exists s, SetPart (Some [[7; 2]; [4; 3; 9]; [5]]) DomN = Ok s /\ sp_blocks s = [[2; 7]; [3; 4; 9]] /\
  let s' := sp_run [MergePair 5 7; ReadPairs; MergeMany [0; 1; 3]; MergePair (-1) 2] s in
  sp_blocks s' = [[0; 1; 3; 4; 9]; [2; 5; 7]] /\
  flat_map (op_pairs (element_in_domain s)) [MergePair 5 7; ReadPairs; MergeMany [0; 1; 3]; MergePair (-1) 2] =
    [(5, 7); (0, 1); (0, 3); (1, 3)].
Proof. eexists. split; [vm_compute; reflexivity|]. vm_compute. repeat split. Qed.

(** * C18 *)

Theorem C18_meet : forall s o, is_SetPart s -> is_SetPart o -> same_domain (sp_domain s) (sp_domain o) ->
  exists m, meet s o = Ok m /\ sp_domain m = sp_domain s /\
    forall x y, same (sp_blocks m) x y <-> same (sp_blocks s) x y /\ same (sp_blocks o) x y.
Proof.
  intros s o Hs Ho Hd. apply same_domain_spec in Hd. apply is_SetPart_wf in Hs, Ho.
  destruct (meet_spec s o Hs Ho Hd) as (m & E & _ & D & T). eauto.
Qed.

Theorem C18_meet_reject : forall s o, ~ same_domain (sp_domain s) (sp_domain o) ->
  meet s o = Err DomainsNotEqualError.
Proof. intros s o H. apply other_domain_spec in H. unfold meet. rewrite H. reflexivity. Qed.

Theorem C18_join : forall order s o, (forall l, Permutation (order l) l) -> is_SetPart s -> is_SetPart o ->
  exists j, join order s o = Ok j /\
    forall x y, same (sp_blocks j) x y <->
      generated (fun u v => same (sp_blocks s) u v \/ same (sp_blocks o) u v) x y.
Proof.
  intros order s o Ho Ws Wo. apply is_SetPart_wf in Ws, Wo.
  destruct (join_spec s o Ws Wo order Ho) as (j & E & _ & _ & _ & T). exists j. split; [exact E|].
  intros x y. rewrite T. split; apply generated_mono.
  - intros u v [H|H]; apply rst_step; [left | right]; right; exact H.
  - intros u v [[->|H]|[->|H]]; try apply rst_refl; apply rst_step; auto.
Qed.

Theorem C18_le : forall order s o, (forall l, Permutation (order l) l) -> is_SetPart s -> is_SetPart o ->
  sp_domain s = DomN -> sp_domain o = DomN ->
  exists b, sp_le order s o = Ok b /\ (b = true <-> refines (same (sp_blocks s)) (same (sp_blocks o))).
Proof. intros order s o Ho Ws Wo. apply is_SetPart_wf in Ws, Wo. apply sp_le_spec; assumption. Qed.

Theorem C18_lt : forall order s o, (forall l, Permutation (order l) l) -> is_SetPart s -> is_SetPart o ->
  sp_domain s = DomN -> sp_domain o = DomN ->
  exists b, sp_lt order s o = Ok b /\
    (b = true <-> refines (same (sp_blocks s)) (same (sp_blocks o)) /\ ~ refines (same (sp_blocks o)) (same (sp_blocks s))).
Proof. intros order s o Ho Ws Wo. apply is_SetPart_wf in Ws, Wo. apply sp_lt_spec; assumption. Qed.

Theorem C18_eq : forall s o, is_SetPart s -> is_SetPart o -> same_domain (sp_domain s) (sp_domain o) ->
  exists b, sp_eq s o = Ok b /\ (b = true <-> forall x y, same (sp_blocks s) x y <-> same (sp_blocks o) x y).
Proof. intros s o Ws Wo Hd. apply same_domain_spec in Hd. apply is_SetPart_wf in Ws, Wo. apply sp_eq_spec; assumption. Qed.

(** different domains are no case of different partitions: the comparisons raise *)
Theorem C18_eq_reject : forall order s o, ~ same_domain (sp_domain s) (sp_domain o) ->
  sp_eq s o = Err DomainsNotEqualError /\ sp_le order s o = Err DomainsNotEqualError /\ sp_lt order s o = Err DomainsNotEqualError.
Proof. intros order s o H. apply other_domain_spec in H. unfold sp_lt, sp_le, sp_eq. rewrite H. auto. Qed.

Theorem C18_partial_order : forall order a b c, (forall l, Permutation (order l) l) ->
  is_SetPart a -> is_SetPart b -> is_SetPart c -> sp_domain a = DomN -> sp_domain b = DomN -> sp_domain c = DomN ->
  sp_le order a a = Ok true /\
  (sp_le order a b = Ok true -> sp_le order b a = Ok true -> sp_eq a b = Ok true) /\
  (sp_le order a b = Ok true -> sp_le order b c = Ok true -> sp_le order a c = Ok true).
Proof.
  intros order a b c Ho Wa Wb Wc Da Db Dc.
  destruct (C18_le order a a Ho Wa Wa Da Da) as (r1 & E1 & H1).
  destruct (C18_le order a b Ho Wa Wb Da Db) as (r2 & E2 & H2).
  destruct (C18_le order b a Ho Wb Wa Db Da) as (r3 & E3 & H3).
  destruct (C18_le order b c Ho Wb Wc Db Dc) as (r4 & E4 & H4).
  destruct (C18_le order a c Ho Wa Wc Da Dc) as (r5 & E5 & H5).
  destruct (C18_eq a b Wa Wb) as (r6 & E6 & H6); [rewrite Da, Db; reflexivity|].
  rewrite E1, E2, E3, E4, E5, E6. split; [|split].
  - f_equal. apply H1. intros x y; auto.
  - intros [= ->] [= ->]. f_equal. apply H6. intros x y. split; [apply H2 | apply H3]; reflexivity.
  - intros [= ->] [= ->]. f_equal. apply H5. intros x y H. apply H4; [reflexivity|]. apply H2; [reflexivity|exact H].
Qed.

Theorem C18_meet_glb : forall order s o c, (forall l, Permutation (order l) l) ->
  is_SetPart s -> is_SetPart o -> is_SetPart c -> sp_domain s = DomN -> sp_domain o = DomN -> sp_domain c = DomN ->
  exists m, meet s o = Ok m /\ sp_le order m s = Ok true /\ sp_le order m o = Ok true /\
    (sp_le order c s = Ok true -> sp_le order c o = Ok true -> sp_le order c m = Ok true).
Proof.
  intros order s o c Ho Ws Wo Wc Ds Do Dc.
  destruct (C18_meet s o Ws Wo) as (m & E & D & T); [rewrite Ds, Do; reflexivity|]. exists m.
  assert (Wm : is_SetPart m) by exact (obj_meet s o m Ws Wo E). rewrite Ds in D.
  destruct (C18_le order m s Ho Wm Ws D Ds) as (r1 & E1 & H1).
  destruct (C18_le order m o Ho Wm Wo D Do) as (r2 & E2 & H2).
  destruct (C18_le order c s Ho Wc Ws Dc Ds) as (r3 & E3 & H3).
  destruct (C18_le order c o Ho Wc Wo Dc Do) as (r4 & E4 & H4).
  destruct (C18_le order c m Ho Wc Wm Dc D) as (r5 & E5 & H5).
  rewrite E1, E2, E3, E4, E5. split; [exact E|]. split; [|split].
  - f_equal. apply H1. intros x y H. apply T, H.
  - f_equal. apply H2. intros x y H. apply T, H.
  - intros [= ->] [= ->]. f_equal. apply H5. intros x y H. apply T. split; [apply H3 | apply H4]; auto.
Qed.

Theorem C18_join_lub : forall order s o c, (forall l, Permutation (order l) l) ->
  is_SetPart s -> is_SetPart o -> is_SetPart c -> sp_domain s = DomN -> sp_domain o = DomN -> sp_domain c = DomN ->
  exists j, join order s o = Ok j /\ sp_le order s j = Ok true /\ sp_le order o j = Ok true /\
    (sp_le order s c = Ok true -> sp_le order o c = Ok true -> sp_le order j c = Ok true).
Proof.
  intros order s o c Ho Ws Wo Wc Ds Do Dc.
  destruct (join_spec s o (is_SetPart_wf s Ws) (is_SetPart_wf o Wo) order Ho) as (j & E & _ & D & _ & T). exists j.
  assert (Wj : is_SetPart j) by exact (obj_join order s o j Ho Ws Wo E).
  destruct (C18_le order s j Ho Ws Wj Ds D) as (r1 & E1 & H1).
  destruct (C18_le order o j Ho Wo Wj Do D) as (r2 & E2 & H2).
  destruct (C18_le order s c Ho Ws Wc Ds Dc) as (r3 & E3 & H3).
  destruct (C18_le order o c Ho Wo Wc Do Dc) as (r4 & E4 & H4).
  destruct (C18_le order j c Ho Wj Wc D Dc) as (r5 & E5 & H5).
  rewrite E1, E2, E3, E4, E5. split; [exact E|]. split; [|split].
  - f_equal. apply H1. intros x y [->|H]; apply T; [apply rst_refl | apply rst_step; auto].
  - f_equal. apply H2. intros x y [->|H]; apply T; [apply rst_refl | apply rst_step; auto].
  - intros [= ->] [= ->]. f_equal. apply H5. intros x y H. apply T in H. revert H.
    assert (Nc : NoDup (concat (sp_blocks c))) by (apply wf_nodup, is_SetPart_wf, Wc).
    apply (generated_closed _ (same (sp_blocks c))).
    + left. reflexivity.
    + intros u v. apply same_sym.
    + intros u v w. apply same_trans, Nc.
    + intros u v [H|H]; [apply H3 | apply H4]; auto; right; exact H.
Qed.

(** the prototypes, for partitions whose non-singletons are in the domain *)
Theorem C18_meet_prototype : forall order s o, (forall l, Permutation (order l) l) -> is_SetPart s -> is_SetPart o ->
  (forall x, In x (concat (sp_blocks s)) -> in_dom (sp_domain s) x) ->
  same_domain (sp_domain s) (sp_domain o) ->
  exists m p, meet s o = Ok m /\ meet_prototype order s o = Ok p /\ sp_blocks m = sp_blocks p /\ sp_domain m = sp_domain p.
Proof.
  intros order s o Ho Ws Wo Is Hd. apply same_domain_spec in Hd. apply is_SetPart_wf in Ws, Wo. apply meet_prototype_spec; try assumption.
  intros x Hx. apply in_dom_spec, Is, Hx.
Qed.

Theorem C18_join_prototype : forall order order' s o, (forall l, Permutation (order l) l) ->
  (forall l, Permutation (order' l) l) -> is_SetPart s -> is_SetPart o ->
  (forall x, In x (concat (sp_blocks s)) -> in_dom (sp_domain s) x) ->
  (forall x, In x (concat (sp_blocks o)) -> in_dom (sp_domain o) x) ->
  same_domain (sp_domain s) (sp_domain o) ->
  exists j p, join order s o = Ok j /\ join_prototype order' s o = Ok p /\ sp_blocks j = sp_blocks p.
Proof.
  intros order order' s o Ho Ho' Ws Wo Is0 Io0 Hd. apply same_domain_spec in Hd. apply is_SetPart_wf in Ws, Wo.
  assert (Is : forall x, In x (concat (sp_blocks s)) -> element_in_domain s x = true) by (intros x Hx; apply in_dom_spec, Is0, Hx).
  assert (Io : forall x, In x (concat (sp_blocks o)) -> element_in_domain o x = true) by (intros x Hx; apply in_dom_spec, Io0, Hx).
  destruct (join_spec s o Ws Wo order Ho) as (j & E & Wj & _ & _ & T).
  destruct (join_prototype_same order' s o Ho' Ws Wo Is Io Hd) as (p & E' & Wp & _ & T').
  exists j, p. split; [exact E|]. split; [exact E'|]. apply blocks_same_eq; auto.
  intros x y. rewrite T, T'. reflexivity.
Qed.

(** the improved prototype works with natural numbers ... *)
Theorem C18_join_prototype_improved : forall order order' s o, (forall l, Permutation (order l) l) ->
  (forall l, Permutation (order' l) l) -> is_SetPart s -> is_SetPart o ->
  (forall x, In x (concat (sp_blocks s)) -> 0 <= x) -> (forall x, In x (concat (sp_blocks o)) -> 0 <= x) ->
  same_domain (sp_domain s) (sp_domain o) ->
  exists j p, join order s o = Ok j /\ join_prototype_improved order' s o = Ok p /\ sp_blocks j = sp_blocks p.
Proof.
  intros order order' s o Ho Ho' Ws Wo Is Io Hd. apply same_domain_spec in Hd. apply is_SetPart_wf in Ws, Wo.
  destruct (join_spec s o Ws Wo order Ho) as (j & E & Wj & _ & _ & T).
  destruct (join_prototype_improved_spec order' s o Ho' Ws Wo Is Io Hd) as (p & E' & Wp & _ & T').
  exists j, p. split; [exact E|]. split; [exact E'|]. apply blocks_same_eq; auto.
  intros x y. rewrite T, T'. reflexivity.
Qed.

(** ... but not with negative numbers in domain Z *)
Theorem C18_join_prototype_improved_refuted : exists s o, is_SetPart s /\ is_SetPart o /\
  sp_domain s = DomZ /\ sp_domain o = DomZ /\
  join_prototype_improved (fun l => l) s o = Err NotInDomainError /\
  exists p, join_prototype (fun l => l) s o = Ok p /\ sp_blocks p = [[-1; 2]].
Proof.
  eexists (mkSP DomZ [[-1; 2]] _ None [] no_caches), (mkSP DomZ [] [] None [] no_caches).
  split; [apply (obj_new (Some [[-1; 2]]) DomZ None); vm_compute; reflexivity|].
  split; [apply (obj_new None DomZ None); reflexivity|].
  split; [reflexivity|]. split; [reflexivity|]. split; [vm_compute; reflexivity|].
  eexists. split; [vm_compute; reflexivity | reflexivity].
Qed.

Example C18_ex : exists s o m j, SetPart (Some [[1; 2; 3]; [4; 5]]) DomN = Ok s /\
  SetPart (Some [[2; 3; 4]; [6; 7]]) DomN = Ok o /\ meet s o = Ok m /\ sp_blocks m = [[2; 3]] /\
  join (fun l => l) s o = Ok j /\ sp_blocks j = [[1; 2; 3; 4; 5]; [6; 7]] /\
  sp_le (fun l => l) s o = Ok false /\ sp_lt (fun l => l) m s = Ok true.
Proof.
  do 4 eexists. split; [vm_compute; reflexivity|]. split; [vm_compute; reflexivity|].
  split; [vm_compute; reflexivity|]. split; [reflexivity|]. split; [vm_compute; reflexivity|]. repeat split; vm_compute; reflexivity.
Qed.

(** * C19 *)

(** join forgets the domain, for all partitions *)
Theorem C19_join_domain_is_N : forall order s o, (forall l, Permutation (order l) l) -> is_SetPart s -> is_SetPart o ->
  exists j, join order s o = Ok j /\ sp_domain j = DomN.
Proof.
  intros order s o Ho Ws Wo. destruct (join_spec s o (is_SetPart_wf s Ws) (is_SetPart_wf o Wo) order Ho)
    as (j & E & _ & D & _). eauto.
Qed.

(** so the comparison fails for every pair of partitions with a common domain other than N *)
Theorem C19_le_raises : forall order s o, (forall l, Permutation (order l) l) -> is_SetPart s -> is_SetPart o ->
  same_domain (sp_domain s) (sp_domain o) -> sp_domain o <> DomN ->
  sp_le order s o = Err DomainsNotEqualError.
Proof. intros order s o Ho Ws Wo Hd. apply same_domain_spec in Hd. apply is_SetPart_wf in Ws, Wo. apply sp_le_other; assumption. Qed.

Theorem C19_refuted : exists s o j, is_SetPart s /\ is_SetPart o /\
  same_domain (sp_domain s) (sp_domain o) /\
  join (fun l => l) s o = Ok j /\ ~ same_domain (sp_domain j) (sp_domain s) /\
  sp_le (fun l => l) s o = Err DomainsNotEqualError /\ sp_lt (fun l => l) s o = Err DomainsNotEqualError.
Proof.
  eexists (mkSP (DomSet [1; 2; 3]) [] [] None [] no_caches), (mkSP (DomSet [1; 2; 3]) [[1; 2]] _ None [] no_caches).
  eexists. split; [apply (obj_new None (DomSet [1; 2; 3]) None); reflexivity|].
  split; [apply (obj_new (Some [[1; 2]]) (DomSet [1; 2; 3]) None); vm_compute; reflexivity|].
  split; [cbn; tauto|]. split; [vm_compute; reflexivity|]. split; [intros []|]. split; vm_compute; reflexivity.
Qed.

(** * C20 *)

(** attributes that were not read before describe the current blocks, after any history of
    merges, refinements, labellings and reads of other attributes *)
Theorem C20_pairs : forall ops s a b, c_pairs (sp_caches s) = None ->
  forallb (fun op => negb (needs_pairs op)) ops = true -> is_SetPart (any_run ops s) ->
  In (a, b) (snd (read_pairs (any_run ops s))) <-> a < b /\ together (sp_blocks (any_run ops s)) a b.
Proof.
  intros ops s a b H1 H2 H3. apply fresh_pairs; [apply is_SetPart_wf, H3|].
  apply (any_run_absent ops s); assumption.
Qed.
Theorem C20_intval : forall ops s, c_pairs (sp_caches s) = None -> c_intval (sp_caches s) = None ->
  forallb (fun op => negb (needs_pairs op)) ops = true -> forallb (fun op => negb (needs_intval op)) ops = true ->
  snd (read_intval (any_run ops s)) =
  fold_left (fun n ab => n + 2 ^ ((snd ab ^ 2 - snd ab) / 2 + fst ab))
            (flat_map place_pairs (sp_blocks (any_run ops s))) 0.
Proof.
  intros ops s H1 H2 H3 H4. destruct (any_run_absent ops s) as (A1 & A2 & _).
  rewrite fresh_intval by auto. unfold intval_of, pairs_of. f_equal.
  apply flat_map_ext. intro b. apply combinations2_place.
Qed.
Theorem C20_singletons : forall ops s dom x, is_SetPart (any_run ops s) -> c_singletons (sp_caches s) = None ->
  forallb (fun op => negb (needs_singletons op)) ops = true -> sp_domain (any_run ops s) = DomSet dom ->
  exists r, snd (read_singletons (any_run ops s)) = Ok r /\
    (In x r <-> In x dom /\ forall y, together (sp_blocks (any_run ops s)) x y -> False).
Proof.
  intros ops s dom x W H1 H2 D. apply fresh_singletons; [apply is_SetPart_wf, W | | exact D].
  apply (any_run_absent ops s); assumption.
Qed.
Theorem C20_canonical : forall ops s r, is_SetPart (any_run ops s) -> c_canonical (sp_caches s) = None ->
  forallb (fun op => negb (needs_canonical op)) ops = true ->
  snd (read_canonical (any_run ops s)) = Ok r ->
  forall b, In b r <-> In b (sp_blocks (any_run ops s)) \/
    exists x, b = [x] /\ bws_elements (any_run ops s) BwsNone x /\
              forall y, together (sp_blocks (any_run ops s)) x y -> False.
Proof.
  intros ops s r W H1 H2 E. apply fresh_canonical; [apply is_SetPart_wf, W | | exact E].
  apply (any_run_absent ops s); assumption.
Qed.

(** an attribute that was read keeps its first value for ever *)
Theorem C20_frozen : forall ops s,
  snd (read_pairs (any_run ops (fst (read_pairs s)))) = snd (read_pairs s) /\
  snd (read_intval (any_run ops (fst (read_intval s)))) = snd (read_intval s) /\
  forall l, snd (read_singletons s) = Ok l ->
    snd (read_singletons (any_run ops (fst (read_singletons s)))) = Ok l.
Proof.
  intros ops s. split; [apply read_pairs_frozen|]. split; [apply read_intval_frozen|]. apply read_singletons_frozen.
Qed.

(** so the attributes do not describe the current blocks in general *)
Theorem C20_refuted : exists s ops, is_SetPart s /\
  sp_blocks (any_run ops s) = [[1; 2]; [3; 4]] /\
  snd (read_pairs (any_run ops s)) = [(1, 2)] /\
  snd (read_intval (any_run ops s)) = 4 /\ intval_of (pairs_of (sp_blocks (any_run ops s))) = 516 /\
  snd (read_canonical (any_run ops s)) = Ok [[1; 2]; [3]; [4]] /\
  snd (read_singletons (any_run ops s)) = Ok [3; 4].
Proof.
  eexists (mkSP (DomSet [1; 2; 3; 4]) [[1; 2]] _ None [] no_caches),
    [OpCore ReadPairs; OpCore ReadIntval; OpCore ReadCanonical; OpCore ReadSingletons; OpCore (MergePair 3 4)].
  split; [apply (obj_new (Some [[1; 2]]) (DomSet [1; 2; 3; 4]) None); vm_compute; reflexivity|].
  repeat split; vm_compute; reflexivity.
Qed.

(** the stale list also breaks labels: the block [3, 4] can not get a label *)
Theorem C20_label_refuted : exists s ops, is_SetPart s /\ sp_domain s = DomSet [1; 2; 3; 4] /\
  sp_blocks (any_run ops s) = [[1; 2]; [3; 4]] /\
  add_label_to_element (any_run ops s) 3 7 = (any_run ops s, Some UnknownBlockError).
Proof.
  eexists (mkSP (DomSet [1; 2; 3; 4]) [[1; 2]] _ None [] no_caches),
    [OpLabelElement 1 5; OpCore (MergePair 3 4)].
  split; [apply (obj_new (Some [[1; 2]]) (DomSet [1; 2; 3; 4]) None); vm_compute; reflexivity|].
  repeat split; vm_compute; reflexivity.
Qed.

Example C20_ex : exists s, SetPart (Some [[1; 2; 6]]) (DomSet [1; 2; 3; 4; 5; 6]) = Ok s /\
  let s' := any_run [OpCore (MergePair 3 4); OpRefine [[1; 6]; [2]] None; OpCore ReadSingletons] s in
  snd (read_pairs s') = [(1, 6); (3, 4)] /\ snd (read_canonical s') = Ok [[1; 6]; [2]; [3; 4]; [5]].
Proof. eexists. split; [vm_compute; reflexivity|]. vm_compute. split; reflexivity. Qed.

(** * C21 *)

Theorem C21_pairs : forall s a b, is_SetPart s -> c_pairs (sp_caches s) = None ->
  In (a, b) (snd (read_pairs s)) <-> a < b /\ together (sp_blocks s) a b.
Proof. intros s a b H. apply fresh_pairs, is_SetPart_wf, H. Qed.

Theorem C21_pairs_NoDup : forall s, is_SetPart s -> c_pairs (sp_caches s) = None -> NoDup (snd (read_pairs s)).
Proof.
  intros s H E. unfold read_pairs. rewrite E. apply pairs_of_NoDup, wf_nodup, is_SetPart_wf, H.
Qed.

Theorem C21_intval : forall s o, is_SetPart s -> is_SetPart o ->
  c_pairs (sp_caches s) = None -> c_intval (sp_caches s) = None ->
  c_pairs (sp_caches o) = None -> c_intval (sp_caches o) = None ->
  (forall x, In x (concat (sp_blocks s)) -> 0 <= x) -> (forall x, In x (concat (sp_blocks o)) -> 0 <= x) ->
  snd (read_intval s) = snd (read_intval o) <->
  forall x y, same (sp_blocks s) x y <-> same (sp_blocks o) x y.
Proof.
  intros s o Ws Wo H1 H2 H3 H4 Ps Po. apply is_SetPart_wf in Ws, Wo.
  rewrite (fresh_intval s H1 H2), (fresh_intval o H3 H4).
  rewrite intval_inj; [| apply Ws | apply Wo | assumption | assumption].
  split; [intros ->; reflexivity | apply blocks_same_eq; assumption].
Qed.

Example C21_ex : exists s, SetPart (Some [[5; 2; 0]; [1; 3]]) DomN = Ok s /\
  snd (read_pairs s) = [(0, 2); (0, 5); (2, 5); (1, 3)] /\ snd (read_intval s) = 2 + 1024 + 4096 + 16.
Proof. eexists. split; [vm_compute; reflexivity|]. split; reflexivity. Qed.

(** * C22 *)

(** any sequence of add_label_to_element calls on the trivial partition of a finite set,
    with caught exceptions; [first_label] gives the label of the first call with an element *)
Theorem C22_history : forall dom calls, NoDup dom ->
  exists s0, SetPart (Some []) (DomSet dom) = Ok s0 /\
  let s := fold_left label_step calls s0 in
  (forall x, In x dom -> get_label_from_element s x = first_label calls x) /\
  (forall x y, x <> y -> In x dom -> In y dom ->
     together (sp_blocks s) x y <-> exists l, first_label calls x = Some l /\ first_label calls y = Some l) /\
  (forall l b, get_block_from_label s l = Some b <->
     exists x, In x dom /\ first_label calls x = Some l /\ b = element_to_block s x).
Proof.
  intros dom calls Hd. destruct (trivial_wf (DomSet dom)) as (s0 & E & _). exists s0. split; [exact E|].
  assert (I := inv_run dom Hd s0 calls E). cbn zeta.
  assert (Hl : forall x, In x dom -> dom_label dom calls x = first_label calls x).
  { intros x Hx. unfold dom_label. apply zmemb_In in Hx. rewrite Hx. reflexivity. }
  split; [|split].
  - intros x Hx. rewrite (inv_get_label dom _ _ x I). apply Hl, Hx.
  - intros x y Hxy Hx Hy. rewrite (inv_blocks dom _ _ I x y Hxy), !Hl by assumption. reflexivity.
  - intros l b. rewrite (inv_get_block dom _ _ l b I). split.
    + intros (x & Hx & Hb). exists x. assert (Hin := inv_f dom _ _ I x l Hx). rewrite Hl in Hx by assumption. auto.
    + intros (x & Hin & Hx & Hb). exists x. rewrite Hl by assumption. auto.
Qed.

(** a call raises exactly when the element is outside of the domain or has another label,
    and then changes nothing *)
Theorem C22_outcome : forall dom calls s0 e l, NoDup dom -> SetPart (Some []) (DomSet dom) = Ok s0 ->
  let s := fold_left label_step calls s0 in
  match snd (add_label_to_element s e l) with
  | None => In e dom /\ (first_label calls e = None \/ first_label calls e = Some l)
  | Some x => fst (add_label_to_element s e l) = s /\
      ((x = UnknownElementError /\ ~ In e dom) \/
       (x = LabelContradictionError /\ In e dom /\ exists l', first_label calls e = Some l' /\ l' <> l))
  end.
Proof.
  intros dom calls s0 e l Hd E. cbn zeta. assert (I := inv_run dom Hd s0 calls E).
  assert (S := inv_step dom Hd _ _ e l I).
  assert (Hl : In e dom -> dom_label dom calls e = first_label calls e).
  { intros Hx. unfold dom_label. apply zmemb_In in Hx. rewrite Hx. reflexivity. }
  destruct (add_label_to_element (fold_left label_step calls s0) e l) as [s' [x|]]; cbn [fst snd].
  - destruct S as (-> & [H|(-> & Hin & H)]); (split; [reflexivity|]); [left; exact H | right].
    rewrite Hl in H by exact Hin. auto.
  - destruct S as (Hin & H & _). rewrite Hl in H by exact Hin. auto.
Qed.

(** inventory_partition: places with equal values *)
Theorem C22_inventory_list : forall arg, exists s, inventory_partition arg = Ok s /\
  (forall i j, i <> j -> together (sp_blocks s) (Z.of_nat i) (Z.of_nat j) <->
     exists v, nth_error arg i = Some v /\ nth_error arg j = Some v) /\
  (forall x y, together (sp_blocks s) x y -> 0 <= x) /\
  (forall i, get_label_from_element s (Z.of_nat i) = nth_error arg i).
Proof.
  intro arg. destruct (inventory_partition_spec arg) as (s & E & I). exists s. split; [exact E|].
  assert (Hf : forall i, (if Z.leb 0 (Z.of_nat i) then nth_error arg (Z.to_nat (Z.of_nat i)) else None) = nth_error arg i).
  { intro i. destruct (Z.leb_spec 0 (Z.of_nat i)); [|lia]. rewrite Nat2Z.id. reflexivity. }
  split; [|split].
  - intros i j Hij. rewrite (inv_blocks _ _ _ I) by lia. rewrite !Hf. reflexivity.
  - intros x y (b & Hb & Hx & Hy). destruct (Z.leb_spec 0 x) as [H|H]; [exact H|].
    assert (W := inv_wf _ _ _ I). destruct (wf_canonical s W) as (H1 & _). destruct (H1 b Hb) as [H2 H3].
    destruct (other_element b x H2 (zsorted_NoDup b H3)) as (z & Hz & Hzx).
    assert (T : together (sp_blocks s) x z) by (exists b; auto).
    apply (inv_blocks _ _ _ I x z) in T as (l & T & _); [|auto].
    apply Z.leb_gt in H. rewrite H in T. discriminate.
  - intro i. rewrite (inv_get_label _ _ _ _ I). apply Hf.
Qed.

Theorem C22_inventory_dict : forall items, NoDup (map fst items) ->
  exists s, inventory_partition_dict items = Ok s /\
  (forall x y, x <> y -> together (sp_blocks s) x y <-> exists v, In (x, v) items /\ In (y, v) items) /\
  (forall x v, get_label_from_element s x = Some v <-> In (x, v) items).
Proof.
  intros items Hn. destruct (inventory_partition_dict_spec items Hn) as (s & E & I). exists s. split; [exact E|]. split.
  - intros x y Hxy. rewrite (inv_blocks _ _ _ I) by assumption.
    split; intros (v & H1 & H2); exists v; rewrite !first_label_dict in * by assumption; auto.
  - intros x v. rewrite (inv_get_label _ _ _ _ I). apply first_label_dict, Hn.
Qed.

Example C22_ex : exists s, inventory_partition [20; 30; 20; 40; 30; 20] = Ok s /\
  sp_blocks s = [[0; 2; 5]; [1; 4]] /\ get_label_from_element s 3 = Some 40 /\
  get_block_from_label s 20 = Some [0; 2; 5].
Proof. eexists. split; [vm_compute; reflexivity|]. repeat split. Qed.
Example C22_ex2 : exists s0, SetPart (Some []) (DomSet [1; 2; 3]) = Ok s0 /\
  let s := fold_left label_step [(1, 8); (3, 8); (1, 9); (4, 8)] s0 in
  sp_blocks s = [[1; 3]] /\ get_label_from_element s 1 = Some 8 /\ get_label_from_element s 2 = None.
Proof. eexists. split; [vm_compute; reflexivity|]. vm_compute. repeat split. Qed.

(** * C23 *)

Theorem C23_refine : forall s new_blocks new_labels s', is_SetPart s ->
  refine_block s new_blocks new_labels = (s', None) ->
  canonical (sp_blocks s') /\ sp_domain s' = sp_domain s /\
  (exists b, In b (sp_blocks s) /\ Permutation (concat new_blocks) b) /\
  forall x y, x <> y -> together (sp_blocks s') x y <->
    together new_blocks x y \/ (together (sp_blocks s) x y /\ ~ In x (concat new_blocks)).
Proof.
  intros s nb nl s' W E. apply is_SetPart_wf in W. destruct (refine_block_spec s nb nl s' W E) as (H1 & W' & D & T).
  split; [apply W'|]. split; [exact D|]. split; [apply (refine_cond s nb W), H1 | exact T].
Qed.

(** without labels: accepted exactly when the new blocks add up to a block *)
Theorem C23_accept : forall s new_blocks, is_SetPart s ->
  (exists b, In b (sp_blocks s) /\ Permutation (concat new_blocks) b) ->
  exists s', refine_block s new_blocks None = (s', None).
Proof.
  intros s nb W H. apply is_SetPart_wf in W. apply (refine_cond s nb W) in H. apply refine_block_accept; assumption.
Qed.
Theorem C23_reject : forall s new_blocks new_labels, is_SetPart s ->
  (~ exists b, In b (sp_blocks s) /\ Permutation (concat new_blocks) b) ->
  refine_block s new_blocks new_labels = (s, Some ArgValueError).
Proof.
  intros s nb nl W H. apply is_SetPart_wf in W. rewrite <- (refine_cond s nb W) in H.
  apply refine_block_reject; assumption.
Qed.

(** with a wrong number of labels the call raises after it has changed the object: the block
    index still belongs to the old blocks *)
Theorem C23_labels_refuted : exists s s', is_SetPart s /\
  refine_block s [[1; 2]; [3; 4]] (Some [8]) = (s', Some ArgValueError) /\
  sp_blocks s = [[1; 2; 3; 4]; [5; 6]] /\ sp_blocks s' = [[5; 6]; [1; 2]; [3; 4]] /\
  element_to_block s' 1 = [5; 6].
Proof.
  eexists (mkSP DomN [[1; 2; 3; 4]; [5; 6]] _ _ [] no_caches). eexists.
  split; [apply (obj_new (Some [[1; 2; 3; 4]; [5; 6]]) DomN None); vm_compute; reflexivity|].
  split; [vm_compute; reflexivity|]. repeat split.
Qed.

Example C23_ex : exists s s', SetPart (Some [[1; 2; 3; 4]; [5; 6]]) DomN = Ok s /\
  refine_block s [[1]; [2; 4]; [3]] (Some [10; 11; 12]) = (s', None) /\ sp_blocks s' = [[2; 4]; [5; 6]] /\
  get_label_from_element s' 4 = Some 11.
Proof. do 2 eexists. split; [vm_compute; reflexivity|]. split; [vm_compute; reflexivity|]. split; reflexivity. Qed.

Print Assumptions C17_history.
Print Assumptions C18_join_lub.
Print Assumptions C18_join_prototype_improved.
Print Assumptions C20_frozen.
Print Assumptions C21_intval.
Print Assumptions C22_history.
Print Assumptions C23_refine.
