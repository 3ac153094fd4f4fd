(** Proof_SetPartMore: merge_many, histories, cached attributes, pairs and intval. *)

From Coq Require Import List Arith ZArith Bool Lia Permutation Sorting.Sorted Relations.
From Verif Require Import Model_Base Lib Model_Binary Proof_Binary Model_SetPart Spec_SetPart Proof_SetPart Proof_SetPartMerge.
Import ListNotations.
Open Scope Z_scope.

(** * Sequences of merges *)

Definition merge_all (ps : list (Z * Z)) (s : setpart) : setpart * option exn :=
  iterate (fun s ab => merge_pair s (fst ab) (snd ab)) ps s.

Lemma generated_add_pair (R : Z -> Z -> Prop) bs a b (Q : Z -> Z -> Prop) x y :
  NoDup (concat bs) -> (forall u v, same bs u v <-> generated R u v) ->
  (forall u v, Q u v <-> R u v \/ (u = a /\ v = b)) ->
  joined (same bs) a b x y <-> generated Q x y.
Proof.
  intros Hn HR HQ. rewrite <- (generated_pair bs a b x y Hn). split; apply generated_mono; intros u v.
  - intros [H|H].
    + assert (H' : generated R u v) by (apply HR; right; exact H).
      revert H'. apply generated_mono. intros p q Hpq. apply rst_step, HQ. left. exact Hpq.
    + apply rst_step, HQ. right. exact H.
  - intro H. apply HQ in H as [H|H].
    + assert (H' : same bs u v) by (apply HR, rst_step, H).
      destruct H' as [->|H']; [apply rst_refl | apply rst_step; left; exact H'].
    + apply rst_step. right. exact H.
Qed.

Lemma merge_all_spec ps s (R : Z -> Z -> Prop) :
  sp_wf s -> (forall x y, same (sp_blocks s) x y <-> generated R x y) ->
  exists s' e dn, merge_all ps s = (s', e) /\ sp_wf s' /\ sp_domain s' = sp_domain s /\
    (sp_labels s = [] -> sp_labels s' = []) /\
    (forall x y, same (sp_blocks s') x y <-> generated (fun u v => R u v \/ In (u, v) dn) x y) /\
    (e = None -> dn = ps) /\
    (sp_labels s = [] -> dn = accepted_prefix (element_in_domain s) ps) /\
    (sp_labels s = [] -> forall a b, In (a, b) dn -> a = b \/ (element_in_domain s a = true /\ element_in_domain s b = true)) /\
    (forall x, e = Some x -> dn <> ps).
Proof.
  revert s R; induction ps as [|[a b] ps IH]; intros s R W HR; unfold merge_all; cbn [iterate].
  - exists s, None, []. split; [reflexivity|]. split; [exact W|]. split; [reflexivity|]. split; [auto|]. split.
    + intros x y. rewrite HR. split; apply generated_mono; intros u v H; apply rst_step; [left; exact H|].
      destruct H as [H|[]]; exact H.
    + repeat split; auto; try discriminate.
  - cbn [fst snd]. destruct (merge_pair_spec s a b W) as (s1 & e & E & W1 & D1 & L1 & He & Hdom). rewrite E.
    destruct e as [e|].
    + destruct He as (-> & Hab & He).
      exists s, (Some e), []. split; [reflexivity|]. split; [exact W|]. split; [reflexivity|]. split; [auto|]. split.
      * intros x y. rewrite HR. split; apply generated_mono; intros u v H; apply rst_step; [left; exact H|].
        destruct H as [H|[]]; exact H.
      * split; [discriminate|]. split; [|split; [intros _ u v []|discriminate]].
        intro HL. destruct He as [[_ Hd]|(_ & _ & Hne)]; [|congruence]. cbn [accepted_prefix].
        destruct (Z.eqb_spec a b); [congruence|]. apply andb_false_iff in Hd. rewrite Hd. reflexivity.
    + fold (merge_all ps s1).
      destruct (IH s1 (fun u v => R u v \/ (u = a /\ v = b)) W1) as (s' & e' & dn & E' & W' & D' & L' & T' & Hn1 & Hn2 & Hn3 & Hn4).
      { intros x y. rewrite He. apply (generated_add_pair R (sp_blocks s)); [apply wf_nodup, W | exact HR | reflexivity]. }
      exists s', e', ((a, b) :: dn). rewrite E'. split; [reflexivity|]. split; [exact W'|].
      split; [congruence|]. split; [auto|]. split.
      * intros x y. rewrite T'. split; apply generated_mono; intros u v H; apply rst_step; cbn [In] in *.
        -- destruct H as [[H|[-> ->]]|H]; auto.
        -- destruct H as [H|[[= -> ->]|H]]; auto.
      * assert (Ed : element_in_domain s1 = element_in_domain s) by (unfold element_in_domain; rewrite D1; reflexivity).
        split; [intro Hn; rewrite (Hn1 Hn); reflexivity|]. split; [|split].
        -- intro HL. rewrite (Hn2 (L1 HL)), Ed. cbn [accepted_prefix].
           destruct (Hdom eq_refl) as [->|[-> ->]]; [rewrite Z.eqb_refl|rewrite orb_true_r]; reflexivity.
        -- intros HL u v [[= <- <-]|H]; [apply Hdom; reflexivity|]. rewrite <- Ed. apply (Hn3 (L1 HL)), H.
        -- intros x Hx H. apply (Hn4 x Hx). congruence.
Qed.

Lemma combinations2_place l : combinations2 l = place_pairs l.
Proof. induction l as [|x l IH]; [reflexivity|]. cbn [combinations2 place_pairs]. rewrite IH. reflexivity. Qed.

Lemma place_pairs_In l a b : In (a, b) (place_pairs l) -> In a l /\ In b l.
Proof.
  induction l as [|x l IH]; [intros []|]. cbn [place_pairs In]. rewrite in_app_iff, in_map_iff.
  intros [(y & [= <- <-] & Hy)|H]; [auto|]. destruct (IH H). auto.
Qed.
Lemma place_pairs_conn l x y (R : Z -> Z -> Prop) : In x l -> In y l ->
  generated (fun u v => R u v \/ In (u, v) (place_pairs l)) x y.
Proof.
  assert (H : forall l x y, In x l -> In y l -> x = y \/ In (x, y) (place_pairs l) \/ In (y, x) (place_pairs l)).
  { clear. induction l as [|z l IH]; [intros x y []|]. intros x y Hx Hy. cbn [place_pairs]. rewrite !in_app_iff, !in_map_iff.
    destruct Hx as [<-|Hx], Hy as [<-|Hy].
    - auto.
    - right. left. left. exists y. auto.
    - right. right. left. exists x. auto.
    - destruct (IH x y Hx Hy) as [H|[H|H]]; auto. }
  intros Hx Hy. destruct (H l x y Hx Hy) as [->|[H'|H']].
  - apply rst_refl.
  - apply rst_step. right. exact H'.
  - apply rst_sym, rst_step. right. exact H'.
Qed.

Lemma merge_many_spec s many : sp_wf s ->
  exists s' e dn, merge_many s many = (s', e) /\ sp_wf s' /\ sp_domain s' = sp_domain s /\
    (sp_labels s = [] -> sp_labels s' = []) /\
    (forall x y, same (sp_blocks s') x y <-> generated (fun u v => together (sp_blocks s) u v \/ In (u, v) dn) x y) /\
    (e = None -> dn = place_pairs many) /\
    (sp_labels s = [] -> dn = accepted_prefix (element_in_domain s) (place_pairs many)) /\
    (forall x, e = Some x -> dn <> place_pairs many).
Proof.
  intro W. unfold merge_many. rewrite combinations2_place. fold (merge_all (place_pairs many) s).
  destruct (merge_all_spec (place_pairs many) s (together (sp_blocks s)) W) as
    (s1 & e & dn & E & W1 & D1 & L1 & T1 & N1 & N2 & N3 & N4).
  { intros x y. symmetry. apply generated_together, wf_nodup, W. }
  rewrite E. destruct e as [e|].
  - exists s1, (Some e), dn. exact (conj eq_refl (conj W1 (conj D1 (conj L1 (conj T1 (conj N1 (conj N2 N4))))))).
  - destruct (reinit_spec s1 (sp_blocks s1) (sp_labels s1) (sp_caches s1) (wf_dom s1 W1)
                (NoDup_no_overlap _ (wf_nodup s1 W1)) (wf_labels s1 W1)) as (s2 & E2 & W2 & D2 & _ & L2 & T2).
    exists s2, None, dn. split; [exact E2|]. split; [exact W2|]. split; [congruence|].
    split; [intro H; rewrite L2, (L1 H); destruct (sp_blocks s2); reflexivity|].
    split; [intros x y; rewrite T2; apply T1|]. split; [exact N1|]. split; [exact N2 | discriminate].
Qed.

Lemma accepted_prefix_all dom ps : (forall a b, In (a, b) ps -> a = b \/ (dom a = true /\ dom b = true)) ->
  accepted_prefix dom ps = ps.
Proof.
  induction ps as [|[a b] ps IH]; intro H; [reflexivity|]. cbn [accepted_prefix].
  rewrite IH by (intros; apply H; right; assumption).
  destruct (H a b (or_introl eq_refl)) as [->|[-> ->]]; [rewrite Z.eqb_refl | rewrite orb_true_r]; reflexivity.
Qed.

Lemma merge_many_accept s many : sp_wf s -> sp_labels s = [] ->
  (forall x, In x many -> element_in_domain s x = true) ->
  exists s', merge_many s many = (s', None) /\ sp_wf s' /\ sp_domain s' = sp_domain s /\ sp_labels s' = [] /\
    (forall x y, same (sp_blocks s') x y <->
       generated (fun u v => together (sp_blocks s) u v \/ (In u many /\ In v many)) x y).
Proof.
  intros W HL Hd. destruct (merge_many_spec s many W) as (s' & e & dn & E & W' & D & L & T & N1 & N2 & N3).
  assert (Hdn : dn = place_pairs many).
  { rewrite (N2 HL). apply accepted_prefix_all. intros a b H. apply place_pairs_In in H as [H1 H2]. auto. }
  destruct e as [e|]; [exfalso; apply (N3 e eq_refl Hdn)|].
  exists s'. split; [exact E|]. split; [exact W'|]. split; [exact D|]. split; [auto|].
  intros x y. rewrite T, Hdn. split; apply generated_mono; intros u v.
  - intros [H|H]; apply rst_step; [left; exact H | right; apply place_pairs_In, H].
  - intros [H|[H1 H2]]; [apply rst_step; left; exact H | apply place_pairs_conn; assumption].
Qed.

(** * Histories: merges and reads of attributes, exceptions caught *)

Inductive sp_op :=
| MergePair (a b : Z) | MergeMany (many : list Z)
| ReadPairs | ReadIntval | ReadCanonical | ReadSingletons.

Definition sp_step (s : setpart) (op : sp_op) : setpart :=
  match op with
  | MergePair a b => fst (merge_pair s a b)
  | MergeMany many => fst (merge_many s many)
  | ReadPairs => fst (read_pairs s)
  | ReadIntval => fst (read_intval s)
  | ReadCanonical => fst (read_canonical s)
  | ReadSingletons => fst (read_singletons s)
  end.
Definition sp_run (ops : list sp_op) (s : setpart) : setpart := fold_left sp_step ops s.

(** the pairs that a history merges *)
Definition op_pairs (dom : Z -> bool) (op : sp_op) : list (Z * Z) :=
  match op with
  | MergePair a b => accepted_prefix dom [(a, b)]
  | MergeMany many => accepted_prefix dom (place_pairs many)
  | _ => []
  end.

Definition same_core (s s' : setpart) : Prop :=
  sp_domain s' = sp_domain s /\ sp_blocks s' = sp_blocks s /\ sp_index s' = sp_index s /\
  sp_length s' = sp_length s /\ sp_labels s' = sp_labels s.
Lemma same_core_wf s s' : same_core s s' -> sp_wf s -> sp_wf s'.
Proof.
  intros (H1 & H2 & H3 & H4 & H5) [W1 W2 W3 W4 W5].
  constructor; try congruence. unfold length_ok in *. rewrite H1, H2, H4. exact W3.
Qed.
Lemma set_caches_core s c : same_core s (set_caches s c).
Proof. repeat split. Qed.
Lemma same_core_refl s : same_core s s.
Proof. repeat split. Qed.
Lemma same_core_trans a b c : same_core a b -> same_core b c -> same_core a c.
Proof. unfold same_core. intuition congruence. Qed.
Lemma read_pairs_core s : same_core s (fst (read_pairs s)).
Proof. unfold read_pairs. destruct (c_pairs (sp_caches s)); [apply same_core_refl | apply set_caches_core]. Qed.
Lemma read_intval_core s : same_core s (fst (read_intval s)).
Proof.
  unfold read_intval. destruct (c_intval (sp_caches s)); [apply same_core_refl|].
  assert (H := read_pairs_core s). destruct (read_pairs s) as [s' p]. cbn [fst] in *.
  eapply same_core_trans; [exact H | apply set_caches_core].
Qed.
Lemma read_canonical_core s : same_core s (fst (read_canonical s)).
Proof.
  unfold read_canonical. destruct (c_canonical (sp_caches s)); [apply same_core_refl|].
  destruct (blocks_with_singletons s BwsNone); [apply set_caches_core | apply same_core_refl].
Qed.
Lemma read_singletons_core s : same_core s (fst (read_singletons s)).
Proof.
  unfold read_singletons. destruct (c_singletons (sp_caches s)); [apply same_core_refl|].
  destruct (sp_domain s); first [apply same_core_refl | apply set_caches_core].
Qed.

Lemma sp_step_spec s op : sp_wf s -> sp_labels s = [] ->
  sp_wf (sp_step s op) /\ sp_domain (sp_step s op) = sp_domain s /\ sp_labels (sp_step s op) = [] /\
  forall x y, same (sp_blocks (sp_step s op)) x y <->
    generated (fun u v => together (sp_blocks s) u v \/ In (u, v) (op_pairs (element_in_domain s) op)) x y.
Proof.
  intros W HL.
  assert (Hread : forall s', same_core s s' -> sp_wf s' /\ sp_domain s' = sp_domain s /\ sp_labels s' = [] /\
    forall x y, same (sp_blocks s') x y <-> generated (fun u v => together (sp_blocks s) u v \/ In (u, v) []) x y).
  { intros s' C. split; [eapply same_core_wf; eassumption|]. destruct C as (H1 & H2 & _ & _ & H5).
    split; [exact H1|]. split; [congruence|]. intros x y. rewrite H2, <- (generated_together _ x y (wf_nodup s W)).
    split; apply generated_mono; intros u v H; apply rst_step; [left; exact H | destruct H as [H|[]]; exact H]. }
  destruct op as [a b|many| | | |]; cbn [sp_step op_pairs];
    [| |apply Hread, read_pairs_core | apply Hread, read_intval_core | apply Hread, read_canonical_core
       | apply Hread, read_singletons_core].
  - destruct (merge_all_spec [(a, b)] s (together (sp_blocks s)) W) as
      (s1 & e & dn & E & W1 & D1 & L1 & T1 & N1 & N2 & N3 & N4).
    { intros x y. symmetry. apply generated_together, wf_nodup, W. }
    unfold merge_all in E. cbn [iterate fst snd] in E.
    assert (E' : fst (merge_pair s a b) = s1).
    { destruct (merge_pair s a b) as [s2 [e2|]]; cbn [fst]; congruence. }
    rewrite E', <- (N2 HL). auto.
  - destruct (merge_many_spec s many W) as (s1 & e & dn & E & W1 & D1 & L1 & T1 & N1 & N2 & N3).
    rewrite E. cbn [fst]. rewrite <- (N2 HL). auto.
Qed.

Lemma sp_run_spec ops s : sp_wf s -> sp_labels s = [] ->
  let s' := sp_run ops s in
  sp_wf s' /\ sp_domain s' = sp_domain s /\ sp_labels s' = [] /\
  forall x y, same (sp_blocks s') x y <->
    generated (fun u v => together (sp_blocks s) u v \/
                          In (u, v) (flat_map (op_pairs (element_in_domain s)) ops)) x y.
Proof.
  intros W HL. enough (G : forall (R : Z -> Z -> Prop) s, sp_wf s -> sp_labels s = [] ->
    (forall x y, same (sp_blocks s) x y <-> generated R x y) ->
    sp_wf (sp_run ops s) /\ sp_domain (sp_run ops s) = sp_domain s /\ sp_labels (sp_run ops s) = [] /\
    forall x y, same (sp_blocks (sp_run ops s)) x y <->
      generated (fun u v => R u v \/ In (u, v) (flat_map (op_pairs (element_in_domain s)) ops)) x y).
  { apply G; try assumption. intros x y. symmetry. apply generated_together, wf_nodup, W. }
  clear s W HL. induction ops as [|op ops IH]; intros R s W HL HR; cbn [sp_run fold_left flat_map].
  - split; [exact W|]. split; [reflexivity|]. split; [exact HL|]. intros x y. rewrite HR.
    split; apply generated_mono; intros u v H; apply rst_step; [left; exact H | destruct H as [H|[]]; exact H].
  - destruct (sp_step_spec s op W HL) as (W1 & D1 & L1 & T1). fold (sp_run ops (sp_step s op)).
    set (Q := fun u v => R u v \/ In (u, v) (op_pairs (element_in_domain s) op)).
    destruct (IH Q (sp_step s op) W1 L1) as (W2 & D2 & L2 & T2).
    { intros x y. rewrite T1. split; apply generated_mono; intros u v.
      - intros [H|H]; [|apply rst_step; right; exact H].
        assert (H' : generated R u v) by (apply HR; right; exact H). revert H'. apply generated_mono.
        intros p q Hpq. apply rst_step. left. exact Hpq.
      - intros [H|H]; [|apply rst_step; right; exact H].
        assert (H' : same (sp_blocks s) u v) by (apply HR, rst_step, H).
        destruct H' as [->|H']; [apply rst_refl | apply rst_step; left; exact H']. }
    split; [exact W2|]. split; [congruence|]. split; [exact L2|]. intros x y. rewrite T2.
    assert (Ed : element_in_domain (sp_step s op) = element_in_domain s) by (unfold element_in_domain; rewrite D1; reflexivity).
    rewrite Ed. unfold Q. split; apply generated_mono; intros u v H; apply rst_step; rewrite in_app_iff in *; tauto.
Qed.

(** * Caches *)

Lemma reinit_caches s bs ls c : sp_caches (fst (reinit s bs ls c)) = unalias c.
Proof.
  unfold reinit. fold (unalias c). destruct (sp_init (unalias c) (Some bs) (sp_domain s) (Some ls)) as [s'|e] eqn:E;
    cbn [fst sp_caches]; [|reflexivity].
  unfold sp_init in E. destruct (isort zlist_leb _); [injection E as <-; reflexivity|].
  apply guard_ok in E as [_ E]. apply bind_ok in E as (len & _ & E). apply bind_ok in E as (ls' & _ & E).
  injection E as <-. reflexivity.
Qed.

Lemma merge_pair_caches s a b :
  let c := sp_caches s in let c' := sp_caches (fst (merge_pair s a b)) in
  c_pairs c' = c_pairs c /\ c_intval c' = c_intval c /\ c_singletons c' = c_singletons c /\
  (c_canonical c = None -> c_canonical c' = None).
Proof.
  unfold merge_pair. destruct (Z.eqb a b); [cbn; auto|].
  destruct (negb _); [cbn; auto|]. destruct (merge_block_labels s a b) as [ls|e]; [|cbn; auto].
  assert (Ha : forall o n, let c := sp_caches s in let c' := unalias (alias_append c o n) in
     c_pairs c' = c_pairs c /\ c_intval c' = c_intval c /\ c_singletons c' = c_singletons c /\
     (c_canonical c = None -> c_canonical c' = None)).
  { intros o n. unfold alias_append. destruct (c_alias (sp_caches s)); cbn; repeat split; auto.
    intros ->. reflexivity. }
  destruct (zdget (sp_index s) a), (zdget (sp_index s) b);
    [destruct (Nat.eqb n n0); [cbn; auto|]| | |]; rewrite reinit_caches; cbn zeta; auto; cbn; auto.
Qed.

Lemma iterate_inv {A} (f : setpart -> A -> setpart * option exn) (P : setpart -> Prop) l s :
  (forall s x, P s -> P (fst (f s x))) -> P s -> P (fst (iterate f l s)).
Proof.
  intro H. revert s; induction l as [|x l IH]; intros s Hs; cbn [iterate]; [exact Hs|].
  specialize (H s x Hs). destruct (f s x) as [s' [e|]]; cbn [fst] in *; [exact H | apply IH, H].
Qed.

Lemma merge_many_caches s many :
  let c := sp_caches s in let c' := sp_caches (fst (merge_many s many)) in
  c_pairs c' = c_pairs c /\ c_intval c' = c_intval c /\ c_singletons c' = c_singletons c /\
  (c_canonical c = None -> c_canonical c' = None).
Proof.
  unfold merge_many.
  assert (H := iterate_inv (fun s ab => merge_pair s (fst ab) (snd ab))
    (fun s' => c_pairs (sp_caches s') = c_pairs (sp_caches s) /\ c_intval (sp_caches s') = c_intval (sp_caches s) /\
       c_singletons (sp_caches s') = c_singletons (sp_caches s) /\
       (c_canonical (sp_caches s) = None -> c_canonical (sp_caches s') = None)) (combinations2 many) s).
  destruct (iterate (fun s ab => merge_pair s (fst ab) (snd ab)) (combinations2 many) s) as [s' [e|]]; cbn [fst] in *.
  - apply H; [|auto]. clear. intros s1 [a b] (H1 & H2 & H3 & H4). cbn [fst snd].
    destruct (merge_pair_caches s1 a b) as (K1 & K2 & K3 & K4). repeat split; try congruence. auto.
  - rewrite reinit_caches. cbn. apply H; [|auto]. clear. intros s1 [a b] (H1 & H2 & H3 & H4). cbn [fst snd].
    destruct (merge_pair_caches s1 a b) as (K1 & K2 & K3 & K4). repeat split; try congruence. auto.
Qed.

Definition reads_pairs (op : sp_op) : bool := match op with ReadPairs | ReadIntval => true | _ => false end.
Definition reads_intval (op : sp_op) : bool := match op with ReadIntval => true | _ => false end.
Definition reads_canonical (op : sp_op) : bool := match op with ReadCanonical => true | _ => false end.
Definition reads_singletons (op : sp_op) : bool := match op with ReadSingletons => true | _ => false end.

Lemma sp_step_caches s op :
  let c := sp_caches s in let c' := sp_caches (sp_step s op) in
  ((reads_pairs op = false \/ c_pairs c <> None) -> c_pairs c' = c_pairs c) /\
  ((reads_intval op = false \/ c_intval c <> None) -> c_intval c' = c_intval c) /\
  ((reads_singletons op = false \/ c_singletons c <> None) -> c_singletons c' = c_singletons c) /\
  (reads_canonical op = false -> c_canonical c = None -> c_canonical c' = None).
Proof.
  destruct op as [a b|many| | | |]; cbn [sp_step reads_pairs reads_intval reads_canonical reads_singletons]; cbn zeta.
  - destruct (merge_pair_caches s a b) as (K1 & K2 & K3 & K4). repeat split; auto.
  - destruct (merge_many_caches s many) as (K1 & K2 & K3 & K4). repeat split; auto.
  - unfold read_pairs. destruct (c_pairs (sp_caches s)) eqn:E; cbn; repeat split; auto; try congruence.
    intros [H|H]; congruence.
  - unfold read_intval, read_pairs. destruct (c_intval (sp_caches s)) eqn:E; cbn; [repeat split; auto; congruence|].
    destruct (c_pairs (sp_caches s)) eqn:E'; cbn; repeat split; auto; try congruence;
      intros [H|H]; congruence.
  - unfold read_canonical. destruct (c_canonical (sp_caches s)) eqn:E; cbn; [repeat split; auto; congruence|].
    destruct (blocks_with_singletons s BwsNone); cbn; repeat split; auto; congruence.
  - unfold read_singletons. destruct (c_singletons (sp_caches s)) eqn:E; cbn; [repeat split; auto; congruence|].
    destruct (sp_domain s); cbn; repeat split; auto; try congruence; intros [H|H]; congruence.
Qed.

(** an attribute that is not read stays absent, one that was read never changes *)
Lemma sp_run_absent ops s :
  let s' := sp_run ops s in
  (forallb (fun op => negb (reads_pairs op)) ops = true -> c_pairs (sp_caches s) = None -> c_pairs (sp_caches s') = None) /\
  (forallb (fun op => negb (reads_intval op)) ops = true -> c_intval (sp_caches s) = None -> c_intval (sp_caches s') = None) /\
  (forallb (fun op => negb (reads_singletons op)) ops = true -> c_singletons (sp_caches s) = None -> c_singletons (sp_caches s') = None) /\
  (forallb (fun op => negb (reads_canonical op)) ops = true -> c_canonical (sp_caches s) = None -> c_canonical (sp_caches s') = None).
Proof.
  cbn zeta. revert s; induction ops as [|op ops IH]; intro s; cbn [sp_run fold_left forallb]; [auto|].
  fold (sp_run ops (sp_step s op)). destruct (IH (sp_step s op)) as (I1 & I2 & I3 & I4).
  destruct (sp_step_caches s op) as (S1 & S2 & S3 & S4). cbn zeta in *.
  repeat split; intros H Hc; apply andb_true_iff in H as [H H']; apply negb_true_iff in H.
  - apply I1; [exact H'|]. rewrite S1; auto.
  - apply I2; [exact H'|]. rewrite S2; auto.
  - apply I3; [exact H'|]. rewrite S3; auto.
  - apply I4; [exact H'|]. apply S4; auto.
Qed.
Lemma sp_run_frozen ops s :
  let s' := sp_run ops s in
  (c_pairs (sp_caches s) <> None -> c_pairs (sp_caches s') = c_pairs (sp_caches s)) /\
  (c_intval (sp_caches s) <> None -> c_intval (sp_caches s') = c_intval (sp_caches s)) /\
  (c_singletons (sp_caches s) <> None -> c_singletons (sp_caches s') = c_singletons (sp_caches s)).
Proof.
  cbn zeta. revert s; induction ops as [|op ops IH]; intro s; cbn [sp_run fold_left]; [auto|].
  fold (sp_run ops (sp_step s op)). destruct (IH (sp_step s op)) as (I1 & I2 & I3).
  destruct (sp_step_caches s op) as (S1 & S2 & S3 & S4). cbn zeta in *.
  repeat split; intro H.
  - rewrite <- S1 in H |- * by auto. apply I1, H.
  - rewrite <- S2 in H |- * by auto. apply I2, H.
  - rewrite <- S3 in H |- * by auto. apply I3, H.
Qed.

Lemma read_pairs_twice ops s :
  snd (read_pairs (sp_run ops (fst (read_pairs s)))) = snd (read_pairs s).
Proof.
  assert (H : c_pairs (sp_caches (fst (read_pairs s))) = Some (snd (read_pairs s))).
  { unfold read_pairs. destruct (c_pairs (sp_caches s)) eqn:E; cbn; auto. }
  destruct (sp_run_frozen ops (fst (read_pairs s))) as (I1 & _). cbn zeta in I1.
  unfold read_pairs at 1. rewrite I1, H by congruence. reflexivity.
Qed.
Lemma read_intval_twice ops s :
  snd (read_intval (sp_run ops (fst (read_intval s)))) = snd (read_intval s).
Proof.
  assert (H : c_intval (sp_caches (fst (read_intval s))) = Some (snd (read_intval s))).
  { unfold read_intval. destruct (c_intval (sp_caches s)) eqn:E; cbn; auto.
    destruct (read_pairs s); reflexivity. }
  destruct (sp_run_frozen ops (fst (read_intval s))) as (_ & I1 & _). cbn zeta in I1.
  unfold read_intval at 1. rewrite I1, H by congruence. reflexivity.
Qed.
Lemma read_singletons_twice ops s l : snd (read_singletons s) = Ok l ->
  snd (read_singletons (sp_run ops (fst (read_singletons s)))) = Ok l.
Proof.
  intro Hs.
  assert (H : c_singletons (sp_caches (fst (read_singletons s))) = Some l).
  { unfold read_singletons in *. destruct (c_singletons (sp_caches s)) eqn:E; cbn in *; [congruence|].
    destruct (sp_domain s); cbn in *; congruence. }
  destruct (sp_run_frozen ops (fst (read_singletons s))) as (_ & _ & I1). cbn zeta in I1.
  unfold read_singletons at 1. rewrite I1, H by congruence. reflexivity.
Qed.

(** * pairs, intval, singletons *)

Lemma combinations2_sorted_In l a b : StronglySorted Z.lt l ->
  In (a, b) (combinations2 l) <-> a < b /\ In a l /\ In b l.
Proof.
  induction 1 as [|x l Hs IH Hf]; cbn [combinations2 In]; [tauto|].
  rewrite in_app_iff, in_map_iff, IH. rewrite Forall_forall in Hf. split.
  - intros [(y & [= <- <-] & Hy)|H]; [|tauto]. specialize (Hf y Hy). auto.
  - intros (Hab & [<-|Ha] & [<-|Hb]); try lia.
    + left. exists b. auto.
    + specialize (Hf a Ha). lia.
    + right. auto.
Qed.
Lemma combinations2_NoDup (l : list Z) : NoDup l -> NoDup (combinations2 l).
Proof.
  induction 1 as [|x l Hx Hl IH]; cbn [combinations2]; [constructor|].
  assert (H1 : NoDup (map (pair x) l)).
  { apply FinFun.Injective_map_NoDup; [intros u v [=]; assumption | exact Hl]. }
  assert (Hd : forall p, In p (map (pair x) l) -> ~ In p (combinations2 l)).
  { intros [u v] Hp Hq. apply in_map_iff in Hp as (y & [= <- <-] & Hy).
    rewrite combinations2_place in Hq. apply place_pairs_In in Hq as [Hq _]. contradiction. }
  revert H1 Hd. generalize (map (pair x) l) as m. induction m as [|p m IHm]; intros H1 Hd; [exact IH|].
  cbn [app]. inversion H1; subst. constructor.
  - rewrite in_app_iff. intros [H|H]; [contradiction | apply (Hd p); [left; reflexivity | exact H]].
  - apply IHm; [assumption | intros q Hq; apply Hd; right; exact Hq].
Qed.
Lemma pairs_of_In bs a b : canonical bs -> In (a, b) (pairs_of bs) <-> a < b /\ together bs a b.
Proof.
  intros (H1 & _ & _). unfold pairs_of. rewrite in_flat_map. split.
  - intros (c & Hc & H). apply combinations2_sorted_In in H as (Hab & Ha & Hb); [|apply H1, Hc].
    split; [exact Hab | exists c; auto].
  - intros (Hab & c & Hc & Ha & Hb). exists c. split; [exact Hc|].
    apply combinations2_sorted_In; [apply H1, Hc | auto].
Qed.
Lemma pairs_of_NoDup bs : NoDup (concat bs) -> NoDup (pairs_of bs).
Proof.
  unfold pairs_of. induction bs as [|b bs IH]; cbn [flat_map concat]; intro Hn; [constructor|].
  assert (H1 := combinations2_NoDup b (NoDup_app_remove_r _ _ Hn)). assert (H2 := IH (NoDup_app_remove_l _ _ Hn)).
  assert (Hd : forall p, In p (combinations2 b) -> ~ In p (flat_map combinations2 bs)).
  { intros [u v] Hp Hq. rewrite combinations2_place in Hp. apply place_pairs_In in Hp as [Hp _].
    apply in_flat_map in Hq as (c & Hc & Hq). rewrite combinations2_place in Hq. apply place_pairs_In in Hq as [Hq _].
    eapply NoDup_app_disj; [exact Hn | exact Hp | apply in_concat; eauto]. }
  clear - H1 H2 Hd. induction H1 as [|x l Hx Hl IH]; [exact H2|].
  cbn [app]. constructor.
  - rewrite in_app_iff. intros [H|H]; [contradiction | apply (Hd x); [left; reflexivity | exact H]].
  - apply IH. intros q Hq. apply Hd. right. exact Hq.
Qed.

(** the exponent of a pair *)
Definition expo (ab : Z * Z) : Z := (snd ab ^ 2 - snd ab) / 2 + fst ab.

Lemma triangle b : 0 <= b -> exists t, (b ^ 2 - b) / 2 = t /\ 2 * t = b * (b - 1) /\ 0 <= t.
Proof.
  intro Hb. exists ((b ^ 2 - b) / 2). split; [reflexivity|].
  replace (b ^ 2 - b) with (b * (b - 1)) by ring.
  assert (E : Z.even (b * (b - 1)) = true).
  { rewrite Z.even_mul, Z.even_sub. destruct (Z.even b); reflexivity. }
  apply Z.even_spec in E as [t Ht].
  assert (Ed : b * (b - 1) / 2 = t) by (rewrite Ht, Z.mul_comm; apply Z.div_mul; lia).
  rewrite Ed. split; [lia | nia].
Qed.
Lemma expo_inj p q : 0 <= fst p < snd p -> 0 <= fst q < snd q -> expo p = expo q -> p = q.
Proof.
  destruct p as [a b], q as [c d]. unfold expo. cbn [fst snd]. intros H1 H2 E.
  destruct (triangle b ltac:(lia)) as (t & Et & Ht & _). destruct (triangle d ltac:(lia)) as (u & Eu & Hu & _).
  rewrite Et, Eu in E. assert (b = d).
  { destruct (Z.lt_trichotomy b d) as [H|[H|H]]; [exfalso|exact H|exfalso].
    - assert (b * (b - 1) + 2 * b <= d * (d - 1)) by nia. lia.
    - assert (d * (d - 1) + 2 * d <= b * (b - 1)) by nia. lia. }
  subst d. f_equal; lia.
Qed.
Lemma expo_nonneg p : 0 <= fst p < snd p -> 0 <= expo p.
Proof.
  destruct p as [a b]. unfold expo. cbn [fst snd]. intro H.
  destruct (triangle b ltac:(lia)) as (t & -> & _ & Ht). lia.
Qed.

Lemma intval_exposet ps : (forall p, In p ps -> 0 <= fst p < snd p) ->
  intval_of ps = Z.of_nat (exposet_to_int (map (fun p => Z.to_nat (expo p)) ps)).
Proof.
  unfold intval_of, exposet_to_int, list_sum_nat. intro H.
  assert (G : forall acc, fold_left (fun result ab => result + 2 ^ ((snd ab ^ 2 - snd ab) / 2 + fst ab)) ps acc =
    acc + Z.of_nat (fold_right Nat.add 0%nat (map (fun e => Nat.pow 2 e) (map (fun p => Z.to_nat (expo p)) ps)))).
  { induction ps as [|p ps IH]; intro acc; cbn [fold_left map fold_right]; [lia|].
    rewrite IH by (intros q Hq; apply H; right; exact Hq).
    rewrite Nat2Z.inj_add, Nat2Z.inj_pow, Z2Nat.id by (apply expo_nonneg, H; left; reflexivity).
    change (Z.of_nat 2) with 2. change ((snd p ^ 2 - snd p) / 2 + fst p) with (expo p).
    symmetry. apply Z.add_assoc. }
  rewrite (G 0). lia.
Qed.

Lemma intval_inj bs bs' : canonical bs -> canonical bs' ->
  (forall x, In x (concat bs) -> 0 <= x) -> (forall x, In x (concat bs') -> 0 <= x) ->
  intval_of (pairs_of bs) = intval_of (pairs_of bs') <-> bs = bs'.
Proof.
  intros C C' P P'. split; [|intros ->; reflexivity].
  assert (G : forall bs, canonical bs -> (forall x, In x (concat bs) -> 0 <= x) ->
    (forall p, In p (pairs_of bs) -> 0 <= fst p < snd p) /\
    NoDup (map (fun p => Z.to_nat (expo p)) (pairs_of bs))).
  { clear. intros bs C P.
    assert (H : forall p, In p (pairs_of bs) -> 0 <= fst p < snd p).
    { intros [a b] H. apply (pairs_of_In bs a b C) in H as [Hab (c & Hc & Ha & Hb)]. cbn.
      assert (0 <= a) by (apply P, in_concat; eauto). lia. }
    split; [exact H|]. assert (Hn := pairs_of_NoDup bs (canonical_NoDup bs C)).
    revert Hn H. generalize (pairs_of bs) as l. clear. induction 1 as [|p l Hp Hl IH]; intro H; cbn [map]; [constructor|].
    constructor; [|apply IH; intros q Hq; apply H; right; exact Hq].
    rewrite in_map_iff. intros (q & E & Hq). apply Hp.
    assert (Rp := H p (or_introl eq_refl)). assert (Rq := H q (or_intror Hq)).
    rewrite <- (expo_inj q p Rq Rp); [exact Hq|].
    apply Z2Nat.inj; auto using expo_nonneg. }
  destruct (G bs C P) as [G1 G2]. destruct (G bs' C' P') as [G1' G2'].
  rewrite (intval_exposet _ G1), (intval_exposet _ G1'). intro E. apply Nat2Z.inj in E.
  assert (Hin : forall bs bs', canonical bs -> canonical bs' ->
    (forall p, In p (pairs_of bs) -> 0 <= fst p < snd p) -> (forall p, In p (pairs_of bs') -> 0 <= fst p < snd p) ->
    NoDup (map (fun p => Z.to_nat (expo p)) (pairs_of bs)) -> NoDup (map (fun p => Z.to_nat (expo p)) (pairs_of bs')) ->
    exposet_to_int (map (fun p => Z.to_nat (expo p)) (pairs_of bs)) =
    exposet_to_int (map (fun p => Z.to_nat (expo p)) (pairs_of bs')) ->
    forall p, In p (pairs_of bs) -> In p (pairs_of bs')).
  { clear. intros bs bs' C C' G1 G1' G2 G2' E p Hp.
    assert (T := exposet_to_int_testbit _ (Z.to_nat (expo p)) G2). rewrite E, exposet_to_int_testbit in T by exact G2'.
    assert (M : memb (Z.to_nat (expo p)) (map (fun p => Z.to_nat (expo p)) (pairs_of bs)) = true).
    { apply memb_In. apply (in_map (fun p => Z.to_nat (expo p))), Hp. }
    rewrite M in T. apply memb_In, in_map_iff in T as (q & Eq & Hq).
    rewrite <- (expo_inj q p (G1' q Hq) (G1 p Hp)); [exact Hq|].
    apply Z2Nat.inj; auto using expo_nonneg. }
  apply canonical_ext; try assumption. intros x y Hxy.
  assert (Both : forall p, In p (pairs_of bs) <-> In p (pairs_of bs')).
  { intro p. split; [apply (Hin bs bs') | apply (Hin bs' bs)]; auto. }
  assert (Lt : forall u v, u < v -> together bs u v <-> together bs' u v).
  { intros u v Huv. specialize (Both (u, v)). rewrite (pairs_of_In bs u v C), (pairs_of_In bs' u v C') in Both. tauto. }
  destruct (Z.lt_trichotomy x y) as [H|[H|H]]; [apply Lt, H | congruence|].
  split; intro T; apply together_sym, Lt, together_sym; assumption.
Qed.

(** blocks_with_singletons *)
Definition bws_elements (s : setpart) (arg : bws_arg) (x : Z) : Prop :=
  match arg with
  | BwsNone => match sp_domain s with
               | DomN => exists n, sp_length s = Some n /\ 0 <= x < n
               | DomZ => (exists y, In y (concat (sp_blocks s)) /\ y <= x) /\
                         (exists y, In y (concat (sp_blocks s)) /\ x <= y)
               | DomSet l => In x l
               end
  | BwsLength n => 0 <= x < n
  | BwsRange low high => low <= x < high
  | BwsElements l => In x l
  end.

Lemma blocks_with_singletons_spec s arg r : sp_wf s -> blocks_with_singletons s arg = Ok r ->
  forall b, In b r <-> In b (sp_blocks s) \/
    exists x, b = [x] /\ bws_elements s arg x /\ ~ In x (concat (sp_blocks s)).
Proof.
  intros W H b. unfold blocks_with_singletons in H. apply bind_ok in H as (elements & He & H).
  injection H as <-.
  assert (Hel : forall x, In x elements <-> bws_elements s arg x).
  { intro x. unfold bws_elements. destruct arg as [|n|low high|l]; cbn [bws_elements].
    - destruct (sp_domain s) as [| |l].
      + destruct (sp_length s) as [n|]; [|discriminate]. injection He as <-. rewrite zrange_In. split.
        * intro H. exists n. auto.
        * intros (m & [= <-] & H). exact H.
      + destruct (sp_non_singletons s) as [|y l] eqn:En; [discriminate|]. injection He as <-. rewrite zrange_In.
        destruct (zmin_list_spec l y) as [m1 m2]. destruct (zmax_list_spec l y) as [M1 M2].
        assert (Hns : forall z, In z (y :: l) <-> In z (concat (sp_blocks s))).
        { intro z. rewrite <- En. apply (non_singletons_In s W). }
        split.
        * intro H. split; [exists (zmin_list y l) | exists (zmax_list y l)]; (split; [apply Hns; assumption | lia]).
        * intros [(u & Hu & Hux) (v & Hv & Hxv)]. apply Hns in Hu, Hv. specialize (m2 u Hu). specialize (M2 v Hv). lia.
      + injection He as <-. reflexivity.
    - apply guard_ok in He as [_ He]. destruct (sp_length s); [|discriminate]. apply guard_ok in He as [_ He].
      injection He as <-. apply zrange_In.
    - apply guard_ok in He as [_ He]. destruct (sp_non_singletons s); [discriminate|]. apply guard_ok in He as [_ He].
      injection He as <-. apply zrange_In.
    - apply guard_ok in He as [_ He]. injection He as <-. reflexivity. }
  assert (P := isort_perm zlist_leb (sp_blocks s ++ map (fun x => [x]) (zdiff (znodup elements) (sp_non_singletons s)))).
  split.
  - intro Hb. apply (Permutation_in _ (Permutation_sym P)) in Hb. apply in_app_iff in Hb as [Hb|Hb]; [auto|].
    apply in_map_iff in Hb as (x & <- & Hx). apply zdiff_In in Hx as [Hx1 Hx2]. rewrite znodup_In, Hel in Hx1.
    rewrite (non_singletons_In s W) in Hx2. right. exists x. auto.
  - intro Hb. apply (Permutation_in _ P). apply in_app_iff. destruct Hb as [Hb|(x & -> & H1 & H2)]; [auto|].
    right. apply in_map_iff. exists x. split; [reflexivity|]. apply zdiff_In. rewrite znodup_In, Hel, (non_singletons_In s W). auto.
Qed.
