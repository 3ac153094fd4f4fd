(** Histories of SetPartComp objects, the constructor and the derived values. *)

From Coq Require Import List Arith ZArith Bool Lia Permutation Sorting.Sorted Relations.
From Verif Require Import Model_Base Lib Model_Binary Proof_Binary Model_SetPart Spec_SetPart Proof_SetPart Proof_SetPartMerge
  Proof_SetPartMore Proof_SetPartLattice Model_SetPartComp Spec_SetPartComp Proof_SetPartComp.
Import ListNotations.
Open Scope Z_scope.

(** * Statements *)

Lemma forced_mono st st' x y c : (forall a b q, In (a, b, q) st -> In (a, b, q) st') -> forced st x y c -> forced st' x y c.
Proof. intros H F. induction F; eauto using forced_refl, forced_step, forced_sym, forced_trans. Qed.

Lemma forced_sound st v x y c : models v st -> forced st x y c -> xorb (v x) (v y) = c.
Proof.
  intros M F. induction F as [x|a b p H|x y c _ IH|x y z c d _ IH1 _ IH2].
  - apply xorb_nilpotent.
  - apply M, H.
  - rewrite xorb_comm. exact IH.
  - rewrite <- IH1, <- IH2. destruct (v x), (v y), (v z); reflexivity.
Qed.

(** the object [s] says what follows from the statements [st] *)
Definition says (s : spc) (st : list statement) : Prop := cwf s /\ forall x y c, rel s x y c <-> forced st x y c.

Lemma says_added s st s' a b q : says s st -> cwf s' -> (forall x y c, rel s' x y c <-> added s a b q x y c) ->
  says s' (st ++ [(a, b, q)]).
Proof.
  intros [C H] C' R. split; [exact C'|]. intros x y c. 
  assert (Hab : rel s' a b q).
  { apply R. right. exists false, q. unfold side. rewrite xorb_nilpotent. split; [left; apply rel_refl|].
    split; [right; apply rel_refl | destruct q; reflexivity]. }
  split.
  - intro G. apply R in G. 
    assert (M : forall u v d, rel s u v d -> forced (st ++ [(a, b, q)]) u v d).
    { intros u v d K. apply H in K. revert K. apply forced_mono. intros. apply in_or_app. auto. }
    assert (Sd : forall u d, side s a b q u d -> forced (st ++ [(a, b, q)]) u a d).
    { intros u d [K|K]; apply M in K; [exact K|].
      assert (K' := forced_trans _ _ _ _ _ _ K (forced_sym _ _ _ _ (forced_step _ a b q (in_or_app st [(a, b, q)] (a, b, q) (or_intror (or_introl eq_refl)))))).
      rewrite xorb_assoc, xorb_nilpotent, xorb_false_r in K'. exact K'. }
    destruct G as [G|(c1 & c2 & G1 & G2 & ->)]; [apply M, G|].
    eapply forced_trans; [apply Sd, G1 | apply forced_sym, Sd, G2].
  - intro G. induction G as [u|u v d K|u v d _ IH|u v w d e _ IH1 _ IH2].
    + apply rel_refl.
    + apply in_app_or in K as [K|[[= <- <- <-]|[]]]; [|exact Hab]. apply R. left. apply H, forced_step, K.
    + apply rel_sym, IH.
    + eapply rel_trans; eassumption.
Qed.

(** * Histories *)

Definition spc_call (order : list (Z * Z) -> list (Z * Z)) (s : spc) (t : statement) : spc * option exn :=
  let '(a, b, q) := t in if q then set_comp order s a b else set_equal order s a b.

Lemma spc_call_spec order s st a b (q : bool) : (forall l, Permutation (order l) l) -> says s st -> a <> b ->
  (forced st a b (negb q) /\ spc_call order s (a, b, q) = (s, Some (if q then SetCompEqualsError else SetEqualComplementsError))) \/
  (~ forced st a b (negb q) /\ exists s', spc_call order s (a, b, q) = (s', None) /\ says s' (st ++ [(a, b, q)])).
Proof.
  intros Ho [C H] Hab. unfold spc_call. destruct q; cbn [negb].
  - destruct (set_comp_spec order s a b Ho C Hab) as [[R E]|(R & s' & E & C' & R')]; rewrite H in R; [left; auto|].
    right. split; [exact R|]. exists s'. split; [exact E|]. apply (says_added s); [split; assumption | assumption | assumption].
  - destruct (set_equal_spec order s a b Ho C Hab) as [[R E]|(R & s' & E & C' & R')]; rewrite H in R; [left; auto|].
    right. split; [exact R|]. exists s'. split; [exact E|]. apply (says_added s); [split; assumption | assumption | assumption].
Qed.

(** * The constructor *)

Lemma pairs_of_list_place l : pairs_of_list l = place_pairs l.
Proof. induction l as [|x l IH]; [reflexivity|]. cbn. rewrite IH. reflexivity. Qed.

Lemma given_false bs ps a b : In (a, b, false) (given bs ps) <-> exists l, In l bs /\ In (a, b) (pairs_of_list l).
Proof.
  unfold given. rewrite in_app_iff, !in_map_iff. split.
  - intros [([u v] & [= <- <-] & H)|(? & [= ] & _)]. apply in_flat_map in H. exact H.
  - intros H. left. exists (a, b). split; [reflexivity|]. apply in_flat_map, H.
Qed.
Lemma given_true bs ps a b : In (a, b, true) (given bs ps) <-> In (a, b) ps.
Proof.
  unfold given. rewrite in_app_iff, !in_map_iff. split.
  - intros [(? & [= ] & _)|([u v] & [= <- <-] & H)]. exact H.
  - intros H. right. exists (a, b). auto.
Qed.

Lemma add_all_In (f : Z * Z -> Z * Z) ps acc q :
  In q (fold_left (fun acc ab => pairs_add acc (f ab)) ps acc) <-> In q acc \/ exists ab, In ab ps /\ q = f ab.
Proof.
  revert acc; induction ps as [|p ps IH]; intro acc; cbn [fold_left].
  - firstorder.
  - rewrite IH, pairs_add_In. cbn [In]. split.
    + intros [[H|H]|(ab & H & E)]; eauto 6.
    + intros [H|(ab & [<-|H] & E)]; eauto 6.
Qed.
Lemma add_all_NoDup (f : Z * Z -> Z * Z) ps acc : NoDup acc ->
  NoDup (fold_left (fun acc ab => pairs_add acc (f ab)) ps acc).
Proof. revert acc; induction ps as [|p ps IH]; intros acc H; cbn [fold_left]; [exact H|]. apply IH, pairs_add_NoDup, H. Qed.

(** pairs of different blocks, where pairs that meet a common block are equal *)
Definition proper (bs : list (list Z)) (ps : list (Z * Z)) : Prop :=
  (forall a b, In (a, b) ps -> a <> b) /\
  (forall a b c d, In (a, b) ps -> In (c, d) ps ->
     (same bs a c -> same bs b d) /\ (same bs b d -> same bs a c) /\
     (same bs a d -> same bs b c) /\ (same bs b c -> same bs a d)).

Lemma ctor_spec obs ops : (obs = None -> ops = None) ->
  let bs := match obs with Some bs => bs | None => [] end in
  let ps := match ops with Some ps => ps | None => [] end in
  no_overlap bs -> proper bs ps ->
  ((exists a b, In (a, b) ps /\ together bs a b) /\ SetPartComp obs ops = Err PartCompMismatchError) \/
  ((~ exists a b, In (a, b) ps /\ together bs a b) /\ exists s, SetPartComp obs ops = Ok s /\ says s (given bs ps)).
Proof.
  intros Hnone bs ps Hn [Hne Hpr]. unfold SetPartComp.
  replace (match obs, ops with None, Some _ => false | _, _ => true end) with true
    by (destruct obs, ops; try reflexivity; specialize (Hnone eq_refl); discriminate).
  cbn [true_except bind]. change (match obs with Some bs => bs | None => [] end) with bs.
  destruct (sp_init_spec no_caches (Some bs) DomZ None Hn) as (p & E & W & D & _ & L & T); [split; constructor|].
  change (SetPart (Some bs) DomZ = Ok p) in E. rewrite E. cbn [bind]. cbn in D.
  assert (L' : sp_labels p = []) by (rewrite L; destruct (sp_blocks p); reflexivity).
  assert (Ts : forall x y, same (sp_blocks p) x y <-> same bs x y).
  { intros x y. unfold same. destruct (Z.eq_dec x y) as [->|Hxy]; [tauto|]. rewrite (T x y Hxy). tauto. }
  set (cps := match ops with Some ps => _ | None => [] end).
  set (f := fun ab : Z * Z => pair_sorted (rep p (fst ab)) (rep p (snd ab))).
  assert (Hc : forall q, In q cps <-> exists ab, In ab ps /\ q = f ab).
  { intro q. unfold cps, ps, f. destruct ops as [ps'|]; [|firstorder].
    rewrite (add_all_In (fun ab => pair_sorted (spc_repr (mkSPC p []) (fst ab)) (spc_repr (mkSPC p []) (snd ab)))).
    split; [intros [[]|(ab & H & ->)] | intros (ab & H & ->); right]; exists ab; (split; [exact H|]);
      rewrite !spc_repr_rep by exact W; reflexivity. }
  assert (Nc : NoDup cps).
  { unfold cps. destruct ops; [|constructor].
    apply (add_all_NoDup (fun ab => pair_sorted (spc_repr (mkSPC p []) (fst ab)) (spc_repr (mkSPC p []) (snd ab)))). constructor. }
  clearbody cps.
  assert (Hf : forall a b u v, f (a, b) = (u, v) -> (rep p a = u /\ rep p b = v \/ rep p a = v /\ rep p b = u) /\ u <= v).
  { intros a b u v H. unfold f in H. cbn [fst snd] in H. 
    destruct (pair_sorted_cases (rep p a) (rep p b)) as [[F K]|[F K]]; rewrite F in H; injection H as <- <-; split; auto; lia. }
  destruct (forallb (fun p0 => negb (pair_in_same_block p (fst p0) (snd p0))) cps) eqn:G.
  - (* accepted *)
    rewrite forallb_forall in G.
    assert (Hs : forall a b, In (a, b) ps -> ~ same bs a b).
    { intros a b H [F|F]; [apply (Hne a b H F)|].
      assert (Hab := Hne a b H). apply (T a b Hab) in F.
      assert (Hr : rep p a = rep p b) by (apply (rep_iff p W); right; exact F).
      assert (K : In (f (a, b)) cps) by (apply Hc; eauto). apply G in K. unfold f in K. cbn [fst snd] in K.
      rewrite <- Hr in K. unfold pair_sorted in K. rewrite Z.leb_refl in K. cbn [fst snd] in K. apply negb_true_iff in K.
      assert (K' : pair_in_same_block p (rep p a) (rep p a) = true).
      { apply (pair_in_same_block_spec p W). destruct F as (l & Hl & Ha & Hb).
        destruct (rep_same p W a) as [R|R].
        - rewrite <- R. exists l; auto.
        - destruct R as (m & Hm & _ & R). exists m; auto. }
      congruence. }
    right. split. { intros (a & b & H & F). apply (Hs a b H). right. exact F. }
    exists (mkSPC p cps). split; [reflexivity|].
    assert (C : cwf (mkSPC p cps)).
    { split; cbn [equal_part comp_pairs]; auto.
      - intros u v H. apply Hc in H as ([a b] & H & F). symmetry in F. destruct (Hf a b u v F) as [K Lu].
        assert (Hr : rep p a <> rep p b). { intro R. apply (rep_iff p W), Ts in R. apply (Hs a b H R). }
        destruct K as [[<- <-]|[<- <-]]; rewrite !(rep_rep p W); (split; [lia | auto]).
      - intros u v u' v' H H' K. apply Hc in H as ([a b] & H & F), H' as ([c d] & H' & F').
        symmetry in F, F'. destruct (Hf _ _ _ _ F) as [A La], (Hf _ _ _ _ F') as [B Lb].
        destruct (Hpr a b c d H H') as (P1 & P2 & P3 & P4). rewrite <- !Ts in P1, P2, P3, P4.
        rewrite <- !(rep_iff p W) in P1, P2, P3, P4.
        destruct A as [[A1 A2]|[A1 A2]], B as [[B1 B2]|[B1 B2]]; rewrite A1, A2, B1, B2 in *;
          destruct K as [K|[K|[K|K]]]; intuition (try congruence; try lia). }
    assert (Fs : forall u v, same (sp_blocks p) u v -> forced (given bs ps) u v false).
    { intros u v K. apply Ts in K as [->|(l & Hl & Hu & Hv)]; [apply forced_refl|].
      assert (Gn := place_pairs_conn l u v (fun _ _ => False) Hu Hv). clear Hu Hv.
      induction Gn as [u v [[]|K]|u|u v _ IH|u v w _ IH1 _ IH2].
      - apply forced_step, given_false. exists l. rewrite pairs_of_list_place. auto.
      - apply forced_refl.
      - apply forced_sym, IH.
      - exact (forced_trans _ _ _ _ _ _ IH1 IH2). }
    split; [exact C|]. intros x y c. split.
    + destruct c; cbn [rel equal_part comp_pairs]; [|apply Fs].
      intro H. apply Hc in H as ([a b] & H & F). unfold f in F. cbn [fst snd] in F.
      assert (Fab : forced (given bs ps) a b true) by (apply forced_step, given_true, H).
      apply pair_sorted_eq in F as [[F1 F2]|[F1 F2]]; apply (rep_iff p W), Fs in F1; apply (rep_iff p W), Fs in F2.
      * exact (forced_trans _ _ _ _ _ _ F1 (forced_trans _ _ _ _ _ _ Fab (forced_sym _ _ _ _ F2))).
      * exact (forced_trans _ _ _ _ _ _ F1 (forced_trans _ _ _ _ _ _ (forced_sym _ _ _ _ Fab) (forced_sym _ _ _ _ F2))).
    + intro H. induction H as [u|a b q H|u v d _ IH|u v w d e _ IH1 _ IH2].
      * apply rel_refl.
      * destruct q.
        -- apply given_true in H. cbn [rel equal_part comp_pairs]. apply Hc. exists (a, b). auto.
        -- apply given_false in H as (l & Hl & H). rewrite pairs_of_list_place in H. apply place_pairs_In in H as [Ha Hb].
           cbn [rel equal_part]. apply Ts. right. exists l. auto.
      * apply rel_sym, IH.
      * eapply (rel_trans _ C); eassumption.
  - left. split; [|reflexivity].
    assert (K : exists q, In q cps /\ pair_in_same_block p (fst q) (snd q) = true).
    { clear -G. induction cps as [|q l IH]; [discriminate|]. cbn [forallb] in G. apply andb_false_iff in G as [G|G].
      - exists q. split; [left; reflexivity|]. apply negb_false_iff, G.
      - destruct (IH G) as (r & H & K). exists r. split; [right; exact H | exact K]. }
    destruct K as (q & Hq & K). apply Hc in Hq as ([a b] & Hab & ->). exists a, b. split; [exact Hab|].
    apply (pair_in_same_block_spec p W) in K.
    assert (K' : together (sp_blocks p) (rep p a) (rep p b)).
    { unfold f in K. cbn [fst snd] in K. destruct (pair_sorted_cases (rep p a) (rep p b)) as [[F _]|[F _]]; rewrite F in K; cbn [fst snd] in K;
        destruct K as (l & Hl & H1 & H2); exists l; auto. }
    assert (Sab : same (sp_blocks p) a b).
    { apply (same_trans _ _ (rep p a)); [apply wf_nodup, W | apply (rep_same p W)|].
      apply (same_trans _ _ (rep p b)); [apply wf_nodup, W | right; exact K' | apply same_sym, (rep_same p W)]. }
    apply Ts in Sab as [F|F]; [destruct (Hne a b Hab F) | exact F].
Qed.

(** all objects and the statements they were given: the constructor, then calls of
    set_equal and set_comp on different elements, where exceptions are caught *)
Inductive history : spc -> list statement -> Prop :=
| hist_new obs ops s :
    SetPartComp obs ops = Ok s ->
    no_overlap (match obs with Some bs => bs | None => [] end) ->
    proper (match obs with Some bs => bs | None => [] end) (match ops with Some ps => ps | None => [] end) ->
    history s (given (match obs with Some bs => bs | None => [] end) (match ops with Some ps => ps | None => [] end))
| hist_ok order s st a b q s' :
    history s st -> (forall l, Permutation (order l) l) -> a <> b ->
    spc_call order s (a, b, q) = (s', None) -> history s' (st ++ [(a, b, q)])
| hist_raised order s st a b q s' e :
    history s st -> (forall l, Permutation (order l) l) -> a <> b ->
    spc_call order s (a, b, q) = (s', Some e) -> history s' st.

Lemma history_says s st : history s st -> says s st.
Proof.
  intro H. induction H as [obs ops s E Hn Hp|order s st a b q s' _ IH Ho Hab E|order s st a b q s' e _ IH Ho Hab E].
  - assert (Hnone : obs = None -> ops = None).
    { intros ->. destruct ops; [discriminate | reflexivity]. }
    destruct (ctor_spec obs ops Hnone Hn Hp) as [[_ F]|(_ & s1 & F & S)]; [congruence|].
    rewrite E in F. injection F as <-. exact S.
  - destruct (spc_call_spec order s st a b q Ho IH Hab) as [[_ F]|(_ & s1 & F & S)]; rewrite E in F; [discriminate|].
    injection F as <-. exact S.
  - destruct (spc_call_spec order s st a b q Ho IH Hab) as [[_ F]|(_ & s1 & F & S)]; rewrite E in F; [|discriminate].
    injection F as <- _. exact IH.
Qed.

(** * Assignments *)

Section Values.
  Variable s : spc.
  Hypothesis C : cwf s.
  Let p := equal_part s.

  Definition sv (x : Z) : bool := existsb (fun q => Z.eqb (snd q) (rep p x)) (comp_pairs s).
  Lemma sv_rel x y c : rel s x y c -> xorb (sv x) (sv y) = c.
  Proof using C.
    assert (W := c_wf s C). intro H. destruct c.
    - assert (K : forall u v, In (u, v) (comp_pairs s) -> existsb (fun q => Z.eqb (snd q) v) (comp_pairs s) = true /\
                    existsb (fun q => Z.eqb (snd q) u) (comp_pairs s) = false).
      { intros u v Hin. split.
        - apply existsb_exists. exists (u, v). split; [exact Hin | apply Z.eqb_refl].
        - apply not_true_is_false. rewrite existsb_exists. intros ([u' v'] & Hin' & E). apply Z.eqb_eq in E. cbn in E. subst v'.
          destruct (c_uniq s C u v u' u Hin Hin') as [-> <-]; [auto|]. destruct (c_canon s C _ _ Hin). lia. }
      unfold sv. apply (rel_true_pair s C) in H as (u & v & Hin & _ & [[E1 E2]|[E1 E2]]); fold p in E1, E2; rewrite E1, E2;
        destruct (K u v Hin) as [-> ->]; reflexivity.
    - cbn in H. fold p in H. apply (rep_iff p W) in H. unfold sv. rewrite H. apply xorb_nilpotent.
  Qed.

  Definition near (x z : Z) : bool := are_comp s x z || Z.eqb (rep p x) (rep p z).
  Lemma near_spec x z : near x z = true <-> exists c, rel s x z c.
  Proof using C.
    assert (W := c_wf s C). unfold near. rewrite orb_true_iff, (are_comp_spec s C), Z.eqb_eq, (rep_iff p W). split.
    - intros [H|H]; [exists true | exists false]; exact H.
    - intros [[|] H]; auto.
  Qed.
  Lemma near_rel x y z c : rel s y z c -> near x y = near x z.
  Proof using C.
    intro H. apply eq_true_iff_eq. rewrite !near_spec. split; intros [d K].
    - eexists. eapply (rel_trans s C); eassumption.
    - eexists. eapply (rel_trans s C); [eassumption|]. apply rel_sym, H.
  Qed.
  Lemma rel_dec x y c : rel s x y c \/ ~ rel s x y c.
  Proof using C.
    destruct c.
    - rewrite <- (are_comp_spec s C). destruct (are_comp s x y); auto.
    - cbn. fold p. rewrite <- (rep_iff p (c_wf s C)). destruct (Z.eq_dec (rep p x) (rep p y)); auto.
  Qed.
End Values.

Lemma says_models s st v : says s st -> models v st <-> forall x y c, rel s x y c -> xorb (v x) (v y) = c.
Proof.
  intros [C H]. split.
  - intros M x y c R. apply H in R. exact (forced_sound st v x y c M R).
  - intros M a b q Hin. apply M, H, forced_step, Hin.
Qed.

Lemma says_entails s st x y c : says s st -> rel s x y c <-> entails st x y c.
Proof.
  intro S. destruct S as [C H]. assert (S : says s st) by (split; assumption). split.
  - intros R v M. exact (proj1 (says_models s st v S) M x y c R).
  - intro E. assert (V : models (sv s) st) by (apply (says_models s st _ S); apply sv_rel, C).
    destruct (rel_dec s C x y c) as [R|R]; [exact R|exfalso].
    assert (E1 := E _ V).
    destruct (rel_dec s C x y (negb c)) as [R'|R'].
    { apply (sv_rel s C) in R'. rewrite E1 in R'. destruct c; discriminate. }
    assert (V' : models (fun z => xorb (sv s z) (near s x z)) st).
    { apply (says_models s st _ S). intros u v d K. rewrite (near_rel s C x u v d K). apply (sv_rel s C) in K.
      rewrite <- K. destruct (sv s u), (sv s v), (near s x v); reflexivity. }
    apply E in V'.
    assert (Nx : near s x x = true) by (apply (near_spec s C); exists false; apply rel_refl).
    assert (Ny : near s x y = false).
    { apply not_true_is_false. rewrite (near_spec s C). intros [d K]. destruct c, d; auto. }
    rewrite Nx, Ny in V'. rewrite <- E1 in V'. destruct (sv s x), (sv s y); discriminate.
Qed.

Lemma says_satisfiable s st : says s st -> exists v, models v st.
Proof. intros S. exists (sv s). apply (says_models s st _ S). apply sv_rel, S. Qed.

(** * Derived values *)

Section Derived.
  Variable s : spc.
  Hypothesis C : cwf s.
  Variable order : list (Z * Z) -> list (Z * Z).
  Hypothesis Ho : forall l, Permutation (order l) l.
  Let p := equal_part s.

  Lemma related_part_spec : exists r, related_part order s = Ok r /\ sp_wf r /\
    forall x y, same (sp_blocks r) x y <-> exists c, rel s x y c.
  Proof using C Ho.
    assert (W := c_wf s C). unfold related_part.
    destruct (sp_init_spec no_caches (Some (sp_blocks p)) DomZ None (NoDup_no_overlap _ (wf_nodup p W)))
      as (q & E & Wq & Dq & _ & Lq & Tq); [split; constructor|].
    change (SetPart (Some (sp_blocks (equal_part s))) DomZ = Ok q) in E. rewrite E. cbn [bind].
    assert (Lq' : sp_labels q = []) by (rewrite Lq; destruct (sp_blocks q); reflexivity). cbn in Dq.
    assert (Ts : forall x y, same (sp_blocks q) x y <-> same (sp_blocks p) x y).
    { intros x y. unfold same. destruct (Z.eq_dec x y) as [->|Hxy]; [tauto|]. rewrite (Tq x y Hxy). tauto. }
    fold (merge_all (order (comp_pairs s)) q).
    destruct (merge_all_spec (order (comp_pairs s)) q (same (sp_blocks p)) Wq) as (r & e & dn & Er & Wr & _ & _ & Tr & Hn & Hdn & _ & Hne).
    { intros x y. rewrite Ts. split; [intro; apply rst_step; assumption|].
      apply (generated_closed (same (sp_blocks p)) (same (sp_blocks p))).
      - intro; left; reflexivity.
      - intros u v; apply same_sym.
      - intros u v w; apply same_trans, wf_nodup, W.
      - auto. }
    assert (Hp : dn = order (comp_pairs s)).
    { rewrite (Hdn Lq'). apply accepted_prefix_all. intros a b _. right. unfold element_in_domain. rewrite Dq. auto. }
    rewrite Er. destruct e as [e|]; [destruct (Hne e eq_refl Hp)|].
    exists r. split; [reflexivity|]. split; [exact Wr|]. intros x y. rewrite Tr, Hp.
    assert (Hin : forall u v, In (u, v) (order (comp_pairs s)) <-> In (u, v) (comp_pairs s)).
    { intros u v. split; apply Permutation_in; [|symmetry]; apply Ho. }
    split.
    - apply (generated_closed _ (fun x y => exists c, rel s x y c)).
      + intro u. exists false. apply rel_refl.
      + intros u v [c H]. exists c. apply rel_sym, H.
      + intros u v w [c H] [d K]. eexists. eapply (rel_trans s C); eassumption.
      + intros u v [H|H]; [exists false; exact H|]. exists true. apply (pair_rel s C), Hin, H.
    - intros [[|] H].
      + apply (rel_true_pair s C) in H as (u & v & H & _ & E'). fold p in E'.
        assert (Hr : forall z, generated (fun u v => same (sp_blocks p) u v \/ In (u, v) (order (comp_pairs s))) z (rep p z)).
        { intro z. apply rst_step. left. apply (rep_same p W). }
        assert (Huv : generated (fun u v => same (sp_blocks p) u v \/ In (u, v) (order (comp_pairs s))) u v).
        { apply rst_step. right. apply Hin, H. }
        destruct E' as [[E1 E2]|[E1 E2]].
        * apply (rst_trans _ _ _ u); [rewrite <- E1; apply Hr|]. apply (rst_trans _ _ _ v); [exact Huv|].
          apply rst_sym. rewrite <- E2. apply Hr.
        * apply (rst_trans _ _ _ v); [rewrite <- E1; apply Hr|]. apply (rst_trans _ _ _ u); [apply rst_sym, Huv|].
          apply rst_sym. rewrite <- E2. apply Hr.
      + apply rst_step. left. exact H.
  Qed.

  Lemma blocks_In_pair bs x : canonical bs -> In x (concat bs) <-> exists y, y <> x /\ together bs x y.
  Proof using.
    intros [Hb [_ _]]. rewrite in_concat. split.
    - intros (b & Hb1 & Hx). destruct (Hb b Hb1) as [L S].
      destruct b as [|u [|v b]]; [destruct Hx | cbn in L; lia |].
      inversion S as [|? ? _ F]. inversion F as [|? ? Huv _]. subst.
      destruct (Z.eq_dec u x) as [->|Hu].
      + exists v. split; [lia|]. exists (x :: v :: b). cbn. auto.
      + exists u. split; [exact Hu|]. exists (u :: v :: b). cbn. auto.
    - intros (y & _ & b & Hb1 & Hx & _). exists b. auto.
  Qed.

  Lemma affected_elements_spec : exists l, affected_elements order s = Ok l /\ StronglySorted Z.lt l /\
    forall x, In x l <-> exists y c, y <> x /\ rel s x y c.
  Proof using C Ho.
    destruct related_part_spec as (r & E & W & T). unfold affected_elements. rewrite E. cbn [bind].
    eexists. split; [reflexivity|]. split; [apply zsort_sorted, znodup_NoDup|].
    intro x. rewrite zsort_In, znodup_In, (blocks_In_pair _ x (wf_canonical r W)). split.
    - intros (y & Hy & H). assert (K : same (sp_blocks r) x y) by (right; exact H). apply T in K as [c K]. eauto.
    - intros (y & c & Hy & H). exists y. split; [exact Hy|].
      assert (K : same (sp_blocks r) x y) by (apply T; eauto). destruct K as [K|K]; [congruence | exact K].
  Qed.

  Lemma spc_length_spec :
    match spc_length order s with
    | Ok m => (exists y c, y <> m - 1 /\ rel s (m - 1) y c) /\ forall x y c, y <> x -> rel s x y c -> x < m
    | Err e => e = ValueErr /\ forall x y c, rel s x y c -> x = y
    end.
  Proof using C Ho.
    destruct related_part_spec as (r & E & W & T). unfold spc_length. rewrite E. cbn [bind].
    assert (Hns : forall x, In x (sp_non_singletons r) <-> exists y c, y <> x /\ rel s x y c).
    { intro x. rewrite (non_singletons_In r W), (blocks_In_pair _ x (wf_canonical r W)). split.
      - intros (y & Hy & H). assert (K : same (sp_blocks r) x y) by (right; exact H). apply T in K as [c K]. eauto.
      - intros (y & c & Hy & H). exists y. split; [exact Hy|].
        assert (K : same (sp_blocks r) x y) by (apply T; eauto). destruct K as [K|K]; [congruence | exact K]. }
    destruct (sp_non_singletons r) as [|m l].
    - split; [reflexivity|]. intros x y c H. destruct (Z.eq_dec x y) as [K|K]; [exact K|].
      destruct (proj2 (Hns x)). eauto.
    - destruct (zmax_list_spec l m) as [M1 M2]. split.
      + replace (zmax_list m l + 1 - 1) with (zmax_list m l) by lia. apply Hns. exact M1.
      + intros x y c Hxy H. assert (K : In x (m :: l)) by (apply Hns; eauto). apply M2 in K. lia.
  Qed.

  Lemma spc_eq_spec o : cwf o -> exists b, spc_eq s o = Ok b /\
    (b = true <-> forall x y c, rel s x y c <-> rel o x y c).
  Proof using C.
    intro Co. unfold spc_eq. destruct (sp_eq_spec (equal_part s) (equal_part o) (c_wf s C) (c_wf o Co)) as (e & -> & He).
    { rewrite (c_dom s C), (c_dom o Co). reflexivity. }
    cbn [bind]. eexists. split; [reflexivity|]. rewrite !andb_true_iff, !forallb_forall, He. split.
    - intros [[H1 H2] H3] x y [|]; [|apply H1].
      assert (R : forall z, rep (equal_part s) z = rep (equal_part o) z).
      { intro z. apply rep_ext; [apply (c_wf s C) | apply (c_wf o Co) | intro; apply H1]. }
      cbn. rewrite !R. split; intro K; apply pair_memb_In; auto.
    - intro H. assert (H1 : forall x y, same (sp_blocks (equal_part s)) x y <-> same (sp_blocks (equal_part o)) x y)
        by (intros x y; apply (H x y false)).
      assert (R : forall z, rep (equal_part s) z = rep (equal_part o) z).
      { intro z. apply rep_ext; [apply (c_wf s C) | apply (c_wf o Co) | intro; apply H1]. }
      split; [split; [exact H1|]|]; intros [u v] K; apply pair_memb_In.
      + assert (G := pair_rel s C u v K). apply H in G. destruct (c_canon s C u v K) as (L & Ru & Rv).
        cbn in G. rewrite <- !R, Ru, Rv, pair_sorted_lt in G by exact L. exact G.
      + assert (G := pair_rel o Co u v K). apply H in G. destruct (c_canon o Co u v K) as (L & Ru & Rv).
        cbn in G. rewrite !R, Ru, Rv, pair_sorted_lt in G by exact L. exact G.
  Qed.

  Lemma get_block_In x y : In y (get_block s x) <-> rel s x y false.
  Proof using C.
    assert (W := c_wf s C). unfold get_block. destruct (zmemb x (sp_non_singletons (equal_part s))) eqn:E.
    - apply (element_to_block_In _ W).
    - assert (K : ~ In x (concat (sp_blocks (equal_part s)))).
      { intro K. apply (non_singletons_In _ W), zmemb_In in K. congruence. }
      rewrite <- (element_to_block_single _ W x K). apply (element_to_block_In _ W).
  Qed.
  Lemma get_block_sorted x : StronglySorted Z.lt (get_block s x).
  Proof using C.
    assert (W := c_wf s C). unfold get_block. destruct (zmemb x (sp_non_singletons (equal_part s))).
    - apply (element_to_block_sorted _ W).
    - repeat constructor.
  Qed.
  Lemma get_repr_spec x : rel s x (get_repr s x) false /\ forall y, rel s x y false -> get_repr s x <= y.
  Proof using C.
    unfold get_repr. destruct (get_block s x) as [|u l] eqn:E.
    - exfalso. assert (K := rel_refl s x). apply get_block_In in K. rewrite E in K. destruct K.
    - destruct (zmin_list_spec l u) as [M1 M2]. rewrite <- E in M1, M2. split.
      + apply get_block_In. exact M1.
      + intros y H. apply get_block_In in H. apply M2, H.
  Qed.

  Lemma all_complement_pairs_spec : NoDup (all_complement_pairs s) /\
    forall x y, In (x, y) (all_complement_pairs s) <-> x < y /\ rel s x y true.
  Proof using C.
    assert (W := c_wf s C). unfold all_complement_pairs. set (l := flat_map _ _).
    assert (K : forall acc q, In q (fold_left pairs_add l acc) <-> In q acc \/ In q l).
    { intros acc q. rewrite (add_all_In (fun x => x)). split; [intros [H|(r & H & ->)] | intros [H|H]]; eauto. }
    split; [apply (add_all_NoDup (fun x => x)); constructor|].
    assert (Hl : forall q, In q l <-> exists u v x y, In (u, v) (comp_pairs s) /\ rel s u x false /\ rel s v y false /\ q = pair_sorted x y).
    { intro q. unfold l. rewrite in_flat_map. split.
      - intros ([u v] & Hin & H). apply in_flat_map in H as (x & Hx & H). apply in_map_iff in H as (y & <- & Hy).
        apply get_block_In in Hx, Hy. exists u, v, x, y. auto.
      - intros (u & v & x & y & Hin & Hx & Hy & ->). exists (u, v). split; [exact Hin|].
        apply in_flat_map. exists x. split; [apply get_block_In, Hx|]. apply in_map_iff. exists y. split; [reflexivity|]. apply get_block_In, Hy. }
    intros x y. rewrite K, Hl. split.
    - intros [[]|(u & v & a & b & Hin & Ha & Hb & E)].
      assert (R : rel s a b true).
      { apply (rel_trans s C a u b false true (rel_sym s _ _ _ Ha)). apply (rel_trans s C u v b true false); [apply (pair_rel s C), Hin | exact Hb]. }
      assert (a <> b) by (intros ->; apply (rel_consistent s C _ R)).
      destruct (pair_sorted_cases a b) as [[F G]|[F G]]; rewrite F in E; injection E as -> ->; (split; [lia|]); [exact R | apply rel_sym, R].
    - intros [L R]. right. assert (R' := R). apply (rel_true_pair s C) in R as (u & v & Hin & _ & [[E1 E2]|[E1 E2]]).
      + exists u, v, x, y. split; [exact Hin|]. subst. split; [apply same_sym, (rep_same _ W)|]. split; [apply same_sym, (rep_same _ W)|].
        symmetry. apply pair_sorted_lt, L.
      + exists u, v, y, x. split; [exact Hin|]. subst. split; [apply same_sym, (rep_same _ W)|]. split; [apply same_sym, (rep_same _ W)|].
        rewrite pair_sorted_sym. symmetry. apply pair_sorted_lt, L.
  Qed.

  Lemma one_value_spec l : l <> [] -> one_value l = true <-> forall a b, In a l -> In b l -> a = b.
  Proof using.
    destruct l as [|x l]; [congruence|]. intros _. cbn [one_value]. rewrite forallb_forall. split.
    - intros H a b [->|Ha] [->|Hb]; auto.
      + apply eqb_prop, H, Hb.
      + symmetry. apply eqb_prop, H, Ha.
      + transitivity x; [symmetry|]; apply eqb_prop, H; assumption.
    - intros H a Ha. rewrite (H x a); [apply eqb_reflx | left; reflexivity | right; exact Ha].
  Qed.

  Lemma int_matches_spec bl n : exists b, int_matches bl order s n = Ok b /\
    (b = true <-> forall x y c, rel s x y c -> xorb (zbit n x) (zbit n y) = c).
  Proof using C Ho.
    assert (W := c_wf s C). unfold int_matches, number_of_related_blocks.
    destruct related_part_spec as (r & -> & _ & _). cbn [bind]. set (len := if Nat.ltb _ _ then _ else _).
    assert (Hlen : (bl n <= len)%nat) by (unfold len; destruct (Nat.ltb_spec (length (sp_blocks r)) (bl n)); lia).
    unfold Binv_with. replace (Z.leb 0 (Z.of_nat n)) with true by (symmetry; apply Z.leb_le; lia). cbn [true_except bind].
    rewrite Nat2Z.id. replace (Nat.leb (bl n) len) with true by (symmetry; apply Nat.leb_le, Hlen). cbn [true_except bind].
    assert (Hz : forall x, zhas_index (zfill len (bin_digits n)) x = zbit n x).
    { intro x. unfold zhas_index, zbit. rewrite has_index_spec, zfill_val. reflexivity. }
    eexists. split; [reflexivity|]. rewrite andb_true_iff, !forallb_forall. split.
    - intros [H1 H2] x y [|] R.
      + assert (Hb : forall a b, rel s a b false -> zbit n a = zbit n b).
        { intros a b [->|(l & Hl & Ha & Hb)]; [reflexivity|]. apply H1 in Hl.
          rewrite one_value_spec in Hl by (destruct l; [destruct Ha | discriminate]).
          rewrite <- !Hz. apply Hl; apply in_map; assumption. }
        apply (rel_true_pair s C) in R as (u & v & Hin & _ & E). apply H2 in Hin. cbn [fst snd] in Hin. rewrite !Hz in Hin.
        rewrite (Hb x _ (rep_same _ W x)), (Hb y _ (rep_same _ W y)).
        destruct E as [[-> ->]|[-> ->]]; destruct (zbit n u), (zbit n v); try discriminate; reflexivity.
      + destruct R as [->|(l & Hl & Ha & Hb)]; [apply xorb_nilpotent|]. apply H1 in Hl.
        rewrite one_value_spec in Hl by (destruct l; [destruct Ha | discriminate]).
        rewrite <- !Hz. rewrite (Hl (zhas_index (zfill len (bin_digits n)) x) (zhas_index (zfill len (bin_digits n)) y));
          [apply xorb_nilpotent | apply in_map; assumption | apply in_map; assumption].
    - intro H. split.
      + intros l Hl. apply one_value_spec.
        { destruct (wf_canonical _ W) as [K _]. destruct (K l Hl) as [K' _]. destruct l; [cbn in K'; lia | discriminate]. }
        intros a b Ha Hb. apply in_map_iff in Ha as (x & <- & Hx). apply in_map_iff in Hb as (y & <- & Hy). rewrite !Hz.
        apply xorb_eq, H. right. exists l. auto.
      + intros [u v] Hin. cbn [fst snd]. rewrite !Hz. assert (R := pair_rel s C u v Hin). apply H in R.
        destruct (zbit n u), (zbit n v); try discriminate; reflexivity.
  Qed.
End Derived.

(** * Calls on one element *)

Lemma act_remove_twice p l u v : ~ In (u, v) l -> act_remove (u, v) (mkSPC p l) = (mkSPC p l, Some KeyErr).
Proof.
  intro H. unfold act_remove, pairs_remove. cbn [comp_pairs]. destruct (pair_memb (u, v) l) eqn:E; [|reflexivity].
  apply pair_memb_In in E. contradiction.
Qed.

Lemma self_in_block s a : cwf s -> are_equal s a a = true <-> exists y, y <> a /\ rel s a y false.
Proof.
  intro C. assert (W := c_wf s C). rewrite (are_equal_spec s C). split.
  - intros (b & Hb & Ha & _). assert (K : In a (concat (sp_blocks (equal_part s)))) by (apply in_concat; eauto).
    apply (blocks_In_pair _ a (wf_canonical _ W)) in K as (y & Hy & H). exists y. split; [exact Hy|]. right. exact H.
  - intros (y & Hy & [K|(b & Hb & Ha & _)]); [congruence|]. exists b. auto.
Qed.

Lemma self_remove s a ac : cwf s -> rel s a ac true -> rep (equal_part s) ac = ac ->
  exists l, pairs_remove (comp_pairs s) (pair_sorted (rep (equal_part s) a) ac) = Ok l /\
    ~ In (pair_sorted (rep (equal_part s) a) ac) l /\ NoDup l /\ (forall q, In q l <-> In q (comp_pairs s) /\ q <> pair_sorted (rep (equal_part s) a) ac).
Proof.
  intros C R E. destruct (pairs_remove_spec _ _ (own_pair_In s a ac R E)) as (l & El & Nl & Hl).
  exists l. split; [exact El|]. split; [rewrite Hl; tauto|]. split; [apply Nl, (c_nodup s C) | exact Hl].
Qed.

Lemma self_call order s a (q : bool) ac : (forall l, Permutation (order l) l) -> cwf s ->
  are_equal s a a = false -> get_comp order s a = Some ac ->
  exists s', spc_call order s (a, a, q) = (s', Some KeyErr) /\ equal_part s' = equal_part s /\
    forall u v, In (u, v) (comp_pairs s') <-> In (u, v) (comp_pairs s) /\ (u, v) <> pair_sorted (rep (equal_part s) a) ac.
Proof.
  intros Ho C E G. assert (H := get_comp_spec s C order a Ho). rewrite G in H. destruct H as [R Rr].
  destruct (self_remove s a ac C R Rr) as (l & El & Hn & _ & Hl).
  assert (Ec : are_comp s a a = false).
  { apply not_true_is_false. rewrite (are_comp_spec s C). apply rel_consistent, C. }
  exists (mkSPC (equal_part s) l). split; [|split; [reflexivity | intros u v; apply Hl]].
  assert (E2 : act_remove (pair_sorted (spc_repr s a) ac) (mkSPC (equal_part s) l) = (mkSPC (equal_part s) l, Some KeyErr)).
  { rewrite (s_repr s C). destruct (pair_sorted (rep (equal_part s) a) ac) as [u v]. apply act_remove_twice, Hn. }
  unfold spc_call, set_comp, set_equal, set_comp_both_comp, set_equal_both_comp. rewrite E, Ec, G. unfold spc_do. cbn [fold_left].
  assert (E1 : act_remove (pair_sorted (spc_repr s a) ac) s = (mkSPC (equal_part s) l, None)).
  { unfold act_remove. rewrite (s_repr s C), El. reflexivity. }
  rewrite E1, E2. destruct q; reflexivity.
Qed.
