(** Properties C86 (texts, hash and order of Boolfs) and C87 (texts of the other classes). *)

From Coq Require Import String Ascii List Arith ZArith Bool Lia Permutation Sorted.
From Verif Require Import Lib Model_Base Model_Binary Model_Splits Model_Perm Model_SigPerm Model_WalshPerm Model_Boolf Model_SetPart Model_SetPartComp Model_MinRep Model_Misc
  Spec_Bits Spec_Boolf Spec_Misc Spec_Perm Spec_SigPerm Spec_WalshPerm Spec_SetPart Spec_SetPartComp Proof_Boolf Proof_BoolfMake Proof_Perm Proof_PermGroup Proof_PermCycles Proof_SigPerm Proof_SetPart Proof_SetPartObj Proof_SetPartComp Proof_SetPartCompMore
  Proof_WalshPerm Proof_WalshOps Proof_WalshMore Proof_Misc Proof_Swan Props_Boolf Props_SigPerm Props_WalshPerm Props_SetPart Proof_Domain Model_Str Spec_Str Proof_Str Proof_BoolfStr Proof_Texts.
Import ListNotations Model_Str.
Open Scope nat_scope.

(** * C86 *)

(** Every object has a text. *)
Theorem C86_text : forall i f, made i f -> exists s, boolf_str f = Ok s.
Proof. exact boolf_str_ok. Qed.
Print Assumptions C86_text.

(** The text evaluates to the object. *)
Theorem C86_evaluates : forall f s, made false f -> boolf_str f = Ok s -> denotes s f.
Proof. intros f s H. apply boolf_str_denotes, m_red, H. Qed.
Print Assumptions C86_evaluates.

(** Two objects have the same text if and only if they stand for the same function. *)
Theorem C86_faithful : forall f g, made false f -> made false g ->
  (boolf_str f = boolf_str g <-> forall e, sem f e = sem g e).
Proof.
  intros f g Hf Hg. split.
  - intros E e. destruct (boolf_str_ok false f Hf) as (s & Es). assert (Et : boolf_str g = Ok s) by congruence.
    rewrite (boolf_str_inj f g s (m_red f Hf) (m_red g Hg) Es Et). reflexivity.
  - intro H. rewrite (proj2 (C27_equality f g Hf Hg) H). reflexivity.
Qed.
Print Assumptions C86_faithful.

(** Equal objects have equal hashes, whatever function hashes the texts (also if they were made without
    deflation); and if that function tells texts apart, then the hashes tell functions apart. *)
Theorem C86_hash : forall hash f g,
  (forall i, made i f -> made i g -> boolf_eqb f g = true -> boolf_hash hash f = boolf_hash hash g /\ exists h, boolf_hash hash f = Ok h) /\
  ((forall s t, hash s = hash t -> s = t) -> made false f -> made false g ->
   boolf_hash hash f = boolf_hash hash g -> forall e, sem f e = sem g e).
Proof.
  intros hash f g. split.
  - intros i Hf Hg E. unfold boolf_eqb in E. apply andb_true_iff in E as (Er & Ea). apply bvec_eqb_eq in Er. apply list_eqb_eq in Ea.
    assert (S : boolf_str f = boolf_str g) by (unfold boolf_str, weight_fract, boolf_not, is_root, adicity, valency, fullspots; rewrite Er, Ea; reflexivity).
    unfold boolf_hash. rewrite S. split; [reflexivity|]. destruct (boolf_str_ok i g Hg) as (s & ->). rewrite bind_Ok. eauto.
  - intros Inj Hf Hg E. apply (C86_faithful f g Hf Hg). destruct (boolf_str_ok false f Hf) as (s & Es). destruct (boolf_str_ok false g Hg) as (t & Et).
    unfold boolf_hash in E. rewrite Es, Et in *. rewrite !bind_Ok in E. apply Ok_inj in E. f_equal. apply Inj. exact E.
Qed.
Print Assumptions C86_hash.

(** The order of the texts is a strict total order of the functions; <= is < or equal. *)
Lemma nat_order : total_order Nat.compare.
Proof.
  split; [intros a b; apply Nat.compare_eq_iff|]. split; [intros a b; apply Nat.compare_antisym|]. intros a b c. rewrite !Nat.compare_lt_iff. lia.
Qed.
Lemma text_ltb_iff s t : text_ltb s t = true <-> lex_less lt s t.
Proof.
  unfold text_ltb. assert (H := lex_lt_iff Nat.compare nat_order s t).
  assert (K : lex_less (fun a b => Nat.compare a b = Lt) s t <-> lex_less lt s t).
  { unfold lex_less. split; (intros [X|(p & a & b & u & v & E1 & E2 & E3)]; [left; exact X|right; exists p, a, b, u, v; split; [exact E1|]; split; [exact E2|]; apply Nat.compare_lt_iff; exact E3]). }
  rewrite <- K, <- H. destruct (lex_compare Nat.compare s t); split; congruence.
Qed.
Theorem C86_order : forall f g h, made false f -> made false g -> made false h ->
  (exists s t b, boolf_str f = Ok s /\ boolf_str g = Ok t /\ boolf_lt f g = Ok b /\ (b = true <-> lex_less lt s t)) /\
  boolf_lt f f = Ok false /\
  (boolf_lt f g = Ok true \/ boolf_lt g f = Ok true \/ forall e, sem f e = sem g e) /\
  (boolf_lt f g = Ok true -> boolf_lt g f = Ok false) /\
  (boolf_lt f g = Ok true -> boolf_lt g h = Ok true -> boolf_lt f h = Ok true).
Proof.
  intros f g h Hf Hg Hh. destruct (boolf_str_ok false f Hf) as (s & Es). destruct (boolf_str_ok false g Hg) as (t & Et). destruct (boolf_str_ok false h Hh) as (u & Eu).
  destruct (lex_order Nat.compare nat_order) as (O1 & O2 & O3). unfold boolf_lt. split; [|split; [|split; [|split]]].
  - exists s, t, (text_ltb s t). split; [exact Es|]. split; [exact Et|]. rewrite Es, Et, !bind_Ok. split; [reflexivity|apply text_ltb_iff].
  - rewrite Es, !bind_Ok. unfold text_ltb. rewrite (proj2 (O1 s s) eq_refl). reflexivity.
  - rewrite <- (C86_faithful f g Hf Hg), Es, Et, !bind_Ok. unfold text_ltb. rewrite (O2 s t). destruct (lex_compare Nat.compare s t) eqn:E; cbn [CompOpp]; auto.
    apply O1 in E. subst t. auto.
  - rewrite Es, Et, !bind_Ok. unfold text_ltb. rewrite (O2 s t). destruct (lex_compare Nat.compare s t); cbn [CompOpp]; congruence.
  - rewrite Es, Et, Eu, !bind_Ok. unfold text_ltb. destruct (lex_compare Nat.compare s t) eqn:E1; try discriminate. intros _.
    destruct (lex_compare Nat.compare t u) eqn:E2; try discriminate. intros _. rewrite (O3 s t u E1 E2). reflexivity.
Qed.
Print Assumptions C86_order.

Theorem C86_comparisons : forall f g, made false f -> made false g ->
  boolf_gt f g = boolf_lt g f /\ boolf_ge f g = boolf_le g f /\
  exists lt le, boolf_lt f g = Ok lt /\ boolf_le f g = Ok le /\ (le = true <-> lt = true \/ forall e, sem f e = sem g e) /\
    (le = false <-> boolf_gt f g = Ok true).
Proof.
  intros f g Hf Hg. split; [reflexivity|]. split; [reflexivity|]. destruct (boolf_str_ok false f Hf) as (s & Es). destruct (boolf_str_ok false g Hg) as (t & Et).
  destruct (lex_order Nat.compare nat_order) as (O1 & O2 & O3). exists (text_ltb s t), (if boolf_eqb f g then true else text_ltb s t).
  unfold boolf_gt, boolf_le, boolf_lt. rewrite Es, Et, !bind_Ok. split; [reflexivity|]. split; [destruct (boolf_eqb f g); reflexivity|].
  assert (Q := proj1 (C27_equality f g Hf Hg)). split.
  - rewrite <- Q. destruct (boolf_eqb f g); intuition congruence.
  - unfold text_ltb. rewrite (O2 s t). destruct (boolf_eqb f g) eqn:E.
    + assert (s = t) by (pose proof (proj2 (C86_faithful f g Hf Hg) (proj1 Q eq_refl)) as X; rewrite Es, Et in X; apply Ok_inj; exact X). subst t.
      rewrite (proj2 (O1 s s) eq_refl). cbn [CompOpp]. split; discriminate.
    + destruct (lex_compare Nat.compare s t) eqn:F; cbn [CompOpp]; split; try congruence; intro X; try reflexivity.
      apply O1 in F. subst t. assert (Y : boolf_str f = boolf_str g) by congruence. assert (W := proj2 Q (proj1 (C86_faithful f g Hf Hg) Y)). congruence.
Qed.
Print Assumptions C86_comparisons.

(** Objects made without deflation: two different functions have the same text. *)
Definition ex_inflated (spots : list Z) : bargs := mkArgs None (Some [0; 1; 2; 3; 4]%Z) None None (Some spots) None None None None None None true.
Definition ex_spots_a : list Z := map Z.of_nat (filter (fun k => negb (Nat.eqb (k mod 16) 15)) (range 32)).
Definition ex_spots_b : list Z := map Z.of_nat (filter (fun k => negb (Nat.eqb (k / 2) 15)) (range 32)).
Theorem C86_inflated_refuted : exists f g s e, made true f /\ made true g /\ boolf_str f = Ok s /\ boolf_str g = Ok s /\
  sem f e <> sem g e /\ boolf_eqb f g = false /\ boolf_lt f g = Ok false /\ boolf_gt f g = Ok false.
Proof.
  destruct (Boolf 1 (ex_inflated ex_spots_a)) as [f|] eqn:Ef; [|vm_compute in Ef; discriminate].
  destruct (Boolf 1 (ex_inflated ex_spots_b)) as [g|] eqn:Eg; [|vm_compute in Eg; discriminate].
  assert (Hf : made true f) by (apply (made_by true 1 (ex_inflated ex_spots_a)); [reflexivity|intros x []|exact Ef]).
  assert (Hg : made true g) by (apply (made_by true 1 (ex_inflated ex_spots_b)); [reflexivity|intros x []|exact Eg]).
  exists f, g, (lit "~Boolf(fullspots=[15], arity=5)"), (fun a => Nat.ltb a 4). split; [exact Hf|]. split; [exact Hg|].
  vm_compute in Ef. injection Ef as <-. vm_compute in Eg. injection Eg as <-. clear Hf Hg.
  split; [vm_compute; reflexivity|]. split; [vm_compute; reflexivity|]. split; [vm_compute; discriminate|]. split; [vm_compute; reflexivity|]. split; vm_compute; reflexivity.
Qed.
Print Assumptions C86_inflated_refuted.

Example C86_example : exists f g h, Boolf_root [false; true; true; false; true; true; false; false] = Ok f /\ Boolf_vec [false; true; true; false] [3; 12] = Ok g /\
  subinit_fs (map Z.of_nat (filter (fun k => negb (Nat.eqb k 7)) (range 32))) None (Some 5) false = Ok h /\ made false f /\ made false g /\ made false h /\
  boolf_str f = Ok (lit "Boolf('0110 1100')") /\ boolf_str g = Ok (lit "Boolf('0110', [3, 12])") /\ boolf_str h = Ok (lit "~Boolf(fullspots=[7], arity=5)") /\
  boolf_lt f g = Ok true /\ boolf_lt g h = Ok true /\ boolf_ge h f = Ok true.
Proof.
  destruct (Boolf_root_spec [false; true; true; false; true; true; false; false] 3 eq_refl) as (f & Ef & Rf & _).
  destruct (Boolf_vec_sorted [false; true; true; false] [3; 12]) as (g & Eg & Rg & _); [repeat constructor|reflexivity|].
  destruct (fs_spec (filter (fun k => negb (Nat.eqb k 7)) (range 32)) (seq 0 5) None (Some 5)) as (h & Eh & Rh & _).
  { repeat constructor. } { right. auto. } { intros s Hs. apply filter_In in Hs as (Hs & _). apply in_seq in Hs. cbn. lia. }
  exists f, g, h. split; [exact Ef|]. split; [exact Eg|]. split; [exact Eh|]. apply reduced_made in Rf, Rg, Rh. split; [exact Rf|]. split; [exact Rg|]. split; [exact Rh|].
  vm_compute in Ef. injection Ef as <-. vm_compute in Eg. injection Eg as <-. vm_compute in Eh. injection Eh as <-. clear. repeat split; vm_compute; reflexivity.
Qed.

(** * C87 *)

(** Binary vectors: the text determines the vector. *)
Theorem C87_binv : forall v w, (binv_str v = binv_str w <-> v = w) /\ forall hash, v = w -> binv_hash hash v = binv_hash hash w.
Proof. intros v w. split; [split; [apply binv_str_inj|intros ->; reflexivity]|]. intros hash ->. reflexivity. Qed.
Print Assumptions C87_binv.

(** Permutations: same text, equal objects and the same action are the same. *)
Theorem C87_perm : forall p q, is_Perm p -> is_Perm q ->
  (exists s, perm_str p = Ok s) /\ (perm_str p = perm_str q <-> perm_eqb p q = true) /\ (perm_str p = perm_str q <-> forall x, pget p x = pget q x) /\
  forall hash, perm_eqb p q = true -> perm_hash hash p = perm_hash hash q.
Proof.
  intros p q Hp Hq. destruct (perm_str_form p Hp) as (cs & _ & Es). assert (X : perm_str p = perm_str q <-> forall x, pget p x = pget q x).
  { split; [|apply perm_str_same; assumption]. intro E. rewrite Es in E. symmetry in E. exact (perm_str_inj p q _ Hp Hq Es E). }
  assert (Y := Proof_PermMore.eq_actions p q Hp Hq). split; [eauto|]. split; [rewrite X; symmetry; exact Y|]. split; [exact X|].
  intros hash E. unfold perm_hash. assert (S := proj2 X (proj1 Y E)). rewrite S. reflexivity.
Qed.
Print Assumptions C87_perm.

(** Signed permutations: same text and same action are the same; so equal objects have equal hashes. *)
Theorem C87_sigperm : forall a b f g, is_SigPerm a -> is_SigPerm b -> acts a f -> acts b g ->
  (exists s, sigperm_str a = Ok s) /\ (sigperm_str a = sigperm_str b <-> forall k, f k = g k) /\
  forall hash, sg_eqb a b = true -> sigperm_hash hash a = sigperm_hash hash b.
Proof.
  intros a b f g Ha Hb Hf Hg. destruct (C13_sequence a Ha) as (f' & Hf' & _ & La & _ & _ & Sa & _). destruct (C13_sequence b Hb) as (g' & Hg' & _ & Lb & _ & _ & Sb & _).
  assert (Ef := C13_action_unique a f f' Ha Hf Hf'). assert (Eg := C13_action_unique b g g' Hb Hg Hg').
  assert (X : sigperm_str a = sigperm_str b <-> forall k, f k = g k).
  { rewrite !sigperm_str_form, Sa, Sb, !bind_Ok. split.
    - intros E k. apply Ok_inj, app_inv_head in E. destruct (delim_use _ _ _ _ logics_delim _ _ _ _ E I I ltac:(exact eq_refl) ltac:(exact eq_refl)) as (M & _).
      rewrite Ef, Eg. assert (L : sg_length a = sg_length b) by (apply (f_equal (@length Z)) in M; rewrite !map_length, !seq_length in M; exact M).
      destruct (Nat.lt_ge_cases k (sg_length a)) as [H|H].
      + apply (f_equal (fun l => nth k l 0%Z)) in M. rewrite !(nth_indep _ 0%Z (f' 0)) in M by (rewrite map_length, seq_length; lia). rewrite map_nth in M.
        rewrite (nth_indep _ (f' 0) (g' 0)) in M by (rewrite map_length, seq_length; lia). rewrite map_nth, !seq_nth in M by lia. exact M.
      + rewrite (proj1 (La (sg_length a)) (le_n _) k H). rewrite L in H. rewrite (proj1 (Lb (sg_length b)) (le_n _) k H). reflexivity.
    - intro E. assert (E' : forall k, f' k = g' k) by (intro k; rewrite <- Ef, <- Eg; apply E).
      assert (L : sg_length a = sg_length b).
      { apply Nat.le_antisymm; [apply La|apply Lb]; intros k Hk; [rewrite E'; exact (proj1 (Lb _) (le_n _) k Hk)|rewrite <- E'; exact (proj1 (La _) (le_n _) k Hk)]. }
      rewrite L, (map_ext _ _ E'). reflexivity. }
  split; [rewrite sigperm_str_form, Sa, bind_Ok; eauto|]. split; [exact X|]. intros hash E. assert (Y := proj2 X (C14_equal_sound a b f g Ha Hb Hf Hg E)).
  unfold sigperm_hash. rewrite Y. reflexivity.
Qed.
Print Assumptions C87_sigperm.

(** Equal objects of different classes have different texts: a signed permutation that negates nothing equals
    the permutation, but their hashes are those of different texts. *)
Theorem C87_mixed_hash_refuted : exists s p a b, is_SigPerm s /\ is_Perm p /\ sg_eqb_perm s p = true /\ sigperm_str s = Ok a /\ perm_str p = Ok b /\ a <> b.
Proof.
  destruct (C13_valneg (NegVector [0; 0]%Z) (SrcArg (ArgSeq [1; 0])) (mkPerm false [(0, 1); (1, 0)] None 2)) as (s & Es & Hs & _).
  - intros e [<-|[<-|[]]]; auto.
  - exact I.
  - reflexivity.
  - reflexivity.
  - exists s, (mkPerm false [(0, 1); (1, 0)] None 2), (lit "SigPerm(sequence=[1, 0])"), (lit "Perm([[0, 1]])"). split; [exact Hs|].
    split; [apply (Spec_Perm.obj_new (ArgSeq [1; 0]) None); [exact I|vm_compute; reflexivity]|]. vm_compute in Es. injection Es as <-. clear.
    split; [reflexivity|]. split; [vm_compute; reflexivity|]. split; [vm_compute; reflexivity|]. discriminate.
Qed.
Print Assumptions C87_mixed_hash_refuted.
Theorem C87_mixed : forall s p a b, sigperm_str s = Ok a -> perm_str p = Ok b -> a <> b.
Proof.
  intros s p a b Ea Eb E. subst b. rewrite sigperm_str_form in Ea. apply bind_ok in Ea as (l & _ & Ea). apply Ok_inj in Ea. subst a. unfold perm_str in Eb.
  destruct (neutral p); [apply Ok_inj in Eb; discriminate|]. apply bind_ok in Eb as (cs & _ & Eb). destruct (perilen p); apply Ok_inj in Eb; discriminate.
Qed.
Print Assumptions C87_mixed.

(** Walsh permutations: same text, equal objects and the same map are the same. *)
Theorem C87_walsh : forall linv a b f g, exact_inverse linv -> is_Walsh linv a -> is_Walsh linv b -> is_map a f -> is_map b g ->
  (exists s, walsh_str a = Ok s) /\ (walsh_str a = walsh_str b <-> walsh_eqb a b = true) /\ (walsh_str a = walsh_str b <-> forall v, f v = g v).
Proof.
  intros linv a b f g Hl Ha Hb Hf Hg. destruct (C15_equality linv a b f g Hl Ha Hb Hf Hg) as (E1 & E2).
  destruct (walsh_str_spec a b f g (object_map linv a f Hl Ha Hf) (object_map linv b g Hl Hb Hg)) as (S1 & S2 & s & S3). split; [eauto|].
  assert (X : walsh_str a = walsh_str b <-> walsh_eqb a b = true).
  { split; [|intro H; apply S2; [exact H|apply E2; exact H]]. intro E. apply E2. apply (S1 s); congruence. }
  split; [exact X|]. rewrite X. exact E1.
Qed.
Print Assumptions C87_walsh.

(** Set partitions: same text means same domain and same partition. *)
Theorem C87_setpart : forall s t, is_SetPart s -> is_SetPart t ->
  (setpart_str s = setpart_str t <-> same_domain (sp_domain s) (sp_domain t) /\ forall x y, same (sp_blocks s) x y <-> same (sp_blocks t) x y).
Proof.
  intros s t Hs Ht. apply is_SetPart_wf in Hs, Ht. rewrite (setpart_str_spec s t Hs Ht), same_domain_spec. split; intros (D & B); (split; [exact D|]).
  - intros x y. rewrite B. tauto.
  - apply canonical_ext; [apply Hs|apply Ht|]. intros x y N. specialize (B x y). unfold same in B. tauto.
Qed.
Print Assumptions C87_setpart.

(** Partitions with complements: same text means equal objects, in whatever orders the sets of pairs are shown;
    so they force the same equations and complements. *)
Theorem C87_setpartcomp : forall order order' s t st su, (forall l, Permutation (order l) l) -> (forall l, Permutation (order' l) l) ->
  history s st -> history t su -> spc_str order s = spc_str order' t -> spc_eq s t = Ok true /\ forall x y c, forced st x y c <-> forced su x y c.
Proof.
  intros order order' s t st su Ho Ho' Hs Ht E. apply history_says in Hs as [Cs Hs], Ht as [Ct Ht]. assert (X := spc_str_eq order order' s t Ho Ho' Cs Ct E). split; [exact X|].
  destruct (spc_eq_spec s Cs t Ct) as (b & Eb & Hb). assert (b = true) by congruence. intros x y c. rewrite <- Hs, <- Ht. apply Hb. assumption.
Qed.
Print Assumptions C87_setpartcomp.

Example C87_example : exists p s w a b c,
  Perm (ArgCycles [[0; 2; 1]]) (Some 4) = Ok p /\ is_Perm p /\ perm_str p = Ok (lit "Perm([[0, 2, 1]], perilen=4)") /\
  SigPerm_valneg (NegVector [1; 0]%Z) (SrcArg (ArgSeq [1; 0])) = Ok s /\ is_SigPerm s /\ sigperm_str s = Ok (lit "SigPerm(sequence=[1, ~0])") /\
  WalshPerm (Some [1; 3]) None None false = Ok w /\ walsh_str w = Ok (lit "WalshPerm([1, 3])") /\
  SetPart (Some [[5; -2]; [4; 1; 7]]%Z) DomZ = Ok a /\ is_SetPart a /\ setpart_str a = lit "SetPart([[-2, 5], [1, 4, 7]], 'Z')" /\
  SetPart (Some [[5; 2]]%Z) (DomSet [8; 5; 2; 3]%Z) = Ok b /\ is_SetPart b /\ setpart_str b = lit "SetPart([[2, 5]], {2, 3, 5, 8})" /\
  SetPartComp (Some [[5; -2]]%Z) (Some [(1, 5)]%Z) = Ok c /\ spc_str (fun l => l) c = lit "SetPartComp([[-2, 5]], {(-2, 1)})" /\
  binv_str [true; false; true] = lit "Binv('101')" /\ binv_str (repeat true 16 ++ [false]) = lit "~Binv(exposet=[16], length=17)".
Proof.
  eexists _, _, _, _, _, _.
  split; [vm_compute; reflexivity|]. split; [apply (Spec_Perm.obj_new (ArgCycles [[0; 2; 1]]) (Some 4)); [repeat constructor; cbn; lia|vm_compute; reflexivity]|]. split; [vm_compute; reflexivity|].
  split; [vm_compute; reflexivity|]. split; [apply (sig_new (Some (NegVector [1; 0]%Z)) None None None (Some (SrcArg (ArgSeq [1; 0]))) None None None None); [exact I|vm_compute; reflexivity|reflexivity]|]. split; [vm_compute; reflexivity|].
  split; [vm_compute; reflexivity|]. split; [vm_compute; reflexivity|].
  split; [vm_compute; reflexivity|]. split; [apply (obj_new (Some [[5; -2]; [4; 1; 7]]%Z) DomZ None); vm_compute; reflexivity|]. split; [vm_compute; reflexivity|].
  split; [vm_compute; reflexivity|]. split; [apply (obj_new (Some [[5; 2]]%Z) (DomSet [8; 5; 2; 3]%Z) None); vm_compute; reflexivity|]. split; [vm_compute; reflexivity|].
  split; [vm_compute; reflexivity|]. split; [vm_compute; reflexivity|]. split; vm_compute; reflexivity.
Qed.
