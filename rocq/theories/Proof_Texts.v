(** Proof_Texts: lemmas for the texts of Binv, Perm, SigPerm, WalshPerm, SetPart, SetPartComp. *)

From Coq Require Import String Ascii List Arith ZArith Bool Lia Permutation Sorted.
From Verif Require Import Lib Model_Base Model_Binary Model_Splits Model_Perm Model_SigPerm Model_WalshPerm Model_Boolf Model_SetPart Model_SetPartComp Model_MinRep Model_Misc Model_Str
  Spec_Bits Spec_Perm Spec_SigPerm Spec_WalshPerm Spec_SetPart Spec_SetPartComp Proof_Binary Proof_Perm Proof_PermGroup Proof_PermCycles Proof_PermMore Proof_SigPerm Proof_SigPermOps Proof_SetPart Proof_SetPartObj Proof_SetPartLattice Proof_SetPartMore Proof_SetPartComp Proof_SetPartCompMore Proof_WalshPerm Proof_WalshOps Proof_Misc Proof_Str Proof_BoolfStr.
Import ListNotations Model_Str.
Open Scope nat_scope.

(** ** Binv *)

Lemma to_string_inj v w : to_string v = to_string w -> v = w.
Proof.
  unfold to_string. revert w. induction v as [|a v IH]; intros [|b w] E.
  - reflexivity.
  - destruct b; discriminate.
  - destruct a; discriminate.
  - assert (a = b) by (destruct a, b; try discriminate; reflexivity). subst b. f_equal. apply IH. cbn [flat_map] in E. apply app_inv_head in E. exact E.
Qed.
Lemma to_string_chars v : Forall (fun c => Nat.eqb c 39 = false) (to_string v).
Proof. unfold to_string. induction v as [|[|] v IH]; [constructor| |]; cbn [flat_map]; (constructor; [reflexivity|exact IH]). Qed.
Lemma binv_str_inj v w : binv_str v = binv_str w -> v = w.
Proof.
  unfold binv_str. assert (X : forall v, sort_nat (binv_exposet v) = binv_exposet v) by (intro u; apply sort_nat_id, Proof_Boolf.sorted_lt_le, binv_exposet_sorted).
  destruct (Nat.leb (length v) 16) eqn:Lv, (Nat.leb (length w) 16) eqn:Lw; intro E.
  - apply app_inv_head in E. destruct (span_use (fun c => Nat.eqb c 39) _ _ _ _ E (to_string_chars v) (to_string_chars w) ltac:(exact eq_refl) ltac:(exact eq_refl)) as (H & _). apply to_string_inj. exact H.
  - cbv zeta in E. destruct (Nat.ltb (length w) (2 * binv_weight w)); discriminate.
  - cbv zeta in E. destruct (Nat.ltb (length v) (2 * binv_weight v)); discriminate.
  - cbv zeta in E. assert (T : Nat.ltb (length v) (2 * binv_weight v) = Nat.ltb (length w) (2 * binv_weight w)).
    { destruct (Nat.ltb (length v) (2 * binv_weight v)), (Nat.ltb (length w) (2 * binv_weight w)); try reflexivity; discriminate. }
    rewrite T in E. apply app_inv_head in E. apply app_inv_head in E. try rewrite <- !app_assoc in E.
    destruct (delim_use _ _ _ _ nats_delim _ _ _ _ E I I ltac:(exact eq_refl) ltac:(exact eq_refl)) as (E1 & E2). apply app_inv_head in E2.
    destruct (delim_use _ _ _ _ str_nat_delim _ _ _ _ E2 I I ltac:(exact eq_refl) ltac:(exact eq_refl)) as (L & _).
    destruct (Nat.ltb (length w) (2 * binv_weight w)); rewrite !X in E1.
    + apply map_negb_inj, exposet_inj; [rewrite !map_length; exact L|exact E1].
    + apply exposet_inj; assumption.
Qed.

(** ** Perm *)

Definition dsame (a b : dict) : Prop := NoDup (dkeys a) /\ NoDup (dkeys b) /\ forall k, dget a k = dget b k.
Lemma dsame_keys a b : dsame a b -> Permutation (dkeys a) (dkeys b).
Proof.
  intros (Na & Nb & E). apply NoDup_Permutation; auto. intro k. split; intro H.
  - destruct (dget_key a k H) as (v & Hv). rewrite E in Hv. apply dget_Some_key in Hv. exact Hv.
  - destruct (dget_key b k H) as (v & Hv). rewrite <- E in Hv. apply dget_Some_key in Hv. exact Hv.
Qed.
Lemma dsame_length a b : dsame a b -> length a = length b.
Proof. intro H. apply dsame_keys, Permutation_length in H. unfold dkeys in H. rewrite !map_length in H. exact H. Qed.
Lemma ddel_get d k x : NoDup (dkeys d) -> dget (ddel d k) x = if Nat.eqb x k then None else dget d x.
Proof.
  intros _. unfold ddel. induction d as [|[a v] d IH]; cbn [filter dget fst].
  - destruct (Nat.eqb x k); reflexivity.
  - destruct (Nat.eqb_spec k a) as [<-|N]; cbn [negb dget].
    + rewrite IH. destruct (Nat.eqb x k); reflexivity.
    + rewrite IH. destruct (Nat.eqb_spec x a) as [->|M]; [|reflexivity]. destruct (Nat.eqb_spec a k); [congruence|reflexivity].
Qed.
Lemma ddel_keys d k : NoDup (dkeys d) -> NoDup (dkeys (ddel d k)).
Proof.
  unfold ddel, dkeys. induction d as [|[a v] d IH]; intro N; cbn [filter map fst]; [constructor|]. inversion N; subst.
  destruct (negb (Nat.eqb k a)); [|auto]. cbn [map fst]. constructor; [|auto]. intro H. apply H1. apply in_map_iff in H as (p & <- & Hp). apply filter_In in Hp. apply in_map. apply Hp.
Qed.
Lemma dsame_del a b k : dsame a b -> dsame (ddel a k) (ddel b k).
Proof. intros (Na & Nb & E). split; [apply ddel_keys; exact Na|]. split; [apply ddel_keys; exact Nb|]. intro x. rewrite !ddel_get by assumption. rewrite E. reflexivity. Qed.
Lemma follow_same fuel : forall a b c k, dsame a b ->
  match follow_cycle fuel a c k, follow_cycle fuel b c k with
  | Ok x, Ok y => fst x = fst y /\ dsame (snd x) (snd y)
  | Err e, Err e' => e = e'
  | _, _ => False
  end.
Proof.
  induction fuel as [|fuel IH]; intros a b c k H; cbn [follow_cycle]; [reflexivity|]. unfold dlookup. rewrite (proj2 (proj2 H) k).
  destruct (dget b k) as [v|]; cbn [bind]; [|reflexivity]. assert (H' := dsame_del a b k H). destruct (memb v c); [split; [reflexivity|exact H']|]. apply IH. exact H'.
Qed.
Lemma cycles_same fuel : forall a b r, dsame a b -> cycles_loop fuel a r = cycles_loop fuel b r.
Proof.
  induction fuel as [|fuel IH]; intros a b r H; destruct a as [|x a], b as [|y b]; try (apply dsame_length in H; discriminate); try reflexivity.
  cbn [cycles_loop]. rewrite (proj2 (sort_nat_eq_iff _ _) (dsame_keys _ _ H)). assert (L := dsame_length _ _ H). rewrite L.
  set (key := hd 0 (sort_nat (dkeys (y :: b)))). assert (F := follow_same (S (length (y :: b))) (x :: a) (y :: b) [key] key H).
  destruct (follow_cycle (S (length (y :: b))) (x :: a) [key] key) as [p|e], (follow_cycle (S (length (y :: b))) (y :: b) [key] key) as [q|e']; try contradiction.
  - cbn [bind]. destruct F as (E & D). rewrite E. apply IH. exact D.
  - subst. reflexivity.
Qed.

Lemma perm_str_form p : is_Perm p -> exists cs, pcycles p = Ok cs /\ perm_str p = Ok (if neutral p then lit "Perm()" else
  lit "Perm(" ++ str_list (map (fun c => str_list (map str_nat c)) cs) ++ match perilen p with Some q => lit ", perilen=" ++ str_nat q ++ lit ")" | None => lit ")" end).
Proof.
  intro H. destruct (cycles_ok p H) as (cs & E & _). exists cs. split; [exact E|]. unfold perm_str. destruct (neutral p); [reflexivity|]. rewrite E, bind_Ok. cbv zeta. destruct (perilen p); reflexivity.
Qed.
Lemma perm_str_inj p q s : is_Perm p -> is_Perm q -> perm_str p = Ok s -> perm_str q = Ok s -> forall x, pget p x = pget q x.
Proof.
  intros Hp Hq Ep Eq. destruct (perm_str_form p Hp) as (cs & Cp & Fp). destruct (perm_str_form q Hq) as (ds & Cq & Fq).
  rewrite Ep in Fp. rewrite Eq in Fq. clear Ep Eq. apply Ok_inj in Fp, Fq. rewrite Fp in Fq. clear Fp s.
  destruct (neutral p) eqn:Np, (neutral q) eqn:Nq.
  - intro x. unfold pget. rewrite Np, Nq. reflexivity.
  - discriminate.
  - discriminate.
  - apply app_inv_head in Fq. assert (D := nested_delim nat str_nat nats_delim).
    destruct (delim_use _ _ _ _ D _ _ _ _ Fq I I) as (-> & E).
    { destruct (perilen p); exact eq_refl. } { destruct (perilen q); exact eq_refl. }
    assert (P : perilen p = perilen q).
    { destruct (perilen p) as [a|], (perilen q) as [b|]; try discriminate; [|reflexivity]. f_equal. apply app_inv_head in E.
      destruct (delim_use _ _ _ _ str_nat_delim _ _ _ _ E I I ltac:(exact eq_refl) ltac:(exact eq_refl)) as (H & _). exact H. }
    destruct (cycles_rebuild_ok p Hp) as (c1 & p1 & K1 & B1 & Q1). destruct (cycles_rebuild_ok q Hq) as (c2 & p2 & K2 & B2 & Q2).
    assert (Ec1 : c1 = ds) by congruence. assert (Ec2 : c2 = ds) by congruence. subst c1 c2. rewrite P, B2 in B1. injection B1 as <-.
    assert (W : is_Perm p2) by (eapply Spec_Perm.obj_new; [|exact B2]; destruct (cycles_ok q Hq) as (c & Ec & N & _); assert (c = ds) by congruence; subst c; exact N).
    intro x. rewrite <- (proj1 (eq_actions p2 p W Hp) Q1 x), <- (proj1 (eq_actions p2 q W Hq) Q2 x). reflexivity.
Qed.
Lemma perm_str_same p q : is_Perm p -> is_Perm q -> (forall x, pget p x = pget q x) -> perm_str p = perm_str q.
Proof.
  intros Hp Hq E. destruct (eq_attributes p q Hp Hq E) as (P & _ & N & M). unfold perm_str. rewrite N. destruct (neutral q) eqn:Nq; [reflexivity|].
  assert (D : dsame (mapping p) (mapping q)) by (split; [apply wm_keys, wf_map, is_Perm_wf, Hp|split; [apply wm_keys, wf_map, is_Perm_wf, Hq|exact M]]).
  unfold pcycles. rewrite N, Nq, (dsame_length _ _ D), (cycles_same _ _ _ _ D), P. reflexivity.
Qed.

(** ** SigPerm *)

Lemma logic_entry z : (if Z.ltb z 0 then lit "~" else []) ++ str_nat (logic_abs z) = logic_str z.
Proof. unfold logic_str. destruct (Z.ltb z 0); reflexivity. Qed.
Lemma sigperm_str_form s : sigperm_str s = let* l := sg_sequence s None in Ok (lit "SigPerm(sequence=" ++ str_list (map logic_str l) ++ lit ")").
Proof.
  unfold sigperm_str, sequence_string. destruct (sg_sequence s None) as [l|e]; [|reflexivity]. rewrite !bind_Ok. unfold str_list.
  rewrite (map_ext _ _ logic_entry l). reflexivity.
Qed.

(** ** SetPart *)

Lemma str_blocks_delim : delim (fun _ => True) (fun _ => true) str_blocks.
Proof. exact (nested_delim Z str_int ints_delim). Qed.
Lemma zsort_eq a b : NoDup a -> NoDup b -> (zsort a = zsort b <-> forall x, In x a <-> In x b).
Proof.
  intros Na Nb. split; intro H.
  - intro x. rewrite <- (zsort_In x a), <- (zsort_In x b), H. tauto.
  - apply zsorted_ext; [apply zsort_sorted, Na|apply zsort_sorted, Nb|]. intro x. rewrite !zsort_In. apply H.
Qed.
Lemma domain_eqb_In a b : domain_eqb (DomSet a) (DomSet b) = true <-> forall x, In x a <-> In x b.
Proof. cbn [domain_eqb]. rewrite andb_true_iff, !zsubset_spec. split; [intros (H & K) x; split; auto|intro H; split; intros x; apply H]. Qed.
Lemma setpart_str_spec s t : sp_wf s -> sp_wf t ->
  (setpart_str s = setpart_str t <-> domain_eqb (sp_domain s) (sp_domain t) = true /\ sp_blocks s = sp_blocks t).
Proof.
  intros Ws Wt. assert (Ds := wf_dom s Ws). assert (Dt := wf_dom t Wt). unfold setpart_str. split.
  - intro E. assert (K : exists u v, str_blocks (sp_blocks s) ++ u = str_blocks (sp_blocks t) ++ v /\
      u = match sp_domain s with DomN => lit ")" | DomZ => lit ", 'Z')" | DomSet l => lit ", {" ++ join_texts (map str_int (zsort l)) ++ lit "})" end /\
      v = match sp_domain t with DomN => lit ")" | DomZ => lit ", 'Z')" | DomSet l => lit ", {" ++ join_texts (map str_int (zsort l)) ++ lit "})" end).
    { eexists _, _. split; [|split; reflexivity]. destruct (sp_domain s), (sp_domain t); apply app_inv_head in E; exact E. }
    destruct K as (u & v & E' & Hu & Hv). clear E.
    destruct (delim_use _ _ _ _ str_blocks_delim _ _ _ _ E' I I) as (B & E).
    { rewrite Hu. destruct (sp_domain s); exact eq_refl. } { rewrite Hv. destruct (sp_domain t); exact eq_refl. }
    split; [|exact B]. rewrite Hu, Hv in E. destruct (sp_domain s) as [| |a], (sp_domain t) as [| |b]; try discriminate; try reflexivity.
    apply app_inv_head in E. destruct (delim_use _ _ _ _ sets_delim _ _ _ _ E I I ltac:(exact eq_refl) ltac:(exact eq_refl)) as (Z & _).
    apply domain_eqb_In. apply zsort_eq; assumption.
  - intros (D & B). rewrite B. destruct (sp_domain s) as [| |a], (sp_domain t) as [| |b]; try discriminate; try reflexivity.
    rewrite (proj2 (zsort_eq a b Ds Dt)); [reflexivity|]. apply domain_eqb_In. exact D.
Qed.

(** ** SetPartComp *)

Lemma str_pair_delim : delim (fun _ => True) (fun _ => true) str_pair.
Proof.
  intros [a b] [c d] s t _ _ _ _ E. unfold str_pair in E. cbn [fst snd] in E. rewrite <- !app_assoc in E. apply app_inv_head in E.
  destruct (delim_use _ _ _ _ str_int_delim _ _ _ _ E I I ltac:(exact eq_refl) ltac:(exact eq_refl)) as (-> & E1). apply app_inv_head in E1.
  destruct (delim_use _ _ _ _ str_int_delim _ _ _ _ E1 I I ltac:(exact eq_refl) ltac:(exact eq_refl)) as (-> & E2). apply app_inv_head in E2. auto.
Qed.
Lemma pairs_delim : delim (fun _ => True) (fun c => Nat.eqb c 125) (fun l => join_texts (map str_pair l)).
Proof.
  eapply delim_weaken; [apply (join_delim (fun _ => True) (fun _ => true) (fun c => Nat.eqb c 125) str_pair str_pair_delim eq_refl)| |].
  - intros c Hc. apply Nat.eqb_eq in Hc. subst. split; [reflexivity|discriminate].
  - intros a _. eexists 40, _. split; reflexivity.
  - intros l _. apply Forall_forall. auto.
  - auto.
Qed.
Lemma spc_str_inj order order' s t : (forall l, Permutation (order l) l) -> (forall l, Permutation (order' l) l) ->
  spc_str order s = spc_str order' t -> sp_blocks (equal_part s) = sp_blocks (equal_part t) /\ Permutation (comp_pairs s) (comp_pairs t).
Proof.
  intros Ho Ho' E. unfold spc_str in E.
  destruct (Nat.eqb_spec (length (comp_pairs s)) 0) as [Ls|Ls], (Nat.eqb_spec (length (comp_pairs t)) 0) as [Lt|Lt]; apply app_inv_head in E;
    destruct (delim_use _ _ _ _ str_blocks_delim _ _ _ _ E I I ltac:(exact eq_refl) ltac:(exact eq_refl)) as (B & E'); try discriminate; (split; [exact B|]).
  - destruct (comp_pairs s), (comp_pairs t); try discriminate. constructor.
  - apply app_inv_head in E'. destruct (delim_use _ _ _ _ pairs_delim _ _ _ _ E' I I ltac:(exact eq_refl) ltac:(exact eq_refl)) as (P & _).
    rewrite <- (Ho (comp_pairs s)), P. apply Ho'.
Qed.
Lemma spc_str_eq order order' s t : (forall l, Permutation (order l) l) -> (forall l, Permutation (order' l) l) -> cwf s -> cwf t ->
  spc_str order s = spc_str order' t -> spc_eq s t = Ok true.
Proof.
  intros Ho Ho' Cs Ct E. destruct (spc_str_inj order order' s t Ho Ho' E) as (B & P). unfold spc_eq, sp_eq.
  rewrite (c_dom s Cs), (c_dom t Ct), B. cbn [domain_eqb true_except bind]. f_equal.
  rewrite (proj2 (blocks_eqb_eq _ _) eq_refl). cbn [andb]. apply andb_true_iff. rewrite !forallb_forall. split; intros p Hp; apply pair_memb_In.
  - eapply Permutation_in; [exact P|exact Hp].
  - eapply Permutation_in; [symmetry; exact P|exact Hp].
Qed.

(** ** WalshPerm *)

Lemma walsh_str_spec a b f g : valid a f -> valid b g ->
  (forall s, walsh_str a = Ok s -> walsh_str b = Ok s -> walsh_vector a None = walsh_vector b None) /\
  (walsh_eqb a b = true -> walsh_vector a None = walsh_vector b None -> walsh_str a = walsh_str b) /\ exists s, walsh_str a = Ok s.
Proof.
  intros Va Vb. assert (Ea := vector_spec a f _ Va (le_n _)). assert (Eb := vector_spec b g _ Vb (le_n _)).
  change (walsh_vector a (Some (w_degree a))) with (walsh_vector a None) in Ea. change (walsh_vector b (Some (w_degree b))) with (walsh_vector b None) in Eb.
  unfold walsh_str. rewrite Ea, Eb, !bind_Ok.
  assert (N : forall w h, valid w h -> w_neutral w = true /\ w_degree w = 0 \/ w_neutral w = false /\ 2 <= w_degree w).
  { intros w h [(-> & _)|(d & m & W & _)]; [left; auto|right]. split; [apply (ww_neutral _ _ _ W)|]. rewrite (ww_degree _ _ _ W). apply (ww_two _ _ _ W). }
  split; [|split].
  - intros s. destruct (N a f Va) as [(-> & Da)|(-> & Da)], (N b g Vb) as [(-> & Db)|(-> & Db)]; intros Es Et.
    + rewrite Da, Db. reflexivity.
    + rewrite <- Es in Et. discriminate.
    + rewrite <- Es in Et. discriminate.
    + rewrite <- Es in Et. apply Ok_inj, app_inv_head in Et. destruct (delim_use _ _ _ _ nats_delim _ _ _ _ Et I I ltac:(exact eq_refl) ltac:(exact eq_refl)) as (-> & _). reflexivity.
  - intros _ H. apply Ok_inj in H. assert (L : w_degree a = w_degree b) by (apply (f_equal (@length nat)) in H; rewrite !map_length, !range_length in H; exact H).
    destruct (N a f Va) as [(-> & Da)|(-> & Da)], (N b g Vb) as [(-> & Db)|(-> & Db)]; try lia; [reflexivity|]. rewrite H. reflexivity.
  - destruct (w_neutral a); eauto.
Qed.
