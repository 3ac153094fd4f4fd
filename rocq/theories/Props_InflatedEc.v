(** Props_InflatedEc: property C121, representatives and classes of functions with superfluous atoms
    (objects made with the argument skip_deflation). *)

From Coq Require Import List Arith ZArith Bool Lia Permutation Sorted Factorial.
From Verif Require Import Model_Base Lib Model_Splits Model_Perm Model_Binary Model_SigPerm Model_SetPart Model_Boolf Model_BoolfMore Model_MinRep
  Model_Helpers Model_Ec Spec_Bits Spec_Perm Spec_SigPerm Spec_Boolf Spec_Twin Spec_SetPart Spec_MinRep Spec_Helpers Spec_Ec
  Proof_Boolf Proof_Deflate Proof_BoolfTable Proof_BoolfApply Proof_BoolfMake Proof_BoolfMore Proof_MinRepClass Proof_MinRep Proof_MinRepMin Proof_MinRepConst
  Proof_Ec Proof_EcClass Proof_EcMembers Proof_EcCount Props_Boolf Props_BoolfMore Props_MinRep Props_Ec.
Import ListNotations.
Local Open Scope nat_scope.

(** * Functions that depend on something *)

(** The results are the deflated minimal functions of the classes. *)
Theorem C121_minreps : forall b oz on f, (forall l, Permutation (oz l) l) -> (forall l, StronglySorted lt l -> on l = l) -> made b f -> (exists e e', sem f e <> sem f e') ->
  (exists g, family_minrep oz on f = Ok (Some g) /\ made false g /\ smallest (family_class (sem f)) (sem g)) /\
  (exists g, faction_minrep f = Ok (Some g) /\ made false g /\ smallest (faction_class (sem f)) (sem g)) /\
  (exists g, clan_minrep oz on f = Ok (Some g) /\ clan_minrep_prototype oz on f = Ok (Some g) /\ made false g /\ smallest (clan_class (sem f)) (sem g)).
Proof.
  intros b oz on f Hz Hn M X. assert (R := proj1 (made_wellmade _ f M)). split; [|split].
  - destruct (family_minrep_least f R oz on (or_intror X) Hz Hn) as (g & E & Rg & S). exists g. split; [exact E|]. split; [apply reduced_made, Rg | exact S].
  - destruct (faction_minrep_least f R (or_intror X)) as (g & E & Rg & S). exists g. split; [exact E|]. split; [apply reduced_made, Rg | exact S].
  - destruct (clan_minrep_least f R oz on (or_intror X) Hz Hn) as (g & E & E' & Rg & S). exists g. split; [exact E|]. split; [exact E'|]. split; [apply reduced_made, Rg | exact S].
Qed.
Print Assumptions C121_minreps.

(** Whether two functions have the same result depends only on the functions, not on the superfluous atoms. *)
Theorem C121_minreps_class : forall b oz on f h, (forall l, Permutation (oz l) l) -> (forall l, StronglySorted lt l -> on l = l) -> made b f -> made b h ->
  (exists e e', sem f e <> sem f e') -> (exists e e', sem h e <> sem h e') ->
  (family_minrep oz on f = family_minrep oz on h <-> family_class (sem f) (sem h)) /\
  (faction_minrep f = faction_minrep h <-> faction_class (sem f) (sem h)) /\
  (clan_minrep oz on f = clan_minrep oz on h <-> clan_class (sem f) (sem h)).
Proof.
  intros b oz on f h Hz Hn Mf Mh Xf Xh. destruct (C121_minreps b oz on f Hz Hn Mf Xf) as ((a1 & E1 & M1 & S1) & (a2 & E2 & M2 & S2) & (a3 & E3 & _ & M3 & S3)).
  destruct (C121_minreps b oz on h Hz Hn Mh Xh) as ((b1 & F1 & N1 & T1) & (b2 & F2 & N2 & T2) & (b3 & F3 & _ & N3 & T3)). rewrite E1, E2, E3, F1, F2, F3. apply m_red in M1, M2, M3, N1, N2, N3. split; [|split]; split.
  - intro X. injection X as <-. apply (family_same f a1 (proj1 S1)). destruct (proj1 T1) as (m & H). exists m. intro e. rewrite H. apply sem_ext. intros a _. destruct (e a), (m a); reflexivity.
  - intro C. do 2 f_equal. apply reduced_unique; [exact M1 | exact N1|]. exact (smallest_unique _ _ _ _ (family_same f h C) S1 T1).
  - intro X. injection X as <-. apply (faction_same f a2 (proj1 S2)), faction_sym, T2.
  - intro C. do 2 f_equal. apply reduced_unique; [exact M2 | exact N2|]. exact (smallest_unique _ _ _ _ (faction_same f h C) S2 T2).
  - intro X. injection X as <-. apply (clan_same f a3 (proj1 S3)), clan_sym, T3.
  - intro C. do 2 f_equal. apply reduced_unique; [exact M3 | exact N3|]. exact (smallest_unique _ _ _ _ (clan_same f h C) S3 T3).
Qed.
Print Assumptions C121_minreps_class.

(** * Constant functions with atoms *)

Section Constants.
Context (b : bool) (f : boolf) (M : made b f) (q : bool) (Q : forall e, sem f e = q) (A : atomvals f <> []).
Lemma constants_valency : 0 < valency f.
Proof. unfold valency. destruct (atomvals f); [congruence | cbn; lia]. Qed.
Lemma constants_adicity : adicity f = 1 <-> atomvals f = [0].
Proof.
  assert (N : NoDup (atomvals f)) by apply fitting_NoDup, (proj1 (made_wellmade _ f M)). split.
  - intro E. assert (B : forall a, In a (atomvals f) -> a = 0) by (intros a Ha; apply adicity_bound in Ha; lia).
    destruct (atomvals f) as [|x [|y l]]; [congruence | f_equal; apply B; left; reflexivity|]. exfalso. inversion N as [|? ? H _]; subst. apply H. left. rewrite (B x), (B y); cbn; auto.
  - intro E. unfold adicity. rewrite E. reflexivity.
Qed.
End Constants.

(** The family has one member, but the search gives None. *)
Theorem C121_constant_family : forall b oz on f q, (forall l, StronglySorted lt l -> on l = l) -> made b f -> (forall e, sem f e = q) -> atomvals f <> [] -> family_minrep oz on f = Ok None.
Proof. intros b oz on f q Hn M Q A. apply (const_family f (proj1 (made_wellmade _ f M)) q Q (constants_valency f A) oz on Hn). Qed.
Print Assumptions C121_constant_family.

(** The faction search gives the object itself, not the constant without atoms. *)
Theorem C121_constant_faction : forall b f q, made b f -> (forall e, sem f e = q) -> atomvals f <> [] -> faction_minrep f = Ok (Some f) /\ ~ made false f.
Proof.
  intros b f q M Q A. split; [apply (const_faction f (proj1 (made_wellmade _ f M)) q Q (constants_valency f A))|]. intro X. apply m_red in X as R. destruct (atomvals f) as [|a l] eqn:E; [congruence|].
  assert (H : In a (atomvals f)) by (rewrite E; left; reflexivity). apply (atoms_essential f a R) in H as (e & H). apply H. rewrite !Q. reflexivity.
Qed.
Print Assumptions C121_constant_faction.

(** The clan searches give the constant without atoms, except for the tautology with the atom 0. *)
Theorem C121_constant_clan : forall b oz on f q, (forall l, Permutation (oz l) l) -> (forall l, StronglySorted lt l -> on l = l) -> made b f -> (forall e, sem f e = q) -> atomvals f <> [] ->
  (~ (q = true /\ atomvals f = [0]) -> exists g, clan_minrep oz on f = Ok (Some g) /\ clan_minrep_prototype oz on f = Ok (Some g) /\ made false g /\ forall e, sem g e = q) /\
  (q = true -> atomvals f = [0] -> clan_minrep oz on f = Ok None /\ clan_minrep_prototype oz on f = Ok None).
Proof.
  intros b oz on f q Hz Hn M Q A. assert (R := proj1 (made_wellmade _ f M)). assert (V := constants_valency f A). assert (K := constants_adicity b f M A).
  destruct (const_clan f R q Q V oz on Hz Hn) as [C1 C2]. destruct (const_prototype f R q Q V oz on Hz Hn) as [P1 P2]. split.
  - intro N. assert (X : q && (adicity f =? 1) = false). { apply not_true_is_false. intro X. apply andb_true_iff in X as [X Y]. apply Nat.eqb_eq in Y. apply N. split; [exact X | apply K, Y]. }
    destruct (C1 X) as (g & E & Rg & S). destruct (P1 X) as (g' & E' & Rg' & S'). assert (g' = g) by (apply reduced_unique; [assumption | assumption | intro e; rewrite S, S'; reflexivity]). subst g'.
    exists g. split; [exact E|]. split; [exact E'|]. split; [apply reduced_made, Rg | exact S].
  - intros Hq Ha. assert (X : q && (adicity f =? 1) = true) by (rewrite Hq, (proj2 K Ha); reflexivity). auto.
Qed.
Print Assumptions C121_constant_clan.

(** * Classes *)

(** The blocks of a labelled partition with one number for each signed permutation of the first [n]
    atoms (for factions: each permutation) have the same size. *)
Theorem C121_shares : forall b depth f o sup n, made b f -> is_constant f = false -> within n f -> n = match o with None => adicity f | Some k => k end -> (n = valency f \/ sup = true) ->
  (forall c, ec_faction f o sup = Ok c -> equal_shares c (fact n)) /\ (forall c, ec_clan depth f o sup = Ok c -> equal_shares c (2 ^ n * fact n)).
Proof.
  intros b depth f o sup n Hf C W Hn Hs. assert (R := proj1 (made_wellmade _ f Hf)). apply within_iff in W. split; intros c E.
  - assert (A : adicity f <= 5). { unfold ec_faction in E. rewrite C in E. destruct (Nat.leb_spec (adicity f) 5); [assumption | discriminate E]. }
    destruct (ec_faction_short f o sup n R C A) as (c' & E' & _ & S); [destruct o; exact Hn | exact W | exact Hs|]. rewrite E in E'. injection E' as <-. apply shares_iff, (faction_equal_blocks f n R W c S).
  - destruct depth as [|depth]; [discriminate E|]. assert (A : adicity f <= 5). { cbn [ec_clan] in E. rewrite C in E. unfold ec_clan_variable in E. destruct (Nat.leb_spec (adicity f) 5); [assumption | discriminate E]. }
    destruct (ec_clan_redundant depth f o sup n R C A) as (c' & E' & _ & S); [destruct o; exact Hn | exact W | exact Hs|]. rewrite E in E'. injection E' as <-. apply shares_iff, (clan_equal_blocks f n R W c S).
Qed.
Print Assumptions C121_shares.

(** The labels are those of the class of the deflated function. *)
Theorem C121_labels : forall b depth f g n, made b f -> made false g -> (forall e, sem f e = sem g e) -> within 5 f -> within n f ->
  (exists c d, ec_family f = Ok c /\ ec_family g = Ok d /\ Permutation (ec_members c) (ec_members d)) /\
  (exists c d, ec_faction f (Some n) false = Ok c /\ ec_faction g (Some n) false = Ok d /\ Permutation (ec_members c) (ec_members d)) /\
  (exists c d, ec_clan (S depth) f (Some n) false = Ok c /\ ec_clan (S depth) g (Some n) false = Ok d /\ Permutation (ec_members c) (ec_members d)).
Proof.
  intros b depth f g n Mf Mg S W Wn.
  assert (I : forall k, within k f -> within k g).
  { intros k H a Ha. apply m_red in Mg as Rg. apply (atoms_essential g a Rg) in Ha as (e & He). apply H. apply (essential_in (root f) (atomvals f)). exists e. change (sem f (Spec_Boolf.upd e a true) <> sem f (Spec_Boolf.upd e a false)). rewrite !S. exact He. }
  assert (S' : forall e, sem g e = sem f e) by (intro e; symmetry; apply S).
  split; [|split].
  - destruct (C70_members f Mf) as (c & E & N & H); [intros a Ha; specialize (W a Ha); lia|]. destruct (C70_members g Mg) as (d & F & N' & H'); [intros a Ha; specialize (I 5 W a Ha); lia|].
    exists c, d. split; [exact E|]. split; [exact F|]. apply NoDup_Permutation; [exact N | exact N'|]. intro h. rewrite H, H'. unfold family_class. split; intros (Mh & m & X); (split; [exact Mh|]); exists m; intro e; rewrite X; [apply S | apply S'].
  - destruct (C71_members f (Some n) false n Mf W eq_refl Wn) as (c & E & N & H). destruct (C71_members g (Some n) false n Mg (I 5 W) eq_refl (I n Wn)) as (d & F & N' & H').
    exists c, d. split; [exact E|]. split; [exact F|]. apply NoDup_Permutation; [exact N | exact N'|]. intro h. rewrite H, H'. unfold faction_class. split; intros (Mh & Wh & pi & B & X); (split; [exact Mh|]); (split; [exact Wh|]); exists pi; (split; [exact B|]); intro e; rewrite X; [apply S | apply S'].
  - destruct (C72_members depth f (Some n) false n Mf W eq_refl Wn (or_intror eq_refl)) as (c & E & N & H). destruct (C72_members depth g (Some n) false n Mg (I 5 W) eq_refl (I n Wn) (or_intror eq_refl)) as (d & F & N' & H').
    exists c, d. split; [exact E|]. split; [exact F|]. apply NoDup_Permutation; [exact N | exact N'|]. intro h. rewrite H, H'. unfold clan_class. split; intros (Mh & Wh & pi & m & B & X); (split; [exact Mh|]); (split; [exact Wh|]); exists pi, m; (split; [exact B|]); intro e; rewrite X; [apply S | apply S'].
Qed.
Print Assumptions C121_labels.

(** ** Examples *)

Definition raw_args (v : list Z) : bargs := mkArgs (Some (TtVector v)) None None None None None None None None None None true.
Lemma raw_made v f : Boolf 1 (raw_args v) = Ok f -> made true f.
Proof. intro E. refine (made_by true 1 (raw_args v) f (fun _ => eq_refl) _ E). intros g []. Qed.

(* NOT x1, with the superfluous atom 0 *)
Definition ex_raw : boolf := mkBoolf [true; true; false; false] [0; 1] false true.
Lemma ex_raw_made : made true ex_raw.
Proof. apply (raw_made [1; 1; 0; 0]%Z). vm_compute. reflexivity. Qed.
Example C121_example_minreps : made true ex_raw /\ ~ made false ex_raw /\ (exists e e', sem ex_raw e <> sem ex_raw e') /\
  (let* a := family_minrep (fun l => l) (fun l => l) ex_raw in let* b := faction_minrep ex_raw in let* c := clan_minrep (fun l => l) (fun l => l) ex_raw in Ok (a, b, c)) =
  Ok (Some (mkBoolf [false; true] [1] false false), Some (mkBoolf [true; false] [0] false false), Some (mkBoolf [false; true] [0] false false)).
Proof.
  split; [exact ex_raw_made|]. split; [|split].
  - intro M. apply m_red in M as R. assert (H : In 0 (atomvals ex_raw)) by (left; reflexivity). apply (atoms_essential _ _ R) in H as (e & H). apply H. cbn. destruct (e 1); reflexivity.
  - exists (fun _ => true), (fun _ => false). discriminate.
  - vm_compute. reflexivity.
Qed.
Example C121_example_class : made true ex_raw /\ made true (mkBoolf [false; true] [1] false false) /\ family_class (sem ex_raw) (sem (mkBoolf [false; true] [1] false false)).
Proof.
  split; [exact ex_raw_made|]. split.
  - refine (made_by true 1 (mkArgs None None (Some 1%Z) None None None None None None None None false) _ (fun _ => eq_refl) _ _); [intros g [] | vm_compute; reflexivity].
  - exists (fun a => Nat.eqb a 1). intro e. cbn. destruct (e 0), (e 1); reflexivity.
Qed.

(* the tautology with the atom 0, and with the atoms 0 and 1 *)
Example C121_example_constants : made true (mkBoolf [true; true] [0] false true) /\ made true (mkBoolf [true; true; true; true] [0; 1] false true) /\
  (let* a := family_minrep (fun l => l) (fun l => l) (mkBoolf [true; true] [0] false true) in let* b := faction_minrep (mkBoolf [true; true] [0] false true) in
   let* c := clan_minrep (fun l => l) (fun l => l) (mkBoolf [true; true] [0] false true) in Ok (a, b, c)) = Ok (None, Some (mkBoolf [true; true] [0] false true), None) /\
  clan_minrep (fun l => l) (fun l => l) (mkBoolf [true; true; true; true] [0; 1] false true) = Ok (Some (set_constant true)).
Proof.
  split; [apply (raw_made [1; 1]%Z); vm_compute; reflexivity|]. split; [apply (raw_made [1; 1; 1; 1]%Z); vm_compute; reflexivity|]. split; vm_compute; reflexivity.
Qed.
Example C121_example_classes : made true ex_raw /\ within 5 ex_raw /\ within 3 ex_raw /\ is_constant ex_raw = false /\
  (let* c := ec_faction ex_raw (Some 3) true in let* d := ec_clan 1 ex_raw (Some 3) false in Ok (length (ec_members c), length (ec_members d))) = Ok (3, 6).
Proof.
  split; [exact ex_raw_made|]. split; [apply ex_within; reflexivity|]. split; [apply ex_within; reflexivity|]. split; [reflexivity|]. vm_compute. reflexivity.
Qed.
