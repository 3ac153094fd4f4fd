(** Proof_Cayley: numbered signed permutations and the tables of their products. *)

From Coq Require Import List Arith ZArith Bool Lia Permutation Factorial.
From Verif Require Import Model_Base Lib Model_Binary Model_Splits Model_Perm Model_SigPerm Model_SetPart Model_ClanMatrix Model_Cayley
  Spec_Bits Spec_Perm Spec_SigPerm Spec_Cayley Proof_Binary Proof_Perm Proof_PermGroup Proof_PermMore Proof_Inversions Proof_Listing
  Proof_SigPerm Proof_SigPermMore Proof_SigPermOps Proof_SetPart Proof_Misc.
From Verif Require Proof_EcClass Proof_Helpers Proof_MinRepCoset Proof_ClanReorder Proof_Numbers.
Import ListNotations.
Open Scope nat_scope.
Open Scope bool_scope.

Lemma signed_ids_In n m k : In (m, k) (signed_ids n) <-> m < 2 ^ n /\ k < fact n.
Proof. unfold signed_ids. rewrite in_prod_iff, !range_In. reflexivity. Qed.

Lemma listed_perm n r : r < fact n -> Permutation (map (listed n r) (range n)) (range n).
Proof.
  intro Hr. destruct (rev_colex_nth n r Hr) as [P _]. assert (L : length (nth r (rev_colex_perms n) []) = n) by (rewrite (Permutation_length P); apply range_length).
  replace (map (listed n r) (range n)) with (nth r (rev_colex_perms n) []); [exact P|].
  apply nth_ext with (d := 0) (d' := 0); [rewrite map_length, range_length; exact L|]. intros x Hx. rewrite L in Hx.
  rewrite nth_map_range by exact Hx. reflexivity.
Qed.
Lemma listed_lt n r x : r < fact n -> x < n -> listed n r x < n.
Proof. intros Hr Hx. apply range_In. eapply Permutation_in; [apply (listed_perm n r Hr)|]. apply in_map, range_In, Hx. Qed.
Lemma listed_onto n r y : r < fact n -> y < n -> exists x, x < n /\ listed n r x = y.
Proof.
  intros Hr Hy. assert (H : In y (map (listed n r) (range n))) by (eapply Permutation_in; [symmetry; apply (listed_perm n r Hr)|]; apply range_In, Hy).
  apply in_map_iff in H as (x & E & Hx). exists x. split; [apply range_In, Hx | exact E].
Qed.
Lemma listed_inj n r r' : r < fact n -> r' < fact n -> (forall x, x < n -> listed n r x = listed n r' x) -> r = r'.
Proof.
  intros Hr Hr' H. apply (Proof_MinRepCoset.act_inj r r' n Hr Hr'). intros x Hx. rewrite <- !(Proof_EcClass.colex_act n) by assumption. apply H, Hx.
Qed.

Lemma small_bit m n x : m < 2 ^ n -> n <= x -> Nat.testbit m x = false.
Proof. intros Hm Hx. apply testbit_high. eapply Nat.lt_le_trans; [exact Hm|]. apply Nat.pow_le_mono_r; lia. Qed.

(** the object with the number *)
Definition rep (n : nat) (id : nat * nat) (s : sigperm) : Prop :=
  swf s /\ tight s /\ (forall x, n <= x -> sf s x = Z.of_nat x) /\
  forall x, x < n -> sf s x = lit (listed n (snd id) x) (Nat.testbit (fst id) (listed n (snd id) x)).

Lemma id_sig n id : In id (signed_ids n) -> exists s, id_sigperm n id = Ok s /\ rep n id s.
Proof.
  destruct id as [m r]. intro H. apply signed_ids_In in H as [Hm Hr]. unfold id_sigperm. rewrite Proof_EcClass.colex_perms. cbn [bind fst snd].
  change (mapM (fun k => Binv_intval k None) (range (2 ^ n))) with (mapM (fun k => Binv None (Some (Z.of_nat k)) None None None) (range (2 ^ n))).
  rewrite Proof_EcClass.min_binvs. cbn [bind].
  unfold lget. rewrite nth_error_map. rewrite (nth_error_nth' (range (2 ^ n)) 0) by (rewrite range_length; exact Hm). cbn [option_map].
  rewrite nth_range by exact Hm. destruct (Proof_EcClass.colex_perms_at n r Hr) as (q & Hq). assert (K := Hq). apply enumerate_In in K. rewrite K. cbn [bind].
  destruct (Proof_EcClass.colex_perms_In n r q Hq) as (_ & W & O & N & A & Hi & _).
  destruct (Binv_int_min m) as (v & Ev & Hv & Hl).
  assert (Emv : Proof_EcClass.min_binv_of m = v). { unfold Proof_EcClass.min_binv_of. change (Binv None (Some (Z.of_nat m)) None None None) with (Binv_intval m None). rewrite Ev. reflexivity. }
  rewrite Emv. exists (sig_finish v q). split; [reflexivity|].
  destruct (sig_finish_spec v q W N) as [Hs [Hb Ht]].
  assert (F : forall x, sf (sig_finish v q) x = lit (pget q x) (Nat.testbit m (pget q x))).
  { intro x. unfold sf. cbn [sg_perm sig_finish]. fold (sig_finish v q). rewrite Hb, (intval_bits v _ Hv). reflexivity. }
  split; [exact Hs|]. split; [apply Ht; assert (H := binary_length_required v m Hv Hl); lia|]. split.
  - intros x Hx. rewrite F, Hi by exact Hx. rewrite (small_bit m n x) by assumption. reflexivity.
  - intros x Hx. rewrite F, A by exact Hx. cbn [fst snd]. unfold listed. rewrite <- (Proof_EcClass.colex_act n r x Hr Hx). reflexivity.
Qed.

Lemma literal_eq y z : atom y = atom z -> negated y = negated z -> y = z.
Proof. intros H1 H2. rewrite <- (lit_of y), <- (lit_of z), H1, H2. reflexivity. Qed.

Lemma rep_atom n m r s x : rep n (m, r) s -> x < n -> atom (sf s x) = listed n r x.
Proof. intros (_ & _ & _ & F) Hx. rewrite F by exact Hx. apply atom_lit. Qed.
Lemma rep_negated n m r s x : rep n (m, r) s -> x < n -> negated (sf s x) = Nat.testbit m (listed n r x).
Proof. intros (_ & _ & _ & F) Hx. rewrite F by exact Hx. apply negated_lit. Qed.

(** numbers of equal objects are equal *)
Lemma rep_inj n a b s t : In a (signed_ids n) -> In b (signed_ids n) -> rep n a s -> rep n b t -> (forall k, k < n -> sf s k = sf t k) -> a = b.
Proof.
  destruct a as [m r], b as [m' r']. intros Ha Hb Rs Rt H. apply signed_ids_In in Ha as [Hm Hr]. apply signed_ids_In in Hb as [Hm' Hr'].
  assert (Er : r = r').
  { apply (listed_inj n r r' Hr Hr'). intros x Hx. rewrite <- (rep_atom n m r s x Rs Hx), <- (rep_atom n m' r' t x Rt Hx), H by exact Hx. reflexivity. }
  subst r'. f_equal. apply Nat.bits_inj. intro y. destruct (Nat.lt_ge_cases y n) as [Hy|Hy].
  - destruct (listed_onto n r y Hr Hy) as (x & Hx & <-). rewrite <- (rep_negated n m r s x Rs Hx), <- (rep_negated n m' r t x Rt Hx), H by exact Hx. reflexivity.
  - rewrite (small_bit m n y), (small_bit m' n y) by assumption. reflexivity.
Qed.

(** every signed permutation of the first n atoms has a number *)
Lemma rep_onto n c : swf c -> (forall k, n <= k -> sf c k = Z.of_nat k) ->
  exists p, In p (signed_ids n) /\ forall s, rep n p s -> forall k, sf s k = sf c k.
Proof.
  intros Hc Hi. assert (L : sg_length c <= n) by (apply length_least; assumption).
  set (l := map (fun x => atom (sf c x)) (range n)).
  assert (P : Permutation l (range n)).
  { apply NoDup_Permutation_bis.
    - apply Proof_Helpers.NoDup_map_inj; [apply range_NoDup|]. intros x y _ _ E. rewrite !sf_atom in E. apply (proj1 (s_bij c Hc)) in E. exact E.
    - unfold l. rewrite map_length. apply le_n.
    - intros y Hy. apply in_map_iff in Hy as (x & <- & Hx). apply range_In. apply range_In in Hx. apply sf_stays; assumption. }
  apply rev_colex_complete in P. apply (In_nth _ _ []) in P as (r & Hr & Er). rewrite rev_colex_length in Hr.
  exists (binv_intval (sg_binv c), r).
  assert (Hbit : forall k, Nat.testbit (binv_intval (sg_binv c)) k = sbit c k) by (intro k; rewrite binv_intval_eq, testbit_b2n; reflexivity).
  split.
  - apply signed_ids_In. split; [|exact Hr]. apply bits_lt_pow. intros i Hn. rewrite Hbit.
    assert (E := sf_negated c i). rewrite <- sf_atom, Hi, atom_nat, negated_nat in E by exact Hn. symmetry. exact E.
  - intros s (_ & _ & Si & Sf) k. destruct (Nat.lt_ge_cases k n) as [Hk|Hk]; [|rewrite Si, Hi by exact Hk; reflexivity].
    rewrite Sf by exact Hk. cbn [fst snd]. unfold listed. rewrite Er. unfold l. rewrite (nth_map_range (fun x => atom (sf c x))) by exact Hk.
    rewrite Hbit, sf_atom, <- sf_negated, <- sf_atom. apply lit_of.
Qed.

(** the product of the numbers is that of the objects *)
Lemma on_atom f z : atom (on_literals f z) = atom (f (atom z)).
Proof. unfold on_literals. destruct (negated z); [apply atom_neg | reflexivity]. Qed.
Lemma on_negated f z : negated (on_literals f z) = xorb (negated z) (negated (f (atom z))).
Proof. unfold on_literals. destruct (negated z); [rewrite negated_neg|]; destruct (negated (f (atom z))); reflexivity. Qed.

Lemma product_iff n a b p s t u : In a (signed_ids n) -> In b (signed_ids n) -> In p (signed_ids n) -> rep n a s -> rep n b t -> rep n p u ->
  (signed_product n a b p <-> forall k, sf u k = on_literals (sf s) (sf t k)).
Proof.
  destruct a as [am ar], b as [bm br], p as [pm pr]. intros Ha Hb Hp Rs Rt Ru.
  apply signed_ids_In in Ha as [Ham Har]. apply signed_ids_In in Hb as [Hbm Hbr]. apply signed_ids_In in Hp as [Hpm Hpr].
  unfold signed_product, perm_product. cbn [fst snd].
  assert (At : forall x, x < n -> atom (on_literals (sf s) (sf t x)) = listed n ar (listed n br x)).
  { intros x Hx. rewrite on_atom, (rep_atom n bm br t x Rt Hx). apply (rep_atom n am ar s _ Rs). apply listed_lt; assumption. }
  assert (Ng : forall x, x < n -> negated (on_literals (sf s) (sf t x)) = xorb (Nat.testbit bm (listed n br x)) (Nat.testbit am (listed n ar (listed n br x)))).
  { intros x Hx. rewrite on_negated, (rep_atom n bm br t x Rt Hx), (rep_negated n bm br t x Rt Hx). cbn [fst snd]. f_equal. apply (rep_negated n am ar s _ Rs). apply listed_lt; assumption. }
  split.
  - intros (_ & (_ & Hl) & Hm) k. destruct (Nat.lt_ge_cases k n) as [Hk|Hk].
    + apply literal_eq; [rewrite At, (rep_atom n pm pr u k Ru) by exact Hk; apply Hl, Hk|].
      rewrite Ng, (rep_negated n pm pr u k Ru) by exact Hk. cbn [fst snd]. rewrite Hm, <- Hl by exact Hk. apply xorb_comm.
    + destruct Rs as (_ & _ & Is & _). destruct Rt as (_ & _ & It & _). destruct Ru as (_ & _ & Iu & _).
      rewrite Iu, It by exact Hk. unfold on_literals. rewrite negated_nat, atom_nat, Is by exact Hk. reflexivity.
  - intro H. assert (Hl : forall x, x < n -> listed n pr x = listed n ar (listed n br x)).
    { intros x Hx. rewrite <- At by exact Hx. rewrite <- H. symmetry. apply (rep_atom n pm pr u x Ru Hx). }
    split; [exact Hpm|]. split; [split; [exact Hpr | exact Hl]|]. intros x Hx. rewrite <- (rep_negated n pm pr u x Ru Hx), H, Ng by exact Hx. rewrite Hl by exact Hx. apply xorb_comm.
Qed.

Lemma product_exists n a b s t : In a (signed_ids n) -> In b (signed_ids n) -> rep n a s -> rep n b t ->
  exists p, In p (signed_ids n) /\ signed_product n a b p.
Proof.
  intros Ha Hb Rs Rt. destruct (mul_spec s t (proj1 Rs) (proj1 Rt)) as (c & _ & Hc & _ & Fc).
  destruct (rep_onto n c Hc) as (p & Hp & Fp).
  { intros k Hk. destruct Rs as (_ & _ & Is & _). destruct Rt as (_ & _ & It & _). rewrite Fc, It by exact Hk. unfold on_literals. rewrite negated_nat, atom_nat, Is by exact Hk. reflexivity. }
  exists p. split; [exact Hp|]. destruct (id_sig n p Hp) as (u & _ & Ru). apply (product_iff n a b p s t u); try assumption. intro k. rewrite (Fp u Ru). apply Fc.
Qed.
Lemma product_unique n a b p q : In a (signed_ids n) -> In b (signed_ids n) -> In p (signed_ids n) -> In q (signed_ids n) ->
  signed_product n a b p -> signed_product n a b q -> p = q.
Proof.
  intros Ha Hb Hp Hq Pp Pq. destruct (id_sig n a Ha) as (s & _ & Rs). destruct (id_sig n b Hb) as (t & _ & Rt). destruct (id_sig n p Hp) as (u & _ & Ru). destruct (id_sig n q Hq) as (v & _ & Rv).
  apply (rep_inj n p q u v Hp Hq Ru Rv). intros k _.
  rewrite (proj1 (product_iff n a b p s t u Ha Hb Hp Rs Rt Ru) Pp), (proj1 (product_iff n a b q s t v Ha Hb Hq Rs Rt Rv) Pq). reflexivity.
Qed.

(** * Dictionaries and tables *)

Lemma npair_eqb_ok a b : npair_eqb a b = true <-> a = b.
Proof. destruct a, b. unfold npair_eqb. cbn [fst snd]. rewrite andb_true_iff, !Nat.eqb_eq. split; [intros [-> ->]; reflexivity | intro E; injection E; auto]. Qed.

Lemma NoDup_prod {A B} (l : list A) (m : list B) : NoDup l -> NoDup m -> NoDup (list_prod l m).
Proof.
  intros Hl Hm. induction Hl as [|x l Hx Hl IH]; cbn [list_prod]; [constructor|]. apply Proof_Numbers.NoDup_app3; [|exact IH|].
  - apply Proof_Helpers.NoDup_map_inj; [exact Hm|]. intros a b _ _ E. injection E; auto.
  - intros [a b] H1 H2. apply in_map_iff in H1 as (y & E & _). injection E as <- _. apply in_prod_iff in H2. apply Hx, H2.
Qed.
Lemma signed_ids_NoDup n : NoDup (signed_ids n).
Proof. apply NoDup_prod; apply range_NoDup. Qed.

Lemma id_dict_ok {V} (veqb : V -> V -> bool) value n (F : nat * nat -> V) :
  (forall id, In id (signed_ids n) -> (let* s := id_sigperm n id in value s) = Ok (F id)) ->
  (forall a b, In a (signed_ids n) -> In b (signed_ids n) -> veqb (F a) (F b) = true -> a = b) ->
  id_dict veqb value n = Ok (map (fun id => (id, F id)) (signed_ids n)).
Proof.
  intros HF HI. unfold id_dict.
  assert (G : forall l pre, signed_ids n = pre ++ l ->
    foldM (fun d id => let* sigperm := id_sigperm n id in let* v := value sigperm in bidict_put npair_eqb veqb d id v) l (map (fun id => (id, F id)) pre)
    = Ok (map (fun id => (id, F id)) (pre ++ l))).
  { induction l as [|id l IH]; intros pre E; [rewrite app_nil_r; reflexivity|]. cbn [foldM].
    assert (Hid : In id (signed_ids n)) by (rewrite E; apply in_or_app; right; left; reflexivity).
    assert (K := HF id Hid). destruct (id_sigperm n id) as [s|e]; [|discriminate K]. cbn [bind] in K |- *. rewrite K. cbn [bind].
    assert (N : NoDup (pre ++ id :: l)) by (rewrite <- E; apply signed_ids_NoDup). apply NoDup_remove_2 in N.
    assert (Np : ~ In id pre) by (intro H; apply N; apply in_or_app; left; exact H).
    unfold bidict_put. destruct (find _ _) as [kv|] eqn:Ef.
    - exfalso. apply find_some in Ef as [I Eq]. apply in_map_iff in I as (id' & <- & I). cbn [snd] in Eq. apply HI in Eq; [subst id'; contradiction | rewrite E; apply in_or_app; left; exact I | exact Hid].
    - rewrite (Proof_ClanReorder.store_new npair_eqb npair_eqb_ok) by (rewrite map_map, map_id; exact Np). cbn [bind].
      assert (Q := IH (pre ++ [id])). rewrite <- app_assoc in Q. specialize (Q E). rewrite map_app in Q. exact Q. }
  exact (G (signed_ids n) [] eq_refl).
Qed.

Lemma inverse_ok {K V} (veqb : V -> V -> bool) (d : list (K * V)) v p w :
  In (p, w) d -> veqb w v = true -> (forall q u, In (q, u) d -> veqb u v = true -> q = p) -> bidict_inverse veqb d v = Ok p.
Proof.
  intros I E H. unfold bidict_inverse. destruct (find _ d) as [[q u]|] eqn:Ef.
  - apply find_some in Ef as [Iq Eq]. cbn [fst snd] in *. f_equal. apply (H q u); assumption.
  - apply find_none with (x := (p, w)) in Ef; [|exact I]. cbn [snd] in Ef. congruence.
Qed.

Lemma mapM_rel {A B} (f : A -> res B) (R : A -> B -> Prop) l : (forall x, In x l -> exists y, f x = Ok y /\ R x y) -> exists ys, mapM f l = Ok ys /\ Forall2 R l ys.
Proof.
  induction l as [|x l IH]; intro H; [exists []; split; [reflexivity | constructor]|].
  destruct (H x (or_introl eq_refl)) as (y & E & Hy). destruct IH as (ys & Es & Hs); [intros z Hz; apply H; right; exact Hz|].
  exists (y :: ys). cbn [mapM]. rewrite E. cbn [bind]. rewrite Es. split; [reflexivity | constructor; assumption].
Qed.

(** the table of the products of the numbers *)
Definition signed_table (n : nat) (T : list (((nat * nat) * (nat * nat)) * (nat * nat))) : Prop :=
  map fst T = list_prod (signed_ids n) (signed_ids n) /\
  forall a b p, In ((a, b), p) T -> In a (signed_ids n) /\ In b (signed_ids n) /\ In p (signed_ids n) /\ signed_product n a b p.

Lemma signed_table_unique n T U : signed_table n T -> signed_table n U -> T = U.
Proof.
  intros [ET HT] [EU HU]. rewrite <- ET in EU. clear ET. revert U EU HU. induction T as [|[[a b] p] T IH]; intros [|[[a' b'] p'] U] EU HU; try discriminate EU; [reflexivity|].
  cbn [map fst] in EU. injection EU as -> -> EU. f_equal.
  - f_equal. destruct (HT a b p (or_introl eq_refl)) as (Ha & Hb & Hp & P). destruct (HU a b p' (or_introl eq_refl)) as (_ & _ & Hp' & P'). exact (product_unique n a b p p' Ha Hb Hp Hp' P P').
  - apply IH; [intros; apply HT; right; assumption | exact EU | intros; apply HU; right; assumption].
Qed.

Lemma list_prod_map {A B} (f : A -> B) l m : list_prod (map f l) (map f m) = map (fun ab => (f (fst ab), f (snd ab))) (list_prod l m).
Proof.
  induction l as [|x l IH]; [reflexivity|]. cbn [map list_prod]. rewrite map_app, IH. f_equal. rewrite !map_map. reflexivity.
Qed.

Lemma table_ok {V} (veqb : V -> V -> bool) mul n (F : nat * nat -> V) :
  (forall a b, In a (signed_ids n) -> In b (signed_ids n) ->
    exists v p, mul (F a) (F b) = Ok v /\ In p (signed_ids n) /\ signed_product n a b p /\ forall q, In q (signed_ids n) -> (veqb (F q) v = true <-> q = p)) ->
  exists T, cayley_table veqb mul (map (fun id => (id, F id)) (signed_ids n)) = Ok T /\ signed_table n T.
Proof.
  intro H. unfold cayley_table. set (d := map (fun id => (id, F id)) (signed_ids n)).
  destruct (mapM_rel (fun ab : ((nat * nat) * V) * ((nat * nat) * V) => let* p := mul (snd (fst ab)) (snd (snd ab)) in
      let* id_p := bidict_inverse veqb d p in Ok ((fst (fst ab), fst (snd ab)), id_p))
    (fun ab r => fst r = (fst (fst ab), fst (snd ab)) /\ In (snd r) (signed_ids n) /\ signed_product n (fst (fst ab)) (fst (snd ab)) (snd r)) (list_prod d d)) as (T & E & Q).
  - intros [[a va] [b vb]] Hab. apply in_prod_iff in Hab as [Ha Hb]. unfold d in Ha, Hb. apply in_map_iff in Ha as (a' & Ea & Ha). injection Ea as -> <-. apply in_map_iff in Hb as (b' & Eb & Hb). injection Eb as -> <-.
    destruct (H a b Ha Hb) as (v & p & Em & Hp & P & Hq). cbn [fst snd]. rewrite Em. cbn [bind]. rewrite (inverse_ok veqb d v p (F p)).
    + cbn [bind]. eexists. split; [reflexivity|]. cbn [fst snd]. auto.
    + unfold d. apply in_map_iff. exists p. auto.
    + apply Hq; [exact Hp | reflexivity].
    + intros q u I Eq. unfold d in I. apply in_map_iff in I as (q' & Eq' & I). injection Eq' as -> <-. apply Hq; assumption.
  - exists T. split; [exact E|]. unfold d in Q. rewrite list_prod_map in Q. split.
    + clear E. remember (list_prod (signed_ids n) (signed_ids n)) as L eqn:EL. clear EL. revert T Q. induction L as [|[a b] L IH]; intros T Q; inversion Q as [|x y l m Hxy Hlm]; subst; [reflexivity|]. cbn [map]. rewrite IH by exact Hlm. f_equal. cbn [fst snd] in Hxy. apply Hxy.
    + intros a b p Hp. clear E. assert (G : forall L U, Forall2 (fun (ab : ((nat * nat) * V) * ((nat * nat) * V)) (r : ((nat * nat) * (nat * nat)) * (nat * nat)) => fst r = (fst (fst ab), fst (snd ab)) /\ In (snd r) (signed_ids n) /\ signed_product n (fst (fst ab)) (fst (snd ab)) (snd r)) (map (fun ab => ((fst ab, F (fst ab)), (snd ab, F (snd ab)))) L) U ->
        In ((a, b), p) U -> In (a, b) L /\ In p (signed_ids n) /\ signed_product n a b p).
      { induction L as [|[x y] L IH]; intros U HU HI; inversion HU as [|x' y' l m Hxy Hlm]; subst; [destruct HI|]. destruct HI as [->|HI].
        - cbn [fst snd] in Hxy. destruct Hxy as (Exy & Hp' & P). injection Exy as -> ->. split; [left; reflexivity|]. auto.
        - destruct (IH m Hlm HI) as (I & R). split; [right; exact I | exact R]. }
      destruct (G _ _ Q Hp) as (I & R). apply in_prod_iff in I as [Ia Ib]. destruct R as [Rp R]. auto.
Qed.

(** * The three tables *)

Definition the_sig (n : nat) (id : nat * nat) : sigperm :=
  match id_sigperm n id with Ok s => s | Err _ => mkSig (mkPerm true [] None 0) [] 0 end.
Lemma the_sig_ok n id : In id (signed_ids n) -> id_sigperm n id = Ok (the_sig n id) /\ rep n id (the_sig n id).
Proof. intro H. destruct (id_sig n id H) as (s & E & R). unfold the_sig. rewrite E. auto. Qed.

Lemma rep_length n id s : rep n id s -> sg_length s <= n.
Proof. intros (Hs & _ & Hi & _). apply length_least; assumption. Qed.

Lemma sigperm_table n : exists T, cayley_sigperm n = Ok T /\ signed_table n T.
Proof.
  unfold cayley_sigperm. rewrite (id_dict_ok sg_eqb (fun s => Ok s) n (the_sig n)).
  - cbn [bind]. apply table_ok. intros a b Ha Hb. destruct (the_sig_ok n a Ha) as [_ Ra]. destruct (the_sig_ok n b Hb) as [_ Rb].
    destruct (mul_spec _ _ (proj1 Ra) (proj1 Rb)) as (c & Ec & Hc & Tc & Fc). destruct (product_exists n a b _ _ Ha Hb Ra Rb) as (p & Hp & P).
    destruct (the_sig_ok n p Hp) as [_ Rp]. assert (Q := proj1 (product_iff n a b p _ _ _ Ha Hb Hp Ra Rb Rp) P).
    exists c, p. split; [exact Ec|]. split; [exact Hp|]. split; [exact P|]. intros q Hq. destruct (the_sig_ok n q Hq) as [_ Rq]. split.
    + intro E. assert (S := sg_eqb_sound _ _ (proj1 Rq) Hc E). apply (rep_inj n q p _ _ Hq Hp Rq Rp). intros k _. rewrite S, Fc, Q. reflexivity.
    + intros ->. apply sg_eqb_complete; [apply Rp | exact Hc | apply Rp | exact Tc|]. intro k. rewrite Q, Fc. reflexivity.
  - intros id H. rewrite (proj1 (the_sig_ok n id H)). reflexivity.
  - intros a b Ha Hb E. destruct (the_sig_ok n a Ha) as [_ Ra]. destruct (the_sig_ok n b Hb) as [_ Rb]. apply (rep_inj n a b _ _ Ha Hb Ra Rb).
    intros k _. apply sg_eqb_sound; [apply Ra | apply Rb | exact E].
Qed.

Lemma rows_eqb_ok a b : rows_eqb a b = true <-> a = b.
Proof.
  revert b. induction a as [|x a IH]; intros [|y b]; cbn [rows_eqb]; try (split; congruence).
  rewrite andb_true_iff, IH, zlist_eqb_eq. split; [intros [-> ->]; reflexivity | intro E; injection E; auto].
Qed.
Lemma fmat_inj n f g : (forall k, k < n -> atom (f k) < n) -> fmat n f = fmat n g -> forall k, k < n -> f k = g k.
Proof.
  intros Hf E k Hk. assert (H : mat_entry (fmat n f) (atom (f k)) k = mat_entry (fmat n g) (atom (f k)) k) by (rewrite E; reflexivity).
  unfold fmat in H. rewrite !mkmat_entry in H by auto. rewrite Nat.eqb_refl in H. unfold sgn in H.
  destruct (Nat.eqb_spec (atom (g k)) (atom (f k))) as [Ea|_]; [|destruct (negated (f k)); discriminate H].
  apply literal_eq; [symmetry; exact Ea|]. destruct (negated (f k)), (negated (g k)); try reflexivity; discriminate H.
Qed.
Lemma fmat_ext n f g : (forall k, k < n -> f k = g k) -> fmat n f = fmat n g.
Proof. intro H. unfold fmat. apply mkmat_ext. intros i j _ Hj. rewrite H by exact Hj. reflexivity. Qed.

Lemma rep_below n id s k : rep n id s -> k < n -> atom (sf s k) < n.
Proof. intros R Hk. apply sf_stays; [apply R | eapply rep_length; exact R | exact Hk]. Qed.

Lemma matrix_table n : exists T, cayley_matrix n = Ok T /\ signed_table n T.
Proof.
  unfold cayley_matrix. rewrite (id_dict_ok rows_eqb (fun s => sg_matrix s (Some n)) n (fun id => fmat n (sf (the_sig n id)))).
  - cbn [bind]. apply table_ok. intros a b Ha Hb. destruct (the_sig_ok n a Ha) as [_ Ra]. destruct (the_sig_ok n b Hb) as [_ Rb].
    destruct (product_exists n a b _ _ Ha Hb Ra Rb) as (p & Hp & P).
    destruct (the_sig_ok n p Hp) as [_ Rp]. assert (Q := proj1 (product_iff n a b p _ _ _ Ha Hb Hp Ra Rb Rp) P).
    eexists. exists p. split; [reflexivity|]. split; [exact Hp|]. split; [exact P|]. intros q Hq. destruct (the_sig_ok n q Hq) as [_ Rq].
    rewrite mat_dot_ok by (intros k Hk; eapply rep_below; [exact Rb | exact Hk]).
    rewrite (fmat_ext n (fun k => on_literals (sf (the_sig n a)) (sf (the_sig n b) k)) (sf (the_sig n p))) by (intros k _; symmetry; apply Q). rewrite rows_eqb_ok. split; [|intros ->; reflexivity].
    intro E. apply (rep_inj n q p _ _ Hq Hp Rq Rp). apply fmat_inj; [|exact E]. intros k Hk. eapply rep_below; [exact Rq | exact Hk].
  - intros id H. destruct (the_sig_ok n id H) as [-> R]. cbn [bind]. apply matrix_ok; [apply R | eapply rep_length; exact R].
  - intros a b Ha Hb E. destruct (the_sig_ok n a Ha) as [_ Ra]. destruct (the_sig_ok n b Hb) as [_ Rb]. apply rows_eqb_ok in E. apply (rep_inj n a b _ _ Ha Hb Ra Rb).
    apply fmat_inj; [|exact E]. intros k Hk. eapply rep_below; [exact Ra | exact Hk].
Qed.

Definition the_cvp (n : nat) (id : nat * nat) : perm := match sg_schoute (the_sig n id) with Ok p => p | Err _ => mkPerm true [] None 0 end.
Lemma the_cvp_ok n id : In id (signed_ids n) -> sg_schoute (the_sig n id) = Ok (the_cvp n id) /\ is_Perm (the_cvp n id) /\
  (neutral (the_cvp n id) = true \/ perilen (the_cvp n id) <> None) /\ digits (the_cvp n id) (sf (the_sig n id)).
Proof. intro H. destruct (the_sig_ok n id H) as [_ R]. destruct (sg_schoute_spec _ (proj1 R)) as (P & E & HP & K & _ & _ & D). unfold the_cvp. rewrite E. auto. Qed.

Lemma digits_inj P Q s t : swf s -> swf t -> digits P (sf s) -> digits Q (sf t) -> (forall x, pget P x = pget Q x) -> forall k, sf s k = sf t k.
Proof.
  intros Hs Ht DP DQ E k. destruct (proj2 (s_bij s Hs) (atom (sf t k))) as (i & Hi). rewrite <- sf_atom in Hi.
  assert (H : forall x, xorb (negated (sf s i)) (Nat.testbit x i) = xorb (negated (sf t k)) (Nat.testbit x k)) by (intro x; rewrite <- DP, <- DQ, Hi, E; reflexivity).
  assert (H0 := H 0). rewrite !Nat.bits_0, !xorb_false_r in H0. assert (H1 := H (2 ^ k)). rewrite H0, !Nat.pow2_bits_eqb, Nat.eqb_refl in H1.
  destruct (Nat.eqb_spec k i) as [->|N]; [apply literal_eq; assumption|]. destruct (negated (sf t k)); discriminate H1.
Qed.
Lemma digits_ext P Q s f : swf s -> digits P (sf s) -> digits Q f -> (forall k, sf s k = f k) -> forall x, pget P x = pget Q x.
Proof.
  intros Hs DP DQ E x. apply Nat.bits_inj. intro j. destruct (proj2 (s_bij s Hs) j) as (i & <-). rewrite <- sf_atom, DP, E, DQ. reflexivity.
Qed.

Lemma cvp_table n : exists T, cayley_cvp n = Ok T /\ signed_table n T.
Proof.
  unfold cayley_cvp. rewrite (id_dict_ok perm_eqb sg_schoute n (the_cvp n)).
  - cbn [bind]. apply table_ok. intros a b Ha Hb. destruct (the_sig_ok n a Ha) as [_ Ra]. destruct (the_sig_ok n b Hb) as [_ Rb].
    destruct (the_cvp_ok n a Ha) as (_ & Oa & Ka & Da). destruct (the_cvp_ok n b Hb) as (_ & Ob & Kb & Db).
    destruct (product_exists n a b _ _ Ha Hb Ra Rb) as (p & Hp & P). destruct (the_sig_ok n p Hp) as [_ Rp]. destruct (the_cvp_ok n p Hp) as (_ & Op & _ & Dp).
    assert (Q := proj1 (product_iff n a b p _ _ _ Ha Hb Hp Ra Rb Rp) P).
    destruct (mul_ok _ _ Oa Ob) as (c & Ec & Oc & Gc & _); [destruct Ka as [Ka|Ka]; [auto|]; destruct Kb as [Kb|Kb]; [auto|]; right; right; tauto|].
    exists c, p. split; [exact Ec|]. split; [exact Hp|]. split; [exact P|].
    assert (Ep : forall x, pget (the_cvp n p) x = pget c x).
    { apply (digits_ext _ c (the_sig n p) (fun k => on_literals (sf (the_sig n a)) (sf (the_sig n b) k)) (proj1 Rp) Dp); [|exact Q].
      intros x i. rewrite Gc, on_atom, Da, Db, on_negated. destruct (negated (sf (the_sig n a) _)), (negated (sf (the_sig n b) i)), (Nat.testbit x i); reflexivity. }
    intros q Hq. destruct (the_sig_ok n q Hq) as [_ Rq]. destruct (the_cvp_ok n q Hq) as (_ & Oq & _ & Dq).
    rewrite (perm_eqb_spec _ _ (is_Perm_wf _ Oq) (is_Perm_wf _ Oc)). split; [|intros ->; exact Ep].
    intro E. apply (rep_inj n q p _ _ Hq Hp Rq Rp). intros k _. apply (digits_inj _ _ _ _ (proj1 Rq) (proj1 Rp) Dq Dp). intro x. rewrite E, Ep. reflexivity.
  - intros id H. rewrite (proj1 (the_sig_ok n id H)). cbn [bind]. apply the_cvp_ok, H.
  - intros a b Ha Hb E. destruct (the_sig_ok n a Ha) as [_ Ra]. destruct (the_sig_ok n b Hb) as [_ Rb].
    destruct (the_cvp_ok n a Ha) as (_ & Oa & Ka & Da). destruct (the_cvp_ok n b Hb) as (_ & Ob & Kb & Db).
    apply (rep_inj n a b _ _ Ha Hb Ra Rb). intros k _. apply (digits_inj _ _ _ _ (proj1 Ra) (proj1 Rb) Da Db). apply perm_eqb_spec; [apply is_Perm_wf, Oa | apply is_Perm_wf, Ob | exact E].
Qed.

(** * Group laws of the numbers *)

Lemma on_literals_nat f k : on_literals f (Z.of_nat k) = f k.
Proof. unfold on_literals. rewrite negated_nat, atom_nat. reflexivity. Qed.
Lemma on_literals_assoc f g z : on_literals (fun k => on_literals f (g k)) z = on_literals f (on_literals g z).
Proof. apply literal_eq; [rewrite !on_atom; reflexivity|]. rewrite !on_negated, on_atom. symmetry. apply xorb_assoc_reverse. Qed.
Lemma on_literals_ext f g z : (forall k, f k = g k) -> on_literals f z = on_literals g z.
Proof. intro H. unfold on_literals. rewrite H. reflexivity. Qed.

Lemma divide_right n a p : In a (signed_ids n) -> In p (signed_ids n) -> exists b, In b (signed_ids n) /\ signed_product n a b p.
Proof.
  intros Ha Hp. destruct (id_sig n a Ha) as (s & _ & Rs). destruct (id_sig n p Hp) as (u & _ & Ru).
  destruct (inv_spec s (proj1 Rs)) as (t & _ & Ht & _ & Lt & It & _). destruct (mul_spec t u Ht (proj1 Ru)) as (c & _ & Hc & _ & Fc).
  destruct (rep_onto n c Hc) as (b & Hb & Fb).
  { intros k Hk. rewrite Fc. destruct Ru as (_ & _ & Iu & _). rewrite Iu, on_literals_nat by exact Hk. apply sf_high; [exact Ht|]. rewrite Lt. assert (L := rep_length n a s Rs). lia. }
  exists b. split; [exact Hb|]. destruct (id_sig n b Hb) as (v & _ & Rv). apply (product_iff n a b p s v u); try assumption. intro k. rewrite (Fb v Rv), Fc, <- on_literals_assoc.
  rewrite (on_literals_ext _ Z.of_nat) by exact It. symmetry. apply literal_eq; [rewrite on_atom; apply atom_nat | rewrite on_negated, negated_nat; apply xorb_false_r].
Qed.
Lemma divide_left n a p : In a (signed_ids n) -> In p (signed_ids n) -> exists b, In b (signed_ids n) /\ signed_product n b a p.
Proof.
  intros Ha Hp. destruct (id_sig n a Ha) as (s & _ & Rs). destruct (id_sig n p Hp) as (u & _ & Ru).
  destruct (inv_spec s (proj1 Rs)) as (t & _ & Ht & _ & Lt & _ & It & _). destruct (mul_spec u t (proj1 Ru) Ht) as (c & _ & Hc & _ & Fc).
  destruct (rep_onto n c Hc) as (b & Hb & Fb).
  { intros k Hk. rewrite Fc. assert (L := rep_length n a s Rs). rewrite (sf_high t Ht) by lia. rewrite on_literals_nat. apply Ru, Hk. }
  exists b. split; [exact Hb|]. destruct (id_sig n b Hb) as (v & _ & Rv). apply (product_iff n b a p v s u); try assumption. intro k.
  rewrite (on_literals_ext _ (fun k => on_literals (sf u) (sf t k))) by (intro j; rewrite (Fb v Rv); apply Fc). rewrite on_literals_assoc, It, on_literals_nat. reflexivity.
Qed.
Lemma cancel_right n a b c p : In a (signed_ids n) -> In b (signed_ids n) -> In c (signed_ids n) -> In p (signed_ids n) ->
  signed_product n a b p -> signed_product n a c p -> b = c.
Proof.
  intros Ha Hb Hc Hp P Q. destruct (id_sig n a Ha) as (s & _ & Rs). destruct (id_sig n b Hb) as (t & _ & Rt). destruct (id_sig n c Hc) as (t' & _ & Rt'). destruct (id_sig n p Hp) as (u & _ & Ru).
  assert (E := proj1 (product_iff n a b p s t u Ha Hb Hp Rs Rt Ru) P). assert (E' := proj1 (product_iff n a c p s t' u Ha Hc Hp Rs Rt' Ru) Q).
  apply (rep_inj n b c t t' Hb Hc Rt Rt'). intros k _. destruct (inv_spec s (proj1 Rs)) as (i & _ & _ & _ & _ & _ & Ii & _).
  assert (G : forall z, on_literals (sf i) (on_literals (sf s) z) = z).
  { intro z. rewrite <- on_literals_assoc, (on_literals_ext _ Z.of_nat) by exact Ii. apply literal_eq; [rewrite on_atom; apply atom_nat | rewrite on_negated, negated_nat; apply xorb_false_r]. }
  rewrite <- (G (sf t k)), <- E, E', G. reflexivity.
Qed.
Lemma cancel_left n a b c p : In a (signed_ids n) -> In b (signed_ids n) -> In c (signed_ids n) -> In p (signed_ids n) ->
  signed_product n b a p -> signed_product n c a p -> b = c.
Proof.
  intros Ha Hb Hc Hp P Q. destruct (id_sig n a Ha) as (s & _ & Rs). destruct (id_sig n b Hb) as (t & _ & Rt). destruct (id_sig n c Hc) as (t' & _ & Rt'). destruct (id_sig n p Hp) as (u & _ & Ru).
  assert (E := proj1 (product_iff n b a p t s u Hb Ha Hp Rt Rs Ru) P). assert (E' := proj1 (product_iff n c a p t' s u Hc Ha Hp Rt' Rs Ru) Q).
  apply (rep_inj n b c t t' Hb Hc Rt Rt'). intros k _. destruct (inv_spec s (proj1 Rs)) as (i & _ & _ & _ & _ & Ii & _ & _).
  assert (G : forall f, on_literals (fun k => on_literals f (sf s k)) (sf i k) = f k) by (intro f; rewrite on_literals_assoc, Ii; apply on_literals_nat).
  rewrite <- (G (sf t)), <- (G (sf t')). apply on_literals_ext. intro j. rewrite <- E, E'. reflexivity.
Qed.
Lemma products_assoc n a b c d e f : In a (signed_ids n) -> In b (signed_ids n) -> In c (signed_ids n) -> In d (signed_ids n) -> In e (signed_ids n) -> In f (signed_ids n) ->
  signed_product n a b d -> signed_product n d c e -> signed_product n b c f -> signed_product n a f e.
Proof.
  intros Ha Hb Hc Hd He Hf P Q R.
  destruct (id_sig n a Ha) as (sa & _ & Ra). destruct (id_sig n b Hb) as (sb & _ & Rb). destruct (id_sig n c Hc) as (sc & _ & Rc). destruct (id_sig n d Hd) as (sd & _ & Rd). destruct (id_sig n e He) as (se & _ & Re). destruct (id_sig n f Hf) as (sf' & _ & Rf).
  apply (product_iff n a f e sa sf' se); try assumption. intro k.
  rewrite (proj1 (product_iff n d c e sd sc se Hd Hc He Rd Rc Re) Q), (proj1 (product_iff n b c f sb sc sf' Hb Hc Hf Rb Rc Rf) R), <- on_literals_assoc.
  apply on_literals_ext. intro j. apply (product_iff n a b d sa sb sd); assumption.
Qed.

(** * The table of the unsigned permutations *)

Lemma listed_product n a b : a < fact n -> b < fact n -> exists p, perm_product n a b p.
Proof.
  intros Ha Hb. assert (P : Permutation (map (fun x => listed n a (listed n b x)) (range n)) (range n)).
  { rewrite <- (map_map (listed n b) (listed n a)). rewrite (Permutation_map (listed n a) (listed_perm n b Hb)). apply listed_perm, Ha. }
  apply rev_colex_complete in P. apply (In_nth _ _ []) in P as (r & Hr & Er). rewrite rev_colex_length in Hr. exists r. split; [exact Hr|].
  intros x Hx. unfold listed at 1. rewrite Er. apply (nth_map_range (fun x => listed n a (listed n b x))), Hx.
Qed.
Lemma listed_product_unique n a b p q : perm_product n a b p -> perm_product n a b q -> p = q.
Proof. intros [Hp P] [Hq Q]. apply (listed_inj n p q Hp Hq). intros x Hx. rewrite P, Q by exact Hx. reflexivity. Qed.

Lemma position_ok l c k : (exists q, nth_error l k = Some q /\ perm_eqb q c = true) -> (forall j q, nth_error l j = Some q -> perm_eqb q c = true -> j = k) -> perm_position l c = Ok k.
Proof.
  revert k. induction l as [|q l IH]; intros k (w & Hw & E) U; [destruct k; discriminate Hw|]. cbn [perm_position].
  destruct (perm_eqb q c) eqn:Eq; [f_equal; apply (U 0 q eq_refl Eq)|]. destruct k as [|k]; [injection Hw as ->; congruence|].
  rewrite (IH k); [reflexivity | exists w; split; [exact Hw | exact E]|]. intros j x Hj Ex. assert (K := U (S j) x Hj Ex). lia.
Qed.

Lemma perm_table n : exists T, cayley_perm n = Ok T /\ map fst T = list_prod (range (fact n)) (range (fact n)) /\
  forall a b p, In ((a, b), p) T -> perm_product n a b p.
Proof.
  unfold cayley_perm. rewrite Proof_EcClass.colex_perms. cbn [bind]. rewrite map_length, rev_colex_length. set (ps := map Proof_EcClass.perm_of (rev_colex_perms n)).
  assert (At : forall r, r < fact n -> exists q, nth_error ps r = Some q /\ is_Perm q /\ perilen q = None /\ (forall x, x < n -> pget q x = listed n r x) /\ forall x, n <= x -> pget q x = x).
  { intros r Hr. destruct (Proof_EcClass.colex_perms_at n r Hr) as (q & Hq). exists q. split; [apply enumerate_In, Hq|].
    destruct (Proof_EcClass.colex_perms_In n r q Hq) as (_ & _ & O & N & A & Hi & _). split; [exact O|]. split; [exact N|]. split; [|exact Hi].
    intros x Hx. rewrite A by exact Hx. symmetry. apply (Proof_EcClass.colex_act n r x Hr Hx). }
  destruct (mapM_rel (fun ab : nat * nat => let* perm_a := lget ps (fst ab) in let* perm_b := lget ps (snd ab) in
      let* perm_ab := pmul perm_a perm_b in let* index_ab := perm_position ps perm_ab in Ok (ab, index_ab))
    (fun ab r => fst r = ab /\ perm_product n (fst ab) (snd ab) (snd r)) (list_prod (range (fact n)) (range (fact n)))) as (T & E & Q).
  - intros [a b] H. apply in_prod_iff in H as [Ha Hb]. apply range_In in Ha, Hb. cbn [fst snd].
    destruct (At a Ha) as (qa & Ea & Oa & Na & Ga & Ia). destruct (At b Hb) as (qb & Eb & Ob & Nb & Gb & Ib). unfold lget. rewrite Ea, Eb. cbn [bind].
    destruct (mul_ok qa qb Oa Ob) as (c & Ec & Oc & Gc & _); [rewrite Na, Nb; tauto|]. rewrite Ec. cbn [bind].
    destruct (listed_product n a b Ha Hb) as (p & Hp & P). destruct (At p Hp) as (qp & Ep & Op & _ & Gp & Ip).
    assert (Epc : forall x, pget qp x = pget c x).
    { intro x. rewrite Gc. destruct (Nat.lt_ge_cases x n) as [Hx|Hx]; [|rewrite Ip, Ib, Ia by exact Hx; reflexivity].
      rewrite Gp, Gb, Ga, P by (try exact Hx; apply listed_lt; assumption). reflexivity. }
    rewrite (position_ok ps c p).
    + cbn [bind]. eexists. split; [reflexivity|]. cbn [fst snd]. split; [reflexivity | split; assumption].
    + exists qp. split; [exact Ep|]. apply perm_eqb_spec; [apply is_Perm_wf, Op | apply is_Perm_wf, Oc | exact Epc].
    + intros j q Hj Eq. assert (Hjn : j < fact n). { rewrite <- (rev_colex_length n), <- (map_length Proof_EcClass.perm_of). apply nth_error_Some. fold ps. congruence. }
      destruct (At j Hjn) as (q' & Eq' & Oq & _ & Gq & _). rewrite Hj in Eq'. injection Eq' as <-. apply (listed_inj n j p Hjn Hp). intros x Hx.
      rewrite <- Gq, <- Gp by exact Hx. rewrite Epc. apply perm_eqb_spec; [apply is_Perm_wf, Oq | apply is_Perm_wf, Oc | exact Eq].
  - exists T. split; [exact E|]. clear E. revert T Q. induction (list_prod (range (fact n)) (range (fact n))) as [|ab L IH]; intros T Q; inversion Q as [|x r l m Hr Hm]; subst; [split; [reflexivity | intros ? ? ? []]|].
    destruct (IH m Hm) as [E1 E2]. destruct Hr as [Er P]. split; [cbn [map]; rewrite E1, Er; reflexivity|]. intros a b p [->|H]; [cbn [fst snd] in *; subst ab; exact P | apply E2, H].
Qed.

(** the sign part *)
Lemma sign_part n am ar bm br p s P : In (am, ar) (signed_ids n) -> In (bm, br) (signed_ids n) -> In p (signed_ids n) -> signed_product n (am, ar) (bm, br) p ->
  rep n (am, ar) s -> digits P (sf s) -> fst p = pget P bm.
Proof.
  destruct p as [pm pr]. intros Ha Hb Hp (_ & (_ & Hl) & Hm) Rs D. cbn [fst snd] in *. apply signed_ids_In in Ha as [Ham Har]. apply signed_ids_In in Hb as [Hbm Hbr]. apply signed_ids_In in Hp as [Hpm Hpr].
  apply Nat.bits_inj. intro y. destruct (Nat.lt_ge_cases y n) as [Hy|Hy].
  - destruct (listed_onto n pr y Hpr Hy) as (x & Hx & <-). rewrite Hm by exact Hx. rewrite Hl by exact Hx.
    assert (Hbx := listed_lt n br x Hbr Hx). rewrite <- (rep_atom n am ar s _ Rs Hbx). rewrite D, (rep_atom n am ar s _ Rs Hbx), (rep_negated n am ar s _ Rs Hbx). reflexivity.
  - rewrite (small_bit pm n y Hpm Hy). destruct Rs as (_ & _ & Is & _). assert (K := D bm y). rewrite Is, atom_nat, negated_nat in K by exact Hy. rewrite K, (small_bit bm n y Hbm Hy). reflexivity.
Qed.
