(** Props_LoopHyper: property C113, the cores that are added to a collection of segments. *)

From Coq Require Import List Arith ZArith Bool Lia Permutation Sorted.
From Verif Require Import Model_Base Lib Model_Binary Model_Splits Model_Perm Model_SetPart Model_Boolf Model_Blight Model_Segments Model_Hyper Model_LoopHyper.
From Verif Require Import Spec_SetPart Spec_Bits Spec_Boolf Spec_Splits Spec_Blight Spec_Segments Spec_Hyper Proof_SetPart Proof_Binary Proof_Boolf Proof_BoolfTable Proof_BoolfMake Proof_Splits Proof_Segments Proof_Blight Proof_Gapless Props_Boolf Props_Args Props_Segments Props_Blight Props_Hyper.
Import ListNotations.
Open Scope nat_scope.

(** [u] is the only possible core for the independent atoms with these keys: a cube that is
    crossed by exactly these atoms, and each other atom has a border that fixes its side *)
Definition forced (f : boolf) (keys : list nat) (u : list Z) : Prop :=
  keys <> [] /\ key_set f (length keys) keys /\ shattered f keys /\ ternary (valency f) u /\
  (forall k, In k keys -> nth k u 0%Z = 0%Z) /\
  forall k, k < valency f -> ~ In k keys -> exists j q, In j keys /\ border_at f j k q /\ nth k u 0%Z = sg q.

(** the true places, and those in the forced cores *)
Definition reached (f : boolf) (n : nat) : Prop := full f n \/ exists keys u, forced f keys u /\ in_cube u n.

(** * Proofs *)

Lemma spots_again f spots : made false f -> NoDup spots -> (forall n, In n spots <-> full f n) ->
  Boolf 1 (spots_args spots (atomvals f)) = Ok f.
Proof.
  intros M Nd Hs. assert (R := m_red f M). assert (F := proj1 R). destruct F as [Ha Hl].
  change (Boolf 1 (spots_args spots (atomvals f))) with (let* r := (let* f0 := subinit_fs (map Z.of_nat spots) (Some (map Z.of_nat (atomvals f))) None true in Ok (Some f0)) in match r with Some f0 => Ok f0 | None => Boolf 0 (spots_args spots (atomvals f)) end).
  enough (E : subinit_fs (map Z.of_nat spots) (Some (map Z.of_nat (atomvals f))) None true = Ok f) by (rewrite E; reflexivity).
  assert (B : forall n, In n spots -> n < 2 ^ length (atomvals f)) by (intros n Hn; apply (place_bound f n (proj1 R)), Hs, Hn).
  unfold subinit_fs. cbn [have xorb true_except bind]. destruct spots as [|s ss].
  { cbn [map]. f_equal. apply reduced_unique; [apply set_constant_reduced | exact R|]. intro e. rewrite (proj2 (set_constant_reduced false)). symmetry. apply not_true_iff_false. intro X. apply (proj2 (Hs (b2n (map e (atomvals f))))). exact X. }
  set (spots := s :: ss) in *. change (map Z.of_nat spots) with (Z.of_nat s :: map Z.of_nat ss). cbv iota. cbv zeta. change (Z.of_nat s :: map Z.of_nat ss) with (map Z.of_nat spots).
  destruct (atomvals f) as [|a aa] eqn:Ea.
  { cbn [map]. assert (X : forallb (Z.eqb 0) (map Z.of_nat spots) = true).
    { apply forallb_forall. intros z Hz. apply in_map_iff in Hz as (n & <- & Hn). apply B in Hn. cbn in Hn. replace n with 0 by lia. reflexivity. }
    rewrite X. cbn [true_except bind]. f_equal. apply reduced_unique; [apply set_constant_reduced | exact R|]. intro e. rewrite (proj2 (set_constant_reduced true)). symmetry. unfold sem, table. rewrite Ea. cbn [map b2n].
    assert (Y := B s (or_introl eq_refl)). cbn in Y. assert (Z0 := proj1 (Hs s) (or_introl eq_refl)). unfold full in Z0. replace s with 0 in Z0 by lia. exact Z0. }
  change (map Z.of_nat (a :: aa)) with (Z.of_nat a :: map Z.of_nat aa). cbv iota. change (Z.of_nat a :: map Z.of_nat aa) with (map Z.of_nat (a :: aa)). rewrite map_length. rewrite <- Ea in *.
  destruct (Binv_exposet_len spots (2 ^ length (atomvals f)) B) as (v & Ev & Lv & Nv). unfold Binv_exposet in Ev. rewrite Ev. cbn [bind].
  assert (V : v = root f).
  { apply (nth_ext _ _ false false); [congruence|]. intros n _. rewrite Nv. destruct (nth n (root f) false) eqn:E; [apply memb_In, Hs; exact E|]. apply memb_false. intro X. apply Hs in X. unfold full in X. congruence. }
  subst v. destruct (inflated_ok (root f) (atomvals f) Ha) as (g & Eg & Rg & Ag); [rewrite Ea; discriminate | exact Hl|]. rewrite Eg. f_equal.
  assert (W := tt_inflated_wellmade _ _ _ Eg).
  assert (Sg : forall e, sem g e = sem f e) by (intro e; unfold sem; rewrite Rg, Ag; reflexivity).
  apply reduced_unique; [|exact R | exact Sg]. apply (wellmade_reduced g W). apply not_true_iff_false. intro X. apply (proj1 (proj2 W)) in X as (b & Hb & Nb). apply Nb. rewrite Ag in Hb. apply (proj1 (proj2 R)) in Hb as (e & He). exists e. rewrite !Sg. exact He.
Qed.

Lemma demand_ok P v c u : inv P v c -> ternary v u -> covered P u -> exists c', demand v c u = Ok c' /\ grows P v c c' /\ In u (segs c').
Proof.
  intros I T C. unfold demand. destruct (inquire c u) eqn:E; [exists c; split; [reflexivity|]; split; [apply grows_refl; exact I | apply inquire_In; exact E]|].
  apply add_ok; [exact I | exact T | exact C | intro X; apply inquire_In in X; congruence | lia].
Qed.

(** everything new has its inferior vectors *)
Definition closes (c c' : collection) : Prop :=
  incl (segs c) (segs c') /\
  forall w k x, In w (segs c') -> ~ In w (segs c) -> k < length w -> nth k w 0%Z = 0%Z -> x = (-1)%Z \/ x = 1%Z -> In (lset w k x) (segs c').

Lemma closes_refl c : closes c c.
Proof. split; [apply incl_refl|]. intros; contradiction. Qed.
Lemma closes_trans a b c : closes a b -> closes b c -> closes a c.
Proof.
  intros [I1 C1] [I2 C2]. split; [eapply incl_tran; eassumption|]. intros w k x Hw Hn Hk Hz Hx. destruct (in_segs_dec b w) as [Hb|Hb]; [apply I2, (C1 w k x); assumption | apply (C2 w k x); assumption].
Qed.
Lemma foldM_closes {A} (F : collection -> A -> res collection) l : (forall x c c', In x l -> F c x = Ok c' -> closes c c') ->
  forall c c', foldM F l c = Ok c' -> closes c c'.
Proof.
  induction l as [|x l IH]; intros H c c' E; cbn [foldM] in E; [injection E as <-; apply closes_refl|]. apply bind_inv in E as (c1 & E1 & E2).
  eapply closes_trans; [apply (H x); [left; reflexivity | exact E1] | apply IH; [intros y a b Hy; apply H; right; exact Hy | exact E2]].
Qed.

Lemma add_closes fuel v : forall c w c', add fuel v c w = Ok c' -> closes c c' /\ In w (segs c').
Proof.
  induction fuel as [|fuel IH]; intros c w c' E; [discriminate|]. cbn [add] in E.
  apply guard_inv in E as [_ E]. apply guard_inv in E as [_ E]. apply guard_inv in E as [_ E]. apply bind_inv in E as (n & _ & E).
  set (c1 := mkColl _ _) in E. apply bind_inv in E as (c2 & E1 & E2).
  set (dm := fun c v0 => if inquire c v0 then Ok c else add fuel v c v0) in *.
  assert (D : forall a x b, dm a x = Ok b -> closes a b /\ In x (segs b)).
  { intros a x b. unfold dm. destruct (inquire a x) eqn:Ei; intro Ed; [injection Ed as <-; split; [apply closes_refl | apply inquire_In; exact Ei] | apply IH; exact Ed]. }
  assert (S1 : closes c1 c2).
  { apply (foldM_closes _ _ (fun y a b _ H => foldM_closes dm (snd y) (fun x a b _ H => proj1 (D a x b H)) a b H) _ _ E1). }
  assert (S2 : closes c2 c').
  { refine (foldM_closes _ _ _ _ _ E2). intros y a b _. destruct (inquire a (snd y)); [intro H; apply (D _ _ _ H) | intro H; injection H as <-; apply closes_refl]. }
  assert (S := closes_trans _ _ _ S1 S2). assert (W : In w (segs c1)) by (unfold c1; cbn [segs]; apply in_or_app; right; left; reflexivity).
  split; [|apply (proj1 S); exact W]. split; [intros x Hx; apply (proj1 S); unfold c1; cbn [segs]; apply in_or_app; left; exact Hx|].
  intros u k x Hu Hn Hk Hz Hx. destruct (list_eq_dec Z.eq_dec u w) as [->|Huw].
  - apply (proj1 S2). assert (Ik : In (k, [lset w k (-1)%Z; lset w k 1%Z]) (inferior_vectors w)) by (apply in_map_iff; exists k; split; [reflexivity | apply zero_keys_In; auto]).
    revert E1. generalize c1. generalize (inferior_vectors w) Ik. clear -D Hx. intros l Il. revert Il. induction l as [|y l IHl]; intros Il a E; [destruct Il|]. cbn [foldM] in E. apply bind_inv in E as (b & Eb & E).
    destruct Il as [->|Il]; [|apply (IHl Il b E)].
    apply (proj1 (foldM_closes _ _ (fun y a b _ H => foldM_closes dm (snd y) (fun x a b _ H => proj1 (D a x b H)) a b H) _ _ E)).
    cbn [snd foldM] in Eb. apply bind_inv in Eb as (b1 & Eb1 & Eb). apply bind_inv in Eb as (b2 & Eb2 & Eb). injection Eb as <-.
    destruct Hx as [->| ->]; [apply (proj1 (proj1 (D _ _ _ Eb2))), (D _ _ _ Eb1) | apply (D _ _ _ Eb2)].
  - apply (proj2 S); [exact Hu | | exact Hk | exact Hz | exact Hx]. unfold c1. cbn [segs]. intro X. apply in_app_or in X as [X|[X|[]]]; [contradiction | congruence].
Qed.

Lemma demand_closes v c u c' : demand v c u = Ok c' -> closes c c' /\ In u (segs c').
Proof. unfold demand. destruct (inquire c u) eqn:E; intro H; [injection H as <-; split; [apply closes_refl | apply inquire_In; exact E] | apply (add_closes _ _ _ _ _ H)]. Qed.

(** the loop over cores of which those without a choice have one vector *)
Lemma steps_ok P v L : (forall pc, In pc L -> c_free pc = [] -> exists u, c_vectors pc = [u] /\ ternary v u /\ covered P u) ->
  forall c, inv P v c -> exists c', foldM (core_step v) L c = Ok c' /\ grows P v c c' /\ closes c c' /\
    forall pc u, In pc L -> c_free pc = [] -> In u (c_vectors pc) -> In u (segs c').
Proof.
  induction L as [|pc L IH]; intros H c I; cbn [foldM].
  - exists c. split; [reflexivity|]. split; [apply grows_refl; exact I|]. split; [apply closes_refl | intros ? ? []].
  - assert (St : exists c1, core_step v c pc = Ok c1 /\ grows P v c c1 /\ closes c c1 /\ (c_free pc = [] -> forall u, In u (c_vectors pc) -> In u (segs c1))).
    { unfold core_step. destruct (c_free pc) as [|k ks] eqn:Ef; cbn [nonempty negb].
      - destruct (H pc (or_introl eq_refl) Ef) as (u & Ev & Tu & Cu). rewrite Ev. cbn [existsb orb]. rewrite orb_false_r. destruct (inquire c u) eqn:Ei; cbn [negb].
        + exists c. split; [reflexivity|]. split; [apply grows_refl; exact I|]. split; [apply closes_refl|]. intros _ w [<-|[]]. apply inquire_In; exact Ei.
        + change (lget [u] 0) with (Ok u). cbn [bind]. destruct (demand_ok P v c u I Tu Cu) as (c1 & E1 & G1 & I1). exists c1. split; [exact E1|]. split; [exact G1|]. split; [apply (demand_closes _ _ _ _ E1)|]. intros _ w [<-|[]]. exact I1.
      - exists c. split; [destruct (existsb (inquire c) (c_vectors pc)); reflexivity|]. split; [apply grows_refl; exact I|]. split; [apply closes_refl | discriminate]. }
    destruct St as (c1 & E1 & G1 & C1 & I1). rewrite E1. cbn [bind].
    destruct (IH (fun p Hp => H p (or_intror Hp)) c1 (proj1 G1)) as (c2 & E2 & G2 & C2 & I2). exists c2. split; [exact E2|]. split; [eapply grows_trans; eassumption|]. split; [eapply closes_trans; eassumption|].
    intros p u [<-|Hp] Ef Hu; [apply (proj1 (proj2 G2)), I1; assumption | apply (I2 p); assumption].
Qed.

Lemma nested {A B C} (F : C -> B -> res C) (g : A -> list B) l c : foldM (fun c x => foldM F (g x) c) l c = foldM F (concat (map g l)) c.
Proof.
  revert c. induction l as [|x l IH]; intro c; cbn [map concat foldM]; [reflexivity|].
  assert (X : forall (p q : list B) c, foldM F (p ++ q) c = let* d := foldM F p c in foldM F q d).
  { induction p as [|y p IHp]; intros q c0; cbn [app foldM bind]; [reflexivity|]. destruct (F c0 y); cbn [bind]; [apply IHp | reflexivity]. }
  rewrite X. destruct (foldM F (g x) c); cbn [bind]; [apply IH | reflexivity].
Qed.

(** everything below a vector of a closed collection, in particular its spots *)
Lemma closed_spots v c : (forall w, In w (segs c) -> ternary v w) ->
  (forall w k x, In w (segs c) -> k < length w -> nth k w 0%Z = 0%Z -> x = (-1)%Z \/ x = 1%Z -> In (lset w k x) (segs c)) ->
  forall w n, In w (segs c) -> in_cube w n -> In (spot_vec v n) (segs c).
Proof.
  intros T C w n. remember (dimension w) as d eqn:Ed. revert w Ed. induction d as [|d IH]; intros w Ed Hw Hn; assert (Tw := T w Hw).
  - destruct (ternary_spot v w Tw (eq_sym Ed)) as (m & Hm & ->). apply (spot_cube v m n Hm) in Hn as ->. exact Hw.
  - destruct (dimension_pos w) as (k & Hk & Hz); [lia|]. set (x := if Nat.testbit n k then 1%Z else (-1)%Z). assert (Hx : x = (-1)%Z \/ x = 1%Z) by (unfold x; destruct (Nat.testbit n k); auto).
    apply (IH (lset w k x)); [|apply C; assumption|].
    + assert (Y := dimension_lset w k x Hk Hz). assert (x <> 0%Z) by lia. specialize (Y H). lia.
    + destruct Hn as [Hb Hn]. split; [rewrite lset_length; exact Hb|]. intros j Hj. rewrite lset_length in Hj. rewrite nth_lset by exact Hk. destruct (Nat.eqb j k) eqn:E; [|apply Hn; exact Hj]. apply Nat.eqb_eq in E as ->.
      unfold x. destruct (Nat.testbit n k); split; congruence.
Qed.

Lemma finite_choice (P : nat -> Z -> Prop) n : (forall k, k < n -> exists x, P k x) -> exists l, length l = n /\ forall k, k < n -> P k (nth k l 0%Z).
Proof.
  induction n as [|n IH]; intro H; [exists []; split; [reflexivity | lia]|]. destruct IH as (l & L & Hl); [intros k Hk; apply H; lia|]. destruct (H n (Nat.lt_succ_diag_r n)) as (x & Hx).
  exists (l ++ [x]). split; [rewrite app_length, L; cbn; lia|]. intros k Hk. destruct (Nat.eq_dec k n) as [->|Hkn]; [rewrite app_nth2, L, Nat.sub_diag by lia; exact Hx | rewrite app_nth1 by lia; apply Hl; lia].
Qed.

Section Cores.
Variables (order : list (Z * Z) -> list (Z * Z)) (f : boolf) (h : list (nat * list hyper)) (d : list (nat * list core)).
Hypotheses (Ho : forall l, Permutation (order l) l) (M : made false f) (NL : no_links f) (NF : none_fixed f).
Hypotheses (Eh : hypersplits order f = Ok h) (Ed : hypersplits_potential_cores order f = Ok d).

Lemma core_keys n l c : In (n, l) d -> In c l -> c_fixed c <> [] /\ key_set f (length (c_fixed c)) (c_fixed c) /\ shattered f (c_fixed c).
Proof.
  intros Hl Hc. destruct (C79_cores order f h Ho M NL NF Eh) as (d' & Ed' & Em & _). rewrite Ed in Ed'. injection Ed' as <-.
  destruct (C77_hypersplits order f Ho M NL NF) as (m & h' & Eh' & Hm & Kh & V & _). rewrite Eh in Eh'. injection Eh' as <-.
  assert (Y : In (n, map c_fixed l) (map (fun nl => (fst nl, map c_fixed (snd nl))) d)) by (apply in_map_iff; exists (n, l); auto). rewrite Em in Y. apply in_map_iff in Y as ([n' hl] & Y & Hi). injection Y as -> Y. cbn [snd] in Y.
  assert (Pn : 1 <= n) by (assert (Q : In n (map fst h)) by (apply in_map_iff; exists (n, hl); auto); rewrite Kh in Q; apply in_seq in Q; lia).
  destruct (V n hl Hi) as (_ & I & _). assert (X : In (c_fixed c) (map fst hl)) by (rewrite Y; apply in_map; exact Hc). apply I in X as [K Sh].
  assert (L : length (c_fixed c) = n) by apply K. rewrite L. split; [|split; assumption]. intro E. rewrite E in L. cbn in L. lia.
Qed.

Lemma keys_core keys : keys <> [] -> key_set f (length keys) keys -> shattered f keys -> exists n l c, In (n, l) d /\ In c l /\ c_fixed c = keys.
Proof.
  intros Ne K Sh. destruct (C79_cores order f h Ho M NL NF Eh) as (d' & Ed' & Em & _). rewrite Ed in Ed'. injection Ed' as <-.
  destruct (C77_hypersplits order f Ho M NL NF) as (m & h' & Eh' & Hm & Kh & V & Mx). rewrite Eh in Eh'. injection Eh' as <-.
  assert (Lm := Mx _ _ K Sh). assert (In (length keys) (map fst h)) by (rewrite Kh; apply in_seq; destruct keys; [congruence | cbn in *; lia]).
  apply in_map_iff in H as ([n hl] & En & Hi). cbn in En. subst n. destruct (V _ hl Hi) as (_ & I & _). assert (X := proj2 (I keys) (conj K Sh)).
  assert (Y : In (length keys, map fst hl) (map (fun nl => (fst nl, map fst (snd nl))) h)) by (apply in_map_iff; exists (length keys, hl); auto). rewrite <- Em in Y. apply in_map_iff in Y as ([n' l] & Y & Hl). injection Y as -> Y. cbn [snd] in Y.
  rewrite <- Y in X. apply in_map_iff in X as (c & Ec & Hc). exists (length keys), l, c. auto.
Qed.

Lemma unique_core n l c : In (n, l) d -> In c l -> c_free c = [] -> exists u, c_vectors c = [u] /\ forced f (c_fixed c) u.
Proof.
  intros Hl Hc Ef. destruct (C79_cores order f h Ho M NL NF Eh) as (d' & Ed' & _ & X). rewrite Ed in Ed'. injection Ed' as <-.
  destruct (X n l c Hl Hc) as (_ & _ & Nd & Id & Nv & Iv). destruct (core_keys n l c Hl Hc) as (Ne & K & Sh).
  assert (Out : forall k, k < valency f -> ~ In k (c_fixed c) -> exists j q, In j (c_fixed c) /\ border_at f j k q).
  { intros k Hk Hn. destruct (C79_exclusive order f h d n l c k Ho M NL NF Eh Ed Hl Hc Hk) as [[Y _]|[(_ & Y & _)|(_ & _ & Y)]]; [contradiction | rewrite Ef in Y; destruct Y|].
    apply in_map_iff in Y as ([k' v] & <- & Y). apply Id in Y as (_ & _ & j & q & Hj & B & _). exists j, q. auto. }
  assert (Un : forall k j q j' q', k < valency f -> ~ In k (c_fixed c) -> In j (c_fixed c) -> border_at f j k q -> In j' (c_fixed c) -> border_at f j' k q' -> sg q = sg q').
  { intros k j q j' q' Hk Hn Hj B Hj' B'. assert (Y1 : In (k, sg q) (c_determined c)) by (apply Id; split; [exact Hk|]; split; [exact Hn|]; exists j, q; auto).
    assert (Y2 : In (k, sg q') (c_determined c)) by (apply Id; split; [exact Hk|]; split; [exact Hn|]; exists j', q'; auto).
    revert Nd Y1 Y2. generalize (c_determined c) as t, (sg q) as x, (sg q') as y. clear. induction t as [|[k' z] t IH]; intros x y Nd H1 H2; [destruct H1|]. cbn [map fst] in Nd. inversion Nd as [|? ? Ni Nd']; subst.
    destruct H1 as [H1|H1], H2 as [H2|H2]; [congruence | | | apply (IH x y Nd' H1 H2)]; exfalso; apply Ni, in_map_iff; [injection H1 as -> ->; exists (k, y); auto | injection H2 as -> ->; exists (k, x); auto]. }
  destruct (finite_choice (fun k x => (In k (c_fixed c) -> x = 0%Z) /\ (~ In k (c_fixed c) -> exists j q, In j (c_fixed c) /\ border_at f j k q /\ x = sg q)) (valency f)) as (u & Lu & Hu).
  { intros k Hk. destruct (in_dec Nat.eq_dec k (c_fixed c)) as [Hi|Hi]; [exists 0%Z; tauto|]. destruct (Out k Hk Hi) as (j & q & Hj & B). exists (sg q). split; [tauto|]. intros _. exists j, q. auto. }
  assert (Bk : forall k, In k (c_fixed c) -> k < valency f) by apply K.
  assert (Iu : In u (c_vectors c)).
  { apply Iv. split; [exact Lu|]. split; [intros k Hk; apply (Hu k (Bk k Hk)); exact Hk|]. intros k Hk Hn. destruct (proj2 (Hu k Hk) Hn) as (j & q & Hj & B & E). rewrite E. split; [destruct q; auto|]. intros j' q' Hj' B'. apply (Un k j q j' q'); assumption. }
  exists u. split.
  - assert (Al : forall w, In w (c_vectors c) -> w = u).
    { intros w Hw. apply Iv in Hw as (Lw & Zw & Ow). apply (nth_ext _ _ 0%Z 0%Z); [congruence|]. intros k Hk. rewrite Lw in Hk. destruct (in_dec Nat.eq_dec k (c_fixed c)) as [Hi|Hi].
      - rewrite (Zw k Hi). symmetry. apply (Hu k Hk); exact Hi.
      - destruct (proj2 (Hu k Hk) Hi) as (j & q & Hj & B & E). rewrite E. apply (proj2 (Ow k Hk Hi) j q Hj B). }
    destruct (c_vectors c) as [|w ws]; [destruct Iu|]. rewrite (Al w (or_introl eq_refl)). f_equal. destruct ws as [|w' ws]; [reflexivity|]. exfalso. inversion Nv as [|? ? Ni _]; subst. apply Ni. left. rewrite (Al w (or_introl eq_refl)). apply Al. right; left; reflexivity.
  - split; [exact Ne|]. split; [exact K|]. split; [exact Sh|]. split.
    + split; [exact Lu|]. intros x Hx. apply (In_nth _ _ 0%Z) in Hx as (k & Hk & <-). rewrite Lu in Hk. destruct (in_dec Nat.eq_dec k (c_fixed c)) as [Hi|Hi]; [right; left; apply (Hu k Hk); exact Hi|].
      destruct (proj2 (Hu k Hk) Hi) as (j & q & _ & _ & ->). destruct q; auto.
    + split; [intros k Hk; apply (Hu k (Bk k Hk)); exact Hk|]. intros k Hk Hn. apply (Hu k Hk). exact Hn.
Qed.

Lemma forced_core keys u : forced f keys u -> exists n l c, In (n, l) d /\ In c l /\ c_fixed c = keys /\ c_free c = [] /\ In u (c_vectors c).
Proof.
  intros (Ne & K & Sh & Tu & Zu & Ou). destruct (keys_core keys Ne K Sh) as (n & l & c & Hl & Hc & Ec). exists n, l, c. split; [exact Hl|]. split; [exact Hc|]. split; [exact Ec|].
  destruct (C79_cores order f h Ho M NL NF Eh) as (d' & Ed' & _ & X). rewrite Ed in Ed'. injection Ed' as <-. destruct (X n l c Hl Hc) as (_ & If & _).
  assert (Ef : c_free c = []).
  { destruct (c_free c) as [|k ks] eqn:E; [reflexivity|]. exfalso. assert (Y := proj1 (If k) (or_introl eq_refl)). rewrite Ec in Y. destruct Y as (Hk & Hn & Cr). destruct (Ou k Hk Hn) as (j & q & Hj & (_ & _ & B) & _). apply B, Cr, Hj. }
  split; [exact Ef|]. destruct (unique_core n l c Hl Hc Ef) as (w & Ew & _ & _ & _ & Tw & Zw & Ow). rewrite Ew. left. rewrite Ec in Zw, Ow.
  destruct (X n l c Hl Hc) as (_ & _ & _ & _ & _ & Iv). assert (Hw := proj1 (Iv w)). rewrite Ew in Hw. specialize (Hw (or_introl eq_refl)). destruct Hw as (_ & _ & Hw). rewrite Ec in Hw.
  apply (nth_ext _ _ 0%Z 0%Z); [rewrite (proj1 Tw), (proj1 Tu); reflexivity|]. intros k Hk. rewrite (proj1 Tw) in Hk. destruct (in_dec Nat.eq_dec k keys) as [Hi|Hi]; [rewrite (Zw k Hi), (Zu k Hi); reflexivity|].
  destruct (Ou k Hk Hi) as (j & q & Hj & B & E). rewrite E. apply (proj2 (Hw k Hk Hi) j q Hj B).
Qed.
End Cores.

(** * The cores *)

Lemma reached_bound f n : made false f -> reached f n -> n < 2 ^ valency f.
Proof.
  intros M [H|(keys & u & (_ & _ & _ & Tu & _) & H)]; [apply (place_bound f n (m_fit _ f M)); exact H|]. destruct H as [H _]. rewrite (proj1 Tu) in H. exact H.
Qed.

(** the loop ends without an error, whatever the orders of the sets are; then the collection has
    all cubes of the places that are true or in the only possible core for some independent
    atoms, each once, and it counts them by the number of zeros *)
Theorem C113_loop : forall order order' f c, (forall l, Permutation (order l) l) -> Permutation (order' (fullspots f)) (fullspots f) ->
  made false f -> no_links f -> none_fixed f -> CollectionOfSegments order' f = Ok c ->
  exists c', loop_hypersplits order f c = Ok c' /\ NoDup (segs c') /\
    (forall w, In w (segs c') <-> ternary (valency f) w /\ forall n, in_cube w n -> reached f n) /\
    length (number_by_dimension c') = valency f + 1 /\
    forall k, k <= valency f -> nth k (number_by_dimension c') 0 = length (filter (fun w => Nat.eqb (count_occ Z.eq_dec w 0%Z) k) (segs c')).
Proof.
  intros order order' f c Ho Ho' M NL NF E. assert (F := m_fit false f M). destruct (collection_ok order' f F Ho') as (c0 & E0 & I0 & H0). rewrite E in E0. injection E0 as <-.
  destruct (get_spots_ok f c F H0) as [Nd Hs]. unfold loop_hypersplits. rewrite (spots_again f (get_spots c) M Nd Hs). cbn [bind].
  destruct (C77_hypersplits order f Ho M NL NF) as (m & h & Eh & _). destruct (C79_cores order f h Ho M NL NF Eh) as (d & Ed & _). rewrite Ed. cbn [bind]. rewrite nested.
  assert (I1 : inv (reached f) (valency f) c) by (apply (inv_mono (full f)); [left; assumption | exact I0]).
  destruct (steps_ok (reached f) (valency f) (concat (map snd d))) with (c := c) as (c' & E' & (I' & Inc & Cm) & Cl & Co); [|exact I1|].
  { intros pc Hp Ef. apply in_concat in Hp as (l & Hl & Hp). apply in_map_iff in Hl as ([n l'] & <- & Hl). cbn [snd] in Hp. destruct (unique_core order f h d Ho M NL NF Eh Ed n l' pc Hl Hp Ef) as (u & Eu & Fu).
    exists u. split; [exact Eu|]. split; [apply Fu|]. intros k Hk. right. exists (c_fixed pc), u. auto. }
  exists c'. split; [exact E'|]. split; [apply I'|]. split.
  - intro w. split; [intro Hw; destruct (proj1 (proj2 I') w Hw) as [Tw Cw]; split; [exact Tw | exact Cw]|]. intros [Tw Cw].
    assert (Down : forall w k x, In w (segs c') -> k < length w -> nth k w 0%Z = 0%Z -> x = (-1)%Z \/ x = 1%Z -> In (lset w k x) (segs c')).
    { intros x k z Hx Hk Hz Hzz. destruct (in_segs_dec c x) as [Hc|Hc]; [|apply (proj2 Cl x k z); assumption]. apply Inc, H0. apply H0 in Hc as [Tx Cx]. split; [apply ternary_lset; tauto | apply covered_inf; assumption]. }
    apply (complete_all (reached f) (valency f) c' I'); [| |exact Tw | exact Cw].
    + intros x k Hx _ Hk Hz Hf. destruct (in_segs_dec c x) as [Hin|Hin]; [|apply Cm; assumption].
      destruct (in_segs_dec c (flip x k)) as [Hin'|Hin'].
      * apply Inc, H0. apply H0 in Hin as [Tx Cx], Hin' as [Tf Cf]. split; [apply ternary_lset; auto | apply (covered_sup (full f) (valency f)); assumption].
      * rewrite <- sup_flip. apply Cm; [exact Hf | exact Hin' | rewrite flip_length; exact Hk | rewrite flip_nth by exact Hk; lia | rewrite flip_flip by exact Hk; exact Hx].
    + intros n Hn [Hf|(keys & u & Fu & Hu)].
      * apply Inc, H0. split; [apply spot_vec_ternary|]. intros k Hk. apply (spot_cube _ _ _ Hn) in Hk as ->. exact Hf.
      * destruct (forced_core order f h d Ho M NL NF Eh Ed keys u Fu) as (n' & l & pc & Hl & Hp & _ & Ef & Iu).
        apply (closed_spots (valency f) c' (fun x Hx => proj1 (proj1 (proj2 I') x Hx)) Down u n); [|exact Hu]. apply (Co pc u); [|exact Ef | exact Iu]. apply in_concat. exists l. split; [apply in_map_iff; exists (n', l); auto | exact Hp].
  - destruct I' as (_ & _ & L & N). split; [exact L|]. intros k Hk. rewrite N by exact Hk. unfold count_dim. f_equal. apply filter_ext. intro w. rewrite dimension_count. reflexivity.
Qed.
Print Assumptions C113_loop.

(** so no segment is lost, and each hypersplit whose core is determined has it *)
Theorem C113_cores : forall order order' f c c', (forall l, Permutation (order l) l) -> Permutation (order' (fullspots f)) (fullspots f) ->
  made false f -> no_links f -> none_fixed f -> CollectionOfSegments order' f = Ok c -> loop_hypersplits order f c = Ok c' ->
  incl (segs c) (segs c') /\ forall keys u, forced f keys u -> In u (segs c').
Proof.
  intros order order' f c c' Ho Ho' M NL NF E E'. destruct (C113_loop order order' f c Ho Ho' M NL NF E) as (c1 & E1 & _ & H1 & _). rewrite E' in E1. injection E1 as <-.
  destruct (collection_ok order' f (m_fit false f M) Ho') as (c0 & E0 & _ & H0). rewrite E in E0. injection E0 as <-. split.
  - intros w Hw. apply H0 in Hw as [T C]. apply H1. split; [exact T|]. intros n Hn. left. apply C, Hn.
  - intros keys u Fu. apply H1. split; [apply Fu|]. intros n Hn. right. exists keys, u. auto.
Qed.
Print Assumptions C113_cores.

Lemma border_side f j k q : made false f -> j < valency f -> k < valency f -> border_at f j k q -> exists v, forall e, sem f e = true -> e (nth_atom f j) = v -> e (nth_atom f k) = q.
Proof.
  intros M Hj Hk (O1 & O2 & N). assert (F := m_fit _ f M).
  assert (D : forall p r, occurs f j k p r \/ ~ occurs f j k p r).
  { intros p r. assert (X := some_place f (fun u => u j = p /\ u k = r) F).
    assert (Y : (exists n, nth n (root f) false = true /\ Nat.testbit n j = p /\ Nat.testbit n k = r) \/ ~ (exists n, nth n (root f) false = true /\ Nat.testbit n j = p /\ Nat.testbit n k = r)).
    { destruct (existsb (fun n => nth n (root f) false && Bool.eqb (Nat.testbit n j) p && Bool.eqb (Nat.testbit n k) r) (range (length (root f)))) eqn:E.
      - left. apply existsb_exists in E as (n & _ & E). apply andb_true_iff in E as [E E3]. apply andb_true_iff in E as [E1 E2]. apply eqb_prop in E2, E3. exists n. auto.
      - right. intros (n & E1 & E2 & E3). apply not_true_iff_false in E. apply E, existsb_exists. exists n. split; [apply range_In; apply Nat.nle_gt; intro L; rewrite nth_overflow in E1 by exact L; discriminate|]. rewrite E1, E2, E3, !eqb_reflx. reflexivity. }
    rewrite <- X in Y; [exact Y|]. intros u w Huw [<- <-]. rewrite !Huw by assumption. auto. }
  assert (V : exists v, ~ occurs f j k v (negb q)).
  { destruct (D true (negb q)) as [D1|D1]; [|exists true; exact D1]. destruct (D false (negb q)) as [D2|D2]; [|exists false; exact D2].
    exfalso. apply N. split; [exact Hj|]. split; [exact Hk|]. intros [|] w; destruct (Bool.bool_dec w q) as [->|Hw]; auto; (assert (w = negb q) as -> by (destruct q, w; cbn; congruence)); assumption. }
  destruct V as [v Hv]. exists v. intros e He Ej. destruct (Bool.bool_dec (e (nth_atom f k)) q) as [Ek|Ek]; [exact Ek|]. exfalso. apply Hv. exists e. split; [exact He|]. split; [exact Ej|]. destruct (e (nth_atom f k)), q; cbn; congruence.
Qed.

Lemma forced_pairs f keys u n a b : made false f -> forced f keys u -> in_cube u n -> a < valency f -> b < valency f -> occurs f a b (Nat.testbit n a) (Nat.testbit n b).
Proof.
  intros M (Ne & K & Sh & Tu & Zu & Ou) [_ Cu] Ha Hb. rewrite (proj1 Tu) in Cu. assert (Bk : forall k, In k keys -> k < valency f) by apply K.
  assert (Side : forall k, k < valency f -> ~ In k keys -> exists j v, In j keys /\ border_at f j k (Nat.testbit n k) /\ forall e, sem f e = true -> e (nth_atom f j) = v -> e (nth_atom f k) = Nat.testbit n k).
  { intros k Hk Hn. destruct (Ou k Hk Hn) as (j & q & Hj & B & E). assert (Eq : Nat.testbit n k = q) by (destruct (Cu k Hk) as [C1 C2]; rewrite E in C1, C2; destruct q; cbn in *; auto). rewrite Eq.
    destruct (border_side f j k q M (Bk j Hj) Hk B) as (v & Hv). exists j, v. auto. }
  assert (Mix : forall x k, In x keys -> k < valency f -> ~ In k keys -> exists e, sem f e = true /\ e (nth_atom f x) = Nat.testbit n x /\ e (nth_atom f k) = Nat.testbit n k).
  { intros x k Hx Hk Hn. destruct (Side k Hk Hn) as (j & v & Hj & (O1 & O2 & _) & Hv). destruct (Nat.eq_dec x j) as [->|Hxj].
    - destruct (Nat.testbit n j); [exact O1 | exact O2].
    - destruct (Sh (fun i => if Nat.eqb i j then v else Nat.testbit n x)) as (e & He & Hb'). exists e. split; [exact He|]. split; [rewrite (Hb' x Hx), (proj2 (Nat.eqb_neq x j) Hxj); reflexivity|]. apply Hv; [exact He|]. rewrite (Hb' j Hj), Nat.eqb_refl. reflexivity. }
  destruct (in_dec Nat.eq_dec a keys) as [Ka|Ka], (in_dec Nat.eq_dec b keys) as [Kb|Kb].
  - destruct (Sh (Nat.testbit n)) as (e & He & Hb'). exists e. auto.
  - destruct (Mix a b Ka Hb Kb) as (e & He & E1 & E2). exists e. auto.
  - destruct (Mix b a Kb Ha Ka) as (e & He & E1 & E2). exists e. auto.
  - destruct (Side a Ha Ka) as (j & v & Hj & _ & Hv). destruct (Side b Hb Kb) as (i & w & Hi & (O1 & O2 & _) & Hw).
    destruct (Nat.eq_dec j i) as [->|Hji].
    + assert (Y : occurs f i b v (Nat.testbit n b)) by (destruct v; assumption). destruct Y as (e & He & E1 & E2). exists e. auto.
    + destruct (Sh (fun x => if Nat.eqb x j then v else w)) as (e & He & Hb'). exists e. split; [exact He|]. split; [apply Hv; [exact He|]; rewrite (Hb' j Hj), Nat.eqb_refl; reflexivity|].
      apply Hw; [exact He|]. rewrite (Hb' i Hi), (proj2 (Nat.eqb_neq i j)) by auto. reflexivity.
Qed.

(** the new places are gaps: they are true places of the gapless function *)
Theorem C113_gaps : forall order f g e, (forall l, Permutation (order l) l) -> made false f -> gapless_boolf order f = Ok g ->
  reached f (b2n (map e (atomvals f))) -> sem g e = true.
Proof.
  intros order f g e Ho M Eg H. destruct (C58_gapless_boolf order f Ho M) as [G1 G2].
  assert (NN : no_links f /\ none_fixed f).
  { assert (D := is_blightless_spec order f Ho (m_red f M)). destruct D as (bl & Ebl & Hbl). unfold gapless_boolf in Eg. rewrite Ebl in Eg. cbn [bind] in Eg. destruct bl; [apply Hbl; reflexivity | discriminate]. }
  destruct (G1 (proj1 NN) (proj2 NN)) as (g' & E' & _ & S & Inc). rewrite Eg in E'. injection E' as <-.
  destruct H as [H|(keys & u & Fu & Hu)]; [apply Inc; exact H|]. apply S. intros a b Ha Hb. assert (X := forced_pairs f keys u _ a b M Fu Hu Ha Hb). rewrite !bit_of_place in X by assumption. exact X.
Qed.
Print Assumptions C113_gaps.

(** so a function without gaps gets nothing new *)
Theorem C113_gapless : forall order order' f c, (forall l, Permutation (order l) l) -> Permutation (order' (fullspots f)) (fullspots f) ->
  made false f -> gapless_boolf order f = Ok f -> CollectionOfSegments order' f = Ok c -> loop_hypersplits order f c = Ok c.
Proof.
  intros order order' f c Ho Ho' M Eg E. assert (F := m_fit false f M).
  assert (NN : no_links f /\ none_fixed f).
  { destruct (is_blightless_spec order f Ho (m_red f M)) as (bl & Ebl & Hbl). unfold gapless_boolf in Eg. rewrite Ebl in Eg. cbn [bind] in Eg. destruct bl; [apply Hbl; reflexivity | discriminate]. }
  destruct NN as [NL NF]. destruct (collection_ok order' f F Ho') as (c0 & E0 & I0 & H0). rewrite E in E0. injection E0 as <-.
  destruct (get_spots_ok f c F H0) as [Nd Hs]. unfold loop_hypersplits. rewrite (spots_again f (get_spots c) M Nd Hs). cbn [bind].
  destruct (C77_hypersplits order f Ho M NL NF) as (m & h & Eh & _). destruct (C79_cores order f h Ho M NL NF Eh) as (d & Ed & _). rewrite Ed. cbn [bind]. rewrite nested.
  assert (L : forall pc, In pc (concat (map snd d)) -> core_step (valency f) c pc = Ok c).
  { intros pc Hp. apply in_concat in Hp as (l & Hl & Hp). apply in_map_iff in Hl as ([n l'] & <- & Hl). cbn [snd] in Hp. unfold core_step. destruct (c_free pc) as [|k ks] eqn:Ef; [|cbn [nonempty negb]; destruct (existsb _ _); reflexivity].
    destruct (unique_core order f h d Ho M NL NF Eh Ed n l' pc Hl Hp Ef) as (u & Eu & Fu). rewrite Eu. cbn [existsb orb]. rewrite orb_false_r. replace (inquire c u) with true; [reflexivity|]. symmetry. apply inquire_In, H0. split; [apply Fu|].
    intros k Hk. assert (R : reached f k) by (right; exists (c_fixed pc), u; auto). assert (Hb := reached_bound f k M R).
    unfold full. rewrite <- (sem_place_asg f k F Hb). apply (C113_gaps order f f _ Ho M Eg). rewrite asg_b2n; [exact R | apply fitting_NoDup; exact F | exact Hb]. }
  clear -L. induction (concat (map snd d)) as [|pc t IH]; cbn [foldM]; [reflexivity|]. rewrite (L pc (or_introl eq_refl)). cbn [bind]. apply IH. intros p Hp. apply L. right; exact Hp.
Qed.
Print Assumptions C113_gapless.

(** functions with linked or fixed atoms are rejected *)
Theorem C113_rejected : forall order order' f c, (forall l, Permutation (order l) l) -> Permutation (order' (fullspots f)) (fullspots f) ->
  made false f -> ~ (no_links f /\ none_fixed f) -> CollectionOfSegments order' f = Ok c -> loop_hypersplits order f c = Err AssertErr.
Proof.
  intros order order' f c Ho Ho' M N E. assert (F := m_fit false f M). destruct (collection_ok order' f F Ho') as (c0 & E0 & I0 & H0). rewrite E in E0. injection E0 as <-.
  destruct (get_spots_ok f c F H0) as [Nd Hs]. unfold loop_hypersplits. rewrite (spots_again f (get_spots c) M Nd Hs). cbn [bind]. rewrite (C79_rejected order f Ho M N). reflexivity.
Qed.
Print Assumptions C113_rejected.

(** ** Examples *)

Definition ex_table := [true; true; true; false; false; true; false; true].
Definition ex_parity := [true; false; false; true; false; true; true; false].

Lemma ex_blightless v f : Boolf_vec v [2; 4; 5] = Ok f -> reduced f -> is_blightless (fun l => l) f = Ok true -> no_links f /\ none_fixed f.
Proof.
  intros _ R Eb. destruct (is_blightless_spec (fun l => l) f (fun l => Permutation_refl l) R) as (b' & Eb' & Hb). rewrite Eb in Eb'. injection Eb' as <-. exact (proj1 Hb eq_refl).
Qed.

(* the first two atoms are independent, and their common core must be outside of the third; the
   place 3 is added *)
Example C113_ex : exists f c c', Boolf_vec ex_table [2; 4; 5] = Ok f /\ made false f /\ no_links f /\ none_fixed f /\
  CollectionOfSegments (fun l => l) f = Ok c /\ loop_hypersplits (fun l => l) f c = Ok c' /\
  get_spots c = [0; 1; 2; 5; 7] /\ get_spots c' = [0; 1; 2; 5; 7; 3] /\
  In [0; 0; -1]%Z (segs c') /\ In [1; 0; 0]%Z (segs c') /\ number_by_dimension c = [5; 4; 0; 0] /\ number_by_dimension c' = [6; 7; 2; 0].
Proof.
  destruct (Boolf_vec_sorted ex_table [2; 4; 5]) as (f & E & R & _); [repeat constructor | reflexivity|].
  assert (B : is_blightless (fun l => l) f = Ok true) by (clear R; vm_compute in E; injection E as <-; vm_compute; reflexivity).
  destruct (ex_blightless _ f E R B) as [NL NF]. assert (M := reduced_made f R).
  destruct (collection_ok (fun l => l) f (proj1 R) (Permutation_refl _)) as (c & Ec & _).
  destruct (C113_loop (fun l => l) (fun l => l) f c (fun l => Permutation_refl l) (Permutation_refl _) M NL NF Ec) as (c' & Ec' & _).
  exists f, c, c'. split; [exact E|]. split; [exact M|]. split; [exact NL|]. split; [exact NF|]. split; [exact Ec|]. split; [exact Ec'|].
  clear R B NL NF M. vm_compute in E. injection E as <-. vm_compute in Ec. injection Ec as <-. vm_compute in Ec'. injection Ec' as <-. vm_compute. tauto.
Qed.

(** not every hypersplit gets a core: if there is a choice, none is made *)
Theorem C113_all_cores_refuted : exists f keys c c', made false f /\ no_links f /\ none_fixed f /\
  CollectionOfSegments (fun l => l) f = Ok c /\ loop_hypersplits (fun l => l) f c = Ok c' /\
  key_set f 1 keys /\ shattered f keys /\ forall u, In u (segs c') -> ~ (forall k, k < valency f -> nth k u 0%Z = 0%Z <-> In k keys).
Proof.
  destruct (Boolf_vec_sorted ex_parity [2; 4; 5]) as (f & E & R & _); [repeat constructor | reflexivity|].
  assert (B : is_blightless (fun l => l) f = Ok true) by (clear R; vm_compute in E; injection E as <-; vm_compute; reflexivity).
  destruct (ex_blightless _ f E R B) as [NL NF]. assert (M := reduced_made f R).
  destruct (collection_ok (fun l => l) f (proj1 R) (Permutation_refl _)) as (c & Ec & _).
  destruct (C113_loop (fun l => l) (fun l => l) f c (fun l => Permutation_refl l) (Permutation_refl _) M NL NF Ec) as (c' & Ec' & _).
  exists f, [0], c, c'. split; [exact M|]. split; [exact NL|]. split; [exact NF|]. split; [exact Ec|]. split; [exact Ec'|].
  assert (Ef : f = mkBoolf ex_parity [2; 4; 5] false false) by (clear R B NL NF M Ec Ec'; vm_compute in E; injection E as <-; reflexivity).
  subst f. clear R B NL NF M E. split; [split; [repeat constructor|]; split; [reflexivity|]; intros k [<-|[]]; vm_compute; lia|]. split.
  - intro b. exists (fun a => match a with 2 => b 0 | 4 => b 0 | _ => false end). split; [unfold sem; cbn; destruct (b 0); reflexivity|]. intros k [<-|[]]. reflexivity.
  - vm_compute in Ec. injection Ec as <-. vm_compute in Ec'. injection Ec' as <-. cbn [segs In]. intros u Hu H. assert (X := proj2 (H 0 ltac:(vm_compute; lia)) (or_introl eq_refl)).
    destruct Hu as [<-|[<-|[<-|[<-|[]]]]]; discriminate X.
Qed.
Print Assumptions C113_all_cores_refuted.

(* x or y has no gaps *)
Example C113_ex_gapless : (let* f := Boolf_vec [false; true; true; true] [3; 5] in let* g := gapless_boolf (fun l => l) f in let* c := CollectionOfSegments (fun l => l) f in
  let* c' := loop_hypersplits (fun l => l) f c in Ok (boolf_eqb f g, segs c, segs c')) =
  Ok (true, [[1; -1]; [-1; 1]; [1; 1]; [0; 1]; [1; 0]], [[1; -1]; [-1; 1]; [1; 1]; [0; 1]; [1; 0]])%Z.
Proof. vm_compute. reflexivity. Qed.
