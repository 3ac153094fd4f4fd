(** Proof_SvgLoop: the loops of bin2svg follow the outlines. *)

From Coq Require Import String Ascii.
From Coq Require Import List Arith ZArith Bool Lia Permutation.
From Verif Require Import Model_Base Lib Model_Str Model_Svg Spec_Svg Proof_Determinant Proof_PermMore Proof_Svg.
Import ListNotations Model_Str.
Local Open Scope Z_scope.

(** * reading and writing the corners *)
Definition shape (H W : nat) (cs : list (list Z)) : Prop := length cs = (H + 1)%nat /\ Forall (fun row => length row = (W + 1)%nat) cs.
Lemma np_index_in n i : 0 <= i < Z.of_nat n -> np_index n i = Ok (Z.to_nat i).
Proof. intro Hi. unfold np_index. rewrite (proj2 (Z.leb_le 0 i)), (proj2 (Z.ltb_lt i _)) by lia. reflexivity. Qed.
Lemma lget_nth {A} (l : list A) i d : (i < length l)%nat -> lget l i = Ok (nth i l d).
Proof. intro Hi. unfold lget. rewrite (nth_error_nth' l d Hi). reflexivity. Qed.
Lemma shape_row H W cs i : shape H W cs -> (i < H + 1)%nat -> length (nth i cs []) = (W + 1)%nat.
Proof. intros [L F] Hi. rewrite Forall_forall in F. apply F, nth_In. lia. Qed.
Lemma get_spec H W cs q : shape H W cs -> inr H W q -> corner_get cs q = Ok (nth (Z.to_nat (snd q)) (nth (Z.to_nat (fst q)) cs []) 0).
Proof.
  intros Sh (R1 & R2). unfold corner_get. rewrite np_index_in by (rewrite (proj1 Sh); lia). cbn [bind]. rewrite (lget_nth _ _ []) by (rewrite (proj1 Sh); lia). cbn [bind].
  assert (L := shape_row H W cs (Z.to_nat (fst q)) Sh ltac:(lia)). rewrite np_index_in by (rewrite L; lia). cbn [bind]. apply lget_nth. rewrite L. lia.
Qed.
Lemma set_spec H W cs q v : shape H W cs -> inr H W q -> exists cs', corner_set cs q v = Ok cs' /\ shape H W cs' /\ corner_get cs' q = Ok v /\ forall p, inr H W p -> p <> q -> corner_get cs' p = corner_get cs p.
Proof.
  intros Sh (R1 & R2). unfold corner_set. rewrite np_index_in by (rewrite (proj1 Sh); lia). cbn [bind]. rewrite (lget_nth _ _ []) by (rewrite (proj1 Sh); lia). cbn [bind].
  assert (L := shape_row H W cs (Z.to_nat (fst q)) Sh ltac:(lia)). rewrite np_index_in by (rewrite L; lia). cbn [bind]. eexists. split; [reflexivity|].
  set (cs' := lset cs _ _). assert (Sh' : shape H W cs'). { split; [unfold cs'; rewrite lset_length; apply Sh|]. apply Forall_lset; [apply Sh | rewrite lset_length; exact L]. }
  split; [exact Sh'|]. split.
  - rewrite (get_spec H W) by (auto; split; lia). unfold cs'. rewrite nth_lset by (rewrite (proj1 Sh); lia). rewrite Nat.eqb_refl. rewrite nth_lset by (rewrite L; lia). rewrite Nat.eqb_refl. reflexivity.
  - intros p Rp Np. rewrite !(get_spec H W) by assumption. unfold cs'. rewrite nth_lset by (rewrite (proj1 Sh); lia). destruct (Nat.eqb_spec (Z.to_nat (fst p)) (Z.to_nat (fst q))) as [E|E]; [|reflexivity]. rewrite nth_lset by (rewrite L; lia).
    destruct (Nat.eqb_spec (Z.to_nat (snd p)) (Z.to_nat (snd q))) as [E'|E']; [|rewrite E; reflexivity]. exfalso. apply Np. destruct p, q. unfold inr in *. cbn [fst snd] in *. f_equal; lia.
Qed.
Lemma point_eqb_ok p q : point_eqb p q = true <-> p = q.
Proof. destruct p, q. unfold point_eqb. cbn [fst snd]. rewrite andb_true_iff, !Z.eqb_eq. split; [intros [-> ->]; reflexivity | intro E; injection E; auto]. Qed.

Section Loops.
Context (M : Z -> Z -> bool) (H W : nat) (M_range : forall i j, M i j = true -> 0 <= i < Z.of_nat H /\ 0 <= j < Z.of_nat W).
Let edge := edge M. Let turning := turning M. Let value_left := value_left M. Let came_by := came_by M. Let turn_to := turn_to M. Let chain := chain M. Let closed := closed M.

Definition unv (V : list edge_t) (e : edge_t) : bool := if in_dec edge_eq e V then false else true.
Lemma unv_true V e : unv V e = true <-> ~ In e V.
Proof. unfold unv. destruct (in_dec edge_eq e V); split; intro X; try discriminate X; auto; contradiction. Qed.
Lemma unv_false V e : unv V e = false <-> In e V.
Proof. unfold unv. destruct (in_dec edge_eq e V); split; intro X; try discriminate X; auto; contradiction. Qed.
Definition holds (cs : list (list Z)) (U : edge_t -> bool) : Prop := shape H W cs /\ forall q, inr H W q -> corner_get cs q = Ok (value_left U q).

Lemma left_ext U U' q : (forall d, turning (q, d) = true -> U (q, d) = U' (q, d)) -> value_left U q = value_left U' q.
Proof.
  intro E. unfold value_left, Proof_Svg.value_left. cbn zeta. destruct (value_at M q =? 0) eqn:E0; [reflexivity|]. apply Z.eqb_neq in E0. assert (G := value_turning M q). destruct (value_at M q =? 13) eqn:E1; [|destruct (value_at M q =? 24) eqn:E2].
  - rewrite (E DR), (E DL) by (apply G; auto). reflexivity.
  - rewrite (E DD), (E DU) by (apply G; auto). reflexivity.
  - rewrite (E (vdir (value_at M q))) by (apply G; auto). reflexivity.
Qed.

(* the value of the corner tells the direction; what is left of it is stored *)
Lemma resolve_spec cs U q d oldval : holds cs U -> inr H W q -> turning (q, d) = true -> U (q, d) = true ->
  (1 <= value_left U q <= 8 \/ exists o, oldval = Some o /\ 1 <= o <= 8 /\ vdir o = came_by q d) ->
  exists v cs', resolve cs q (value_left U q) oldval = Ok (v, cs') /\ 1 <= v <= 8 /\ vdir v = d /\ holds cs' (fun e => U e && if edge_eq e (q, d) then false else true).
Proof.
  intros [Sh Hg] Rq T Ud Old. set (U' := fun e => U e && if edge_eq e (q, d) then false else true).
  assert (Key : exists v w, 1 <= v <= 8 /\ vdir v = d /\ value_left U' q = w /\ resolve cs q (value_left U q) oldval = let* c := corner_set cs q w in Ok (v, c)).
  { assert (T' := T). apply value_turning in T' as [N T']. unfold value_left, Proof_Svg.value_left in Old |- *. cbn zeta in Old |- *. assert (B0 := proj2 (Z.eqb_neq _ _) N). rewrite B0 in Old |- *.
    assert (Ud' : U' (q, d) = false) by (unfold U'; destruct (edge_eq (q, d) (q, d)) as [_|X]; [apply andb_false_r | contradiction]).
    assert (Uo : forall d', d' <> d -> U' (q, d') = U (q, d')) by (intros d' X; unfold U'; destruct (edge_eq (q, d') (q, d)) as [Y|_]; [injection Y as Y; contradiction | apply andb_true_r]).
    destruct (value_at M q =? 13) eqn:E1; [|destruct (value_at M q =? 24) eqn:E2].
    - apply Z.eqb_eq in E1. assert (Cb : came_by q DR = DU /\ came_by q DL = DD) by (unfold came_by, Proof_Svg.came_by; unfold value_at, corner_value in E1; destruct (nw M q), (ne M q), (sw M q), (se M q); try discriminate E1; auto).
      destruct T' as [-> | ->].
      + rewrite Ud, Ud', (Uo DL) in * by discriminate. destruct (U (q, DL)) eqn:UL; [|exists 1, 0; repeat split; lia].
        destruct Old as [Old|(o & -> & Ho & Vo)]; [lia|]. exists 1, 3. split; [lia|]. split; [reflexivity|]. split; [reflexivity|]. rewrite (proj1 Cb) in Vo. unfold resolve. cbn [Z.leb Z.ltb Z.eqb Z.compare andb Pos.compare Pos.compare_cont].
        assert (o = 4 \/ o = 7) as [-> | ->] by (unfold vdir in Vo; assert (X : o = 1 \/ o = 2 \/ o = 3 \/ o = 4 \/ o = 5 \/ o = 6 \/ o = 7 \/ o = 8) by lia; repeat (destruct X as [-> | X]; [cbn in Vo; first [discriminate Vo | auto]|]); subst o; cbn in Vo; first [discriminate Vo | auto]); reflexivity.
      + rewrite Ud, Ud', (Uo DR) in * by discriminate. destruct (U (q, DR)) eqn:UL; [|exists 3, 0; repeat split; lia].
        destruct Old as [Old|(o & -> & Ho & Vo)]; [lia|]. exists 3, 1. split; [lia|]. split; [reflexivity|]. split; [reflexivity|]. rewrite (proj2 Cb) in Vo. unfold resolve. cbn [Z.leb Z.ltb Z.eqb Z.compare andb Pos.compare Pos.compare_cont].
        assert (o = 2 \/ o = 5) as [-> | ->] by (unfold vdir in Vo; assert (X : o = 1 \/ o = 2 \/ o = 3 \/ o = 4 \/ o = 5 \/ o = 6 \/ o = 7 \/ o = 8) by lia; repeat (destruct X as [-> | X]; [cbn in Vo; first [discriminate Vo | auto]|]); subst o; cbn in Vo; first [discriminate Vo | auto]); reflexivity.
    - apply Z.eqb_eq in E2. assert (Cb : came_by q DD = DR /\ came_by q DU = DL) by (unfold came_by, Proof_Svg.came_by; unfold value_at, corner_value in E2; destruct (nw M q), (ne M q), (sw M q), (se M q); try discriminate E2; auto).
      destruct T' as [-> | ->].
      + rewrite Ud, Ud', (Uo DU) in * by discriminate. destruct (U (q, DU)) eqn:UL; [|exists 2, 0; repeat split; lia].
        destruct Old as [Old|(o & -> & Ho & Vo)]; [lia|]. exists 2, 4. split; [lia|]. split; [reflexivity|]. split; [reflexivity|]. rewrite (proj1 Cb) in Vo. unfold resolve. cbn [Z.leb Z.ltb Z.eqb Z.compare andb Pos.compare Pos.compare_cont].
        assert (o = 1 \/ o = 6) as [-> | ->] by (unfold vdir in Vo; assert (X : o = 1 \/ o = 2 \/ o = 3 \/ o = 4 \/ o = 5 \/ o = 6 \/ o = 7 \/ o = 8) by lia; repeat (destruct X as [-> | X]; [cbn in Vo; first [discriminate Vo | auto]|]); subst o; cbn in Vo; first [discriminate Vo | auto]); reflexivity.
      + rewrite Ud, Ud', (Uo DD) in * by discriminate. destruct (U (q, DD)) eqn:UL; [|exists 4, 0; repeat split; lia].
        destruct Old as [Old|(o & -> & Ho & Vo)]; [lia|]. exists 4, 2. split; [lia|]. split; [reflexivity|]. split; [reflexivity|]. rewrite (proj2 Cb) in Vo. unfold resolve. cbn [Z.leb Z.ltb Z.eqb Z.compare andb Pos.compare Pos.compare_cont].
        assert (o = 3 \/ o = 8) as [-> | ->] by (unfold vdir in Vo; assert (X : o = 1 \/ o = 2 \/ o = 3 \/ o = 4 \/ o = 5 \/ o = 6 \/ o = 7 \/ o = 8) by lia; repeat (destruct X as [-> | X]; [cbn in Vo; first [discriminate Vo | auto]|]); subst o; cbn in Vo; first [discriminate Vo | auto]); reflexivity.
    - subst d. rewrite Ud, Ud'. assert (Rg := value_range M q). apply Z.eqb_neq in E1, E2. exists (value_at M q), 0. split; [lia|]. split; [reflexivity|]. split; [reflexivity|]. unfold resolve. rewrite (proj2 (Z.leb_le 1 _)), (proj2 (Z.ltb_lt _ 9)) by lia. reflexivity. }
  destruct Key as (v & w & Rv & Dv & Lw & E). destruct (set_spec H W cs q w Sh Rq) as (cs' & Es & Sh' & G1 & G2). rewrite Es in E. cbn [bind] in E. exists v, cs'. split; [exact E|]. split; [exact Rv|]. split; [exact Dv|]. split; [exact Sh'|].
  intros p Rp. assert (Dec : p = q \/ p <> q) by (destruct (point_eqb p q) eqn:X; [left; apply point_eqb_ok, X | right; intro Y; apply point_eqb_ok in Y; congruence]). destruct Dec as [->|Np]; [rewrite G1, <- Lw; reflexivity|].
  rewrite (G2 p Rp Np), (Hg p Rp). f_equal. apply left_ext. intros d' _. unfold U'. destruct (edge_eq (p, d') (q, d)) as [X|_]; [injection X as X _; contradiction | symmetry; apply andb_true_r].
Qed.

Lemma direction_spec v : 1 <= v <= 8 -> direction v = Some (delta (vdir v)).
Proof. intro R. assert (X : v = 1 \/ v = 2 \/ v = 3 \/ v = 4 \/ v = 5 \/ v = 6 \/ v = 7 \/ v = 8) by lia. repeat (destruct X as [-> | X]; [reflexivity|]). subst v. reflexivity. Qed.

Lemma creep_spec cs U s : holds cs U -> value_at M s <> 0 -> forall t fuel q d, (1 <= t <= fuel)%nat -> (forall e, In e (tl (seg q d t)) -> turning e = false /\ edge e = true) -> inr H W (far q d t) ->
  value_at M (far q d t) <> 0 -> (far q d t <> s -> value_left U (far q d t) <> 0) ->
  creep fuel cs s (delta d) q = Ok (far q d t, if point_eqb (far q d t) s then 0 else value_left U (far q d t)).
Proof.
  intros [Sh Hg] Vs. induction t as [|t IH]; intros fuel q d Ht I R Vf L; [lia|]. destruct fuel as [|fuel]; [lia|]. cbn [creep far]. fold (move_on q d). cbn [seg tl far] in I, R, Vf, L.
  destruct t as [|t].
  - cbn [far] in *. destruct (point_eqb (move_on q d) s) eqn:E; [reflexivity|]. rewrite (Hg _ R). cbn [bind]. rewrite (proj2 (Z.eqb_neq _ 0)); [reflexivity|]. apply L. intro X. apply point_eqb_ok in X. congruence.
  - destruct (I (move_on q d, d)) as (T0 & E0); [left; reflexivity|]. assert (V0 := straight_zero M _ _ E0 T0). assert (N : point_eqb (move_on q d) s = false) by (destruct (point_eqb _ s) eqn:X; [apply point_eqb_ok in X; subst s; contradiction | reflexivity]). rewrite N.
    rewrite (Hg (move_on q d)) by (apply (edge_range M H W M_range _ d E0)). cbn [bind]. assert (Lz : value_left U (move_on q d) = 0) by (unfold value_left, Proof_Svg.value_left; rewrite V0; reflexivity). rewrite Lz. cbn [Z.eqb].
    apply IH; [lia | intros e He; apply I; right; exact He | exact R | exact Vf | exact L].
Qed.

Lemma holds_ext cs U U' : holds cs U -> (forall e, turning e = true -> U e = U' e) -> holds cs U'.
Proof. intros [Sh Hg] E. split; [exact Sh|]. intros q Rq. rewrite (Hg q Rq). f_equal. apply left_ext. intros d T. apply E, T. Qed.

(** all edges lie in the range *)
Definition all_edges : list edge_t :=
  flat_map (fun r => flat_map (fun c => map (fun d => ((Z.of_nat r, Z.of_nat c), d)) [DR; DD; DL; DU]) (seq 0 (W + 1))) (seq 0 (H + 1)).
Lemma all_edges_len : length all_edges = (4 * ((H + 1) * (W + 1)))%nat.
Proof.
  unfold all_edges. assert (G : forall (A B : Type) (f : A -> list B) k l, (forall x, length (f x) = k) -> length (flat_map f l) = (k * length l)%nat) by (intros A B f k l E; induction l as [|x l IH]; cbn [flat_map length]; [lia|]; rewrite app_length, E, IH; lia).
  rewrite (G _ _ _ (4 * (W + 1))%nat), seq_length; [lia|]. intro r. rewrite (G _ _ _ 4%nat), seq_length; [lia|]. reflexivity.
Qed.
Lemma edge_in e : edge e = true -> In e all_edges.
Proof.
  destruct e as [[r c] d]. intro E. apply (edge_range M H W M_range) in E as ((R1 & R2) & _). cbn [fst snd] in *. unfold all_edges. apply in_flat_map. exists (Z.to_nat r). split; [apply in_seq; lia|]. apply in_flat_map. exists (Z.to_nat c). split; [apply in_seq; lia|].
  rewrite !Z2Nat.id by lia. apply in_map. destruct d; cbn; auto.
Qed.
Lemma edges_bound l : NoDup l -> (forall e, In e l -> edge e = true) -> (length l <= 4 * ((H + 1) * (W + 1)))%nat.
Proof. intros N E. rewrite <- all_edges_len. apply NoDup_incl_length; [exact N|]. intros e He. apply edge_in, E, He. Qed.

(** runs *)
Definition to_move (r : dir * nat) : move := match fst r with DR => Hor (Z.of_nat (snd r)) | DL => Hor (- Z.of_nat (snd r)) | DD => Ver (Z.of_nat (snd r)) | DU => Ver (- Z.of_nat (snd r)) end.
Lemma to_move_far q r : after q (to_move r) = far q (fst r) (snd r).
Proof. rewrite far_spec. destruct q, r as [[] t]; unfold to_move; cbn [fst snd after delta]; f_equal; lia. Qed.
Fixpoint expand (q : point) (rs : list (dir * nat)) : list edge_t := match rs with [] => [] | r :: rs' => seg q (fst r) (snd r) ++ expand (far q (fst r) (snd r)) rs' end.
Fixpoint heads (q : point) (rs : list (dir * nat)) : list edge_t := match rs with [] => [] | r :: rs' => (q, fst r) :: heads (far q (fst r) (snd r)) rs' end.
Fixpoint linked (d : dir) (rs : list (dir * nat)) : Prop :=
  match rs with [] => False | r :: rs' => fst r = d /\ (1 <= snd r)%nat /\ match rs' with [] => True | _ => exists d', perp d d' /\ linked d' rs' end end.

Lemma seg_fresh e0 q d t e' : edge e0 = true -> turning e0 = true -> forall L, chain e0 L (q, d) -> NoDup L -> ~ In (q, d) L -> chain (q, d) (seg q d t) e' ->
  (forall e, In e (tl (seg q d t)) -> turning e = false /\ edge e = true) -> NoDup (L ++ seg q d t).
Proof.
  intros E0 T0. revert q. induction t as [|t IH]; intros q L C N F Cs I; [cbn [seg]; rewrite app_nil_r; exact N|]. cbn [seg]. cbn [seg Proof_Svg.chain] in Cs. destruct Cs as [_ Cs]. cbn [seg tl] in I.
  assert (N1 : NoDup (L ++ [(q, d)])) by (apply NoDup_app_intro; [exact N | repeat constructor; intros [] | intros x Hx [<-|[]]; contradiction]).
  assert (C1 : chain e0 (L ++ [(q, d)]) (succ M (q, d))) by (eapply chain_app; [exact C | split; reflexivity]).
  replace (L ++ (q, d) :: seg (move_on q d) d t) with ((L ++ [(q, d)]) ++ seg (move_on q d) d t) by (rewrite <- app_assoc; reflexivity).
  destruct t as [|t]; [cbn [seg]; rewrite app_nil_r; exact N1|]. assert (Es : succ M (q, d) = (move_on q d, d)) by (cbn [seg Proof_Svg.chain] in Cs; destruct Cs as [Cs _]; symmetry; exact Cs). rewrite Es in Cs, C1.
  apply IH; [exact C1 | exact N1 | | exact Cs | intros e He; apply I; right; exact He]. intro X. assert (Y := chain_fresh M e0 _ _ E0 C1 N1 X). destruct (I (move_on q d, d)) as (T1 & _); [left; reflexivity|]. unfold turning in T1, T0. congruence.
Qed.
Lemma filter_seg q d t : (1 <= t)%nat -> turning (q, d) = true -> (forall e, In e (tl (seg q d t)) -> turning e = false /\ edge e = true) -> filter turning (seg q d t) = [(q, d)].
Proof.
  intros Ht T I. destruct t as [|t]; [lia|]. cbn [seg filter tl] in *. rewrite T. f_equal. generalize dependent (seg (move_on q d) d t). induction l as [|x l IH]; intro I; [reflexivity|]. cbn [filter]. rewrite (proj1 (I x (or_introl eq_refl))). apply IH. intros e He. apply I. right. exact He.
Qed.
Lemma closed_loop e0 L : edge e0 = true -> chain e0 L e0 -> L <> [] -> forall e, edge e = true -> (In e L <-> In (succ M e) L).
Proof.
  intros E0 C NL e E. destruct (chain_nth M e0 L e0 C) as [E1 E2]. assert (Lp : (0 < length L)%nat) by (destruct L; [contradiction | cbn; lia]).
  split; intro X; apply In_nth_error in X as (i & Ei); assert (Li : (i < length L)%nat) by (apply nth_error_Some; rewrite Ei; discriminate); rewrite (E2 i Li) in Ei; injection Ei as Ei.
  - destruct (Nat.eq_dec (S i) (length L)) as [El|Nl].
    + assert (Es : succ M e = e0) by (rewrite <- Ei, <- nsucc_S, El; symmetry; exact E1). rewrite Es. apply (nth_error_In L 0). rewrite (E2 O Lp). reflexivity.
    + apply (nth_error_In L (S i)). rewrite (E2 (S i)) by lia. rewrite nsucc_S, Ei. reflexivity.
  - destruct i as [|i].
    + assert (Es : succ M (nsucc M (length L - 1) e0) = succ M e) by (rewrite <- nsucc_S; replace (S (length L - 1)) with (length L) by lia; rewrite <- Ei; symmetry; exact E1).
      apply succ_inj in Es; [|apply nsucc_edge, E0 | exact E]. apply (nth_error_In L (length L - 1)). rewrite (E2 (length L - 1)%nat) by lia. rewrite Es. reflexivity.
    + rewrite nsucc_S in Ei. apply succ_inj in Ei; [|apply nsucc_edge, E0 | exact E]. apply (nth_error_In L i). rewrite (E2 i) by lia. rewrite Ei. reflexivity.
Qed.

Lemma move_text_far q d t : (1 <= t)%nat -> (if fst (far q d t) =? fst q then lit "h" ++ str_int (snd (far q d t) - snd q) else lit "v" ++ str_int (fst (far q d t) - fst q)) = move_text (to_move (d, t)).
Proof.
  intro Ht. rewrite far_spec. unfold to_move. cbn [fst snd]. destruct d; cbn [delta fst snd move_text].
  - rewrite (proj2 (Z.eqb_eq _ _)) by lia. do 2 f_equal. lia.
  - rewrite (proj2 (Z.eqb_neq _ _)) by lia. do 2 f_equal. lia.
  - rewrite (proj2 (Z.eqb_eq _ _)) by lia. do 2 f_equal. lia.
  - rewrite (proj2 (Z.eqb_neq _ _)) by lia. do 2 f_equal. lia.
Qed.

(** one outline *)
Lemma loop_spec V s d0 : closed V -> turning (s, d0) = true -> ~ In (s, d0) V -> (forall d, turning (s, d) = true -> d = d0 \/ In (s, d) V) ->
  forall fuel cs q d L oldval path, chain (s, d0) L (q, d) -> NoDup L -> turning (q, d) = true -> ~ In (q, d) L -> holds cs (unv (V ++ L)) ->
  (1 <= value_left (unv (V ++ L)) q <= 8 \/ exists o, oldval = Some o /\ 1 <= o <= 8 /\ vdir o = came_by q d) -> (4 * ((H + 1) * (W + 1)) + 1 <= fuel + length L)%nat ->
  exists rs d1 t1 cs', let all := rs ++ [(d1, t1)] in
    step_loop fuel (H + W + 1) cs s q (value_left (unv (V ++ L)) q) oldval path = Ok (cs', path ++ List.concat (map move_text (map to_move rs))) /\
    chain (q, d) (expand q all) (s, d0) /\ NoDup (L ++ expand q all) /\ holds cs' (unv (V ++ L ++ expand q all)) /\ linked d all /\ filter turning (expand q all) = heads q all /\ came_by s d0 = d1.
Proof.
  intros CV T0 F0 U0. assert (E0 : edge (s, d0) = true) by (apply (turning_edge M), T0). assert (Vs : value_at M s <> 0) by (intro X; assert (Y := zero_turning M s d0 X); unfold turning in T0; congruence).
  induction fuel as [|fuel IH]; intros cs q d L oldval path C N T F Hh Old Hf.
  - exfalso. assert (B := edges_bound L N (proj1 (chain_edges M _ _ _ E0 C))). lia.
  - assert (E : edge (q, d) = true) by (apply (turning_edge M), T). assert (R := proj1 (edge_range M H W M_range q d E)).
    assert (FV : forall L' x, chain (s, d0) L' x -> ~ In x V) by (intros L' x C' X; apply F0; apply (proj1 (chain_closed M V _ _ _ CV E0 C')); exact X).
    assert (FVL : forall L' x y, chain (s, d0) L' x -> In y L' -> ~ In y V) by (intros L' x y C' Y X; apply F0; apply (proj2 (chain_closed M V _ _ _ CV E0 C') y Y); exact X).
    assert (Uq : unv (V ++ L) (q, d) = true) by (apply unv_true; intro X; apply in_app_or in X as [X|X]; [exact (FV _ _ C X) | exact (F X)]).
    destruct (resolve_spec cs (unv (V ++ L)) q d oldval Hh R T Uq Old) as (v & cs1 & Er & Rv & Dv & Hh1). cbn [step_loop]. rewrite Er. cbn [bind fst snd]. rewrite (direction_spec v Rv), Dv.
    destruct (run M H W M_range q d E) as (t & L1 & L2 & Cr & I & Tf & Bf & Rf). set (p := far q d t) in *. set (d' := Proof_Svg.turn_to M p d) in *. clearbody d'.
    assert (Ht : (1 <= t <= H + W + 1)%nat) by (split; [exact L1|]; destruct R as [Ra Rb]; unfold dist in L2; destruct d; lia).
    assert (N1 := seg_fresh (s, d0) q d t _ E0 T0 L C N F Cr I).
    assert (C1 : chain (s, d0) (L ++ seg q d t) (p, d')) by (eapply chain_app; [exact C | exact Cr]).
    assert (Vp : value_at M p <> 0) by (intro X; assert (Y := zero_turning M p d' X); unfold turning in *; congruence).
    assert (Hh2 : holds cs1 (unv (V ++ L ++ seg q d t))).
    { apply (holds_ext _ _ _ Hh1). intros e Te. assert (Es : unv (V ++ L ++ seg q d t) e = true <-> (unv (V ++ L) e && (if edge_eq e (q, d) then false else true)) = true).
      { rewrite andb_true_iff, !unv_true. split.
        - intro X. split; [intro Y; apply X; rewrite app_assoc; apply in_or_app; left; exact Y|]. destruct (edge_eq e (q, d)) as [->|]; [|reflexivity]. exfalso. apply X. apply in_or_app. right. apply in_or_app. right. destruct t; [lia|]. left. reflexivity.
        - intros [X Y] Z0. rewrite app_assoc in Z0. apply in_app_or in Z0 as [Z0|Z0]; [exact (X Z0)|]. destruct t as [|t]; [lia|]. cbn [seg] in Z0. destruct Z0 as [<-|Z0]; [destruct (edge_eq (q, d) (q, d)) as [_|Q]; [discriminate Y | contradiction]|]. cbn [seg tl] in I. assert (Q := proj1 (I e Z0)). unfold turning in Te. congruence. }
      destruct (unv (V ++ L ++ seg q d t) e), (unv (V ++ L) e && _); destruct Es as [Es1 Es2]; try reflexivity; [discriminate (Es1 eq_refl) | discriminate (Es2 eq_refl)]. }
    assert (Fp : p <> s -> ~ In (p, d') (V ++ L ++ seg q d t)).
    { intros Np X. apply in_app_or in X as [X|X]; [exact (FV _ _ C1 X)|]. assert (Y := chain_fresh M _ _ _ E0 C1 N1 X). injection Y as Y _. contradiction. }
    rewrite (creep_spec cs1 (unv (V ++ L ++ seg q d t)) s Hh2 Vs t (H + W + 1) q d Ht I Rf Vp); fold p.
    2:{ intros Np X. apply (left_zero M) with (d := d') in X; [|exact Tf]. apply unv_false in X. exact (Fp Np X). }
    cbn [bind fst snd]. assert (Mt := move_text_far q d t L1). fold p in Mt. rewrite Mt. destruct (point_eqb p s) eqn:Ep.
    + apply point_eqb_ok in Ep. exists [], d, t, cs1. cbn zeta. cbn [app map List.concat expand heads linked fst snd]. rewrite !app_nil_r. split; [reflexivity|]. assert (Ed : (p, d') = (s, d0)).
      { rewrite Ep in Tf |- *. f_equal. destruct (U0 d' Tf) as [X|X]; [exact X|]. exfalso. rewrite Ep in C1. exact (FV _ _ C1 X). }
      assert (Ed' : d' = d0) by (injection Ed; auto). split; [rewrite <- Ed; exact Cr|]. split; [exact N1|]. split; [exact Hh2|]. split; [auto|]. split; [apply filter_seg; assumption|]. rewrite <- Ed', <- Ep. exact Bf.
    + assert (Np : p <> s) by (intro X; apply point_eqb_ok in X; congruence).
      destruct (IH cs1 p d' (L ++ seg q d t) (Some v) (path ++ move_text (to_move (d, t)))) as (rs & d1 & t1 & cs' & Q1 & Q2 & Q3 & Q4 & Q5 & Q6 & Q7).
      * exact C1.
      * exact N1.
      * exact Tf.
      * intro X. apply (Fp Np). apply in_or_app. right. exact X.
      * exact Hh2.
      * right. exists v. split; [reflexivity|]. split; [exact Rv|]. rewrite Dv. symmetry. exact Bf.
      * rewrite app_length. assert (Ls : length (seg q d t) = t) by (clear; revert q; induction t as [|t IHt]; intro q; [reflexivity|]; cbn [seg length]; f_equal; apply IHt). lia.
      * exists ((d, t) :: rs), d1, t1, cs'. cbn zeta in *. cbn [app expand heads map List.concat linked fst snd]. fold p. split; [rewrite Q1, <- app_assoc; reflexivity|]. split; [eapply chain_app; [exact Cr | exact Q2]|]. split; [rewrite app_assoc; exact Q3|].
        split; [rewrite <- app_assoc in Q4; exact Q4|]. split; [|split; [|exact Q7]].
        -- split; [reflexivity|]. split; [exact L1|]. destruct (rs ++ [(d1, t1)]) as [|x l] eqn:El; [exact Logic.I|]. exists d'. split; [|exact Q5]. assert (P := turning_perp M p d' Tf). rewrite Bf in P. exact P.
        -- rewrite filter_app, (filter_seg q d t L1 T I), Q6. reflexivity.
Qed.
End Loops.
