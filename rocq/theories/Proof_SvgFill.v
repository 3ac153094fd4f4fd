(** Proof_SvgFill: what the outlines fill, where they have corners, and what their text tells. *)

From Coq Require Import String Ascii.
From Coq Require Import List Arith ZArith Bool Lia Permutation Sorted.
From Verif Require Import Model_Base Lib Model_Str Proof_Str Model_Svg Spec_Svg Proof_PermMore Proof_Svg Proof_SvgLoop Proof_SvgPath.
Import ListNotations Model_Str.
Local Open Scope Z_scope.

(** * the corners of a matrix *)
Definition is_matrix (wide : nat) (rows : list (list bool)) : Prop := Forall (fun row => length row = wide) rows.
Lemma entry_range wide rows i j : is_matrix wide rows -> entry rows i j = true -> 0 <= i < Z.of_nat (length rows) /\ 0 <= j < Z.of_nat wide.
Proof.
  intros F E. unfold entry in E. destruct ((0 <=? i) && (0 <=? j)) eqn:G; [|discriminate E]. apply andb_true_iff in G as [G1 G2]. apply Z.leb_le in G1, G2.
  assert (L1 : (Z.to_nat i < length rows)%nat). { destruct (Nat.lt_ge_cases (Z.to_nat i) (length rows)) as [L|L]; [exact L|]. rewrite (nth_overflow rows) in E by exact L. destruct (Z.to_nat j); discriminate E. }
  assert (L2 : length (nth (Z.to_nat i) rows []) = wide) by (unfold is_matrix in F; rewrite Forall_forall in F; apply F, nth_In, L1).
  assert (L3 : (Z.to_nat j < wide)%nat). { rewrite <- L2. destruct (Nat.lt_ge_cases (Z.to_nat j) (length (nth (Z.to_nat i) rows []))) as [L|L]; [exact L|]. rewrite (nth_overflow (nth _ _ _)) in E by exact L. discriminate E. }
  lia.
Qed.
Lemma nth_end (row : list bool) n : nth n (row ++ [false]) false = nth n row false.
Proof. revert n. induction row as [|b row IH]; intros [|n]; cbn; try reflexivity; [destruct n; reflexivity | apply IH]. Qed.
Lemma nth_zero k n : nth n (repeat false k) false = false.
Proof. revert n. induction k as [|k IH]; intros [|n]; cbn; auto. Qed.
Lemma pad_entry wide rows m n : nth n (nth m (padded wide rows) []) false = entry rows (Z.of_nat m - 1) (Z.of_nat n - 1).
Proof.
  unfold padded, entry. destruct m as [|m].
  - cbn [nth]. rewrite nth_zero. reflexivity.
  - rewrite (proj2 (Z.leb_le 0 (Z.of_nat (S m) - 1))) by lia. cbn [andb]. replace (Z.to_nat (Z.of_nat (S m) - 1)) with m by lia. cbn [nth].
    destruct (Nat.lt_ge_cases m (length rows)) as [L|L].
    + rewrite app_nth1 by (rewrite map_length; exact L). rewrite (nth_indep (map _ _) [] ((fun row => false :: row ++ [false]) [])) by (rewrite map_length; exact L). rewrite (map_nth (fun row => false :: row ++ [false])). destruct n as [|n]; [reflexivity|].
      rewrite (proj2 (Z.leb_le 0 (Z.of_nat (S n) - 1))) by lia. replace (Z.to_nat (Z.of_nat (S n) - 1)) with n by lia. cbn [nth]. apply nth_end.
    + rewrite app_nth2 by (rewrite map_length; exact L). rewrite (nth_overflow rows) by exact L. rewrite map_length. replace (if 0 <=? Z.of_nat n - 1 then nth (Z.to_nat (Z.of_nat n - 1)) [] false else false) with false by (destruct (0 <=? Z.of_nat n - 1); [destruct (Z.to_nat (Z.of_nat n - 1)); reflexivity | reflexivity]).
      destruct (m - length rows)%nat as [|[|k]]; cbn [nth]; [apply nth_zero | destruct n; reflexivity | destruct n; reflexivity].
Qed.
Lemma nth_map_seq {A} (f : nat -> A) k n d : (n < k)%nat -> nth n (map f (seq 0 k)) d = f n.
Proof. intro L. rewrite (nth_indep _ d (f O)) by (rewrite map_length, seq_length; exact L). rewrite map_nth, seq_nth by exact L. reflexivity. Qed.
Lemma unv_nil q M : value_left M (unv []) q = value_at M q.
Proof. unfold value_left, unv. cbn [in_dec In]. destruct (Z.eqb_spec (value_at M q) 0) as [->|_]; [reflexivity|]. cbn. destruct (Z.eqb_spec (value_at M q) 13) as [->|_]; [reflexivity|]. destruct (Z.eqb_spec (value_at M q) 24) as [->|_]; reflexivity. Qed.
Lemma corners_holds wide rows : holds (entry rows) (length rows) wide (bin2corners wide rows) (unv []).
Proof.
  assert (Sh : shape (length rows) wide (bin2corners wide rows)). { unfold bin2corners. split; [rewrite map_length, seq_length; reflexivity|]. apply Forall_forall. intros row Hr. apply in_map_iff in Hr as (m & <- & _). rewrite map_length, seq_length. reflexivity. }
  split; [exact Sh|]. intros q Rq. rewrite (get_spec _ _ _ _ Sh Rq), unv_nil. f_equal. destruct Rq as [R1 R2]. unfold bin2corners. rewrite nth_map_seq by lia. rewrite nth_map_seq by lia. rewrite !pad_entry.
  unfold value_at, nw, ne, sw, se. rewrite !Nat2Z.inj_succ, !Z2Nat.id by lia. replace (Z.succ (fst q) - 1) with (fst q) by lia. replace (Z.succ (snd q) - 1) with (snd q) by lia. reflexivity.
Qed.

(** * sums over edges *)
Definition zs {A} (f : A -> Z) (l : list A) : Z := fold_right Z.add 0 (map f l).
Lemma zs_app {A} (f : A -> Z) l l' : zs f (l ++ l') = zs f l + zs f l'.
Proof. unfold zs. induction l as [|x l IH]; cbn; lia. Qed.
Lemma zs_flat {A B} (f : B -> Z) (g : A -> list B) l : zs f (flat_map g l) = zs (fun x => zs f (g x)) l.
Proof. induction l as [|x l IH]; [reflexivity|]. cbn [flat_map]. rewrite zs_app, IH. reflexivity. Qed.
Lemma zs_perm {A} (f : A -> Z) l l' : Permutation l l' -> zs f l = zs f l'.
Proof. unfold zs. induction 1; cbn in *; lia. Qed.
Lemma zs_filter {A} (f : A -> Z) (b : A -> bool) l : (forall x, b x = false -> f x = 0) -> zs f (filter b l) = zs f l.
Proof. intro Hb. unfold zs. induction l as [|x l IH]; [reflexivity|]. cbn [filter]. destruct (b x) eqn:E; cbn [map fold_right]; [lia|]. rewrite (Hb x E). cbn in *. lia. Qed.
Lemma zs_ext {A} (f g : A -> Z) l : (forall x, In x l -> f x = g x) -> zs f l = zs g l.
Proof. intro E. unfold zs. f_equal. apply map_ext_in, E. Qed.

Definition cr (i j : Z) (e : edge_t) : Z := crossing i j (fst e) (move_on (fst e) (snd e)).
Lemma crossing_same i j p q : fst p = fst q -> crossing i j p q = 0.
Proof. intro E. unfold crossing. rewrite E. destruct (j <? snd p); [|reflexivity]. destruct (Z.leb_spec (fst q) i), (Z.ltb_spec i (fst q)); cbn; lia. Qed.
Lemma crossing_seg i j q d t : crossing i j q (far q d t) = zs (cr i j) (seg q d t).
Proof.
  revert q. induction t as [|t IH]; intro q; [apply crossing_same; reflexivity|]. cbn [seg]. change (zs (cr i j) ((q, d) :: seg (move_on q d) d t)) with (cr i j (q, d) + zs (cr i j) (seg (move_on q d) d t)). rewrite <- IH. rewrite !far_spec. unfold cr, crossing, move_on. cbn [fst snd].
  destruct d; cbn [delta fst snd].
  - destruct (j <? snd q), (j <? snd q + 1); repeat (match goal with |- context [?a <=? ?b] => destruct (Z.leb_spec a b) | |- context [?a <? ?b] => destruct (Z.ltb_spec a b) end; cbn [andb]); lia.
  - replace (snd q + 0) with (snd q) by lia. destruct (j <? snd q); [|lia]. repeat (match goal with |- context [?a <=? ?b] => destruct (Z.leb_spec a b) | |- context [?a <? ?b] => destruct (Z.ltb_spec a b) end; cbn [andb]); lia.
  - destruct (j <? snd q), (j <? snd q + -1); repeat (match goal with |- context [?a <=? ?b] => destruct (Z.leb_spec a b) | |- context [?a <? ?b] => destruct (Z.ltb_spec a b) end; cbn [andb]); lia.
  - replace (snd q + 0) with (snd q) by lia. destruct (j <? snd q); [|lia]. repeat (match goal with |- context [?a <=? ?b] => destruct (Z.leb_spec a b) | |- context [?a <? ?b] => destruct (Z.ltb_spec a b) end; cbn [andb]); lia.
Qed.
Fixpoint goal (q : point) (rs : list (dir * nat)) : point := match rs with [] => q | r :: rs' => goal (far q (fst r) (snd r)) rs' end.
Lemma crossings_expand i j s r : forall rs q, goal q (rs ++ [r]) = s -> crossings i j s q (map to_move rs) = zs (cr i j) (expand q (rs ++ [r])).
Proof.
  induction rs as [|x rs IH]; intros q G; cbn [app map crossings expand goal] in *.
  - rewrite app_nil_r, <- G. apply crossing_seg.
  - rewrite to_move_far, (IH _ G), zs_app, crossing_seg. reflexivity.
Qed.
Lemma heads_vertices r : forall rs q, map fst (heads q (rs ++ [r])) = corners_from q (map to_move rs).
Proof. induction rs as [|x rs IH]; intro q; cbn [app map heads corners_from fst]; [reflexivity|]. rewrite to_move_far, IH. reflexivity. Qed.
Lemma last_vertex (r : dir * nat) d : forall rs q, after (last (corners_from q (map to_move rs)) d) (to_move r) = goal q (rs ++ [r]).
Proof.
  induction rs as [|x rs IH]; intro q; cbn [app map corners_from goal last].
  - apply to_move_far.
  - rewrite <- IH, <- to_move_far. destruct (map to_move rs); reflexivity.
Qed.

Section Fill.
Context (M : Z -> Z -> bool) (H W : nat) (M_range : forall i j, M i j = true -> 0 <= i < Z.of_nat H /\ 0 <= j < Z.of_nat W).

Lemma chain_split l l' : forall e e'', chain M e (l ++ l') e'' -> exists e', chain M e l e' /\ chain M e' l' e''.
Proof.
  induction l as [|x l IH]; intros e e'' C; cbn [app chain] in *; [exists e; split; [reflexivity | exact C]|]. destruct C as [-> C]. destruct (IH _ _ C) as (e' & C1 & C2). exists e'. repeat split; assumption.
Qed.
Lemma seg_end d : forall t q e e', (1 <= t)%nat -> chain M e (seg q d t) e' -> fst e' = far q d t.
Proof.
  induction t as [|t IH]; intros q e e' Ht C; [lia|]. cbn [seg chain far] in *. destruct C as [<- C]. destruct t as [|t]; [cbn [seg chain far] in *; subst e'; reflexivity|]. apply (IH _ _ _ ltac:(lia) C).
Qed.
Lemma expand_end : forall rs q d e e', linked d rs -> chain M e (expand q rs) e' -> fst e' = goal q rs.
Proof.
  induction rs as [|r rs IH]; intros q d e e' Lk C; [destruct Lk|]. cbn [linked expand goal] in *. destruct Lk as (_ & Ht & Lk). apply chain_split in C as (e1 & C1 & C2). assert (E1 := seg_end _ _ _ _ _ Ht C1).
  destruct rs as [|r' rs]; [cbn [expand chain goal] in *; subst e'; exact E1|]. destruct Lk as (d' & _ & Lk). exact (IH _ _ _ _ Lk C2).
Qed.
Lemma good_goal o : good M o -> goal (o_start o) (o_runs o) = o_start o.
Proof. intros (d0 & _ & C & Lk & _). symmetry. exact (expand_end _ _ _ _ _ Lk C). Qed.

Lemma perp_turns r r' : perp (fst r) (fst r') -> turns (to_move r) (to_move r').
Proof. destruct r as [[] t], r' as [[] t']; cbn; auto. Qed.
Lemma linked_moves : forall rs d, linked d rs -> Forall proper (map to_move rs) /\ alternating (map to_move rs).
Proof.
  induction rs as [|r rs IH]; intros d Lk; [destruct Lk|]. cbn [linked map] in *. destruct Lk as (Ed & Ht & Lk). assert (P : proper (to_move r)) by (destruct r as [[] t]; cbn in *; lia). destruct rs as [|r' rs]; [split; [repeat constructor; exact P | exact I]|].
  destruct Lk as (d' & Pd & Lk). destruct (IH _ Lk) as [I1 I2]. split; [constructor; assumption|]. cbn [map alternating] in *. split; [|exact I2]. apply perp_turns. cbn [linked] in Lk. rewrite Ed, (proj1 Lk). exact Pd.
Qed.
Lemma good_rectilinear o : good M o -> rectilinear (o_polygon o).
Proof.
  intros Go. assert (Gg := good_goal o Go). destruct Go as (d0 & T0 & C & Lk & _ & Cm). destruct o as [[s rs] r]. unfold o_polygon, o_runs, o_start, o_edges, o_start, o_runs in *. cbn [fst snd] in *. exists (to_move r). unfold vertices. cbn [fst snd]. split; [rewrite last_vertex; exact Gg|].
  destruct (linked_moves _ _ Lk) as [L1 L2]. rewrite map_app in L1, L2. split; [exact L1|]. split; [exact L2|]. destruct rs as [|x rs].
  - exfalso. cbn [app goal linked] in *. rewrite far_spec in Gg. destruct s as [a b], r as [[] t]; cbn [fst snd delta] in *; injection Gg as G1 G2; lia.
  - cbn [map]. apply perp_turns. cbn [app linked] in Lk. rewrite (proj1 Lk), <- Cm. apply turning_perp. exact T0.
Qed.
Lemma good_crossings i j o : good M o -> crossings i j (o_start o) (o_start o) (snd (o_polygon o)) = zs (cr i j) (o_edges o).
Proof. intro Go. apply crossings_expand. exact (good_goal o Go). Qed.

(** the sum over all edges *)
Lemma fill_sum V i j : NoDup V -> (forall e, In e V <-> edge M e = true) -> zs (cr i j) V = if M i j then 1 else 0.
Proof.
  intros NV EV. set (N := Z.to_nat (Z.of_nat W + 1 - j)).
  set (C := flat_map (fun k => let c := j + 1 + Z.of_nat k in (if edge M ((i, c), DD) then [((i, c), DD)] else []) ++ (if edge M ((i + 1, c), DU) then [((i + 1, c), DU)] else [])) (seq 0 N)).
  assert (B : forall e, (if cr i j e =? 0 then false else true) = true <-> (j < snd (fst e) /\ ((snd e = DD /\ fst (fst e) = i) \/ (snd e = DU /\ fst (fst e) = i + 1)))).
  { intros [[r c] d]. unfold cr, crossing, move_on. cbn [fst snd]. destruct (Z.ltb_spec j c) as [L|L]; [|split; [discriminate | lia]].
    destruct d; cbn [delta fst snd]; repeat (match goal with |- context [?a <=? ?b] => destruct (Z.leb_spec a b) | |- context [?a <? ?b] => destruct (Z.ltb_spec a b) end; cbn [andb]);
      cbn [Z.eqb]; split; intro X; try discriminate X; try reflexivity; try (split; [lia|]); try (exfalso; lia); try (destruct X as (_ & [[X1 X2]|[X1 X2]]); try discriminate X1; lia); try (left; split; [reflexivity | lia]); try (right; split; [reflexivity | lia]). }
  assert (InC : forall e, In e C <-> edge M e = true /\ (j < snd (fst e) /\ ((snd e = DD /\ fst (fst e) = i) \/ (snd e = DU /\ fst (fst e) = i + 1)))).
  { intro e. unfold C. rewrite in_flat_map. split.
    - intros (k & Hk & X). cbn zeta in X. apply in_app_or in X as [X|X]; destruct (edge M _) eqn:E in X; try destruct X as [<-|[]]; try destruct X; (split; [exact E|]); cbn [fst snd]; (split; [lia|]); [left | right]; auto.
    - intros (E & L & D). destruct e as [[r c] d]. cbn [fst snd] in *. assert (R := edge_range M H W M_range _ _ E). unfold inr in R. cbn [fst snd] in R. exists (Z.to_nat (c - j - 1)). split; [apply in_seq; lia|]. cbn zeta. replace (j + 1 + Z.of_nat (Z.to_nat (c - j - 1))) with c by lia. apply in_or_app.
      destruct D as [[-> ->]|[-> ->]]; rewrite E; [left | right]; left; reflexivity. }
  assert (NC : NoDup C).
  { unfold C. generalize N. clear - M. intro N. induction N as [|N IH]; [constructor|]. rewrite seq_S, flat_map_app. apply NoDup_app_intro; [exact IH| |].
    - cbn [flat_map]. rewrite app_nil_r. cbn zeta. destruct (edge M (i, _, DD)), (edge M (i + 1, _, DU)); repeat constructor; cbn [In]; intro X; try destruct X as [X|X]; try discriminate X; exact X || (destruct X).
    - intros e X Y. apply in_flat_map in X as (k & Hk & X). apply in_flat_map in Y as (k' & Hk' & Y). apply in_seq in Hk. destruct Hk' as [<-|[]]. cbn zeta in X, Y. apply in_app_or in X. apply in_app_or in Y.
      assert (X' : snd (fst e) = j + 1 + Z.of_nat k) by (destruct X as [X|X]; destruct (edge M _) in X; try destruct X as [<-|[]]; try destruct X; reflexivity).
      assert (Y' : snd (fst e) = j + 1 + Z.of_nat (0 + N)) by (destruct Y as [Y|Y]; destruct (edge M _) in Y; try destruct Y as [<-|[]]; try destruct Y; reflexivity). lia. }
  rewrite <- (zs_filter (cr i j) (fun e => if cr i j e =? 0 then false else true)) by (intros e; destruct (Z.eqb_spec (cr i j e) 0); [auto | discriminate]).
  rewrite (zs_perm (cr i j) _ C).
  2:{ apply NoDup_Permutation; [apply NoDup_filter, NV | exact NC|]. intro e. rewrite filter_In, B, EV, InC. reflexivity. }
  unfold C. rewrite zs_flat. rewrite (zs_ext _ (fun k => (if M i (j + Z.of_nat k) then 1 else 0) - (if M i (j + Z.of_nat (S k)) then 1 else 0))).
  - assert (Tele : forall n, zs (fun k => (if M i (j + Z.of_nat k) then 1 else 0) - (if M i (j + Z.of_nat (S k)) then 1 else 0)) (seq 0 n) = (if M i j then 1 else 0) - (if M i (j + Z.of_nat n) then 1 else 0)).
    { induction n as [|n IH]; [cbn; replace (j + 0) with j by lia; lia|]. rewrite seq_S, zs_app, IH. unfold zs. cbn [map fold_right]. replace (0 + n)%nat with n by lia. lia. }
    rewrite Tele. destruct (M i (j + Z.of_nat N)) eqn:E; [|lia]. apply M_range in E. lia.
  - intros k _. cbn zeta. rewrite zs_app. unfold edge. unfold nw, ne, sw, se. cbn [fst snd]. replace (i + 1 - 1) with i by lia. replace (j + 1 + Z.of_nat k - 1) with (j + Z.of_nat k) by lia. replace (j + Z.of_nat (S k)) with (j + 1 + Z.of_nat k) by lia.
    assert (C1 : cr i j (i, j + 1 + Z.of_nat k, DD) = 1). { unfold cr, crossing, move_on. cbn [fst snd delta]. rewrite (proj2 (Z.ltb_lt j _)), (proj2 (Z.leb_le i i)), (proj2 (Z.ltb_lt i _)) by lia. reflexivity. }
    assert (C2 : cr i j (i + 1, j + 1 + Z.of_nat k, DU) = -1). { unfold cr, crossing, move_on. cbn [fst snd delta]. rewrite (proj2 (Z.ltb_lt j _)) by lia. rewrite (proj2 (Z.leb_gt (i + 1) i)) by lia. cbn [andb]. rewrite (proj2 (Z.leb_le _ i)), (proj2 (Z.ltb_lt i _)) by lia. reflexivity. }
    destruct (M i (j + Z.of_nat k)), (M i (j + 1 + Z.of_nat k)); cbn [negb andb]; unfold zs; cbn [map fold_right]; rewrite ?C1, ?C2; lia.
Qed.

(** the corners *)
Lemma count_length {A B} (dec : forall x y : B, {x = y} + {x <> y}) (f : A -> B) p l : count_occ dec (map f l) p = length (filter (fun e => if dec (f e) p then true else false) l).
Proof. induction l as [|x l IH]; [reflexivity|]. cbn [map count_occ filter]. destruct (dec (f x) p); cbn [length]; rewrite IH; reflexivity. Qed.
Lemma corner_count V p dec : NoDup V -> (forall e, In e V <-> edge M e = true) -> count_occ dec (map fst (filter (turning M) V)) p = length (filter (turning M) (map (fun d => (p, d)) [DR; DD; DL; DU])).
Proof.
  intros NV EV. rewrite count_length. apply Permutation_length. apply NoDup_Permutation.
  - apply NoDup_filter, NoDup_filter, NV.
  - apply NoDup_filter. repeat constructor; cbn; intuition discriminate.
  - intros [q d]. rewrite !filter_In, EV, in_map_iff. cbn [fst snd]. split.
    + intros ((_ & T) & E). split; [|exact T]. destruct (dec q p) as [->|]; [|discriminate E]. exists d. split; [reflexivity|]. destruct d; cbn; auto.
    + intros ((d' & E & _) & T). injection E as -> ->. split; [split; [apply turning_edge, T | exact T]|]. destruct (dec q q) as [_|N]; [reflexivity | contradiction].
Qed.
End Fill.
