(** Proof_Svg: the directed boundary of a binary matrix, and its outlines. *)

From Coq Require Import String Ascii.
From Coq Require Import List Arith ZArith Bool Lia Permutation.
From Verif Require Import Model_Base Lib Model_Str Model_Svg Spec_Svg.
Import ListNotations Model_Str.
Local Open Scope Z_scope.

(** directions; an edge is its beginning and its direction, the filled cell is on the right *)
Inductive dir := DR | DD | DL | DU.
Definition delta (d : dir) : point := match d with DR => (0, 1) | DD => (1, 0) | DL => (0, -1) | DU => (-1, 0) end.
Definition move_on (p : point) (d : dir) : point := (fst p + fst (delta d), snd p + snd (delta d)).
Definition dir_eq (d e : dir) : {d = e} + {d <> e}.
Proof. decide equality. Defined.
Definition edge_t := (point * dir)%type.
Definition edge_eq (e e' : edge_t) : {e = e'} + {e <> e'}.
Proof. repeat decide equality. Defined.

Lemma move_on_inj p q d : move_on p d = move_on q d -> p = q.
Proof. destruct p, q, d; unfold move_on; cbn; intro E; injection E as E1 E2; f_equal; lia. Qed.

Section Boundary.
Context (M : Z -> Z -> bool).

Definition nw (p : point) := M (fst p - 1) (snd p - 1).
Definition ne (p : point) := M (fst p - 1) (snd p).
Definition sw (p : point) := M (fst p) (snd p - 1).
Definition se (p : point) := M (fst p) (snd p).
Definition edge (e : edge_t) : bool :=
  let (p, d) := e in
  match d with
  | DR => negb (ne p) && se p
  | DD => sw p && negb (se p)
  | DL => nw p && negb (sw p)
  | DU => ne p && negb (nw p)
  end.
Definition arrives (q : point) (d : dir) : bool :=
  match d with
  | DR => negb (nw q) && sw q
  | DD => nw q && negb (ne q)
  | DL => ne q && negb (se q)
  | DU => se q && negb (sw q)
  end.
Lemma arrives_edge p d : arrives (move_on p d) d = edge (p, d).
Proof.
  destruct p as [r c], d; unfold arrives, edge, nw, ne, sw, se, move_on; cbn [fst snd delta]; replace (r + 0) with r by lia; replace (c + 0) with c by lia;
    replace (c + 1 - 1) with c by lia; replace (r + 1 - 1) with r by lia; replace (c + -1) with (c - 1) by lia; replace (r + -1) with (r - 1) by lia; try reflexivity.
Qed.

(** where the outline goes on *)
Definition turn_to (q : point) (d : dir) : dir :=
  match d with
  | DR => if negb (se q) then DD else if negb (ne q) then DR else DU
  | DD => if negb (sw q) then DL else if negb (se q) then DD else DR
  | DL => if negb (nw q) then DU else if negb (sw q) then DL else DD
  | DU => if negb (ne q) then DR else if negb (nw q) then DU else DL
  end.
Definition came_by (q : point) (d : dir) : dir :=
  match d with
  | DR => if negb (sw q) then DU else if negb (nw q) then DR else DD
  | DD => if negb (nw q) then DR else if negb (ne q) then DD else DL
  | DL => if negb (ne q) then DD else if negb (se q) then DL else DU
  | DU => if negb (se q) then DL else if negb (sw q) then DU else DR
  end.
Lemma turn_edge q d : arrives q d = true -> edge (q, turn_to q d) = true /\ came_by q (turn_to q d) = d.
Proof. unfold arrives, edge, turn_to, came_by. destruct d, (nw q), (ne q), (sw q), (se q); cbn; intro H; try discriminate H; auto. Qed.
Lemma came_arrives q d : edge (q, d) = true -> arrives q (came_by q d) = true /\ turn_to q (came_by q d) = d.
Proof. unfold arrives, edge, turn_to, came_by. destruct d, (nw q), (ne q), (sw q), (se q); cbn; intro H; try discriminate H; auto. Qed.

Definition succ (e : edge_t) : edge_t := let q := move_on (fst e) (snd e) in (q, turn_to q (snd e)).
Definition back (q : point) (d : dir) : point := (fst q - fst (delta d), snd q - snd (delta d)).
Definition pred (e : edge_t) : edge_t := let d := came_by (fst e) (snd e) in (back (fst e) d, d).
Lemma back_on q d : move_on (back q d) d = q.
Proof. destruct q, d; unfold move_on, back; cbn; f_equal; lia. Qed.
Lemma on_back q d : back (move_on q d) d = q.
Proof. destruct q, d; unfold move_on, back; cbn; f_equal; lia. Qed.
Lemma succ_edge e : edge e = true -> edge (succ e) = true.
Proof. destruct e as [p d]. intro H. unfold succ. cbn [fst snd]. apply turn_edge. rewrite arrives_edge. exact H. Qed.
Lemma pred_succ e : edge e = true -> pred (succ e) = e.
Proof.
  destruct e as [p d]. intro H. rewrite <- arrives_edge in H. destruct (turn_edge _ _ H) as (_ & E). unfold pred, succ. cbn [fst snd]. rewrite E, on_back. reflexivity.
Qed.
Lemma pred_edge e : edge e = true -> edge (pred e) = true /\ succ (pred e) = e.
Proof.
  destruct e as [q d]. intro H. destruct (came_arrives q d H) as (A & T). unfold pred, succ. cbn [fst snd]. rewrite back_on, T. split; [|reflexivity]. rewrite <- arrives_edge, back_on. exact A.
Qed.
Lemma succ_inj e e' : edge e = true -> edge e' = true -> succ e = succ e' -> e = e'.
Proof. intros H H' E. rewrite <- (pred_succ e H), <- (pred_succ e' H'), E. reflexivity. Qed.

(** an edge that begins with a turn *)
Definition turning (e : edge_t) : bool := edge e && if dir_eq (came_by (fst e) (snd e)) (snd e) then false else true.
Definition value_at (q : point) : Z := corner_value (nw q) (ne q) (sw q) (se q).
Lemma straight_zero q d : edge (q, d) = true -> turning (q, d) = false -> value_at q = 0.
Proof. unfold turning, edge, value_at, came_by, corner_value. cbn [fst snd]. destruct d, (nw q), (ne q), (sw q), (se q); cbn; intros H H'; try discriminate H; try discriminate H'; reflexivity. Qed.
Lemma zero_turning q d : value_at q = 0 -> turning (q, d) = false.
Proof. unfold turning, edge, value_at, came_by, corner_value. cbn [fst snd]. destruct d, (nw q), (ne q), (sw q), (se q); cbn; intro H; try discriminate H; reflexivity. Qed.
Lemma turning_edge e : turning e = true -> edge e = true.
Proof. unfold turning. intro H. apply andb_true_iff in H. apply H. Qed.

(** the value of a corner when some of its edges are visited *)
Definition vdir (v : Z) : dir := if (v =? 1) || (v =? 6) then DR else if (v =? 2) || (v =? 5) then DD else if (v =? 3) || (v =? 8) then DL else DU.
Definition value_left (U : edge_t -> bool) (q : point) : Z :=
  let v := value_at q in
  if v =? 0 then 0
  else if v =? 13 then match U (q, DR), U (q, DL) with true, true => 13 | true, false => 1 | false, true => 3 | false, false => 0 end
  else if v =? 24 then match U (q, DD), U (q, DU) with true, true => 24 | true, false => 2 | false, true => 4 | false, false => 0 end
  else if U (q, vdir v) then v else 0.

Lemma value_turning q d : turning (q, d) = true <-> value_at q <> 0 /\ (if value_at q =? 13 then d = DR \/ d = DL else if value_at q =? 24 then d = DD \/ d = DU else d = vdir (value_at q)).
Proof.
  unfold turning, edge, value_at, came_by, corner_value. cbn [fst snd].
  destruct d, (nw q), (ne q), (sw q), (se q); cbn; (split; [intro H; first [discriminate H | split; [discriminate | auto]] | intros [H1 H2]; first [reflexivity | exfalso; apply H1; reflexivity | discriminate H2 | destruct H2 as [H2|H2]; discriminate H2]]).
Qed.
Lemma value_some q : value_at q <> 0 -> exists d, turning (q, d) = true.
Proof.
  intro H. destruct (value_at q =? 13) eqn:E1; [exists DR; apply value_turning; rewrite E1; auto|]. destruct (value_at q =? 24) eqn:E2; [exists DD; apply value_turning; rewrite E1, E2; auto|].
  exists (vdir (value_at q)). apply value_turning. rewrite E1, E2. auto.
Qed.
Lemma value_range q : value_at q = 0 \/ 1 <= value_at q <= 8 \/ value_at q = 13 \/ value_at q = 24.
Proof. unfold value_at, corner_value. destruct (nw q), (ne q), (sw q), (se q); cbn; lia. Qed.

Lemma left_zero U q : value_left U q = 0 <-> forall d, turning (q, d) = true -> U (q, d) = false.
Proof.
  unfold value_left. cbn zeta. split.
  - intros H d T. apply value_turning in T as [N T]. rewrite (proj2 (Z.eqb_neq _ _) N) in H. destruct (value_at q =? 13) eqn:E1; [|destruct (value_at q =? 24) eqn:E2].
    + destruct T as [-> | ->], (U (q, DR)), (U (q, DL)); try discriminate H; reflexivity.
    + destruct T as [-> | ->], (U (q, DD)), (U (q, DU)); try discriminate H; reflexivity.
    + subst d. destruct (U _); [contradiction | reflexivity].
  - intro H. destruct (value_at q =? 0) eqn:E0; [reflexivity|]. apply Z.eqb_neq in E0. assert (G := value_turning q). destruct (value_at q =? 13) eqn:E1; [|destruct (value_at q =? 24) eqn:E2].
    + rewrite (H DR), (H DL) by (apply G; auto). reflexivity.
    + rewrite (H DD), (H DU) by (apply G; auto). reflexivity.
    + rewrite (H (vdir (value_at q))) by (apply G; auto). reflexivity.
Qed.

Definition perp (d d' : dir) : Prop := match d, d' with DR, DD | DR, DU | DL, DD | DL, DU | DD, DR | DD, DL | DU, DR | DU, DL => True | _, _ => False end.
Lemma turning_perp q d : turning (q, d) = true -> perp (came_by q d) d.
Proof. unfold turning, edge, came_by. cbn [fst snd]. destruct d, (nw q), (ne q), (sw q), (se q); cbn; intro H; try discriminate H; exact I. Qed.

(** straight runs *)
Fixpoint seg (q : point) (d : dir) (t : nat) : list edge_t := match t with O => [] | S t' => (q, d) :: seg (move_on q d) d t' end.
Fixpoint far (q : point) (d : dir) (t : nat) : point := match t with O => q | S t' => far (move_on q d) d t' end.
Fixpoint chain (e : edge_t) (l : list edge_t) (e' : edge_t) : Prop := match l with [] => e = e' | x :: l' => x = e /\ chain (succ e) l' e' end.

Lemma far_spec q d t : far q d t = (fst q + Z.of_nat t * fst (delta d), snd q + Z.of_nat t * snd (delta d)).
Proof.
  revert q. induction t as [|t IH]; intro q; cbn [far]; [destruct q; cbn; f_equal; lia|]. rewrite IH. unfold move_on. cbn [fst snd]. f_equal; destruct d; cbn [delta fst snd]; lia.
Qed.
Lemma chain_app e l e' l' e'' : chain e l e' -> chain e' l' e'' -> chain e (l ++ l') e''.
Proof. revert e. induction l as [|x l IH]; cbn [chain app]; intros e H H'; [subst; exact H'|]. destruct H as [-> H]. split; [reflexivity | apply IH; assumption]. Qed.
Lemma chain_edges e l e' : edge e = true -> chain e l e' -> (forall x, In x l -> edge x = true) /\ edge e' = true.
Proof.
  revert e. induction l as [|x l IH]; cbn [chain]; intros e H C; [subst; split; [intros x [] | exact H]|]. destruct C as [-> C]. destruct (IH _ (succ_edge _ H) C) as [I1 I2]. split; [|exact I2].
  intros x [<-|Hx]; [exact H | apply I1, Hx].
Qed.
(* a set of edges that contains with every edge the next one, and conversely *)
Definition closed (V : list edge_t) : Prop := forall e, edge e = true -> (In e V <-> In (succ e) V).
Lemma chain_closed V e l e' : closed V -> edge e = true -> chain e l e' -> (In e V <-> In e' V) /\ forall x, In x l -> (In x V <-> In e V).
Proof.
  intros HC. revert e. induction l as [|x l IH]; cbn [chain]; intros e H C; [subst; split; [reflexivity | intros x []]|]. destruct C as [-> C]. destruct (IH _ (succ_edge _ H) C) as [I1 I2]. assert (G := HC e H). split; [tauto|].
  intros x [<-|Hx]; [reflexivity|]. rewrite (I2 x Hx). tauto.
Qed.
Fixpoint nsucc (k : nat) (e : edge_t) : edge_t := match k with O => e | S k' => nsucc k' (succ e) end.
Lemma nsucc_S k e : nsucc (S k) e = succ (nsucc k e).
Proof. revert e. induction k as [|k IH]; intro e; [reflexivity|]. cbn [nsucc] in *. apply IH. Qed.
Lemma nsucc_edge k e : edge e = true -> edge (nsucc k e) = true.
Proof. revert e. induction k as [|k IH]; cbn [nsucc]; intros e H; [exact H | apply IH, succ_edge, H]. Qed.
Lemma chain_nth e l e' : chain e l e' -> e' = nsucc (length l) e /\ forall i, (i < length l)%nat -> nth_error l i = Some (nsucc i e).
Proof.
  revert e. induction l as [|x l IH]; cbn [chain length]; intros e C; [split; [auto | lia]|]. destruct C as [-> C]. destruct (IH _ C) as [I1 I2]. split; [exact I1|]. intros [|i] Hi; [reflexivity|]. cbn [nth_error nsucc]. apply I2. lia.
Qed.
Lemma chain_fresh e l e' : edge e = true -> chain e l e' -> NoDup l -> In e' l -> e' = e.
Proof.
  intros H C N I. destruct (chain_nth e l e' C) as [E1 E2]. apply In_nth_error in I as (i & Ei). assert (Li : (i < length l)%nat) by (apply nth_error_Some; rewrite Ei; discriminate). rewrite (E2 i Li) in Ei. injection Ei as Ei.
  destruct i as [|i]; [rewrite <- Ei; reflexivity|]. exfalso. destruct (length l) as [|k] eqn:El; [lia|]. rewrite nsucc_S in Ei. rewrite nsucc_S in E1. rewrite E1 in Ei. apply succ_inj in Ei; [|apply nsucc_edge, H | apply nsucc_edge, H].
  assert (i = k); [|lia]. apply (proj1 (NoDup_nth_error l) N); [lia|]. rewrite (E2 i), (E2 k) by lia. rewrite Ei. reflexivity.
Qed.

Context (H W : nat) (M_range : forall i j, M i j = true -> 0 <= i < Z.of_nat H /\ 0 <= j < Z.of_nat W).
Definition inr (q : point) : Prop := 0 <= fst q <= Z.of_nat H /\ 0 <= snd q <= Z.of_nat W.
Definition dist (q : point) (d : dir) : Z := match d with DR => Z.of_nat W - snd q | DD => Z.of_nat H - fst q | DL => snd q | DU => fst q end.
Lemma edge_range q d : edge (q, d) = true -> inr q /\ inr (move_on q d) /\ 1 <= dist q d.
Proof.
  intro E. assert (C : exists i j, M i j = true /\ match d with DR => i = fst q /\ j = snd q | DD => i = fst q /\ j = snd q - 1 | DL => i = fst q - 1 /\ j = snd q - 1 | DU => i = fst q - 1 /\ j = snd q end).
  { unfold edge in E. destruct d; apply andb_true_iff in E as [E1 E2]; eexists; eexists; (split; [first [exact E1 | exact E2] | auto]). }
  destruct C as (i & j & Mij & E'). apply M_range in Mij. unfold inr, move_on, dist. destruct q as [r c], d; cbn [fst snd delta] in *; lia.
Qed.
Lemma dist_on q d : dist (move_on q d) d = dist q d - 1.
Proof. destruct q, d; unfold dist, move_on; cbn; lia. Qed.

Lemma run q d : edge (q, d) = true -> exists t, (1 <= t)%nat /\ Z.of_nat t <= dist q d /\ chain (q, d) (seg q d t) (far q d t, turn_to (far q d t) d) /\
  (forall e, In e (tl (seg q d t)) -> turning e = false /\ edge e = true) /\ turning (far q d t, turn_to (far q d t) d) = true /\ came_by (far q d t) (turn_to (far q d t) d) = d /\ inr (far q d t).
Proof.
  remember (Z.to_nat (dist q d)) as k eqn:Ek. revert q Ek. induction k as [|k IH]; intros q Ek E; destruct (edge_range q d E) as (R1 & R2 & R3); [lia|].
  assert (S1 := succ_edge _ E). assert (A : arrives (move_on q d) d = true) by (rewrite arrives_edge; exact E). destruct (turn_edge _ _ A) as (T1 & T2).
  destruct (dir_eq (turn_to (move_on q d) d) d) as [Ed|Nd].
  - rewrite Ed in T1, T2. destruct (IH (move_on q d)) as (t & L1 & L2 & C & I & T & B & R); [rewrite dist_on; lia | exact T1|]. exists (S t). rewrite dist_on in L2. split; [lia|]. split; [lia|]. cbn [seg far]. split; [|split].
    + cbn [chain]. split; [reflexivity|]. unfold succ. cbn [fst snd]. rewrite Ed. exact C.
    + cbn [tl]. intros e He. destruct t as [|t]; [destruct He|]. cbn [seg] in He. destruct He as [<-|He]; [|apply I; exact He]. split; [|exact T1]. unfold turning. cbn [fst snd]. rewrite T2. destruct (dir_eq d d) as [_|N]; [apply andb_false_r | contradiction].
    + auto.
  - exists 1%nat. cbn [seg far tl chain]. split; [lia|]. split; [lia|]. split; [split; reflexivity|]. split; [intros e []|]. split; [|split; [exact T2 | exact R2]]. unfold turning. rewrite T1. cbn [fst snd andb]. rewrite T2. destruct (dir_eq d _) as [N|_]; [congruence | reflexivity].
Qed.
(* backwards to the last turn *)
Lemma run_back q d : edge (q, d) = true -> exists p t, q = far p d t /\ turning (p, d) = true /\ chain (p, d) (seg p d t) (q, d).
Proof.
  set (rest := fun x => match d with DR => snd x | DD => fst x | DL => Z.of_nat W - snd x | DU => Z.of_nat H - fst x end).
  remember (Z.to_nat (rest q)) as k eqn:Ek. revert q Ek. induction k as [|k IH]; intros q Ek E.
  all: destruct (turning (q, d)) eqn:T; [exists q, O; split; [reflexivity|]; split; [exact T | reflexivity]|].
  all: unfold turning in T; rewrite E in T; cbn [fst snd andb] in T; destruct (dir_eq (came_by q d) d) as [Ed|]; [|discriminate T].
  all: destruct (pred_edge _ E) as (P1 & P2); unfold pred in P1, P2; cbn [fst snd] in P1, P2; rewrite Ed in P1, P2; destruct (edge_range _ _ P1) as (R1 & _ & _).
  - exfalso. destruct (edge_range _ _ E) as (R2 & _). unfold rest, inr, back in *. destruct q as [r c], d; cbn [fst snd delta] in *; lia.
  - destruct (IH (back q d)) as (p & t & E1 & E2 & E3); [|exact P1|].
    + destruct (edge_range _ _ E) as (R2 & _). unfold rest, inr, back in *. destruct q as [r c], d; cbn [fst snd delta] in *; lia.
    + exists p, (S t). assert (Sg : forall x m, seg x d (S m) = seg x d m ++ [(far x d m, d)]) by (intros x m; revert x; induction m as [|m IHm]; intro x; [reflexivity|]; cbn [seg far app]; f_equal; apply IHm).
      assert (Fa : forall x m, far x d (S m) = move_on (far x d m) d) by (intros x m; revert x; induction m as [|m IHm]; intro x; [reflexivity|]; apply IHm).
      split; [rewrite Fa, <- E1, back_on; reflexivity|]. split; [exact E2|]. rewrite Sg, <- E1. eapply chain_app; [exact E3|]. cbn [chain]. split; [reflexivity | exact P2].
Qed.
End Boundary.
