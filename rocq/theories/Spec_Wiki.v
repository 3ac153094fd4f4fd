(** Spec_Wiki: what the tables for wiki pages show.  Independent of the algorithms of the model. *)

From Coq Require Import List Arith ZArith Bool Sorted.
From Verif Require Import Model_Base Model_Perm Model_Boolf Model_Wiki Spec_Bits Spec_Boolf Spec_SigPerm Spec_MinRep Spec_Ec Spec_ClanMatrix.
Import ListNotations.
Open Scope nat_scope.

(** numbers by their binary weight; equal weights by size *)
Definition weight_lt (a b : nat) : Prop := count_ones a < count_ones b \/ (count_ones a = count_ones b /\ a < b).

(** numbers with a mark where the weight differs from that of the number before *)
Definition bordered (l : list (nat * bool)) : Prop :=
  forall i x b, nth_error l i = Some (x, b) -> (b = true <-> exists j y c, i = S j /\ nth_error l j = Some (y, c) /\ count_ones y <> count_ones x).

(** the negations [K] in that order, with these marks *)
Definition heading (K : nat -> Prop) (l : list (nat * bool)) : Prop :=
  StronglySorted weight_lt (map fst l) /\ (forall k, In k (map fst l) <-> K k) /\ bordered l.

(** the literals [s] are the images of the atoms [0 ... n - 1] under permutation number [r] with the negations [k] *)
Definition literals (n k r : nat) (s : list Z) : Prop :=
  exists p, nth_error (rev_colex_perms n) r = Some p /\ map atom s = p /\ forall a, a < n -> negated (nth a s 0%Z) = Nat.testbit k a.

(** an entry of the table in a cell: nothing, or the permutations with [Q], ascending, with their literals *)
Definition entry_shows (n k : nat) (Q : nat -> Prop) (e : option (list (nat * list Z))) : Prop :=
  match e with
  | None => forall r, ~ Q r
  | Some l => l <> [] /\ StronglySorted lt (map fst l) /\ (forall r, In r (map fst l) <-> Q r) /\ forall r s, In (r, s) l -> literals n k r s
  end.

(** the table in a cell: a row for each of [K], a column for each of [M], the permutations with [T] *)
Definition negations_ok (n : nat) (K M : nat -> Prop) (T : nat -> nat -> nat -> Prop) (t : neg_table) : Prop :=
  heading M (n_cols t) /\ heading K (map fst (n_rows t)) /\
  forall k b es, In (k, b, es) (n_rows t) -> Forall2 (fun mc e => entry_shows n k (fun r => T k r (fst mc)) e) (n_cols t) es.

(** the function [F] after replacing the atoms by literals *)
Definition substituted (n : nat) (F : assignment -> bool) (s : list Z) : assignment -> bool :=
  fun e => F (fun a => if Nat.ltb a n then xorb (e (atom (nth a s 0%Z))) (negated (nth a s 0%Z)) else e a).

(** the function [z] is the least one of its class *)
Definition least (C : (assignment -> bool) -> (assignment -> bool) -> Prop) (P : (assignment -> bool) -> Prop) (z : nat) : Prop :=
  P (zhegalkin z) /\ forall y, P (zhegalkin y) -> C (zhegalkin z) (zhegalkin y) -> z <= y.

(** the number of columns *)
Definition total_span (cells : list wiki_cell) : nat := fold_right Nat.add 0 (map c_colspan cells).

(** negations grouped by weight *)
Definition by_weight (K : nat -> Prop) (d : list (nat * list nat)) : Prop :=
  StronglySorted lt (map fst d) /\ (forall k, K k -> exists l, In (count_ones k, l) d) /\
  forall w l, In (w, l) d -> l <> [] /\ StronglySorted lt l /\ forall k, In k l <-> K k /\ count_ones k = w.

(** the functions of the clan of [F] *)
Definition clan_member (n : nat) (F : assignment -> bool) (G : assignment -> bool) : Prop := clan_class F G /\ local n G.

(** a cell: the function with the number of the cell, whether it is [F] or the least one of a class, its polynomial and its table,
    and the signed permutations that give it *)
Definition cell_shows (n : nat) (F : assignment -> bool) (c : wiki_cell) : Prop :=
  let z := c_zhe c in
  (c_base c = true <-> forall e, zhegalkin z e = F e) /\
  (c_is_family_rep c = true <-> least family_class (clan_member n F) z) /\
  (c_is_faction_rep c = true <-> least faction_class (clan_member n F) z) /\
  c_zhe_binary c = map (Nat.testbit z) (seq 0 (2 ^ n)) /\
  c_tt_binary c = map (fun i => zhegalkin z (Nat.testbit i)) (seq 0 (2 ^ n)) /\
  negations_ok n (fun k => k < 2 ^ n /\ faction_class (zhegalkin z) (negate_by k F)) (fun m => m < 2 ^ n /\ faction_class F (negate_by m (zhegalkin z)))
    (fun k r m => exists p, nth_error (rev_colex_perms n) r = Some p /\ signed_perm_gives n F p k m z) (c_negations c).

(** the cells where a faction meets a family: they have equal widths and are [L] wide together, the last one has a border *)
Definition block_shows (n : nat) (F : assignment -> bool) (L p q : nat) (cells : list wiki_cell) : Prop :=
  cells <> [] /\ NoDup (map c_zhe cells) /\
  (forall z, In z (map c_zhe cells) <-> clan_member n F (zhegalkin z) /\ faction_class (zhegalkin p) (zhegalkin z) /\ family_class (zhegalkin q) (zhegalkin z)) /\
  (forall c, In c cells -> c_colspan c * length cells = L) /\
  forall i c, nth_error cells i = Some c -> (c_border c = true <-> S i = length cells).

(** a line: a faction, with the cells for the families in the header *)
Definition line_shows (n : nat) (F : assignment -> bool) (L : nat) (families : list nat) (blocks : list (list wiki_cell)) (l : wiki_line) : Prop :=
  l_cells l = concat blocks /\ Forall2 (block_shows n F L (l_faction_rep l)) families blocks /\ l_cardinality l = length (l_cells l) /\
  (exists w, l_weight l = Some w /\ forall c, In c (l_cells l) -> count_ones (c_zhe c) = w) /\
  by_weight (fun k => k < 2 ^ n /\ faction_class (zhegalkin (l_faction_rep l)) (negate_by k F)) (l_keyneg_table l).
