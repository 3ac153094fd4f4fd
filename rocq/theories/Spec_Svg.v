(** Spec_Svg: what an SVG path of closed rectilinear polygons fills.  Independent of the algorithms of the model. *)

From Coq Require Import String Ascii.
From Coq Require Import List Arith ZArith Bool.
From Verif Require Import Model_Base Model_Str.
Import ListNotations.
Local Open Scope Z_scope.

(** a horizontal or vertical line, relative to the point before *)
Inductive move := Hor (k : Z) | Ver (k : Z).
(** the point where a polygon begins (row, column), and the lines; the last one, back to the beginning, is not written *)
Definition polygon := ((Z * Z) * list move)%type.

Definition after (p : Z * Z) (m : move) : Z * Z := match m with Hor k => (fst p, snd p + k) | Ver k => (fst p + k, snd p) end.
Fixpoint corners_from (p : Z * Z) (ms : list move) : list (Z * Z) := match ms with [] => [p] | m :: ms' => p :: corners_from (after p m) ms' end.
Definition vertices (g : polygon) : list (Z * Z) := corners_from (fst g) (snd g).

(** the text of a path: "M" with column and row, "h" and "v" for the lines *)
Definition move_text (m : move) : text := match m with Hor k => lit "h" ++ str_int k | Ver k => lit "v" ++ str_int k end.
Definition polygon_text (g : polygon) : text := lit "M" ++ str_int (snd (fst g)) ++ lit "," ++ str_int (fst (fst g)) ++ List.concat (map move_text (snd g)).
Definition path_text (gs : list polygon) : text := List.concat (map polygon_text gs).

(** how often, and in which direction, the line from [p] to [q] crosses the ray from the middle of the cell in row [i] and column [j] to the
    right; lines down count 1, lines up count -1.  All lines are horizontal or vertical. *)
Definition crossing (i j : Z) (p q : Z * Z) : Z :=
  if j <? snd p then
    if (fst p <=? i) && (i <? fst q) then 1 else if (fst q <=? i) && (i <? fst p) then -1 else 0
  else 0.
Fixpoint crossings (i j : Z) (back p : Z * Z) (ms : list move) : Z :=
  match ms with
  | [] => crossing i j p back
  | m :: ms' => crossing i j p (after p m) + crossings i j back (after p m) ms'
  end.
(** the number of times the polygons go around the cell; a viewer fills the cell if it is odd (or not zero, depending on the fill rule) *)
Definition winding (gs : list polygon) (i j : Z) : Z := fold_right Z.add 0 (map (fun g : polygon => crossings i j (fst g) (fst g) (snd g)) gs).

(** horizontal and vertical lines of positive length alternate, also across the unwritten line *)
Definition turns (m m' : move) : Prop := match m, m' with Hor _, Ver _ | Ver _, Hor _ => True | _, _ => False end.
Definition proper (m : move) : Prop := match m with Hor k | Ver k => k <> 0 end.
Fixpoint alternating (ms : list move) : Prop := match ms with m :: (m' :: _) as ms' => turns m m' /\ alternating ms' | _ => True end.
Definition rectilinear (g : polygon) : Prop :=
  exists closing, after (last (vertices g) (fst g)) closing = fst g /\ Forall proper (snd g ++ [closing]) /\
    alternating (snd g ++ [closing]) /\ match snd g with m :: _ => turns closing m | [] => False end.

(** the entries of a matrix; 0 outside *)
Definition entry (rows : list (list bool)) (i j : Z) : bool :=
  if (0 <=? i) && (0 <=? j) then nth (Z.to_nat j) (nth (Z.to_nat i) rows []) false else false.

(** how many outlines have a corner at a point: one if one or three of the four cells around it are filled, two if two cells that touch only there are filled *)
Definition corners_at (rows : list (list bool)) (p : Z * Z) : nat :=
  match entry rows (fst p - 1) (snd p - 1), entry rows (fst p - 1) (snd p), entry rows (fst p) (snd p - 1), entry rows (fst p) (snd p) with
  | nw, ne, sw, se => if xorb (xorb nw ne) (xorb sw se) then 1 else if eqb nw se && xorb nw ne then 2 else 0
  end%nat.
(** by rows, then by columns *)
Definition before (p q : Z * Z) : Prop := fst p < fst q \/ (fst p = fst q /\ snd p < snd q).
Definition point_dec_eq (p q : Z * Z) : {p = q} + {p <> q}.
Proof. repeat decide equality. Defined.
