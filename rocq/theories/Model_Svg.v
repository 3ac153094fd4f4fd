(** Model_Svg: a/bin2svg, the outline of a binary matrix as an SVG path.  Texts are lists of code points.
    No proofs in this file. *)

From Coq Require Import String Ascii.
From Coq Require Import List Arith ZArith Bool.
From Verif Require Import Model_Base Model_Str.
Import ListNotations.
Local Open Scope Z_scope.

Definition point := (Z * Z)%type.        (* row and column *)
Definition point_eqb (p q : point) : bool := (fst p =? fst q) && (snd p =? snd q).

(* bin2svg/__init__.py:37-66  the value for the 2x2 matrix [[nw, ne], [sw, se]] *)
Definition corner_value (nw ne sw se : bool) : Z :=
  match nw, ne, sw, se with
  | false, false, false, true => 1
  | false, false, true, false => 2
  | true, false, false, false => 3
  | false, true, false, false => 4
  | true, true, true, false => 5
  | true, false, true, true => 6
  | false, true, true, true => 7
  | true, true, false, true => 8
  | true, false, false, true => 13
  | false, true, true, false => 24
  | _, _, _, _ => 0
  end.

(* 24-32  the matrix with a margin of zeros *)
Definition padded (wide : nat) (rows : list (list bool)) : list (list bool) :=
  let hpad := repeat false (wide + 2) in
  hpad :: map (fun row => false :: row ++ [false]) rows ++ [hpad].

(* 14-68.  The argument is an array with rows of length [wide]; the entries are 0 and 1. *)
Definition bin2corners (wide : nat) (rows : list (list bool)) : list (list Z) :=
  let tocorners := padded wide rows in
  let at_ m n := nth n (nth m tocorners []) false in
  map (fun m => map (fun n => corner_value (at_ m n) (at_ m (S n)) (at_ (S m) n) (at_ (S m) (S n))) (seq 0 (wide + 1)))
      (seq 0 (List.length rows + 1)).

(* numpy: an index from the end is negative; other indices are an IndexError *)
Definition np_index (len : nat) (i : Z) : res nat :=
  if (0 <=? i) && (i <? Z.of_nat len) then Ok (Z.to_nat i)
  else if (- Z.of_nat len <=? i) && (i <? 0) then Ok (Z.to_nat (Z.of_nat len + i))
  else Err IndexErr.
Definition corner_get (corners : list (list Z)) (p : point) : res Z :=
  let* m := np_index (List.length corners) (fst p) in
  let* row := lget corners m in
  let* n := np_index (List.length row) (snd p) in
  lget row n.
Definition corner_set (corners : list (list Z)) (p : point) (v : Z) : res (list (list Z)) :=
  let* m := np_index (List.length corners) (fst p) in
  let* row := lget corners m in
  let* n := np_index (List.length row) (snd p) in
  Ok (lset corners m (lset row n v)).

(* 70-92; [high], [wide] is the shape of [corners] *)
Fixpoint cornerfinder (fuel : nat) (high wide : nat) (corners : list (list Z)) (look : point) : res (option (point * Z)) :=
  match fuel with
  | O => Err OutOfFuel
  | S fuel' =>
      let* found := corner_get corners look in
      if found =? 0 then
        if snd look <? Z.of_nat wide - 1 then cornerfinder fuel' high wide corners (fst look, snd look + 1)
        else if (snd look =? Z.of_nat wide - 1) && (fst look <? Z.of_nat high - 1)
        then cornerfinder fuel' high wide corners (fst look + 1, 0)
        else Ok None
      else Ok (Some (look, found))
  end.

(* 127-150  the direction of a value; other values have none *)
Definition direction (val : Z) : option point :=
  if (val =? 1) || (val =? 6) then Some (0, 1)
  else if (val =? 2) || (val =? 5) then Some (1, 0)
  else if (val =? 3) || (val =? 8) then Some (0, -1)
  else if (val =? 4) || (val =? 7) then Some (-1, 0)
  else None.

(* 128-132 and the same in the other directions *)
Fixpoint creep (fuel : nat) (corners : list (list Z)) (startpos delta pos : point) : res (point * Z) :=
  match fuel with
  | O => Err OutOfFuel
  | S fuel' =>
      let pos := (fst pos + fst delta, snd pos + snd delta) in
      if point_eqb pos startpos then Ok (pos, 0)
      else
        let* creeper := corner_get corners pos in
        if creeper =? 0 then creep fuel' corners startpos delta pos else Ok (pos, creeper)
  end.

(* 109-121.  [oldval] is None before it is assigned; reading it then is an UnboundLocalError *)
Definition resolve (corners : list (list Z)) (pos : point) (val : Z) (oldval : option Z) : res (Z * list (list Z)) :=
  if (1 <=? val) && (val <? 9) then let* c := corner_set corners pos 0 in Ok (val, c)
  else if val =? 13 then
    match oldval with
    | None => Err RuntimeErr
    | Some o => if (o =? 4) || (o =? 7) then let* c := corner_set corners pos 3 in Ok (1, c)
                else if (o =? 2) || (o =? 5) then let* c := corner_set corners pos 1 in Ok (3, c)
                else Ok (val, corners)
    end
  else if val =? 24 then
    match oldval with
    | None => Err RuntimeErr
    | Some o => if (o =? 1) || (o =? 6) then let* c := corner_set corners pos 4 in Ok (2, c)
                else if (o =? 3) || (o =? 8) then let* c := corner_set corners pos 2 in Ok (4, c)
                else Ok (val, corners)
    end
  else Ok (val, corners).

(* 107-163  the loop *)
Fixpoint step_loop (fuel creep_fuel : nat) (corners : list (list Z)) (startpos pos : point) (val : Z) (oldval : option Z)
    (svgpath : text) : res (list (list Z) * text) :=
  match fuel with
  | O => Err OutOfFuel
  | S fuel' =>
      let* vc := resolve corners pos val oldval in
      let val := fst vc in
      let corners := snd vc in
      let oldpos := pos in
      let* pc := match direction val with
                 | Some delta => creep creep_fuel corners startpos delta pos
                 | None => Ok (pos, 0)
                 end in
      let pos := fst pc in
      let append_to_svgpath :=
        if fst pos =? fst oldpos then lit "h" ++ str_int (snd pos - snd oldpos)
        else lit "v" ++ str_int (fst pos - fst oldpos) in
      if point_eqb pos startpos then Ok (corners, svgpath)
      else step_loop fuel' creep_fuel corners startpos pos (snd pc) (Some val) (svgpath ++ append_to_svgpath)
  end.
(* 94-165 *)
Definition step (fuel creep_fuel : nat) (corners : list (list Z)) (pos : point) (val : Z) : res (list (list Z) * text) :=
  step_loop fuel creep_fuel corners pos pos val None (lit "M" ++ str_int (snd pos) ++ lit "," ++ str_int (fst pos)).

(* 168-179 *)
Fixpoint svg_loop (fuel step_fuel creep_fuel find_fuel high wide : nat) (corners : list (list Z)) (startpos : point) (svgpath : text) : res text :=
  match fuel with
  | O => Err OutOfFuel
  | S fuel' =>
      let* cornerfound := cornerfinder find_fuel high wide corners startpos in
      match cornerfound with
      | None => Ok svgpath
      | Some (startpos, val) =>
          let* thisstep := step step_fuel creep_fuel corners startpos val in
          svg_loop fuel' step_fuel creep_fuel find_fuel high wide (fst thisstep) startpos (svgpath ++ snd thisstep)
      end
  end.
Definition bin2svg (wide : nat) (rows : list (list bool)) : res text :=
  let high := List.length rows in
  let points := ((high + 1) * (wide + 1))%nat in
  svg_loop (4 * points + 1) (4 * points + 1) (high + wide + 1) points (high + 1) (wide + 1) (bin2corners wide rows) (0, 0) [].
