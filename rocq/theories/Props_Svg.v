(** C94: a/bin2svg: the path is the boundary of the matrix. *)

From Coq Require Import String Ascii.
From Coq Require Import List Arith ZArith Bool Lia Permutation Sorted.
From Verif Require Import Model_Base Lib Model_Str Proof_Str Model_Svg Spec_Svg Proof_Svg Proof_SvgLoop Proof_SvgPath Proof_SvgFill.
Import ListNotations Model_Str.
Local Open Scope Z_scope.

(** the text of a path determines its polygons *)
Definition path_end (s : text) : Prop := s = [] \/ exists r, s = lit "M" ++ r.
Lemma path_stops s : path_end s -> stops nodigit s.
Proof. intros [->|(r & ->)]; [exact I | reflexivity]. Qed.
Lemma moves_stops ms s : path_end s -> stops nodigit (List.concat (map move_text ms) ++ s).
Proof. intro P. destruct ms as [|[k|k] ms]; [apply path_stops, P | reflexivity | reflexivity]. Qed.
Lemma moves_inj : forall ms ms' s t, path_end s -> path_end t -> List.concat (map move_text ms) ++ s = List.concat (map move_text ms') ++ t -> ms = ms' /\ s = t.
Proof.
  induction ms as [|m ms IH]; intros [|m' ms'] s t Ps Pt E; cbn [map List.concat app] in E.
  - auto.
  - exfalso. destruct Ps as [->|(r & ->)], m'; discriminate E.
  - exfalso. destruct Pt as [->|(r & ->)], m; discriminate E.
  - rewrite <- !app_assoc in E. assert (G : m = m' /\ List.concat (map move_text ms) ++ s = List.concat (map move_text ms') ++ t).
    { destruct m as [k|k], m' as [k'|k']; cbn [move_text] in E; rewrite <- ?app_assoc in E; cbn in E; try discriminate E; injection E as E; destruct (delim_use _ _ _ _ str_int_delim _ _ _ _ E I I (moves_stops _ _ Ps) (moves_stops _ _ Pt)) as [-> E']; auto. }
    destruct G as [-> G]. destruct (IH _ _ _ Ps Pt G) as [-> ->]. auto.
Qed.
Lemma path_text_end ps : path_end (path_text ps).
Proof. destruct ps as [|g ps]; [left; reflexivity | right]. unfold path_text. cbn [map List.concat]. unfold polygon_text at 1. rewrite <- app_assoc. eexists. reflexivity. Qed.
Lemma path_text_inj : forall ps qs, path_text ps = path_text qs -> ps = qs.
Proof.
  induction ps as [|[[a b] ms] ps IH]; intros [|[[c d] ms'] qs] E; try reflexivity; try discriminate E.
  unfold path_text in E. cbn [map List.concat] in E. fold (path_text ps) in E. fold (path_text qs) in E. unfold polygon_text in E. cbn [fst snd] in E. rewrite <- !app_assoc in E. cbn [lit list_ascii_of_string map app] in E. injection E as E.
  destruct (delim_use _ _ _ _ str_int_delim _ _ _ _ E I I eq_refl eq_refl) as [-> E1]. injection E1 as E1.
  destruct (delim_use _ _ _ _ str_int_delim _ _ _ _ E1 I I (moves_stops _ _ (path_text_end _)) (moves_stops _ _ (path_text_end _))) as [-> E2].
  destruct (moves_inj _ _ _ _ (path_text_end _) (path_text_end _) E2) as [-> E3]. rewrite (IH _ E3). reflexivity.
Qed.

Lemma bin2svg_spec wide rows : is_matrix wide rows -> exists os, bin2svg wide rows = Ok (path_text (map o_polygon os)) /\
  Forall (good (entry rows)) os /\ NoDup (flat_map o_edges os) /\ (forall e, In e (flat_map o_edges os) <-> edge (entry rows) e = true) /\ StronglySorted before (map o_start os).
Proof.
  intro F. destruct (svg_spec (entry rows) (length rows) wide (fun i j => entry_range wide rows i j F) (4 * ((length rows + 1) * (wide + 1)) + 1) (bin2corners wide rows) [] (0, 0) []) as (os & P1 & P2 & P3 & P4 & P5 & P6 & _).
  - intros e _. split; intros [].
  - constructor.
  - intros e [].
  - apply corners_holds.
  - unfold inr. cbn [fst snd]. lia.
  - intros q Rq B. exfalso. unfold inr, before in *. cbn [fst snd] in *. lia.
  - lia.
  - exists os. cbn [app] in *. split; [exact P1|]. split; [exact P2|]. split; [exact P3|]. split; [|exact P6]. intro e. split; [apply P4 | apply P5].
Qed.

(** the path consists of closed polygons with alternating horizontal and vertical lines; there is no error and no endless loop *)
Theorem C94_path wide rows : Forall (fun row => length row = wide) rows -> exists ps, bin2svg wide rows = Ok (path_text ps) /\ Forall rectilinear ps.
Proof.
  intro F. destruct (bin2svg_spec wide rows F) as (os & P1 & P2 & _). exists (map o_polygon os). split; [exact P1|]. apply Forall_forall. intros g Hg. apply in_map_iff in Hg as (o & <- & Ho). rewrite Forall_forall in P2. apply (good_rectilinear (entry rows)). apply P2, Ho.
Qed.

(** the polygons go once around every cell with 1, and not around the others: both fill rules of SVG show the matrix *)
Theorem C94_fill wide rows ps i j : Forall (fun row => length row = wide) rows -> bin2svg wide rows = Ok (path_text ps) -> winding ps i j = if entry rows i j then 1 else 0.
Proof.
  intros F E. destruct (bin2svg_spec wide rows F) as (os & P1 & P2 & P3 & P4 & _). rewrite P1 in E. injection E as E. apply path_text_inj in E. subst ps.
  rewrite <- (fill_sum (entry rows) (length rows) wide (fun i j => entry_range wide rows i j F) _ i j P3 P4). rewrite zs_flat. unfold winding. rewrite map_map. apply zs_ext. intros o Ho. rewrite Forall_forall in P2. exact (good_crossings (entry rows) i j o (P2 o Ho)).
Qed.

(** every corner of the boundary is a corner of one polygon (two, where cells touch diagonally); no other points are written *)
Theorem C94_corners wide rows ps p : Forall (fun row => length row = wide) rows -> bin2svg wide rows = Ok (path_text ps) -> count_occ point_dec_eq (flat_map vertices ps) p = corners_at rows p.
Proof.
  intros F E. destruct (bin2svg_spec wide rows F) as (os & P1 & P2 & P3 & P4 & _). rewrite P1 in E. injection E as E. apply path_text_inj in E. subst ps.
  assert (Ev : flat_map vertices (map o_polygon os) = map fst (filter (turning (entry rows)) (flat_map o_edges os))).
  { clear - P2. induction P2 as [|o os Go _ IH]; [reflexivity|]. cbn [map flat_map]. rewrite filter_app, map_app, IH. f_equal. destruct Go as (d0 & _ & _ & _ & Fh & _). rewrite Fh. unfold vertices, o_polygon, o_runs. cbn [fst snd]. symmetry. apply heads_vertices. }
  rewrite Ev. refine (eq_trans (corner_count (entry rows) _ p point_dec_eq P3 P4) _). unfold corners_at. cbn [map filter]. unfold turning, edge, came_by, nw, ne, sw, se. cbn [fst snd].
  destruct (entry rows (fst p - 1) (snd p - 1)), (entry rows (fst p - 1) (snd p)), (entry rows (fst p) (snd p - 1)), (entry rows (fst p) (snd p)); reflexivity.
Qed.

(** the polygons are in the order of their first points, by rows and then by columns *)
Theorem C94_order wide rows ps : Forall (fun row => length row = wide) rows -> bin2svg wide rows = Ok (path_text ps) -> StronglySorted before (map fst ps).
Proof.
  intros F E. destruct (bin2svg_spec wide rows F) as (os & P1 & P2 & P3 & P4 & P6). rewrite P1 in E. injection E as E. apply path_text_inj in E. subst ps. rewrite map_map. exact P6.
Qed.

(** the path determines the matrix, when its size is known *)
Theorem C94_determines wide rows rows' : Forall (fun row => length row = wide) rows -> Forall (fun row => length row = wide) rows' -> length rows = length rows' -> bin2svg wide rows = bin2svg wide rows' -> rows = rows'.
Proof.
  intros F F' L E. destruct (C94_path wide rows F) as (ps & P & _). assert (P' := P). rewrite E in P'.
  assert (Ent : forall i j, entry rows i j = entry rows' i j) by (intros i j; assert (X := C94_fill _ _ _ i j F P); assert (Y := C94_fill _ _ _ i j F' P'); rewrite X in Y; destruct (entry rows i j), (entry rows' i j); auto; discriminate Y).
  apply (nth_ext _ _ [] [] L). intros i Hi. rewrite Forall_forall in F, F'. assert (L1 := F _ (nth_In rows [] Hi)). assert (Hi' : (i < length rows')%nat) by (rewrite <- L; exact Hi). assert (L2 := F' _ (nth_In rows' [] Hi')). apply (nth_ext _ _ false false); [congruence|]. intros j _.
  assert (X := Ent (Z.of_nat i) (Z.of_nat j)). unfold entry in X. rewrite !(proj2 (Z.leb_le 0 _)) in X by lia. cbn [andb] in X. rewrite !Nat2Z.id in X. exact X.
Qed.

(** the matrix of the docstring (bin2svg/__init__.py:6), and a matrix with cells that touch diagonally *)
Definition svg_rows : list (list bool) := [[true; true; true; false]; [true; false; true; false]; [true; true; false; true]; [false; false; true; true]].
Definition svg_polygons : list polygon :=
  [((0, 0), [Hor 3; Ver 2; Hor (-1); Ver (-1); Hor (-1); Ver 1; Hor 1; Ver 1; Hor (-2)]); ((2, 3), [Hor 1; Ver 2; Hor (-2); Ver (-1); Hor 1])].
Example C94_ex : bin2svg 2 [[true; false]; [false; true]] = Ok (lit "M0,0h1v1h-1M1,1h1v1h-1") /\ Forall (fun row => length row = 4%nat) svg_rows /\
  bin2svg 4 svg_rows = Ok (path_text svg_polygons) /\ bin2svg 4 svg_rows = Ok (lit "M0,0h3v2h-1v-1h-1v1h1v1h-2M3,2h1v2h-2v-1h1") /\
  map (winding svg_polygons 1) [-1; 0; 1; 2; 3; 4] = [0; 1; 0; 1; 0; 0] /\ map (corners_at svg_rows) [(0, 0); (0, 1); (2, 2); (2, 1); (3, 3)] = [1; 0; 2; 1; 1]%nat.
Proof. split; [reflexivity|]. split; [repeat constructor|]. vm_compute. repeat split. Qed.
Print Assumptions C94_path.
Print Assumptions C94_fill.
Print Assumptions C94_corners.
Print Assumptions C94_order.
Print Assumptions C94_determines.
