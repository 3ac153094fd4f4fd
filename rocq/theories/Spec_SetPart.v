(** Spec_SetPart: set partitions as equivalence relations, independent of the model. *)

From Coq Require Import List Arith ZArith Bool Lia Sorting.Sorted Relations.
Import ListNotations.
Open Scope Z_scope.

(** two elements are in a common block *)
Definition together (blocks : list (list Z)) (x y : Z) : Prop :=
  exists b, In b blocks /\ In x b /\ In y b.

(** the equivalence relation of a list of disjoint blocks (everything else is a singleton) *)
Definition same (blocks : list (list Z)) (x y : Z) : Prop := x = y \/ together blocks x y.

(** the equivalence relation generated by a relation *)
Definition generated (R : Z -> Z -> Prop) : Z -> Z -> Prop := clos_refl_sym_trans Z R.

(** block lists in normal form: increasing blocks with at least two elements, disjoint,
    ordered by their first elements *)
Definition canonical (blocks : list (list Z)) : Prop :=
  (forall b, In b blocks -> (2 <= length b)%nat /\ StronglySorted Z.lt b) /\
  (forall b c x, In b blocks -> In c blocks -> In x b -> In x c -> b = c) /\
  StronglySorted (fun b c => hd 0 b < hd 0 c) blocks.

(** no element occurs twice in the blocks with at least two elements *)
Definition no_overlap (blocks : list (list Z)) : Prop :=
  NoDup (concat (filter (fun b => Nat.leb 2 (length b)) blocks)).

(** one relation refines another *)
Definition refines (R S : Z -> Z -> Prop) : Prop := forall x y, R x y -> S x y.

(** [x] is the smallest, the largest element *)
Definition is_max (l : list Z) (m : Z) : Prop := In m l /\ forall x, In x l -> x <= m.

(** the pairs of places of a list *)
Definition pair_of_places (l : list Z) (ab : Z * Z) : Prop :=
  exists i j, (i < j)%nat /\ nth_error l i = Some (fst ab) /\ nth_error l j = Some (snd ab).

(** all pairs of places of a list, in lexical order *)
Fixpoint place_pairs (l : list Z) : list (Z * Z) :=
  match l with [] => [] | x :: l' => map (fun y => (x, y)) l' ++ place_pairs l' end.

(** the pairs up to the first one with different elements that are not both in the domain *)
Fixpoint accepted_prefix (dom : Z -> bool) (ps : list (Z * Z)) : list (Z * Z) :=
  match ps with
  | [] => []
  | (a, b) :: ps' => if (a =? b) || (dom a && dom b) then (a, b) :: accepted_prefix dom ps' else []
  end.
