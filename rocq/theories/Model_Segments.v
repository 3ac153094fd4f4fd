(** Model_Segments: the method [find_segments] of [Boolf] (boolf/methods/find_segments) and
    boolf/a/segment_to_adjacent_spots.  No proofs in this file.

    Ternary vectors are lists of integers.  A [Segment] object is determined by its vector, so
    the collection stores vectors: [segs] in the order of insertion; the dictionary
    [segments[d]] of the code are those with d zeros. *)

From Coq Require Import List Arith ZArith Bool Lia.
From Verif Require Import Model_Base Model_Binary Model_Boolf Model_Splits.
Import ListNotations.
Open Scope nat_scope.

(* [key for key, val in enumerate(vector) if p(val)] *)
Definition keys_where {A} (p : A -> bool) (l : list A) : list nat :=
  map fst (filter (fun kv : nat * A => p (snd kv)) (combine (range (length l)) l)).
Definition zero_keys (v : list Z) : list nat := keys_where (fun x => Z.eqb x 0) v.
Definition sign_keys (v : list Z) : list nat := keys_where (fun x => negb (Z.eqb x 0)) v.
(* vector.count(0) *)
Definition dimension (v : list Z) : nat := length (filter (fun x => Z.eqb x 0) v).

(* itertools.product([0, 1], repeat=n) *)
Fixpoint product_bits (n : nat) : list (list bool) :=
  match n with
  | 0 => [[]]
  | S n' => map (cons false) (product_bits n') ++ map (cons true) (product_bits n')
  end.

(* boolf/a/segment_to_adjacent_spots/__init__.py:6-28; the entries of a spot vector are None,
   0 or 1 *)
Definition ternary_to_binary (t : Z) : res (option bool) :=
  if Z.eqb t (-1) then Ok (Some false)
  else if Z.eqb t 0 then Ok None
  else if Z.eqb t 1 then Ok (Some true)
  else Err KeyErr.
Definition segment_to_adjacent_spots (vector : list Z) : res (list nat) :=
  let* raw_spot_vector := mapM ternary_to_binary vector in
  let free_places := zero_keys vector in
  let* spotints :=
    mapM (fun free_tuple : list bool =>
            let* spot_vector :=
              foldM (fun sv (sl : nat * nat) =>
                       let* x := lget free_tuple (fst sl) in list_assign sv (snd sl) (Some x))
                    (combine (range (length free_places)) free_places) raw_spot_vector in
            let* bits := mapM (fun o : option bool => match o with Some b => Ok b | None => Err VectorEntryError end) spot_vector in
            Ok (binv_intval bits))
         (product_bits (length free_places)) in
  Ok (sort_nat spotints).

(** * The collection *)

(* find_segments/a/classes/collection_of_segments/__init__.py:8-18; [valency] and the
   attributes segments, number_by_dimension *)
Record collection := mkColl { segs : list (list Z); number_by_dimension : list nat }.

Fixpoint zvec_eqb (a b : list Z) : bool :=
  match a, b with
  | [], [] => true
  | x :: a', y :: b' => Z.eqb x y && zvec_eqb a' b'
  | _, _ => false
  end.

(* collection_of_segments/__init__.py:20-25 *)
Definition inquire (c : collection) (vector : list Z) : bool := existsb (zvec_eqb vector) (segs c).

(* segment/__init__.py:19-26: in the order of the dictionary inferior_vectors *)
Definition inferior_vectors (v : list Z) : list (nat * list (list Z)) :=
  map (fun k => (k, [lset v k (-1)%Z; lset v k 1%Z])) (zero_keys v).
(* segment/__init__.py:28-34 *)
Definition neighbor_vectors (v : list Z) : list (nat * list Z) :=
  map (fun k => (k, lset v k (- nth k v 0)%Z)) (sign_keys v).

(* collection_of_segments/__init__.py:27-36 [demand], [add] with segment/__init__.py:7-17
   (constructor) and 36-48 [run_demands].  Fuel: the depth of the recursion. *)
Fixpoint add (fuel valency : nat) (c : collection) (vector : list Z) : res collection :=
  match fuel with
  | 0 => Err OutOfFuel
  | S fuel' =>
      guard negb (inquire c vector) else AssertErr ;;
      guard Nat.eqb (length vector) valency else AssertErr ;;
      guard forallb (fun x => Z.eqb x (-1) || Z.eqb x 0 || Z.eqb x 1) vector else AssertErr ;;
      let d := dimension vector in
      let* n := lget (number_by_dimension c) d in
      let c := mkColl (segs c ++ [vector]) (lset (number_by_dimension c) d (n + 1)) in
      let demand c v := if inquire c v then Ok c else add fuel' valency c v in
      let* c := foldM (fun c (kv : nat * list (list Z)) => foldM demand (snd kv) c) (inferior_vectors vector) c in
      foldM (fun c (kv : nat * list Z) =>
               if inquire c (snd kv) then demand c (lset vector (fst kv) 0%Z) else Ok c)
            (neighbor_vectors vector) c
  end.

(* boolf/metributes/_basics/fullspot_atoms/__init__.py:7-15; the set fullspots is iterated in
   some [order] *)
Definition fullspot_atoms (order : list nat -> list nat) (f : boolf) : res (list (nat * list nat)) :=
  mapM (fun spot_int => let* b := Binv_intval spot_int None in Ok (spot_int, sort_nat (binv_exposet b)))
       (order (fullspots f)).

(* collection_of_segments/__init__.py:14-18.  No segment is deeper than 3 ^ valency. *)
Definition CollectionOfSegments (order : list nat -> list nat) (f : boolf) : res collection :=
  let* spots := fullspot_atoms order f in
  foldM (fun c (kv : nat * list nat) =>
           let* ternary_vector := foldM (fun tv i => list_assign tv i 1%Z) (snd kv) (repeat (-1)%Z (valency f)) in
           add (S (3 ^ valency f)) (valency f) c ternary_vector)
        spots (mkColl [] (repeat 0 (valency f + 1))).

(* the dictionary segments[d] *)
Definition segments_of (c : collection) (d : nat) : list (list Z) := filter (fun v => Nat.eqb (dimension v) d) (segs c).

(* collection_of_segments/__init__.py:38-46 *)
Definition get_spots (c : collection) : list nat :=
  nodupb (map (fun v => list_sum_nat (map (fun k => 2 ^ k) (keys_where (fun x => Z.eqb x 1) v))) (segments_of c 0)).

(* defaultdict(set): d[k].add(x); sets as duplicate-free lists *)
Fixpoint dd_add {A} (eqb : A -> A -> bool) (d : list (nat * list A)) (k : nat) (x : A) : list (nat * list A) :=
  match d with
  | [] => [(k, [x])]
  | (k', s) :: d' =>
      if Nat.eqb k' k then (k', if existsb (eqb x) s then s else s ++ [x]) :: d'
      else (k', s) :: dd_add eqb d' k x
  end.

(* a tuple of two spots *)
Definition spot_pair (v : list Z) : res (nat * nat) :=
  let* l := segment_to_adjacent_spots v in
  match l with [a; b] => Ok (a, b) | _ => Err ValueErr end.

(* collection_of_segments/__init__.py:48-55; a link is a tuple, here a pair *)
Definition get_links (c : collection) : res (list (nat * list (nat * nat))) :=
  foldM (fun d v =>
           let* atomkey := lget (zero_keys v) 0 in
           let* pair := spot_pair v in
           Ok (dd_add pair_eqb d atomkey pair))
        (segments_of c 1) [].

(* collection_of_segments/__init__.py:57-66  ([int(log(x, 2))] is taken as exact) *)
Definition link_pair_eqb (p q : (nat * nat) * (nat * nat)) : bool := pair_eqb (fst p) (fst q) && pair_eqb (snd p) (snd q).
Definition get_neighboring_links (c : collection) : res (list (nat * list ((nat * nat) * (nat * nat)))) :=
  foldM (fun d v =>
           foldM (fun d (kv : nat * list (list Z)) =>
                    let* two := mapM spot_pair (snd kv) in
                    match two with
                    | [(a, b); (c', d')] =>
                        guard negb (Nat.eqb (Nat.lxor a b) 0) else ValueErr ;;
                        guard negb (Nat.eqb (Nat.lxor c' d') 0) else ValueErr ;;
                        let belonging_atomkey := Nat.log2 (Nat.lxor a b) in
                        guard Nat.eqb belonging_atomkey (Nat.log2 (Nat.lxor c' d')) else AssertErr ;;
                        Ok (dd_add link_pair_eqb d belonging_atomkey ((a, b), (c', d')))
                    | _ => Err ValueErr
                    end)
                 (inferior_vectors v) d)
        (segments_of c 2) [].

(** * Connected components *)

(* networkx: the connected components of the graph with these nodes and edges (nodes of edges
   are added).  Only the number of the components matters for the results below. *)
Fixpoint nodup_with {A} (eqb : A -> A -> bool) (l : list A) : list A :=
  match l with [] => [] | x :: l' => if existsb (eqb x) l' then nodup_with eqb l' else x :: nodup_with eqb l' end.
Definition connected_components {A} (eqb : A -> A -> bool) (nodes : list A) (edges : list (A * A)) : list (list A) :=
  fold_left (fun cocos (e : A * A) =>
               let touched (b : list A) := existsb (eqb (fst e)) b || existsb (eqb (snd e)) b in
               concat (filter touched cocos) :: filter (fun b => negb (touched b)) cocos)
            edges (map (fun x => [x]) (nodup_with eqb (nodes ++ map fst edges ++ map snd edges))).

(* find_segments/a/functions/coco_spots/__init__.py:4-18 *)
Definition coco_spots (set_of_spots : list nat) (links : list (nat * list (nat * nat))) : bool * list (list nat) :=
  let cocos := connected_components Nat.eqb set_of_spots (concat (map snd links)) in
  (Nat.eqb (length cocos) 1, cocos).

(* find_segments/a/functions/coco_links/__init__.py:4-32; a missing key is no links *)
Definition dd_get {A} (d : list (nat * list A)) (k : nat) : list A :=
  match find (fun kv => Nat.eqb (fst kv) k) d with Some kv => snd kv | None => [] end.
Definition coco_links (links : list (nat * list (nat * nat))) (pairs : list (nat * list ((nat * nat) * (nat * nat))))
    (valency : nat) : bool * list (nat * list (list (nat * nat))) :=
  let cocos := map (fun k => (k, connected_components pair_eqb (dd_get links k) (dd_get pairs k))) (range valency) in
  (forallb (fun kc => Nat.leb (length (snd kc)) 1) cocos, cocos).

(* find_segments/__init__.py:4-23 *)
Definition find_segments (order : list nat -> list nat) (f : boolf) : res (bool * collection) :=
  let* c := CollectionOfSegments order f in
  let set_of_spots := get_spots c in
  let* links := get_links c in
  let* pairs := get_neighboring_links c in
  let (spots_are_connected, _) := coco_spots set_of_spots links in
  let (links_are_connected, _) := coco_links links pairs (valency f) in
  Ok (spots_are_connected && links_are_connected, c).
