(** Model_SetPart: the class [SetPart] (discretehelpers/set_part) and
    discretehelpers/a/inventory_partition.  No proofs in this file.

    Elements and labels are integers ([Z]); the code allows any hashable and sortable
    values in finite domains.  An operation that changes the object is a function to
    the new state and an optional exception; the state is also given when the operation
    raises, because the code may have changed the object before. *)

From Coq Require Import List Arith ZArith Bool Lia.
From Verif Require Import Model_Base.
Import ListNotations.
Open Scope Z_scope.

(** * Python sets, lists and dicts of integers *)

Definition zmemb (x : Z) (l : list Z) : bool := existsb (Z.eqb x) l.
Fixpoint znodup (l : list Z) : list Z :=
  match l with [] => [] | x :: l' => if zmemb x l' then znodup l' else x :: znodup l' end.
Definition zunion (a b : list Z) : list Z := znodup (a ++ b).
Definition zinter (a b : list Z) : list Z := filter (fun x => zmemb x b) a.
Definition zdiff (a b : list Z) : list Z := filter (fun x => negb (zmemb x b)) a.
Definition zsubset (a b : list Z) : bool := forallb (fun x => zmemb x b) a.
Definition zsort : list Z -> list Z := isort Z.leb.
Definition zmin_list (x : Z) (l : list Z) : Z := fold_left Z.min l x.
Definition zmax_list (x : Z) (l : list Z) : Z := fold_left Z.max l x.
(* range(a, b) *)
Definition zrange (a b : Z) : list Z := map (fun k => a + Z.of_nat k) (seq 0 (Z.to_nat (b - a))).

(* [a == b] and [a <= b] for lists of integers *)
Fixpoint zlist_eqb (a b : list Z) : bool :=
  match a, b with
  | [], [] => true
  | x :: a', y :: b' => Z.eqb x y && zlist_eqb a' b'
  | _, _ => false
  end.
Fixpoint zlist_leb (a b : list Z) : bool :=
  match a, b with
  | [], _ => true
  | _ :: _, [] => false
  | x :: a', y :: b' => Z.ltb x y || (Z.eqb x y && zlist_leb a' b')
  end.
Fixpoint blocks_eqb (a b : list (list Z)) : bool :=
  match a, b with
  | [], [] => true
  | x :: a', y :: b' => zlist_eqb x y && blocks_eqb a' b'
  | _, _ => false
  end.
Definition block_memb (x : list Z) (l : list (list Z)) : bool := existsb (zlist_eqb x) l.
(* list.remove: the first equal entry *)
Fixpoint block_remove (x : list Z) (l : list (list Z)) : list (list Z) :=
  match l with [] => [] | y :: l' => if zlist_eqb x y then l' else y :: block_remove x l' end.

Definition zdict := list (Z * nat).
Fixpoint zdget (d : zdict) (k : Z) : option nat :=
  match d with [] => None | (k', v) :: d' => if Z.eqb k k' then Some v else zdget d' k end.
Fixpoint zdset (d : zdict) (k : Z) (v : nat) : zdict :=
  match d with
  | [] => [(k, v)]
  | (k', v') :: d' => if Z.eqb k k' then (k, v) :: d' else (k', v') :: zdset d' k v
  end.

(** ** bidict from blocks to labels (third party; insertion order does not matter here) *)

Definition labels := list (list Z * Z).
Fixpoint label_get (d : labels) (b : list Z) : option Z :=
  match d with [] => None | (b', l) :: d' => if zlist_eqb b b' then Some l else label_get d' b end.
Fixpoint label_inv (d : labels) (l : Z) : option (list Z) :=
  match d with [] => None | (b, l') :: d' => if Z.eqb l l' then Some b else label_inv d' l end.
Definition label_pop (d : labels) (b : list Z) : labels :=
  filter (fun p => negb (zlist_eqb b (fst p))) d.
(* [d[b] = l]: a label of another key raises, an old label of the same key is replaced *)
Definition label_put (d : labels) (b : list Z) (l : Z) : res labels :=
  match label_inv d l with
  | Some b' => if zlist_eqb b b' then Ok d else Err ValueDuplicationError
  | None => Ok (label_pop d b ++ [(b, l)])
  end.
(* bidict(d) *)
Definition bidict_of (d : labels) : res labels := foldM (fun acc p => label_put acc (fst p) (snd p)) d [].

(** * The object *)

(* the attribute [domain]: 'N', 'Z' or a finite set *)
Inductive domain := DomN | DomZ | DomSet (elements : list Z).

Definition domain_eqb (a b : domain) : bool :=
  match a, b with
  | DomN, DomN => true
  | DomZ, DomZ => true
  | DomSet x, DomSet y => zsubset x y && zsubset y x
  | _, _ => false
  end.

(* values stored by functools.cached_property; they survive [__init__].  [c_alias]: the
   inner lists of the cached canonical_blocks_with_singletons are still the inner lists
   of [blocks] (metributes/canonical_blocks_with_singletons:4-9) *)
Record caches := mkC {
  c_pairs : option (list (Z * Z));
  c_intval : option Z;
  c_canonical : option (list (list Z));
  c_alias : bool;
  c_singletons : option (list Z)
}.
Definition no_caches : caches := mkC None None None false None.

(* set_part/__init__.py:10-80.  [sp_index] is non_singleton_to_block_index; its keys are
   non_singletons.  [sp_length] exists for domain 'N' only.  The attributes [trivial],
   [_pairs] ... [glove_compartment] (44, 76-80) are never read and left out. *)
Record setpart := mkSP {
  sp_domain : domain;
  sp_blocks : list (list Z);
  sp_index : zdict;
  sp_length : option Z;
  sp_labels : labels;
  sp_caches : caches
}.

Definition sp_non_singletons (s : setpart) : list Z := map fst (sp_index s).

(* set_part/__init__.py:29-33 *)
Fixpoint index_blocks (blocks : list (list Z)) (block_index : nat) (d : zdict) : zdict :=
  match blocks with
  | [] => d
  | block :: blocks' =>
      index_blocks blocks' (S block_index) (fold_left (fun d element => zdset d element block_index) block d)
  end.

(* set_part/__init__.py:10-51, 63-73.  [c]: caches that are already in the object. *)
Definition sp_init (c : caches) (blocks : option (list (list Z))) (dom : domain)
    (block_labels : option labels) : res setpart :=
  let dom := match dom with DomSet l => DomSet (znodup l) | d => d end in
  let blocks :=
    match blocks with
    | None => []                                                        (* 18-20 *)
    | Some bs => isort zlist_leb (map zsort (filter (fun b => Nat.ltb 1 (length b)) bs))   (* 22 *)
    end in
  match blocks with
  | [] => Ok (mkSP dom [] [] (match dom with DomN => Some 0 | _ => None end) [] c)   (* 63-73 *)
  | _ :: _ =>
      let index := index_blocks blocks 0 [] in
      guard Nat.eqb (length index) (list_sum_nat (map (@length Z) blocks)) else DuplicateElementsError ;;
      let* len := match dom with
                  | DomN => match map fst index with
                            | [] => Err ValueErr
                            | x :: l => Ok (Some (zmax_list x l + 1))
                            end
                  | _ => Ok None
                  end in
      let* ls := match block_labels with Some d => bidict_of d | None => Ok [] end in
      Ok (mkSP dom blocks index len ls c)
  end.

Definition SetPart (blocks : option (list (list Z))) (dom : domain) : res setpart :=
  sp_init no_caches blocks dom None.

(* set_part/__init__.py:82-84 *)
Definition sp_eq (a b : setpart) : res bool :=
  guard domain_eqb (sp_domain a) (sp_domain b) else DomainsNotEqualError ;;
  Ok (blocks_eqb (sp_blocks a) (sp_blocks b)).

(* set_part/__init__.py:99-103 *)
Definition sp_block_index (s : setpart) (element : Z) : option nat := zdget (sp_index s) element.

(* set_part/__init__.py:105-108 *)
Definition pair_in_same_block (s : setpart) (a b : Z) : bool :=
  match zdget (sp_index s) a, zdget (sp_index s) b with
  | Some i, Some j => Nat.eqb i j
  | _, _ => false
  end.

(* set_part/__init__.py:110-114 *)
Definition element_to_block (s : setpart) (element : Z) : list Z :=
  match zdget (sp_index s) element with
  | Some i => nth i (sp_blocks s) []
  | None => [element]
  end.

(* set_part/__init__.py:116-122 (integer arguments; for domain 'N' with
   a/is_natural/__init__.py:1-6) *)
Definition element_in_domain (s : setpart) (element : Z) : bool :=
  match sp_domain s with
  | DomN => Z.leb 0 element
  | DomZ => true
  | DomSet l => zmemb element l
  end.

(** * Methods *)

(* set_part/methods/block_labels/__init__.py:46-50, 53-55, 58-62 *)
Definition get_label_from_block (s : setpart) (block : list Z) : option Z := label_get (sp_labels s) block.
Definition get_label_from_element (s : setpart) (element : Z) : option Z :=
  get_label_from_block s (element_to_block s element).
Definition get_block_from_label (s : setpart) (label : Z) : option (list Z) := label_inv (sp_labels s) label.

(* set_part/methods/block_labels/__init__.py:70-90: the new block_labels *)
Definition merge_block_labels (s : setpart) (element_a element_b : Z) : res labels :=
  let block_a := element_to_block s element_a in
  let block_b := element_to_block s element_b in
  if zlist_eqb block_a block_b then Ok (sp_labels s)
  else
    let label_a := get_label_from_block s block_a in
    let label_b := get_label_from_block s block_b in
    guard (match label_a, label_b with Some _, Some _ => false | _, _ => true end)
      else LabelContradictionError ;;
    let d := label_pop (label_pop (sp_labels s) block_a) block_b in
    let merged_block := zsort (block_a ++ block_b) in
    match label_a, label_b with
    | Some l, _ => label_put d merged_block l
    | None, Some l => label_put d merged_block l
    | None, None => Ok d
    end.

(* the reinitialisation [self.__init__(self.blocks, self.domain, self.block_labels)].
   It makes new inner lists, so that a cached canonical list is no alias any more. *)
Definition reinit (s : setpart) (blocks : list (list Z)) (ls : labels) (c : caches)
  : setpart * option exn :=
  let c := mkC (c_pairs c) (c_intval c) (c_canonical c) false (c_singletons c) in
  match sp_init c (Some blocks) (sp_domain s) (Some ls) with
  | Ok s' => (s', None)
  | Err e => (mkSP (sp_domain s) blocks (sp_index s) (sp_length s) ls c, Some e)
  end.

(* [blocks[i].append(b)] also changes an aliased cached canonical list *)
Definition alias_append (c : caches) (old_block new_block : list Z) : caches :=
  if c_alias c
  then mkC (c_pairs c) (c_intval c)
           (option_map (map (fun bl => if zlist_eqb bl old_block then new_block else bl)) (c_canonical c))
           true (c_singletons c)
  else c.

(* set_part/methods/merge_pair/__init__.py:7-47 *)
Definition merge_pair (s : setpart) (a b : Z) : setpart * option exn :=
  if Z.eqb a b then (s, None)
  else if negb (element_in_domain s a && element_in_domain s b) then (s, Some NotInDomainError)
  else
    match merge_block_labels s a b with
    | Err e => (s, Some e)
    | Ok ls =>
        match zdget (sp_index s) a, zdget (sp_index s) b with
        | Some i, Some j =>
            if Nat.eqb i j
            then (mkSP (sp_domain s) (sp_blocks s) (sp_index s) (sp_length s) ls (sp_caches s), None)
            else
              let block_a := nth i (sp_blocks s) [] in
              let block_b := nth j (sp_blocks s) [] in
              let merged_block := zsort (block_a ++ block_b) in
              reinit s (block_remove block_b (block_remove block_a (sp_blocks s)) ++ [merged_block])
                     ls (sp_caches s)
        | None, None => reinit s (sp_blocks s ++ [[a; b]]) ls (sp_caches s)
        | Some i, None =>
            let block := nth i (sp_blocks s) [] in
            reinit s (lset (sp_blocks s) i (block ++ [b])) ls (alias_append (sp_caches s) block (block ++ [b]))
        | None, Some i =>
            let block := nth i (sp_blocks s) [] in
            reinit s (lset (sp_blocks s) i (block ++ [a])) ls (alias_append (sp_caches s) block (block ++ [a]))
        end
    end.

(* a loop over calls that may raise *)
Fixpoint iterate {A} (f : setpart -> A -> setpart * option exn) (l : list A) (s : setpart)
  : setpart * option exn :=
  match l with
  | [] => (s, None)
  | x :: l' => match f s x with
               | (s', None) => iterate f l' s'
               | (s', Some e) => (s', Some e)
               end
  end.

(* itertools.combinations(l, 2) *)
Fixpoint combinations2 {A} (l : list A) : list (A * A) :=
  match l with [] => [] | x :: l' => map (pair x) l' ++ combinations2 l' end.

(* set_part/methods/merge_many/__init__.py:4-8 *)
Definition merge_many (s : setpart) (many : list Z) : setpart * option exn :=
  match iterate (fun s ab => merge_pair s (fst ab) (snd ab)) (combinations2 many) s with
  | (s', None) => reinit s' (sp_blocks s') (sp_labels s') (sp_caches s')
  | (s', Some e) => (s', Some e)
  end.

(* set_part/methods/blocks_with_singletons/__init__.py:8-47.  Arguments: none, length,
   range_pair, or elements (the type checks 24, 32, 38 and the check for several
   arguments are left out) *)
Inductive bws_arg := BwsNone | BwsLength (len : Z) | BwsRange (low high : Z) | BwsElements (elements : list Z).
Definition blocks_with_singletons (s : setpart) (arg : bws_arg) : res (list (list Z)) :=
  let* elements :=
    match arg with
    | BwsNone =>
        match sp_domain s with
        | DomN => match sp_length s with Some len => Ok (zrange 0 len) | None => Err AttributeErr end
        | DomZ => match sp_non_singletons s with
                  | [] => Err ValueErr                             (* min of an empty set *)
                  | x :: l => Ok (zrange (zmin_list x l) (zmax_list x l + 1))
                  end
        | DomSet l => Ok l
        end
    | BwsLength len =>
        guard (match sp_domain s with DomN => true | _ => false end) else SpLengthNotAllowedError ;;
        match sp_length s with
        | Some own => guard Z.leb own len else SpLengthMismatchError ;; Ok (zrange 0 len)
        | None => Err AttributeErr
        end
    | BwsRange low high =>
        guard (match sp_domain s with DomZ => true | _ => false end) else SpRangeNotAllowedError ;;
        match sp_non_singletons s with
        | [] => Err ValueErr
        | x :: l =>
            guard Z.leb low (zmin_list x l) && Z.ltb (zmax_list x l) high else SpRangeMismatchError ;;
            Ok (zrange low high)
        end
    | BwsElements elements =>
        guard zsubset (sp_non_singletons s) elements else SpElementsMismatchError ;; Ok elements
    end in
  let singletons := zdiff (znodup elements) (sp_non_singletons s) in
  Ok (isort zlist_leb (sp_blocks s ++ map (fun x => [x]) singletons)).

(** ** Cached attributes: reading may change the object *)

Definition set_caches (s : setpart) (c : caches) : setpart :=
  mkSP (sp_domain s) (sp_blocks s) (sp_index s) (sp_length s) (sp_labels s) c.

(* set_part/metributes/pairs/__init__.py:6-14 *)
Definition pairs_of (blocks : list (list Z)) : list (Z * Z) := flat_map combinations2 blocks.
Definition read_pairs (s : setpart) : setpart * list (Z * Z) :=
  let c := sp_caches s in
  match c_pairs c with
  | Some p => (s, p)
  | None => let p := pairs_of (sp_blocks s) in
            (set_caches s (mkC (Some p) (c_intval c) (c_canonical c) (c_alias c) (c_singletons c)), p)
  end.

(* set_part/metributes/intval/__init__.py:4-12 (for domain 'N'; a negative exponent
   would give a float in the code and gives the summand 0 here) *)
Definition intval_of (pairs : list (Z * Z)) : Z :=
  fold_left (fun result ab => result + 2 ^ ((snd ab ^ 2 - snd ab) / 2 + fst ab)) pairs 0.
Definition read_intval (s : setpart) : setpart * Z :=
  match c_intval (sp_caches s) with
  | Some n => (s, n)
  | None => let (s', p) := read_pairs s in
            let n := intval_of p in
            let c := sp_caches s' in
            (set_caches s' (mkC (c_pairs c) (Some n) (c_canonical c) (c_alias c) (c_singletons c)), n)
  end.

(* set_part/metributes/canonical_blocks_with_singletons/__init__.py:4-9 *)
Definition read_canonical (s : setpart) : setpart * res (list (list Z)) :=
  let c := sp_caches s in
  match c_canonical c with
  | Some b => (s, Ok b)
  | None =>
      match blocks_with_singletons s BwsNone with
      | Ok b => (set_caches s (mkC (c_pairs c) (c_intval c) (Some b) true (c_singletons c)), Ok b)
      | Err e => (s, Err e)
      end
  end.

(* set_part/metributes/singletons/__init__.py:8-15 *)
Definition read_singletons (s : setpart) : setpart * res (list Z) :=
  let c := sp_caches s in
  match c_singletons c with
  | Some b => (s, Ok b)
  | None =>
      match sp_domain s with
      | DomSet l => let b := zdiff l (sp_non_singletons s) in
                    (set_caches s (mkC (c_pairs c) (c_intval c) (c_canonical c) (c_alias c) (Some b)), Ok b)
      | _ => (s, Err DomainNotFiniteError)
      end
  end.

(** ** Labels *)

Definition set_labels (s : setpart) (ls : labels) : setpart :=
  mkSP (sp_domain s) (sp_blocks s) (sp_index s) (sp_length s) ls (sp_caches s).

(* set_part/methods/block_labels/__init__.py:6-24 (15-22 have no effect) *)
Definition add_label_to_block (s : setpart) (block : list Z) (label : Z) : setpart * option exn :=
  match read_canonical s with
  | (s, Err e) => (s, Some e)
  | (s, Ok canonical) =>
      if negb (block_memb block canonical) then (s, Some UnknownBlockError)
      else
        match label_get (sp_labels s) block with
        | Some old => if Z.eqb old label
                      then match label_put (sp_labels s) block label with
                           | Ok ls => (set_labels s ls, None)
                           | Err e => (s, Some e)
                           end
                      else (s, Some LabelContradictionError)
        | None => match label_put (sp_labels s) block label with
                  | Ok ls => (set_labels s ls, None)
                  | Err e => (s, Some e)
                  end
        end
  end.

(* set_part/methods/block_labels/__init__.py:27-43 (blocks are not empty) *)
Definition add_label_to_element (s : setpart) (element label : Z) : setpart * option exn :=
  if negb (element_in_domain s element) then (s, Some UnknownElementError)
  else
    let block_from_element := element_to_block s element in
    let block_from_label := get_block_from_label s label in
    let contradiction :=
      match get_label_from_block s block_from_element with
      | Some old_label => negb (Z.eqb label old_label)
      | None => false
      end in
    if contradiction then (s, Some LabelContradictionError)
    else
      match block_from_label with
      | Some bl => merge_pair s (hd 0 block_from_element) (hd 0 bl)
      | None => add_label_to_block s (element_to_block s element) label
      end.

(* a/inventory_partition/__init__.py:7-33 for a list (17-23) and for a dict (25-31) *)
Definition inventory_partition_items (keys : list Z) (items : list (Z * Z)) : res setpart :=
  let* s := SetPart (Some []) (DomSet keys) in
  match iterate (fun s kv => add_label_to_element s (fst kv) (snd kv)) items s with
  | (s', None) => Ok s'
  | (_, Some e) => Err e
  end.
Definition inventory_partition (arg : list Z) : res setpart :=
  inventory_partition_items (zrange 0 (Z.of_nat (length arg)))
                            (combine (zrange 0 (Z.of_nat (length arg))) arg).
Definition inventory_partition_dict (items : list (Z * Z)) : res setpart :=
  inventory_partition_items (zsort (map fst items)) items.

(* set_part/methods/refine_block/__init__.py:7-33.  The check in lines 13-14 compares the
   length of a list with itself. *)
Definition refine_block (s : setpart) (new_blocks : list (list Z)) (new_labels : option (list Z))
  : setpart * option exn :=
  let old_block := zsort (concat new_blocks) in
  if negb (Nat.eqb (list_sum_nat (map (@length Z) new_blocks)) (length old_block))
  then (s, Some ArgValueError)
  else if negb (block_memb old_block (sp_blocks s)) then (s, Some ArgValueError)
  else
    let s1 := mkSP (sp_domain s) (block_remove old_block (sp_blocks s) ++ new_blocks) (sp_index s)
                   (sp_length s) (label_pop (sp_labels s) old_block) (sp_caches s) in
    match new_labels with
    | None => reinit s1 (sp_blocks s1) (sp_labels s1) (sp_caches s1)
    | Some ls =>
        if negb (Nat.eqb (length ls) (length new_blocks)) then (s1, Some ArgValueError)
        else
          match iterate (fun s bl => match label_put (sp_labels s) (fst bl) (snd bl) with
                                     | Ok d => (set_labels s d, None)
                                     | Err e => (s, Some e)
                                     end) (combine new_blocks ls) s1 with
          | (s2, None) => reinit s2 (sp_blocks s2) (sp_labels s2) (sp_caches s2)
          | (s2, Some e) => (s2, Some e)
          end
    end.

(** ** meet and join *)

(* set_part/methods/meet_and_join/meet.py:18-31 *)
Definition meet (s o : setpart) : res setpart :=
  guard domain_eqb (sp_domain s) (sp_domain o) else DomainsNotEqualError ;;
  let meet_blocks :=
    flat_map (fun s_block => flat_map (fun o_block =>
      match zinter (znodup s_block) o_block with
      | [] => []
      | x => [zsort x]
      end) (sp_blocks o)) (sp_blocks s) in
  SetPart (Some meet_blocks) (sp_domain s).

(* set_part/methods/meet_and_join/meet.py:6-15 and join/_0_prototypes.py:7-15 (objects
   whose [pairs] are not cached).  [order]: the iteration order of the set of pairs. *)
Definition merge_pairs (pairs : list (Z * Z)) (dom : domain) : res setpart :=
  let* result := SetPart (Some []) dom in
  match iterate (fun s ab => merge_pair s (fst ab) (snd ab)) pairs result with
  | (s', None) => Ok s'
  | (_, Some e) => Err e
  end.
Definition pair_memb (x : Z * Z) (l : list (Z * Z)) : bool :=
  existsb (fun y => Z.eqb (fst x) (fst y) && Z.eqb (snd x) (snd y)) l.
Definition meet_prototype (order : list (Z * Z) -> list (Z * Z)) (s o : setpart) : res setpart :=
  guard domain_eqb (sp_domain s) (sp_domain o) else DomainsNotEqualError ;;
  merge_pairs (order (filter (fun p => pair_memb p (pairs_of (sp_blocks o))) (pairs_of (sp_blocks s))))
              (sp_domain s).
Definition join_prototype (order : list (Z * Z) -> list (Z * Z)) (s o : setpart) : res setpart :=
  guard domain_eqb (sp_domain s) (sp_domain o) else DomainsNotEqualError ;;
  merge_pairs (order (pairs_of (sp_blocks s) ++
                      filter (fun p => negb (pair_memb p (pairs_of (sp_blocks s)))) (pairs_of (sp_blocks o))))
              (sp_domain s).

(* set_part/methods/meet_and_join/join/_1_fast.py:25-45  join_blocks; the state is
   (current_block, new_elements) *)
Definition join_blocks (part : setpart) (cn : list Z * list Z) : list Z * list Z :=
  let (current_block, new_elements) := cn in
  let added_elements := znodup (flat_map (element_to_block part) new_elements) in
  (zunion current_block added_elements, zdiff added_elements current_block).

(* set_part/methods/meet_and_join/join/_1_fast.py:58-59 *)
Fixpoint join_loop (fuel : nat) (s o : setpart) (cn : list Z * list Z) : res (list Z) :=
  match fuel with
  | 0%nat => Err OutOfFuel
  | S fuel' =>
      let cn1 := join_blocks s cn in
      let cn2 := join_blocks o cn1 in
      if Nat.ltb 0 (length (snd cn1) + length (snd cn2)) then join_loop fuel' s o cn2 else Ok (fst cn2)
  end.

(* set_part/methods/meet_and_join/join/_1_fast.py:1-62.  [order]: the iteration order of
   the set [domain]. *)
Definition join (order : list Z -> list Z) (s o : setpart) : res setpart :=
  let elements := order (zunion (sp_non_singletons s) (sp_non_singletons o)) in
  let* result_blocks :=
    foldM (fun result_blocks element =>
             if existsb (zmemb element) result_blocks then Ok result_blocks
             else let* current_block := join_loop (length elements + 2) s o ([], [element]) in
                  Ok (result_blocks ++ [current_block]))
          elements [] in
  SetPart (Some result_blocks) DomN.

(* set_part/methods/meet_and_join/join/_0_prototypes.py:18-55 *)
Definition join_prototype_improved (order : list (Z * Z) -> list (Z * Z)) (s o : setpart) : res setpart :=
  let* meet_part := meet s o in
  let reps := map (fun block => match block with [] => (0, []) | x :: l =>
                     let rep := zmin_list x l in (rep, zdiff block [rep]) end) (sp_blocks meet_part) in
  let trash := flat_map snd reps in
  let clean bs := map (fun block => zsort (zdiff (znodup block) trash)) bs in
  let* clean_s_part := SetPart (Some (clean (sp_blocks s))) DomN in
  let* clean_o_part := SetPart (Some (clean (sp_blocks o))) DomN in
  let* clean_join_part := join_prototype order clean_s_part clean_o_part in
  let dirty_domain := zunion (concat (sp_blocks s)) (concat (sp_blocks o)) in
  let clean_domain := zdiff dirty_domain trash in
  let* clean_blocks := blocks_with_singletons clean_join_part (BwsElements clean_domain) in
  let dirty_join_blocks :=
    map (fun clean_block =>
           zsort (zunion clean_block
             (flat_map (fun element => flat_map (fun rt => if Z.eqb element (fst rt) then snd rt else []) reps)
                       clean_block)))
        clean_blocks in
  SetPart (Some dirty_join_blocks) (sp_domain s).

(* set_part/__init__.py:124-126, 128-129 *)
Definition sp_le (order : list Z -> list Z) (a b : setpart) : res bool :=
  guard domain_eqb (sp_domain a) (sp_domain b) else DomainsNotEqualError ;;
  let* j := join order a b in
  sp_eq j b.
Definition sp_lt (order : list Z -> list Z) (a b : setpart) : res bool :=
  let* e := sp_eq a b in
  if e then Ok false else sp_le order a b.
