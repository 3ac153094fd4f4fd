(** Spec_Helpers: what the helper functions of Model_Helpers are meant to do, stated without the
    functions of the model. *)

From Coq Require Import List Arith ZArith Bool Lia Relations Permutation Sorted.
From Verif Require Import Spec_Perm Spec_SigPerm.
Import ListNotations.
Open Scope nat_scope.

(** ** Hasse diagrams *)

(* the nodes at positions i and j are different positions, and the first is under the second *)
Definition related {A} (nodes : list A) (under : A -> A -> bool) (i j : nat) : Prop :=
  i <> j /\ exists a b, nth_error nodes i = Some a /\ nth_error nodes j = Some b /\ under a b = true.
(* there is a node between the two *)
Definition through {A} (nodes : list A) (under : A -> A -> bool) (i j : nat) : Prop :=
  exists k, related nodes under i k /\ related nodes under k j.
Definition covers {A} (nodes : list A) (under : A -> A -> bool) (i j : nat) : Prop :=
  related nodes under i j /\ ~ through nodes under i j.
(* a partial order (strict or not) on the nodes *)
Definition is_order {A} (nodes : list A) (under : A -> A -> bool) : Prop :=
  NoDup nodes /\
  (forall a b, In a nodes -> In b nodes -> under a b = true -> under b a = true -> a = b) /\
  (forall a b c, In a nodes -> In b nodes -> In c nodes -> under a b = true -> under b c = true -> under a c = true).

(** ** Sequences in lexicographic order *)

Inductive lex_before : list nat -> list nat -> Prop :=
| lex_nil x p : lex_before [] (x :: p)
| lex_head x y p q : x < y -> lex_before (x :: p) (y :: q)
| lex_tail x p q : lex_before p q -> lex_before (x :: p) (x :: q).

(** ** Nested containers *)

From Verif Require Import Model_Helpers.

(* the key and the value at a position of a container *)
Definition child (c : item) (i : nat) : option (nat * item) :=
  match c with
  | Other => None
  | Lst l => match nth_error l i with Some v => Some (i, v) | None => None end
  | Dct l => nth_error l i
  end.
(* following positions: the keys on the way, and the object that is reached *)
Fixpoint walk (c : item) (path : list nat) : option (list nat * item) :=
  match path with
  | [] => Some ([], c)
  | i :: path' =>
      match child c i with
      | Some (k, v) => match walk v path' with Some (ks, x) => Some (k :: ks, x) | None => None end
      | None => None
      end
  end.
(* nothing can be entered *)
Definition is_leaf (v : item) : Prop := forall i, child v i = None.
Definition leaf_path (c : item) (path : list nat) : Prop :=
  path <> [] /\ exists ks v, walk c path = Some (ks, v) /\ is_leaf v.
(* in every dictionary the keys are different *)
Inductive unique_keys : item -> Prop :=
| uk_other : unique_keys Other
| uk_lst l : Forall unique_keys l -> unique_keys (Lst l)
| uk_dct l : NoDup (map fst l) -> Forall (fun kv => unique_keys (snd kv)) l -> unique_keys (Dct l).

(* following positions in nested sequences *)
Fixpoint nested_at {A} (x : nested A) (path : list nat) : option (nested A) :=
  match path, x with
  | [], _ => Some x
  | _ :: _, Val _ => None
  | i :: path', Seq l => match nth_error l i with Some y => nested_at y path' | None => None end
  end.

(** ** Sequences *)

(* s arises from l by leaving out entries *)
Inductive sublist {A} : list A -> list A -> Prop :=
| sub_nil : sublist [] []
| sub_keep x s l : sublist s l -> sublist (x :: s) (x :: l)
| sub_drop x s l : sublist s l -> sublist s (x :: l).

(* how often an element is in a multiset given by a dictionary *)
Definition multiplicity (d : list (nat * nat)) (x : nat) (c : nat) : Prop :=
  In (x, c) d \/ (~ In x (map fst d) /\ c = 0).

(** ** Bits *)

(* the positions of the one bits of a number, in any order *)
Definition ones_of (n : nat) (l : list nat) : Prop := NoDup l /\ forall i, In i l <-> Nat.testbit n i = true.

(* a chain below n: every member is the position of a one bit of the number before *)
Inductive chain : nat -> list nat -> Prop :=
| chain_nil n : chain n []
| chain_cons n a l : Nat.testbit n a = true -> chain a l -> chain n (a :: l).

(* the value of balanced ternary digits, the first one for the ones *)
Fixpoint ternary_value (digits : list Z) : Z :=
  match digits with [] => 0 | d :: digits' => (d + 3 * ternary_value digits')%Z end.

(** ** Comparison of lists *)

Inductive lex_less {A} (lt : A -> A -> Prop) : list A -> list A -> Prop :=
| less_nil x l : lex_less lt [] (x :: l)
| less_head x y k l : lt x y -> lex_less lt (x :: k) (y :: l)
| less_tail x k l : lex_less lt k l -> lex_less lt (x :: k) (x :: l).
Definition total_of (l : list Z) : Z := fold_right Z.add 0%Z l.
(* first the sum of all entries, then the sums of the layers, then the entries *)
Definition layered_less (a b : list (list Z)) : Prop :=
  (total_of (map total_of a) < total_of (map total_of b))%Z \/
  (total_of (map total_of a) = total_of (map total_of b) /\
   (lex_less Z.lt (map total_of a) (map total_of b) \/
    (map total_of a = map total_of b /\ lex_less (lex_less Z.lt) a b))).

(** ** Orbits *)

Definition orbit (f : nat -> nat) (x y : nat) : Prop := exists k, iter f k x = y.

(** ** Colours: the dictionary of colours to spots gives the colour c to the spot x *)

Definition spots_of (d : list (nat * list nat)) (c x : nat) : Prop := exists l, In (c, l) d /\ In x l.

(** ** Matrices *)

Definition rectangular (h w : nat) (m : list (list Z)) : Prop := length m = h /\ Forall (fun row => length row = w) m.
Definition column (j : nat) (m : list (list Z)) : list Z := map (fun row => nth j row 0%Z) m.
(* one is not behind the other in the order of Python's lists of lists *)
Definition not_after (a b : list (list Z)) : Prop := ~ lex_less (lex_less Z.lt) b a.

Fixpoint scalar (u v : list Z) : Z :=
  match u, v with a :: u', b :: v' => (a * b + scalar u' v')%Z | _, _ => 0%Z end.

(** ** Literals: [z] is like [x], but its atom is greater by [d] *)

Definition shifted (x d z : Z) : Prop := negated z = negated x /\ (Z.of_nat (atom z) = Z.of_nat (atom x) + d)%Z.
