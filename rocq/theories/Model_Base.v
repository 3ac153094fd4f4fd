(** Model_Base: the ambient vocabulary of the model.  No proofs in this file.

    Python exceptions are values of [exn]; a Python call that may raise is a
    function into [res].  [exn] has one constructor per exception class that the
    modelled code raises (discretehelpers/ex.py and the [ex.py] files of the
    packages, plus the builtin classes). *)

From Coq Require Import List Arith NArith ZArith Bool Lia.
Import ListNotations.

Inductive exn :=
(* builtin Python exceptions *)
| ValueErr | TypeErr | IndexErr | KeyErr | AssertErr | AttributeErr | ZeroDivErr
(* discretehelpers/ex.py *)
| ArgTypeError | ArgValueError | ArgComboError | ArgMismatchError
| ArgTooBigError | ArgTooSmallError | ArgNotFeasibleError
(* binv/ex.py *)
| BinvArgumentError | BinvLengthError | VectorEntryError | IntvalError
(* a/vector_zip_apart/ex.py, a/sort_together/ex.py, a/prime_factors/ex.py *)
| ZipLengthError | SortLengthMismatchError | UnexpectedFactorError
(* perm/ex.py, perm/metributes/ranks/ex.py *)
| SequenceError | CyclesError | DictError | PerilenTooSmallError
| OtherPerilenMismatchError | LengthMismatchPerilenError | LengthTooSmallError
| NotPeriodicError | PermNotFiniteError
(* walsh_perm/ex.py, walsh_perm/a/*/ex.py, a/walsh_function_to_index/ex.py; the exception
   IsNeutralFail of perm/ex.py that WalshPerm catches; numpy's LinAlgError *)
| InvalidMatrixError | NotSquareError | InvalidPermError | NotWalshRowError
| NotEvenPermutationError | RequestedDegreeSmallerActualDegreeError | PermLengthError
| IsNeutralFail | TooManyArgumentsError | RedundantParametersError | NotPowerOfTwoError
| ExtendedLengthTooSmallError | LinAlgError
(* set_part/ex.py, set_part/methods/*/ex.py; bidict's ValueDuplicationError *)
| NotInDomainError | DomainsNotEqualError | DomainNotFiniteError | DuplicateElementsError
| UnknownBlockError | UnknownElementError | LabelContradictionError | ValueDuplicationError
| SpLengthNotAllowedError | SpLengthMismatchError | SpRangeNotAllowedError
| SpRangeMismatchError | SpElementsMismatchError
(* set_part_comp/ex.py *)
| SetEqualComplementsError | SetCompEqualsError | CompWithoutPartError | PartCompMismatchError
(* boolf/ex.py, boolf/methods/*/ex.py *)
| SarityVectorMismatchError | AtomvalsNotUniqueError | AtomvalNegativeError
| SarityMismatchError | UnexpectedArgumentError | AtomvalsMismatchError
| NotPairOfAtomKeysError | BordersCrossingError | TooBigError | BloatMismatchError | BlightMismatchError
| BoolfNotBlightlessError | NotBlightlessError | TooManyOverlapsERROR | SmallerThanSelfERROR
| NotBundleError | NotSpreadlessError | RuntimeErr
(* a/key_tuples/ex.py, a/slice_to_range/ex.py, boolf/a/int_to_rcv/ex.py *)
| ArgNotContainerError | ItemNotContainerFail | ItemEmptyContainerFail | StopMissingError
| SpecifiedLengthTooShortError
(* not an exception of the code: a fuelled loop of the model ran out of fuel.
   Every theorem that claims success or a particular exception excludes it. *)
| OutOfFuel.

Inductive res (A : Type) := Ok (a : A) | Err (e : exn).
Arguments Ok {A} a.
Arguments Err {A} e.

Definition bind {A B} (m : res A) (f : A -> res B) : res B :=
  match m with Ok a => f a | Err e => Err e end.
Notation "'let*' x ':=' m 'in' k" := (bind m (fun x => k))
  (at level 200, x name, m at level 100, k at level 200, right associativity).

(* a/true_except/__init__.py:1-3  [if not condition: raise exception] *)
Definition true_except (c : bool) (e : exn) : res unit := if c then Ok tt else Err e.
Notation "'guard' c 'else' e ';;' k" := (bind (true_except c e) (fun _ => k))
  (at level 200, c at level 100, e at level 100, k at level 200, right associativity).

(* [x[i] for a list comprehension whose body may raise] *)
Fixpoint mapM {A B} (f : A -> res B) (l : list A) : res (list B) :=
  match l with
  | [] => Ok []
  | x :: l' => let* y := f x in let* ys := mapM f l' in Ok (y :: ys)
  end.

(* Python [for x in l: acc = f(acc, x)] with a body that may raise *)
Fixpoint foldM {A S} (f : S -> A -> res S) (l : list A) (s : S) : res S :=
  match l with
  | [] => Ok s
  | x :: l' => let* s' := f s x in foldM f l' s'
  end.

(* [for x in l: if not f(x): return False] ... [return True] *)
Fixpoint forallM {A} (f : A -> res bool) (l : list A) : res bool :=
  match l with
  | [] => Ok true
  | x :: l' => let* b := f x in if b then forallM f l' else Ok false
  end.

(* Python [l[i]] for a non-negative index *)
Definition lget {A} (l : list A) (i : nat) : res A :=
  match nth_error l i with Some x => Ok x | None => Err IndexErr end.

(* Python [l[i] = x] for a non-negative index (the list is unchanged if [i] is out
   of range; Python raises IndexError there, and the callers below are in range) *)
Fixpoint lset {A} (l : list A) (i : nat) (x : A) : list A :=
  match l, i with
  | [], _ => []
  | _ :: l', 0 => x :: l'
  | y :: l', S i' => y :: lset l' i' x
  end.

(* Python [range(n)] and [range(a, b)] *)
Definition range (n : nat) : list nat := seq 0 n.
Definition range2 (a b : nat) : list nat := seq a (b - a).

(* Python [sorted(l)]: a stable insertion sort (Python's sort is stable, so equal
   keys keep their order; for a total order on values the result is unique). *)
Section Sort.
  Context {A : Type} (leb : A -> A -> bool).
  Fixpoint insert (x : A) (l : list A) : list A :=
    match l with
    | [] => [x]
    | y :: l' => if leb x y then x :: y :: l' else y :: insert x l'
    end.
  Fixpoint isort (l : list A) : list A :=
    match l with [] => [] | x :: l' => insert x (isort l') end.
End Sort.

Definition sort_nat := isort Nat.leb.

(* Python membership [x in l] *)
Definition memb (x : nat) (l : list nat) : bool := existsb (Nat.eqb x) l.

(* Python [set(l)], kept as the list of first occurrences *)
Fixpoint nodupb (l : list nat) : list nat :=
  match l with
  | [] => []
  | x :: l' => if memb x l' then nodupb l' else x :: nodupb l'
  end.
Definition set_union (a b : list nat) : list nat := nodupb (a ++ b).

(* Python [l.index(x)] *)
Fixpoint index_of (x : nat) (l : list nat) : res nat :=
  match l with
  | [] => Err ValueErr
  | y :: l' => if Nat.eqb x y then Ok 0 else let* i := index_of x l' in Ok (S i)
  end.

(* [a == b] for lists of naturals *)
Fixpoint list_eqb (a b : list nat) : bool :=
  match a, b with
  | [], [] => true
  | x :: a', y :: b' => Nat.eqb x y && list_eqb a' b'
  | _, _ => false
  end.

(* [a == b] for binary vectors *)
Fixpoint bvec_eqb (a b : list bool) : bool :=
  match a, b with
  | [], [] => true
  | x :: a', y :: b' => Bool.eqb x y && bvec_eqb a' b'
  | _, _ => false
  end.

(* [max(l)] over naturals; callers guard against the empty list *)
Definition list_max_nat (l : list nat) : nat := fold_right Nat.max 0 l.
Definition list_sum_nat (l : list nat) : nat := fold_right Nat.add 0 l.

(* Python dict from naturals to naturals, in insertion order *)
Definition dict := list (nat * nat).
Fixpoint dget (d : dict) (k : nat) : option nat :=
  match d with
  | [] => None
  | (k', v) :: d' => if Nat.eqb k k' then Some v else dget d' k
  end.
Fixpoint dset (d : dict) (k v : nat) : dict :=
  match d with
  | [] => [(k, v)]
  | (k', v') :: d' => if Nat.eqb k k' then (k, v) :: d' else (k', v') :: dset d' k v
  end.
Definition ddel (d : dict) (k : nat) : dict := filter (fun p => negb (Nat.eqb k (fst p))) d.
Definition dkeys (d : dict) : list nat := map fst d.
Definition dvals (d : dict) : list nat := map snd d.
Definition dlookup (d : dict) (k : nat) : res nat :=
  match dget d k with Some v => Ok v | None => Err KeyErr end.
(* dict equality ignores the insertion order *)
Definition dict_eqb (a b : dict) : bool :=
  Nat.eqb (length a) (length b) &&
  forallb (fun p => match dget b (fst p) with Some v => Nat.eqb v (snd p) | None => false end) a.

(** Little-endian bits.  [b2n] is Python's [int(string[::-1], 2)] of a binary vector,
    [n2b len n] the vector of the [len] lowest binary digits. *)
Fixpoint b2n (l : list bool) : nat :=
  match l with [] => 0 | b :: l' => Nat.b2n b + 2 * b2n l' end.
Fixpoint n2b (len n : nat) : list bool :=
  match len with 0 => [] | S len' => Nat.odd n :: n2b len' (Nat.div2 n) end.
(* the same with results in [N], for truth tables (whose integers are huge) *)
Fixpoint b2N (l : list bool) : N :=
  match l with [] => 0%N | b :: l' => (N.b2n b + 2 * b2N l')%N end.
Fixpoint N2b (len : nat) (n : N) : list bool :=
  match len with 0 => [] | S len' => N.odd n :: N2b len' (N.div2 n) end.
