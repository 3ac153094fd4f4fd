(** Spec_Perm: what a permutation of the naturals is, what a constructor argument says,
    and which objects a user of the class [Perm] can obtain.  Nothing here uses the
    algorithms of the model. *)

From Coq Require Import List Arith ZArith Bool Lia Permutation.
From Verif Require Import Model_Base Model_Perm.
Import ListNotations.

Definition injective (f : nat -> nat) := forall x y, f x = f y -> x = y.
Definition surjective (f : nat -> nat) := forall y, exists x, f x = y.
Definition bijective (f : nat -> nat) := injective f /\ surjective f.

(** "the argument sends i to j" *)
Inductive says : perm_arg -> nat -> nat -> Prop :=
| says_seq l i j : nth_error l i = Some j -> says (ArgSeq l) i j
| says_step cs c u v i j : In c cs -> c = u ++ i :: j :: v -> says (ArgCycles cs) i j
| says_wrap cs c i j u : In c cs -> c = j :: u -> i = last c 0 -> says (ArgCycles cs) i j
| says_dict d k v : In (k, v) d -> says (ArgDict d) k v.

(** what can be written in Python and is meaningful: dicts have distinct keys, cycles
    are disjoint and repetition-free *)
Definition meaningful (arg : perm_arg) : Prop :=
  match arg with
  | ArgNone | ArgSeq _ => True
  | ArgCycles cs => NoDup (concat cs)
  | ArgDict d => NoDup (map fst d)
  end.

(** the argument describes a permutation *)
Definition permutes (arg : perm_arg) : Prop :=
  match arg with
  | ArgNone | ArgCycles _ => True
  | ArgSeq l => Permutation l (seq 0 (length l))
  | ArgDict d => Permutation (map fst d) (map snd d)
  end.

(** the period length leaves room for all elements that the argument moves *)
Definition fits (arg : perm_arg) (q : nat) : Prop :=
  forall i j, says arg i j -> i <> j -> i < q.

(** every Perm object a user can obtain (from meaningful arguments) *)
Inductive is_Perm : perm -> Prop :=
| obj_new arg peri p : meaningful arg -> Perm arg peri = Ok p -> is_Perm p
| obj_mul a b p : is_Perm a -> is_Perm b -> pmul a b = Ok p -> is_Perm p
| obj_inv a p : is_Perm a -> pinv a = Ok p -> is_Perm p
| obj_pow a k p : is_Perm a -> ppow a k = Ok p -> is_Perm p.

(** [t] is a period of an action: shifting the argument by [t] shifts the value by [t] *)
Definition is_period (f : nat -> nat) (t : nat) : Prop := forall x, f (x + t) = f x + t.

(** k-fold application *)
Fixpoint iter (f : nat -> nat) (k : nat) (x : nat) : nat :=
  match k with 0 => x | S k' => f (iter f k' x) end.
