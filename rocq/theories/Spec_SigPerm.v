(** Spec_SigPerm: literals, actions on literals, signed permutation matrices, and the SigPerm
    objects a user can obtain.  Independent of the algorithms of the model. *)

From Coq Require Import List Arith ZArith Bool Lia Permutation.
From Verif Require Import Model_Base Model_Perm Model_SigPerm Spec_Perm.
Import ListNotations.
Open Scope Z_scope.

(** the negation of a literal, and the atom it is about *)
Definition neg (z : Z) : Z := -1 - z.
Definition atom (z : Z) : nat := Z.to_nat (Z.max z (neg z)).
Definition negated (z : Z) : bool := z <? 0.

(** the action on literals that belongs to the images of the atoms *)
Definition on_literals (f : nat -> Z) (z : Z) : Z :=
  if negated z then neg (f (atom z)) else f (atom z).

(** [n]x[n] matrix with entry +1 or -1 in column k at row [atom (f k)], according to the
    sign of [f k], and 0 elsewhere *)
Definition shows (n : nat) (mat : list (list Z)) (f : nat -> Z) : Prop :=
  length mat = n /\
  forall m row, nth_error mat m = Some row -> length row = n /\
    forall k x, nth_error row k = Some x ->
      x = if Nat.eqb (atom (f k)) m then (if negated (f k) then -1 else 1) else 0.

(** the image of atom k, as listed by the method [sequence] *)
Definition entry (s : sigperm) (k : nat) (z : Z) : Prop :=
  exists n l, sg_sequence s (Some n) = Ok l /\ nth_error l k = Some z.

(** the object acts on the atoms as [f] *)
Definition acts (s : sigperm) (f : nat -> Z) : Prop := forall k, entry s k (f k).

(** a permutation argument that is meaningful (no overlapping cycles, no repeated keys) *)
Definition good_src (o : option perm_src) : Prop :=
  match o with
  | None => True
  | Some (SrcArg a) => meaningful a
  | Some (SrcPerm p) => is_Perm p
  end.

(** every SigPerm object a user can obtain (from meaningful arguments, with a finite
    permutation) *)
Inductive is_SigPerm : sigperm -> Prop :=
| sig_new v vi k ki pm pi pair seq mat s :
    good_src pm -> SigPerm v vi k ki pm pi pair seq mat = Ok s ->
    perilen (sg_perm s) = None -> is_SigPerm s
| sig_mul a b s : is_SigPerm a -> is_SigPerm b -> sg_mul a b = Ok s -> is_SigPerm s
| sig_inv a s : is_SigPerm a -> sg_inv a = Ok s -> is_SigPerm s.

(** the bits given as a negator argument *)
Definition given_bit (a : neg_arg) (i : nat) : bool :=
  match a with
  | NegVector v => Z.eqb (nth i v 0) 1
  | NegSet l => existsb (Z.eqb (Z.of_nat i)) l
  | NegBinv b => nth i b false
  end.
(** the argument is accepted by Binv: entries 0 and 1, natural elements *)
Definition good_neg (a : neg_arg) : Prop :=
  match a with
  | NegVector v => forall e, In e v -> e = 0 \/ e = 1
  | NegSet l => forall e, In e l -> 0 <= e
  | NegBinv _ => True
  end.
