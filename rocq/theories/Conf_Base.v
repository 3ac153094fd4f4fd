(** Checks of the model against the assertions in the test files of the code (discretehelpers/**/_test.py): what the Conf files share.
    These files contain no theorems.  Each Example is a literal assertion of the code's own tests, so that the model is compared with what the
    code's authors expect of the code. *)
From Coq Require Import String Ascii List Arith ZArith Bool.
From Verif Require Import Model_Base.
Import ListNotations.

(* the literal of a Binv or truth table: a character 1 is true, other characters than 0 and 1 are skipped *)
Fixpoint bv (s : string) : list bool :=
  match s with
  | EmptyString => []
  | String c s' => if Ascii.eqb c "0" then false :: bv s' else if Ascii.eqb c "1" then true :: bv s' else bv s'
  end.
(* ~n *)
Definition nt (n : nat) : Z := (- Z.of_nat n - 1)%Z.
(* True and False as the numbers 1 and 0 *)
Definition b01 (l : list Z) : list bool := map (fun z => negb (Z.eqb z 0)) l.
(* the iteration order of a set, where the result does not depend on it *)
Definition asis {A} (l : list A) : list A := l.
(* an expected exception *)
Definition errs {A} (e : exn) (l : list (res A)) : Prop := Forall (fun r => r = Err e) l.
Ltac tests := cbv zeta; repeat match goal with |- _ /\ _ => split end; unfold errs; repeat apply Forall_cons; try apply Forall_nil; vm_compute; reflexivity.
