(** Model_WalshMore: the features that a WalshPerm has as a Perm. *)

From Coq Require Import List Arith ZArith Bool.
From Verif Require Import Model_Base Model_Perm Model_WalshPerm.
Import ListNotations.
Open Scope nat_scope.

(* perm/metributes/cycles.py:6-27, perm/metributes/order.py:6-19  inherited: they read only
   [neutral] and [mapping] *)
Definition walsh_cycles (w : walsh) : res (list (list nat)) := let* p := walsh_perm w in pcycles p.
Definition walsh_order (w : walsh) : res nat := let* p := walsh_perm w in porder p.

(* walsh_perm/metributes/moved/__init__.py:4-6, walsh_perm/__init__.py:51-55  the set of the
   keys; for the neutral element the mapping is empty.  The order of a set is not modelled:
   the list has the order of the dict. *)
Definition walsh_moved (w : walsh) : res (list nat) := let* m := walsh_mapping w in Ok (dkeys m).

(* walsh_perm/__init__.py:102-110, perm/__init__.py:179-191  cycles_dynamic.  For the neutral
   element [length >= None] raises TypeError (106). *)
Definition walsh_cycles_dynamic (w : walsh) (len degree : option nat) : res (list (list nat)) :=
  let* len :=
    match len, degree with
    | Some _, Some _ => Err RedundantParametersError
    | Some l, None =>
        guard is_power_of_two l else NotPowerOfTwoError ;;
        guard negb (w_neutral w) else TypeErr ;;
        guard Nat.leb (2 ^ w_degree w) l else RequestedDegreeSmallerActualDegreeError ;;
        Ok (Some l)
    | None, Some d =>
        guard Nat.leb (w_degree w) d else RequestedDegreeSmallerActualDegreeError ;;
        Ok (Some (2 ^ d))
    | None, None => Ok None
    end in
  let* p := walsh_perm w in cycles_dynamic p len.

(* perm/__init__.py:174-177  apply_on_vector, with the inverse of a WalshPerm *)
Definition walsh_apply {A} (linalg_inv : zmat -> res (option zmat)) (w : walsh) (vector : list A) : res (list A) :=
  let* inv := walsh_inverse linalg_inv w in
  mapM (fun i => let* j := walsh_get inv i in lget vector j) (range (length vector)).

(* perm/__init__.py:118-141  [p * w] with a Perm on the left: Perm.__mul__ reads [neutral],
   [perilen], [moved] and the entries of the factor on the right *)
Definition perm_mul_walsh (p : perm) (w : walsh) : res perm := let* q := walsh_perm w in pmul p q.
