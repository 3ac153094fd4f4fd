(** Model_Cayley: the Cayley tables of the scripts perm/scripts/01_cayley, sig_perm/scripts/01_cayley and
    sig_perm/scripts/02_cayley_compare.  The scripts use the sizes 4 and 3; here the size is the argument [n].
    The tables are kept as lists of labelled pairs in the order of the loops; the scripts store them as labels in a
    SetPart (Model_SetPart).  No proofs in this file. *)

From Coq Require Import List Arith ZArith Bool Factorial.
From Verif Require Import Model_Base Model_Binary Model_Splits Model_Perm Model_SigPerm Model_SetPart Model_ClanMatrix.
Import ListNotations.
Open Scope nat_scope.

(* bidict (external library): d[k] = v refuses a value that is already there under another key; keys and
   values are found by hash and ==; equal objects have equal hashes (C87), so that == decides *)
Definition bidict_put {K V} (keqb : K -> K -> bool) (veqb : V -> V -> bool) (d : list (K * V)) (k : K) (v : V) : res (list (K * V)) :=
  match find (fun kv => veqb (snd kv) v) d with
  | Some kv => guard keqb (fst kv) k else ValueDuplicationError ;; Ok d
  | None => Ok (dstore keqb d k v)
  end.
(* d.inverse[v] *)
Definition bidict_inverse {K V} (veqb : V -> V -> bool) (d : list (K * V)) (v : V) : res K :=
  match find (fun kv => veqb (snd kv) v) d with Some kv => Ok (fst kv) | None => Err KeyErr end.

(* sig_perm/scripts/01_cayley/__main__.py:20 = 02_cayley_compare/__main__.py:22, with n in the place of 3 *)
Definition signed_ids (n : nat) : list (nat * nat) := list_prod (range (2 ^ n)) (range (fact n)).

(* sig_perm/scripts/01_cayley/__main__.py:18-19, 24 = 02_cayley_compare/__main__.py:18-19, 31 *)
Definition id_sigperm (n : nat) (id : nat * nat) : res sigperm :=
  let* perms := mapM (fun p => Perm (ArgSeq p) None) (rev_colex_perms n) in
  let* binvs := mapM (fun k => Binv_intval k None) (range (2 ^ n)) in
  let* binv := lget binvs (fst id) in
  let* p := lget perms (snd id) in
  SigPerm_valneg (NegBinv binv) (SrcPerm p).

(* 02_cayley_compare/__main__.py:25-34 for one of the three dictionaries: the loop over the pairs of numbers *)
Definition id_dict {V} (veqb : V -> V -> bool) (value : sigperm -> res V) (n : nat) : res (list ((nat * nat) * V)) :=
  foldM (fun d id =>
           let* sigperm := id_sigperm n id in
           let* v := value sigperm in
           bidict_put npair_eqb veqb d id v)
        (signed_ids n) [].

(* 02_cayley_compare/__main__.py:41-45, 52-59, 66-70: the loops over all pairs of entries *)
Definition cayley_table {V} (veqb : V -> V -> bool) (mul : V -> V -> res V) (d : list ((nat * nat) * V))
  : res (list (((nat * nat) * (nat * nat)) * (nat * nat))) :=
  mapM (fun ab : ((nat * nat) * V) * ((nat * nat) * V) =>
          let* p := mul (snd (fst ab)) (snd (snd ab)) in
          let* id_p := bidict_inverse veqb d p in
          Ok ((fst (fst ab), fst (snd ab)), id_p))
       (list_prod d d).

(* 02_cayley_compare/__main__.py:39-45 = 01_cayley/__main__.py:29-33 *)
Definition cayley_sigperm (n : nat) := let* d := id_dict sg_eqb (fun s => Ok s) n in cayley_table sg_eqb sg_mul d.

(* 02_cayley_compare/__main__.py:50-59 (tuples of tuples of numbers; np.dot of square matrices) *)
Fixpoint rows_eqb (a b : list (list Z)) : bool :=
  match a, b with
  | [], [] => true
  | x :: a', y :: b' => zlist_eqb x y && rows_eqb a' b'
  | _, _ => false
  end.
Definition cayley_matrix (n : nat) :=
  let* d := id_dict rows_eqb (fun s => sg_matrix s (Some n)) n in cayley_table rows_eqb (fun a b => Ok (mat_dot n a b)) d.

(* 02_cayley_compare/__main__.py:64-70 *)
Definition cayley_cvp (n : nat) := let* d := id_dict perm_eqb sg_schoute n in cayley_table perm_eqb pmul d.

(* l.index(x) with == of permutations *)
Fixpoint perm_position (l : list perm) (p : perm) : res nat :=
  match l with
  | [] => Err ValueErr
  | q :: l' => if perm_eqb q p then Ok 0 else let* k := perm_position l' p in Ok (S k)
  end.
(* perm/scripts/01_cayley/__main__.py:12-25 = sig_perm/scripts/01_cayley/__main__.py:41-45 *)
Definition cayley_perm (n : nat) : res (list ((nat * nat) * nat)) :=
  let* perms := mapM (fun p => Perm (ArgSeq p) None) (rev_colex_perms n) in
  mapM (fun ab : nat * nat =>
          let* perm_a := lget perms (fst ab) in
          let* perm_b := lget perms (snd ab) in
          let* perm_ab := pmul perm_a perm_b in
          let* index_ab := perm_position perms perm_ab in
          Ok (ab, index_ab))
       (list_prod (range (length perms)) (range (length perms))).
