(** Model_Boolf: the class [Boolf] (discretehelpers/boolf): constructor, evaluation, truth
    tables, bitwise operators, substitution.  No proofs in this file.

    An object is its attributes [root] (the Binv as its vector), [atomvals], [is_constant] and
    [is_inflated]; the other attributes are functions of these.  [Binv(...)] of a list of
    booleans is that list (Model_Binary.Binv_vector, C01), so it is left out below. *)

From Coq Require Import List Arith ZArith Bool Lia.
From Verif Require Import Model_Base Model_Binary Model_Perm Model_SigPerm Model_WalshPerm Model_Twin.
Import ListNotations.
Open Scope nat_scope.

Record boolf := mkBoolf {
  root : list bool;
  atomvals : list nat;
  is_constant : bool;
  is_inflated : bool
}.
(* boolf/subinit_methods/tt/__init__.py:64-65, boolf/__init__.py:57-58, 64-65 *)
Definition valency (f : boolf) : nat := length (atomvals f).
Definition adicity (f : boolf) : nat := match atomvals f with [] => 0 | l => list_max_nat l + 1 end.

(* boolf/__init__.py:48-67 *)
Definition set_unary (arg : Z) : boolf :=
  if Z.ltb arg 0 then mkBoolf [true; false] [Z.to_nat (- arg - 1)] false false
  else mkBoolf [false; true] [Z.to_nat arg] false false.
Definition set_constant (val : bool) : boolf := mkBoolf [val] [] true false.

(* a/_log/log_int/__init__.py:6-17  (exact logarithm) *)
Definition log_int (x : nat) : res nat :=
  guard Nat.ltb 0 x else ArgValueError ;;
  guard is_power_of_two x else ArgValueError ;;
  Ok (Nat.log2 x).

(* a/sort_together/__init__.py:6-15 for two lists of naturals (sorting pairs) *)
Definition sort_together (a b : list nat) : res (list nat * list nat) :=
  guard Nat.eqb (length b) (length a) else SortLengthMismatchError ;;
  let s := isort pair_leb (combine a b) in
  Ok (map fst s, map snd s).

(* perm/__init__.py:174-177 for a WalshPerm *)
Definition walsh_apply {A} (linalg_inv : zmat -> res (option zmat)) (w : walsh) (vector : list A) : res (list A) :=
  let* inv := walsh_inverse linalg_inv w in
  mapM (fun i => let* k := walsh_get inv i in lget vector k) (range (length vector)).

(* boolf/a/reorder_if_atomvals_not_asc/__init__.py:6-27 (atomvals: a list of naturals) *)
Definition reorder_with (linalg_inv : zmat -> res (option zmat)) (vector : list bool) (atomvals : list nat)
  : res (list bool * list nat) :=
  if list_eqb atomvals (sort_nat atomvals) then Ok (vector, atomvals)
  else
    let asc_integers := range (length atomvals) in
    let* sr := sort_together atomvals asc_integers in
    let* p := Perm (ArgSeq (snd sr)) None in
    let* fin_perm := pinv p in
    let asc_powers := map (fun i => 2 ^ i) asc_integers in
    let* bit_perm_vector := papply fin_perm asc_powers in
    let* bit_perm := walsh_of_vector bit_perm_vector false in
    let* sorted_vector := walsh_apply linalg_inv bit_perm vector in
    Ok (sorted_vector, fst sr).
(* numpy.linalg.inv is only applied to permutation matrices here, whose inverse is the
   transpose; by C28_any_inverse every [linalg_inv] that returns inverses gives the same *)
Definition transpose_inv (m : zmat) : res (option zmat) := Ok (Some (transpose_matrix (length m) m)).
Definition reorder_if_atomvals_not_asc := reorder_with transpose_inv.

(* boolf/a/deflate/__init__.py:13-28  the loop.  Fuel: every round raises pattern_index, or
   lowers valency and resets pattern_index. *)
Fixpoint deflate_loop {A} (fuel : nat) (vector : list bool) (atomvals : list A) (pattern_index : nat)
  : res (list bool * list A) :=
  match fuel with
  | 0 => Err OutOfFuel
  | S fuel' =>
      if Nat.even (binv_weight vector) then
        if Nat.leb (length atomvals) pattern_index then Ok (vector, atomvals)
        else
          let* pattern_bool := make_atompattern (Z.of_nat pattern_index) (length atomvals) false in
          let* halves := vector_zip_apart vector (map Nat.b2n pattern_bool) in
          match halves with
          | [first_half; second_half] =>
              if bvec_eqb first_half second_half
              then deflate_loop fuel' first_half
                     (firstn pattern_index atomvals ++ skipn (S pattern_index) atomvals) 0
              else deflate_loop fuel' vector atomvals (S pattern_index)
          | _ => Err ValueErr                                (* 20: unpacking *)
          end
      else Ok (vector, atomvals)
  end.
Definition deflate {A} (vector : list bool) (atomvals : list A) : res (list bool * list A) :=
  deflate_loop (S (S (length atomvals) * S (length atomvals))) vector atomvals 0.

(* len(set(l)) == len(l) *)
Fixpoint zunique (l : list Z) : bool :=
  match l with [] => true | x :: l' => negb (existsb (Z.eqb x) l') && zunique l' end.

(* min(l) *)
Definition zmin (l : list Z) : res Z :=
  match l with [] => Err ValueErr | x :: l' => Ok (fold_left Z.min l' x) end.

(* max(atomvals) + 1 must exist (boolf/subinit_methods/tt/__init__.py:65) *)
Definition nonempty {A} (l : list A) : bool := match l with [] => false | _ => true end.

(* boolf/subinit_methods/tt/__init__.py:36-56  up to the deflation.  [inl]: the table is
   constant and deflation is not skipped. *)
Definition tt_start (binv : list bool) (av : option (list Z)) (sd : bool) : res (bool + list bool * list nat) :=
  let len := length binv in
  let weight := binv_weight binv in
  let* _ := match av with
            | Some av =>
                guard zunique av else AtomvalsNotUniqueError ;;
                guard Nat.eqb len (2 ^ length av) else SarityVectorMismatchError ;; Ok tt
            | None => Ok tt
            end in
  guard Nat.ltb 0 len else ArgValueError ;;
  if (Nat.eqb weight 0 || Nat.eqb weight len) && negb sd then Ok (inl (negb (Nat.eqb weight 0)))
  else match av with
       | Some av =>
           let* m := zmin av in
           guard Z.leb 0 m else AtomvalNegativeError ;;
           let* ba := reorder_if_atomvals_not_asc binv (map Z.to_nat av) in
           Ok (inr ba)
       | None => let* valency := log_int len in Ok (inr (binv, range valency))
       end.

(* boolf/subinit_methods/tt/__init__.py:36-71 without skip_deflation *)
Definition tt_deflated (binv : list bool) (av : option (list Z)) : res boolf :=
  let* s := tt_start binv av false in
  match s with
  | inl c => Ok (set_constant c)
  | inr (b, a) =>
      let* ba := deflate b a in
      guard nonempty (snd ba) else ValueErr ;;
      Ok (mkBoolf (fst ba) (snd ba) false false)
  end.

(* boolf/subinit_methods/tt/__init__.py:36-71 with skip_deflation *)
Definition tt_inflated (binv : list bool) (av : option (list Z)) : res boolf :=
  let* s := tt_start binv av true in
  match s with
  | inl c => Ok (set_constant c)
  | inr (b, a) =>
      guard nonempty a else ValueErr ;;
      let* g := tt_deflated b None in
      Ok (mkBoolf b a false (Nat.ltb (valency g) (length a)))
  end.

(* the argument tt: a boolean, a vector (the entries after [int(e)]), an integer *)
Inductive tt_val := TtBool (b : bool) | TtVector (v : list Z) | TtInt (n : Z).

(* boolf/subinit_methods/tt/__init__.py:14-71 *)
Definition subinit_tt (t : tt_val) (av : option (list Z)) (arity : option nat) (sd : bool) : res boolf :=
  match t with
  | TtBool b =>
      match av, arity, sd with
      | None, None, false => Ok (set_constant b)
      | _, _, _ => Err ArgComboError
      end
  | _ =>
      let* binv :=
        match arity, t with
        | None, TtVector v => Binv_vector v
        | None, _ => Err ArgTypeError
        | Some arity, TtInt n => Binv None (Some n) None (Some (2 ^ arity)) None
        | Some _, _ => Err AssertErr                         (* 32: type_clean_int *)
        end in
      if sd then tt_inflated binv av else tt_deflated binv av
  end.

(* [Boolf(vector, atomvals)], [Boolf(vector)] for a vector of booleans, [Boolf(i, arity=n)] *)
Definition Boolf_vec (v : list bool) (av : list nat) : res boolf := tt_deflated v (Some (map Z.of_nat av)).
Definition Boolf_root (v : list bool) : res boolf := tt_deflated v None.
Definition Boolf_int (n arity : nat) : res boolf := subinit_tt (TtInt (Z.of_nat n)) None (Some arity) false.

(* boolf/metributes/atomvals_integer/__init__.py:7-9, atomvals_sierpinski/__init__.py:7-9,
   boolf/__init__.py:163-166 *)
Definition boolf_get (f : boolf) (key : nat) : res bool :=
  let* b := Binv_exposet (atomvals f) None in
  let key := Nat.land key (binv_intval b) in
  let* key := index_of key (sierpinski_of (atomvals f)) in
  lget (root f) key.

(* boolf/__init__.py:168-169 *)
Definition boolf_eqb (f g : boolf) : bool := bvec_eqb (root f) (root g) && list_eqb (atomvals f) (atomvals g).

(* boolf/methods/tt/__init__.py:8-35; the argument: nothing, an arity, a collection of
   naturals *)
Inductive tt_arg := TtDefault | TtArity (n : nat) | TtAtoms (l : list nat).
Definition boolf_tt (f : boolf) (arg : tt_arg) : res (list bool) :=
  match arg with
  | TtDefault => mapM (boolf_get f) (range (2 ^ adicity f))
  | TtArity n =>
      guard Nat.leb (adicity f) n else ArgTooSmallError ;;
      mapM (boolf_get f) (range (2 ^ n))
  | TtAtoms l =>
      let arg_atomvals_set := nodupb l in
      guard forallb (fun a => memb a arg_atomvals_set) (atomvals f) else ArgMismatchError ;;
      let alien_atomvals := sort_nat (filter (fun a => negb (memb a (atomvals f))) arg_atomvals_set) in
      let work_atomvals :=
        fold_left (fun work (alien : nat) =>
                     map (fun wc : nat * nat => if Nat.ltb alien (snd wc) then S (fst wc) else fst wc)
                         (combine work (atomvals f)))
                  alien_atomvals (range (valency f)) in
      let* b := Binv_exposet work_atomvals None in
      let atomvals_integer := binv_intval b in
      let atomvals_sierpinski := sierpinski_of work_atomvals in
      mapM (fun key => let* i := index_of (Nat.land key atomvals_integer) atomvals_sierpinski in lget (root f) i)
           (range (2 ^ length arg_atomvals_set))
  end.

(* boolf/methods/bitwise/__init__.py:1-14, 24-33 *)
Definition boolf_bitwise (op : bool -> bool -> bool) (f g : boolf) : res boolf :=
  let atoms := sort_nat (set_union (atomvals f) (atomvals g)) in
  let* self_vector := boolf_tt f (TtAtoms atoms) in
  let* other_vector := boolf_tt g (TtAtoms atoms) in
  let* vector := binv_bitwise op self_vector other_vector in
  Boolf_vec vector atoms.
Definition boolf_and := boolf_bitwise andb.
Definition boolf_or := boolf_bitwise orb.
Definition boolf_xor := boolf_bitwise xorb.

(* boolf/metributes/complement/__init__.py:5-9, boolf/methods/bitwise/__init__.py:52-53 *)
Definition boolf_not (f : boolf) : res boolf := Boolf_vec (map negb (root f)) (atomvals f).

(* boolf/methods/bitwise/__init__.py:1-7, 15-21, 36-49 *)
Definition bitwise_lt (f g : boolf) : res bool :=
  let atoms := sort_nat (set_union (atomvals f) (atomvals g)) in
  let* self_vector := boolf_tt f (TtAtoms atoms) in
  let* other_vector := boolf_tt g (TtAtoms atoms) in
  if bvec_eqb self_vector other_vector then Ok false
  else forallM (fun i => let* x := lget self_vector i in let* y := lget other_vector i in
                         Ok (negb (x && negb y))) (range (length self_vector)).
Definition bitwise_le (f g : boolf) : res bool := if boolf_eqb f g then Ok true else bitwise_lt f g.
Definition bitwise_gt (f g : boolf) : res bool := bitwise_le g f.
Definition bitwise_ge (f g : boolf) : res bool := bitwise_le g f.

(* boolf/methods/vals_apply/val.py:8-27  for single truth values (ints 0 and 1 or booleans) *)
Definition boolf_val (f : boolf) (args : list bool) : res bool :=
  guard Nat.eqb (length args) (valency f) else SarityMismatchError ;;
  match args with
  | [] => Err IndexErr                                       (* 12 *)
  | _ => lget (root f) (binv_intval args)
  end.
(* boolf/methods/vals_apply/val.py:8-27  for lists of truth values *)
Definition boolf_val_lists (f : boolf) (args : list (list bool)) : res (list bool) :=
  guard Nat.eqb (length args) (valency f) else SarityMismatchError ;;
  match args with
  | [] => Err IndexErr
  | first_arg :: _ =>
      mapM (fun i => let* args_i := mapM (fun arg_list => lget arg_list i) args in boolf_val f args_i)
           (range (length first_arg))
  end.

(* a/_atompatterns/__init__.py:21-32  make_atompatterns with a list *)
Definition make_atompatterns_list (atoms : list Z) : res (list (list bool)) :=
  mapM (fun atom => make_atompattern atom (length atoms) false) atoms.

(* boolf/methods/vals_apply/vals.py:7-22 *)
Definition boolf_vals (f : boolf) (atomkey_signed_perm : list Z) : res (list bool) :=
  guard Nat.eqb (length atomkey_signed_perm) (valency f) else SarityMismatchError ;;
  guard list_eqb (sort_nat (logic_abs_vector atomkey_signed_perm)) (range (valency f))
    else UnexpectedArgumentError ;;
  let* tuple_of_patterns := make_atompatterns_list atomkey_signed_perm in
  boolf_val_lists f tuple_of_patterns.

(* boolf/methods/vals_apply/apply.py:7-24 *)
Definition boolf_apply (f : boolf) (atomval_signed_perm : list Z) : res boolf :=
  guard Nat.eqb (length atomval_signed_perm) (valency f) else SarityMismatchError ;;
  let atomval_perm := logic_abs_vector atomval_signed_perm in
  let negators := map (fun z => Z.ltb z 0) atomval_signed_perm in
  let atomvals_ordered := sort_nat atomval_perm in
  let* atomkey_perm := mapM (fun a => index_of a atomvals_ordered) atomval_perm in
  let atomkey_signed_perm :=
    map (fun kn : nat * bool => logic_negate (Z.of_nat (fst kn)) (snd kn)) (combine atomkey_perm negators) in
  let* binv := boolf_vals f atomkey_signed_perm in
  Boolf_vec binv atomvals_ordered.

(* boolf/methods/vals_apply/apply_sigperm.py:5-23 for a SigPerm, a Perm and a list *)
Definition apply_sequence (f : boolf) (sigperm_sequence : list Z) : res boolf :=
  let* shortened := mapM (fun a => lget sigperm_sequence a) (atomvals f) in
  boolf_apply f shortened.
Definition apply_sigperm (f : boolf) (s : sigperm) : res boolf :=
  if is_constant f then Ok f
  else let* l := sg_sequence s (Some (Nat.max (adicity f) (sg_length s))) in apply_sequence f l.
Definition apply_perm (f : boolf) (p : perm) : res boolf :=
  if is_constant f then Ok f
  else let* l := psequence p (Some (Nat.max (adicity f) (plength p))) in apply_sequence f (map Z.of_nat l).
Definition apply_sigperm_list (f : boolf) (l : list Z) : res boolf :=
  if is_constant f then Ok f else let* s := SigPerm_sequence l in apply_sigperm f s.

(** * The constructor *)

(* entries of multi_and etc. *)
Inductive mu_entry := MuInt (z : Z) | MuBoolf (f : boolf).

(* boolf/__init__.py:10-25  the dictionaries _doa and _doda.  The arity is a natural number. *)
Record bargs := mkArgs {
  a_tt : option tt_val; a_av : option (list Z); a_atom : option Z; a_arity : option nat;
  a_fs : option (list Z);
  a_mu_a : option (list mu_entry); a_mu_o : option (list mu_entry);
  a_mu_xo : option (list mu_entry); a_mu_xa : option (list mu_entry);
  a_zhe : option Z; a_ws : option (list Z); a_sd : bool
}.
Inductive akey := K_tt | K_av | K_atom | K_arity | K_fs | K_mu_a | K_mu_o | K_mu_xo | K_mu_xa | K_zhe | K_ws.
Definition all_keys := [K_tt; K_av; K_atom; K_arity; K_fs; K_mu_a; K_mu_o; K_mu_xo; K_mu_xa; K_zhe; K_ws].
Definition akey_eqb (a b : akey) : bool :=
  match a, b with
  | K_tt, K_tt | K_av, K_av | K_atom, K_atom | K_arity, K_arity | K_fs, K_fs | K_mu_a, K_mu_a
  | K_mu_o, K_mu_o | K_mu_xo, K_mu_xo | K_mu_xa, K_mu_xa | K_zhe, K_zhe | K_ws, K_ws => true
  | _, _ => false
  end.
(* a/have/__init__.py: [arg is not None] *)
Definition have {A} (o : option A) : bool := match o with Some _ => true | None => false end.
Definition present (a : bargs) (k : akey) : bool :=
  match k with
  | K_tt => have (a_tt a) | K_av => have (a_av a) | K_atom => have (a_atom a) | K_arity => have (a_arity a)
  | K_fs => have (a_fs a) | K_mu_a => have (a_mu_a a) | K_mu_o => have (a_mu_o a)
  | K_mu_xo => have (a_mu_xo a) | K_mu_xa => have (a_mu_xa a) | K_zhe => have (a_zhe a) | K_ws => have (a_ws a)
  end.

(* a/subinit_bouncer/__init__.py:4-31 *)
Definition subinit_bouncer (a : bargs) (required optional : list akey) : bool :=
  forallb (present a) required &&
  forallb (fun k => existsb (akey_eqb k) (required ++ optional) || negb (present a k)) all_keys.

(* boolf/subinit_methods/fs/__init__.py:11-45 *)
Definition subinit_fs (fullspots : list Z) (av : option (list Z)) (arity : option nat) (sd : bool) : res boolf :=
  guard xorb (have av) (have arity) else ArgComboError ;;
  match fullspots with
  | [] => Ok (set_constant false)                            (* 18-20 *)
  | _ :: _ =>
      let av := match av, arity with
                | Some av, _ => av
                | None, Some arity => map Z.of_nat (range arity)
                | None, None => []
                end in
      match av with
      | [] =>                                                (* 25-28 *)
          guard forallb (Z.eqb 0) fullspots else ArgMismatchError ;;
          Ok (set_constant true)
      | _ :: _ =>
          let* binv := Binv None None (Some fullspots) (Some (2 ^ length av)) None in
          if sd then tt_inflated binv (Some av)
          else
            let* ba := deflate binv av in
            tt_deflated (fst ba) (Some (snd ba))
      end
  end.

(* boolf/a/intval_to_arity/__init__.py:6-13  (exact logarithms) *)
Definition intval_to_arity (x : nat) : nat :=
  if Nat.ltb x 2 then 0 else Nat.log2 (Nat.log2 x) + 1.

(* boolf/subinit_methods/zhe/__init__.py:9-23 *)
Definition subinit_zhe (zhe : Z) : res boolf :=
  guard Z.leb 0 zhe else ArgValueError ;;
  let zhe := Z.to_nat zhe in
  let arity := intval_to_arity zhe in
  let* t := twin_int zhe arity in
  Boolf_int t arity.

(* sympy's fwht for a list whose length is a power of two: entry k is the sum of the entries
   i with the sign (-1)^(number of common one bits of i and k).  Shorter lists are padded
   with zeros. *)
Definition fwht_sign (k i : nat) : Z := if Nat.odd (int_to_weight (Nat.land k i)) then (-1)%Z else 1%Z.
Definition fwht_padded (l : list Z) : list Z :=
  map (fun k => fold_right Z.add 0%Z (map (fun i => fwht_sign k i * nth i l 0)%Z (range (length l)))) (range (length l)).
Definition fwht (l : list Z) : list Z :=
  let n := length l in
  if Nat.ltb n 2 then l
  else fwht_padded (l ++ repeat 0%Z ((if is_power_of_two n then n else 2 ^ S (Nat.log2 n)) - n)).
(* sympy's ifwht divides by the length; entries that are not 0 or 1 are only compared with
   0 and 1 by the code, so a quotient that is not integral is represented by 2 *)
Definition ifwht (l : list Z) : list Z :=
  let r := fwht l in
  let n := Z.of_nat (length r) in
  map (fun z => if Z.eqb (z mod n) 0 then z / n else 2)%Z r.

(* boolf/subinit_methods/ws/__init__.py:9-22 *)
Definition subinit_ws (ws : list Z) (sd : bool) : res boolf :=
  let t := ifwht ws in
  guard forallb (fun z => Z.eqb z 0 || Z.eqb z 1) t else ArgValueError ;;
  subinit_tt (TtVector t) None None sd.

(* boolf/subinit_methods/multi/__init__.py:13-53 *)
Definition mu_boolf (e : mu_entry) : boolf := match e with MuInt z => set_unary z | MuBoolf f => f end.
Definition boolf_xand (f g : boolf) : res boolf := let* h := boolf_not g in boolf_xor f h.
Definition multi_fold (op : boolf -> boolf -> res boolf) (start : bool) (l : list mu_entry) : res boolf :=
  let* f0 := Boolf_root [start] in
  foldM (fun f e => op f (mu_boolf e)) l f0.
Definition subinit_multi (a : bargs) : res boolf :=
  match a_mu_a a, a_mu_o a, a_mu_xo a, a_mu_xa a with
  | Some l, None, None, None => multi_fold boolf_and true l
  | None, Some l, None, None => multi_fold boolf_or false l
  | None, None, Some l, None => multi_fold boolf_xor false l
  | None, None, None, Some l => multi_fold boolf_xand true l
  | _, _, _, _ => Err ArgComboError
  end.

(* boolf/__init__.py:31-42  one round of the loop; [None]: no subinit method was responsible.
   A subinit method that passes its bouncer returns True or raises. *)
Definition boolf_round (a : bargs) : res (option boolf) :=
  if subinit_bouncer a [K_atom] [] then
    match a_atom a with Some z => Ok (Some (set_unary z)) | None => Err KeyErr end
  else if subinit_bouncer a [K_tt] [K_av; K_arity] then
    match a_tt a with
    | Some t => let* f := subinit_tt t (a_av a) (a_arity a) (a_sd a) in Ok (Some f)
    | None => Err KeyErr
    end
  else if subinit_bouncer a [K_fs] [K_av; K_arity] then
    match a_fs a with
    | Some s => let* f := subinit_fs s (a_av a) (a_arity a) (a_sd a) in Ok (Some f)
    | None => Err KeyErr
    end
  else if subinit_bouncer a [K_zhe] [] then
    match a_zhe a with Some z => let* f := subinit_zhe z in Ok (Some f) | None => Err KeyErr end
  else if subinit_bouncer a [K_ws] [] then
    match a_ws a with Some w => let* f := subinit_ws w (a_sd a) in Ok (Some f) | None => Err KeyErr end
  else if subinit_bouncer a [] [K_mu_a; K_mu_o; K_mu_xo; K_mu_xa] then
    let* f := subinit_multi a in Ok (Some f)
  else Ok None.

(* boolf/__init__.py:30-42  [while True]; [Err OutOfFuel]: still running after that many rounds *)
Fixpoint Boolf (fuel : nat) (a : bargs) : res boolf :=
  match fuel with
  | 0 => Err OutOfFuel
  | S fuel' =>
      let* r := boolf_round a in
      match r with Some f => Ok f | None => Boolf fuel' a end
  end.
