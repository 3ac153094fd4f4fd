(** Model_Perm: the class [Perm] (discretehelpers/perm).  No proofs in this file.

    Natural numbers are [nat].  The constructor argument is restricted to natural
    entries: in a sequence or a cycle a negative entry is rejected by the code as well
    (comparison with [range], [is_natural]); a dict with negative keys is accepted by
    the code and lies outside the model.  numpy's int64 [lcm] is modelled by the
    unbounded one. *)

From Coq Require Import List Arith ZArith Bool Lia.
From Verif Require Import Model_Base.
Import ListNotations.

(* sympy.primefactors(n): the ascending list of prime divisors (library function,
   modelled by its documented meaning) *)
Definition is_prime (d : nat) : bool :=
  Nat.leb 2 d && forallb (fun k => negb (Nat.eqb (d mod k) 0)) (seq 2 (d - 2)).
Definition primefactors (n : nat) : list nat :=
  filter (fun d => Nat.eqb (n mod d) 0 && is_prime d) (seq 2 (n - 1)).

(* perm/a/reduce_period/__init__.py:22-46  block_repeats *)
Definition block_repeats (mapping : dict) (perilen prime : nat) : res bool :=
  let blocklen := perilen / prime in                          (* 24 *)
  let moved := sort_nat (dkeys mapping) in                    (* 25 *)
  let movlen := length moved in                               (* 26 *)
  if negb (Nat.eqb (movlen mod prime) 0) then Ok false        (* 29-30 *)
  else
    let movblocklen := movlen / prime in                      (* 33 *)
    let* pattern := forallM (fun key =>                       (* 34-37 *)
        forallM (fun i =>
          let* a := lget moved (i * movblocklen + key) in
          let* b := lget moved key in
          Ok (Nat.eqb a (i * blocklen + b)))
        (range2 1 prime))
      (range movblocklen) in
    if negb pattern then Ok false
    else
      forallM (fun key =>                                     (* 40-46 *)
        forallM (fun i =>
          let len := i * blocklen in
          let* a := dlookup mapping (len + key) in
          let* b := dlookup mapping key in
          Ok (Nat.eqb a (len + b)))
        (range2 1 prime))
      (filter (fun k => Nat.ltb k blocklen) (dkeys mapping)).

(* perm/a/reduce_period/__init__.py:8-12  the first prime whose blocks repeat *)
Fixpoint first_repeating (mapping : dict) (perilen : nat) (primes : list nat)
  : res (option nat) :=
  match primes with
  | [] => Ok None
  | prime :: primes' =>
      let* b := block_repeats mapping perilen prime in
      if b then Ok (Some prime) else first_repeating mapping perilen primes'
  end.

(* perm/a/reduce_period/__init__.py:4-19  reduce_period (recursive call on a strictly
   smaller period; the fuel is the period itself) *)
Fixpoint reduce_period_fuel (fuel : nat) (mapping : dict) (perilen : nat)
  : res (dict * nat) :=
  match fuel with
  | 0 => Err OutOfFuel
  | S fuel' =>
      let* found := first_repeating mapping perilen (primefactors perilen) in
      match found with
      | Some prime =>
          let perilen' := perilen / prime in                               (* 15 *)
          let mapping' := filter (fun kv => Nat.ltb (fst kv) perilen') mapping in (* 16 *)
          reduce_period_fuel fuel' mapping' perilen'                        (* 17 *)
      | None => Ok (mapping, perilen)                                       (* 19 *)
      end
  end.
Definition reduce_period (mapping : dict) (perilen : nat) : res (dict * nat) :=
  reduce_period_fuel (S perilen) mapping perilen.

(* perm/__init__.py:60-67  the instance attributes *)
Record perm := mkPerm {
  neutral : bool;
  mapping : dict;
  perilen : option nat;
  plength : nat
}.
Definition moved (p : perm) : list nat := dkeys (mapping p).

(* perm/__init__.py:69-74  set_neutral *)
Definition neutral_perm : perm := mkPerm true [] None 0.

(* perm/__init__.py:12-18  the three formats of [arg] (and its absence) *)
Inductive perm_arg :=
| ArgNone
| ArgSeq (l : list nat)
| ArgCycles (l : list (list nat))
| ArgDict (d : dict).

(* perm/__init__.py:31-33, 45-47  [if key != val: mapping[key] = val] *)
Definition set_if_moved (m : dict) (kv : nat * nat) : dict :=
  if Nat.eqb (fst kv) (snd kv) then m else dset m (fst kv) (snd kv).

(* enumerate(l) *)
Definition enumerate {A} (l : list A) : list (nat * A) := combine (seq 0 (length l)) l.

(* perm/__init__.py:37-42  the loop over one cycle *)
Definition add_cycle (m : dict) (cycle : list nat) : dict :=
  let len := length cycle in
  fold_left (fun m kv => set_if_moved m (snd kv, nth (S (fst kv) mod len) cycle 0))
            (enumerate cycle) m.

(* perm/__init__.py:26-47  building [mapping] from [arg] *)
Definition arg_mapping (arg : perm_arg) : res dict :=
  match arg with
  | ArgNone => Ok []                                               (* 20-22 *)
  | ArgSeq l =>
      guard list_eqb (sort_nat l) (range (length l)) else SequenceError ;;   (* 30 *)
      Ok (fold_left set_if_moved (enumerate l) [])
  | ArgCycles cs => Ok (fold_left add_cycle cs [])
  | ArgDict d =>
      guard list_eqb (sort_nat (dkeys d)) (sort_nat (dvals d)) else DictError ;; (* 44 *)
      Ok (fold_left set_if_moved d [])
  end.

(* perm/__init__.py:11-67  Perm.__init__ *)
Definition Perm (arg : perm_arg) (peri : option nat) : res perm :=
  let* m := arg_mapping arg in
  match m with
  | [] => Ok neutral_perm                                          (* 49-51 *)
  | _ :: _ =>
      match peri with
      | Some q =>                                                  (* 53-58, 64-65 *)
          guard Nat.leb 2 q else PerilenTooSmallError ;;
          guard Nat.ltb (list_max_nat (dkeys m)) q else PerilenTooSmallError ;;
          let* mq := reduce_period m q in
          Ok (mkPerm false (fst mq) (Some (snd mq)) (snd mq))
      | None => Ok (mkPerm false m None (S (list_max_nat (dkeys m))))    (* 67 *)
      end
  end.

(* perm/__init__.py:79-93  __getitem__ with a natural argument *)
Definition pget (p : perm) (arg : nat) : nat :=
  if neutral p then arg
  else match perilen p with
       | None => match dget (mapping p) arg with Some v => v | None => arg end
       | Some q =>
           let remainder := arg mod q in
           match dget (mapping p) remainder with
           | Some v => v + arg - remainder
           | None => arg
           end
       end.

(* perm/__init__.py:97-102  __eq__ *)
Definition perm_eqb (a b : perm) : bool :=
  if neutral a && neutral b then true
  else dict_eqb (mapping a) (mapping b) &&
       match perilen a, perilen b with
       | None, None => true
       | Some x, Some y => Nat.eqb x y
       | _, _ => false
       end.

(* perm/a/broaden_moved/__init__.py:19-26  sub *)
Definition broaden_sub (small_set : list nat) (peri repetitions : nat) : list nat :=
  flat_map (fun i => map (fun x => i * peri + x) small_set) (range repetitions).

(* perm/a/broaden_moved/__init__.py:4-16  broaden_moved *)
Definition broaden_moved (a_len b_len : nat) (a_moved b_moved : list nat) : nat * list nat :=
  let big_len := Nat.lcm a_len b_len in
  (big_len, set_union (broaden_sub a_moved a_len (big_len / a_len))
                      (broaden_sub b_moved b_len (big_len / b_len))).

(* perm/__init__.py:138-141  [mapping[i] = self[other[i]]] for i in moved *)
Definition compose_mapping (a b : perm) (mv : list nat) : dict :=
  fold_left (fun m i => dset m i (pget a (pget b i))) mv [].

(* perm/__init__.py:119-141  __mul__ ([a * b] is [a] after [b]) *)
Definition pmul (a b : perm) : res perm :=
  if neutral a then Ok b                                           (* 122-123 *)
  else if neutral b then Ok a                                      (* 124-125 *)
  else match perilen a, perilen b with
       | None, None =>                                             (* 131-133 *)
           Perm (ArgDict (compose_mapping a b (set_union (moved a) (moved b)))) None
       | Some x, Some y =>                                         (* 135-136 *)
           let lm := broaden_moved x y (moved a) (moved b) in
           Perm (ArgDict (compose_mapping a b (snd lm))) (Some (fst lm))
       | _, _ => Err OtherPerilenMismatchError                     (* 129 *)
       end.

(* perm/metributes/inverse.py:5-12  inverse *)
Definition pinv (p : perm) : res perm :=
  Perm (ArgDict (fold_left (fun m kv => dset m (snd kv) (fst kv)) (mapping p) []))
       (perilen p).

(* perm/__init__.py:153-156, 158-162  repeated [result *= base] *)
Fixpoint pmul_times (n : nat) (result base : perm) : res perm :=
  match n with
  | 0 => Ok result
  | S n' => let* r := pmul result base in pmul_times n' r base
  end.

(* perm/__init__.py:143-162  __pow__ *)
Definition ppow (p : perm) (exponent : Z) : res perm :=
  if Z.eqb exponent 0 then Ok neutral_perm                         (* 145-146 *)
  else if Z.eqb exponent 1 then Ok p                               (* 147-148 *)
  else if Z.eqb exponent (-1) then pinv p                          (* 149-150 *)
  else if Z.ltb 1 exponent then pmul_times (Z.to_nat (exponent - 1)) p p      (* 152-156 *)
  else let* i := pinv p in pmul_times (Z.to_nat (- exponent - 1)) i i.        (* 157-162 *)

(* perm/__init__.py:164-172  sequence *)
Definition psequence (p : perm) (len : option nat) : res (list nat) :=
  match len with
  | Some l =>
      match perilen p with
      | Some q => guard Nat.eqb (l mod q) 0 else LengthMismatchPerilenError ;;
                  Ok (map (pget p) (range l))
      | None => guard Nat.leb (plength p) l else LengthTooSmallError ;;
                Ok (map (pget p) (range l))
      end
  | None =>
      let l := match perilen p with Some q => q | None => plength p end in
      Ok (map (pget p) (range l))
  end.

(* perm/__init__.py:174-177  apply_on_vector (the entry type is arbitrary) *)
Definition papply {A} (p : perm) (vector : list A) : res (list A) :=
  let* inv := pinv p in
  mapM (fun i => lget vector (pget inv i)) (range (length vector)).

(* perm/metributes/cycles.py:17-25  following one cycle; fuel: remaining keys *)
Fixpoint follow_cycle (fuel : nat) (m : dict) (cycle : list nat) (key : nat)
  : res (list nat * dict) :=
  match fuel with
  | 0 => Err OutOfFuel
  | S fuel' =>
      let* key' := dlookup m key in                                (* 19 *)
      let m' := ddel m key in                                      (* 20 *)
      if memb key' cycle then Ok (cycle, m')                       (* 23-25 *)
      else follow_cycle fuel' m' (cycle ++ [key']) key'            (* 21-22 *)
  end.

(* perm/metributes/cycles.py:11-27  the outer loop *)
Fixpoint cycles_loop (fuel : nat) (m : dict) (result : list (list nat))
  : res (list (list nat)) :=
  match m with
  | [] => Ok result
  | _ :: _ =>
      match fuel with
      | 0 => Err OutOfFuel
      | S fuel' =>
          let key := hd 0 (sort_nat (dkeys m)) in                  (* 15 *)
          let* cm := follow_cycle (S (length m)) m [key] key in
          cycles_loop fuel' (snd cm) (result ++ [fst cm])
      end
  end.
Definition pcycles (p : perm) : res (list (list nat)) :=
  if neutral p then Ok [] else cycles_loop (length (mapping p)) (mapping p) [].

(* perm/metributes/order.py:7-17  order *)
Definition porder (p : perm) : res nat :=
  if neutral p then Ok 1
  else let* cs := pcycles p in Ok (fold_left (fun a c => Nat.lcm a (length c)) cs 1).

(* perm/__init__.py:179-191  cycles_dynamic *)
Definition cycles_dynamic (p : perm) (len : option nat) : res (list (list nat)) :=
  match perilen p with
  | None => Err NotPeriodicError
  | Some q =>
      let l := match len with Some l => l | None => q end in
      guard Nat.eqb (l mod q) 0 else LengthMismatchPerilenError ;;
      let* cs := pcycles p in
      Ok (flat_map (fun i => map (map (fun x => x + i * q)) cs) (range (l / q)))
  end.

(* itertools.combinations(l, 2) *)
Fixpoint pairs_of {A} (l : list A) : list (A * A) :=
  match l with
  | [] => []
  | x :: l' => map (fun y => (x, y)) l' ++ pairs_of l'
  end.

(* perm/metributes/inversion_set/__init__.py:5-15  inversion_set *)
Definition inversion_set (p : perm) : list (nat * nat) :=
  filter (fun ab => Nat.ltb (pget p (snd ab)) (pget p (fst ab))) (pairs_of (range (plength p))).

(* perm/metributes/parity/__init__.py:5-9  parity *)
Definition pparity (p : perm) : nat := length (inversion_set p) mod 2.

(* perm/a/inversion_related_vectors/__init__.py:1-10  left_inversion_count *)
Definition left_inversion_count (p : list nat) : list nat :=
  map (fun i => length (filter (fun k => Nat.ltb (nth i p 0) (nth k p 0)) (range i)))
      (range (length p)).

(* perm/a/inversion_related_vectors/__init__.py:13-22  right_inversion_count *)
Definition right_inversion_count (p : list nat) : list nat :=
  map (fun i => length (filter (fun k => Nat.ltb (nth k p 0) (nth i p 0)) (range2 i (length p))))
      (range (length p)).

(* list.pop(b): the entry at place [b] and the remaining list; IndexError if absent *)
Fixpoint lpop {A} (l : list A) (b : nat) : res (A * list A) :=
  match l, b with
  | [], _ => Err IndexErr
  | x :: l', 0 => Ok (x, l')
  | x :: l', S b' => let* r := lpop l' b' in Ok (fst r, x :: snd r)
  end.

(* perm/a/inversion_related_vectors/__init__.py:37-45 *)
Fixpoint pop_all (stack vector : list nat) : res (list nat) :=
  match vector with
  | [] => Ok []
  | b :: vector' =>
      let* cs := lpop stack b in
      let* rest := pop_all (snd cs) vector' in
      Ok (fst cs :: rest)
  end.
Definition right_inversion_count_to_permutation (vector : list nat) : res (list nat) :=
  pop_all (range (length vector)) vector.

(* perm/a/inversion_related_vectors/__init__.py:48-57: the loop runs from the last
   entry to the first, [appendleft] keeps the original order *)
Definition left_inversion_count_to_permutation (vector : list nat) : res (list nat) :=
  let n := length vector in
  let* cs := pop_all (range n) (rev vector) in
  Ok (rev (map (fun c => n - 1 - c) cs)).

(* a/int_to_factoradic/__init__.py:1-12; fuel: the value (plus one) decreases from the
   second round on, the first round divides by one *)
Fixpoint factoradic_loop (fuel value divisor : nat) : list nat :=
  match fuel with
  | 0 => []
  | S fuel' =>
      if Nat.eqb value 0 then []
      else value mod divisor :: factoradic_loop fuel' (value / divisor) (S divisor)
  end.
Definition int_to_factoradic (n : nat) : list nat := factoradic_loop (S (S n)) n 1.

(* factoradic.from_factoradic (third-party package): value of a factorial-base digit
   list, least significant digit first *)
Fixpoint from_factoradic_at (i : nat) (ds : list nat) : nat :=
  match ds with [] => 0 | d :: ds' => d * fact i + from_factoradic_at (S i) ds' end.
Definition from_factoradic (ds : list nat) : nat := from_factoradic_at 0 ds.

(* a/int_to_perm/__init__.py:5-12 *)
Definition int_to_perm (n : nat) : res perm :=
  let* s := left_inversion_count_to_permutation (int_to_factoradic n) in
  Perm (ArgSeq s) None.

(* perm/metributes/ranks/left_rank.py:12-21 *)
Definition left_rank (p : perm) : res nat :=
  match perilen p with
  | Some _ => Err PermNotFiniteError
  | None =>
      if neutral p then Ok 0
      else let* s := psequence p None in Ok (from_factoradic (left_inversion_count s))
  end.

(* perm/metributes/ranks/right_rank.py:12-22.  The neutral case assigns [result] but does
   not return; it continues with an empty list, whose factoradic value is taken as 0. *)
Definition right_rank (p : perm) : res nat :=
  match perilen p with
  | Some _ => Err PermNotFiniteError
  | None => let* s := psequence p None in Ok (from_factoradic (rev (right_inversion_count s)))
  end.

(* perm/a/inversion_related_vectors/__init__.py:60-72  inversion_set_to_count (left variant)
   and 75-76 inversion_set_to_permutation *)
Definition inversion_set_to_count (pairs : list (nat * nat)) : list nat :=
  let len := fold_left (fun l ab => Nat.max l (Nat.max (S (fst ab)) (S (snd ab)))) pairs 0 in
  map (fun key => length (filter (fun ab => Nat.eqb (snd ab) key) pairs)) (range len).
Definition inversion_set_to_permutation (pairs : list (nat * nat)) : res (list nat) :=
  left_inversion_count_to_permutation (inversion_set_to_count pairs).

(* itertools.permutations(l): lexicographic in positions (documented: emitted in
   lexicographic order of the input order) *)
Fixpoint selects {A} (l : list A) : list (A * list A) :=
  match l with
  | [] => []
  | x :: l' => (x, l') :: map (fun p => (fst p, x :: snd p)) (selects l')
  end.
Fixpoint permutations_fuel {A} (n : nat) (l : list A) : list (list A) :=
  match n with
  | 0 => [[]]
  | S n' => flat_map (fun xr => map (cons (fst xr)) (permutations_fuel n' (snd xr))) (selects l)
  end.
Definition permutations {A} (l : list A) : list (list A) := permutations_fuel (length l) l.

(* a/rev_colex_perms/__init__.py:4-11 *)
Definition rev_colex_perms (n : nat) : list (list nat) :=
  fold_left (fun result p => rev p :: result) (permutations (range n)) [].
