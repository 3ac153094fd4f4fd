(** Model_PermInt: the class [Perm] (discretehelpers/perm) for dicts with arbitrary integers as keys.  No proofs in
    this file.  [Model_Perm] has the other forms of the argument, in which a negative number is refused.

    The order of the items of a dict is the order of insertion.  [moved] is a set; its order matters for the order of
    the items of a product only. *)

From Coq Require Import List Arith ZArith Bool Lia.
From Verif Require Import Model_Base Model_Binary Model_Perm.
Import ListNotations.
Local Open Scope nat_scope.

(* dict with integers as keys and values *)
Definition idict := list (Z * Z).
Fixpoint iget (d : idict) (k : Z) : option Z :=
  match d with [] => None | (k', v) :: d' => if Z.eqb k k' then Some v else iget d' k end.
Fixpoint iset (d : idict) (k v : Z) : idict :=
  match d with
  | [] => [(k, v)]
  | (k', v') :: d' => if Z.eqb k k' then (k, v) :: d' else (k', v') :: iset d' k v
  end.
Definition idel (d : idict) (k : Z) : idict := filter (fun p => negb (Z.eqb k (fst p))) d.
Definition ilookup (d : idict) (k : Z) : res Z := match iget d k with Some v => Ok v | None => Err KeyErr end.
Definition sort_int : list Z -> list Z := isort Z.leb.
Fixpoint ints_eqb (a b : list Z) : bool :=
  match a, b with
  | [], [] => true
  | x :: a', y :: b' => Z.eqb x y && ints_eqb a' b'
  | _, _ => false
  end.
Definition memi (x : Z) (l : list Z) : bool := existsb (Z.eqb x) l.

(* Python [l[i]]: negative indices count from the end *)
Definition int_index {A} (l : list A) (i : Z) : res A :=
  if Z.leb 0 i then lget l (Z.to_nat i)
  else if Z.leb (- Z.of_nat (length l)) i then lget l (Z.to_nat (Z.of_nat (length l) + i)) else Err IndexErr.

(* perm/a/reduce_period/__init__.py:22-46  block_repeats *)
Definition block_repeats_int (m : idict) (peri prime : nat) : res bool :=
  let blocklen := Z.of_nat (peri / prime) in                  (* 24 *)
  let mv := sort_int (map fst m) in                           (* 25 *)
  let movlen := length mv in                                  (* 26 *)
  if negb (Nat.eqb (movlen mod prime) 0) then Ok false        (* 29-30 *)
  else
    let movblocklen := movlen / prime in                      (* 33 *)
    let* pattern := forallM (fun key =>                       (* 34-37 *)
        forallM (fun i =>
          let* a := lget mv (i * movblocklen + key) in
          let* b := lget mv key in
          Ok (Z.eqb a (Z.of_nat i * blocklen + b)))
        (range2 1 prime))
      (range movblocklen) in
    if negb pattern then Ok false
    else
      forallM (fun key =>                                     (* 40-46 *)
        forallM (fun i =>
          let len := (Z.of_nat i * blocklen)%Z in
          let* a := ilookup m (len + key) in
          let* b := ilookup m key in
          Ok (Z.eqb a (len + b)))
        (range2 1 prime))
      (filter (fun k => Z.ltb k blocklen) (map fst m)).

(* perm/a/reduce_period/__init__.py:8-12 *)
Fixpoint first_repeating_int (m : idict) (peri : nat) (primes : list nat) : res (option nat) :=
  match primes with
  | [] => Ok None
  | prime :: primes' =>
      let* b := block_repeats_int m peri prime in
      if b then Ok (Some prime) else first_repeating_int m peri primes'
  end.

(* perm/a/reduce_period/__init__.py:4-19; fuel: the period *)
Fixpoint reduce_period_int_fuel (fuel : nat) (m : idict) (peri : nat) : res (idict * nat) :=
  match fuel with
  | 0 => Err OutOfFuel
  | S fuel' =>
      let* found := first_repeating_int m peri (primefactors peri) in
      match found with
      | Some prime =>
          let peri' := peri / prime in                                                       (* 15 *)
          reduce_period_int_fuel fuel' (filter (fun kv => Z.ltb (fst kv) (Z.of_nat peri')) m) peri'  (* 16-17 *)
      | None => Ok (m, peri)                                                                 (* 19 *)
      end
  end.
Definition reduce_period_int (m : idict) (peri : nat) : res (idict * nat) := reduce_period_int_fuel (S peri) m peri.

(* perm/__init__.py:60-74  the attributes of an object *)
Record iperm := mkIPerm { ineutral : bool; imapping : idict; iperilen : option nat; ilength : Z }.
Definition imoved (p : iperm) : list Z := map fst (imapping p).
Definition ineutral_perm : iperm := mkIPerm true [] None 0.

(* perm/__init__.py:45-47 *)
Definition iset_if_moved (m : idict) (kv : Z * Z) : idict := if Z.eqb (fst kv) (snd kv) then m else iset m (fst kv) (snd kv).

(* max(l) of a list that is not empty *)
Definition imax (l : list Z) : Z := match l with [] => 0%Z | x :: l' => fold_left Z.max l' x end.

(* perm/__init__.py:43-67  Perm.__init__ with a dict; the period is a natural number (is_natural in line 55) *)
Definition IPerm (d : idict) (peri : option nat) : res iperm :=
  guard ints_eqb (sort_int (map fst d)) (sort_int (map snd d)) else DictError ;;      (* 44 *)
  let m := fold_left iset_if_moved d [] in
  match m with
  | [] => Ok ineutral_perm                                                              (* 49-51 *)
  | _ :: _ =>
      match peri with
      | Some q =>                                                                       (* 53-58, 64-65 *)
          guard Nat.leb 2 q else PerilenTooSmallError ;;
          guard Z.ltb (imax (map fst m)) (Z.of_nat q) else PerilenTooSmallError ;;
          let* mq := reduce_period_int m q in
          Ok (mkIPerm false (fst mq) (Some (snd mq)) (Z.of_nat (snd mq)))
      | None => Ok (mkIPerm false m None (imax (map fst m) + 1))                       (* 67 *)
      end
  end.

(* perm/__init__.py:79-93  __getitem__ with an integer or None; the result None stands for Python's None *)
Definition igetitem (p : iperm) (arg : option Z) : option Z :=
  match arg with
  | None => None                                              (* is_natural(None) is false *)
  | Some arg =>
      if Z.leb 0 arg then
        if ineutral p then Some arg
        else match iperilen p with
             | None => match iget (imapping p) arg with Some v => Some v | None => Some arg end
             | Some q =>
                 let remainder := (arg mod Z.of_nat q)%Z in
                 match iget (imapping p) remainder with Some v => Some (v + arg - remainder)%Z | None => Some arg end
             end
      else None
  end.

(* perm/__init__.py:164-172  sequence without an argument; all indices are natural numbers *)
Definition isequence (p : iperm) : list Z :=
  let len := match iperilen p with Some q => Z.of_nat q | None => ilength p end in
  map (fun i => match igetitem p (Some (Z.of_nat i)) with Some v => v | None => 0%Z end) (range (Z.to_nat len)).

(* perm/metributes/inverse.py:5-12 *)
Definition iinverse (p : iperm) : res iperm :=
  IPerm (fold_left (fun m kv => iset m (snd kv) (fst kv)) (imapping p) []) (iperilen p).

(* perm/a/broaden_moved/__init__.py:4-26 *)
Definition ibroaden (small_set : list Z) (peri repetitions : nat) : list Z :=
  flat_map (fun i => map (fun x => (Z.of_nat i * Z.of_nat peri + x)%Z) small_set) (range repetitions).
Definition iunion (a b : list Z) : list Z := a ++ filter (fun x => negb (memi x a)) b.

(* perm/__init__.py:44: sorted(arg.values()) compares None with something unless it is alone; a lonely None differs
   from the key.  Without None the constructor is the one above. *)
Definition IPerm_values (d : list (Z * option Z)) (peri : option nat) : res iperm :=
  if forallb (fun kv => match snd kv with Some _ => true | None => false end) d
  then IPerm (map (fun kv => (fst kv, match snd kv with Some v => v | None => 0%Z end)) d) peri
  else if Nat.leb 2 (length d) then Err TypeErr else Err DictError.

(* perm/__init__.py:119-141  __mul__ *)
Definition imul (a b : iperm) : res iperm :=
  if ineutral a then Ok b                                          (* 122-123 *)
  else if ineutral b then Ok a                                     (* 124-125 *)
  else
    let compose mv := map (fun i => (i, igetitem a (igetitem b (Some i)))) mv in       (* 138-140 *)
    match iperilen a, iperilen b with
    | None, None => IPerm_values (compose (iunion (imoved a) (imoved b))) None
    | Some x, Some y =>
        let big := Nat.lcm x y in
        IPerm_values (compose (iunion (ibroaden (imoved a) x (big / x)) (ibroaden (imoved b) y (big / y)))) (Some big)
    | _, _ => Err OtherPerilenMismatchError                        (* 129 *)
    end.

(* perm/__init__.py:143-162  __pow__ *)
Fixpoint imul_times (n : nat) (result base : iperm) : res iperm :=
  match n with 0 => Ok result | S n' => let* r := imul result base in imul_times n' r base end.
Definition ipow (p : iperm) (exponent : Z) : res iperm :=
  if Z.eqb exponent 0 then Ok ineutral_perm
  else if Z.eqb exponent 1 then Ok p
  else if Z.eqb exponent (-1) then iinverse p
  else if Z.ltb 1 exponent then imul_times (Z.to_nat (exponent - 1)) p p
  else let* i := iinverse p in imul_times (Z.to_nat (- exponent - 1)) i i.

(* perm/__init__.py:174-177  apply_on_vector; the index is never None *)
Definition iapply {A} (p : iperm) (vector : list A) : res (list A) :=
  let* inv := iinverse p in
  mapM (fun i => match igetitem inv (Some (Z.of_nat i)) with Some k => int_index vector k | None => Err TypeErr end)
    (range (length vector)).

(* perm/metributes/cycles.py:17-25; fuel: remaining keys *)
Fixpoint ifollow_cycle (fuel : nat) (m : idict) (cycle : list Z) (key : Z) : res (list Z * idict) :=
  match fuel with
  | 0 => Err OutOfFuel
  | S fuel' =>
      let* key' := ilookup m key in                                (* 19 *)
      let m' := idel m key in                                      (* 20 *)
      if memi key' cycle then Ok (cycle, m')                       (* 23-25 *)
      else ifollow_cycle fuel' m' (cycle ++ [key']) key'           (* 21-22 *)
  end.

(* perm/metributes/cycles.py:4-27 *)
Fixpoint icycles_loop (fuel : nat) (m : idict) (result : list (list Z)) : res (list (list Z)) :=
  match m with
  | [] => Ok result
  | _ :: _ =>
      match fuel with
      | 0 => Err OutOfFuel
      | S fuel' =>
          let key := hd 0%Z (sort_int (map fst m)) in              (* 15 *)
          let* cm := ifollow_cycle (S (length m)) m [key] key in
          icycles_loop fuel' (snd cm) (result ++ [fst cm])
      end
  end.
Definition icycles (p : iperm) : res (list (list Z)) :=
  if ineutral p then Ok [] else icycles_loop (length (imapping p)) (imapping p) [].

(* perm/metributes/order.py:7-17 (without a bound for numbers) *)
Definition iorder (p : iperm) : res nat :=
  if ineutral p then Ok 1 else let* cs := icycles p in Ok (fold_left (fun a c => Nat.lcm a (length c)) cs 1).

(* perm/__init__.py:28-42  Perm.__init__ with a list of integers, and with a list of lists of integers *)
Definition IPerm_sequence (l : list Z) (peri : option nat) : res perm :=
  guard ints_eqb (sort_int l) (map Z.of_nat (range (length l))) else SequenceError ;; Perm (ArgSeq (map Z.to_nat l)) peri.
Definition IPerm_cycles (cs : list (list Z)) (peri : option nat) : res perm :=
  guard forallb (forallb (Z.leb 0)) cs else CyclesError ;; Perm (ArgCycles (map (map Z.to_nat) cs)) peri.
