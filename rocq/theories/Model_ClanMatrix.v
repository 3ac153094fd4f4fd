(** Model_ClanMatrix: the matrix of a clan, with factions as rows and families as columns
    (boolf/methods/_ec/ec_clan_matrix).  No proofs in this file.

    The elements of the labelled partition [ec_clan] are numbers here (see Model_Ec): the pair
    [(valneg_index, perm_index)] is the number [valneg_index * arity! + perm_index]. *)

From Coq Require Import List Arith ZArith Bool Factorial.
From Verif Require Import Model_Base Model_Splits Model_Perm Model_Binary Model_SigPerm Model_SetPart Model_Boolf
  Model_BoolfMore Model_MinRep Model_Helpers Model_Segments Model_Ec.
Import ListNotations.
Open Scope nat_scope.

(* Python dict in insertion order; [d[k]] *)
Fixpoint dlook {K V} (eqb : K -> K -> bool) (d : list (K * V)) (k : K) : res V :=
  match d with
  | [] => Err KeyErr
  | (k', v) :: d' => if eqb k k' then Ok v else dlook eqb d' k
  end.
(* [d[k] = v] *)
Fixpoint dstore {K V} (eqb : K -> K -> bool) (d : list (K * V)) (k : K) (v : V) : list (K * V) :=
  match d with
  | [] => [(k, v)]
  | (k', v') :: d' => if eqb k k' then (k', v) :: d' else (k', v') :: dstore eqb d' k v
  end.
Definition npair_eqb (a b : nat * nat) : bool := Nat.eqb (fst a) (fst b) && Nat.eqb (snd a) (snd b).

(* a defaultdict(set):  d[k].add(x)  is [dd_add] of Model_Segments *)

(* boolf/methods/_ec/ec_clan_matrix/__init__.py:11-15  (the sorted keys are different ones) *)
Definition dict_of_sets_to_dict_of_lists {A} (leb : A -> A -> bool) (d : list (nat * list A)) : res (list (nat * list A)) :=
  mapM (fun key => let* v := dlook Nat.eqb d key in Ok (key, isort leb v)) (sort_nat (map fst d)).

(* tuples of three numbers, compared as in Python *)
Definition triple := (nat * nat * nat)%type.
Definition triple_eqb (a b : triple) : bool := npair_eqb (fst a) (fst b) && Nat.eqb (snd a) (snd b).
Definition triple_leb (a b : triple) : bool :=
  let '(a1, a2, a3) := a in let '(b1, b2, b3) := b in
  Nat.ltb a1 b1 || (Nat.eqb a1 b1 && (Nat.ltb a2 b2 || (Nat.eqb a2 b2 && Nat.leb a3 b3))).

(* 29-39  the weight of the Zhegalkin numbers in a row *)
Definition row_weight (row : list nat) : res (option nat) :=
  foldM (fun weight zhe =>
           let* b := Binv None (Some (Z.of_nat zhe)) None None None in
           let _weight := binv_weight b in
           match weight with
           | Some w => guard Nat.eqb _weight w else AssertErr ;; Ok weight
           | None => Ok (Some _weight)
           end) row None.

(* 43-60  the five dictionaries of sets *)
Record exposets := mkX {
  x_faction_keyneg : ldict;
  x_family_perm : ldict;
  x_zhe_keyneg : ldict;
  x_zhe_valneg : ldict;
  x_zhe_triples : list (nat * list triple)
}.
Definition exposet_step (arity faction_rep family_rep zhe : nat) (x : exposets) (element : Z) : res exposets :=
  let valneg_index := Z.to_nat element / fact arity in
  let perm_index := Z.to_nat element mod fact arity in
  let* sigperm := SigPerm_pair valneg_index perm_index in
  let* keyneg_index := sg_keyneg_index sigperm in
  Ok (mkX (dd_add Nat.eqb (x_faction_keyneg x) faction_rep keyneg_index)
          (dd_add Nat.eqb (x_family_perm x) family_rep perm_index)
          (dd_add Nat.eqb (x_zhe_keyneg x) zhe keyneg_index)
          (dd_add Nat.eqb (x_zhe_valneg x) zhe valneg_index)
          (dd_add triple_eqb (x_zhe_triples x) zhe (keyneg_index, perm_index, valneg_index))).
Definition collect_exposets (arity : nat) (clan : ec) (splinters : list ((nat * nat) * list nat)) : res exposets :=
  foldM (fun x (item : (nat * nat) * list nat) =>
           let '((faction_rep, family_rep), splinter) := item in
           foldM (fun x zhe =>
                    let* boolf := subinit_zhe (Z.of_nat zhe) in                  (* Boolf(zhe=zhe) *)
                    match ec_block clan boolf with
                    | None => Err TypeErr                                       (* iteration over None *)
                    | Some sigperm_pairs => foldM (exposet_step arity faction_rep family_rep zhe) sigperm_pairs x
                    end) splinter x)
        splinters (mkX [] [] [] [] []).

(* Boolf(zhe=zhe).perm_symmetry_partition.intval (lines 89, 101) *)
Definition sym_intval (bl : nat -> nat) (zhe : nat) : res Z :=
  let* b := subinit_zhe (Z.of_nat zhe) in
  let* part := perm_symmetry_partition bl b in
  Ok (snd (read_intval part)).

(* 86-90 *)
Definition needs_reordering (bl : nat -> nat) (faction_reps : list nat) (sizes : list (nat * nat)) : res (list nat) :=
  foldM (fun s faction_rep =>
           let* size := dlook Nat.eqb sizes faction_rep in
           if Nat.ltb 1 size then
             let* intval := sym_intval bl faction_rep in
             Ok (if Z.eqb intval 0 then s else s ++ [faction_rep])
           else Ok s) faction_reps [].

(* sort_together for the symmetries and the Zhegalkin numbers (a/sort_together/__init__.py:6-15;
   pairs are sorted; two empty lists give an empty tuple, which can not be unpacked) *)
Definition sym_leb (a b : Z * nat) : bool := Z.ltb (fst a) (fst b) || (Z.eqb (fst a) (fst b) && Nat.leb (snd a) (snd b)).
Definition sort_by_symmetry (syms : list Z) (zhes : list nat) : res (list Z * list nat) :=
  guard Nat.eqb (length zhes) (length syms) else SortLengthMismatchError ;;
  guard negb (Nat.eqb (length syms) 0) else ValueErr ;;
  let s := isort sym_leb (combine syms zhes) in
  Ok (map fst s, map snd s).

(* 97-103  symset_to_splinters, for one family *)
Definition symset_dict := list (list Z * ldict).
Definition collect_symsets (bl : nat -> nat) (splinters : list ((nat * nat) * list nat)) (needs : list nat)
    (family_rep : nat) (faction_reps : list nat) : res symset_dict :=
  foldM (fun (d : symset_dict) faction_rep =>
           if memb faction_rep needs then
             let* splinter_zhes := dlook npair_eqb splinters (faction_rep, family_rep) in
             let* splinter_syms := mapM (sym_intval bl) splinter_zhes in
             let* sz := sort_by_symmetry splinter_syms splinter_zhes in
             let inner := match dlook zlist_eqb d (fst sz) with Ok i => i | Err _ => [] end in   (* defaultdict(dict) *)
             Ok (dstore zlist_eqb d (fst sz) (dstore Nat.eqb inner faction_rep (snd sz)))
           else Ok d) faction_reps [].

(* 105-115  one group of splinters with the same symmetries.  Writing a list of the wrong length
   in a row of a numpy array is a ValueError (except for a list of length 1, which never occurs
   here, because only splinters of one symset are together).  The entries are below 2^32 and fit
   in the numpy integers. *)
Definition reorder_group (family_rep : nat) (symset : list Z) (faction_rep_to_splinter : ldict)
    (out : list ((nat * nat) * list nat)) : res (list ((nat * nat) * list nat)) :=
  let symset_faction_reps := sort_nat (map fst faction_rep_to_splinter) in
  let* splinter_rows :=
    mapM (fun rep => let* s := dlook Nat.eqb faction_rep_to_splinter rep in
                     guard Nat.eqb (length s) (length symset) else ValueErr ;; Ok (map Z.of_nat s)) symset_faction_reps in
  let* sorted := sort_cols_together [splinter_rows] false in
  let* splinter_rows := lget sorted 0 in
  foldM (fun out (is : nat * list Z) =>
           let* symset_faction_rep := lget symset_faction_reps (fst is) in
           Ok (dstore npair_eqb out (symset_faction_rep, family_rep) (map Z.to_nat (snd is))))
        (enumerate splinter_rows) out.

(* 94-115 *)
Definition reorder_splinters (bl : nat -> nat) (faction_reps family_reps needs : list nat)
    (splinters : list ((nat * nat) * list nat)) : res (list ((nat * nat) * list nat)) :=
  foldM (fun out family_rep =>
           let* symsets := collect_symsets bl splinters needs family_rep faction_reps in
           foldM (fun out (sd : list Z * ldict) => reorder_group family_rep (fst sd) (snd sd) out) symsets out)
        family_reps splinters.

Record clan_matrix := mkCM {
  cm_factions : list nat;
  cm_families : list nat;
  cm_rows : ldict;                               (* faction_rep_to_row *)
  cm_cols : ldict;                               (* family_rep_to_col *)
  cm_splinters : list ((nat * nat) * list nat);  (* rep_pair_to_splinter *)
  cm_sizes : list (nat * nat);                   (* faction_splinter_sizes *)
  cm_lcm : nat;
  cm_weights : list (nat * option nat);          (* faction_rep_to_weight *)
  cm_exposets : exposets                         (* the last five results *)
}.

(* boolf/methods/_ec/ec_clan_matrix/__init__.py:18-129.  [depth], [srt], [oc], [ot] as in
   ec_clan_partitioned, [bl]: the floating point binary_length.  Lines 64-67 only compare the
   numbers of keys and values of a dictionary, which are always equal. *)
Definition ec_clan_matrix (depth : nat) (bl : nat -> nat) (srt : list boolf -> list boolf) (oc : list boolf -> list boolf)
    (ot : list (list boolf) -> list (list boolf)) (f : boolf) : res clan_matrix :=
  guard is_root f else NotSpreadlessError ;;
  let* clan := ec_clan depth f None false in
  let* parts := ec_clan_partitioned depth srt oc ot f in
  let '(faction_reps, family_reps, faction_rep_to_row, family_rep_to_col, reps_to_raw_splinter) := parts in
  let* weights := mapM (fun faction_rep =>
                          let* row := ldlookup faction_rep_to_row faction_rep in
                          let* w := row_weight row in Ok (faction_rep, w)) faction_reps in
  let* x := collect_exposets (adicity f) clan reps_to_raw_splinter in
  let* family_rep := nmin family_reps in
  let* sizes := mapM (fun faction_rep =>
                        let* s := dlook npair_eqb reps_to_raw_splinter (faction_rep, family_rep) in
                        Ok (faction_rep, length s)) faction_reps in
  let* needs := needs_reordering bl faction_reps sizes in
  let* splinters := reorder_splinters bl faction_reps family_reps needs reps_to_raw_splinter in
  let* x1 := dict_of_sets_to_dict_of_lists Nat.leb (x_faction_keyneg x) in
  let* x2 := dict_of_sets_to_dict_of_lists Nat.leb (x_family_perm x) in
  let* x3 := dict_of_sets_to_dict_of_lists Nat.leb (x_zhe_keyneg x) in
  let* x4 := dict_of_sets_to_dict_of_lists Nat.leb (x_zhe_valneg x) in
  let* x5 := dict_of_sets_to_dict_of_lists triple_leb (x_zhe_triples x) in
  let* lcm := multi_lcm (map snd sizes) in
  Ok (mkCM faction_reps family_reps faction_rep_to_row family_rep_to_col splinters sizes lcm weights (mkX x1 x2 x3 x4 x5)).
