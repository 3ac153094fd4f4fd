(** Checks of the model against the test files of discretehelpers/set_part and set_part_comp (see Conf_Base).  The letters of test_domain_finite and the
    labels are numbers here.  Not transcribed: the assertions about arguments of a wrong type (.5 as an element, a set as the length), which the types
    of the model exclude. *)
From Coq Require Import List Arith ZArith Bool.
From Verif Require Import Model_Base Model_Binary Model_Boolf Model_SetPart Model_SetPartComp Model_SetPartBoolf Model_Rest Conf_Base.
Import ListNotations.
Local Open Scope Z_scope.
Local Open Scope list_scope.

Definition sp l := SetPart (Some l) DomN.
Definition sz l := SetPart (Some l) DomZ.
Definition seq (a b : res setpart) : res bool := let* a := a in let* b := b in sp_eq a b.
Definition act (s : res setpart) (f : setpart -> setpart * option exn) : res setpart :=
  let* s := s in match f s with (s', None) => Ok s' | (_, Some e) => Err e end.
Definition mp a b (s : res setpart) : res setpart := act s (fun s => merge_pair s a b).
Definition mm l (s : res setpart) : res setpart := act s (fun s => merge_many s l).
Definition bws s a : res (list (list Z)) := let* s := s in blocks_with_singletons s a.
Definition same_zdict (d e : zdict) : bool :=
  forallb (fun kv : Z * nat => match zdget e (fst kv) with Some v => Nat.eqb v (snd kv) | None => false end) d && Nat.eqb (length d) (length e).
Definition same_zpairs (l m : list (Z * Z)) : bool := forallb (fun x => pair_memb x m) l && forallb (fun x => pair_memb x l) m.
Definition same_z (l m : list Z) : bool := zsubset l m && zsubset m l.
Definition allok (l : list (res bool)) : Prop := Forall (fun r => r = Ok true) l.
Ltac oks := cbv zeta; unfold allok; repeat apply Forall_cons; try apply Forall_nil; vm_compute; reflexivity.

Example set_part_misc : let a := sp [[2; 8]; [1; 6; 3]] in
  (let* a := a in Ok (sp_blocks a, same_zdict (sp_index a) [(1, 0%nat); (3, 0%nat); (6, 0%nat); (2, 1%nat); (8, 1%nat)], same_z (sp_non_singletons a) [1; 2; 3; 6; 8])) =
    Ok ([[1; 3; 6]; [2; 8]], true, true) /\
  allok [seq a (sp [[2; 8]; []; [1; 6; 3]; [88]; [99]]); seq a (sp [[3; 1; 6]; [8; 2]])] /\
  bws a BwsNone = Ok [[0]; [1; 3; 6]; [2; 8]; [4]; [5]; [7]] /\ bws a (BwsLength 10) = Ok [[0]; [1; 3; 6]; [2; 8]; [4]; [5]; [7]; [9]] /\
  (let* a := a in Ok (pair_in_same_block a 2 8, pair_in_same_block a 3 1, pair_in_same_block a 1 99, pair_in_same_block a 88 99)) = Ok (true, true, false, false) /\
  (let* a := a in Ok (sp_block_index a 6, sp_block_index a 8, sp_block_index a 99)) = Ok (Some 0%nat, Some 1%nat, None) /\
  (let* a := a in Ok (element_to_block a 3, element_to_block a 8)) = Ok ([1; 3; 6], [2; 8]) /\
  (let c := mp 1 9 a in let c' := mp 8 7 c in let c'' := mp 88 99 c' in
   allok [seq (mp 1 2 a) (sp [[1; 3; 6; 2; 8]]); seq c (sp [[1; 3; 6; 9]; [2; 8]]); seq c' (sp [[1; 3; 6; 9]; [2; 7; 8]]); seq c'' (sp [[1; 3; 6; 9]; [2; 7; 8]; [88; 99]])]) /\
  (let d := mp 0 1 (SetPart None DomN) in let d' := mp 0 2 d in allok [seq d (sp [[0; 1]]); seq d' (sp [[0; 1; 2]]); seq (mp 1 2 d') (sp [[0; 1; 2]])]).
Proof. cbv zeta. repeat match goal with |- _ /\ _ => split end; first [oks | tests]. Qed.
Example set_part_pairs : let a := sp [[0; 1; 4; 5]; [2; 3]; [6; 7; 9]] in
  (let* a := a in Ok (same_zpairs (snd (read_pairs a)) [(0, 1); (6, 9); (6, 7); (4, 5); (1, 4); (1, 5); (0, 5); (2, 3); (0, 4); (7, 9)])) = Ok true /\
  seq (let* a := a in fold_left (fun b (xy : Z * Z) => mp (fst xy) (snd xy) b) (snd (read_pairs a)) (SetPart None DomN)) a = Ok true.
Proof. tests. Qed.
Example domain_natural : let p := mp 8 9 (sp [[2; 5]; [3; 8]]) in
  seq p (sp [[2; 5]; [3; 8; 9]]) = Ok true /\ errs NotInDomainError [mp (-1) 2 p; mm [-1; 1; 2] p] /\ (let* p := p in snd (read_singletons p)) = Err DomainNotFiniteError.
Proof. tests. Qed.
Example domain_integer : let p := mp 8 9 (sz [[2; 5]; [3; 8]]) in
  allok [seq p (sz [[2; 5]; [3; 8; 9]]); seq (mp (-1) 2 p) (sz [[-1; 2; 5]; [3; 8; 9]])].
Proof. oks. Qed.
Example domain_finite : let a := 97 in let b := 98 in let c := 99 in let d := 100 in let w := 119 in let x := 120 in let y := 121 in let z := 122 in
  let dom := DomSet [a; b; c; d; w; x; y; z] in let p := SetPart (Some [[a; c]; [x; y]]) dom in let p' := mp a b p in let p'' := mm [w; x; z] p' in
  bws p BwsNone = Ok [[a; c]; [b]; [d]; [w]; [x; y]; [z]] /\ (let* p := p in let* s := snd (read_singletons p) in Ok (same_z s [b; d; w; z])) = Ok true /\
  seq p' (SetPart (Some [[a; b; c]; [x; y]]) dom) = Ok true /\ seq p'' (SetPart (Some [[a; b; c]; [w; x; y; z]]) dom) = Ok true /\
  bws p'' BwsNone = Ok [[a; b; c]; [d]; [w; x; y; z]].
Proof. tests. Qed.
Example set_part_smaller : let lt a b := let* a := a in let* b := b in sp_lt asis a b in let none := SetPart None DomN in
  allok [lt (sp [[2; 4]]) (sp [[1; 3]; [2; 4]]); lt (sp [[2; 4]]) (sp [[2; 3; 4]]); lt none (sp [[2; 4]]); lt (sp [[2; 4]; [5; 7]]) (sp [[2; 3; 4]; [5; 6; 7]])] /\
  lt (sp [[1; 2]]) none = Ok false /\ lt (sp [[2; 3; 4]]) (sp [[2; 4]]) = Ok false.
Proof. cbv zeta. split; [oks | tests]. Qed.
Example merge_many_test : let a := mm [1; 2; 3] (SetPart None DomN) in let b := mm [3; 4; 5] a in
  allok [seq a (sp [[1; 2; 3]]); seq b (sp [[1; 2; 3; 4; 5]]); seq (mm [6; 7; 8] b) (sp [[1; 2; 3; 4; 5]; [6; 7; 8]]);
         seq (mp 40 50 (mp 20 30 (mp 10 20 (SetPart None DomN)))) (sp [[10; 20; 30]; [40; 50]])].
Proof. oks. Qed.
Definition mj a b m j : res (list bool) :=
  let* a := sp a in let* b := sp b in let* m := sp m in let* j := sp j in
  let* x1 := meet a b in let* x1 := sp_eq x1 m in let* x2 := meet_prototype asis a b in let* x2 := sp_eq x2 m in
  let* y1 := join asis a b in let* y1 := sp_eq y1 j in let* y2 := join_prototype asis a b in let* y2 := sp_eq y2 j in
  let* y3 := join_prototype_improved asis a b in let* y3 := sp_eq y3 j in Ok [x1; x2; y1; y2; y3].
Example meet_and_join_test : Forall (fun r => r = Ok [true; true; true; true; true])
  [mj [[0; 1; 2; 4]; [5; 6; 9]; [7; 8]] [[0; 1]; [2; 3; 4]; [6; 8; 9]] [[0; 1]; [2; 4]; [6; 9]] [[0; 1; 2; 3; 4]; [5; 6; 7; 8; 9]];
   mj [[1; 4; 6]; [2; 3; 5]; [8; 9; 10; 11]] [[2; 3]; [4; 5]; [7; 8]] [[2; 3]] [[1; 2; 3; 4; 5; 6]; [7; 8; 9; 10; 11]];
   mj [[4; 7; 9]; [2; 1; 0]; [6; 5; 10]] [[1; 2; 3]; [4; 5]; [10; 11; 12]] [[1; 2]] [[0; 1; 2; 3]; [4; 5; 6; 7; 9; 10; 11; 12]];
   mj [] [[1; 3]] [] [[1; 3]];
   mj [[1; 2]; [5; 6; 7]; [10; 20]] [[1; 2]; [4; 6; 9]; [10; 11]] [[1; 2]] [[1; 2]; [4; 5; 6; 7; 9]; [10; 11; 20]];
   mj [[1; 2]; [5; 6; 7]; [10; 20; 30]] [[1; 2]; [4; 6; 9]; [10; 11; 30]] [[1; 2]; [10; 30]] [[1; 2]; [4; 5; 6; 7; 9]; [10; 11; 20; 30]]].
Proof. tests. Qed.
Example blocks_with_singletons_test : let f := SetPart None DomN in let s := sp [[1; 3]; [5; 9]] in
  bws f BwsNone = Ok [] /\ bws f (BwsLength 4) = Ok [[0]; [1]; [2]; [3]] /\ bws f (BwsElements [0; 1; 2; 3]) = Ok [[0]; [1]; [2]; [3]] /\
  bws s BwsNone = Ok [[0]; [1; 3]; [2]; [4]; [5; 9]; [6]; [7]; [8]] /\ bws s (BwsLength 12) = Ok [[0]; [1; 3]; [2]; [4]; [5; 9]; [6]; [7]; [8]; [10]; [11]] /\
  bws s (BwsElements [1; 3; 5; 9]) = Ok [[1; 3]; [5; 9]] /\ bws s (BwsElements [1; 3; 5; 7; 9]) = Ok [[1; 3]; [5; 9]; [7]] /\
  bws s (BwsElements [1; 2; 3; 5; 7; 9]) = Ok [[1; 3]; [2]; [5; 9]; [7]] /\ bws s (BwsLength 9) = Err SpLengthMismatchError /\
  errs SpElementsMismatchError [bws s (BwsElements [3; 5; 9]); bws s (BwsElements [1; 3; 9]); bws s (BwsElements [1; 3; 5])].
Proof. tests. Qed.
Definition lab b l (s : res setpart) : res setpart := act s (fun s => add_label_to_block s b l).
Definition labe x l (s : res setpart) : res setpart := act s (fun s => add_label_to_element s x l).
Definition same_labels (d e : labels) : bool :=
  forallb (fun kv : list Z * Z => match label_get e (fst kv) with Some v => Z.eqb v (snd kv) | None => false end) d && Nat.eqb (length d) (length e).
Example block_labels_test : let p := sp [[3; 5]; [7; 9]] in let small := 1 in let big := 2 in let medium := 3 in
  let q := lab [7; 9] big (lab [3; 5] small p) in let r := lab [6] medium q in
  (let* p := p in snd (read_canonical p)) = Ok [[0]; [1]; [2]; [3; 5]; [4]; [6]; [7; 9]; [8]] /\ errs UnknownBlockError [lab [2; 5] 8 p; lab [10] 9 p] /\
  errs LabelContradictionError [lab [7; 9] medium q; mp 3 9 q] /\
  (let* r := r in Ok (same_labels (sp_labels r) [([3; 5], small); ([6], medium); ([7; 9], big)], get_label_from_block r [3; 5], get_block_from_label r big,
     get_label_from_element r 3, get_label_from_element r 5, element_to_block r 3, element_to_block r 5)) =
    Ok (true, Some small, Some [7; 9], Some small, Some small, [3; 5], [3; 5]).
Proof. tests. Qed.
Example block_labels_merge : let p := sp [[3; 5]; [7; 9]] in let foo := 1 in let bar := 2 in let q := labe 5 foo p in let r := mp 3 9 q in let lb s := let* s := s in Ok (sp_labels s) in
  lb q = Ok [([3; 5], foo)] /\ lb r = Ok [([3; 5; 7; 9], foo)] /\ (let* d := lb (labe 8 bar r) in Ok (same_labels d [([3; 5; 7; 9], foo); ([8], bar)])) = Ok true.
Proof. tests. Qed.
Example refine_block_test : let s := sp [[1; 2; 3; 4]; [6; 7]] in let t := labe 6 12 (labe 1 11 s) in
  let u := act t (fun s => refine_block s [[1; 2; 4]; [3]] (Some [13; 14])) in let lb s e := let* s := s in Ok (same_labels (sp_labels s) e) in
  allok [seq (act s (fun s => refine_block s [[1; 2]; [3; 4]] None)) (sp [[1; 2]; [3; 4]; [6; 7]]); lb t [([1; 2; 3; 4], 11); ([6; 7], 12)]; seq u (sp [[1; 2; 4]; [6; 7]]);
         lb u [([6; 7], 12); ([1; 2; 4], 13); ([3], 14)]].
Proof. oks. Qed.
Example pairs_test : let a := sp [[1; 3; 5]; [7; 9]] in let b := sp [[1; 3]; [5; 7; 9]] in let ps s e := let* s := s in Ok (same_zpairs (snd (read_pairs s)) e) in
  let c := let* a := a in let* b := b in join asis a b in let d := let* a := a in let* b := b in meet a b in
  allok [ps a [(7, 9); (1, 3); (3, 5); (1, 5)]; ps b [(7, 9); (5, 9); (1, 3); (5, 7)]; seq c (sp [[1; 3; 5; 7; 9]]);
         ps c [(1, 5); (3, 7); (5, 7); (7, 9); (1, 7); (3, 9); (5, 9); (1, 3); (1, 9); (3, 5)]; seq d (sp [[1; 3]; [7; 9]]); ps d [(7, 9); (1, 3)]] /\
  bws c BwsNone = Ok [[0]; [1; 3; 5; 7; 9]; [2]; [4]; [6]; [8]] /\ bws c (BwsElements [1; 3; 5; 7; 9; 99]) = Ok [[1; 3; 5; 7; 9]; [99]] /\
  bws d BwsNone = Ok [[0]; [1; 3]; [2]; [4]; [5]; [6]; [7; 9]; [8]] /\ bws d (BwsLength 12) = Ok [[0]; [1; 3]; [2]; [4]; [5]; [6]; [7; 9]; [8]; [10]; [11]] /\
  bws d (BwsElements [1; 3; 5; 7; 9]) = Ok [[1; 3]; [5]; [7; 9]] /\ bws d (BwsElements [1; 3; 5; 7; 9; 99]) = Ok [[1; 3]; [5]; [7; 9]; [99]].
Proof. cbv zeta. split; [oks | tests]. Qed.
Example intval_test : mapM (fun l => let* s := sp l in Ok (snd (read_intval s))) [[[1; 2]; [0; 3]]; [[1; 2; 3]]; [[0; 3]; [1; 2; 4]]] = Ok [12; 52; 396].
Proof. tests. Qed.

(** * set_part_comp *)
Definition cp l c := SetPartComp (Some l) (Some c).
Definition cdo (s : res spc) (f : spc -> spc * option exn) : res spc := let* s := s in match f s with (s', None) => Ok s' | (_, Some e) => Err e end.
Definition eqs a b s := cdo s (fun s => set_equal asis s a b).
Definition com a b s := cdo s (fun s => set_comp asis s a b).
Definition state (s : res spc) := let* s := s in Ok (sp_blocks (equal_part s), comp_pairs s).
Definition ceq (a b : res spc) := let* a := a in let* b := b in spc_eq a b.
Definition is_part (s : res spc) l := seq (let* s := s in Ok (equal_part s)) (sz l).
Definition rel (s : res spc) := let* s := s in let* p := related_part asis s in Ok (sp_blocks p).
Example spc_1 : let s := com 8 3 (eqs 7 8 (eqs 5 6 (eqs 3 4 (eqs 2 3 (SetPartComp None None))))) in let t := eqs 5 1 s in let u := eqs 0 8 t in
  state s = Ok ([[2; 3; 4]; [5; 6]; [7; 8]], [(2, 7)]) /\ errs SetEqualComplementsError [eqs 2 7 s; eqs 8 4 s] /\ errs SetCompEqualsError [com 2 4 s; com 5 6 s; com 8 7 s] /\
  state t = Ok ([[1; 5; 6]; [2; 3; 4]; [7; 8]], [(2, 7)]) /\ state u = Ok ([[0; 7; 8]; [1; 5; 6]; [2; 3; 4]], [(0, 2)]) /\
  (let* u := u in Ok (map (fun xy : Z * Z => are_comp u (fst xy) (snd xy)) [(0, 4); (3, 7); (5, 3); (7, 8); (0, 99); (88, 99)])) = Ok [true; true; false; false; false; false] /\
  (let* u := u in Ok (map (fun xy : Z * Z => are_equal u (fst xy) (snd xy)) [(1, 6); (5, 7); (5, 99); (88, 99)])) = Ok [true; false; false; false] /\
  state (com 8 9 u) = Ok ([[0; 7; 8]; [1; 5; 6]; [2; 3; 4; 9]], [(0, 2)]).
Proof. tests. Qed.
Example spc_2 : let part := [[0; 1]; [2; 3]; [4; 5]; [6; 7]] in let s := cp part [(0, 2); (4, 6)] in
  is_part s part = Ok true /\ (let* s := s in Ok (same_zpairs (comp_pairs s) [(0, 2); (4, 6)])) = Ok true /\ eqs 1 3 s = Err SetEqualComplementsError /\
  com 0 1 s = Err SetCompEqualsError /\ state (com 3 4 s) = Ok ([[0; 1; 4; 5]; [2; 3; 6; 7]], [(0, 2)]).
Proof. tests. Qed.
Example spc_raise : errs CompWithoutPartError [SetPartComp None (Some [(1, 2)]); SetPartComp None (Some [])] /\
  errs PartCompMismatchError [cp [[1; 2]] [(1, 2)]; cp [[1; 2; 3]; [4; 5]] [(1, 3)]].
Proof. tests. Qed.
Example spc_comps : let part := [[0; 1]; [2; 3]; [4; 5]; [6; 7]] in let n := SetPartComp (Some part) None in let o := cp part [(2, 4)] in let b := cp part [(0, 6); (2, 4)] in
  state (eqs 0 3 n) = Ok ([[0; 1; 2; 3]; [4; 5]; [6; 7]], []) /\ state (com 0 3 n) = Ok (part, [(0, 2)]) /\ state (eqs 1 3 o) = Ok ([[0; 1; 2; 3]; [4; 5]; [6; 7]], [(0, 4)]) /\
  state (com 0 3 o) = Ok ([[0; 1; 4; 5]; [2; 3]; [6; 7]], [(0, 2)]) /\ rel (com 0 3 o) = Ok [[0; 1; 2; 3; 4; 5]; [6; 7]] /\
  state (eqs 1 3 b) = Ok ([[0; 1; 2; 3]; [4; 5; 6; 7]], [(0, 4)]) /\ state (com 1 3 b) = Ok ([[0; 1; 4; 5]; [2; 3; 6; 7]], [(0, 2)]) /\ rel (com 1 3 b) = Ok [[0; 1; 2; 3; 4; 5; 6; 7]].
Proof. tests. Qed.
Example spc_image :
  let s0 := cp [[3; 4]; [5; 6; 7]; [8; 9]; [20; 30]] [(1, 2); (3, 8); (10, 11)] in let s1 := eqs 2 4 s0 in let s2 := com 11 20 s1 in let s3 := com 12 30 s2 in
  let s4 := eqs 6 13 s3 in let s5 := com 3 30 s4 in let s6 := com 40 50 s5 in let s7 := eqs 60 70 s6 in let s8 := com 0 70 s7 in let s9 := com 0 40 s8 in let s10 := eqs 0 1 s9 in
  let blk s x := let* s := s in Ok (get_block s x, get_repr s x) in let nb s := let* s := s in number_of_related_blocks asis s in let ln s := let* s := s in spc_length asis s in
  rel s0 = Ok [[1; 2]; [3; 4; 8; 9]; [5; 6; 7]; [10; 11]; [20; 30]] /\ blk s0 4 = Ok ([3; 4], 3) /\ ceq s1 (cp [[1; 8; 9]; [2; 3; 4]; [5; 6; 7]; [20; 30]] [(1, 2); (10, 11)]) = Ok true /\
  rel s1 = Ok [[1; 2; 3; 4; 8; 9]; [5; 6; 7]; [10; 11]; [20; 30]] /\ nb s1 = Ok 4%nat /\ ln s1 = Ok 31 /\
  ceq s2 (cp [[1; 8; 9]; [2; 3; 4]; [5; 6; 7]; [10; 20; 30]] [(1, 2); (10, 11)]) = Ok true /\ blk s2 20 = Ok ([10; 20; 30], 10) /\
  ceq s3 (cp [[1; 8; 9]; [2; 3; 4]; [5; 6; 7]; [10; 20; 30]; [11; 12]] [(1, 2); (10, 11)]) = Ok true /\
  ceq s4 (cp [[1; 8; 9]; [2; 3; 4]; [5; 6; 7; 13]; [10; 20; 30]; [11; 12]] [(1, 2); (10, 11)]) = Ok true /\
  ceq s5 (cp [[1; 8; 9; 10; 20; 30]; [2; 3; 4; 11; 12]; [5; 6; 7; 13]] [(1, 2)]) = Ok true /\ rel s5 = Ok [[1; 2; 3; 4; 8; 9; 10; 11; 12; 20; 30]; [5; 6; 7; 13]] /\
  ceq s6 (cp [[1; 8; 9; 10; 20; 30]; [2; 3; 4; 11; 12]; [5; 6; 7; 13]] [(1, 2); (40, 50)]) = Ok true /\
  rel s6 = Ok [[1; 2; 3; 4; 8; 9; 10; 11; 12; 20; 30]; [5; 6; 7; 13]; [40; 50]] /\ nb s6 = Ok 3%nat /\ ln s6 = Ok 51 /\
  (let* s := s6 in affected_elements asis s) = Ok [1; 2; 3; 4; 5; 6; 7; 8; 9; 10; 11; 12; 13; 20; 30; 40; 50] /\ (let* s := s6 in number_of_affected_elements asis s) = Ok 17%nat /\
  ceq s7 (cp [[1; 8; 9; 10; 20; 30]; [2; 3; 4; 11; 12]; [5; 6; 7; 13]; [60; 70]] [(1, 2); (40, 50)]) = Ok true /\ blk s7 4 = Ok ([2; 3; 4; 11; 12], 2) /\
  ceq s8 (cp [[1; 8; 9; 10; 20; 30]; [2; 3; 4; 11; 12]; [5; 6; 7; 13]; [60; 70]] [(1, 2); (40, 50); (0, 60)]) = Ok true /\
  rel s8 = Ok [[0; 60; 70]; [1; 2; 3; 4; 8; 9; 10; 11; 12; 20; 30]; [5; 6; 7; 13]; [40; 50]] /\ nb s8 = Ok 4%nat /\ ln s8 = Ok 71 /\
  ceq s9 (cp [[0; 50]; [1; 8; 9; 10; 20; 30]; [2; 3; 4; 11; 12]; [5; 6; 7; 13]; [40; 60; 70]] [(1, 2); (0, 40)]) = Ok true /\
  ceq s10 (cp [[0; 1; 8; 9; 10; 20; 30; 50]; [2; 3; 4; 11; 12; 40; 60; 70]; [5; 6; 7; 13]] [(0, 2)]) = Ok true /\
  ceq (eqs 2 5 s10) (cp [[0; 1; 8; 9; 10; 20; 30; 50]; [2; 3; 4; 5; 6; 7; 11; 12; 13; 40; 60; 70]] [(0, 2)]) = Ok true.
Proof. tests. Qed.
Example spc_canonical : map (fun p => state (cp [[1; 3]; [5; 7]] [p])) [(1, 5); (1, 7); (3, 5); (3, 7); (7, 3)] = repeat (Ok ([[1; 3]; [5; 7]], [(1, 5)])) 5.
Proof. tests. Qed.
Example int_matches_test : let f s := mapM (fun n => let* s := s in int_matches Model_Binary.binary_length asis s n) (range 16) in let e := cp [] [(0, 1)] in
  f (SetPartComp (Some [[0; 1]]) None) = Ok (map (fun n => memb n [0; 3; 4; 7; 8; 11; 12; 15]%nat) (range 16)) /\
  f e = Ok (map (fun n => memb n [1; 2; 5; 6; 9; 10; 13; 14]%nat) (range 16)).
Proof. tests. Qed.
Example all_complement_pairs_test :
  (let* s := cp [[0; 1]; [2; 3]] [(0, 3)] in Ok (same_zpairs (all_complement_pairs s) [(0, 2); (0, 3); (1, 2); (1, 3)])) = Ok true /\
  (let* s := cp [[0; 2]; [1; 3]] [(0, 3)] in Ok (same_zpairs (all_complement_pairs s) [(0, 1); (0, 3); (1, 2); (2, 3)])) = Ok true.
Proof. tests. Qed.
