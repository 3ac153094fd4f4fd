(** Checks of the model against the test files of discretehelpers/perm, sig_perm and walsh_perm (see Conf_Base). *)
From Coq Require Import String List Arith ZArith Bool.
From Verif Require Import Model_Base Model_Binary Model_Str Model_Splits Model_Perm Model_SigPerm Model_WalshPerm Model_SetPart Model_Boolf
  Model_Helpers Model_Schoute Model_Rest Model_Determinant Model_WalshMore Conf_Base.
Import ListNotations.
Local Open Scope string_scope.
Local Open Scope nat_scope.
Local Open Scope list_scope.

Definition sq l := Perm (ArgSeq l) None.
Definition cy l := Perm (ArgCycles l) None.
Definition peq (a b : res perm) : res bool := let* a := a in let* b := b in Ok (perm_eqb a b).
Definition pm (a b : res perm) : res perm := let* a := a in let* b := b in Model_Perm.pmul a b.
Definition iv (a : res perm) : res perm := let* a := a in pinv a.
Definition allok (l : list (res bool)) : Prop := Forall (fun r => r = Ok true) l.
Ltac oks := cbv zeta; unfold allok; repeat match goal with |- _ /\ _ => split end; repeat apply Forall_cons; try apply Forall_nil; vm_compute; reflexivity.
Definition same_dict (d e : dict) : bool := dict_eqb d e.
Definition same_elements (l m : list nat) : bool := forallb (fun x => memb x m) l && forallb (fun x => memb x l) m.
Definition same_pairs (l m : list (nat * nat)) : bool :=
  forallb (fun x => existsb (Model_Splits.pair_eqb x) m) l && forallb (fun x => existsb (Model_Splits.pair_eqb x) l) m.

(** * perm/test *)
Example perm_init : let a := sq [3; 0; 1; 2; 6; 5; 4] in
  allok [peq a (sq [3; 0; 1; 2; 6; 5; 4; 7; 8]); peq a (cy [[0; 3; 2; 1]; [4; 6]]); peq a (cy [[0; 3; 2; 1]; [4; 6]; [5]; [999]]); peq a (cy [[6; 4]; [2; 1; 0; 3]])] /\
  peq (cy [[6; 4]; [2; 1; 0; 3]]) (cy [[6; 4]; [1; 2; 0; 3]]) = Ok false.
Proof. split; [oks | tests]. Qed.
Example perm_neutral : let facts p := let* p := p in let* s := psequence p None in let* c := pcycles p in let* o := porder p in
    Ok (neutral p, s, c, mapping p, moved p, o) in
  facts (Perm ArgNone None) = Ok (true, [], [], [], [], 1) /\ facts (cy [[1]; [3]]) = Ok (true, [], [], [], [], 1).
Proof. tests. Qed.
Definition features (p : res perm) (m : dict) (mv : list nat) : res (list nat * bool * bool * list (list nat) * nat * list nat) :=
  let* p := p in let* s := psequence p None in let* c := pcycles p in let* o := porder p in let* i := pinv p in let* is := psequence i None in
  Ok (s, same_dict (mapping p) m, same_elements (moved p) mv, c, o, is).
Example perm_features :
  features (sq [1; 2; 3; 0; 6; 5; 4]) [(0, 1); (1, 2); (2, 3); (3, 0); (4, 6); (6, 4)] [0; 1; 2; 3; 4; 6] =
    Ok ([1; 2; 3; 0; 6; 5; 4], true, true, [[0; 1; 2; 3]; [4; 6]], 4, [3; 0; 1; 2; 6; 5; 4]) /\
  features (sq [3; 2; 1; 0]) [(0, 3); (1, 2); (2, 1); (3, 0)] [0; 1; 2; 3] = Ok ([3; 2; 1; 0], true, true, [[0; 3]; [1; 2]], 2, [3; 2; 1; 0]) /\
  features (cy [[0; 5; 4]; [1; 7; 2; 8]; [3; 6]]) [(0, 5); (5, 4); (4, 0); (1, 7); (7, 2); (2, 8); (8, 1); (3, 6); (6, 3)] [0; 1; 2; 3; 4; 5; 6; 7; 8] =
    Ok ([5; 7; 8; 6; 0; 4; 3; 2; 1], true, true, [[0; 5; 4]; [1; 7; 2; 8]; [3; 6]], 12, [4; 8; 7; 6; 5; 0; 3; 1; 2]).
Proof. tests. Qed.
Example perm_slice : let sl p a b c := let* p := p in pslice p a b c in let seq := [4; 3; 2; 1; 0] in let out l := Ok (map Some l) in
  Forall (fun p => sl p None None None = out seq /\ sl p None (Some 5%Z) None = out seq /\ sl p (Some 0%Z) (Some 5%Z) None = out seq /\
                   sl p (Some 0%Z) (Some 5%Z) (Some 1%Z) = out seq) [sq seq; Perm (ArgSeq seq) (Some 5)] /\
  sl (Perm (ArgSeq seq) (Some 5)) None (Some 10%Z) None = out [4; 3; 2; 1; 0; 9; 8; 7; 6; 5] /\
  sl (Perm (ArgSeq seq) (Some 5)) (Some 0%Z) (Some 10%Z) (Some 1%Z) = out [4; 3; 2; 1; 0; 9; 8; 7; 6; 5] /\
  sl (Perm ArgNone None) None (Some 10%Z) None = out (range 10) /\ sl (Perm ArgNone None) (Some 0%Z) (Some 10%Z) (Some 1%Z) = out (range 10).
Proof. cbv zeta. split; [repeat apply Forall_cons; try apply Forall_nil; tests | tests]. Qed.
Example perm_wiki : let p := sq [1; 3; 0; 2; 4] in let q := sq [4; 3; 2; 1; 0] in let r := sq [3; 1; 4; 2; 0] in let s := sq [4; 2; 0; 3; 1] in
  allok [peq (sq [2; 0; 3; 1; 4]) (iv p); peq q (iv q); peq (sq [4; 1; 3; 0; 2]) (iv r); peq (sq [2; 4; 1; 3; 0]) (iv s); peq (pm p q) s; peq (pm q p) r;
         peq (pm (iv p) (iv q)) (iv r)] /\
  (let* p := p in papply p [0; 1; 2; 3; 4]) = Ok [2; 0; 3; 1; 4] /\ (let* q := q in papply q [2; 0; 3; 1; 4]) = Ok [4; 1; 3; 0; 2] /\
  (let* r := r in papply r [0; 1; 2; 3; 4]) = Ok [4; 1; 3; 0; 2] /\ (let* p := p in papply p (bv "00011")) = Ok (bv "00101").
Proof. split; [oks | tests]. Qed.
Example perm_wiki_more : let s := sq [0; 2; 3; 4; 1; 6; 5] in let t := sq [0; 1; 3; 4; 5; 2; 6] in
  allok [peq (pm s t) (sq [0; 2; 4; 1; 6; 3; 5]); peq (pm t s) (sq [0; 3; 4; 5; 1; 6; 2]);
         peq (pm (cy [[0; 5]; [1; 4]; [2; 3]]) (cy [[0; 2]; [1; 5; 3]])) (cy [[0; 3; 4; 1]; [2; 5]])].
Proof. oks. Qed.
Definition per p := Perm (ArgSeq p) (Some (length p)).
Definition shown (p : res perm) := let* p := p in let* s := psequence p None in let* c := pcycles p in Ok (perilen p, s, c).
Definition seq_at p n := let* p := p in psequence p (Some n).
Definition cyc_at p n := let* p := p in cycles_dynamic p n.
Example perm_finite_and_periodic :
  let af := sq [1; 0; 2; 4; 3; 5; 7; 6; 8; 10; 9; 11; 13; 12; 14] in let bf := sq [0; 1; 4; 3; 2; 5; 6; 9; 8; 7; 10; 11; 14; 13; 12] in
  let ap := per [1; 0; 2] in let bp := per [0; 1; 4; 3; 2] in
  let abs := [1; 0; 3; 4; 2; 5; 7; 10; 8; 6; 9; 11; 14; 12; 13] in let bas := [1; 0; 4; 2; 3; 5; 9; 6; 8; 10; 7; 11; 13; 14; 12] in
  let abc := [[0; 1]; [2; 3; 4]; [6; 7; 10; 9]; [12; 14; 13]] in let bac := [[0; 1]; [2; 4; 3]; [6; 9; 10; 7]; [12; 13; 14]] in
  shown (pm af bf) = Ok (None, abs, abc) /\ shown (pm bf af) = Ok (None, bas, bac) /\ shown (pm ap bp) = Ok (Some 15, abs, abc) /\ shown (pm bp ap) = Ok (Some 15, bas, bac) /\
  cyc_at (pm ap bp) None = Ok abc /\ cyc_at (pm ap bp) (Some 15) = Ok abc /\ cyc_at (pm bp ap) (Some 15) = Ok bac /\
  cyc_at (pm ap bp) (Some 30) = Ok (abc ++ map (map (fun x => x + 15)) abc) /\ cyc_at (pm bp ap) (Some 30) = Ok (bac ++ map (map (fun x => x + 15)) bac) /\
  seq_at (pm af bf) 20 = Ok (abs ++ [15; 16; 17; 18; 19]) /\ seq_at (pm ap bp) 15 = Ok abs /\ seq_at (pm ap bp) 30 = Ok (abs ++ map (fun x => x + 15) abs) /\
  peq (iv (pm af bf)) (pm bf af) = Ok true /\ peq (iv (pm ap bp)) (pm bp ap) = Ok true /\ seq_at (pm af bf) 14 = Err LengthTooSmallError /\
  map (seq_at (pm ap bp)) [14; 16; 25] = map (fun _ => Err LengthMismatchPerilenError) [14; 16; 25] /\
  map (fun n => cyc_at (pm ap bp) (Some n)) [14; 16; 25] = map (fun _ => Err LengthMismatchPerilenError) [14; 16; 25] /\
  cyc_at (pm af bf) (Some 30) = Err NotPeriodicError.
Proof. tests. Qed.
Example perm_periodic : let fini := cy [[0; 3]] in let peri := Perm (ArgCycles [[0; 3]]) (Some 10) in let s := [3; 1; 2; 0; 4; 5; 6; 7; 8; 9] in
  seq_at fini 4 = Ok [3; 1; 2; 0] /\ seq_at fini 10 = Ok s /\ seq_at peri 10 = Ok s /\ seq_at fini 20 = Ok (s ++ range2 10 20) /\
  seq_at peri 20 = Ok (s ++ map (fun x => x + 10) s).
Proof. tests. Qed.
Example perm_periods : allok [peq (per [1; 0; 3; 2; 5; 4; 7; 6]) (per [1; 0]); peq (per [1; 0; 3; 2; 5; 4]) (per [1; 0]); peq (per [1; 0; 3; 2]) (per [1; 0]);
  peq (per [1; 2; 3; 0; 5; 6; 7; 4]) (per [1; 2; 3; 0])].
Proof. oks. Qed.
Example perm_four : let p0 := sq [0; 1; 2; 3] in let p3 := sq [2; 0; 1; 3] in let p4 := sq [1; 2; 0; 3] in let p5 := sq [2; 1; 0; 3] in let p9 := sq [3; 0; 1; 2] in
  let p10 := sq [1; 3; 0; 2] in let p13 := sq [2; 0; 3; 1] in let p23 := sq [3; 2; 1; 0] in
  allok [peq (pm p0 p0) p0; peq (pm p5 p5) p0; peq (pm p0 p3) p3; peq (pm p3 p0) p3; peq (pm p3 p9) (sq [3; 2; 0; 1]); peq (pm p9 p3) p10;
         peq (pm (pm p3 p9) p5) (sq [0; 2; 3; 1]); peq (pm (pm p5 p9) p3) (sq [1; 3; 2; 0]); peq (iv p0) p0; peq (iv p5) p5; peq (iv p23) p23; peq (iv p3) p4;
         peq (iv p4) p3; peq (iv p10) p13; peq (iv p13) p10] /\
  allok (map (fun ne : Z * res perm => peq (let* p := p10 in ppow p (fst ne)) (snd ne))
    [(-2, p23); (-1, p13); (0, p0); (1, p10); (2, p23); (3, p13); (4, p0); (5, p10); (6, p23)]%Z) /\
  seq_at p10 4 = Ok [1; 3; 0; 2] /\ seq_at p10 5 = Ok [1; 3; 0; 2; 4] /\ seq_at p10 3 = Err LengthTooSmallError.
Proof. cbv zeta. split; [oks|]. split; [oks | tests]. Qed.

(** * perm/a, perm/metributes *)
Example broaden_test : broaden_sub [0; 1] 5 3 = [0; 1; 5; 6; 10; 11] /\
  (let r := broaden_moved 3 5 [0; 1] [0; 1] in (fst r, same_elements (snd r) [0; 1; 3; 4; 5; 6; 7; 9; 10; 11; 12; 13])) = (15, true) /\
  (let r := broaden_moved 6 15 [0; 1] [12; 13; 14] in (fst r, same_elements (snd r) [0; 1; 6; 7; 12; 13; 14; 18; 19; 24; 25; 27; 28; 29])) = (30, true).
Proof. tests. Qed.
Example block_repeats_test :
  map (fun x : dict * nat * nat => block_repeats (fst (fst x)) (snd (fst x)) (snd x))
    [([(0, 1); (1, 5); (5, 0)], 6, 2); ([(0, 1); (1, 5); (5, 0)], 6, 3); ([(0, 1); (1, 4); (4, 5); (5, 0)], 6, 2); ([(0, 1); (1, 4); (4, 5); (5, 0)], 6, 3);
     ([(0, 1); (1, 2); (2, 0); (3, 5); (5, 4); (4, 3)], 6, 3); ([(0, 1); (1, 0); (3, 4); (4, 3)], 6, 2); ([(0, 1); (1, 0); (2, 3); (3, 2); (4, 5); (5, 4)], 6, 3);
     ([(0, 1); (1, 0); (2, 3); (3, 2); (5, 4); (4, 5)], 6, 3); ([(1, 2); (2, 3); (3, 1); (51, 52); (52, 53); (53, 51)], 100, 2);
     ([(1, 2); (2, 3); (3, 1); (51, 53); (53, 52); (52, 51)], 100, 2)] =
  map Ok [false; false; false; false; false; true; true; true; true; false].
Proof. tests. Qed.
Example reduce_period_test :
  reduce_period [(0, 1); (1, 0); (2, 3); (3, 2)] 4 = Ok ([(0, 1); (1, 0)], 2) /\
  reduce_period [(0, 1); (1, 2); (2, 3); (3, 0)] 4 = Ok ([(0, 1); (1, 2); (2, 3); (3, 0)], 4) /\
  (let* r := reduce_period [(1, 2); (2, 1); (4, 5); (5, 7); (7, 5); (51, 52); (52, 51); (54, 55); (55, 57); (57, 55)] 100 in
   Ok (same_dict (fst r) [(1, 2); (2, 1); (4, 5); (5, 7); (7, 5)], snd r)) = Ok (true, 50).
Proof. tests. Qed.
Example inversions_test : let perm := [0; 6; 4; 2; 1; 7; 5; 3] in let left := [0; 0; 1; 2; 3; 0; 2; 4] in let right := [0; 5; 3; 1; 0; 2; 1; 0] in
  let pairs := [(1, 2); (1, 3); (1, 4); (1, 6); (1, 7); (2, 3); (2, 4); (2, 7); (3, 4); (5, 6); (5, 7); (6, 7)] in
  left_inversion_count perm = left /\ right_inversion_count perm = right /\ inversion_vector perm = Ok [0; 3; 2; 4; 1; 2; 0; 0] /\
  left_inversion_count_to_permutation left = Ok perm /\ right_inversion_count_to_permutation right = Ok perm /\ inversion_set_to_count pairs = left /\
  inversion_set_to_permutation pairs = Ok perm.
Proof. tests. Qed.
Example inversions_shift :
  map left_inversion_count [[5; 0; 1; 2; 3; 4; 6; 7]; [5; 0; 1; 2; 3; 4]] = [[0; 1; 1; 1; 1; 1; 0; 0]; [0; 1; 1; 1; 1; 1]] /\
  map right_inversion_count [[5; 0; 1; 2; 3; 4; 6; 7]; [5; 0; 1; 2; 3; 4]] = [[5; 0; 0; 0; 0; 0; 0; 0]; [5; 0; 0; 0; 0; 0]] /\
  map inversion_vector [[5; 0; 1; 2; 3; 4; 6; 7]; [5; 0; 1; 2; 3; 4]] = map Ok [[1; 1; 1; 1; 1; 0; 0; 0]; [1; 1; 1; 1; 1; 0]] /\
  map left_inversion_count_to_permutation [[0; 1; 1; 1; 1; 1; 0; 0]; [0; 1; 1; 1; 1; 1]] = map Ok [[5; 0; 1; 2; 3; 4; 6; 7]; [5; 0; 1; 2; 3; 4]] /\
  map right_inversion_count_to_permutation [[5; 0; 0; 0; 0; 0; 0; 0]; [5; 0; 0; 0; 0; 0]] = map Ok [[5; 0; 1; 2; 3; 4; 6; 7]; [5; 0; 1; 2; 3; 4]] /\
  inversion_set_to_count [(0, 1); (0, 2); (0, 3); (0, 4); (0, 5)] = [0; 1; 1; 1; 1; 1] /\
  inversion_set_to_permutation [(0, 1); (0, 2); (0, 3); (0, 4); (0, 5)] = Ok [5; 0; 1; 2; 3; 4].
Proof. tests. Qed.
Example inversion_set_test : (let* p := sq [] in Ok (inversion_set p)) = Ok [] /\
  (let* p := sq [2; 1; 3; 0] in Ok (same_pairs (inversion_set p) [(0, 1); (2, 3); (0, 3); (1, 3)])) = Ok true.
Proof. tests. Qed.
Example parity_test : mapM (fun l => let* p := sq l in Ok (pparity p)) [[]; [2; 1; 3; 0]; [3; 0; 1; 2]] = Ok [0; 0; 1].
Proof. tests. Qed.
Example ranks_test : (let* p := sq [0; 3; 5; 6; 4; 7; 1; 2] in let* r := right_rank p in Ok r) = Ok 1888.
Proof. tests. Qed.
Example cycle_partition_test : let c l m := let* p := cy l in let* s := cycle_partition p in let* t := SetPart (Some m) DomN in sp_eq s t in
  allok [c [[0; 2; 1]] [[0; 1; 2]]%Z; c [[0; 1; 2]] [[0; 1; 2]]%Z; c [[3; 5; 9]; [2; 7; 4]] [[2; 4; 7]; [3; 5; 9]]%Z; c [[2; 4; 7]; [3; 9; 5]] [[2; 4; 7]; [3; 5; 9]]%Z].
Proof. oks. Qed.

(** * sig_perm *)
Definition sge (a b : res sigperm) : res bool := let* a := a in let* b := b in Ok (sg_eqb a b).
Definition sgm (a b : res sigperm) : res sigperm := let* a := a in let* b := b in sg_mul a b.
Definition arg l := SrcArg (ArgSeq l).
Definition ssq := SigPerm_sequence.
Example schoute_perm_test : let e := Perm (ArgCycles [[1; 8; 4; 2]; [3; 9; 12; 6]; [5; 10]; [7; 11; 13; 14]]) (Some 16) in
  allok [peq (let* p := sq [3; 0; 1; 2] in perm_schoute p) e; peq (let* s := SigPerm_pair 0 9 in sg_schoute s) e;
         peq (let* s := SigPerm_pair 1 3 in sg_schoute s) (Perm (ArgCycles [[0; 1; 5; 7; 6; 2]; [3; 4]]) (Some 8)); sge (SigPerm_pair 3 18) (ssq [nt 1; 2; 3; nt 0]%Z)] /\
  (let* p := sq [3; 0; 1; 2] in let* p := perm_schoute p in psequence p None) = Ok [0; 8; 1; 9; 2; 10; 3; 11; 4; 12; 5; 13; 6; 14; 7; 15] /\
  (let* s := SigPerm_pair 1 3 in let* p := sg_schoute s in psequence p None) = Ok [1; 5; 0; 4; 3; 7; 2; 6] /\
  (let* s := SigPerm_pair 1 3 in let* p := sg_schoute s in psequence p (Some 16)) = Ok [1; 5; 0; 4; 3; 7; 2; 6; 9; 13; 8; 12; 11; 15; 10; 14] /\
  (let* s := SigPerm_pair 3 18 in let* p := sg_schoute s in let* p := pinv p in psequence p None) = Ok [9; 1; 8; 0; 11; 3; 10; 2; 13; 5; 12; 4; 15; 7; 14; 6].
Proof. split; [oks | tests]. Qed.
Definition eye (n : nat) : list (list Z) := map (fun i => map (fun j => if Nat.eqb i j then 1%Z else 0%Z) (range n)) (range n).
Example sig_3 : let m3 := [[0; 1; 0]; [0; 0; -1]; [-1; 0; 0]]%Z in let m5 := [[0; 1; 0; 0; 0]; [0; 0; -1; 0; 0]; [-1; 0; 0; 0; 0]; [0; 0; 0; 1; 0]; [0; 0; 0; 0; 1]]%Z in
  let a := SigPerm_valneg (NegVector [0; 1; 1]%Z) (arg [2; 0; 1]) in
  allok (map (sge a) [SigPerm_valneg (NegBinv (bv "011")) (arg [2; 0; 1; 3; 4]); SigPerm_valneg (NegSet [1; 2]%Z) (arg [2; 0; 1; 3; 4; 5]); SigPerm_pair 6 3;
    SigPerm_keyneg (NegVector [1; 0; 1]%Z) (arg [2; 0; 1; 3; 4]); SigPerm None None None (Some 5) None (Some 3) None None None; ssq [nt 2; 0; nt 1]%Z;
    ssq [nt 2; 0; nt 1; 3; 4]%Z; SigPerm_matrix m3]) /\
  (let* a := a in let* p := sg_pair a in Ok (sg_binv a, p)) = Ok (bv "011", (6, 3)) /\ (let* a := a in let* p := sq [2; 0; 1] in Ok (perm_eqb (sg_perm a) p)) = Ok true /\
  (let* a := a in sg_sequence a None) = Ok [-3; 0; -2]%Z /\ (let* a := a in sg_sequence a (Some 3)) = Ok [-3; 0; -2]%Z /\
  (let* a := a in sequence_string a None false) = Ok (lit "[~2, 0, ~1]") /\ (let* a := a in sequence_string a (Some 5) false) = Ok (lit "[~2, 0, ~1, 3, 4]") /\
  (let* a := a in sg_matrix a None) = Ok m3 /\ (let* a := a in sg_sequence a (Some 5)) = Ok [nt 2; 0; nt 1; 3; 4]%Z /\ (let* a := a in sg_matrix a (Some 5)) = Ok m5 /\
  sge (let* a := a in sg_inv a) (ssq [1; nt 2; nt 0]%Z) = Ok true /\ (let* a := a in sg_apply a [900; 911; 922; 933]%Z) = Ok [911; nt 922; nt 900; 933]%Z /\
  (let* a := a in let* m := sg_matrix a (Some 4) in Ok (map (fun r => zdot r [900; 911; 922; 933]%Z) m)) = Ok [911; -922; -900; 933]%Z.
Proof. cbv zeta. split; [oks | tests]. Qed.
Example sig_4 : let m4 := [[0; 0; -1; 0]; [0; -1; 0; 0]; [0; 0; 0; 1]; [1; 0; 0; 0]]%Z in
  let a := SigPerm_valneg (NegVector [1; 1; 0; 0]%Z) (arg [3; 1; 0; 2]) in
  allok (map (sge a) [SigPerm_valneg (NegBinv (bv "11")) (arg [3; 1; 0; 2; 4; 5]); SigPerm_valneg (NegSet [0; 1]%Z) (arg [3; 1; 0; 2; 4; 5; 6]); SigPerm_pair 3 11;
    SigPerm_keyneg (NegVector [0; 1; 1; 0]%Z) (arg [3; 1; 0; 2; 4; 5]); SigPerm_keyneg (NegSet [1; 2]%Z) (arg [3; 1; 0; 2; 4; 5]);
    SigPerm None None None (Some 6) None (Some 11) None None None; ssq [3; nt 1; nt 0; 2]%Z; ssq [3; nt 1; nt 0; 2; 4; 5]%Z; SigPerm_matrix m4]) /\
  (let* a := a in let* p := sg_pair a in Ok (sg_binv a, p)) = Ok (bv "1100", (3, 11)) /\ (let* a := a in sg_sequence a (Some 4)) = Ok [3; -2; -1; 2]%Z /\
  (let* a := a in sg_matrix a None) = Ok m4 /\ (let* a := a in sequence_string a (Some 6) true) = Ok (lit "(3, ~1, ~0, 2, 4, 5)") /\
  sge (let* a := a in sg_inv a) (ssq [nt 2; nt 1; 3; 0]%Z) = Ok true /\ (let* a := a in sg_apply a [900; 911; 922; 933; 944]%Z) = Ok [nt 922; nt 911; 933; 900; 944]%Z.
Proof. cbv zeta. split; [oks | tests]. Qed.
Example sig_eq : let p := sq [5; 3; 1; 2; 4; 0] in
  (let* p := p in let* s := SigPerm_valneg (NegVector []) (arg [5; 3; 1; 2; 4; 0]) in Ok (sg_eqb_perm s p)) = Ok true /\
  (let* p := p in let* s := SigPerm_valneg (NegSet [3]%Z) (arg [5; 3; 1; 2; 4; 0]) in Ok (sg_eqb_perm s p)) = Ok false.
Proof. tests. Qed.
Example sig_product : let a := ssq [0; nt 1; nt 2]%Z in let b := ssq [2; 0; 1]%Z in let c := ssq [nt 2; 0; nt 1]%Z in let sch s := let* s := s in sg_schoute s in
  allok [sge (sgm a b) c; peq (sch a) (per [6; 7; 4; 5; 2; 3; 0; 1]); peq (sch b) (per [0; 4; 1; 5; 2; 6; 3; 7]); peq (sch c) (per [6; 2; 7; 3; 4; 0; 5; 1])].
Proof. oks. Qed.
Example sig_length : let a := SigPerm_valneg (NegSet [1; 3]%Z) (arg [3; 2; 0; 1]) in let b := SigPerm_valneg (NegSet [3; 9]%Z) (arg [2; 0; 1; 3]) in
  allok [sge a (ssq [nt 3; 2; 0; nt 1]%Z); sge b (ssq [2; 0; 1; nt 3; 4; 5; 6; 7; 8; nt 9]%Z); sge (sgm a b) (ssq [0; nt 3; 2; 1; 4; 5; 6; 7; 8; nt 9]%Z);
         sge (sgm b a) (ssq [3; 1; 2; nt 0; 4; 5; 6; 7; 8; nt 9]%Z)] /\ (let* a := a in let* b := b in Ok (sg_length a, sg_length b)) = Ok (4, 10).
Proof. split; [oks | tests]. Qed.
Example sig_pairs : mapM (fun x : nat * nat => let* s := SigPerm_pair (fst x) (snd x) in sg_pair s) [(0, 0); (0, 3); (5, 0); (6, 13)] = Ok [(0, 0); (0, 3); (5, 0); (6, 13)].
Proof. tests. Qed.
Example sig_apply : let sp := SigPerm_pair 12 7 in let ap v := let* s := sp in sg_apply s v in
  ap [1; 0; 0; 1]%Z = Ok [0; 1; -2; -1]%Z /\ ap [0; 1; 0; 1]%Z = Ok [1; 0; -2; -1]%Z /\ ap [1; 0; 0; 1; 1]%Z = Ok [0; 1; -2; -1; 1]%Z /\
  mapM (fun n => let* s := sp in sg_apply_natural Model_Binary.binary_length s n) [9; 10; 0; 12; 8; 4; 7; 25; 26] = Ok [10; 9; 12; 0; 8; 4; 7; 26; 25] /\
  (let* s := SigPerm_pair 0 23 in let* p := sg_schoute s in papply p (bv "0111 0001 1110 1000")) = Ok (bv "0101 1100 1100 1010").
Proof. tests. Qed.
Example sig_misc : let mk keyneg p := SigPerm None None keyneg None (Some (arg p)) None None None None in
  (let* a := SigPerm None None None (Some 0) (Some (arg [3; 1; 2; 0])) None None None None in let* s := sequence_string a None false in let* i := sg_perm_index a in Ok (s, i)) =
    Ok (lit "[3, 1, 2, 0]", 21) /\
  (let* b := SigPerm None None None (Some 1) (Some (arg [3; 1; 2; 0])) None None None None in let* s := sequence_string b None false in let* k := sg_keyneg_index b in
   let* i := sg_perm_index b in let* p := sg_pair b in Ok (s, k, sg_valneg_index b, i, p)) = Ok (lit "[~3, 1, 2, 0]", 1, 8, 21, (8, 21)) /\
  (let* c := mk (Some (NegVector [1; 0; 1]%Z)) [3; 1; 2; 0; 4] in let* s := sequence_string c None false in let* k := sg_keyneg_index c in Ok (s, k, sg_valneg_index c)) =
    Ok (lit "[~3, 1, ~2, 0]", 5, 12) /\
  sge (ssq []) (ssq [0; 1]%Z) = Ok true /\ (let* d := ssq [] in Ok (sg_binv d, neutral (sg_perm d), sg_length d)) = Ok ([], true, 0) /\
  sge (ssq [nt 0]) (ssq [nt 0; 1]%Z) = Ok true /\ (let* e := ssq [nt 0] in Ok (sg_binv e, neutral (sg_perm e), sg_length e)) = Ok ([true], true, 1) /\
  SigPerm None None None None None None None None None = Err ArgComboError.
Proof. tests. Qed.
Example sig_matrices : let m := [[0; 0; 1]; [-1; 0; 0]; [0; 1; 0]]%Z in
  matrix_to_sequence m = Ok [nt 1; 2; 0]%Z /\ sequence_to_matrix [nt 1; 2; 0]%Z false = Ok m /\ sequence_to_matrix [2; nt 0; 1]%Z true = Ok m.
Proof. tests. Qed.
Example schoute_inverse_test : let r := [0; 2; 4; 6; 1; 3; 5; 7] in
  map (fun l => schoute_to_finite_inverse (SchouteList l)) [r; r ++ map (fun x => x + 8) r; [0; 2; 4; 6; 8; 10; 12; 14; 1; 3; 5; 7; 9; 11; 13; 15]] =
    map Ok [[2; 0; 1]; [2; 0; 1]; [3; 0; 1; 2]]%Z /\
  mapM (fun x : nat * nat => let* s := SigPerm_pair (fst x) (snd x) in let* i := sg_inv s in let* i := sg_sequence i None in let* p := sg_schoute s in
      let* q := psequence p None in let* a := schoute_to_finite_inverse (SchoutePerm p) in let* b := schoute_to_finite_inverse (SchouteList q) in
      let* t := SigPerm_schoute (SchoutePerm p) in let* u := SigPerm_schoute (SchouteList q) in Ok (zlist_eqb a i, zlist_eqb b i, sg_eqb t s, sg_eqb u s))
    [(0, 0); (0, 3); (5, 0); (6, 13)] = Ok (repeat (true, true, true, true) 4).
Proof. tests. Qed.

(** * walsh_perm *)
(* the inverse over the rationals, as numpy.linalg.inv: by cofactors; None where an entry is not an integer *)
Definition drop_at {A} (i : nat) (l : list A) : list A := firstn i l ++ skipn (S i) l.
Fixpoint cofactor_det (fuel : nat) (m : list (list Z)) : Z :=
  match fuel, m with
  | S k, r :: m' => fold_left Z.add (map (fun jx : nat * Z => ((if Nat.even (fst jx) then 1 else -1) * snd jx * cofactor_det k (map (drop_at (fst jx)) m'))%Z) (enumerate r)) 0%Z
  | _, _ => 1%Z
  end.
Definition inv (m : zmat) : res (option zmat) :=
  let n := length m in
  let d := cofactor_det n m in
  if Z.eqb d 0 then Err LinAlgError else
  let adj := map (fun i => map (fun j => ((if Nat.even (i + j) then 1 else -1) * cofactor_det n (map (drop_at i) (drop_at j m)))%Z) (range n)) (range n) in
  Ok (if forallb (forallb (fun z => Z.eqb (z mod d) 0)) adj then Some (map (map (fun z => (z / d)%Z)) adj) else None).
Definition wv (l : list nat) : res walsh := WalshPerm (Some l) None None false.
Definition wmx (m : zmat) : res walsh := WalshPerm None (Some m) None false.
Definition wpm (l : list nat) : res walsh := WalshPerm None None (Some (WSeq l)) false.
Definition weq (a b : res walsh) : res bool := let* a := a in let* b := b in Ok (walsh_eqb a b).
Definition wpe (a : res walsh) (b : res perm) : res bool := let* a := a in let* b := b in walsh_eqb_perm a b.
Definition wmul (a b : res walsh) : res walsh := let* a := a in let* b := b in walsh_mul a b.
Definition winv (a : res walsh) : res walsh := let* a := a in walsh_inverse inv a.
Definition wvec (a : res walsh) (n : option nat) : res (list nat) := let* a := a in walsh_vector a n.
Example walsh_neutral_test : let e := WalshPerm None None None false in
  allok (map (weq e) [wv []; wv [1]; wv [1; 2]; wv [1; 2; 4]; wv [1; 2; 4; 8]; wmx []; wmx [[1]]%Z; wmx [[1; 0]; [0; 1]]%Z; wmx [[1; 0; 0]; [0; 1; 0]; [0; 0; 1]]%Z;
    wpm [0]; wpm [0; 1]; wpm [0; 1; 2; 3]; wpm [0; 1; 2; 3; 4; 5; 6; 7]]) /\
  (let* e := e in let* m := walsh_mapping e in let* v := walsh_moved e in Ok (m, v)) = Ok ([], []) /\ weq (winv e) e = Ok true.
Proof. cbv zeta. split; [oks | tests]. Qed.
Example walsh_shorten : let p := wv [7; 5; 4] in let s := [0; 7; 5; 2; 4; 3; 1; 6] in let s4 := s ++ map (fun x => x + 8) s in let q l d := let* p := p in walsh_sequence p l d in
  weq (wv [7; 5; 4; 8]) p = Ok true /\ q None None = Ok s /\ q (Some 8) None = Ok s /\ q None (Some 3) = Ok s /\ q (Some 16) None = Ok s4 /\ q None (Some 4) = Ok s4 /\
  wpe p (per s) = Ok true /\ wpe p (per s4) = Ok true.
Proof. tests. Qed.
Example walsh_multiply : wvec (wmul (wv [8; 12; 2; 3]) (wv [6; 9; 1; 2])) (Some 4) = Ok [14; 11; 8; 12] /\
  wvec (wmul (wv [14; 11; 8; 12]) (wv [15; 9; 12; 4])) (Some 4) = Ok [1; 2; 4; 8].
Proof. tests. Qed.
Example walsh_cycles_test : let c := [[1; 8; 3; 4; 2; 12]; [5; 10; 15]; [6; 14; 13; 9; 11; 7]] in let w := wv [8; 12; 2; 3] in let p := Perm (ArgCycles c) (Some 16) in
  let cd l d := let* w := w in walsh_cycles_dynamic w l d in let long := c ++ map (map (fun x => x + 16)) c in
  (let* w := w in walsh_cycles w) = Ok c /\ (let* p := p in pcycles p) = Ok c /\ (let* p := p in cycles_dynamic p None) = Ok c /\ cd None None = Ok c /\ cd (Some 16) None = Ok c /\
  cd None (Some 4) = Ok c /\ (let* p := p in cycles_dynamic p (Some 32)) = Ok long /\ cd (Some 32) None = Ok long /\ cd None (Some 5) = Ok long /\
  (let* w := w in walsh_order w) = Ok 6 /\ (let* p := p in porder p) = Ok 6 /\ wpe w p = Ok true /\ (let* w := wv [1; 3; 6] in walsh_cycles w) = Ok [[2; 3]; [4; 6; 5; 7]] /\
  (let* w := wv [2; 1] in walsh_cycles w) = Ok [[1; 2]] /\ (let* w := wv [] in walsh_cycles w) = Ok [].
Proof. tests. Qed.
Example walsh_length_test : let p := wv [1; 3] in let sq l d := let* p := p in walsh_sequence p l d in let cd l d := let* p := p in walsh_cycles_dynamic p l d in
  sq None (Some 2) = Ok [0; 1; 3; 2] /\ sq (Some 4) None = Ok [0; 1; 3; 2] /\ sq None (Some 3) = Ok [0; 1; 3; 2; 4; 5; 7; 6] /\ sq (Some 8) None = Ok [0; 1; 3; 2; 4; 5; 7; 6] /\
  cd None (Some 2) = Ok [[2; 3]] /\ cd (Some 4) None = Ok [[2; 3]] /\ cd None (Some 3) = Ok [[2; 3]; [6; 7]] /\ cd (Some 8) None = Ok [[2; 3]; [6; 7]] /\
  errs RequestedDegreeSmallerActualDegreeError [sq None (Some 1); sq (Some 2) None] /\ errs RequestedDegreeSmallerActualDegreeError [cd None (Some 1); cd (Some 2) None] /\
  sq (Some 12) None = Err NotPowerOfTwoError /\ cd (Some 12) None = Err NotPowerOfTwoError /\ sq (Some 4) (Some 2) = Err RedundantParametersError /\
  cd (Some 4) (Some 2) = Err RedundantParametersError.
Proof. tests. Qed.
Example walsh_matrices : let a := wmx [[1; 0; 1; 0]; [0; 0; 1; 1]; [1; 1; 0; 1]; [0; 1; 1; 0]]%Z in let b := wmx [[1; 1; 1; 0]; [1; 1; 0; 1]; [1; 0; 1; 1]; [0; 1; 1; 1]]%Z in
  (let* a := a in walsh_determinant a) = Ok 3%Z /\ wvec a None = Ok [5; 12; 11; 6] /\ wpe a (Perm (ArgCycles [[1; 5; 14]; [2; 12; 13; 8; 6; 7]; [3; 9]; [4; 11; 15]]) (Some 16)) = Ok true /\
  (let* b := b in walsh_determinant b) = Ok (-3)%Z /\ wvec b None = Ok [7; 11; 13; 14] /\
  wpe b (Perm (ArgCycles [[1; 7]; [2; 11]; [3; 12]; [4; 13]; [5; 10]; [8; 14]]) (Some 16)) = Ok true /\ wvec (wmul a b) None = Ok [2; 15; 8; 1] /\
  wvec (wmul b a) None = Ok [10; 3; 2; 6].
Proof. tests. Qed.
Example walsh_bitperm : let p3 := wv [4; 1; 2; 8] in let p8 := wv [1; 8; 2; 4] in let p17 := wv [8; 4; 1; 2] in let p18 := wv [2; 4; 8; 1] in let p7 := wv [2; 1; 8; 4] in
  allok [wpe (wv [2; 4; 1]) (per [0; 2; 4; 6; 1; 3; 5; 7]); wpe p18 (per [0; 2; 4; 6; 8; 10; 12; 14; 1; 3; 5; 7; 9; 11; 13; 15]); weq (wmul p17 p18) p3; weq (wmul p18 p17) p8;
         weq (let* p := p17 in walsh_pow inv p 2) p7; weq (let* p := p7 in walsh_pow inv p (-1)) p7].
Proof. oks. Qed.
Example walsh_bitperm_vectors : let p := sq [2; 0; 1] in
  (let* p := p in let* i := pinv p in papply i [1; 2; 4]) = Ok [4; 1; 2] /\ (let* p := p in papply p [1; 2; 4]) = Ok [2; 4; 1] /\ weq (winv (wv [4; 1; 2])) (wv [2; 4; 1]) = Ok true /\
  (let* w := wv [4; 1; 2] in walsh_sequence w None None) = Ok [0; 4; 1; 5; 2; 6; 3; 7] /\ (let* w := wv [2; 4; 1] in walsh_sequence w None None) = Ok [0; 2; 4; 6; 1; 3; 5; 7] /\
  mapM (fun i => let* v := Binv_intval i (Some 3) in let* p := p in let* v := papply p v in Ok (binv_intval v)) (range 8) = Ok [0; 4; 1; 5; 2; 6; 3; 7] /\
  (let* w := wv [2; 4; 1] in Model_WalshMore.walsh_apply inv w (range 8)) = Ok [0; 4; 1; 5; 2; 6; 3; 7].
Proof. tests. Qed.
Example walsh_powers : let w := wv [15; 5; 11; 3] in
  (let* w := w in walsh_matrix w None) = Ok [[1; 1; 1; 1]; [1; 0; 1; 1]; [1; 1; 0; 0]; [1; 0; 1; 0]]%Z /\
  mapM (fun i => let* w := w in let* p := walsh_pow inv w (Z.of_nat i) in let* v := walsh_vector p (Some 4) in let* d := walsh_determinant p in let* o := walsh_order p in Ok (v, d, o)) (range 16) =
  Ok [([1; 2; 4; 8], 1%Z, 1); ([15; 5; 11; 3], (-1)%Z, 15); ([2; 4; 9; 10], 1%Z, 15); ([5; 11; 12; 6], (-3)%Z, 5); ([4; 9; 8; 14], (-1)%Z, 15); ([11; 12; 3; 13], 1%Z, 3);
      ([9; 8; 10; 7], 1%Z, 5); ([12; 3; 6; 1], (-1)%Z, 15); ([8; 10; 14; 15], (-1)%Z, 15); ([3; 6; 13; 2], 1%Z, 5); ([10; 14; 7; 5], 1%Z, 3); ([6; 13; 1; 4], (-1)%Z, 15);
      ([14; 7; 15; 11], (-1)%Z, 5); ([13; 1; 2; 9], 1%Z, 15); ([7; 15; 5; 12], (-1)%Z, 15); ([1; 2; 4; 8], 1%Z, 1)] /\
  (let* w := w in let* p := walsh_pow inv w 5 in walsh_cycles p) = Ok [[1; 11; 10]; [2; 12; 14]; [3; 7; 4]; [5; 8; 13]; [6; 15; 9]] /\
  weq (let* w := w in walsh_pow inv w (-1)) (winv w) = Ok true /\ weq (winv w) (let* w := w in walsh_pow inv w 14) = Ok true.
Proof. tests. Qed.
Example walsh_gray : let g := wv [1; 3; 6; 12] in let gi := wv [1; 3; 7; 15] in let gs := [0; 1; 3; 2; 6; 7; 5; 4; 12; 13; 15; 14; 10; 11; 9; 8] in
  (let* g := g in walsh_sequence g None None) = Ok gs /\ weq (winv g) gi = Ok true /\ wpe g (per gs) = Ok true /\ wpe (winv g) (iv (per gs)) = Ok true /\
  (let* g := g in let* m := walsh_mapping g in let* v := walsh_moved g in
   Ok (same_dict m [(2, 3); (3, 2); (4, 6); (5, 7); (6, 5); (7, 4); (8, 12); (9, 13); (10, 15); (11, 14); (12, 10); (13, 11); (14, 9); (15, 8)], same_elements v (range2 2 16))) = Ok (true, true) /\
  (let* g := g in let* s := walsh_pow inv g 2 in let* i := walsh_inverse inv s in let* m := walsh_mapping s in let* v := walsh_moved s in
   Ok (walsh_eqb i s, same_dict m [(4, 5); (5, 4); (6, 7); (7, 6); (8, 10); (9, 11); (10, 8); (11, 9); (12, 15); (13, 14); (14, 13); (15, 12)], same_elements v (range2 4 16))) =
    Ok (true, true, true).
Proof. tests. Qed.
Example walsh_invalid : let m := [[1; 0; 1; 0]; [0; 0; 1; 1]; [1; 1; 1; 0]; [1; 1; 0; 1]]%Z in
  errs InvalidMatrixError [wmx [[0; 1; 1]; [1; 0; 1]; [1; 1; 0]]%Z; wv [6; 5; 3]; wmx [[1; 0; 1; 0]; [0; 1; 1; 0]; [0; 0; 0; 1]; [0; 0; 0; 0]]%Z; wv [1; 2; 3; 4];
    wmx [[1; 0; 1; 0]; [0; 1; 0; 0]; [0; 0; 1; 1]; [1; 0; 0; 1]]%Z; wv [9; 2; 5; 12]; wmx m; wv [13; 12; 7; 10]] /\
  errs NotEvenPermutationError [wpm [0; 1; 3; 5]; wpm [0; 5; 6; 3; 8; 13; 14; 11; 0; 5; 6; 3; 8; 13; 14; 11]] /\
  errs InvalidPermError [wpm [3; 2; 1; 0]; wpm [0; 7; 6; 5; 4; 3; 2; 1]] /\
  (let* w := WalshPerm None None (Some (WSeq [3; 2; 1; 0])) true in walsh_sequence w None None) = Ok [0; 2; 1; 3] /\
  (let* w := WalshPerm None None (Some (WSeq [0; 7; 6; 5; 4; 3; 2; 1])) true in walsh_sequence w None None) = Ok [0; 7; 6; 1; 4; 3; 2; 5] /\
  (let* w := WalshPerm None (Some m) None true in let* v := walsh_vector w None in let* d := walsh_determinant w in Ok (v, d)) = Ok ([13; 12; 7; 10], (-2)%Z) /\
  (let* w := WalshPerm None (Some m) None true in walsh_sequence w None None) = Err InvalidMatrixError /\
  (let* w := WalshPerm None (Some m) None true in walsh_cycles w) = Err InvalidMatrixError.
Proof. tests. Qed.
Example walsh_vectors : let n := wv [] in let w := wv [1; 3; 7] in let tv a k := let* a := a in walsh_transpose_vector a k in
  map (wvec n) [None; Some 0; Some 1; Some 2; Some 3; Some 4] = map Ok [[]; []; [1]; [1; 2]; [1; 2; 4]; [1; 2; 4; 8]] /\
  map (tv n) [None; Some 0; Some 1; Some 2; Some 3; Some 4] = map Ok [[]; []; [1]; [1; 2]; [1; 2; 4]; [1; 2; 4; 8]] /\
  map (wvec w) [None; Some 3; Some 4] = map Ok [[1; 3; 7]; [1; 3; 7]; [1; 3; 7; 8]] /\ map (tv w) [None; Some 3; Some 4] = map Ok [[7; 6; 4]; [7; 6; 4]; [7; 6; 4; 8]] /\
  errs RequestedDegreeSmallerActualDegreeError (map (fun k => wvec w (Some k)) [2; 1; 0]) /\ errs RequestedDegreeSmallerActualDegreeError (map (fun k => tv w (Some k)) [2; 1; 0]).
Proof. tests. Qed.
Example walsh_matrix_method : let n := wv [] in let w := wv [1; 3; 7] in let mx a k := let* a := a in walsh_matrix a k in
  map (fun i => mx n (Some i)) (range 5) = map (fun i => Ok (eye i)) (range 5) /\ mx w None = Ok [[1; 1; 1]; [0; 1; 1]; [0; 0; 1]]%Z /\ mx w (Some 3) = Ok [[1; 1; 1]; [0; 1; 1]; [0; 0; 1]]%Z /\
  mx w (Some 4) = Ok [[1; 1; 1; 0]; [0; 1; 1; 0]; [0; 0; 1; 0]; [0; 0; 0; 1]]%Z /\ errs RequestedDegreeSmallerActualDegreeError (map (fun k => mx w (Some k)) [2; 1; 0]) /\
  errs RequestedDegreeSmallerActualDegreeError (map (fun k => mx (wv [7; 6; 4]) (Some k)) [2; 1; 0]).
Proof. tests. Qed.
Example walsh_complement :
  mapM (fun v => let* w := wv v in complement_pattern w (length v)) [[3; 1]; [3; 1; 4]; [3; 1; 4; 8]; [7; 11; 13; 14]; [7; 11; 13; 14; 16]; [1]; [1; 3]; [1; 3; 7]; [1; 3; 7; 15];
    [1; 3; 7; 15; 31]; [1; 3; 6]; [1; 3; 6; 12]; [1; 3; 6; 12; 24]] = Ok [1; 5; 13; 15; 31; 1; 2; 4; 8; 16; 5; 10; 21] /\
  mapM (fun v => let* w := winv (wv v) in complement_pattern w 3) [[2; 4; 7]; [1; 4; 7]; [1; 4; 6]; [1; 2; 7]; [1; 2; 6]; [1; 2; 5]; [1; 2; 4]] = Ok [1; 2; 3; 4; 5; 6; 7] /\
  mapM (fun v => let* w := wv v in complement_distance w) [[3; 1]; [7; 11; 13; 14]; [1]; [1; 3]; [1; 3; 7]; [1; 3; 7; 15]; [1; 3; 7; 15; 31]; [1; 3; 6]; [1; 3; 6; 12]; [1; 3; 6; 12; 24]] =
    Ok [2; 0; 0; 1; 3; 7; 15; 2; 5; 10].
Proof. tests. Qed.
Example perm_to_matrix_test : let s := [0; 2; 3; 1; 9; 11; 10; 8; 15; 13; 12; 14; 6; 4; 5; 7] in let m := [[0; 1; 1; 1]; [1; 1; 0; 1]; [0; 0; 0; 1]; [0; 0; 1; 1]]%Z in
  perm_to_matrix (WSeq s) false = Ok m /\ (let* p := per s in perm_to_matrix (WPerm p) false) = Ok m /\ perm_to_matrix (WSeq [0; 2; 3; 1]) false = Ok [[0; 1]; [1; 1]]%Z /\
  errs PermLengthError [perm_to_matrix (WSeq [0; 1; 2]) false; perm_to_matrix (WSeq [0; 1; 2; 3; 4]) false] /\
  errs IsNeutralFail [perm_to_matrix (WSeq [0]) false; perm_to_matrix (WSeq [0; 1]) false] /\
  perm_to_matrix (WSeq [0; 5; 6; 3; 8; 13; 14; 11; 0; 5; 6; 3; 8; 13; 14; 11]) false = Err NotEvenPermutationError /\
  matrix_to_vector m false = Ok [2; 3; 9; 15] /\ matrix_to_vector [[1; 0; 1; 0]; [0; 1; 1; 0]; [0; 0; 0; 1]; [0; 0; 0; 0]]%Z false = Ok [1; 2; 3; 4].
Proof. tests. Qed.
Example vector_class_test :
  map (fun v => map (Vector_get (Vector v)) (range 5)) [[]; [1]; [1; 2]; [1; 2; 4]; [1; 2; 4; 8]] = repeat [1; 2; 4; 8; 16] 5 /\
  map (Vector_get (Vector [8; 12; 2; 3])) (range 5) = [8; 12; 2; 3; 16] /\ Vector_length (Vector [8; 12; 2; 3; 16; 32]) = 4 /\
  extend_to_length (Vector [8; 12; 2; 3; 16; 32]) 4 = Ok [8; 12; 2; 3] /\ extend_to_length (Vector [8; 12; 2; 3; 16; 32]) 5 = Ok [8; 12; 2; 3; 16] /\
  Vector_length (Vector [7; 6; 4]) = 2 /\ extend_to_length (Vector [8; 12; 2; 3]) 3 = Err ExtendedLengthTooSmallError.
Proof. tests. Qed.
Example walsh_transpose_inverse : weq (winv (wv [1; 3; 7])) (wv [1; 3; 6]) = Ok true /\ weq (let* w := wv [1; 3; 7] in walsh_transposed w) (wv [7; 6; 4]) = Ok true.
Proof. tests. Qed.
