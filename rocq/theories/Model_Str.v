(** Model_Str: the texts of the objects ([__str__], [__repr__], [__hash__]) and the order of the Boolfs,
    which is the order of their texts.  No proofs in this file.

    A text is the list of the code points of its characters; Python compares texts by code points from
    left to right.  [hash] of a text is some function of the text (a parameter). *)

From Coq Require Import String Ascii List Arith ZArith Bool QArith.
From Verif Require Import Model_Base Model_Binary Model_Splits Model_Perm Model_SigPerm Model_WalshPerm Model_Twin Model_Boolf
  Model_SetPart Model_SetPartComp Model_MinRep Model_Layers Model_Misc.
Import ListNotations.
Open Scope nat_scope.

Definition text := list nat.
(* a text literal of the code *)
Definition lit (s : string) : text := map nat_of_ascii (list_ascii_of_string s).

(* str() of a natural number: its decimal digits; the fuel suffices for any number *)
Fixpoint dec_loop (fuel n : nat) (acc : text) : text :=
  match fuel with
  | 0 => acc
  | S fuel' =>
      let acc := (48 + n mod 10) :: acc in
      if Nat.eqb (n / 10) 0 then acc else dec_loop fuel' (n / 10) acc
  end.
Definition str_nat (n : nat) : text := dec_loop (S n) n [].
(* str() of an integer *)
Definition str_int (z : Z) : text := if Z.ltb z 0 then lit "-" ++ str_nat (Z.to_nat (- z)) else str_nat (Z.to_nat z).
(* ', '.join(entries) *)
Fixpoint join_texts (entries : list text) : text :=
  match entries with
  | [] => []
  | [e] => e
  | e :: rest => e ++ lit ", " ++ join_texts rest
  end.
(* str() of a list of entries with the given texts *)
Definition str_list (entries : list text) : text := lit "[" ++ join_texts entries ++ lit "]".

(* a/logic_str/__init__.py:6-15 *)
Definition logic_str (n : Z) : text := if Z.ltb n 0 then lit "~" ++ str_nat (logic_abs n) else str_nat (logic_abs n).
Definition logic_str_vector (vector : list Z) : text := lit "[" ++ join_texts (map logic_str vector) ++ lit "]".

(* binv/a/to_string/__init__.py:1-6 for a vector of booleans *)
Definition to_string (v : list bool) : text := flat_map (fun e : bool => if e then lit "1" else lit "0") v.

(* binv/methods/str.py:1-13; [weight > length / 2] is an exact comparison here (the quotient of an
   integer below 2^53 by 2 is exact) *)
Definition binv_str (v : list bool) : text :=
  if Nat.leb (length v) 16 then lit "Binv('" ++ to_string v ++ lit "')"
  else
    let show_complement := Nat.ltb (length v) (2 * binv_weight v) in
    let exposet_set := if show_complement then binv_exposet (map negb v) else binv_exposet v in
    let maybe_tilda := if show_complement then lit "~" else [] in
    maybe_tilda ++ lit "Binv(exposet=" ++ str_list (map str_nat (sort_nat exposet_set)) ++
    lit ", length=" ++ str_nat (length v) ++ lit ")".

(* perm/__init__.py:104-111 *)
Definition perm_str (p : perm) : res text :=
  if neutral p then Ok (lit "Perm()")
  else
    let* cs := pcycles p in
    let cycles := str_list (map (fun c => str_list (map str_nat c)) cs) in
    match perilen p with
    | Some q => Ok (lit "Perm(" ++ cycles ++ lit ", perilen=" ++ str_nat q ++ lit ")")
    | None => Ok (lit "Perm(" ++ cycles ++ lit ")")
    end.

(* sig_perm/__init__.py:155-165; the replacement of the brackets is done where they are added, there
   are no other brackets in the text *)
Definition sequence_string (s : sigperm) (len : option nat) (round_parentheses : bool) : res text :=
  let* l := sg_sequence s len in
  let string_entries :=
    map (fun signed_entry => (if Z.ltb signed_entry 0 then lit "~" else []) ++ str_nat (logic_abs signed_entry)) l in
  Ok (if round_parentheses then lit "(" ++ join_texts string_entries ++ lit ")"
      else lit "[" ++ join_texts string_entries ++ lit "]").
(* sig_perm/__init__.py:128-129 *)
Definition sigperm_str (s : sigperm) : res text :=
  let* t := sequence_string s None false in Ok (lit "SigPerm(sequence=" ++ t ++ lit ")").

(* walsh_perm/__init__.py:60-64 *)
Definition walsh_str (w : walsh) : res text :=
  if w_neutral w then Ok (lit "WalshPerm()")
  else let* v := walsh_vector w None in Ok (lit "WalshPerm(" ++ str_list (map str_nat v) ++ lit ")").

(* set_part/__init__.py:86-94, for integers as elements *)
Definition str_blocks (blocks : list (list Z)) : text := str_list (map (fun b => str_list (map str_int b)) blocks).
Definition setpart_str (s : setpart) : text :=
  match sp_domain s with
  | DomN => lit "SetPart(" ++ str_blocks (sp_blocks s) ++ lit ")"
  | DomZ => lit "SetPart(" ++ str_blocks (sp_blocks s) ++ lit ", 'Z')"
  | DomSet l => lit "SetPart(" ++ str_blocks (sp_blocks s) ++ lit ", {" ++ join_texts (map str_int (zsort l)) ++ lit "})"
  end.

(* set_part_comp/__init__.py:72-78; [order]: the order in which the set of pairs is shown *)
Definition str_pair (p : Z * Z) : text := lit "(" ++ str_int (fst p) ++ lit ", " ++ str_int (snd p) ++ lit ")".
Definition spc_str (order : list (Z * Z) -> list (Z * Z)) (s : spc) : text :=
  let blocks := str_blocks (sp_blocks (equal_part s)) in
  if Nat.eqb (length (comp_pairs s)) 0 then lit "SetPartComp(" ++ blocks ++ lit ")"
  else lit "SetPartComp(" ++ blocks ++ lit ", {" ++ join_texts (map str_pair (order (comp_pairs s))) ++ lit "})".

(* boolf/methods/str/__init__.py:1-24 *)
Definition one_half : Q := 1 # 2.
Definition boolf_str (f : boolf) : res text :=
  if Nat.leb (valency f) 4 then
    let* pretty_tt := to_pretty_string (root f) in
    let atomvals_string :=
      if is_root f then [] else lit ", [" ++ join_texts (map str_nat (atomvals f)) ++ lit "]" in
    Ok (lit "Boolf('" ++ map char_code pretty_tt ++ lit "'" ++ atomvals_string ++ lit ")")
  else
    let* w := weight_fract f in
    let show_tilda := negb (Qle_bool w one_half) in
    let tilda_string := if show_tilda then lit "~" else [] in
    let* fs := if show_tilda then let* c := boolf_not f in Ok (sort_nat (fullspots c)) else Ok (sort_nat (fullspots f)) in
    let arity_or_atomvals :=
      if is_root f then lit "arity=" ++ str_nat (adicity f)
      else lit "atomvals=[" ++ join_texts (map str_nat (atomvals f)) ++ lit "]" in
    Ok (tilda_string ++ lit "Boolf(fullspots=[" ++ join_texts (map str_nat fs) ++ lit "], " ++ arity_or_atomvals ++ lit ")").

(* < on texts *)
Definition text_ltb (a b : text) : bool := match lex_compare Nat.compare a b with Lt => true | _ => false end.
(* boolf/methods/str/__init__.py:35-48 *)
Definition boolf_lt (f g : boolf) : res bool := let* a := boolf_str f in let* b := boolf_str g in Ok (text_ltb a b).
Definition boolf_gt (f g : boolf) : res bool := boolf_lt g f.
Definition boolf_le (f g : boolf) : res bool := if boolf_eqb f g then Ok true else boolf_lt f g.
Definition boolf_ge (f g : boolf) : res bool := boolf_le g f.

(* __hash__: binv/methods/str.py:16-17, perm/__init__.py:116-117, sig_perm/__init__.py:134-135,
   boolf/methods/str/__init__.py:31-32 *)
Definition binv_hash (hash : text -> Z) (v : list bool) : Z := hash (binv_str v).
Definition perm_hash (hash : text -> Z) (p : perm) : res Z := let* s := perm_str p in Ok (hash s).
Definition sigperm_hash (hash : text -> Z) (s : sigperm) : res Z := let* t := sigperm_str s in Ok (hash t).
Definition boolf_hash (hash : text -> Z) (f : boolf) : res Z := let* s := boolf_str f in Ok (hash s).
