(** Props_WikiRow: property C92 (a row of a table of functions in a wiki page). *)

From Coq Require Import String Ascii List Arith ZArith QArith Bool Lia Permutation Sorted Relations.
From Verif Require Import Model_Base Lib Model_Binary Model_WalshPerm Model_Splits Model_Perm Model_Boolf Model_Twin Model_BoolfMore Model_MinRep Model_Misc Model_Blight Model_Str Model_Wiki.
From Verif Require Import Spec_Bits Spec_Boolf Spec_Twin Spec_Splits Spec_Misc Spec_Blight Proof_Binary Proof_Boolf Proof_BoolfTable Proof_BoolfMake Proof_Deflate Proof_Noble Proof_Fract Proof_Misc Proof_Str Proof_BoolfStr Proof_MinRepMale Props_Boolf Props_Twin Props_Misc Props_Blight Proof_WikiRow.
Import ListNotations Model_Str.
Open Scope nat_scope.

Lemma root_atomvals f : made false f -> adicity f = valency f <-> atomvals f = seq 0 (valency f).
Proof. intro M. rewrite <- Nat.eqb_eq. apply (is_root_range f (m_fit false f M)). Qed.

(** the values of the row *)
Theorem C92_row : forall dlen vdec wdec order f names, (forall l, Permutation (order l) l) -> made false f ->
  no_links f -> none_fixed f -> atomvals f = seq 0 (valency f) -> exists w B,
  wiki_values_of dlen vdec wdec order f names = inr w /\
  (forall e, zhegalkin (w_zhegalkin w) e = sem f e) /\
  w_zhegalkin_oddness w = (if value f 0 then lit "odd" else lit "even") /\
  (w_vnum w * (2 ^ 2 ^ valency f - 1) = table_number (valency f) f * w_vden w /\ 0 < w_vden w /\ Nat.gcd (w_vnum w) (w_vden w) = 1) /\
  w_vinterval w = (if value f 0 then lit "above-half" else lit "below-half") /\
  (w_wnum w * 2 ^ valency f = true_places (valency f) f * w_wden w /\ 0 < w_wden w /\ Nat.gcd (w_wnum w) (w_wden w) = 1) /\
  w_winterval w = match Nat.compare (2 * true_places (valency f) f) (2 ^ valency f) with Lt => lit "below-half" | Eq => lit "exactly-half" | Gt => lit "above-half" end /\
  w_wnum_big w = true_places (valency f) f /\ w_wden_big w = 2 ^ valency f /\ w_valency w = valency f /\
  classes (valency f) (chained f) B /\ w_number_of_bundles w = length B /\ (w_unibundle_class w = if Nat.eqb (length B) 1 then lit " uni" else []) /\
  w_names_cell w = names.
Proof.
  intros dlen vdec wdec order f names Ho M NL NF A. apply (root_atomvals f M) in A. destruct (row_values dlen vdec wdec order Ho f names M NL NF A) as (w & B & E & EB & H1 & H2 & _ & H3 & H4 & H5 & _ & H6 & H7 & H8 & H9 & _ & H10 & H11 & H12 & H13 & _ & H14 & H15 & H16).
  exists w, B. destruct (C59_bundles order f Ho M) as [HB _]. destruct (HB NL) as (B' & EB' & C & _). assert (B' = B) by congruence. subst B'.
  repeat (split; [first [assumption | split; [assumption | split; assumption]]|]). assumption.
Qed.
Print Assumptions C92_row.

(** the words for the sizes of the fonts and the formatted quotients *)
Theorem C92_formats : forall dlen vdec wdec order f names w, (forall l, Permutation (order l) l) -> made false f ->
  wiki_values_of dlen vdec wdec order f names = inr w ->
  w_zhegalkin_font_size w = (if Nat.leb 31 (dlen (w_zhegalkin w)) then lit "smaller" else if Nat.leb 16 (dlen (w_zhegalkin w)) then lit "small" else []) /\
  w_fraction_font_size w = (let d := Nat.max (dlen (w_vnum w)) (dlen (w_vden w)) in if Nat.leb 31 d then lit "smaller" else if Nat.leb 16 d then lit "small" else []) /\
  w_vdec w = vdec (w_vnum w) (w_vden w) /\ w_wdec w = wdec (w_wnum w) (w_wden w).
Proof.
  intros dlen vdec wdec order f names w Ho M E.
  assert (H : no_links f /\ none_fixed f /\ adicity f = valency f).
  { unfold wiki_values_of in E. destruct (C55_tests order f Ho M) as (a & b & c & _ & _ & Ec & _ & _ & Hc). rewrite Ec in E. cbn [lift_res rbind] in E. destruct c; [|discriminate]. cbn [negb] in E.
    unfold is_root in E. destruct (Nat.eqb_spec (adicity f) (valency f)) as [A|A]; [|discriminate]. destruct (proj1 Hc eq_refl). auto. }
  destruct H as (NL & NF & A). destruct (row_values dlen vdec wdec order Ho f names M NL NF A) as (w' & B & E' & _ & _ & _ & F1 & _ & _ & _ & V & _ & _ & _ & _ & D & _ & _ & _ & _ & F2 & _).
  rewrite E in E'. assert (w' = w) by congruence. subst w'. split; [exact F1|]. split; [|split; assumption]. rewrite F2. cbv zeta.
  assert (K : forall k a b, Nat.ltb k a || Nat.ltb k b = Nat.leb (S k) (Nat.max a b)).
  { intros k a b. unfold Nat.ltb. destruct (Nat.leb_spec (S k) a), (Nat.leb_spec (S k) b), (Nat.leb_spec (S k) (Nat.max a b)); cbn [orb]; try reflexivity; lia. }
  rewrite !K. reflexivity.
Qed.
Print Assumptions C92_formats.

(** functions with blight are rejected; other ones with gaps between the atoms are rejected, too *)
Theorem C92_rejected : forall dlen vdec wdec order f names, (forall l, Permutation (order l) l) -> made false f ->
  (wiki_table_row dlen vdec wdec order f names = inl BlightError <-> ~ (no_links f /\ none_fixed f)) /\
  (wiki_table_row dlen vdec wdec order f names = inl SpreadError <-> no_links f /\ none_fixed f /\ atomvals f <> seq 0 (valency f)) /\
  ((exists t, wiki_table_row dlen vdec wdec order f names = inr t) <-> no_links f /\ none_fixed f /\ atomvals f = seq 0 (valency f)).
Proof.
  intros dlen vdec wdec order f names Ho M. unfold wiki_table_row.
  assert (A := root_atomvals f M).
  destruct (C55_tests order f Ho M) as (a & b & c & _ & _ & Ec & _ & _ & Hc). destruct c.
  - destruct (proj1 Hc eq_refl) as [NL NF]. destruct (Nat.eqb_spec (adicity f) (valency f)) as [E|E].
    + destruct (row_values dlen vdec wdec order Ho f names M NL NF E) as (w & B & -> & _). cbn [rbind]. split; [split; [discriminate|]; intro X; destruct X; auto|]. split; [split; [discriminate|]; intros (_ & _ & X); destruct X; apply A; exact E|]. split; [intros _; apply A in E; auto | intros _; eexists; reflexivity].
    + assert (X : wiki_values_of dlen vdec wdec order f names = inl SpreadError). { unfold wiki_values_of. rewrite Ec. cbn [lift_res rbind negb]. unfold is_root. rewrite (proj2 (Nat.eqb_neq _ _) E). reflexivity. }
      rewrite X. cbn [rbind]. split; [split; [discriminate|]; intro Y; destruct Y; auto|]. split; [split; [|reflexivity]; intros _; split; [exact NL|]; split; [exact NF|]; intro Y; apply E, A, Y|]. split; [intros [t Y]; discriminate | intros (_ & _ & Y); destruct E; apply A, Y].
  - assert (X : wiki_values_of dlen vdec wdec order f names = inl BlightError) by (unfold wiki_values_of; rewrite Ec; reflexivity). rewrite X. cbn [rbind].
    assert (N : ~ (no_links f /\ none_fixed f)) by (intro Y; apply Hc in Y; discriminate). split; [split; [intros _; exact N | reflexivity]|]. split; [split; [discriminate|]; intros (Y1 & Y2 & _); destruct N; auto|]. split; [intros [t Y]; discriminate | intros (Y1 & Y2 & _); destruct N; auto].
Qed.
Print Assumptions C92_rejected.

(** no function is exactly in the middle; the odd Zhegalkin numbers are those of the functions above *)
Theorem C92_half : forall i f, made i f -> exists x z, value_fract f = Ok x /\ boolf_zhe f = Ok z /\
  ~ (x == 1 # 2)%Q /\ ((1 # 2 < x)%Q <-> Nat.odd z = true) /\ ((x < 1 # 2)%Q <-> Nat.odd z = false).
Proof.
  intros i f M. destruct (C82_value_fract i f M) as (x & Ex & Rx & _ & Qx). destruct (boolf_zhe_spec f (m_fit i f M)) as (z & Ez & _ & _ & Sz). exists x, z. split; [exact Ex|]. split; [exact Ez|].
  assert (W : within (adicity f) f) by (apply within_adicity; lia). destruct (reduced_quotient x _ _ (den_pos (adicity f)) Rx (Qx _ W)) as (_ & _ & _ & C & _). rewrite table_number_half in C.
  assert (O := odd_zhe z f Sz). assert (Od : Nat.odd z = value f 0). { rewrite <- Nat.bit0_odd. assert (B := Nat.bit0_mod z). destruct (Nat.testbit z 0), (value f 0); cbn [Nat.b2n negb] in *; rewrite <- B in O; cbn in O; congruence. }
  rewrite Od. assert (Y : (x ?= 1 # 2)%Q = if value f 0 then Gt else Lt) by exact C. destruct (value f 0).
  - assert (G : (1 # 2 < x)%Q) by (apply Qgt_alt; exact Y). split; [intro X; rewrite X in G; apply (Qlt_irrefl _ G)|]. split; [split; auto|]. split; [|discriminate]. intro X. destruct (Qlt_irrefl x). apply (Qlt_trans _ _ _ X G).
  - assert (G : (x < 1 # 2)%Q) by (apply Qlt_alt; exact Y). split; [intro X; rewrite X in G; apply (Qlt_irrefl _ G)|]. split; [|split; auto]. split; [|discriminate]. intro X. destruct (Qlt_irrefl x). apply (Qlt_trans _ _ _ G X).
Qed.
Print Assumptions C92_half.

(** the text of the row tells the function, and the names *)
Theorem C92_text : forall dlen vdec wdec order f g names names' t, (forall l, Permutation (order l) l) -> made false f -> made false g ->
  wiki_table_row dlen vdec wdec order f names = inr t -> wiki_table_row dlen vdec wdec order g names' = inr t -> f = g /\ names = names'.
Proof.
  intros dlen vdec wdec order f g names names' t Ho Mf Mg Ef Eg.
  assert (Rf := proj1 (proj2 (proj2 (C92_rejected dlen vdec wdec order f names Ho Mf))) (ex_intro _ t Ef)). assert (Rg := proj1 (proj2 (proj2 (C92_rejected dlen vdec wdec order g names' Ho Mg))) (ex_intro _ t Eg)).
  destruct Rf as (Lf & Xf & Af), Rg as (Lg & Xg & Ag). apply (root_atomvals f Mf) in Af. apply (root_atomvals g Mg) in Ag.
  destruct (row_values dlen vdec wdec order Ho f names Mf Lf Xf Af) as (w & B & Vf & EB & Zf & Of & Ff & V1 & V2 & V3 & V4 & V5 & W1 & W2 & W3 & W4 & W5 & W6 & W7 & W8 & W9 & N1 & N2 & N3).
  destruct (row_values dlen vdec wdec order Ho g names' Mg Lg Xg Ag) as (w' & B' & Vg & EB' & Zg & Og & Fg & _ & _ & _ & _ & _ & _ & _ & _ & _ & _ & _ & _ & _ & _ & N1' & _).
  unfold wiki_table_row in Ef, Eg. rewrite Vf in Ef. rewrite Vg in Eg. cbn [rbind] in Ef, Eg. injection Ef as Ef. injection Eg as Eg. rewrite <- Eg in Ef. clear Eg.
  assert (Fg' : f = g).
  { unfold wiki_text in Ef. unfold cell at 1 in Ef. unfold cell at 12 in Ef. rewrite <- !app_assoc in Ef. do 3 apply app_inv_head in Ef. do 3 apply app_inv_head in Ef.
    destruct (span_use (Nat.eqb 34) (w_zhegalkin_oddness w ++ lit " " ++ w_zhegalkin_font_size w) (w_zhegalkin_oddness w' ++ lit " " ++ w_zhegalkin_font_size w') _ _ ltac:(rewrite <- !app_assoc; exact Ef)) as [_ E].
    - rewrite Of, Ff. destruct (value f 0), (30 <? dlen (w_zhegalkin w)), (15 <? dlen (w_zhegalkin w)); repeat constructor.
    - rewrite Og, Fg. destruct (value g 0), (30 <? dlen (w_zhegalkin w')), (15 <? dlen (w_zhegalkin w')); repeat constructor.
    - reflexivity.
    - reflexivity.
    - do 2 apply app_inv_head in E. destruct (delim_use _ _ _ _ str_nat_delim _ _ _ _ E I I) as [Ez _]; [reflexivity | reflexivity|].
      apply reduced_unique; [apply m_red; exact Mf | apply m_red; exact Mg|]. intro e. rewrite <- Zf, <- Zg, Ez. reflexivity. }
  split; [exact Fg'|]. subst g. clear - Vf Vg Ef. revert Vf Vg. unfold wiki_values_of. destruct (is_blightless order f) as [[]|]; cbn [lift_res rbind negb]; [|discriminate|discriminate]. destruct (is_root f); cbn [negb]; [|discriminate].
  destruct (value_fract f) as [x|]; cbn [lift_res rbind]; [|discriminate]. destruct (weight_fract f) as [y|]; cbn [lift_res rbind]; [|discriminate].
  destruct (x ?= 1 # 2)%Q; [discriminate| |]; (destruct (boolf_zhe f) as [z|]; cbn [lift_res rbind]; [|discriminate]); (destruct (bundles order f) as [b|]; cbn [lift_res rbind]; [|discriminate]); intros X Y; injection X as <-; injection Y as <-;
    unfold wiki_text, cell in Ef; cbn [w_zhegalkin w_zhegalkin_oddness w_zhegalkin_font_size w_vnum w_vden w_vdec w_vinterval w_wnum w_wden w_wdec w_winterval w_wnum_big w_wden_big w_valency w_fraction_font_size w_names_cell w_number_of_bundles w_unibundle_class] in Ef;
    rewrite <- !app_assoc in Ef; repeat apply app_inv_head in Ef; exact Ef.
Qed.
Print Assumptions C92_text.

(** what is read in the text: the lines of the row, with the class and the content of each cell *)
Fixpoint lines_of (t : text) : list text :=
  match t with
  | [] => [[]]
  | c :: r => if Nat.eqb c 10 then [] :: lines_of r
              else match lines_of r with l :: ls => (c :: l) :: ls | [] => [[c]] end
  end.
Definition one_line (t : text) : Prop := ~ In 10 t.
Definition shown_cell (cls content : text) : text := lit "|class=""" ++ cls ++ lit """| " ++ content.
Definition font (digits : nat) : text := if Nat.leb 31 digits then lit "smaller" else if Nat.leb 16 digits then lit "small" else [].

Lemma lines_one a : one_line a -> lines_of a = [a].
Proof.
  induction a as [|c a IH]; intro H; cbn [lines_of]; [reflexivity|].
  destruct (Nat.eqb_spec c 10) as [->|_]; [destruct H; left; reflexivity|]. rewrite IH; [reflexivity|]. intro X. apply H. right. exact X.
Qed.
Lemma lines_app a b : one_line a -> lines_of (a ++ newline ++ b) = a :: lines_of b.
Proof.
  unfold newline. induction a as [|c a IH]; intro H; cbn [app lines_of] in *; [reflexivity|].
  destruct (Nat.eqb_spec c 10) as [->|_]; [destruct H; left; reflexivity|]. rewrite IH; [reflexivity|]. intro X. apply H. right. exact X.
Qed.
Lemma one_line_app a b : one_line a -> one_line b -> one_line (a ++ b).
Proof. intros Ha Hb X. apply in_app_iff in X as [X|X]; auto. Qed.
Lemma one_line_test a : existsb (Nat.eqb 10) a = false -> one_line a.
Proof. intros H X. assert (E : existsb (Nat.eqb 10) a = true) by (apply existsb_exists; exists 10; auto). congruence. Qed.
Lemma one_line_nat n : one_line (str_nat n).
Proof. intro X. assert (D := str_nat_digits n). rewrite Forall_forall in D. specialize (D 10 X). discriminate. Qed.
Lemma one_line_font n : one_line (font n).
Proof. unfold font. destruct (Nat.leb 31 n); [|destruct (Nat.leb 16 n)]; apply one_line_test; reflexivity. Qed.

Theorem C92_cells : forall dlen vdec wdec order f names t, (forall l, Permutation (order l) l) -> made false f ->
  one_line names -> (forall a b, one_line (vdec a b)) -> (forall a b, one_line (wdec a b)) ->
  wiki_table_row dlen vdec wdec order f names = inr t ->
  exists zhe vnum vden wnum wden B,
    (forall e, zhegalkin zhe e = sem f e) /\
    (vnum * (2 ^ 2 ^ valency f - 1) = table_number (valency f) f * vden /\ Nat.gcd vnum vden = 1) /\
    (wnum * 2 ^ valency f = true_places (valency f) f * wden /\ Nat.gcd wnum wden = 1) /\
    classes (valency f) (chained f) B /\
    lines_of t =
      [ [];
        lit "|-";
        shown_cell (lit "zhegalkin " ++ (if value f 0 then lit "odd" else lit "even") ++ lit " " ++ font (dlen zhe)) (str_nat zhe);
        shown_cell (lit "fraction num " ++ font (Nat.max (dlen vnum) (dlen vden))) (str_nat vnum);
        shown_cell (lit "fraction den " ++ font (Nat.max (dlen vnum) (dlen vden))) (str_nat vden);
        shown_cell (if value f 0 then lit "fraction dec above-half" else lit "fraction dec below-half") (vdec vnum vden);
        shown_cell (lit "weight num reduced") (str_nat wnum);
        shown_cell (lit "weight den reduced") (str_nat wden);
        shown_cell (match Nat.compare (2 * true_places (valency f) f) (2 ^ valency f) with
                    | Lt => lit "weight dec below-half" | Eq => lit "weight dec exactly-half" | Gt => lit "weight dec above-half" end) (wdec wnum wden);
        shown_cell (lit "weight num unreduced") (str_nat (true_places (valency f) f));
        shown_cell (lit "weight den unreduced") (str_nat (2 ^ valency f));
        shown_cell (lit "arity") (str_nat (valency f));
        shown_cell (if Nat.eqb (length B) 1 then lit "bundles uni" else lit "bundles") (str_nat (length B));
        shown_cell (lit "names") names ].
Proof.
  intros dlen vdec wdec order f names t Ho M Ln Lv Lw E.
  assert (R := proj1 (proj2 (proj2 (C92_rejected dlen vdec wdec order f names Ho M))) (ex_intro _ t E)). destruct R as (NL & NF & A).
  destruct (C92_row dlen vdec wdec order f names Ho M NL NF A) as (w & B & Ew & H1 & H2 & (H3 & _ & H4) & H5 & (H6 & _ & H7) & H8 & H9 & H10 & H11 & H12 & H13 & H14 & H15).
  destruct (C92_formats dlen vdec wdec order f names w Ho M Ew) as (F1 & F2 & F3 & F4). cbv zeta in F2.
  unfold wiki_table_row in E. rewrite Ew in E. cbn [rbind] in E. injection E as <-.
  exists (w_zhegalkin w), (w_vnum w), (w_vden w), (w_wnum w), (w_wden w), B.
  split; [exact H1|]. split; [auto|]. split; [auto|]. split; [exact H12|].
  fold (font (dlen (w_zhegalkin w))) in F1. fold (font (Nat.max (dlen (w_vnum w)) (dlen (w_vden w)))) in F2.
  unfold wiki_text. rewrite F1, F2, F3, F4, H2, H5, H8, H9, H10, H11, H13, H14, H15.
  assert (C : forall c x, one_line c -> one_line x -> one_line (cell c x)).
  { intros c x Hc Hx. unfold cell, quote. repeat apply one_line_app; try assumption; apply one_line_test; reflexivity. }
  refine (eq_trans (lines_app [] _ (fun x : In 10 [] => x)) _).
  repeat (rewrite lines_app;
    [|first [apply one_line_test; reflexivity
            | apply C; [repeat apply one_line_app; try apply one_line_font; try (apply one_line_test; reflexivity);
                        repeat match goal with |- context [if ?b then _ else _] => destruct b | |- context [match ?b with Eq => _ | Lt => _ | Gt => _ end] => destruct b end; apply one_line_test; reflexivity
                       | first [apply one_line_nat | apply Lv | apply Lw]]]]).
  rewrite lines_one by (apply C; [apply one_line_test; reflexivity | exact Ln]).
  unfold shown_cell, cell, quote.
  repeat match goal with |- context [if ?b then _ else _] => destruct b | |- context [match ?b with Eq => _ | Lt => _ | Gt => _ end] => destruct b end; reflexivity.
Qed.
Print Assumptions C92_cells.

(** the majority of three atoms; its row; the same with a gap between the atoms; a conjunction *)
Example C92_ex : exists f g h, Boolf_vec [false; false; false; true; false; true; true; true] [0; 1; 2] = Ok f /\ made false f /\ no_links f /\ none_fixed f /\ atomvals f = seq 0 (valency f) /\
  (let w := mkWiki 104 (lit "even") [] 23 255 (lit "v") (lit "below-half") 1 2 (lit "w") (lit "exactly-half") 4 8 3 [] (lit "maj") 3 [] in
   wiki_values_of (fun n => length (str_nat n)) (fun _ _ => lit "v") (fun _ _ => lit "w") (fun l => l) f (lit "maj") = inr w /\
   firstn 37 (wiki_text w) = newline ++ lit "|-" ++ newline ++ lit "|class=" ++ quote ++ lit "zhegalkin even " ++ quote ++ lit "| 104" ++ newline ++ lit "|cl") /\
  Boolf_vec [false; false; false; true; false; true; true; true] [0; 1; 3] = Ok g /\ made false g /\
  wiki_table_row (fun _ => 1) (fun _ _ => []) (fun _ _ => []) (fun l => l) g [] = inl SpreadError /\
  Boolf_vec [false; false; false; true] [0; 1] = Ok h /\ made false h /\
  wiki_table_row (fun _ => 1) (fun _ _ => []) (fun _ _ => []) (fun l => l) h [] = inl BlightError.
Proof.
  destruct (Boolf_vec_sorted [false; false; false; true; false; true; true; true] [0; 1; 2]) as (f & E & R & _); [repeat constructor | reflexivity|].
  destruct (Boolf_vec_sorted [false; false; false; true; false; true; true; true] [0; 1; 3]) as (g & Eg & Rg & _); [repeat constructor | reflexivity|].
  destruct (Boolf_vec_sorted [false; false; false; true] [0; 1]) as (h & Eh & Rh & _); [repeat constructor | reflexivity|].
  assert (M := reduced_made f R). destruct (C55_tests (fun l => l) f (fun l => Permutation_refl l) M) as (a & b & c & _ & _ & Ec & _ & _ & Hc).
  exists f, g, h. split; [exact E|]. split; [exact M|]. vm_compute in E. injection E as <-. vm_compute in Ec. injection Ec as <-. destruct (proj1 Hc eq_refl) as [H1 H2]. split; [exact H1|]. split; [exact H2|]. split; [reflexivity|].
  split; [vm_compute; auto|]. split; [exact Eg|]. split; [apply reduced_made; exact Rg|]. vm_compute in Eg. injection Eg as <-. split; [vm_compute; reflexivity|].
  split; [exact Eh|]. split; [apply reduced_made; exact Rh|]. vm_compute in Eh. injection Eh as <-. vm_compute. reflexivity.
Qed.
