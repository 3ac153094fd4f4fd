(** Proof_SvgPath: the outlines that bin2svg writes are all outlines, each once. *)

From Coq Require Import String Ascii.
From Coq Require Import List Arith ZArith Bool Lia Permutation Sorted.
From Verif Require Import Model_Base Lib Model_Str Model_Svg Spec_Svg Proof_PermMore Proof_Svg Proof_SvgLoop.
Import ListNotations Model_Str.
Local Open Scope Z_scope.

Section Path.
Context (M : Z -> Z -> bool) (H W : nat) (M_range : forall i j, M i j = true -> 0 <= i < Z.of_nat H /\ 0 <= j < Z.of_nat W).

Lemma point_dec (p q : point) : p = q \/ p <> q.
Proof. destruct (point_eqb p q) eqn:X; [left; apply point_eqb_ok, X | right; intro Y; apply point_eqb_ok in Y; congruence]. Qed.

(** where an outline begins *)
Lemma start_spec V (s : point) : closed M V -> (forall q, inr H W q -> before q s -> value_left M (unv V) q = 0) -> value_left M (unv V) s <> 0 ->
  exists d0, turning M (s, d0) = true /\ ~ In (s, d0) V /\ 1 <= value_left M (unv V) s <= 8 /\ forall d, turning M (s, d) = true -> d = d0 \/ In (s, d) V.
Proof.
  intros CV Z0 Nz.
  assert (Key : forall d, turning M (s, d) = true -> ~ In (s, d) V -> d <> DU /\ d <> DL /\ came_by M s d <> DR /\ came_by M s d <> DD).
  { intros d T F. assert (E := turning_edge M _ T). destruct (run M H W M_range s d E) as (t & L1 & L2 & C & _ & Tf & _ & Rf).
    assert (Fn : ~ before (far s d t) s).
    { intro B. assert (X := Z0 _ Rf B). apply (left_zero M) with (d := turn_to M (far s d t) d) in X; [|exact Tf]. apply unv_false in X. apply F. apply (proj1 (chain_closed M V _ _ _ CV E C)). exact X. }
    destruct (pred_edge M _ E) as (E1 & E2). unfold pred in E1, E2. cbn [fst snd] in E1, E2. set (c := came_by M s d) in *. destruct (run_back M H W M_range _ _ E1) as (p & t' & P1 & P2 & P3).
    assert (Ep := turning_edge M _ P2). assert (Fb : ~ before p s).
    { intro B. assert (X := Z0 p (proj1 (edge_range M H W M_range _ _ Ep)) B). apply (left_zero M) with (d := c) in X; [|exact P2]. apply unv_false in X. apply F. rewrite <- E2. apply (CV _ E1). apply (proj1 (chain_closed M V _ _ _ CV Ep P3)). exact X. }
    rewrite far_spec in Fn. assert (Es := back_on s c). rewrite P1, far_spec in Es. unfold before in Fn, Fb. unfold move_on in Es. destruct s as [r k], p as [r' k']. cbn [fst snd] in *. injection Es as Es1 Es2.
    split; [|split; [|split]]; intro X; rewrite X in *; cbn [delta fst snd] in *; lia. }
  assert (Ex : exists d0, turning M (s, d0) = true /\ ~ In (s, d0) V).
  { assert (A : forall d, (turning M (s, d) = true /\ ~ In (s, d) V) \/ (turning M (s, d) = true -> unv V (s, d) = false)).
    { intro d. destruct (unv V (s, d)) eqn:U; [|right; auto]. apply unv_true in U. destruct (turning M (s, d)) eqn:T; [left; auto | right; discriminate]. }
    destruct (A DR) as [X|X1]; [eauto|]. destruct (A DD) as [X|X2]; [eauto|]. destruct (A DL) as [X|X3]; [eauto|]. destruct (A DU) as [X|X4]; [eauto|]. exfalso. apply Nz. apply left_zero. intros [] T; auto. }
  destruct Ex as (d0 & T0 & F0). exists d0. split; [exact T0|]. split; [exact F0|]. destruct (Key d0 T0 F0) as (K1 & K2 & K3 & K4). assert (U0 := proj2 (unv_true V _) F0).
  assert (T0' := T0). apply value_turning in T0' as [Nv T0']. unfold value_left in *. cbn zeta in *. rewrite (proj2 (Z.eqb_neq _ _) Nv) in *. assert (Vr := value_range M s).
  destruct (value_at M s =? 13) eqn:E13; [|destruct (value_at M s =? 24) eqn:E24].
  - destruct T0' as [-> | ->]; [|contradiction]. assert (T1 : turning M (s, DL) = true) by (apply value_turning; rewrite E13; auto). assert (UL : unv V (s, DL) = false).
    { destruct (unv V (s, DL)) eqn:UL; [|reflexivity]. apply unv_true in UL. destruct (Key DL T1 UL) as (_ & X & _). contradiction. }
    rewrite U0, UL. split; [lia|]. intros d T. apply value_turning in T as [_ T]. rewrite E13 in T. destruct T as [-> | ->]; [left; reflexivity | right; apply unv_false, UL].
  - exfalso. destruct T0' as [-> | ->]; [|contradiction]. apply K3. unfold came_by. apply Z.eqb_eq in E24. unfold value_at, corner_value in E24. destruct (nw M s), (ne M s), (sw M s), (se M s); try discriminate E24. reflexivity.
  - rewrite <- T0', U0. apply Z.eqb_neq in E13, E24. split; [lia|]. intros d T. apply value_turning in T as [_ T]. rewrite (proj2 (Z.eqb_neq _ _) E13), (proj2 (Z.eqb_neq _ _) E24) in T. left. rewrite T0'. exact T.
Qed.

Lemma finder_spec cs U : holds M H W cs U -> forall fuel look, inr H W look -> (forall q, inr H W q -> before q look -> value_left M U q = 0) ->
  (Z.of_nat H - fst look) * (Z.of_nat W + 1) + (Z.of_nat W + 1 - snd look) <= Z.of_nat fuel ->
  match cornerfinder fuel (H + 1) (W + 1) cs look with
  | Ok None => forall q, inr H W q -> value_left M U q = 0
  | Ok (Some (s, v)) => inr H W s /\ v = value_left M U s /\ v <> 0 /\ ~ before s look /\ forall q, inr H W q -> before q s -> value_left M U q = 0
  | Err _ => False
  end.
Proof.
  intros [Sh Hg]. induction fuel as [|fuel IH]; intros look R B F; cbn [cornerfinder].
  - destruct R as [R1 R2]. nia.
  - rewrite (Hg look R). cbn [bind]. destruct (value_left M U look =? 0) eqn:E.
    + apply Z.eqb_eq in E. destruct (snd look <? Z.of_nat (W + 1) - 1) eqn:E1; [|destruct ((snd look =? Z.of_nat (W + 1) - 1) && (fst look <? Z.of_nat (H + 1) - 1)) eqn:E2].
      * apply Z.ltb_lt in E1. assert (G : match cornerfinder fuel (H + 1) (W + 1) cs (fst look, snd look + 1) with
          | Ok None => forall q, inr H W q -> value_left M U q = 0
          | Ok (Some (s, v)) => inr H W s /\ v = value_left M U s /\ v <> 0 /\ ~ before s (fst look, snd look + 1) /\ forall q, inr H W q -> before q s -> value_left M U q = 0
          | Err _ => False end).
        { apply IH; [unfold inr in *; cbn [fst snd]; lia | | cbn [fst snd]; lia]. intros q Rq Bq. destruct (point_dec q look) as [->|Nq]; [exact E|]. apply (B q Rq). unfold before in *. cbn [fst snd] in *. destruct q as [a b], look as [c d]. cbn [fst snd] in *.
          assert (a < c \/ (a = c /\ b < d) \/ (a = c /\ b = d)) as [X|[X|[-> ->]]] by lia; [left; exact X | right; exact X | contradiction]. }
        destruct (cornerfinder fuel _ _ _ _) as [[[s v]|]|]; try exact G. destruct G as (G1 & G2 & G3 & G4 & G5). split; [exact G1|]. split; [exact G2|]. split; [exact G3|]. split; [|exact G5]. unfold before in *. cbn [fst snd] in *. lia.
      * apply andb_true_iff in E2 as [E2 E3]. apply Z.eqb_eq in E2. apply Z.ltb_lt in E3. assert (G : match cornerfinder fuel (H + 1) (W + 1) cs (fst look + 1, 0) with
          | Ok None => forall q, inr H W q -> value_left M U q = 0
          | Ok (Some (s, v)) => inr H W s /\ v = value_left M U s /\ v <> 0 /\ ~ before s (fst look + 1, 0) /\ forall q, inr H W q -> before q s -> value_left M U q = 0
          | Err _ => False end).
        { apply IH; [unfold inr in *; cbn [fst snd]; lia | | cbn [fst snd]; nia]. intros q Rq Bq. destruct (point_dec q look) as [->|Nq]; [exact E|]. apply (B q Rq). unfold before, inr in *. destruct q as [a b], look as [c d]. cbn [fst snd] in *.
          assert (a < c \/ (a = c /\ b < d) \/ (a = c /\ b = d)) as [X|[X|[-> ->]]] by lia; [left; exact X | right; exact X | contradiction]. }
        destruct (cornerfinder fuel _ _ _ _) as [[[s v]|]|]; try exact G. destruct G as (G1 & G2 & G3 & G4 & G5). split; [exact G1|]. split; [exact G2|]. split; [exact G3|]. split; [|exact G5]. unfold before, inr in *. cbn [fst snd] in *. lia.
      * intros q Rq. destruct (point_dec q look) as [->|Nq]; [exact E|]. apply (B q Rq). apply Z.ltb_ge in E1. apply andb_false_iff in E2. unfold before, inr in *. destruct q as [a b], look as [c d]. cbn [fst snd] in *.
        assert (d = Z.of_nat W) by lia. assert (c = Z.of_nat H) by (destruct E2 as [E2|E2]; [apply Z.eqb_neq in E2; lia | apply Z.ltb_ge in E2; lia]).
        assert (a < c \/ (a = c /\ b < d) \/ (a = c /\ b = d)) as [X|[X|[-> ->]]] by lia; [left; exact X | right; exact X | contradiction].
    + apply Z.eqb_neq in E. split; [exact R|]. split; [reflexivity|]. split; [exact E|]. split; [|exact B]. unfold before. lia.
Qed.

(** an outline: the beginning, the runs that are written, and the last run *)
Definition outline := (point * list (dir * nat) * (dir * nat))%type.
Definition o_start (o : outline) : point := fst (fst o).
Definition o_runs (o : outline) : list (dir * nat) := snd (fst o) ++ [snd o].
Definition o_edges (o : outline) : list edge_t := expand (o_start o) (o_runs o).
Definition o_polygon (o : outline) : polygon := (o_start o, map to_move (snd (fst o))).
Definition good (o : outline) : Prop :=
  exists d0, turning M (o_start o, d0) = true /\ chain M (o_start o, d0) (o_edges o) (o_start o, d0) /\ linked d0 (o_runs o) /\
    filter (turning M) (o_edges o) = heads (o_start o) (o_runs o) /\ came_by M (o_start o) d0 = fst (snd o).

Lemma svg_spec : forall fuel cs V (p : point) path, closed M V -> NoDup V -> (forall e, In e V -> edge M e = true) -> holds M H W cs (unv V) -> inr H W p ->
  (forall q, inr H W q -> before q p -> value_left M (unv V) q = 0) -> (4 * ((H + 1) * (W + 1)) + 1 <= fuel + length V)%nat ->
  exists os, svg_loop fuel (4 * ((H + 1) * (W + 1)) + 1) (H + W + 1) ((H + 1) * (W + 1)) (H + 1) (W + 1) cs p path = Ok (path ++ path_text (map o_polygon os)) /\
    Forall good os /\ NoDup (V ++ flat_map o_edges os) /\ (forall e, In e (flat_map o_edges os) -> edge M e = true) /\ (forall e, edge M e = true -> In e (V ++ flat_map o_edges os)) /\
    StronglySorted before (map o_start os) /\ Forall (fun o => ~ before (o_start o) p /\ exists d, turning M (o_start o, d) = true /\ ~ In (o_start o, d) V) os.
Proof.
  induction fuel as [|fuel IH]; intros cs V p path CV NV EV Hh Rp B Hf.
  - exfalso. assert (X := edges_bound M H W M_range V NV EV). lia.
  - cbn [svg_loop]. assert (F := finder_spec cs (unv V) Hh ((H + 1) * (W + 1)) p Rp B). destruct (cornerfinder _ _ _ _ _) as [[[s v]|]|]; [| |exfalso; apply F; unfold inr in Rp; nia].
    + destruct F as (Rs & Ev & Nv & Ns & Bs); [unfold inr in Rp; nia|]. cbn [bind]. rewrite Ev in Nv. destruct (start_spec V s CV Bs Nv) as (d0 & T0 & F0 & R0 & U0).
      assert (E0 := turning_edge M _ T0).
      destruct (loop_spec M H W M_range V s d0 CV T0 F0 U0 (4 * ((H + 1) * (W + 1)) + 1) cs s d0 [] None (lit "M" ++ str_int (snd s) ++ lit "," ++ str_int (fst s))) as (rs & d1 & t1 & cs' & Q1 & Q2 & Q3 & Q4 & Q5 & Q6 & Q7).
      * reflexivity.
      * constructor.
      * exact T0.
      * intros [].
      * rewrite app_nil_r. exact Hh.
      * left. rewrite app_nil_r. exact R0.
      * lia.
      * cbn zeta in *. rewrite app_nil_r in Q1. cbn [app] in Q3, Q4. set (o := (s, rs, (d1, t1)) : outline). set (L := expand s (rs ++ [(d1, t1)])) in *. change L with (o_edges o) in *.
        assert (NL : o_edges o <> []). { unfold o_edges, o_runs, o, o_start, L. cbn [fst snd]. destruct rs as [|r rs']; cbn [app linked expand] in Q5 |- *; destruct Q5 as (_ & Q5 & _); [destruct t1 | destruct r as [dr tr]; cbn [fst snd] in *; destruct tr]; try (cbn [fst snd] in *; lia); cbn; discriminate. }
        assert (EL := proj1 (chain_edges M _ _ _ E0 Q2)). assert (CL := closed_loop M _ _ E0 Q2 NL).
        assert (FL : forall x, In x (o_edges o) -> ~ In x V) by (intros x Hx X; apply F0; apply (proj2 (chain_closed M V _ _ _ CV E0 Q2) x Hx); exact X).
        assert (CV' : closed M (V ++ o_edges o)). { intros e He. rewrite !in_app_iff. assert (X := CV e He). assert (Y := CL e He). tauto. }
        assert (I0 : In (s, d0) (o_edges o)). { destruct (chain_nth M _ _ _ Q2) as [_ C2]. apply (nth_error_In (o_edges o) 0). rewrite C2; [reflexivity|]. destruct (o_edges o); [contradiction | cbn; lia]. }
        unfold step. rewrite Ev, Q1. cbn [bind fst snd].
        destruct (IH cs' (V ++ o_edges o) s (path ++ (lit "M" ++ str_int (snd s) ++ lit "," ++ str_int (fst s)) ++ List.concat (map move_text (map to_move rs)))) as (os & P1 & P2 & P3 & P4 & P5 & P6 & P7).
        -- exact CV'.
        -- apply NoDup_app_intro; [exact NV | exact Q3 | intros x Hx X; exact (FL x X Hx)].
        -- intros e He. apply in_app_or in He as [He|He]; [apply EV, He | apply EL, He].
        -- exact Q4.
        -- exact Rs.
        -- intros q Rq Bq. assert (X := proj1 (left_zero M _ _) (Bs q Rq Bq)). apply left_zero. intros d T. apply unv_false. apply in_or_app. left. apply unv_false, X, T.
        -- rewrite app_length. destruct (o_edges o); [contradiction | cbn [length]; lia].
        -- exists (o :: os). cbn [map flat_map]. split; [|split; [|split; [|split; [|split; [|split]]]]].
           ++ rewrite P1. f_equal. unfold path_text. cbn [map List.concat]. unfold polygon_text at 2. unfold o_polygon at 2 3 4, o_start, o. cbn [fst snd]. rewrite !app_assoc. reflexivity.
           ++ constructor; [|exact P2]. exists d0. unfold o_start, o_runs, o. cbn [fst snd]. split; [exact T0|]. split; [exact Q2|]. split; [exact Q5|]. split; [exact Q6 | exact Q7].
           ++ rewrite app_assoc. exact P3.
           ++ intros e He. apply in_app_or in He as [He|He]; [apply EL, He | apply P4, He].
           ++ intros e He. rewrite app_assoc. apply P5, He.
           ++ constructor; [exact P6|]. apply Forall_forall. intros s' Hs'. apply in_map_iff in Hs' as (o' & <- & Ho'). rewrite Forall_forall in P7. destruct (P7 o' Ho') as (X & d & Y1 & Y2). unfold o_start in X |- *. unfold o at 1. cbn [fst snd].
              destruct (point_dec (fst (fst o')) s) as [Es|Nes].
              ** exfalso. apply Y2. unfold o_start in Y1 |- *. rewrite Es in Y1 |- *. apply in_or_app. destruct (U0 d Y1) as [-> | Z0]; [right; exact I0 | left; exact Z0].
              ** clear - X Nes. unfold before in *. destruct s as [a b], (fst (fst o')) as [c d]. cbn [fst snd] in *. destruct (Z.lt_trichotomy a c) as [L|[L|L]]; [left; exact L | | exfalso; apply X; left; exact L]. right. split; [exact L|].
                 destruct (Z.lt_trichotomy b d) as [L'|[L'|L']]; [exact L' | exfalso; apply Nes; subst; reflexivity | exfalso; apply X; right; split; [symmetry; exact L | exact L']].
           ++ constructor; [split; [exact Ns | exists d0; split; [exact T0 | exact F0]]|]. rewrite Forall_forall in P7 |- *. intros o' Ho'. destruct (P7 o' Ho') as (X & d & Y1 & Y2). split; [|exists d; split; [exact Y1 | intro Z0; apply Y2, in_or_app; left; exact Z0]].
              clear - X Ns. unfold before in *. lia.
    + exists []. cbn [map flat_map path_text bind]. unfold path_text. cbn [map List.concat]. rewrite !app_nil_r. split; [reflexivity|]. split; [constructor|]. split; [exact NV|]. split; [intros e []|]. split; [|split; constructor].
      intros [q d] E. destruct (run_back M H W M_range q d E) as (p' & t & P1 & P2 & P3). assert (Ep := turning_edge M _ P2). apply (proj1 (chain_closed M V _ _ _ CV Ep P3)).
      apply unv_false. apply (left_zero M (unv V) p'); [|exact P2]. apply F; [unfold inr in Rp; nia|]. apply (edge_range M H W M_range _ _ Ep).
Qed.
End Path.
