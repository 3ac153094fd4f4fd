(** Proof_BinvText: texts of binary vectors, signs. *)

From Coq Require Import String Ascii List Arith ZArith Bool Lia Permutation.
From Verif Require Import Model_Base Model_Binary Model_Perm Model_SetPart Model_Misc Model_Str Model_BinvText Spec_BinvText Proof_Str.
Import ListNotations Model_Str.
Local Open Scope nat_scope.

(** * replace *)
Lemma repl_other old new c s : old <> [] -> hd 0 old <> c -> replace_from old new 0 (c :: s) = c :: replace_from old new 0 s.
Proof. destruct old as [|o old]; [contradiction|]. intros _ H. cbn [replace_from prefix hd] in *. destruct (Nat.eqb_spec o c) as [E|E]; [contradiction | reflexivity]. Qed.
Lemma repl_copy old new a s : old <> [] -> Forall (fun c => hd 0 old <> c) a -> replace_from old new 0 (a ++ s) = a ++ replace_from old new 0 s.
Proof. intros Ho F. induction F as [|c a Hc F IH]; [reflexivity|]. cbn [app]. rewrite repl_other by assumption. rewrite IH. reflexivity. Qed.
Lemma prefix_app old s : prefix old (old ++ s) = true.
Proof. induction old as [|c old IH]; [destruct s; reflexivity|]. cbn [app prefix]. rewrite Nat.eqb_refl. exact IH. Qed.
Lemma repl_skip old new a s : replace_from old new (length a) (a ++ s) = replace_from old new 0 s.
Proof. induction a as [|c a IH]; [reflexivity|]. cbn [app length replace_from]. exact IH. Qed.
Lemma repl_hit old new s : old <> [] -> replace_from old new 0 (old ++ s) = new ++ replace_from old new 0 s.
Proof.
  destruct old as [|o old]; [contradiction|]. intros _. assert (P := prefix_app (o :: old) s). cbn [app] in P |- *.
  change (replace_from (o :: old) new 0 (o :: old ++ s)) with (if prefix (o :: old) (o :: old ++ s) then new ++ replace_from (o :: old) new (length (o :: old) - 1) (old ++ s) else o :: replace_from (o :: old) new 0 (old ++ s)).
  rewrite P. f_equal. cbn [length]. rewrite Nat.sub_succ, Nat.sub_0_r. apply repl_skip.
Qed.
Lemma replace_space s : replace (lit " ") [] s = unspaced s.
Proof.
  unfold replace, unspaced. induction s as [|c s IH]; [reflexivity|]. cbn [filter]. destruct (Nat.eqb_spec c 32) as [->|N].
  - cbn [negb]. change (32 :: s) with (lit " " ++ s). rewrite repl_hit by discriminate. exact IH.
  - cbn [negb]. rewrite repl_other; [rewrite IH; reflexivity | discriminate | cbn; lia].
Qed.

(** * nested containers *)
Section Ind.
Variable P : nested -> Prop.
Hypothesis Pint : forall z, P (NInt z).
Hypothesis Pbool : forall b, P (NBool b).
Hypothesis Pnone : P NNone.
Hypothesis Plist : forall l, Forall P l -> P (NList l).
Hypothesis Ptuple : forall l, Forall P l -> P (NTuple l).
Hypothesis Pdict : forall l, Forall (fun kv => P (fst kv) /\ P (snd kv)) l -> P (NDict l).
Fixpoint nested_rec' (t : nested) : P t :=
  match t with
  | NInt z => Pint z | NBool b => Pbool b | NNone => Pnone
  | NList l => Plist l ((fix go l := match l return Forall P l with [] => Forall_nil P | e :: l' => Forall_cons e (nested_rec' e) (go l') end) l)
  | NTuple l => Ptuple l ((fix go l := match l return Forall P l with [] => Forall_nil P | e :: l' => Forall_cons e (nested_rec' e) (go l') end) l)
  | NDict l => Pdict l ((fix go l := match l return Forall (fun kv => P (fst kv) /\ P (snd kv)) l with [] => Forall_nil _ | e :: l' => Forall_cons e (conj (nested_rec' (fst e)) (nested_rec' (snd e))) (go l') end) l)
  end.
End Ind.

(* texts of nested containers with given texts of the leaves *)
Section Show.
Variables (int : Z -> text) (tr fa : text).
Fixpoint show (t : nested) : text :=
  match t with
  | NInt z => int z
  | NBool b => if b then tr else fa
  | NNone => lit "None"
  | NList l => str_list (map show l)
  | NTuple [e] => lit "(" ++ show e ++ lit ",)"
  | NTuple l => lit "(" ++ join_texts (map show l) ++ lit ")"
  | NDict l => lit "{" ++ join_texts (map (fun kv => show (fst kv) ++ lit ": " ++ show (snd kv)) l) ++ lit "}"
  end.
End Show.
Lemma str_show t : str_nested t = show str_int (lit "True") (lit "False") t.
Proof. reflexivity. Qed.
Lemma signed_show t : signed_nested t = show signed_int [96 * 100 + 79] [96 * 100 + 75] t.
Proof. reflexivity. Qed.

Definition lastc (c : nat) (s : text) : nat := fold_left (fun _ x => x) s c.
Lemma lastc_app c a b : lastc c (a ++ b) = lastc (lastc c a) b.
Proof. apply fold_left_app. Qed.
Definition calm (c : nat) : bool := negb (figure c) && negb (Nat.eqb c 45).
Definition plain_char (c : nat) : bool := existsb (Nat.eqb c) (lit "[](){},: None").

(* a transformation from left to right *)
Section Walk.
Variables (G : nat -> text -> text) (int1 int2 : Z -> text) (tr1 fa1 tr2 fa2 : text).
Hypothesis Hplain : forall c s rest, forallb plain_char s = true -> G c (s ++ rest) = s ++ G (lastc c s) rest.
Hypothesis Hint : forall c z rest, calm c = true -> G c (int1 z ++ rest) = int2 z ++ G (lastc c (int1 z)) rest.
Hypothesis Htr : forall c rest, calm c = true -> G c (tr1 ++ rest) = tr2 ++ G (lastc c tr1) rest.
Hypothesis Hfa : forall c rest, calm c = true -> G c (fa1 ++ rest) = fa2 ++ G (lastc c fa1) rest.
Let s1 := show int1 tr1 fa1.
Let s2 := show int2 tr2 fa2.
Definition walks (a b : text) : Prop := forall c rest, calm c = true -> G c (a ++ rest) = b ++ G (lastc c a) rest.
Lemma walks_join {A} (f g : A -> text) l : Forall (fun e => walks (f e) (g e)) l -> walks (join_texts (map f l)) (join_texts (map g l)).
Proof.
  intros F. induction F as [|e l He F IH]; intros c rest Hc; [reflexivity|]. destruct l as [|e' l]; [apply He, Hc|]. assert (J : forall h : A -> text, join_texts (map h (e :: e' :: l)) = h e ++ lit ", " ++ join_texts (map h (e' :: l))) by reflexivity.
  rewrite !J. rewrite <- !app_assoc. rewrite He by exact Hc. rewrite Hplain by reflexivity. rewrite IH by reflexivity. rewrite !lastc_app. rewrite <- ?app_assoc. reflexivity.
Qed.
Lemma walk t : walks (s1 t) (s2 t).
Proof.
  induction t as [z|b| |l IH|l IH|l IH] using nested_rec'; intros c rest Hc; unfold s1, s2 in *.
  - apply Hint, Hc.
  - destruct b; [apply Htr, Hc | apply Hfa, Hc].
  - apply Hplain. reflexivity.
  - cbn [show]. unfold str_list. rewrite <- !app_assoc. rewrite Hplain by reflexivity. rewrite (walks_join _ _ l IH) by reflexivity. rewrite Hplain by reflexivity. rewrite !lastc_app, <- ?app_assoc. reflexivity.
  - destruct l as [|e [|e' l]].
    + cbn [show map join_texts app]. apply Hplain. reflexivity.
    + cbn [show]. rewrite <- !app_assoc. rewrite Hplain by reflexivity. inversion IH as [|? ? He _]; subst. rewrite He by reflexivity. rewrite Hplain by reflexivity. rewrite !lastc_app, <- ?app_assoc. reflexivity.
    + remember (e :: e' :: l) as L eqn:EL. assert (S : forall i a b, show i a b (NTuple L) = lit "(" ++ join_texts (map (show i a b) L) ++ lit ")") by (intros; rewrite EL; reflexivity). rewrite !S.
      rewrite <- !app_assoc. rewrite Hplain by reflexivity. rewrite (walks_join _ _ L IH) by reflexivity. rewrite Hplain by reflexivity. rewrite !lastc_app, <- ?app_assoc. reflexivity.
  - cbn [show]. rewrite <- !app_assoc. rewrite Hplain by reflexivity. rewrite (walks_join _ (fun kv => show int2 tr2 fa2 (fst kv) ++ lit ": " ++ show int2 tr2 fa2 (snd kv)) l); [|clear -IH Hplain|reflexivity].
    + rewrite Hplain by reflexivity. rewrite !lastc_app, <- ?app_assoc. reflexivity.
    + induction IH as [|[k v] l [Hk Hv] IH IH2]; constructor; [|exact IH2]. intros c rest Hc. cbn [fst snd] in *. rewrite <- !app_assoc. rewrite Hk by exact Hc. rewrite Hplain by reflexivity. rewrite Hv by reflexivity. rewrite !lastc_app, <- ?app_assoc. reflexivity.
Qed.
End Walk.

Lemma plain_no s c : forallb plain_char s = true -> plain_char c = false -> Forall (fun d => c <> d) s.
Proof. intros H Hc. apply Forall_forall. intros d Hd E. subst d. rewrite forallb_forall in H. rewrite (H c Hd) in Hc. discriminate. Qed.
Lemma digits_no s c : Forall (fun d => nodigit d = false) s -> nodigit c = true -> Forall (fun d => c <> d) s.
Proof. intros H Hc. eapply Forall_impl; [|exact H]. intros d Hd E. subst d. congruence. Qed.
Lemma int_no z c : nodigit c = true -> c <> 45 -> Forall (fun d => c <> d) (str_int z).
Proof. intros Hc Hm. unfold str_int. destruct (Z.ltb z 0); [|apply digits_no; [apply str_nat_digits | exact Hc]]. constructor; [exact Hm|]. apply digits_no; [apply str_nat_digits | exact Hc]. Qed.
Lemma signs_copy s c rest : Forall (fun d => figure d = false) s -> signs_loop c (s ++ rest) = s ++ signs_loop (lastc c s) rest.
Proof. intro F. revert c. induction F as [|d s Hd F IH]; intro c; [reflexivity|]. cbn [app signs_loop lastc fold_left]. rewrite Hd. cbn [andb app]. rewrite IH. reflexivity. Qed.
Lemma signs_run s c rest : calm c = false -> Forall (fun d => nodigit d = false) s -> signs_loop c (s ++ rest) = s ++ signs_loop (lastc c s) rest.
Proof.
  intros Hc F. revert c Hc. induction F as [|d s Hd F IH]; intros c Hc; [reflexivity|]. cbn [app signs_loop lastc fold_left]. unfold calm in Hc. rewrite Hc, andb_false_r. cbn [app]. rewrite IH; [reflexivity|]. unfold calm. assert (X : figure d = true) by (unfold nodigit in Hd; apply negb_false_iff in Hd; exact Hd). rewrite X. reflexivity.
Qed.
Lemma signs_int c z rest : calm c = true -> signs_loop c (str_int z ++ rest) = signed_int z ++ signs_loop (lastc c (str_int z)) rest.
Proof.
  intro Hc. unfold str_int, signed_int. destruct (Z.ltb_spec z 0) as [L|L].
  - replace (Z.abs_nat z) with (Z.to_nat (- z)) by lia. rewrite <- app_assoc. rewrite signs_copy by (repeat constructor). rewrite signs_run; [|reflexivity | apply str_nat_digits]. rewrite lastc_app, <- app_assoc. reflexivity.
  - replace (Z.abs_nat z) with (Z.to_nat z) by lia. assert (D := str_nat_digits (Z.to_nat z)). destruct (str_nat_head (Z.to_nat z)) as (d & r & E & Hd). rewrite E in D |- *. inversion D as [|? ? _ Dr]; subst. assert (X : figure d = true) by (unfold nodigit in Hd; apply negb_false_iff in Hd; exact Hd).
    cbn [app signs_loop lastc fold_left]. unfold calm in Hc. rewrite X, Hc. cbn [andb]. rewrite <- app_assoc. cbn [app]. do 2 f_equal. apply signs_run; [|exact Dr]. unfold calm. rewrite X. reflexivity.
Qed.
Lemma figure_no s : forallb plain_char s = true -> Forall (fun d => figure d = false) s.
Proof.
  intro H. apply Forall_forall. intros d Hd. rewrite forallb_forall in H. specialize (H d Hd). unfold plain_char in H. apply existsb_exists in H as (e & He & E). apply Nat.eqb_eq in E. subst e. cbn in He. repeat (destruct He as [<-|He]; [reflexivity|]). contradiction.
Qed.

Lemma pretty_signs_spec t : pretty_signs t = signed_nested t.
Proof.
  unfold pretty_signs, pretty_signs_text, replace. rewrite str_show, signed_show.
  assert (W1 := walk (fun _ => replace_from (lit "True") [black_circle] 0) str_int str_int (lit "True") (lit "False") [black_circle] (lit "False")).
  assert (W2 := walk (fun _ => replace_from (lit "False") [white_circle] 0) str_int str_int [black_circle] (lit "False") [black_circle] [white_circle]).
  assert (W3 := walk signs_loop str_int signed_int [black_circle] [white_circle] [black_circle] [white_circle]).
  assert (E1 : replace_from (lit "True") [black_circle] 0 (show str_int (lit "True") (lit "False") t) = show str_int [black_circle] (lit "False") t).
  { rewrite <- (app_nil_r (show str_int (lit "True") (lit "False") t)), <- (app_nil_r (show str_int [black_circle] _ t)). apply (W1) with (c := 32); try reflexivity.
    - intros _ s rest H. apply repl_copy; [discriminate|]. apply plain_no; [exact H | reflexivity].
    - intros _ z rest _. apply repl_copy; [discriminate|]. apply int_no; [reflexivity | discriminate]. }
  assert (E2 : replace_from (lit "False") [white_circle] 0 (show str_int [black_circle] (lit "False") t) = show str_int [black_circle] [white_circle] t).
  { rewrite <- (app_nil_r (show str_int [black_circle] (lit "False") t)), <- (app_nil_r (show str_int [black_circle] [white_circle] t)). apply (W2) with (c := 32); try reflexivity.
    - intros _ s rest H. apply repl_copy; [discriminate|]. apply plain_no; [exact H | reflexivity].
    - intros _ z rest _. apply repl_copy; [discriminate|]. apply int_no; [reflexivity | discriminate]. }
  rewrite E1, E2. rewrite <- (app_nil_r (show str_int [black_circle] [white_circle] t)). rewrite W3.
  - apply app_nil_r.
  - intros c s rest H. apply signs_copy, figure_no, H.
  - exact signs_int.
  - intros c rest _. apply signs_copy. constructor; [reflexivity | constructor].
  - intros c rest _. apply signs_copy. constructor; [reflexivity | constructor].
  - reflexivity.
Qed.
Lemma join_length {A} (f g : A -> text) l m : Forall2 (fun a b => length (f a) = length (g b)) l m -> length (join_texts (map f l)) = length (join_texts (map g m)).
Proof.
  intro F. induction F as [|a b l m H F IH]; [reflexivity|]. destruct F as [|a' b' l m H' F]; [exact H|]. assert (J : forall (h : A -> text) x y k, join_texts (map h (x :: y :: k)) = h x ++ lit ", " ++ join_texts (map h (y :: k))) by reflexivity. rewrite !J, !app_length, H, IH. reflexivity.
Qed.
Lemma layout_length t : forall u, same_layout t u -> length (signed_nested t) = length (signed_nested u).
Proof.
  induction t as [z|b| |l IH|l IH|l IH] using nested_rec'; intros u Hu; inversion Hu as [? ? E|? ?| |? m F|? m F|? m F]; subst; cbn [signed_nested].
  - unfold signed_int. rewrite !app_length, E. destruct (Z.ltb z 0), (Z.ltb b 0); reflexivity.
  - destruct b, b0; reflexivity.
  - reflexivity.
  - unfold str_list. rewrite !app_length. f_equal. f_equal. apply join_length. clear Hu. induction F as [|a b l m H F IHF]; constructor; inversion IH; auto.
  - assert (J : Forall2 (fun a b => length (signed_nested a) = length (signed_nested b)) l m) by (clear Hu; induction F as [|a b l m H F IHF]; constructor; inversion IH; auto). assert (J' := join_length signed_nested signed_nested l m J).
    destruct F as [|a b l m H F]; [reflexivity|]. destruct F as [|a' b' l m H' F]; [inversion J; subst; rewrite !app_length; cbn [length]; lia|]. rewrite !app_length. cbn [map] in J'. cbn [map]. rewrite J'. reflexivity.
  - rewrite !app_length. f_equal. f_equal. apply (join_length (fun kv : nested * nested => signed_nested (fst kv) ++ lit ": " ++ signed_nested (snd kv)) (fun kv : nested * nested => signed_nested (fst kv) ++ lit ": " ++ signed_nested (snd kv))). clear Hu. induction F as [|a b l m H F IHF]; constructor; inversion IH as [|? ? [I1 I2] I3]; subst; [rewrite !app_length; destruct H; rewrite (I1 (fst b)), (I2 (snd b)) by assumption; reflexivity | auto].
Qed.
