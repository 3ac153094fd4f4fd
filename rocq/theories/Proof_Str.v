(** Proof_Str: lemmas about texts: parts of a text that can be read off again. *)

From Coq Require Import String Ascii List Arith ZArith Bool Lia Permutation Sorted.
From Verif Require Import Lib Model_Base Model_Binary Model_Splits Model_Perm Model_SigPerm Model_Misc Model_SetPart Model_Str.
Import ListNotations.
Open Scope nat_scope.

Definition stops (stop : nat -> bool) (s : text) : Prop := match s with [] => True | c :: _ => stop c = true end.
(* the text of a value can be told from what follows, if that begins with a stop character *)
Definition delim {A} (P : A -> Prop) (stop : nat -> bool) (enc : A -> text) : Prop :=
  forall a b s t, P a -> P b -> stops stop s -> stops stop t -> enc a ++ s = enc b ++ t -> a = b /\ s = t.

Lemma span : forall (stop : nat -> bool) x y s t, Forall (fun c => stop c = false) x -> Forall (fun c => stop c = false) y ->
  stops stop s -> stops stop t -> x ++ s = y ++ t -> x = y /\ s = t.
Proof.
  intros stop. induction x as [|a x IH]; intros [|b y] s t Hx Hy Hs Ht E; cbn [app] in E.
  - split; [reflexivity|exact E].
  - subst s. cbn in Hs. inversion Hy; congruence.
  - subst t. cbn in Ht. inversion Hx; congruence.
  - injection E as -> E. inversion Hx; inversion Hy; subst. destruct (IH y s t) as (-> & ->); auto.
Qed.
Lemma delim_weaken : forall A (P Q : A -> Prop) stop stop' enc, delim P stop enc -> (forall a, Q a -> P a) ->
  (forall c, stop' c = true -> stop c = true) -> delim Q stop' enc.
Proof.
  intros A P Q stop stop' enc D PQ S a b s t Ha Hb Hs Ht E. apply D; auto.
  - destruct s; [exact I|apply S; exact Hs].
  - destruct t; [exact I|apply S; exact Ht].
Qed.
Lemma delim_end : forall A (P : A -> Prop) stop enc a b, delim P stop enc -> P a -> P b -> enc a = enc b -> a = b.
Proof. intros A P stop enc a b D Ha Hb E. destruct (D a b [] []) as (H & _); cbn; auto. rewrite !app_nil_r. exact E. Qed.

Lemma span_use : forall (stop : nat -> bool) x y s t, x ++ s = y ++ t -> Forall (fun c => stop c = false) x -> Forall (fun c => stop c = false) y ->
  stops stop s -> stops stop t -> x = y /\ s = t.
Proof. intros. eapply span; eassumption. Qed.
Lemma delim_use : forall A (P : A -> Prop) stop enc, delim P stop enc -> forall a b s t, enc a ++ s = enc b ++ t -> P a -> P b ->
  stops stop s -> stops stop t -> a = b /\ s = t.
Proof. intros A P stop enc D a b s t E Ha Hb Hs Ht. apply D; assumption. Qed.

(** ** Decimal numbers *)

Definition nodigit (c : nat) : bool := negb (Nat.leb 48 c && Nat.leb c 57).
Definition dec_value (s : text) : nat := fold_left (fun v c => 10 * v + (c - 48)) s 0.

Lemma dec_loop_value : forall fuel n acc v, n < fuel ->
  fold_left (fun v c => 10 * v + (c - 48)) (dec_loop fuel n acc) 0 = v ->
  fold_left (fun v c => 10 * v + (c - 48)) acc n = v.
Proof.
  induction fuel as [|fuel IH]; intros n acc v Hf E; [lia|]. cbn [dec_loop] in E. cbv zeta in E.
  assert (D := Nat.div_mod n 10 ltac:(lia)). assert (M := Nat.mod_upper_bound n 10 ltac:(lia)).
  destruct (Nat.eqb_spec (n / 10) 0) as [Z|Z].
  - cbn [fold_left] in E. replace (10 * 0 + (48 + n mod 10 - 48)) with n in E by lia. exact E.
  - apply IH in E; [|apply Nat.lt_le_trans with n; [apply Nat.div_lt; [destruct n; [exfalso; apply Z; reflexivity|lia]|lia]|lia]]. cbn [fold_left] in E. replace (10 * (n / 10) + (48 + n mod 10 - 48)) with n in E by lia. exact E.
Qed.
Lemma str_nat_value : forall n, dec_value (str_nat n) = n.
Proof. intro n. symmetry. exact (dec_loop_value (S n) n [] _ (Nat.lt_succ_diag_r n) eq_refl). Qed.
Lemma dec_loop_digits : forall fuel n acc, Forall (fun c => nodigit c = false) acc -> Forall (fun c => nodigit c = false) (dec_loop fuel n acc).
Proof.
  induction fuel as [|fuel IH]; intros n acc H; [exact H|]. cbn [dec_loop]. cbv zeta. assert (M := Nat.mod_upper_bound n 10 ltac:(lia)).
  assert (H' : Forall (fun c => nodigit c = false) ((48 + n mod 10) :: acc)).
  { constructor; [|exact H]. unfold nodigit. assert (L1 : Nat.leb 48 (48 + n mod 10) = true) by (apply Nat.leb_le; lia). assert (L2 : Nat.leb (48 + n mod 10) 57 = true) by (apply Nat.leb_le; lia). rewrite L1, L2. reflexivity. }
  destruct (Nat.eqb (n / 10) 0); [exact H'|apply IH; exact H'].
Qed.
Lemma str_nat_digits : forall n, Forall (fun c => nodigit c = false) (str_nat n).
Proof. intro n. apply dec_loop_digits. constructor. Qed.
Lemma dec_loop_len : forall fuel n acc, length acc <= length (dec_loop fuel n acc).
Proof. induction fuel as [|fuel IH]; intros n acc; cbn [dec_loop]; [lia|]. cbv zeta. destruct (Nat.eqb (n / 10) 0); cbn [length]; [lia|]. etransitivity; [|apply IH]. cbn [length]. lia. Qed.
Lemma str_nat_head : forall n, exists c r, str_nat n = c :: r /\ nodigit c = false.
Proof.
  intro n. assert (D := str_nat_digits n). destruct (str_nat n) as [|c r] eqn:E.
  - exfalso. unfold str_nat in E. cbn [dec_loop] in E. cbv zeta in E. destruct (Nat.eqb (n / 10) 0); [discriminate|]. assert (L := dec_loop_len n (n / 10) [48 + n mod 10]). rewrite E in L. cbn in L. lia.
  - exists c, r. split; [reflexivity|]. inversion D; assumption.
Qed.
Lemma str_nat_delim : delim (fun _ => True) nodigit str_nat.
Proof.
  intros a b s t _ _ Hs Ht E. destruct (span nodigit (str_nat a) (str_nat b) s t) as (H & ->); auto using str_nat_digits. split; [|reflexivity].
  rewrite <- (str_nat_value a), <- (str_nat_value b), H. reflexivity.
Qed.
Lemma str_nat_inj : forall a b, str_nat a = str_nat b -> a = b.
Proof. intros a b. apply (delim_end nat (fun _ => True) nodigit str_nat a b str_nat_delim); exact I. Qed.

Lemma str_int_head : forall z, exists c r, str_int z = c :: r /\ (c = 45 \/ nodigit c = false).
Proof.
  intro z. unfold str_int. destruct (Z.ltb z 0).
  - exists 45, (str_nat (Z.to_nat (- z))). split; [reflexivity|left; reflexivity].
  - destruct (str_nat_head (Z.to_nat z)) as (c & r & E & D). exists c, r. auto.
Qed.
Lemma str_int_delim : delim (fun _ => True) nodigit str_int.
Proof.
  intros a b s t _ _ Hs Ht E. unfold str_int in E. destruct (Z.ltb_spec a 0) as [A|A], (Z.ltb_spec b 0) as [B|B].
  - cbn [lit list_ascii_of_string map app] in E. injection E as E. destruct (str_nat_delim _ _ s t I I Hs Ht E) as (H & ->). split; [lia|reflexivity].
  - destruct (str_nat_head (Z.to_nat b)) as (c & r & Hc & D). rewrite Hc in E. cbn in E. injection E as E _. subst c. discriminate.
  - destruct (str_nat_head (Z.to_nat a)) as (c & r & Hc & D). rewrite Hc in E. cbn in E. injection E as E _. subst c. discriminate.
  - destruct (str_nat_delim _ _ s t I I Hs Ht E) as (H & ->). split; [lia|reflexivity].
Qed.
Lemma logic_str_head : forall z, exists c r, logic_str z = c :: r /\ (c = 126 \/ nodigit c = false).
Proof.
  intro z. unfold logic_str. destruct (Z.ltb z 0).
  - eexists 126, _. split; [reflexivity|left; reflexivity].
  - destruct (str_nat_head (logic_abs z)) as (c & r & E & D). exists c, r. auto.
Qed.
Lemma logic_str_delim : delim (fun _ => True) nodigit logic_str.
Proof.
  intros a b s t _ _ Hs Ht E. unfold logic_str in E. destruct (Z.ltb_spec a 0) as [A|A], (Z.ltb_spec b 0) as [B|B].
  - cbn [lit list_ascii_of_string map app] in E. injection E as E. destruct (str_nat_delim _ _ s t I I Hs Ht E) as (H & ->). split; [|reflexivity].
    unfold logic_abs, tilde in H. destruct (Z.ltb_spec a 0), (Z.ltb_spec b 0); lia.
  - destruct (str_nat_head (logic_abs b)) as (c & r & Hc & D). rewrite Hc in E. cbn in E. injection E as E _. subst c. discriminate.
  - destruct (str_nat_head (logic_abs a)) as (c & r & Hc & D). rewrite Hc in E. cbn in E. injection E as E _. subst c. discriminate.
  - destruct (str_nat_delim _ _ s t I I Hs Ht E) as (H & ->). split; [|reflexivity].
    unfold logic_abs, tilde in H. destruct (Z.ltb_spec a 0), (Z.ltb_spec b 0); lia.
Qed.

(** ** Lists *)

Definition join_tail (rest : list text) (s : text) : text := match rest with [] => s | _ => 44 :: 32 :: join_texts rest ++ s end.
Lemma join_cons : forall e rest s, join_texts (e :: rest) ++ s = e ++ join_tail rest s.
Proof. intros e [|x rest] s; cbn [join_tail]; [reflexivity|]. change (join_texts (e :: x :: rest)) with (e ++ lit ", " ++ join_texts (x :: rest)). rewrite <- !app_assoc. reflexivity. Qed.

Section Join.
Context {A : Type} (P : A -> Prop) (stop stop2 : nat -> bool) (enc : A -> text).
Hypothesis D : delim P stop enc.
Hypothesis comma : stop 44 = true.
Hypothesis S2 : forall c, stop2 c = true -> stop c = true /\ c <> 44.
Hypothesis heads : forall a, P a -> exists c r, enc a = c :: r /\ stop2 c = false.

Lemma join_delim : delim (Forall P) stop2 (fun l => join_texts (map enc l)).
Proof.
  assert (N : forall a, P a -> forall s r, stops stop2 s -> s <> enc a ++ r).
  { intros a Ha s r Hs E. destruct (heads a Ha) as (c & q & Hc & Nc). rewrite Hc in E. subst s. cbn in Hs. congruence. }
  assert (T : forall l s, stops stop2 s -> stops stop (join_tail (map enc l) s)).
  { intros [|x l] s Hs; cbn [map join_tail]; [|exact comma]. destruct s; [exact I|]. apply S2. exact Hs. }
  intro l. induction l as [|a l IH]; intros [|b m] s t Hl Hm Hs Ht E.
  - split; [reflexivity|exact E].
  - exfalso. cbn [map] in E. rewrite join_cons in E. inversion Hm; subst. cbn [map join_texts app] in E. exact (N b H1 s _ Hs E).
  - exfalso. cbn [map] in E. rewrite join_cons in E. inversion Hl; subst. cbn [map join_texts app] in E. exact (N a H1 t _ Ht (eq_sym E)).
  - cbn [map] in E. rewrite !join_cons in E. inversion Hl; inversion Hm; subst.
    destruct (D a b _ _ H1 H5 (T l s Hs) (T m t Ht) E) as (-> & E'). destruct l as [|x l], m as [|y m]; cbn [map join_tail] in E'.
    + split; [reflexivity|exact E'].
    + subst s. exfalso. cbn in Hs. destruct (S2 44 Hs). congruence.
    + subst t. exfalso. cbn in Ht. destruct (S2 44 Ht). congruence.
    + injection E' as E'. destruct (IH (y :: m) s t) as (-> & ->); auto.
Qed.
End Join.

Lemma list_delim : forall A (P : A -> Prop) stop enc, delim P stop enc -> stop 44 = true -> stop 93 = true ->
  (forall a, P a -> exists c r, enc a = c :: r /\ c <> 93) -> delim (Forall P) (fun _ => true) (fun l => str_list (map enc l)).
Proof.
  intros A P stop enc D H44 H93 Hh l m s t Hl Hm _ _ E. unfold str_list in E. rewrite <- !app_assoc in E. apply app_inv_head in E.
  destruct (join_delim P stop (fun c => Nat.eqb c 93) enc D H44) with (a := l) (b := m) (s := lit "]" ++ s) (t := lit "]" ++ t) as (-> & E'); auto.
  - intros c Hc. apply Nat.eqb_eq in Hc. subst c. split; [exact H93|discriminate].
  - intros a Ha. destruct (Hh a Ha) as (c & r & Hc & Nc). exists c, r. split; [exact Hc|]. apply Nat.eqb_neq. exact Nc.
  - reflexivity.
  - reflexivity.
  - split; [reflexivity|]. apply app_inv_head in E'. exact E'.
Qed.
Lemma nats_delim : delim (fun _ => True) (fun _ => true) (fun l => str_list (map str_nat l)).
Proof.
  eapply delim_weaken; [apply (list_delim nat (fun _ => True) nodigit str_nat str_nat_delim eq_refl eq_refl)| |auto].
  - intros a _. destruct (str_nat_head a) as (c & r & E & H). exists c, r. split; [exact E|]. intros ->. discriminate.
  - intros l _. apply Forall_forall. auto.
Qed.
Lemma ints_delim : delim (fun _ => True) (fun _ => true) (fun l => str_list (map str_int l)).
Proof.
  eapply delim_weaken; [apply (list_delim Z (fun _ => True) nodigit str_int str_int_delim eq_refl eq_refl)| |auto].
  - intros a _. destruct (str_int_head a) as (c & r & E & H). exists c, r. split; [exact E|]. intros ->. destruct H; discriminate.
  - intros l _. apply Forall_forall. auto.
Qed.
Lemma logics_delim : delim (fun _ => True) (fun _ => true) (fun l => str_list (map logic_str l)).
Proof.
  eapply delim_weaken; [apply (list_delim Z (fun _ => True) nodigit logic_str logic_str_delim eq_refl eq_refl)| |auto].
  - intros a _. destruct (logic_str_head a) as (c & r & E & H). exists c, r. split; [exact E|]. intros ->. destruct H; discriminate.
  - intros l _. apply Forall_forall. auto.
Qed.
Lemma nested_delim : forall A (enc : A -> text), delim (fun _ => True) (fun _ => true) (fun l => str_list (map enc l)) ->
  delim (fun _ => True) (fun _ => true) (fun ls => str_list (map (fun l => str_list (map enc l)) ls)).
Proof.
  intros A enc D. eapply delim_weaken; [apply (list_delim (list A) (fun _ => True) (fun _ => true) _ D eq_refl eq_refl)| |auto].
  - intros l _. exists 91, (join_texts (map enc l) ++ lit "]"). split; [reflexivity|discriminate].
  - intros ls _. apply Forall_forall. auto.
Qed.
Lemma sets_delim : delim (fun _ => True) (fun c => Nat.eqb c 125) (fun l => join_texts (map str_int l)).
Proof.
  eapply delim_weaken; [apply (join_delim (fun _ => True) nodigit (fun c => Nat.eqb c 125) str_int str_int_delim eq_refl)| |].
  - intros c Hc. apply Nat.eqb_eq in Hc. subst. split; [reflexivity|discriminate].
  - intros a _. destruct (str_int_head a) as (c & r & E & H). exists c, r. split; [exact E|]. apply Nat.eqb_neq. intros ->. destruct H; discriminate.
  - intros l _. apply Forall_forall. auto.
  - auto.
Qed.
