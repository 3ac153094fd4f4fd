(** Props_Pretty: property C90, results with names of atoms in the place of their keys. *)

From Coq Require Import String Ascii List Arith ZArith Bool Lia Permutation Sorted.
From Verif Require Import Model_Base Lib Model_Binary Model_Splits Model_Perm Model_Boolf Model_Segments Model_Blight Model_Hyper Model_SetPart Model_ClanMatrix
  Model_Misc Model_Str Model_Pretty Spec_Bits Spec_Boolf Spec_Splits Spec_Blight Spec_Hyper Spec_Segments Spec_Misc Spec_Pretty
  Proof_Binary Proof_Boolf Proof_BoolfMake Proof_Perm Proof_Splits Proof_Segments Proof_Swan Proof_ClanReorder Proof_Misc Proof_Blight Proof_Gapless Proof_BoolfStr Props_Boolf Proof_Hyper Props_Blight Props_Hyper Proof_Pretty.
From Verif Require Proof_Helpers Proof_FissionMore Proof_MinRepCoset Proof_Layers.
Import ListNotations Model_Str.
Open Scope nat_scope.
Open Scope bool_scope.

(** without names to use, all methods fail in the same way: names are given and the number of different ones is not the
    valency, or no names are given for a function without atoms *)
Theorem C90_rejected : forall order order1 order2 f given, (~ exists names, names_of f given names) ->
  let e := match given with Some _ => ArgMismatchError | None => ValueErr end in
  bundles_pretty order f given = Err e /\ fullspot_atoms_pretty order1 f given = Err e /\ fullspotlinks_by_atom_pretty f given = Err e /\
  filtrated_pairs_pretty order2 f given = Err e /\ hypersplits_pretty order f given = Err e /\ hypersplits_potential_cores_pretty order f given = Err e.
Proof.
  intros order order1 order2 f given H e. apply chosen_err in H. unfold bundles_pretty, fullspot_atoms_pretty, fullspotlinks_by_atom_pretty, filtrated_pairs_pretty, hypersplits_pretty, hypersplits_potential_cores_pretty.
  rewrite H. auto 8.
Qed.
Print Assumptions C90_rejected.

(** the names to use are unique; none are missing only when the wrong number is given or there are no atoms *)
Theorem C90_names : forall f, (forall given n1 n2, names_of f given n1 -> names_of f given n2 -> n1 = n2) /\
  (forall given names, names_of f given names -> valency f <= length names) /\
  ((exists names, names_of f None names) <-> 0 < valency f) /\
  (forall l, NoDup l -> ((exists names, names_of f (Some l) names) <-> length l = valency f)).
Proof.
  intro f. split; [apply names_unique|]. split; [apply names_length|]. split.
  - split.
    + intros (names & H). inversion H as [|Ne B|a Ha La]; subst; unfold valency; destruct (atomvals f); try contradiction; cbn; lia.
    + intro V. destruct (Forall_Exists_dec (fun a => a < 26) (fun a => lt_dec a 26) (atomvals f)) as [D|D].
      * eexists. apply letters; [intro C; unfold valency in V; rewrite C in V; cbn in V; lia | apply Forall_forall, D].
      * apply Exists_exists in D as (a & Ha & La). eexists. apply (numbers f a Ha). lia.
  - intros l Nl. split.
    + intros (names & H). inversion H as [l' kinds Nk Ik Lk| |]; subst. rewrite <- Lk. apply Permutation_length, NoDup_Permutation; [exact Nl | exact Nk | intro t; symmetry; apply Ik].
    + intro L. eexists. apply (given_names f l l); [exact Nl | reflexivity | exact L].
Qed.
Print Assumptions C90_names.

Lemma bits_above n x k : x < 2 ^ n -> n <= k -> Nat.testbit x k = false.
Proof. intros H L. apply testbit_high. eapply Nat.lt_le_trans; [exact H | apply Nat.pow_le_mono_r; lia]. Qed.

(** bundles with names *)
Theorem C90_bundles : forall order f given names, (forall l, Permutation (order l) l) -> made false f -> names_of f given names ->
  (no_links f -> exists B, bundles_pretty order f given = Ok (map (map (fun k => nth k names (Num 0))) B) /\
     classes (valency f) (chained f) B /\ StronglySorted (fun b c => hd 0 b < hd 0 c) B) /\
  (~ no_links f -> bundles_pretty order f given = Err BoolfNotBlightlessError).
Proof.
  intros order f given names Ho M H. destruct (C59_bundles order f Ho M) as [C1 C2]. unfold bundles_pretty. rewrite (proj2 (chosen_ok f given names) H). cbn [bind]. split.
  - intro NL. destruct (C1 NL) as (B & E & Cl & S). exists B. rewrite E. cbn [bind]. split; [|auto]. apply mapM_ok. intros b Hb. apply (names_of_keys f given names b H). intros k Hk. apply (proj2 (proj2 (proj1 Cl b Hb))), Hk.
  - intro NL. rewrite (proj1 (C2 NL)). reflexivity.
Qed.
Print Assumptions C90_bundles.

(** true places with the names of the atoms that are true there *)
Theorem C90_fullspot_atoms : forall order i f given names, (forall l, Permutation (order l) l) -> made i f -> names_of f given names ->
  exists d, fullspot_atoms_pretty order f given = Ok d /\ NoDup (map fst d) /\ (forall n, In n (map fst d) <-> full f n) /\
    forall n l, In (n, l) d -> exists keys, ascending keys /\ (forall k, In k keys <-> Nat.testbit n k = true) /\ l = map (fun k => nth k names (Num 0)) keys.
Proof.
  intros order i f given names Ho M H. assert (F := m_fit i f M). unfold fullspot_atoms_pretty. rewrite (proj2 (chosen_ok f given names) H). cbn [bind]. rewrite fullspot_atoms_ok. cbn [bind].
  assert (I : forall n, In n (order (fullspots f)) <-> full f n). { intro n. rewrite <- fullspots_In. split; apply Permutation_in; [apply Ho | symmetry; apply Ho]. }
  exists (map (fun n => (n, map (named names) (int_to_exposet n))) (order (fullspots f))). split; [|split; [|split]].
  - rewrite (mapM_ok _ (fun kv : nat * list nat => (fst kv, map (named names) (snd kv)))); [rewrite map_map; reflexivity|]. intros [n keys] Hn. apply in_map_iff in Hn as (n' & E & Hn). injection E as <- <-. cbn [fst snd].
    rewrite (names_of_keys f given names (int_to_exposet n') H); [reflexivity|]. intros k Hk. apply Proof_MinRepCoset.on_In in Hk. apply I in Hn. unfold full in Hn.
    assert (Ln : n' < 2 ^ valency f). { destruct (Nat.lt_ge_cases n' (2 ^ valency f)) as [|C]; [assumption|]. rewrite nth_overflow in Hn by (rewrite (proj2 F); exact C). discriminate Hn. }
    destruct (Nat.lt_ge_cases k (valency f)) as [|C]; [assumption|]. rewrite (bits_above _ _ _ Ln C) in Hk. discriminate Hk.
  - rewrite map_map. cbn [fst]. rewrite map_id. eapply Permutation_NoDup; [apply Permutation_sym, Ho | apply fullspots_NoDup].
  - intro n. rewrite map_map. cbn [fst]. rewrite map_id. apply I.
  - intros n l Hn. apply in_map_iff in Hn as (n' & E & Hn). injection E as <- <-. exists (int_to_exposet n'). split; [apply int_to_exposet_spec|]. split; [intro k; apply Proof_MinRepCoset.on_In | reflexivity].
Qed.
Print Assumptions C90_fullspot_atoms.

(** there is no result for fullspotlinks_by_atom_pretty, because Boolf has no attribute fullspotlinks_by_atom *)
Theorem C90_fullspotlinks_refuted : exists f given names, made false f /\ names_of f given names /\ fullspotlinks_by_atom_pretty f given = Err AttributeErr.
Proof.
  destruct (Boolf_vec_sorted [false; true; true; true] [0; 1]) as (f & E & R & _); [repeat constructor | reflexivity|].
  exists f, None, [Txt (lit "A"); Txt (lit "B")]. split; [apply reduced_made; exact R|]. vm_compute in E. injection E as <-. split; [|reflexivity]. apply chosen_ok. reflexivity.
Qed.
Print Assumptions C90_fullspotlinks_refuted.

(** ** Pairs *)

(** Each pair of different atoms is listed once, under the word for its relation, or four digits if there is none.  The
    smaller key is first, except that the subset always comes before its superset.  The words come first, in a fixed
    order.  The pairs under each key are in the order of the keys of atoms, but those under 'subset' in that of names. *)
Theorem C90_pairs : forall order i f given names, (forall l, Permutation (order l) l) -> made i f -> names_of f given names ->
  exists d, filtrated_pairs_pretty order f given = Ok d /\
    NoDup (map fst d) /\
    (forall w, In w (map fst d) <-> exists r a b, w = shown r /\ related f r a b) /\
    (forall w l, In (w, l) d -> l <> [] /\ exists ks, NoDup ks /\ Permutation l (map (fun ab => (nth (fst ab) names (Num 0), nth (snd ab) names (Num 0))) ks) /\
       (forall a b, In (a, b) ks <-> exists r, w = shown r /\ related f r a b) /\
       (w <> lit "subset" -> StronglySorted (fun p q => fst p < fst q \/ fst p = fst q /\ snd p < snd q) ks /\ l = map (fun ab => (nth (fst ab) names (Num 0), nth (snd ab) names (Num 0))) ks) /\
       (w = lit "subset" -> StronglySorted (fun p q => pair_compare p q <> Gt) l)) /\
    exists ws rest, map fst d = ws ++ rest /\ (forall w, In w rest -> exists n a b c, w = shown (Other n a b c)) /\
      (forall w, In w ws -> In w (map shown [Crossing; Disjoint; Universal; Subset; Equal; Complementary])) /\
      exists t, ws = filter t (map shown [Crossing; Disjoint; Universal; Subset; Equal; Complementary]).
Proof.
  intros order i f given names Ho M H. assert (F := m_fit i f M). destruct (filtrated_pairs_ok f F) as (u & Eu & Ku & Tu).
  destruct (pairs_pretty_ok order f names u Ho (names_length f given names H) Ku Tu) as (im & Ei & d & Ed & Nd & Kd & Ld & rest & Er & Hr).
  exists d. split.
  { unfold filtrated_pairs_pretty. rewrite (proj2 (chosen_ok f given names) H). cbn [bind]. rewrite Eu. cbn [bind]. rewrite Ei. cbn [bind]. rewrite <- Ed. destruct (fold_left sort_pattern im ([], [])) as [pre [|s S]]; reflexivity. }
  split; [exact Nd|]. split; [exact Kd|]. split.
  - intros w l Hl. destruct (Ld w l Hl) as (Ne & A & B). split; [exact Ne|]. destruct (list_eq_dec Nat.eq_dec w (lit "subset")) as [->|Nw].
    + destruct (B eq_refl) as (S & ks & Nk & P & Ik). exists ks. split; [exact Nk|]. split; [exact P|]. split; [|split; [intro C; contradiction | intros _; exact S]].
      intros a b. rewrite Ik. split; [intro X; exists Subset; auto|]. intros (r & E & X). symmetry in E. apply shown_subset in E. subst r. exact X.
    + destruct (A Nw) as (ks & S & -> & Ik). exists ks. split; [|split; [reflexivity | split; [exact Ik | split; [intros _; split; [exact S | reflexivity] | intro C; contradiction]]]].
      clear - S. induction S as [|x l S IH Fo]; constructor; [|exact IH]. intro X. rewrite Forall_forall in Fo. specialize (Fo x X). unfold pair_before in Fo. lia.
  - exists (filter (fun k => existsb (text_eqb k) (map fst d)) key_words), rest. split; [exact Er|]. split; [|split; [intros w Hw; apply filter_In in Hw; apply Hw | eexists; reflexivity]].
    intros w Hw. assert (Hd : In w (map fst d)) by (rewrite Er; apply in_or_app; right; exact Hw). apply Kd in Hd as (r & a & b & -> & _). apply Hr in Hw. destruct r as [| | | | | |n x y c]; [exfalso; apply Hw; cbn; tauto .. | exists n, x, y, c; reflexivity].
Qed.
Print Assumptions C90_pairs.

(** names given twice are accepted, so that a pair can have the same name on both sides *)
Theorem C90_repeated_names_refuted : exists f l names x d, made false f /\ names_of f (Some l) names /\ valency f = 2 /\ nth_error names 0 = Some x /\ nth_error names 1 = Some x /\
  filtrated_pairs_pretty (fun l => l) f (Some l) = Ok d /\ In (lit "universal", [(x, x)]) d.
Proof.
  destruct (Boolf_vec_sorted [false; true; true; true] [0; 1]) as (f & E & R & _); [repeat constructor | reflexivity|].
  exists f, [lit "a"; lit "a"; lit "b"], [Txt (lit "a"); Txt (lit "a"); Txt (lit "b")], (Txt (lit "a")). eexists. split; [apply reduced_made; exact R|]. vm_compute in E. injection E as <-.
  split; [apply chosen_ok; reflexivity|]. split; [reflexivity|]. split; [reflexivity|]. split; [reflexivity|]. split; [vm_compute; reflexivity|]. left. reflexivity.
Qed.
Print Assumptions C90_repeated_names_refuted.

(** ** Hypersplits *)

Lemma texts_map ts : texts (map Txt ts).
Proof. intros a H. apply in_map_iff in H as (t & <- & _). exists t. reflexivity. Qed.
Lemma text_of_map ts k : text_of (named (map Txt ts) k) = nth k ts [].
Proof. unfold named. revert k. induction ts as [|t ts IH]; intros [|k]; cbn; try reflexivity. apply IH. Qed.

(** the blocks are those of hypersplits_detailed, with names and signs in the place of the labels; no two blocks of a
    hypersplit have the same label, whatever the names are *)
Theorem C90_hypersplits : forall order f given ts, (forall l, Permutation (order l) l) -> made false f -> no_links f -> none_fixed f -> names_of f given (map Txt ts) ->
  exists d p, hypersplits_detailed order f = Ok d /\ hypersplits_pretty order f given = Ok p /\
    p = map (fun nl => (fst nl, map (fun kb : list nat * list (list bool * list nat) =>
              map (fun lb => (spaced (map (fun kv => sign_char (snd kv) ++ nth (fst kv) ts []) (combine (fst kb) (fst lb))), snd lb)) (snd kb)) (snd nl))) d /\
    forall n l blocks, In (n, l) p -> In blocks l -> NoDup (map fst blocks) /\ length blocks = 2 ^ n.
Proof.
  intros order f given ts Ho M NL NF H. destruct (C77_hypersplits order f Ho M NL NF) as (m & h & Eh & _ & _ & Vh & _).
  destruct (C78_detailed order f h Ho M NL NF Eh) as (d & Ed & Kd & Bd). exists d. eexists. split; [exact Ed|].
  assert (Kn : forall n l keys blocks, In (n, l) d -> In (keys, blocks) l -> key_set f n keys).
  { intros n l keys blocks Hl Hk. assert (Y : In (n, map fst l) (map (fun nl => (fst nl, map fst (snd nl))) d)) by (apply in_map_iff; exists (n, l); auto). rewrite Kd in Y. apply in_map_iff in Y as ([n' hl] & Y & Hi). injection Y as -> Y.
    destruct (Vh n hl Hi) as (_ & I & _). apply I. cbn [snd] in Y. rewrite Y. change keys with (fst (keys, blocks)). apply in_map, Hk. }
  assert (Lab : forall n l keys blocks, In (n, l) d -> In (keys, blocks) l -> NoDup (map fst blocks) /\ length blocks = 2 ^ n /\ forall label spots, In (label, spots) blocks -> length label = n).
  { intros n l keys blocks Hl Hk. destruct (Bd n l keys blocks Hl Hk) as (E & _). split; [|split].
    - rewrite E. apply Proof_Helpers.NoDup_map_inj; [apply seq_NoDup|]. intros x y Hx Hy Exy. apply in_seq in Hx, Hy. apply Nat.bits_inj. intro k. destruct (Nat.lt_ge_cases k n) as [L|L].
      + apply (f_equal (fun v => nth k v false)) in Exy. change (seq 0 n) with (range n) in Exy. rewrite !Proof_FissionMore.nth_map_r in Exy by exact L. exact Exy.
      + rewrite !(bits_above n) by lia. reflexivity.
    - apply (f_equal (@length _)) in E. rewrite !map_length, seq_length in E. exact E.
    - intros label spots Hb. apply (in_map fst) in Hb. cbn [fst] in Hb. rewrite E in Hb. apply in_map_iff in Hb as (j & <- & _). rewrite map_length, seq_length. reflexivity. }
  assert (One : forall n l keys blocks, In (n, l) d -> In (keys, blocks) l ->
    pretty_hypersplit (map Txt ts) (keys, blocks) = Ok (map (fun lb => (spaced (map (fun kv => sign_char (snd kv) ++ nth (fst kv) ts []) (combine keys (fst lb))), snd lb)) blocks) /\
    NoDup (map (fun lb : list bool * list nat => spaced (map (fun kv => sign_char (snd kv) ++ nth (fst kv) ts []) (combine keys (fst lb)))) blocks)).
  { intros n l keys blocks Hl Hk. destruct (Kn n l keys blocks Hl Hk) as (_ & Lk & Bk). destruct (Lab n l keys blocks Hl Hk) as (Nl & _ & Ll).
    assert (LT : forall label, spaced (map (fun kv => sign_char (snd kv) ++ nth (fst kv) ts []) (combine keys label)) = label_text (map Txt ts) keys label).
    { intro label. unfold label_text. f_equal. apply map_ext. intros [k v]. cbn [fst snd]. rewrite text_of_map. reflexivity. }
    assert (Inj : NoDup (map (fun lb : list bool * list nat => label_text (map Txt ts) keys (fst lb)) blocks)).
    { clear - Nl Ll Lk. induction blocks as [|[x s] b IH]; cbn [map] in *; constructor.
      - inversion Nl as [|? ? Hx _]; subst. intro C. apply in_map_iff in C as ([y t] & E & Hy). cbn [fst] in *. apply label_texts_inj in E; [|rewrite (Ll y t) by (right; exact Hy); reflexivity | rewrite (Ll x s) by (left; reflexivity); reflexivity]. subst y. apply Hx. change x with (fst (x, t)). apply in_map, Hy.
      - inversion Nl; subst. apply IH; [assumption | intros; eapply Ll; right; eassumption]. }
    assert (Vl := names_length f given _ H).
    split; [|erewrite map_ext; [exact Inj | intros lb; apply LT]].
    unfold pretty_hypersplit. cbn [fst snd]. rewrite (names_of_keys f given _ keys H Bk). cbn [bind].
    assert (Go : forall b pre, (forall x, In x b -> In x blocks) -> NoDup (map fst pre ++ map (fun lb : list bool * list nat => label_text (map Txt ts) keys (fst lb)) b) ->
      foldM (fun new_setpart (lb : list bool * list nat) => let* label := block_label (map (named (map Txt ts)) keys) (fst lb) in Ok (dstore text_eqb new_setpart label (snd lb))) b pre
      = Ok (pre ++ map (fun lb => (spaced (map (fun kv => sign_char (snd kv) ++ nth (fst kv) ts []) (combine keys (fst lb))), snd lb)) b)).
    { induction b as [|[x s] b IH]; intros pre Hb Nb; cbn [foldM map]; [rewrite app_nil_r; reflexivity|]. cbn [fst snd].
      rewrite (block_label_ok (map Txt ts) keys x (texts_map ts)); [|intros k Hk'; specialize (Bk k Hk'); lia | rewrite (Ll x s) by (apply Hb; left; reflexivity); exact Lk]. cbn [bind].
      cbn [map fst] in Nb. assert (Nx : ~ In (label_text (map Txt ts) keys x) (map fst pre)). { apply NoDup_remove_2 in Nb. intro C. apply Nb, in_or_app. left. exact C. }
      rewrite (store_new text_eqb text_eqb_ok) by exact Nx. rewrite IH.
      - rewrite <- app_assoc, LT. reflexivity.
      - intros y Hy. apply Hb. right. exact Hy.
      - rewrite map_app, <- app_assoc. exact Nb. }
    apply (Go blocks []); [auto | exact Inj]. }
  split; [|split; [reflexivity|]].
  - unfold hypersplits_pretty. rewrite (proj2 (chosen_ok f given _) H). cbn [bind]. rewrite Ed. cbn [bind]. apply mapM_ok. intros [n l] Hl. cbn [fst snd].
    rewrite (mapM_ok _ (fun kb : list nat * list (list bool * list nat) => map (fun lb => (spaced (map (fun kv => sign_char (snd kv) ++ nth (fst kv) ts []) (combine (fst kb) (fst lb))), snd lb)) (snd kb))); [reflexivity|].
    intros [keys blocks] Hk. apply (One n l keys blocks Hl Hk).
  - intros n l blocks Hl Hb. apply in_map_iff in Hl as ([n' l'] & E & Hl). injection E as <- <-. cbn [fst snd] in *. apply in_map_iff in Hb as ([keys b] & <- & Hk). cbn [fst snd]. rewrite map_length, map_map. cbn [fst].
    split; [exact (proj2 (One n' l' keys b Hl Hk)) | apply (Lab n' l' keys b Hl Hk)].
Qed.
Print Assumptions C90_hypersplits.

Definition pretty_of (ts : list text) (c : core) : pretty_core :=
  mkPrettyCore (concat (map (fun k => nth k ts []) (c_fixed c))) (concat (map (fun k => nth k ts []) (c_free c)))
               (spaced (map (fun kv => nth (fst kv) ts [] ++ trit_char (snd kv)) (c_determined c))) (map (flat_map trit_char) (c_vectors c)).
Lemma trit_char_ok e : e = 0%Z \/ e = 1%Z \/ e = (-1)%Z ->
  (if Z.eqb e (-1) then Ok minus_sign else if Z.eqb e 0 then Ok (lit "0") else if Z.eqb e 1 then Ok (lit "+") else Err KeyErr) = Ok (trit_char e).
Proof. intros [-> | [-> | -> ]]; reflexivity. Qed.

(** the cores are those of hypersplits_potential_cores, with texts in the place of lists *)
Theorem C90_cores : forall order f given ts, (forall l, Permutation (order l) l) -> made false f -> no_links f -> none_fixed f -> names_of f given (map Txt ts) ->
  exists d, hypersplits_potential_cores order f = Ok d /\ hypersplits_potential_cores_pretty order f given =
    Ok (map (fun nl => (fst nl, map (fun c =>
          mkPrettyCore (concat (map (fun k => nth k ts []) (c_fixed c))) (concat (map (fun k => nth k ts []) (c_free c)))
                       (spaced (map (fun kv => nth (fst kv) ts [] ++ trit_char (snd kv)) (c_determined c))) (map (flat_map trit_char) (c_vectors c))) (snd nl))) d).
Proof.
  intros order f given ts Ho M NL NF H. destruct (C77_hypersplits order f Ho M NL NF) as (m & h & Eh & _ & _ & Vh & _).
  destruct (C79_cores order f h Ho M NL NF Eh) as (d & Ed & Kd & Cd). exists d. split; [exact Ed|].
  assert (Bf : forall n l c, In (n, l) d -> In c l -> forall k, In k (c_fixed c) -> k < valency f).
  { intros n l c Hl Hc. assert (Y : In (n, map c_fixed l) (map (fun nl => (fst nl, map c_fixed (snd nl))) d)) by (apply in_map_iff; exists (n, l); auto). rewrite Kd in Y. apply in_map_iff in Y as ([n' hl] & Y & Hi). injection Y as -> Y.
    destruct (Vh n hl Hi) as (_ & I & _). assert (Z : In (c_fixed c) (map fst hl)) by (cbn [snd] in Y; rewrite Y; apply in_map; exact Hc). apply I in Z as ((_ & _ & B) & _). exact B. }
  assert (Vl := names_length f given _ H). rewrite map_length in Vl.
  assert (Tx : forall keys, (forall k, In k keys -> k < valency f) -> mapM (fun atomkey => let* a := lget (map Txt ts) atomkey in name_text a) keys = Ok (map (fun k => nth k ts []) keys)).
  { intros keys Hk. apply mapM_ok. intros k Hi. specialize (Hk k Hi). rewrite lget_named by (rewrite map_length; lia). cbn [bind]. rewrite (text_named _ k (texts_map ts)) by (rewrite map_length; lia). rewrite text_of_map. reflexivity. }
  unfold hypersplits_potential_cores_pretty. rewrite (proj2 (chosen_ok f given _) H). cbn [bind]. rewrite Ed. cbn [bind]. apply mapM_ok. intros [n l] Hl. cbn [fst snd].
  change (fun c : core => mkPrettyCore _ _ _ _) with (pretty_of ts).
  rewrite (mapM_ok _ (pretty_of ts)); [reflexivity|]. intros c Hc. destruct (Cd n l c Hl Hc) as (_ & Fr & _ & De & _ & Ve). unfold pretty_potential_core.
  rewrite (Tx (c_fixed c) (Bf n l c Hl Hc)). cbn [bind]. rewrite (Tx (c_free c)) by (intros k Hk; apply Fr in Hk; exact (proj1 Hk)). cbn [bind].
  rewrite (mapM_ok _ (fun kv : nat * Z => nth (fst kv) ts [] ++ trit_char (snd kv))).
  - cbn [bind]. rewrite (mapM_ok balanced_ternary_vector_to_string (flat_map trit_char)); [cbn [bind]; rewrite join_spaced; reflexivity|].
    intros v Hv. apply Ve in Hv as (Lv & Fv & Nv). unfold balanced_ternary_vector_to_string. rewrite (mapM_ok _ trit_char); [cbn [bind]; rewrite flat_map_concat_map; reflexivity|].
    intros e He. apply trit_char_ok. apply (In_nth _ _ 0%Z) in He as (k & Hk & <-). rewrite Lv in Hk. destruct (in_dec Nat.eq_dec k (c_fixed c)) as [If|If]; [left; apply Fv, If | right; apply (Nv k Hk If)].
  - intros [k v] Hk. cbn [fst snd]. apply De in Hk as (Lk & _ & j & q & _ & _ & ->). rewrite lget_named by (rewrite map_length; lia). cbn [bind]. rewrite (text_named _ k (texts_map ts)) by (rewrite map_length; lia). rewrite text_of_map. destruct q; reflexivity.
Qed.
Print Assumptions C90_cores.

(** without names, atoms above 25 are shown by numbers; these can not be joined with texts *)
Theorem C90_large_atoms : forall order a f, (forall l, Permutation (order l) l) -> made false f -> no_links f -> none_fixed f -> In a (atomvals f) -> 26 <= a ->
  hypersplits_pretty order f None = Err TypeErr /\ hypersplits_potential_cores_pretty order f None = Err TypeErr.
Proof.
  intros order a f Ho M NL NF Ha La. assert (H := numbers f a Ha La). destruct (C77_hypersplits order f Ho M NL NF) as (m & h & Eh & _ & _ & Vh & _).
  destruct (C77_atoms order f h Ho M NL NF Eh) as (l1 & t & Et & K1).
  assert (V : 0 < valency f) by (unfold valency; destruct (atomvals f); [destruct Ha | cbn; lia]).
  assert (L0 : lget (map Num (atomvals f)) 0 = Ok (Num (nth 0 (atomvals f) 0))) by (unfold valency in V; destruct (atomvals f); [cbn in V; lia | reflexivity]).
  split.
  - destruct (C78_detailed order f h Ho M NL NF Eh) as (d & Ed & Kd & Bd). unfold hypersplits_pretty. rewrite (proj2 (chosen_ok f None _) H). cbn [bind]. rewrite Ed. cbn [bind]. rewrite Et in Kd. destruct d as [|[n l] d]; [discriminate Kd|].
    cbn [map fst snd] in Kd. injection Kd as -> Kl _. rewrite K1 in Kl. destruct (valency f) as [|v]; [lia|]. cbn [seq map] in Kl. destruct l as [|[keys blocks] l]; [discriminate Kl|]. cbn [map fst] in Kl. injection Kl as -> _.
    destruct (Bd 1 _ [0] blocks (or_introl eq_refl) (or_introl eq_refl)) as (Eb & _). destruct blocks as [|[label s] blocks]; [discriminate Eb|]. cbn in Eb. injection Eb as -> _.
    cbn [mapM fst snd]. unfold pretty_hypersplit. cbn [mapM fst snd]. rewrite L0. reflexivity.
  - destruct (C79_cores order f h Ho M NL NF Eh) as (d & Ed & Kd & Cd). unfold hypersplits_potential_cores_pretty. rewrite (proj2 (chosen_ok f None _) H). cbn [bind]. rewrite Ed. cbn [bind]. rewrite Et in Kd. destruct d as [|[n l] d]; [discriminate Kd|].
    cbn [map fst snd] in Kd. injection Kd as -> Kl _. rewrite K1 in Kl. destruct (valency f) as [|v]; [lia|]. cbn [seq map] in Kl. destruct l as [|c l]; [discriminate Kl|]. cbn [map fst] in Kl. injection Kl as Ec _.
    cbn [mapM fst snd]. unfold pretty_potential_core. rewrite Ec. cbn [mapM]. rewrite L0. reflexivity.
Qed.
Print Assumptions C90_large_atoms.

(** ** Examples *)

(* the third atom implies the first and excludes the second *)
Example C90_ex_pairs : exists f, Boolf_vec [true; true; true; true; false; true; false; false] [0; 1; 2] = Ok f /\ made false f /\
  names_of f None [Txt (lit "A"); Txt (lit "B"); Txt (lit "C")] /\ names_of f (Some [lit "u"; lit "v"; lit "w"]) [Txt (lit "u"); Txt (lit "v"); Txt (lit "w")] /\
  filtrated_pairs_pretty (fun l => l) f None = Ok [(lit "crossing", [(Txt (lit "A"), Txt (lit "B"))]); (lit "disjoint", [(Txt (lit "B"), Txt (lit "C"))]); (lit "subset", [(Txt (lit "C"), Txt (lit "A"))])] /\
  bundles_pretty (fun l => l) f (Some [lit "u"; lit "v"; lit "w"]) = Ok [[Txt (lit "u"); Txt (lit "v")]; [Txt (lit "w")]] /\
  fullspot_atoms_pretty (fun l => l) f None = Ok [(0, []); (1, [Txt (lit "A")]); (2, [Txt (lit "B")]); (3, [Txt (lit "A"); Txt (lit "B")]); (5, [Txt (lit "A"); Txt (lit "C")])].
Proof.
  destruct (Boolf_vec_sorted [true; true; true; true; false; true; false; false] [0; 1; 2]) as (f & E & R & _); [repeat constructor | reflexivity|].
  exists f. split; [exact E|]. split; [apply reduced_made; exact R|]. vm_compute in E. injection E as <-. split; [apply chosen_ok; reflexivity|]. split; [apply chosen_ok; reflexivity|]. split; [vm_compute; reflexivity|]. split; vm_compute; reflexivity.
Qed.

(* the atoms are equal where the function is true; both are true where it is, for which there is no word *)
Example C90_ex_words : exists f g, Boolf_vec [true; false; false; true] [0; 1] = Ok f /\ made false f /\ Boolf_vec [false; false; false; true] [0; 1] = Ok g /\ made false g /\
  filtrated_pairs_pretty (fun l => l) f None = Ok [(lit "equal", [(Txt (lit "A"), Txt (lit "B"))])] /\
  filtrated_pairs_pretty (fun l => l) g None = Ok [(lit "0001", [(Txt (lit "A"), Txt (lit "B"))])] /\ shown (Other false false false true) = lit "0001".
Proof.
  destruct (Boolf_vec_sorted [true; false; false; true] [0; 1]) as (f & E & R & _); [repeat constructor | reflexivity|].
  destruct (Boolf_vec_sorted [false; false; false; true] [0; 1]) as (g & E' & R' & _); [repeat constructor | reflexivity|].
  exists f, g. split; [exact E|]. split; [apply reduced_made; exact R|]. split; [exact E'|]. split; [apply reduced_made; exact R'|]. vm_compute in E, E'. injection E as <-. injection E' as <-. split; [vm_compute; reflexivity|]. split; vm_compute; reflexivity.
Qed.

(* x or y with the atoms 3 and 5, and with the atoms 3 and 30 *)
Example C90_ex_hyper : exists f g, Boolf_vec [false; true; true; true] [3; 5] = Ok f /\ made false f /\ no_links f /\ none_fixed f /\ names_of f None (map Txt [lit "D"; lit "F"]) /\
  hypersplits_pretty (fun l => l) f None = Ok [(1, [[(minus_sign ++ lit "D", [2]); (lit "+D", [1; 3])]; [(minus_sign ++ lit "F", [1]); (lit "+F", [2; 3])]])] /\
  hypersplits_potential_cores_pretty (fun l => l) f None = Ok [(1, [mkPrettyCore (lit "D") [] (lit "F+") [lit "0+"]; mkPrettyCore (lit "F") [] (lit "D+") [lit "+0"]])] /\
  Boolf_vec [false; true; true; true] [3; 30] = Ok g /\ made false g /\ no_links g /\ none_fixed g /\ names_of g None [Num 3; Num 30] /\
  bundles_pretty (fun l => l) g None = Ok [[Num 3]; [Num 30]] /\ hypersplits_pretty (fun l => l) g None = Err TypeErr.
Proof.
  destruct (Boolf_vec_sorted [false; true; true; true] [3; 5]) as (f & E & R & _); [repeat constructor | reflexivity|].
  destruct (Boolf_vec_sorted [false; true; true; true] [3; 30]) as (g & E' & R' & _); [repeat constructor | reflexivity|].
  assert (B : forall h, reduced h -> is_blightless (fun l => l) h = Ok true -> no_links h /\ none_fixed h).
  { intros h Rh Eb. destruct (is_blightless_spec (fun l => l) h (fun l => Permutation_refl l) Rh) as (b' & Eb' & Hb). rewrite Eb in Eb'. injection Eb' as <-. apply Hb. reflexivity. }
  assert (Bf : is_blightless (fun l => l) f = Ok true) by (vm_compute in E; injection E as <-; vm_compute; reflexivity).
  assert (Bg : is_blightless (fun l => l) g = Ok true) by (vm_compute in E'; injection E' as <-; vm_compute; reflexivity).
  apply (B _ R) in Bf as [Nf Ff]. apply (B _ R') in Bg as [Ng Fg].
  exists f, g. split; [exact E|]. split; [apply reduced_made; exact R|]. split; [exact Nf|]. split; [exact Ff|].
  assert (X : made false g) by (apply reduced_made; exact R'). rewrite <- E'. cut (names_of f None (map Txt [lit "D"; lit "F"]) /\
    hypersplits_pretty (fun l => l) f None = Ok [(1, [[(minus_sign ++ lit "D", [2]); (lit "+D", [1; 3])]; [(minus_sign ++ lit "F", [1]); (lit "+F", [2; 3])]])] /\
    hypersplits_potential_cores_pretty (fun l => l) f None = Ok [(1, [mkPrettyCore (lit "D") [] (lit "F+") [lit "0+"]; mkPrettyCore (lit "F") [] (lit "D+") [lit "+0"]])] /\
    names_of g None [Num 3; Num 30] /\ bundles_pretty (fun l => l) g None = Ok [[Num 3]; [Num 30]] /\ hypersplits_pretty (fun l => l) g None = Err TypeErr); [tauto|].
  clear - E E'. vm_compute in E, E'. injection E as <-. injection E' as <-. split; [apply chosen_ok; reflexivity|]. split; [vm_compute; reflexivity|]. split; [vm_compute; reflexivity|]. split; [apply chosen_ok; reflexivity|]. split; vm_compute; reflexivity.
Qed.
