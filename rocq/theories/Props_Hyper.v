(** Props_Hyper: properties C77 (hypersplits), C78 (combined splits and labelled blocks) and C79
    (potential cores). *)

From Coq Require Import List Arith ZArith Bool Lia Permutation Sorted.
From Verif Require Import Model_Base Lib Model_Binary Model_Splits Model_Perm Model_SetPart Model_Boolf Model_Blight Model_Hyper.
From Verif Require Import Spec_SetPart Spec_Bits Spec_Boolf Spec_Splits Spec_Blight Spec_Hyper Proof_SetPart Proof_Binary Proof_Boolf Proof_BoolfMake Proof_Splits Proof_Blight Proof_Gapless Props_Boolf Proof_Hyper Proof_HyperLevels Proof_HyperCores.
Import ListNotations.
Open Scope nat_scope.

(** ** C77 *)

(** hypersplits has an entry for each size from 1 to the greatest size of a set of independent
    atoms; the entry has all sets of this size, each once, with the partition of the true places
    into the classes of equal values *)
Theorem C77_hypersplits : forall order f, (forall l, Permutation (order l) l) -> made false f -> no_links f -> none_fixed f ->
  exists m h, hypersplits order f = Ok h /\ 1 <= m /\ map fst h = seq 1 m /\
    (forall n l, In (n, l) h -> NoDup (map fst l) /\
       (forall keys, In keys (map fst l) <-> key_set f n keys /\ shattered f keys) /\
       (forall keys s, In (keys, s) l -> sp_domain s = DomN /\ canonical (sp_blocks s) /\ forall x y, same (sp_blocks s) x y <-> x = y \/ alike f keys x y) /\
       (1 < n -> l <> [])) /\
    (forall n keys, key_set f n keys -> shattered f keys -> n <= m).
Proof.
  intros order f Ho M NL NF. destruct (hypersplits_spec order f Ho (m_red f M) NL NF) as (m & h & E & Hm & (Kh & Vh) & Mx & _). exists m, h. split; [exact E|]. split; [exact Hm|]. split; [exact Kh|]. split; [|exact Mx].
  intros n l Hi. destruct (Vh n l Hi) as ((N & I & P) & Ne). split; [exact N|]. split; [exact I|]. split; [|exact Ne]. intros keys s Hs. destruct (P keys s Hs) as (W & D & T). split; [exact D|]. split; [apply W | exact T].
Qed.
Print Assumptions C77_hypersplits.

(** the entry for 1 has all atoms, in increasing order *)
Theorem C77_atoms : forall order f h, (forall l, Permutation (order l) l) -> made false f -> no_links f -> none_fixed f -> hypersplits order f = Ok h ->
  exists l t, h = (1, l) :: t /\ map fst l = map (fun k => [k]) (seq 0 (valency f)).
Proof. intros order f h Ho M NL NF E. destruct (hypersplits_spec order f Ho (m_red f M) NL NF) as (m & h' & E' & _ & _ & _ & X). rewrite E in E'. injection E' as <-. exact X. Qed.
Print Assumptions C77_atoms.

(** functions with linked or fixed atoms are rejected *)
Theorem C77_rejected : forall order f, (forall l, Permutation (order l) l) -> made false f -> ~ (no_links f /\ none_fixed f) ->
  hypersplits order f = Err NotBlightlessError.
Proof. intros order f Ho M H. apply hypersplits_reject; [exact Ho | exact (m_red f M) | exact H]. Qed.
Print Assumptions C77_rejected.

(** ** C78 *)

(** splits_combined gives the classes of the true places with equal values of the chosen atoms *)
Theorem C78_combined : forall i f keys, made i f -> keys <> [] -> (forall k, In k keys -> k < valency f) ->
  exists r, splits_combined f keys = Ok r /\ spot_blocks f keys r.
Proof. intros i f keys M. apply splits_combined_spec. exact (m_fit i f M). Qed.
Print Assumptions C78_combined.

(** a chosen atom that does not exist is an error; no chosen atoms give no blocks *)
Theorem C78_combined_rejected : forall i f keys k, made i f -> In k keys -> valency f <= k -> splits_combined f keys = Err IndexErr.
Proof.
  intros i f keys k M Hk Hv. assert (F := m_fit i f M). destruct (splits_ok f F) as (sp & Es & Ls & _). destruct keys as [|k0 keys]; [contradiction|]. unfold splits_combined. rewrite Es. cbn [bind].
  destruct (Nat.lt_ge_cases k0 (valency f)) as [H0|H0]; [|rewrite lget_err by lia; reflexivity]. destruct Hk as [->|Hk]; [lia|].
  rewrite (lget_ok sp k0 ([], [])) by lia. cbn [bind]. destruct (part_of_split_ok f sp k0 F Es H0) as (s & E & P). rewrite E. cbn [bind].
  set (stp := fun (combined_part : setpart) (atomkey : nat) => _).
  assert (X : forall keys done s, part_ok f done s -> In k keys -> foldM stp keys s = Err IndexErr).
  { clear -F Es Ls Hv. induction keys as [|j keys IH]; intros dn s P Hk; [contradiction|]. cbn [foldM].
    destruct (Nat.lt_ge_cases j (valency f)) as [H0|H0]; [|unfold stp at 1; rewrite lget_err by lia; reflexivity]. destruct Hk as [->|Hk]; [lia|].
    assert (St : exists m, stp s j = Ok m /\ part_ok f (dn ++ [j]) m).
    { unfold stp. rewrite (lget_ok sp j ([], [])) by lia. cbn [bind]. destruct (part_of_split_ok f sp j F Es H0) as (t & E & Pt). rewrite E. cbn [bind]. apply (meet_part_ok f dn [j] (dn ++ [j]) s t P Pt). intro x. rewrite in_app_iff. reflexivity. }
    destruct St as (m & -> & Pm). cbn [bind]. exact (IH _ m Pm Hk). }
  rewrite (X keys [k0] s P Hk). reflexivity.
Qed.
Print Assumptions C78_combined_rejected.

(** hypersplits_detailed has the same sets of atoms, with a block for each combination of values *)
Theorem C78_detailed : forall order f h, (forall l, Permutation (order l) l) -> made false f -> no_links f -> none_fixed f -> hypersplits order f = Ok h ->
  exists d, hypersplits_detailed order f = Ok d /\ map (fun nl => (fst nl, map fst (snd nl))) d = map (fun nl => (fst nl, map fst (snd nl))) h /\
    forall n l keys blocks, In (n, l) d -> In (keys, blocks) l ->
      map fst blocks = map (fun i => map (Nat.testbit i) (seq 0 n)) (seq 0 (2 ^ n)) /\
      forall label spots, In (label, spots) blocks -> spots <> [] /\ ascending spots /\
        forall s, In s spots <-> spot f s /\ forall p, p < n -> Nat.testbit s (nth p keys 0) = nth p label false.
Proof.
  intros order f h Ho M NL NF Eh. assert (F := m_fit false f M). unfold hypersplits_detailed. rewrite Eh. cbn [bind].
  destruct (hypersplits_spec order f Ho (m_red f M) NL NF) as (m & h' & E' & Hm & (Kh & Vh) & _ & _). rewrite Eh in E'. injection E' as <-.
  assert (Pos : forall n l, In (n, l) h -> 1 <= n) by (intros n l Hi; apply (in_map fst) in Hi; rewrite Kh in Hi; apply in_seq in Hi; cbn in Hi; lia).
  assert (G : forall t, (forall x, In x t -> In x h) -> exists d,
     mapM (fun nl : nat * list hyper => let* l := mapM (fun d : hyper => let* b := labeled_blocks f (fst nl) (fst d) in Ok (fst d, b)) (snd nl) in Ok (fst nl, l)) t = Ok d /\
     map (fun nl => (fst nl, map fst (snd nl))) d = map (fun nl => (fst nl, map fst (snd nl))) t /\
     forall n l keys blocks, In (n, l) d -> In (keys, blocks) l -> key_set f n keys /\ shattered f keys /\ 1 <= n /\ labeled_blocks f n keys = Ok blocks).
  { clear Eh Kh. induction t as [|[n l] t IH]; intro Ht; [exists []; split; [reflexivity | split; [reflexivity | intros ? ? ? ? []]]|].
    destruct IH as (d & E & Em & Hd); [intros x Hx; apply Ht; right; exact Hx|]. assert (Hn := Ht _ (or_introl eq_refl)). destruct (Vh n l Hn) as ((_ & I & _) & _). assert (Hp := Pos n l Hn).
    assert (Inner : forall u, (forall x, In x u -> In x l) -> exists v, mapM (fun d : hyper => let* b := labeled_blocks f n (fst d) in Ok (fst d, b)) u = Ok v /\ map fst v = map fst u /\
       forall keys blocks, In (keys, blocks) v -> key_set f n keys /\ shattered f keys /\ labeled_blocks f n keys = Ok blocks).
    { induction u as [|[keys s] u IHu]; intro Hu; [exists []; split; [reflexivity | split; [reflexivity | intros ? ? []]]|]. destruct IHu as (v & Ev & Mv & Hv); [intros x Hx; apply Hu; right; exact Hx|].
      assert (Hk : In keys (map fst l)) by (assert (X := Hu _ (or_introl eq_refl)); apply (in_map fst) in X; exact X). apply I in Hk as [K Sh].
      destruct (labeled_blocks_spec f n keys F Hp) as (r & Er & _); [apply K | apply K|]. exists ((keys, r) :: v). cbn [mapM fst]. rewrite Er. cbn [bind]. rewrite Ev. cbn [bind]. split; [reflexivity|]. split; [cbn; rewrite Mv; reflexivity|].
      intros ks bs [H|H]; [injection H as <- <-; auto | apply Hv; exact H]. }
    destruct (Inner l (fun x H => H)) as (v & Ev & Mv & Hv). exists ((n, v) :: d). cbn [mapM fst snd]. rewrite Ev. cbn [bind]. rewrite E. cbn [bind]. split; [reflexivity|]. split; [cbn [map fst snd]; rewrite Mv, Em; reflexivity|].
    intros n' l' keys blocks [H|H] Hb; [injection H as <- <-; destruct (Hv keys blocks Hb) as (H1 & H2 & H3); auto | exact (Hd n' l' keys blocks H Hb)]. }
  destruct (G h (fun x H => H)) as (d & E & Em & Hd). exists d. split; [exact E|]. split; [exact Em|]. intros n l keys blocks Hl Hb. destruct (Hd n l keys blocks Hl Hb) as (K & Sh & Hn & Eb).
  destruct (labeled_blocks_spec f n keys F Hn) as (r & Er & Lr & Br); [apply K | apply K|]. rewrite Eb in Er. injection Er as <-. split; [exact Lr|].
  intros label spots Hs. destruct (Br label spots Hs) as [As Is]. split; [|split; [exact As | exact Is]].
  assert (Hlab : In label (map fst blocks)) by (apply (in_map fst) in Hs; exact Hs). rewrite Lr in Hlab. apply in_map_iff in Hlab as (i & <- & Hi). apply range_In in Hi.
  destruct (proj1 (shattered_spots f n keys F K) Sh i Hi) as (s & Ss & Ps). intro X. enough (Y : In s spots) by (rewrite X in Y; destruct Y). apply Is. split; [exact Ss|]. intros p Hp.
  rewrite (nth_indep (map _ _) false (Nat.testbit i 0)) by (rewrite map_length, range_length; exact Hp). rewrite map_nth, nth_range by exact Hp. rewrite <- Ps. unfold proj. rewrite testbit_b2n.
  destruct K as (_ & L & _). rewrite (nth_indep (map _ _) false (Nat.testbit s 0)) by (rewrite map_length; lia). rewrite map_nth. reflexivity.
Qed.
Print Assumptions C78_detailed.

(** ** C79 *)

(** for each set of independent atoms: an atom outside of the set is free, if it crosses all of
    them, and otherwise determined by a border; the vectors are all choices of signs that are
    possible then *)
Theorem C79_cores : forall order f h, (forall l, Permutation (order l) l) -> made false f -> no_links f -> none_fixed f -> hypersplits order f = Ok h ->
  exists d, hypersplits_potential_cores order f = Ok d /\ map (fun nl => (fst nl, map c_fixed (snd nl))) d = map (fun nl => (fst nl, map fst (snd nl))) h /\
    forall n l c, In (n, l) d -> In c l ->
      ascending (c_free c) /\
      (forall k, In k (c_free c) <-> k < valency f /\ ~ In k (c_fixed c) /\ forall j, In j (c_fixed c) -> crossing f j k) /\
      NoDup (map fst (c_determined c)) /\
      (forall k v, In (k, v) (c_determined c) <-> k < valency f /\ ~ In k (c_fixed c) /\ exists j q, In j (c_fixed c) /\ border_at f j k q /\ v = sg q) /\
      NoDup (c_vectors c) /\
      (forall v, In v (c_vectors c) <-> length v = valency f /\ (forall k, In k (c_fixed c) -> nth k v 0%Z = 0%Z) /\
         forall k, k < valency f -> ~ In k (c_fixed c) ->
           (nth k v 0%Z = 1%Z \/ nth k v 0%Z = (-1)%Z) /\ forall j q, In j (c_fixed c) -> border_at f j k q -> nth k v 0%Z = sg q).
Proof.
  intros order f h Ho M NL NF Eh. assert (R := m_red f M). unfold hypersplits_potential_cores. destruct (is_blightless_spec order f Ho R) as (b & Eb & Hb). rewrite Eb, (proj2 Hb (conj NL NF)). cbn [bind true_except]. rewrite Eh. cbn [bind].
  destruct (hypersplits_spec order f Ho R NL NF) as (m & h' & E' & Hm & (Kh & Vh) & _ & _). rewrite Eh in E'. injection E' as <-.
  assert (G : forall t, (forall x, In x t -> In x h) -> exists d,
     mapM (fun nl : nat * list hyper => let* l := mapM (fun d : hyper => potential_core f (fst d)) (snd nl) in Ok (fst nl, l)) t = Ok d /\
     map (fun nl => (fst nl, map c_fixed (snd nl))) d = map (fun nl => (fst nl, map fst (snd nl))) t /\
     forall n l c, In (n, l) d -> In c l -> key_set f n (c_fixed c) /\ shattered f (c_fixed c) /\ potential_core f (c_fixed c) = Ok c).
  { clear Eh Kh. induction t as [|[n l] t IH]; intro Ht; [exists []; split; [reflexivity | split; [reflexivity | intros ? ? ? []]]|].
    destruct IH as (d & E & Em & Hd); [intros x Hx; apply Ht; right; exact Hx|]. assert (Hn := Ht _ (or_introl eq_refl)). destruct (Vh n l Hn) as ((_ & I & _) & _).
    assert (Inner : forall u, (forall x, In x u -> In x l) -> exists v, mapM (fun d : hyper => potential_core f (fst d)) u = Ok v /\ map c_fixed v = map fst u /\
       forall c, In c v -> key_set f n (c_fixed c) /\ shattered f (c_fixed c) /\ potential_core f (c_fixed c) = Ok c).
    { induction u as [|[keys s] u IHu]; intro Hu; [exists []; split; [reflexivity | split; [reflexivity | intros ? []]]|]. destruct IHu as (v & Ev & Mv & Hv); [intros x Hx; apply Hu; right; exact Hx|].
      assert (Hk : In keys (map fst l)) by (assert (X := Hu _ (or_introl eq_refl)); apply (in_map fst) in X; exact X). apply I in Hk as [K Sh].
      destruct (potential_core_spec f n keys R NL NF K Sh) as (c & Ec & Fc & _). exists (c :: v). cbn [mapM fst]. rewrite Ec. cbn [bind]. rewrite Ev. cbn [bind]. split; [reflexivity|]. split; [cbn; rewrite Mv, Fc; reflexivity|].
      intros c' [<-|H]; [rewrite Fc; auto | apply Hv; exact H]. }
    destruct (Inner l (fun x H => H)) as (v & Ev & Mv & Hv). exists ((n, v) :: d). cbn [mapM fst snd]. rewrite Ev. cbn [bind]. rewrite E. cbn [bind]. split; [reflexivity|]. split; [cbn [map fst snd]; rewrite Mv, Em; reflexivity|].
    intros n' l' c [H|H] Hc; [injection H as <- <-; apply Hv; exact Hc | exact (Hd n' l' c H Hc)]. }
  destruct (G h (fun x H => H)) as (d & E & Em & Hd). exists d. split; [exact E|]. split; [exact Em|]. intros n l c Hl Hc. destruct (Hd n l c Hl Hc) as (K & Sh & Ec).
  destruct (potential_core_spec f n (c_fixed c) R NL NF K Sh) as (c' & Ec' & _ & X). rewrite Ec in Ec'. injection Ec' as <-. exact X.
Qed.
Print Assumptions C79_cores.

(** an atom outside of a set of independent atoms is free or determined, but not both; borders of
    independent atoms never disagree, so that the assertions of the code hold *)
Theorem C79_exclusive : forall order f h d n l c k, (forall l, Permutation (order l) l) -> made false f -> no_links f -> none_fixed f -> hypersplits order f = Ok h ->
  hypersplits_potential_cores order f = Ok d -> In (n, l) d -> In c l -> k < valency f ->
  (In k (c_fixed c) /\ ~ In k (c_free c) /\ ~ In k (map fst (c_determined c))) \/
  (~ In k (c_fixed c) /\ In k (c_free c) /\ ~ In k (map fst (c_determined c))) \/
  (~ In k (c_fixed c) /\ ~ In k (c_free c) /\ In k (map fst (c_determined c))).
Proof.
  intros order f h d n l c k Ho M NL NF Eh Ed Hl Hc Hk. destruct (C79_cores order f h Ho M NL NF Eh) as (d' & Ed' & Em & X). rewrite Ed in Ed'. injection Ed' as <-.
  destruct (X n l c Hl Hc) as (_ & If & _ & Id & _).
  assert (Dk : In k (map fst (c_determined c)) <-> exists v, In (k, v) (c_determined c)) by (rewrite in_map_iff; split; [intros ([k' v] & <- & H); exists v; exact H | intros (v & H); exists (k, v); auto]).
  destruct (in_dec Nat.eq_dec k (c_fixed c)) as [Hf|Hf].
  - left. split; [exact Hf|]. split; [intro Y; apply If in Y; tauto | intro Y; apply Dk in Y as (v & Y); apply Id in Y; tauto].
  - right. assert (Bf : forall j, In j (c_fixed c) -> j < valency f).
    { destruct (C77_hypersplits order f Ho M NL NF) as (m & h' & Eh' & _ & _ & V & _). rewrite Eh in Eh'. injection Eh' as <-.
      assert (Y : In (n, map c_fixed l) (map (fun nl => (fst nl, map c_fixed (snd nl))) d)) by (apply in_map_iff; exists (n, l); auto). rewrite Em in Y. apply in_map_iff in Y as ([n' hl] & Y & Hi). injection Y as -> Y.
      destruct (V n hl Hi) as (_ & I & _). assert (Z : In (c_fixed c) (map fst hl)) by (cbn [snd] in Y; rewrite Y; apply in_map; exact Hc). apply I in Z as ((_ & _ & B) & _). exact B. }
    assert (G : forall js, (forall j, In j js -> In j (c_fixed c)) -> (forall j, In j js -> crossing f j k) \/ exists j q, In j (c_fixed c) /\ border_at f j k q).
    { induction js as [|j js IH]; intro Hj; [left; intros j []|]. destruct IH as [IH|IH]; [intros i Hi; apply Hj; right; exact Hi | | right; exact IH].
      assert (Hjk := Hj j (or_introl eq_refl)). destruct (pair_cases f j k (m_red f M) NL NF) as (s & _ & Cs); [intros ->; contradiction | apply Bf; exact Hjk | exact Hk|].
      destruct Cs as [[_ Cr]|[[_ Bq]|[_ Bq]]]; [left; intros i [<-|Hi]; auto | right; exists j, true; auto | right; exists j, false; auto]. }
    destruct (G (c_fixed c) (fun j H => H)) as [G1|(j & q & G1 & G2)].
    + left. split; [exact Hf|]. split; [apply If; auto|]. intro Y. apply Dk in Y as (v & Y). apply Id in Y as (_ & _ & j & q & Hj & Bq & _). apply (proj2 (proj2 Bq)), G1, Hj.
    + right. split; [exact Hf|]. split.
      * intro Y. apply If in Y as (_ & _ & Y). apply (proj2 (proj2 G2)), Y, G1.
      * apply Dk. exists (sg q). apply Id. split; [exact Hk|]. split; [exact Hf|]. exists j, q. auto.
Qed.
Print Assumptions C79_exclusive.

Theorem C79_rejected : forall order f, (forall l, Permutation (order l) l) -> made false f -> ~ (no_links f /\ none_fixed f) ->
  hypersplits_potential_cores order f = Err AssertErr.
Proof.
  intros order f Ho M H. unfold hypersplits_potential_cores. destruct (is_blightless_spec order f Ho (m_red f M)) as (b & Eb & Hb). rewrite Eb. destruct b; [exfalso; apply H, Hb; reflexivity|]. reflexivity.
Qed.
Print Assumptions C79_rejected.

(** ** Examples *)

(* x or y or z; all pairs of atoms are independent, but not all three *)
Example C77_ex : exists f, Boolf_vec [false; true; true; true; true; true; true; true] [0; 1; 2] = Ok f /\ made false f /\ no_links f /\ none_fixed f /\
  exists h, hypersplits (fun l => l) f = Ok h /\ map (fun nl => (fst nl, map fst (snd nl))) h = [(1, [[0]; [1]; [2]]); (2, [[0; 1]; [0; 2]; [1; 2]])].
Proof.
  destruct (Boolf_vec_sorted [false; true; true; true; true; true; true; true] [0; 1; 2]) as (f & E & R & _); [repeat constructor | reflexivity|].
  exists f. split; [exact E|]. split; [apply reduced_made; exact R|].
  assert (B : exists b, is_blightless (fun l => l) f = Ok b /\ b = true) by (vm_compute in E; injection E as <-; eexists; split; [vm_compute; reflexivity | reflexivity]).
  destruct B as (b & Eb & ->). destruct (is_blightless_spec (fun l => l) f (fun l => Permutation_refl l) R) as (b' & Eb' & Hb). rewrite Eb in Eb'. injection Eb' as <-. destruct (proj1 Hb eq_refl) as [NL NF].
  split; [exact NL|]. split; [exact NF|]. vm_compute in E. injection E as <-. eexists. split; [vm_compute; reflexivity | reflexivity].
Qed.

Example C78_ex : exists f, Boolf_vec [false; true; true; true; true; true; true; true] [0; 1; 2] = Ok f /\ made false f /\
  splits_combined f [2; 0] = Ok [[1; 3]; [2]; [4; 6]; [5; 7]]%Z /\
  labeled_blocks f 2 [0; 2] = Ok [([false; false], [2]); ([true; false], [1; 3]); ([false; true], [4; 6]); ([true; true], [5; 7])].
Proof.
  destruct (Boolf_vec_sorted [false; true; true; true; true; true; true; true] [0; 1; 2]) as (f & E & R & _); [repeat constructor | reflexivity|].
  exists f. split; [exact E|]. split; [apply reduced_made; exact R|]. vm_compute in E. injection E as <-. split; vm_compute; reflexivity.
Qed.

(* x or y: the border of x is inside of y; x or y or z: the third atom is free *)
Example C79_ex : exists f g, Boolf_vec [false; true; true; true] [3; 5] = Ok f /\ made false f /\ Boolf_vec [false; true; true; true; true; true; true; true] [0; 1; 2] = Ok g /\ made false g /\
  hypersplits_potential_cores (fun l => l) f = Ok [(1, [mkCore [0] [] [(1, 1%Z)] [[0; 1]%Z]; mkCore [1] [] [(0, 1%Z)] [[1; 0]%Z]])] /\
  potential_core g [0; 1] = Ok (mkCore [0; 1] [2] [] [[0; 0; -1]; [0; 0; 1]]%Z).
Proof.
  destruct (Boolf_vec_sorted [false; true; true; true] [3; 5]) as (f & E & R & _); [repeat constructor | reflexivity|].
  destruct (Boolf_vec_sorted [false; true; true; true; true; true; true; true] [0; 1; 2]) as (g & E' & R' & _); [repeat constructor | reflexivity|].
  exists f, g. split; [exact E|]. split; [apply reduced_made; exact R|]. split; [exact E'|]. split; [apply reduced_made; exact R'|].
  vm_compute in E, E'. injection E as <-. injection E' as <-. split; vm_compute; reflexivity.
Qed.
