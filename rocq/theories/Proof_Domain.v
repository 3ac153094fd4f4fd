(** Domains of set partitions, stated without the tests of the model: 'N' contains the naturals, 'Z' everything, a set its elements.
    Two domains are the same if both are 'N', both are 'Z', or both are sets with the same elements. *)

From Coq Require Import List Arith ZArith Bool Lia.
From Verif Require Import Model_Base Model_SetPart Spec_SetPart Proof_SetPart Proof_SetPartMore.
Import ListNotations.
Local Open Scope Z_scope.

Definition in_dom (d : domain) (x : Z) : Prop := match d with DomN => 0 <= x | DomZ => True | DomSet l => In x l end.
Definition same_domain (a b : domain) : Prop :=
  match a, b with
  | DomN, DomN | DomZ, DomZ => True
  | DomSet l, DomSet m => forall x, In x l <-> In x m
  | _, _ => False
  end.

Lemma in_dom_spec s x : element_in_domain s x = true <-> in_dom (sp_domain s) x.
Proof. unfold element_in_domain, in_dom. destruct (sp_domain s); [apply Z.leb_le | tauto | apply zmemb_In]. Qed.
Lemma out_dom_spec s x : element_in_domain s x = false <-> ~ in_dom (sp_domain s) x.
Proof. rewrite <- in_dom_spec. destruct (element_in_domain s x); split; congruence. Qed.
Lemma same_domain_spec a b : domain_eqb a b = true <-> same_domain a b.
Proof.
  destruct a as [| |l], b as [| |m]; cbn; try (split; [discriminate | intros []]); try tauto.
  rewrite andb_true_iff, !zsubset_spec. split; [intros [H K] x; split; auto | intro H; split; intro x; apply H].
Qed.
Lemma other_domain_spec a b : domain_eqb a b = false <-> ~ same_domain a b.
Proof. rewrite <- same_domain_spec. destruct (domain_eqb a b); split; congruence. Qed.

Lemma accepted_prefix_ext f g ps : (forall x, f x = g x) -> accepted_prefix f ps = accepted_prefix g ps.
Proof. intro H. induction ps as [|[a b] ps IH]; [reflexivity|]. cbn. rewrite !H, IH. reflexivity. Qed.
Lemma op_pairs_ext f g ops : (forall x, f x = g x) -> flat_map (op_pairs f) ops = flat_map (op_pairs g) ops.
Proof.
  intro H. apply flat_map_ext. intros []; unfold op_pairs; try reflexivity; apply accepted_prefix_ext, H.
Qed.
Lemma dom_test s dom : (forall x, dom x = true <-> in_dom (sp_domain s) x) -> forall x, dom x = element_in_domain s x.
Proof.
  intros H x. specialize (H x). rewrite <- in_dom_spec in H. destruct (dom x), (element_in_domain s x); try reflexivity; [symmetry|]; apply H; reflexivity.
Qed.
