(** C168: examples. *)
From Coq Require Import Lra Psatz Sorting.Sorted Permutation.
From Verif.Model Require Import Base Ext Sort Csr Neighbour Distance WeightModel Inspect Ale.
From Verif.Spec Require Import KernelSpec NeighbourSpec WeightModelSpec InspectSpec AleSpec AleShapeSpec.
From Verif.Proofs Require Import ListFacts SumFacts KernelFacts SortFacts KernelExamples CsrFacts NeighbourFacts NeighbourProps WeightModelFacts WeightModelProps FitProps InspectProps InspectProps2 InspectProps3 InspectProps4 FitExamples InspectExamples AleFacts AleGrid AleProps AleProps2 AleProps3 AleExamples AleShape AleOrder.
Open Scope nat_scope.
Open Scope R_scope.

Lemma ale_example_of pred G norm : rowwise pred G -> exists a, weighted_ale (fun v => v) eX 0 pred (Some ew) norm 1 = Ok (eq3, a).
Proof.
  intros HG. destruct (wale_total (fun v => v) eX 4 2 0 pred ew norm 1 eX_rect ltac:(lia) ltac:(lia) ltac:(lia)) as (q & a & H).
  - exists 0, 1. split; [left; reflexivity|]. split; [right; left; reflexivity|lra].
  - intros rows Hr. rewrite HG. eexists. split; [reflexivity|]. rewrite map_length. exact Hr.
  - reflexivity.
  - apply ew_pos.
  - exists a. rewrite H. f_equal. f_equal. destruct (ale_example (fun v => v) norm) as (a' & H'). exact (same_grid _ _ _ _ _ _ _ _ _ _ _ _ _ _ H' H).
Qed.

(** z0 * z1: slope 17/3 in the first bin, 9/2 in the second. *)
Definition i_pred (rows : matrix R) : result (list R) := Ok (map (fun z => nth 0 z 0 * nth 1 z 0 + 0) rows).
Lemma i_indep : independent_of 0 (fun z => nth 1 z 0) /\ independent_of 0 (fun _ => 0).
Proof. split; [exact e_indep|intros x x' _ _; reflexivity]. Qed.

Lemma e_members : members eq3 1 (feature_values eX 0) = [0; 1]%nat /\ members eq3 2 (feature_values eX 0) = [2; 3]%nat.
Proof.
  unfold members, feature_values, eX, eq3, in_bin. cbn [map List.length seq filter nth Nat.sub Nat.eqb andb orb].
  split; rdec; reflexivity.
Qed.

Lemma i_bent : exists a, weighted_ale (fun v => v) eX 0 i_pred (Some ew) false 1 = Ok ([0; 3 / 2; 4], a) /\
  nth 1 a 0 - nth 0 a 0 = 17 / 3 * (3 / 2 - 0) /\ nth 2 a 0 - nth 1 a 0 = 9 / 2 * (4 - 3 / 2).
Proof.
  destruct (ale_example_of i_pred _ false (fun rows => eq_refl)) as (a & H). exists a. split; [exact H|].
  assert (HA := proj1 (wale_inv (fun v => v) eX 4 2 0 i_pred ew false 1 _ a eX_rect ltac:(lia) ltac:(lia) H)).
  pose proof (interaction (fun v => v) (fun v => eq_refl) eX 4 2 0 (fun z => nth 1 z 0) (fun _ => 0) i_pred ew false 1 _ a eX_rect (fun rows => eq_refl) (proj1 i_indep) (proj2 i_indep) HA) as HS.
  destruct (HS 1%nat ltac:(simpl; lia)) as (s1 & A1 & E1). destruct (HS 2%nat ltac:(simpl; lia)) as (s2 & A2 & E2).
  destruct e_members as [M1 M2]. rewrite M1 in A1. rewrite M2 in A2. destruct A1 as [_ A1], A2 as [_ A2]. cbn in A1, A2, E1, E2.
  split; [rewrite E1|rewrite E2]; f_equal; lra.
Qed.
