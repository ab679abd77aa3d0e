(** Concrete cases for the rounded kernels. *)
From Coq Require Import ZArith Lra Psatz Permutation.
From Flocq.Core Require Import Core.
From Verif.Model Require Import Base Ext Kernel KernelFloat Float64.
From Verif.Spec Require Import KernelSpec FloatSpec.
From Verif.Proofs Require Import ListFacts KernelFacts FloatFacts Float64Facts FloatNorm.
Open Scope string_scope.
Open Scope nat_scope.
Open Scope R_scope.

Lemma repr_scaled z e : (Z.abs z < 2 ^ 53)%Z -> (-1074 <= e <= 900)%Z -> representable fl64 (IZR z * bpow radix2 e).
Proof.
  intros H He. apply repr64. split.
  - apply generic_format_FLT. exists (Float radix2 z e); [reflexivity|exact H|simpl; lia].
  - rewrite Rabs_mult, <- abs_IZR, (Rabs_pos_eq (bpow _ _)) by apply bpow_ge_0.
    apply Rle_trans with (bpow radix2 53 * bpow radix2 900).
    + apply Rmult_le_compat; [apply IZR_le; lia|apply bpow_ge_0| |apply bpow_le; lia].
      change (bpow radix2 53) with (IZR (2 ^ 53)). apply IZR_le. lia.
    + rewrite <- bpow_plus. apply bpow_max. lia.
Qed.
Lemma repr_three_quarters : representable fl64 (3 / 4).
Proof. replace (3 / 4) with (IZR 3 * bpow radix2 (-2)) by (simpl; lra). apply repr_scaled; [reflexivity|lia]. Qed.
Lemma repr_quarter : representable fl64 (1 / 4).
Proof. replace (1 / 4) with (IZR 1 * bpow radix2 (-2)) by (simpl; lra). apply repr_scaled; [reflexivity|lia]. Qed.

Lemma ex_linear fexp fcube : weighs_fl fl64 fexp fcube "linear" 4 1 (3 / 4).
Proof.
  apply (weighs_fl_entry fl64 fexp fcube "linear" 4 1 (3 / 4) _ eq_refl). unfold kernel_entry_fl. fold (norm_fl fl64 1 4).
  assert (E2 : Rltb 4 1 = false) by (apply Rltb_false; lra). rewrite E2, andb_false_r.
  replace (norm_fl fl64 1 4) with (Fin (1 / 4)).
  - unfold fsub, esub, eopp, eadd, rounded. replace (1 + - (1 / 4)) with (3 / 4) by lra. exact repr_three_quarters.
  - unfold norm_fl, fdiv, ediv. destruct (Req_EM_T 4 0); [lra|]. unfold rounded.
    pose proof repr_quarter as E. unfold representable in E. rewrite E. reflexivity.
Qed.

(** The row (3/4, 1/4, 0), added left to right. *)
Lemma ex_row : Forall (fun w => 0 <= w /\ representable fl64 w) [3 / 4; 1 / 4; 0] /\
  float_sum fl64 [3 / 4; 1 / 4; 0] 1 /\ exists w, In w [3 / 4; 1 / 4; 0] /\ w <> 0.
Proof.
  assert (R0 : representable fl64 0) by (apply rounding64). assert (R1 : representable fl64 1) by (apply rounding64).
  pose proof repr_three_quarters as R3. pose proof repr_quarter as R4.
  split; [|split].
  - repeat constructor; auto; lra.
  - apply (fs_add _ _ [3 / 4; 1 / 4] [0] 1 0); [apply Permutation_refl| |constructor|].
    + apply (fs_add _ _ [3 / 4] [1 / 4] (3 / 4) (1 / 4)); [apply Permutation_refl|constructor|constructor|].
      replace (3 / 4 + 1 / 4) with 1 by lra. exact R1.
    + rewrite Rplus_0_r. exact R1.
  - exists (3 / 4). simpl. split; [auto|lra].
Qed.
