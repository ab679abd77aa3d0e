(** A concrete rounded weight matrix. *)
From Coq Require Import Lra Psatz ZArith.
From Flocq.Core Require Import Core.
From Verif.Model Require Import Base Ext Sort Kernel Distance WeightMatrix KernelFloat WeightFloat Float32.
From Verif.Spec Require Import KernelSpec WeightSpec FloatSpec WeightFloatSpec.
From Verif.Proofs Require Import ListFacts KernelFacts SortFacts AdaptiveFacts KernelProps KernelExamples SumFacts CsrFacts WeightFacts WeightProps FloatFacts Float64Facts FloatNorm Float32Facts WeightFloatFacts WeightFloatProps WeightFloatThms WeightFloatSame WeightFloat32.
Open Scope string_scope.
Open Scope nat_scope.
Open Scope R_scope.

(** One row at distances 0, 1, 1 and 2. *)
Definition fx_D : matrix R := [[0; 1; 1; 2]].
Definition fx_W : matrix ext := [[Fin (1 / 2); Fin (1 / 4); Fin (1 / 4); Fin 0]].

Lemma repr_q m e : (Z.abs m < 2 ^ 24)%Z -> (-149 <= e <= 100)%Z -> representable fl32 (IZR m * bpow radix2 e).
Proof.
  intros H He. apply repr32. split.
  - apply generic_format_FLT. exists (Float radix2 m e); [reflexivity|exact H|simpl; lia].
  - rewrite Rabs_mult, <- abs_IZR, (Rabs_pos_eq (bpow _ _)) by apply bpow_ge_0.
    apply Rle_trans with (bpow radix2 24 * bpow radix2 100).
    + apply Rmult_le_compat; [apply IZR_le; lia|apply bpow_ge_0| |apply bpow_le; lia].
      change (bpow radix2 24) with (IZR (2 ^ 24)). apply IZR_le. lia.
    + rewrite <- bpow_plus. apply bpow_max32. lia.
Qed.
Lemma fx0 : fl32 0 = Fin 0. Proof. apply rounding32. Qed.
Lemma fx1 : fl32 1 = Fin 1. Proof. apply rounding32. Qed.
Lemma fx2 : fl32 2 = Fin 2. Proof. apply (repr_int32 2). lia. Qed.
Lemma fx_half : fl32 (1 / 2) = Fin (1 / 2).
Proof. pose proof (repr_q 1 (-1) ltac:(lia) ltac:(lia)) as H. replace (1 / 2) with (IZR 1 * bpow radix2 (-1)) by (simpl; lra). exact H. Qed.
Lemma fx_quarter : fl32 (1 / 4) = Fin (1 / 4).
Proof. pose proof (repr_q 1 (-2) ltac:(lia) ltac:(lia)) as H. replace (1 / 4) with (IZR 1 * bpow radix2 (-2)) by (simpl; lra). exact H. Qed.
Lemma fx_32 : fl32 (3 / 2) = Fin (3 / 2).
Proof. pose proof (repr_q 3 (-1) ltac:(lia) ltac:(lia)) as H. replace (3 / 2) with (IZR 3 * bpow radix2 (-1)) by (simpl; lra). exact H. Qed.

Lemma fx_entry d u w : 0 <= d <= 2 -> d / 2 = u -> fl32 u = Fin u -> 1 - u = w -> fl32 w = Fin w ->
  entry_fl fl32 exp32 cube32 "linear" 2 d = Fin w.
Proof.
  intros Hd Eu Fu Ew Fw. unfold entry_fl. cbn [kernel_expr_fl String.eqb Ascii.eqb Bool.eqb]. unfold kernel_entry_fl.
  assert (E : Rltb 2 d = false) by (apply Rltb_false; lra). rewrite E, andb_false_r.
  unfold fdiv, ediv. destruct (Req_EM_T 2 0); [lra|]. cbn [rounded]. rewrite Eu, Fu. cbn [nan_to_num].
  unfold fsub, esub, eopp, eadd. cbn [rounded]. replace (1 + - u) with w by lra. exact Fw.
Qed.

Lemma fx_valid : valid_distances [fx_D] 1 4.
Proof.
  split; [discriminate|]. constructor; [|constructor]. split; [split; [reflexivity|repeat constructor]|].
  constructor; [|constructor]. constructor; [lra|constructor; [lra|constructor; [lra|constructor; [lra|constructor]]]].
Qed.
Lemma fx_repr : entries (representable fl32) fx_D.
Proof.
  constructor; [|constructor]. constructor; [exact fx0|constructor; [exact fx1|constructor; [exact fx1|constructor; [exact fx2|constructor]]]].
Qed.

Lemma fx_kernel : kernel_function_fl fl32 exp32 cube32 fx_D (BScalar 2) "linear" = Ok [[Fin 1; Fin (1 / 2); Fin (1 / 2); Fin 0]].
Proof.
  apply (proj2 (kernel_fl_iff fl32 exp32 cube32 fx_D (BScalar 2) [2] "linear" _ eq_refl)). split; [unfold known_kernel; auto|].
  unfold raw_fl, fx_D. cbn [map2 map].
  rewrite (fx_entry 0 0 1), (fx_entry 1 (1 / 2) (1 / 2)), (fx_entry 2 1 0); try lra; auto using fx0, fx1, fx_half.
Qed.
Lemma fx_sum : left_to_right fl32 [Fin 1; Fin (1 / 2); Fin (1 / 2); Fin 0] = Fin 2.
Proof.
  unfold left_to_right. cbn [fold_left eadd rounded].
  replace (1 + 1 / 2) with (3 / 2) by lra. rewrite fx_32. cbn [eadd rounded]. replace (3 / 2 + 1 / 2) with 2 by lra. rewrite fx2. cbn [eadd rounded].
  rewrite Rplus_0_r. exact fx2.
Qed.
Lemma fx_ok : weight_matrix_from_distance_fl fl32 exp32 cube32 (left_to_right fl32) exact_quantile [fx_D] (DScal "linear") (DScal 2) DNone = Ok fx_W.
Proof.
  unfold weight_matrix_from_distance_fl. cbn [map one_shape forallb negb is_none andb]. cbv zeta.
  cbn [List.length broadcast_arg repeat seq mapM getitem nth_error bind weight_by_distance_fl kernel_name].
  rewrite fx_kernel. cbn [bind prod_fl fold_left map]. rewrite fx_sum. unfold normalise_row_fl, eis_zero.
  replace (Reqb 2 0) with false by (unfold Reqb; destruct (Req_EM_T 2 0); [lra|reflexivity]).
  cbn [map]. unfold fdiv, ediv. destruct (Req_EM_T 2 0); [lra|]. cbn [rounded].
  replace (1 / 2 / 2) with (1 / 4) by lra. replace (0 / 2) with 0 by lra. rewrite fx_half, fx_quarter, fx0. reflexivity.
Qed.
(** The fourth nearest distance of the row. *)
Lemma fx_nearest : kth_smallest [0; 1; 1; 2] 4 2.
Proof.
  split; [simpl; auto|]. unfold count. cbn [filter].
  replace (Rleb 0 2) with true by (symmetry; apply Rleb_true; lra). replace (Rleb 1 2) with true by (symmetry; apply Rleb_true; lra).
  replace (Rleb 2 2) with true by (symmetry; apply Rleb_true; lra).
  replace (Rltb 0 2) with true by (symmetry; apply Rltb_true; lra). replace (Rltb 1 2) with true by (symmetry; apply Rltb_true; lra).
  replace (Rltb 2 2) with false by (symmetry; apply Rltb_false; lra). simpl. lia.
Qed.
