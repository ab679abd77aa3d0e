(** Properties C120-C123: the kernels and the row normalisation computed with
    rounding.  [fl] is any rounding ([rounding], IEEE binary64 [fl64] is one); the
    exponential and the cube need only be faithful (off by less than one unit in
    the last place). *)
From Coq Require Import Lra Psatz ZArith.
From Flocq.Core Require Import Core.
From Verif.Model Require Import Base Ext Kernel KernelFloat Float64.
From Verif.Spec Require Import KernelSpec FloatSpec.
From Verif.Proofs Require Import FloatFacts Float64Facts FloatNorm FloatExamples.
Open Scope string_scope.
Open Scope nat_scope.
Open Scope R_scope.

(** C120 *)
Theorem C120_bounded : forall fl fexp fcube, rounding fl -> faithful_exp fl fexp -> faithful_cube fl fcube ->
  forall k D bw, known_kernel k -> entries (Rle 0) D ->
  match bw with BScalar _ => True | BColumn bs => length bs = length D end ->
  exists W, kernel_function_fl fl fexp fcube D bw k = Ok (mmap Fin W) /\
    map (@length R) W = map (@length R) D /\ entries (fun w => 0 <= w <= 1) W.
Proof. exact bounded_fl. Qed.
Print Assumptions C120_bounded.

Theorem C120_coincident_weight_one : forall fl fexp fcube, rounding fl -> faithful_exp fl fexp -> faithful_cube fl fcube ->
  forall k b, known_kernel k -> 0 <= b -> weighs_fl fl fexp fcube k b 0 1.
Proof. exact coincident_fl. Qed.
Print Assumptions C120_coincident_weight_one.

Theorem C120_nearer_weighs_no_less : forall fl fexp fcube, rounding fl -> faithful_exp fl fexp -> faithful_cube fl fcube ->
  forall k b d1 d2 w1 w2,
  increasing_on (fun t => t <= 0) fexp -> increasing_on (fun t => 0 <= t <= 1) fcube ->
  known_kernel k -> 0 <= b -> 0 <= d1 <= d2 ->
  weighs_fl fl fexp fcube k b d1 w1 -> weighs_fl fl fexp fcube k b d2 w2 -> w2 <= w1.
Proof. exact nearer_fl. Qed.
Print Assumptions C120_nearer_weighs_no_less.

(** Binary64 with correctly rounded functions meets all the hypotheses. *)
Example C120_example :
  rounding fl64 /\ faithful_exp fl64 exp64 /\ faithful_cube fl64 cube64 /\
  increasing_on (fun t => t <= 0) exp64 /\ increasing_on (fun t => 0 <= t <= 1) cube64 /\
  weighs_fl fl64 exp64 cube64 "linear" 4 1 (3 / 4).
Proof.
  exact (conj rounding64 (conj exp64_faithful (conj cube64_faithful (conj exp64_increasing (conj cube64_increasing (ex_linear _ _)))))).
Qed.

(** C121: the support of the compact kernels is exact in binary64. *)
Theorem C121_outside_is_zero : forall fl fexp fcube, rounding fl -> faithful_cube fl fcube ->
  forall k b d w, 0 <= d -> 0 < b -> (vanishing_kernel k /\ b <= d) \/ (k = "boxcar" /\ b < d) ->
  weighs_fl fl fexp fcube k b d w -> w = 0.
Proof. exact outside_fl. Qed.
Print Assumptions C121_outside_is_zero.

Theorem C121_inside_is_positive : forall fexp fcube k b d w,
  faithful_cube fl64 fcube ->
  representable fl64 d -> representable fl64 b -> 0 <= d -> vanishing_kernel k -> d < b ->
  weighs_fl fl64 fexp fcube k b d w -> 0 < w.
Proof. exact inside64. Qed.
Print Assumptions C121_inside_is_positive.

Theorem C121_zero_bandwidth : forall fl fexp fcube k d,
  known_kernel k -> k <> "uniform" -> 0 < d -> weighs_fl fl fexp fcube k 0 d 0.
Proof. exact zero_bandwidth_fl. Qed.
Print Assumptions C121_zero_bandwidth.

(** "gaussian and exponential weights never vanish" is false: they underflow. *)
Theorem C121_smooth_kernels_positive_refuted : forall k, smooth_kernel k ->
  exists b d, representable fl64 b /\ representable fl64 d /\ 0 < b /\ 0 <= d /\
    weighs_fl fl64 exp64 cube64 k b d 0.
Proof. exact smooth_underflow. Qed.
Print Assumptions C121_smooth_kernels_positive_refuted.

Example C121_example : representable fl64 below_one /\ 0 <= below_one < 1 /\ representable fl64 1 /\ vanishing_kernel "tricube".
Proof. exact (conj below_one_repr (conj below_one_bounds (conj (proj1 (proj2 (proj2 (proj2 rounding64)))) (or_intror (or_intror eq_refl))))). Qed.

(** C122: normalising a row.  [s] is the row sum as computed, in any order and grouping. *)
Theorem C122_kernel_weights_representable : forall fl fexp fcube, rounding fl -> faithful_exp fl fexp -> faithful_cube fl fcube ->
  forall D bw k W i j w, known_kernel k -> entries (Rle 0) D ->
  kernel_function_fl fl fexp fcube D bw k = Ok W -> (i < length W)%nat -> (j < length (nth i W []))%nat ->
  nth j (nth i W []) NaN = Fin w -> representable fl w.
Proof. exact kernel_function_fl_entry. Qed.
Print Assumptions C122_kernel_weights_representable.

Theorem C122_product_of_dimensions : forall fl, rounding fl ->
  forall ws, Forall (fun w => 0 <= w <= 1 /\ representable fl w) ws ->
  exists p, product_fl fl (map Fin ws) = Fin p /\ 0 <= p <= 1 /\ representable fl p /\
    (forall w, In w ws -> p <= w) /\ ((forall w, In w ws -> w = 1) -> p = 1).
Proof. exact product_unit. Qed.
Print Assumptions C122_product_of_dimensions.

Theorem C122_normalised_row : forall fl, rounding fl ->
  forall ws s, Forall (fun w => 0 <= w /\ representable fl w) ws -> float_sum fl ws s ->
  exists vs, normalise_row_fl fl (map Fin ws) (Fin s) = map Fin vs /\ length vs = length ws /\
    Forall (fun v => 0 <= v <= 1) vs /\
    (forall i, (i < length ws)%nat -> nth i ws 0 = 0 -> nth i vs 0 = 0) /\
    (forall i, (i < length ws)%nat -> s <> 0 -> fl (nth i ws 0 / s) = Fin (nth i vs 0)) /\
    (forall i j, (i < length ws)%nat -> (j < length ws)%nat -> nth i ws 0 <= nth j ws 0 -> nth i vs 0 <= nth j vs 0).
Proof. exact normalise_unit. Qed.
Print Assumptions C122_normalised_row.

(** How far the sum of a normalised row can be from 1. *)
Theorem C122_row_sum_error : forall fl, rounding fl ->
  forall u eta ws s, accurate fl u eta ->
  Forall (fun w => 0 <= w /\ representable fl w) ws -> float_sum fl ws s -> (exists w, In w ws /\ w <> 0) ->
  exists vs, normalise_row_fl fl (map Fin ws) (Fin s) = map Fin vs /\
    (1 - u) / (1 + u) ^ (length ws - 1) - INR (length ws) * eta <= Rsum vs <= (1 + u) / (1 - u) ^ (length ws - 1) + INR (length ws) * eta.
Proof. exact normalise_sum. Qed.
Print Assumptions C122_row_sum_error.

Theorem C122_binary64_accuracy : accurate fl64 (bpow radix2 (-53)) (bpow radix2 (-1075)).
Proof. exact accurate64. Qed.
Print Assumptions C122_binary64_accuracy.

Example C122_example : Forall (fun w => 0 <= w /\ representable fl64 w) [3 / 4; 1 / 4; 0] /\
  float_sum fl64 [3 / 4; 1 / 4; 0] 1 /\ exists w, In w [3 / 4; 1 / 4; 0] /\ w <> 0.
Proof. exact ex_row. Qed.

(** C123: dask and NumPy kernels agree bit for bit, with rounding and overflow. *)
Theorem C123_dask_kernel_agrees_with_rounding : forall fl fexp fcube, rounding fl ->
  forall D bw k, entries (Rle 0) D ->
  match bw with BScalar b => 0 <= b | BColumn bs => Forall (Rle 0) bs end ->
  kernel_function_dask_fl fl fexp fcube D bw k = kernel_function_fl fl fexp fcube D bw k.
Proof. exact dask_agrees_fl. Qed.
Print Assumptions C123_dask_kernel_agrees_with_rounding.

Example C123_example : rounding fl64 /\ entries (Rle 0) [[0; 1]; [3; 2]] /\ Forall (Rle 0) [0; 2].
Proof. split; [exact rounding64|]. split; repeat constructor; lra. Qed.
