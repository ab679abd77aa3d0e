(** Property C166: how far computed weights are from the exact ones.  [u] and [eta]
    are the relative error and the underflow threshold of the number format. *)
From Coq Require Import Lra Psatz ZArith.
From Flocq.Core Require Import Core.
From Verif.Model Require Import Base Ext Kernel Distance WeightMatrix KernelFloat WeightFloat Float64 Float32.
From Verif.Spec Require Import KernelSpec WeightSpec FloatSpec WeightFloatSpec FloatErrorSpec.
From Verif.Proofs Require Import FloatFacts FloatNorm Float64Facts Float32Facts WeightFloatThms WeightFloat32 WeightFloatExamples FloatError FloatErrorMatrix FloatErrorInst.
Open Scope string_scope.
Open Scope nat_scope.
Open Scope R_scope.

(** One kernel value: the computed weight [w'] and the exact weight [w] of one distance. *)
Theorem C166_kernel_error : forall fl fexp fcube u eta,
  rounding fl -> faithful_exp fl fexp -> faithful_cube fl fcube -> accurate fl u eta -> wide fl (u + eta) ->
  forall k b d w w', known_kernel k -> 0 <= b -> 0 <= d ->
  weighs k b d w -> weighs_fl fl fexp fcube k b d w' ->
  Rabs (w' - w) <= kernel_error k * (u + eta).
Proof. exact kernel_close. Qed.
Print Assumptions C166_kernel_error.

(** A whole matrix: rows that contain a coinciding pair, fixed bandwidths or integer
    numbers of neighbours, any order of addition. *)
Theorem C166_weight_error : forall fl fexp fcube u eta,
  rounding fl -> faithful_exp fl fexp -> faithful_cube fl fcube -> accurate fl u eta -> wide fl (u + eta) ->
  forall rowsum quantile Ds kernel_type bandwidth neighbour_count r c,
  valid_distances Ds r c -> (0 < r)%nat -> sums_rows fl rowsum c ->
  (forall dim b, arg_at bandwidth dim = Some b -> 0 <= b) ->
  (forall dim q, arg_at neighbour_count dim <> Some (CFloat q)) ->
  forall W W' i j v v',
  weight_matrix_from_distance (map A2 Ds) kernel_type RNone bandwidth neighbour_count = Ok W ->
  weight_matrix_from_distance_fl fl fexp fcube rowsum quantile Ds kernel_type bandwidth neighbour_count = Ok W' ->
  (i < r)%nat -> (j < c)%nat -> (exists j0, (j0 < c)%nat /\ forall D, In D Ds -> mget 0 D i j0 = 0) ->
  21 * (INR (length Ds) * INR c) * (u + eta) <= 1 ->
  mget NaN W i j = Fin v -> mget NaN W' i j = Fin v' ->
  Rabs (v' - v) <= 46 * (INR (length Ds) * INR c) * (u + eta).
Proof. exact matrix_close. Qed.
Print Assumptions C166_weight_error.

(** Both number formats satisfy the assumptions. *)
Theorem C166_number_formats :
  (rounding fl64 /\ accurate fl64 (bpow radix2 (-53)) (bpow radix2 (-1075)) /\ wide fl64 (bpow radix2 (-53) + bpow radix2 (-1075)) /\
   faithful_exp fl64 exp64 /\ faithful_cube fl64 cube64) /\
  (rounding fl32 /\ accurate fl32 (bpow radix2 (-24)) (bpow radix2 (-150)) /\ wide fl32 (bpow radix2 (-24) + bpow radix2 (-150)) /\
   faithful_exp fl32 exp32 /\ faithful_cube fl32 cube32).
Proof.
  exact (conj (conj rounding64 (conj accurate64 (conj wide64 (conj exp64_faithful cube64_faithful))))
              (conj rounding32 (conj accurate32 (conj wide32 (conj exp32_faithful cube32_faithful))))).
Qed.
Print Assumptions C166_number_formats.

(** "Computed weights are close to the exact ones" is false for a row without a
    coinciding pair, such as that of a new location, even in double precision. *)
Theorem C166_new_location_refuted : exists d W W',
  valid_distances [[[d]]] 1 1 /\
  weight_matrix_from_distance [A2 [[d]]] (DScal "gaussian") RNone (DScal 1) DNone = Ok W /\ mget NaN W 0 0 = Fin 1 /\
  weight_matrix_from_distance_fl fl64 exp64 cube64 (left_to_right fl64) exact_quantile [[[d]]] (DScal "gaussian") (DScal 1) DNone = Ok W' /\
  mget NaN W' 0 0 = Fin 0.
Proof. exact far_row. Qed.
Print Assumptions C166_new_location_refuted.

Example C166_example : valid_distances [fx_D] 1 4 /\ sums_rows fl32 (left_to_right fl32) 4 /\
  mget 0 fx_D 0 0 = 0 /\ 21 * (INR (length [fx_D]) * INR 4) * (bpow radix2 (-24) + bpow radix2 (-150)) <= 1 /\
  weight_matrix_from_distance (map A2 [fx_D]) (DScal "linear") RNone (DScal 2) DNone = Ok fx_W /\
  weight_matrix_from_distance_fl fl32 exp32 cube32 (left_to_right fl32) exact_quantile [fx_D] (DScal "linear") (DScal 2) DNone = Ok fx_W.
Proof.
  split; [exact fx_valid|]. split; [apply left_to_right32; lia|]. split; [reflexivity|]. split; [exact example_small|].
  split; [exact fx_exact|exact fx_ok].
Qed.
