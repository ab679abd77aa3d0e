(** Properties C01-C12 and C80: kernels and adaptive bandwidths
    (/repo/georegression/kernel.py). *)
From Coq Require Import Lra Psatz.
From Verif.Model Require Import Base Ext Sort Kernel.
From Verif.Spec Require Import KernelSpec.
From Verif.Proofs Require Import ListFacts KernelFacts SortFacts AdaptiveFacts KernelProps KernelExamples.
Open Scope string_scope.
Open Scope nat_scope.
Open Scope R_scope.

(** C01 *)
Theorem C01_kernel_weights_bounded : forall k D bw,
  known_kernel k -> entries (Rle 0) D ->
  match bw with BScalar _ => True | BColumn bs => length bs = length D end ->
  exists W, kernel_function D bw k = Ok (mmap Fin W) /\
    map (@length R) W = map (@length R) D /\
    entries (fun w => 0 <= w <= 1) W.
Proof. exact kernel_bounded. Qed.
Print Assumptions C01_kernel_weights_bounded.

Example C01_example :
  known_kernel "tricube" /\ entries (Rle 0) [[0; 1]; [3; 2]] /\
  match BColumn [0; -1] with BScalar _ => True | BColumn bs => length bs = length [[0; 1]; [3; 2]] end.
Proof. exact ex_C01. Qed.

(** C02 *)
Theorem C02_coincident_weight_one : forall k b,
  known_kernel k -> 0 <= b -> weighs k b 0 1.
Proof. exact coincident_weight_one. Qed.
Print Assumptions C02_coincident_weight_one.

Example C02_example : known_kernel "gaussian" /\ weighs "gaussian" 3 0 1 /\ weighs "bisquare" 0 0 1.
Proof. exact ex_C02. Qed.

(** C03 *)
Theorem C03_nearer_weighs_no_less : forall k b d1 d2 w1 w2,
  known_kernel k -> 0 <= b -> 0 <= d1 <= d2 ->
  weighs k b d1 w1 -> weighs k b d2 w2 -> w2 <= w1.
Proof. exact nearer_weighs_no_less. Qed.
Print Assumptions C03_nearer_weighs_no_less.

Theorem C03_strictly_decreasing : forall k b d1 d2 w1 w2,
  (vanishing_kernel k /\ d2 <= b) \/ (smooth_kernel k /\ 0 < b) ->
  0 <= d1 < d2 -> weighs k b d1 w1 -> weighs k b d2 w2 -> w2 < w1.
Proof. exact strictly_decreasing. Qed.
Print Assumptions C03_strictly_decreasing.

Example C03_example : weighs "bisquare" 2 1 (9/16) /\ weighs "bisquare" 2 2 0 /\ weighs "linear" 4 1 (3/4).
Proof. exact ex_C03. Qed.

(** C04 *)
Theorem C04_support : forall k b d w,
  known_kernel k -> 0 <= d -> 0 < b -> weighs k b d w ->
  (w = 0 <-> (vanishing_kernel k /\ b <= d) \/ (k = "boxcar" /\ b < d)).
Proof. exact support_exact. Qed.
Print Assumptions C04_support.

Example C04_example : weighs "boxcar" 2 2 1 /\ weighs "boxcar" 2 3 0 /\ weighs "tricube" 2 2 0.
Proof. exact ex_C04. Qed.

(** C05 *)
Theorem C05_zero_bandwidth : forall k d,
  known_kernel k -> k <> "uniform" -> 0 <= d ->
  (d = 0 -> weighs k 0 d 1) /\ (0 < d -> weighs k 0 d 0).
Proof. exact zero_bandwidth. Qed.
Print Assumptions C05_zero_bandwidth.

Example C05_example : known_kernel "exponential" /\ "exponential" <> "uniform" /\ weighs "exponential" 0 5 0.
Proof. exact ex_C05. Qed.

(** C06 *)
Theorem C06_ratio_only : forall k b d c w,
  known_kernel k -> 0 <= d -> 0 < c ->
  (weighs k (c * b) (c * d) w <-> weighs k b d w).
Proof. exact ratio_only. Qed.
Print Assumptions C06_ratio_only.

Example C06_example : weighs "bisquare" (3 * 2) (3 * 1) (9/16).
Proof. exact ex_C06. Qed.

(** C07 *)
Theorem C07_unknown_kernel_rejected : forall k D bw,
  match bw with BScalar _ => True | BColumn bs => length bs = length D end ->
  (raises (kernel_function D bw k) <-> ~ known_kernel k).
Proof. intros k D bw; exact (kernel_raises_iff k D bw). Qed.
Print Assumptions C07_unknown_kernel_rejected.

Example C07_example : ~ known_kernel "triangular" /\ known_kernel "linear".
Proof. exact ex_C07. Qed.

(** C08 *)
Theorem C08_dask_kernel_agrees : forall D bw k,
  entries (Rle 0) D ->
  match bw with BScalar b => 0 <= b | BColumn bs => Forall (Rle 0) bs end ->
  kernel_function_dask D bw k = kernel_function D bw k.
Proof. exact kernel_function_dask_agrees. Qed.
Print Assumptions C08_dask_kernel_agrees.

Example C08_example :
  entries (Rle 0) [[0; 1]; [3; 2]] /\ Forall (Rle 0) [0; 2] /\
  kernel_function_dask [[0; 1]; [3; 1]] (BColumn [0; 2]) "bisquare"
    = Ok [[Fin 1; Fin 0]; [Fin 0; Fin (9/16)]].
Proof. exact ex_C08. Qed.

(** C09 *)
Theorem C09_integer_count_is_kth_nearest : forall D z bs,
  adaptive_bandwidth D (CInt z) = Ok bs <->
  (0 < z)%Z /\
  Forall2 (fun row b => (Z.to_nat z <= length row)%nat /\ kth_smallest row (Z.to_nat z) b) D bs.
Proof. exact adaptive_int_ok. Qed.
Print Assumptions C09_integer_count_is_kth_nearest.

Theorem C09_integer_count_rejected : forall D z,
  raises (adaptive_bandwidth D (CInt z)) <->
  (z <= 0)%Z \/ exists row, In row D /\ (Z.of_nat (length row) < z)%Z.
Proof. exact adaptive_int_raises. Qed.
Print Assumptions C09_integer_count_rejected.

Example C09_example : adaptive_bandwidth [[3; 0; 1]; [2; 2; 5]] (CInt 2) = Ok [1; 2].
Proof. exact ex_C09. Qed.

(** C10 *)
Theorem C10_boxcar_covers_k_neighbours : forall D z W i,
  entries (Rle 0) D -> adaptive_kernel D (CInt z) "boxcar" = Ok W ->
  (i < length D)%nat -> (Z.to_nat z <= nonzero_count (nth i W []))%nat.
Proof. exact adaptive_boxcar_count. Qed.
Print Assumptions C10_boxcar_covers_k_neighbours.

Theorem C10_vanishing_kernels_drop_kth : forall k D z W i,
  vanishing_kernel k -> entries (Rle 0) D -> adaptive_kernel D (CInt z) k = Ok W ->
  (i < length D)%nat ->
  forall b, kth_smallest (nth i D []) (Z.to_nat z) b -> 0 < b ->
  nonzero_count (nth i W []) = count (fun d => Rltb d b) (nth i D []) /\
  (nonzero_count (nth i W []) < Z.to_nat z)%nat.
Proof. exact adaptive_vanishing_count. Qed.
Print Assumptions C10_vanishing_kernels_drop_kth.

(** "neighbour_count = k includes k neighbours" is false for bisquare. *)
Theorem C10_k_neighbours_refuted : exists D z W,
  entries (Rle 0) D /\ adaptive_kernel D (CInt z) "bisquare" = Ok W /\
  exists i, (i < length D)%nat /\ (nonzero_count (nth i W []) < Z.to_nat z)%nat.
Proof. exact k_neighbours_refuted. Qed.
Print Assumptions C10_k_neighbours_refuted.

Example C10_example :
  adaptive_kernel [[0; 1; 2]] (CInt 2) "boxcar" = Ok [[Fin 1; Fin 1; Fin 0]] /\
  adaptive_kernel [[0; 1; 2]] (CInt 2) "bisquare" = Ok [[Fin 1; Fin 0; Fin 0]].
Proof. exact ex_C10. Qed.

(** C11 *)
Theorem C11_fraction_is_type8_quantile : forall row q b,
  adaptive_bandwidth [row] (CFloat q) = Ok [b] ->
  hyndman_fan_8 row q b /\
  (exists x, In x row /\ (forall y, In y row -> x <= y) /\ x <= b) /\
  (exists x, In x row /\ (forall y, In y row -> y <= x) /\ b <= x).
Proof. exact fraction_is_type8. Qed.
Print Assumptions C11_fraction_is_type8_quantile.

Theorem C11_fraction_monotone : forall row q q' b b',
  q <= q' ->
  adaptive_bandwidth [row] (CFloat q) = Ok [b] ->
  adaptive_bandwidth [row] (CFloat q') = Ok [b'] -> b <= b'.
Proof. exact fraction_monotone. Qed.
Print Assumptions C11_fraction_monotone.

Theorem C11_fraction_one_is_max : forall row b,
  adaptive_bandwidth [row] (CFloat 1) = Ok [b] -> In b row /\ (forall y, In y row -> y <= b).
Proof. exact adaptive_float_one. Qed.
Print Assumptions C11_fraction_one_is_max.

Theorem C11_fraction_rejected : forall D q,
  raises (adaptive_bandwidth D (CFloat q)) <-> q <= 0 \/ (1 < q /\ D <> []) \/ In [] D.
Proof. exact adaptive_float_raises. Qed.
Print Assumptions C11_fraction_rejected.

(** Rows are treated independently, so the single-row statements above cover every matrix. *)
Theorem C11_rowwise : forall D q bs,
  adaptive_bandwidth D (CFloat q) = Ok bs <->
  0 < q /\ Forall2 (fun row b => adaptive_bandwidth [row] (CFloat q) = Ok [b]) D bs.
Proof. exact fraction_rowwise. Qed.
Print Assumptions C11_rowwise.

Example C11_example : adaptive_bandwidth [[1; 0]] (CFloat (1/2)) = Ok [1/2].
Proof. exact ex_C11. Qed.

(** C12 *)
Theorem C12_dask_integer_agrees : forall D z,
  (0 < z)%Z -> (z <= Z.of_nat (nrows D))%Z -> Forall (fun row => (Z.to_nat z <= length row)%nat) D ->
  adaptive_bandwidth_dask D (CInt z) (Some (map sortR D)) = adaptive_bandwidth D (CInt z).
Proof. exact dask_sorted_agrees. Qed.
Print Assumptions C12_dask_integer_agrees.

Theorem C12_dask_zero_count_accepted : forall D,
  Forall (fun row => row <> []) D ->
  exists bs, adaptive_bandwidth_dask D (CInt 0) (Some (map sortR D)) = Ok bs /\
    Forall2 (fun row b => In b row /\ forall y, In y row -> y <= b) D bs.
Proof. exact dask_zero_count. Qed.
Print Assumptions C12_dask_zero_count_accepted.

Theorem C12_dask_limit_is_row_count : forall D z S,
  (Z.of_nat (nrows D) < z)%Z -> raises (adaptive_bandwidth_dask D (CInt z) (Some S)).
Proof. exact dask_limit_is_rows. Qed.
Print Assumptions C12_dask_limit_is_row_count.

Theorem C12_dask_float_is_ceiling_count : forall D q S,
  adaptive_bandwidth_dask D (CFloat q) (Some S) =
  adaptive_bandwidth_dask D (CInt (Rceil (INR (nrows D) * q))) (Some S).
Proof. exact dask_float_is_ceil. Qed.
Print Assumptions C12_dask_float_is_ceiling_count.

Theorem C12_dask_agreement_refuted :
  (exists D q bs, adaptive_bandwidth D (CFloat q) = Ok bs /\
     adaptive_bandwidth_dask D (CFloat q) (Some (map sortR D)) <> Ok bs /\
     is_ok (adaptive_bandwidth_dask D (CFloat q) (Some (map sortR D))) = true) /\
  (exists D z, is_ok (adaptive_bandwidth D (CInt z)) = true /\
     raises (adaptive_bandwidth_dask D (CInt z) (Some (map sortR D)))).
Proof. exact dask_agreement_refuted. Qed.
Print Assumptions C12_dask_agreement_refuted.

Example C12_example :
  adaptive_bandwidth_dask [[0; 2]; [2; 0]] (CInt 2) (Some (map sortR [[0; 2]; [2; 0]])) = Ok [2; 2].
Proof. exact ex_C12. Qed.

(** C80 *)
Theorem C80_kernel_textbook : forall k b d,
  known_kernel k -> 0 <= d -> 0 < b -> weighs k b d (textbook k (d / b)).
Proof. exact kernel_textbook. Qed.
Print Assumptions C80_kernel_textbook.

Theorem C80_kernel_entrywise : forall k D bw W,
  kernel_function D bw k = Ok W ->
  length W = length D /\
  forall i j, (i < length D)%nat -> (j < length (nth i D []))%nat ->
    exists b, match bw with BScalar b' => b = b' | BColumn bs => nth_error bs i = Some b end /\
      kernel_function [[nth j (nth i D []) 0]] (BScalar b) k = Ok [[nth j (nth i W []) NaN]].
Proof. exact kernel_entrywise. Qed.
Print Assumptions C80_kernel_entrywise.

Example C80_example : textbook "bisquare" (1/2) = 9/16 /\
  is_ok (kernel_function [[0; 1]; [3; 2]] (BColumn [1; 2]) "gaussian") = true.
Proof. exact ex_C80. Qed.
