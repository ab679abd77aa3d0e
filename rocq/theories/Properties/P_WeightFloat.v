(** Properties C152-C154: whole weight matrices computed with rounding.  [fl] is
    any rounding, [fexp] and [fcube] faithful, [rowsum] any order of addition,
    [quantile] whatever [np.quantile] returned; [fl32] is single precision, the
    type of the code's distance matrices. *)
From Coq Require Import Lra Psatz ZArith.
From Flocq.Core Require Import Core.
From Verif.Model Require Import Base Ext Kernel Distance WeightMatrix KernelFloat WeightFloat Float32.
From Verif.Spec Require Import KernelSpec WeightSpec FloatSpec WeightFloatSpec.
From Verif.Proofs Require Import FloatFacts FloatNorm Float32Facts WeightFloatThms WeightFloatSame WeightFloat32 WeightFloatExamples.
Open Scope string_scope.
Open Scope nat_scope.
Open Scope R_scope.

(** C152 *)
Theorem C152_entries : forall fl fexp fcube, rounding fl -> faithful_exp fl fexp -> faithful_cube fl fcube ->
  forall rowsum quantile Ds kernel_type bandwidth neighbour_count r c W,
  valid_distances Ds r c -> (0 < r)%nat -> sums_rows fl rowsum c ->
  weight_matrix_from_distance_fl fl fexp fcube rowsum quantile Ds kernel_type bandwidth neighbour_count = Ok W ->
  exists V, W = mmap Fin V /\ rect V r c /\ entries (fun v => 0 <= v <= 1) V.
Proof. exact fl_entries. Qed.
Print Assumptions C152_entries.

(** Outside the support of one dimension the weight is exactly zero. *)
Theorem C152_outside_is_zero : forall fl fexp fcube, rounding fl -> faithful_exp fl fexp -> faithful_cube fl fcube ->
  forall rowsum quantile Ds kernel_type bandwidth neighbour_count r c W,
  valid_distances Ds r c -> (0 < r)%nat -> sums_rows fl rowsum c ->
  weight_matrix_from_distance_fl fl fexp fcube rowsum quantile Ds kernel_type bandwidth neighbour_count = Ok W ->
  forall dim k p b i j, (dim < length Ds)%nat -> (i < r)%nat -> (j < c)%nat ->
  requests kernel_type bandwidth neighbour_count dim k p ->
  row_bandwidth_fl quantile p (nth i (nth dim Ds []) []) b -> 0 < b ->
  outside k b (mget 0 (nth dim Ds []) i j) -> mget NaN W i j = Fin 0.
Proof. exact fl_outside. Qed.
Print Assumptions C152_outside_is_zero.

(** A target no farther in every dimension weighs no less. *)
Theorem C152_nearer_weighs_no_less : forall fl fexp fcube, rounding fl -> faithful_exp fl fexp -> faithful_cube fl fcube ->
  forall rowsum quantile Ds kernel_type bandwidth neighbour_count r c W,
  valid_distances Ds r c -> (0 < r)%nat -> sums_rows fl rowsum c ->
  weight_matrix_from_distance_fl fl fexp fcube rowsum quantile Ds kernel_type bandwidth neighbour_count = Ok W ->
  (forall dim b, arg_at bandwidth dim = Some b -> 0 <= b) ->
  (forall q row, Forall (Rle 0) row -> 0 <= quantile q row) ->
  forall i j j' v v', increasing_on (fun t => t <= 0) fexp -> increasing_on (fun t => 0 <= t <= 1) fcube ->
  (i < r)%nat -> (j < c)%nat -> (j' < c)%nat ->
  (forall D, In D Ds -> mget 0 D i j <= mget 0 D i j') ->
  mget NaN W i j = Fin v -> mget NaN W i j' = Fin v' -> v' <= v.
Proof. exact fl_nearer. Qed.
Print Assumptions C152_nearer_weighs_no_less.

(** A row that contains a coinciding pair sums to 1 up to rounding. *)
Theorem C152_row_sums : forall fl fexp fcube, rounding fl -> faithful_exp fl fexp -> faithful_cube fl fcube ->
  forall rowsum quantile Ds kernel_type bandwidth neighbour_count r c W,
  valid_distances Ds r c -> (0 < r)%nat -> sums_rows fl rowsum c ->
  weight_matrix_from_distance_fl fl fexp fcube rowsum quantile Ds kernel_type bandwidth neighbour_count = Ok W ->
  (forall dim b, arg_at bandwidth dim = Some b -> 0 <= b) ->
  (forall q row, Forall (Rle 0) row -> 0 <= quantile q row) ->
  forall u eta i j, accurate fl u eta -> (i < r)%nat -> (j < c)%nat ->
  (forall D, In D Ds -> mget 0 D i j = 0) ->
  exists vs, nth i W [] = map Fin vs /\ length vs = c /\
    (1 - u) / (1 + u) ^ (c - 1) - INR c * eta <= Rsum vs <= (1 + u) / (1 - u) ^ (c - 1) + INR c * eta.
Proof. exact fl_row_sum. Qed.
Print Assumptions C152_row_sums.

(** Single precision satisfies the assumptions, for rows of up to 2^24 targets. *)
Theorem C152_single_precision :
  rounding fl32 /\ accurate fl32 (bpow radix2 (-24)) (bpow radix2 (-150)) /\
  faithful_exp fl32 exp32 /\ faithful_cube fl32 cube32 /\
  increasing_on (fun t => t <= 0) exp32 /\ increasing_on (fun t => 0 <= t <= 1) cube32 /\
  forall n, (Z.of_nat n <= 2 ^ 24)%Z -> sums_rows fl32 (left_to_right fl32) n.
Proof.
  exact (conj rounding32 (conj accurate32 (conj exp32_faithful (conj cube32_faithful (conj exp32_increasing (conj cube32_increasing left_to_right32)))))).
Qed.
Print Assumptions C152_single_precision.

Example C152_example : valid_distances [fx_D] 1 4 /\ (forall D, In D [fx_D] -> mget 0 D 0 0 = 0) /\
  weight_matrix_from_distance_fl fl32 exp32 cube32 (left_to_right fl32) exact_quantile [fx_D] (DScal "linear") (DScal 2) DNone
    = Ok [[Fin (1 / 2); Fin (1 / 4); Fin (1 / 4); Fin 0]].
Proof. split; [exact fx_valid|]. split; [intros D [<-|[]]; reflexivity|exact fx_ok]. Qed.

(** C153: support in single precision, one dimension. *)
Theorem C153_support_is_exact : forall fexp fcube, faithful_exp fl32 fexp -> faithful_cube fl32 fcube ->
  forall rowsum quantile Ds kernel_type bandwidth neighbour_count r c W,
  valid_distances Ds r c -> (0 < r)%nat -> (Z.of_nat c <= 2 ^ 24)%Z -> sums_rows fl32 rowsum c ->
  weight_matrix_from_distance_fl fl32 fexp fcube rowsum quantile Ds kernel_type bandwidth neighbour_count = Ok W ->
  forall k p b i j, length Ds = 1%nat -> requests kernel_type bandwidth neighbour_count 0 k p -> (i < r)%nat -> (j < c)%nat ->
  row_bandwidth_fl quantile p (nth i (nth 0 Ds []) []) b -> 0 < b -> representable fl32 b ->
  entries (representable fl32) (nth 0 Ds []) -> (vanishing_kernel k \/ k = "boxcar") ->
  (mget NaN W i j <> Fin 0 <-> inside k b (mget 0 (nth 0 Ds []) i j)).
Proof. exact support32. Qed.
Print Assumptions C153_support_is_exact.

(** With a count of z neighbours, [b] the distance of the z-th nearest. *)
Theorem C153_nearest_neighbours : forall fexp fcube rowsum quantile D kernel_type neighbour_count r c W k z b i j,
  faithful_exp fl32 fexp -> faithful_cube fl32 fcube ->
  valid_distances [D] r c -> (0 < r)%nat -> (Z.of_nat c <= 2 ^ 24)%Z -> sums_rows fl32 rowsum c ->
  entries (representable fl32) D ->
  weight_matrix_from_distance_fl fl32 fexp fcube rowsum quantile [D] kernel_type DNone neighbour_count = Ok W ->
  arg_at kernel_type 0 = Some k -> (vanishing_kernel k \/ k = "boxcar") -> arg_at neighbour_count 0 = Some (CInt z) ->
  (i < r)%nat -> (j < c)%nat -> kth_smallest (nth i D []) (Z.to_nat z) b -> 0 < b ->
  (mget NaN W i j <> Fin 0 <-> inside k b (mget 0 D i j)).
Proof. exact nearest_support32. Qed.
Print Assumptions C153_nearest_neighbours.

(** A coinciding target always keeps a positive weight. *)
Theorem C153_coincident_positive : forall fexp fcube, faithful_exp fl32 fexp -> faithful_cube fl32 fcube ->
  forall rowsum quantile Ds kernel_type bandwidth neighbour_count r c W,
  valid_distances Ds r c -> (0 < r)%nat -> (Z.of_nat c <= 2 ^ 24)%Z -> sums_rows fl32 rowsum c ->
  weight_matrix_from_distance_fl fl32 fexp fcube rowsum quantile Ds kernel_type bandwidth neighbour_count = Ok W ->
  (forall dim b, arg_at bandwidth dim = Some b -> 0 <= b) ->
  (forall q row, Forall (Rle 0) row -> 0 <= quantile q row) ->
  forall i j v, (i < r)%nat -> (j < c)%nat -> (forall D, In D Ds -> mget 0 D i j = 0) ->
  mget NaN W i j = Fin v -> bpow radix2 (-24) <= v.
Proof. exact coincident32. Qed.
Print Assumptions C153_coincident_positive.

(** "inside the support of every dimension means a positive weight" (C14 without
    rounding) is false in single precision: three dimensions can underflow. *)
Theorem C153_several_dimensions_refuted : exists D W,
  valid_distances [D; D; D] 1 2 /\ mget 0 D 0 1 < 1 /\
  weight_matrix_from_distance_fl fl32 exp32 cube32 (left_to_right fl32) exact_quantile
    [D; D; D] (DScal "tricube") (DScal 1) DNone = Ok W /\ mget NaN W 0 1 = Fin 0.
Proof.
  destruct three_dimensions as (W & HW & E). exists near_edge, W.
  split; [exact near_edge_valid|]. split; [exact (proj2 below_one32_bounds)|]. split; [exact HW|exact E].
Qed.
Print Assumptions C153_several_dimensions_refuted.

Example C153_example : entries (representable fl32) fx_D /\ representable fl32 2 /\ kth_smallest (nth 0 fx_D []) 4 2 /\
  inside "linear" 2 (mget 0 fx_D 0 1) /\ ~ inside "linear" 2 (mget 0 fx_D 0 3).
Proof.
  split; [exact fx_repr|]. split; [exact fx2|]. split; [exact fx_nearest|]. split.
  - left. split; [left; reflexivity|]. unfold mget. simpl. lra.
  - intros [[_ H]|[H _]]; [unfold mget in H; simpl in H; lra|discriminate].
Qed.

(** C154: rounding never changes which calls succeed nor the exception raised ... *)
Theorem C154_same_outcome : forall fl fexp fcube rowsum quantile Ds kernel_type bandwidth neighbour_count,
  same_outcome (weight_matrix_from_distance_fl fl fexp fcube rowsum quantile Ds kernel_type bandwidth neighbour_count)
               (weight_matrix_from_distance (map A2 Ds) kernel_type RNone bandwidth neighbour_count).
Proof. exact outcome. Qed.
Print Assumptions C154_same_outcome.

(** ... and without rounding the two models are the same program. *)
Theorem C154_same_program : forall Ds kernel_type bandwidth neighbour_count,
  weight_matrix_from_distance_fl Fin exact_exp exact_cube esum exact_quantile Ds kernel_type bandwidth neighbour_count =
  weight_matrix_from_distance (map A2 Ds) kernel_type RNone bandwidth neighbour_count.
Proof. exact same_program. Qed.
Print Assumptions C154_same_program.

Example C154_example : exists W,
  weight_matrix_from_distance_fl fl32 exp32 cube32 (left_to_right fl32) exact_quantile [fx_D] (DScal "linear") (DScal 2) DNone = Ok W.
Proof. exists fx_W. exact fx_ok. Qed.
