(** Property C192: small errors in distances and coordinates. *)
From Coq Require Import Lra.
From Verif.Model Require Import Base Ext Kernel Distance WeightMatrix.
From Verif.Spec Require Import KernelSpec WeightSpec DistanceSpec NoiseSpec.
From Verif.Proofs Require Import NoiseProps NoiseExamples.
Open Scope string_scope.
Open Scope nat_scope.
Open Scope R_scope.

(** C192: with every kernel but boxcar the weight of a pair changes by at most 9/4
    of the change of the ratio distance/bandwidth. *)
Theorem C192_kernels :
  forall k b d d' w w', known_kernel k -> k <> "boxcar" -> 0 < b -> 0 <= d -> 0 <= d' ->
  weighs k b d w -> weighs k b d' w' -> Rabs (w - w') <= 9 / 4 * (Rabs (d - d') / b).
Proof. exact kernel_close. Qed.
Print Assumptions C192_kernels.

(** The same is false of boxcar: arbitrarily small changes move a weight from 1 to 0. *)
Theorem C192_boxcar_refuted :
  forall b e, 0 < b -> 0 < e ->
  exists d d', 0 <= d /\ 0 <= d' /\ Rabs (d - d') <= e /\ weighs "boxcar" b d 1 /\ weighs "boxcar" b d' 0.
Proof. exact boxcar_jump. Qed.
Print Assumptions C192_boxcar_refuted.

(** Bandwidths from neighbour_count, an integer or a share, change by no more than
    the distances. *)
Theorem C192_bandwidths :
  forall e rule row row' b b', 0 <= e -> close e row row' ->
  row_bandwidth rule row b -> row_bandwidth rule row' b' -> Rabs (b - b') <= e.
Proof. exact bandwidth_close. Qed.
Print Assumptions C192_bandwidths.

(** Weights from them do not: arbitrarily small changes move a weight from 1/2 to 1. *)
Theorem C192_adaptive_refuted :
  forall e, 0 < e -> exists row row' b b', close e row row' /\
  row_bandwidth (NearestCount 3) row b /\ row_bandwidth (NearestCount 3) row' b' /\
  weighs "linear" b (nth 1 row 0) (1 / 2) /\ weighs "linear" b' (nth 1 row' 0) 1.
Proof. exact adaptive_jump. Qed.
Print Assumptions C192_adaptive_refuted.

(** The weight matrix of n points: with such kernels and fixed bandwidths of at least
    [bmin] in all dimensions, distances that differ by at most [e] give weights that
    differ by at most (n + 1) * dimensions * 9/4 * e / bmin. *)
Theorem C192_weight_matrix :
  forall kernel_type bandwidth neighbour_count Ds Ds' n e bmin,
  self_distances Ds n -> self_distances Ds' n -> length Ds' = length Ds -> (0 < n)%nat -> 0 <= e -> 0 < bmin ->
  gradual kernel_type bandwidth neighbour_count (length Ds) bmin ->
  (forall dim i j, (dim < length Ds)%nat -> (i < n)%nat -> (j < n)%nat ->
     Rabs (mget 0 (nth dim Ds []) i j - mget 0 (nth dim Ds' []) i j) <= e) ->
  exists W W', weight_matrix_from_distance (map A2 Ds) kernel_type RNone bandwidth neighbour_count = Ok (mmap Fin W) /\
    weight_matrix_from_distance (map A2 Ds') kernel_type RNone bandwidth neighbour_count = Ok (mmap Fin W') /\ rect W n n /\ rect W' n n /\
    forall i j, (i < n)%nat -> (j < n)%nat ->
      Rabs (mget 0 W i j - mget 0 W' i j) <= (INR n + 1) * (INR (length Ds) * (9 / 4 * (e / bmin))).
Proof. exact weights_close. Qed.
Print Assumptions C192_weight_matrix.

(** Points each moved by at most [e]: no euclidean distance changes by more than 2e. *)
Theorem C192_coordinates :
  forall mkw (scipy : string -> option (mkw -> list R -> list R -> R)) kw points points' n d e,
  rect points n d -> rect points' n d -> (0 < n)%nat ->
  (forall i, (i < n)%nat -> sqrt (sq_dist d (nth i points []) (nth i points' [])) <= e) ->
  exists D D', distance_matrix (fun x => x) mkw scipy points (Some points) "euclidean" kw = Ok (A2 D) /\
    distance_matrix (fun x => x) mkw scipy points' (Some points') "euclidean" kw = Ok (A2 D') /\
    self_distances [D] n /\ self_distances [D'] n /\
    forall i j, (i < n)%nat -> (j < n)%nat -> Rabs (mget 0 D i j - mget 0 D' i j) <= 2 * e.
Proof. exact coordinates_close. Qed.
Print Assumptions C192_coordinates.

(** Two points at distance 2, one of them moved by 1/10; bisquare with bandwidth 3. *)
Example C192_example :
  self_distances [ [[0; 2]; [2; 0]] ] 2 /\ self_distances [ [[0; 21 / 10]; [21 / 10; 0]] ] 2 /\
  gradual (DScal "bisquare") (DScal 3) DNone 1 3 /\
  (forall dim i j, (dim < 1)%nat -> (i < 2)%nat -> (j < 2)%nat ->
     Rabs (mget 0 (nth dim [ [[0; 2]; [2; 0]] ] []) i j - mget 0 (nth dim [ [[0; 21 / 10]; [21 / 10; 0]] ] []) i j) <= 1 / 10).
Proof.
  split; [apply two_self; lra|]. split; [apply two_self; lra|]. split; [apply bis_gradual|]. exact two_close.
Qed.

(** The same from coordinates. *)
Example C192_example_points :
  rect [[0]; [2]] 2 1 /\ rect [[0]; [21 / 10]] 2 1 /\
  forall i, (i < 2)%nat -> sqrt (sq_dist 1 (nth i [[0]; [2]] []) (nth i [[0]; [21 / 10]] [])) <= 1 / 10.
Proof. split; [split; [reflexivity|repeat constructor]|]. split; [split; [reflexivity|repeat constructor]|]. exact moved_little. Qed.

(** Share of one half of three distances. *)
Example C192_example_bandwidth :
  close (1 / 10) [0; 1; 2] [0; 11 / 10; 2] /\ exists b b', row_bandwidth (Fraction (1 / 2)) [0; 1; 2] b /\ row_bandwidth (Fraction (1 / 2)) [0; 11 / 10; 2] b'.
Proof. exact rows_close. Qed.
