(** Property C194: several dimensions as one. *)
From Coq Require Import Lra Lia.
From Verif.Model Require Import Base Ext Kernel Distance WeightMatrix.
From Verif.Spec Require Import KernelSpec WeightSpec OneDimSpec.
From Verif.Proofs Require Import OneDimProps.
Open Scope string_scope.
Open Scope nat_scope.
Open Scope R_scope.

(** Gaussian kernels with fixed bandwidths: the weights are those of one dimension of
    bandwidth 1, with the root of the sum of squares of the distances in bandwidths. *)
Theorem C194_gaussian :
  forall Ds bs r c, valid_distances Ds r c -> (0 < r)%nat -> List.length bs = List.length Ds -> (forall dim, (dim < List.length Ds)%nat -> 0 < nth dim bs 0) ->
  weight_matrix_from_distance (map A2 Ds) (DScal "gaussian") RNone (DList (map Some bs)) DNone =
  weight_matrix_from_distance [A2 (root_of_squares Ds bs r c)] (DScal "gaussian") RNone (DScal 1) DNone.
Proof. exact gaussian_merge. Qed.
Print Assumptions C194_gaussian.

(** So splitting coordinates into dimensions only chooses their units. *)
Theorem C194_gaussian_coordinates :
  forall mkw no_kw scipy dask sort dargs truthy fs Ps Qs bs n m widths,
  point_sets Ps n widths -> point_sets Qs m widths -> (0 < n)%nat -> (0 < m)%nat -> Ps <> [] ->
  List.length bs = List.length Ps -> (forall dim, (dim < List.length Ps)%nat -> 0 < nth dim bs 0) ->
  weight_matrix_from_points (fun x => x) mkw no_kw scipy dask sort dargs truthy fs Ps (Some Qs) (Scalar "euclidean") (DScal "gaussian") RNone (DList (map Some bs)) DNone None =
  weight_matrix_from_points (fun x => x) mkw no_kw scipy dask sort dargs truthy fs [joined Ps bs n] (Some [joined Qs bs m]) (Scalar "euclidean") (DScal "gaussian") RNone (DScal 1) DNone None.
Proof. exact points_merge. Qed.
Print Assumptions C194_gaussian_coordinates.

(** Exponential kernels: the same with the sum of the distances in bandwidths. *)
Theorem C194_exponential :
  forall Ds bs r c, valid_distances Ds r c -> (0 < r)%nat -> List.length bs = List.length Ds -> (forall dim, (dim < List.length Ds)%nat -> 0 < nth dim bs 0) ->
  weight_matrix_from_distance (map A2 Ds) (DScal "exponential") RNone (DList (map Some bs)) DNone =
  weight_matrix_from_distance [A2 (sum_of_ratios Ds bs r c)] (DScal "exponential") RNone (DScal 1) DNone.
Proof. exact exponential_merge. Qed.
Print Assumptions C194_exponential.

(** With every kernel the neighbours at the combined distance are neighbours ... *)
Theorem C194_neighbours_kept :
  forall Ds bs r c k W W', valid_distances Ds r c -> (0 < r)%nat -> List.length bs = List.length Ds -> (forall dim, (dim < List.length Ds)%nat -> 0 < nth dim bs 0) -> known_kernel k ->
  weight_matrix_from_distance (map A2 Ds) (DScal k) RNone (DList (map Some bs)) DNone = Ok W ->
  weight_matrix_from_distance [A2 (root_of_squares Ds bs r c)] (DScal k) RNone (DScal 1) DNone = Ok W' ->
  forall i j, (i < r)%nat -> (j < c)%nat -> mget NaN W' i j <> Fin 0 -> mget NaN W i j <> Fin 0.
Proof. exact within. Qed.
Print Assumptions C194_neighbours_kept.

(** ... but with the kernels that vanish there are more.  Relied on: only observations
    within the combined distance of one bandwidth have weight.  False. *)
Theorem C194_same_neighbours_refuted :
  forall k, vanishing_kernel k \/ k = "boxcar" ->
  exists Ds W W', valid_distances Ds 1 2 /\ List.length Ds = 2%nat /\
    weight_matrix_from_distance (map A2 Ds) (DScal k) RNone (DList (map Some [1; 1])) DNone = Ok W /\
    weight_matrix_from_distance [A2 (root_of_squares Ds [1; 1] 1 2)] (DScal k) RNone (DScal 1) DNone = Ok W' /\
    mget NaN W 0 1 <> Fin 0 /\ mget NaN W' 0 1 = Fin 0.
Proof. exact corner_refuted. Qed.
Print Assumptions C194_same_neighbours_refuted.

(** Two points with two space coordinates and one time: bandwidths 2 and 3. *)
Example C194_example :
  valid_distances [corner; corner] 1 2 /\ point_sets [ [[0; 1]; [2; 3]]; [[5]; [7]] ] 2 [2; 1]%nat /\
  (forall dim, (dim < 2)%nat -> 0 < nth dim [2; 3] 0) /\
  nth 1 (joined [ [[0; 1]; [2; 3]]; [[5]; [7]] ] [2; 3] 2) [] = [2 / 2; 3 / 2; 7 / 3] /\
  exists W W', weight_matrix_from_distance (map A2 [corner; corner]) (DScal "bisquare") RNone (DList (map Some [1; 1])) DNone = Ok W /\
    weight_matrix_from_distance [A2 (root_of_squares [corner; corner] [1; 1] 1 2)] (DScal "bisquare") RNone (DScal 1) DNone = Ok W'.
Proof.
  split; [exact corner_valid|]. split; [split; [reflexivity|]; intros [|[|dim]] Hd; cbn in Hd; try lia; (split; [reflexivity|repeat constructor])|].
  split; [intros [|[|dim]] Hd; cbn; lra || lia|]. split; [reflexivity|].
  assert (K : known_kernel "bisquare") by (unfold known_kernel; tauto).
  destruct (merge_success [corner; corner] [1; 1] 1 2 "bisquare" corner_valid ltac:(lia) eq_refl K) as (W & H).
  destruct (merge_success [root_of_squares [corner; corner] [1; 1] 1 2] [1] 1 2 "bisquare" (tab_valid _ _ _ (fun i j _ _ => sqrt_pos _)) ltac:(lia) eq_refl K) as (W' & H').
  exists W, W'. split; [exact H|exact H'].
Qed.
