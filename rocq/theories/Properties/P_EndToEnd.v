(** Properties C124-C128: from coordinates to the fitted model and its predictions. *)
From Coq Require Import Lra Psatz Sorting.Sorted.
From Verif.Model Require Import Base Ext Sort Kernel Distance WeightMatrix Csr Neighbour WeightModel.
From Verif.Spec Require Import KernelSpec WeightSpec DistanceSpec NeighbourSpec WeightModelSpec EndToEndSpec.
From Verif.Proofs Require Import ListFacts FitExamples PredictSparse EndToEnd EndToEndExamples.
Open Scope string_scope.
Open Scope nat_scope.
Open Scope R_scope.

(** C124: predict_by_weight is the same weighted sum whether the weights were
    computed with NumPy or with dask. *)
Theorem C124_weighted_sum_any_backend :
  forall est predict_est f32 mkw no_kw scipy_metric dask_metric sort_row dargs truthy a distance_args c fs fs' s X v t es preds W m n,
  cache_data c = true -> cache_estimator c = true ->
  local_estimators est s = Some (map Some es) -> data_coords est s = Some t ->
  weight_matrix_from_points f32 mkw no_kw scipy_metric dask_metric sort_row dargs truthy fs v (Some t)
    (a_measure a) (a_kernel a) (a_ratio a) (a_bandwidth a) (a_count a) distance_args = (fs', Ok (mmap Fin W)) ->
  rect W m n -> (0 < m)%nat -> (0 < n)%nat -> length es = n ->
  Forall2 (fun e p => predict_est e X = Ok p /\ length p = m) es preds ->
  predict_by_weight est predict_est (points_weights f32 mkw no_kw scipy_metric dask_metric sort_row dargs truthy a distance_args) c fs s X (Some v) None =
    (fs', Ok (map Fin (tabulate m (fun i => Rsum (tabulate n (fun j => mget 0 W i j * nth i (nth j preds []) 0)))))).
Proof. exact pbw_any_points. Qed.
Print Assumptions C124_weighted_sum_any_backend.

(** Both backends give the weights [[1; 0]; [1/2; 1/2]] here. *)
Example C124_example :
  s_wmfp p_train p_new None = (no_fs, Ok (mmap Fin [[1; 0]; [1 / 2; 1 / 2]])) /\
  s_wmfp p_train p_new (Some tt) = (s_fs, Ok (mmap Fin [[1; 0]; [1 / 2; 1 / 2]])).
Proof. rewrite <- s_W_real. split; [exact s_numpy|exact s_dask]. Qed.

(** C125: predict_by_fit with dask weights.  [W] are the weights of the training
    points (rows) at the new points (columns).  The local model of new point i is
    trained on the training rows whose *numbers* are those of the new points j
    with W i j nonzero. *)
Theorem C125_fit_prediction_from_dask_weights :
  forall est fit_est predict_est cpu f32 mkw no_kw scipy_metric dask_metric sort_row dargs truthy a d c order fs fs' s X v t tX ty W m n,
  truthy d = true -> cache_data c = true -> (0 < cpu)%nat -> schedule cpu order ->
  data_coords est s = Some t -> data_X est s = Some tX -> data_y est s = Some ty ->
  weight_matrix_from_points f32 mkw no_kw scipy_metric dask_metric sort_row dargs truthy fs t (Some v)
    (a_measure a) (a_kernel a) (a_ratio a) (a_bandwidth a) (a_count a) (Some d) = (fs', Ok W) ->
  rect W n m -> (0 < n)%nat -> length tX = n -> length ty = n -> length X = m ->
  forall out,
  snd (predict_by_fit est fit_est predict_est cpu (points_weights f32 mkw no_kw scipy_metric dask_metric sort_row dargs truthy a (Some d)) c order fs s X (Some v) None) = Ok out <->
    (m <= n)%nat /\ length out = m /\ forall i, (i < m)%nat ->
      exists e T, StronglySorted lt T /\ (forall j, In j T <-> (j < m)%nat /\ eis_zero (mget (Fin 0) W i j) = false) /\
        fit_est i (map (fun j => nth j tX []) T) (map (fun j => nth j ty 0) T) (map (fun j => mget (Fin 0) W i j) T) = Ok e /\
        predict_est e [nth i X []] = Ok (nth i out []).
Proof. exact pbf_dask. Qed.
Print Assumptions C125_fit_prediction_from_dask_weights.

(** More new points than training points: it raises. *)
Theorem C125_more_new_points_raise :
  forall est fit_est predict_est cpu f32 mkw no_kw scipy_metric dask_metric sort_row dargs truthy a d c order fs fs' s X v t tX ty W m n,
  truthy d = true -> (0 < cpu)%nat -> schedule cpu order ->
  data_coords est s = Some t -> data_X est s = Some tX -> data_y est s = Some ty ->
  weight_matrix_from_points f32 mkw no_kw scipy_metric dask_metric sort_row dargs truthy fs t (Some v)
    (a_measure a) (a_kernel a) (a_ratio a) (a_bandwidth a) (a_count a) (Some d) = (fs', Ok W) ->
  rect W n m -> (0 < n)%nat -> length tX = n -> length ty = n -> length X = m -> (n < m)%nat ->
  raises (snd (predict_by_fit est fit_est predict_est cpu (points_weights f32 mkw no_kw scipy_metric dask_metric sort_row dargs truthy a (Some d)) c order fs s X (Some v) None)).
Proof. exact pbf_dask_more. Qed.
Print Assumptions C125_more_new_points_raise.

(** The same weights, but other predictions than with NumPy. *)
Theorem C125_backends_predict_alike_refuted :
  exists W, snd (s_wmfp p_train p_new None) = Ok W /\ snd (s_wmfp p_train p_new (Some tt)) = Ok W /\
  exists out out', s_pbf None [[7]; [8]] p_new = Ok out /\ s_pbf (Some tt) [[7]; [8]] p_new = Ok out' /\ out <> out'.
Proof. exact dask_predicts_differently. Qed.
Print Assumptions C125_backends_predict_alike_refuted.

Example C125_example : s_pbf None [[7]; [8]] p_new = Ok [[1 / 3]; [1]] /\ s_pbf (Some tt) [[7]; [8]] p_new = Ok [[0]; [1 / 2]].
Proof. split; [exact s_pbf_numpy|exact s_pbf_dask]. Qed.

(** C126: fit from coordinates.  It succeeds with the predictions ps exactly when
    the data is accepted, and the estimator of each location i, trained on the
    observations (other than i when leaving it out) that no kernel gives weight
    zero, with the products of the kernel weights divided by their row sum,
    predicts ps[i]. *)
Theorem C126_fit_from_coordinates :
  forall est fit_est predict_est G choice cpu f32 mkw no_kw scipy_metric dask_metric sort_row dargs truthy a c order g fs s0 X y v Ds W N,
  valid_choice choice -> (0 < cpu)%nat -> length X = N -> (0 < N)%nat ->
  distance_matrices f32 mkw no_kw scipy_metric v (Some v) (a_measure a) None = Ok (map A2 Ds) -> valid_distances Ds N N -> a_ratio a = RNone ->
  weight_matrix_from_distance (map A2 Ds) (a_kernel a) RNone (a_bandwidth a) (a_count a) = Ok W ->
  sample_local_rate c = None -> schedule (num_tasks cpu c N) order ->
  let o := fit est fit_est predict_est G choice cpu (points_weights f32 mkw no_kw scipy_metric dask_metric sort_row dargs truthy a None) c order g fs s0 X y (Some v) None in
  exists raw : nat -> nat -> nat -> R,
    (forall dim i j, (dim < length Ds)%nat -> (i < N)%nat -> (j < N)%nat ->
       exists k p, requests (a_kernel a) (a_bandwidth a) (a_count a) dim k p /\ raw_weight k p (nth dim Ds []) i j (raw dim i j)) /\
    let product i j := Rprod (tabulate (length Ds) (fun dim => raw dim i j)) in
    let total i := Rsum (tabulate N (product i)) in
    forall ps, o_result est G o = Ok tt /\ local_predict_ est (o_state est G o) = Some ps <->
      valid_data X y /\ valid_jobs c /\ (2 <= N)%nat /\ length ps = N /\
      forall i, (i < N)%nat -> exists T e, StronglySorted lt T /\
        (forall j, In j T <-> (j < N)%nat /\ ~ (leave_local_out c = true /\ j = i) /\ forall dim, (dim < length Ds)%nat -> raw dim i j <> 0) /\
        fit_est i (map (fun j => nth j X []) T) (map (fun j => nth j y 0) T) (map (fun j => Fin (product i j / total i)) T) = Ok e /\
        predict_est e [nth i X []] = Ok [nth i ps 0].
Proof. exact fit_from_points. Qed.
Print Assumptions C126_fit_from_coordinates.

Example C126_example :
  distance_matrices (fun x => x) unit tt (fun _ => None) q_pts (Some q_pts) (a_measure q_args) None = Ok (map A2 [q_D]) /\ valid_distances [q_D] 3 3 /\
  weight_matrix_from_distance (map A2 [q_D]) (a_kernel q_args) RNone (a_bandwidth q_args) (a_count q_args) = Ok q_W /\
  o_result R nat (q_fit q_args [1; 0]%nat fX fy q_pts) = Ok tt /\
  local_predict_ R (o_state R nat (q_fit q_args [1; 0]%nat fX fy q_pts)) = Some [2; 5 / 2; 2].
Proof. split; [exact q_dist|]. split; [exact q_valid|]. split; [exact q_weights|]. apply q_ok. apply perm_swap. Qed.

(** C127: the order of the observations.  With given weight matrices ... *)
Theorem C127_order_of_observations :
  forall est fit_est predict_est G choice cpu, order_blind fit_est predict_est ->
  forall perm N, index_permutation perm N ->
  forall wm wm' c order order' g g' fs fs' s0 s0' X y coords coords' given given' w w' W W',
  valid_choice choice -> (0 < cpu)%nat -> length X = N -> length y = N ->
  in_force wm fs coords given w -> holds w W N -> in_force wm' fs' coords' given' w' -> holds w' W' N ->
  (forall i j, (i < N)%nat -> (j < N)%nat -> mget (Fin 0) W' i j = mget (Fin 0) W (nth i perm 0%nat) (nth j perm 0%nat)) ->
  sample_local_rate c = None -> schedule (num_tasks cpu c N) order -> schedule (num_tasks cpu c N) order' ->
  let o := fit est fit_est predict_est G choice cpu wm c order g fs s0 X y coords given in
  let o' := fit est fit_est predict_est G choice cpu wm' c order' g' fs' s0' (reorder [] perm X) (reorder 0 perm y) coords' given' in
  (o_result est G o = Ok tt <-> o_result est G o' = Ok tt) /\
  (o_result est G o = Ok tt -> exists ps, local_predict_ est (o_state est G o) = Some ps /\
     local_predict_ est (o_state est G o') = Some (reorder 0 perm ps) /\
     llocv_score_ est (o_state est G o) = llocv_score_ est (o_state est G o')).
Proof. exact fit_reordered. Qed.
Print Assumptions C127_order_of_observations.

(** ... and with weights from coordinates. *)
Theorem C127_order_of_observations_from_coordinates :
  forall est fit_est predict_est G choice cpu f32 mkw no_kw scipy_metric dask_metric sort_row dargs truthy perm a c order order' g g' fs fs' s0 s0' X y v Ds N,
  order_blind fit_est predict_est -> index_permutation perm N ->
  valid_choice choice -> (0 < cpu)%nat -> length X = N -> length y = N -> (0 < N)%nat ->
  Forall (fun p => exists d, rect p N d) v ->
  distance_matrices f32 mkw no_kw scipy_metric v (Some v) (a_measure a) None = Ok (map A2 Ds) -> valid_distances Ds N N ->
  sample_local_rate c = None -> schedule (num_tasks cpu c N) order -> schedule (num_tasks cpu c N) order' ->
  let wm := points_weights f32 mkw no_kw scipy_metric dask_metric sort_row dargs truthy a None in
  let o := fit est fit_est predict_est G choice cpu wm c order g fs s0 X y (Some v) None in
  let o' := fit est fit_est predict_est G choice cpu wm c order' g' fs' s0' (reorder [] perm X) (reorder 0 perm y) (Some (map (reorder [] perm) v)) None in
  (o_result est G o = Ok tt <-> o_result est G o' = Ok tt) /\
  (o_result est G o = Ok tt -> exists ps, local_predict_ est (o_state est G o) = Some ps /\
     local_predict_ est (o_state est G o') = Some (reorder 0 perm ps) /\
     llocv_score_ est (o_state est G o) = llocv_score_ est (o_state est G o')).
Proof. exact fit_points_reordered. Qed.
Print Assumptions C127_order_of_observations_from_coordinates.

Example C127_example : order_blind wmean_fit wmean_predict /\ index_permutation q_perm 3 /\ reorder 0 q_perm fy = [4; 1; 2] /\
  reorder 0 q_perm [2; 5 / 2; 2] = [2; 2; 5 / 2] /\
  let o' := q_fit q_args [1; 0]%nat (reorder [] q_perm fX) (reorder 0 q_perm fy) (map (reorder [] q_perm) q_pts) in
  o_result R nat o' = Ok tt /\ local_predict_ R (o_state R nat o') = Some [2; 2; 5 / 2].
Proof.
  split; [exact wmean_blind|]. split; [exact q_perm_ok|]. split; [reflexivity|]. split; [reflexivity|]. cbv zeta.
  destruct (q_ok [1; 0]%nat (perm_swap _ _ _)) as [H1 H2].
  destruct (fit_points_reordered R wmean_fit wmean_predict nat NeighbourProps.first_choice 2 (fun x => x) unit tt (fun _ => None) (fun _ => None) (fun r => r) unit (fun _ => true)
     q_perm q_args (cfg true None None None) [1; 0]%nat [1; 0]%nat 0%nat 0%nat no_fs no_fs s_init s_init fX fy q_pts [q_D] 3 wmean_blind q_perm_ok NeighbourProps.first_choice_valid) as [HA HB];
    auto using q_dist, q_valid; try lia; try apply perm_swap.
  - constructor; [|constructor]. exists 1%nat. split; [reflexivity|repeat constructor].
  - split; [apply HA; exact H1|]. destruct (HB H1) as (ps & E & E' & _). pose proof (eq_trans (eq_sym E) H2) as E2. injection E2 as ->. exact E'.
Qed.

(** C128: units.  If in every dimension the distances are those of other
    coordinates times a positive constant of that dimension, and fixed bandwidths
    are given in the new unit, the fit is the same. *)
Theorem C128_units_of_distance :
  forall est fit_est predict_est G choice cpu f32 mkw no_kw scipy_metric dask_metric sort_row dargs truthy scales a bandwidth' c order g fs fs' s0 X y v v' Ds N,
  Forall (fun s => 0 < s) scales -> length scales = length Ds -> rescaled_bandwidth scales (a_bandwidth a) bandwidth' ->
  (0 < N)%nat -> valid_distances Ds N N ->
  distance_matrices f32 mkw no_kw scipy_metric v (Some v) (a_measure a) None = Ok (map A2 Ds) ->
  distance_matrices f32 mkw no_kw scipy_metric v' (Some v') (a_measure a) None = Ok (map A2 (rescaled scales Ds)) ->
  let a' := WmArgs (a_measure a) (a_kernel a) (a_ratio a) bandwidth' (a_count a) in
  let wm := points_weights f32 mkw no_kw scipy_metric dask_metric sort_row dargs truthy in
  let o := fit est fit_est predict_est G choice cpu (wm a None) c order g fs s0 X y (Some v) None in
  let o' := fit est fit_est predict_est G choice cpu (wm a' None) c order g fs' s0 X y (Some v') None in
  o_result est G o = Ok tt ->
  o_result est G o' = Ok tt /\ o_gen est G o = o_gen est G o' /\
  weight_matrix_ est (o_state est G o) = weight_matrix_ est (o_state est G o') /\
  neighbour_matrix_ est (o_state est G o) = neighbour_matrix_ est (o_state est G o') /\
  local_indices_ est (o_state est G o) = local_indices_ est (o_state est G o') /\
  local_estimators est (o_state est G o) = local_estimators est (o_state est G o') /\
  local_predict_ est (o_state est G o) = local_predict_ est (o_state est G o') /\
  llocv_score_ est (o_state est G o) = llocv_score_ est (o_state est G o') /\
  local_residual_ est (o_state est G o) = local_residual_ est (o_state est G o').
Proof. exact fit_units. Qed.
Print Assumptions C128_units_of_distance.

(** Euclidean coordinates (in exact arithmetic) rescaled by a positive constant
    and translated are such other coordinates. *)
Theorem C128_scaled_and_translated_coordinates :
  forall mkw no_kw scipy_metric (v : list (matrix R)) moves N Ds,
  length moves = length v -> (0 < N)%nat ->
  (forall dim, (dim < length v)%nat -> exists d, rect (nth dim v []) N d /\
     0 < fst (nth dim moves (1, [])) /\ length (snd (nth dim moves (1, []))) = d) ->
  distance_matrices (fun x => x) mkw no_kw scipy_metric v (Some v) (Scalar "euclidean") None = Ok (map A2 Ds) ->
  distance_matrices (fun x => x) mkw no_kw scipy_metric (moved moves v) (Some (moved moves v)) (Scalar "euclidean") None
  = Ok (map A2 (rescaled (map fst moves) Ds)).
Proof. exact moved_distances. Qed.
Print Assumptions C128_scaled_and_translated_coordinates.

(** The weights alone, from distances with a unit per dimension. *)
Theorem C128_weights_with_unit_per_dimension :
  forall scales kernel_type bandwidth bandwidth' neighbour_count Ds r c W,
  Forall (fun s => 0 < s) scales -> length scales = length Ds -> rescaled_bandwidth scales bandwidth bandwidth' ->
  valid_distances Ds r c -> (0 < r)%nat ->
  weight_matrix_from_distance (map A2 Ds) kernel_type RNone bandwidth neighbour_count = Ok W ->
  weight_matrix_from_distance (map A2 (rescaled scales Ds)) kernel_type RNone bandwidth' neighbour_count = Ok W.
Proof. exact wm_rescaled. Qed.
Print Assumptions C128_weights_with_unit_per_dimension.

(** Metres from one origin, millimetres from another. *)
Example C128_example : rescaled_bandwidth (map fst q_moves) (a_bandwidth q_args) q_mm /\ moved q_moves q_pts = [ [[5]; [1005]; [2005]] ] /\
  let o' := q_fit (WmArgs (Scalar "euclidean") (DScal "boxcar") RNone q_mm DNone) [1; 0]%nat fX fy (moved q_moves q_pts) in
  o_result R nat o' = Ok tt /\ local_predict_ R (o_state R nat o') = Some [2; 5 / 2; 2].
Proof.
  split; [exact q_mm_ok|]. split; [exact q_moved|]. cbv zeta.
  destruct (q_ok [1; 0]%nat (perm_swap _ _ _)) as [H1 H2].
  pose proof (fit_units R wmean_fit wmean_predict nat NeighbourProps.first_choice 2 (fun x => x) unit tt (fun _ => None) (fun _ => None) (fun r => r) unit (fun _ => true)
     (map fst q_moves) q_args q_mm (cfg true None None None) [1; 0]%nat 0%nat no_fs no_fs s_init fX fy q_pts (moved q_moves q_pts) [q_D] 3) as H.
  cbv zeta in H. destruct H as (E1 & _ & _ & _ & _ & _ & E2 & _); auto using q_mm_ok, q_valid, q_dist; try lia.
  - constructor; [simpl; lra|constructor].
  - apply moved_distances with (N := 3%nat); auto; try lia; [|exact q_dist].
    intros [|dim] Hd; simpl in Hd; [|lia]. exists 1%nat. split; [split; [reflexivity|repeat constructor]|]. split; [simpl; lra|reflexivity].
  - split; [exact E1|]. exact (eq_trans (eq_sym E2) H2).
Qed.
