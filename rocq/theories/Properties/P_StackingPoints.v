(** Property C137: fitting StackingWeightModel from coordinates. *)
From Coq Require Import Lra.
From Verif.Model Require Import Base Ext Kernel Csr Neighbour Distance WeightMatrix WeightModel NumbaImpl Stacking StackingPoints.
From Verif.Spec Require Import KernelSpec WeightSpec DistanceSpec NeighbourSpec WeightModelSpec StackingSpec StackingTotalSpec.
From Verif.Proofs Require Import FitExamples EndToEndExamples StackingExamples StackingTotalExamples StackingPointsProps StackingPointsExamples.
Open Scope string_scope.
Open Scope nat_scope.
Open Scope R_scope.

(** C137: the weights of StackingWeightModel computed from coordinates: in every
    row the products of the kernel weights divided by their sum; every observation
    is its own neighbour and nobody weighs more. *)
Theorem C137_weights_from_coordinates :
  forall f32 mkw no_kw scipy_metric dask_metric sort_row dargs truthy a fs v Ds W N,
  (0 < N)%nat -> distance_matrices f32 mkw no_kw scipy_metric v (Some v) (a_measure a) None = Ok (map A2 Ds) -> valid_distances Ds N N -> a_ratio a = RNone ->
  (forall D i, In D Ds -> (i < N)%nat -> mget 0 D i i = 0) ->
  (forall dim b, arg_at (a_bandwidth a) dim = Some b -> 0 <= b) ->
  weight_matrix_from_distance (map A2 Ds) (a_kernel a) RNone (a_bandwidth a) (a_count a) = Ok W ->
  exists raw : nat -> nat -> nat -> R,
    (forall dim i j, (dim < List.length Ds)%nat -> (i < N)%nat -> (j < N)%nat ->
       exists k p, requests (a_kernel a) (a_bandwidth a) (a_count a) dim k p /\ raw_weight k p (nth dim Ds []) i j (raw dim i j)) /\
    let product i j := Rprod (tabulate (List.length Ds) (fun dim => raw dim i j)) in
    let total i := Rsum (tabulate N (product i)) in
    let Wr := mtab N N (fun i j => product i j / total i) in
    stacking_weights f32 mkw no_kw scipy_metric dask_metric sort_row dargs truthy a None fs v v = (fs, Ok (SDense Wr)) /\ self_heaviest Wr N /\
    (forall i j, (i < N)%nat -> (j < N)%nat -> mget 0 Wr i j <> 0 <-> forall dim, (dim < List.length Ds)%nat -> raw dim i j <> 0) /\
    forall i, (i < N)%nat -> Rsum (nth i Wr []) = 1.
Proof. exact numpy_weights. Qed.
Print Assumptions C137_weights_from_coordinates.

(** When the fit from coordinates (NumPy weights) succeeds. *)
Theorem C137_fit_from_coordinates :
  forall est meta G fit_est predict_est fit_meta predict_meta solve seed0 choice cpu
    f32 mkw no_kw scipy_metric dask_metric sort_row dargs truthy a r c g fs s0 X y v Ds W,
  let N := List.length X in
  valid_choice choice -> needs_data fit_est predict_est -> needs_design fit_meta predict_meta ->
  (0 < N)%nat -> distance_matrices f32 mkw no_kw scipy_metric v (Some v) (a_measure a) None = Ok (map A2 Ds) -> valid_distances Ds N N -> a_ratio a = RNone ->
  (forall D i, In D Ds -> (i < N)%nat -> mget 0 D i i = 0) ->
  (forall dim b, arg_at (a_bandwidth a) dim = Some b -> 0 <= b) ->
  weight_matrix_from_distance (map A2 Ds) (a_kernel a) RNone (a_bandwidth a) (a_count a) = Ok W ->
  valid_runtime r N (patches cpu c) -> valid_rates c ->
  exists raw : nat -> nat -> nat -> R,
    (forall dim i j, (dim < List.length Ds)%nat -> (i < N)%nat -> (j < N)%nat ->
       exists k p, requests (a_kernel a) (a_bandwidth a) (a_count a) dim k p /\ raw_weight k p (nth dim Ds []) i j (raw dim i j)) /\
    let product i j := Rprod (tabulate (List.length Ds) (fun dim => raw dim i j)) in
    let total i := Rsum (tabulate N (product i)) in
    let Wr := mtab N N (fun i j => product i j / total i) in
    (forall i j, (i < N)%nat -> (j < N)%nat -> mget 0 Wr i j <> 0 <-> forall dim, (dim < List.length Ds)%nat -> raw dim i j <> 0) /\
    (so_result est meta G (sfit est fit_est predict_est meta fit_meta predict_meta solve G seed0 choice cpu
       (stacking_weights f32 mkw no_kw scipy_metric dask_metric sort_row dargs truthy a None) r c g fs s0 X y (Some v) None) = Ok tt <->
     valid_data X y /\ keeps_all c N /\ has_batches cpu c /\ sc_use_numba c = false /\
     (forall q, sc_estimator_rate c = Some q -> 0 < q <= 1) /\
     exists L W', leave_outs seed0 choice c Wr L /\ shrunk_weights (sc_meta_shrink c) Wr W' /\
       forall i, (i < N)%nat -> base_training N Wr L i <> [] /\ meta_points N W' i <> []).
Proof. exact (@stacking_from_points). Qed.
Print Assumptions C137_fit_from_coordinates.

(** With such weights dense and sparse storage are accepted alike ... *)
Theorem C137_storage_does_not_matter :
  forall est meta G fit_est predict_est fit_meta predict_meta solve seed0 choice cpu wm r c g fs s0 X y coords cw W,
  let n := List.length X in
  valid_choice choice -> one_per_row predict_est ->
  valid_runtime r n (patches cpu c) -> valid_rates c -> rect W n n -> self_heaviest W n -> csr_form 0 (fun x => Reqb x 0) W n cw ->
  sc_use_numba c = false -> sc_estimator_rate c = None ->
  so_result est meta G (sfit est fit_est predict_est meta fit_meta predict_meta solve G seed0 choice cpu wm r c g fs s0 X y coords (Some (SSparse cw))) = Ok tt <->
  so_result est meta G (sfit est fit_est predict_est meta fit_meta predict_meta solve G seed0 choice cpu wm r c g fs s0 X y coords (Some (SDense W))) = Ok tt.
Proof. exact (@heaviest_storage). Qed.
Print Assumptions C137_storage_does_not_matter.

(** ... and every stored stacking estimator reproduces the stored prediction of its
    observation. *)
Theorem C137_every_estimator_reproduces :
  forall est meta G fit_est predict_est fit_meta predict_meta solve seed0 choice cpu wm f r c g fs s0 X y coords given w W,
  let n := List.length X in
  let o := sfit est fit_est predict_est meta fit_meta predict_meta solve G seed0 choice cpu wm r c g fs s0 X y coords given in
  valid_choice choice -> (forall e X, predict_est e X = Ok (map (f e) X)) ->
  valid_runtime r n (patches cpu c) -> valid_rates c -> real_weights wm fs coords given w -> holds_real w W n -> self_heaviest W n -> all_bases_used c w ->
  so_result est meta G o = Ok tt ->
  exists ps ses, ss_stacking_predict est meta (so_state est meta G o) = Some ps /\
    ss_local_list est meta (so_state est meta G o) = Some (LStacking est meta ses) /\ List.length ses = n /\
    forall i, (i < n)%nat -> exists se, nth_error ses i = Some se /\
      predict_stacking est predict_est meta predict_meta se [nth i X []] = Ok [Fin (nth i ps 0)].
Proof. exact (@heaviest_replay). Qed.
Print Assumptions C137_every_estimator_reproduces.

(** Three points half a bandwidth apart can be fitted; three points on a line, the
    outer ones having only the middle one as a neighbour, cannot. *)
Example C137_example :
  distance_matrices (fun x => x) unit tt (fun _ => None) z_pts (Some z_pts) (a_measure q_args) None = Ok (map A2 [z_D]) /\ valid_distances [z_D] 3 3 /\
  weight_matrix_from_distance (map A2 [z_D]) (a_kernel q_args) RNone (a_bandwidth q_args) (a_count q_args) = Ok (mmap Fin z_W) /\ self_heaviest z_W 3 /\
  (forall y0 y1 y2, so_result R R nat (z_sfit ex_r (ex_c None false) 41%nat no_fs ex_s0 ex_X [y0; y1; y2] (Some z_pts) None) = Ok tt) /\
  forall y, so_result R R nat (z_sfit ex_r (ex_c None false) 41%nat no_fs ex_s0 ex_X y (Some q_pts) None) <> Ok tt.
Proof.
  split; [exact z_dist|]. split; [exact z_valid|]. split; [exact z_weights|]. split; [exact z_heaviest|].
  split; [intros; apply z_run|intros; apply z_Q_fails].
Qed.
