(** Property C191: StackingWeightModel.predict_by_fit from the coordinates of the
    training points and of the new points. *)
From Coq Require Import Lra.
From Verif.Model Require Import Base Ext Kernel Csr Neighbour Distance WeightMatrix WeightModel NumbaImpl Stacking StackingPredict StackingPoints.
From Verif.Spec Require Import KernelSpec WeightSpec WeightFloatSpec DistanceSpec NeighbourSpec WeightModelSpec StackingSpec StackingTotalSpec StackingNewSpec.
From Verif.Proofs Require Import FitExamples EndToEndExamples StackingExamples StackingTotalExamples StackingPointsProps StackingPointsExamples
  StackingPredictTotal StackingPredictTotalExamples StackingNewProps StackingNewExamples.
Open Scope string_scope.
Open Scope nat_scope.
Open Scope R_scope.

(** C191: fixed bandwidths.  [Ds] are the distances among the n training points,
    [Es] those from the training points to the k new points.  The prediction
    returns exactly when every training point reaches a training point to be
    trained on, every training point reaches a new point, and every new point is
    reached by a training point. *)
Theorem C191_fixed_bandwidths_iff :
  forall est meta fit_est predict_est fit_meta predict_meta cpu,
  needs_data (est := est) fit_est predict_est -> needs_design (meta := meta) fit_meta predict_meta ->
  forall f32 mkw no_kw scipy_metric dask_metric sort_row dargs truthy a r c fs s0 X y v Xp vp Ds Es,
  let n := List.length X in
  let k := List.length Xp in
  a_ratio a = RNone -> (0 < n)%nat -> (0 < k)%nat ->
  distance_matrices f32 mkw no_kw scipy_metric v (Some v) (a_measure a) None = Ok (map A2 Ds) -> valid_distances Ds n n ->
  distance_matrices f32 mkw no_kw scipy_metric v (Some vp) (a_measure a) None = Ok (map A2 Es) -> valid_distances Es n k ->
  fixed_bandwidths a (List.length Ds) -> fixed_bandwidths a (List.length Es) ->
  schedule n (r_second r) -> List.length (r_buffer r) = n -> (forall k', patches cpu c = Some k' -> schedule k' (r_base r)) ->
  (exists out, snd (spredict est fit_est predict_est meta fit_meta predict_meta cpu
     (stacking_weights f32 mkw no_kw scipy_metric dask_metric sort_row dargs truthy a None) r c fs s0 X y v Xp vp) = Ok out) <->
  valid_data X y /\ has_batches cpu c /\ sc_use_numba c = false /\
  (forall j, (j < n)%nat -> exists t, (t < n)%nat /\ reached a Ds j t /\ ~ (sc_leave_local_out c = true /\ t = j)) /\
  (forall j, (j < n)%nat -> exists i, (i < k)%nat /\ reached a Es j i) /\
  (forall i, (i < k)%nat -> exists j, (j < n)%nat /\ reached a Es j i).
Proof. intros est meta fe pe fm pm cpu He Hm; exact (fixed_iff fe pe fm pm cpu He Hm). Qed.
Print Assumptions C191_fixed_bandwidths_iff.

(** Kernels without a limited support, two training points or more: it returns
    wherever the new points are. *)
Theorem C191_unlimited_kernels :
  forall est meta fit_est predict_est fit_meta predict_meta cpu,
  needs_data (est := est) fit_est predict_est -> needs_design (meta := meta) fit_meta predict_meta ->
  forall f32 mkw no_kw scipy_metric dask_metric sort_row dargs truthy a r c fs s0 X y v Xp vp Ds Es,
  let n := List.length X in
  let k := List.length Xp in
  a_ratio a = RNone -> (1 < n)%nat -> (0 < k)%nat ->
  distance_matrices f32 mkw no_kw scipy_metric v (Some v) (a_measure a) None = Ok (map A2 Ds) -> valid_distances Ds n n ->
  distance_matrices f32 mkw no_kw scipy_metric v (Some vp) (a_measure a) None = Ok (map A2 Es) -> valid_distances Es n k ->
  fixed_bandwidths a (List.length Ds) -> fixed_bandwidths a (List.length Es) ->
  unlimited a (List.length Ds) -> unlimited a (List.length Es) ->
  schedule n (r_second r) -> List.length (r_buffer r) = n -> (forall k', patches cpu c = Some k' -> schedule k' (r_base r)) ->
  valid_data X y -> has_batches cpu c -> sc_use_numba c = false ->
  exists out, snd (spredict est fit_est predict_est meta fit_meta predict_meta cpu
    (stacking_weights f32 mkw no_kw scipy_metric dask_metric sort_row dargs truthy a None) r c fs s0 X y v Xp vp) = Ok out.
Proof. intros est meta fe pe fm pm cpu He Hm; exact (unlimited_returns fe pe fm pm cpu He Hm). Qed.
Print Assumptions C191_unlimited_kernels.

(** The expectation that one new point can be predicted with an adaptive bandwidth
    is false: with a linear, bisquare or tricube kernel and an adaptive bandwidth
    in some dimension, the prediction of a single new point raises as soon as one
    training point does not coincide with it there. *)
Theorem C191_one_point_refuted :
  forall est meta fit_est predict_est fit_meta predict_meta cpu,
  needs_data (est := est) fit_est predict_est -> needs_design (meta := meta) fit_meta predict_meta ->
  forall f32 mkw no_kw scipy_metric dask_metric sort_row dargs truthy a r c fs s0 X y v x vp Ds Es dim k p j,
  let n := List.length X in
  a_ratio a = RNone -> (0 < n)%nat ->
  distance_matrices f32 mkw no_kw scipy_metric v (Some v) (a_measure a) None = Ok (map A2 Ds) -> valid_distances Ds n n ->
  distance_matrices f32 mkw no_kw scipy_metric v (Some vp) (a_measure a) None = Ok (map A2 Es) -> valid_distances Es n 1 ->
  schedule n (r_second r) -> List.length (r_buffer r) = n -> (forall k', patches cpu c = Some k' -> schedule k' (r_base r)) ->
  (dim < List.length Es)%nat -> requests (a_kernel a) (a_bandwidth a) (a_count a) dim k p ->
  (forall b, p <> FixedBandwidth b) -> vanishing_kernel k ->
  (j < n)%nat -> 0 < mget 0 (nth dim Es []) j 0 ->
  raises (snd (spredict est fit_est predict_est meta fit_meta predict_meta cpu
    (stacking_weights f32 mkw no_kw scipy_metric dask_metric sort_row dargs truthy a None) r c fs s0 X y v [x] vp)).
Proof. intros est meta fe pe fm pm cpu He Hm; exact (one_point fe pe fm pm cpu He Hm). Qed.
Print Assumptions C191_one_point_refuted.

(** The expectation that the other points of a batch are predicted when one is far
    away is false: with such a kernel and the z nearest new points in some
    dimension, the whole call raises if one new point coincides with no training
    point and each training point has z new points (it may be one of them) that are
    no farther from it. *)
Theorem C191_far_point_refuted :
  forall est meta fit_est predict_est fit_meta predict_meta cpu,
  needs_data (est := est) fit_est predict_est -> needs_design (meta := meta) fit_meta predict_meta ->
  forall f32 mkw no_kw scipy_metric dask_metric sort_row dargs truthy a r c fs s0 X y v Xp vp Ds Es dim kernel z i,
  let n := List.length X in
  let k := List.length Xp in
  a_ratio a = RNone -> (0 < n)%nat ->
  distance_matrices f32 mkw no_kw scipy_metric v (Some v) (a_measure a) None = Ok (map A2 Ds) -> valid_distances Ds n n ->
  distance_matrices f32 mkw no_kw scipy_metric v (Some vp) (a_measure a) None = Ok (map A2 Es) -> valid_distances Es n k ->
  schedule n (r_second r) -> List.length (r_buffer r) = n -> (forall k', patches cpu c = Some k' -> schedule k' (r_base r)) ->
  (dim < List.length Es)%nat -> requests (a_kernel a) (a_bandwidth a) (a_count a) dim kernel (NearestCount z) -> vanishing_kernel kernel ->
  (i < k)%nat ->
  (forall j, (j < n)%nat -> let d := mget 0 (nth dim Es []) j i in
     0 < d /\ (Z.to_nat z <= count (fun x => Rleb x d) (nth j (nth dim Es []) []))%nat) ->
  raises (snd (spredict est fit_est predict_est meta fit_meta predict_meta cpu
    (stacking_weights f32 mkw no_kw scipy_metric dask_metric sort_row dargs truthy a None) r c fs s0 X y v Xp vp)).
Proof. intros est meta fe pe fm pm cpu He Hm; exact (far_point fe pe fm pm cpu He Hm). Qed.
Print Assumptions C191_far_point_refuted.

(** The expectation that the prediction of a point does not depend on the other new
    points is false: giving another new point twice changes it, whenever the first
    two responses differ. *)
Theorem C191_batch_refuted :
  forall fs s0 y0 y1 y2 x1 x2, y0 <> y1 ->
  exists out out',
    snd (mean_run ex_r (ex_c None false) fs s0 ex_X [y0; y1; y2] [ [[0]; [1]; [2]] ] [[x1]; [x2]] [ [[0]; [2]] ]) = Ok out /\
    snd (mean_run ex_r (ex_c None false) fs s0 ex_X [y0; y1; y2] [ [[0]; [1]; [2]] ] [[x1]; [x2]; [x2]] [ [[0]; [2]; [2]] ]) = Ok out' /\
    nth 0 out [] <> nth 0 out' [].
Proof.
  intros fs s0 y0 y1 y2 x1 x2 H. destruct (mean_differ fs s0 y0 y1 y2 x1 x2 H) as (o & o' & H1 & H2 & E1 & E2).
  exists o, o'. split; [exact H1|]. split; [exact H2|]. rewrite E1, E2. intros E. injection E as E. lra.
Qed.
Print Assumptions C191_batch_refuted.

(** The two ends of a line of three points: boxcar with bandwidth 3/2, and gaussian. *)
Example C191_example :
  needs_data u_fit u_predict /\ needs_design mean_meta mean_predict /\ a_ratio q_args = RNone /\
  distance_matrices (fun x => x) unit tt (fun _ => None) q_pts (Some q_pts) (a_measure q_args) None = Ok (map A2 [q_D]) /\ valid_distances [q_D] 3 3 /\
  distance_matrices (fun x => x) unit tt (fun _ => None) q_pts (Some ends) (a_measure q_args) None = Ok (map A2 [ends_D]) /\ valid_distances [ends_D] 3 2 /\
  fixed_bandwidths q_args 1 /\ fixed_bandwidths gauss_args 1 /\ unlimited gauss_args 1 /\ a_measure gauss_args = a_measure q_args /\
  reached q_args [ends_D] 0 0 /\ ~ reached q_args [ends_D] 0 1 /\
  schedule 3 (r_second ex_r) /\ List.length (r_buffer ex_r) = 3%nat /\ (forall k', patches 4 (ex_c None false) = Some k' -> schedule k' (r_base ex_r)).
Proof.
  split; [apply u_data|]. split; [apply mean_design|]. split; [reflexivity|]. split; [apply q_dist|]. split; [apply q_valid|].
  split; [apply ends_dist|]. split; [apply ends_valid|]. split; [apply box_fixed|]. split; [apply gauss_fixed|]. split; [apply gauss_unlimited|]. split; [reflexivity|].
  split; [|split; [|apply ex_second]].
  - intros dim k b Hd (Hk & _ & _ & _ & Hb) Ho. cbn in Hd. assert (dim = 0%nat) as -> by lia. injection Hk as <-. injection Hb as <-.
    cbn in Ho. destruct Ho as [[[H|[H|H]] _]|[_ H]]; try discriminate. lra.
  - intros H. apply (H 0%nat "boxcar" (3 / 2)); [cbn; lia| |].
    + repeat split; simpl; auto. unfold known_kernel; tauto.
    + right. split; [reflexivity|]. cbn. lra.
Qed.

(** One end alone, one nearest point, bisquare. *)
Example C191_example_one :
  a_ratio near_args = RNone /\ a_measure near_args = a_measure q_args /\
  distance_matrices (fun x => x) unit tt (fun _ => None) q_pts (Some one_end) (a_measure q_args) None = Ok (map A2 [one_D]) /\ valid_distances [one_D] 3 1 /\
  requests (a_kernel near_args) (a_bandwidth near_args) (a_count near_args) 0 "bisquare" (NearestCount 1) /\
  vanishing_kernel "bisquare" /\ 0 < mget 0 (nth 0 [one_D] []) 1 0 /\
  exists W, weight_matrix_from_distance (map A2 [q_D]) (a_kernel near_args) RNone (a_bandwidth near_args) (a_count near_args) = Ok W.
Proof.
  split; [reflexivity|]. split; [reflexivity|]. split; [apply one_dist|]. split; [apply one_valid|]. split; [apply near_requests|].
  split; [unfold vanishing_kernel; tauto|]. split; [cbn; lra|].
  apply (WeightProps.wm_success [q_D] _ _ _ 3 3 q_valid); [lia|]. split; [intros [_ H]; discriminate|].
  intros dim Hd. cbn in Hd. assert (dim = 0%nat) as -> by lia. exists "bisquare", (NearestCount 1). split; [apply near_requests|cbn; lia].
Qed.

(** New points at 0, 2 and 9, one nearest: the one at 9 is out of reach of all. *)
Example C191_example_far :
  distance_matrices (fun x => x) unit tt (fun _ => None) q_pts (Some far) (a_measure q_args) None = Ok (map A2 [far_D]) /\ valid_distances [far_D] 3 3 /\
  forall j, (j < 3)%nat -> let d := mget 0 (nth 0 [far_D] []) j 2 in
     0 < d /\ (Z.to_nat 1 <= count (fun x => Rleb x d) (nth j (nth 0 [far_D] []) []))%nat.
Proof.
  split; [apply far_dist|]. split; [apply far_valid|]. intros [|[|[|j]]] Hj; try lia; cbv zeta; (split; [cbn; lra|]);
    unfold count, mget; cbn [nth far_D]; apply far_count; right; right; left; reflexivity.
Qed.
