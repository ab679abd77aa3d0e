(** Property C138: when StackingWeightModel.predict_by_fit returns. *)
From Coq Require Import Lra.
From Verif.Model Require Import Base Ext Kernel Csr Neighbour Distance WeightMatrix WeightModel NumbaImpl Stacking StackingPredict StackingPoints.
From Verif.Spec Require Import KernelSpec WeightSpec DistanceSpec NeighbourSpec WeightModelSpec StackingSpec StackingTotalSpec.
From Verif.Proofs Require Import FitExamples EndToEndExamples StackingExamples StackingTotalExamples StackingPointsProps StackingPointsExamples StackingPredictTotal StackingPredictTotalExamples.
Open Scope string_scope.
Open Scope nat_scope.
Open Scope R_scope.

(** C138: [W] are the weights among the n training points, [U] those of the
    training points (rows) at the k new points (columns).  predict_by_fit returns
    if and only if the data and settings are accepted, every training point has a
    neighbour to be trained on, every new point has a training point with positive
    weight, and every training point has positive weight at some new point. *)
Theorem C138_prediction_returns_iff :
  forall est meta fit_est predict_est fit_meta predict_meta cpu wm,
  needs_data fit_est predict_est -> needs_design fit_meta predict_meta ->
  forall r c fs s0 X y v Xp vp W U fs1 fs2,
  let n := List.length X in
  let k := List.length Xp in
  wm fs v v = (fs1, Ok (SDense W)) -> wm fs1 v vp = (fs2, Ok (SDense U)) -> rect W n n -> rect U n k -> (0 < k)%nat ->
  schedule n (r_second r) -> List.length (r_buffer r) = n -> (forall k', patches cpu c = Some k' -> schedule k' (r_base r)) ->
  (exists out, snd (spredict est fit_est predict_est meta fit_meta predict_meta cpu wm r c fs s0 X y v Xp vp) = Ok out) <->
  valid_data X y /\ has_batches cpu c /\ sc_use_numba c = false /\
  (forall j, (j < n)%nat -> exists t, (t < n)%nat /\ mget 0 W j t <> 0 /\ ~ (sc_leave_local_out c = true /\ t = j)) /\
  (forall j, (j < n)%nat -> exists i, (i < k)%nat /\ 0 < mget 0 U j i) /\
  (forall i, (i < k)%nat -> exists j, (j < n)%nat /\ 0 < mget 0 U j i).
Proof. intros est meta fe pe fm pm cpu wm; exact (spredict_iff fe pe fm pm cpu wm). Qed.
Print Assumptions C138_prediction_returns_iff.

(** The expectation that a point which can be predicted in a batch can be predicted
    alone is false: one end of a line of three training points, whatever the
    responses, features and state. *)
Theorem C138_predictable_alone_refuted :
  forall fs s0 y0 y1 y2 x1 x2,
  (exists out, snd (z_predict ex_r (ex_c None false) fs s0 ex_X [y0; y1; y2] [ [[0]; [1]; [2]] ] [[x1]; [x2]] [ [[0]; [2]] ]) = Ok out) /\
  raises (snd (z_predict ex_r (ex_c None false) fs s0 ex_X [y0; y1; y2] [ [[0]; [1]; [2]] ] [[x1]] [ [[0]] ])).
Proof. intros fs s0 y0 y1 y2 x1 x2. split; [apply ends_predicted|apply one_not_predicted]. Qed.
Print Assumptions C138_predictable_alone_refuted.

(** The hypotheses hold there, for learners that need data. *)
Example C138_example : needs_data u_fit u_predict /\ needs_design u_fit_meta u_predict_meta /\
  z_wm no_fs q_pts q_pts = (no_fs, Ok (SDense z_Q)) /\ z_wm no_fs q_pts ends = (no_fs, Ok (SDense ends_U)) /\ rect z_Q 3 3 /\ rect ends_U 3 2 /\
  schedule 3 (r_second ex_r) /\ List.length (r_buffer ex_r) = 3%nat /\ (forall k', patches 4 (ex_c None false) = Some k' -> schedule k' (r_base ex_r)).
Proof.
  split; [apply u_data|]. split; [apply u_design|]. split; [apply (z_real no_fs q_pts [q_D] z_Q q_dist); exact q_weights|].
  split; [apply (z_real2 no_fs q_pts ends [ends_D] ends_U ends_dist ends_weights)|].
  split; [split; [reflexivity|repeat constructor]|]. split; [split; [reflexivity|repeat constructor]|]. apply ex_second.
Qed.
