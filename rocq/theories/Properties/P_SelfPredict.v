(** Property C196: predicting the training points. *)
From Coq Require Import Lra Lia.
From Verif.Model Require Import Base Ext Kernel Distance WeightMatrix Neighbour WeightModel.
From Verif.Spec Require Import KernelSpec WeightSpec NeighbourSpec WeightModelSpec EndToEndSpec MutualSpec.
From Verif.Spec Require Import SelfPredictSpec.
From Verif.Proofs Require Import NeighbourProps NeighbourProps FitExamples EndToEndExamples.
From Verif.Proofs Require Import SelfPredictProps.
Open Scope string_scope.
Open Scope nat_scope.
Open Scope R_scope.

(** If the weights are symmetric, predict_by_fit at the training coordinates returns
    local_predict_, whatever the learner. *)
Theorem C196_symmetric_weights :
  forall est fit_est predict_est G choice cpu f32 mkw no_kw scipy dask sort dargs truthy a c order order' g fs fs' s0 X y v Ds W N,
  valid_choice choice -> (0 < cpu)%nat -> List.length X = N ->
  distance_matrices f32 mkw no_kw scipy v (Some v) (a_measure a) None = Ok (map A2 Ds) -> valid_distances Ds N N -> a_ratio a = RNone ->
  weight_matrix_from_distance (map A2 Ds) (a_kernel a) RNone (a_bandwidth a) (a_count a) = Ok W ->
  sample_local_rate c = None -> cache_data c = true -> leave_local_out c = false ->
  schedule (num_tasks cpu c N) order -> schedule cpu order' ->
  let pw := points_weights f32 mkw no_kw scipy dask sort dargs truthy a None in
  let o := fit est fit_est predict_est G choice cpu pw c order g fs s0 X y (Some v) None in
  forall ps, symmetric_weights W N ->
  o_result est G o = Ok tt -> local_predict_ est (o_state est G o) = Some ps ->
  snd (predict_by_fit est fit_est predict_est cpu pw c order' fs' (o_state est G o) X (Some v) None) = Ok (map (fun p => [p]) ps).
Proof. exact self_symmetric. Qed.
Print Assumptions C196_symmetric_weights.

(** The same with fixed bandwidths and symmetric distances, for a learner that ignores
    the sample weights. *)
Theorem C196_unweighted_learner :
  forall est fit_est predict_est G choice cpu f32 mkw no_kw scipy dask sort dargs truthy a c order order' g fs fs' s0 X y v Ds W N,
  valid_choice choice -> (0 < cpu)%nat -> List.length X = N ->
  distance_matrices f32 mkw no_kw scipy v (Some v) (a_measure a) None = Ok (map A2 Ds) -> valid_distances Ds N N -> a_ratio a = RNone ->
  weight_matrix_from_distance (map A2 Ds) (a_kernel a) RNone (a_bandwidth a) (a_count a) = Ok W ->
  sample_local_rate c = None -> cache_data c = true -> leave_local_out c = false ->
  schedule (num_tasks cpu c N) order -> schedule cpu order' ->
  let pw := points_weights f32 mkw no_kw scipy dask sort dargs truthy a None in
  let o := fit est fit_est predict_est G choice cpu pw c order g fs s0 X y (Some v) None in
  forall ps, ignores_weights fit_est -> symmetric_distances Ds N ->
  fixed_bandwidths (a_kernel a) (a_bandwidth a) (a_count a) (List.length Ds) ->
  o_result est G o = Ok tt -> local_predict_ est (o_state est G o) = Some ps ->
  snd (predict_by_fit est fit_est predict_est cpu pw c order' fs' (o_state est G o) X (Some v) None) = Ok (map (fun p => [p]) ps).
Proof. exact self_unweighted. Qed.
Print Assumptions C196_unweighted_learner.

(** Relied on: the same with every learner.  False: the fit weights the neighbours of a
    point by the weights of its row, predict_by_fit by those of its column.  With a
    weighted mean on three points of a line none of the predictions agrees, with or
    without leave_local_out. *)
Theorem C196_same_predictions_refuted :
  forall lo,
  let pw := points_weights (fun x => x) unit tt (fun _ => None) (fun _ => None) (fun r => r) unit (fun _ => true) q_args None in
  let c := Config lo None true true None None in
  let o := fit R wmean_fit wmean_predict nat first_choice 2 pw c [0; 1]%nat 0%nat no_fs (init_state R) fX fy (Some q_pts) None in
  symmetric_distances [q_D] 3 /\ fixed_bandwidths (a_kernel q_args) (a_bandwidth q_args) (a_count q_args) 1 /\
  o_result R nat o = Ok tt /\
  exists ps out, local_predict_ R (o_state R nat o) = Some ps /\
    snd (predict_by_fit R wmean_fit wmean_predict 2 pw c [0; 1]%nat no_fs (o_state R nat o) fX (Some q_pts) None) = Ok out /\
    forall i, (i < 3)%nat -> nth i out [] <> [nth i ps 0].
Proof.
  intros lo pw c o. split; [exact q_symmetric|]. split; [exact q_fixed|]. destruct (z_ok lo) as [H1 H2]. split; [exact H1|].
  exists (if lo then [2; 5 / 2; 2] else [3 / 2; 7 / 3; 3]), [[7 / 5]; [19 / 8]; [16 / 5]]. split; [exact H2|]. split; [exact (z_predicts lo)|].
  intros i Hi E. destruct lo, i as [|[|[|i]]]; try lia; cbn in E; injection E as E; lra.
Qed.
Print Assumptions C196_same_predictions_refuted.

(** Relied on: predict_by_weight at the training coordinates returns local_predict_.
    False: it returns the means of the neighbouring models' predictions; there too none
    agrees. *)
Theorem C196_by_weight_refuted :
  forall lo,
  let pw := points_weights (fun x => x) unit tt (fun _ => None) (fun _ => None) (fun r => r) unit (fun _ => true) q_args None in
  let c := Config lo None true true None None in
  let o := fit R wmean_fit wmean_predict nat first_choice 2 pw c [0; 1]%nat 0%nat no_fs (init_state R) fX fy (Some q_pts) None in
  o_result R nat o = Ok tt /\
  exists ps out, local_predict_ R (o_state R nat o) = Some ps /\
    snd (predict_by_weight R wmean_predict pw c no_fs (o_state R nat o) fX (Some q_pts) None) = Ok (map Fin out) /\
    List.length out = 3%nat /\ forall i, (i < 3)%nat -> nth i out 0 <> nth i ps 0.
Proof.
  intros lo pw c o. destruct (z_ok lo) as [H1 H2]. split; [exact H1|].
  exists (if lo then [2; 5 / 2; 2] else [3 / 2; 7 / 3; 3]), (if lo then [9 / 4; 13 / 6; 9 / 4] else [23 / 12; 41 / 18; 8 / 3]). split; [exact H2|]. split; [exact (z_means lo)|].
  split; [destruct lo; reflexivity|]. intros i Hi E. destruct lo, i as [|[|[|i]]]; try lia; cbn in E; lra.
Qed.
Print Assumptions C196_by_weight_refuted.

(** The hypotheses on data, weights and learner are met by the three points above, for a
    mean that ignores the weights. *)
Example C196_example :
  valid_choice first_choice /\ List.length fX = 3%nat /\
  distance_matrices (fun x => x) unit tt (fun _ => None) q_pts (Some q_pts) (a_measure q_args) None = Ok (map A2 [q_D]) /\ valid_distances [q_D] 3 3 /\
  weight_matrix_from_distance (map A2 [q_D]) (a_kernel q_args) RNone (a_bandwidth q_args) (a_count q_args) = Ok q_W /\
  ignores_weights plain_fit /\ symmetric_distances [q_D] 3 /\ fixed_bandwidths (a_kernel q_args) (a_bandwidth q_args) (a_count q_args) 1 /\
  o_result R nat (z_plain) = Ok tt /\ local_predict_ R (o_state R nat z_plain) = Some [3 / 2; 7 / 3; 3].
Proof.
  split; [exact first_choice_valid|]. split; [reflexivity|]. split; [exact q_dist|]. split; [exact q_valid|]. split; [exact q_weights|].
  split; [exact plain_ignores|]. split; [exact q_symmetric|]. split; [exact q_fixed|]. exact z_plain_ok.
Qed.
