(** Properties C155-C157: sequences of calls on a model, failed refits, and arrays
    shared with the caller. *)
From Coq Require Import Lra.
From Verif.Model Require Import Base Ext Csr Neighbour Distance WeightModel Inspect Ale History.
From Verif.Spec Require Import KernelSpec NeighbourSpec WeightModelSpec HistorySpec.
From Verif.Proofs Require Import NeighbourProps FitExamples EndToEndExamples HistoryProps HistoryShared HistorySharedFit HistoryExamples.
Open Scope string_scope.
Open Scope nat_scope.
Open Scope R_scope.

(** C155: whatever was called on an object before, successful or not, fitting it does
    what fitting a new object does, and leaves the same model. *)
Theorem C155_refit_is_fit :
  forall est fit_est predict_est G choice cpu wm permute c history g0 fs0 g fs order X y v given,
  let used := w_state est G (run est fit_est predict_est G choice cpu wm permute c (World est G (init_state est) g0 fs0) history) in
  let o := fit est fit_est predict_est G choice cpu wm c order g fs used X y v given in
  let o' := fit est fit_est predict_est G choice cpu wm c order g fs (init_state est) X y v given in
  o_result est G o = o_result est G o' /\ o_weights est G o = o_weights est G o' /\
  o_gen est G o = o_gen est G o' /\ o_fs est G o = o_fs est G o' /\
  (o_result est G o = Ok tt -> same_model (o_state est G o) (o_state est G o')).
Proof. exact refit. Qed.
Print Assumptions C155_refit_is_fit.

(** C155: predictions and inspections between two fits do not change the model. *)
Theorem C155_reads_keep_the_model :
  forall est fit_est predict_est G choice cpu wm permute c calls w,
  Forall (fun k => ~ is_fit k) calls ->
  same_model (w_state est G (run est fit_est predict_est G choice cpu wm permute c w calls)) (w_state est G w).
Proof. exact run_same. Qed.
Print Assumptions C155_reads_keep_the_model.

(** C155: equal models give equal predictions and inspections. *)
Theorem C155_same_answers :
  forall est fit_est predict_est G cpu wm permute permutation_importance sk_partial grid_from_X store (s s' : state est),
  same_model s s' ->
  (forall c fs X v w, predict_by_weight est predict_est wm c fs s X v w = predict_by_weight est predict_est wm c fs s' X v w) /\
  (forall c order fs X v w, predict_by_fit est fit_est predict_est cpu wm c order fs s X v w = predict_by_fit est fit_est predict_est cpu wm c order fs s' X v w) /\
  (forall c order r, importance_score_local est permutation_importance c order s r = importance_score_local est permutation_importance c order s' r) /\
  (forall g r, importance_trials est predict_est G permute s g r = importance_trials est predict_est G permute s' g r) /\
  (forall order, partial_dependence est sk_partial order s = partial_dependence est sk_partial order s') /\
  local_ICE est predict_est grid_from_X store s = local_ICE est predict_est grid_from_X store s' /\
  (forall f, local_ALE store est predict_est s f = local_ALE store est predict_est s' f) /\
  (forall f, global_ALE store est predict_est s f = global_ALE store est predict_est s' f).
Proof. exact same_answers. Qed.
Print Assumptions C155_same_answers.

(** A fit that succeeded and one that failed come before this fit, which succeeds. *)
Example C155_example :
  o_result R nat (h_fit 0%nat h_second h_pts) = Ok tt /\ same_model (o_state R nat (h_fit 0%nat h_second h_pts)) h_first.
Proof.
  destruct h_first_ok as [Hok _].
  destruct (fit_forgets R wmean_fit wmean_predict nat first_choice 2 h_wm (fun g l => (g, l)) h_cfg [0; 1]%nat 0%nat no_fs h_second s_init fX fy (Some h_pts) None) as (E & _ & _ & _ & HM).
  assert (Hr : o_result R nat (h_fit 0%nat h_second h_pts) = Ok tt) by (unfold h_fit; rewrite E; exact Hok).
  split; [exact Hr|]. apply HM; [exact Hr|left; reflexivity].
Qed.
Example C155_example_history :
  h_second = w_state R nat (run R wmean_fit wmean_predict nat first_choice 2 h_wm (fun g l => (g, l)) h_cfg (World R nat s_init 0%nat no_fs)
     [CFit [0; 1]%nat fX fy (Some h_pts) None; CFit [0; 1]%nat fX fy (Some h_far) None]).
Proof.
  destruct h_first_ok as [Hok _].
  destruct (WeightModelProps.fit_inv _ _ _ _ _ _ _ _ _ _ _ _ _ _ _ _ Hok) as (w & g' & locs & preds & es & p & score & _ & _ & Hl & _ & _ & _ & EE).
  cbn in Hl. injection Hl as <- _.
  unfold h_second, h_first. cbn [run fold_left do_call w_state]. unfold h_fit in *. rewrite EE. cbn [o_gen o_fs o_state].
  rewrite (h_weights no_fs h_pts h_pts q_D q_W h_dist_pts q_weights). reflexivity.
Qed.

(** C156.  Relied on: a fit that fails leaves the earlier model, or one that refuses
    to predict.  False: a fit to valid data whose local models cannot be trained
    leaves the new data and coordinates beside the earlier local models. *)
Theorem C156_failed_refit_mixes_models :
  forall est fit_est predict_est G choice cpu wm c order g fs (s : state est) X y v given,
  (0 < cpu)%nat -> cache_data c = true -> valid_data X y -> v <> None \/ given <> None ->
  untrainable fit_est cpu wm c order fs X y v given ->
  let o := fit est fit_est predict_est G choice cpu wm c order g fs s X y v given in
  raises (o_result est G o) /\
  data_X est (o_state est G o) = Some X /\ data_y est (o_state est G o) = Some y /\ data_coords est (o_state est G o) = v /\
  local_estimators est (o_state est G o) = local_estimators est s /\ local_predict_ est (o_state est G o) = local_predict_ est s /\
  llocv_score_ est (o_state est G o) = llocv_score_ est s /\ local_residual_ est (o_state est G o) = local_residual_ est s.
Proof. exact failed_refit. Qed.
Print Assumptions C156_failed_refit_mixes_models.

(** C156: after the failed fit predict_by_weight weights the earlier local models by
    the distances to the new coordinates, and predict_by_fit predicts as if the fit
    had succeeded. *)
Theorem C156_predictions_after_failed_refit :
  forall est fit_est predict_est G choice cpu wm c order g fs (s s' s'' : state est) X y v given,
  (0 < cpu)%nat -> cache_data c = true -> valid_data X y -> v <> None \/ given <> None ->
  untrainable fit_est cpu wm c order fs X y v given ->
  local_estimators est s' = local_estimators est s -> data_coords est s' = v ->
  data_X est s'' = Some X -> data_y est s'' = Some y -> data_coords est s'' = v ->
  let o := fit est fit_est predict_est G choice cpu wm c order g fs s X y v given in
  (forall c' fs' Z u W, predict_by_weight est predict_est wm c' fs' (o_state est G o) Z u W = predict_by_weight est predict_est wm c' fs' s' Z u W) /\
  (forall c' order' fs' Z u W, predict_by_fit est fit_est predict_est cpu wm c' order' fs' (o_state est G o) Z u W = predict_by_fit est fit_est predict_est cpu wm c' order' fs' s'' Z u W).
Proof.
  intros est fit_est predict_est G choice cpu wm c order g fs s s' s'' X y v given Hcpu Hc HV Hv HU E1 E2 E3 E4 E5 o.
  destruct (failed_refit est fit_est predict_est G choice cpu wm c order g fs s X y v given Hcpu Hc HV Hv HU) as (_ & D1 & D2 & D3 & D4 & _).
  split; intros; [apply pbw_reads|apply pbf_data]; unfold o; congruence.
Qed.
Print Assumptions C156_predictions_after_failed_refit.

(** C156: three points on a line are fitted; then the same data with the third point
    far away, which has no neighbour left, so that fit raises.  The prediction at one
    and the same point is now another. *)
Theorem C156_failed_refit_refuted :
  o_result R nat (h_fit 0%nat s_init h_pts) = Ok tt /\ h_predict h_first = Ok [Fin (9 / 4)] /\
  raises (o_result R nat (h_fit 0%nat h_first h_far)) /\ h_predict h_second = Ok [Fin (5 / 2)].
Proof. split; [exact (proj1 h_first_ok)|exact failed_refit_example]. Qed.
Print Assumptions C156_failed_refit_refuted.

Example C156_example : untrainable wmean_fit 2 h_wm h_cfg [0; 1]%nat no_fs fX fy (Some h_far) None /\ valid_data fX fy.
Proof. split; [apply h_untrainable|apply fX_data; reflexivity]. Qed.

(** C157: fitting a model on the caller's arrays does to it what fit does with what the
    arrays hold at that moment, whether it returns or raises, and changes no array but
    the given weights. *)
Theorem C157_fit_reads_the_arrays_once :
  forall est fit_est predict_est G choice cpu wm w m c order xa ya ca wa,
  let h := s_heap est G w in
  let o := fit est fit_est predict_est G choice cpu wm c order (s_gen est G w) (s_files est G w) (model_now est G w m)
             (h_X h xa) (h_y h ya) (option_map (h_C h) ca) (option_map (h_W h) wa) in
  let w' := happen est fit_est predict_est G choice cpu wm w (EFit m c order xa ya ca wa) in
  model_now est G w' m = o_state est G o /\ option_map (h_W (s_heap est G w')) wa = o_weights est G o /\
  s_gen est G w' = o_gen est G o /\ s_files est G w' = o_fs est G o /\
  h_X (s_heap est G w') = h_X h /\ h_y (s_heap est G w') = h_y h /\ h_C (s_heap est G w') = h_C h /\
  (forall a, wa <> Some a -> h_W (s_heap est G w') a = h_W h a).
Proof. exact shared_fit. Qed.
Print Assumptions C157_fit_reads_the_arrays_once.

(** C157: nothing the caller writes into its arrays and no fit of another model changes
    what a fit computed: the local models, their predictions and the scores. *)
Theorem C157_results_belong_to_the_model :
  forall est fit_est predict_est G choice cpu wm events m w,
  Forall (fun e => ~ fits_model m e) events ->
  same_results (model_now est G (happen_all est fit_est predict_est G choice cpu wm w events) m) (model_now est G w m).
Proof. exact results_owned. Qed.
Print Assumptions C157_results_belong_to_the_model.

(** C157: predict_by_weight does not change either, unless the coordinates are written. *)
Theorem C157_predict_by_weight_kept :
  forall est fit_est predict_est G choice cpu wm w m c order xa ya ca wa events cfg fs Z v given,
  o_result est G (fit_outcome est fit_est predict_est G choice cpu wm w m c order xa ya ca wa) = Ok tt -> cache_data c = true ->
  let w1 := happen est fit_est predict_est G choice cpu wm w (EFit m c order xa ya ca wa) in
  Forall (fun e => ~ fits_model m e) events -> (forall a, ca = Some a -> Forall (fun e => ~ writes_coordinates a e) events) ->
  predict_by_weight est predict_est wm cfg fs (model_now est G (happen_all est fit_est predict_est G choice cpu wm w1 events) m) Z v given =
  predict_by_weight est predict_est wm cfg fs (model_now est G w1 m) Z v given.
Proof. exact pbw_kept. Qed.
Print Assumptions C157_predict_by_weight_kept.

(** C157.  Relied on: a fitted model predicts from the data it was fitted to.  False for
    predict_by_fit: it trains on what the caller's arrays hold when it is called. *)
Theorem C157_predict_by_fit_reads_the_callers_arrays :
  forall est fit_est predict_est G choice cpu wm w m c order xa ya ca wa events cfg order' fs Z v given (s' : state est),
  o_result est G (fit_outcome est fit_est predict_est G choice cpu wm w m c order xa ya ca wa) = Ok tt -> cache_data c = true ->
  let w2 := happen_all est fit_est predict_est G choice cpu wm (happen est fit_est predict_est G choice cpu wm w (EFit m c order xa ya ca wa)) events in
  Forall (fun e => ~ fits_model m e) events ->
  data_X est s' = Some (h_X (s_heap est G w2) xa) -> data_y est s' = Some (h_y (s_heap est G w2) ya) ->
  data_coords est s' = option_map (h_C (s_heap est G w2)) ca ->
  predict_by_fit est fit_est predict_est cpu wm cfg order' fs (model_now est G w2 m) Z v given =
  predict_by_fit est fit_est predict_est cpu wm cfg order' fs s' Z v given.
Proof. exact pbf_current. Qed.
Print Assumptions C157_predict_by_fit_reads_the_callers_arrays.

(** C157: the target array is overwritten with zeros after the fit, and the prediction
    becomes zero. *)
Theorem C157_predict_by_fit_refuted :
  o_result R nat (sh_outcome sh_world 0 true) = Ok tt /\
  sh_predict (sh_now (sh_happen sh_world [sh_fit 0 true]) 0%nat) = Ok [[3]] /\
  sh_predict (sh_now (sh_happen sh_world [sh_fit 0 true; EWriteY 0 [0; 0; 0]]) 0%nat) = Ok [[0]].
Proof. split; [apply sh_fit_ok|exact sh_predictions_changed]. Qed.
Print Assumptions C157_predict_by_fit_refuted.

(** C157: a model fitted with leave_local_out keeps its weight matrix whatever other
    models are fitted on the same array. *)
Theorem C157_left_out_weights_kept :
  forall est fit_est predict_est G choice cpu wm w m c order xa ya ca a events W n,
  o_result est G (fit_outcome est fit_est predict_est G choice cpu wm w m c order xa ya ca (Some a)) = Ok tt ->
  cache_data c = true -> leave_local_out c = true -> holds (h_W (s_heap est G w) a) W n ->
  let w1 := happen est fit_est predict_est G choice cpu wm w (EFit m c order xa ya ca (Some a)) in
  Forall (fun e => ~ fits_model m e) events -> Forall (fun e => ~ writes_weights a e) events ->
  let w2 := happen_all est fit_est predict_est G choice cpu wm w1 events in
  same_results (model_now est G w2 m) (model_now est G w1 m) /\
  weight_matrix_ est (model_now est G w2 m) = weight_matrix_ est (model_now est G w1 m) /\
  exists w', weight_matrix_ est (model_now est G w1 m) = Some w' /\ holds w' (fill_diagonal (Fin 0) W) n.
Proof. exact left_out_weights. Qed.
Print Assumptions C157_left_out_weights_kept.

(** C157: any model keeps its weight matrix when no model is fitted with
    leave_local_out on the same array. *)
Theorem C157_weights_kept :
  forall est fit_est predict_est G choice cpu wm w m c order xa ya ca a events,
  o_result est G (fit_outcome est fit_est predict_est G choice cpu wm w m c order xa ya ca (Some a)) = Ok tt -> cache_data c = true ->
  let w1 := happen est fit_est predict_est G choice cpu wm w (EFit m c order xa ya ca (Some a)) in
  Forall (fun e => ~ fits_model m e) events -> Forall (fun e => ~ writes_weights a e /\ ~ clears_weights a e) events ->
  weight_matrix_ est (model_now est G (happen_all est fit_est predict_est G choice cpu wm w1 events) m) = weight_matrix_ est (model_now est G w1 m).
Proof. exact undisturbed_weights. Qed.
Print Assumptions C157_weights_kept.

(** C157.  Relied on: fitting one model leaves the others alone.  False: fitting a second
    model with leave_local_out on the same weight array changes the weight matrix of the
    first, which was fitted without, and whose neighbour matrix still has the diagonal. *)
Theorem C157_weights_refuted :
  o_result R nat (sh_outcome sh_world 0 false) = Ok tt /\
  weight_matrix_ R (sh_now (sh_happen sh_world [sh_fit 0 false]) 0%nat) = Some (WDense sh_W) /\
  weight_matrix_ R (sh_now (sh_happen sh_world [sh_fit 0 false; sh_fit 1 true]) 0%nat) = Some (WDense (fill_diagonal (Fin 0) sh_W)) /\
  neighbour_matrix_ R (sh_now (sh_happen sh_world [sh_fit 0 false; sh_fit 1 true]) 0%nat) = Some (positive_mask (WDense sh_W)).
Proof. split; [apply sh_fit_ok|exact sh_weights_changed]. Qed.
Print Assumptions C157_weights_refuted.

(** Another model is fitted and all four kinds of arrays but the weights written. *)
Example C157_example :
  o_result R nat (sh_outcome sh_world 0 true) = Ok tt /\ holds (h_W (s_heap R nat sh_world) 0%nat) sh_W 3 /\
  Forall (fun e => ~ fits_model 0 e) [sh_fit 1 true; EWriteX 0 [[5]; [6]; [7]]; EWriteY 0 fy'; EWriteC 0 h_far; EWriteW 1 (WDense fW)] /\
  Forall (fun e => ~ writes_weights 0 e) [sh_fit 1 true; EWriteX 0 [[5]; [6]; [7]]; EWriteY 0 fy'; EWriteC 0 h_far; EWriteW 1 (WDense fW)].
Proof.
  split; [apply sh_fit_ok|]. split; [apply sh_holds|]. split; repeat (constructor; [cbn; lia|]); constructor.
Qed.
