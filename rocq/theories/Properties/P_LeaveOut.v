(** C175: scores with and without the location itself. *)
From Coq Require Import Lra Lia.
From Verif.Model Require Import Base Ext Csr Neighbour Distance WeightModel.
From Verif.Spec Require Import KernelSpec NeighbourSpec WeightModelSpec LinearSpec FeatureUnitsSpec LeaveOutSpec.
From Verif.Proofs Require Import ListFacts NeighbourProps FitExamples LinearExamples LeaveOutProps LeaveOutLinear.
Open Scope string_scope.
Open Scope nat_scope.
Open Scope R_scope.

(** With a learner that minimises an error (a mean, least squares, ridge, lasso), the
    residual at a location trained on itself is never the larger one. *)
Theorem C175_residuals :
  forall est hyp p admissible value penalty chosen fit_est predict_est, @error_minimiser est hyp p admissible value penalty chosen fit_est predict_est ->
  forall G choice cpu wm wm' c c' order order' g g' fs fs' s0 s0' X y coords coords' given given' w w' W N,
  valid_choice choice -> (0 < cpu)%nat -> rect X N p -> nonnegative_weights W N ->
  in_force wm fs coords given w -> holds w W N -> in_force wm' fs' coords' given' w' -> holds w' W N ->
  schedule (num_tasks cpu c (num_locations c N)) order -> schedule (num_tasks cpu c' (num_locations c' N)) order' -> aligned c w -> aligned c' w' ->
  leave_local_out c = true -> leave_local_out c' = false ->
  let o := fit est fit_est predict_est G choice cpu wm c order g fs s0 X y coords given in
  let o' := fit est fit_est predict_est G choice cpu wm' c' order' g' fs' s0' X y coords' given' in
  o_result est G o = Ok tt -> o_result est G o' = Ok tt ->
  exists locs rs locs' rs', local_indices_ est (o_state est G o) = Some locs /\ local_residual_ est (o_state est G o) = Some rs /\
    local_indices_ est (o_state est G o') = Some locs' /\ local_residual_ est (o_state est G o') = Some rs' /\
    forall k k' i, nth_error locs k = Some i -> nth_error locs' k' = Some i -> Rabs (nth k' rs' 0) <= Rabs (nth k rs 0).
Proof. exact @leave_out_residuals. Qed.
Print Assumptions C175_residuals.

(** So the reported score is never lower without leaving out. *)
Theorem C175_score :
  forall est hyp p admissible value penalty chosen fit_est predict_est, @error_minimiser est hyp p admissible value penalty chosen fit_est predict_est ->
  forall G choice cpu wm wm' c order order' g fs fs' s0 s0' X y coords coords' given given' w w' W N score score',
  valid_choice choice -> (0 < cpu)%nat -> rect X N p -> nonnegative_weights W N ->
  in_force wm fs coords given w -> holds w W N -> in_force wm' fs' coords' given' w' -> holds w' W N ->
  schedule (num_tasks cpu c (num_locations c N)) order -> schedule (num_tasks cpu c (num_locations c N)) order' -> aligned c w -> aligned c w' ->
  let o := fit est fit_est predict_est G choice cpu wm (with_leave_out c true) order g fs s0 X y coords given in
  let o' := fit est fit_est predict_est G choice cpu wm' (with_leave_out c false) order' g fs' s0' X y coords' given' in
  o_result est G o = Ok tt -> o_result est G o' = Ok tt ->
  llocv_score_ est (o_state est G o) = Some (Fin score) -> llocv_score_ est (o_state est G o') = Some (Fin score') -> score <= score'.
Proof. exact @leave_out_score. Qed.
Print Assumptions C175_score.

(** Relied on: the same with any learner.  False: sums of the neighbours' targets. *)
Theorem C175_score_refuted :
  exists est fit_est predict_est X y W s0,
  rect X 3 1 /\ nonnegative_weights W 3 /\ holds (WDense W) W 3 /\
  let FIT leave_out := fit est fit_est predict_est nat first_choice 2 no_wm (with_leave_out lcfg leave_out) [1; 0]%nat 0%nat no_fs s0 X y None (Some (WDense W)) in
  o_result est nat (FIT true) = Ok tt /\ o_result est nat (FIT false) = Ok tt /\
  llocv_score_ est (o_state est nat (FIT true)) = Some (Fin (-11)) /\ llocv_score_ est (o_state est nat (FIT false)) = Some (Fin (-32)).
Proof.
  exists R, wsum_fit, wmean_predict, fX, sum_y, lW, (init_state R). split; [split; [reflexivity|repeat constructor]|]. split; [apply lW_nonneg, lW_entries|]. split; [exact lW_holds|].
  exact (conj (proj1 (sum_score true)) (conj (proj1 (sum_score false)) (conj (proj2 (sum_score true)) (proj2 (sum_score false))))).
Qed.
Print Assumptions C175_score_refuted.

(** Relied on: the scores of fit_models (simulation_for_fitting.py:21-120) can be
    compared.  False: the linear model is scored on the data it was fitted to, the
    local models on observations left out.  A local model that covers everything
    with equal weights is the same model, and its score is never the higher one. *)
Theorem C175_in_sample :
  forall est hyp p admissible value chosen fit_est predict_est, @error_minimiser est hyp p admissible value (fun _ => 0) chosen fit_est predict_est ->
  forall G choice cpu wm c order g fs s0 X y coords given w W N omega k e predictions score score',
  valid_choice choice -> (0 < cpu)%nat -> rect X N p ->
  (forall i, (i < N)%nat -> 0 < omega i) -> (forall i j, (i < N)%nat -> (j < N)%nat -> mget (Fin 0) W i j = Fin (omega i)) ->
  in_force wm fs coords given w -> holds w W N -> schedule (num_tasks cpu c (num_locations c N)) order ->
  leave_local_out c = true -> sample_local_rate c = None ->
  let o := fit est fit_est predict_est G choice cpu wm c order g fs s0 X y coords given in
  o_result est G o = Ok tt -> llocv_score_ est (o_state est G o) = Some (Fin score) ->
  fit_est k X y (repeat (Fin 1) N) = Ok e -> predict_est e X = Ok predictions -> r2_score y predictions = Ok (Fin score') ->
  score <= score'.
Proof. exact @in_sample_score. Qed.
Print Assumptions C175_in_sample.

(** Relied on: without leaving out, the score tells how well the model fits.  False:
    it is 1, whatever the data, where no location has more neighbours than a linear
    relation can pass through. *)
Theorem C175_saturated :
  forall est p fit_est predict_est (intercept : est -> R) coef, least_squares p fit_est predict_est intercept coef ->
  forall G choice cpu wm c order g fs s0 X y coords given w W N,
  valid_choice choice -> (0 < cpu)%nat -> rect X N p -> nonnegative_weights W N ->
  in_force wm fs coords given w -> holds w W N -> schedule (num_tasks cpu c (num_locations c N)) order -> aligned c w ->
  leave_local_out c = false ->
  (forall i, (i < N)%nat -> In i (training_set false W N i) /\ interpolable p (map (fun j => nth j X []) (training_set false W N i))) ->
  let o := fit est fit_est predict_est G choice cpu wm c order g fs s0 X y coords given in
  o_result est G o = Ok tt ->
  local_predict_ est (o_state est G o) = y_sample_ est (o_state est G o) /\ llocv_score_ est (o_state est G o) = Some (Fin 1).
Proof. exact @saturated_score. Qed.
Print Assumptions C175_saturated.

(** Regression lines minimise the squared error; three observations, all weights 1,
    both ways. *)
Example C175_example :
  (exists admissible value, error_minimiser 1 admissible value (fun _ => 0) (fun e => (fst e, ols_coef e)) ols_fit ols_predict) /\
  rect fX 3 1 /\ nonnegative_weights lW 3 /\ holds (WDense lW) lW 3 /\
  (forall i j, (i < 3)%nat -> (j < 3)%nat -> mget (Fin 0) lW i j = Fin 1) /\
  forall leave_out, o_result (R * R) nat (fit (R * R) ols_fit ols_predict nat first_choice 2 no_wm (with_leave_out lcfg leave_out) [1; 0]%nat 0%nat no_fs (init_state (R * R)) fX fy None (Some (WDense lW))) = Ok tt.
Proof.
  split; [eexists _, _; apply least_squares_minimises, ols_least_squares|]. split; [split; [reflexivity|repeat constructor]|]. split; [apply lW_nonneg, lW_entries|].
  split; [exact lW_holds|]. split; [|exact lines_ok]. intros i j Hi Hj. apply lt3 in Hi as [-> | [-> | ->]]; apply lt3 in Hj as [-> | [-> | ->]]; reflexivity.
Qed.

(** Targets 1, 2, 4, which are on no line. *)
Example C175_saturated_example : o_result (R * R) nat sat_fit = Ok tt /\
  forall i, (i < 3)%nat -> In i (training_set false sW 3 i) /\ interpolable 1 (map (fun j => nth j fX []) (training_set false sW 3 i)).
Proof. split; [exact sat_ok|exact sW_saturated]. Qed.
