(** C174: the units of the features. *)
From Coq Require Import Lra Lia.
From Verif.Model Require Import Base Ext Csr Neighbour Distance WeightModel Inspect PartialDependence.
From Verif.Spec Require Import KernelSpec NeighbourSpec WeightModelSpec LinearSpec InspectSpec LocalImportanceSpec UnitsSpec FeatureUnitsSpec PartialSpec.
From Verif.Proofs Require Import ListFacts NeighbourProps FitExamples LinearExamples InspectExamples PartialExamples FeatureUnits FeatureLinear FeatureCurves FeatureExamples.
Open Scope string_scope.
Open Scope nat_scope.
Open Scope R_scope.

(** With a learner that overlooks how the features are written, a fit to rewritten
    features succeeds too, with the same predictions, residuals and score. *)
Theorem C174_fit :
  forall est fit_est predict_est F F' phi, overlooks F phi fit_est predict_est -> rewrites F F' phi ->
  forall G choice cpu wm c order g fs s0 s0' X y coords given, rows_of F X ->
  let FIT := fit est fit_est predict_est G choice cpu wm in
  let o := FIT c order g fs s0 X y coords given in
  let o' := FIT c order g fs s0' (map phi X) y coords given in
  o_result est G o = Ok tt ->
  o_result est G o' = Ok tt /\
  local_predict_ est (o_state est G o') = local_predict_ est (o_state est G o) /\
  local_residual_ est (o_state est G o') = local_residual_ est (o_state est G o) /\
  llocv_score_ est (o_state est G o') = llocv_score_ est (o_state est G o).
Proof. intros est fe pe F F' phi Hov Hrw G ch cpu wm; exact (rewritten_fit fe pe F F' phi Hov Hrw ch cpu wm). Qed.
Print Assumptions C174_fit.

Theorem C174_predict_by_fit :
  forall est fit_est predict_est F F' phi, overlooks F phi fit_est predict_est -> rewrites F F' phi ->
  forall G choice cpu wm c order g fs s0 s0' X y coords given order2 fs2 A v W out, rows_of F X -> rows_of F A ->
  let FIT := fit est fit_est predict_est G choice cpu wm in
  let o := FIT c order g fs s0 X y coords given in
  let o' := FIT c order g fs s0' (map phi X) y coords given in
  o_result est G o = Ok tt ->
  snd (predict_by_fit est fit_est predict_est cpu wm c order2 fs2 (o_state est G o) A v W) = Ok out ->
  snd (predict_by_fit est fit_est predict_est cpu wm c order2 fs2 (o_state est G o') (map phi A) v W) = Ok out.
Proof. intros est fe pe F F' phi Hov Hrw G ch cpu wm; exact (rewritten_pbf fe pe F F' phi Hov Hrw ch cpu wm). Qed.
Print Assumptions C174_predict_by_fit.

Theorem C174_predict_by_weight :
  forall est fit_est predict_est F F' phi, overlooks F phi fit_est predict_est -> rewrites F F' phi ->
  forall G choice cpu wm c order g fs s0 s0' X y t given fs2 fs3 A v es preds W m n, rows_of F X -> rows_of F A ->
  let FIT := fit est fit_est predict_est G choice cpu wm in
  let o := FIT c order g fs s0 X y (Some t) given in
  let o' := FIT c order g fs s0' (map phi X) y (Some t) given in
  o_result est G o = Ok tt -> cache_data c = true -> cache_estimator c = true ->
  local_estimators est (o_state est G o) = Some (map Some es) -> List.length es = n -> (0 < n)%nat -> (0 < m)%nat ->
  Forall2 (fun e p => predict_est e A = Ok p /\ List.length p = m) es preds ->
  wm fs2 v t = (fs3, Ok (WDense (mmap Fin W))) -> rect W m n ->
  exists q, List.length q = m /\
    predict_by_weight est predict_est wm c fs2 (o_state est G o) A (Some v) None = (fs3, Ok (map Fin q)) /\
    predict_by_weight est predict_est wm c fs2 (o_state est G o') (map phi A) (Some v) None = (fs3, Ok (map Fin q)).
Proof. intros est fe pe F F' phi Hov Hrw G ch cpu wm; exact (rewritten_pbw fe pe F F' phi Hov Hrw ch cpu wm). Qed.
Print Assumptions C174_predict_by_weight.

(** Linear least squares: units do not matter at a location in the affine span of
    its neighbours' features, whichever minimiser is found. *)
Theorem C174_linear :
  forall est p fit_est predict_est intercept coef, least_squares p fit_est predict_est intercept coef ->
  forall u, List.length u = p -> proper_units u ->
  forall G choice cpu wm wm' c order order' g g' fs fs' s0 s0' X y coords coords' given given' w w' W N,
  valid_choice choice -> (0 < cpu)%nat -> rect X N p -> nonnegative_weights W N ->
  in_force wm fs coords given w -> holds w W N -> in_force wm' fs' coords' given' w' -> holds w' W N ->
  schedule (num_tasks cpu c (num_locations c N)) order -> schedule (num_tasks cpu c (num_locations c N)) order' -> aligned c w -> aligned c w' ->
  let o := fit est fit_est predict_est G choice cpu wm c order g fs s0 X y coords given in
  let o' := fit est fit_est predict_est G choice cpu wm' c order' g' fs' s0' (map (in_feature_units u) X) y coords' given' in
  o_result est G o = Ok tt -> o_result est G o' = Ok tt ->
  exists locs ps locs' ps', local_indices_ est (o_state est G o) = Some locs /\ local_predict_ est (o_state est G o) = Some ps /\
    local_indices_ est (o_state est G o') = Some locs' /\ local_predict_ est (o_state est G o') = Some ps' /\
    forall k k' i, nth_error locs k = Some i -> nth_error locs' k' = Some i ->
      affine_combination (map (fun j => nth j X []) (training_set (leave_local_out c) W N i)) (nth i X []) -> nth k' ps' 0 = nth k ps 0.
Proof. exact @linear_fit_units. Qed.
Print Assumptions C174_linear.

(** Relied on: linear models do not depend on units.  False with fewer neighbours
    than parameters: doubling the second feature moves a prediction from 1/2 to 1/5. *)
Theorem C174_linear_refuted :
  exists est fit_est predict_est intercept coef X y W u s0,
  least_squares 2 fit_est predict_est intercept coef /\ rect X 3 2 /\ nonnegative_weights W 3 /\ List.length u = 2%nat /\ proper_units u /\
  let FIT X := fit est fit_est predict_est nat first_choice 2 no_wm lcfg [1; 0]%nat 0%nat no_fs s0 X y None (Some (WDense W)) in
  o_result est nat (FIT X) = Ok tt /\ o_result est nat (FIT (map (in_feature_units u) X)) = Ok tt /\
  local_predict_ est (o_state est nat (FIT X)) = Some [0; 0; 1 / 2] /\
  local_predict_ est (o_state est nat (FIT (map (in_feature_units u) X))) = Some [0; 0; 1 / 5].
Proof. exact unit_dependent. Qed.
Print Assumptions C174_linear_refuted.

(** The grid of partial_dependence and local_ICE, if there is one, follows the unit;
    with few different values there is one. *)
Theorem C174_grid :
  forall resolution u (X : matrix R) N F f q, (1 <= resolution)%nat -> rect X N F -> List.length u = F -> (f < F)%nat -> 0 < fst (nth f u (0, 0)) ->
  grid_from_X_sk resolution X f = Ok q ->
  let to_units := in_units (fst (nth f u (0, 0))) (snd (nth f u (0, 0))) in
  (grid_from_X_sk resolution (map (in_feature_units u) X) f = Ok (map to_units q) \/ grid_from_X_sk resolution (map (in_feature_units u) X) f = Raise ValueError) /\
  ((List.length (nodup Req_EM_T (values_of X f)) < resolution)%nat -> grid_from_X_sk resolution (map (in_feature_units u) X) f = Ok (map to_units q)).
Proof. exact grid_units. Qed.
Print Assumptions C174_grid.

(** Partial dependence curves then have the same heights over the values in the
    new unit. *)
Theorem C174_curves :
  forall est fit_est predict_est F u, List.length u = F -> overlooks F (in_feature_units u) fit_est predict_est ->
  forall G choice, valid_choice choice -> forall cpu, (0 < cpu)%nat -> forall wm store, (forall v, store v = v) -> forall resolution, (1 <= resolution)%nat ->
  let FIT := fit est fit_est predict_est G choice cpu wm in
  let PD := partial_dependence est (partial_dependence_sk est predict_est store resolution) in
  forall c order g fs s0 s0' X y coords given W N order1 order2 curves by_feature curves' by_feature' i f,
  rect X N F -> in_force wm fs coords given (WDense W) -> rect W N N -> schedule (num_tasks cpu c (num_locations c N)) order ->
  cache_data c = true -> cache_estimator c = true -> sample_local_rate c = None ->
  let o := FIT c order g fs s0 X y coords given in
  let o' := FIT c order g fs s0' (map (in_feature_units u) X) y coords given in
  o_result est G o = Ok tt -> schedule N order1 -> schedule N order2 ->
  PD order1 (o_state est G o) = Ok (curves, by_feature) -> PD order2 (o_state est G o') = Ok (curves', by_feature') ->
  (i < N)%nat -> (f < F)%nat -> 0 < fst (nth f u (0, 0)) ->
  nth f (nth i curves' []) ([], []) =
    (map (in_units (fst (nth f u (0, 0))) (snd (nth f u (0, 0)))) (fst (nth f (nth i curves []) ([], []))), snd (nth f (nth i curves []) ([], []))).
Proof. exact @fit_curves_units. Qed.
Print Assumptions C174_curves.

(** Relied on: the curves can be computed in any unit.  False: in a large enough
    unit, a feature with as many different values as grid points makes both methods
    raise. *)
Theorem C174_curves_refuted :
  forall est predict_est store resolution, (1 <= resolution)%nat ->
  forall X N F W i f, rect X N F -> (i < N)%nat -> (f < F)%nat ->
  (resolution <= List.length (nodup Req_EM_T (values_of (map (fun j => nth j X []) (positive_set W N i)) f)))%nat ->
  exists s0, 0 < s0 /\ forall sc, 0 < sc <= s0 -> forall order s y es score,
    fitted_model s (map (scaled_feature f sc) X) y es N F score -> fitted_weights s W N -> schedule N order ->
    raises (local_ICE est predict_est (grid_from_X_sk resolution) store s) /\
    raises (partial_dependence est (partial_dependence_sk est predict_est store resolution) order s).
Proof. exact @small_unit_raises. Qed.
Print Assumptions C174_curves_refuted.

(** Regression lines of one feature overlook its unit; Celsius to Fahrenheit at
    three places. *)
Example C174_example : (forall a k, a <> 0 -> overlooks 1 (in_feature_units [(a, k)]) line_fit ols_predict) /\
  rewrites 1 1 (in_feature_units [(9 / 5, 32)]) /\ rows_of 1 (t_X 0 1 2) /\ map (in_feature_units [(9 / 5, 32)]) (t_X 0 1 2) = t_X 32 (169 / 5) (178 / 5) /\
  o_result (R * R) nat (t_fit 0 1 2) = Ok tt /\ schedule 3 [2; 0; 1]%nat /\
  (exists by_feature, t_pd [2; 0; 1]%nat (t_state 0 1 2) = Ok ([[([1], [20])]; [([0; 2], [10; 40])]; [([1], [20])]], by_feature)) /\
  (exists by_feature, t_pd [2; 0; 1]%nat (t_state 32 (169 / 5) (178 / 5)) = Ok ([[([169 / 5], [20])]; [([32; 178 / 5], [10; 40])]; [([169 / 5], [20])]], by_feature)).
Proof.
  split; [exact line_overlooks|]. split; [split; [lia|]; intros [|x [|? ?]] Hr; try discriminate Hr; reflexivity|]. split; [repeat constructor|]. split; [exact t_units|].
  split; [apply t_ok; lra|]. split; [exact sched3|]. split; apply t_example; lra.
Qed.

(** The span condition of C174_linear: one feature and two different neighbours. *)
Example C174_linear_example : least_squares 1 ols_fit ols_predict fst ols_coef /\ proper_units [(9 / 5, 32)] /\ nonnegative_weights lW 3 /\
  o_result (R * R) nat (fit_line lcfg lW None) = Ok tt /\
  forall i, (i < 3)%nat -> affine_combination (map (fun j => nth j fX []) (training_set true lW 3 i)) (nth i fX []).
Proof.
  split; [exact ols_least_squares|]. split; [constructor; [cbn; lra|constructor]|]. split; [apply lW_nonneg, lW_entries|]. split.
  - apply fit_line_ok; [apply lW_holds|]. destruct lW_training as (T0 & T1 & T2). intros i Hi. apply lt3 in Hi as [-> | [-> | ->]]; [rewrite T0|rewrite T1|rewrite T2]; discriminate.
  - intros i Hi. assert (E : exists x, nth i fX [] = [x]) by (apply lt3 in Hi as [-> | [-> | ->]]; eexists; reflexivity). destruct E as [x ->]. apply lW_affine, Hi.
Qed.

(** Three different values and three grid points, fitted in every unit. *)
Example C174_curves_refuted_example :
  rect m_X 3 2 /\ List.length (nodup Req_EM_T (values_of (map (fun j => nth j m_X []) (positive_set fOnes 3 0)) 0)) = 3%nat /\
  forall sc, (exists es score, fitted_model (o_state R nat (z_fit (map (scaled_feature 0 sc) m_X))) (map (scaled_feature 0 sc) m_X) [1; 2; 4] es 3 2 score) /\
    fitted_weights (o_state R nat (z_fit (map (scaled_feature 0 sc) m_X))) fOnes 3.
Proof.
  split; [split; [reflexivity|repeat constructor]|]. split; [exact z_distinct|]. intros sc. apply z_fitted. split; [reflexivity|repeat constructor].
Qed.
