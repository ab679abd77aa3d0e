(** Property C160: local least squares recovers linear relations. *)
From Coq Require Import Lra Psatz Sorting.Sorted.
From Verif.Model Require Import Base Ext Sort Kernel Distance WeightMatrix Csr Neighbour WeightModel.
From Verif.Spec Require Import KernelSpec WeightSpec NeighbourSpec WeightModelSpec LinearSpec.
From Verif.Proofs Require Import ListFacts WeightModelFacts WeightModelProps FitProps PredictProps FitExamples EndToEndExamples HistoryExamples LinearProps LinearPredict LinearExamples.
Open Scope string_scope.
Open Scope nat_scope.
Open Scope R_scope.

(** Relations that vary over space: wherever the observations in the neighbourhood of
    a location satisfy a linear relation (another one at another location), the local
    prediction follows it as far as the neighbours' rows reach, and where they
    determine it the stored estimator has its coefficients. *)
Theorem C160_relation_of_the_neighbourhood :
  forall est fit_est predict_est (intercept : est -> R) coef p G choice cpu wm c order g fs s0 X y coords given w W N,
  least_squares p fit_est predict_est intercept coef ->
  valid_choice choice -> (0 < cpu)%nat -> rect X N p -> in_force wm fs coords given w -> holds w W N -> nonnegative_weights W N ->
  schedule (num_tasks cpu c (num_locations c N)) order -> aligned c w ->
  let o := fit est fit_est predict_est G choice cpu wm c order g fs s0 X y coords given in
  o_result est G o = Ok tt ->
  exists locs ps es,
    local_indices_ est (o_state est G o) = Some locs /\ local_predict_ est (o_state est G o) = Some ps /\
    local_estimators est (o_state est G o) = Some es /\ length ps = length locs /\ length es = length locs /\
    forall k b0 b, (k < length locs)%nat -> length b = p ->
      let i := nth k locs 0%nat in
      let T := training_set (leave_local_out c) W N i in
      (forall j, In j T -> nth j y 0 = linear b0 b (nth j X [])) ->
      (affine_combination (map (fun j => nth j X []) T) (nth i X []) -> nth k ps 0 = linear b0 b (nth i X [])) /\
      (determining p (map (fun j => nth j X []) T) -> cache_estimator c = true ->
       exists e, nth k es None = Some e /\ intercept e = b0 /\ coef e = b).
Proof. exact fit_linear. Qed.
Print Assumptions C160_relation_of_the_neighbourhood.

(** One relation everywhere: predictions equal targets, residuals are 0, the score is 1. *)
Theorem C160_exact_data :
  forall est fit_est predict_est (intercept : est -> R) coef p G choice cpu wm c order g fs s0 X y coords given w W N b0 b,
  least_squares p fit_est predict_est intercept coef ->
  valid_choice choice -> (0 < cpu)%nat -> rect X N p -> in_force wm fs coords given w -> holds w W N -> nonnegative_weights W N ->
  schedule (num_tasks cpu c (num_locations c N)) order -> aligned c w ->
  length b = p -> (forall j, (j < N)%nat -> nth j y 0 = linear b0 b (nth j X [])) ->
  (forall i, (i < N)%nat -> affine_combination (map (fun j => nth j X []) (training_set (leave_local_out c) W N i)) (nth i X [])) ->
  let o := fit est fit_est predict_est G choice cpu wm c order g fs s0 X y coords given in
  o_result est G o = Ok tt ->
  exists ys, y_sample_ est (o_state est G o) = Some ys /\ local_predict_ est (o_state est G o) = Some ys /\
    local_residual_ est (o_state est G o) = Some (map (fun _ => 0) ys) /\
    llocv_score_ est (o_state est G o) = Some (Fin 1).
Proof. exact fit_global. Qed.
Print Assumptions C160_exact_data.

(** Without enough neighbours the same data is predicted badly: one neighbour each. *)
Theorem C160_few_neighbours_refuted :
  least_squares 1 ols_fit ols_predict fst ols_coef /\ (forall j, (j < 3)%nat -> nth j ly 0 = linear 1 [2] (nth j fX [])) /\
  let o := fit_line lcfg fW None in
  o_result (R * R) nat o = Ok tt /\ y_sample_ (R * R) (o_state (R * R) nat o) = Some [1; 3; 5] /\
  local_predict_ (R * R) (o_state (R * R) nat o) = Some [3; 3; 3] /\ llocv_score_ (R * R) (o_state (R * R) nat o) = Some (Fin 0).
Proof. split; [exact ols_least_squares|]. split; [exact line_rel|exact line_one_neighbour]. Qed.
Print Assumptions C160_few_neighbours_refuted.

(** Predictions at new points: predict_by_fit ... *)
Theorem C160_predict_by_fit :
  forall est fit_est predict_est (intercept : est -> R) coef q cpu f32 mkw no_kw sm dm sr dargs truthy a o,
  least_squares q fit_est predict_est intercept coef ->
  match o with Some d => truthy d = false | None => True end -> a_ratio a = RNone ->
  forall c order fs s X v t tX ty Ds m n W out,
  cache_data c = true -> (0 < cpu)%nat -> schedule cpu order ->
  data_coords est s = Some t -> data_X est s = Some tX -> data_y est s = Some ty ->
  distance_matrices f32 mkw no_kw sm t (Some v) (a_measure a) None = Ok (map A2 Ds) ->
  valid_distances Ds n m -> (0 < n)%nat -> rect tX n q -> length ty = n -> rect X m q ->
  weight_matrix_from_distance (map A2 Ds) (a_kernel a) RNone (a_bandwidth a) (a_count a) = Ok W ->
  snd (predict_by_fit est fit_est predict_est cpu (points_weights f32 mkw no_kw sm dm sr dargs truthy a o) c order fs s X (Some v) None) = Ok out ->
  length out = m /\
  forall i b0 b, (i < m)%nat -> length b = q ->
    let T := weighted_points W n i in
    (forall j, In j T -> nth j ty 0 = linear b0 b (nth j tX [])) ->
    affine_combination (map (fun j => nth j tX []) T) (nth i X []) ->
    nth i out [] = [linear b0 b (nth i X [])].
Proof. exact pbf_linear. Qed.
Print Assumptions C160_predict_by_fit.

(** ... and fit followed by predict_by_weight, for a relation that holds everywhere. *)
Theorem C160_predict_by_weight :
  forall est fit_est predict_est (intercept : est -> R) coef q G choice cpu f32 mkw no_kw sm dm sr dargs truthy a o,
  least_squares q fit_est predict_est intercept coef ->
  match o with Some d => truthy d = false | None => True end -> a_ratio a = RNone ->
  forall wm c order g fs fs' s0 X y t given w W N Z v Ds m V b0 b,
  valid_choice choice -> (0 < cpu)%nat -> rect X N q -> in_force wm fs (Some t) given w -> holds w W N -> nonnegative_weights W N ->
  sample_local_rate c = None -> schedule (num_tasks cpu c N) order -> cache_data c = true -> cache_estimator c = true ->
  length b = q -> (forall j, (j < N)%nat -> nth j y 0 = linear b0 b (nth j X [])) ->
  let trained := fit est fit_est predict_est G choice cpu wm c order g fs s0 X y (Some t) given in
  o_result est G trained = Ok tt ->
  rect Z m q -> (0 < m)%nat ->
  distance_matrices f32 mkw no_kw sm v (Some t) (a_measure a) None = Ok (map A2 Ds) -> valid_distances Ds m N ->
  weight_matrix_from_distance (map A2 Ds) (a_kernel a) RNone (a_bandwidth a) (a_count a) = Ok V ->
  exists out, predict_by_weight est predict_est (points_weights f32 mkw no_kw sm dm sr dargs truthy a o) c fs' (o_state est G trained) Z (Some v) None = (fs', Ok (map Fin out)) /\
    length out = m /\
    forall i, (i < m)%nat ->
      (exists j, (j < N)%nat /\ mget NaN V i j <> Fin 0) ->
      (forall j, (j < N)%nat -> mget NaN V i j <> Fin 0 ->
         affine_combination (map (fun k => nth k X []) (training_set (leave_local_out c) W N j)) (nth i Z [])) ->
      nth i out 0 = linear b0 b (nth i Z []).
Proof. exact pbw_linear. Qed.
Print Assumptions C160_predict_by_weight.

(** y = 1 + 2 x at 0, 1, 2 with leave-one-out and weights 1. *)
Example C160_example :
  least_squares 1 ols_fit ols_predict fst ols_coef /\ rect fX 3 1 /\ holds (WDense lW) lW 3 /\ nonnegative_weights lW 3 /\
  (forall j, (j < 3)%nat -> nth j ly 0 = linear 1 [2] (nth j fX [])) /\
  (forall i, (i < 3)%nat -> affine_combination (map (fun j => nth j fX []) (training_set true lW 3 i)) (nth i fX [])) /\
  (forall i, (i < 3)%nat -> determining 1 (map (fun j => nth j fX []) (training_set true lW 3 i))) /\
  o_result (R * R) nat (fit_line lcfg lW None) = Ok tt.
Proof.
  destruct lW_training as (T0 & T1 & T2).
  split; [exact ols_least_squares|]. split; [split; [reflexivity|repeat constructor]|]. split; [exact lW_holds|]. split; [apply lW_nonneg, lW_entries|].
  split; [exact line_rel|]. split.
  { intros i Hi. replace (nth i fX []) with [INR i]; [apply lW_affine; auto|]. apply lt3 in Hi as [-> | [-> | ->]]; cbn; reflexivity. }
  split.
  { intros i Hi. apply lt3 in Hi as [-> | [-> | ->]]; [rewrite T0|rewrite T1|rewrite T2]; cbn [map nth fX]; apply two_determine; lra. }
  apply fit_line_ok; [apply lW_holds|]. intros i Hi. apply lt3 in Hi as [-> | [-> | ->]]; [rewrite T0|rewrite T1|rewrite T2]; discriminate.
Qed.

Example C160_example_new_points :
  o_result (R * R) nat trained = Ok tt /\
  p_dist h_query h_pts = Ok (map A2 [ [[2; 1; 0]] ]) /\ valid_distances [ [[2; 1; 0]] ] 1 3 /\ boxW [[2; 1; 0]] = Ok [[Fin 0; Fin (1 / 2); Fin (1 / 2)]] /\
  (forall j, (j < 3)%nat -> affine_combination (map (fun k => nth k fX []) (training_set true lW 3 j)) [7]) /\
  p_dist h_pts h_query = Ok (map A2 [ [[2]; [1]; [0]] ]) /\ valid_distances [ [[2]; [1]; [0]] ] 3 1 /\ boxW [[2]; [1]; [0]] = Ok [[Fin 0]; [Fin 1]; [Fin 1]] /\
  affine_combination (map (fun j => nth j fX []) (weighted_points [[Fin 0]; [Fin 1]; [Fin 1]] 3 0)) [7] /\
  exists out, refitted = Ok out.
Proof.
  split; [exact trained_ok|]. split; [exact h_dist_q|]. split; [apply valid13; lra|]. split; [exact box_q|]. split; [intros j Hj; apply lW_affine; auto|].
  split; [exact l_dist|]. split; [apply valid31; lra|]. split; [exact l_box|]. split; [|exact refitted_ok].
  rewrite l_points. cbn [map nth fX]. apply two_points. lra.
Qed.
