(** C172: local permutation importance, with sklearn's permutation_importance
    written out.  Job [i] shuffles from the generator [seed i].  [positive_set W N i]
    are the neighbours with a positive weight. *)
From Coq Require Import Lra.
From Verif.Model Require Import Base Ext Csr Neighbour Distance WeightModel NumbaImpl Stacking Inspect StackingInspect LocalImportance.
From Verif.Spec Require Import KernelSpec NeighbourSpec WeightModelSpec InspectSpec StackingSpec LocalImportanceSpec.
From Verif.Proofs Require Import ListFacts NeighbourProps InspectProps InspectProps3 InspectProps4 FitExamples InspectExamples LocalImportanceApi LocalImportanceStack LocalImportanceExamples
  StackingExamples StackingInspectExamples LocalImportanceExamples2.
Open Scope string_scope.
Open Scope nat_scope.
Open Scope R_scope.

(** The importance of a feature at a location is the mean drop of the weighted R²
    of the local estimator on the neighbours, over rearrangements of the feature
    among the neighbours. *)
Theorem C172_mean_drops :
  forall est predict_est (G : Type) shuffle (seed : nat -> G), valid_permute shuffle ->
  forall c order s X y es N F score W r m,
  fitted_model s X y es N F score -> fitted_weights s W N -> cache_data c = true -> cache_estimator c = true -> schedule N order ->
  importance_score_local est (fun i => permutation_importance_sk est predict_est G shuffle (seed i)) c order s r = Ok m ->
  List.length m = N /\
  forall i e, nth_error es i = Some e -> let P := positive_set W N i in (2 <= List.length P)%nat ->
    exists w, Forall2 (fun j a => mget (Fin 0) W i j = Fin a) P w /\
      mean_drops predict_est e (map (fun j => nth j X []) P) (map (fun j => nth j y 0) P) w F r (nth i m []).
Proof. exact @local_written_out. Qed.
Print Assumptions C172_mean_drops.

(** With one neighbour there is no importance. *)
Theorem C172_one_neighbour :
  forall est predict_est (G : Type) shuffle (seed : nat -> G), valid_permute shuffle ->
  forall c order s X y es N F score W r m i e j,
  fitted_model s X y es N F score -> fitted_weights s W N -> cache_data c = true -> cache_estimator c = true -> schedule N order ->
  importance_score_local est (fun i => permutation_importance_sk est predict_est G shuffle (seed i)) c order s r = Ok m ->
  nth_error es i = Some e -> (0 < r)%nat -> predicts predict_est F e ->
  positive_set W N i = [j] -> nth i m [] = repeat NaN F.
Proof. exact @local_single. Qed.
Print Assumptions C172_one_neighbour.

Theorem C172_succeeds :
  forall est predict_est (G : Type) shuffle (seed : nat -> G), valid_permute shuffle ->
  forall c order s X y es N F score W r,
  fitted_model s X y es N F score -> fitted_weights s W N -> cache_data c = true -> cache_estimator c = true -> schedule N order ->
  (forall e, In e es -> predicts predict_est F e) -> (0 < r)%nat ->
  (forall i, (i < N)%nat -> (0 < List.length (positive_set W N i))%nat /\ forall j, (j < N)%nat -> exists a, mget (Fin 0) W i j = Fin a) ->
  exists m, importance_score_local est (fun i => permutation_importance_sk est predict_est G shuffle (seed i)) c order s r = Ok m.
Proof. exact @local_succeeds. Qed.
Print Assumptions C172_succeeds.

(** A feature the local estimator does not use has importance 0 there. *)
Theorem C172_unused_feature :
  forall est predict_est (G : Type) shuffle (seed : nat -> G), valid_permute shuffle ->
  forall c order s X y es N F score W r m i e f h,
  fitted_model s X y es N F score -> fitted_weights s W N -> cache_data c = true -> cache_estimator c = true -> schedule N order ->
  importance_score_local est (fun i => permutation_importance_sk est predict_est G shuffle (seed i)) c order s r = Ok m ->
  nth_error es i = Some e -> (f < F)%nat -> (0 < r)%nat -> (2 <= List.length (positive_set W N i))%nat ->
  answers predict_est e h -> ignores F f h -> nth f (nth i m []) NaN = Fin 0.
Proof. exact @local_unused. Qed.
Print Assumptions C172_unused_feature.

(** So has one that does not vary among the neighbours, however the estimator uses
    it. *)
Theorem C172_constant_feature :
  forall est predict_est (G : Type) shuffle (seed : nat -> G), valid_permute shuffle ->
  forall c order s X y es N F score W r m i e f v,
  fitted_model s X y es N F score -> fitted_weights s W N -> cache_data c = true -> cache_estimator c = true -> schedule N order ->
  importance_score_local est (fun i => permutation_importance_sk est predict_est G shuffle (seed i)) c order s r = Ok m ->
  nth_error es i = Some e -> (f < F)%nat -> (0 < r)%nat -> (2 <= List.length (positive_set W N i))%nat ->
  (forall j, In j (positive_set W N i) -> nth f (nth j X []) 0 = v) -> nth f (nth i m []) NaN = Fin 0.
Proof. exact @local_constant. Qed.
Print Assumptions C172_constant_feature.

(** It is not negative where the estimator reproduces the responses of the
    neighbours. *)
Theorem C172_exact_estimator :
  forall est predict_est (G : Type) shuffle (seed : nat -> G), valid_permute shuffle ->
  forall c order s X y es N F score W r m i e f,
  fitted_model s X y es N F score -> fitted_weights s W N -> cache_data c = true -> cache_estimator c = true -> schedule N order ->
  importance_score_local est (fun i => permutation_importance_sk est predict_est G shuffle (seed i)) c order s r = Ok m ->
  nth_error es i = Some e -> (f < F)%nat -> (0 < r)%nat ->
  let P := positive_set W N i in (2 <= List.length P)%nat ->
  predict_est e (map (fun j => nth j X []) P) = Ok (map (fun j => nth j y 0) P) ->
  exists a, nth f (nth i m []) NaN = Fin a /\ 0 <= a.
Proof. exact @local_exact. Qed.
Print Assumptions C172_exact_estimator.

(** If moreover it has slope [b] in the feature, the importance is [b²] times the
    mean displacement of the feature over the variation of the responses. *)
Theorem C172_exact_linear_estimator :
  forall est predict_est (G : Type) shuffle (seed : nat -> G), valid_permute shuffle ->
  forall c order s X y es N F score W r m i e f h b g,
  fitted_model s X y es N F score -> fitted_weights s W N -> cache_data c = true -> cache_estimator c = true -> schedule N order ->
  importance_score_local est (fun i => permutation_importance_sk est predict_est G shuffle (seed i)) c order s r = Ok m ->
  nth_error es i = Some e -> (f < F)%nat -> (0 < r)%nat ->
  let P := positive_set W N i in let Xs := map (fun j => nth j X []) P in let ys := map (fun j => nth j y 0) P in (2 <= List.length P)%nat ->
  answers predict_est e h -> (forall x, List.length x = F -> h x = b * nth f x 0 + g x) -> ignores F f g -> map h Xs = ys ->
  exists w ps, Forall2 (fun j a => mget (Fin 0) W i j = Fin a) P w /\ List.length ps = r /\ Forall (bijection (List.length P)) ps /\
    forall avg, avg * Rsum w = Rsum (map2 Rmult w ys) ->
    let sst := Rsum (map2 Rmult w (map (fun a => (a - avg) * (a - avg)) ys)) in sst <> 0 ->
    nth f (nth i m []) NaN = Fin (b * b * (Rsum (map (displaced Xs w f) ps) / INR r) / sst).
Proof. exact @local_linear. Qed.
Print Assumptions C172_exact_linear_estimator.

(** Multiplying the weights of a location by a positive number, with the same
    estimators, changes nothing. *)
Theorem C172_scale_of_weights :
  forall est predict_est (G : Type) shuffle (seed : nat -> G),
  forall c order s s' X y es N F score score' W W' (k : nat -> R) r m,
  fitted_model s X y es N F score -> fitted_weights s W N ->
  fitted_model s' X y es N F score' -> fitted_weights s' W' N -> cache_data c = true -> cache_estimator c = true -> schedule N order ->
  (forall i, (i < N)%nat -> 0 < k i) ->
  (forall i j, (i < N)%nat -> (j < N)%nat -> exists a, mget (Fin 0) W i j = Fin a /\ mget (Fin 0) W' i j = Fin (k i * a)) ->
  importance_score_local est (fun i => permutation_importance_sk est predict_est G shuffle (seed i)) c order s r = Ok m ->
  importance_score_local est (fun i => permutation_importance_sk est predict_est G shuffle (seed i)) c order s' r = Ok m.
Proof. exact @local_weights_scale. Qed.
Print Assumptions C172_scale_of_weights.

(** Nor do the units of the response, for estimators that follow them. *)
Theorem C172_units_of_response :
  forall est predict_est (G : Type) shuffle (seed : nat -> G),
  forall c order s s' X y es es' N F score score' W r m a b,
  fitted_model s X y es N F score -> fitted_weights s W N ->
  fitted_model s' X (map (fun v => a * v + b) y) es' N F score' -> fitted_weights s' W N -> cache_data c = true -> cache_estimator c = true -> schedule N order ->
  a <> 0 ->
  Forall2 (fun e e' => forall rows, predict_est e' rows = match predict_est e rows with Ok p => Ok (map (fun v => a * v + b) p) | Raise x => Raise x end) es es' ->
  importance_score_local est (fun i => permutation_importance_sk est predict_est G shuffle (seed i)) c order s r = Ok m ->
  importance_score_local est (fun i => permutation_importance_sk est predict_est G shuffle (seed i)) c order s' r = Ok m.
Proof. exact @local_response_units. Qed.
Print Assumptions C172_units_of_response.

(** Relied on: shuffling a feature does not improve the model, so importance is not
    negative.  False: a location with two neighbours, where the estimator predicts
    the wrong trend. *)
Theorem C172_not_negative_refuted :
  exists (s : state R) X y es score W m,
    fitted_model s X y es 3 2 score /\ fitted_weights s W 3 /\ (2 <= List.length (positive_set W 3 1))%nat /\
    importance_score_local R (fun _ => permutation_importance_sk R off_predict nat rot_permute 0%nat) i_cfg [2; 0; 1]%nat s 1 = Ok m /\
    exists a, nth 0 (nth 1 m []) NaN = Fin a /\ a < 0.
Proof.
  destruct (l_fitted 0 2 4 2 1) as (es & score & HM). exists (l_state 0 2 4 2 1), (l_X 0 2), [4; 2; 1], es, score, fW_left_out, [[NaN; NaN]; [Fin (- (8 / 3)); Fin 0]; [NaN; NaN]].
  split; [exact HM|]. split; [apply l_weights|]. split; [destruct i_sets as (_ & E & _); rewrite E; cbn; lia|]. split; [apply negative_example|].
  eexists. split; [reflexivity|lra].
Qed.
Print Assumptions C172_not_negative_refuted.

(** A feature no base learner uses has local importance 0 in a stacking model too
    (its global importance is not 0, C171). *)
Theorem C172_unused_by_stacking :
  forall est meta G fit_est predict_est fit_meta predict_meta solve (seed0 : G) choice cpu wm
         (G' : Type) shuffle (seed : nat -> G'), valid_permute shuffle ->
  forall (h : est -> list R -> R) (hm : meta -> list R -> R) r c g fs s0 X y coords given w W decrease interaction cf order k m f es nb i,
  let n := List.length X in
  let o := sfit est fit_est predict_est meta fit_meta predict_meta solve G seed0 choice cpu wm r c g fs s0 X y coords given in
  let s := so_state est meta G o in
  valid_choice choice -> (forall e X, predict_est e X = Ok (map (h e) X)) -> (forall m X p, predict_meta m X = Ok p -> p = map (hm m) X) ->
  valid_runtime r n (patches cpu c) -> valid_rates c -> real_weights wm fs coords given w -> holds_real w W n ->
  (sc_use_numba c = true -> forall a b, (a < n)%nat -> (b < n)%nat -> 0 <= mget 0 W a b) ->
  sc_cache_data c = true -> sc_sample_local_rate c = None -> (2 <= n)%nat ->
  so_result est meta G o = Ok tt -> schedule n order ->
  importance_score_local (member est meta) (fun i => permutation_importance_sk (member est meta) (predict_member est predict_est meta predict_meta) G' shuffle (seed i))
    cf order (inspected est meta s decrease interaction) k = Ok m ->
  ss_base_list est meta s = Some es -> (f < ncols X)%nat -> (forall e, In e es -> ignores (ncols X) f (h e)) -> (0 < k)%nat ->
  ss_neighbour_matrix est meta s = Some (MDense nb) -> (i < n)%nat -> (2 <= count_occ Bool.bool_dec (nth i nb []) true)%nat ->
  nth f (nth i m []) NaN = Fin 0.
Proof. exact @stack_local_unused. Qed.
Print Assumptions C172_unused_by_stacking.

(** The hypotheses hold of concrete models: a location with two neighbours and two
    with one. *)
Example C172_example (p r a b c : R) : a <> c -> exists es score,
  fitted_model (l_state p r a b c) (l_X p r) [a; b; c] es 3 2 score /\ fitted_weights (l_state p r a b c) fW_left_out 3 /\
  valid_permute rot_permute /\ schedule 3 [2; 0; 1]%nat /\ cache_data i_cfg = true /\ cache_estimator i_cfg = true /\
  List.length (positive_set fW_left_out 3 1) = 2%nat /\ List.length (positive_set fW_left_out 3 0) = 1%nat /\
  (forall e : R, predicts off_predict 2 e /\ answers off_predict e (fun x => e + nth 0 x 0)) /\
  importance_score_local R (fun _ => permutation_importance_sk R off_predict nat rot_permute 0%nat) i_cfg [2; 0; 1]%nat (l_state p r a b c) 1 =
    Ok [[NaN; NaN]; [Fin (4 * (r - p) / (c - a)); Fin 0]; [NaN; NaN]].
Proof.
  intros Hac. destruct (l_fitted p r a b c) as (es & score & HM). exists es, score.
  split; [exact HM|]. split; [apply l_weights|]. split; [exact rot_permute_valid|]. split; [exact sched3|]. split; [reflexivity|]. split; [reflexivity|].
  destruct i_sets as (E0 & E1 & _). rewrite E0, E1. split; [reflexivity|]. split; [reflexivity|].
  split; [|exact (l_importance p r a b c Hac)]. intros e. split; [apply off_predicts|]. intros rows q H. injection H as <-. reflexivity.
Qed.

Example C172_example_stacking k : (0 < k)%nat ->
  so_result R R nat sy_o = Ok tt /\ ss_base_list R R sy_s = Some [Rsum [2]; Rsum [4]; Rsum [1]] /\ (forall e, ignores 2 1 (ex_row e)) /\
  ss_neighbour_matrix R R sy_s = Some (MDense [[true; true; true]; [true; true; true]; [true; true; true]]) /\
  exists m, importance_score_local (member R R) (fun _ => permutation_importance_sk (member R R) (predict_member R ex_predict R ex_predict_meta) nat rot_permute 0%nat) i_cfg [2; 0; 1]%nat
    (inspected R R sy_s None None) k = Ok m.
Proof.
  intros Hk. destruct sy_attributes as (A1 & A2 & _ & _ & A3). split; [exact A1|]. split; [exact A2|]. split; [exact sx_ignores|]. split; [exact A3|].
  apply (sy_local (fun _ => 0%nat) k Hk).
Qed.
