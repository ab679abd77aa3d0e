(** Properties C48 (inspection part), C62-C65, C89-C93: importance, interaction,
    partial dependence and ICE of a fitted WeightModel. *)
From Coq Require Import Lra Lia.
From Verif.Model Require Import Base Ext Csr Distance WeightModel Inspect.
From Verif.Spec Require Import NeighbourSpec WeightModelSpec InspectSpec.
From Verif.Proofs Require Import ListFacts NeighbourProps FitProps FitExamples InspectProps InspectProps2 InspectProps3 InspectProps4 InteractionValues InspectExamples InspectIce.
Open Scope string_scope.
Open Scope nat_scope.
Open Scope R_scope.

(** C48: the inspection methods raise when one of the caches is missing. *)
Theorem C48_inspection_needs_caches :
  forall est (predict_est : est -> matrix R -> result (list R)) G permute permutation_importance c s g r buffer order,
  cache_data c = false \/ cache_estimator c = false ->
  raises (snd (importance_score_global est predict_est G permute c s g r)) /\
  raises (snd (interaction_score_global est predict_est G permute c buffer s g r)) /\
  raises (importance_score_local est permutation_importance c order s r).
Proof. intros est pe G pm. exact (needs_caches est pe G pm). Qed.
Print Assumptions C48_inspection_needs_caches.

Example C48_inspection_example : cache_data (Config true None false false None None) = false /\
  (exists out, snd (importance_score_global R off_predict nat rot_permute i_cfg i_state 0%nat 3) = Ok out).
Proof. split; [reflexivity|apply i_importance; lia]. Qed.

(** C62: every input of local estimator [i] differs from X[i] in one feature only,
    whose values over all [i] are a permutation of the column; the trial is the
    loss of R2, and the result is the mean over the trials. *)
Theorem C62_one_feature_permuted :
  forall est (predict_est : est -> matrix R -> result (list R)) G permute,
  valid_permute permute ->
  forall c s X y es N F score g r s' g' out,
  fitted_model s X y es N F score ->
  importance_score_global est predict_est G permute c s g r = (s', g', Ok out) ->
  exists t m,
    trials_of_model predict_est X y es N F score r t /\
    beside (permutation_score_decrease_ est s) t m /\ permutation_score_decrease_ est s' = Some m /\ Forall2 is_mean m out.
Proof. exact importance_permutes. Qed.
Print Assumptions C62_one_feature_permuted.

(** It returns whenever the estimators predict. *)
Theorem C62_returns :
  forall est (predict_est : est -> matrix R -> result (list R)) G permute,
  valid_permute permute ->
  forall c s X y es N F score g r,
  fitted_model s X y es N F score -> cache_data c = true -> cache_estimator c = true -> (0 < r)%nat ->
  (forall e rows, In e es -> List.length rows = (F * r)%nat -> Forall (fun x => List.length x = F) rows ->
     exists p, predict_est e rows = Ok p /\ List.length p = List.length rows) ->
  (forall o, permutation_score_decrease_ est s = Some o -> List.length o = F) ->
  exists out, snd (importance_score_global est predict_est G permute c s g r) = Ok out.
Proof. exact importance_succeeds. Qed.
Print Assumptions C62_returns.

(** Without repeats it raises. *)
Theorem C62_zero_repeats_raise :
  forall est (predict_est : est -> matrix R -> result (list R)) G permute c s g,
  raises (snd (importance_score_global est predict_est G permute c s g 0)).
Proof. exact importance_zero. Qed.
Print Assumptions C62_zero_repeats_raise.

(** The states quantified over are those that fit produces. *)
Theorem C62_fit_gives_such_a_model :
  forall est (fit_est : nat -> matrix R -> list R -> list ext -> result est) predict_est G choice cpu wm c order (g : G) fs s0 X y coords given w W N,
  valid_choice choice -> (0 < cpu)%nat -> List.length X = N ->
  in_force wm fs coords given w -> holds w W N -> schedule (num_tasks cpu c (num_locations c N)) order ->
  cache_data c = true -> cache_estimator c = true -> sample_local_rate c = None ->
  let o := fit est fit_est predict_est G choice cpu wm c order g fs s0 X y coords given in
  o_result est G o = Ok tt ->
  exists es score F ps,
    fitted_model (o_state est G o) X y es N F score /\ local_predict_ est (o_state est G o) = Some ps /\ is_r2 y ps score /\
    forall i e, nth_error es i = Some e -> local_model fit_est X y (leave_local_out c) W N i e /\ predict_est e [nth i X []] = Ok [nth i ps 0].
Proof. exact fit_fitted. Qed.
Print Assumptions C62_fit_gives_such_a_model.

Example C62_example : valid_permute rot_permute /\
  (exists es score, fitted_model i_state iX fy es 3 2 score) /\
  (forall r, (0 < r)%nat -> exists out, snd (importance_score_global R off_predict nat rot_permute i_cfg i_state 0%nat r) = Ok out).
Proof.
  split; [exact rot_permute_valid|]. split; [|exact i_importance].
  destruct i_state_fitted as (es & score & HM & _). exists es, score. exact HM.
Qed.

(** C63: over any history of fits and importance calls. *)
Theorem C63_accumulates :
  forall est (fit_est : nat -> matrix R -> list R -> list ext -> result est) predict_est G choice cpu wm permute s0 s rs c (g : G) r s' g' out,
  history fit_est predict_est choice cpu wm permute s0 s rs ->
  permutation_score_decrease_ est s0 = None ->
  importance_score_global est predict_est G permute c s g r = (s', g', Ok out) ->
  exists m, permutation_score_decrease_ est s' = Some m /\ Forall2 is_mean m out /\
    Forall (fun row => List.length row = (list_sum rs + r)%nat) m /\
    forall o, permutation_score_decrease_ est s = Some o ->
      List.length m = List.length o /\ forall f, firstn (list_sum rs) (nth f m []) = nth f o [].
Proof. exact history_importance. Qed.
Print Assumptions C63_accumulates.

Theorem C63_fit_does_not_reset :
  forall est (fit_est : nat -> matrix R -> list R -> list ext -> result est) predict_est G choice cpu wm c order (g : G) fs s0 X y coords given,
  let o := fit est fit_est predict_est G choice cpu wm c order g fs s0 X y coords given in
  permutation_score_decrease_ est (o_state est G o) = permutation_score_decrease_ est s0 /\
  interaction_matrix_ est (o_state est G o) = interaction_matrix_ est s0.
Proof. exact fit_keeps. Qed.
Print Assumptions C63_fit_does_not_reset.

(** After refitting on data with another number of features it always raises. *)
Theorem C63_other_number_of_features_raises :
  forall est (predict_est : est -> matrix R -> result (list R)) G permute c s g r F o,
  n_features_in est s = Some F -> permutation_score_decrease_ est s = Some o -> List.length o <> F ->
  raises (snd (importance_score_global est predict_est G permute c s g r)).
Proof. exact importance_other_features. Qed.
Print Assumptions C63_other_number_of_features_raises.

(** fit, importance with 2 repeats, fit with other targets: a third call averages over old and new trials. *)
Example C63_example : exists s out g', history off_fit off_predict first_choice 2 no_wm rot_permute s_init s [2%nat] /\
  permutation_score_decrease_ R s_init = None /\
  importance_score_global R off_predict nat rot_permute i_cfg s 0%nat 3 = out /\ fst out = (fst (fst out), g') /\ exists l, snd out = Ok l.
Proof. exact history_example. Qed.

(** C64: F features and r repeats. *)
Theorem C64_raises :
  forall est (predict_est : est -> matrix R -> result (list R)) G permute c s g r F buffer,
  n_features_in est s = Some F -> F <> r -> F <> 1%nat -> r <> 1%nat ->
  raises (snd (interaction_score_global est predict_est G permute c buffer s g r)).
Proof. exact interaction_raises. Qed.
Print Assumptions C64_raises.

Theorem C64_returns_otherwise :
  forall est (predict_est : est -> matrix R -> result (list R)) G permute,
  valid_permute permute ->
  forall c s X y es N F score g r buffer,
  fitted_model s X y es N F score -> cache_data c = true -> cache_estimator c = true ->
  (forall e, In e es -> predicts predict_est F e) ->
  (forall o, permutation_score_decrease_ est s = Some o -> List.length o = F /\ Forall (fun row => row <> []) o) ->
  interaction_matrix_ est s = None ->
  F = r \/ F = 1%nat \/ r = 1%nat ->
  exists m, snd (interaction_score_global est predict_est G permute c buffer s g r) = Ok m.
Proof. exact interaction_returns. Qed.
Print Assumptions C64_returns_otherwise.

(** Any returned entry may be any number at all, depending on the initial contents
    [buffer] of the memory given by np.empty. *)
Theorem C64_depends_on_uninitialised_memory :
  forall est (predict_est : est -> matrix R -> result (list R)) G permute c s g r buffer s' g' m a b,
  interaction_score_global est predict_est G permute c buffer s g r = (s', g', Ok m) ->
  (a < List.length m)%nat -> (b < List.length (nth a m []))%nat ->
  forall v, exists buffer' s'' m',
    interaction_score_global est predict_est G permute c buffer' s g r = (s'', g', Ok m') /\ mget NaN m' a b = Fin v.
Proof. exact interaction_arbitrary. Qed.
Print Assumptions C64_depends_on_uninitialised_memory.

(** What is in the returned matrix: with [D a b k] the decrease after permuting the
    pair in repeat [k], entry (a, b) averages, over repeats, I(a,b,k) + I(k,b,a),
    where I is the documented interaction above the diagonal and unwritten memory
    elsewhere. *)
Theorem C64_values :
  forall est (predict_est : est -> matrix R -> result (list R)) G permute,
  valid_permute permute ->
  forall c s X y es N F score g r buffer s' g' out,
  fitted_model s X y es N F score ->
  interaction_score_global est predict_est G permute c buffer s g r = (s', g', Ok out) ->
  exists m D T T',
    permutation_score_decrease_ est s' = Some m /\ (forall o, permutation_score_decrease_ est s = Some o -> m = o) /\
    (permutation_score_decrease_ est s = None -> trials_of_model predict_est X y es N F score 5 m) /\
    (forall a b k, (a < b)%nat -> (b < F)%nat -> (k < r)%nat -> pair_trial_of_model predict_est X y es N score a b (D a b k)) /\
    (let mean f := Rsum (nth f m []) / INR (List.length (nth f m [])) in
     let I a b k := if (a <? b)%nat then D a b k - mean a - mean b else buffer a b k in
     let d := if (F =? 1)%nat then r else F in
     List.length T = d /\ forall a, (a < d)%nat -> rect (nth a T []) F d /\
       forall b k, (b < F)%nat -> (k < d)%nat ->
         mget 0 (nth a T []) b k = I (stretched F a) b (stretched r k) + I (stretched F k) b (stretched r a)) /\
    beside3 (interaction_matrix_ est s) T T' /\ interaction_matrix_ est s' = Some T' /\ Forall2 (Forall2 is_mean) T' out.
Proof. exact interaction_values. Qed.
Print Assumptions C64_values.

Example C64_example : n_features_in R i_state = Some 2%nat /\
  forall buffer, exists m, snd (interaction_score_global R off_predict nat rot_permute i_cfg buffer i_state 0%nat 2) = Ok m.
Proof.
  destruct i_state_fitted as (es & score & HM & _ & H1 & H2). split; [apply HM|]. intros buffer.
  apply (C64_returns_otherwise _ _ _ _ rot_permute_valid _ _ _ _ _ _ _ _ _ _ _ HM); auto.
  - intros e _. apply off_predicts.
  - rewrite H1. discriminate.
Qed.

(** C65: partial dependence curves. *)
Theorem C65_weighted_mean :
  forall est (sk_partial : est -> matrix R -> nat -> result (list R * matrix R)) e X w F curves,
  local_partial_dependence est sk_partial e X w F = Ok curves <->
  List.length curves = F /\ forall f, (f < F)%nat -> weighted_curve sk_partial e X w f (nth f curves ([], [])).
Proof. exact lpd_ok. Qed.
Print Assumptions C65_weighted_mean.

Theorem C65_between_minimum_and_maximum :
  forall w v a, List.length v = List.length w -> weighted_average w v a -> (forall x, In x w -> 0 <= x) ->
  forall lo hi, (forall i, (i < List.length w)%nat -> nth i w 0 <> 0 -> lo <= nth i v 0 <= hi) -> lo <= a <= hi.
Proof. exact weighted_average_bounds. Qed.
Print Assumptions C65_between_minimum_and_maximum.

Theorem C65_zero_weight_rows_have_no_influence :
  forall w v v' a, List.length v = List.length w -> List.length v' = List.length w ->
  (forall i, nth i w 0 <> 0 -> nth i v 0 = nth i v' 0) -> weighted_average w v a -> weighted_average w v' a.
Proof. exact weighted_average_zero_rows. Qed.
Print Assumptions C65_zero_weight_rows_have_no_influence.

Theorem C65_zero_total_weight_raises :
  forall est (sk_partial : est -> matrix R -> nat -> result (list R * matrix R)) e X w F,
  Rsum w = 0 -> (0 < F)%nat -> raises (local_partial_dependence est sk_partial e X w F).
Proof. exact lpd_zero_weights. Qed.
Print Assumptions C65_zero_total_weight_raises.

(** The function of local_pd.py computes the same curves on the rows of non-zero weight. *)
Theorem C65_local_pd_module :
  forall est (sk_partial : est -> matrix R -> nat -> result (list R * matrix R)) e X w N F curves,
  rect X N F -> (0 < N)%nat -> List.length w = N ->
  let P := filter (fun j => if Req_EM_T (nth j w 0) 0 then false else true) (seq 0 N) in
  local_pd est sk_partial e X w = Ok curves <->
  List.length curves = F /\ forall f, (f < F)%nat ->
    weighted_curve sk_partial e (map (fun j => nth j X []) P) (map (fun j => nth j w 0) P) f (nth f curves ([], [])).
Proof.
  intros est sk e X w N F curves HX HN Hw. cbv zeta. rewrite <- lpd_ok.
  exact (local_pd_ok est (fun _ _ => Raise ValueError) (fun _ _ _ _ _ _ => Raise ValueError) sk (fun _ _ => Raise ValueError) e X w N F curves HX HN Hw).
Qed.
Print Assumptions C65_local_pd_module.

(** Two observations with feature values 2 and 4 and weights 1 and 3. *)
Example C65_example : local_partial_dependence R ex_partial 1 [[2]; [4]] [1; 3] 1 = Ok [([2; 4], [11 / 2; 15 / 2])] /\ local_pd R ex_partial 1 [[2]; [9]; [4]] [1; 0; 3] = Ok [([2; 4], [11 / 2; 15 / 2])].
Proof. exact pd_example. Qed.

(** C89: a feature no local estimator uses has importance exactly 0 in every trial. *)
Theorem C89_unused_feature :
  forall est (predict_est : est -> matrix R -> result (list R)) G permute,
  valid_permute permute ->
  forall c s X y es N F score g r s' g' out (h : nat -> list R -> R) f ps,
  fitted_model s X y es N F score ->
  importance_score_global est predict_est G permute c s g r = (s', g', Ok out) ->
  (forall i e, nth_error es i = Some e -> rowwise predict_est e (h i)) ->
  (f < F)%nat -> (forall i, (i < N)%nat -> ignores F f (h i)) ->
  ps = map (fun i => h i (nth i X [])) (seq 0 N) -> is_r2 y ps score ->
  exists t m, rect t F r /\ beside (permutation_score_decrease_ est s) t m /\
    permutation_score_decrease_ est s' = Some m /\ nth f t [] = repeat 0 r.
Proof. exact ignored_feature. Qed.
Print Assumptions C89_unused_feature.

(** The estimators of the example use feature 0 only. *)
Example C89_example : exists es score,
  fitted_model i_state iX fy es 3 2 score /\
  (forall i e, nth_error es i = Some e -> rowwise off_predict e (fun x => nth i es 0 + nth 0 x 0)) /\
  (forall i, (i < 3)%nat -> ignores 2 1 (fun x => nth i es 0 + nth 0 x 0)) /\
  is_r2 fy (map (fun i => nth i es 0 + nth 0 (nth i iX []) 0) (seq 0 3)) score /\
  forall r, (0 < r)%nat -> exists out, snd (importance_score_global R off_predict nat rot_permute i_cfg i_state 0%nat r) = Ok out.
Proof.
  destruct i_state_fitted as (es & score & HM & Hr & _). exists es, score. split; [exact HM|]. split.
  - intros i e He rows. unfold off_predict. rewrite (nth_error_nth _ _ 0 He). reflexivity.
  - split; [intros i _ x x' _ _ H; rewrite (H 0%nat); [reflexivity|lia]|]. split; [exact Hr|exact i_importance].
Qed.

(** C90: the curves, and when the array of curves can be built. *)
Theorem C90_partial_dependence :
  forall est (sk_partial : est -> matrix R -> nat -> result (list R * matrix R)) order s X y es N F score W out,
  fitted_model s X y es N F score -> fitted_weights s W N -> schedule N order ->
  partial_dependence est sk_partial order s = Ok out <->
  exists curves, pd_curves sk_partial X W es N F curves /\ ~ same_length curves /\ out = (curves, transpose ([], []) F curves).
Proof. exact partial_dependence_ok. Qed.
Print Assumptions C90_partial_dependence.

Theorem C90_local_ICE :
  forall est (predict_est : est -> matrix R -> result (list R)) grid_from_X store s X y es N F score W out,
  fitted_model s X y es N F score -> fitted_weights s W N ->
  local_ICE est predict_est grid_from_X store s = Ok out <->
  exists curves, ice_curves predict_est grid_from_X store X W es N F curves /\ ~ same_length curves /\ out = (curves, transpose ([], []) F curves).
Proof. exact local_ICE_ok. Qed.
Print Assumptions C90_local_ICE.

(** The example returns when the grids have different lengths and raises when all have two points. *)
Example C90_example : fitted_weights i_state fW_left_out 3 /\
  (exists out, local_ICE R off_predict (fun Xs f => Ok (map (fun x => nth f x 0) Xs)) (fun v => v) i_state = Ok out) /\
  raises (local_ICE R off_predict (fun Xs f => Ok [0; 1]) (fun v => v) i_state) /\
  (exists out, partial_dependence R ex_partial [2; 0; 1]%nat i_state = Ok out).
Proof. exact inspection_example. Qed.

(** C91: fewer estimators than observations. *)
Theorem C91_sampled_models_raise :
  forall est (predict_est : est -> matrix R -> result (list R)) permutation_importance sk_partial grid_from_X store c order s es N r,
  n_obs est s = Some N -> local_estimators est s = Some es -> (List.length es < N)%nat ->
  raises (importance_score_local est permutation_importance c order s r) /\
  raises (partial_dependence est sk_partial order s) /\ raises (local_ICE est predict_est grid_from_X store s).
Proof. exact sampled_inspection_raises. Qed.
Print Assumptions C91_sampled_models_raise.

Theorem C91_sampled_importance_raises :
  forall est (predict_est : est -> matrix R -> result (list R)) G permute c s X y es N F score g r,
  n_obs est s = Some N -> n_features_in est s = Some F -> local_estimators est s = Some (map Some es) ->
  data_X est s = Some X -> data_y est s = Some y -> llocv_score_ est s = Some score -> (List.length es < N)%nat ->
  raises (snd (importance_score_global est predict_est G permute c s g r)).
Proof. exact importance_sampled_raises. Qed.
Print Assumptions C91_sampled_importance_raises.

(** A fit of two of three locations leaves such an object. *)
Example C91_example : exists s es, o_result R nat (fit_last (cfg true (Some (2 / 3)) None (Some 2%nat)) [1; 0]%nat 0%nat no_fs s_init fX fy None (Some (WDense fW))) = Ok tt /\
  s = o_state R nat (fit_last (cfg true (Some (2 / 3)) None (Some 2%nat)) [1; 0]%nat 0%nat no_fs s_init fX fy None (Some (WDense fW))) /\
  n_obs R s = Some 3%nat /\ local_estimators R s = Some (map Some es) /\ List.length es = 2%nat.
Proof. exact sampled_example. Qed.

(** C92: row [i] is the permutation importance of estimator [i] on the observations of positive weight. *)
Theorem C92_local_importance :
  forall est (permutation_importance : nat -> est -> matrix R -> list R -> list ext -> nat -> result (list ext)) c order s X y es N F score W r m,
  fitted_model s X y es N F score -> fitted_weights s W N -> cache_data c = true -> cache_estimator c = true -> schedule N order ->
  importance_score_local est permutation_importance c order s r = Ok m <->
  List.length m = N /\
  forall i e, nth_error es i = Some e ->
    let P := positive_set W N i in
    permutation_importance i e (map (fun j => nth j X []) P) (map (fun j => nth j y 0) P) (map (fun j => mget (Fin 0) W i j) P) r = Ok (nth i m []).
Proof. exact importance_local_ok. Qed.
Print Assumptions C92_local_importance.

(** An importance that counts the observations it is given and adds the number of
    the location. *)
Example C92_example : (exists es score, fitted_model i_state iX fy es 3 2 score) /\ fitted_weights i_state fW_left_out 3 /\ schedule 3 [2; 0; 1]%nat /\
  importance_score_local R (fun i _ Xs _ _ _ => Ok [Fin (INR (i + List.length Xs))]) i_cfg [2; 0; 1]%nat i_state 4 = Ok [[Fin 1]; [Fin 3]; [Fin 3]].
Proof. exact local_importance_example. Qed.

(** C93: the weight attributes after a fit with a NumPy matrix. *)
Theorem C93_weight_attributes :
  forall est (fit_est : nat -> matrix R -> list R -> list ext -> result est) predict_est G choice cpu wm c order (g : G) fs s0 X y coords given W N,
  in_force wm fs coords given (WDense W) -> rect W N N ->
  let o := fit est fit_est predict_est G choice cpu wm c order g fs s0 X y coords given in
  o_result est G o = Ok tt ->
  exists W', fitted_weights (o_state est G o) W' N /\
    forall i j, (i < N)%nat -> (j < N)%nat -> mget (Fin 0) W' i j = used_weight (leave_local_out c) W i j.
Proof. exact fit_weight_attributes. Qed.
Print Assumptions C93_weight_attributes.

Example C93_example : in_force no_wm no_fs None (Some (WDense fW)) (WDense fW) /\ rect fW 3 3 /\
  forall lo, o_result R nat (fit_off (cfg lo None None None) [1; 0]%nat 0%nat no_fs s_init iX fy None (Some (WDense fW))) = Ok tt.
Proof. split; [left; reflexivity|]. split; [exact fW_rect|]. intros lo. apply fit_off_ok. apply perm_swap. Qed.
