(** Properties C66-C70, C94-C96: accumulated local effects. *)
From Coq Require Import Lra Lia.
From Verif.Model Require Import Base Ext Csr Distance WeightModel Inspect Ale.
From Verif.Spec Require Import NeighbourSpec WeightModelSpec InspectSpec AleSpec.
From Verif.Proofs Require Import ListFacts NeighbourProps FitExamples InspectProps4 InspectExamples AleFacts AleGrid AleProps AleProps2 AleProps3 AleExamples.
Open Scope string_scope.
Open Scope nat_scope.
Open Scope R_scope.

(** C66: bisect_fun terminates after at most hi - lo evaluations, whatever the function. *)
Theorem C66_terminates :
  forall fuel fun_ target lo hi, (Z.to_nat (hi - lo) <= fuel)%nat -> bisect_fun fuel fun_ target lo hi <> None.
Proof. exact bisect_loop_terminates. Qed.
Print Assumptions C66_terminates.

Theorem C66_contract :
  forall fuel fun_ target lo hi, (lo <= hi)%Z -> (Z.to_nat (hi - lo) <= fuel)%nat ->
  (forall x, (lo <= x < hi)%Z -> exists v, fun_ x = Ok v) ->
  exists v, bisect_fun fuel fun_ target lo hi = Some (Ok v) /\ (lo <= v <= hi)%Z /\
    (v = lo \/ exists a, fun_ (v - 1)%Z = Ok a /\ a < target) /\
    (v = hi \/ exists a, fun_ v = Ok a /\ target <= a).
Proof. intros fuel fun_ target. exact (bisect_loop_spec fuel fun_ target). Qed.
Print Assumptions C66_contract.

Theorem C66_evaluates_inside_only :
  forall fuel f g target lo hi, (forall x, (lo <= x < hi)%Z -> f x = g x) -> bisect_fun fuel f target lo hi = bisect_fun fuel g target lo hi.
Proof. exact bisect_loop_inside. Qed.
Print Assumptions C66_evaluates_inside_only.

Theorem C66_exact_threshold :
  forall fuel fun_ target lo hi v,
  (lo <= hi)%Z -> (Z.to_nat (hi - lo) <= fuel)%nat ->
  (forall x, (lo <= x < hi)%Z -> exists a, fun_ x = Ok a) ->
  (forall x y a b, (lo <= x <= y)%Z -> (y < hi)%Z -> fun_ x = Ok a -> fun_ y = Ok b -> a <= b) ->
  bisect_fun fuel fun_ target lo hi = Some (Ok v) ->
  forall x a, (lo <= x < hi)%Z -> fun_ x = Ok a -> (a < target <-> (x < v)%Z).
Proof. exact bisect_threshold. Qed.
Print Assumptions C66_exact_threshold.

(** The smallest n in 0..10 with n^2 >= 10. *)
Example C66_example : forall fuel, (10 <= fuel)%nat -> bisect_fun fuel (fun n => Ok (IZR (n * n))) 10 0 10 = Some (Ok 4%Z).
Proof. exact bisect_square. Qed.

(** C67: adaptive_grid. *)
Theorem C67_raises :
  forall values m, (0 <= m)%Z -> raises (adaptive_grid values m) <-> (Z.of_nat (List.length values) <= m)%Z.
Proof. exact adaptive_raises. Qed.
Print Assumptions C67_raises.

Theorem C67_every_bin_is_filled :
  forall values m q nq, (3 <= List.length values)%nat -> (exists a b, In a values /\ In b values /\ a <> b) ->
  adaptive_grid values m = Ok (q, nq) -> proper_grid m values q.
Proof. exact adaptive_proper. Qed.
Print Assumptions C67_every_bin_is_filled.

(** The grid consists of the [nq] equally spaced quantiles, and the grid of
    [nq + 1] quantiles would not be filled, unless it has as many as there are values. *)
Theorem C67_quantiles :
  forall values m q nq, (3 <= List.length values)%nat -> adaptive_grid values m = Ok (q, nq) ->
  exists n, nq = Z.of_nat n /\ (2 <= n < List.length values)%nat /\ quantile_grid values n q /\
    is_minimum values (nth 0 q 0) /\ is_maximum values (nth (List.length q - 1) q 0) /\ filled m q values /\
    ((n + 1 < List.length values)%nat -> exists q', quantile_grid values (n + 1) q' /\ ~ filled m q' values).
Proof. exact adaptive_ok. Qed.
Print Assumptions C67_quantiles.

Theorem C67_degenerate :
  forall values m q nq, (List.length values < 3)%nat \/ (forall a b, In a values -> In b values -> a = b) ->
  adaptive_grid values m = Ok (q, nq) -> (List.length q <= 1)%nat.
Proof. exact adaptive_degenerate. Qed.
Print Assumptions C67_degenerate.

Example C67_example : adaptive_grid [0; 1; 2; 4] 1 = Ok ([0; 3 / 2; 4], 3%Z).
Proof. exact ev_grid. Qed.

(** C68: what weighted_ale returns.  [store] is what storing a number in the array X does to it. *)
Theorem C68_meaning :
  forall store X N F f predictor w normalize m q a,
  rect X N F -> (0 < N)%nat -> (0 <= m)%Z ->
  weighted_ale store X f predictor (Some w) normalize m = Ok (q, a) -> is_ale store X f predictor w normalize m q a.
Proof. intros store X N F f p w n m q a HX HN Hm H. exact (proj1 (wale_inv store X N F f p w n m q a HX HN Hm H)). Qed.
Print Assumptions C68_meaning.

Theorem C68_returns :
  forall store X N F f predictor w normalize m,
  rect X N F -> (f < F)%nat -> (3 <= N)%nat -> (0 <= m < Z.of_nat N)%Z ->
  (exists x y, In x (feature_values X f) /\ In y (feature_values X f) /\ x <> y) ->
  (forall rows, List.length rows = N -> exists p, predictor rows = Ok p /\ List.length p = N) ->
  List.length w = N -> (forall i, (i < N)%nat -> 0 < nth i w 0) ->
  exists q a, weighted_ale store X f predictor (Some w) normalize m = Ok (q, a).
Proof. exact wale_total. Qed.
Print Assumptions C68_returns.

Theorem C68_additive_effects :
  forall store X N F f g h predictor w normalize m q a,
  (forall v, store v = v) ->
  rect X N F -> (0 < N)%nat -> (0 <= m)%Z ->
  (forall rows, predictor rows = Ok (map (fun z => g (nth f z 0) + h z) rows)) -> independent_of f h ->
  weighted_ale store X f predictor (Some w) normalize m = Ok (q, a) ->
  exists c, (forall k, (k < List.length q)%nat -> nth k a 0 = g (nth k q 0) + c) /\
    (normalize = false ->
       let first := members q 1 (feature_values X f) in
       average_of (map (fun i => nth i w 0) first) (map (fun i => h (nth i X [])) first) c).
Proof. exact wale_additive_float. Qed.
Print Assumptions C68_additive_effects.

Theorem C68_ignored_feature_is_flat :
  forall store X N F f h predictor w normalize m q a,
  rect X N F -> (0 < N)%nat -> (0 <= m)%Z ->
  (forall rows, predictor rows = Ok (map h rows)) -> independent_of f h ->
  weighted_ale store X f predictor (Some w) normalize m = Ok (q, a) ->
  forall k l, (k < List.length q)%nat -> (l < List.length q)%nat -> nth k a 0 = nth l a 0.
Proof. exact wale_flat. Qed.
Print Assumptions C68_ignored_feature_is_flat.

Example C68_example : rect eX 4 2 /\ independent_of 0 (fun z => nth 1 z 0) /\
  (forall rows, e_pred rows = Ok (map (fun z => nth 0 z 0 * nth 0 z 0 + nth 1 z 0) rows)) /\
  forall normalize, exists a, weighted_ale (fun v => v) eX 0 e_pred (Some ew) normalize 1 = Ok ([0; 3 / 2; 4], a).
Proof. split; [exact eX_rect|]. split; [exact e_indep|]. split; [reflexivity|]. exact (ale_example (fun v => v)). Qed.

(** C69: the normalised curve is centred; the variants differ by a constant. *)
Theorem C69_centred :
  forall store X N F f predictor w m q a,
  rect X N F -> (0 < N)%nat -> (0 <= m)%Z ->
  weighted_ale store X f predictor (Some w) true m = Ok (q, a) -> centred q (feature_values X f) a.
Proof. exact wale_centred. Qed.
Print Assumptions C69_centred.

Theorem C69_differ_by_a_constant :
  forall store X N F f predictor w m q a q' a',
  rect X N F -> (0 < N)%nat -> (0 <= m)%Z ->
  weighted_ale store X f predictor (Some w) false m = Ok (q, a) -> weighted_ale store X f predictor (Some w) true m = Ok (q', a') ->
  q' = q /\ exists c, a' = map (fun x => x + c) a.
Proof. exact wale_shift. Qed.
Print Assumptions C69_differ_by_a_constant.

Example C69_example : exists a a', weighted_ale (fun v => v) eX 0 e_pred (Some ew) false 1 = Ok ([0; 3 / 2; 4], a) /\
  weighted_ale (fun v => v) eX 0 e_pred (Some ew) true 1 = Ok ([0; 3 / 2; 4], a').
Proof. destruct (ale_example (fun v => v) false) as (a & H). destruct (ale_example (fun v => v) true) as (a' & H'). exists a, a'. auto. Qed.

(** C70: weighted_ale fails. *)
Theorem C70_no_weights :
  forall store X f predictor normalize m, raises (weighted_ale store X f predictor None normalize m).
Proof. exact wale_none. Qed.
Print Assumptions C70_no_weights.

Theorem C70_too_few_or_constant :
  forall store X N F f predictor w normalize m,
  rect X N F -> (0 < N)%nat -> (0 <= m)%Z ->
  (Z.of_nat N <= m)%Z \/ (N < 3)%nat \/ (exists c, forall i, (i < N)%nat -> mget 0 X i f = c) \/ (F <= f)%nat \/
    (exists l, w = Some l /\ List.length l <> N) ->
  raises (weighted_ale store X f predictor w normalize m).
Proof. exact wale_few. Qed.
Print Assumptions C70_too_few_or_constant.

(** Four observations, five required. *)
Example C70_example : raises (weighted_ale (fun v => v) eX 0 e_pred (Some ew) false 5).
Proof. apply (C70_too_few_or_constant (fun v => v) eX 4 2 0 e_pred (Some ew) false 5 eX_rect); [lia|lia|]. left. lia. Qed.

(** C94: global_ALE shows every observation to its own estimator. *)
Theorem C94_global_curve :
  forall store est (predict_est : est -> matrix R -> result (list R)) s X N F es f q a,
  data_X est s = Some X -> local_estimators est s = Some es -> rect X N F -> (0 < N)%nat ->
  global_ALE store est predict_est s f = Ok (q, a) -> is_global_ale store predict_est X es f q a.
Proof. exact gale_inv. Qed.
Print Assumptions C94_global_curve.

Theorem C94_returns :
  forall store est (predict_est : est -> matrix R -> result (list R)) s X N F es f,
  data_X est s = Some X -> local_estimators est s = Some (map Some es) -> rect X N F -> (f < F)%nat -> (3 <= N)%nat -> List.length es = N ->
  (exists x y, In x (feature_values X f) /\ In y (feature_values X f) /\ x <> y) ->
  (forall e, In e es -> forall a b, exists p, predict_est e [a; b] = Ok p /\ (2 <= List.length p)%nat) ->
  exists q a, global_ALE store est predict_est s f = Ok (q, a).
Proof. exact gale_total. Qed.
Print Assumptions C94_returns.

(** When estimator [i] predicts g_i(x_f) + h_i(other features), the step at bin [k]
    is the mean over the bin of the observations' own steps of g_i. *)
Theorem C94_mean_of_own_effects :
  forall store est (predict_est : est -> matrix R -> result (list R)) s X N F es f q a (g : nat -> R -> R) (h : nat -> list R -> R),
  (forall v, store v = v) ->
  data_X est s = Some X -> local_estimators est s = Some es -> rect X N F -> (0 < N)%nat -> (f < F)%nat ->
  global_ALE store est predict_est s f = Ok (q, a) ->
  (forall i e, nth_error es i = Some (Some e) ->
     (forall rows, predict_est e rows = Ok (map (fun z => g i (nth f z 0) + h i z) rows)) /\ independent_of f (h i)) ->
  forall k, (1 <= k < List.length q)%nat ->
    (nth k a 0 - nth (k - 1) a 0) * INR (bin_count q k (feature_values X f)) =
    Rsum (map (fun i => g i (nth k q 0) - g i (nth (k - 1) q 0)) (members q k (feature_values X f))).
Proof. exact gale_additive_float. Qed.
Print Assumptions C94_mean_of_own_effects.

Example C94_example : (exists es score, fitted_model i_state iX fy es 3 2 score) /\
  exists q a, global_ALE (fun v => v) R off_predict i_state 0 = Ok (q, a).
Proof.
  split; [destruct i_state_fitted as (es & score & HM & _); exists es, score; exact HM|]. exact (g_ale (fun v => v)).
Qed.

(** C95: sampled locations. *)
Theorem C95_global_raises :
  forall store est (predict_est : est -> matrix R -> result (list R)) s X es f N F,
  data_X est s = Some X -> local_estimators est s = Some es -> rect X N F -> (0 < N)%nat -> List.length es <> N ->
  raises (global_ALE store est predict_est s f).
Proof. exact gale_number. Qed.
Print Assumptions C95_global_raises.

(** Curve [k] shows the estimator of location locs[k] the neighbourhood of location [k]. *)
Theorem C95_local_curve_k :
  forall store est fit_est (predict_est : est -> matrix R -> result (list R)) G choice cpu wm c order (g : G) fs s0 X y coords given W N F f curves,
  valid_choice choice -> (0 < cpu)%nat -> rect X N F -> in_force wm fs coords given (WDense W) -> rect W N N ->
  schedule (num_tasks cpu c (num_locations c N)) order -> aligned c (WDense W) -> cache_data c = true ->
  let o := fit est fit_est predict_est G choice cpu wm c order g fs s0 X y coords given in
  o_result est G o = Ok tt -> local_ALE store est predict_est (o_state est G o) f = Ok curves ->
  exists locs, local_indices_ est (o_state est G o) = Some locs /\ List.length curves = List.length locs /\
    forall k, (k < List.length locs)%nat -> exists e w P,
      local_model fit_est X y (leave_local_out c) W N (nth k locs 0%nat) e /\
      P = filter (fun j => positive (used_weight (leave_local_out c) W k j)) (seq 0 N) /\
      Forall2 (fun j a => used_weight (leave_local_out c) W k j = Fin a) P w /\
      is_ale store (map (fun j => nth j X []) P) f (predict_est e) w false 5 (fst (nth k curves ([], []))) (snd (nth k curves ([], []))).
Proof. exact lale_after_fit. Qed.
Print Assumptions C95_local_curve_k.

Theorem C95_five_neighbours_raise :
  forall store est (predict_est : est -> matrix R -> result (list R)) s X y es W N F f i,
  data_X est s = Some X -> data_y est s = Some y -> List.length y = N -> local_estimators est s = Some es -> fitted_weights s W N -> rect X N F ->
  (i < List.length es)%nat -> (List.length (positive_set W N i) <= 5)%nat -> raises (local_ALE store est predict_est s f).
Proof. exact lale_few. Qed.
Print Assumptions C95_five_neighbours_raise.

Theorem C95_returns_otherwise :
  forall store est (predict_est : est -> matrix R -> result (list R)) s X y es W N F f,
  data_X est s = Some X -> data_y est s = Some y -> List.length y = N -> local_estimators est s = Some (map Some es) -> fitted_weights s W N -> rect X N F ->
  (f < F)%nat -> (List.length es <= N)%nat ->
  (forall e rows, In e es -> exists p, predict_est e rows = Ok p /\ List.length p = List.length rows) ->
  (forall k, (k < List.length es)%nat -> (5 < List.length (positive_set W N k))%nat /\
     (forall j, In j (positive_set W N k) -> exists a, mget (Fin 0) W k j = Fin a) /\
     exists i j, In i (positive_set W N k) /\ In j (positive_set W N k) /\ mget 0 X i f <> mget 0 X j f) ->
  exists curves, local_ALE store est predict_est s f = Ok curves.
Proof. exact lale_total. Qed.
Print Assumptions C95_returns_otherwise.

(** Locations 6 and 7 of eight are fitted; their curves use the neighbourhoods of 0 and 1. *)
Example C95_example : o_result R nat a_out = Ok tt /\ local_indices_ R (o_state R nat a_out) = Some [6; 7]%nat /\
  exists curves, local_ALE (fun v => v) R off_predict (o_state R nat a_out) 0 = Ok curves.
Proof. split; [exact a_fit|exact (a_ale (fun v => v))]. Qed.

(** C96: integer arrays.  The curve value reported for grid point q[k] is the effect at q[k] truncated. *)
Theorem C96_integer_features :
  forall X N F f g h predictor w normalize m q a,
  let store v := IZR (trunc v) in
  rect X N F -> (0 < N)%nat -> (0 <= m)%Z ->
  (forall rows, predictor rows = Ok (map (fun z => g (nth f z 0) + h z) rows)) -> independent_of f h ->
  weighted_ale store X f predictor (Some w) normalize m = Ok (q, a) ->
  exists c, forall k, (k < List.length q)%nat -> nth k a 0 = g (IZR (trunc (nth k q 0))) + c.
Proof. exact wale_additive_int. Qed.
Print Assumptions C96_integer_features.

(** Predictor z0^2 + z1: the curve claims the same effect at 3/2 as there is at 1. *)
Theorem C96_additive_effect_refuted :
  exists a, weighted_ale (fun v => IZR (trunc v)) eX 0 e_pred (Some ew) false 1 = Ok ([0; 3 / 2; 4], a) /\
  nth 1 a 0 - nth 0 a 0 = 1 /\ 1 <> (3 / 2) * (3 / 2) - 0 * 0.
Proof. exact int_refuted. Qed.
Print Assumptions C96_additive_effect_refuted.

(** The additive predictor of the example: x0 squared plus x1. *)
Example C96_example : rect eX 4 2 /\ independent_of 0 (fun z => nth 1 z 0) /\
  (forall rows, e_pred rows = Ok (map (fun z => nth 0 z 0 * nth 0 z 0 + nth 1 z 0) rows)) /\
  forall normalize, exists a, weighted_ale (fun v => IZR (trunc v)) eX 0 e_pred (Some ew) normalize 1 = Ok ([0; 3 / 2; 4], a).
Proof. split; [exact eX_rect|]. split; [exact e_indep|]. split; [reflexivity|]. exact (ale_example (fun v => IZR (trunc v))). Qed.
