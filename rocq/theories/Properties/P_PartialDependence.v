(** C173: partial dependence and ICE curves, with sklearn's grid and brute-force
    partial dependence written out.  The code's grid resolution is
    [default_resolution], 100.  [positive_set W N i] are the neighbours with a
    positive weight. *)
From Coq Require Import Lra Lia.
From Verif.Model Require Import Base Ext Csr Neighbour Distance WeightModel Inspect PartialDependence.
From Verif.Spec Require Import KernelSpec NeighbourSpec WeightModelSpec InspectSpec LocalImportanceSpec PartialSpec.
From Verif.Proofs Require Import ListFacts InspectProps FitExamples InspectExamples PartialGrid PartialProps PartialExamples.
Open Scope nat_scope.
Open Scope R_scope.

(** The grid is the different values, or equidistant points between two quantiles. *)
Theorem C173_grid :
  forall resolution X N F f q, rect X N F -> (f < F)%nat -> (1 <= resolution)%nat ->
  (grid_from_X_sk resolution X f = Ok q <-> is_grid resolution (values_of X f) q).
Proof. exact grid_ok. Qed.
Print Assumptions C173_grid.

(** Each curve of partial_dependence: at a grid point, the weighted mean over the
    neighbours of the prediction with the feature set to that value. *)
Theorem C173_partial_dependence :
  forall est predict_est store resolution, (1 <= resolution)%nat ->
  forall order s X y es N F score W curves by_feature i e f,
  fitted_model s X y es N F score -> fitted_weights s W N -> schedule N order ->
  partial_dependence est (partial_dependence_sk est predict_est store resolution) order s = Ok (curves, by_feature) -> nth_error es i = Some e -> (f < F)%nat ->
  let P := positive_set W N i in let Xs := map (fun j => nth j X []) P in let q := fst (nth f (nth i curves []) ([], [])) in let a := snd (nth f (nth i curves []) ([], [])) in
  exists w, Forall2 (fun j v => mget (Fin 0) W i j = Fin v) P w /\ is_grid resolution (values_of Xs f) q /\ length a = length q /\
    forall k, (k < length q)%nat -> dependence_at predict_est store e Xs w f (nth k q 0) (nth k a 0).
Proof. exact @pd_written_out. Qed.
Print Assumptions C173_partial_dependence.

Theorem C173_same_grid :
  forall est predict_est store resolution, (1 <= resolution)%nat ->
  forall order s X y es N F score W curves by_feature curves' by_feature' i e f,
  fitted_model s X y es N F score -> fitted_weights s W N -> schedule N order ->
  partial_dependence est (partial_dependence_sk est predict_est store resolution) order s = Ok (curves, by_feature) ->
  local_ICE est predict_est (grid_from_X_sk resolution) store s = Ok (curves', by_feature') ->
  nth_error es i = Some e -> (f < F)%nat ->
  fst (nth f (nth i curves []) ([], [])) = fst (nth f (nth i curves' []) ([], [])).
Proof. exact @same_grid. Qed.
Print Assumptions C173_same_grid.

(** The grid increases and stays within the values of the neighbours. *)
Theorem C173_grid_shape :
  forall resolution values q, (2 <= resolution)%nat -> values <> [] -> is_grid resolution values q ->
  length q = Nat.min resolution (length (nodup Req_EM_T values)) /\
  (forall k l, (k < l < length q)%nat -> nth k q 0 < nth l q 0) /\
  (forall x, In x q -> exists u v, In u values /\ In v values /\ u <= x <= v).
Proof. exact grid_shape. Qed.
Print Assumptions C173_grid_shape.

(** Relied on: the curves span the values of the feature.  False with many
    different values: they end strictly inside. *)
Theorem C173_span_refuted :
  forall resolution values q, (12 <= resolution)%nat -> (resolution <= length values)%nat -> NoDup values -> is_grid resolution values q ->
  exists least greatest, In least values /\ In greatest values /\ forall x, In x q -> least < x < greatest.
Proof. exact grid_trims. Qed.
Print Assumptions C173_span_refuted.

(** A feature that takes one value at all but a few neighbours and many values
    at those makes both methods raise. *)
Theorem C173_skewed_raises :
  forall est predict_est store resolution, (1 <= resolution)%nat ->
  forall order s X y es N F score W i f v,
  fitted_model s X y es N F score -> fitted_weights s W N -> schedule N order -> (i < N)%nat -> (f < F)%nat ->
  let values := values_of (map (fun j => nth j X []) (positive_set W N i)) f in
  (resolution <= length (nodup Req_EM_T values))%nat ->
  (20 * count (fun x => Rltb x v) values + 20 <= length values)%nat -> (20 * count (fun x => Rltb v x) values + 40 <= length values)%nat ->
  raises (local_ICE est predict_est (grid_from_X_sk resolution) store s) /\
  raises (partial_dependence est (partial_dependence_sk est predict_est store resolution) order s).
Proof. exact @skewed_raises. Qed.
Print Assumptions C173_skewed_raises.

(** So does having at least as many different values of every feature as grid
    points around every location. *)
Theorem C173_large_raises :
  forall est predict_est store resolution, (1 <= resolution)%nat ->
  forall order s X y es N F score W, (2 <= resolution)%nat ->
  fitted_model s X y es N F score -> fitted_weights s W N -> schedule N order ->
  (forall i f, (i < N)%nat -> (f < F)%nat -> (resolution <= distinct_values (map (fun j => nth j X []) (positive_set W N i)) f)%nat) ->
  raises (local_ICE est predict_est (grid_from_X_sk resolution) store s) /\
  raises (partial_dependence est (partial_dependence_sk est predict_est store resolution) order s).
Proof. exact @large_raises. Qed.
Print Assumptions C173_large_raises.

(** An effect proportional to the feature shows as a straight line with the average
    slope of the neighbours. *)
Theorem C173_interaction :
  forall est predict_est store resolution, (1 <= resolution)%nat ->
  forall order s X y es N F score W curves by_feature i e f h r,
  fitted_model s X y es N F score -> fitted_weights s W N -> schedule N order -> (forall u, store u = u) ->
  answers predict_est e (fun z => nth f z 0 * h z + r z) -> ignores F f h -> ignores F f r ->
  partial_dependence est (partial_dependence_sk est predict_est store resolution) order s = Ok (curves, by_feature) -> nth_error es i = Some e -> (f < F)%nat ->
  let P := positive_set W N i in let Xs := map (fun j => nth j X []) P in let q := fst (nth f (nth i curves []) ([], [])) in let a := snd (nth f (nth i curves []) ([], [])) in
  (0 < length q)%nat ->
  exists w mu c, Forall2 (fun j v => mget (Fin 0) W i j = Fin v) P w /\ weighted_average w (map h Xs) mu /\ weighted_average w (map r Xs) c /\
    forall k, (k < length q)%nat -> nth k a 0 = mu * nth k q 0 + c.
Proof. exact @pd_interaction. Qed.
Print Assumptions C173_interaction.

Theorem C173_rises :
  forall est predict_est store resolution, (1 <= resolution)%nat ->
  forall order s X y es N F score W curves by_feature i e f h,
  fitted_model s X y es N F score -> fitted_weights s W N -> schedule N order -> (forall u, store u = u) -> (2 <= resolution)%nat ->
  answers predict_est e h -> rises_with F f h ->
  partial_dependence est (partial_dependence_sk est predict_est store resolution) order s = Ok (curves, by_feature) -> nth_error es i = Some e -> (f < F)%nat ->
  let q := fst (nth f (nth i curves []) ([], [])) in let a := snd (nth f (nth i curves []) ([], [])) in
  forall k l, (k <= l)%nat -> (l < length q)%nat -> nth k a 0 <= nth l a 0.
Proof. exact @pd_rises. Qed.
Print Assumptions C173_rises.

Theorem C173_steepness :
  forall est predict_est store resolution, (1 <= resolution)%nat ->
  forall order s X y es N F score W curves by_feature i e f h L,
  fitted_model s X y es N F score -> fitted_weights s W N -> schedule N order -> (forall u, store u = u) ->
  answers predict_est e h -> steepness_at_most F f L h ->
  partial_dependence est (partial_dependence_sk est predict_est store resolution) order s = Ok (curves, by_feature) -> nth_error es i = Some e -> (f < F)%nat ->
  let q := fst (nth f (nth i curves []) ([], [])) in let a := snd (nth f (nth i curves []) ([], [])) in
  forall k l, (k < length q)%nat -> (l < length q)%nat -> Rabs (nth l a 0 - nth k a 0) <= L * Rabs (nth l q 0 - nth k q 0).
Proof. exact @pd_steepness. Qed.
Print Assumptions C173_steepness.

(** Where the feature adds to the rest of the prediction, the two curves of a
    location are parallel. *)
Theorem C173_additive :
  forall est predict_est store resolution, (1 <= resolution)%nat ->
  forall order s X y es N F score W curves by_feature curves' by_feature' i e f g r,
  fitted_model s X y es N F score -> fitted_weights s W N -> schedule N order -> (forall u, store u = u) ->
  answers predict_est e (fun z => g (nth f z 0) + r z) -> ignores F f r ->
  partial_dependence est (partial_dependence_sk est predict_est store resolution) order s = Ok (curves, by_feature) ->
  local_ICE est predict_est (grid_from_X_sk resolution) store s = Ok (curves', by_feature') ->
  nth_error es i = Some e -> (f < F)%nat ->
  let a := snd (nth f (nth i curves []) ([], [])) in let b := snd (nth f (nth i curves' []) ([], [])) in
  exists c, forall k, (k < length a)%nat -> nth k a 0 = nth k b 0 + c.
Proof. exact @additive_parallel. Qed.
Print Assumptions C173_additive.

(** The ICE curve passes through the local estimator's prediction for the location
    if the location is among its neighbours and these have few different values. *)
Theorem C173_own_prediction :
  forall est predict_est store resolution, (1 <= resolution)%nat ->
  forall s X y es N F score W curves by_feature i e f h,
  fitted_model s X y es N F score -> fitted_weights s W N -> (forall u, store u = u) -> answers predict_est e h ->
  local_ICE est predict_est (grid_from_X_sk resolution) store s = Ok (curves, by_feature) -> nth_error es i = Some e -> (f < F)%nat ->
  let P := positive_set W N i in let q := fst (nth f (nth i curves []) ([], [])) in let b := snd (nth f (nth i curves []) ([], [])) in
  In i P -> (length (nodup Req_EM_T (values_of (map (fun j => nth j X []) P) f)) < resolution)%nat ->
  exists k, (k < length q)%nat /\ nth k q 0 = nth f (nth i X []) 0 /\ nth k b 0 = h (nth i X []).
Proof. exact @ice_own_neighbour. Qed.
Print Assumptions C173_own_prediction.

(** Three locations on a line, each with its neighbours; the estimators predict
    a number plus feature 0 times the square of feature 1.  Feature 0 at the middle:
    the neighbours' squares are 25 and 16, the slope of the curve is 41/2; the own
    square is 36.  The own value, 1, is not on the grid. *)
Example C173_example : exists a b c score by_feature by_feature',
  fitted_model m_state m_X [1; 2; 4] [a; b; c] 3 2 score /\ fitted_weights m_state fW_left_out 3 /\ schedule 3 [2; 0; 1]%nat /\
  positive_set fW_left_out 3 1 = [0; 2]%nat /\
  partial_dependence R (partial_dependence_sk R m_predict (fun v => v) default_resolution) [2; 0; 1]%nat m_state =
    Ok ([[([1], [a + 36]); ([6], [a + 36])]; [([2; 3], [b + 41; b + 123 / 2]); ([4; 5], [b + 40; b + 125 / 2])]; [([1], [c + 36]); ([6], [c + 36])]], by_feature) /\
  local_ICE R m_predict (grid_from_X_sk default_resolution) (fun v => v) m_state =
    Ok ([[([1], [a + 25]); ([6], [a + 72])]; [([2; 3], [b + 72; b + 108]); ([4; 5], [b + 16; b + 25])]; [([1], [c + 16]); ([6], [c + 108])]], by_feature').
Proof. exact m_example. Qed.

Example C173_shape_example : forall e : R, answers m_predict e (fun z => nth 0 z 0 * (nth 1 z 0 * nth 1 z 0) + e) /\
  ignores 2 0 (fun z => nth 1 z 0 * nth 1 z 0) /\ ignores 2 0 (fun _ => e) /\
  answers m_predict e (fun z => e + nth 0 z 0 * (nth 1 z 0 * nth 1 z 0)) /\ rises_with 2 0 (fun z => e + nth 0 z 0 * (nth 1 z 0 * nth 1 z 0)).
Proof. exact m_shape. Qed.

(** Zeros and 99 different positive values among 2020 neighbours: no grid. *)
Example C173_skewed_example : forall resolution n m, (1 <= resolution <= S m)%nat -> (20 * m + 40 <= n + m)%nat ->
  values_of (zeros_and n m) 0 = (repeat 0 n ++ map (fun k => INR (S k)) (seq 0 m))%list /\ raises (grid_from_X_sk resolution (zeros_and n m) 0).
Proof. intros resolution n m Hr Hn. split; [apply zeros_values|apply zeros_raise; assumption]. Qed.

(** Everyone a neighbour of everyone, three values of each feature, three grid points. *)
Example C173_large_example : (exists es score, fitted_model o_st m_X [1; 2; 4] es 3 2 score) /\ fitted_weights o_st fOnes 3 /\
  (forall i f, (i < 3)%nat -> (f < 2)%nat -> distinct_values (map (fun j => nth j m_X []) (positive_set fOnes 3 i)) f = 3%nat) /\
  raises (local_ICE R m_predict (grid_from_X_sk 3) (fun v => v) o_st).
Proof.
  destruct o_example as ((es & score & HM) & HW & HD). split; [eauto|]. split; [exact HW|]. split; [exact HD|].
  apply (large_raises m_predict (fun v => v) 3 ltac:(lia) [2; 0; 1]%nat o_st m_X [1; 2; 4] es 3 2 score fOnes ltac:(lia) HM HW sched3).
  intros i f Hi Hf. rewrite (HD i f Hi Hf). lia.
Qed.
