(** C171: the inspection methods on a fitted stacking model.  [inspected s d t] is
    the stacking object [s] as they see it, [d] and [t] the accumulated importance
    and interaction arrays. *)
From Coq Require Import Lra.
From Verif.Model Require Import Base Ext Csr Neighbour Distance WeightModel NumbaImpl Stacking Inspect Ale StackingInspect.
From Verif.Spec Require Import KernelSpec NeighbourSpec WeightModelSpec InspectSpec AleSpec AleShapeSpec StackingSpec.
From Verif.Proofs Require Import ListFacts SumFacts InspectProps InspectProps4 StackingExamples StackingInspectProps StackingInspectExamples StackingAle AleExamples AleShapeExamples.
Open Scope string_scope.
Open Scope nat_scope.
Open Scope R_scope.

(** The estimators are the stacked ones, the reference score is that of the base
    learners. *)
Theorem C171_what_is_inspected :
  forall est meta G fit_est predict_est fit_meta predict_meta solve (seed0 : G) choice cpu wm
         r c g fs s0 X y coords given w W decrease interaction,
  let n := List.length X in
  let o := sfit est fit_est predict_est meta fit_meta predict_meta solve G seed0 choice cpu wm r c g fs s0 X y coords given in
  let s := so_state est meta G o in
  valid_choice choice -> one_per_row predict_est ->
  valid_runtime r n (patches cpu c) -> valid_rates c -> real_weights wm fs coords given w -> holds_real w W n ->
  (sc_use_numba c = true -> forall a b, (a < n)%nat -> (b < n)%nat -> 0 <= mget 0 W a b) ->
  sc_cache_data c = true -> sc_sample_local_rate c = None -> (2 <= n)%nat ->
  so_result est meta G o = Ok tt ->
  exists ps0 ps ses base stack,
    ss_local_predict est meta s = Some (map (fun x => [x]) ps0) /\ ss_stacking_predict est meta s = Some ps /\
    ss_local_list est meta s = Some (LStacking est meta ses) /\
    ss_llocv_score est meta s = Some (Fin base) /\ ss_llocv_stacking est meta s = Some (Fin stack) /\
    is_r2 y ps0 base /\ is_r2 y ps stack /\
    fitted_model (inspected est meta s decrease interaction) X y (map (Stacked est meta) ses) n (ncols X) base.
Proof. intros est meta G fe pe fm pm so sd ch cpu wm; exact (stack_fitted fe pe fm pm so sd ch cpu wm). Qed.
Print Assumptions C171_what_is_inspected.

(** Each recorded trial is the decrease of the stacked score plus llocv_score_ -
    llocv_stacking_. *)
Theorem C171_importance_is_shifted :
  forall est meta G fit_est predict_est fit_meta predict_meta solve (seed0 : G) choice cpu wm permute,
  valid_permute permute ->
  forall r c g fs s0 X y coords given w W decrease interaction cf g1 k s' g' out,
  let n := List.length X in
  let o := sfit est fit_est predict_est meta fit_meta predict_meta solve G seed0 choice cpu wm r c g fs s0 X y coords given in
  let s := so_state est meta G o in
  valid_choice choice -> one_per_row predict_est ->
  valid_runtime r n (patches cpu c) -> valid_rates c -> real_weights wm fs coords given w -> holds_real w W n ->
  (sc_use_numba c = true -> forall a b, (a < n)%nat -> (b < n)%nat -> 0 <= mget 0 W a b) ->
  sc_cache_data c = true -> sc_sample_local_rate c = None -> (2 <= n)%nat ->
  so_result est meta G o = Ok tt ->
  importance_score_global (member est meta) (predict_member est predict_est meta predict_meta) G permute cf
    (inspected est meta s decrease interaction) g1 k = (s', g', Ok out) ->
  exists ses base stack t m,
    ss_local_list est meta s = Some (LStacking est meta ses) /\
    ss_llocv_score est meta s = Some (Fin base) /\ ss_llocv_stacking est meta s = Some (Fin stack) /\
    trials_of_model (predict_member est predict_est meta predict_meta) X y (map (Stacked est meta) ses) n (ncols X) stack k
      (map (map (fun d => d - (base - stack))) t) /\
    beside decrease t m /\ permutation_score_decrease_ (member est meta) s' = Some m /\ Forall2 is_mean m out.
Proof. intros est meta G fe pe fm pm so sd ch cpu wm; exact (stack_importance fe pe fm pm so sd ch cpu wm). Qed.
Print Assumptions C171_importance_is_shifted.

(** So a feature no base learner uses is recorded with llocv_score_ -
    llocv_stacking_ in every trial. *)
Theorem C171_unused_feature :
  forall est meta G fit_est predict_est fit_meta predict_meta solve (seed0 : G) choice cpu wm permute,
  valid_permute permute ->
  forall (h : est -> list R -> R) (hm : meta -> list R -> R) r c g fs s0 X y coords given w W decrease interaction cf g1 k s' g' out f es,
  let n := List.length X in
  let o := sfit est fit_est predict_est meta fit_meta predict_meta solve G seed0 choice cpu wm r c g fs s0 X y coords given in
  let s := so_state est meta G o in
  valid_choice choice -> (forall e X, predict_est e X = Ok (map (h e) X)) -> (forall m X p, predict_meta m X = Ok p -> p = map (hm m) X) ->
  valid_runtime r n (patches cpu c) -> valid_rates c -> real_weights wm fs coords given w -> holds_real w W n -> all_bases_used c w ->
  (sc_use_numba c = true -> forall a b, (a < n)%nat -> (b < n)%nat -> 0 <= mget 0 W a b) ->
  (forall W' i, shrunk_weights (sc_meta_shrink c) W W' -> (i < n)%nat -> 0 < mget 0 W' i i) ->
  sc_cache_data c = true -> sc_sample_local_rate c = None -> (2 <= n)%nat ->
  so_result est meta G o = Ok tt ->
  importance_score_global (member est meta) (predict_member est predict_est meta predict_meta) G permute cf
    (inspected est meta s decrease interaction) g1 k = (s', g', Ok out) ->
  ss_base_list est meta s = Some es -> (f < ncols X)%nat -> (forall e, In e es -> ignores (ncols X) f (h e)) ->
  exists base stack t m, ss_llocv_score est meta s = Some (Fin base) /\ ss_llocv_stacking est meta s = Some (Fin stack) /\
    beside decrease t m /\ permutation_score_decrease_ (member est meta) s' = Some m /\ Forall2 is_mean m out /\
    nth f t [] = repeat (base - stack) k.
Proof. intros est meta G fe pe fm pm so sd ch cpu wm; exact (stack_unused fe pe fm pm so sd ch cpu wm). Qed.
Print Assumptions C171_unused_feature.

(** Relied on: it is unimportant.  Feature 1 of the example is not used, and its
    importance is 369/7. *)
Theorem C171_unused_feature_is_unimportant_refuted :
  so_result R R nat (ex_sfit ex_r sx_c 41%nat (fun _ => None) ex_s0 sx_X sx_y None (Some (SDense ex_W))) = Ok tt /\
  (forall e, ignores 2 1 (ex_row e)) /\
  forall r, (0 < r)%nat -> exists out,
    snd (importance_score_global (member R R) (predict_member R ex_predict R ex_predict_meta) nat rot_permute i_cfg
      (inspected R R (so_state R R nat (ex_sfit ex_r sx_c 41%nat (fun _ => None) ex_s0 sx_X sx_y None (Some (SDense ex_W)))) None None) 0%nat r) = Ok out /\
    nth_error out 1 = Some (Fin (369 / 7)).
Proof. exact unused_important. Qed.
Print Assumptions C171_unused_feature_is_unimportant_refuted.

(** The methods that look at the neighbours of each location raise on a model
    whose only fit got its weight matrix from the caller. *)
Theorem C171_given_weights_cannot_be_inspected_locally :
  forall est meta G fit_est predict_est fit_meta predict_meta solve (seed0 : G) choice cpu wm permutation_importance sk_partial grid_from_X store order
         r c g fs s0 X y coords given decrease interaction cf k f,
  let o := sfit est fit_est predict_est meta fit_meta predict_meta solve G seed0 choice cpu wm r c g fs s0 X y coords given in
  let v := inspected est meta (so_state est meta G o) decrease interaction in
  given <> None -> ss_weight_matrix est meta s0 = None -> so_result est meta G o = Ok tt ->
  raises (importance_score_local (member est meta) permutation_importance cf order v k) /\
  raises (partial_dependence (member est meta) sk_partial order v) /\
  raises (local_ICE (member est meta) (predict_member est predict_est meta predict_meta) grid_from_X store v) /\
  raises (local_ALE store (member est meta) (predict_member est predict_est meta predict_meta) v f).
Proof. intros est meta G fe pe fm pm so sd ch cpu wm; exact (given_weights_views fe pe fm pm so sd ch cpu wm). Qed.
Print Assumptions C171_given_weights_cannot_be_inspected_locally.

(** A linearly stacked model (the numba path): its ALE curve is the combination of
    the base learners' curves, on the same grid, shifted by the intercept. *)
Theorem C171_curve_of_a_linear_stack :
  forall est meta (predict_est : est -> matrix R -> result (list R)) (predict_meta : meta -> matrix R -> result (list R)) (h : est -> list R -> R)
         store X N F f coef b bases w normalize m q a,
  rect X N F -> (0 < N)%nat -> (0 <= m)%Z -> bases <> [] -> List.length coef = List.length bases ->
  (forall e, In e bases -> AleShapeSpec.rowwise (predict_est e) (h e)) ->
  weighted_ale store X f (predict_member est predict_est meta predict_meta (Stacked est meta (StackingEstimator est meta (MLinear meta coef (Fin b)) bases)))
    (Some w) normalize m = Ok (q, a) ->
  exists curves, Forall2 (fun e curve => weighted_ale store X f (predict_est e) (Some w) normalize m = Ok (q, curve)) bases curves /\
    forall k, (k < List.length q)%nat ->
      nth k a 0 = Rsum (map2 (fun c curve => c * nth k curve 0) coef curves) + if normalize then 0 else b.
Proof. intros est meta. exact (@stacked_curve est meta). Qed.
Print Assumptions C171_curve_of_a_linear_stack.

Example C171_example : valid_choice rot_choice /\ (forall e X, ex_predict e X = Ok (map (ex_row e) X)) /\
  valid_runtime ex_r 3 (patches 4 sx_c) /\ valid_rates sx_c /\ holds_real (SDense ex_W) ex_W 3 /\ all_bases_used sx_c (SDense ex_W) /\
  (forall W' i, shrunk_weights (sc_meta_shrink sx_c) ex_W W' -> (i < 3)%nat -> 0 < mget 0 W' i i) /\
  sc_cache_data sx_c = true /\ sc_sample_local_rate sx_c = None /\ ss_weight_matrix R R ex_s0 = None /\ valid_permute rot_permute /\
  exists q a, weighted_ale (fun v => v) eX 0 (predict_member R ex_predict R ex_predict_meta
    (Stacked R R (StackingEstimator R R (MLinear R [2; 3] (Fin 1)) [5; 7]))) (Some ew) false 1 = Ok (q, a).
Proof.
  destruct sx_hyps as (H1 & H2 & H3 & H4 & H5 & H6 & H7 & H8 & H9). repeat (split; [solve [auto | reflexivity | exact rot_permute_valid]|]).
  eexists _. apply (ale_example_of _ _ false (stacking_rowwise ex_predict ex_predict_meta ex_row [2; 3] 1 [5; 7] ltac:(discriminate) eq_refl (fun e _ rows => eq_refl))).
Qed.
