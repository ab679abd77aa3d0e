(** Properties C139, C140: ICE curves of integer data, and the shape of the result
    of partial_dependence and local_ICE. *)
From Coq Require Import Lra Lia.
From Verif.Model Require Import Base Ext Csr Distance WeightModel Inspect.
From Verif.Spec Require Import NeighbourSpec WeightModelSpec InspectSpec.
From Verif.Proofs Require Import ListFacts NeighbourProps FitExamples InspectProps InspectProps4 InspectExamples InspectIce.
Open Scope string_scope.
Open Scope nat_scope.
Open Scope R_scope.

(** C139: if X holds floats, the curve of feature [f] at location [i] has at each of
    its x the prediction for X[i] with feature [f] = x. *)
Theorem C139_float_data :
  forall est (predict_est : est -> matrix R -> result (list R)) grid_from_X store s X y es N F score W curves by_feature i e h f,
  fitted_model s X y es N F score -> fitted_weights s W N -> (forall v, store v = v) ->
  local_ICE est predict_est grid_from_X store s = Ok (curves, by_feature) ->
  nth_error es i = Some e -> rowwise predict_est e h -> (f < F)%nat ->
  let c := nth f (nth i curves []) ([], []) in
  List.length (snd c) = List.length (fst c) /\
  forall k, (k < List.length (fst c))%nat -> exists x, with_feature (nth i X []) f (nth k (fst c) 0) x /\ nth k (snd c) 0 = h x.
Proof.
  intros est pe gx st s X y es N F sc W cv bf i e h f HM HW Hst H He Hh Hf c.
  destruct (ice_values est pe gx st s X y es N F sc W cv bf i e h f HM HW H He Hh Hf) as [A B]. split; [exact A|].
  intros k Hk. destruct (B k Hk) as (x & C & D). fold c in C. rewrite Hst in C. exists x. auto.
Qed.
Print Assumptions C139_float_data.

(** If X holds integers, the curve is constant between consecutive integers, whatever
    the estimator. *)
Theorem C139_integer_data_steps :
  forall est (predict_est : est -> matrix R -> result (list R)) grid_from_X store s X y es N F score W curves by_feature i e h f k l (z : Z),
  fitted_model s X y es N F score -> fitted_weights s W N -> cuts_off store ->
  local_ICE est predict_est grid_from_X store s = Ok (curves, by_feature) ->
  nth_error es i = Some e -> rowwise predict_est e h -> (f < F)%nat ->
  let c := nth f (nth i curves []) ([], []) in
  (k < List.length (fst c))%nat -> (l < List.length (fst c))%nat ->
  0 <= IZR z -> IZR z <= nth k (fst c) 0 < IZR z + 1 -> IZR z <= nth l (fst c) 0 < IZR z + 1 ->
  nth k (snd c) 0 = nth l (snd c) 0.
Proof.
  intros est pe gx st s X y es N F sc W cv bf i e h f k l z HM HW Hst H He Hh Hf c Hk Hl Hz Ha Hb.
  apply (ice_same_stored est pe gx st s X y es N F sc W cv bf i e h f k l HM HW H He Hh Hf Hk Hl). fold c.
  rewrite (Hst z (nth k (fst c) 0)), (Hst z (nth l (fst c) 0)) by (left; lra). reflexivity.
Qed.
Print Assumptions C139_integer_data_steps.

(** So the curve need not show the estimator: here the prediction is a + x, but the
    curve has the same value at x = 0 and x = 1/2. *)
Theorem C139_integer_data_refuted :
  exists grid_from_X store curves by_feature es score, cuts_off store /\ fitted_model i_state iX fy es 3 2 score /\
  local_ICE R off_predict grid_from_X store i_state = Ok (curves, by_feature) /\
  exists i e h k, nth_error es i = Some e /\ rowwise off_predict e h /\
    let c := nth 0 (nth i curves []) ([], []) in
    (k < List.length (fst c))%nat /\ forall x, with_feature (nth i iX []) 0 (nth k (fst c) 0) x -> nth k (snd c) 0 <> h x.
Proof. exact integer_ice. Qed.
Print Assumptions C139_integer_data_refuted.

Example C139_example : cuts_off trunc_store /\ (exists es score, fitted_model i_state iX fy es 3 2 score) /\ fitted_weights i_state fW_left_out 3 /\
  (forall e, rowwise off_predict e (fun x => e + nth 0 x 0)) /\
  exists curves by_feature, local_ICE R off_predict fine_grid trunc_store i_state = Ok (curves, by_feature) /\
    forall i, (i < 3)%nat -> fst (nth 0 (nth i curves []) ([], [])) = [0; 1 / 2; 1].
Proof.
  split; [exact trunc_store_cuts|]. split; [destruct i_state_fitted as (es & score & HM & _); eauto|]. split; [exact i_weights|].
  split; [intros e rows; reflexivity|exact fine_ice].
Qed.

(** C140: if every feature takes at least [resolution] (sklearn: 100) distinct values
    among the observations of positive weight of every location, both methods raise. *)
Theorem C140_local_ICE_raises_on_large_data :
  forall est (predict_est : est -> matrix R -> result (list R)) grid_from_X store s X y es N F score W resolution,
  fitted_model s X y es N F score -> fitted_weights s W N ->
  (forall Xs f q, grid_from_X Xs f = Ok q -> List.length q = grid_size resolution Xs f) ->
  (forall i f, (i < N)%nat -> (f < F)%nat -> (resolution <= distinct_values (map (fun j => nth j X []) (positive_set W N i)) f)%nat) ->
  raises (local_ICE est predict_est grid_from_X store s).
Proof.
  intros est pe gx st s X y es N F sc W res HM HW HG HD. apply (ice_same_size est pe gx st s X y es N F sc W res HM HW).
  intros i f q Hi Hf Hq. rewrite (HG _ _ _ Hq). apply Nat.min_l, HD; auto.
Qed.
Print Assumptions C140_local_ICE_raises_on_large_data.

Theorem C140_partial_dependence_raises_on_large_data :
  forall est (sk_partial : est -> matrix R -> nat -> result (list R * matrix R)) order s X y es N F score W resolution,
  fitted_model s X y es N F score -> fitted_weights s W N -> schedule N order ->
  (forall e Xs f q, sk_partial e Xs f = Ok q -> List.length (fst q) = grid_size resolution Xs f) ->
  (forall i f, (i < N)%nat -> (f < F)%nat -> (resolution <= distinct_values (map (fun j => nth j X []) (positive_set W N i)) f)%nat) ->
  raises (partial_dependence est sk_partial order s).
Proof.
  intros est sp order s X y es N F sc W res HM HW HS HG HD. apply (pd_same_size est sp order s X y es N F sc W res HM HW HS).
  intros i e f q He Hf Hq. rewrite (HG _ _ _ _ Hq). apply Nat.min_l, HD; auto.
  destruct HM as (_ & _ & _ & _ & _ & HL & _). rewrite <- HL. apply nth_error_Some. congruence.
Qed.
Print Assumptions C140_partial_dependence_raises_on_large_data.

(** Two features that differ in the size of their grids at one location are enough
    for local_ICE to return, if the grids exist and the estimators predict. *)
Theorem C140_local_ICE_returns :
  forall est (predict_est : est -> matrix R -> result (list R)) grid_from_X store s X y es N F score W resolution,
  fitted_model s X y es N F score -> fitted_weights s W N ->
  (forall Xs f q, grid_from_X Xs f = Ok q -> List.length q = grid_size resolution Xs f) ->
  (forall i f, (i < N)%nat -> (f < F)%nat -> exists q, grid_from_X (map (fun j => nth j X []) (positive_set W N i)) f = Ok q) ->
  (forall e, In e es -> predicts predict_est F e) ->
  (exists i f i' f', (i < N)%nat /\ (f < F)%nat /\ (i' < N)%nat /\ (f' < F)%nat /\
     grid_size resolution (map (fun j => nth j X []) (positive_set W N i)) f <>
     grid_size resolution (map (fun j => nth j X []) (positive_set W N i')) f') ->
  exists out, local_ICE est predict_est grid_from_X store s = Ok out.
Proof. exact ice_returns. Qed.
Print Assumptions C140_local_ICE_returns.

(** With resolution 2 the neighbours of location 1 (feature values 0, 2 and 5, 4) reach
    it, those of locations 0 and 2 (one neighbour) do not. *)
Example C140_example : fitted_weights i_state fW_left_out 3 /\
  grid_size 2 (map (fun j => nth j iX []) (positive_set fW_left_out 3 1)) 0 = 2%nat /\
  grid_size 2 (map (fun j => nth j iX []) (positive_set fW_left_out 3 0)) 0 = 1%nat /\
  (forall i f, (i < 3)%nat -> (f < 2)%nat -> (1 <= distinct_values (map (fun j => nth j iX []) (positive_set fW_left_out 3 i)) f)%nat).
Proof. exact sizes_example. Qed.
