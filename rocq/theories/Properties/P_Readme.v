(** C169: predicting with, and inspecting, a model built as in the README. *)
From Coq Require Import Lra Lia.
From Verif.Model Require Import Base Ext Csr Distance WeightModel Inspect Ale Constructor Readme.
From Verif.Spec Require Import NeighbourSpec WeightModelSpec InspectSpec ConstructorSpec.
From Verif.Proofs Require Import ListFacts NeighbourProps FitProps FitExamples PredictProps InspectProps2 InspectProps4 AleProps3 AleExamples ReadmeProps.
Open Scope string_scope.
Open Scope nat_scope.
Open Scope R_scope.

(** "The README's model can be inspected as the README shows" is false: both ways
    it constructs a WeightModel leave the two caches off.  In every state of such
    a model the importance scores and both predictions raise; after any fit of a
    new one, the local ALE snippet raises at every location. *)
Theorem C169_readme_model_can_be_inspected_refuted :
  forall (obj : Type) cpu estimator distance_measure kernel_type neighbour_count call,
  call = readme_positional obj \/ call = readme_keywords obj ->
  exists d, weight_model_init obj cpu (fst (call estimator distance_measure kernel_type neighbour_count))
              (snd (call estimator distance_measure kernel_type neighbour_count)) = Ok d /\
  attribute d "neighbour_count" (VFloat neighbour_count) /\
  forall c, attribute d "cache_data" (VBool (cache_data c)) -> attribute d "cache_estimator" (VBool (cache_estimator c)) ->
  forall est (fit_est : nat -> matrix R -> list R -> list ext -> result est) (predict_est : est -> matrix R -> result (list R)) G permute permutation_importance
    choice wm,
  (forall s g r order, raises (snd (importance_score_global est predict_est G permute c s g r)) /\ raises (importance_score_local est permutation_importance c order s r)) /\
  (forall s fs X v w order, raises (snd (predict_by_weight est predict_est wm c fs s X v w)) /\
     raises (snd (predict_by_fit est fit_est predict_est cpu wm c order fs s X v w))) /\
  (forall store order g fs X y v w feature i,
     raises (stale store est predict_est (o_state est G (fit est fit_est predict_est G choice cpu wm c order g fs (init_state est) X y v w)) feature i)).
Proof.
  intros obj cpu es dm kt nc call Hc. destruct (readme_call obj cpu call es dm kt nc Hc) as (d & Hd & _ & _ & _ & Hn & D1 & D2).
  exists d. split; [exact Hd|]. split; [exact Hn|]. intros c H1 H2. unfold attribute in *.
  assert (C1 : cache_data c = false) by congruence. assert (C2 : cache_estimator c = false) by congruence.
  intros est fe pe G pm pi ch wm. split; [|split].
  - intros s g r order. destruct (needs_caches est pe G pm pi c s g r (fun _ _ _ => 0) order (or_introl C1)) as (A & _ & B). split; assumption.
  - intros s fs X v w order. split; [apply pbw_needs_caches; left; exact C1|apply pbf_needs_cache; exact C1].
  - intros. apply stale_after_fit. exact C1.
Qed.
Print Assumptions C169_readme_model_can_be_inspected_refuted.

(** With the caches, the snippet and local_ALE compute the same curves: local_ALE
    returns exactly when the snippet returns at every location, and then what the
    snippet returns. *)
Theorem C169_snippet_is_local_ALE :
  forall store est (predict_est : est -> matrix R -> result (list R)) s es X y W N F feature curves,
  data_X est s = Some X -> data_y est s = Some y -> List.length y = N -> local_estimators est s = Some es -> fitted_weights s W N -> rect X N F ->
  local_ALE store est predict_est s feature = Ok curves <->
  List.length curves = List.length es /\
  forall i, (i < List.length es)%nat -> stale store est predict_est s feature i = Ok (nth i curves ([], [])).
Proof. exact stale_curves. Qed.
Print Assumptions C169_snippet_is_local_ALE.

(** The snippet needs only its own location to have six or more neighbours, finite
    weights and two values of the feature. *)
Theorem C169_snippet_returns :
  forall store est (predict_est : est -> matrix R -> result (list R)) s X y e es W N F feature k,
  data_X est s = Some X -> data_y est s = Some y -> List.length y = N -> local_estimators est s = Some es -> fitted_weights s W N -> rect X N F ->
  (feature < F)%nat -> (k < N)%nat -> nth_error es k = Some (Some e) ->
  (forall rows, exists p, predict_est e rows = Ok p /\ List.length p = List.length rows) ->
  (5 < List.length (positive_set W N k))%nat ->
  (forall j, In j (positive_set W N k) -> exists a, mget (Fin 0) W k j = Fin a) ->
  (exists i j, In i (positive_set W N k) /\ In j (positive_set W N k) /\ mget 0 X i feature <> mget 0 X j feature) ->
  exists curve, stale store est predict_est s feature k = Ok curve.
Proof. exact stale_total. Qed.
Print Assumptions C169_snippet_returns.

(** One location with five neighbours or fewer makes local_ALE raise for all. *)
Theorem C169_one_small_neighbourhood :
  forall store est (predict_est : est -> matrix R -> result (list R)) s X y es W N F feature i,
  data_X est s = Some X -> data_y est s = Some y -> List.length y = N -> local_estimators est s = Some es -> fitted_weights s W N -> rect X N F ->
  (i < List.length es)%nat -> (List.length (positive_set W N i) <= 5)%nat ->
  raises (local_ALE store est predict_est s feature).
Proof. exact lale_few. Qed.
Print Assumptions C169_one_small_neighbourhood.

(** Eight observations, each a neighbour of all others, but the last with two
    neighbours only: the snippet works at location 0, local_ALE nowhere. *)
Example C169_example : forall store, o_result R nat b_out = Ok tt /\
  raises (local_ALE store R off_predict (o_state R nat b_out) 0) /\
  exists curve, stale store R off_predict (o_state R nat b_out) 0 0 = Ok curve.
Proof. intros store. split; [exact b_fit|exact (b_example store)]. Qed.
