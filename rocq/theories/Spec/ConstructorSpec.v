(** Vocabulary for the constructors: what a caller writes and which value each
    parameter then has. *)
From Verif.Model Require Import Base Constructor.
Open Scope string_scope.
Open Scope nat_scope.
Open Scope list_scope.

Section Spec.
  Context {obj : Type}.
  Notation val := (pyval obj).

  (** The documented parameters of WeightModel, in order, with defaults. *)
  Definition weight_model_parameters : list (string * option val) :=
    [("local_estimator", None); ("distance_measure", Some VNone); ("kernel_type", Some VNone); ("distance_ratio", Some VNone);
     ("bandwidth", Some VNone); ("neighbour_count", Some VNone); ("distance_args", Some VNone);
     ("leave_local_out", Some (VBool true)); ("sample_local_rate", Some VNone); ("cache_data", Some (VBool false));
     ("cache_estimator", Some (VBool false)); ("n_jobs", Some VNone); ("n_patches", Some VNone)].

  (** Those of StackingWeightModel. *)
  Definition stacking_parameters : list (string * option val) :=
    [("local_estimator", None); ("distance_measure", Some VNone); ("kernel_type", Some VNone); ("distance_ratio", Some VNone);
     ("bandwidth", Some VNone); ("neighbour_count", Some VNone); ("midpoint", Some VNone); ("distance_args", Some VNone);
     ("leave_local_out", Some (VBool true)); ("sample_local_rate", Some VNone); ("cache_data", Some (VBool false));
     ("cache_estimator", Some (VBool false)); ("n_jobs", Some VNone); ("n_patches", Some VNone);
     ("alpha", Some (VFloat 10)); ("neighbour_leave_out_rate", Some VNone); ("neighbour_leave_out_shrink_rate", Some VNone);
     ("meta_fitting_shrink_rate", Some VNone); ("estimator_sample_rate", Some VNone); ("use_numba", Some (VBool false))].

  (** In the call [C( *pos, **kw)] the parameter [k] has the value [v]. *)
  Inductive has_value (params : list (string * option val)) (pos : list val) (kw : list (string * val)) (k : string) (v : val) : Prop :=
  | by_position i dflt : nth_error params i = Some (k, dflt) -> nth_error pos i = Some v -> has_value params pos kw k v
  | by_keyword i dflt : nth_error params i = Some (k, dflt) -> nth_error pos i = None -> In (k, v) kw -> has_value params pos kw k v
  | by_default i : nth_error params i = Some (k, Some v) -> nth_error pos i = None -> ~ In k (map fst kw) -> has_value params pos kw k v.

  (** A call Python rejects whatever the body does: a parameter given twice, or a
      required one not at all. *)
  Definition clash (params : list (string * option val)) (pos : list val) (kw : list (string * val)) : Prop :=
    exists i k dflt, nth_error params i = Some (k, dflt) /\ i < List.length pos /\ In k (map fst kw).
  Definition missing (params : list (string * option val)) (pos : list val) (kw : list (string * val)) : Prop :=
    exists i k, nth_error params i = Some (k, None) /\ List.length pos <= i /\ ~ In k (map fst kw).

  (** Keyword arguments that name no parameter. *)
  Definition extra_keywords (params : list (string * option val)) (kw : list (string * val)) : list (string * val) :=
    filter (fun e => negb (existsb (String.eqb (fst e)) (map fst params))) kw.

  (** Two calls give every parameter, [except] apart, the same value. *)
  Definition same_values (params : list (string * option val)) (except : string) (pos pos' : list val) (kw kw' : list (string * val)) : Prop :=
    forall k v, k <> except -> has_value params pos kw k v <-> has_value params pos' kw' k v.

  (** What fitting and the analyses fill in later. *)
  Definition results_of_weight_model : list string :=
    ["is_fitted_"; "n_features_in_"; "X"; "y"; "N"; "coordinate_vector_list"; "coordinate_vector_dimension_"; "weight_matrix_";
     "neighbour_matrix_"; "local_indices_"; "y_sample_"; "local_estimator_list"; "local_predict_"; "llocv_score_"; "local_residual_";
     "permutation_score_decrease_"; "interaction_matrix_"; "local_partial_"; "feature_partial_"; "local_ice_"; "feature_ice_"].
  Definition results_of_stacking : list string :=
    results_of_weight_model ++ ["base_estimator_list"; "meta_estimator_list"; "stacking_predict_"; "stacking_scores_"; "llocv_stacking_"].

  (** Reading an attribute of the constructed object. *)
  Definition attribute (d : list (string * val)) (k : string) (v : val) : Prop := lookup obj k d = Some v.
End Spec.
