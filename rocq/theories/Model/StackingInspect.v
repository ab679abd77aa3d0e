(** Model of the inspection methods on a stacking model: StackingWeightModel
    (/repo/georegression/stacking_model.py:139) inherits them from WeightModel
    (/repo/georegression/weight_model.py:463-755) unchanged. *)
From Verif.Model Require Import Base Ext Csr Neighbour Distance WeightModel NumbaImpl Stacking.
Open Scope string_scope.
Open Scope nat_scope.
Open Scope R_scope.

(** The weight matrix of a stacking model as the inspection methods read it. *)
Definition inspected_weights (w : swts) : weights :=
  match w with
  | SDense m => WDense (mmap Fin m)
  | SSparse m => WSparse (Csr (map Fin (c_data m)) (c_indices m) (c_indptr m) (c_ncols m))
  end.

Section StackingInspect.
  Variable est : Type.
  Variable predict_est : est -> matrix R -> result (list R).
  Variable meta : Type.
  Variable predict_meta : meta -> matrix R -> result (list R).

  (** What local_estimator_list holds: base estimators (if fit failed early) or
      stacking estimators. *)
  Inductive member : Type :=
  | Base (e : est)
  | Stacked (e : stacking_estimator est meta).
  Definition members (l : local_list est meta) : list member :=
    match l with
    | LBase _ _ l => map Base l
    | LStacking _ _ l => map Stacked l
    end.

  (** [predict] of an element (stacking_model.py:1132-1135).  An infinite or NaN
      prediction (numba, whose model has no finite intercept) is ValueError, which
      is what the scores raise on it; the ALE curves would hold NaN instead. *)
  Definition predict_member (m : member) (X : matrix R) : result (list R) :=
    match m with
    | Base e => predict_est e X
    | Stacked e => p <- predict_stacking est predict_est meta predict_meta e X ;;
                   mapM (fun v => match v with Fin x => Ok x | _ => Raise ValueError end) p
    end.

  (** The object as the inherited methods see it: coordinate_vector_list is never
      set by the stacking fit; local_predict_ and local_residual_ are not read by
      the inspection methods.  [decrease] and [interaction] are the accumulated
      permutation_score_decrease_ and interaction_matrix_. *)
  Definition inspected (s : sstate est meta) (decrease : option (matrix R)) (interaction : option (list (matrix R))) : state member :=
    State member (ss_is_fitted est meta s) (ss_n_features est meta s) (ss_n est meta s) (ss_X est meta s) (ss_y est meta s) None
      (option_map inspected_weights (ss_weight_matrix est meta s)) (ss_neighbour_matrix est meta s)
      (ss_local_indices est meta s) (ss_y_sample est meta s)
      (option_map (fun l => map Some (members l)) (ss_local_list est meta s))
      None (ss_llocv_score est meta s) None decrease interaction.
End StackingInspect.
