(** Specification vocabulary for histories and shared arrays (C155-C157). *)
From Verif.Model Require Import Base Ext Distance WeightModel Inspect History.
From Verif.Spec Require Import NeighbourSpec WeightModelSpec.
Open Scope string_scope.
Open Scope nat_scope.
Open Scope R_scope.

Section Spec.
  Context {est G : Type}.

  (** Two objects agree in every attribute except the recorded importance and
      interaction trials. *)
  Definition same_model (s s' : state est) : Prop :=
    is_fitted est s = is_fitted est s' /\ n_features_in est s = n_features_in est s' /\ n_obs est s = n_obs est s' /\
    data_X est s = data_X est s' /\ data_y est s = data_y est s' /\ data_coords est s = data_coords est s' /\
    weight_matrix_ est s = weight_matrix_ est s' /\ neighbour_matrix_ est s = neighbour_matrix_ est s' /\
    local_indices_ est s = local_indices_ est s' /\ y_sample_ est s = y_sample_ est s' /\
    local_estimators est s = local_estimators est s' /\ local_predict_ est s = local_predict_ est s' /\
    llocv_score_ est s = llocv_score_ est s' /\ local_residual_ est s = local_residual_ est s'.

  (** Two objects agree in what a fit computed (everything but the training data and
      the weight matrix it kept references to). *)
  Definition same_results (s s' : state est) : Prop :=
    is_fitted est s = is_fitted est s' /\ n_features_in est s = n_features_in est s' /\ n_obs est s = n_obs est s' /\
    neighbour_matrix_ est s = neighbour_matrix_ est s' /\ local_indices_ est s = local_indices_ est s' /\
    y_sample_ est s = y_sample_ est s' /\ local_estimators est s = local_estimators est s' /\
    local_predict_ est s = local_predict_ est s' /\ llocv_score_ est s = llocv_score_ est s' /\
    local_residual_ est s = local_residual_ est s' /\
    permutation_score_decrease_ est s = permutation_score_decrease_ est s' /\ interaction_matrix_ est s = interaction_matrix_ est s'.

  (** Calls that do not fit. *)
  Definition is_fit (k : call) : Prop := match k with CFit _ _ _ _ _ => True | _ => False end.
  (** Events: fits of a model, writes into a coordinate list or a weight matrix. *)
  Definition fits_model (m : nat) (e : event) : Prop := match e with EFit m' _ _ _ _ _ _ => m' = m | _ => False end.
  Definition writes_coordinates (a : nat) (e : event) : Prop := match e with EWriteC a' _ => a' = a | _ => False end.
  Definition writes_weights (a : nat) (e : event) : Prop := match e with EWriteW a' _ => a' = a | _ => False end.
  (** A fit of another model on weight matrix [a] that leaves the local observation out. *)
  Definition clears_weights (a : nat) (e : event) : Prop :=
    match e with EFit _ c _ _ _ _ (Some a') => a' = a /\ leave_local_out c = true | _ => False end.

  (** The local models cannot be trained: the weights cannot be computed from the
      coordinates, or all locations are to be fitted and one of them has no local model. *)
  Definition untrainable (fit_est : nat -> matrix R -> list R -> list ext -> result est) (cpu : nat)
      (wm : filesystem -> list coords -> list coords -> filesystem * result weights)
      (c : config) (order : list nat) (fs : filesystem) (X : matrix R) (y : list R) (v : option (list coords)) (given : option weights) : Prop :=
    (exists t e, given = None /\ v = Some t /\ snd (wm fs t t) = Raise e) \/
    (exists w W i, sample_local_rate c = None /\ in_force wm fs v given w /\ holds w W (List.length X) /\
       schedule (num_tasks cpu c (List.length X)) order /\
       (i < List.length X)%nat /\ forall e, ~ local_model fit_est X y (leave_local_out c) W (List.length X) i e).
End Spec.
