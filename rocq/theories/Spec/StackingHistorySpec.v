(** When two stacking models count as the same, for the properties about
    sequences of calls. *)
From Verif.Model Require Import Base Ext Stacking.
Open Scope nat_scope.
Open Scope R_scope.

(** The learners, the predictions, the scores and the locations are equal. *)
Definition same_stacking {est meta} (a b : sstate est meta) : Prop :=
  ss_is_fitted est meta a = ss_is_fitted est meta b /\ ss_n_features est meta a = ss_n_features est meta b /\
  ss_n est meta a = ss_n est meta b /\ ss_local_indices est meta a = ss_local_indices est meta b /\
  ss_y_sample est meta a = ss_y_sample est meta b /\ ss_local_predict est meta a = ss_local_predict est meta b /\
  ss_llocv_score est meta a = ss_llocv_score est meta b /\ ss_local_residual est meta a = ss_local_residual est meta b /\
  ss_base_list est meta a = ss_base_list est meta b /\ ss_local_list est meta a = ss_local_list est meta b /\
  ss_stacking_predict est meta a = ss_stacking_predict est meta b /\ ss_llocv_stacking est meta a = ss_llocv_stacking est meta b.
