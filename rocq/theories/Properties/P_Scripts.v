(** C179: two scripts that cannot finish. *)
From Coq Require Import Lia.
From Verif.Model Require Import Base Constructor Scripts.
From Verif.Spec Require Import ConstructorSpec.
From Verif.Proofs Require Import ScriptsProps.
Open Scope string_scope.
Open Scope nat_scope.
Open Scope list_scope.

(** Relied on: parameter_tuning.py finds good parameters.  False: the model it scores is
    never fitted, so the objective raises TypeError for all parameters ... *)
Theorem C179_objective_refuted : forall (obj : Type) cpu negate_obj params,
  objective obj cpu negate_obj params = Raise TypeError.
Proof. exact objective_raises. Qed.
Print Assumptions C179_objective_refuted.

(** ... and the search with it, whatever is suggested. *)
Theorem C179_tuning_refuted : forall (obj : Type) cpu negate_obj suggest max_evals trials, 0 < max_evals ->
  fmin obj cpu negate_obj suggest max_evals trials = Raise TypeError.
Proof. exact fmin_raises. Qed.
Print Assumptions C179_tuning_refuted.

(** Relied on: simulation_data_fitting.py maps the residuals of its WeightModel.  False:
    it reads an attribute that only stacking models have. *)
Theorem C179_residuals_refuted : forall (obj : Type) cpu pos kw assigned difference,
  incl (map fst assigned) results_of_weight_model -> raises (residual_step obj cpu pos kw assigned difference).
Proof. exact residual_raises. Qed.
Print Assumptions C179_residuals_refuted.

(** The calls themselves are accepted: with an estimator, and as in the script. *)
Example C179_example : forall (obj : Type) cpu (estimator : obj),
  (exists d, stacking_init obj cpu [] [("local_estimator", VObj estimator); ("max_depth", VInt 3)] = Ok d) /\
  (exists d, weight_model_init obj cpu [VObj estimator; VNone; VNone] [("neighbour_count", VFloat 1); ("cache_data", VBool true)] = Ok d) /\
  incl (map fst [("y_sample_", @VNone obj)]) results_of_weight_model.
Proof.
  intros obj cpu e. split; [eexists; reflexivity|]. split; [eexists; reflexivity|]. intros x [<-|[]]. unfold results_of_weight_model. simpl. tauto.
Qed.
