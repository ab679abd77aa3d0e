(** Learners whose predictions stay in the range of their training targets, like trees,
    forests and nearest neighbours. *)
From Verif.Model Require Import Base Ext WeightModel.
Open Scope nat_scope.
Open Scope R_scope.

(** [v] is no smaller and no larger than all the values. *)
Definition in_range (values : list R) (v : R) : Prop :=
  forall lo hi, (forall t, In t values -> lo <= t <= hi) -> lo <= v <= hi.

(** Whatever the learner was trained on, with weights that are [usable], it predicts one
    value for each row, in the range of the training targets. *)
Definition averages {est A} (usable : A -> Prop) (fit_est : nat -> matrix R -> list R -> list A -> result est)
           (predict_est : est -> matrix R -> result (list R)) : Prop :=
  forall i X y w e Z out, fit_est i X y w = Ok e -> Forall usable w -> predict_est e Z = Ok out ->
    List.length out = List.length Z /\ forall v, In v out -> in_range y v.
Definition positive_weight (v : ext) : Prop := exists r, v = Fin r /\ 0 < r.

(** Every fitted learner can be asked about these rows. *)
Definition answers {est} (predict_est : est -> matrix R -> result (list R)) (Z : matrix R) : Prop :=
  forall e, exists out, predict_est e Z = Ok out.
