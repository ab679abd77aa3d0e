(** Learners that minimise an error on their training data (C175). *)
From Verif.Model Require Import Base Ext.
From Verif.Spec Require Import FeatureUnitsSpec LinearSpec.
Open Scope nat_scope.
Open Scope R_scope.

(** Weighted squared error of the function [f] on the rows, plus a penalty. *)
Definition penalised_error (penalty : R) (f : list R -> R) (X : matrix R) (y w : list R) : R :=
  penalty + Rsum (tabulate (List.length X) (fun j => nth j w 0 * (nth j y 0 - f (nth j X [])) ^ 2)).

(** The learner chooses, among the functions [value h] for [h] in [admissible], one
    of least weighted squared error plus [penalty h] (a mean, least squares, ridge and
    lasso regression, ...), and predicts with it. *)
Definition error_minimiser {est hyp : Type} (p : nat) (admissible : hyp -> Prop) (value : hyp -> list R -> R) (penalty : hyp -> R)
           (chosen : est -> hyp)
           (fit_est : nat -> matrix R -> list R -> list ext -> result est)
           (predict_est : est -> matrix R -> result (list R)) : Prop :=
  (forall i X y w e, rows_of p X -> List.length y = List.length X -> List.length w = List.length X -> Forall (Rlt 0) w ->
     fit_est i X y (map Fin w) = Ok e ->
     admissible (chosen e) /\
     forall h, admissible h ->
       penalised_error (penalty (chosen e)) (value (chosen e)) X y w <= penalised_error (penalty h) (value h) X y w) /\
  (forall e A, predict_est e A = Ok (map (value (chosen e)) A)).

(** Every choice of targets at the points is a linear relation: as many free
    parameters as points (one or two points with different x for one feature). *)
Definition interpolable (p : nat) (points : list (list R)) : Prop :=
  forall targets, List.length targets = List.length points ->
  exists b0 b, List.length b = p /\ forall k, (k < List.length points)%nat -> linear b0 b (nth k points []) = nth k targets 0.
