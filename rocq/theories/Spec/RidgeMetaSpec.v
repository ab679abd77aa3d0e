(** Specification vocabulary for the values of stacked predictions (C162). *)
From Verif.Model Require Import Base.
From Verif.Spec Require Import RidgeSpec.
Open Scope nat_scope.
Open Scope R_scope.

(** The meta estimator is a ridge regression with intercept: fitted to observations
    with non-negative weights, not all zero, it predicts with coefficients and an
    intercept that minimise the penalised weighted squared error. *)
Definition ridge_regression {meta} (fit_meta : R -> nat -> matrix R -> list R -> list R -> result meta)
           (predict_meta : meta -> matrix R -> result (list R)) : Prop :=
  forall alpha q obs m x p, 0 < alpha -> weighted_sample q obs ->
  fit_meta alpha q (X_of obs) (y_of obs) (w_of obs) = Ok m -> predict_meta m [x] = Ok [p] ->
  exists c b, List.length c = q /\ p = linear q c b x /\
    forall c' b', ridge_objective q (X_of obs) (y_of obs) (w_of obs) alpha c b <= ridge_objective q (X_of obs) (y_of obs) (w_of obs) alpha c' b'.

(** Weighted mean of [g] over the observations [T], and weighted sum of products of
    deviations of [g] and [h] from their means. *)
Definition mean_over (T : list nat) (w g : nat -> R) : R :=
  Rsum (map (fun k => w k * g k) T) / Rsum (map w T).
Definition codeviation (T : list nat) (w g h : nat -> R) : R :=
  Rsum (map (fun k => w k * ((g k - mean_over T w g) * (h k - mean_over T w h))) T).

(** Ridge regression of [y] on [q] copies of [g], at the value [v]. *)
Definition ridge_of_copies (alpha : R) (q : nat) (T : list nat) (w g y : nat -> R) (v : R) : R :=
  mean_over T w y
  + INR q * codeviation T w g y / (INR q * codeviation T w g g + alpha) * (v - mean_over T w g).
