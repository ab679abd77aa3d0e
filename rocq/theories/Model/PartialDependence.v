(** Model of what weight_model.py:194-221 and 662-685 take from sklearn:
    [_grid_from_X] and [partial_dependence(kind='both')], oracles in
    Model/Inspect.v, written out. *)
From Verif.Model Require Import Base Sort Ale.
Open Scope nat_scope.
Open Scope R_scope.

(** Virtual index of scipy's [mquantiles] with its defaults alphap = betap = 0.4. *)
Definition virtual_mquantiles (n : nat) (q : R) : R :=
  INR n * q + (2 / 5 + q * (1 - 2 / 5 - 2 / 5)) - 1.

(** [np.allclose(a, b)] of two numbers. *)
Definition allclose (a b : R) : bool := Rleb (Rabs (a - b)) (1 / 10 ^ 8 + 1 / 10 ^ 5 * Rabs b).

(** [np.linspace(a, b, num)] for num > 1. *)
Definition linspace (a b : R) (num : nat) : list R :=
  tabulate num (fun k => a + INR k * ((b - a) / INR (num - 1))).

(** [_grid_from_X(X[:, [f]], percentiles=(0.05, 0.95), grid_resolution)]
    (weight_model.py:667-673).  Exact arithmetic; "percentiles are too close to each
    other" is a ValueError. *)
Definition grid_from_X_sk (resolution : nat) (X : matrix R) (f : nat) : result (list R) :=
  values <- mapM (fun row => getitem row f) X ;;
  let uniques := unique values in
  if (List.length uniques <? resolution)%nat then Ok uniques
  else
    lo <- quantile_with virtual_mquantiles values (5 / 100) ;;
    hi <- quantile_with virtual_mquantiles values (95 / 100) ;;
    if allclose lo hi then Raise ValueError else Ok (linspace lo hi resolution).

Section PartialDependence.
  Variable est : Type.
  Variable predict_est : est -> matrix R -> result (list R).
  (** Storing a number in X. *)
  Variable store : R -> R.

  (** [partial_dependence(e, X, [f], kind='both')]: grid and individual curves, by
      the "brute" method, which kind='both' selects.  The estimator is a regressor.
      sklearn reshapes the predictions to (observations, grid points), which fails
      without observations. *)
  Definition partial_dependence_sk (resolution : nat) (e : est) (X : matrix R) (f : nat) : result (list R * matrix R) :=
    match X with
    | [] => Raise ValueError
    | _ =>
      values <- grid_from_X_sk resolution X f ;;
      predictions <- mapM (fun v => predict_est e (map (fun row => list_set row f (store v)) X)) values ;;
      if forallb (fun p => (List.length p =? List.length X)%nat) predictions
      then Ok (values, transpose 0 (List.length X) predictions) else Raise ValueError
    end.
End PartialDependence.

(** The code's grid_resolution (weight_model.py:667, and sklearn's default). *)
Definition default_resolution : nat := 100.
