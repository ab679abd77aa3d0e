(** Model of code snippets of /repo/README.md: constructing, predicting and
    inspecting a WeightModel. *)
From Verif.Model Require Import Base Ext Csr Neighbour Distance WeightModel Inspect Ale Constructor.
Open Scope string_scope.
Open Scope nat_scope.
Open Scope R_scope.

Section Readme.
  (** Estimators and strings. *)
  Variable obj : Type.

  (** README.md:84-89, 145-150 and 196-201: positional arguments and keywords. *)
  Definition readme_positional (estimator distance_measure kernel_type : obj) (neighbour_count : R)
    : list (pyval obj) * list (string * pyval obj) :=
    ([VObj estimator; VObj distance_measure; VObj kernel_type], [("neighbour_count", VFloat neighbour_count)]).
  (** README.md:216-221. *)
  Definition readme_keywords (estimator distance_measure kernel_type : obj) (neighbour_count : R)
    : list (pyval obj) * list (string * pyval obj) :=
    ([VObj estimator],
     [("distance_measure", VObj distance_measure); ("kernel_type", VObj kernel_type); ("neighbour_count", VFloat neighbour_count)]).

  Variable store : R -> R.
  Variable est : Type.
  Variable predict_est : est -> matrix R -> result (list R).

  (** README.md:260-278, also Examples/stale.py:51-60 and
      simulation_for_ale.py:124-132: the curve of one location.  Sparse matrices,
      whose rows cannot be used as masks, are not modelled beyond raising. *)
  Definition stale (s : state est) (feature local_index : nat) : result (list R * list R) :=
    es <- need (local_estimators est s) ;;
    estimator <- getitem es local_index ;;
    nb <- need (neighbour_matrix_ est s) ;;
    W <- need (weight_matrix_ est s) ;;
    match nb, W with
    | MDense b, WDense m =>
      neighbour_mask <- getitem b local_index ;;
      row <- getitem m local_index ;;
      neighbour_weight <- mask_index neighbour_mask row ;;
      X <- need (data_X est s) ;;
      X_local <- mask_index neighbour_mask X ;;
      predict <- match estimator with Some e => Ok (predict_est e) | None => Raise AttributeError end ;;
      w <- finite_weights neighbour_weight ;;
      weighted_ale store X_local feature predict (Some w) false 5
    | _, _ => Raise TypeError
    end.
End Readme.
