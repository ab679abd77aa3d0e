(** Model of /repo/georegression/simulation/simulation_for_robust.py:199-226
    [fit_llocv_models]: leave-one-out cross-validation of one learner for all data. *)
From Verif.Model Require Import Base Ext Distance WeightModel Inspect.
Open Scope nat_scope.
Open Scope R_scope.

(** sklearn's [LeaveOneOut().split(X)]: for each observation the others, in order, and
    itself.  It raises with fewer than two observations. *)
Definition loo_split (n : nat) : result (list (list nat * list nat)) :=
  if (n <=? 1)%nat then Raise ValueError
  else Ok (map (fun i => ((seq 0 i ++ seq (S i) (n - S i))%list, [i])) (seq 0 n)).

Section LeaveOneOut.
  (** The [k]-th new estimator fitted without sample weights (its private randomness may
      depend on [k]), and its predictions. *)
  Variable est : Type.
  Variable fit_plain : nat -> matrix R -> list R -> result est.
  Variable predict_est : est -> matrix R -> result (list R).

  (** Lines 210-213: one round of the loop. *)
  Definition loo_round (X_plus : matrix R) (y : list R) (k : nat) (split : list nat * list nat) : result (list R) :=
    let '(train, test) := split in
    Xs <- take_checked X_plus train ;;
    ys <- take_checked y train ;;
    e <- fit_plain k Xs ys ;;
    Xt <- take_checked X_plus test ;;
    predict_est e Xt.

  (** Lines 199-226; the score of the record returned.  [r2_score] takes the list of
      one-element arrays as a column. *)
  Definition fit_llocv_models (X : matrix R) (y : list R) (points : coords) : result ext :=
    X_plus <- hconcat X points ;;
    splits <- loo_split (List.length X_plus) ;;
    y_predicts <- mapM (fun ks => loo_round X_plus y (fst ks) (snd ks)) (combine (seq 0 (List.length splits)) splits) ;;
    p <- mapM (fun a => match a with [v] => Ok v | _ => Raise ValueError end) y_predicts ;;
    r2_score y p.
End LeaveOneOut.
