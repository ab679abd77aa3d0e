(** Model of the local permutation importance
    (/repo/georegression/weight_model.py:224-236 [local_importance]): sklearn's
    [permutation_importance] with scoring=None, which is an oracle in
    Model/Inspect.v, is written out here. *)
From Verif.Model Require Import Base Ext Csr Distance WeightModel Inspect.
Open Scope nat_scope.
Open Scope R_scope.

(** sklearn's [r2_score] with sample_weight.  One sample gives NaN; np.average
    raises if the weights sum to zero.  /repo/georegression/stacking_model.py:1142
    calls it directly, other estimators through RegressorMixin.score. *)
Definition r2_weighted (y_true y_pred w : list R) : result ext :=
  if negb (List.length y_true =? List.length y_pred)%nat || negb (List.length y_true =? List.length w)%nat then Raise ValueError
  else match y_true with
  | [] => Raise ValueError
  | [_] => Ok NaN
  | _ =>
    if Reqb (Rsum w) 0 then Raise ZeroDivisionError
    else
      let average := Rsum (map2 Rmult y_true w) / Rsum w in
      let numerator := Rsum (map2 Rmult w (map2 (fun a b => (a - b) * (a - b)) y_true y_pred)) in
      let denominator := Rsum (map2 Rmult w (map (fun a => (a - average) * (a - average)) y_true)) in
      Ok (Fin (if Reqb denominator 0 then (if Reqb numerator 0 then 1 else 0)
               else 1 - numerator / denominator))
  end.

Section LocalImportance.
  Variable est : Type.
  Variable predict_est : est -> matrix R -> result (list R).
  Variable G : Type.
  (** [RandomState.shuffle]. *)
  Variable shuffle : G -> list nat -> G * list nat.

  (** [estimator.score(X, y, sample_weight)] (stacking_model.py:1137-1142;
      RegressorMixin.score). *)
  Definition score_est (e : est) (X : matrix R) (y w : list R) : result ext :=
    p <- predict_est e X ;; r2_weighted y p w.

  (** [X_permuted[:, f] = X_permuted[idx, f]]. *)
  Definition shuffle_column (X : matrix R) (idx : list nat) (f : nat) : result (matrix R) :=
    column <- mapM (fun j => row <- getitem X j ;; getitem row f) idx ;;
    if (List.length column =? List.length X)%nat then Ok (map2 (fun row v => list_set row f v) X column) else Raise ValueError.

  (** sklearn's [_calculate_permutation_scores] for column [f]: the index array and
      the copy of X are shuffled again in every repeat. *)
  Fixpoint permutation_scores (e : est) (y w : list R) (f : nat) (g : G) (idx : list nat) (X : matrix R) (r : nat) : result (list ext) :=
    match r with
    | O => Ok []
    | S r =>
      let '(g', idx') := shuffle g idx in
      X' <- shuffle_column X idx' f ;;
      s <- score_est e X' y w ;;
      rest <- permutation_scores e y w f g' idx' X' r ;;
      Ok (s :: rest)
    end.

  (** [np.mean]. *)
  Definition mean_ext (l : list ext) : ext :=
    match l with [] => NaN | _ => ediv (esum l) (Fin (INR (List.length l))) end.

  (** sklearn's [permutation_importance(e, X, y, sample_weight=w, n_repeats=r)
      .importances_mean].  Every column starts from the same seed.  Simplified: a
      weight that is not a number raises (sklearn would return NaN). *)
  Definition permutation_importance_sk (seed : G) (e : est) (X : matrix R) (y : list R) (w : list ext) (r : nat) : result (list ext) :=
    w <- finite_weights w ;;
    baseline <- score_est e X y w ;;
    mapM (fun f =>
      scores <- permutation_scores e y w f seed (seq 0 (List.length X)) X r ;;
      Ok (mean_ext (map (fun s => esub baseline s) scores))) (seq 0 (ncols X)).
End LocalImportance.
