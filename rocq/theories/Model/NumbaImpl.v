(** Model of /repo/georegression/numba_impl.py. *)
From Verif.Model Require Import Base Ext.
Open Scope string_scope.
Open Scope nat_scope.
Open Scope R_scope.

(** [np.dot] of two vectors. *)
Definition dot (a b : list R) : R := Rsum (map2 Rmult a b).

Definition column (j : nat) (X : matrix R) : list R := map (fun row => nth j row 0) X.

(** numba_impl.py:5-9 [mean] with axis 0, one column: weighted sum over the sum of
    the weights (which is not 0 where this is used). *)
Definition wmean (x w : list R) : R := Rsum (map2 Rmult x w) / Rsum w.

Section Ridge.
  (** [np.linalg.solve]: raises LinAlgError on a singular matrix. *)
  Variable solve : matrix R -> list R -> result (list R).

  (** numba_impl.py:11-44 [ridge_cholesky] for an array of [p] columns.  Weights
      that sum to 0 or contain a negative one make NaNs, which numba's [solve]
      rejects; without rows the matrix is [alpha * eye] and the intercept 0/0.
      Arguments of different lengths: ValueError (numba's broadcasting of arrays of
      length 1 is not modelled). *)
  Definition ridge_cholesky (p : nat) (X : matrix R) (y : list R) (alpha : R) (w : list R)
    : result (list R * ext) :=
    if negb (List.length X =? List.length y)%nat || negb (List.length X =? List.length w)%nat then Raise ValueError
    else
      match X with
      | [] =>
        coef <- solve (mtab p p (fun a b => alpha * (if (a =? b)%nat then 1 else 0))) (repeat 0 p) ;;
        Ok (coef, NaN)
      | _ =>
        if Reqb (Rsum w) 0 || existsb (fun x => Rltb x 0) w then Raise LinAlgError
        else
          let X_offset := tabulate p (fun j => wmean (column j X) w) in
          let y_offset := wmean y w in
          let X_center := map (fun row => map2 Rminus row X_offset) X in
          let y_center := map (fun v => v - y_offset) y in
          let weight_sqrt := map sqrt w in
          let X_center := map2 (fun row s => map (fun v => v * s) row) X_center weight_sqrt in
          let y_center := map2 Rmult y_center weight_sqrt in
          let A := mtab p p (fun a b => dot (column a X_center) (column b X_center)) in
          let Xy := tabulate p (fun a => dot (column a X_center) y_center) in
          let A := mtab p p (fun a b => mget 0 A a b + alpha * (if (a =? b)%nat then 1 else 0)) in
          coef <- solve A Xy ;;
          Ok (coef, Fin (y_offset - dot X_offset coef))
      end.
End Ridge.

(** numba_impl.py:46-57 [r2_score] on arrays of equal length. *)
Definition r2_numba (y_true y_pred : list R) : R :=
  let y_mean := Rsum y_true / INR (List.length y_true) in
  let total_sum_squares := Rsum (map (fun a => (a - y_mean) ^ 2) y_true) in
  let residual_sum_squares := Rsum (map2 (fun a b => (a - b) ^ 2) y_true y_pred) in
  if Reqb total_sum_squares 0 then 1 else 1 - residual_sum_squares / total_sum_squares.
