(** Least squares, for the local estimators (C160). *)
From Verif.Model Require Import Base Ext.
Open Scope string_scope.
Open Scope nat_scope.
Open Scope R_scope.

(** The linear relation with intercept [b0] and coefficients [b]. *)
Definition linear (b0 : R) (b : list R) (x : list R) : R := b0 + Rsum (map2 Rmult b x).

(** Weighted sum of squared errors of that relation on the rows of [X]. *)
Definition weighted_sse (X : matrix R) (y w : list R) (b0 : R) (b : list R) : R :=
  Rsum (tabulate (List.length X) (fun j => nth j w 0 * (nth j y 0 - linear b0 b (nth j X [])) ^ 2)).

(** The estimator is linear least squares with an intercept on [p] features
    (scikit-learn's LinearRegression): its parameters minimise the weighted squared
    error among all parameters, and its predictions are those of the relation.
    Among several minimisers it may choose any. *)
Definition least_squares (p : nat) {est : Type}
           (fit_est : nat -> matrix R -> list R -> list ext -> result est)
           (predict_est : est -> matrix R -> result (list R))
           (intercept : est -> R) (coef : est -> list R) : Prop :=
  (forall i X y w e,
     Forall (fun row => List.length row = p) X -> List.length y = List.length X -> List.length w = List.length X ->
     Forall (Rle 0) w -> fit_est i X y (map Fin w) = Ok e ->
     List.length (coef e) = p /\
     forall c0 c, List.length c = p ->
       weighted_sse X y w (intercept e) (coef e) <= weighted_sse X y w c0 c) /\
  (forall e Z, predict_est e Z = Ok (map (linear (intercept e) (coef e)) Z)).

(** [x] lies in the smallest affine space through the points (for one feature: the
    line, as soon as two of the points differ). *)
Definition affine_combination (points : list (list R)) (x : list R) : Prop :=
  exists t, List.length t = List.length points /\ Rsum t = 1 /\
    forall k, nth k x 0 = Rsum (map2 (fun a r => a * nth k r 0) t points).

(** The points determine a linear relation: only the zero relation vanishes on all
    of them. *)
Definition determining (p : nat) (points : list (list R)) : Prop :=
  forall c0 c, List.length c = p -> (forall r, In r points -> linear c0 c r = 0) -> c0 = 0 /\ c = repeat 0 p.

(** Weights as the library's kernels compute them. *)
Definition nonnegative_weights (W : matrix ext) (n : nat) : Prop :=
  forall i j, (i < n)%nat -> (j < n)%nat -> exists r, mget (Fin 0) W i j = Fin r /\ 0 <= r.

(** Training points with a nonzero weight at new point [i]; [W] has a row per
    training point. *)
Definition weighted_points (W : matrix ext) (n i : nat) : list nat :=
  filter (fun j => negb (eis_zero (mget NaN W j i))) (seq 0 n).
