(** Specification vocabulary for the ridge regression (C60) and R2 (C61). *)
From Verif.Model Require Import Base.
Open Scope nat_scope.
Open Scope R_scope.

(** The linear model with coefficients [c] and intercept [b] at the point [x]. *)
Definition linear (p : nat) (c : list R) (b : R) (x : list R) : R :=
  Rsum (tabulate p (fun j => nth j x 0 * nth j c 0)) + b.

(** Weighted sum of squared errors plus [alpha] times the squared norm of [c]. *)
Definition ridge_objective (p : nat) (X : matrix R) (y w : list R) (alpha : R) (c : list R) (b : R) : R :=
  Rsum (tabulate (List.length X) (fun i => nth i w 0 * (nth i y 0 - linear p c b (nth i X [])) ^ 2))
  + alpha * Rsum (tabulate p (fun j => nth j c 0 ^ 2)).

(** An exact solver of square linear systems: what it returns solves the system,
    and it fails only on singular matrices. *)
Definition exact_solver (solve : matrix R -> list R -> result (list R)) : Prop :=
  forall p A b, rect A p p -> List.length b = p ->
    (forall c, solve A b = Ok c ->
       List.length c = p /\ forall a, (a < p)%nat -> Rsum (tabulate p (fun k => mget 0 A a k * nth k c 0)) = nth a b 0) /\
    (raises (solve A b) ->
       exists c, List.length c = p /\ (exists k, (k < p)%nat /\ nth k c 0 <> 0) /\
         forall a, (a < p)%nat -> Rsum (tabulate p (fun k => mget 0 A a k * nth k c 0)) = 0).

(** A weighted observation, and the arrays X, y and weight of a list of them. *)
Record observation := Obs { features : list R; target : R; weight : R }.
Definition X_of (obs : list observation) : matrix R := map features obs.
Definition y_of (obs : list observation) : list R := map target obs.
Definition w_of (obs : list observation) : list R := map weight obs.

(** [p] features each, no negative weight, at least one positive weight. *)
Definition weighted_sample (p : nat) (obs : list observation) : Prop :=
  (forall o, In o obs -> List.length (features o) = p /\ 0 <= weight o) /\ exists o, In o obs /\ 0 < weight o.

(** Sums of squares of the coefficients and of the weighted errors. *)
Definition size_of (c : list R) : R := Rsum (map (fun v => v ^ 2) c).
Definition weighted_error (p : nat) (obs : list observation) (c : list R) (b : R) : R :=
  Rsum (map (fun o => weight o * (target o - linear p c b (features o)) ^ 2) obs).
