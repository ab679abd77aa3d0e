(** Specification vocabulary for the success of a stacking fit (C134, C135). *)
From Verif.Model Require Import Base Ext Csr Neighbour Distance WeightModel NumbaImpl Stacking.
From Verif.Spec Require Import NeighbourSpec StackingSpec.
Open Scope nat_scope.
Open Scope R_scope.

(** No location sampling, or a rate that samples all [n] locations. *)
Definition keeps_all (c : sconfig) (n : nat) : Prop :=
  forall q, sc_sample_local_rate c = Some q -> trunc (q * INR n) = Z.of_nat n.

(** The work is split into at least one batch. *)
Definition has_batches (cpu : nat) (c : sconfig) : Prop :=
  match sc_n_jobs c, sc_n_patches c with
  | None, None => (0 < cpu)%nat
  | _, Some k => (0 < k)%nat
  | Some _, None => False
  end.

(** What the way the weights are stored demands.  NumPy array: no numba, and an
    estimator_sample_rate in (-1, 1].  Sparse: after shrinking somebody has the
    last observation as a neighbour (with numba: somebody has a neighbour). *)
Definition storable (c : sconfig) (w : swts) (n : nat) (W' : matrix R) : Prop :=
  match w with
  | SDense _ => sc_use_numba c = false /\ forall r, sc_estimator_rate c = Some r -> -1 < r <= 1
  | SSparse _ =>
    if sc_use_numba c then exists i k, (i < n)%nat /\ (k < n)%nat /\ 0 < mget 0 W' i k
    else exists i, (i < n)%nat /\ 0 < mget 0 W' i (n - 1)
  end.

(** Base learners that fit and predict exactly when there is data. *)
Definition needs_data {est} (fit_est : nat -> matrix R -> list R -> list R -> result est)
           (predict_est : est -> matrix R -> result (list R)) : Prop :=
  (forall i y w e, fit_est i [] y w <> Ok e) /\
  (forall i X y w, X <> [] -> List.length y = List.length X -> List.length w = List.length X -> exists e, fit_est i X y w = Ok e) /\
  (forall e X, (exists p, predict_est e X = Ok p) <-> X <> []) /\
  (forall e X p, predict_est e X = Ok p -> List.length p = List.length X).

(** A meta learner that fits exactly when there are observations and columns, and
    then predicts one value for one row. *)
Definition needs_design {meta} (fit_meta : R -> nat -> matrix R -> list R -> list R -> result meta)
           (predict_meta : meta -> matrix R -> result (list R)) : Prop :=
  (forall alpha k y w m, fit_meta alpha k [] y w <> Ok m) /\
  (forall alpha X y w m, fit_meta alpha 0%nat X y w <> Ok m) /\
  (forall alpha k X y w, X <> [] -> (0 < k)%nat -> (forall row, In row X -> List.length row = k) ->
     List.length y = List.length X -> List.length w = List.length X -> exists m, fit_meta alpha k X y w = Ok m) /\
  (forall m x, exists p, predict_meta m [x] = Ok [p]).

(** Every observation is its own neighbour, and no other has a larger weight. *)
Definition self_heaviest (W : matrix R) (n : nat) : Prop :=
  forall i j, (i < n)%nat -> (j < n)%nat -> 0 <= mget 0 W i j <= mget 0 W i i /\ 0 < mget 0 W i i.
