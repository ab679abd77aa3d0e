(** Specification vocabulary for statements from coordinates to fitted model
    (C124-C129). *)
From Verif.Model Require Import Base Ext WeightMatrix.
From Verif.Spec Require Import WeightSpec DistanceSpec.
Open Scope nat_scope.
Open Scope R_scope.

(** A weighted observation. *)
Definition observation : Type := list R * R * ext.
Definition obs_x (o : observation) : list R := fst (fst o).
Definition obs_y (o : observation) : R := snd (fst o).
Definition obs_w (o : observation) : ext := snd o.

(** The estimator is deterministic and does not depend on the order of its
    training rows: two clones trained on the same weighted observations, in any
    order, predict the same, or both fail. *)
Definition order_blind {est} (fit_est : nat -> matrix R -> list R -> list ext -> result est)
           (predict_est : est -> matrix R -> result (list R)) : Prop :=
  forall c c' l l' e, Permutation l l' ->
    fit_est c (map obs_x l) (map obs_y l) (map obs_w l) = Ok e ->
    exists e', fit_est c' (map obs_x l') (map obs_y l') (map obs_w l') = Ok e' /\
      forall x, predict_est e' [x] = predict_est e [x].

(** Bandwidths for distances measured in other units: in dimension [dim] all
    distances are multiplied by [nth dim scales 1]. *)
Definition rescaled_bandwidth (scales : list R) (bandwidth bandwidth' : dim_arg R) : Prop :=
  is_none bandwidth' = is_none bandwidth /\
  forall dim, (dim < List.length scales)%nat ->
    (arg_defined bandwidth dim -> arg_defined bandwidth' dim) /\
    arg_at bandwidth' dim = option_map (Rmult (nth dim scales 1)) (arg_at bandwidth dim).

(** Every distance matrix in its own unit. *)
Definition rescaled (scales : list R) (Ds : list (matrix R)) : list (matrix R) :=
  map2 (fun s D => mmap (Rmult s) D) scales Ds.

(** Change of the coordinate system: scale by [s], then translate by [t]. *)
Definition moved_points (s : R) (t : list R) (pts : matrix R) : matrix R :=
  map (fun p => shift t (map (Rmult s) p)) pts.

(** The same for every coordinate array: a scale and a translation each. *)
Definition moved (moves : list (R * list R)) (v : list (matrix R)) : list (matrix R) :=
  map2 (fun move p => moved_points (fst move) (snd move) p) moves v.
