(** Specification vocabulary for changes of the unit of the target (C150, C151). *)
From Verif.Model Require Import Base.
Open Scope nat_scope.
Open Scope R_scope.

(** A target measured in another unit and from another origin. *)
Definition in_units (a k t : R) : R := a * t + k.

(** A learner that follows the unit of its targets: fitted to the same data with
    targets in the new unit, it predicts the same values in the new unit. *)
Definition follows_units {est W : Type} (fit_est : nat -> matrix R -> list R -> list W -> result est)
           (predict_est : est -> matrix R -> result (list R)) (a k : R) : Prop :=
  forall i X y w e, fit_est i X y w = Ok e ->
  exists e', fit_est i X (map (in_units a k) y) w = Ok e' /\
    forall Z p, predict_est e Z = Ok p -> predict_est e' Z = Ok (map (in_units a k) p).

(** A penalised meta model that follows the unit of its targets when its inputs are
    in the same unit and the penalty in its square. *)
Definition meta_follows_units {meta : Type} (fit_meta : R -> nat -> matrix R -> list R -> list R -> result meta)
           (predict_meta : meta -> matrix R -> result (list R)) (a k : R) : Prop :=
  forall alpha p X y w m, fit_meta alpha p X y w = Ok m ->
  exists m', fit_meta (a * a * alpha) p (map (map (in_units a k)) X) (map (in_units a k) y) w = Ok m' /\
    forall x q, predict_meta m [x] = Ok [q] -> predict_meta m' [map (in_units a k) x] = Ok [in_units a k q].
