(** Specification for C190: weights in another unit. *)
From Coq Require Import Reals List.
From Verif.Model Require Import Base Ext.
Import ListNotations.
Open Scope R_scope.

(** Every row of weights multiplied by its own factor. *)
Definition rows_scaled (ks : list R) (W : matrix R) : matrix R := map2 (fun k row => map (Rmult k) row) ks W.

(** All weights multiplied by the same factor. *)
Definition all_scaled (k : R) (W : matrix R) : matrix R := mmap (Rmult k) W.

(** A learner to which only the ratios of the sample weights matter: with all
    weights multiplied by a positive factor it can be fitted too, and predicts the
    same. *)
Definition only_ratios {est : Type} (fit_est : nat -> matrix R -> list R -> list ext -> result est)
           (predict_est : est -> matrix R -> result (list R)) : Prop :=
  forall i X y w e k, 0 < k -> fit_est i X y (map Fin w) = Ok e ->
  exists e', fit_est i X y (map Fin (map (Rmult k) w)) = Ok e' /\ forall Z, predict_est e' Z = predict_est e Z.

(** The same for the base learners of stacking, which receive real weights. *)
Definition only_ratios_real {est : Type} (fit_est : nat -> matrix R -> list R -> list R -> result est)
           (predict_est : est -> matrix R -> result (list R)) : Prop :=
  forall i X y w e k, 0 < k -> fit_est i X y w = Ok e ->
  exists e', fit_est i X y (map (Rmult k) w) = Ok e' /\ forall Z, predict_est e' Z = predict_est e Z.

(** A meta model whose penalty is in the unit of the weights: multiplying the
    penalty and all the weights by [k] changes no prediction. *)
Definition penalty_in_weights {meta : Type} (fit_meta : R -> nat -> matrix R -> list R -> list R -> result meta)
           (predict_meta : meta -> matrix R -> result (list R)) (k : R) : Prop :=
  forall alpha p X y w m, fit_meta alpha p X y w = Ok m ->
  exists m', fit_meta (k * alpha) p X y (map (Rmult k) w) = Ok m' /\ forall Z, predict_meta m' Z = predict_meta m Z.
