(** Vocabulary for property C196: predicting the training points. *)
From Verif.Model Require Import Base Ext Kernel Distance WeightMatrix.
Open Scope nat_scope.
Open Scope R_scope.

(** A learner that pays no attention to the sample weights. *)
Definition ignores_weights {est} (fit_est : nat -> matrix R -> list R -> list ext -> result est) : Prop :=
  forall i X y w w', List.length w = List.length w' -> fit_est i X y w = fit_est i X y w'.

(** The weight of j at i is that of i at j. *)
Definition symmetric_weights (W : matrix ext) (n : nat) : Prop :=
  forall i j, (i < n)%nat -> (j < n)%nat -> mget NaN W i j = mget NaN W j i.
