(** Specification vocabulary for repeated observations (C178). *)
From Verif.Model Require Import Base Ext Csr Distance WeightModel.
Open Scope nat_scope.
Open Scope R_scope.

(** Equal rows have equal targets. *)
Definition consistent (X : matrix R) (y : list R) : Prop :=
  forall j k, (j < List.length X)%nat -> (k < List.length X)%nat -> nth j X [] = nth k X [] -> nth j y 0 = nth k y 0.

(** A learner that predicts the target of each row it was trained on (a nearest
    neighbour, a fully grown tree) as long as equal rows have equal targets. *)
Definition reproduces {est} (fit_est : nat -> matrix R -> list R -> list ext -> result est)
           (predict_est : est -> matrix R -> result (list R)) : Prop :=
  forall i X y w e j, fit_est i X y w = Ok e -> List.length y = List.length X -> consistent X y -> (j < List.length X)%nat ->
    predict_est e [nth j X []] = Ok [nth j y 0].

(** [j] repeats observation [i]. *)
Definition repeats (X : matrix R) (y : list R) (i j : nat) : Prop :=
  j <> i /\ nth j X [] = nth i X [] /\ nth j y 0 = nth i y 0.
