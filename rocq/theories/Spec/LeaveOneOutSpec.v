(** Specification vocabulary for leave-one-out scores (C187). *)
From Verif.Model Require Import Base Ext.
Open Scope nat_scope.
Open Scope R_scope.

(** All observations but [i], in order. *)
Definition others (n i : nat) : list nat := filter (fun j => negb (j =? i)%nat) (seq 0 n).

(** [p] is the prediction for [i] of a learner that has seen everything else. *)
Definition left_out_prediction {est} (fit_plain : nat -> matrix R -> list R -> result est) (predict_est : est -> matrix R -> result (list R))
           (X : matrix R) (y : list R) (i : nat) (p : R) : Prop :=
  exists e, fit_plain i (map (fun j => nth j X []) (others (List.length X) i)) (map (fun j => nth j y 0) (others (List.length X) i)) = Ok e /\
            predict_est e [nth i X []] = Ok [p].

(** Equal sample weights are as good as none. *)
Definition counts_alike {est} (fit_est : nat -> matrix R -> list R -> list ext -> result est) (fit_plain : nat -> matrix R -> list R -> result est) : Prop :=
  forall k X y omega, List.length y = List.length X -> 0 < omega -> fit_est k X y (repeat (Fin omega) (List.length X)) = fit_plain k X y.

(** A learner that knows nothing but the mean of the targets it has seen. *)
Definition knows_the_mean {est} (fit_plain : nat -> matrix R -> list R -> result est) (predict_est : est -> matrix R -> result (list R)) : Prop :=
  forall k X y, y <> [] -> exists e, fit_plain k X y = Ok e /\
    forall A, predict_est e A = Ok (map (fun _ => Rsum y / INR (List.length y)) A).
