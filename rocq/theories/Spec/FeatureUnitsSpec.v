(** Specification vocabulary for changes of the units of the features (C174). *)
From Verif.Model Require Import Base Ext.
From Verif.Spec Require Import UnitsSpec.
Open Scope nat_scope.
Open Scope R_scope.

Definition rows_of (F : nat) (X : matrix R) : Prop := Forall (fun row => List.length row = F) X.

(** Rows of [F] features become rows of [F'] features, not none. *)
Definition rewrites (F F' : nat) (rewrite : list R -> list R) : Prop :=
  (0 < F')%nat /\ forall row, List.length row = F -> List.length (rewrite row) = F'.

(** A learner that gives the same predictions however rows of [F] features are
    written: fitted to the rewritten rows, it predicts at a rewritten row what it
    did at the row. *)
Definition overlooks {est W : Type} (F : nat) (rewrite : list R -> list R)
           (fit_est : nat -> matrix R -> list R -> list W -> result est)
           (predict_est : est -> matrix R -> result (list R)) : Prop :=
  forall i X y w e, rows_of F X -> fit_est i X y w = Ok e ->
  exists e', fit_est i (map rewrite X) y w = Ok e' /\
    forall A p, rows_of F A -> predict_est e A = Ok p -> predict_est e' (map rewrite A) = Ok p.

(** A unit and an origin for each feature. *)
Definition in_feature_units (u : list (R * R)) (row : list R) : list R :=
  map2 (fun ak t => in_units (fst ak) (snd ak) t) u row.
Definition proper_units (u : list (R * R)) : Prop := Forall (fun ak => fst ak <> 0) u.

(** Feature [f] alone in units of which it takes [s] times as many. *)
Definition scaled_feature (f : nat) (s : R) (row : list R) : list R := list_set row f (s * nth f row 0).
