(** Specification vocabulary for the shape of ALE curves (C168). *)
From Verif.Model Require Import Base.
From Verif.Spec Require Export AleSpec.
Open Scope nat_scope.
Open Scope R_scope.

(** The observations [x] and [x'] agree in every feature but [f]. *)
Definition differ_only_at (f : nat) (x x' : list R) : Prop :=
  List.length x = List.length x' /\ forall j, j <> f -> nth j x 0 = nth j x' 0.

(** The prediction never falls when feature [f] alone is raised. *)
Definition increasing_in (f : nat) (G : list R -> R) : Prop :=
  forall x x', differ_only_at f x x' -> nth f x 0 <= nth f x' 0 -> G x <= G x'.

(** The prediction changes at most [L] times as much as feature [f]. *)
Definition lipschitz_in (f : nat) (L : R) (G : list R -> R) : Prop :=
  forall x x', differ_only_at f x x' -> Rabs (G x' - G x) <= L * Rabs (nth f x' 0 - nth f x 0).

(** A predictor that treats every row on its own. *)
Definition rowwise (predictor : matrix R -> result (list R)) (G : list R -> R) : Prop :=
  forall rows, predictor rows = Ok (map G rows).
