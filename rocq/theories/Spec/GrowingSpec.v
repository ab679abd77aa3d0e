(** Specification vocabulary for wider neighbourhoods (C176). *)
From Verif.Model Require Import Base Ext Kernel Distance WeightMatrix WeightModel.
From Verif.Spec Require Import KernelSpec WeightSpec.
Open Scope string_scope.
Open Scope nat_scope.
Open Scope R_scope.

(** The second rule asks for at least as much as the first one, of the same kind. *)
Definition wider_rule (p p' : dim_rule) : Prop :=
  match p, p' with
  | FixedBandwidth b, FixedBandwidth b' => 0 <= b <= b'
  | NearestCount z, NearestCount z' => (z <= z')%Z
  | Fraction q, Fraction q' => q <= q'
  | _, _ => False
  end.

(** The same in each of [n] dimensions of the arguments. *)
Definition wider (kernel_type : dim_arg string) (bandwidth bandwidth' : dim_arg R)
           (neighbour_count neighbour_count' : dim_arg count_arg) (n : nat) : Prop :=
  forall dim k k' p p', (dim < n)%nat -> requests kernel_type bandwidth neighbour_count dim k p ->
    requests kernel_type bandwidth' neighbour_count' dim k' p' -> wider_rule p p'.

(** A learner that raises on an empty training set and on nothing else. *)
Definition needs_data {est} (fit_est : nat -> matrix R -> list R -> list ext -> result est)
           (predict_est : est -> matrix R -> result (list R)) : Prop :=
  (forall i, raises (fit_est i [] [] [])) /\
  forall i X y w x, X <> [] -> List.length y = List.length X -> List.length w = List.length X ->
    exists e p, fit_est i X y w = Ok e /\ predict_est e [x] = Ok [p].
