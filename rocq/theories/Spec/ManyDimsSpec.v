(** Specification vocabulary for neighbours in several dimensions (C177). *)
From Verif.Model Require Import Base Ext Kernel Distance WeightMatrix.
From Verif.Spec Require Import KernelSpec WeightSpec.
Open Scope string_scope.
Open Scope nat_scope.
Open Scope R_scope.

(** Kernels that are 0 from some distance on. *)
Definition compact_kernel (k : string) : Prop := k = "boxcar" \/ vanishing_kernel k.

(** Distances between [n] positions on a line. *)
Definition line_distances (position : nat -> R) (n : nat) : matrix R :=
  tabulate n (fun i => tabulate n (fun j => Rabs (position i - position j))).

(** Number of observations with a weight other than 0 for location [i]. *)
Definition support_size (W : matrix ext) (c i : nat) : nat :=
  List.length (filter (fun j => negb (eis_zero (mget (Fin 0) W i j))) (seq 0 c)).

(** Sum of natural numbers. *)
Definition total (l : list nat) : nat := fold_right Nat.add 0%nat l.

(** A number of neighbours, or a share of them, of about a half at most. *)
Definition at_most_half (count : count_arg) (n : nat) : Prop :=
  match count with
  | CInt z => (1 <= z)%Z /\ (2 * z <= Z.of_nat n + 1)%Z
  | CFloat q => 0 < q <= 1 / 2
  | COther => False
  end.
