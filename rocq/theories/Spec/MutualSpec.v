(** Vocabulary for property C195: mutual neighbours. *)
From Verif.Model Require Import Base Ext Kernel Distance WeightMatrix.
From Verif.Spec Require Import KernelSpec WeightSpec.
Open Scope nat_scope.
Open Scope R_scope.

(** Distances between [n] points in several dimensions: the same from i to j as from j to i. *)
Definition symmetric_distances (Ds : list (matrix R)) (n : nat) : Prop :=
  valid_distances Ds n n /\
  forall dim i j, (dim < List.length Ds)%nat -> (i < n)%nat -> (j < n)%nat -> mget 0 (nth dim Ds []) i j = mget 0 (nth dim Ds []) j i.

(** A fixed bandwidth in every dimension. *)
Definition fixed_bandwidths (kt : dim_arg string) (bw : dim_arg R) (nc : dim_arg count_arg) (dims : nat) : Prop :=
  forall dim, (dim < dims)%nat -> exists k b, requests kt bw nc dim k (FixedBandwidth b).

(** The weights as numbers. *)
Definition weights_are (W : matrix ext) (n : nat) (w : nat -> nat -> R) : Prop :=
  rect W n n /\ forall i j, (i < n)%nat -> (j < n)%nat -> mget NaN W i j = Fin (w i j).
