(** Vocabulary for property C192: small errors in distances and coordinates. *)
From Verif.Model Require Import Base Ext Kernel Distance WeightMatrix.
From Verif.Spec Require Import KernelSpec WeightSpec.
Open Scope string_scope.
Open Scope nat_scope.
Open Scope R_scope.

(** Two rows of distances that differ by at most [e] in each place. *)
Definition close (e : R) (row row' : list R) : Prop := Forall2 (fun d d' => Rabs (d - d') <= e) row row'.

(** Distances between n points in several dimensions, zero from each point to itself. *)
Definition self_distances (Ds : list (matrix R)) (n : nat) : Prop :=
  valid_distances Ds n n /\ forall dim i, (dim < List.length Ds)%nat -> (i < n)%nat -> mget 0 (nth dim Ds []) i i = 0.

(** In every dimension a kernel other than boxcar with a fixed bandwidth of at least [bmin]. *)
Definition gradual (kt : dim_arg string) (bw : dim_arg R) (nc : dim_arg count_arg) (dims : nat) (bmin : R) : Prop :=
  forall dim, (dim < dims)%nat -> exists k b, requests kt bw nc dim k (FixedBandwidth b) /\ k <> "boxcar" /\ bmin <= b.
