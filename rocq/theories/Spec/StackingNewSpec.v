(** Vocabulary for property C191: stacking predictions of new points, from
    coordinates. *)
From Verif.Model Require Import Base Ext Kernel Distance WeightMatrix WeightModel.
From Verif.Spec Require Import KernelSpec WeightSpec WeightFloatSpec WeightModelSpec.
Open Scope string_scope.
Open Scope nat_scope.
Open Scope R_scope.

(** Every dimension has a positive fixed bandwidth. *)
Definition fixed_bandwidths (a : wm_args) (dims : nat) : Prop :=
  forall dim, (dim < dims)%nat -> exists k b, requests (a_kernel a) (a_bandwidth a) (a_count a) dim k (FixedBandwidth b) /\ 0 < b.

(** In every dimension the distance of the pair (i,j) is inside the support of the
    kernel. *)
Definition reached (a : wm_args) (Ds : list (matrix R)) (i j : nat) : Prop :=
  forall dim k b, (dim < List.length Ds)%nat -> requests (a_kernel a) (a_bandwidth a) (a_count a) dim k (FixedBandwidth b) ->
    ~ outside k b (mget 0 (nth dim Ds []) i j).

(** Kernels of every dimension without a limited support. *)
Definition unlimited (a : wm_args) (dims : nat) : Prop :=
  forall dim k, (dim < dims)%nat -> arg_at (a_kernel a) dim = Some k -> ~ vanishing_kernel k /\ k <> "boxcar".
