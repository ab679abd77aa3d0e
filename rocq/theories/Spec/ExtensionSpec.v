(** Specification vocabulary for data sets of different sizes (C163, C164). *)
From Coq Require Import String.
From Verif.Model Require Import Base Ext Kernel Distance WeightMatrix.
From Verif.Spec Require Import KernelSpec WeightSpec.
Open Scope nat_scope.
Open Scope R_scope.

(** The block of the first [n] rows and columns. *)
Definition leading {A} (n : nat) (m : matrix A) : matrix A := map (firstn n) (firstn n m).

(** Distances to further points do not change the bandwidth of a row. *)
Definition undisturbed (p : dim_rule) (row further : list R) : Prop :=
  match p with
  | FixedBandwidth _ => True
  | NearestCount _ => exists b, row_bandwidth p row b /\ Forall (Rle b) further
  | Fraction _ => False
  end.

(** Some kernel gives the pair (i, j) weight zero. *)
Definition out_of_reach (kernel_type : dim_arg string) (bandwidth : dim_arg R) (neighbour_count : dim_arg count_arg)
           (Ds : list (matrix R)) (i j : nat) : Prop :=
  exists dim k p, (dim < List.length Ds)%nat /\ requests kernel_type bandwidth neighbour_count dim k p /\
    raw_weight k p (nth dim Ds []) i j 0.

(** The observations from number [N] on are out of reach of the first [N], and do not
    change their bandwidths. *)
Definition far_away (kernel_type : dim_arg string) (bandwidth : dim_arg R) (neighbour_count : dim_arg count_arg)
           (Ds : list (matrix R)) (N n : nat) : Prop :=
  (forall i j, (i < N)%nat -> (N <= j < n)%nat -> out_of_reach kernel_type bandwidth neighbour_count Ds i j) /\
  (forall dim k p i, (dim < List.length Ds)%nat -> requests kernel_type bandwidth neighbour_count dim k p -> (i < N)%nat ->
     let row := nth i (nth dim Ds []) [] in undisturbed p (firstn N row) (skipn N row)).

(** Without element [i]. *)
Definition without {A} (i : nat) (l : list A) : list A := (firstn i l ++ skipn (S i) l)%list.
