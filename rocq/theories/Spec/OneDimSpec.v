(** Vocabulary for property C194: several dimensions as one. *)
From Verif.Model Require Import Base Ext Kernel Distance WeightMatrix.
Open Scope nat_scope.
Open Scope R_scope.

(** Distance in one dimension, in units of its bandwidth. *)
Definition ratio (Ds : list (matrix R)) (bs : list R) (dim i j : nat) : R := mget 0 (nth dim Ds []) i j / nth dim bs 0.

(** One distance from all: the root of the sum of squares, or the sum. *)
Definition root_of_squares (Ds : list (matrix R)) (bs : list R) (r c : nat) : matrix R :=
  mtab r c (fun i j => sqrt (Rsum (tabulate (List.length Ds) (fun dim => ratio Ds bs dim i j ^ 2)))).
Definition sum_of_ratios (Ds : list (matrix R)) (bs : list R) (r c : nat) : matrix R :=
  mtab r c (fun i j => Rsum (tabulate (List.length Ds) (fun dim => ratio Ds bs dim i j))).

(** All coordinates of each of [n] points, each divided by the bandwidth of its dimension. *)
Definition joined (Ps : list coords) (bs : list R) (n : nat) : coords :=
  tabulate n (fun i => List.concat (tabulate (List.length Ps) (fun dim => map (fun x => x / nth dim bs 0) (nth i (nth dim Ps []) [])))).

(** [n] points, given by [nth dim widths 0] coordinates in each dimension. *)
Definition point_sets (Ps : list coords) (n : nat) (widths : list nat) : Prop :=
  List.length Ps = List.length widths /\ forall dim, (dim < List.length Ps)%nat -> rect (nth dim Ps []) n (nth dim widths 0%nat).
