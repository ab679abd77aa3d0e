(** Specification vocabulary for the Moran statistics (C71-C74, C97). *)
From Coq Require Import Permutation.
From Verif.Model Require Import Base Ext.
Open Scope nat_scope.
Open Scope R_scope.

(** Sums over 0..n-1. *)
Definition sum_n (n : nat) (f : nat -> R) : R := Rsum (map f (seq 0 n)).

(** Deviation of observation [i] from the mean. *)
Definition deviation (y : list R) (i : nat) : R := nth i y 0 - sum_n (List.length y) (fun j => nth j y 0) / INR (List.length y).

Definition row_sum (w : matrix R) (n i : nat) : R := sum_n n (fun j => mget 0 w i j).

(** Weights divided by row sums: as intended, entry (i,j) by the sum of row i; as
    written, by the sum of row j. *)
Definition by_row (w : matrix R) (n i j : nat) : R := mget 0 w i j / row_sum w n i.
Definition by_column (w : matrix R) (n i j : nat) : R := mget 0 w i j / row_sum w n j.

(** Moran's I of [y] for the weights [v]: n / S0 * sum_ij v_ij u_i u_j / sum_i u_i^2. *)
Definition S0 (n : nat) (v : nat -> nat -> R) : R := sum_n n (fun i => sum_n n (fun j => v i j)).
Definition sum_of_powers (y : list R) (k : nat) : R := sum_n (List.length y) (fun i => deviation y i ^ k).
Definition moran_I (y : list R) (v : nat -> nat -> R) : R :=
  let n := List.length y in
  INR n / S0 n v * sum_n n (fun i => sum_n n (fun j => v i j * deviation y i * deviation y j)) / sum_of_powers y 2.

(** Second moment under randomisation (Cliff and Ord), with kurtosis [b]. *)
Definition S1 (n : nat) (v : nat -> nat -> R) : R := 1 / 2 * sum_n n (fun i => sum_n n (fun j => (v i j + v j i) ^ 2)).
Definition S2 (n : nat) (v : nat -> nat -> R) : R := sum_n n (fun i => (sum_n n (fun j => v i j + v j i)) ^ 2).
Definition randomisation_variance (n : nat) (v : nat -> nat -> R) (b : R) : R :=
  let x := INR n in
  (x * ((x ^ 2 - 3 * x + 3) * S1 n v - x * S2 n v + 3 * S0 n v ^ 2) - b * ((x ^ 2 - x) * S1 n v - 2 * x * S2 n v + 6 * S0 n v ^ 2))
    / ((x - 1) * (x - 2) * (x - 3) * S0 n v ^ 2) - (-1 / (x - 1)) ^ 2.

(** The sample kurtosis m4 / m2^2. *)
Definition kurtosis (y : list R) : R :=
  (sum_of_powers y 4 / INR (List.length y)) / (sum_of_powers y 2 / INR (List.length y)) ^ 2.

(** [y] is not constant. *)
Definition varies (y : list R) : Prop := exists i j, (i < List.length y)%nat /\ (j < List.length y)%nat /\ nth i y 0 <> nth j y 0.

(** Weights the functions can work with: square, no row sums to zero, total not zero. *)
Definition usable (w : matrix R) (n : nat) : Prop :=
  rect w n n /\ (forall i, (i < n)%nat -> row_sum w n i <> 0) /\ S0 n (by_column w n) <> 0.

Definition symmetric (w : matrix R) (n : nat) : Prop := forall i j, (i < n)%nat -> (j < n)%nat -> mget 0 w i j = mget 0 w j i.

(** Local Moran value of observation [i]: u_i / m2 * sum_j v_ij u_j. *)
Definition local_moran (y : list R) (v : nat -> nat -> R) (i : nat) : R :=
  deviation y i / (sum_of_powers y 2 / INR (List.length y)) * sum_n (List.length y) (fun j => v i j * deviation y j).

(** Relabelling: [p] lists 0..n-1 in another order. *)
Definition relabel_vector (p : list nat) (y : list R) : list R := map (fun i => nth i y 0) p.
Definition relabel_matrix (p : list nat) (w : matrix R) : matrix R := map (fun i => map (fun j => mget 0 w i j) p) p.

(** The randomisation distribution: [Ps] lists every rearrangement of 0..n-1 exactly
    once, all equally likely. *)
Definition all_permutations (n : nat) (Ps : list (list nat)) : Prop :=
  NoDup Ps /\ forall p, In p Ps <-> Permutation p (seq 0 n).
Definition mean_over (Ps : list (list nat)) (F : list nat -> R) : R := Rsum (map F Ps) / INR (List.length Ps).

(** Least squares through the origin. *)
Definition squared_error (x z : list R) (b : R) : R := Rsum (map2 (fun s t => (t - b * s) ^ 2) x z).
Definition least_squares (slope_of : list R -> list R -> R) : Prop :=
  forall x z b, List.length x = List.length z -> squared_error x z (slope_of x z) <= squared_error x z b.
