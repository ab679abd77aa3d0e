(** Specification vocabulary for weight matrices (C13-C21). *)
From Verif.Model Require Import Base Ext Kernel Distance WeightMatrix.
From Verif.Spec Require Import KernelSpec.
Open Scope string_scope.
Open Scope nat_scope.
Open Scope R_scope.

(** How the bandwidth of a row is chosen in one dimension. *)
Inductive dim_rule : Type :=
| FixedBandwidth (b : R)
| NearestCount (z : Z)
| Fraction (q : R).

Definition rule_of (bandwidth : option R) (neighbour_count : option count_arg) : option dim_rule :=
  match bandwidth, neighbour_count with
  | Some b, None => Some (FixedBandwidth b)
  | None, Some (CInt z) => Some (NearestCount z)
  | None, Some (CFloat q) => Some (Fraction q)
  | _, _ => None
  end.

(** [b] is the bandwidth the rule gives to a row of distances. *)
Definition row_bandwidth (p : dim_rule) (row : list R) (b : R) : Prop :=
  match p with
  | FixedBandwidth b' => b = b'
  | NearestCount z => (0 < z)%Z /\ (Z.to_nat z <= List.length row)%nat /\ kth_smallest row (Z.to_nat z) b
  | Fraction q => 0 < q <= 1 /\ row <> [] /\ hyndman_fan_8 row q b
  end.

(** Value of a scalar-or-list parameter for dimension [dim]. *)
Definition arg_at {A} (a : dim_arg A) (dim : nat) : option A :=
  match a with
  | DNone => None
  | DScal a => Some a
  | DList l => nth dim l None
  end.

(** The parameter has a value position for dimension [dim]. *)
Definition arg_defined {A} (a : dim_arg A) (dim : nat) : Prop :=
  match a with DList l => (dim < List.length l)%nat | _ => True end.

(** Kernel name and bandwidth rule requested for dimension [dim]. *)
Definition requests (kernel_type : dim_arg string) (bandwidth : dim_arg R)
           (neighbour_count : dim_arg count_arg) (dim : nat) (k : string) (p : dim_rule) : Prop :=
  arg_at kernel_type dim = Some k /\ known_kernel k /\
  arg_defined bandwidth dim /\ arg_defined neighbour_count dim /\
  rule_of (arg_at bandwidth dim) (arg_at neighbour_count dim) = Some p.

(** Unnormalised weight of the pair (i,j) in one dimension. *)
Definition raw_weight (k : string) (p : dim_rule) (D : matrix R) (i j : nat) (w : R) : Prop :=
  exists b, row_bandwidth p (nth i D []) b /\ weighs k b (mget 0 D i j) w.

(** Distance matrices, all r x c, non-negative. *)
Definition valid_distances (Ds : list (matrix R)) (r c : nat) : Prop :=
  Ds <> [] /\ Forall (fun D => rect D r c /\ entries (Rle 0) D) Ds.

(** Row-stochastic or zero. *)
Definition normalised_row (row : list R) : Prop :=
  Forall (fun w => 0 <= w <= 1) row /\ (Rsum row = 1 \/ Forall (fun w => w = 0) row).

(** [f] is a permutation of 0..n-1 given as the list of its values. *)
Definition index_permutation (f : list nat) (n : nat) : Prop := Permutation f (seq 0 n).

(** Reordering of rows and of columns. *)
Definition reorder {A} (d : A) (f : list nat) (l : list A) : list A := map (fun i => nth i l d) f.
Definition reorder_rows {A} (f : list nat) (m : matrix A) : matrix A := reorder [] f m.
Definition reorder_cols {A} (d : A) (f : list nat) (m : matrix A) : matrix A := map (reorder d f) m.

(** A bandwidth parameter expressed in units [s] times smaller. *)
Definition scale_arg (s : R) (a : dim_arg R) : dim_arg R :=
  match a with
  | DNone => DNone
  | DScal b => DScal (s * b)
  | DList l => DList (map (option_map (Rmult s)) l)
  end.
