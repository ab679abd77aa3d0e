(** Specification vocabulary for the kernels (properties C01-C12). *)
From Verif.Model Require Import Base Ext Kernel.
Open Scope string_scope.
Open Scope nat_scope.
Open Scope R_scope.

(** The seven documented kernel names (kernel.py:10-18). *)
Definition known_kernel (k : string) : Prop :=
  k = "linear" \/ k = "uniform" \/ k = "gaussian" \/ k = "exponential" \/
  k = "boxcar" \/ k = "bisquare" \/ k = "tricube".

(** Kernels whose weight vanishes already at the bandwidth. *)
Definition vanishing_kernel (k : string) : Prop :=
  k = "linear" \/ k = "bisquare" \/ k = "tricube".

(** Kernels with unbounded support. *)
Definition smooth_kernel (k : string) : Prop := k = "gaussian" \/ k = "exponential".

(** What a caller observes for one pair: [kernel_function] applied to distance
    [d] with fixed bandwidth [b] returns the finite weight [w]. *)
Definition weighs (k : string) (b d w : R) : Prop :=
  kernel_function [[d]] (BScalar b) k = Ok [[Fin w]].

(** The textbook kernels of the normalised distance u = d/b (b > 0). *)
Definition textbook (k : string) (u : R) : R :=
  if String.eqb k "uniform" then 1
  else if String.eqb k "gaussian" then exp (- u ^ 2 / 2)
  else if String.eqb k "exponential" then exp (- u / 2)
  else if String.eqb k "boxcar" then (if Rle_dec u 1 then 1 else 0)
  else if String.eqb k "linear" then (if Rle_dec u 1 then 1 - u else 0)
  else if String.eqb k "bisquare" then (if Rle_dec u 1 then (1 - u ^ 2) ^ 2 else 0)
  else (if Rle_dec u 1 then (1 - u ^ 3) ^ 3 else 0).     (* tricube *)

(** All entries of a matrix satisfy [P]. *)
Definition entries {A} (P : A -> Prop) (m : matrix A) : Prop := Forall (Forall P) m.

(** [v] is the [k]-th smallest value of [row] (k counted from 1). *)
Definition count (p : R -> bool) (row : list R) : nat := List.length (filter p row).
Definition kth_smallest (row : list R) (k : nat) (v : R) : Prop :=
  In v row /\
  (k <= count (fun x => Rleb x v) row)%nat /\
  (count (fun x => Rltb x v) row < k)%nat.

(** Number of non-zero entries of a row of weights. *)
Definition nonzero_count (row : list ext) : nat :=
  List.length (filter (fun w => negb (eis_zero w)) row).

(** Hyndman-Fan type-8 ("median unbiased") sample quantile [b] of [row] at
    probability [q]: with n = length row and h = (n + 1/3) q + 1/3, interpolate
    between the order statistics around h, clamped at the extremes. *)
Definition hyndman_fan_8 (row : list R) (q b : R) : Prop :=
  let n := List.length row in
  let h := (INR n + 1 / 3) * q + 1 / 3 in
  (h < 1 -> kth_smallest row 1 b) /\
  (INR n <= h -> kth_smallest row n b) /\
  (forall (j : nat) (v w : R), (1 <= j < n)%nat -> INR j <= h < INR j + 1 ->
     kth_smallest row j v -> kth_smallest row (S j) w ->
     b = v + (h - INR j) * (w - v)).

(** Hyndman-Fan type-7 ("linear") quantile [b] of [row] at probability [p]: with
    h = (n-1) p + 1, interpolate between the order statistics around h. *)
Definition hyndman_fan_7 (row : list R) (p b : R) : Prop :=
  let n := List.length row in
  let h := (INR n - 1) * p + 1 in
  row <> [] /\
  (INR n <= h -> kth_smallest row n b) /\
  (forall (j : nat) (v w : R), (1 <= j < n)%nat -> INR j <= h < INR j + 1 ->
     kth_smallest row j v -> kth_smallest row (S j) w ->
     b = v + (h - INR j) * (w - v)).
