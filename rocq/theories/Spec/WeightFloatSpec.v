(** Specification vocabulary for rounded weight matrices (C152-C154). *)
From Verif.Model Require Import Base Ext Sort Kernel Distance WeightMatrix KernelFloat.
From Verif.Spec Require Import KernelSpec WeightSpec FloatSpec.
Open Scope string_scope.
Open Scope nat_scope.
Open Scope R_scope.

(** The bandwidth a rule gives to a row, as computed: fixed, the distance to the
    z-th nearest, or a computed quantile. *)
Definition row_bandwidth_fl (quantile : R -> list R -> R) (p : dim_rule) (row : list R) (b : R) : Prop :=
  match p with
  | FixedBandwidth b' => b = b'
  | NearestCount z => (0 < z)%Z /\ (Z.to_nat z <= List.length row)%nat /\ kth_smallest row (Z.to_nat z) b
  | Fraction q => 0 < q <= 1 /\ row <> [] /\ b = quantile q row
  end.

(** A pair at distance [d] is outside the support of kernel [k] with bandwidth [b]. *)
Definition outside (k : string) (b d : R) : Prop :=
  (vanishing_kernel k /\ b <= d) \/ (k = "boxcar" /\ b < d).
(** ... inside it. *)
Definition inside (k : string) (b d : R) : Prop :=
  (vanishing_kernel k /\ d < b) \/ (k = "boxcar" /\ d <= b).

(** Adding the numbers of a row from left to right. *)
Definition left_to_right (fl : R -> ext) (l : list ext) : ext :=
  match l with
  | [] => Fin 0
  | x :: rest => fold_left (fun a w => rounded fl (eadd a w)) rest x
  end.
(** Two calls both return, or both raise the same exception. *)
Definition same_outcome {A B} (x : result A) (y : result B) : Prop :=
  match x, y with Ok _, Ok _ => True | Raise e, Raise e' => e = e' | _, _ => False end.
(** Quantile, exp and cube without rounding. *)
Definition exact_quantile (q : R) (row : list R) : R :=
  match Sort.quantile_median_unbiased row q with Ok b => b | Raise _ => 0 end.
Definition exact_exp (x : R) : ext := Fin (exp x).
Definition exact_cube (x : R) : ext := Fin (x ^ 3).
