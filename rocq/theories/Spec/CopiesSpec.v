(** Specification vocabulary for a dimension that is given several times (C185). *)
From Verif.Model Require Import Base Ext Kernel Distance WeightMatrix.
Open Scope nat_scope.
Open Scope R_scope.

(** A parameter that is not given or given once for all dimensions. *)
Definition for_all_dimensions {A} (a : dim_arg A) : Prop :=
  match a with DList _ => False | _ => True end.

(** The shares [row] sharpened: their [m]-th powers, divided by the total of these
    ([row] itself when it is zero). *)
Definition sharpened (m : nat) (row : list R) : list R :=
  map (fun w => w ^ m / Rsum (map (fun v => v ^ m) row)) row.
