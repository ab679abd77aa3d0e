(** Specification vocabulary for the distance between rounded and exact weights (C166). *)
From Verif.Model Require Import Base Ext Kernel KernelFloat.
From Verif.Spec Require Import KernelSpec FloatSpec.
Open Scope string_scope.
Open Scope nat_scope.
Open Scope R_scope.

(** Error bound of a kernel, in units of the accuracy of the number format. *)
Definition kernel_error (k : string) : R :=
  if String.eqb k "linear" then 2
  else if String.eqb k "exponential" then 6
  else if String.eqb k "gaussian" then 10
  else if String.eqb k "bisquare" then 9
  else if String.eqb k "tricube" then 20
  else 0.                                   (* uniform, boxcar *)

(** Numbers up to [4 / e ^ 2] do not overflow. *)
Definition wide (fl : R -> ext) (e : R) : Prop :=
  0 < e <= 1 / 32 /\ forall z, 0 <= z <= 4 / e ^ 2 -> exists r, fl z = Fin r.
