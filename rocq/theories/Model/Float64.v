(** IEEE-754 binary64 rounding (to nearest, ties to even) with overflow, on Flocq's
    format FLT(-1074, 53). *)
From Coq Require Import ZArith.
From Flocq.Core Require Import Core.
From Verif.Model Require Import Base Ext.
Open Scope R_scope.

Definition round64 (r : R) : R := round radix2 (FLT_exp (-1074) 53) ZnearestE r.
Definition fl64 (r : R) : ext :=
  let x := round64 r in
  if Rle_dec (Rabs x) float_max then Fin x else if Rlt_dec 0 x then PInf else NInf.

(** Correctly rounded exp and cube. *)
Definition exp64 (x : R) : ext := fl64 (exp x).
Definition cube64 (x : R) : ext := fl64 (x ^ 3).
