(** IEEE-754 binary32 rounding (to nearest, ties to even) with overflow, on Flocq's
    format FLT(-149, 24): the format of the distance and weight matrices
    (distance_utils.py:99-115 make the distances float32; kernel.py keeps the type). *)
From Coq Require Import ZArith.
From Flocq.Core Require Import Core.
From Verif.Model Require Import Base Ext.
Open Scope R_scope.

(** The largest finite number of the format, (2 - 2^-23) * 2^127. *)
Definition float_max32 : R := IZR (2 ^ 24 - 1) * bpow radix2 104.
Definition round32 (r : R) : R := round radix2 (FLT_exp (-149) 24) ZnearestE r.
Definition fl32 (r : R) : ext :=
  let x := round32 r in
  if Rle_dec (Rabs x) float_max32 then Fin x else if Rlt_dec 0 x then PInf else NInf.

(** Correctly rounded exp and cube. *)
Definition exp32 (x : R) : ext := fl32 (exp x).
Definition cube32 (x : R) : ext := fl32 (x ^ 3).
