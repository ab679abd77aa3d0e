(** Specification vocabulary for the ALE figures (C170). *)
From Verif.Model Require Import Base.
From Verif.Spec Require Import KernelSpec.
Open Scope nat_scope.
Open Scope R_scope.

(** How many of [x] lie in [l, r), or in [l, r] for the last bar. *)
Definition inside (last : bool) (l r v : R) : bool :=
  (if Rle_dec l v then true else false) && (if last then if Rle_dec v r then true else false else if Rlt_dec v r then true else false).
Definition number_inside (last : bool) (l r : R) (x : list R) : nat := List.length (filter (inside last l r) x).

(** Area under the bars. *)
Definition area (bars : list (R * R * nat)) : R :=
  Rsum (map (fun b => (snd (fst b) - fst (fst b)) * INR (snd b)) bars).
