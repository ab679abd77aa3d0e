(** Specification vocabulary for partial dependence and ICE curves (C173). *)
From Coq Require Import Sorted.
From Verif.Model Require Import Base.
From Verif.Spec Require Import KernelSpec InspectSpec.
Open Scope nat_scope.
Open Scope R_scope.

(** [b] is found at the real-valued rank [h] (1 for the smallest) of [row],
    interpolating linearly between order statistics. *)
Definition at_rank (row : list R) (h b : R) : Prop :=
  let n := List.length row in
  row <> [] /\
  (h < 1 -> kth_smallest row 1 b) /\
  (INR n <= h -> kth_smallest row n b) /\
  (forall (j : nat) (v w : R), (1 <= j < n)%nat -> INR j <= h < INR j + 1 ->
     kth_smallest row j v -> kth_smallest row (S j) w -> b = v + (h - INR j) * (w - v)).

(** The quantile [b] of [row] at probability [p] whose rank is
    n p + 0.4 + 0.2 p. *)
Definition cunnane (row : list R) (p b : R) : Prop := at_rank row (INR (List.length row) * p + 2 / 5 + p / 5) b.

(** The values of feature [f] in the rows [X]. *)
Definition values_of (X : matrix R) (f : nat) : list R := map (fun x => nth f x 0) X.

(** Closer than NumPy tells apart. *)
Definition too_close (lo hi : R) : Prop := Rabs (lo - hi) <= 1 / 10 ^ 8 + 1 / 10 ^ 5 * Rabs hi.

(** [q] is the grid for the given values: they themselves, in order, or
    [resolution] equidistant points from the 5% to the 95% quantile. *)
Definition is_grid (resolution : nat) (values : list R) (q : list R) : Prop :=
  let distinct := List.length (nodup Req_EM_T values) in
  ((distinct < resolution)%nat -> StronglySorted Rlt q /\ forall x, In x q <-> In x values) /\
  ((resolution <= distinct)%nat -> exists lo hi, cunnane values (5 / 100) lo /\ cunnane values (95 / 100) hi /\ ~ too_close lo hi /\
     List.length q = resolution /\ forall k, (k < resolution)%nat -> nth k q 0 = lo + INR k / INR (resolution - 1) * (hi - lo)).

Section Spec.
  Context {est : Type}.
  Variable predict_est : est -> matrix R -> result (list R).
  Variable store : R -> R.

  (** [a] is the weighted mean, over the rows [Xs] with weights [w], of the
      predictions of [e] after feature [f] has been set to [v] in all of them. *)
  Definition dependence_at (e : est) (Xs : matrix R) (w : list R) (f : nat) (v a : R) : Prop :=
    exists rows p, Forall2 (fun x x' => with_feature x f (store v) x') Xs rows /\ predict_est e rows = Ok p /\ weighted_average w p a.
End Spec.

(** [h] never falls when feature [f] alone is raised (rows of [F] features). *)
Definition rises_with (F f : nat) (h : list R -> R) : Prop :=
  forall x u v x1 x2, List.length x = F -> u <= v -> with_feature x f u x1 -> with_feature x f v x2 -> h x1 <= h x2.
(** [h] changes at most [L] times as much as feature [f]. *)
Definition steepness_at_most (F f : nat) (L : R) (h : list R -> R) : Prop :=
  forall x u v x1 x2, List.length x = F -> with_feature x f u x1 -> with_feature x f v x2 -> Rabs (h x2 - h x1) <= L * Rabs (v - u).
