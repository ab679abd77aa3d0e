(** Specification vocabulary for distances (C22-C25). *)
From Verif.Model Require Import Base Distance.
Open Scope string_scope.
Open Scope nat_scope.
Open Scope R_scope.

(** A distance matrix between the points of one list is a (pseudo)metric table. *)
Record metric_table (n : nat) (same : nat -> nat -> Prop) (D : matrix R) : Prop := {
  mt_rect : rect D n n;
  mt_sym : forall i j, (i < n)%nat -> (j < n)%nat -> mget 0 D i j = mget 0 D j i;
  mt_nonneg : forall i j, (i < n)%nat -> (j < n)%nat -> 0 <= mget 0 D i j;
  mt_zero : forall i j, (i < n)%nat -> (j < n)%nat -> (mget 0 D i j = 0 <-> same i j);
  mt_triangle : forall i j k, (i < n)%nat -> (j < n)%nat -> (k < n)%nat ->
     mget 0 D i k <= mget 0 D i j + mget 0 D j k
}.

(** Sum of squared coordinate differences of two d-dimensional points. *)
Definition sq_dist (d : nat) (p q : list R) : R :=
  Rsum (tabulate d (fun k => (nth k p 0 - nth k q 0) ^ 2)).

(** Translation of a point. *)
Definition shift (t p : list R) : list R := map2 Rplus t p.

(** Position on the unit sphere of a (longitude, latitude) pair in degrees. *)
Definition degrees (x : R) : R := x * (PI / 180).
Definition sphere (p : R * R) : R * R * R :=
  let lon := degrees (fst p) in let lat := degrees (snd p) in
  (cos lat * cos lon, cos lat * sin lon, sin lat).
Definition dot3 (u v : R * R * R) : R :=
  let '(a, b, c) := u in let '(x, y, z) := v in a * x + b * y + c * z.

(** A call of [_distance_matrix] with use_dask, as the caller writes it. *)
Record dask_call (mkw : Type) : Type := DaskCall {
  dc_source : coords;
  dc_target : option coords;
  dc_metric : string;
  dc_cache_sort : bool;
  dc_kw : kwargs mkw
}.
Arguments DaskCall {mkw}.
Arguments dc_source {mkw}.
Arguments dc_target {mkw}.
Arguments dc_metric {mkw}.
Arguments dc_cache_sort {mkw}.
Arguments dc_kw {mkw}.

Section History.
  Context (mkw : Type) (dask_metric : string -> option (list R -> list R -> R)) (sort_row : list R -> list R).
  Definition perform (fs : filesystem) (c : dask_call mkw) : filesystem * result dask_result :=
    distance_matrix_dask mkw dask_metric sort_row fs (dc_source c) (dc_target c) (dc_metric c)
      (dc_cache_sort c) (dc_kw c).
  (** Results of a sequence of calls on an evolving directory. *)
  Fixpoint perform_all (fs : filesystem) (cs : list (dask_call mkw)) : filesystem * list (result dask_result) :=
    match cs with
    | [] => (fs, [])
    | c :: cs =>
      let '(fs', r) := perform fs c in
      let '(fs'', rs) := perform_all fs' cs in (fs'', r :: rs)
    end.
End History.

(** The matrix part of what a dask call returned. *)
Definition result_matrix (r : dask_result) : matrix R :=
  match r with DaskMatrix m => m | DaskPair m _ => m end.

(** A call that may use the cache at [path]: it names the file, does not ask to
    overwrite, and its coordinates match. *)
Definition cacheable (mkw : Type) (c : dask_call mkw) (path : string) : Prop :=
  kw_filepath (dc_kw c) = Some path /\ kw_overwrite (dc_kw c) = false /\
  (forall t, dc_target c = Some t -> ncols (dc_source c) = ncols t).
