(** Specification vocabulary for the distance cache (C117, C118). *)
From Coq Require Import Permutation.
From Verif.Model Require Import Base Distance Cache.
Open Scope string_scope.
Open Scope nat_scope.
Open Scope R_scope.

(** Row [i] lies in block [c] when the rows are cut into blocks of these heights. *)
Definition in_chunk (sizes : list nat) (c i : nat) : Prop :=
  (c < List.length sizes)%nat /\ (list_sum (firstn c sizes) <= i < list_sum (firstn (S c) sizes))%nat.

(** A way to cut [n] rows into blocks, and an order of storing the blocks. *)
Definition chunking (n : nat) (sizes order : list nat) : Prop :=
  list_sum sizes = n /\ Permutation order (seq 0 (List.length sizes)).

(** What every path holds, for a disk without half-made stores. *)
Definition contents (d : disk) : filesystem :=
  fun p => match d p with Some e => match from_zarr e with Ok m => Some m | Raise _ => None end | None => None end.
Definition no_bare_directory (d : disk) : Prop := forall p, d p <> Some ZDir.

(** Call arguments that use the cache at [path] without overwriting. *)
Definition reuses {mkw} (kw : kwargs mkw) (path : string) (source : coords) (target : option coords) : Prop :=
  kw_filepath kw = Some path /\ kw_overwrite kw = false /\
  (forall t, target = Some t -> ncols source = ncols t).

(** Coordinates of several dimensions that fit together, with a metric each. *)
Definition dims_match (source target : list coords) (metrics : list string) : Prop :=
  List.length source = List.length target /\ (List.length source <= List.length metrics)%nat /\
  (forall k s t, nth_error source k = Some s -> nth_error target k = Some t -> ncols s = ncols t).

(** [m] holds the distances of dimension [k]. *)
Definition own (dask_metric : string -> option (list R -> list R -> R)) (source target : list coords)
           (metrics : list string) (k : nat) (m : matrix R) : Prop :=
  exists f, dask_metric (nth k metrics "") = Some f /\
    m = map (fun p => map (fun q => f p q) (nth k target [])) (nth k source []).
