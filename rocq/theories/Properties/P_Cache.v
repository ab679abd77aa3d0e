(** Properties C117, C118: the distance cache with several dimensions, and
    interrupted or concurrent writes. *)
From Coq Require Import Lra Lia Permutation.
From Verif.Model Require Import Base Ext Kernel Distance WeightMatrix Cache.
From Verif.Spec Require Import DistanceSpec KernelSpec WeightSpec CacheSpec.
From Verif.Proofs Require Import CacheProps CacheProps2 CacheExamples.
Open Scope string_scope.
Open Scope nat_scope.
Open Scope R_scope.

(** C117: one file name for all dimensions.  The first dimension's distances are
    stored and returned for every other dimension, whatever its coordinates and metric. *)
Theorem C117_shared_file_returns_first_dimension :
  forall mkw dask_metric sort_row fs (source target : list coords) metrics cache_sort (kw : kwargs mkw) path,
  kw_filepath kw = Some path -> kw_overwrite kw = false -> fs (zarr_path path) = None ->
  (0 < length source)%nat ->
  dims_match source target (metric_list (length source) metrics) ->
  dask_metric (nth 0 (metric_list (length source) metrics) "") <> None ->
  exists fs' r rs m,
    distance_matrices_dask_kw mkw dask_metric sort_row fs source (Some target) metrics cache_sort None kw = (fs', Ok (r :: rs)) /\
    own dask_metric source target (metric_list (length source) metrics) 0 m /\ result_matrix r = m /\
    rs = repeat (DaskMatrix m) (length source - 1) /\ fs' (zarr_path path) = Some m.
Proof. intros mkw dm sr. exact (shared_path dm sr). Qed.
Print Assumptions C117_shared_file_returns_first_dimension.

(** Overwriting, or naming no file: right results, but the file keeps only the
    distances of the last dimension. *)
Theorem C117_overwrite_keeps_last_dimension :
  forall mkw dask_metric sort_row fs (source target : list coords) metrics cache_sort (kw : kwargs mkw),
  (kw_filepath kw = None \/ kw_overwrite kw = true) ->
  (0 < length source)%nat ->
  dims_match source target (metric_list (length source) metrics) ->
  (forall k, (k < length source)%nat -> dask_metric (nth k (metric_list (length source) metrics) "") <> None) ->
  exists fs' rs,
    distance_matrices_dask_kw mkw dask_metric sort_row fs source (Some target) metrics cache_sort None kw = (fs', Ok rs) /\
    length rs = length source /\
    (forall k r, nth_error rs k = Some r -> own dask_metric source target (metric_list (length source) metrics) k (result_matrix r)) /\
    exists m, own dask_metric source target (metric_list (length source) metrics) (length source - 1) m /\
      fs' (zarr_path (match kw_filepath kw with Some p => p | None => "distance_matrix.zarr" end)) = Some m.
Proof. intros mkw dm sr. exact (shared_path_overwrite dm sr). Qed.
Print Assumptions C117_overwrite_keeps_last_dimension.

(** With a file of its own per dimension every dimension gets and keeps its own distances. *)
Theorem C117_separate_files_are_right :
  forall mkw dask_metric sort_row fs (source target : list coords) metrics cache_sort (args : list (kwargs mkw)) kw0 (paths : list string),
  (0 < length source)%nat -> args = map (fun p => Kwargs (Some p) false (kw_metric kw0)) paths ->
  length paths = length source -> NoDup (map zarr_path paths) ->
  (forall p q, cache_sort = true -> In p paths -> In q paths -> zarr_path p <> sorted_path (zarr_path q)) ->
  (forall p, In p paths -> fs (zarr_path p) = None) ->
  dims_match source target (metric_list (length source) metrics) ->
  (forall k, (k < length source)%nat -> dask_metric (nth k (metric_list (length source) metrics) "") <> None) ->
  exists fs' rs,
    distance_matrices_dask_kw mkw dask_metric sort_row fs source (Some target) metrics cache_sort (Some args) kw0 = (fs', Ok rs) /\
    length rs = length source /\
    (forall k r, nth_error rs k = Some r -> own dask_metric source target (metric_list (length source) metrics) k (result_matrix r) /\
       fs' (zarr_path (nth k paths "")) = Some (result_matrix r)).
Proof. intros mkw dm sr. exact (separate_paths dm sr). Qed.
Print Assumptions C117_separate_files_are_right.

(** Space [0; 3] and time [0; 1] against the origin: time gets the spatial distances. *)
Example C117_example :
  dims_match ex_space_time ex_origins ["euclidean"; "euclidean"] /\
  snd (distance_matrices_dask_kw unit ex_metric (fun r => r) (fun _ => None) ex_space_time (Some ex_origins)
        (Scalar "euclidean") false None (Kwargs (Some "d") false tt)) =
    Ok [DaskMatrix [[0]; [3]]; DaskMatrix [[0]; [3]]] /\
  cdist euclid (nth 1 ex_space_time []) (nth 1 ex_origins []) = [[0]; [1]].
Proof. exact ex_shared. Qed.
Example C117_example_separate :
  NoDup (map zarr_path ["space"; "time"]) /\
  (forall p q, In p ["space"; "time"] -> In q ["space"; "time"] -> zarr_path p <> sorted_path (zarr_path q)).
Proof. exact ex_separate. Qed.

(** C118: if the process writing the file dies after [k >= 3] effects (or another
    process looks at that moment), a later call that may use the file returns,
    without an exception, a matrix with the right distances in the row blocks
    stored so far and 0 in all others. *)
Theorem C118_interrupted_write_reads_as_zero :
  forall mkw dask_metric sort_row d source t metric f cache_sort (kw : kwargs mkw) path sizes order order' steps r k
         source' target' metric' cache_sort' (kw' : kwargs mkw) sizes' order2 order2',
  kw_filepath kw = Some path -> (kw_overwrite kw = true \/ d (zarr_path path) = None) ->
  ncols source = ncols t -> dask_metric metric = Some f ->
  chunking (length source) sizes order ->
  dask_run mkw dask_metric sort_row d source (Some t) metric cache_sort kw sizes order order' = (steps, r) ->
  (3 <= k)%nat -> reuses kw' path source' target' ->
  exists M,
    dask_run mkw dask_metric sort_row (crash_disk k d steps) source' target' metric' cache_sort' kw' sizes' order2 order2' =
      ([], Ok (DaskMatrix M)) /\
    length M = length source /\
    forall c i j, in_chunk sizes c i -> (j < length t)%nat ->
      (In c (firstn (k - 3) order) -> mget 0 M i j = f (nth i source []) (nth j t [])) /\
      (~ In c (firstn (k - 3) order) -> mget 0 M i j = 0).
Proof. intros mkw dm sr. exact (interrupted dm sr). Qed.
Print Assumptions C118_interrupted_write_reads_as_zero.

(** Earlier crash points: after the first effect the old file is gone; after the
    second every later call that may use the file raises. *)
Theorem C118_crash_before_metadata :
  forall mkw dask_metric sort_row d source t metric f cache_sort (kw : kwargs mkw) path sizes order order' steps r
         source' target' metric' cache_sort' (kw' : kwargs mkw) sizes' order2 order2',
  kw_filepath kw = Some path -> (kw_overwrite kw = true \/ d (zarr_path path) = None) ->
  ncols source = ncols t -> dask_metric metric = Some f ->
  dask_run mkw dask_metric sort_row d source (Some t) metric cache_sort kw sizes order order' = (steps, r) ->
  reuses kw' path source' target' ->
  crash_disk 1 d steps (zarr_path path) = None /\
  exists e, dask_run mkw dask_metric sort_row (crash_disk 2 d steps) source' target' metric' cache_sort' kw' sizes' order2 order2' =
      ([], Raise e).
Proof. intros mkw dm sr. exact (bare_directory dm sr). Qed.
Print Assumptions C118_crash_before_metadata.

(** The weights of a point whose row was not stored: every target alike. *)
Theorem C118_unwritten_rows_weigh_all_alike :
  forall D r c i kernel_type b W,
  rect D r c -> entries (Rle 0) D -> (i < r)%nat -> (0 < c)%nat -> 0 <= b ->
  (forall j, (j < c)%nat -> mget 0 D i j = 0) ->
  weight_matrix_from_distance_dask [D] (DScal kernel_type) RNone (DScal b) DNone DNone = Ok W ->
  forall j, (j < c)%nat -> mget NaN W i j = Fin (1 / INR c).
Proof. exact zero_row_uniform. Qed.
Print Assumptions C118_unwritten_rows_weigh_all_alike.

(** overwrite=True repairs any state of the disk. *)
Theorem C118_overwrite_repairs :
  forall mkw dask_metric sort_row d source t metric f cache_sort (kw : kwargs mkw) path sizes order order',
  kw_filepath kw = Some path -> kw_overwrite kw = true ->
  ncols source = ncols t -> dask_metric metric = Some f ->
  chunking (length source) sizes order ->
  exists steps r, dask_run mkw dask_metric sort_row d source (Some t) metric cache_sort kw sizes order order' = (steps, Ok r) /\
    result_matrix r = cdist f source t /\
    exists e, apply_steps d steps (zarr_path path) = Some e /\ from_zarr e = Ok (cdist f source t).
Proof. intros mkw dm sr. exact (overwrite_repairs dm sr). Qed.
Print Assumptions C118_overwrite_repairs.

(** Uninterrupted, whatever the blocks and the order of storing them, the single
    writes amount to the store-level behaviour of C25. *)
Theorem C118_uninterrupted_writes :
  forall mkw dask_metric sort_row d source target metric cache_sort (kw : kwargs mkw) sizes order order' steps r,
  no_bare_directory d -> chunking (length source) sizes order -> chunking (length source) sizes order' ->
  dask_run mkw dask_metric sort_row d source target metric cache_sort kw sizes order order' = (steps, r) ->
  no_bare_directory (apply_steps d steps) /\
  exists fs', distance_matrix_dask mkw dask_metric sort_row (contents d) source target metric cache_sort kw = (fs', r) /\
    forall p, contents (apply_steps d steps) p = fs' p.
Proof. intros mkw dm sr. exact (uninterrupted dm sr). Qed.
Print Assumptions C118_uninterrupted_writes.

(** Two rows in two blocks, the second stored first, crash before the first one:
    the point at distance 5 is reported at distance 0. *)
Example C118_example :
  chunking 2 [1; 1]%nat [1; 0]%nat /\ in_chunk [1; 1]%nat 0 0 /\
  snd (dask_run unit ex_metric (fun r => r)
         (crash_disk 4 (fun _ => None) (fst (ex_run (fun _ => None)))) [[5]; [2]] (Some [[0]]) "euclidean" false
         (Kwargs (Some "d") false tt) [2]%nat [0]%nat [0]%nat) = Ok (DaskMatrix [[0]; [2]]) /\
  snd (ex_run (fun _ => None)) = Ok (DaskMatrix [[5]; [2]]).
Proof. exact ex_crash. Qed.
