(** Properties C22-C25: distances and the distance cache. *)
From Coq Require Import Lra Psatz.
From Verif.Model Require Import Base Distance.
From Verif.Spec Require Import DistanceSpec.
From Verif.Proofs Require Import ListFacts DistanceFacts DistanceExamples.
Open Scope string_scope.
Open Scope nat_scope.
Open Scope R_scope.

(** C22: the euclidean matrix of a set of points (exact arithmetic) holds the
    square roots of the summed squared differences and is a metric. *)
Theorem C22_euclidean_metric :
  forall mkw (scipy : string -> option (mkw -> list R -> list R -> R)) kw points n d,
  rect points n d -> (0 < n)%nat ->
  exists D, distance_matrix (fun x => x) mkw scipy points (Some points) "euclidean" kw = Ok (A2 D) /\
    (forall i j, (i < n)%nat -> (j < n)%nat ->
       mget 0 D i j = sqrt (sq_dist d (nth i points []) (nth j points []))) /\
    metric_table n (fun i j => nth i points [] = nth j points []) D.
Proof. exact euclid_matrix_metric. Qed.
Print Assumptions C22_euclidean_metric.

Theorem C22_translation_invariant :
  forall mkw (scipy : string -> option (mkw -> list R -> list R -> R)) kw source target t n m d,
  rect source n d -> rect target m d -> (0 < n)%nat -> (0 < m)%nat -> length t = d ->
  distance_matrix (fun x => x) mkw scipy (map (shift t) source) (Some (map (shift t) target)) "euclidean" kw =
  distance_matrix (fun x => x) mkw scipy source (Some target) "euclidean" kw.
Proof. exact euclid_matrix_translation. Qed.
Print Assumptions C22_translation_invariant.

(** With the casts to float32 the code really performs (any monotone rounding
    that keeps 0): still symmetric, non-negative, zero on the diagonal. *)
Theorem C22_euclidean_rounded :
  forall f32 mkw (scipy : string -> option (mkw -> list R -> list R -> R)) kw points n d,
  rect points n d -> (0 < n)%nat -> f32 0 = 0 -> (forall x y, x <= y -> f32 x <= f32 y) ->
  exists D, distance_matrix f32 mkw scipy points (Some points) "euclidean" kw = Ok (A2 D) /\ rect D n n /\
    forall i j, (i < n)%nat -> (j < n)%nat ->
      mget 0 D i j = mget 0 D j i /\ 0 <= mget 0 D i j /\ mget 0 D i i = 0.
Proof. exact euclid_matrix_rounded. Qed.
Print Assumptions C22_euclidean_rounded.

(** Without targets the result is the condensed upper triangle, row by row. *)
Theorem C22_condensed_is_upper_triangle :
  forall mkw (scipy : string -> option (mkw -> list R -> list R -> R)) kw points n d,
  rect points n d -> (0 < n)%nat ->
  distance_matrix (fun x => x) mkw scipy points None "euclidean" kw =
  Ok (A1 (flat_map (fun i => map (fun j => sqrt (sq_dist d (nth i points []) (nth j points [])))
                                 (seq (S i) (n - S i))) (seq 0 n))).
Proof. exact condensed_upper_triangle. Qed.
Print Assumptions C22_condensed_is_upper_triangle.

Example C22_example :
  rect ex_pts 2 2 /\
  distance_matrix (fun x => x) unit (fun _ => None) ex_pts (Some ex_pts) "euclidean" tt = Ok (A2 [[0; 5]; [5; 0]]).
Proof. exact ex_pts_ok. Qed.

(** C23: symmetric, within [0, half the circumference], zero exactly between
    equal positions on the sphere, the angle between the position vectors, and
    the triangle inequality; for all longitudes and latitudes. *)
Theorem C23_great_circle_metric :
  forall p q r : R * R,
  great_circle p q = great_circle q p /\
  0 <= great_circle p q <= 6371 * PI /\
  (great_circle p q = 0 <-> sphere p = sphere q) /\
  cos (great_circle p q / 6371) = dot3 (sphere p) (sphere q) /\
  great_circle p r <= great_circle p q + great_circle q r.
Proof. exact great_circle_metric. Qed.
Print Assumptions C23_great_circle_metric.

Theorem C23_great_circle_is_angle :
  forall p q : R * R, great_circle p q = 6371 * acos (dot3 (sphere p) (sphere q)).
Proof. exact great_circle_acos. Qed.
Print Assumptions C23_great_circle_is_angle.

Theorem C23_longitude_period :
  forall (p q : R * R) (k : Z), great_circle (fst p + 360 * IZR k, snd p) q = great_circle p q.
Proof. exact great_circle_periodic. Qed.
Print Assumptions C23_longitude_period.

(** The matrix asked for with metric "great-circle" holds these distances:
    column 0 is the longitude, column 1 the latitude. *)
Theorem C23_great_circle_matrix :
  forall f32 mkw (scipy : string -> option (mkw -> list R -> list R -> R)) source target kw,
  rect source (length source) 2 -> rect target (length target) 2 ->
  (0 < length source)%nat -> (0 < length target)%nat ->
  exists D, distance_matrix f32 mkw scipy source (Some target) "great-circle" kw = Ok (A2 D) /\
    rect D (length source) (length target) /\
    forall i j, (i < length source)%nat -> (j < length target)%nat ->
      mget 0 D i j = f32 (great_circle (mget 0 source i 0, mget 0 source i 1) (mget 0 target j 0, mget 0 target j 1)).
Proof. exact great_circle_matrix. Qed.
Print Assumptions C23_great_circle_matrix.

(** From pole to pole is half the circumference, whatever the longitudes; a
    quarter along the equator is a quarter. *)
Example C23_example_poles : forall a b : R, great_circle (a, 90) (b, -90) = 6371 * PI.
Proof. exact ex_poles. Qed.
Example C23_example_equator : great_circle (0, 0) (90, 0) = 6371 * (PI / 2).
Proof. exact ex_equator. Qed.

(** C24: mismatches raise ... *)
Theorem C24_different_number_of_vectors_raises :
  forall f32 mkw no_kw (scipy : string -> option (mkw -> list R -> list R -> R)) source target metrics args,
  length source <> length target ->
  raises (distance_matrices f32 mkw no_kw scipy source (Some target) metrics args).
Proof. exact dms_length. Qed.
Print Assumptions C24_different_number_of_vectors_raises.

Theorem C24_different_dimension_raises :
  forall f32 mkw no_kw (scipy : string -> option (mkw -> list R -> list R -> R)) (source target : list coords)
         metrics args dim (s t : coords),
  nth_error source dim = Some s -> nth_error target dim = Some t -> ncols s <> ncols t ->
  raises (distance_matrices f32 mkw no_kw scipy source (Some target) metrics args).
Proof. exact dms_dimension. Qed.
Print Assumptions C24_different_dimension_raises.

Theorem C24_great_circle_not_2d_raises :
  forall f32 mkw no_kw (scipy : string -> option (mkw -> list R -> list R -> R)) (source : list coords) target
         metrics args dim (s : coords),
  nth_error source dim = Some s -> ncols s <> 2%nat ->
  nth_error (metric_list (length source) metrics) dim = Some "great-circle" ->
  raises (distance_matrices f32 mkw no_kw scipy source target metrics args).
Proof. exact dms_great_circle. Qed.
Print Assumptions C24_great_circle_not_2d_raises.

(** ... everything else succeeds (one metric for all dimensions, known to
    SciPy or one of the two named) ... *)
Theorem C24_matching_coordinates_succeed :
  forall f32 mkw no_kw (scipy : string -> option (mkw -> list R -> list R -> R)) (source target : list coords)
         metric args,
  length source = length target ->
  (match args with Some a => (length source <= length a)%nat | None => True end) ->
  (forall dim (s t : coords), nth_error source dim = Some s -> nth_error target dim = Some t -> ncols s = ncols t) ->
  (metric = "euclidean" \/ scipy metric <> None /\ metric <> "great-circle" \/
   metric = "great-circle" /\ forall s, In s source -> ncols s = 2%nat) ->
  exists Ds, distance_matrices f32 mkw no_kw scipy source (Some target) (Scalar metric) args = Ok Ds.
Proof. exact dms_ok. Qed.
Print Assumptions C24_matching_coordinates_succeed.

(** ... and every successful result has one sources x targets matrix per dimension. *)
Theorem C24_shapes :
  forall f32 mkw no_kw (scipy : string -> option (mkw -> list R -> list R -> R)) (source target : list coords)
         metrics args Ds,
  distance_matrices f32 mkw no_kw scipy source (Some target) metrics args = Ok Ds ->
  length Ds = length source /\ length target = length source /\
  forall dim (s t : coords), nth_error source dim = Some s -> nth_error target dim = Some t ->
    exists M, nth_error Ds dim = Some (A2 M) /\ rect M (length s) (length t).
Proof. exact dms_shape. Qed.
Print Assumptions C24_shapes.

Example C24_example_two_dimensions :
  exists Ds, distance_matrices (fun x => x) unit tt (fun _ => None) [ex_pts; [[0]; [1]]]
     (Some [[[1; 1]]; [[2]]]) (Scalar "euclidean") None = Ok Ds.
Proof. exact ex_two_dims. Qed.
Example C24_example_mismatch :
  raises (distance_matrices (fun x => x) unit tt (fun _ => None) [ex_pts] (Some [[[1]]]) (Scalar "euclidean") None).
Proof. exact ex_mismatch. Qed.

(** C25: the first call on a path returns and stores the distances of its
    coordinates; every later non-overwriting call on that path, whatever its
    coordinates, metric and cache_sort, returns the same stored matrix alone. *)
Theorem C25_stale_distances :
  forall mkw dask_metric sort_row fs (first : dask_call mkw) later path t f,
  fs (zarr_path path) = None ->
  cacheable mkw first path -> dc_target first = Some t -> dask_metric (dc_metric first) = Some f ->
  Forall (fun c => cacheable mkw c path) later ->
  exists fs' r, perform_all mkw dask_metric sort_row fs (first :: later) =
      (fs', Ok r :: repeat (Ok (DaskMatrix (cdist f (dc_source first) t))) (length later)) /\
    result_matrix r = cdist f (dc_source first) t.
Proof. exact stale_history. Qed.
Print Assumptions C25_stale_distances.

(** Whatever wrote the file. *)
Theorem C25_existing_file_is_returned :
  forall mkw dask_metric sort_row calls fs path m,
  Forall (fun c => cacheable mkw c path) calls -> fs (zarr_path path) = Some m ->
  perform_all mkw dask_metric sort_row fs calls = (fs, repeat (Ok (DaskMatrix m)) (length calls)).
Proof. exact perform_all_cached. Qed.
Print Assumptions C25_existing_file_is_returned.

(** With overwrite the returned matrix is always the distance matrix of the
    given coordinates, and it is what the file then holds. *)
Theorem C25_overwrite_is_fresh :
  forall mkw dask_metric sort_row fs (c : dask_call mkw) path t f,
  kw_filepath (dc_kw c) = Some path -> dc_target c = Some t -> ncols (dc_source c) = ncols t ->
  dask_metric (dc_metric c) = Some f -> kw_overwrite (dc_kw c) = true ->
  exists fs' r, perform mkw dask_metric sort_row fs c = (fs', Ok r) /\
    result_matrix r = cdist f (dc_source c) t /\ fs' (zarr_path path) = Some (cdist f (dc_source c) t).
Proof. exact overwrite_fresh. Qed.
Print Assumptions C25_overwrite_is_fresh.

(** The second of two calls with different points gets the first one's matrix,
    which is not its own. *)
Example C25_example :
  snd (perform_all unit ex_dmet (fun r => r) (fun _ => None) [ex_call 1; ex_call 2]) =
    [Ok (DaskMatrix [[1]]); Ok (DaskMatrix [[1]])] /\
  cdist euclid (dc_source (ex_call 2)) [[0]] = [[2]].
Proof. exact ex_stale. Qed.
