(** Model of /repo/georegression/distance_utils.py. *)
From Verif.Model Require Import Base.
Open Scope string_scope.
Open Scope nat_scope.
Open Scope R_scope.

(** Result of the distance functions: [pdist] gives a condensed 1-D array,
    [cdist] and the great-circle loop a 2-D array. *)
Inductive ndarray (A : Type) : Type :=
| A1 (v : list A)
| A2 (m : matrix A).
Arguments A1 {A} v.
Arguments A2 {A} m.

(** A set of points: one row per point. *)
Definition coords := matrix R.

(** SciPy's euclidean metric. *)
Definition euclid (p q : list R) : R :=
  sqrt (Rsum (map2 (fun a b => (a - b) * (a - b)) p q)).

Definition radians (x : R) : R := x * PI / 180.

(** distance_utils.py:118-136 [great_circle_distance] for one pair of
    (longitude, latitude) points in degrees. *)
Definition great_circle (one many : R * R) : R :=
  let lon_diff := radians (fst many - fst one) in
  let lat_diff := radians (snd many - snd one) in
  let lat_one := radians (snd one) in
  let lat_many := radians (snd many) in
  let a := Rsqr (sin (lat_diff / 2)) + cos lat_many * cos lat_one * Rsqr (sin (lon_diff / 2)) in
  let c := 2 * asin (sqrt a) in
  let Rearth := 6371 in
  Rearth * c.

(** Row of a coordinate array read as (longitude, latitude). *)
Definition lonlat (p : list R) : R * R := (nth 0 p 0, nth 1 p 0).

(** Keyword arguments of [_distance_matrix]: the two read by the dask branch,
    and whatever is forwarded to the metric ([mkw]). *)
Record kwargs (mkw : Type) : Type := Kwargs {
  kw_filepath : option string;
  kw_overwrite : bool;
  kw_metric : mkw
}.
Arguments Kwargs {mkw}.
Arguments kw_filepath {mkw}.
Arguments kw_overwrite {mkw}.
Arguments kw_metric {mkw}.

(** A per-dimension argument given as a scalar or a list. *)
Inductive scalar_or_list (A : Type) : Type :=
| Scalar (a : A)
| PyList (l : list A).
Arguments Scalar {A} a.
Arguments PyList {A} l.

Section Distance.
  (** Cast to float32 ([.astype(np.float32)]); any function. *)
  Variable f32 : R -> R.
  (** Keyword arguments of a metric, with the empty dictionary. *)
  Variable mkw : Type.
  Variable no_kw : mkw.
  (** Metrics of SciPy other than euclidean; [None] = unknown metric. *)
  Variable scipy_metric : string -> option (mkw -> list R -> list R -> R).

  Definition metric_fn (metric : string) (kw : mkw) : option (list R -> list R -> R) :=
    if String.eqb metric "euclidean" then Some euclid
    else match scipy_metric metric with Some m => Some (m kw) | None => None end.

  Definition astype32 (m : coords) : coords := mmap f32 m.

  Definition cdist (m : list R -> list R -> R) (src tgt : coords) : matrix R :=
    map (fun p => map (fun q => m p q) tgt) src.

  (** Condensed distances in SciPy's order (i < j, row by row). *)
  Fixpoint pdist (m : list R -> list R -> R) (src : coords) : list R :=
    match src with
    | [] => []
    | p :: ps => map (fun q => m p q) ps ++ pdist m ps
    end.

  (** distance_utils.py:61-66 and 99-115: [_distance_matrix], NumPy branch.
      [.shape[1]] is the length of the first row (arrays without rows are not
      distinguished by width).  A great-circle request without targets fails in
      numba's type inference (TypeError). *)
  Definition distance_matrix (source : coords) (target : option coords) (metric : string)
             (kw : mkw) : result (ndarray R) :=
    (match target with
     | Some t => if ncols source =? ncols t then Ok tt
                 else Raise (PyException "Source and target coordinate dimension not match")
     | None => Ok tt
     end) ;;;
    let dimension := ncols source in
    if String.eqb metric "great-circle" then
      if negb (dimension =? 2) then
        Raise (PyException "Great-circle distance only applicable to 2D coordinates")
      else match target with
           | None => Raise TypeError
           | Some t =>
             Ok (A2 (mmap f32 (map (fun p => map (fun q => great_circle (lonlat p) (lonlat q)) t) source)))
           end
    else
      match metric_fn metric kw with
      | None => Raise ValueError
      | Some m =>
        match target with
        | None => Ok (A1 (map f32 (pdist m (astype32 source))))
        | Some t => Ok (A2 (mmap f32 (cdist m (astype32 source) (astype32 t))))
        end
      end.

  Definition metric_list (dimension : nat) (metrics : scalar_or_list string) : list string :=
    match metrics with Scalar m => repeat m dimension | PyList l => l end.

  (** distance_utils.py:12-58 [_distance_matrices], NumPy branch
      ([use_dask] false).  [args = None] means [[kwargs] * dimension]; the callers
      in /repo pass no keyword arguments, so [kwargs] is empty. *)
  Definition distance_matrices (source : list coords) (target : option (list coords))
             (metrics : scalar_or_list string) (args : option (list mkw))
    : result (list (ndarray R)) :=
    let dimension := List.length source in
    target_list <- match target with
                   | Some t =>
                     if dimension =? List.length t then Ok (map Some t)
                     else Raise (PyException "Source and target coordinate length not match")
                   | None => Ok (repeat None dimension)
                   end ;;
    let metrics := metric_list dimension metrics in
    let args := match args with Some a => a | None => repeat no_kw dimension end in
    mapM (fun dim =>
      s <- getitem source dim ;;
      t <- getitem target_list dim ;;
      m <- getitem metrics dim ;;
      a <- getitem args dim ;;
      distance_matrix s t m a) (seq 0 dimension).

  (** ** The dask branch and its zarr cache *)

  (** The directory of zarr stores: path -> stored array. *)
  Definition filesystem := string -> option (matrix R).
  Definition fs_write (fs : filesystem) (path : string) (m : matrix R) : filesystem :=
    fun p => if String.eqb p path then Some m else fs p.

  (** Metrics of dask_distance; [None] = unknown. *)
  Variable dask_metric : string -> option (list R -> list R -> R).

  (** Row-wise sorting used for the sorted companion. *)
  Variable sort_row : list R -> list R.

  Fixpoint is_suffix_zarr (s : string) : bool :=
    if String.eqb s ".zarr" then true
    else match s with EmptyString => false | String _ s' => is_suffix_zarr s' end.

  (** distance_utils.py:75-76: append ".zarr" unless already there. *)
  Definition zarr_path (p : string) : string :=
    if is_suffix_zarr p then p else (p ++ ".zarr")%string.

  (** distance_utils.py:92 [filepath.replace(".zarr", "_sorted.zarr")]: every
      occurrence is replaced. *)
  Fixpoint replace_zarr_fuel (fuel : nat) (p : string) : string :=
    match fuel with
    | O => p
    | S fuel' =>
      if String.prefix ".zarr" p
      then ("_sorted.zarr" ++ replace_zarr_fuel fuel' (String.substring 5 (String.length p - 5) p))%string
      else match p with EmptyString => EmptyString | String c p' => String c (replace_zarr_fuel fuel' p') end
    end.
  Definition sorted_path (p : string) : string := replace_zarr_fuel (S (String.length p)) p.

  (** What the dask branch returns: the matrix, or the pair with the sorted one. *)
  Inductive dask_result : Type :=
  | DaskMatrix (m : matrix R)
  | DaskPair (m sorted : matrix R).

  (** distance_utils.py:61-97 [_distance_matrix], dask branch.  Lazy evaluation
      is not modelled: arrays are computed when returned.  Without targets the
      condensed result cannot be rechunked along axis 1: ValueError. *)
  Definition distance_matrix_dask (fs : filesystem) (source : coords) (target : option coords)
             (metric : string) (cache_sort : bool) (kw : kwargs mkw)
    : filesystem * result dask_result :=
    match (match target with
           | Some t => if ncols source =? ncols t then Ok tt
                       else Raise (PyException "Source and target coordinate dimension not match")
           | None => Ok tt
           end) with
    | Raise e => (fs, Raise e)
    | Ok _ =>
      let filepath := zarr_path (match kw_filepath kw with Some p => p | None => "distance_matrix.zarr" end) in
      let cached :=
        match kw_filepath kw with
        | Some _ => if negb (kw_overwrite kw) then fs filepath else None
        | None => None
        end in
      match cached with
      | Some m => (fs, Ok (DaskMatrix m))
      | None =>
        match target, dask_metric metric with
        | None, _ => (fs, Raise ValueError)
        | _, None => (fs, Raise ValueError)
        | Some t, Some f =>
          let d := cdist f source t in
          let fs1 := fs_write fs filepath d in
          if cache_sort then
            let s := map sort_row d in
            (fs_write fs1 (sorted_path filepath) s, Ok (DaskPair d s))
          else (fs1, Ok (DaskMatrix d))
        end
      end
    end.

End Distance.
