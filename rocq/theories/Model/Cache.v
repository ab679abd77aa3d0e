(** Model of the dask branch of /repo/georegression/distance_utils.py at the
    level of single writes to the zarr stores, and of a call with several
    dimensions and keyword arguments. *)
From Verif.Model Require Import Base Distance.
Open Scope string_scope.
Open Scope nat_scope.
Open Scope R_scope.

(** What can be found at a path: the directory of a store without metadata
    yet, or an array of [width] columns cut along the rows into chunks of the
    given heights, each written or still missing. *)
Inductive zentry : Type :=
| ZDir
| ZArr (width : nat) (chunks : list (nat * option (matrix R))).
Definition disk := string -> option zentry.

(** Single effects of [to_zarr(path, overwrite=True)] (zarr 2, DirectoryStore):
    the old store is removed, the directory made, the metadata written, then
    the chunks one by one. *)
Inductive step : Type :=
| SDelete (p : string)
| SMkdir (p : string)
| SMeta (p : string) (width : nat) (sizes : list nat)
| SWrite (p : string) (c : nat) (block : matrix R).

Definition disk_set (d : disk) (p : string) (e : option zentry) : disk :=
  fun q => if String.eqb q p then e else d q.

Fixpoint write_chunk (c : nat) (b : matrix R) (l : list (nat * option (matrix R))) : list (nat * option (matrix R)) :=
  match l, c with
  | [], _ => []
  | (h, _) :: l, O => (h, Some b) :: l
  | x :: l, S c => x :: write_chunk c b l
  end.

Definition apply_step (d : disk) (s : step) : disk :=
  match s with
  | SDelete p => disk_set d p None
  | SMkdir p => disk_set d p (Some ZDir)
  | SMeta p w sizes => disk_set d p (Some (ZArr w (map (fun h => (h, None)) sizes)))
  | SWrite p c b =>
    match d p with
    | Some (ZArr w chunks) => disk_set d p (Some (ZArr w (write_chunk c b chunks)))
    | _ => d
    end
  end.
Definition apply_steps (d : disk) (l : list step) : disk := fold_left apply_step l d.

(** Rows cut into consecutive blocks of the given heights. *)
Fixpoint split_rows (sizes : list nat) (m : matrix R) : list (matrix R) :=
  match sizes with
  | [] => []
  | h :: hs => firstn h m :: split_rows hs (skipn h m)
  end.

(** distance_utils.py:88, 92 [to_zarr(..., overwrite=True)]; [order] is the
    order in which dask happens to store the chunks. *)
Definition to_zarr_steps (p : string) (m : matrix R) (sizes order : list nat) : list step :=
  (SDelete p :: SMkdir p :: SMeta p (ncols m) sizes ::
   map (fun c => SWrite p c (nth c (split_rows sizes m) [])) order)%list.

(** distance_utils.py:80 [da.from_zarr]: chunks never written read as zarr's
    fill value 0; a directory without metadata is no array. *)
Definition chunk_rows (w : nat) (c : nat * option (matrix R)) : matrix R :=
  match snd c with Some b => b | None => repeat (repeat 0 w) (fst c) end.
Definition from_zarr (e : zentry) : result (matrix R) :=
  match e with
  | ZDir => Raise ValueError
  | ZArr w chunks => Ok (concat (map (chunk_rows w) chunks))
  end.

Section Cache.
  Variable mkw : Type.
  Variable dask_metric : string -> option (list R -> list R -> R).
  Variable sort_row : list R -> list R.

  (** distance_utils.py:61-97 [_distance_matrix], dask branch, as the list of
      its effects on the disk and its result.  [sizes]: heights of the row blocks
      chosen by [rechunk({0: "auto", 1: -1})]; [order], [order']: storing order
      of the two arrays. *)
  Definition dask_run (d : disk) (source : coords) (target : option coords)
             (metric : string) (cache_sort : bool) (kw : kwargs mkw) (sizes order order' : list nat)
    : list step * result dask_result :=
    match (match target with
           | Some t => if ncols source =? ncols t then Ok tt
                       else Raise (PyException "Source and target coordinate dimension not match")
           | None => Ok tt
           end) with
    | Raise e => ([], Raise e)
    | Ok _ =>
      let filepath := zarr_path (match kw_filepath kw with Some p => p | None => "distance_matrix.zarr" end) in
      let cached :=
        match kw_filepath kw with
        | Some _ => if negb (kw_overwrite kw) then d filepath else None
        | None => None
        end in
      match cached with
      | Some e => ([], m <- from_zarr e ;; Ok (DaskMatrix m))
      | None =>
        match target, dask_metric metric with
        | None, _ => ([], Raise ValueError)
        | _, None => ([], Raise ValueError)
        | Some t, Some f =>
          let m := cdist f source t in
          let first := to_zarr_steps filepath m sizes order in
          if cache_sort then
            let s := map sort_row m in
            ((first ++ to_zarr_steps (sorted_path filepath) s sizes order')%list, Ok (DaskPair m s))
          else (first, Ok (DaskMatrix m))
        end
      end
    end.

  (** The disk when the process dies after [k] effects. *)
  Definition crash_disk (k : nat) (d : disk) (steps : list step) : disk := apply_steps d (firstn k steps).

  (** distance_utils.py:12-58 [_distance_matrices] with [use_dask] and keyword
      arguments: [args] one dictionary per dimension, or [None] and the same
      [kwargs] for every dimension (line 44). *)
  Definition distance_matrices_dask_kw (fs : filesystem) (source : list coords)
             (target : option (list coords)) (metrics : scalar_or_list string) (cache_sort : bool)
             (args : option (list (kwargs mkw))) (kwargs0 : kwargs mkw)
    : filesystem * result (list dask_result) :=
    let dimension := List.length source in
    match (match target with
           | Some t =>
             if dimension =? List.length t then Ok (map Some t)
             else Raise (PyException "Source and target coordinate length not match")
           | None => Ok (repeat None dimension)
           end) with
    | Raise e => (fs, Raise e)
    | Ok target_list =>
      let metrics := metric_list dimension metrics in
      let args := match args with Some a => a | None => repeat kwargs0 dimension end in
      fold_left (fun acc dim =>
        match acc with
        | (fs, Raise e) => (fs, Raise e)
        | (fs, Ok out) =>
          match (s <- getitem source dim ;; t <- getitem target_list dim ;;
                 m <- getitem metrics dim ;; a <- getitem args dim ;; Ok (s, t, m, a)) with
          | Raise e => (fs, Raise e)
          | Ok (s, t, m, a) =>
            match distance_matrix_dask mkw dask_metric sort_row fs s t m cache_sort a with
            | (fs', Raise e) => (fs', Raise e)
            | (fs', Ok r) => (fs', Ok (out ++ [r])%list)
            end
          end
        end) (seq 0 dimension) (fs, Ok [])
    end.
End Cache.
