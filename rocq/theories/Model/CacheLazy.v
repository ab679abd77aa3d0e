(** Model of the dask branch of /repo/georegression/distance_utils.py with lazy
    evaluation: what is returned is a plan, whose row blocks are made later, each at
    its own moment. *)
From Verif.Model Require Import Base Distance Cache.
Open Scope string_scope.
Open Scope nat_scope.
Open Scope R_scope.

(** A dask array: computed from the coordinates, or the blocks of a zarr array
    whose metadata has been read. *)
Inductive lazy_matrix : Type :=
| LComputed (m : matrix R)
| LFile (path : string) (width : nat) (sizes : list nat).
Inductive lazy_result : Type :=
| LMatrix (m : lazy_matrix)
| LPair (m sorted : lazy_matrix).

(** Reading one block (zarr 2): a missing block reads as the fill value 0, also when
    the whole directory is gone; a stored block of another shape cannot be decoded. *)
Definition read_block (d : disk) (path : string) (width : nat) (sizes : list nat) (c : nat) : result (matrix R) :=
  let height := nth c sizes O in
  match d path with
  | Some (ZArr w chunks) =>
    match nth_error chunks c with
    | Some (h, Some b) => if (h =? height) && (w =? width) then Ok b else Raise ValueError
    | _ => Ok (repeat (repeat 0 width) height)
    end
  | _ => Ok (repeat (repeat 0 width) height)
  end.

(** [x.compute()]; [moment c] is the disk when block [c] is read. *)
Definition compute (moment : nat -> disk) (x : lazy_matrix) : result (matrix R) :=
  match x with
  | LComputed m => Ok m
  | LFile path width sizes =>
    blocks <- mapM (fun c => read_block (moment c) path width sizes c) (seq 0 (List.length sizes)) ;;
    Ok (concat blocks)
  end.

Section CacheLazy.
  Variable mkw : Type.
  Variable dask_metric : string -> option (list R -> list R -> R).
  Variable sort_row : list R -> list R.

  (** distance_utils.py:61-97 [_distance_matrix], dask branch, as [dask_run] of
      Model/Cache.v, returning the plan. *)
  Definition dask_open (d : disk) (source : coords) (target : option coords)
             (metric : string) (cache_sort : bool) (kw : kwargs mkw) (sizes order order' : list nat)
    : list step * result lazy_result :=
    match (match target with
           | Some t => if ncols source =? ncols t then Ok tt
                       else Raise (PyException "Source and target coordinate dimension not match")
           | None => Ok tt
           end) with
    | Raise e => ([], Raise e)
    | Ok _ =>
      let filepath := zarr_path (match kw_filepath kw with Some p => p | None => "distance_matrix.zarr" end) in
      let cached :=
        match kw_filepath kw with
        | Some _ => if negb (kw_overwrite kw) then d filepath else None
        | None => None
        end in
      match cached with
      | Some ZDir => ([], Raise ValueError)
      | Some (ZArr w chunks) => ([], Ok (LMatrix (LFile filepath w (map fst chunks))))
      | None =>
        match target, dask_metric metric with
        | None, _ => ([], Raise ValueError)
        | _, None => ([], Raise ValueError)
        | Some t, Some f =>
          let m := cdist f source t in
          let first := to_zarr_steps filepath m sizes order in
          if cache_sort then
            let s := map sort_row m in
            ((first ++ to_zarr_steps (sorted_path filepath) s sizes order')%list, Ok (LPair (LComputed m) (LComputed s)))
          else (first, Ok (LMatrix (LComputed m)))
        end
      end
    end.
End CacheLazy.

(** Evaluating what a call returned. *)
Definition compute_result (moment : nat -> disk) (r : lazy_result) : result dask_result :=
  match r with
  | LMatrix m => x <- compute moment m ;; Ok (DaskMatrix x)
  | LPair m s => x <- compute moment m ;; y <- compute moment s ;; Ok (DaskPair x y)
  end.
