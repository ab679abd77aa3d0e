(** Model of /repo/georegression/weight_matrix.py. *)
From Verif.Model Require Import Base Ext Sort Kernel Distance.
Open Scope string_scope.
Open Scope nat_scope.
Open Scope R_scope.

(** A parameter that is None, a scalar or a list (with possible None items). *)
Inductive dim_arg (A : Type) : Type :=
| DNone
| DScal (a : A)
| DList (l : list (option A)).
Arguments DNone {A}.
Arguments DScal {A} a.
Arguments DList {A} l.

Definition is_none {A} (a : dim_arg A) : bool :=
  match a with DNone => true | _ => false end.

(** weight_matrix.py:160-170: [if not isinstance(x, list): x = [x] * dimension]. *)
Definition broadcast_arg {A} (dimension : nat) (a : dim_arg A) : list (option A) :=
  match a with
  | DNone => repeat None dimension
  | DScal a => repeat (Some a) dimension
  | DList l => l
  end.

(** The distance_ratio parameter. *)
Inductive ratio_arg : Type :=
| RNone
| RScal (r : R)
| RList (l : list R).

(** [ndarray.shape]. *)
Definition shape {A} (a : ndarray A) : list nat :=
  match a with
  | A1 v => [List.length v]
  | A2 m => [nrows m; ncols m]
  end.

Definition shape_eqb (s t : list nat) : bool :=
  if list_eq_dec Nat.eq_dec s t then true else false.

(** [len(set(shapes)) == 1]. *)
Definition one_shape {A} (l : list (ndarray A)) : bool :=
  match l with
  | [] => false
  | a :: rest => forallb (fun b => shape_eqb (shape b) (shape a)) rest
  end.

(** [kernel_function] on a 1-D (condensed) array with a scalar bandwidth:
    kernel.py:20-84 element-wise. *)
Definition kernel_function_1d (v : list R) (b : R) (kernel_type : string) : result (list ext) :=
  match kernel_expr kernel_type with
  | None => Raise (PyException "Unsupported kernel")
  | Some f => Ok (map (fun d => kernel_entry kernel_type f d b) v)
  end.

(** [adaptive_bandwidth] on a 1-D array (kernel.py:128-139): always an error —
    AxisError from the quantile along axis 1, or an error from partition or the
    two-dimensional index. *)
Definition adaptive_bandwidth_1d (v : list R) (c : count_arg) : result (list R) :=
  match c with
  | CInt z => if (z <=? 0)%Z then Raise (PyException "Invalid neighbour count")
              else if (Z.of_nat (List.length v) <? z)%Z then Raise ValueError else Raise IndexError
  | CFloat q => if Rleb q 0 then Raise (PyException "Invalid neighbour count") else Raise AxisError
  | COther => Raise (PyException "Invalid neighbour count")
  end.

(** A kernel name; None behaves as an unsupported name (kernel.py:77). *)
Definition kernel_name (k : option string) : string :=
  match k with Some s => s | None => "" end.

(** weight_matrix.py:220-243 [weight_by_distance], NumPy arrays. *)
Definition weight_by_distance (distance : ndarray R) (kernel_type : option string)
           (bandwidth : option R) (neighbour_count : option count_arg) : result (ndarray ext) :=
  match bandwidth, neighbour_count with
  | Some b, None =>
    match distance with
    | A1 v => w <- kernel_function_1d v b (kernel_name kernel_type) ;; Ok (A1 w)
    | A2 m => w <- kernel_function m (BScalar b) (kernel_name kernel_type) ;; Ok (A2 w)
    end
  | None, Some c =>
    match distance with
    | A1 v => bs <- adaptive_bandwidth_1d v c ;; Ok (A1 [])
    | A2 m => w <- adaptive_kernel m c (kernel_name kernel_type) ;; Ok (A2 w)
    end
  | _, _ =>
    Raise (PyException "Choose bandwidth for fixed kernel or neighbour count for adaptive kernel")
  end.

Definition nd_map2 {A B C} (f : A -> B -> C) (a : ndarray A) (b : ndarray B) : ndarray C :=
  match a, b with
  | A1 v, A1 w => A1 (map2 f v w)
  | A2 m, A2 n => A2 (map2 (map2 f) m n)
  | _, _ => A1 []
  end.

(** [np.prod(np.stack(weights), axis=0)] — all arrays have the same shape. *)
Definition nd_prod (ws : list (ndarray ext)) : ndarray ext :=
  match ws with
  | [] => A1 []
  | w :: rest => fold_left (nd_map2 emul) rest w
  end.

(** [np.sum(temp, axis=0)] of scaled distance matrices. *)
Definition nd_sum (ds : list (ndarray R)) : ndarray R :=
  match ds with
  | [] => A1 []
  | d :: rest => fold_left (nd_map2 Rplus) rest d
  end.

Definition nd_scale (r : R) (a : ndarray R) : ndarray R :=
  match a with
  | A1 v => A1 (map (fun x => x * r) v)
  | A2 m => A2 (mmap (fun x => x * r) m)
  end.

(** weight_matrix.py:196-200 on one row: row sum, zero replaced by 1, division. *)
Definition normalise_row (row : list ext) : list ext :=
  let row_sum := esum row in
  let row_sum := if eis_zero row_sum then Fin 1 else row_sum in
  map (fun w => ediv w row_sum) row.

(** weight_matrix.py:196: [np.sum(weight_matrix, axis=1)] needs a 2-D array. *)
Definition normalise (w : ndarray ext) : result (matrix ext) :=
  match w with
  | A1 _ => Raise AxisError
  | A2 m => Ok (map normalise_row m)
  end.

(** weight_matrix.py:128-155: merging of the distance matrices.  The loop
    assigns [distance_matrices_temp[dim] = ...] into a list that starts empty. *)
Definition merge_distances (Ds : list (ndarray R)) (ratio : ratio_arg)
  : result (list (ndarray R)) :=
  let dimension := List.length Ds in
  match ratio with
  | RNone => Ok Ds
  | _ =>
    ratio_list <-
      match ratio with
      | RList l => if negb (List.length l =? dimension)
                   then Raise (PyException "Length of distance ratio list must match the dimension of the vector list")
                   else Ok l
      | RScal r => if negb (dimension =? 2)
                   then Raise (PyException "Distance ratio list must be provided for dimension larger than 2")
                   else Ok [1; r]
      | RNone => Ok []
      end ;;
    temp <- fold_left (fun acc dim =>
              temp <- acc ;;
              d <- getitem Ds dim ;;
              r <- getitem ratio_list dim ;;
              setitem temp dim (nd_scale r d)) (seq 0 dimension) (Ok []) ;;
    Ok [nd_sum temp]
  end.

(** weight_matrix.py:69-217 [weight_matrix_from_distance], NumPy arrays. *)
Definition weight_matrix_from_distance (Ds : list (ndarray R)) (kernel_type : dim_arg string)
           (ratio : ratio_arg) (bandwidth : dim_arg R) (neighbour_count : dim_arg count_arg)
  : result (matrix ext) :=
  if negb (one_shape Ds) then Raise (PyException "Size of distance matrices are not the same")
  else if is_none bandwidth && is_none neighbour_count
  then Raise (PyException "At least one of bandwidth or neighbour count should be provided")
  else
    Ds <- merge_distances Ds ratio ;;
    let dimension := List.length Ds in
    let kernel_type := broadcast_arg dimension kernel_type in
    let bandwidth := broadcast_arg dimension bandwidth in
    let neighbour_count := broadcast_arg dimension neighbour_count in
    weights <- mapM (fun dim =>
      d <- getitem Ds dim ;;
      k <- getitem kernel_type dim ;;
      b <- getitem bandwidth dim ;;
      c <- getitem neighbour_count dim ;;
      weight_by_distance d k b c) (seq 0 dimension) ;;
    normalise (nd_prod weights).

(** ** dask variant *)

(** weight_matrix.py:220-243 [weight_by_distance] on dask arrays. *)
Definition weight_by_distance_dask (distance : matrix R) (kernel_type : option string)
           (bandwidth : option R) (neighbour_count : option count_arg)
           (sorted : option (matrix R)) : result (matrix ext) :=
  match bandwidth, neighbour_count with
  | Some b, None => kernel_function_dask distance (BScalar b) (kernel_name kernel_type)
  | None, Some c => adaptive_kernel_dask distance c (kernel_name kernel_type) sorted
  | _, _ =>
    Raise (PyException "Choose bandwidth for fixed kernel or neighbour count for adaptive kernel")
  end.

(** weight_matrix.py:69-217 on dask arrays; [sorted] is [distance_matrices_sorted]
    after line 169-170.  The final conversion to CSR (202-204) is represented by
    the dense matrix. *)
Definition weight_matrix_from_distance_dask (Ds : list (matrix R)) (kernel_type : dim_arg string)
           (ratio : ratio_arg) (bandwidth : dim_arg R) (neighbour_count : dim_arg count_arg)
           (sorted : dim_arg (matrix R)) : result (matrix ext) :=
  if negb (one_shape (map A2 Ds)) then Raise (PyException "Size of distance matrices are not the same")
  else if is_none bandwidth && is_none neighbour_count
  then Raise (PyException "At least one of bandwidth or neighbour count should be provided")
  else
    Ds <- (ds <- merge_distances (map A2 Ds) ratio ;;
           mapM (fun d => match d with A2 m => Ok m | A1 _ => Raise AxisError end) ds) ;;
    let dimension := List.length Ds in
    let kernel_type := broadcast_arg dimension kernel_type in
    let bandwidth := broadcast_arg dimension bandwidth in
    let neighbour_count := broadcast_arg dimension neighbour_count in
    let sorted := broadcast_arg dimension sorted in
    weights <- mapM (fun dim =>
      d <- getitem Ds dim ;;
      k <- getitem kernel_type dim ;;
      b <- getitem bandwidth dim ;;
      c <- getitem neighbour_count dim ;;
      s <- getitem sorted dim ;;
      weight_by_distance_dask d k b c s) (seq 0 dimension) ;;
    normalise (nd_prod (map A2 weights)).

Section FromPoints.
  Variable f32 : R -> R.
  Variable mkw : Type.
  Variable no_kw : mkw.
  Variable scipy_metric : string -> option (mkw -> list R -> list R -> R).
  Variable dask_metric : string -> option (list R -> list R -> R).
  Variable sort_row : list R -> list R.
  (** The user's [distance_args] and Python truthiness on them. *)
  Variable dargs : Type.
  Variable truthy : dargs -> bool.

  (** distance_utils.py:12-58 with [use_dask] truthy and no keyword arguments
      ([args] None, [cache_sort] False): the call made below when
      [distance_args] is truthy. *)
  Definition distance_matrices_dask (fs : filesystem) (source : list coords)
             (target : option (list coords)) (metrics : scalar_or_list string)
    : filesystem * result (list (matrix R)) :=
    let dimension := List.length source in
    match (match target with
           | Some t =>
             if dimension =? List.length t then Ok (map Some t)
             else Raise (PyException "Source and target coordinate length not match")
           | None => Ok (repeat None dimension)
           end) with
    | Raise e => (fs, Raise e)
    | Ok target_list =>
      let metrics := metric_list dimension metrics in
      fold_left (fun acc dim =>
        match acc with
        | (fs, Raise e) => (fs, Raise e)
        | (fs, Ok out) =>
          match (s <- getitem source dim ;; t <- getitem target_list dim ;;
                 m <- getitem metrics dim ;; Ok (s, t, m)) with
          | Raise e => (fs, Raise e)
          | Ok (s, t, m) =>
            match distance_matrix_dask mkw dask_metric sort_row fs s t m false
                    (Kwargs None false no_kw) with
            | (fs', Raise e) => (fs', Raise e)
            | (fs', Ok (DaskMatrix d)) => (fs', Ok (out ++ [d])%list)
            | (fs', Ok (DaskPair d _)) => (fs', Ok (out ++ [d])%list)
            end
          end
        end) (seq 0 dimension) (fs, Ok [])
    end.

  (** weight_matrix.py:14-66 [weight_matrix_from_points].  [distance_args] is
      passed as the 4th positional parameter of [_distance_matrices], which is
      [use_dask] (distance_utils.py:13-14). *)
  Definition weight_matrix_from_points (fs : filesystem) (source : list coords)
             (target : option (list coords))
             (distance_measure : scalar_or_list string) (kernel_type : dim_arg string)
             (ratio : ratio_arg) (bandwidth : dim_arg R) (neighbour_count : dim_arg count_arg)
             (distance_args : option dargs) : filesystem * result (matrix ext) :=
    let use_dask := match distance_args with Some a => truthy a | None => false end in
    if use_dask then
      match distance_matrices_dask fs source target distance_measure with
      | (fs', Raise e) => (fs', Raise e)
      | (fs', Ok Ds) =>
        (fs', weight_matrix_from_distance_dask Ds kernel_type ratio bandwidth neighbour_count DNone)
      end
    else
      (fs, Ds <- distance_matrices f32 mkw no_kw scipy_metric source target distance_measure None ;;
           weight_matrix_from_distance Ds kernel_type ratio bandwidth neighbour_count).
End FromPoints.
