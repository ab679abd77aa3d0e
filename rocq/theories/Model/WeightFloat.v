(** Model of /repo/georegression/weight_matrix.py:69-243 with rounding: the
    functions of Model/WeightMatrix.v with every arithmetic operation followed by
    a rounding of its result.  Two-dimensional NumPy arrays and no
    [distance_ratio] (which always raises). *)
From Verif.Model Require Import Base Ext Sort Kernel Distance WeightMatrix KernelFloat.
Open Scope string_scope.
Open Scope nat_scope.
Open Scope R_scope.

Section WeightFloat.
  (** Rounding, [np.exp] and [x ** 3], as in Model/KernelFloat.v. *)
  Variable fl fexp fcube : R -> ext.
  (** [np.sum] of one row: adds in an order of its own. *)
  Variable rowsum : list ext -> ext.
  (** [np.quantile(row, q, method='median_unbiased')] as computed. *)
  Variable quantile : R -> list R -> R.

  (** kernel.py:128-139 [adaptive_bandwidth], NumPy branch, as [adaptive_bandwidth];
      [np.partition] (integer count) does no arithmetic. *)
  Definition adaptive_bandwidth_fl (distance : matrix R) (neighbour_count : count_arg) : result (list R) :=
    bs <- adaptive_bandwidth distance neighbour_count ;;
    match neighbour_count with
    | CFloat q => Ok (map (quantile q) distance)
    | _ => Ok bs
    end.

  (** kernel.py:142-161 [adaptive_kernel], NumPy branch. *)
  Definition adaptive_kernel_fl (distance : matrix R) (neighbour_count : count_arg) (kernel_type : string)
    : result (matrix ext) :=
    bandwidth <- adaptive_bandwidth_fl distance neighbour_count ;;
    kernel_function_fl fl fexp fcube distance (BColumn bandwidth) kernel_type.

  (** weight_matrix.py:220-243 [weight_by_distance].  The bandwidth is the number
      after its conversion to the type of the array. *)
  Definition weight_by_distance_fl (distance : matrix R) (kernel_type : option string)
             (bandwidth : option R) (neighbour_count : option count_arg) : result (matrix ext) :=
    match bandwidth, neighbour_count with
    | Some b, None => kernel_function_fl fl fexp fcube distance (BScalar b) (kernel_name kernel_type)
    | None, Some c => adaptive_kernel_fl distance c (kernel_name kernel_type)
    | _, _ =>
      Raise (PyException "Choose bandwidth for fixed kernel or neighbour count for adaptive kernel")
    end.

  (** weight_matrix.py:187-191: [np.prod(np.stack(weights), axis=0)]. *)
  Definition prod_fl (ws : list (matrix ext)) : matrix ext :=
    match ws with
    | [] => []
    | w :: rest => fold_left (map2 (map2 (fmul fl))) rest w
    end.

  (** weight_matrix.py:69-217 [weight_matrix_from_distance], as the function of that
      name in Model/WeightMatrix.v. *)
  Definition weight_matrix_from_distance_fl (Ds : list (matrix R)) (kernel_type : dim_arg string)
             (bandwidth : dim_arg R) (neighbour_count : dim_arg count_arg) : result (matrix ext) :=
    if negb (one_shape (map A2 Ds)) then Raise (PyException "Size of distance matrices are not the same")
    else if is_none bandwidth && is_none neighbour_count
    then Raise (PyException "At least one of bandwidth or neighbour count should be provided")
    else
      let dimension := List.length Ds in
      let kernel_type := broadcast_arg dimension kernel_type in
      let bandwidth := broadcast_arg dimension bandwidth in
      let neighbour_count := broadcast_arg dimension neighbour_count in
      weights <- mapM (fun dim =>
        d <- getitem Ds dim ;;
        k <- getitem kernel_type dim ;;
        b <- getitem bandwidth dim ;;
        c <- getitem neighbour_count dim ;;
        weight_by_distance_fl d k b c) (seq 0 dimension) ;;
      Ok (map (fun row => normalise_row_fl fl row (rowsum row)) (prod_fl weights)).
End WeightFloat.
