(** Model of /repo/georegression/kernel.py:20-84 with rounding: the operations of
    Model/Kernel.v, each followed by a rounding of its result. *)
From Verif.Model Require Import Base Ext Kernel.
Open Scope string_scope.
Open Scope nat_scope.
Open Scope R_scope.

Section Rounded.
  (** Rounding of an exact result to the array's number format; may overflow. *)
  Variable fl : R -> ext.
  (** [np.exp] and [x ** 3] on finite numbers; neither need be correctly rounded. *)
  Variable fexp fcube : R -> ext.

  Definition rounded (x : ext) : ext := match x with Fin r => fl r | _ => x end.
  Definition fdiv (x y : ext) : ext := rounded (ediv x y).
  Definition fsub (x y : ext) : ext := rounded (esub x y).
  Definition fmul (x y : ext) : ext := rounded (emul x y).
  (** [x ** 2] is [x * x] in NumPy. *)
  Definition fsquare (x : ext) : ext := fmul x x.
  Definition fexp_ext (x : ext) : ext := match x with Fin r => fexp r | _ => eexp x end.
  Definition fcube_ext (x : ext) : ext := match x with Fin r => fcube r | _ => ecube x end.

  (** kernel.py:50-78, as [kernel_expr]. *)
  Definition kernel_expr_fl (kernel_type : string) : option (ext -> ext) :=
    if String.eqb kernel_type "uniform" then Some (fun _ => Fin 1)
    else if String.eqb kernel_type "gaussian" then
      Some (fun u => fexp_ext (fmul (Fin (-0.5)) (fsquare u)))
    else if String.eqb kernel_type "exponential" then
      Some (fun u => fexp_ext (fmul (Fin (-0.5)) (eabs u)))
    else if String.eqb kernel_type "linear" then
      Some (fun u => fsub (Fin 1) u)
    else if String.eqb kernel_type "boxcar" then Some (fun _ => Fin 1)
    else if String.eqb kernel_type "bisquare" then
      Some (fun u => fsquare (fsub (Fin 1) (fsquare u)))
    else if String.eqb kernel_type "tricube" then
      Some (fun u => fcube_ext (fsub (Fin 1) (fcube_ext (eabs u))))
    else None.

  (** kernel.py:42-82 on one entry, as [kernel_entry]. *)
  Definition kernel_entry_fl (kernel_type : string) (f : ext -> ext) (distance bandwidth : R) : ext :=
    let normalize_distance := nan_to_num (fdiv (Fin distance) (Fin bandwidth)) in
    let weight := f normalize_distance in
    if compact_kernel kernel_type && Rltb bandwidth distance then Fin 0 else weight.

  (** kernel.py:20-84 [kernel_function] on NumPy arrays, as [kernel_function]. *)
  Definition kernel_function_fl (distance : matrix R) (bandwidth : bandwidth_arg) (kernel_type : string)
    : result (matrix ext) :=
    bs <- bandwidth_rows (nrows distance) bandwidth ;;
    match kernel_expr_fl kernel_type with
    | None => Raise (PyException "Unsupported kernel")
    | Some f => Ok (map2 (fun row b => map (fun d => kernel_entry_fl kernel_type f d b) row) distance bs)
    end.

  (** kernel.py:65-72: the dask bisquare branch on one entry. *)
  Definition kernel_entry_dask_bisquare_fl (distance bandwidth : R) : ext :=
    let u := nan_to_num (fdiv (Fin distance) (Fin bandwidth)) in
    let u' := if egtb u (Fin 1) then Fin 1 else u in
    fsquare (fsub (Fin 1) (fsquare u')).

  (** kernel.py:20-84 [kernel_function] on dask arrays, as [kernel_function_dask]. *)
  Definition kernel_function_dask_fl (distance : matrix R) (bandwidth : bandwidth_arg) (kernel_type : string)
    : result (matrix ext) :=
    bs <- bandwidth_rows (nrows distance) bandwidth ;;
    match kernel_expr_fl kernel_type with
    | None => Raise (PyException "Unsupported kernel")
    | Some f =>
      Ok (map2 (fun row b =>
            map (fun d => if String.eqb kernel_type "bisquare"
                          then kernel_entry_dask_bisquare_fl d b
                          else kernel_entry_fl kernel_type f d b) row) distance bs)
    end.

  (** weight_matrix.py:187-200 on one row: product over the dimensions (in order,
      starting from 1), then division by the row sum [s] with zero replaced by 1.
      [s] is whatever [np.sum] returned for the products. *)
  Definition product_fl (ws : list ext) : ext := fold_left fmul ws (Fin 1).
  Definition normalise_row_fl (row : list ext) (s : ext) : list ext :=
    let s := if eis_zero s then Fin 1 else s in
    map (fun w => fdiv w s) row.
End Rounded.
