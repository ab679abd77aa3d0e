(** Model of /repo/georegression/kernel.py. *)
From Verif.Model Require Import Base Ext Sort.
Open Scope string_scope.
Open Scope nat_scope.
Open Scope R_scope.

(** kernel.py:10-18 [KERNEL_TYPE_ENUM]. *)
Definition kernel_type_enum : list string :=
  ["linear"; "uniform"; "gaussian"; "exponential"; "boxcar"; "bisquare"; "tricube"].

(** kernel.py:50-78: the expression computing [weight] from [normalize_distance],
    for the NumPy branch; [None] is the final [else: raise].  A kernel name that
    is not a string (e.g. None) falls into the same [else] as an unknown string. *)
Definition kernel_expr (kernel_type : string) : option (ext -> ext) :=
  if String.eqb kernel_type "uniform" then Some (fun _ => Fin 1)
  else if String.eqb kernel_type "gaussian" then
    Some (fun u => eexp (emul (Fin (-0.5)) (esquare u)))
  else if String.eqb kernel_type "exponential" then
    Some (fun u => eexp (emul (Fin (-0.5)) (eabs u)))
  else if String.eqb kernel_type "linear" then
    Some (fun u => esub (Fin 1) u)
  else if String.eqb kernel_type "boxcar" then Some (fun _ => Fin 1)
  else if String.eqb kernel_type "bisquare" then
    Some (fun u => esquare (esub (Fin 1) (esquare u)))
  else if String.eqb kernel_type "tricube" then
    Some (fun u => ecube (esub (Fin 1) (ecube (eabs u))))
  else None.

(** kernel.py:81 [kernel_type in ["linear", "boxcar", "bisquare", "tricube"]]. *)
Definition compact_kernel (kernel_type : string) : bool :=
  existsb (String.eqb kernel_type) ["linear"; "boxcar"; "bisquare"; "tricube"].

(** One entry of [kernel_function]: kernel.py:42 (division), 43-48 (nan_to_num),
    50-76 (expression [f]), 80-82 (mask [distance > bandwidth]). *)
Definition kernel_entry (kernel_type : string) (f : ext -> ext) (distance bandwidth : R) : ext :=
  let normalize_distance := nan_to_num (ediv (Fin distance) (Fin bandwidth)) in
  let weight := f normalize_distance in
  if compact_kernel kernel_type && Rltb bandwidth distance then Fin 0 else weight.

(** Broadcasting of the [bandwidth] argument against a 2-D [distance]: a scalar
    or a column with one bandwidth per row. *)
Inductive bandwidth_arg : Type :=
| BScalar (b : R)
| BColumn (bs : list R).

Definition bandwidth_rows (n : nat) (b : bandwidth_arg) : result (list R) :=
  match b with
  | BScalar b => Ok (repeat b n)
  | BColumn bs => if List.length bs =? n then Ok bs else Raise ValueError
  end.

(** kernel.py:20-84 [kernel_function] on NumPy arrays. *)
Definition kernel_function (distance : matrix R) (bandwidth : bandwidth_arg) (kernel_type : string)
  : result (matrix ext) :=
  bs <- bandwidth_rows (nrows distance) bandwidth ;;
  match kernel_expr kernel_type with
  | None => Raise (PyException "Unsupported kernel")
  | Some f => Ok (map2 (fun row b => map (fun d => kernel_entry kernel_type f d b) row) distance bs)
  end.

(** kernel.py:65-72: the dask bisquare branch on one entry (clamp at 1, early
    return, no compact-support mask). *)
Definition kernel_entry_dask_bisquare (distance bandwidth : R) : ext :=
  let u := nan_to_num (ediv (Fin distance) (Fin bandwidth)) in
  let u' := if egtb u (Fin 1) then Fin 1 else u in
  esquare (esub (Fin 1) (esquare u')).

(** kernel.py:20-84 [kernel_function] on dask arrays: as NumPy except bisquare. *)
Definition kernel_function_dask (distance : matrix R) (bandwidth : bandwidth_arg) (kernel_type : string)
  : result (matrix ext) :=
  bs <- bandwidth_rows (nrows distance) bandwidth ;;
  match kernel_expr kernel_type with
  | None => Raise (PyException "Unsupported kernel")
  | Some f =>
    Ok (map2 (fun row b =>
          map (fun d => if String.eqb kernel_type "bisquare"
                        then kernel_entry_dask_bisquare d b
                        else kernel_entry kernel_type f d b) row) distance bs)
  end.

(** Python value given as neighbour count. *)
Inductive count_arg : Type :=
| CInt (z : Z)
| CFloat (q : R)
| COther.                       (* any other numeric type, e.g. np.int64 *)

(** kernel.py:128-139 [adaptive_bandwidth], NumPy branch.  [COther] stands for a
    positive number of another type: the final [raise] of line 137. *)
Definition adaptive_bandwidth (distance : matrix R) (neighbour_count : count_arg) : result (list R) :=
  match neighbour_count with
  | CInt z =>
    if (z <=? 0)%Z then Raise (PyException "Invalid neighbour count")
    else mapM (fun row => partition_at row (Z.to_nat (z - 1))) distance
  | CFloat q =>
    if Rleb q 0 then Raise (PyException "Invalid neighbour count")
    else mapM (fun row => quantile_median_unbiased row q) distance
  | COther => Raise (PyException "Invalid neighbour count")
  end.

(** Python index [l[:, [i]]] with a possibly negative [i]. *)
Definition py_getitem {A} (l : list A) (i : Z) : result A :=
  let n := Z.of_nat (List.length l) in
  let j := (if i <? 0 then i + n else i)%Z in
  if (j <? 0)%Z then Raise IndexError else getitem l (Z.to_nat j).

(** kernel.py:100-126 [adaptive_bandwidth], dask branch.  [distance_sorted] is
    the optional matrix of sorted rows.  A negative/zero count is not rejected
    (Python indexing with count-1); [CFloat] uses ceil(N*q), N = number of rows. *)
Definition adaptive_bandwidth_dask (distance : matrix R) (neighbour_count : count_arg)
           (distance_sorted : option (matrix R)) : result (list R) :=
  let N := Z.of_nat (nrows distance) in
  match distance_sorted with
  | Some sorted =>
    k <- match neighbour_count with
         | CFloat q => Ok (Rceil (IZR N * q))
         | CInt z => Ok z
         | COther => Raise (PyException "Invalid neighbour count")
         end ;;
    if (N <? k)%Z then Raise (PyException "Invalid neighbour count")
    else mapM (fun row => py_getitem row (k - 1)) sorted
  | None =>
    match neighbour_count with
    | CFloat q => mapM (fun row => quantile_linear row q) distance
    | CInt z => mapM (fun row => quantile_linear row (IZR z)) distance
    | COther => Raise (PyException "Invalid neighbour count")
    end
  end.

(** kernel.py:142-161 [adaptive_kernel], NumPy branch. *)
Definition adaptive_kernel (distance : matrix R) (neighbour_count : count_arg) (kernel_type : string)
  : result (matrix ext) :=
  bandwidth <- adaptive_bandwidth distance neighbour_count ;;
  kernel_function distance (BColumn bandwidth) kernel_type.

(** kernel.py:142-161 [adaptive_kernel], dask branch. *)
Definition adaptive_kernel_dask (distance : matrix R) (neighbour_count : count_arg) (kernel_type : string)
           (distance_sorted : option (matrix R)) : result (matrix ext) :=
  bandwidth <- adaptive_bandwidth_dask distance neighbour_count distance_sorted ;;
  kernel_function_dask distance (BColumn bandwidth) kernel_type.
