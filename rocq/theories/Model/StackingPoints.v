(** Weights of a StackingWeightModel computed from coordinates
    (stacking_model.py:266-270, 733-737 and 768-772). *)
From Verif.Model Require Import Base Ext Sort Kernel Distance WeightMatrix Csr Neighbour WeightModel NumbaImpl Stacking.
Open Scope string_scope.
Open Scope nat_scope.
Open Scope R_scope.

(** Weights other than finite numbers are not modelled in the stacking model: raise. *)
Definition finite_entries (m : matrix ext) : result (matrix R) :=
  mapM (mapM (fun v => match v with Fin x => Ok x | _ => Raise ValueError end)) m.

(** [csr_array(m)] of a real matrix. *)
Definition csr_of_real (m : matrix R) : csr R :=
  csr_of_rows (ncols m) (map (fun row => filter (fun e => Rnonzero (snd e)) (mapi (fun j v => (j, v)) row)) m).

Section Points.
  Variable f32 : R -> R.
  Variable mkw : Type.
  Variable no_kw : mkw.
  Variable scipy_metric : string -> option (mkw -> list R -> list R -> R).
  Variable dask_metric : string -> option (list R -> list R -> R).
  Variable sort_row : list R -> list R.
  Variable dargs : Type.
  Variable truthy : dargs -> bool.

  (** weight_matrix_from_points with the constructor's arguments; with dask the
      result is a CSR matrix (weight_matrix.py:21-40). *)
  Definition stacking_weights (a : wm_args) (distance_args : option dargs) (fs : filesystem)
             (source target : list coords) : filesystem * result swts :=
    let '(fs', r) := weight_matrix_from_points f32 mkw no_kw scipy_metric dask_metric sort_row dargs truthy
                       fs source (Some target) (a_measure a) (a_kernel a) (a_ratio a) (a_bandwidth a) (a_count a)
                       distance_args in
    (fs', w <- r ;; m <- finite_entries w ;;
          Ok (if (match distance_args with Some d => truthy d | None => false end)
              then SSparse (csr_of_real m) else SDense m)).
End Points.
