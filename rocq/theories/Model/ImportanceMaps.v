(** Model of the maps of local importances drawn by the scripts
    /repo/georegression/simulation/simulation_for_importance.py,
    /repo/georegression/simulation/simulation_data_fitting.py and
    /repo/Examples/local_importance.py. *)
From Verif.Model Require Import Base Ext.
Open Scope nat_scope.

(** [np.minimum] / [np.maximum] of two values: NaN if either is. *)
Definition emin2 (x y : ext) : ext :=
  match x, y with NaN, _ | _, NaN => NaN | _, _ => if egtb x y then y else x end.
Definition emax2 (x y : ext) : ext :=
  match x, y with NaN, _ | _, NaN => NaN | _, _ => if egtb y x then y else x end.

(** [a.min()], [a.max()] of the values of an array; no values: ValueError. *)
Definition amin (l : list ext) : result ext :=
  match l with [] => Raise ValueError | x :: l => Ok (fold_left emin2 l x) end.
Definition amax (l : list ext) : result ext :=
  match l with [] => Raise ValueError | x :: l => Ok (fold_left emax2 l x) end.

(** [m op v] for an array [m] with two axes and [v] with one, under NumPy's
    broadcasting: the last axes must agree, or one of them have length 1.  An array
    without rows is not modelled (it has no number of columns here). *)
Definition broadcast (op : ext -> ext -> ext) (m : matrix ext) (v : list ext) : result (matrix ext) :=
  if ncols m =? List.length v then Ok (map (fun row => map2 op row v) m)
  else if List.length v =? 1 then Ok (map (fun row => map (fun a => op a (hd NaN v)) row) m)
  else if ncols m =? 1 then Ok (map (fun row => map (op (hd NaN row)) v) m)
  else Raise ValueError.

(** simulation_for_importance.py:153-155: [min(axis=1)] and [max(axis=1)] have one value
    per row. *)
Definition normalise_rows (m : matrix ext) : result (matrix ext) :=
  lo <- mapM amin m ;;
  d <- broadcast esub m lo ;;
  hi <- mapM amax m ;;
  broadcast ediv d (map2 esub hi lo).

(** simulation_data_fitting.py:139-140. *)
Definition normalise_all (m : matrix ext) : result (matrix ext) :=
  lo <- amin (List.concat m) ;;
  hi <- amax (List.concat m) ;;
  Ok (map (map (fun a => ediv (esub a lo) (esub hi lo))) m).

(** [m[:, i]]. *)
Definition column_of (m : matrix ext) (i : nat) : result (list ext) := mapM (fun row => getitem row i) m.

(** One scatter plot per column: the points with their colour values
    (simulation_for_importance.py:158-165, Examples/local_importance.py:34-40).
    Matplotlib raises unless there is one value per point. *)
Definition scatter_map {point} (points : list point) (c : list ext) : result (list (point * ext)) :=
  if List.length points =? List.length c then Ok (combine points c) else Raise ValueError.
Definition maps {point} (points : list point) (m : matrix ext) : result (list (list (point * ext))) :=
  mapM (fun i => c <- column_of m i ;; scatter_map points c) (seq 0 (ncols m)).

(** The three scripts from the local importances on. *)
Definition importance_script {point} (points : list point) (m : matrix ext) : result (list (list (point * ext))) :=
  n <- normalise_rows m ;; maps points n.
Definition fitting_script_map {point} (points : list point) (m : matrix ext) : result (list (point * ext)) :=
  n <- normalise_all m ;; c <- column_of n 0 ;; scatter_map points c.
Definition example_script {point} (points : list point) (m : matrix ext) : result (list (list (point * ext))) :=
  maps points m.
