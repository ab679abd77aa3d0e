(** Model of StackingWeightModel.predict_by_fit, /repo/georegression/stacking_model.py:695-1107.
    Weights are finite reals; the batch of new points is non-empty (a 0-row array
    keeps its number of columns in NumPy, a list of rows does not). *)
From Verif.Model Require Import Base Ext Csr Neighbour Distance WeightModel NumbaImpl Stacking.
Open Scope string_scope.
Open Scope nat_scope.
Open Scope R_scope.

Section StackingPredict.
  Variable est : Type.
  Variable fit_est : nat -> matrix R -> list R -> list R -> result est.
  Variable predict_est : est -> matrix R -> result (list R).
  Variable meta : Type.
  Variable fit_meta : R -> nat -> matrix R -> list R -> list R -> result meta.
  Variable predict_meta : meta -> matrix R -> result (list R).
  Variable cpu_count : nat.
  Variable wm : filesystem -> list coords -> list coords -> filesystem * result swts.

  (** stacking_model.py:823. *)
  Definition ss_set_y_sample (s : sstate est meta) (ys : list R) : sstate est meta :=
    SState est meta (ss_is_fitted est meta s) (ss_n_features est meta s) (ss_n est meta s) (ss_X est meta s) (ss_y est meta s)
      (ss_cache_estimator est meta s) (ss_weight_matrix est meta s) (ss_neighbour_matrix est meta s) (ss_local_indices est meta s)
      (Some ys) (ss_local_predict est meta s) (ss_llocv_score est meta s) (ss_local_residual est meta s) (ss_base_list est meta s)
      (ss_local_list est meta s) (ss_stacking_predict est meta s) (ss_llocv_stacking est meta s) (ss_stacking_scores est meta s).

  (** stacking_model.py:883. *)
  Definition ss_set_local (s : sstate est meta) (l : list (stacking_estimator est meta)) : sstate est meta :=
    SState est meta (ss_is_fitted est meta s) (ss_n_features est meta s) (ss_n est meta s) (ss_X est meta s) (ss_y est meta s)
      (ss_cache_estimator est meta s) (ss_weight_matrix est meta s) (ss_neighbour_matrix est meta s) (ss_local_indices est meta s)
      (ss_y_sample est meta s) (ss_local_predict est meta s) (ss_llocv_score est meta s) (ss_local_residual est meta s) (ss_base_list est meta s)
      (Some (LStacking est meta l)) (ss_stacking_predict est meta s) (ss_llocv_stacking est meta s) (ss_stacking_scores est meta s).

  (** stacking_model.py:747-755: the weights of the base learners. *)
  Definition predict_base_weights (c : sconfig) (w : swts) : swts :=
    if sc_leave_local_out c then clear_diag w else w.

  (** stacking_model.py:776-795: second-order neighbours through the new points.
      The transpose of a CSR matrix is not a [csr_array], so the sparse case raises. *)
  Definition predict_second (order : list nat) (buffer : matrix bool) (tw : swts) : result second_matrix :=
    match tw with
    | SDense m =>
      let nb := mmap positive m in
      Ok (S2Dense (second_order_neighbour order buffer (transpose false (ncols nb) nb) (Some nb)))
    | SSparse _ => Raise ValueError
    end.

  (** stacking_model.py:842-881, one iteration: new point [i]. [tw] is the
      train x test weight matrix, [ttT] its transpose. *)
  Definition predict_task (alpha : R) (y : list R) (ttT : matrix R) (XT : matrix R) (es : list est) (Xp : matrix R) (i : nat)
    : result (list ext * stacking_estimator est meta) :=
    row <- getitem ttT i ;;
    let nb := map positive row in
    let T := nonzero nb in
    let X_fit := map (fun k => map (fun j => mget 0 XT j k) T) T in
    m <- fit_meta alpha (List.length T) X_fit (take 0 y T) (take 0 row T) ;;
    let se := StackingEstimator est meta (MFitted meta m) (select nb es) in
    x <- getitem Xp i ;;
    p <- predict_stacking est predict_est meta predict_meta se [x] ;;
    Ok (p, se).

  (** stacking_model.py:695-1107 [predict_by_fit]: attributes, files, outcome
      (one array per new point). *)
  Definition spredict (r : runtime) (c : sconfig) (fs : filesystem) (s0 : sstate est meta) (X : matrix R) (y : list R)
             (v : list coords) (Xp : matrix R) (vp : list coords) : sstate est meta * filesystem * result (list (list ext)) :=
    match check_X_y X y with
    | Raise e => (s0, fs, Raise e)
    | Ok _ =>
      let n := List.length X in
      let s1 := ss_start est meta s0 (ncols X) n (if sc_cache_data c then Some (X, y) else None) true in
      let '(fs1, w) := wm fs v v in
      match w with
      | Raise e => (s1, fs1, Raise e)
      | Ok w =>
        let s2 := ss_set_weights est meta s1 (Some w) (Some (positive_w w)) in
        let '(fs2, tw) := wm fs1 v vp in
        match tw with
        | Raise e => (s2, fs2, Raise e)
        | Ok tw =>
          match (second <- predict_second (r_second r) (r_buffer r) tw ;;
                 fit_bases est fit_est predict_est (r_base r) X y (predict_base_weights c w) second (patches cpu_count c)) with
          | Raise e => (s2, fs2, Raise e)
          | Ok (preds, XT, es) =>
            let s3 := ss_set_y_sample (ss_set_base est meta s2 preds es) y in
            match (p <- one_each preds ;; score <- r2_score y p ;; Ok (p, score)) with
            | Raise e => (s3, fs2, Raise e)
            | Ok (p, score) =>
              let residual := map (fun a => map (fun b => b - a) y) p in
              let s4 := ss_set_scores est meta s3 score residual (ss_cache_estimator est meta s0) es in
              match tw, XT, sc_use_numba c with
              | SDense m, XDense x, false =>
                match mapM (predict_task (sc_alpha c) y (transpose 0 (ncols m) m) x es Xp) (seq 0 (List.length Xp)) with
                | Raise e => (s4, fs2, Raise e)
                | Ok rs => (ss_set_local s4 (map snd rs), fs2, Ok (map fst rs))
                end
              | _, _, _ => (s4, fs2, Raise (PyException "Currently, Numba not support ndarray weight matrix."))
              end
            end
          end
        end
      end
    end.
End StackingPredict.
